{
 "claims": [
  {
   "property": "C01",
   "status": "proved",
   "theorems": [
    "C01_price_to_down_tick"
   ],
   "note": ""
  },
  {
   "property": "C02",
   "status": "proved",
   "theorems": [
    "C02_price_to_up_tick"
   ],
   "note": ""
  },
  {
   "property": "C03",
   "status": "proved",
   "theorems": [
    "C03_down_tick"
   ],
   "note": ""
  },
  {
   "property": "C04",
   "status": "proved",
   "theorems": [
    "C04_tick_index_bijection"
   ],
   "note": ""
  },
  {
   "property": "C05",
   "status": "partial",
   "theorems": [
    "C05_round_price_partial",
    "C05_round_price_nearest_refuted"
   ],
   "note": "Adjacent tick and even index proved; nearest is refuted: RoundPrice ignores the distance (1.0009 at precision 3 -> 1.000)."
  },
  {
   "property": "C06",
   "status": "proved",
   "theorems": [
    "C06_price_limits"
   ],
   "note": ""
  },
  {
   "property": "C07",
   "status": "proved",
   "theorems": [
    "C07_offer_coin",
    "C07_matchable_amount"
   ],
   "note": ""
  },
  {
   "property": "C08",
   "status": "proved",
   "theorems": [
    "C08_no_overfill"
   ],
   "note": ""
  },
  {
   "property": "C09",
   "status": "proved",
   "theorems": [
    "C09_limit_price"
   ],
   "note": ""
  },
  {
   "property": "C10",
   "status": "proved",
   "theorems": [
    "C10_price_range",
    "C10_book_contents"
   ],
   "note": ""
  },
  {
   "property": "C11",
   "status": "proved",
   "theorems": [
    "C11_priority"
   ],
   "note": ""
  },
  {
   "property": "C12",
   "status": "partial",
   "theorems": [
    "C12_base_coin_partial",
    "C12_base_coin_refuted"
   ],
   "note": "Proved: sells paid <= buys received, equality when every sell limit price is >= 1. Refuted in general: below price 1 DistributeOrderAmountToOrders drops sell shares worth < 1 quote coin (match.go:388-402) while the buy side was filled in full, so base coin is paid out that no seller paid."
  },
  {
   "property": "C13",
   "status": "proved",
   "theorems": [
    "C13_quote_difference"
   ],
   "note": ""
  },
  {
   "property": "C14",
   "status": "proved",
   "theorems": [
    "C14_no_quote_created"
   ],
   "note": ""
  },
  {
   "property": "C15",
   "status": "proved",
   "theorems": [
    "C15_iteration_order"
   ],
   "note": ""
  },
  {
   "property": "C16",
   "status": "proved",
   "theorems": [
    "C16_terminates"
   ],
   "note": ""
  },
  {
   "property": "C17",
   "status": "proved",
   "theorems": [
    "C17_find_match_price",
    "C17_find_match_price_views"
   ],
   "note": ""
  },
  {
   "property": "C18",
   "status": "proved",
   "theorems": [
    "C18_depth"
   ],
   "note": ""
  },
  {
   "property": "C19",
   "status": "proved",
   "theorems": [
    "C19_single_price"
   ],
   "note": ""
  },
  {
   "property": "C20",
   "status": "proved",
   "theorems": [
    "C20_proportional_split"
   ],
   "note": ""
  },
  {
   "property": "C21",
   "status": "proved",
   "theorems": [
    "C21_deposit_bounds"
   ],
   "note": ""
  },
  {
   "property": "C22",
   "status": "partial",
   "theorems": [
    "C22_no_dilution_partial",
    "C22_no_dilution_refuted"
   ],
   "note": "Proved: minted share <= offered share, and <= accepted share up to 10^-18 of the pool. Exact claim refuted for reserves above 10^18: mint proportion is rounded to 18 digits (pool.go:483-486)."
  },
  {
   "property": "C23",
   "status": "proved",
   "theorems": [
    "C23_withdraw"
   ],
   "note": ""
  },
  {
   "property": "C24",
   "status": "partial",
   "theorems": [
    "C24_no_profit_partial",
    "C24_no_profit_refuted"
   ],
   "note": "Proved exactly for reserves below 10^18, and up to 10^-18 of the reserve otherwise; refuted above by a computed witness."
  },
  {
   "property": "C25",
   "status": "proved",
   "theorems": [
    "C25_orders_covered"
   ],
   "note": ""
  },
  {
   "property": "C26",
   "status": "proved",
   "theorems": [
    "C26_orders_well_formed"
   ],
   "note": ""
  },
  {
   "property": "C27",
   "status": "proved",
   "theorems": [
    "C27_no_self_match"
   ],
   "note": ""
  },
  {
   "property": "C28",
   "status": "proved",
   "theorems": [
    "C28_initial_supply"
   ],
   "note": ""
  },
  {
   "property": "C29",
   "status": "proved",
   "theorems": [
    "C29_create_ranged"
   ],
   "note": ""
  },
  {
   "property": "C30",
   "status": "partial",
   "theorems": [
    "C30_product_partial",
    "C30_product_refuted",
    "C30_batch_partial",
    "C30_all_buys_partial",
    "C30_all_sells_partial"
   ],
   "note": "The product can shrink by rounding (C30_product_refuted). Proved: per emitted order and fill the product is kept when one quote coin is added back (C30_product_partial); for the whole list of buy or sell orders a basic pool emits, and any fills of any of them in any order and number, one coin per fill, plus E coins when the first order is sized with decimal square roots (C30_all_buys_partial, C30_all_sells_partial; E = 1 for reserves up to about 10^16). C30_batch_partial lifts this to whole batches of the chain: a basic pool of a pair with a last price comes out of a batch with its product kept up to one quote coin per fill (plus E), for price limits up to 10^18 and reserves up to 10^40."
  },
  {
   "property": "C31",
   "status": "proved",
   "theorems": [
    "C31_supply_constant",
    "C31_balances_sum_to_supply",
    "C31_pool_coin_messages",
    "C31_pool_coin_blocks",
    "C31_pool_coin_batch"
   ],
   "note": ""
  },
  {
   "property": "C32",
   "status": "proved",
   "theorems": [
    "C32_escrow_covers_requests",
    "C32_escrow_surplus_kept"
   ],
   "note": ""
  },
  {
   "property": "C33",
   "status": "proved",
   "theorems": [
    "C33_batch_executes_all",
    "C33_waits_unchanged",
    "C33_executed_once"
   ],
   "note": ""
  },
  {
   "property": "C34",
   "status": "proved",
   "theorems": [
    "C34_deposit_settled"
   ],
   "note": ""
  },
  {
   "property": "C35",
   "status": "partial",
   "theorems": [
    "C35_invariant_exact",
    "C35_invariant_refuted",
    "C35_quote_side_partial",
    "C35_base_side_partial",
    "C35_only_below_one_partial",
    "C35_refuted"
   ],
   "note": "Proved for the quote side, for the base side when no pool sells below price one, and when no order trades below price one. Refuted in general with default parameters: the dust dropped below price one (see C12) makes the escrow owe more base coin than it holds."
  },
  {
   "property": "C36",
   "status": "proved",
   "theorems": [
    "C36_cancel_accepted_iff",
    "C36_cancel_refunds_remainder",
    "C36_cancelled_for_good",
    "C36_cancel_all",
    "C36_cancel_all_accepted_iff"
   ],
   "note": ""
  },
  {
   "property": "C37",
   "status": "proved",
   "theorems": [
    "C37_none_left",
    "C37_expired_end",
    "C37_chance_first",
    "C37_only_then"
   ],
   "note": ""
  },
  {
   "property": "C38",
   "status": "proved",
   "theorems": [
    "C38_mm_counter_exact",
    "C38_mm_counter_bounded"
   ],
   "note": ""
  },
  {
   "property": "C39",
   "status": "proved",
   "theorems": [
    "C39_ids_unique",
    "C39_ids_never_reused",
    "C39_gone_forever"
   ],
   "note": ""
  },
  {
   "property": "C40",
   "status": "proved",
   "theorems": [
    "C40_pair_unique"
   ],
   "note": ""
  },
  {
   "property": "C41",
   "status": "proved",
   "theorems": [
    "C41_one_basic_pool",
    "C41_pool_limit",
    "C41_rejects_over_limit"
   ],
   "note": ""
  },
  {
   "property": "C42",
   "status": "proved",
   "theorems": [
    "C42_status_forward",
    "C42_live_orders_stay"
   ],
   "note": ""
  },
  {
   "property": "C43",
   "status": "partial",
   "theorems": [
    "C43_no_halt_partial",
    "C43_no_halt_fixed_partial",
    "C43_refuted",
    "C43_gift_refuted",
    "C43_fee_refuted",
    "C43_precision_refuted",
    "C43_ratio_refuted",
    "C43_no_halt_checked_partial",
    "C43_overflow_refuted"
   ],
   "note": "Refuted with default parameters: the escrow shortfall of C35 makes a later refund fail, and the end blocker returns an error (C43_refuted); one unit sent to a ranged pool's reserve makes it divide by zero (C43_gift_refuted); three parameter sets that pass validation halt it as well. A huge last price and an accepted sell overflow PriceDirection (C43_overflow_refuted). Proved (C43_no_halt_partial; with every overflow check, C43_no_halt_checked_partial): it completes in every history whose batches offer nothing for sale below price one, with sane parameters, basic pools only, supplies below 2^196 and last prices that are ticks below 2^314. Missing: a positive result with ranged pools and for prices below one under extra conditions."
  },
  {
   "property": "C44",
   "status": "partial",
   "theorems": [
    "C44_export_import_partial",
    "C44_counters_listed",
    "C44_refuted",
    "C44_query_indexes"
   ],
   "note": "Exact: the exported genesis is accepted iff every stored deposit request offers both coins, and then importing restores the state. Refuted in general: one-coin deposits into ranged pools are accepted and stored, but GenesisState.Validate rejects them (types/genesis.go:70-73). The indexes that only serve queries are rebuilt exactly (C44_query_indexes). About keeper/genesis.go; the application calls module/genesis.go instead (C85)."
  },
  {
   "property": "C45",
   "status": "partial",
   "theorems": [
    "C45_keys_distinct",
    "C45_scans",
    "C45_parse_partial",
    "C45_parse_refuted",
    "C45_iteration_order"
   ],
   "note": "Distinct keys, exact prefix scans and iteration order proved for all ids, denominations and addresses. Parsing proved while the one-byte offsets do not wrap; refuted for two valid denominations of total length >= 253: ParsePairsByDenomsIndexKey (keys.go:164-176) panics."
  },
  {
   "property": "C46",
   "status": "proved",
   "theorems": [
    "C46_parses",
    "C46_canonical",
    "C46_injective",
    "C46_name"
   ],
   "note": ""
  },
  {
   "property": "C47",
   "status": "partial",
   "theorems": [
    "C47_same_balances",
    "C47_never_overdraws",
    "C47_succeeds_iff_partial",
    "C47_order_matters_refuted"
   ],
   "note": "Proved: queued transfers have the effect of the merged ones, never overdraw, and succeed iff sequential ones do when money flows one way. Refuted in general: merging transfers with the same endpoints changes what can be afforded."
  },
  {
   "property": "C48",
   "status": "proved",
   "theorems": [
    "C48_batch_heights"
   ],
   "note": ""
  },
  {
   "property": "C49",
   "status": "proved",
   "theorems": [
    "C49_limit_accepted_iff",
    "C49_limit_effect",
    "C49_mm_order",
    "C49_market_order",
    "C49_rejections"
   ],
   "note": ""
  },
  {
   "property": "C50",
   "status": "proved",
   "theorems": [
    "C50_market_price",
    "C50_needs_last_price"
   ],
   "note": ""
  },
  {
   "property": "C51",
   "status": "partial",
   "theorems": [
    "C51_rows_partial",
    "C51_base_price",
    "C51_answers",
    "C51_refuted"
   ],
   "note": "Rows, units, order, count and amounts proved exactly relative to the price limits; termination proved. The \"nothing lost\" part is refuted at the limits: a unit whose rounded price passes the limit is dropped although it holds prices within it."
  },
  {
   "property": "C52",
   "status": "proved",
   "theorems": [
    "C52_merged_views"
   ],
   "note": ""
  },
  {
   "property": "C53",
   "status": "partial",
   "theorems": [
    "C53_direction",
    "C53_prices_partial",
    "C53_prices_refuted"
   ],
   "note": "Direction proved exactly; all fill prices lie between the last and the new price. Prices proved for staying and upward searches, and for downward searches from a last price >= 1. Refuted below 1: dust dropped on the sell side (match.go FindMatchableAmountAtSinglePrice) leaves a buy remainder that trades at its own, higher, price, moving the last price up."
  },
  {
   "property": "C54",
   "status": "proved",
   "theorems": [
    "C54_order_generation_terminates"
   ],
   "note": ""
  },
  {
   "property": "C55",
   "status": "partial",
   "theorems": [
    "C55_ranged_price_partial",
    "C55_ranged_price_refuted",
    "C55_one_sided_partial"
   ],
   "note": "Proved: the derived price is never negative; a pool with only base coin quotes its minimum price up to one part in 10^6 (and 3 units of the last digit), one with only quote coin its maximum price up to one part in 10^5 if that price is at most 10^12 times the reserve. The full claim is refuted: numerical error of DeriveTranslation (pool.go:534-584) puts the price of a pool with range [15964,15981]e-18 and reserves 846148364989691904/1 below the minimum."
  },
  {
   "property": "C56",
   "status": "proved",
   "theorems": [
    "C56_withdrawal_settled"
   ],
   "note": ""
  },
  {
   "property": "C57",
   "status": "partial",
   "theorems": [
    "C57_not_crossed_partial",
    "C57_refuted"
   ],
   "note": "Proved unless the two sides trade completely against each other; then OrderBookView.Match (view.go:73-75) returns early and the query shows a crossed book (refuted by a computed witness)."
  },
  {
   "property": "C58",
   "status": "proved",
   "theorems": [
    "C58_paid_exactly",
    "C58_never_takes",
    "C58_order_fate"
   ],
   "note": ""
  },
  {
   "property": "C59",
   "status": "proved",
   "theorems": [
    "C59_deposit_coins_escrow",
    "C59_pool_coin_escrow",
    "C59_pool_status",
    "C59_active_pool_has_supply",
    "C59_num_mm_orders",
    "C59_all_is_five",
    "C59_all_invariants"
   ],
   "note": ""
  },
  {
   "property": "C60",
   "status": "partial",
   "theorems": [
    "C60_first_batch",
    "C60_no_cross_partial",
    "C60_refuted"
   ],
   "note": "Proved for first batches (one price) without condition, and for later batches when the last price or all sell limits are at least one. Refuted below one: buy orders worth less than one quote coin at the last price are skipped at first and trade with higher sell orders later in the same batch."
  },
  {
   "property": "C61",
   "status": "proved",
   "theorems": [
    "C61_create_pair"
   ],
   "note": ""
  },
  {
   "property": "C62",
   "status": "proved",
   "theorems": [
    "C62_create_basic_pool",
    "C62_price_range"
   ],
   "note": ""
  },
  {
   "property": "C63",
   "status": "proved",
   "theorems": [
    "C63_create_ranged_pool"
   ],
   "note": ""
  },
  {
   "property": "C64",
   "status": "proved",
   "theorems": [
    "C64_deposit_request",
    "C64_withdraw_request"
   ],
   "note": ""
  },
  {
   "property": "C65",
   "status": "proved",
   "theorems": [
    "C65_ticks",
    "C65_bound_needed"
   ],
   "note": ""
  },
  {
   "property": "C66",
   "status": "proved",
   "theorems": [
    "C66_pagination",
    "C66_pages_determined",
    "C66_key_and_offset"
   ],
   "note": ""
  },
  {
   "property": "C67",
   "status": "proved",
   "theorems": [
    "C67_orders",
    "C67_deposits",
    "C67_withdrawals",
    "C67_orders_by_owner"
   ],
   "note": ""
  },
  {
   "property": "C68",
   "status": "partial",
   "theorems": [
    "C68_pool_view",
    "C68_pool_answers_partial",
    "C68_pools_partial",
    "C68_pools_refuted",
    "C68_all_pairs",
    "C68_pairs_one_denom",
    "C68_pairs_two_denoms",
    "C68_leftover_refuted"
   ],
   "note": "Listings of pairs are exact without condition. Listings of pools are exact when every pool asked for can be shown by itself; disabled pools and basic pools with both coins (quote reserve below 2^196) can. Refuted in general: a ranged pool that received a gift makes Pool and every Pools page that contains it panic. So does a ranged pool from which all but one pool coin has been withdrawn (C68_leftover_refuted)."
  },
  {
   "property": "C69",
   "status": "proved",
   "theorems": [
    "C69_pool_by_reserve",
    "C69_pool_by_coin",
    "C69_mm_number"
   ],
   "note": ""
  },
  {
   "property": "C70",
   "status": "proved",
   "theorems": [
    "C70_import_exact",
    "C70_counters",
    "C70_references",
    "C70_indexes",
    "C70_reexport"
   ],
   "note": "About keeper/genesis.go; the application calls module/genesis.go instead (C85)."
  },
  {
   "property": "C71",
   "status": "partial",
   "theorems": [
    "C71_same_coins_refuted",
    "C71_counters_refuted",
    "C71_escrow_refuted"
   ],
   "note": "Refuted three times: an accepted file with two pairs of the same coins, one with counters but no orders, and one with an open order and an empty escrow, after which an end blocker fails. What validation does guarantee is C70."
  },
  {
   "property": "C72",
   "status": "proved",
   "theorems": [
    "C72_checked_histories",
    "C72_no_overflow",
    "C72_same_effect"
   ],
   "note": "The checked engine refines the unchecked one (C72_same_effect, C72_checked_histories), and both agree on every reachable state whose pairs are roomy (C72_no_overflow). The bound covers user orders and, through the coin supplies, pool orders; for the first batch of a pair it assumes no active pool."
  },
  {
   "property": "C73",
   "status": "proved",
   "theorems": [
    "C73_end_block",
    "C73_end_block_checked",
    "C73_nodes_agree"
   ],
   "note": "end_block takes the iteration order as an argument; C73_end_block shows the result does not depend on it, C73_end_block_checked the same with overflow checks within the size bound of C72, C73_nodes_agree lifts it to replaying any list of inputs."
  },
  {
   "property": "C74",
   "status": "proved",
   "theorems": [
    "C74_only_signer_pays",
    "C74_orders",
    "C74_requests",
    "C74_quiet"
   ],
   "note": "Per message (C74_only_signer_pays, C74_orders, C74_requests) and over whole histories in which the user signs nothing (C74_quiet)."
  },
  {
   "property": "C75",
   "status": "proved",
   "theorems": [
    "C75_fills",
    "C75_average_price"
   ],
   "note": "C75_fills gives the fills, C75_average_price the bound on the average price."
  },
  {
   "property": "C76",
   "status": "proved",
   "theorems": [
    "C76_engine",
    "C76_last_price"
   ],
   "note": "The fall from a last price below one is the case refuted under C53."
  },
  {
   "property": "C77",
   "status": "proved",
   "theorems": [
    "C77_batch",
    "C77_messages",
    "C77_begin_block",
    "C77_no_interference"
   ],
   "note": "Both batches are assumed to complete (a halt stops every pair, C43), and fees and dust to go to accounts that are no escrow or reserve of the module."
  },
  {
   "property": "C78",
   "status": "proved",
   "theorems": [
    "C78_rejected",
    "C78_batch",
    "C78_forever",
    "C78_only_batches",
    "C78_nothing_waits"
   ],
   "note": "Fees and dust are assumed to go to accounts that are no escrow or reserve of the module. Anybody may still send coins to the reserve address, so between batches reserves can grow."
  },
  {
   "property": "C79",
   "status": "proved",
   "theorems": [
    "C79_matching",
    "C79_batch"
   ],
   "note": "Fees and dust are assumed to go to accounts that are no escrow or reserve of the module."
  },
  {
   "property": "C80",
   "status": "proved",
   "theorems": [
    "C80_match",
    "C80_batch"
   ],
   "note": "Below one quote coin per base coin it fails (C80_below_one, and C60). The first match of a pair, which has no last price, is not covered."
  },
  {
   "property": "C81",
   "status": "proved",
   "theorems": [
    "C81_first_served",
    "C81_new_orders",
    "C81_level"
   ],
   "note": "The condition that the order served first can take as much is needed: a partly filled larger order can take less."
  },
  {
   "property": "C82",
   "status": "proved",
   "theorems": [
    "C82_only_empty",
    "C82_empty_closes"
   ],
   "note": "Assumes fee and dust collectors are ordinary accounts (plain_collectors). Examples: a pool closed by withdrawing everything and a pool whose quote coins were spent in a trade."
  },
  {
   "property": "C83",
   "status": "partial",
   "theorems": [
    "C83_withdrawal_partial",
    "C83_deposit_partial",
    "C83_stranded_refuted"
   ],
   "note": "Partial: a request is refused exactly if it is too small or the pool is disabled or has run empty at that moment. The full claim is refuted (C83_stranded_refuted): a trade can take the last quote coins of a basic pool that still holds base coins; the next batch disables it and refuses the withdrawal."
  },
  {
   "property": "C84",
   "status": "proved",
   "theorems": [
    "C84_same_histories",
    "C84_orders",
    "C84_deposits",
    "C84_withdrawals",
    "C84_order_silence",
    "C84_deposit_silence",
    "C84_withdrawal_silence",
    "C84_pools",
    "C84_trades"
   ],
   "note": "Events that report a result or a match; the events that announce a new pair, pool, order or request are not modelled. C84_pools assumes the dust collector is not a pool's reserve account."
  },
  {
   "property": "C85",
   "status": "partial",
   "theorems": [
    "C85_restart_partial",
    "C85_refused",
    "C85_file_ignored",
    "C85_lost_refuted",
    "C85_hijack_refuted"
   ],
   "note": "Proved: a restart is always possible and keeps parameters and balances; the contents are kept exactly when there was no pair. Refuted for every other state: the application's InitGenesis and ExportGenesis handle parameters only (module/genesis.go), and the coins of an old pool withdraw from the new pool with the same number."
  },
  {
   "property": "C86",
   "status": "partial",
   "theorems": [
    "C86_nobody_else_partial",
    "C86_authority_refuted",
    "C86_check"
   ],
   "note": "Nobody but the authority is accepted (C86_nobody_else_partial). That the authority is accepted is refuted for every authority: NewKeeper does not store it. Addresses are strings, their validity an arbitrary check that rejects the empty string."
  },
  {
   "property": "C87",
   "status": "proved",
   "theorems": [
    "C87_names",
    "C87_addresses",
    "C87_module_account"
   ],
   "note": "The hash function is universally quantified; equal addresses of different accounts exhibit a collision. This backs the constructors of addr in KeeperModel. That collectors may be set to any address by parameters is not excluded (C77-C79 assume plain_collectors)."
  },
  {
   "property": "C88",
   "status": "proved",
   "theorems": [
    "C88_match",
    "C88_trade_needs_cross",
    "C88_batch"
   ],
   "note": "C88_match and C88_trade_needs_cross are about the engine, C88_batch about whole batches. C80 is the other half: crossing orders do not both stay."
  },
  {
   "property": "C89",
   "status": "proved",
   "theorems": [
    "C89_update",
    "C89_fixed",
    "C89_in_force",
    "C89_always"
   ],
   "note": "That the authority alone can send the message is C86; C86_check ties the two."
  },
  {
   "property": "C90",
   "status": "proved",
   "theorems": [
    "C90_kept",
    "C90_cleared",
    "C90_order_never_lost",
    "C90_request_never_lost"
   ],
   "note": "What the batch does to an order or request is C33, C34, C56, C58."
  },
  {
   "property": "C91",
   "status": "partial",
   "theorems": [
    "C91_in_range_partial",
    "C91_every_tick_partial",
    "C91_top_refuted",
    "C91_single_refuted"
   ],
   "note": "Proved: what is drawn is a tick of [min, max), and every tick below the highest one can be drawn. Refuted as documented: the highest tick is never drawn (Intn excludes its bound), and a range holding a single tick panics."
  },
  {
   "property": "C92",
   "status": "proved",
   "theorems": [
    "C92_orders_at",
    "C92_orders",
    "C92_extremes"
   ],
   "note": "Orders too small to be worth a unit of the quote coin at their own price are not taken into the book (C07's view)."
  },
  {
   "property": "C93",
   "status": "partial",
   "theorems": [
    "C93_same_effect",
    "C93_told_partial",
    "C93_told_exactly",
    "C93_ranged_refuted"
   ],
   "note": "Proved for every message; for the creation of a ranged pool the announced coins are only an upper bound of those received, and equality is refuted (C93_ranged_refuted). Events of results (order, request, pool trade) are C84."
  },
  {
   "property": "C94",
   "status": "proved",
   "theorems": [
    "C94_any_sequence",
    "C94_any_names"
   ],
   "note": "Ties (same direction, price, batch and amount) are broken by the id, so there the odd coins of the split go to the lower id; C94_any_sequence covers them because the ids are kept, C94_any_names excludes them. C94_tie_example shows the sequence deciding for orders without an id, which the keeper never creates."
  },
  {
   "property": "C95",
   "status": "partial",
   "theorems": [
    "C95_split_withdrawals_partial",
    "C95_split_withdrawals_refuted"
   ],
   "note": "The full claim is false with a withdraw fee (C95_split_withdrawals_refuted): part of the fee of the first request comes back with the second. Proved: the exact share is never exceeded, remaining holders never lose value per coin, and without a fee the gain is bounded by rounding."
  }
 ]
}