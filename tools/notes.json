{
 "C05": {
  "note": "Adjacent tick and even index proved; nearest is refuted: RoundPrice ignores the distance (1.0009 at precision 3 -> 1.000)."
 },
 "C12": {
  "note": "Proved: sells paid <= buys received, equality when every sell limit price is >= 1. Refuted in general: below price 1 DistributeOrderAmountToOrders drops sell shares worth < 1 quote coin (match.go:388-402) while the buy side was filled in full, so base coin is paid out that no seller paid."
 },
 "C22": {
  "note": "Proved: minted share <= offered share, and <= accepted share up to 10^-18 of the pool. Exact claim refuted for reserves above 10^18: mint proportion is rounded to 18 digits (pool.go:483-486)."
 },
 "C24": {
  "note": "Proved exactly for reserves below 10^18, and up to 10^-18 of the reserve otherwise; refuted above by a computed witness."
 },
 "C30": {
  "note": "The product can shrink by rounding (C30_product_refuted). Proved: per emitted order and fill the product is kept when one quote coin is added back (C30_product_partial); for the whole list of buy or sell orders a basic pool emits, and any fills of any of them in any order and number, one coin per fill, plus E coins when the first order is sized with decimal square roots (C30_all_buys_partial, C30_all_sells_partial; E = 1 for reserves up to about 10^16). C30_batch_partial lifts this to whole batches of the chain: a basic pool of a pair with a last price comes out of a batch with its product kept up to one quote coin per fill (plus E), for price limits up to 10^18 and reserves up to 10^40."
 },
 "C55": {
  "note": "Proved: the derived price is never negative; a pool with only base coin quotes its minimum price up to one part in 10^6 (and 3 units of the last digit), one with only quote coin its maximum price up to one part in 10^5 if that price is at most 10^12 times the reserve. The full claim is refuted: numerical error of DeriveTranslation (pool.go:534-584) puts the price of a pool with range [15964,15981]e-18 and reserves 846148364989691904/1 below the minimum."
 },
 "C53": {
  "note": "Direction proved exactly; all fill prices lie between the last and the new price. Prices proved for staying and upward searches, and for downward searches from a last price >= 1. Refuted below 1: dust dropped on the sell side (match.go FindMatchableAmountAtSinglePrice) leaves a buy remainder that trades at its own, higher, price, moving the last price up."
 },
 "C47": {
  "note": "Proved: queued transfers have the effect of the merged ones, never overdraw, and succeed iff sequential ones do when money flows one way. Refuted in general: merging transfers with the same endpoints changes what can be afforded."
 },
 "C45": {
  "note": "Distinct keys, exact prefix scans and iteration order proved for all ids, denominations and addresses. Parsing proved while the one-byte offsets do not wrap; refuted for two valid denominations of total length >= 253: ParsePairsByDenomsIndexKey (keys.go:164-176) panics."
 },
 "C51": {
  "note": "Rows, units, order, count and amounts proved exactly relative to the price limits; termination proved. The \"nothing lost\" part is refuted at the limits: a unit whose rounded price passes the limit is dropped although it holds prices within it."
 },
 "C57": {
  "note": "Proved unless the two sides trade completely against each other; then OrderBookView.Match (view.go:73-75) returns early and the query shows a crossed book (refuted by a computed witness)."
 },
 "C35": {
  "note": "Proved for the quote side, for the base side when no pool sells below price one, and when no order trades below price one. Refuted in general with default parameters: the dust dropped below price one (see C12) makes the escrow owe more base coin than it holds."
 },
 "C43": {
  "note": "Refuted with default parameters: the escrow shortfall of C35 makes a later refund fail, and the end blocker returns an error (C43_refuted); one unit sent to a ranged pool's reserve makes it divide by zero (C43_gift_refuted); three parameter sets that pass validation halt it as well. A huge last price and an accepted sell overflow PriceDirection (C43_overflow_refuted). Proved (C43_no_halt_partial; with every overflow check, C43_no_halt_checked_partial): it completes in every history whose batches offer nothing for sale below price one, with sane parameters, basic pools only, supplies below 2^196 and last prices that are ticks below 2^314. Missing: a positive result with ranged pools and for prices below one under extra conditions."
 },
 "C44": {
  "note": "Exact: the exported genesis is accepted iff every stored deposit request offers both coins, and then importing restores the state. Refuted in general: one-coin deposits into ranged pools are accepted and stored, but GenesisState.Validate rejects them (types/genesis.go:70-73). The indexes that only serve queries are rebuilt exactly (C44_query_indexes). About keeper/genesis.go; the application calls module/genesis.go instead (C85)."
 },
 "C60": {
  "note": "Proved for first batches (one price) without condition, and for later batches when the last price or all sell limits are at least one. Refuted below one: buy orders worth less than one quote coin at the last price are skipped at first and trade with higher sell orders later in the same batch."
 },
 "C68": {
  "note": "Listings of pairs are exact without condition. Listings of pools are exact when every pool asked for can be shown by itself; disabled pools and basic pools with both coins (quote reserve below 2^196) can. Refuted in general: a ranged pool that received a gift makes Pool and every Pools page that contains it panic. So does a ranged pool from which all but one pool coin has been withdrawn (C68_leftover_refuted)."
 },
 "C71": {
  "note": "Refuted three times: an accepted file with two pairs of the same coins, one with counters but no orders, and one with an open order and an empty escrow, after which an end blocker fails. What validation does guarantee is C70."
 },
 "C72": {
  "note": "The checked engine refines the unchecked one (C72_same_effect, C72_checked_histories), and both agree on every reachable state whose pairs are roomy (C72_no_overflow). The bound covers user orders and, through the coin supplies, pool orders; for the first batch of a pair it assumes no active pool."
 },
 "C73": {
  "note": "end_block takes the iteration order as an argument; C73_end_block shows the result does not depend on it, C73_end_block_checked the same with overflow checks within the size bound of C72, C73_nodes_agree lifts it to replaying any list of inputs."
 },
 "C74": {
  "note": "Per message (C74_only_signer_pays, C74_orders, C74_requests) and over whole histories in which the user signs nothing (C74_quiet)."
 },
 "C75": {
  "note": "C75_fills gives the fills, C75_average_price the bound on the average price."
 },
 "C76": {
  "note": "The fall from a last price below one is the case refuted under C53."
 },
 "C77": {
  "note": "Both batches are assumed to complete (a halt stops every pair, C43), and fees and dust to go to accounts that are no escrow or reserve of the module."
 },
 "C78": {
  "note": "Fees and dust are assumed to go to accounts that are no escrow or reserve of the module. Anybody may still send coins to the reserve address, so between batches reserves can grow."
 },
 "C79": {
  "note": "Fees and dust are assumed to go to accounts that are no escrow or reserve of the module."
 },
 "C80": {
  "note": "Below one quote coin per base coin it fails (C80_below_one, and C60). The first match of a pair, which has no last price, is not covered."
 },
 "C81": {
  "note": "The condition that the order served first can take as much is needed: a partly filled larger order can take less."
 },
 "C82": {
  "note": "Assumes fee and dust collectors are ordinary accounts (plain_collectors). Examples: a pool closed by withdrawing everything and a pool whose quote coins were spent in a trade."
 },
 "C83": {
  "note": "Partial: a request is refused exactly if it is too small or the pool is disabled or has run empty at that moment. The full claim is refuted (C83_stranded_refuted): a trade can take the last quote coins of a basic pool that still holds base coins; the next batch disables it and refuses the withdrawal."
 },
 "C84": {
  "note": "Events that report a result or a match; the events that announce a new pair, pool, order or request are not modelled. C84_pools assumes the dust collector is not a pool's reserve account."
 },
 "C85": {
  "note": "Proved: a restart is always possible and keeps parameters and balances; the contents are kept exactly when there was no pair. Refuted for every other state: the application's InitGenesis and ExportGenesis handle parameters only (module/genesis.go), and the coins of an old pool withdraw from the new pool with the same number."
 },
 "C70": {
  "note": "About keeper/genesis.go; the application calls module/genesis.go instead (C85)."
 },
 "C86": {
  "note": "Nobody but the authority is accepted (C86_nobody_else_partial). That the authority is accepted is refuted for every authority: NewKeeper does not store it. Addresses are strings, their validity an arbitrary check that rejects the empty string."
 },
 "C87": {
  "note": "The hash function is universally quantified; equal addresses of different accounts exhibit a collision. This backs the constructors of addr in KeeperModel. That collectors may be set to any address by parameters is not excluded (C77-C79 assume plain_collectors)."
 },
 "C88": {
  "note": "C88_match and C88_trade_needs_cross are about the engine, C88_batch about whole batches. C80 is the other half: crossing orders do not both stay."
 },
 "C89": {
  "note": "That the authority alone can send the message is C86; C86_check ties the two."
 },
 "C90": {
  "note": "What the batch does to an order or request is C33, C34, C56, C58."
 },
 "C91": {
  "note": "Proved: what is drawn is a tick of [min, max), and every tick below the highest one can be drawn. Refuted as documented: the highest tick is never drawn (Intn excludes its bound), and a range holding a single tick panics."
 },
 "C92": {
  "note": "Orders too small to be worth a unit of the quote coin at their own price are not taken into the book (C07's view)."
 },
 "C93": {
  "note": "Proved for every message; for the creation of a ranged pool the announced coins are only an upper bound of those received, and equality is refuted (C93_ranged_refuted). Events of results (order, request, pool trade) are C84."
 },
 "C94": {
  "note": "Ties (same direction, price, batch and amount) are broken by the id, so there the odd coins of the split go to the lower id; C94_any_sequence covers them because the ids are kept, C94_any_names excludes them. C94_tie_example shows the sequence deciding for orders without an id, which the keeper never creates."
 },
 "C95": {
  "note": "The full claim is false with a withdraw fee (C95_split_withdrawals_refuted): part of the fee of the first request comes back with the second. Proved: the exact share is never exceeded, remaining holders never lose value per coin, and without a fee the gain is bounded by rounding."
 }
}