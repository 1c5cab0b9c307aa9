#!/usr/bin/env python3
# Generates ../properties.jsonl.
import json, os
P=[]
def p(id,title,statement,quantifier,why,anchors):
    P.append(dict(id=id,title=title,statement=statement,quantifier=quantifier,why_tests_cant=why,anchors=anchors))
A="x/dex/amm/"; K="x/dex/keeper/"; T="x/dex/types/"
inf="The domain of decimal prices (18 fractional digits, up to 300 bits) and precisions is far too large to enumerate; a boundary error at one power of ten is invisible to sampled tests."
p("C01","Rounding a price down gives the greatest tick not above it",
 "A price is a tick for precision p when it has at most p+1 significant decimal digits (and no finer than the 18-digit decimal grid). Rounding a price down to the tick grid returns a tick, never exceeds the price, and no tick lies strictly between the result and the price; on a price that is already a tick it is the identity. Among non-negative prices only zero is rejected.",
 "every positive 18-digit decimal price and every tick precision",inf,[A+"tick.go:PriceToDownTick",A+"tick.go:char",A+"tick.go:pow10"])
p("C02","Rounding a price up gives the least tick not below it",
 "Rounding a price up to the tick grid returns the least tick that is at least the price; moving one tick up from a price returns the least tick strictly greater than it when the price is itself a tick.",
 "every positive price and every tick precision",inf,[A+"tick.go:PriceToUpTick",A+"tick.go:UpTick",A+"tick.go:isPow10"])
p("C03","Moving one tick down gives the greatest tick strictly below",
 "For any price above the lowest tick, moving one tick down returns the greatest tick strictly below the price; up-then-down and down-then-up on ticks are the identity.",
 "every price above the lowest tick, every precision",inf,[A+"tick.go:DownTick",A+"tick.go:UpTick",A+"tick.go:LowestTick"])
p("C04","Tick numbering is a strictly increasing bijection",
 "Converting a tick to its index and back is the identity, converting an index to its price and back is the identity, consecutive indices are consecutive ticks, and the index order is the price order.",
 "every tick and every index from the lowest tick upwards, every precision",inf,[A+"tick.go:TickToIndex",A+"tick.go:TickFromIndex"])
p("C05","Rounding a price to the nearest tick lands on an adjacent tick",
 "Rounding a price to the tick grid returns the price itself if it is a tick, otherwise one of the two ticks adjacent to it, the nearer one, with exact midpoints going to the tick with an even index.",
 "every price at or above the lowest tick, every precision",inf,[A+"tick.go:RoundPrice",A+"tick.go:RoundTickIndex"])
p("C06","Price limits are the tightest ticks inside the allowed band",
 "The lowest/highest order prices allowed around a last price are ticks lying within lastPrice*(1-ratio) .. lastPrice*(1+ratio) up to the rounding of the band's ends to 18 digits, and no tick inside that band lies outside the limits.",
 "every last price, every ratio strictly between 0 and 1 leaving a positive lower bound, every precision",inf,[T+"util.go:PriceLimits"])
p("C07","The offer amount of an order is the least that can pay for it",
 "The coin amount locked for a buy order of a given amount and limit price is the smallest integer that is at least price*amount, for a sell order it is the amount; therefore an order never needs to pay more than it locked, and the amount still purchasable with what is left never exceeds the open amount.",
 "every direction, price and amount",inf,[A+"util.go:OfferCoinAmount",A+"util.go:MatchableAmount"])
w="The statement quantifies over every order book and every sequence of fills; rounding errors appear only for specific combinations of prices and amounts."
p("C08","No order is ever over-filled or over-charged",
 "After matching, every order has 0 <= open amount <= original amount, has paid no more than the coins it offered, a seller has paid exactly the base amount filled and a buyer has received exactly the base amount filled.",
 "every set of valid orders, every last price, every precision",w,[A+"match.go:FillOrder",A+"match.go:Match",A+"order.go:BaseOrder"])
p("C09","Every fill respects the limit price",
 "Whatever an order paid and received through matching is the sum of individual fills, each at a price no worse than the order's limit; a buyer pays the fill value rounded up and a seller receives it rounded down, so no order trades worse than its limit by more than the rounding of each fill.",
 "every set of valid orders, every last price",w,[A+"match.go:FillOrder",A+"match.go:MatchAtSinglePrice",A+"match.go:Match"])
p("C10","The order book neither loses nor invents orders",
 "Adding orders to an order book in any sequence keeps exactly the added orders that still have a positive matchable amount, grouped by price, best price first, with one entry per price.",
 "every sequence of added orders",w,[A+"orderbook.go:AddOrder",A+"orderbook.go:addOrder",A+"orderbook.go:HighestPrice",A+"orderbook.go:LowestPrice"])
p("C11","Price then batch priority",
 "In continuous matching, an order only gets filled when every order on its side with a strictly better price has nothing matchable left or was considered before; within one price, orders of an earlier batch are satisfied before orders of a later batch get anything.",
 "every order book",w,[A+"match.go:Match",A+"match.go:DistributeOrderAmountToTick",A+"util.go:GroupOrdersByBatchId"])
p("C12","Base coin bought equals base coin sold",
 "In every batch the total base coin received by buyers equals the total base coin paid by sellers.",
 "every order book, every last price",w+" The violating books need an order whose proportional share is worth less than one quote unit.",[A+"match.go:DistributeOrderAmountToOrders",A+"match.go:DistributeOrderAmountToTick",A+"match.go:Match"])
p("C13","Quote coin leftover is exactly accounted",
 "The reported quote-coin difference of a match equals total quote coin paid by buyers minus total quote coin received by sellers.",
 "every order book, every last price",w,[A+"match.go:MatchAtSinglePrice",A+"match.go:Match",A+"match.go:FulfillOrders"])
p("C14","Matching never creates quote coin",
 "The quote coin received by all sellers never exceeds the quote coin paid by all buyers (the difference is never negative).",
 "every order book, every last price",w,[A+"match.go:Match",A+"match.go:FillOrder"])
p("C15","Matching is independent of map iteration order",
 "Grouping orders by batch yields the same groups in the same order whatever order the runtime iterates its maps in, so two nodes running the same batch obtain the same fills.",
 "every order list and every iteration order of the map","Go randomises map iteration per run; a test observes only some orders.",[A+"util.go:GroupOrdersByBatchId"])
p("C16","Matching always terminates",
 "Finding a match price, matching at a single price, distributing an amount among orders and matching a book all finish within a number of iterations bounded by the size of the book and the tick range.",
 "every order book, every last price, every precision","A non-terminating input cannot be found by sampling, and the loops are guarded by data-dependent conditions.",[A+"match.go:FindMatchPrice",A+"match.go:DistributeOrderAmountToOrders",A+"match.go:Match",A+"util.go:findFirstTrueCondition"])
p("C17","The first match price is a tick between the best sell and the best buy",
 "When the book crosses, the match price of a market without a last price exists, is on the tick grid and lies between the lowest sell price and the highest buy price; when the book does not cross no price is returned.",
 "every order book view and precision",w,[A+"match.go:FindMatchPrice"])
p("C18","Depth queries report the true depth",
 "The aggregate view of a book reports at any price exactly the sum of the matchable amounts of buy orders at or above that price and of sell orders at or below it, and these sums are monotone in price.",
 "every order book, every query price",w,[A+"view.go:MakeView",A+"view.go:BuyAmountOver",A+"view.go:SellAmountUnder"])
p("C19","Single price auction never fills beyond either side",
 "The amount matched at a single price is at most the total matchable amount on either side at that price, and it consists of orders whose limits accept that price.",
 "every order book and price",w,[A+"match.go:FindMatchableAmountAtSinglePrice",A+"match.go:MatchAtSinglePrice"])
p("C20","Proportional split distributes the exact amount",
 "Splitting an amount no larger than the total matchable amount among orders with positive amounts gives each order at most its matchable amount; the buy side is always filled for exactly the requested amount.",
 "every list of orders and amount",w,[A+"match.go:DistributeOrderAmountToOrders"])
pw="Reserves, supplies and deposits range over integers up to 10^40; truncation errors need particular combinations."
p("C21","Deposits never take more than offered",
 "When a pool computes a deposit, the accepted amounts never exceed the offered amounts, nothing is negative, and if no pool coin is minted nothing is accepted.",
 "every pool state and offered amounts",pw,[A+"pool.go:Deposit"])
p("C22","Deposits do not dilute existing holders",
 "The pool coins minted by a deposit never represent a larger share of the pool than the share of reserves deposited.",
 "every pool state and deposit",pw,[A+"pool.go:Deposit"])
p("C23","Withdrawals pay at most the pro-rata share",
 "Redeeming pool coins pays each reserve coin at most reserve*redeemed/supply less the fee; redeeming the whole supply pays the whole reserve; amounts are never negative.",
 "every pool state, redeemed amount and fee rate",pw,[A+"pool.go:Withdraw"])
p("C24","Deposit then withdraw never makes a profit",
 "Depositing into a pool and immediately redeeming the minted pool coins never returns more of either coin than was deposited.",
 "every pool state and deposit",pw,[A+"pool.go:Deposit",A+"pool.go:Withdraw"])
p("C25","Pool orders are covered by pool reserves",
 "The sum of what all orders emitted by a pool in one batch could pay never exceeds the pool's reserve of the coin they pay in.",
 "every basic or ranged pool, every price limit and precision",pw,[A+"pool.go:PoolBuyOrders",A+"pool.go:PoolSellOrders",A+"pool.go:BuyAmountTo",A+"pool.go:SellAmountTo"])
p("C26","Pool orders are well formed",
 "Every order emitted by a pool has its price on the tick grid within the given limits, an amount at least the minimum, buy prices are not above the pool price and sell prices not below it.",
 "every pool, limits and precision",pw,[A+"pool.go:PoolBuyOrders",A+"pool.go:PoolSellOrders"])
p("C27","A pool's orders never match each other",
 "The buy orders and the sell orders emitted by a pool in one batch do not cross.",
 "every pool, limits and precision",pw,[A+"pool.go:PoolOrders"])
p("C28","Initial pool coin supply is a power of ten near the geometric mean, at least the minimum",
 "The pool coin supply minted at pool creation is the larger of the configured minimum and a power of ten just above the geometric mean of the two amounts, and does not depend on the order of the two deposited amounts.",
 "every pair of positive deposit amounts and minimum supply",pw,[A+"pool.go:InitialPoolCoinSupply"])
p("C29","Pool creation accepts at most what was offered",
 "Creating a ranged pool accepts at most the offered amount of each coin and refuses parameters out of the allowed price range or with min >= max.",
 "every offered amounts and price parameters",pw,[A+"pool.go:CreateRangedPool",A+"pool.go:ValidateRangedPoolParams"])
p("C30","Trading against a basic pool does not drain its product",
 "Filling an order emitted by a basic pool never decreases the product of its reserves.",
 "every basic pool and fill",pw,[A+"pool.go:BuyAmountOver",A+"pool.go:SellAmountUnder",A+"pool.go:BuyAmountTo"])
kw="Must hold after every interleaving of transactions and batches; each test runs one history."
p("C31","Coins are conserved",
 "No sequence of messages and block batches changes the total supply of any coin other than pool coins, and for every coin the sum of all balances always equals the supply; pool coin supply changes exactly by the minted and burned amounts.",
 "every history of messages and blocks",kw,[K+"pool.go",K+"swap.go",K+"batch.go"])
p("C32","The global escrow always covers pending requests",
 "At every point of every history, the global escrow account holds at least the sum of the coins of all deposit requests and all pool coins of withdraw requests that have not been executed.",
 "every history",kw,[K+"invariants.go:DepositCoinsEscrowInvariant",K+"invariants.go:PoolCoinEscrowInvariant",K+"pool.go:Deposit",K+"pool.go:Withdraw"])
p("C33","Every deposit and withdraw request is executed exactly once",
 "A request accepted in one batch is executed at the next batch boundary, ends succeeded or failed, never executes twice, and is removed at the next begin-block.",
 "every history",kw,[K+"batch.go:ExecuteRequests",K+"batch.go:DeleteOutdatedRequests",K+"pool.go:ExecuteDepositRequest",K+"pool.go:ExecuteWithdrawRequest"])
p("C34","A deposit request is settled exactly",
 "Executing a deposit request moves to the pool exactly the accepted coins, returns the rest to the depositor, and mints exactly the pool coins credited; a failed request returns everything and mints nothing.",
 "every state and request",kw,[K+"pool.go:ExecuteDepositRequest",K+"pool.go:FinishDepositRequest"])
p("C35","The pair escrow always covers open orders",
 "At every point of every history each pair's escrow account holds at least the sum of the remaining offer coins of the pair's live orders.",
 "every history",kw,[K+"invariants.go:RemainingOfferCoinEscrowInvariant",K+"swap.go:ApplyMatchResult",K+"swap.go:FinishOrder"])
p("C36","Only the owner can cancel, once, and gets the exact remainder",
 "Cancelling an order succeeds only for its orderer, only in a later batch than the one it was placed in, refunds exactly the remaining offer coin, and no second cancellation or expiry refunds again.",
 "every state, order and caller",kw,[K+"swap.go:CancelOrder",K+"swap.go:FinishOrder"])
p("C37","Orders end at expiry",
 "After a batch runs at a block time at or past an order's expiry the order is no longer live and its remaining offer coin has been refunded; it gets a chance to match first.",
 "every history",kw,[K+"batch.go:ExecuteRequests",T+"request.go:ExpiredAt"])
p("C38","Market-making order counter is exact and bounded",
 "For each user and pair the market-making order counter equals the number of that user's live market-making orders and never exceeds the configured maximum.",
 "every history",kw,[K+"swap.go:MMOrder",K+"swap.go:FinishOrder",K+"store.go:SetNumMMOrders"])
p("C39","Identifiers are never reused",
 "Pair, pool, order and request ids are strictly increasing and never reused, and at most one object exists for each id.",
 "every history",kw,[K+"pair.go:getNextPairIdWithUpdate",K+"pool.go:getNextPoolIdWithUpdate",K+"swap.go:getNextOrderIdWithUpdate"])
p("C40","A trading pair is unique",
 "No two pairs have the same base and quote coin, and the denom index finds exactly the pair.",
 "every history",kw,[K+"pair.go:CreatePair",K+"store.go:GetPairByDenoms"])
p("C41","Pool population limits",
 "At most one non-disabled basic pool exists per pair and at most the configured number of non-disabled pools per pair.",
 "every history",kw,[K+"pool.go:ValidateMsgCreatePool",K+"pool.go:ValidateMsgCreateRangedPool"])
p("C42","Order status only moves forward",
 "An order's status never changes once it is completed, canceled or expired, and its filled amount never decreases.",
 "every history",kw,[K+"swap.go:FinishOrder",K+"swap.go:ApplyMatchResult",T+"request.go:OrderStatus"])
p("C43","The end-of-block batch never halts the chain",
 "With validated parameters, whatever messages were accepted, executing the batch does not fail or panic.",
 "every history, every parameter set accepted by validation",kw,[K+"batch.go:ExecuteRequests","x/dex/module/abci.go",T+"params.go:Validate"])
p("C44","Exported state can be imported",
 "Exporting the module state yields a genesis that passes validation and importing it restores the same state.",
 "every reachable state",kw,[K+"genesis.go",T+"genesis.go:Validate"])
p("C45","Store keys never collide",
 "Distinct entities have distinct store keys, scanning the prefix of a pair, pool or user yields only that one's entries, and parsing an index key gives back what built it.",
 "every id, denomination and address","Keys are byte strings built from variable length parts; collisions need adversarial lengths.",[T+"keys.go"])
p("C46","Pool coin denominations round trip",
 "The pool coin denomination of a pool id parses back to that id, distinct pools have distinct pool coins, and only canonical names parse.",
 "every pool id and every string","Infinite domain.",[T+"pool.go:PoolCoinDenom",T+"pool.go:ParsePoolCoinDenom"])
p("C47","Bulk transfers equal individual transfers",
 "Executing a queued set of transfers leaves every balance as if each queued transfer had been executed on its own, in order, and fails if it would overdraw.",
 "every queue of transfers and every balance",kw,[T+"util.go:BulkSendCoinsOperation"])
p("C48","Batches run only at multiples of the batch size",
 "Orders are matched and requests executed only in blocks whose height is a multiple of the batch size.",
 "every height and batch size",kw,["x/dex/module/abci.go:EndBlocker"])
p("C49","Placing an order locks exactly the offer coin",
 "Placing a limit or market order moves exactly the order's offer coin from the orderer to the pair escrow (never more than the message offered), records it with nothing filled, and rejects orders with a price outside the limits, a too small amount or too long lifespan without effect.",
 "every state and message",kw,[K+"swap.go:placeOrder",K+"swap.go:LimitOrder",K+"swap.go:MarketOrder",K+"swap.go:placeOrder"])
p("C50","Market orders are bounded by the price limit",
 "A market order trades at a limit price on the tick grid within the maximum ratio of the last price, and cannot be placed without a last price.",
 "every state and message",kw,[K+"swap.go:placeOrder"])
p("C51","Order book queries conserve displayed depth",
 "The order book query groups user and pool amounts into price units without losing or inventing amounts, sells rounded up and buys rounded down to the unit, at most the requested number of rows, best first.",
 "every order book and number of rows",w,[T+"orderbook.go:MakeOrderBookPairResponse",T+"orderbook.go:FitPriceToTickGap"])
p("C52","A better price order book iteration merges correctly",
 "Querying the best prices over several merged sources yields the best over all of them.",
 "every list of sources",w,[A+"view.go:MultipleOrderViews"])
p("C53","The price search follows the imbalance at the last price",
 "With a last price, the search direction is upwards exactly when more is demanded strictly above the last price than offered at or below it, downwards exactly when more is offered strictly below it than demanded at or above it, and otherwise stays; an up (down) search never trades below (above) the last price, and a staying one trades only at it.",
 "every order book and last price",w,[A+"match.go:PriceDirection",A+"match.go:Match"])
p("C54","A pool's order generation always terminates",
 "Generating the buy orders and the sell orders of a pool between two price limits always finishes.",
 "every pool, limits and tick precision whose numbers fit the chain's integers",pw,[A+"pool.go:PoolBuyOrders",A+"pool.go:PoolSellOrders"])
p("C55","A ranged pool's price stays in its range",
 "The price a ranged pool derives from its reserves lies between its minimum and maximum price.",
 "every valid price range and every reserves",pw,[A+"pool.go:DeriveTranslation",A+"pool.go:Price"])
p("C56","A withdraw request is settled exactly",
 "Executing a withdraw request destroys exactly the offered pool coins and pays exactly the coins the pool formula gives from the reserves and supply at that moment, disabling the pool exactly when the whole supply is withdrawn; a failed request returns the pool coins.",
 "every reachable state and every stored request",kw,[K+"pool.go:ExecuteWithdrawRequest",K+"pool.go:FinishWithdrawRequest"])
p("C57","The displayed order book is not crossed",
 "The order book query shows what is left after the largest executable amount has traded at the best prices, so every displayed buy price is below every displayed sell price.",
 "every set of orders",w,[A+"view.go:Match","x/dex/types/orderbook.go:MakeOrderBookPairResponse","x/dex/keeper/grpc_query.go:OrderBooks"])
p("C58","A batch pays users exactly what is due",
 "In a batch a user's balance grows exactly by the coins the user's orders receive, the refunds of the user's ended orders and the results of the user's deposits and withdrawals (plus dust for the dust collector); a batch never takes coins from a user.",
 "every reachable state, every user and coin",kw,[K+"swap.go:ApplyMatchResult",K+"swap.go:FinishOrder",K+"batch.go:ExecuteRequests"])
p("C59","The module's request, pool and counter invariants hold",
 "The module's own checks never report a violation: the global escrow holds every pending deposit and every pending withdrawal's pool coins, every pool that is not disabled has pool coins outstanding, and the stored count of a user's market making orders in a pair is the number of such live orders.",
 "every reachable state",kw,[K+"invariants.go:DepositCoinsEscrowInvariant",K+"invariants.go:PoolCoinEscrowInvariant",K+"invariants.go:PoolStatusInvariant",K+"invariants.go:NumMMOrdersInvariant"])
p("C60","Nobody trades across in one batch",
 "In one batch no sell order that trades asks for more than any buy order that trades offers: once the batch is over, the traded sell orders' highest limit is at most the traded buy orders' lowest limit.",
 "every list of orders, every last price and every map iteration order",w,[A+"match.go:Match",A+"match.go:MatchAtSinglePrice"])
p("C61","Creating a pair",
 "A pair is created exactly when its two coins differ, no pair with this base and quote exists and the creator can pay the fee; the only effects are the new pair, empty and with the next number, and the fee paid.",
 "every reachable state, every creator and every two coins",kw,[K+"pair.go:CreatePair"])
p("C62","Creating a basic pool",
 "A basic pool is created exactly when both coins of the pair are offered with at least the minimum deposit and at most 10^40, the price is between 10^-15 and 10^20, the pair has no active basic pool and fewer active pools than the limit, and the creator holds the coins and the fee; the pool gets exactly the offered coins, the creator the initial pool coins, and nothing else changes.",
 "every reachable state, every creator, pair and coins",kw,[K+"pool.go:CreatePool",K+"pool.go:ValidateMsgCreatePool",A+"pool.go:CreateBasicPool"])
p("C63","Creating a ranged pool",
 "A ranged pool is created exactly when its prices are ticks forming a valid range, the offered coins belong to the pair, what it takes includes a minimum deposit, the pair has fewer active pools than the limit, and the creator holds what it takes and the fee; it takes at most the offered coins and all of one of them, only base coin at the bottom of its range and only quote coin at its top; nothing else changes.",
 "every reachable state, every creator, pair, coins and prices",kw,[K+"pool.go:CreateRangedPool",K+"pool.go:ValidateMsgCreateRangedPool",A+"pool.go:CreateRangedPool"])
p("C64","Deposit and withdraw requests lock exactly the offered coins",
 "A deposit is queued exactly when the pool is active, the coins belong to its pair (both of them for a basic pool), the reserves would stay within 10^40 and the depositor holds them; a withdrawal exactly when the pool is active and the user holds the pool coins; either moves exactly the offered coins to the escrow, stores a pending request with the pool's next number and changes nothing else.",
 "every reachable state, user, pool and coins",kw,[K+"pool.go:Deposit",K+"pool.go:ValidateMsgDeposit",K+"pool.go:Withdraw",K+"pool.go:ValidateMsgWithdraw"])
p("C65","Prices in the store are ticks",
 "The price of every stored order and the last price of every pair is a tick of the coarsest grid that contains all tick precisions used so far; with a precision that never changes this is the grid of new orders.",
 "every reachable state",kw,[K+"swap.go:placeOrder",K+"swap.go:ExecuteMatching",A+"match.go:Match"])
p("C66","Paging through a listing gives every entry once",
 "Following the next keys of a listing query ends, and gives every matching entry exactly once, in key order, never more than a page at a time; asking by offset gives the corresponding slice, with the total when a count is asked for and a next key exactly when entries remain.",
 "every store content, filter, page size, offset and count flag",kw,[K+"grpc_query.go:Pairs",K+"grpc_query.go:Pools",K+"grpc_query.go:Orders"])
p("C67","Order and request listings are exact",
 "The queries listing the orders of a pair, the deposit and withdrawal requests of a pool and the orders of a user return exactly the stored ones asked for, each once, in the order of their numbers.",
 "every reachable state, pair, pool, user and page request",kw,[K+"grpc_query.go:Orders",K+"grpc_query.go:DepositRequests",K+"grpc_query.go:WithdrawRequests",K+"grpc_query.go:OrdersByOrderer"])
p("C68","Pair and pool listings are exact and always answer",
 "The pair query returns exactly the pairs trading the given coin, or the given two coins in either order; the pool query returns exactly the pools of the pair with the given disabled flag, each with its true reserves, pool coin supply and price; both answer in every state.",
 "every reachable state with its indexes, every filter and page request",kw,[K+"grpc_query.go:Pairs",K+"grpc_query.go:Pools",K+"grpc_query.go:Pool","x/dex/types/util.go:NewPoolResponse",K+"store.go:SetPairLookupIndex"])
p("C69","Lookups agree",
 "A pool is found by its reserve address and by its pool coin exactly as by its number, and no other address or denomination finds a pool; the number of market making orders reported for a user and pair is the number of such live orders.",
 "every reachable state with its indexes, every address and denomination",kw,[K+"grpc_query.go:PoolByReserveAddress",K+"grpc_query.go:PoolByPoolCoinDenom",K+"grpc_query.go:NumMMOrders",K+"store.go:SetPoolByReserveIndex"])
p("C70","An accepted genesis file is stored as it is",
 "When a genesis file is accepted, exporting right after the import gives back the same parameters, counters and records, sorted by key, and is accepted again; every record is found under its own number and nothing else is; every pool's pair, request's pool and order's pair exists; the lookup indexes list exactly the records; and no coins move.",
 "every genesis file, bank and clock",kw,[K+"genesis.go:InitGenesis",K+"genesis.go:ExportGenesis","x/dex/types/genesis.go:Validate"])
p("C71","An accepted genesis file satisfies the module's invariants",
 "A genesis file is accepted only if the module can run from it: no two pairs with the same coins, market making counters that match the orders, and escrow accounts that cover the open orders.",
 "every genesis file, bank and clock",kw,["x/dex/types/genesis.go:Validate",K+"genesis.go:InitGenesis"])
p("C72","Matching never leaves the number range",
 "When the end-of-block batch of a pair stays within a stated size (largest price times total amount below 2^314 raw), no 256-bit or 315-bit operation of the matching engine overflows, and it computes what exact arithmetic computes; when a batch ends at all, its effects are those of exact arithmetic.",
 "every reachable state, every book within the bound, every map iteration order","Overflow needs numbers beyond 10^38 in combinations no test enumerates.",[A+"match.go:MatchAtSinglePrice",A+"match.go:PriceDirection",A+"view.go:MakeView",K+"swap.go:Match"])
p("C73","All nodes compute the same state",
 "Whatever order Go's map iteration visits the orders in, the end-of-block batch completes or fails alike and leaves the same balances, orders, pools and pairs; two nodes that replay the same blocks and messages from the same genesis therefore end in the same state.",
 "every reachable state, every pair of iteration orders per block, every sequence of blocks and messages (accepted or rejected)","Map iteration order is random per run; tests see one order and agreement must hold for all of them.",[A+"match.go:DistributeOrderAmountToTick",A+"match.go:DistributeOrderAmountToOrders",K+"batch.go:ExecuteRequests","x/dex/module/abci.go:EndBlocker"])
p("C74","Nobody can spend or cancel what belongs to another",
 "A message takes coins out of its signer's account only (a cancellation also releases the signer's own escrowed coins), changes and creates only orders and requests of its signer; over any history in which a user signs nothing, the user's balances never fall, none of the user's orders is canceled and none appears.",
 "every reachable state, every message, every history of messages of others, blocks and batches","Tests replay a few attacks; the guarantee is about every message anyone could send in any state.",[K+"swap.go:CancelOrder",K+"swap.go:CancelAllOrders",K+"swap.go:LimitOrder",K+"pool.go:Deposit",K+"pool.go:Withdraw","x/dex/types/msgs.go:GetSigners"])
p("C75","An order is filled within its limit over its whole life",
 "At every moment the record of a stored order (open amount, remaining offer coin, received coin) is the sum of fills each within the order's limit price; so over all its batches a buyer pays on average at most the limit price and a seller gets at least it, up to less than one quote unit per fill.",
 "every reachable state and stored order, every number of batches it traded in","A test fills an order once or twice; the bound must hold for orders filled over any number of batches at any prices.",[K+"swap.go:ApplyMatchResult",K+"swap.go:FinishOrder",T+"order.go:NewUserOrder",A+"match.go:FillOrder"])
p("C76","The last price is the price of the last trade",
 "A batch changes a pair only in its batch number, which grows by one, and its last price. Either it fills none of the pair's orders and leaves the last price alone, or the new last price is one at which an order was just filled; in the first match all fills are at it, later all fills lie between the old and the new last price (falls from a price below one excepted).",
 "every reachable state, every batch, every pair, every map iteration order","The price reported depends on the whole order book and on the search direction; tests fix a few books.",[A+"match.go:Match",A+"match.go:MatchAtSinglePrice",K+"swap.go:ExecuteMatching",K+"swap.go:Match"])
p("C77","Pairs trade independently",
 "What the end-of-block batch does to a pair, its orders, pools, pool coin supplies, requests, escrow and reserves depends on these alone: two states that agree on the pair agree on it after the batch, whatever other pairs, orders, pools and balances they hold. A message that names other pairs or pools leaves all of it untouched, so nothing others do elsewhere in a block changes the outcome for the pair.",
 "every two reachable states that agree on the pair, every sequence of messages for other pairs, every map iteration order","Interference would need particular combinations of activity on several pairs; tests use one pair at a time.",[K+"batch.go:ExecuteRequests",K+"swap.go:ExecuteMatching",K+"pool.go:ExecuteDepositRequest",K+"pool.go:ExecuteWithdrawRequest",T+"util.go:BulkSendCoinsOperation"])
p("C78","A disabled pool is closed for good",
 "From the moment a pool is disabled no deposit into it and no withdrawal from it is accepted, its record never changes again, none of its pool coins is minted or burned, no trade and no payment takes anything from its reserves (batches do not even add to them) and no request is ever left waiting for it. Messages never disable a pool; only a batch can.",
 "every reachable state with a disabled pool, every continuation by messages, blocks and batches","A test checks one disabled pool for a few blocks; the guarantee covers all later histories.",[K+"pool.go:MarkPoolAsDisabled",K+"pool.go:Deposit",K+"pool.go:Withdraw",K+"pool.go:ExecuteDepositRequest",K+"pool.go:ExecuteWithdrawRequest",K+"swap.go:ExecuteMatching"])
p("C79","A batch takes from a pool only what its own orders sold",
 "Over the matching of a batch the reserve of a pool is either untouched, or the pool was active and not depleted, put up the buy and sell orders that its reserves call for within the price limits (at the batch price when the pair never traded), and what left and entered its reserve is exactly the sum of fills of these orders, each within its limit price and its amount, all of them buys or all of them sells; no other coin moves. Without deposits and withdrawals waiting this is all a batch does to the reserve.",
 "every reachable state, every pool, every batch, every order book, every map iteration order","The amounts depend on all orders and pools of the batch; a test sees a few books.",[K+"swap.go:ExecuteMatching",K+"swap.go:Match",K+"swap.go:ApplyMatchResult",A+"pool.go:PoolBuyOrders",A+"pool.go:PoolSellOrders"])
p("C80","The market clears",
 "At prices of at least one quote coin, once a match around a last price has run, no buy order and sell order whose limits meet can both still trade. Over a batch of a pair with a last price the same holds of the stored orders that took part: of a live buy and a live sell left over, the buy's limit is below the sell's, unless the buy has not the coins left to pay for one more coin at its limit, or had come in with less than its open amount costs (rounding) and bought all it could pay for.",
 "every book, every last price and lower price limit of at least one, every batch of every reachable state, every map iteration order","Whether crossing orders are left depends on all orders and pools of a book; tests run a few books.",[A+"match.go:Match",A+"match.go:MatchAtSinglePrice",A+"match.go:PriceDirection",K+"swap.go:ExecuteMatching",K+"swap.go:Match"])
p("C81","Larger orders first, then users, then lower ids",
 "Among orders on one side with the same limit price and the same batch that share a fill, the larger order is served first, and among equal amounts a user's before a pool's and the lower id first: in a match at one price the order served first gets at least as much as the other, wherever the two stand in the book, if it can take as much; for new orders that can pay for their whole amount this holds without further condition.",
 "every book, every price, every pair of orders of one side, price and batch, every map iteration order","Who gets the odd coins depends on all orders of a level; tests look at a few levels.",[A+"match.go:DistributeOrderAmountToOrders",A+"match.go:DistributeOrderAmountToTick",A+"order.go:HasPriority","x/dex/types/order.go:HasPriority",A+"util.go:SortOrders"])
p("C82","A pool is closed when, and only when, it has run empty",
 "A pool that a batch disables has run empty when the batch is over: none of its pool coins is left, or a basic pool has nothing left of one of its two coins, or a ranged pool of both. Conversely an active pool that has run empty is disabled by the next batch, whatever else happens in it.",
 "every reachable state, every pool, every batch, every map iteration order","Which pools run empty depends on all trades and requests of a batch; a test closes one pool.",[K+"pool.go:MarkPoolAsDisabled",K+"pool.go:ExecuteDepositRequest",K+"pool.go:ExecuteWithdrawRequest",K+"swap.go:ExecuteMatching",A+"pool.go:IsDepleted"])
p("C83","Pool coins can be cashed in",
 "A deposit or withdrawal that waits for the batch is refused only if it is too small: a deposit that would be given no pool coins, a withdrawal whose share is nothing of both coins. So whoever holds pool coins of a pool with reserves can get a share of them.",
 "every reachable state, every stored request, every batch, every map iteration order","Whether a request is refused depends on what the matching and the earlier requests of the batch did to the pool; tests run a few requests.",[K+"pool.go:ExecuteDepositRequest",K+"pool.go:ExecuteWithdrawRequest",K+"swap.go:ExecuteMatching",A+"pool.go:Withdraw",A+"pool.go:Deposit"])
p("C84","What the events report is what happened",
 "A client that adds up the events from genesis on knows the state of every order: the match events add up to what was filled, paid and received, the result event appears exactly once, when the order ends, and shows its owner, coins and final figures; once an order has ended no further event mentions it. The result event of a deposit or withdrawal appears exactly once, when it is executed, and shows what was accepted, minted, paid out and given back. The match events show trades in the two coins of the pair, with the amount of base coin that changed hands; no pool appears twice in a batch, and the pool match events add up to what the matching did to the reserves of each pool.",
 "every history from genesis, every order, request, pool and coin, every map iteration order","Whether the log adds up depends on every path by which an order can end or a request can be executed, over any number of batches; tests look at states, not at events.",[K+"swap.go:FinishOrder",K+"swap.go:ApplyMatchResult",K+"swap.go:CancelOrder",K+"pool.go:FinishDepositRequest",K+"pool.go:FinishWithdrawRequest",K+"batch.go:ExecuteRequests"])
p("C85","A chain that is exported and started again keeps the exchange",
 "Exporting the state of a running chain and starting a new chain from the exported file gives the same parameters, balances, pairs, pools, requests and orders, so that owners can still withdraw, cancel and trade. A genesis file that passes validation is stored.",
 "every state of every history, every genesis file","Losses show only for states with pairs, pools and orders, and the theft only in what happens after the restart; the module's own test exports an empty state.",["x/dex/module/genesis.go:InitGenesis","x/dex/module/genesis.go:ExportGenesis","x/dex/module/module.go:InitGenesis","x/dex/module/module.go:ExportGenesis",T+"genesis.go:DefaultGenesis"])
p("C86","The authority, and nobody else, can change the parameters",
 "An UpdateParams message signed by the authority the module was set up with, carrying valid parameters, is accepted; from any other sender it is refused.",
 "every authority, sender, state and set of parameters","The module's own tests never send the message; that nobody at all is accepted is a statement about all senders.",[K+"keeper.go:NewKeeper",K+"keeper.go:GetAuthority",K+"msg_server.go:UpdateParams"])
p("C87","The module's accounts are different accounts",
 "The escrow accounts of the pairs, the reserve accounts of the pools, the account for pending requests, the two default collectors and the module account all have different addresses, unless the hash function has a collision; so coins held for one purpose cannot be mistaken for coins held for another.",
 "every pair id and pool id, every hash function","There are 2^64 ids of each kind; tests derive a few addresses.",[T+"pair.go:DeriveAddress",T+"pair.go:PairEscrowAddress",T+"pool.go:PoolReserveAddress",T+"params.go:GlobalEscrowAddress"])
p("C88","Orders that do not cross rest",
 "When every buy order of a pair is priced below every sell order and the pair's pools are all priced between them, a batch trades nothing in the pair: the last price, every order's amounts and the pools' reserves stay, and an order changes only its status (waiting, or expired with its time over). Read the other way, a trade needs a buy order priced at or above a sell order.",
 "every set of orders, every last price, every reachable state and batch with or without a last price, any number of pools and other pairs","The engine has two matching phases, a price search and pool order generation; tests try a few books.",["x/dex/amm/match.go:Match","x/dex/amm/match.go:MatchAtSinglePrice",K+"swap.go:ExecuteMatching",K+"swap.go:Match"])
p("C89","The parameters in force are the last ones accepted, and they make sense",
 "At every moment of every history the module's parameters are those of genesis or, if an UpdateParams message was accepted, those of the last one accepted, and they pass validation (positive batch size, positive minimum supply, fees of positive amounts of different coins, and so on). An update changes nothing but the parameters; no other message and no block boundary changes them.",
 "every history of blocks and messages, every set of parameters, every state","Any handler or batch step could write the parameters in some state; tests look at a few.",[K+"params.go:SetParams",K+"msg_server.go:UpdateParams",T+"params.go:Validate"])
p("C90","No live order or pending request is ever lost, and results stay until the next block",
 "Messages and batches remove nothing from the store: an order that has ended, and a request that has been executed, can still be read, unchanged, until the next block begins. Then exactly those leave and nothing else changes. Over any stretch of history an order or request is either still stored or was stored with a final status at some moment on the way.",
 "every history, every order and request, any number of blocks","Losing a record needs a particular interleaving of cancels, matches, expiries and block boundaries; tests follow a few.",[K+"batch.go:DeleteOutdatedRequests",K+"batch.go:ExecuteRequests","x/dex/module/abci.go:BeginBlocker",K+"store.go:DeleteOrder"])
p("C91","A random tick can be any tick of the documented range, and is in it",
 "RandomTick(r, minPrice, maxPrice, prec) returns a tick between the two prices, both included as its documentation says, and every such tick can be returned.",
 "every random source, precision and pair of prices","Tests draw a few times from a few ranges; a tick that is never drawn does not show.",[A+"tick.go:RandomTick"])
p("C92","The order book holds exactly the orders added, each at its price",
 "After any sequence of AddOrder calls, BuyOrdersAt(price) and SellOrdersAt(price) return exactly the orders of that side with that price which were taken in, in the order in which they were added, and nothing for a price nobody gave; Orders() returns each order taken in once, and HighestPrice() and LowestPrice() are the extreme prices of those.",
 "every list of orders, every price","The lookup is a binary search over a structure built incrementally; tests try a few books.",[A+"orderbook.go:AddOrder",A+"orderbook.go:Orders",A+"orderbook.go:HighestPrice",A+"orderbook.go:LowestPrice",A+"orderbook.go:BuyOrdersAt",A+"orderbook.go:SellOrdersAt"])
p("C93","Every accepted message is announced by one event, and what the event says is true",
 "An accepted message emits exactly one announcement (a refused one emits none), naming the sender and the data of the message. What it says holds of the state afterwards: the pair, pool, request or order with the announced number is new and stored with exactly the announced contents; the announced coins are the coins that moved into the reserve or escrow, and the announced amount of pool coins was minted; the cancelled orders named are exactly the ones that became cancelled.",
 "every message in every reachable state","Events are computed from local variables of the handler; a wrong variable shows only for inputs where the two differ.",[K+"pair.go:CreatePair",K+"pool.go:CreatePool",K+"pool.go:CreateRangedPool",K+"pool.go:Deposit",K+"pool.go:Withdraw",K+"swap.go:placeOrder",K+"swap.go:CancelOrder",K+"swap.go:CancelAllOrders"])
p("C94","Who came first does not matter within a batch",
 "Adding the same orders of users and pools to the order book in any sequence gives the same depth, the same match price, the same leftover and the same fill, charge and proceeds for every order. Even if the orders carry other ids, because they were submitted in another sequence, every order of the batch fares the same, as long as no two orders of one direction, price and batch are for the same amount.",
 "every set of orders, every sequence, every assignment of ids, every last price","The book stores orders by price in arrival sequence and splits by sorted groups; only particular sequences of equal prices could show a difference.",[A+"orderbook.go:AddOrder",A+"match.go:Match",A+"match.go:DistributeOrderAmountToTick",A+"util.go:SortOrders",A+"util.go:GroupOrdersByBatchId",T+"order.go:HasPriority"])
p("C95","Splitting a withdrawal brings nothing",
 "Redeeming pool coins in several requests, one after another, pays no more than redeeming the same amount in one request. In any case the requests together are paid at most the exact share of the reserves that the redeemed coins stand for, in both coins, so the value of a remaining pool coin never falls, and without a fee the gain is at most one coin and a 10^-18 part of the reserve.",
 "all reserves, supplies, fees and sequences of redemptions of any length","The rounding and the fee of each request change the reserves the next one is paid from; the effect accumulates over sequences no test enumerates.",[A+"pool.go:Withdraw",K+"pool.go:ExecuteWithdrawRequest"])
open(os.path.join(os.path.dirname(__file__),"..","properties.jsonl"),"w").write("".join(json.dumps(x)+"\n" for x in P))
