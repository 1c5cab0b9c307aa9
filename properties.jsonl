{"id": "C01", "title": "Rounding a price down gives the greatest tick not above it", "statement": "A price is a tick for precision p when it has at most p+1 significant decimal digits (and no finer than the 18-digit decimal grid). Rounding a price down to the tick grid returns a tick, never exceeds the price, and no tick lies strictly between the result and the price; on a price that is already a tick it is the identity. Among non-negative prices only zero is rejected.", "quantifier": "every positive 18-digit decimal price and every tick precision", "why_tests_cant": "The domain of decimal prices (18 fractional digits, up to 300 bits) and precisions is far too large to enumerate; a boundary error at one power of ten is invisible to sampled tests.", "anchors": ["x/dex/amm/tick.go:PriceToDownTick", "x/dex/amm/tick.go:char", "x/dex/amm/tick.go:pow10"]}
{"id": "C02", "title": "Rounding a price up gives the least tick not below it", "statement": "Rounding a price up to the tick grid returns the least tick that is at least the price; moving one tick up from a price returns the least tick strictly greater than it when the price is itself a tick.", "quantifier": "every positive price and every tick precision", "why_tests_cant": "The domain of decimal prices (18 fractional digits, up to 300 bits) and precisions is far too large to enumerate; a boundary error at one power of ten is invisible to sampled tests.", "anchors": ["x/dex/amm/tick.go:PriceToUpTick", "x/dex/amm/tick.go:UpTick", "x/dex/amm/tick.go:isPow10"]}
{"id": "C03", "title": "Moving one tick down gives the greatest tick strictly below", "statement": "For any price above the lowest tick, moving one tick down returns the greatest tick strictly below the price; up-then-down and down-then-up on ticks are the identity.", "quantifier": "every price above the lowest tick, every precision", "why_tests_cant": "The domain of decimal prices (18 fractional digits, up to 300 bits) and precisions is far too large to enumerate; a boundary error at one power of ten is invisible to sampled tests.", "anchors": ["x/dex/amm/tick.go:DownTick", "x/dex/amm/tick.go:UpTick", "x/dex/amm/tick.go:LowestTick"]}
{"id": "C04", "title": "Tick numbering is a strictly increasing bijection", "statement": "Converting a tick to its index and back is the identity, converting an index to its price and back is the identity, consecutive indices are consecutive ticks, and the index order is the price order.", "quantifier": "every tick and every index from the lowest tick upwards, every precision", "why_tests_cant": "The domain of decimal prices (18 fractional digits, up to 300 bits) and precisions is far too large to enumerate; a boundary error at one power of ten is invisible to sampled tests.", "anchors": ["x/dex/amm/tick.go:TickToIndex", "x/dex/amm/tick.go:TickFromIndex"]}
{"id": "C05", "title": "Rounding a price to the nearest tick lands on an adjacent tick", "statement": "Rounding a price to the tick grid returns the price itself if it is a tick, otherwise one of the two ticks adjacent to it, the nearer one, with exact midpoints going to the tick with an even index.", "quantifier": "every price at or above the lowest tick, every precision", "why_tests_cant": "The domain of decimal prices (18 fractional digits, up to 300 bits) and precisions is far too large to enumerate; a boundary error at one power of ten is invisible to sampled tests.", "anchors": ["x/dex/amm/tick.go:RoundPrice", "x/dex/amm/tick.go:RoundTickIndex"]}
{"id": "C06", "title": "Price limits are the tightest ticks inside the allowed band", "statement": "The lowest/highest order prices allowed around a last price are ticks lying within lastPrice*(1-ratio) .. lastPrice*(1+ratio) up to the rounding of the band's ends to 18 digits, and no tick inside that band lies outside the limits.", "quantifier": "every last price, every ratio strictly between 0 and 1 leaving a positive lower bound, every precision", "why_tests_cant": "The domain of decimal prices (18 fractional digits, up to 300 bits) and precisions is far too large to enumerate; a boundary error at one power of ten is invisible to sampled tests.", "anchors": ["x/dex/types/util.go:PriceLimits"]}
{"id": "C07", "title": "The offer amount of an order is the least that can pay for it", "statement": "The coin amount locked for a buy order of a given amount and limit price is the smallest integer that is at least price*amount, for a sell order it is the amount; therefore an order never needs to pay more than it locked, and the amount still purchasable with what is left never exceeds the open amount.", "quantifier": "every direction, price and amount", "why_tests_cant": "The domain of decimal prices (18 fractional digits, up to 300 bits) and precisions is far too large to enumerate; a boundary error at one power of ten is invisible to sampled tests.", "anchors": ["x/dex/amm/util.go:OfferCoinAmount", "x/dex/amm/util.go:MatchableAmount"]}
{"id": "C08", "title": "No order is ever over-filled or over-charged", "statement": "After matching, every order has 0 <= open amount <= original amount, has paid no more than the coins it offered, a seller has paid exactly the base amount filled and a buyer has received exactly the base amount filled.", "quantifier": "every set of valid orders, every last price, every precision", "why_tests_cant": "The statement quantifies over every order book and every sequence of fills; rounding errors appear only for specific combinations of prices and amounts.", "anchors": ["x/dex/amm/match.go:FillOrder", "x/dex/amm/match.go:Match", "x/dex/amm/order.go:BaseOrder"]}
{"id": "C09", "title": "Every fill respects the limit price", "statement": "Whatever an order paid and received through matching is the sum of individual fills, each at a price no worse than the order's limit; a buyer pays the fill value rounded up and a seller receives it rounded down, so no order trades worse than its limit by more than the rounding of each fill.", "quantifier": "every set of valid orders, every last price", "why_tests_cant": "The statement quantifies over every order book and every sequence of fills; rounding errors appear only for specific combinations of prices and amounts.", "anchors": ["x/dex/amm/match.go:FillOrder", "x/dex/amm/match.go:MatchAtSinglePrice", "x/dex/amm/match.go:Match"]}
{"id": "C10", "title": "The order book neither loses nor invents orders", "statement": "Adding orders to an order book in any sequence keeps exactly the added orders that still have a positive matchable amount, grouped by price, best price first, with one entry per price.", "quantifier": "every sequence of added orders", "why_tests_cant": "The statement quantifies over every order book and every sequence of fills; rounding errors appear only for specific combinations of prices and amounts.", "anchors": ["x/dex/amm/orderbook.go:AddOrder", "x/dex/amm/orderbook.go:addOrder", "x/dex/amm/orderbook.go:HighestPrice", "x/dex/amm/orderbook.go:LowestPrice"]}
{"id": "C11", "title": "Price then batch priority", "statement": "In continuous matching, an order only gets filled when every order on its side with a strictly better price has nothing matchable left or was considered before; within one price, orders of an earlier batch are satisfied before orders of a later batch get anything.", "quantifier": "every order book", "why_tests_cant": "The statement quantifies over every order book and every sequence of fills; rounding errors appear only for specific combinations of prices and amounts.", "anchors": ["x/dex/amm/match.go:Match", "x/dex/amm/match.go:DistributeOrderAmountToTick", "x/dex/amm/util.go:GroupOrdersByBatchId"]}
{"id": "C12", "title": "Base coin bought equals base coin sold", "statement": "In every batch the total base coin received by buyers equals the total base coin paid by sellers.", "quantifier": "every order book, every last price", "why_tests_cant": "The statement quantifies over every order book and every sequence of fills; rounding errors appear only for specific combinations of prices and amounts. The violating books need an order whose proportional share is worth less than one quote unit.", "anchors": ["x/dex/amm/match.go:DistributeOrderAmountToOrders", "x/dex/amm/match.go:DistributeOrderAmountToTick", "x/dex/amm/match.go:Match"]}
{"id": "C13", "title": "Quote coin leftover is exactly accounted", "statement": "The reported quote-coin difference of a match equals total quote coin paid by buyers minus total quote coin received by sellers.", "quantifier": "every order book, every last price", "why_tests_cant": "The statement quantifies over every order book and every sequence of fills; rounding errors appear only for specific combinations of prices and amounts.", "anchors": ["x/dex/amm/match.go:MatchAtSinglePrice", "x/dex/amm/match.go:Match", "x/dex/amm/match.go:FulfillOrders"]}
{"id": "C14", "title": "Matching never creates quote coin", "statement": "The quote coin received by all sellers never exceeds the quote coin paid by all buyers (the difference is never negative).", "quantifier": "every order book, every last price", "why_tests_cant": "The statement quantifies over every order book and every sequence of fills; rounding errors appear only for specific combinations of prices and amounts.", "anchors": ["x/dex/amm/match.go:Match", "x/dex/amm/match.go:FillOrder"]}
{"id": "C15", "title": "Matching is independent of map iteration order", "statement": "Grouping orders by batch yields the same groups in the same order whatever order the runtime iterates its maps in, so two nodes running the same batch obtain the same fills.", "quantifier": "every order list and every iteration order of the map", "why_tests_cant": "Go randomises map iteration per run; a test observes only some orders.", "anchors": ["x/dex/amm/util.go:GroupOrdersByBatchId"]}
{"id": "C16", "title": "Matching always terminates", "statement": "Finding a match price, matching at a single price, distributing an amount among orders and matching a book all finish within a number of iterations bounded by the size of the book and the tick range.", "quantifier": "every order book, every last price, every precision", "why_tests_cant": "A non-terminating input cannot be found by sampling, and the loops are guarded by data-dependent conditions.", "anchors": ["x/dex/amm/match.go:FindMatchPrice", "x/dex/amm/match.go:DistributeOrderAmountToOrders", "x/dex/amm/match.go:Match", "x/dex/amm/util.go:findFirstTrueCondition"]}
{"id": "C17", "title": "The first match price is a tick between the best sell and the best buy", "statement": "When the book crosses, the match price of a market without a last price exists, is on the tick grid and lies between the lowest sell price and the highest buy price; when the book does not cross no price is returned.", "quantifier": "every order book view and precision", "why_tests_cant": "The statement quantifies over every order book and every sequence of fills; rounding errors appear only for specific combinations of prices and amounts.", "anchors": ["x/dex/amm/match.go:FindMatchPrice"]}
{"id": "C18", "title": "Depth queries report the true depth", "statement": "The aggregate view of a book reports at any price exactly the sum of the matchable amounts of buy orders at or above that price and of sell orders at or below it, and these sums are monotone in price.", "quantifier": "every order book, every query price", "why_tests_cant": "The statement quantifies over every order book and every sequence of fills; rounding errors appear only for specific combinations of prices and amounts.", "anchors": ["x/dex/amm/view.go:MakeView", "x/dex/amm/view.go:BuyAmountOver", "x/dex/amm/view.go:SellAmountUnder"]}
{"id": "C19", "title": "Single price auction never fills beyond either side", "statement": "The amount matched at a single price is at most the total matchable amount on either side at that price, and it consists of orders whose limits accept that price.", "quantifier": "every order book and price", "why_tests_cant": "The statement quantifies over every order book and every sequence of fills; rounding errors appear only for specific combinations of prices and amounts.", "anchors": ["x/dex/amm/match.go:FindMatchableAmountAtSinglePrice", "x/dex/amm/match.go:MatchAtSinglePrice"]}
{"id": "C20", "title": "Proportional split distributes the exact amount", "statement": "Splitting an amount no larger than the total matchable amount among orders with positive amounts gives each order at most its matchable amount; the buy side is always filled for exactly the requested amount.", "quantifier": "every list of orders and amount", "why_tests_cant": "The statement quantifies over every order book and every sequence of fills; rounding errors appear only for specific combinations of prices and amounts.", "anchors": ["x/dex/amm/match.go:DistributeOrderAmountToOrders"]}
{"id": "C21", "title": "Deposits never take more than offered", "statement": "When a pool computes a deposit, the accepted amounts never exceed the offered amounts, nothing is negative, and if no pool coin is minted nothing is accepted.", "quantifier": "every pool state and offered amounts", "why_tests_cant": "Reserves, supplies and deposits range over integers up to 10^40; truncation errors need particular combinations.", "anchors": ["x/dex/amm/pool.go:Deposit"]}
{"id": "C22", "title": "Deposits do not dilute existing holders", "statement": "The pool coins minted by a deposit never represent a larger share of the pool than the share of reserves deposited.", "quantifier": "every pool state and deposit", "why_tests_cant": "Reserves, supplies and deposits range over integers up to 10^40; truncation errors need particular combinations.", "anchors": ["x/dex/amm/pool.go:Deposit"]}
{"id": "C23", "title": "Withdrawals pay at most the pro-rata share", "statement": "Redeeming pool coins pays each reserve coin at most reserve*redeemed/supply less the fee; redeeming the whole supply pays the whole reserve; amounts are never negative.", "quantifier": "every pool state, redeemed amount and fee rate", "why_tests_cant": "Reserves, supplies and deposits range over integers up to 10^40; truncation errors need particular combinations.", "anchors": ["x/dex/amm/pool.go:Withdraw"]}
{"id": "C24", "title": "Deposit then withdraw never makes a profit", "statement": "Depositing into a pool and immediately redeeming the minted pool coins never returns more of either coin than was deposited.", "quantifier": "every pool state and deposit", "why_tests_cant": "Reserves, supplies and deposits range over integers up to 10^40; truncation errors need particular combinations.", "anchors": ["x/dex/amm/pool.go:Deposit", "x/dex/amm/pool.go:Withdraw"]}
{"id": "C25", "title": "Pool orders are covered by pool reserves", "statement": "The sum of what all orders emitted by a pool in one batch could pay never exceeds the pool's reserve of the coin they pay in.", "quantifier": "every basic or ranged pool, every price limit and precision", "why_tests_cant": "Reserves, supplies and deposits range over integers up to 10^40; truncation errors need particular combinations.", "anchors": ["x/dex/amm/pool.go:PoolBuyOrders", "x/dex/amm/pool.go:PoolSellOrders", "x/dex/amm/pool.go:BuyAmountTo", "x/dex/amm/pool.go:SellAmountTo"]}
{"id": "C26", "title": "Pool orders are well formed", "statement": "Every order emitted by a pool has its price on the tick grid within the given limits, an amount at least the minimum, buy prices are not above the pool price and sell prices not below it.", "quantifier": "every pool, limits and precision", "why_tests_cant": "Reserves, supplies and deposits range over integers up to 10^40; truncation errors need particular combinations.", "anchors": ["x/dex/amm/pool.go:PoolBuyOrders", "x/dex/amm/pool.go:PoolSellOrders"]}
{"id": "C27", "title": "A pool's orders never match each other", "statement": "The buy orders and the sell orders emitted by a pool in one batch do not cross.", "quantifier": "every pool, limits and precision", "why_tests_cant": "Reserves, supplies and deposits range over integers up to 10^40; truncation errors need particular combinations.", "anchors": ["x/dex/amm/pool.go:PoolOrders"]}
{"id": "C28", "title": "Initial pool coin supply is a power of ten near the geometric mean, at least the minimum", "statement": "The pool coin supply minted at pool creation is the larger of the configured minimum and a power of ten just above the geometric mean of the two amounts, and does not depend on the order of the two deposited amounts.", "quantifier": "every pair of positive deposit amounts and minimum supply", "why_tests_cant": "Reserves, supplies and deposits range over integers up to 10^40; truncation errors need particular combinations.", "anchors": ["x/dex/amm/pool.go:InitialPoolCoinSupply"]}
{"id": "C29", "title": "Pool creation accepts at most what was offered", "statement": "Creating a ranged pool accepts at most the offered amount of each coin and refuses parameters out of the allowed price range or with min >= max.", "quantifier": "every offered amounts and price parameters", "why_tests_cant": "Reserves, supplies and deposits range over integers up to 10^40; truncation errors need particular combinations.", "anchors": ["x/dex/amm/pool.go:CreateRangedPool", "x/dex/amm/pool.go:ValidateRangedPoolParams"]}
{"id": "C30", "title": "Trading against a basic pool does not drain its product", "statement": "Filling an order emitted by a basic pool never decreases the product of its reserves.", "quantifier": "every basic pool and fill", "why_tests_cant": "Reserves, supplies and deposits range over integers up to 10^40; truncation errors need particular combinations.", "anchors": ["x/dex/amm/pool.go:BuyAmountOver", "x/dex/amm/pool.go:SellAmountUnder", "x/dex/amm/pool.go:BuyAmountTo"]}
{"id": "C31", "title": "Coins are conserved", "statement": "No sequence of messages and block batches changes the total supply of any coin other than pool coins, and for every coin the sum of all balances always equals the supply; pool coin supply changes exactly by the minted and burned amounts.", "quantifier": "every history of messages and blocks", "why_tests_cant": "Must hold after every interleaving of transactions and batches; each test runs one history.", "anchors": ["x/dex/keeper/pool.go", "x/dex/keeper/swap.go", "x/dex/keeper/batch.go"]}
{"id": "C32", "title": "The global escrow always covers pending requests", "statement": "At every point of every history, the global escrow account holds at least the sum of the coins of all deposit requests and all pool coins of withdraw requests that have not been executed.", "quantifier": "every history", "why_tests_cant": "Must hold after every interleaving of transactions and batches; each test runs one history.", "anchors": ["x/dex/keeper/invariants.go:DepositCoinsEscrowInvariant", "x/dex/keeper/invariants.go:PoolCoinEscrowInvariant", "x/dex/keeper/pool.go:Deposit", "x/dex/keeper/pool.go:Withdraw"]}
{"id": "C33", "title": "Every deposit and withdraw request is executed exactly once", "statement": "A request accepted in one batch is executed at the next batch boundary, ends succeeded or failed, never executes twice, and is removed at the next begin-block.", "quantifier": "every history", "why_tests_cant": "Must hold after every interleaving of transactions and batches; each test runs one history.", "anchors": ["x/dex/keeper/batch.go:ExecuteRequests", "x/dex/keeper/batch.go:DeleteOutdatedRequests", "x/dex/keeper/pool.go:ExecuteDepositRequest", "x/dex/keeper/pool.go:ExecuteWithdrawRequest"]}
{"id": "C34", "title": "A deposit request is settled exactly", "statement": "Executing a deposit request moves to the pool exactly the accepted coins, returns the rest to the depositor, and mints exactly the pool coins credited; a failed request returns everything and mints nothing.", "quantifier": "every state and request", "why_tests_cant": "Must hold after every interleaving of transactions and batches; each test runs one history.", "anchors": ["x/dex/keeper/pool.go:ExecuteDepositRequest", "x/dex/keeper/pool.go:FinishDepositRequest"]}
{"id": "C35", "title": "The pair escrow always covers open orders", "statement": "At every point of every history each pair's escrow account holds at least the sum of the remaining offer coins of the pair's live orders.", "quantifier": "every history", "why_tests_cant": "Must hold after every interleaving of transactions and batches; each test runs one history.", "anchors": ["x/dex/keeper/invariants.go:RemainingOfferCoinEscrowInvariant", "x/dex/keeper/swap.go:ApplyMatchResult", "x/dex/keeper/swap.go:FinishOrder"]}
{"id": "C36", "title": "Only the owner can cancel, once, and gets the exact remainder", "statement": "Cancelling an order succeeds only for its orderer, only in a later batch than the one it was placed in, refunds exactly the remaining offer coin, and no second cancellation or expiry refunds again.", "quantifier": "every state, order and caller", "why_tests_cant": "Must hold after every interleaving of transactions and batches; each test runs one history.", "anchors": ["x/dex/keeper/swap.go:CancelOrder", "x/dex/keeper/swap.go:FinishOrder"]}
{"id": "C37", "title": "Orders end at expiry", "statement": "After a batch runs at a block time at or past an order's expiry the order is no longer live and its remaining offer coin has been refunded; it gets a chance to match first.", "quantifier": "every history", "why_tests_cant": "Must hold after every interleaving of transactions and batches; each test runs one history.", "anchors": ["x/dex/keeper/batch.go:ExecuteRequests", "x/dex/types/request.go:ExpiredAt"]}
{"id": "C38", "title": "Market-making order counter is exact and bounded", "statement": "For each user and pair the market-making order counter equals the number of that user's live market-making orders and never exceeds the configured maximum.", "quantifier": "every history", "why_tests_cant": "Must hold after every interleaving of transactions and batches; each test runs one history.", "anchors": ["x/dex/keeper/swap.go:MMOrder", "x/dex/keeper/swap.go:FinishOrder", "x/dex/keeper/store.go:SetNumMMOrders"]}
{"id": "C39", "title": "Identifiers are never reused", "statement": "Pair, pool, order and request ids are strictly increasing and never reused, and at most one object exists for each id.", "quantifier": "every history", "why_tests_cant": "Must hold after every interleaving of transactions and batches; each test runs one history.", "anchors": ["x/dex/keeper/pair.go:getNextPairIdWithUpdate", "x/dex/keeper/pool.go:getNextPoolIdWithUpdate", "x/dex/keeper/swap.go:getNextOrderIdWithUpdate"]}
{"id": "C40", "title": "A trading pair is unique", "statement": "No two pairs have the same base and quote coin, and the denom index finds exactly the pair.", "quantifier": "every history", "why_tests_cant": "Must hold after every interleaving of transactions and batches; each test runs one history.", "anchors": ["x/dex/keeper/pair.go:CreatePair", "x/dex/keeper/store.go:GetPairByDenoms"]}
{"id": "C41", "title": "Pool population limits", "statement": "At most one non-disabled basic pool exists per pair and at most the configured number of non-disabled pools per pair.", "quantifier": "every history", "why_tests_cant": "Must hold after every interleaving of transactions and batches; each test runs one history.", "anchors": ["x/dex/keeper/pool.go:ValidateMsgCreatePool", "x/dex/keeper/pool.go:ValidateMsgCreateRangedPool"]}
{"id": "C42", "title": "Order status only moves forward", "statement": "An order's status never changes once it is completed, canceled or expired, and its filled amount never decreases.", "quantifier": "every history", "why_tests_cant": "Must hold after every interleaving of transactions and batches; each test runs one history.", "anchors": ["x/dex/keeper/swap.go:FinishOrder", "x/dex/keeper/swap.go:ApplyMatchResult", "x/dex/types/request.go:OrderStatus"]}
{"id": "C43", "title": "The end-of-block batch never halts the chain", "statement": "With validated parameters, whatever messages were accepted, executing the batch does not fail or panic.", "quantifier": "every history, every parameter set accepted by validation", "why_tests_cant": "Must hold after every interleaving of transactions and batches; each test runs one history.", "anchors": ["x/dex/keeper/batch.go:ExecuteRequests", "x/dex/module/abci.go", "x/dex/types/params.go:Validate"]}
{"id": "C44", "title": "Exported state can be imported", "statement": "Exporting the module state yields a genesis that passes validation and importing it restores the same state.", "quantifier": "every reachable state", "why_tests_cant": "Must hold after every interleaving of transactions and batches; each test runs one history.", "anchors": ["x/dex/keeper/genesis.go", "x/dex/types/genesis.go:Validate"]}
{"id": "C45", "title": "Store keys never collide", "statement": "Distinct entities have distinct store keys, scanning the prefix of a pair, pool or user yields only that one's entries, and parsing an index key gives back what built it.", "quantifier": "every id, denomination and address", "why_tests_cant": "Keys are byte strings built from variable length parts; collisions need adversarial lengths.", "anchors": ["x/dex/types/keys.go"]}
{"id": "C46", "title": "Pool coin denominations round trip", "statement": "The pool coin denomination of a pool id parses back to that id, distinct pools have distinct pool coins, and only canonical names parse.", "quantifier": "every pool id and every string", "why_tests_cant": "Infinite domain.", "anchors": ["x/dex/types/pool.go:PoolCoinDenom", "x/dex/types/pool.go:ParsePoolCoinDenom"]}
{"id": "C47", "title": "Bulk transfers equal individual transfers", "statement": "Executing a queued set of transfers leaves every balance as if each queued transfer had been executed on its own, in order, and fails if it would overdraw.", "quantifier": "every queue of transfers and every balance", "why_tests_cant": "Must hold after every interleaving of transactions and batches; each test runs one history.", "anchors": ["x/dex/types/util.go:BulkSendCoinsOperation"]}
{"id": "C48", "title": "Batches run only at multiples of the batch size", "statement": "Orders are matched and requests executed only in blocks whose height is a multiple of the batch size.", "quantifier": "every height and batch size", "why_tests_cant": "Must hold after every interleaving of transactions and batches; each test runs one history.", "anchors": ["x/dex/module/abci.go:EndBlocker"]}
{"id": "C49", "title": "Placing an order locks exactly the offer coin", "statement": "Placing a limit or market order moves exactly the order's offer coin from the orderer to the pair escrow (never more than the message offered), records it with nothing filled, and rejects orders with a price outside the limits, a too small amount or too long lifespan without effect.", "quantifier": "every state and message", "why_tests_cant": "Must hold after every interleaving of transactions and batches; each test runs one history.", "anchors": ["x/dex/keeper/swap.go:placeOrder", "x/dex/keeper/swap.go:LimitOrder", "x/dex/keeper/swap.go:MarketOrder", "x/dex/keeper/swap.go:placeOrder"]}
{"id": "C50", "title": "Market orders are bounded by the price limit", "statement": "A market order trades at a limit price on the tick grid within the maximum ratio of the last price, and cannot be placed without a last price.", "quantifier": "every state and message", "why_tests_cant": "Must hold after every interleaving of transactions and batches; each test runs one history.", "anchors": ["x/dex/keeper/swap.go:placeOrder"]}
{"id": "C51", "title": "Order book queries conserve displayed depth", "statement": "The order book query groups user and pool amounts into price units without losing or inventing amounts, sells rounded up and buys rounded down to the unit, at most the requested number of rows, best first.", "quantifier": "every order book and number of rows", "why_tests_cant": "The statement quantifies over every order book and every sequence of fills; rounding errors appear only for specific combinations of prices and amounts.", "anchors": ["x/dex/types/orderbook.go:MakeOrderBookPairResponse", "x/dex/types/orderbook.go:FitPriceToTickGap"]}
{"id": "C52", "title": "A better price order book iteration merges correctly", "statement": "Querying the best prices over several merged sources yields the best over all of them.", "quantifier": "every list of sources", "why_tests_cant": "The statement quantifies over every order book and every sequence of fills; rounding errors appear only for specific combinations of prices and amounts.", "anchors": ["x/dex/amm/view.go:MultipleOrderViews"]}
{"id": "C53", "title": "The price search follows the imbalance at the last price", "statement": "With a last price, the search direction is upwards exactly when more is demanded strictly above the last price than offered at or below it, downwards exactly when more is offered strictly below it than demanded at or above it, and otherwise stays; an up (down) search never trades below (above) the last price, and a staying one trades only at it.", "quantifier": "every order book and last price", "why_tests_cant": "The statement quantifies over every order book and every sequence of fills; rounding errors appear only for specific combinations of prices and amounts.", "anchors": ["x/dex/amm/match.go:PriceDirection", "x/dex/amm/match.go:Match"]}
{"id": "C54", "title": "A pool's order generation always terminates", "statement": "Generating the buy orders and the sell orders of a pool between two price limits always finishes.", "quantifier": "every pool, limits and tick precision whose numbers fit the chain's integers", "why_tests_cant": "Reserves, supplies and deposits range over integers up to 10^40; truncation errors need particular combinations.", "anchors": ["x/dex/amm/pool.go:PoolBuyOrders", "x/dex/amm/pool.go:PoolSellOrders"]}
{"id": "C55", "title": "A ranged pool's price stays in its range", "statement": "The price a ranged pool derives from its reserves lies between its minimum and maximum price.", "quantifier": "every valid price range and every reserves", "why_tests_cant": "Reserves, supplies and deposits range over integers up to 10^40; truncation errors need particular combinations.", "anchors": ["x/dex/amm/pool.go:DeriveTranslation", "x/dex/amm/pool.go:Price"]}
{"id": "C56", "title": "A withdraw request is settled exactly", "statement": "Executing a withdraw request destroys exactly the offered pool coins and pays exactly the coins the pool formula gives from the reserves and supply at that moment, disabling the pool exactly when the whole supply is withdrawn; a failed request returns the pool coins.", "quantifier": "every reachable state and every stored request", "why_tests_cant": "Must hold after every interleaving of transactions and batches; each test runs one history.", "anchors": ["x/dex/keeper/pool.go:ExecuteWithdrawRequest", "x/dex/keeper/pool.go:FinishWithdrawRequest"]}
{"id": "C57", "title": "The displayed order book is not crossed", "statement": "The order book query shows what is left after the largest executable amount has traded at the best prices, so every displayed buy price is below every displayed sell price.", "quantifier": "every set of orders", "why_tests_cant": "The statement quantifies over every order book and every sequence of fills; rounding errors appear only for specific combinations of prices and amounts.", "anchors": ["x/dex/amm/view.go:Match", "x/dex/types/orderbook.go:MakeOrderBookPairResponse", "x/dex/keeper/grpc_query.go:OrderBooks"]}
{"id": "C58", "title": "A batch pays users exactly what is due", "statement": "In a batch a user's balance grows exactly by the coins the user's orders receive, the refunds of the user's ended orders and the results of the user's deposits and withdrawals (plus dust for the dust collector); a batch never takes coins from a user.", "quantifier": "every reachable state, every user and coin", "why_tests_cant": "Must hold after every interleaving of transactions and batches; each test runs one history.", "anchors": ["x/dex/keeper/swap.go:ApplyMatchResult", "x/dex/keeper/swap.go:FinishOrder", "x/dex/keeper/batch.go:ExecuteRequests"]}
{"id": "C59", "title": "The module's request, pool and counter invariants hold", "statement": "The module's own checks never report a violation: the global escrow holds every pending deposit and every pending withdrawal's pool coins, every pool that is not disabled has pool coins outstanding, and the stored count of a user's market making orders in a pair is the number of such live orders.", "quantifier": "every reachable state", "why_tests_cant": "Must hold after every interleaving of transactions and batches; each test runs one history.", "anchors": ["x/dex/keeper/invariants.go:DepositCoinsEscrowInvariant", "x/dex/keeper/invariants.go:PoolCoinEscrowInvariant", "x/dex/keeper/invariants.go:PoolStatusInvariant", "x/dex/keeper/invariants.go:NumMMOrdersInvariant"]}
{"id": "C60", "title": "Nobody trades across in one batch", "statement": "In one batch no sell order that trades asks for more than any buy order that trades offers: once the batch is over, the traded sell orders' highest limit is at most the traded buy orders' lowest limit.", "quantifier": "every list of orders, every last price and every map iteration order", "why_tests_cant": "The statement quantifies over every order book and every sequence of fills; rounding errors appear only for specific combinations of prices and amounts.", "anchors": ["x/dex/amm/match.go:Match", "x/dex/amm/match.go:MatchAtSinglePrice"]}
{"id": "C61", "title": "Creating a pair", "statement": "A pair is created exactly when its two coins differ, no pair with this base and quote exists and the creator can pay the fee; the only effects are the new pair, empty and with the next number, and the fee paid.", "quantifier": "every reachable state, every creator and every two coins", "why_tests_cant": "Must hold after every interleaving of transactions and batches; each test runs one history.", "anchors": ["x/dex/keeper/pair.go:CreatePair"]}
{"id": "C62", "title": "Creating a basic pool", "statement": "A basic pool is created exactly when both coins of the pair are offered with at least the minimum deposit and at most 10^40, the price is between 10^-15 and 10^20, the pair has no active basic pool and fewer active pools than the limit, and the creator holds the coins and the fee; the pool gets exactly the offered coins, the creator the initial pool coins, and nothing else changes.", "quantifier": "every reachable state, every creator, pair and coins", "why_tests_cant": "Must hold after every interleaving of transactions and batches; each test runs one history.", "anchors": ["x/dex/keeper/pool.go:CreatePool", "x/dex/keeper/pool.go:ValidateMsgCreatePool", "x/dex/amm/pool.go:CreateBasicPool"]}
{"id": "C63", "title": "Creating a ranged pool", "statement": "A ranged pool is created exactly when its prices are ticks forming a valid range, the offered coins belong to the pair, what it takes includes a minimum deposit, the pair has fewer active pools than the limit, and the creator holds what it takes and the fee; it takes at most the offered coins and all of one of them, only base coin at the bottom of its range and only quote coin at its top; nothing else changes.", "quantifier": "every reachable state, every creator, pair, coins and prices", "why_tests_cant": "Must hold after every interleaving of transactions and batches; each test runs one history.", "anchors": ["x/dex/keeper/pool.go:CreateRangedPool", "x/dex/keeper/pool.go:ValidateMsgCreateRangedPool", "x/dex/amm/pool.go:CreateRangedPool"]}
{"id": "C64", "title": "Deposit and withdraw requests lock exactly the offered coins", "statement": "A deposit is queued exactly when the pool is active, the coins belong to its pair (both of them for a basic pool), the reserves would stay within 10^40 and the depositor holds them; a withdrawal exactly when the pool is active and the user holds the pool coins; either moves exactly the offered coins to the escrow, stores a pending request with the pool's next number and changes nothing else.", "quantifier": "every reachable state, user, pool and coins", "why_tests_cant": "Must hold after every interleaving of transactions and batches; each test runs one history.", "anchors": ["x/dex/keeper/pool.go:Deposit", "x/dex/keeper/pool.go:ValidateMsgDeposit", "x/dex/keeper/pool.go:Withdraw", "x/dex/keeper/pool.go:ValidateMsgWithdraw"]}
{"id": "C65", "title": "Prices in the store are ticks", "statement": "The price of every stored order and the last price of every pair is a tick of the coarsest grid that contains all tick precisions used so far; with a precision that never changes this is the grid of new orders.", "quantifier": "every reachable state", "why_tests_cant": "Must hold after every interleaving of transactions and batches; each test runs one history.", "anchors": ["x/dex/keeper/swap.go:placeOrder", "x/dex/keeper/swap.go:ExecuteMatching", "x/dex/amm/match.go:Match"]}
{"id": "C66", "title": "Paging through a listing gives every entry once", "statement": "Following the next keys of a listing query ends, and gives every matching entry exactly once, in key order, never more than a page at a time; asking by offset gives the corresponding slice, with the total when a count is asked for and a next key exactly when entries remain.", "quantifier": "every store content, filter, page size, offset and count flag", "why_tests_cant": "Must hold after every interleaving of transactions and batches; each test runs one history.", "anchors": ["x/dex/keeper/grpc_query.go:Pairs", "x/dex/keeper/grpc_query.go:Pools", "x/dex/keeper/grpc_query.go:Orders"]}
{"id": "C67", "title": "Order and request listings are exact", "statement": "The queries listing the orders of a pair, the deposit and withdrawal requests of a pool and the orders of a user return exactly the stored ones asked for, each once, in the order of their numbers.", "quantifier": "every reachable state, pair, pool, user and page request", "why_tests_cant": "Must hold after every interleaving of transactions and batches; each test runs one history.", "anchors": ["x/dex/keeper/grpc_query.go:Orders", "x/dex/keeper/grpc_query.go:DepositRequests", "x/dex/keeper/grpc_query.go:WithdrawRequests", "x/dex/keeper/grpc_query.go:OrdersByOrderer"]}
{"id": "C68", "title": "Pair and pool listings are exact and always answer", "statement": "The pair query returns exactly the pairs trading the given coin, or the given two coins in either order; the pool query returns exactly the pools of the pair with the given disabled flag, each with its true reserves, pool coin supply and price; both answer in every state.", "quantifier": "every reachable state with its indexes, every filter and page request", "why_tests_cant": "Must hold after every interleaving of transactions and batches; each test runs one history.", "anchors": ["x/dex/keeper/grpc_query.go:Pairs", "x/dex/keeper/grpc_query.go:Pools", "x/dex/keeper/grpc_query.go:Pool", "x/dex/types/util.go:NewPoolResponse", "x/dex/keeper/store.go:SetPairLookupIndex"]}
{"id": "C69", "title": "Lookups agree", "statement": "A pool is found by its reserve address and by its pool coin exactly as by its number, and no other address or denomination finds a pool; the number of market making orders reported for a user and pair is the number of such live orders.", "quantifier": "every reachable state with its indexes, every address and denomination", "why_tests_cant": "Must hold after every interleaving of transactions and batches; each test runs one history.", "anchors": ["x/dex/keeper/grpc_query.go:PoolByReserveAddress", "x/dex/keeper/grpc_query.go:PoolByPoolCoinDenom", "x/dex/keeper/grpc_query.go:NumMMOrders", "x/dex/keeper/store.go:SetPoolByReserveIndex"]}
{"id": "C70", "title": "An accepted genesis file is stored as it is", "statement": "When a genesis file is accepted, exporting right after the import gives back the same parameters, counters and records, sorted by key, and is accepted again; every record is found under its own number and nothing else is; every pool's pair, request's pool and order's pair exists; the lookup indexes list exactly the records; and no coins move.", "quantifier": "every genesis file, bank and clock", "why_tests_cant": "Must hold after every interleaving of transactions and batches; each test runs one history.", "anchors": ["x/dex/keeper/genesis.go:InitGenesis", "x/dex/keeper/genesis.go:ExportGenesis", "x/dex/types/genesis.go:Validate"]}
{"id": "C71", "title": "An accepted genesis file satisfies the module's invariants", "statement": "A genesis file is accepted only if the module can run from it: no two pairs with the same coins, market making counters that match the orders, and escrow accounts that cover the open orders.", "quantifier": "every genesis file, bank and clock", "why_tests_cant": "Must hold after every interleaving of transactions and batches; each test runs one history.", "anchors": ["x/dex/types/genesis.go:Validate", "x/dex/keeper/genesis.go:InitGenesis"]}
{"id": "C72", "title": "Matching never leaves the number range", "statement": "When the end-of-block batch of a pair stays within a stated size (largest price times total amount below 2^314 raw), no 256-bit or 315-bit operation of the matching engine overflows, and it computes what exact arithmetic computes; when a batch ends at all, its effects are those of exact arithmetic.", "quantifier": "every reachable state, every book within the bound, every map iteration order", "why_tests_cant": "Overflow needs numbers beyond 10^38 in combinations no test enumerates.", "anchors": ["x/dex/amm/match.go:MatchAtSinglePrice", "x/dex/amm/match.go:PriceDirection", "x/dex/amm/view.go:MakeView", "x/dex/keeper/swap.go:Match"]}
{"id": "C73", "title": "All nodes compute the same state", "statement": "Whatever order Go's map iteration visits the orders in, the end-of-block batch completes or fails alike and leaves the same balances, orders, pools and pairs; two nodes that replay the same blocks and messages from the same genesis therefore end in the same state.", "quantifier": "every reachable state, every pair of iteration orders per block, every sequence of blocks and messages (accepted or rejected)", "why_tests_cant": "Map iteration order is random per run; tests see one order and agreement must hold for all of them.", "anchors": ["x/dex/amm/match.go:DistributeOrderAmountToTick", "x/dex/amm/match.go:DistributeOrderAmountToOrders", "x/dex/keeper/batch.go:ExecuteRequests", "x/dex/module/abci.go:EndBlocker"]}
{"id": "C74", "title": "Nobody can spend or cancel what belongs to another", "statement": "A message takes coins out of its signer's account only (a cancellation also releases the signer's own escrowed coins), changes and creates only orders and requests of its signer; over any history in which a user signs nothing, the user's balances never fall, none of the user's orders is canceled and none appears.", "quantifier": "every reachable state, every message, every history of messages of others, blocks and batches", "why_tests_cant": "Tests replay a few attacks; the guarantee is about every message anyone could send in any state.", "anchors": ["x/dex/keeper/swap.go:CancelOrder", "x/dex/keeper/swap.go:CancelAllOrders", "x/dex/keeper/swap.go:LimitOrder", "x/dex/keeper/pool.go:Deposit", "x/dex/keeper/pool.go:Withdraw", "x/dex/types/msgs.go:GetSigners"]}
{"id": "C75", "title": "An order is filled within its limit over its whole life", "statement": "At every moment the record of a stored order (open amount, remaining offer coin, received coin) is the sum of fills each within the order's limit price; so over all its batches a buyer pays on average at most the limit price and a seller gets at least it, up to less than one quote unit per fill.", "quantifier": "every reachable state and stored order, every number of batches it traded in", "why_tests_cant": "A test fills an order once or twice; the bound must hold for orders filled over any number of batches at any prices.", "anchors": ["x/dex/keeper/swap.go:ApplyMatchResult", "x/dex/keeper/swap.go:FinishOrder", "x/dex/types/order.go:NewUserOrder", "x/dex/amm/match.go:FillOrder"]}
{"id": "C76", "title": "The last price is the price of the last trade", "statement": "A batch changes a pair only in its batch number, which grows by one, and its last price. Either it fills none of the pair's orders and leaves the last price alone, or the new last price is one at which an order was just filled; in the first match all fills are at it, later all fills lie between the old and the new last price (falls from a price below one excepted).", "quantifier": "every reachable state, every batch, every pair, every map iteration order", "why_tests_cant": "The price reported depends on the whole order book and on the search direction; tests fix a few books.", "anchors": ["x/dex/amm/match.go:Match", "x/dex/amm/match.go:MatchAtSinglePrice", "x/dex/keeper/swap.go:ExecuteMatching", "x/dex/keeper/swap.go:Match"]}
{"id": "C77", "title": "Pairs trade independently", "statement": "What the end-of-block batch does to a pair, its orders, pools, pool coin supplies, requests, escrow and reserves depends on these alone: two states that agree on the pair agree on it after the batch, whatever other pairs, orders, pools and balances they hold. A message that names other pairs or pools leaves all of it untouched, so nothing others do elsewhere in a block changes the outcome for the pair.", "quantifier": "every two reachable states that agree on the pair, every sequence of messages for other pairs, every map iteration order", "why_tests_cant": "Interference would need particular combinations of activity on several pairs; tests use one pair at a time.", "anchors": ["x/dex/keeper/batch.go:ExecuteRequests", "x/dex/keeper/swap.go:ExecuteMatching", "x/dex/keeper/pool.go:ExecuteDepositRequest", "x/dex/keeper/pool.go:ExecuteWithdrawRequest", "x/dex/types/util.go:BulkSendCoinsOperation"]}
{"id": "C78", "title": "A disabled pool is closed for good", "statement": "From the moment a pool is disabled no deposit into it and no withdrawal from it is accepted, its record never changes again, none of its pool coins is minted or burned, no trade and no payment takes anything from its reserves (batches do not even add to them) and no request is ever left waiting for it. Messages never disable a pool; only a batch can.", "quantifier": "every reachable state with a disabled pool, every continuation by messages, blocks and batches", "why_tests_cant": "A test checks one disabled pool for a few blocks; the guarantee covers all later histories.", "anchors": ["x/dex/keeper/pool.go:MarkPoolAsDisabled", "x/dex/keeper/pool.go:Deposit", "x/dex/keeper/pool.go:Withdraw", "x/dex/keeper/pool.go:ExecuteDepositRequest", "x/dex/keeper/pool.go:ExecuteWithdrawRequest", "x/dex/keeper/swap.go:ExecuteMatching"]}
{"id": "C79", "title": "A batch takes from a pool only what its own orders sold", "statement": "Over the matching of a batch the reserve of a pool is either untouched, or the pool was active and not depleted, put up the buy and sell orders that its reserves call for within the price limits (at the batch price when the pair never traded), and what left and entered its reserve is exactly the sum of fills of these orders, each within its limit price and its amount, all of them buys or all of them sells; no other coin moves. Without deposits and withdrawals waiting this is all a batch does to the reserve.", "quantifier": "every reachable state, every pool, every batch, every order book, every map iteration order", "why_tests_cant": "The amounts depend on all orders and pools of the batch; a test sees a few books.", "anchors": ["x/dex/keeper/swap.go:ExecuteMatching", "x/dex/keeper/swap.go:Match", "x/dex/keeper/swap.go:ApplyMatchResult", "x/dex/amm/pool.go:PoolBuyOrders", "x/dex/amm/pool.go:PoolSellOrders"]}
{"id": "C80", "title": "The market clears", "statement": "At prices of at least one quote coin, once a match around a last price has run, no buy order and sell order whose limits meet can both still trade. Over a batch of a pair with a last price the same holds of the stored orders that took part: of a live buy and a live sell left over, the buy's limit is below the sell's, unless the buy has not the coins left to pay for one more coin at its limit, or had come in with less than its open amount costs (rounding) and bought all it could pay for.", "quantifier": "every book, every last price and lower price limit of at least one, every batch of every reachable state, every map iteration order", "why_tests_cant": "Whether crossing orders are left depends on all orders and pools of a book; tests run a few books.", "anchors": ["x/dex/amm/match.go:Match", "x/dex/amm/match.go:MatchAtSinglePrice", "x/dex/amm/match.go:PriceDirection", "x/dex/keeper/swap.go:ExecuteMatching", "x/dex/keeper/swap.go:Match"]}
{"id": "C81", "title": "Larger orders first, then users, then lower ids", "statement": "Among orders on one side with the same limit price and the same batch that share a fill, the larger order is served first, and among equal amounts a user's before a pool's and the lower id first: in a match at one price the order served first gets at least as much as the other, wherever the two stand in the book, if it can take as much; for new orders that can pay for their whole amount this holds without further condition.", "quantifier": "every book, every price, every pair of orders of one side, price and batch, every map iteration order", "why_tests_cant": "Who gets the odd coins depends on all orders of a level; tests look at a few levels.", "anchors": ["x/dex/amm/match.go:DistributeOrderAmountToOrders", "x/dex/amm/match.go:DistributeOrderAmountToTick", "x/dex/amm/order.go:HasPriority", "x/dex/types/order.go:HasPriority", "x/dex/amm/util.go:SortOrders"]}
{"id": "C82", "title": "A pool is closed when, and only when, it has run empty", "statement": "A pool that a batch disables has run empty when the batch is over: none of its pool coins is left, or a basic pool has nothing left of one of its two coins, or a ranged pool of both. Conversely an active pool that has run empty is disabled by the next batch, whatever else happens in it.", "quantifier": "every reachable state, every pool, every batch, every map iteration order", "why_tests_cant": "Which pools run empty depends on all trades and requests of a batch; a test closes one pool.", "anchors": ["x/dex/keeper/pool.go:MarkPoolAsDisabled", "x/dex/keeper/pool.go:ExecuteDepositRequest", "x/dex/keeper/pool.go:ExecuteWithdrawRequest", "x/dex/keeper/swap.go:ExecuteMatching", "x/dex/amm/pool.go:IsDepleted"]}
{"id": "C83", "title": "Pool coins can be cashed in", "statement": "A deposit or withdrawal that waits for the batch is refused only if it is too small: a deposit that would be given no pool coins, a withdrawal whose share is nothing of both coins. So whoever holds pool coins of a pool with reserves can get a share of them.", "quantifier": "every reachable state, every stored request, every batch, every map iteration order", "why_tests_cant": "Whether a request is refused depends on what the matching and the earlier requests of the batch did to the pool; tests run a few requests.", "anchors": ["x/dex/keeper/pool.go:ExecuteDepositRequest", "x/dex/keeper/pool.go:ExecuteWithdrawRequest", "x/dex/keeper/swap.go:ExecuteMatching", "x/dex/amm/pool.go:Withdraw", "x/dex/amm/pool.go:Deposit"]}
{"id": "C84", "title": "What the events report is what happened", "statement": "A client that adds up the events from genesis on knows the state of every order: the match events add up to what was filled, paid and received, the result event appears exactly once, when the order ends, and shows its owner, coins and final figures; once an order has ended no further event mentions it. The result event of a deposit or withdrawal appears exactly once, when it is executed, and shows what was accepted, minted, paid out and given back. The match events show trades in the two coins of the pair, with the amount of base coin that changed hands; no pool appears twice in a batch, and the pool match events add up to what the matching did to the reserves of each pool.", "quantifier": "every history from genesis, every order, request, pool and coin, every map iteration order", "why_tests_cant": "Whether the log adds up depends on every path by which an order can end or a request can be executed, over any number of batches; tests look at states, not at events.", "anchors": ["x/dex/keeper/swap.go:FinishOrder", "x/dex/keeper/swap.go:ApplyMatchResult", "x/dex/keeper/swap.go:CancelOrder", "x/dex/keeper/pool.go:FinishDepositRequest", "x/dex/keeper/pool.go:FinishWithdrawRequest", "x/dex/keeper/batch.go:ExecuteRequests"]}
{"id": "C85", "title": "A chain that is exported and started again keeps the exchange", "statement": "Exporting the state of a running chain and starting a new chain from the exported file gives the same parameters, balances, pairs, pools, requests and orders, so that owners can still withdraw, cancel and trade. A genesis file that passes validation is stored.", "quantifier": "every state of every history, every genesis file", "why_tests_cant": "Losses show only for states with pairs, pools and orders, and the theft only in what happens after the restart; the module's own test exports an empty state.", "anchors": ["x/dex/module/genesis.go:InitGenesis", "x/dex/module/genesis.go:ExportGenesis", "x/dex/module/module.go:InitGenesis", "x/dex/module/module.go:ExportGenesis", "x/dex/types/genesis.go:DefaultGenesis"]}
{"id": "C86", "title": "The authority, and nobody else, can change the parameters", "statement": "An UpdateParams message signed by the authority the module was set up with, carrying valid parameters, is accepted; from any other sender it is refused.", "quantifier": "every authority, sender, state and set of parameters", "why_tests_cant": "The module's own tests never send the message; that nobody at all is accepted is a statement about all senders.", "anchors": ["x/dex/keeper/keeper.go:NewKeeper", "x/dex/keeper/keeper.go:GetAuthority", "x/dex/keeper/msg_server.go:UpdateParams"]}
{"id": "C87", "title": "The module's accounts are different accounts", "statement": "The escrow accounts of the pairs, the reserve accounts of the pools, the account for pending requests, the two default collectors and the module account all have different addresses, unless the hash function has a collision; so coins held for one purpose cannot be mistaken for coins held for another.", "quantifier": "every pair id and pool id, every hash function", "why_tests_cant": "There are 2^64 ids of each kind; tests derive a few addresses.", "anchors": ["x/dex/types/pair.go:DeriveAddress", "x/dex/types/pair.go:PairEscrowAddress", "x/dex/types/pool.go:PoolReserveAddress", "x/dex/types/params.go:GlobalEscrowAddress"]}
{"id": "C88", "title": "Orders that do not cross rest", "statement": "When every buy order of a pair is priced below every sell order and the pair's pools are all priced between them, a batch trades nothing in the pair: the last price, every order's amounts and the pools' reserves stay, and an order changes only its status (waiting, or expired with its time over). Read the other way, a trade needs a buy order priced at or above a sell order.", "quantifier": "every set of orders, every last price, every reachable state and batch with or without a last price, any number of pools and other pairs", "why_tests_cant": "The engine has two matching phases, a price search and pool order generation; tests try a few books.", "anchors": ["x/dex/amm/match.go:Match", "x/dex/amm/match.go:MatchAtSinglePrice", "x/dex/keeper/swap.go:ExecuteMatching", "x/dex/keeper/swap.go:Match"]}
{"id": "C89", "title": "The parameters in force are the last ones accepted, and they make sense", "statement": "At every moment of every history the module's parameters are those of genesis or, if an UpdateParams message was accepted, those of the last one accepted, and they pass validation (positive batch size, positive minimum supply, fees of positive amounts of different coins, and so on). An update changes nothing but the parameters; no other message and no block boundary changes them.", "quantifier": "every history of blocks and messages, every set of parameters, every state", "why_tests_cant": "Any handler or batch step could write the parameters in some state; tests look at a few.", "anchors": ["x/dex/keeper/params.go:SetParams", "x/dex/keeper/msg_server.go:UpdateParams", "x/dex/types/params.go:Validate"]}
{"id": "C90", "title": "No live order or pending request is ever lost, and results stay until the next block", "statement": "Messages and batches remove nothing from the store: an order that has ended, and a request that has been executed, can still be read, unchanged, until the next block begins. Then exactly those leave and nothing else changes. Over any stretch of history an order or request is either still stored or was stored with a final status at some moment on the way.", "quantifier": "every history, every order and request, any number of blocks", "why_tests_cant": "Losing a record needs a particular interleaving of cancels, matches, expiries and block boundaries; tests follow a few.", "anchors": ["x/dex/keeper/batch.go:DeleteOutdatedRequests", "x/dex/keeper/batch.go:ExecuteRequests", "x/dex/module/abci.go:BeginBlocker", "x/dex/keeper/store.go:DeleteOrder"]}
{"id": "C91", "title": "A random tick can be any tick of the documented range, and is in it", "statement": "RandomTick(r, minPrice, maxPrice, prec) returns a tick between the two prices, both included as its documentation says, and every such tick can be returned.", "quantifier": "every random source, precision and pair of prices", "why_tests_cant": "Tests draw a few times from a few ranges; a tick that is never drawn does not show.", "anchors": ["x/dex/amm/tick.go:RandomTick"]}
{"id": "C92", "title": "The order book holds exactly the orders added, each at its price", "statement": "After any sequence of AddOrder calls, BuyOrdersAt(price) and SellOrdersAt(price) return exactly the orders of that side with that price which were taken in, in the order in which they were added, and nothing for a price nobody gave; Orders() returns each order taken in once, and HighestPrice() and LowestPrice() are the extreme prices of those.", "quantifier": "every list of orders, every price", "why_tests_cant": "The lookup is a binary search over a structure built incrementally; tests try a few books.", "anchors": ["x/dex/amm/orderbook.go:AddOrder", "x/dex/amm/orderbook.go:Orders", "x/dex/amm/orderbook.go:HighestPrice", "x/dex/amm/orderbook.go:LowestPrice", "x/dex/amm/orderbook.go:BuyOrdersAt", "x/dex/amm/orderbook.go:SellOrdersAt"]}
{"id": "C93", "title": "Every accepted message is announced by one event, and what the event says is true", "statement": "An accepted message emits exactly one announcement (a refused one emits none), naming the sender and the data of the message. What it says holds of the state afterwards: the pair, pool, request or order with the announced number is new and stored with exactly the announced contents; the announced coins are the coins that moved into the reserve or escrow, and the announced amount of pool coins was minted; the cancelled orders named are exactly the ones that became cancelled.", "quantifier": "every message in every reachable state", "why_tests_cant": "Events are computed from local variables of the handler; a wrong variable shows only for inputs where the two differ.", "anchors": ["x/dex/keeper/pair.go:CreatePair", "x/dex/keeper/pool.go:CreatePool", "x/dex/keeper/pool.go:CreateRangedPool", "x/dex/keeper/pool.go:Deposit", "x/dex/keeper/pool.go:Withdraw", "x/dex/keeper/swap.go:placeOrder", "x/dex/keeper/swap.go:CancelOrder", "x/dex/keeper/swap.go:CancelAllOrders"]}
{"id": "C94", "title": "Who came first does not matter within a batch", "statement": "Adding the same orders of users and pools to the order book in any sequence gives the same depth, the same match price, the same leftover and the same fill, charge and proceeds for every order. Even if the orders carry other ids, because they were submitted in another sequence, every order of the batch fares the same, as long as no two orders of one direction, price and batch are for the same amount.", "quantifier": "every set of orders, every sequence, every assignment of ids, every last price", "why_tests_cant": "The book stores orders by price in arrival sequence and splits by sorted groups; only particular sequences of equal prices could show a difference.", "anchors": ["x/dex/amm/orderbook.go:AddOrder", "x/dex/amm/match.go:Match", "x/dex/amm/match.go:DistributeOrderAmountToTick", "x/dex/amm/util.go:SortOrders", "x/dex/amm/util.go:GroupOrdersByBatchId", "x/dex/types/order.go:HasPriority"]}
{"id": "C95", "title": "Splitting a withdrawal brings nothing", "statement": "Redeeming pool coins in several requests, one after another, pays no more than redeeming the same amount in one request. In any case the requests together are paid at most the exact share of the reserves that the redeemed coins stand for, in both coins, so the value of a remaining pool coin never falls, and without a fee the gain is at most one coin and a 10^-18 part of the reserve.", "quantifier": "all reserves, supplies, fees and sequences of redemptions of any length", "why_tests_cant": "The rounding and the fee of each request change the reserves the next one is paid from; the effect accumulates over sequences no test enumerates.", "anchors": ["x/dex/amm/pool.go:Withdraw", "x/dex/keeper/pool.go:ExecuteWithdrawRequest"]}
