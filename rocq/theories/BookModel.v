(** Looking up a price in the order book: BuyOrdersAt, SellOrdersAt and orderBookTicks.ordersAt,
    amm/orderbook.go:49-59, 187-193. *)
From Verif Require Import Base Dec OrderModel MatchModel.

(** ordersAt, amm/orderbook.go:187-193. *)
Definition ticks_at (increasing : bool) (ts : list tick) (price : dec) : list nat :=
  let '(i, exact) := find_price increasing ts price in
  if exact then snd (nth (Z.to_nat i) ts (0, [])) else [].
(** BuyOrdersAt and SellOrdersAt, amm/orderbook.go:49-59. *)
Definition buy_orders_at (ob : book) (price : dec) : list nat := ticks_at false (buys ob) price.
Definition sell_orders_at (ob : book) (price : dec) : list nat := ticks_at true (sells ob) price.
