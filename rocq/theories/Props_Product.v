(** Property C30, for the whole list of orders a basic pool puts into a batch. *)
From Verif Require Import Base Dec DecProofs TickModel TickSpec TickProofs OrderModel MatchModel MatchSpec OrderProofs PoolModel PoolProofs PoolOrderProofs ProductSpec PoolProduct PoolProduct2.

(** ** C30: trading with its orders never shrinks the product of the pool's reserves. *)

(** C30, buy orders.  However the emitted buy orders are filled (any of them, any part, any number of
    fills, each at the order's price or a better one), the reserves stay nonnegative and the product is at
    least the old one when one coin is added back per fill, plus [E] coins when the pool's price was above
    the upper limit (the first order is then sized with decimal square roots).  Missing: without the coins
    added back it is false (C30_product_refuted). *)
Theorem C30_all_buys_partial : forall rx ry ps lowest highest prec pp os fss E,
  0 <= prec -> 0 < lowest <= highest -> is_tick prec highest -> 0 < rx <= 10 ^ 40 -> 0 < ry <= 10 ^ 40 ->
  pool_price (Basic rx ry ps) = Ok pp -> 0 <= E -> pp <= highest \/ sized rx ry highest E ->
  pool_buy_orders (Basic rx ry ps) lowest highest prec = Some os -> bought os fss ->
  0 <= rx - cost_all fss /\ rx * ry <= (rx - cost_all fss + fills_all fss + E) * (ry + base_all fss).
Proof.
  intros rx ry ps lowest highest prec pp os fss E Hp Hl Ht Hx Hy Epp HE Sz H F.
  destruct (basic_buys rx ry ps lowest highest prec pp os E Hp Hl Ht Hx Hy Epp Sz H) as (rx1 & ry1 & C). pose proof (proj1 (buys_front E rx ry os rx1 ry1 HE C)) as C'.
  split; [|apply (bought_any_product os); try assumption; lia]. pose proof (bought_covered os E rx ry fss HE ltac:(lia) ltac:(lia) C' F). lia.
Qed.
Print Assumptions C30_all_buys_partial.

(** C30, sell orders: the shortfall is at most one quote coin's worth of the base reserve per fill, plus
    [E] when the pool's price was below the lower limit. *)
Theorem C30_all_sells_partial : forall rx ry ps lowest highest prec pp os fss E,
  0 <= prec -> 0 < lowest <= highest -> highest <= P18 * P18 -> is_tick prec lowest -> 0 < rx <= 10 ^ 40 -> 0 < ry <= 10 ^ 40 ->
  pool_price (Basic rx ry ps) = Ok pp -> 0 <= E -> lowest <= pp \/ sized rx ry lowest E ->
  pool_sell_orders (Basic rx ry ps) lowest highest prec = Some os -> sold os fss ->
  0 <= ry - base_all fss /\ rx * ry <= (rx + gain_all fss) * (ry - base_all fss) + (fills_all fss + E) * ry.
Proof.
  intros rx ry ps lowest highest prec pp os fss E Hp Hl Hh Ht Hx Hy Epp HE Sz H F.
  destruct (basic_sells rx ry ps lowest highest prec pp os E Hp Hl Hh Ht Hx Hy Epp Sz H) as (rx1 & ry1 & C).
  destruct (sold_any_product os E rx ry fss HE ltac:(lia) ltac:(lia) (proj1 (sells_front E rx ry os rx1 ry1 HE C)) F) as [A B]. split; [lia|exact B].
Qed.
Print Assumptions C30_all_sells_partial.
(** Both first orders are the ones sized with square roots; the third buy order is filled in part, in two fills. *)
Example C30_all_example :
  pool_price (Basic 1000000 1000000 1) = Ok P18 /\ sized 1000000 1000000 (95 * P18 / 100) 1 /\ sized 1000000 1000000 (105 * P18 / 100) 1 /\
  pool_buy_orders (Basic 1000000 1000000 1) (94 * P18 / 100) (95 * P18 / 100) 2 =
    Some [(950000000000000000, 26653); (949000000000000000, 406); (946000000000000000, 2849); (943000000000000000, 417); (940000000000000000, 2869)] /\
  bought [(950000000000000000, 26653); (949000000000000000, 406); (946000000000000000, 2849); (943000000000000000, 417); (940000000000000000, 2869)]
    [[(26653, 940000000000000000)]; []; [(500, 946000000000000000); (700, 940000000000000000)]; []; [(100, 940000000000000000)]] /\
  pool_sell_orders (Basic 1000000 1000000 1) (105 * P18 / 100) (107 * P18 / 100) 2 = Some [(1050000000000000000, 24099); (1060000000000000000, 8634); (1070000000000000000, 486)] /\
  sold [(1050000000000000000, 24099); (1060000000000000000, 8634); (1070000000000000000, 486)] [[(24099, 1050000000000000000)]; []; [(100, 1070000000000000000)]].
Proof.
  split; [vm_compute; reflexivity|]. split; [exists 1000, 1; vm_compute; repeat (split; try discriminate)|]. split; [exists 1000, 2; vm_compute; repeat (split; try discriminate)|].
  split; [vm_compute; reflexivity|]. split; [repeat (apply Forall2_cons; [split; [repeat constructor; vm_compute; congruence|vm_compute; split; congruence]|]); constructor|].
  split; [vm_compute; reflexivity|]. repeat (apply Forall2_cons; [split; [repeat constructor; vm_compute; congruence|vm_compute; congruence]|]); constructor.
Qed.
