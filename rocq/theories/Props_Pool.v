(** Properties C06, C21-C28, C30, C54: pool arithmetic, pool orders and price limits.
    Reserves: [rx] quote coin, [ry] base coin; [ps] pool coin supply.  Raw decimals: 1.0 is
    [P18 = 10^18].  [ceil_value p a] / [floor_value p a] (MatchSpec) are price*amount rounded. *)
From Verif Require Import Base Dec TickModel TickSpec OrderModel MatchModel MatchSpec PoolModel PoolProofs PoolOrderProofs RangeProofs RangeCreate.

(** C06: when PriceLimits returns, both limits are ticks; they lie in the band
    last*(1-ratio) .. last*(1+ratio) up to half of the last decimal digit (the bound is computed
    with one rounded multiplication), and every tick of the exact band lies within the limits.
    It does return whenever the lower bound does not round to zero. *)
Theorem C06_price_limits : forall last ratio prec, 0 <= prec -> 0 < last -> 0 <= ratio < P18 ->
  (forall lo hi, price_limits last ratio prec = Ok (lo, hi) ->
     is_tick prec lo /\ is_tick prec hi /\
     2 * last * (P18 - ratio) - P18 <= 2 * lo * P18 /\ 2 * hi * P18 <= 2 * last * (P18 + ratio) + P18 /\
     (forall t, is_tick prec t -> last * (P18 - ratio) <= t * P18 <= last * (P18 + ratio) -> lo <= t <= hi)) /\
  (P18 < 2 * last * (P18 - ratio) -> last < 2 ^ 314 -> exists lo hi, price_limits last ratio prec = Ok (lo, hi)).
Proof.
  intros last ratio prec Hp Hl Hr. split.
  - intros lo hi H. exact (price_limits_spec last ratio prec lo hi Hp Hl Hr H).
  - intros H1 H2. apply price_limits_ok; lia.
Qed.
Print Assumptions C06_price_limits.
Example C06_example : price_limits 1234500000000000000 100000000000000000 4 = Ok (1111100000000000000, 1357900000000000000).
Proof. vm_compute. reflexivity. Qed.

(** C21: a deposit never panics, accepts at most what was offered, nothing is negative, and
    without minted pool coins nothing is accepted.  Includes single sided pools. *)
Theorem C21_deposit_bounds : forall rx ry ps x y, 0 <= rx -> 0 <= ry -> 0 < rx + ry -> 0 < ps -> 0 <= x -> 0 <= y ->
  exists ax ay pc, deposit rx ry ps x y = Ok (ax, ay, pc) /\
    0 <= ax <= x /\ 0 <= ay <= y /\ 0 <= pc /\ (pc = 0 -> ax = 0 /\ ay = 0).
Proof.
  intros rx ry ps x y Hrx Hry Hr Hps Hx Hy. destruct (deposit_total rx ry ps x y Hrx Hry Hr Hps) as (ax & ay & pc & E).
  exists ax, ay, pc. split; [exact E|].
  destruct (deposit_facts _ _ _ _ _ _ _ _ Hrx Hry Hr Hps Hx Hy E) as (A & B & C & D & _). auto.
Qed.
Print Assumptions C21_deposit_bounds.
Example C21_example : deposit 1000 2000 1000000 333 777 = Ok (333, 666, 333000) /\ deposit 0 2000 1000000 333 777 = Ok (0, 777, 388500).
Proof. vm_compute. auto. Qed.

(** C22, proved part: the pool coins minted never exceed the share of either offered amount, and
    exceed the share of the accepted amount by less than 10^-18 of the pool ([pc/ps - ax/rx <= 10^-18]);
    without overflow they are also the most the offer allows, up to one pool coin and the 18 digit
    truncation of the deposit ratio (so holders are not diluted and depositors not short-changed). *)
Theorem C22_no_dilution_partial : forall rx ry ps x y ax ay pc,
  0 <= rx -> 0 <= ry -> 0 < rx + ry -> 0 < ps -> 0 <= x -> 0 <= y ->
  deposit rx ry ps x y = Ok (ax, ay, pc) ->
  pc * rx <= x * ps /\ pc * ry <= y * ps /\
  P18 * (pc * rx - ax * ps) <= ps * rx /\ P18 * (pc * ry - ay * ps) <= ps * ry /\
  (ps * (x + y) < 2 ^ 255 ->
    (0 < rx /\ P18 * (x * ps - (pc + 1) * rx) < ps * rx) \/ (0 < ry /\ P18 * (y * ps - (pc + 1) * ry) < ps * ry)).
Proof.
  intros rx ry ps x y ax ay pc Hrx Hry Hr Hps Hx Hy E.
  destruct (deposit_facts _ _ _ _ _ _ _ _ Hrx Hry Hr Hps Hx Hy E) as (_ & _ & _ & _ & A & B & C & D).
  split; [exact A|]. split; [exact B|]. split; [exact C|]. split; [exact D|]. intros Ho.
  exact (deposit_mint_lower _ _ _ _ _ _ _ _ Hrx Hry Hr Hps Hx Hy Ho E).
Qed.
Print Assumptions C22_no_dilution_partial.

(** C22, full property is false of the code: the mint proportion is rounded to 18 digits before it
    is multiplied by the reserve, so for reserves above 10^18 the accepted share can be smaller
    than the minted share. *)
Theorem C22_no_dilution_refuted : exists rx ry ps x y ax ay pc,
  0 < rx /\ 0 < ry /\ 0 < ps /\ 0 < x /\ 0 < y /\ deposit rx ry ps x y = Ok (ax, ay, pc) /\ ay * ps < pc * ry.
Proof.
  exists 2365295173136, 929302337290101610756304, 400375, 959847562811, 377115124443014596580756.
  do 3 eexists. do 5 (split; [reflexivity|]). split; [vm_compute; reflexivity|]. vm_compute. reflexivity.
Qed.
Print Assumptions C22_no_dilution_refuted.

(** C23: a redemption never panics; it pays at most the pro rata share less the fee, in particular
    never more than the reserve; redeeming the whole supply pays the whole reserve. Without
    overflow it is short of the share by at most one coin plus the truncation of the proportion. *)
Theorem C23_withdraw : forall rx ry ps pc fee, 0 <= rx -> 0 <= ry -> 0 < ps -> 0 <= pc <= ps -> 0 <= fee <= P18 ->
  exists x y, withdraw rx ry ps pc fee = Ok (x, y) /\
    0 <= x <= rx /\ 0 <= y <= ry /\ (pc = ps -> x = rx /\ y = ry) /\
    (pc <> ps -> x * P18 * ps <= rx * pc * (P18 - fee) /\ y * P18 * ps <= ry * pc * (P18 - fee)) /\
    (rx < 2 ^ 255 -> ry < 2 ^ 255 ->
       rx * (P18 - fee) * (pc * P18 - ps) < (x + 1) * P18 * P18 * ps /\
       ry * (P18 - fee) * (pc * P18 - ps) < (y + 1) * P18 * P18 * ps).
Proof.
  intros rx ry ps pc fee Hrx Hry Hps Hpc Hf. destruct (withdraw_total rx ry ps pc fee Hps) as (x & y & E).
  exists x, y. split; [exact E|].
  destruct (withdraw_facts _ _ _ _ _ _ _ Hrx Hry Hps Hpc Hf E) as (A & B & C & D).
  split; [exact A|]. split; [exact B|]. split; [exact C|]. split; [exact D|]. intros Bx By.
  exact (withdraw_lower rx ry ps pc fee x y (conj Hrx Bx) (conj Hry By) Hps Hpc Hf E).
Qed.
Print Assumptions C23_withdraw.
Example C23_example : withdraw 1000 2001 1000000 250000 3000000000000000 = Ok (249, 498) /\ withdraw 1000 2001 77 77 3000000000000000 = Ok (1000, 2001).
Proof. vm_compute. auto. Qed.

(** C24, proved part: depositing and redeeming at once returns at most what was accepted plus
    10^-18 of the reserve; never more than accepted when the reserve is below 10^18. *)
Theorem C24_no_profit_partial : forall rx ry ps x y ax ay pc fee wx wy,
  0 <= rx -> 0 <= ry -> 0 < rx + ry -> 0 < ps -> 0 <= x -> 0 <= y -> 0 <= fee <= P18 ->
  deposit rx ry ps x y = Ok (ax, ay, pc) -> withdraw (rx + ax) (ry + ay) (ps + pc) pc fee = Ok (wx, wy) ->
  P18 * (wx - ax) <= rx /\ P18 * (wy - ay) <= ry /\ (rx < P18 -> wx <= ax) /\ (ry < P18 -> wy <= ay).
Proof. exact deposit_withdraw. Qed.
Print Assumptions C24_no_profit_partial.
Example C24_example : deposit 1001 2000 1000000 333 777 = Ok (333, 666, 332667) /\ withdraw (1001 + 333) (2000 + 666) (1000000 + 332667) 332667 0 = Ok (332, 665).
Proof. vm_compute. auto. Qed.
(** C24, full property is false of the code for large reserves (same cause as C22). *)
Theorem C24_no_profit_refuted : exists rx ry ps x y ax ay pc wx wy,
  0 < rx /\ 0 < ry /\ 0 < ps /\ 0 < x /\ 0 < y /\ deposit rx ry ps x y = Ok (ax, ay, pc) /\
  withdraw (rx + ax) (ry + ay) (ps + pc) pc 0 = Ok (wx, wy) /\ ay < wy.
Proof.
  exists 2365295173136, 929302337290101610756304, 400375, 959847562811, 377115124443014596580756.
  do 5 eexists. do 5 (split; [reflexivity|]). split; [vm_compute; reflexivity|]. split; vm_compute; reflexivity.
Qed.
Print Assumptions C24_no_profit_refuted.

(** ** Orders of a pool.  [pool_buy_orders p lo hi prec = Some os]: PoolBuyOrders emits the orders
    [os], a list of (price, amount); [None] would mean that the loop never ends. *)
Definition pool_state (p : pool) (pp : dec) : Prop := 0 <= p_rx p /\ 0 <= p_ry p /\ pool_price p = Ok pp /\ 0 <= pp.
Definition limits (prec lo hi : Z) : Prop := 0 <= prec /\ 0 < lo <= hi /\ is_tick prec lo /\ is_tick prec hi.

(** C25: filling every emitted buy order completely at its own price (the most it can cost) costs
    at most the quote reserve; the emitted sell orders together sell at most the base reserve. *)
Theorem C25_orders_covered : forall p pp lo hi prec, pool_state p pp -> limits prec lo hi ->
  (forall os, pool_buy_orders p lo hi prec = Some os -> sumZ (map (fun o => ceil_value (fst o) (snd o)) os) <= p_rx p) /\
  (forall os, pool_sell_orders p lo hi prec = Some os -> sumZ (map snd os) <= p_ry p).
Proof.
  intros p pp lo hi prec (Hx & Hy & Ep & Hpp) (Hp & Hlh & Tl & Th). split; intros os E.
  - exact (proj1 (proj1 (pool_buy_orders_spec p lo hi prec pp Hp Hlh Th Hx Hy Ep) os E)).
  - exact (proj1 (proj1 (pool_sell_orders_spec p lo hi prec pp Hp Hlh Tl Hx Hy Ep Hpp) os E)).
Qed.
Print Assumptions C25_orders_covered.

(** C26: every emitted order is on a tick within the limits, on the pool's side of its price,
    with an amount in the allowed range; a sell order is worth at least one quote coin; buy orders
    come best first, and so do sell orders. *)
Theorem C26_orders_well_formed : forall p pp lo hi prec, pool_state p pp -> limits prec lo hi ->
  (forall os, pool_buy_orders p lo hi prec = Some os ->
     (forall price amt, In (price, amt) os -> is_tick prec price /\ lo <= price <= hi /\ price < pp /\ min_coin_amount <= amt <= max_coin_amount) /\
     (forall i j, (i <= j < length os)%nat -> fst (nth j os (0, 0)) <= fst (nth i os (0, 0)))) /\
  (forall os, pool_sell_orders p lo hi prec = Some os ->
     (forall price amt, In (price, amt) os -> is_tick prec price /\ lo <= price <= hi /\ pp < price /\ min_coin_amount <= amt /\ 1 <= floor_value price amt) /\
     (forall i j, (i <= j < length os)%nat -> fst (nth i os (0, 0)) <= fst (nth j os (0, 0)))).
Proof.
  intros p pp lo hi prec (Hx & Hy & Ep & Hpp) (Hp & Hlh & Tl & Th). split; intros os E.
  - destruct (proj1 (pool_buy_orders_spec p lo hi prec pp Hp Hlh Th Hx Hy Ep) os E) as (_ & F & D).
    split; [intros price amt Hin; exact (proj1 (Forall_forall _ _) F _ Hin)|exact (desc_from_nth os hi D)].
  - destruct (proj1 (pool_sell_orders_spec p lo hi prec pp Hp Hlh Tl Hx Hy Ep Hpp) os E) as (_ & F & D).
    split; [|exact (asc_from_nth os lo D)].
    intros price amt Hin. destruct (proj1 (Forall_forall _ _) F _ Hin) as (A & B & C & G & I). cbn [fst snd] in *. auto with zarith.
Qed.
Print Assumptions C26_orders_well_formed.

(** C27: no emitted buy order's price reaches an emitted sell order's price: the pool price lies
    strictly between. *)
Theorem C27_no_self_match : forall p pp lo hi prec bs ss, pool_state p pp -> limits prec lo hi ->
  pool_buy_orders p lo hi prec = Some bs -> pool_sell_orders p lo hi prec = Some ss ->
  forall b s, In b bs -> In s ss -> fst b < pp < fst s.
Proof.
  intros p pp lo hi prec bs ss Hst Hlim EB ES b s Hb Hs. destruct (C26_orders_well_formed p pp lo hi prec Hst Hlim) as [B S].
  destruct b as [bp ba], s as [sp sa]. split.
  - exact (proj1 (proj2 (proj2 (proj1 (B bs EB) bp ba Hb)))).
  - exact (proj1 (proj2 (proj2 (proj1 (S ss ES) sp sa Hs)))).
Qed.
Print Assumptions C27_no_self_match.

(** C54: both generators finish (for prices and reserves the chain's integers can hold). *)
Theorem C54_order_generation_terminates : forall p pp lo hi prec, pool_state p pp -> limits prec lo hi ->
  hi < 2 ^ 315 -> p_rx p < 2 ^ 256 -> p_ry p < 2 ^ 256 ->
  (exists os, pool_buy_orders p lo hi prec = Some os) /\ (exists os, pool_sell_orders p lo hi prec = Some os).
Proof.
  intros p pp lo hi prec (Hx & Hy & Ep & Hpp) (Hp & Hlh & Tl & Th) Hh Bx By. split.
  - exact (proj2 (pool_buy_orders_spec p lo hi prec pp Hp Hlh Th Hx Hy Ep) Hh Bx).
  - exact (proj2 (pool_sell_orders_spec p lo hi prec pp Hp Hlh Tl Hx Hy Ep Hpp) Hh By).
Qed.
Print Assumptions C54_order_generation_terminates.

(** Non-vacuity of the hypotheses of C25-C27 and C54, and what is emitted: a basic pool at price 1
    and a ranged pool, limits 0.9 .. 1.1, precision 3. *)
Definition lo1 : Z := 900000000000000000.
Definition hi1 : Z := 1100000000000000000.
Definition bpool : pool := Basic 1000000 1000000 1000000.
Definition rpool : pool := match new_ranged_pool 1000000 1000000 1000000 500000000000000000 2000000000000000000 with Ok p => p | _ => bpool end.
Example C25_limits : limits 3 lo1 hi1.
Proof. split; [discriminate|]. split; [split; [reflexivity|discriminate]|]. split; [exists 9, 17|exists 11, 17]; repeat split; discriminate. Qed.
Example C25_basic : pool_state bpool P18.
Proof. split; [discriminate|]. split; [discriminate|]. split; [reflexivity|discriminate]. Qed.
Example C25_ranged : exists pp, pool_state rpool pp /\ rpool <> bpool.
Proof.
  eexists. split; [|vm_compute; discriminate]. split; [vm_compute; discriminate|]. split; [vm_compute; discriminate|].
  split; [vm_compute; reflexivity|discriminate].
Qed.
Example C25_emits : exists b1 s1 b2 s2,
  pool_buy_orders bpool lo1 hi1 3 = Some b1 /\ pool_sell_orders bpool lo1 hi1 3 = Some s1 /\
  pool_buy_orders rpool lo1 hi1 3 = Some b2 /\ pool_sell_orders rpool lo1 hi1 3 = Some s2 /\
  (10 <= length b1 /\ 10 <= length s1 /\ 10 <= length b2 /\ 10 <= length s2)%nat.
Proof.
  do 4 eexists. split; [vm_compute; reflexivity|]. split; [vm_compute; reflexivity|]. split; [vm_compute; reflexivity|].
  split; [vm_compute; reflexivity|]. cbn. lia.
Qed.

(** C28: the initial pool coin supply does not depend on the order of the two amounts; for
    positive amounts it is a power of ten just above their geometric mean:
    sqrt(x*y) < supply <= sqrt(1000*x*y). *)
Theorem C28_initial_supply : forall x y,
  initial_pool_coin_supply x y = initial_pool_coin_supply y x /\
  (0 < x -> 0 < y -> exists c, 0 < c /\ initial_pool_coin_supply x y = 10 ^ c /\ x * y < 10 ^ c * 10 ^ c <= 1000 * (x * y)).
Proof. exact (fun x y => conj (initial_supply_sym x y) (initial_supply_facts x y)). Qed.
Print Assumptions C28_initial_supply.
Example C28_example : initial_pool_coin_supply 999 12345 = 10000 /\ initial_pool_coin_supply 1000000 1000000 = 10000000.
Proof. vm_compute. auto. Qed.

(** C30, proved part: partially or fully filling the order a basic pool offers at a price (buy
    [buy_amount_over], sell [sell_amount_under]) at any price at least as good for the pool loses
    at most one quote coin against the constant product: rx*ry <= (rx'+1)*ry'. *)
Theorem C30_product_partial : forall rx ry ps price amt fp a, 0 <= rx -> 0 <= ry -> 0 < price <= P18 * P18 -> 0 < fp -> 0 <= a <= amt ->
  (buy_amount_over (Basic rx ry ps) price = Ok amt -> fp <= price ->
     0 <= rx - ceil_value fp a /\ rx * ry <= (rx - ceil_value fp a + 1) * (ry + a)) /\
  (sell_amount_under (Basic rx ry ps) price = Ok amt -> price <= fp ->
     0 <= ry - a /\ rx * ry <= (rx + floor_value fp a + 1) * (ry - a)).
Proof.
  intros rx ry ps price amt fp a Hx Hy Hpr Hfp Ha. split; intros E Hle.
  - exact (basic_buy_product rx ry ps price amt fp a Hx Hy (conj Hfp Hle) E Ha).
  - exact (basic_sell_product rx ry ps price amt fp a Hx Hy Hpr Hle E Ha).
Qed.
Print Assumptions C30_product_partial.
Example C30_example : buy_amount_over (Basic 1000000 1000000 1) 900000000000000000 = Ok 111111 /\ sell_amount_under (Basic 1000000 1000000 1) 1100000000000000000 = Ok 90909.
Proof. vm_compute. auto. Qed.
(** C30, full property is false of the code: the coins are rounded against the pool. *)
Theorem C30_product_refuted : exists rx ry ps price amt,
  0 < rx /\ 0 < ry /\ 0 < price /\ min_coin_amount <= amt /\ buy_amount_over (Basic rx ry ps) price = Ok amt /\
  (rx - ceil_value price amt) * (ry + amt) < rx * ry.
Proof.
  exists 1000, 1000, 1000, 900000000000000000. eexists. do 3 (split; [reflexivity|]).
  split; [|split; [vm_compute; reflexivity|vm_compute; reflexivity]]. vm_compute. discriminate.
Qed.
Print Assumptions C30_product_refuted.

(** C29: a ranged pool is created only from a positive offer and valid parameters (1e-15 <= min
    < max <= 1e20, relative gap at least 0.001, initial price in the range); it takes at most the
    offered amount of each coin and all of at least one of them. *)
Theorem C29_create_ranged : forall x y minp maxp initp p, 0 <= x -> 0 <= y ->
  create_ranged_pool x y minp maxp initp = Ok (Some p) ->
  p_rx p <= x /\ p_ry p <= y /\ (p_rx p = x \/ p_ry p = y) /\ (0 < x \/ 0 < y) /\
  1000 <= minp < maxp /\ maxp <= 10 ^ 38 /\ 10 ^ 15 <= dquo (maxp - minp) minp /\ minp <= initp <= maxp /\
  exists tx ty, p = Ranged (p_rx p) (p_ry p) (initial_pool_coin_supply (p_rx p) (p_ry p)) minp maxp tx ty.
Proof.
  intros x y minp maxp initp p Hx Hy H.
  pose proof (create_ranged_accepts x y minp maxp initp p Hx Hy H) as [A B].
  pose proof (create_ranged_facts x y minp maxp initp p H) as (C & (D1 & D2 & D3) & E & F & G).
  exact (conj A (conj B (conj F (conj C (conj D1 (conj D2 (conj D3 (conj E G)))))))).
Qed.
Print Assumptions C29_create_ranged.
Example C29_example : exists p, create_ranged_pool 1000000 900000 500000000000000000 2000000000000000000 1000000000000000000 = Ok (Some p)
  /\ p_rx p = 900000 /\ p_ry p = 900000.
Proof. eexists. split; [vm_compute; reflexivity|]. vm_compute. auto. Qed.

(** C55, proved part: whatever reserves a ranged pool with a valid range gets, the price it derives
    from them is not negative. *)
Theorem C55_ranged_price_partial : forall minp maxp initp rx ry ps p pp,
  validate_ranged_pool_params minp maxp initp = Ok true -> 0 <= rx -> 0 <= ry ->
  new_ranged_pool rx ry ps minp maxp = Ok p -> pool_price p = Ok pp -> 0 <= pp.
Proof.
  intros minp maxp initp rx ry ps p pp V Hx Hy H Hpp. apply validate_good_range in V.
  exact (ranged_price_nonneg rx ry rx ry ps minp maxp 0 0 p pp (proj1 V) Hx Hy H Hpp).
Qed.
Print Assumptions C55_ranged_price_partial.
(** C55, full property is false of the code: with a narrow range at tiny prices and a large one
    sided reserve the derived price is below the pool's minimum price. *)
Theorem C55_ranged_price_refuted : exists minp maxp rx ry ps p pp,
  validate_ranged_pool_params minp maxp minp = Ok true /\ 0 < rx /\ 0 < ry /\
  new_ranged_pool rx ry ps minp maxp = Ok p /\ pool_price p = Ok pp /\ pp < minp.
Proof.
  exists 15964, 15981, 846148364989691904, 1, 1. eexists. eexists. split; [vm_compute; reflexivity|]. split; [reflexivity|]. split; [reflexivity|].
  split; [vm_compute; reflexivity|]. split; [vm_compute; reflexivity|]. reflexivity.
Qed.
Print Assumptions C55_ranged_price_refuted.
Example C55_example : exists p, new_ranged_pool 1000000 1000000 1 500000000000000000 2000000000000000000 = Ok p /\ pool_price p = Ok (P18 + 1).
Proof. eexists. split; [vm_compute; reflexivity|]. vm_compute. reflexivity. Qed.
