(** Proofs about the orders a pool emits. *)
From Verif Require Import Base Dec DecProofs TickModel TickSpec TickProofs OrderModel MatchModel MatchSpec OrderProofs PoolModel PoolProofs.

Opaque P18.

(** ** Loops *)
Lemma iter_until_inv {S R} (step : S -> S + R) (Inv : S -> Prop) (Q : R -> Prop) :
  (forall s, Inv s -> match step s with inl s' => Inv s' | inr r => Q r end) ->
  forall n s, Inv s -> match iter_until n step s with inl s' => Inv s' | inr r => Q r end.
Proof.
  intros H n. induction n as [|n IH]; intros s Hs; cbn; [apply H; assumption|].
  specialize (IH s Hs) as IH1. destruct (iter_until n step s) as [s'|r]; [|assumption]. apply IH. assumption.
Qed.

Lemma iter_until_term {S R} (step : S -> S + R) (Inv : S -> Prop) (mu : S -> Z) :
  (forall s s', Inv s -> step s = inl s' -> Inv s' /\ 0 <= mu s' < mu s) ->
  forall n s, Inv s -> mu s < 2 ^ Z.of_nat n -> exists r, iter_until n step s = inr r.
Proof.
  intros H.
  assert (G : forall n s, Inv s -> match iter_until n step s with inl s' => Inv s' /\ 0 <= mu s' <= mu s - 2 ^ Z.of_nat n | inr _ => True end).
  { intros n. induction n as [|n IH]; intros s Hs.
    - cbn. destruct (step s) as [s'|r] eqn:E; [|exact I]. destruct (H s s' Hs E). change (2 ^ Z.of_nat 0) with 1. split; [assumption|lia].
    - cbn [iter_until]. specialize (IH s Hs) as I1. destruct (iter_until n step s) as [s1|r]; [|exact I].
      destruct I1 as [I1 B1]. specialize (IH s1 I1) as I2. destruct (iter_until n step s1) as [s2|r]; [|exact I].
      destruct I2 as [I2 B2]. split; [assumption|]. rewrite Nat2Z.inj_succ, Z.pow_succ_r by lia. lia. }
  intros n s Hs Hm. specialize (G n s Hs). destruct (iter_until n step s) as [s'|r]; [|eauto]. destruct G; lia.
Qed.

(** ** Square roots are non negative. *)
Lemma sqrt_loop_pos fuel : forall d g delta, 0 <= d -> 0 < g -> 0 < sqrt_loop fuel d g delta.
Proof.
  induction fuel as [|k IH]; intros d g delta Hd Hg; cbn [sqrt_loop]; [assumption|].
  destruct (Z.abs delta <=? 1); [assumption|]. destruct (Z.eqb_spec g 0); [lia|].
  apply IH; [assumption|]. unfold dquo_int.
  assert (0 <= dquo d g). { unfold dquo. apply chop_round_nonneg. pose proof P18_pos. rewrite Z.quot_div_nonneg by nia. apply Z.div_pos; nia. }
  pose proof (Z.quot_rem' (dquo d g - g) 2). pose proof (Z.rem_bound_abs (dquo d g - g) 2 ltac:(lia)).
  assert (- g <= dquo d g - g) by lia.
  destruct (Z_le_gt_dec 0 (dquo d g - g)).
  - assert (0 <= Z.quot (dquo d g - g) 2) by (apply Z.quot_pos; lia). lia.
  - pose proof (Z.rem_nonpos (dquo d g - g) 2 ltac:(lia) ltac:(lia)). lia.
Qed.
Lemma dsqrt_nonneg d : 0 <= d -> 0 <= dsqrt d.
Proof.
  intros H. unfold dsqrt. destruct (Z.ltb_spec d 0); [lia|]. unfold dsqrt_nn.
  destruct ((d =? 0) || (d =? one_dec)); [assumption|]. apply Z.lt_le_incl, sqrt_loop_pos; [assumption|reflexivity].
Qed.
Lemma dsqrt_pos d : 0 < d -> 0 < dsqrt d.
Proof.
  intros H. unfold dsqrt. destruct (Z.ltb_spec d 0); [lia|]. unfold dsqrt_nn.
  destruct ((d =? 0) || (d =? one_dec)); [assumption|]. apply sqrt_loop_pos; [lia|reflexivity].
Qed.

(** ** Amounts *)
Lemma capped_quo_spec dx price a : 0 <= dx -> 0 < price -> capped_quo dx price = Ok a ->
  0 <= a <= max_coin_amount /\ price * a <= dx.
Proof.
  intros Hd Hpr H. pose proof P18_pos as Hp. unfold capped_quo in H. apply safe_math_ok in H.
  assert (Hmax : 0 < max_coin_amount) by reflexivity.
  assert (Q0 : 0 <= dx * P18 / price) by (apply Z.div_pos; nia).
  pose proof (div_bounds (dx * P18) price Hpr) as Bq.
  pose proof (dtrunc_bounds _ Q0) as Bt.
  destruct H as [H|[H ->]].
  - inv_ok. subst. rewrite dquo_trunc_nn in * by lia.
    pose proof (dtrunc_nonneg _ Q0).
    set (v := dtrunc (dx * P18 / price)) in *.
    assert (price * v <= dx) by (assert (price * v * P18 <= dx * P18) by nia; nia).
    destruct (Z.ltb_spec max_coin_amount v); split; nia.
  - split; [lia|].
    assert (B : max_coin_amount * P18 <= dx * P18 / price).
    { unfold c_quo_trunc in H. destruct (Z.eqb_spec price 0); [lia|]. rewrite dquo_trunc_nn in H by lia.
      destruct (chk_dec (dx * P18 / price)) as [q| |] eqn:E.
      - cbn [rbind] in H. apply chk_dec_ok in E. destruct E as [-> _].
        unfold c_trunc in H. destruct (chk_int (dtrunc (dx * P18 / price))) as [t| |] eqn:E2; cbn [rbind] in H; try discriminate.
        apply chk_int_overflow in E2. rewrite Z.abs_eq in E2 by (apply dtrunc_nonneg; assumption).
        assert (max_coin_amount <= 2 ^ 256) by (vm_compute; discriminate). nia.
      - apply chk_dec_overflow in E. rewrite Z.abs_eq in E by assumption.
        assert (max_coin_amount * P18 <= 2 ^ 315) by (vm_compute; discriminate). lia.
      - apply chk_dec_not_panic in E. contradiction. }
    assert (max_coin_amount * P18 * price <= dx * P18) by nia. nia.
Qed.

Lemma ceil_cost price a c : 0 <= price -> 0 <= a -> price * a <= c * P18 -> dtrunc (dceil (price * a)) <= c.
Proof. intros. apply ceil_le; nia. Qed.

(** What a pool buys at [price] is payable from its quote reserve, and only below its price. *)
Lemma buy_amount_over_spec p price amt : 0 <= p_rx p -> 0 <= p_ry p -> 0 < price ->
  buy_amount_over p price = Ok amt ->
  0 <= amt <= max_coin_amount /\ price * amt <= of_int (p_rx p) /\
  (amt <> 0 -> exists pp, pool_price p = Ok pp /\ price < pp).
Proof.
  intros Hx Hy Hpr H. pose proof P18_pos as Hp.
  assert (Hmax : 0 < max_coin_amount) by reflexivity.
  assert (Z0 : amt = 0 -> 0 <= amt <= max_coin_amount /\ price * amt <= of_int (p_rx p) /\ (amt <> 0 -> exists pp, pool_price p = Ok pp /\ price < pp)).
  { intros ->. unfold of_int. split; [lia|]. split; [nia|]. congruence. }
  destruct p as [rx ry ps|rx ry ps minp maxp tx ty]; cbn [p_rx p_ry] in *; unfold buy_amount_over in H.
  - apply rbind_ok in H. destruct H as (pp & Epp & H). cbn beta in H.
    set (price' := if price <? min_pool_price then min_pool_price else price) in *.
    assert (Hge : price <= price') by (unfold price'; destruct (Z.ltb_spec price min_pool_price); lia).
    destruct (Z.leb_spec pp price') as [L|L]; [inv_ok; apply Z0; congruence|].
    apply rbind_ok in H. destruct H as (m & Em & H). cbn beta in H. apply rbind_ok in H. destruct H as (dx & Edx & H). cbn beta in H.
    inv_ok. subst m. destruct (Z.leb_spec dx 0); [inv_ok; apply Z0; congruence|].
    apply capped_quo_spec in H; [|lia|assumption]. destruct H as [H1 H2].
    split; [assumption|]. split; [|intros _; exists pp; split; [assumption|lia]]. subst dx. nia.
  - apply rbind_ok in H. destruct H as (pp & Epp & H). cbn beta in H.
    set (price' := if price <? minp then minp else price) in *.
    assert (Hge : price <= price') by (unfold price'; destruct (Z.ltb_spec price minp); lia).
    destruct (Z.leb_spec pp price') as [L|L]; [inv_ok; apply Z0; congruence|].
    apply rbind_ok in H. destruct H as (m & Em & H). cbn beta in H. apply rbind_ok in H. destruct H as (dx & Edx & H). cbn beta in H.
    destruct (Z.leb_spec dx 0); [inv_ok; apply Z0; congruence|].
    apply capped_quo_spec in H; [| |assumption].
    + destruct H as [H1 H2]. split; [assumption|]. split; [|intros _; exists pp; split; [assumption|lia]].
      destruct (Z.ltb_spec (of_int rx) dx); lia.
    + unfold of_int. destruct (Z.ltb_spec (rx * P18) dx); [nia|lia].
Qed.

Lemma buy_amount_to_spec p price amt : 0 <= p_rx p -> 0 <= p_ry p -> 0 < price ->
  buy_amount_to p price = Ok amt ->
  0 <= amt <= max_coin_amount /\ price * amt <= of_int (p_rx p) /\
  (amt <> 0 -> exists pp, pool_price p = Ok pp /\ price < pp).
Proof.
  intros Hx Hy Hpr H. pose proof P18_pos as Hp.
  assert (Hmax : 0 < max_coin_amount) by reflexivity.
  assert (Z0 : amt = 0 -> 0 <= amt <= max_coin_amount /\ price * amt <= of_int (p_rx p) /\ (amt <> 0 -> exists pp, pool_price p = Ok pp /\ price < pp)).
  { intros ->. unfold of_int. split; [lia|]. split; [nia|]. congruence. }
  destruct p as [rx ry ps|rx ry ps minp maxp tx ty]; cbn [p_rx p_ry] in *; unfold buy_amount_to in H.
  - apply rbind_ok in H. destruct H as (pp & Epp & H). cbn beta in H.
    set (price' := if price <? min_pool_price then min_pool_price else price) in *.
    assert (Hge : price <= price') by (unfold price'; destruct (Z.ltb_spec price min_pool_price); lia).
    destruct (Z.leb_spec pp price') as [L|L]; [inv_ok; apply Z0; congruence|].
    apply rbind_ok in H. destruct H as (m & Em & H). cbn beta in H. apply rbind_ok in H. destruct H as (m' & Em' & H). cbn beta in H.
    apply rbind_ok in H. destruct H as (dx & Edx & H). cbn beta in H.
    inv_ok. assert (M0 : 0 <= m).
    { subst m. unfold dmul. apply chop_round_nonneg. apply Z.mul_nonneg_nonneg; apply dsqrt_nonneg; unfold of_int; nia. }
    assert (M1 : 0 <= m').
    { subst m'. unfold dmul. apply chop_round_nonneg. apply Z.mul_nonneg_nonneg; [apply dsqrt_nonneg; lia|assumption]. }
    destruct (Z.leb_spec dx 0); [inv_ok; apply Z0; congruence|].
    apply capped_quo_spec in H; [|lia|assumption]. destruct H as [H1 H2].
    split; [assumption|]. split; [|intros _; exists pp; split; [assumption|lia]]. lia.
  - apply rbind_ok in H. destruct H as (pp & Epp & H). cbn beta in H.
    set (price' := if price <? minp then minp else price) in *.
    assert (Hge : price <= price') by (unfold price'; destruct (Z.ltb_spec price minp); lia).
    destruct (Z.leb_spec pp price') as [L|L]; [inv_ok; apply Z0; congruence|].
    apply rbind_ok in H. destruct H as (m & Em & H). cbn beta in H. apply rbind_ok in H. destruct H as (m' & Em' & H). cbn beta in H.
    apply rbind_ok in H. destruct H as (m'' & Em'' & H). cbn beta in H.
    apply rbind_ok in H. destruct H as (dx & Edx & H). cbn beta in H.
    destruct (Z.leb_spec dx 0); [inv_ok; apply Z0; congruence|].
    apply capped_quo_spec in H; [| |assumption].
    + destruct H as [H1 H2]. split; [assumption|]. split; [|intros _; exists pp; split; [assumption|lia]].
      destruct (Z.ltb_spec (of_int rx) dx); lia.
    + unfold of_int. destruct (Z.ltb_spec (rx * P18) dx); [nia|lia].
Qed.

(** QuoRoundUp truncates to 36 digits before rounding up, so it can be below the exact quotient,
    by less than 10^-36. *)
Lemma dquo_up_bounds a b : 0 <= a -> 0 < b -> 0 <= dquo_up a b /\ a * P18 * P18 < (dquo_up a b * P18 + 1) * b.
Proof.
  intros Ha Hb. pose proof P18_pos as Hp. unfold dquo_up, chop_up.
  rewrite Z.quot_div_nonneg by nia. pose proof (div_bounds (a * P18 * P18) b Hb) as B.
  assert (Q0 : 0 <= a * P18 * P18 / b) by (apply Z.div_pos; nia). set (q := a * P18 * P18 / b) in *.
  destruct (Z.ltb_spec q 0); [lia|].
  pose proof (Z.div_mod q P18 ltac:(lia)) as D. pose proof (Z.mod_pos_bound q P18 Hp) as M.
  assert (V0 : 0 <= q / P18) by (apply Z.div_pos; lia).
  destruct (Z.eqb_spec (q mod P18) 0); (split; [lia|]).
  - assert (q = q / P18 * P18) by lia. nia.
  - assert (q <= (q / P18 + 1) * P18) by lia. nia.
Qed.

Lemma dtrunc_le d n : d <= of_int n -> 0 <= n -> dtrunc d <= n.
Proof.
  intros H Hn. unfold dtrunc, chop_trunc, of_int in *. pose proof P18_pos.
  destruct (Z_le_gt_dec 0 d).
  - rewrite Z.quot_div_nonneg by lia. apply Z.div_le_upper_bound; lia.
  - assert (0 <= Z.quot (- d) P18) by (apply Z.quot_pos; lia). rewrite Z.quot_opp_l in H1 by lia. lia.
Qed.
Lemma dtrunc_pos_le d : 0 < dtrunc d -> dtrunc d * P18 <= d.
Proof.
  intros H. destruct (Z_le_gt_dec 0 d); [apply dtrunc_bounds; assumption|].
  unfold dtrunc, chop_trunc in *. pose proof P18_pos.
  assert (0 <= Z.quot (- d) P18) by (apply Z.quot_pos; lia). rewrite Z.quot_opp_l in H1 by lia. lia.
Qed.

(** What a pool sells is within its base reserve, and only above its price. *)
Lemma sell_amount_under_spec p price amt : 0 <= p_rx p -> 0 <= p_ry p -> 0 < price ->
  sell_amount_under p price = Ok amt ->
  0 <= amt <= p_ry p /\ (amt <> 0 -> exists pp, pool_price p = Ok pp /\ pp < price).
Proof.
  intros Hx Hy Hpr H. pose proof P18_pos as Hp.
  assert (Z0 : amt = 0 -> 0 <= amt <= p_ry p /\ (amt <> 0 -> exists pp, pool_price p = Ok pp /\ pp < price)).
  { intros ->. split; [lia|]. congruence. }
  destruct p as [rx ry ps|rx ry ps minp maxp tx ty]; cbn [p_rx p_ry] in *; unfold sell_amount_under in H.
  - apply rbind_ok in H. destruct H as (pp & Epp & H). cbn beta in H.
    set (price' := if max_pool_price <? price then max_pool_price else price) in *.
    assert (Hle : 0 < price' <= price) by (unfold price'; destruct (Z.ltb_spec max_pool_price price); split; try lia; reflexivity).
    destruct (Z.leb_spec price' pp) as [L|L]; [inv_ok; apply Z0; congruence|]. inv_ok. subst.
    set (q := dquo_up (of_int rx) price') in *.
    assert (Q0 : 0 <= q) by (apply dquo_up_bounds; unfold of_int; nia).
    pose proof (dtrunc_le (of_int ry - q) ry ltac:(lia) Hy).
    destruct (Z.leb_spec (dtrunc (of_int ry - q)) 0); (split; [lia|]); [congruence|]. intros _. exists pp. split; [assumption|lia].
  - apply rbind_ok in H. destruct H as (pp & Epp & H). cbn beta in H.
    set (price' := if maxp <? price then maxp else price) in *.
    assert (Hle : price' <= price) by (unfold price'; destruct (Z.ltb_spec maxp price); lia).
    destruct (Z.leb_spec price' pp) as [L|L]; [inv_ok; apply Z0; congruence|]. inv_ok. subst.
    set (a := dtrunc _) in *. set (a' := if ry <? a then ry else a).
    assert (a' <= ry) by (unfold a'; destruct (Z.ltb_spec ry a); lia).
    destruct (Z.leb_spec a' 0); (split; [lia|]); [congruence|]. intros _. exists pp. split; [assumption|lia].
Qed.

Lemma sell_amount_to_spec p price amt : 0 <= p_rx p -> 0 <= p_ry p -> 0 < price ->
  sell_amount_to p price = Ok amt ->
  0 <= amt <= p_ry p /\ (amt <> 0 -> exists pp, pool_price p = Ok pp /\ pp < price).
Proof.
  intros Hx Hy Hpr H. pose proof P18_pos as Hp.
  assert (Z0 : amt = 0 -> 0 <= amt <= p_ry p /\ (amt <> 0 -> exists pp, pool_price p = Ok pp /\ pp < price)).
  { intros ->. split; [lia|]. congruence. }
  destruct p as [rx ry ps|rx ry ps minp maxp tx ty]; cbn [p_rx p_ry] in *; unfold sell_amount_to in H.
  - apply rbind_ok in H. destruct H as (pp & Epp & H). cbn beta in H.
    set (price' := if max_pool_price <? price then max_pool_price else price) in *.
    assert (Hle : 0 < price' <= price) by (unfold price'; destruct (Z.ltb_spec max_pool_price price); split; try lia; reflexivity).
    destruct (Z.leb_spec price' pp) as [L|L]; [inv_ok; apply Z0; congruence|]. inv_ok. subst.
    set (m := dmul _ _) in *. set (q := dquo m _) in *.
    assert (M0 : 0 <= m).
    { unfold m, dmul. apply chop_round_nonneg. apply Z.mul_nonneg_nonneg; apply dsqrt_nonneg; unfold of_int; nia. }
    assert (Q0 : 0 <= q).
    { unfold q, dquo. apply chop_round_nonneg. pose proof (dsqrt_pos price' ltac:(lia)). rewrite Z.quot_div_nonneg by nia. apply Z.div_pos; nia. }
    pose proof (dtrunc_le (of_int ry - q) ry ltac:(lia) Hy).
    destruct (Z.leb_spec (dtrunc (of_int ry - q)) 0); (split; [lia|]); [congruence|]. intros _. exists pp. split; [assumption|lia].
  - apply rbind_ok in H. destruct H as (pp & Epp & H). cbn beta in H.
    set (price' := if maxp <? price then maxp else price) in *.
    assert (Hle : price' <= price) by (unfold price'; destruct (Z.ltb_spec maxp price); lia).
    destruct (Z.leb_spec price' pp) as [L|L]; [inv_ok; apply Z0; congruence|]. inv_ok. subst.
    set (a := dtrunc _) in *. set (a' := if ry <? a then ry else a).
    assert (a' <= ry) by (unfold a'; destruct (Z.ltb_spec ry a); lia).
    destruct (Z.leb_spec a' 0); (split; [lia|]); [congruence|]. intros _. exists pp. split; [assumption|lia].
Qed.

(** ** Placing orders *)
Lemma set_balances_res p rx ry d p' : set_balances p rx ry d = Ok p' -> p_rx p' = rx /\ p_ry p' = ry /\ p_ps p' = p_ps p.
Proof.
  destruct p; cbn [set_balances]; intros H; inv_ok; subst; cbn; auto.
Qed.

(** Quote coin the buy orders could pay, base coin the sell orders could pay. *)
Definition buy_cost (os : porders) : Z := sumZ (map (fun o => ceil_value (fst o) (snd o)) os).
Definition sell_cost (os : porders) : Z := sumZ (map snd os).
Lemma buy_cost_app a b : buy_cost (a ++ b) = buy_cost a + buy_cost b.
Proof. unfold buy_cost. rewrite map_app, sumZ_app. reflexivity. Qed.
Lemma sell_cost_app a b : sell_cost (a ++ b) = sell_cost a + sell_cost b.
Proof. unfold sell_cost. rewrite map_app, sumZ_app. reflexivity. Qed.

Lemma place_buy_res p price amt d p' : 0 < price -> 0 <= amt -> place_buy p price amt d = Ok p' ->
  p_rx p' = p_rx p - ceil_value price amt /\ p_ry p' = p_ry p + amt.
Proof.
  intros Hpr Ha H. unfold place_buy in H.
  apply rbind_ok in H. destruct H as (m & Em & H). cbn beta in H. apply rbind_ok in H. destruct H as (c & Ec & H). cbn beta in H.
  apply rbind_ok in H. destruct H as (rx & Erx & H). cbn beta in H. apply rbind_ok in H. destruct H as (ry & Ery & H). cbn beta in H.
  apply set_balances_res in H. inv_ok. subst. destruct H as (A & B & _). rewrite A, B.
  pose proof (ceil_value_dec price amt ltac:(nia)) as E. unfold dmul_int in E. rewrite E. auto.
Qed.
Lemma place_sell_res p price amt d p' : 0 < price -> 0 <= amt -> place_sell p price amt d = Ok p' ->
  p_rx p' = p_rx p + floor_value price amt /\ p_ry p' = p_ry p - amt.
Proof.
  intros Hpr Ha H. unfold place_sell in H.
  apply rbind_ok in H. destruct H as (m & Em & H). cbn beta in H. apply rbind_ok in H. destruct H as (c & Ec & H). cbn beta in H.
  apply rbind_ok in H. destruct H as (rx & Erx & H). cbn beta in H. apply rbind_ok in H. destruct H as (ry & Ery & H). cbn beta in H.
  apply set_balances_res in H. inv_ok. subst. destruct H as (A & B & _). rewrite A, B.
  pose proof (floor_value_dec price amt ltac:(nia)) as E. unfold dmul_int in E. rewrite E. auto.
Qed.
Lemma ceil_value_le p a c : p * a <= of_int c -> ceil_value p a <= c.
Proof. intros H. pose proof (ceil_value_bounds p a). pose proof P18_pos. unfold of_int in H. nia. Qed.
Lemma ceil_value_nonneg p a : 0 <= p -> 0 <= a -> 0 <= ceil_value p a.
Proof. intros. pose proof (ceil_value_bounds p a). pose proof P18_pos. nia. Qed.

(** ** Gap ratio *)
Lemma gap_ratio_bounds pp cur g : 0 <= pp -> pool_order_price_gap_ratio pp cur = Ok g -> 0 < g <= P18.
Proof.
  intros Hpp H. unfold pool_order_price_gap_ratio in H. pose proof P18_pos as Hp.
  set (pp' := if pp =? 0 then 1 else pp) in *.
  assert (0 < pp') by (unfold pp'; destruct (Z.eqb_spec pp 0); lia).
  apply rbind_ok in H. destruct H as (d & _ & H). cbn beta in H. apply rbind_ok in H. destruct H as (x & Ex & H). cbn beta in H.
  inv_ok. assert (X0 : 0 <= x).
  { subst x. unfold dquo. apply chop_round_nonneg. rewrite Z.quot_div_nonneg by nia. apply Z.div_pos; nia. }
  assert (K : forall c, 0 <= c -> 2 * c * x - P18 <= 2 * (dmul c x * P18) <= 2 * c * x + P18).
  { intros c Hc. pose proof (chop_round_bounds (c * x) ltac:(nia)). unfold dmul. lia. }
  assert (EP : P18 = 1000000000000000000) by reflexivity.
  destruct (Z.leb_spec x 10000000000000000); [|destruct (Z.leb_spec x 20000000000000000); [|destruct (Z.leb_spec x 100000000000000000)]].
  - pose proof (K 7000000000000000 ltac:(lia)). inv_ok. assert (0 <= dmul 7000000000000000 x) by (apply chop_round_nonneg; nia). rewrite EP in *. nia.
  - pose proof (K 90000000000000000 ltac:(lia)). inv_ok. rewrite EP in *. nia.
  - pose proof (K 50000000000000000 ltac:(lia)). inv_ok. rewrite EP in *. nia.
  - inv_ok. rewrite EP. lia.
Qed.

(** ** The buy loop *)
Definition good_buy (prec lowest highest pp : Z) (o : dec * Z) : Prop :=
  is_tick prec (fst o) /\ lowest <= fst o <= highest /\ fst o < pp /\ min_coin_amount <= snd o <= max_coin_amount.
Definition good_sell (prec lowest highest pp : Z) (o : dec * Z) : Prop :=
  is_tick prec (fst o) /\ lowest <= fst o <= highest /\ pp < fst o /\ min_coin_amount <= snd o /\ 0 < floor_value (fst o) (snd o).

(** Best price first, as a chain bounded by [b]. *)
Fixpoint desc_from (b : Z) (os : porders) : Prop :=
  match os with [] => True | o :: t => fst o <= b /\ desc_from (fst o) t end.
Fixpoint asc_from (b : Z) (os : porders) : Prop :=
  match os with [] => True | o :: t => b <= fst o /\ asc_from (fst o) t end.
Lemma desc_snoc os : forall b x, desc_from b os -> x <= b -> (forall o, In o os -> x <= fst o) ->
  forall a, desc_from b (os ++ [(x, a)]).
Proof.
  induction os as [|o t IH]; intros b x H Hx Hall a; cbn; [auto|]. cbn in H. destruct H. split; [assumption|].
  apply IH; [assumption|apply Hall; left; reflexivity|]. intros o' Ho. apply Hall. right. assumption.
Qed.
Lemma asc_snoc os : forall b x, asc_from b os -> b <= x -> (forall o, In o os -> fst o <= x) ->
  forall a, asc_from b (os ++ [(x, a)]).
Proof.
  induction os as [|o t IH]; intros b x H Hx Hall a; cbn; [auto|]. cbn in H. destruct H. split; [assumption|].
  apply IH; [assumption|apply Hall; left; reflexivity|]. intros o' Ho. apply Hall. right. assumption.
Qed.

Lemma neg_down_tick x prec : x < 0 -> price_to_down_tick x prec <= 0.
Proof.
  intros Hx. unfold price_to_down_tick. destruct (Z.ltb_spec 0 (char x - prec)) as [L|L]; [|lia].
  pose proof (Z.pow_pos_nonneg 10 (char x - prec) ltac:(lia) ltac:(lia)) as Hp.
  replace x with (- (- x)) at 1 by lia. rewrite Z.quot_opp_l by lia.
  pose proof (Z.quot_pos (- x) (10 ^ (char x - prec)) ltac:(lia) ltac:(lia)). nia.
Qed.
Lemma one_down_tick prec : 0 <= prec -> down_tick 1 prec = 0.
Proof.
  intros Hp. unfold down_tick.
  assert (C : char 1 = 0) by reflexivity.
  assert (E : price_to_down_tick 1 prec = 1).
  { unfold price_to_down_tick. rewrite C. destruct (Z.ltb_spec 0 (0 - prec)); [lia|reflexivity]. }
  rewrite E, Z.eqb_refl, C. change (is_pow10 1) with true. cbn iota. unfold pow10. destruct (Z.leb_spec (0 - prec - 1) 0); lia.
Qed.

Lemma mul_down_le tick g t : 0 <= tick -> 0 < g <= P18 -> c_mul tick (one_dec - g) = Ok t -> 0 <= t <= tick.
Proof.
  intros Ht Hg H. apply c_mul_ok in H. subst t. unfold dmul, one_dec. split.
  - apply chop_round_nonneg. nia.
  - rewrite <- (chop_round_exact tick) at 2. apply chop_round_mono; nia.
Qed.
Lemma mul_up_ge tick g t : 0 <= tick -> 0 < g -> c_mul tick (one_dec + g) = Ok t -> tick <= t.
Proof.
  intros Ht Hg H. apply c_mul_ok in H. subst t. unfold dmul, one_dec. pose proof P18_pos.
  rewrite <- (chop_round_exact tick) at 1. apply chop_round_mono; nia.
Qed.

Opaque loop_bits max_coin_amount.
Section BuyLoop.
Variables (prec lowest highest pp rx0 : Z).
Hypothesis Hprec : 0 <= prec.
Hypothesis Hlow : 0 < lowest.
Hypothesis Hpp : 0 <= pp.

Definition buy_inv (s : dec * pool * porders) : Prop :=
  let '(tick, p, os) := s in
  0 <= p_rx p /\ 0 <= p_ry p /\ p_rx p + buy_cost os = rx0 /\
  (lowest <= tick -> is_tick prec tick /\ tick <= highest /\ tick <= pp /\ (tick = pp -> pool_price p = Ok pp)) /\
  Forall (good_buy prec lowest highest pp) os /\ desc_from highest os /\ (forall o, In o os -> tick <= fst o) /\ 0 <= Z.max 0 tick.
Definition buy_post (r : option porders) : Prop :=
  match r with
  | None => True
  | Some os => buy_cost os <= rx0 /\ Forall (good_buy prec lowest highest pp) os /\ desc_from highest os
  end.

Lemma buy_step_inv s : buy_inv s ->
  match buy_step pp lowest prec s with
  | inl s' => buy_inv s' /\ Z.max 0 (fst (fst s')) + p_rx (snd (fst s')) < Z.max 0 (fst (fst s)) + p_rx (snd (fst s))
  | inr r => buy_post r
  end.
Proof.
  destruct s as [[tick p] os]. intros (Rx & Ry & Rc & Ht & Hg & Hd & Hlast & _). unfold buy_step.
  destruct (Z.ltb_spec tick lowest) as [L|L].
  { cbn. split; [lia|]. auto. }
  destruct (Ht L) as (T1 & T2 & T3 & T4). clear Ht. pose proof (tick_pos _ _ T1) as Tp.
  destruct (buy_amount_over p tick) as [amt| |] eqn:EA; cbn; try exact I.
  destruct (buy_amount_over_spec p tick amt Rx Ry Tp EA) as (A1 & A2 & A3).
  destruct (Z.ltb_spec amt min_coin_amount) as [Lm|Lm].
  { destruct (Z.eqb_spec tick 0) as [Z0|_]; [lia|]. destruct (Z.eq_dec tick 1) as [->|N1].
    - rewrite one_down_tick by assumption. cbn [fst snd]. split; [|lia]. cbn. repeat split; auto; try lia.
      intros o Ho. specialize (Hlast o Ho). lia.
    - destruct (down_tick_spec tick prec Hprec ltac:(lia)) as (D1 & D2 & D3). pose proof (tick_pos _ _ D1). cbn [fst snd].
      split; [|lia]. cbn. repeat split; auto; try lia. intros o Ho. specialize (Hlast o Ho). lia. }
  assert (Min : min_coin_amount = 100) by reflexivity.
  assert (Tlt : tick < pp).
  { destruct (A3 ltac:(lia)) as (ppq & Eq & Lq). destruct (Z.eq_dec tick pp) as [E|E]; [|lia].
    specialize (T4 E). rewrite T4 in Eq. injection Eq; intros; subst. lia. }
  destruct (place_buy p tick amt false) as [p'| |] eqn:EP; cbn; try exact I.
  destruct (place_buy_res p tick amt false p' Tp ltac:(lia) EP) as (P1 & P2).
  pose proof (ceil_value_le _ _ _ A2) as Cle.
  assert (Cpos : 0 < ceil_value tick amt). { pose proof (ceil_value_bounds tick amt). pose proof P18_pos. nia. }
  assert (Gb : Forall (good_buy prec lowest highest pp) (os ++ [(tick, amt)])).
  { apply Forall_app. split; [assumption|]. constructor; [|constructor]. split; [assumption|]. cbn [fst snd]. lia. }
  assert (Ds : desc_from highest (os ++ [(tick, amt)])) by (apply desc_snoc; auto).
  assert (Rc' : p_rx p' + buy_cost (os ++ [(tick, amt)]) = rx0).
  { rewrite buy_cost_app. unfold buy_cost at 2. cbn [map fst snd sumZ fold_right]. lia. }
  destruct (Z.leb_spec (p_rx p') 0) as [L0|L0].
  { cbn. split; [lia|]. auto. }
  destruct (pool_order_price_gap_ratio pp tick) as [g| |] eqn:EG; cbn; try exact I.
  pose proof (gap_ratio_bounds _ _ _ Hpp EG) as Bg.
  destruct (c_mul tick (one_dec - g)) as [t| |] eqn:EM; cbn; try exact I.
  pose proof (mul_down_le tick g t ltac:(lia) Bg EM) as Bt.
  unfold price_to_down_tick_chk. destruct (Z.eqb_spec t 0); cbn; [exact I|].
  destruct (price_to_down_tick_spec t prec Hprec ltac:(lia)) as (D1 & D2 & D3). pose proof (tick_pos _ _ D1).
  split; [|lia]. cbn. repeat split; auto; try lia.
  intros o Ho. apply in_app_or in Ho. destruct Ho as [Ho|[<-|[]]]; [specialize (Hlast o Ho); lia|cbn; lia].
Qed.

Lemma buy_loop_post n s : buy_inv s -> match iter_until n (buy_step pp lowest prec) s with inl _ => True | inr r => buy_post r end.
Proof.
  intros H. pose proof (iter_until_inv (buy_step pp lowest prec) buy_inv buy_post) as G.
  specialize (G (fun s Hs => ltac:(pose proof (buy_step_inv s Hs) as X; destruct (buy_step pp lowest prec s); [exact (proj1 X)|exact X])) n s H).
  destruct (iter_until n (buy_step pp lowest prec) s); [exact I|assumption].
Qed.

Lemma buy_loop_term n s : buy_inv s -> Z.max 0 (fst (fst s)) + p_rx (snd (fst s)) < 2 ^ Z.of_nat n ->
  exists r, iter_until n (buy_step pp lowest prec) s = inr r.
Proof.
  intros H Hm. refine (iter_until_term (buy_step pp lowest prec) buy_inv (fun s => Z.max 0 (fst (fst s)) + p_rx (snd (fst s))) _ n s H Hm).
  intros s1 s2 H1 E. pose proof (buy_step_inv s1 H1) as X. rewrite E in X. destruct X as [X1 X2]. split; [assumption|].
  destruct s2 as [[t2 p2] os2]. destruct X1 as (R & _). cbn [fst snd] in *. lia.
Qed.
End BuyLoop.

Section SellLoop.
Variables (prec lowest highest pp ry0 : Z).
Hypothesis Hprec : 0 <= prec.
Hypothesis Hlow : 0 < lowest.
Hypothesis Hpp : 0 <= pp.

Definition sell_inv (s : dec * pool * porders) : Prop :=
  let '(tick, p, os) := s in
  0 <= p_rx p /\ 0 <= p_ry p /\ p_ry p + sell_cost os = ry0 /\
  is_tick prec tick /\ lowest <= tick /\ pp <= tick /\ (tick = pp -> pool_price p = Ok pp) /\
  Forall (good_sell prec lowest highest pp) os /\ asc_from lowest os /\ (forall o, In o os -> fst o <= tick).
Definition sell_post (r : option porders) : Prop :=
  match r with
  | None => True
  | Some os => sell_cost os <= ry0 /\ Forall (good_sell prec lowest highest pp) os /\ asc_from lowest os
  end.

Lemma sell_step_inv s : sell_inv s ->
  match sell_step pp highest prec s with
  | inl s' => sell_inv s' /\ Z.max 0 (highest + 1 - fst (fst s')) + p_ry (snd (fst s')) < Z.max 0 (highest + 1 - fst (fst s)) + p_ry (snd (fst s))
  | inr r => sell_post r
  end.
Proof.
  destruct s as [[tick p] os]. intros (Rx & Ry & Rc & T1 & T2 & T3 & T4 & Hg & Hd & Hlast). unfold sell_step.
  destruct (Z.ltb_spec highest tick) as [L|L].
  { cbn. split; [lia|]. auto. }
  pose proof (tick_pos _ _ T1) as Tp. assert (Min : min_coin_amount = 100) by reflexivity.
  assert (Skip : sell_inv (up_tick tick prec, p, os) /\
     Z.max 0 (highest + 1 - up_tick tick prec) + p_ry p < Z.max 0 (highest + 1 - tick) + p_ry p).
  { destruct (up_tick_spec tick prec Hprec Tp) as (D1 & D2 & D3). split; [|lia]. cbn. repeat split; auto; try lia.
    intros o Ho. specialize (Hlast o Ho). lia. }
  destruct (sell_amount_under p tick) as [amt| |] eqn:EA; cbn [rbind]; try exact I.
  destruct (sell_amount_under_spec p tick amt Rx Ry Tp EA) as (A1 & A3).
  destruct (Z.ltb_spec amt min_coin_amount) as [Lm|Lm]; [exact Skip|].
  destruct (c_mul_int tick amt) as [m| |] eqn:Em; cbn [rbind]; try exact I. apply c_mul_int_ok in Em.
  destruct (c_trunc m) as [v| |] eqn:Ev; cbn [rbind]; try exact I. apply c_trunc_ok in Ev. destruct Ev as [Ev _].
  assert (Vv : v = floor_value tick amt).
  { subst. pose proof (floor_value_dec tick amt ltac:(nia)) as E. unfold dmul_int in E. exact E. }
  destruct (Z.eqb_spec v 0) as [V0|V0]; [exact Skip|]. clear Skip.
  assert (Fpos : 0 < floor_value tick amt). { pose proof (floor_value_bounds tick amt). pose proof P18_pos. nia. }
  assert (Tlt : pp < tick).
  { destruct (A3 ltac:(lia)) as (ppq & Eq & Lq). destruct (Z.eq_dec tick pp) as [E|E]; [|lia].
    specialize (T4 E). rewrite T4 in Eq. injection Eq; intros; subst. lia. }
  destruct (place_sell p tick amt false) as [p'| |] eqn:EP; cbn [rbind]; try exact I.
  destruct (place_sell_res p tick amt false p' Tp ltac:(lia) EP) as (P1 & P2).
  assert (Gb : Forall (good_sell prec lowest highest pp) (os ++ [(tick, amt)])).
  { apply Forall_app. split; [assumption|]. constructor; [|constructor]. split; [assumption|]. cbn [fst snd]. lia. }
  assert (Ds : asc_from lowest (os ++ [(tick, amt)])) by (apply asc_snoc; auto).
  assert (Rc' : p_ry p' + sell_cost (os ++ [(tick, amt)]) = ry0).
  { rewrite sell_cost_app. unfold sell_cost at 2. cbn [map fst snd sumZ fold_right]. lia. }
  destruct (Z.leb_spec (p_ry p') min_coin_amount) as [L0|L0].
  { cbn. split; [lia|]. auto. }
  destruct (pool_order_price_gap_ratio pp tick) as [g| |] eqn:EG; cbn [rbind]; try exact I.
  pose proof (gap_ratio_bounds _ _ _ Hpp EG) as Bg.
  destruct (c_mul tick (one_dec + g)) as [t| |] eqn:EM; cbn [rbind]; try exact I.
  pose proof (mul_up_ge tick g t ltac:(lia) ltac:(lia) EM) as Bt.
  unfold price_to_up_tick_chk. destruct (Z.eqb_spec t 0); [exact I|].
  destruct (price_to_up_tick_spec t prec Hprec ltac:(lia)) as (D1 & D2 & D3). pose proof (tick_pos _ _ D1). cbn [fst snd].
  split; [|lia]. cbn. repeat split; auto; try lia.
  intros o Ho. apply in_app_or in Ho. destruct Ho as [Ho|[<-|[]]]; [specialize (Hlast o Ho); lia|cbn; lia].
Qed.

Lemma sell_loop_post n s : sell_inv s -> match iter_until n (sell_step pp highest prec) s with inl _ => True | inr r => sell_post r end.
Proof.
  intros H. pose proof (iter_until_inv (sell_step pp highest prec) sell_inv sell_post) as G.
  specialize (G (fun s Hs => ltac:(pose proof (sell_step_inv s Hs) as X; destruct (sell_step pp highest prec s); [exact (proj1 X)|exact X])) n s H).
  destruct (iter_until n (sell_step pp highest prec) s); [exact I|assumption].
Qed.

Lemma sell_loop_term n s : sell_inv s -> Z.max 0 (highest + 1 - fst (fst s)) + p_ry (snd (fst s)) < 2 ^ Z.of_nat n ->
  exists r, iter_until n (sell_step pp highest prec) s = inr r.
Proof.
  intros H Hm. refine (iter_until_term (sell_step pp highest prec) sell_inv (fun s => Z.max 0 (highest + 1 - fst (fst s)) + p_ry (snd (fst s))) _ n s H Hm).
  intros s1 s2 H1 E. pose proof (sell_step_inv s1 H1) as X. rewrite E in X. destruct X as [X1 X2]. split; [assumption|].
  destruct s2 as [[t2 p2] os2]. destruct X1 as (_ & R & _). cbn [fst snd] in *. lia.
Qed.
End SellLoop.

(** ** Whole order lists *)
Lemma buy_start_inv p lowest highest prec pp s : 0 <= prec -> 0 < lowest <= highest -> is_tick prec highest ->
  0 <= p_rx p -> 0 <= p_ry p -> pool_price p = Ok pp -> buy_start p lowest highest prec = Ok (Some s) ->
  lowest < pp /\ buy_inv prec lowest highest pp (p_rx p) s /\ fst (fst s) <= highest /\ p_rx (snd (fst s)) <= p_rx p.
Proof.
  intros Hprec Hl Ht Rx Ry Epp H. unfold buy_start in H. rewrite Epp in H. cbn [rbind] in H.
  destruct (Z.leb_spec pp lowest) as [L|L]; [discriminate|]. split; [assumption|].
  apply rbind_ok in H. destruct H as ([p1 os] & E1 & H). cbn beta iota in H.
  apply rbind_ok in H. destruct H as (pp1 & Epp1 & H). cbn beta in H.
  apply rbind_ok in H. destruct H as (tick & Etick & H). cbn beta in H. injection H; intros <-; clear H. cbn [fst snd].
  assert (S : 0 <= p_rx p1 /\ 0 <= p_ry p1 /\ p_rx p1 + buy_cost os = p_rx p /\ Forall (good_buy prec lowest highest pp) os /\
              desc_from highest os /\ (forall o, In o os -> highest <= fst o) /\ (pp <= highest -> p1 = p) /\ p_rx p1 <= p_rx p).
  { assert (Triv : p1 = p -> os = [] -> 0 <= p_rx p1 /\ 0 <= p_ry p1 /\ p_rx p1 + buy_cost os = p_rx p /\ Forall (good_buy prec lowest highest pp) os /\
              desc_from highest os /\ (forall o, In o os -> highest <= fst o) /\ (pp <= highest -> p1 = p) /\ p_rx p1 <= p_rx p).
    { intros -> ->. unfold buy_cost. cbn. repeat split; auto; try lia; intros o []. }
    destruct (Z.ltb_spec highest pp) as [Lh|Lh]; [|injection E1; intros; subst; apply Triv; reflexivity].
    apply rbind_ok in E1. destruct E1 as (amt & EA & E1). cbn beta in E1.
    destruct (buy_amount_to_spec p highest amt Rx Ry ltac:(lia) EA) as (A1 & A2 & A3).
    assert (Min : min_coin_amount = 100) by reflexivity.
    destruct (Z.leb_spec min_coin_amount amt) as [Lm|Lm]; [|injection E1; intros; subst; apply Triv; reflexivity].
    apply rbind_ok in E1. destruct E1 as (p' & EP & E1). cbn beta in E1. injection E1; intros; subst p1 os.
    destruct (place_buy_res p highest amt true p' ltac:(lia) ltac:(lia) EP) as (P1 & P2).
    pose proof (ceil_value_le _ _ _ A2). pose proof (ceil_value_nonneg highest amt ltac:(lia) ltac:(lia)).
    unfold buy_cost. cbn. repeat split; auto; try lia.
    - constructor; [|constructor]. split; [assumption|]. cbn [fst snd]. lia.
    - intros o [<-|[]]; cbn; lia. }
  destruct S as (S1 & S2 & S3 & S4 & S5 & S6 & S7 & S8).
  unfold price_to_down_tick_chk in Etick. destruct (Z.eqb_spec (Z.min highest pp1) 0) as [|N0]; [discriminate|].
  injection Etick; clear Etick; intros Etick.
  assert (Tle : tick <= Z.max 0 (Z.min highest pp1) /\ (lowest <= tick -> is_tick prec tick)).
  { destruct (Z_le_gt_dec (Z.min highest pp1) 0) as [Neg|Pos].
    - pose proof (neg_down_tick (Z.min highest pp1) prec ltac:(lia)) as X. rewrite Etick in X. split; [lia|]. intros; lia.
    - destruct (price_to_down_tick_spec (Z.min highest pp1) prec Hprec ltac:(lia)) as (D1 & D2 & _). rewrite Etick in *. split; [lia|auto]. }
  destruct Tle as [Tle Tt].
  split; [|split; [lia|assumption]].
  cbn. repeat split; auto; try lia.
  - destruct (Z_le_gt_dec pp highest) as [C|C]; [|lia]. specialize (S7 C). subst p1. rewrite Epp in Epp1. injection Epp1; intros; subst. lia.
  - intros E. destruct (Z_le_gt_dec pp highest) as [C|C]; [|lia]. specialize (S7 C). subst p1. assumption.
  - intros o Ho. specialize (S6 o Ho). lia.
Qed.

Lemma sell_start_inv p lowest highest prec pp s : 0 <= prec -> 0 < lowest <= highest -> is_tick prec lowest ->
  0 <= p_rx p -> 0 <= p_ry p -> pool_price p = Ok pp -> sell_start p lowest highest prec = Ok (Some s) ->
  pp < highest /\ sell_inv prec lowest highest pp (p_ry p) s /\ p_ry (snd (fst s)) <= p_ry p.
Proof.
  intros Hprec Hl Ht Rx Ry Epp H. unfold sell_start in H. rewrite Epp in H. cbn [rbind] in H.
  destruct (Z.leb_spec highest pp) as [L|L]; [discriminate|]. split; [assumption|].
  apply rbind_ok in H. destruct H as ([p1 os] & E1 & H). cbn beta iota in H.
  apply rbind_ok in H. destruct H as (pp1 & Epp1 & H). cbn beta in H.
  apply rbind_ok in H. destruct H as (tick & Etick & H). cbn beta in H. injection H; intros <-; clear H. cbn [fst snd].
  assert (S : 0 <= p_rx p1 /\ 0 <= p_ry p1 /\ p_ry p1 + sell_cost os = p_ry p /\ Forall (good_sell prec lowest highest pp) os /\
              asc_from lowest os /\ (forall o, In o os -> fst o <= lowest) /\ (lowest <= pp -> p1 = p) /\ p_ry p1 <= p_ry p).
  { assert (Triv : p1 = p -> os = [] -> 0 <= p_rx p1 /\ 0 <= p_ry p1 /\ p_ry p1 + sell_cost os = p_ry p /\ Forall (good_sell prec lowest highest pp) os /\
              asc_from lowest os /\ (forall o, In o os -> fst o <= lowest) /\ (lowest <= pp -> p1 = p) /\ p_ry p1 <= p_ry p).
    { intros -> ->. unfold sell_cost. cbn. repeat split; auto; try lia; intros o []. }
    destruct (Z.ltb_spec pp lowest) as [Lh|Lh]; [|injection E1; intros; subst; apply Triv; reflexivity].
    apply rbind_ok in E1. destruct E1 as (amt & EA & E1). cbn beta in E1.
    destruct (sell_amount_to_spec p lowest amt Rx Ry ltac:(lia) EA) as (A1 & A3).
    assert (Min : min_coin_amount = 100) by reflexivity.
    destruct (Z.leb_spec min_coin_amount amt) as [Lm|Lm]; [|injection E1; intros; subst; apply Triv; reflexivity].
    apply rbind_ok in E1. destruct E1 as (m & Em & E1). cbn beta in E1. apply rbind_ok in E1. destruct E1 as (v & Ev & E1). cbn beta in E1.
    apply c_mul_int_ok in Em. apply c_trunc_ok in Ev. destruct Ev as [Ev _].
    assert (Vv : v = floor_value lowest amt).
    { subst. pose proof (floor_value_dec lowest amt ltac:(nia)) as E. unfold dmul_int in E. exact E. }
    destruct (Z.ltb_spec 0 v) as [Lv|Lv]; [|injection E1; intros; subst; apply Triv; reflexivity].
    apply rbind_ok in E1. destruct E1 as (p' & EP & E1). cbn beta in E1. injection E1; intros; subst p1 os.
    destruct (place_sell_res p lowest amt true p' ltac:(lia) ltac:(lia) EP) as (P1 & P2).
    unfold sell_cost. cbn. repeat split; auto; try lia.
    - constructor; [|constructor]. split; [assumption|]. cbn [fst snd]. lia.
    - intros o [<-|[]]; cbn; lia. }
  destruct S as (S1 & S2 & S3 & S4 & S5 & S6 & S7 & S8).
  unfold price_to_up_tick_chk in Etick. destruct (Z.eqb_spec (Z.max lowest pp1) 0) as [|N0]; [discriminate|].
  injection Etick; clear Etick; intros Etick.
  destruct (price_to_up_tick_spec (Z.max lowest pp1) prec Hprec ltac:(lia)) as (D1 & D2 & _). rewrite Etick in *.
  split; [|assumption].
  cbn. repeat split; auto; try lia.
  - destruct (Z_le_gt_dec lowest pp) as [C|C]; [|lia]. specialize (S7 C). subst p1. rewrite Epp in Epp1. injection Epp1; intros; subst. lia.
  - intros E. destruct (Z_le_gt_dec lowest pp) as [C|C]; [|lia]. specialize (S7 C). subst p1. assumption.
  - intros o Ho. specialize (S6 o Ho). lia.
Qed.

Lemma pool_buy_orders_spec p lowest highest prec pp : 0 <= prec -> 0 < lowest <= highest -> is_tick prec highest ->
  0 <= p_rx p -> 0 <= p_ry p -> pool_price p = Ok pp ->
  (forall os, pool_buy_orders p lowest highest prec = Some os ->
    buy_cost os <= p_rx p /\ Forall (good_buy prec lowest highest pp) os /\ desc_from highest os) /\
  (highest < 2 ^ 315 -> p_rx p < 2 ^ 256 -> exists os, pool_buy_orders p lowest highest prec = Some os).
Proof.
  intros Hprec Hl Ht Rx Ry Epp. unfold pool_buy_orders. rewrite Epp.
  assert (Nil : buy_cost [] <= p_rx p /\ Forall (good_buy prec lowest highest pp) [] /\ desc_from highest []).
  { unfold buy_cost. cbn. auto. }
  destruct (buy_start p lowest highest prec) as [[s|]| |] eqn:ES;
    [|split; [intros os E; injection E; intros; subst; exact Nil|intros; eauto] ..].
  destruct (buy_start_inv p lowest highest prec pp s Hprec Hl Ht Rx Ry Epp ES) as (Lpp & Inv & B1 & B2).
  pose proof (buy_loop_post prec lowest highest pp (p_rx p) Hprec ltac:(lia) ltac:(lia) loop_bits s Inv) as Post.
  split.
  - intros os E. destruct (iter_until loop_bits (buy_step pp lowest prec) s) as [?|[os'|]]; [discriminate| |].
    + injection E; intros; subst. exact Post.
    + injection E; intros; subst. exact Nil.
  - intros H1 H2.
    destruct (buy_loop_term prec lowest highest pp (p_rx p) Hprec ltac:(lia) ltac:(lia) loop_bits s Inv) as (r & Er).
    + assert (2 ^ 315 + 2 ^ 256 < 2 ^ Z.of_nat loop_bits) by (vm_compute; reflexivity). lia.
    + rewrite Er. destruct r; eauto.
Qed.

Lemma pool_sell_orders_spec p lowest highest prec pp : 0 <= prec -> 0 < lowest <= highest -> is_tick prec lowest ->
  0 <= p_rx p -> 0 <= p_ry p -> pool_price p = Ok pp -> 0 <= pp ->
  (forall os, pool_sell_orders p lowest highest prec = Some os ->
    sell_cost os <= p_ry p /\ Forall (good_sell prec lowest highest pp) os /\ asc_from lowest os) /\
  (highest < 2 ^ 315 -> p_ry p < 2 ^ 256 -> exists os, pool_sell_orders p lowest highest prec = Some os).
Proof.
  intros Hprec Hl Ht Rx Ry Epp Hpp. unfold pool_sell_orders. rewrite Epp.
  assert (Nil : sell_cost [] <= p_ry p /\ Forall (good_sell prec lowest highest pp) [] /\ asc_from lowest []).
  { unfold sell_cost. cbn. auto. }
  destruct (sell_start p lowest highest prec) as [[s|]| |] eqn:ES;
    [|split; [intros os E; injection E; intros; subst; exact Nil|intros; eauto] ..].
  destruct (sell_start_inv p lowest highest prec pp s Hprec Hl Ht Rx Ry Epp ES) as (Lpp & Inv & B2).
  pose proof (sell_loop_post prec lowest highest pp (p_ry p) Hprec ltac:(lia) Hpp loop_bits s Inv) as Post.
  split.
  - intros os E. destruct (iter_until loop_bits (sell_step pp highest prec) s) as [|[os'|]]; [discriminate| |].
    + injection E; intros; subst. exact Post.
    + injection E; intros; subst. exact Nil.
  - intros H1 H2.
    destruct (sell_loop_term prec lowest highest pp (p_ry p) Hprec ltac:(lia) Hpp loop_bits s Inv) as (r & Er).
    + destruct s as [[t q] o]. destruct Inv as (_ & _ & _ & T & _). pose proof (tick_pos _ _ T). cbn [fst snd] in *.
      assert (2 ^ 315 + 2 ^ 256 < 2 ^ Z.of_nat loop_bits) by (vm_compute; reflexivity). lia.
    + rewrite Er. destruct r; eauto.
Qed.

Lemma pool_price_nonneg p pp : 0 <= p_rx p -> 0 <= p_ry p ->
  match p with Basic _ _ _ => True | Ranged _ _ _ _ _ tx ty => 0 <= tx /\ 0 <= ty end -> pool_price p = Ok pp -> 0 <= pp.
Proof.
  intros Rx Ry Ht H. pose proof P18_pos as Hp. destruct p as [rx ry ps|rx ry ps minp maxp tx ty]; cbn [p_rx p_ry pool_price] in *.
  - destruct ((rx =? 0) || (ry =? 0)) eqn:E; [discriminate|]. inv_ok. subst. apply orb_false_iff in E. destruct E as [E1 E2].
    rewrite quo_ints by lia. apply chop_round_nonneg, Z.div_pos; nia.
  - destruct ((rx =? 0) && (ry =? 0)) eqn:E; [discriminate|]. inv_ok. subst. unfold dquo. apply chop_round_nonneg.
    unfold of_int in *. rewrite Z.quot_div_nonneg by nia. apply Z.div_pos; nia.
Qed.

(** ** Constant product *)
Lemma basic_buy_room rx ry ps price amt : 0 <= rx -> 0 <= ry -> 0 < price ->
  buy_amount_over (Basic rx ry ps) price = Ok amt -> amt <> 0 -> price * (ry + amt) <= of_int rx.
Proof.
  intros Hx Hy Hpr H Hnz. pose proof P18_pos as Hp. unfold buy_amount_over in H.
  apply rbind_ok in H. destruct H as (pp & Epp & H). cbn beta in H.
  set (price' := if price <? min_pool_price then min_pool_price else price) in *.
  assert (Hge : price <= price') by (unfold price'; destruct (Z.ltb_spec price min_pool_price); lia).
  destruct (Z.leb_spec pp price') as [L|L]; [inv_ok; congruence|].
  apply rbind_ok in H. destruct H as (m & Em & H). cbn beta in H. apply rbind_ok in H. destruct H as (dx & Edx & H). cbn beta in H.
  inv_ok. subst m. destruct (Z.leb_spec dx 0); [inv_ok; congruence|].
  apply capped_quo_spec in H; [|lia|assumption]. destruct H as [H1 H2]. subst dx. nia.
Qed.

Lemma basic_sell_room rx ry ps price amt : 0 <= rx -> 0 <= ry -> 0 < price <= P18 * P18 ->
  sell_amount_under (Basic rx ry ps) price = Ok amt -> amt <> 0 -> of_int rx <= price * (ry - amt).
Proof.
  intros Hx Hy Hpr H Hnz. pose proof P18_pos as Hp. unfold sell_amount_under in H.
  apply rbind_ok in H. destruct H as (pp & Epp & H). cbn beta in H.
  assert (EM : (max_pool_price <? price) = false).
  { apply Z.ltb_ge. assert (P18 * P18 <= max_pool_price) by (vm_compute; discriminate). lia. }
  rewrite EM in H. destruct (Z.leb_spec price pp) as [L|L]; [inv_ok; congruence|].
  apply rbind_ok in H. destruct H as (q & Eq & H). cbn beta in H. apply rbind_ok in H. destruct H as (d & Ed & H). cbn beta in H.
  apply rbind_ok in H. destruct H as (a & Ea & H). cbn beta in H. inv_ok.
  destruct (Z.leb_spec a 0); [congruence|]. subst amt.
  destruct (dquo_up_bounds (of_int rx) price ltac:(unfold of_int; nia) ltac:(lia)) as [Q0 Q1]. match goal with E : q = dquo_up _ _ |- _ => rewrite <- E in Q0, Q1 end.
  assert (Ha : a * P18 <= d) by (subst a; apply dtrunc_pos_le; assumption).
  unfold of_int in *.
  assert (K1 : q <= (ry - a) * P18) by lia.
  assert (K2 : rx * P18 * P18 * P18 < ((ry - a) * P18 * P18 + 1) * price) by nia.
  assert (K3 : rx * P18 * (P18 * P18) < ((ry - a) * price + 1) * (P18 * P18)) by nia.
  nia.
Qed.

(** Filling (part of) a buy order of a basic pool at its price or better. *)
Lemma basic_buy_product rx ry ps price amt fp a : 0 <= rx -> 0 <= ry -> 0 < fp <= price ->
  buy_amount_over (Basic rx ry ps) price = Ok amt -> 0 <= a <= amt ->
  0 <= rx - ceil_value fp a /\ rx * ry <= (rx - ceil_value fp a + 1) * (ry + a).
Proof.
  intros Hx Hy Hf H Ha. pose proof P18_pos as Hp.
  destruct (Z.eq_dec a 0) as [->|Na].
  { assert (E : ceil_value fp 0 = 0) by (unfold ceil_value; rewrite Z.mul_0_r; reflexivity). rewrite E. split; nia. }
  pose proof (basic_buy_room rx ry ps price amt Hx Hy ltac:(lia) H ltac:(lia)) as R. unfold of_int in R.
  assert (R' : fp * (ry + a) <= rx * P18) by nia.
  pose proof (ceil_value_bounds fp a) as B. split; [nia|].
  assert (B2 : rx * P18 - fp * a <= (rx - ceil_value fp a + 1) * P18) by lia.
  assert (B3 : rx * ry * P18 <= (rx * P18 - fp * a) * (ry + a)) by nia.
  assert (B4 : (rx * P18 - fp * a) * (ry + a) <= (rx - ceil_value fp a + 1) * P18 * (ry + a)) by nia.
  nia.
Qed.

(** Filling (part of) a sell order of a basic pool at its price or better. *)
Lemma basic_sell_product rx ry ps price amt fp a : 0 <= rx -> 0 <= ry -> 0 < price <= P18 * P18 -> price <= fp ->
  sell_amount_under (Basic rx ry ps) price = Ok amt -> 0 <= a <= amt ->
  0 <= ry - a /\ rx * ry <= (rx + floor_value fp a + 1) * (ry - a).
Proof.
  intros Hx Hy Hpr Hf H Ha. pose proof P18_pos as Hp.
  destruct (sell_amount_under_spec (Basic rx ry ps) price amt Hx Hy ltac:(lia) H) as (A1 & _). cbn [p_ry] in A1.
  split; [lia|].
  destruct (Z.eq_dec a 0) as [->|Na].
  { assert (E : floor_value fp 0 = 0) by (unfold floor_value; rewrite Z.mul_0_r; reflexivity). rewrite E. nia. }
  pose proof (basic_sell_room rx ry ps price amt Hx Hy Hpr H ltac:(lia)) as R. unfold of_int in R.
  assert (R' : rx * P18 <= fp * (ry - a)) by nia.
  pose proof (floor_value_bounds fp a) as B.
  assert (B2 : rx * P18 + fp * a <= (rx + floor_value fp a + 1) * P18) by lia.
  assert (B3 : rx * ry * P18 <= (rx * P18 + fp * a) * (ry - a)) by nia.
  assert (B4 : (rx * P18 + fp * a) * (ry - a) <= (rx + floor_value fp a + 1) * P18 * (ry - a)) by nia.
  nia.
Qed.

(** ** Price limits *)
Lemma price_limits_spec last ratio prec lo hi : 0 <= prec -> 0 < last -> 0 <= ratio < P18 ->
  price_limits last ratio prec = Ok (lo, hi) ->
  is_tick prec lo /\ is_tick prec hi /\
  2 * last * (P18 - ratio) - P18 <= 2 * lo * P18 /\ 2 * hi * P18 <= 2 * last * (P18 + ratio) + P18 /\
  (forall t, is_tick prec t -> last * (P18 - ratio) <= t * P18 <= last * (P18 + ratio) -> lo <= t <= hi).
Proof.
  intros Hprec Hl Hr H. pose proof P18_pos as Hp. unfold price_limits, one_dec in H.
  apply rbind_ok in H. destruct H as (a & Ea & H). cbn beta in H. apply rbind_ok in H. destruct H as (lo' & Elo & H). cbn beta in H.
  apply rbind_ok in H. destruct H as (b & Eb & H). cbn beta in H. apply rbind_ok in H. destruct H as (hi' & Ehi & H). cbn beta in H.
  injection H; intros; subst lo' hi'; clear H.
  apply c_mul_ok in Ea. apply c_mul_ok in Eb. unfold dmul in Ea, Eb.
  pose proof (chop_round_bounds (last * (P18 - ratio)) ltac:(nia)) as Ba. rewrite <- Ea in Ba.
  pose proof (chop_round_bounds (last * (P18 + ratio)) ltac:(nia)) as Bb. rewrite <- Eb in Bb.
  assert (A0 : 0 <= a) by (subst a; apply chop_round_nonneg; nia).
  assert (B0 : 0 < b).
  { assert (last <= b); [|lia]. subst b. rewrite <- (chop_round_exact last) at 1. apply chop_round_mono; nia. }
  unfold price_to_up_tick_chk in Elo. destruct (Z.eqb_spec a 0); [discriminate|]. injection Elo; clear Elo; intros Elo.
  unfold price_to_down_tick_chk in Ehi. destruct (Z.eqb_spec b 0); [lia|]. injection Ehi; clear Ehi; intros Ehi.
  destruct (price_to_up_tick_spec a prec Hprec ltac:(lia)) as (L1 & L2 & L3).
  destruct (price_to_down_tick_spec b prec Hprec ltac:(lia)) as (D1 & D2 & D3). rewrite Elo, Ehi in *.
  split; [assumption|]. split; [assumption|]. split; [nia|]. split; [nia|].
  intros t Tt [T1 T2]. split.
  - apply L3; [assumption|]. rewrite Ea. rewrite <- (chop_round_exact t). apply chop_round_mono; nia.
  - apply D3; [assumption|]. rewrite Eb. rewrite <- (chop_round_exact t). apply chop_round_mono; [|lia]. pose proof (tick_pos _ _ Tt). nia.
Qed.

Lemma price_limits_ok last ratio prec : 0 <= ratio <= P18 -> P18 < 2 * last * (P18 - ratio) -> 0 < last < 2 ^ 314 ->
  exists lo hi, price_limits last ratio prec = Ok (lo, hi).
Proof.
  intros Hr Hb Hl. pose proof P18_pos as Hp. unfold price_limits, one_dec, c_mul, dmul.
  assert (R : forall k, 0 <= k <= 2 * P18 -> 0 <= chop_round (last * k) <= 2 * last).
  { intros k Hk. split; [apply chop_round_nonneg; nia|]. rewrite <- (chop_round_exact (2 * last)). apply chop_round_mono; nia. }
  assert (2 * 2 ^ 314 = 2 ^ 315) by reflexivity.
  pose proof (R (P18 - ratio) ltac:(lia)). pose proof (R (P18 + ratio) ltac:(lia)).
  pose proof (chop_round_bounds (last * (P18 - ratio)) ltac:(nia)) as Ba.
  pose proof (chop_round_bounds (last * (P18 + ratio)) ltac:(nia)) as Bb.
  rewrite chk_dec_fits by lia. cbn [rbind]. unfold price_to_up_tick_chk, price_to_down_tick_chk.
  destruct (Z.eqb_spec (chop_round (last * (P18 - ratio))) 0); [nia|]. cbn [rbind].
  rewrite chk_dec_fits by lia. cbn [rbind].
  destruct (Z.eqb_spec (chop_round (last * (P18 + ratio))) 0); [nia|]. cbn [rbind]. eauto.
Qed.

Lemma desc_from_all os : forall b, desc_from b os -> forall o, In o os -> fst o <= b.
Proof.
  induction os as [|x t IH]; intros b H o Hin; [destruct Hin|]; destruct Hin as [Hin|Hin].
  - subst. exact (proj1 H).
  - destruct H as [H1 H2]. specialize (IH _ H2 _ Hin). lia.
Qed.
Lemma asc_from_all os : forall b, asc_from b os -> forall o, In o os -> b <= fst o.
Proof.
  induction os as [|x t IH]; intros b H o Hin; [destruct Hin|]; destruct Hin as [Hin|Hin].
  - subst. exact (proj1 H).
  - destruct H as [H1 H2]. specialize (IH _ H2 _ Hin). lia.
Qed.
Lemma desc_from_nth os : forall b, desc_from b os ->
  forall i j, (i <= j < length os)%nat -> fst (nth j os (0, 0)) <= fst (nth i os (0, 0)).
Proof.
  induction os as [|x t IH]; intros b H i j Hij; [cbn [length] in Hij; lia|]. destruct H as [H1 H2]. cbn [length] in Hij.
  destruct i as [|i], j as [|j]; cbn [nth]; [lia| |lia|].
  - apply (desc_from_all t); [exact H2|]. apply nth_In. lia.
  - apply (IH (fst x) H2). lia.
Qed.
Lemma asc_from_nth os : forall b, asc_from b os ->
  forall i j, (i <= j < length os)%nat -> fst (nth i os (0, 0)) <= fst (nth j os (0, 0)).
Proof.
  induction os as [|x t IH]; intros b H i j Hij; [cbn [length] in Hij; lia|]. destruct H as [H1 H2]. cbn [length] in Hij.
  destruct i as [|i], j as [|j]; cbn [nth]; [lia| |lia|].
  - apply (asc_from_all t); [exact H2|]. apply nth_In. lia.
  - apply (IH (fst x) H2). lia.
Qed.
