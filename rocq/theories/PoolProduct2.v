(** The constant product of a basic pool whose emitted orders are filled in any way: any of them, any
    part, in any number of fills. *)
From Verif Require Import Base Dec DecProofs OrderModel MatchSpec OrderProofs PoolProofs PoolOrderProofs ProductSpec PoolProduct.

Lemma sum_app a b : sumZ (a ++ b) = sumZ a + sumZ b.
Proof. induction a as [|x a IH]; [reflexivity|]. cbn [app]. rewrite !sumZ_cons. lia. Qed.

(** One order's fills. *)
Lemma buy_fills_sum price fs : Forall (fun f => 0 < fst f /\ 0 < snd f <= price) fs -> 0 <= base_sum fs /\ 0 <= cost_sum fs /\ cost_sum fs * P18 <= price * base_sum fs + Z.of_nat (length fs) * P18.
Proof.
  pose proof P18_pos as HP. unfold base_sum, cost_sum. induction 1 as [|[a p] fs [H1 H2] F IH]; [cbn; lia|]. cbn [map fst snd length] in *. rewrite !sumZ_cons, Nat2Z.inj_succ. pose proof (ceil_value_bounds p a) as B.
  assert (p * a <= price * a) by (apply Z.mul_le_mono_nonneg_r; lia). assert (0 <= ceil_value p a) by (apply ceil_value_nonneg; lia). lia.
Qed.
Lemma sell_fills_sum price fs : 0 < price -> Forall (fun f => 0 < fst f /\ price <= snd f) fs -> 0 <= base_sum fs /\ 0 <= gain_sum fs /\ price * base_sum fs <= gain_sum fs * P18 + Z.of_nat (length fs) * P18 /\ (fs <> [] -> price * base_sum fs < gain_sum fs * P18 + Z.of_nat (length fs) * P18).
Proof.
  intros P0. pose proof P18_pos as HP. unfold base_sum, gain_sum. induction 1 as [|[a p] fs [H1 H2] F IH]; [cbn; split; [lia|]; split; [lia|]; split; [lia|]; congruence|]. cbn [map fst snd length] in *. rewrite !sumZ_cons, Nat2Z.inj_succ. pose proof (floor_value_bounds p a) as B.
  assert (price * a <= p * a) by (apply Z.mul_le_mono_nonneg_r; lia). assert (0 <= floor_value p a) by (unfold floor_value; apply Z.div_pos; nia). destruct IH as (I1 & I2 & I3 & _). split; [lia|]. split; [lia|]. split; [nia|]. intros _. nia.
Qed.

(** Buying: planned reserves (rx, ry) before the orders, actual ones (U / 10^18, Y). *)
Lemma buys_any os : forall e E rx ry U Y (fss : list (list (Z * dec))), 0 <= e <= E -> buys_f e rx ry os -> bought os fss -> rx * P18 <= U -> 0 <= Y <= ry ->
  exists V, (U + E * P18) * Y <= (V + E * P18) * (Y + base_all fss) /\ 0 <= base_all fss /\ 0 <= cost_all fss /\ V <= U - cost_all fss * P18 + fills_all fss * P18 /\ cost_all fss <= cost_b os /\ rx * P18 - cost_b os * P18 <= V.
Proof.
  pose proof P18_pos as HP. induction os as [|[p amt] os IH]; intros e E rx ry U Y fss He C F Hu Hy; inversion F as [|? fs ? fss' (F1 & F2 & F3) F4]; subst.
  - exists U. unfold base_all, cost_all, fills_all, cost_b. cbn. split; [lia|]. split; [lia|]. split; [lia|]. split; [lia|]. lia.
  - cbn [fst snd] in *. destruct C as (Hp & Ha & Hc & Hr & C). destruct (buy_fills_sum p fs F1) as (B0 & B1 & B2). pose proof (ceil_value_bounds p amt) as CB.
    assert (Pa : p * base_sum fs <= p * amt) by (apply Z.mul_le_mono_nonneg_l; lia).
    destruct (IH 0 E (rx - ceil_value p amt) (ry + amt) (U - p * base_sum fs) (Y + base_sum fs) fss') as (V & V1 & V2 & V3 & V4 & V5 & V6); [lia|exact C|exact F4|lia|lia|].
    exists V. unfold base_all, cost_all, fills_all in *. cbn [map]. rewrite !sumZ_cons. cbn [cost_b]. split; [|split; [lia|split; [lia|split; [lia|split; [lia|]]]]].
    + replace (Y + (base_sum fs + sumZ (map base_sum fss'))) with (Y + base_sum fs + sumZ (map base_sum fss')) by lia. refine (Z.le_trans _ _ _ _ V1).
      assert (p * (Y + base_sum fs) <= U + E * P18). { assert (p * (Y + base_sum fs) <= p * (ry + amt)) by (apply Z.mul_le_mono_nonneg_l; lia). nia. } nia.
    + lia.
Qed.
Lemma bought_any_product os e rx ry (fss : list (list (Z * dec))) : 0 <= e -> 0 <= ry -> buys_f e rx ry os -> bought os fss ->
  rx * ry <= (rx - cost_all fss + fills_all fss + e) * (ry + base_all fss).
Proof.
  intros He Hy C F. pose proof P18_pos as HP. destruct (buys_any os e e rx ry (rx * P18) ry fss ltac:(lia) C F ltac:(lia) ltac:(lia)) as (V & V1 & V2 & V3 & V4 & _).
  assert (X : rx * P18 * ry <= (rx - cost_all fss + fills_all fss + e) * P18 * (ry + base_all fss)); [|nia].
  assert ((V + e * P18) * (ry + base_all fss) <= (rx - cost_all fss + fills_all fss + e) * P18 * (ry + base_all fss)) by (apply Z.mul_le_mono_nonneg_r; lia). nia.
Qed.
Lemma buys_cost os : forall e rx ry, buys_f e rx ry os -> 0 <= rx -> 0 <= rx - cost_b os.
Proof. induction os as [|[p amt] os IH]; intros e rx ry C H; cbn [cost_b]; [lia|]. destruct C as (_ & _ & _ & Hr & C). specialize (IH _ _ _ C Hr). lia. Qed.
Lemma bought_covered os e rx ry (fss : list (list (Z * dec))) : 0 <= e -> 0 <= rx -> 0 <= ry -> buys_f e rx ry os -> bought os fss -> 0 <= cost_all fss <= rx.
Proof.
  intros He Hx Hy C F. destruct (buys_any os e e rx ry (rx * P18) ry fss ltac:(lia) C F ltac:(lia) ltac:(lia)) as (V & _ & _ & V3 & _ & V5 & _). pose proof (buys_cost os e rx ry C Hx). lia.
Qed.

(** Selling: planned reserves (rx, ry), actual ones (W, Y). *)
Lemma sell_one W Y R p a e T : 0 <= W -> 0 <= a <= Y -> Y <= R -> 0 <= e -> W * P18 <= p * (Y - a) + e * P18 -> p * a < (T + 1) * P18 -> W * Y <= (W + T) * (Y - a) + (1 + e) * R.
Proof.
  intros HW Ha HR He H HT. pose proof P18_pos as HP.
  assert (A : (p * a) * (Y - a) <= (T + 1) * P18 * (Y - a)) by (apply Z.mul_le_mono_nonneg_r; lia).
  assert (B : W * P18 * a <= (p * (Y - a) + e * P18) * a) by (apply Z.mul_le_mono_nonneg_r; lia).
  assert (C : W * Y * P18 <= ((W + T) * (Y - a) + a * e + (Y - a)) * P18) by lia. assert (D : W * Y <= (W + T) * (Y - a) + a * e + (Y - a)) by (apply Zmult_le_reg_r with P18; [lia|exact C]).
  assert (a * e <= R * e) by (apply Z.mul_le_mono_nonneg_r; lia). lia.
Qed.
Lemma sells_any os : forall e rx ry W Y R (fss : list (list (Z * dec))), 0 <= e -> sells_f e rx ry os -> sold os fss -> 0 <= W <= rx -> 0 <= ry <= Y -> Y <= R ->
  exists V t, W * Y <= V * (Y - base_all fss) + (t + e) * R /\ V <= W + gain_all fss + fills_all fss - t /\ 0 <= t <= fills_all fss /\ 0 <= base_all fss <= base_of os /\ 0 <= gain_all fss.
Proof.
  pose proof P18_pos as HP. induction os as [|[p amt] os IH]; intros e rx ry W Y R fss He C F Hw Hy HR; inversion F as [|? fs ? fss' (F1 & F2) F4]; subst.
  - exists W, 0. unfold base_all, gain_all, fills_all. cbn. split; [nia|]. lia.
  - cbn [fst snd] in *. destruct C as (Hp & Ha & Hc & Hr & C). destruct (sell_fills_sum p fs Hp F1) as (B0 & B1 & B2 & B3). pose proof (floor_value_bounds p amt) as CB. cbn [base_of].
    assert (FA : 0 <= floor_value p amt) by (unfold floor_value; apply Z.div_pos; nia).
    unfold base_all, gain_all, fills_all in *. destruct fs as [|f fs].
    + destruct (IH 0 (rx + floor_value p amt) (ry - amt) W Y R fss') as (V & t & V1 & V2 & V3 & V4 & V5); [lia|exact C|exact F4|lia|lia|lia|]. exists V, t. cbn [map length]. rewrite !sumZ_cons. change (base_sum []) with 0. change (gain_sum []) with 0.
      cbn [Z.of_nat]. rewrite !Z.add_0_l. split; [nia|]. lia.
    + set (g := f :: fs) in *. specialize (B3 ltac:(discriminate)). set (a := base_sum g) in *. pose proof (floor_value_bounds p a) as FB. set (T := floor_value p a) in *.
      assert (Tm : T <= floor_value p amt) by (unfold T, floor_value; apply Z.div_le_mono; [lia|nia]). assert (T0 : 0 <= T) by (unfold T, floor_value; apply Z.div_pos; nia).
      destruct (IH 0 (rx + floor_value p amt) (ry - amt) (W + T) (Y - a) R fss') as (V & t & V1 & V2 & V3 & V4 & V5); [lia|exact C|exact F4|lia|lia|lia|].
      assert (S : W * Y <= (W + T) * (Y - a) + (1 + e) * R). { apply (sell_one W Y R p a e T); try lia. assert (p * (ry - amt) <= p * (Y - a)) by (apply Z.mul_le_mono_nonneg_l; lia). nia. }
      assert (Tg : T <= gain_sum g + Z.of_nat (length g) - 1). { assert (T * P18 < (gain_sum g + Z.of_nat (length g)) * P18) by lia. assert (T < gain_sum g + Z.of_nat (length g)) by (apply Zmult_lt_reg_r with P18; lia). lia. }
      exists V, (1 + t). cbn [map]. rewrite !sumZ_cons. fold a. split; [|split; [lia|split; [|split; lia]]].
      * replace (Y - (a + sumZ (map base_sum fss'))) with (Y - a - sumZ (map base_sum fss')) by lia. nia.
      * unfold g in *. cbn [length] in *. lia.
Qed.
Lemma sells_base os : forall e rx ry, sells_f e rx ry os -> 0 <= ry -> 0 <= ry - base_of os.
Proof. induction os as [|[p amt] os IH]; intros e rx ry C H; cbn [base_of]; [lia|]. destruct C as (_ & _ & _ & Hr & C). specialize (IH _ _ _ C Hr). lia. Qed.
Lemma sold_any_product os e rx ry (fss : list (list (Z * dec))) : 0 <= e -> 0 <= rx -> 0 <= ry -> sells_f e rx ry os -> sold os fss ->
  0 <= base_all fss <= ry /\ rx * ry <= (rx + gain_all fss) * (ry - base_all fss) + (fills_all fss + e) * ry.
Proof.
  intros He Hx Hy C F. destruct (sells_any os e rx ry rx ry ry fss He C F ltac:(lia) ltac:(lia) ltac:(lia)) as (V & t & V1 & V2 & V3 & V4 & V5). pose proof (sells_base os e rx ry C Hy).
  split; [lia|]. assert (V * (ry - base_all fss) <= (rx + gain_all fss + fills_all fss - t) * (ry - base_all fss)) by (apply Z.mul_le_mono_nonneg_r; lia).
  assert ((fills_all fss - t) * (ry - base_all fss) <= (fills_all fss - t) * ry) by (apply Z.mul_le_mono_nonneg_l; lia). nia.
Qed.
