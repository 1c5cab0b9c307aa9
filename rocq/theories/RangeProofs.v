(** A ranged pool's price is never negative, whatever the numerical error of DeriveTranslation. *)
From Verif Require Import Base Dec DecProofs TickModel TickSpec TickProofs OrderModel MatchModel MatchSpec OrderProofs PoolModel PoolProofs SqrtProofs.

Lemma chop_round_opp d : chop_round (- d) = - chop_round d.
Proof.
  unfold chop_round. destruct (Z.ltb_spec (- d) 0), (Z.ltb_spec d 0); try lia.
  - rewrite Z.opp_involutive. reflexivity.
  - assert (d = 0) by lia. subst. reflexivity.
Qed.
Lemma dquo_opp_r a b : b <> 0 -> dquo a (- b) = - dquo a b.
Proof. intros. unfold dquo. rewrite Z.quot_opp_r by assumption. apply chop_round_opp. Qed.
Lemma dquo_opp_l a b : b <> 0 -> dquo (- a) b = - dquo a b.
Proof. intros. unfold dquo. rewrite !Z.mul_opp_l, Z.quot_opp_l by assumption. apply chop_round_opp. Qed.
Lemma dmul_opp_l a b : dmul (- a) b = - dmul a b.
Proof. unfold dmul. rewrite Z.mul_opp_l. apply chop_round_opp. Qed.

(** Within one unit. *)
Lemma dquo_near a b : 0 <= a -> 0 < b -> 0 <= dquo a b /\ dquo a b * b <= a * P18 + b /\ a * P18 < (dquo a b + 1) * b.
Proof.
  intros Ha Hb. pose proof P18_pos as Hp. pose proof (dquo_floor a b Ha Hb) as F.
  pose proof (Z.div_mod (a * P18) b ltac:(lia)). pose proof (Z.mod_pos_bound (a * P18) b Hb).
  assert (0 <= a * P18 / b) by (apply Z.div_pos; nia). set (q := a * P18 / b) in *. nia.
Qed.
Lemma dmul_near a b : 0 <= a -> 0 <= b -> 0 <= dmul a b /\ 2 * (dmul a b * P18) <= 2 * (a * b) + P18 /\ 2 * (a * b) - P18 <= 2 * (dmul a b * P18).
Proof.
  intros Ha Hb. unfold dmul. pose proof (chop_round_bounds (a * b) ltac:(nia)) as B.
  pose proof (chop_round_nonneg (a * b) ltac:(nia)). lia.
Qed.
Lemma dquo_mono_r a b c : 0 <= a -> 0 < b <= c -> dquo a c <= dquo a b.
Proof.
  intros Ha Hb. pose proof P18_pos. unfold dquo. rewrite !Z.quot_div_nonneg by nia. apply chop_round_mono.
  - apply Z.div_pos; nia.
  - apply Z.div_le_compat_l; nia.
Qed.
Lemma dmul_one a : dmul a one_dec = a.
Proof. unfold dmul, one_dec. apply chop_round_exact. Qed.

(** The computed square root of the price is at least 0.7 times the lower end's. *)
Lemma sum_root_low P X sm sl a1 a2 r s4 : 10 ^ 6 < P -> 0 < X -> 0 < sm -> sl <= 10000 * (sl - sm) -> 20 * X <= sm * P ->
  0 <= a1 -> 0 <= a2 -> sm * P < (a1 + 1) * X -> a1 * X <= sm * P + X -> a2 * sl <= X * P + sl ->
  0 <= r -> s4 * P < (r + 1) * (r + 1) -> 2 * ((a1 - a2) * (a1 - a2)) - P <= 2 * ((s4 - 4 * P) * P) ->
  2 * a1 - 10 <= a1 - a2 + r /\ 20 <= a1.
Proof.
  intros HP HX Hsm Hgap HXs A1 A2 B1 B2 B3 Hr R1 R2.
  assert (A20 : 20 <= a1) by nia. split; [|assumption].
  destruct (Z_le_gt_dec (a1 + a2 - 10) r) as [|L]; [lia|exfalso].
  assert (Q1 : (r + 1) * (r + 1) <= (a1 + a2 - 10) * (a1 + a2 - 10)) by (apply Z.mul_le_mono_nonneg; lia).
  assert (Q2 : 8 * (P * P) - P < 8 * (a1 * a2) - 40 * (a1 + a2) + 200) by nia.
  destruct (Z.eq_dec a2 0) as [->|N]; [nia|].
  assert (C : (a1 - 1) * X * ((a2 - 1) * sl) <= sm * P * (X * P)) by (apply Z.mul_le_mono_nonneg; nia).
  assert (D : (a1 - 1) * (a2 - 1) * sl <= sm * P * P) by nia.
  assert (E : 10000 * sm <= 9999 * sl) by lia.
  assert (F : 10000 * ((a1 - 1) * (a2 - 1)) <= 9999 * (P * P)).
  { apply (Z.mul_le_mono_pos_r _ _ sl); [lia|].
    assert (10000 * sm * (P * P) <= 9999 * sl * (P * P)) by (apply Z.mul_le_mono_nonneg_r; [nia|assumption]). lia. }
  assert (G : 10000 * P < P * P) by nia.
  lia.
Qed.
Lemma sp_low P X sm h a1 sp : 10 ^ 6 < P -> 20 * X <= sm * P -> 0 < X -> sm * P < (a1 + 1) * X -> a1 - 5 <= h -> 10 <= a1 -> 1000 <= sm ->
  2 * (h * X) - P <= 2 * (sp * P) -> 2 * sm <= 3 * sp.
Proof.
  intros. assert ((a1 - 5) * X <= h * X) by nia. assert (2 * (sm * P - 6 * X) - P <= 2 * (sp * P)) by nia.
  assert (20 * (sm * P) - 6 * (sm * P) - 10 * P <= 20 * (sp * P)) by lia. nia.
Qed.

(** Above the range the first candidate wins over a second one with a negative price. *)
Lemma first_wins P rxd ryd sm sl sp k1 M L p1 p : 10 ^ 6 < P -> P <= rxd -> P <= ryd -> 0 < sm < sl -> sl < sp -> 1000 * P <= sp * sl ->
  0 <= k1 -> rxd * P < (k1 + 1) * (sp - sm) -> 2 * (M * P) <= 2 * (k1 * sm) + P -> 0 <= L -> k1 * P < (L + 1) * sl -> 0 <= p ->
  p1 * (ryd + L) <= (rxd + M) * P + (ryd + L) -> 2 * (sp * sp) - P <= 2 * (p * P) -> p1 <= 2 * p.
Proof.
  intros HP Hx Hy Hsm Hsp Hbig Hk K1 HM HL L1 Hp HP1 HPP.
  destruct (Z_le_gt_dec p1 (2 * p)) as [|G]; [assumption|exfalso].
  set (A := k1 + 1) in *. set (d1 := ryd + L) in *.
  assert (N1 : (rxd + M) * P < A * sp + P) by (unfold A in *; nia).
  assert (D1 : A * P <= d1 * sl) by (unfold A, d1 in *; nia).
  assert (Hd1 : 0 < d1) by (unfold d1; lia).
  assert (U : 2 * p * d1 <= (rxd + M) * P).
  { assert (2 * p * d1 <= (p1 - 1) * d1) by (apply Z.mul_le_mono_nonneg_r; lia). lia. }
  assert (HA : 0 < A) by (unfold A; lia).
  assert (AP : P * P < A * sp).
  { assert (P * P <= rxd * P) by (apply Z.mul_le_mono_nonneg_r; lia). assert (0 < A * sm) by (apply Z.mul_pos_pos; lia). lia. }
  assert (SS : sp * sl <= sp * sp) by (apply Z.mul_le_mono_nonneg_l; lia).
  assert (AP0 : 0 <= A * P) by (apply Z.mul_nonneg_nonneg; lia).
  assert (V1 : (2 * (sp * sp) - P) * (A * P) <= 2 * (p * P) * (d1 * sl)) by (apply Z.mul_le_mono_nonneg; lia).
  assert (SP0 : 0 < sl * P) by (apply Z.mul_pos_pos; lia).
  assert (V2 : 2 * p * d1 * (sl * P) < (A * sp + P) * (sl * P)) by (apply Z.mul_lt_mono_pos_r; lia).
  assert (V3 : (2 * (sp * sp) - P) * A < (A * sp + P) * sl).
  { apply (Z.mul_lt_mono_pos_r P); [lia|]. lia. }
  assert (V4 : P * sl * P <= A * sp * sl) by (rewrite (Z.mul_comm P sl), <- Z.mul_assoc, (Z.mul_comm sl (P * P)); apply Z.mul_le_mono_nonneg_r; lia).
  assert (V5 : (2 * (sp * sp) - P) * A * P < A * (sp * sl * (P + 1))).
  { assert ((2 * (sp * sp) - P) * A * P < (A * sp + P) * sl * P) by (apply Z.mul_lt_mono_pos_r; lia). lia. }
  assert (V6 : (2 * (sp * sp) - P) * P < sp * sl * (P + 1)).
  { apply (Z.mul_lt_mono_pos_l A); [unfold A; lia|]. lia. }
  clear V1 V2 V3 V4 V5 U N1 D1 AP HP1 HPP G HM K1 L1.
  assert (S1 : sp * sl * P <= sp * sp * P) by (apply Z.mul_le_mono_nonneg_r; lia).
  assert (S2 : 1000 * P * P <= sp * sp * P) by (apply Z.mul_le_mono_nonneg_r; lia).
  assert (S3 : sp * sp * 4 <= sp * sp * P) by (apply Z.mul_le_mono_nonneg_l; lia). lia.
Qed.

(** Below the range the second candidate wins over a first one with a negative price. *)
Lemma second_wins P rxd ryd sm sl sp K M L k2 M2 L2 i1 i2 q1 p2 p : 10 ^ 6 < P -> P <= rxd -> P <= ryd ->
  1000 <= sp -> sp < sm -> sm < sl -> 2 * sm <= 3 * sp -> 1000 * sm <= P * P -> 600 * P <= sm * sp ->
  0 <= K -> rxd * P < (K + 1) * (sm - sp) -> 2 * (K * sm) - P <= 2 * (M * P) -> 0 <= L -> 0 < ryd - L ->
  P * P < (i1 + 1) * sp -> i2 * sl <= P * P + sl -> 0 < i1 - i2 ->
  0 <= k2 -> k2 * (i1 - i2) <= ryd * P + (i1 - i2) -> 2 * (M2 * P) <= 2 * (k2 * sm) + P -> 0 <= L2 -> k2 * P < (L2 + 1) * sl ->
  (M - rxd) * P < (q1 + 1) * (ryd - L) ->
  p2 * (ryd + L2) <= (rxd + M2) * P + (ryd + L2) -> 2 * (sp * sp) - P <= 2 * (p * P) -> 0 <= p -> 0 <= q1 -> p2 < 2 * p + q1.
Proof.
  intros HP Hx Hy Hsp Hlt Hsl H23 Hsm Hbig HK K1 HM HL D1 I1 I2 I12 Hk2 K2 HM2 HL2 L21 Q1 HP2 HPP Hp Hq.
  destruct (Z_lt_le_dec p2 (2 * p + q1)) as [|G]; [assumption|exfalso].
  assert (A1 : 19 * rxd <= 10 * (M - rxd)).
  { assert (B0 : (K + 1) * (3 * (sm - sp)) <= (K + 1) * sm) by (apply Z.mul_le_mono_nonneg_l; lia).
    assert (R1 : P * P <= rxd * P) by (apply Z.mul_le_mono_nonneg_r; lia).
    assert (R2 : 10 ^ 6 * P <= P * P) by (apply Z.mul_le_mono_nonneg_r; lia).
    apply (Z.mul_le_mono_pos_r _ _ P); lia. }
  set (d2 := ryd + L2) in *.
  assert (D2 : ryd <= d2) by (unfold d2; lia).
  assert (Hd2 : 0 < d2) by lia.
  assert (A2 : 19 * (rxd * P) <= 10 * ((q1 + 1) * d2)).
  { assert (19 * rxd * P <= 10 * (M - rxd) * P) by (apply Z.mul_le_mono_nonneg_r; lia).
    assert ((q1 + 1) * (ryd - L) <= (q1 + 1) * d2) by (apply Z.mul_le_mono_nonneg_l; lia). lia. }
  assert (Hss : 0 <= sp * sl) by (apply Z.mul_nonneg_nonneg; lia).
  assert (Hds : 0 <= d2 * sp) by (apply Z.mul_nonneg_nonneg; lia).
  assert (Hps : 0 <= P * sp) by (apply Z.mul_nonneg_nonneg; lia).
  assert (A3 : 998 * (k2 * P) <= 1002 * (d2 * sp)).
  { destruct (Z.eq_dec k2 0) as [->|N0]; [lia|].
    assert (E1 : (k2 - 1) * (P * P * (sl - sp) - 2 * (sp * sl)) <= ryd * P * (sp * sl)).
    { assert (F1 : P * P * (sl - sp) - 2 * (sp * sl) <= (i1 - i2) * (sp * sl)).
      { assert (P * P * sl <= (i1 + 1) * sp * sl) by (apply Z.mul_le_mono_nonneg_r; lia). assert (i2 * sl * sp <= (P * P + sl) * sp) by (apply Z.mul_le_mono_nonneg_r; lia). lia. }
      assert (F2 : (k2 - 1) * (i1 - i2) <= ryd * P) by lia.
      assert (F3 : (k2 - 1) * (i1 - i2) * (sp * sl) <= ryd * P * (sp * sl)) by (apply Z.mul_le_mono_nonneg_r; assumption).
      assert (F4 : (k2 - 1) * (P * P * (sl - sp) - 2 * (sp * sl)) <= (k2 - 1) * ((i1 - i2) * (sp * sl))) by (apply Z.mul_le_mono_nonneg_l; [lia|assumption]). lia. }
    assert (E2 : (k2 * P - sl) * (P * sp) <= L2 * sl * (P * sp)) by (apply Z.mul_le_mono_nonneg_r; lia).
    assert (E3 : k2 * (P * P) - P * P - 2 * (k2 * sp) - sp * P <= d2 * (P * sp)).
    { apply (Z.mul_le_mono_pos_r _ _ sl); [lia|]. unfold d2. assert (0 <= P * P * sp) by (apply Z.mul_nonneg_nonneg; lia). lia. }
    assert (E4 : 2 * (k2 * sp) * 1000 <= 2 * (k2 * (P * P))).
    { assert (k2 * (1000 * sp) <= k2 * (P * P)) by (apply Z.mul_le_mono_nonneg_l; lia). lia. }
    assert (E5 : 1000 * (P * P) <= d2 * (P * sp)). { assert (T1 : P * 1000 <= d2 * sp) by (apply Z.mul_le_mono_nonneg; lia).
      assert (P * 1000 * P <= d2 * sp * P) by (apply Z.mul_le_mono_nonneg_r; lia). lia. }
    assert (E6 : 1000 * (sp * P) <= d2 * (P * sp)) by (rewrite (Z.mul_comm P sp); apply Z.mul_le_mono_nonneg_r; lia).
    apply (Z.mul_le_mono_pos_r _ _ P); [lia|]. lia. }
  assert (S0 : 600 * P * P <= sm * sp * d2) by (apply Z.mul_le_mono_nonneg; lia).
  assert (A4 : 998 * (k2 * P) * sm <= 1002 * (d2 * sp) * sm) by (apply Z.mul_le_mono_nonneg_r; [lia|assumption]).
  assert (A5 : 20 * (M2 * P * P) <= 22 * (sm * sp * d2)).
  { assert (2 * (M2 * P) * P <= (2 * (k2 * sm) + P) * P) by (apply Z.mul_le_mono_nonneg_r; [lia|assumption]). lia. }
  assert (B1 : (2 * p + q1 - 1) * d2 <= (rxd + M2) * P).
  { assert ((2 * p + q1 - 1) * d2 <= (p2 - 1) * d2) by (apply Z.mul_le_mono_nonneg_r; lia). lia. }
  assert (B2 : (2 * p + q1 - 1) * d2 * P <= (rxd + M2) * P * P) by (apply Z.mul_le_mono_nonneg_r; [lia|assumption]).
  assert (B3 : (2 * (sp * sp) - P) * d2 <= 2 * (p * P) * d2) by (apply Z.mul_le_mono_nonneg_r; [lia|assumption]).
  assert (B4 : 2 * (sm * sp) * d2 <= 3 * (sp * sp) * d2).
  { apply Z.mul_le_mono_nonneg_r; [lia|]. assert (sp * (2 * sm) <= sp * (3 * sp)) by (apply Z.mul_le_mono_nonneg_l; lia). lia. }
  assert (B5 : 19 * (rxd * P) * P <= 10 * ((q1 + 1) * d2) * P) by (apply Z.mul_le_mono_nonneg_r; [lia|assumption]).
  assert (B6 : 600 * P * d2 <= sm * sp * d2) by (apply Z.mul_le_mono_nonneg_r; lia).
  lia.
Qed.

Lemma below_neg P rxd sm sp K M : 10 ^ 6 < P -> P <= rxd -> 0 < sp < sm -> 2 * sm <= 3 * sp -> 1000 * sm <= P * P ->
  0 <= K -> rxd * P < (K + 1) * (sm - sp) -> 2 * (K * sm) - P <= 2 * (M * P) -> rxd < M.
Proof.
  intros HP Hx Hsp H23 Hsm HK K1 HM.
  assert (B0 : (K + 1) * (3 * (sm - sp)) <= (K + 1) * sm) by (apply Z.mul_le_mono_nonneg_l; lia).
  assert (R1 : P * P <= rxd * P) by (apply Z.mul_le_mono_nonneg_r; lia).
  assert (R2 : 10 ^ 6 * P <= P * P) by (apply Z.mul_le_mono_nonneg_r; lia).
  apply (Z.mul_lt_mono_pos_r P); lia.
Qed.

Definition good_range (minp maxp : dec) : Prop :=
  min_pool_price <= minp < maxp /\ maxp <= max_pool_price /\ min_gap_ratio <= dquo (maxp - minp) minp.
Lemma validate_good_range a b i : validate_ranged_pool_params a b i = Ok true -> good_range a b /\ a <= i <= b.
Proof.
  unfold validate_ranged_pool_params, good_range. intros H.
  destruct (Z.leb_spec i 0); [discriminate|]. destruct (Z.ltb_spec a min_pool_price); [discriminate|].
  destruct (Z.leb_spec b 0); [discriminate|]. destruct (Z.ltb_spec max_pool_price b); [discriminate|].
  destruct (Z.leb_spec b a); [discriminate|]. inv_ok. subst.
  destruct (Z.ltb_spec (dquo (b - a) a) min_gap_ratio); [discriminate|]. destruct (Z.ltb_spec i a); [discriminate|].
  destruct (Z.ltb_spec b i); [discriminate|]. lia.
Qed.

(** The two ends' square roots. *)
Lemma range_roots minp maxp : good_range minp maxp ->
  let sm := dsqrt minp in let sl := dsqrt maxp in
  31622776601 <= sm /\ sl <= 10 ^ 28 + 3 /\ sl <= 10000 * (sl - sm).
Proof.
  intros (Hm & Hl & Hg). cbn zeta. pose proof P18_pos as Hp.
  assert (E18 : P18 = 10 ^ 18) by reflexivity.
  unfold min_pool_price, max_pool_price, min_gap_ratio in *.
  assert (T : 10 ^ 38 < 2 ^ 298) by reflexivity.
  pose proof (dsqrt_bounds minp ltac:(lia)) as B1. pose proof (dsqrt_bounds maxp ltac:(lia)) as B2.
  pose proof (Z.sqrt_spec (minp * P18) ltac:(lia)) as S1. pose proof (Z.sqrt_spec (maxp * P18) ltac:(lia)) as S2. cbn zeta in S1, S2.
  pose proof (Z.sqrt_nonneg (minp * P18)) as N1. pose proof (Z.sqrt_nonneg (maxp * P18)) as N2.
  set (r1 := Z.sqrt (minp * P18)) in *. set (r2 := Z.sqrt (maxp * P18)) in *.
  rewrite E18 in S1, S2.
  assert (R1 : 31622776601 <= r1).
  { destruct (Z_le_gt_dec 31622776601 r1); [assumption|exfalso].
    assert (Z.succ r1 * Z.succ r1 <= 31622776601 * 31622776601) by (apply Z.mul_le_mono_nonneg; lia). lia. }
  assert (R2 : r2 <= 10 ^ 28).
  { destruct (Z_le_gt_dec r2 (10 ^ 28)); [assumption|exfalso].
    assert ((10 ^ 28 + 1) * (10 ^ 28 + 1) <= r2 * r2) by (apply Z.mul_le_mono_nonneg; lia). lia. }
  split; [lia|]. split; [lia|].
  pose proof (dquo_near (maxp - minp) minp ltac:(lia) ltac:(lia)) as (Q1 & Q2 & _).
  assert (G : (10 ^ 15 - 1) * minp <= (maxp - minp) * P18).
  { assert (10 ^ 15 * minp <= dquo (maxp - minp) minp * minp) by (apply Z.mul_le_mono_nonneg_r; lia). lia. }
  assert (X : 10000 * (r1 + 3) <= 9999 * r2); [|lia].
  destruct (Z_le_gt_dec (10000 * (r1 + 3)) (9999 * r2)); [assumption|exfalso].
  assert (Y : (9999 * Z.succ r2) * (9999 * Z.succ r2) <= (10000 * (r1 + 4)) * (10000 * (r1 + 4))) by (apply Z.mul_le_mono_nonneg; lia).
  assert (W : 31622776601 * r1 <= r1 * r1) by (apply Z.mul_le_mono_nonneg_r; lia).
  rewrite E18 in G. lia.
Qed.

Lemma derive_sp rx ry minp maxp sp : good_range minp maxp -> 1 <= rx -> 1 <= ry ->
  let rxd := of_int rx in let ryd := of_int ry in
  let sm := dsqrt minp in let sl := dsqrt maxp in
  dquo rxd ryd <> 0 -> dquo ryd rxd <> 0 ->
  (let sxy := dsqrt (dquo rxd ryd) in
   let alpha := dquo sm sxy - dquo sxy sl in
   sp = dmul (dquo_int (alpha + dsqrt (dmul (dmul alpha alpha) one_dec + 4 * P18)) 2) sxy) ->
  2 * sm <= 3 * sp.
Proof.
  intros Hg Hrx Hry rxd ryd sm sl Hq Hq' Hsp. cbn zeta in Hsp. rewrite dmul_one in Hsp.
  pose proof (range_roots minp maxp Hg) as (Lm & Ll & Gap). fold sm sl in Lm, Ll, Gap.
  pose proof P18_pos as Hp. assert (E18 : P18 = 10 ^ 18) by reflexivity.
  assert (Rx : P18 <= rxd) by (unfold rxd, of_int; nia). assert (Ry : P18 <= ryd) by (unfold ryd, of_int; nia).
  clearbody rxd ryd. clearbody sm sl.
  pose proof (dquo_near rxd ryd ltac:(lia) ltac:(lia)) as (Q0 & Q1 & _).
  pose proof (dquo_near ryd rxd ltac:(lia) ltac:(lia)) as (Q0' & _ & _).
  set (q := dquo rxd ryd) in *.
  assert (Qb : q <= 2 * (P18 * P18) + 1).
  { assert (D : rxd <= 2 * (ryd * P18)).
    { unfold dquo in Q0', Hq'. rewrite Z.quot_div_nonneg in * by nia.
      pose proof (Z.div_pos (ryd * P18 * P18) rxd ltac:(nia) ltac:(lia)) as D0.
      pose proof (chop_round_bounds _ D0) as D1. pose proof (div_bounds (ryd * P18 * P18) rxd ltac:(lia)) as D2.
      set (z := ryd * P18 * P18 / rxd) in *. assert (P18 <= 2 * z) by lia.
      assert (P18 * rxd <= 2 * z * rxd) by (apply Z.mul_le_mono_nonneg_r; lia).
      apply (Z.mul_le_mono_pos_r _ _ P18); lia. }
    apply (Z.mul_le_mono_pos_r _ _ ryd); [lia|].
    assert (rxd * P18 <= 2 * (ryd * P18) * P18) by (apply Z.mul_le_mono_nonneg_r; lia). lia. }
  assert (T : 2 * (P18 * P18) + 1 < 2 ^ 298) by reflexivity.
  pose proof (dsqrt_bounds q ltac:(lia)) as B. pose proof (Z.sqrt_spec (q * P18) ltac:(lia)) as S. cbn zeta in S. pose proof (Z.sqrt_nonneg (q * P18)) as N.
  set (sxy := dsqrt q) in *. set (r0 := Z.sqrt (q * P18)) in *.
  assert (X1 : 999999999 <= r0).
  { destruct (Z_le_gt_dec 999999999 r0); [assumption|exfalso].
    assert (Z.succ r0 * Z.succ r0 <= 999999999 * 999999999) by (apply Z.mul_le_mono_nonneg; lia). lia. }
  assert (X2 : r0 <= 1414213570 * 10 ^ 18).
  { destruct (Z_le_gt_dec r0 (1414213570 * 10 ^ 18)); [assumption|exfalso].
    assert ((1414213570 * 10 ^ 18) * (1414213570 * 10 ^ 18) <= r0 * r0) by (apply Z.mul_le_mono_nonneg; lia).
    assert (q * P18 <= (2 * (P18 * P18) + 1) * P18) by (apply Z.mul_le_mono_nonneg_r; lia). rewrite E18 in *. lia. }
  assert (XS : 20 * sxy <= sm * P18) by (rewrite E18 in *; lia).
  pose proof (dquo_near sm sxy ltac:(lia) ltac:(lia)) as (A1 & A1u & A1l).
  pose proof (dquo_near sxy sl ltac:(lia) ltac:(lia)) as (A2 & A2u & A2l).
  set (a1 := dquo sm sxy) in *. set (a2 := dquo sxy sl) in *.
  assert (A1b : a1 <= 10 ^ 40).
  { destruct (Z_le_gt_dec a1 (10 ^ 40)); [assumption|exfalso].
    assert (10 ^ 40 * 999999999 <= a1 * sxy) by (apply Z.mul_le_mono_nonneg; lia). rewrite E18 in *.
    assert (sm * 10 ^ 18 <= (10 ^ 28 + 3) * 10 ^ 18) by (apply Z.mul_le_mono_nonneg_r; lia). lia. }
  assert (A2b : a2 <= 10 ^ 40).
  { destruct (Z_le_gt_dec a2 (10 ^ 40)); [assumption|exfalso].
    assert (10 ^ 40 * sl <= a2 * sl) by (apply Z.mul_le_mono_nonneg_r; lia).
    assert (sxy * P18 <= (1414213570 * 10 ^ 18 + 3) * P18) by (apply Z.mul_le_mono_nonneg_r; lia).
    assert (10 ^ 40 * 31622776601 <= 10 ^ 40 * sl) by (apply Z.mul_le_mono_nonneg_l; lia).
    rewrite E18 in *. lia. }
  assert (Sq : dmul (a1 - a2) (a1 - a2) = dmul (Z.abs (a1 - a2)) (Z.abs (a1 - a2))) by (unfold dmul; rewrite <- Z.abs_mul, Z.abs_eq by (apply Z.square_nonneg); reflexivity).
  pose proof (dmul_near (Z.abs (a1 - a2)) (Z.abs (a1 - a2)) ltac:(lia) ltac:(lia)) as (D0 & Du & Dl).
  rewrite <- Sq in D0, Du, Dl. rewrite <- Z.abs_mul, (Z.abs_eq ((a1 - a2) * (a1 - a2))) in Du, Dl by (apply Z.square_nonneg).
  set (aa := dmul (a1 - a2) (a1 - a2)) in *.
  assert (Sb : aa + 4 * P18 < 2 ^ 298).
  { assert ((a1 - a2) * (a1 - a2) <= 10 ^ 40 * 10 ^ 40).
    { rewrite <- (Z.abs_eq ((a1 - a2) * (a1 - a2))) by (apply Z.square_nonneg). rewrite Z.abs_mul. apply Z.mul_le_mono_nonneg; lia. }
    rewrite E18 in *. lia. }
  pose proof (dsqrt_bounds (aa + 4 * P18) ltac:(lia)) as B4.
  pose proof (Z.sqrt_spec ((aa + 4 * P18) * P18) ltac:(lia)) as S4. cbn zeta in S4. pose proof (Z.sqrt_nonneg ((aa + 4 * P18) * P18)) as N4.
  set (rr := dsqrt (aa + 4 * P18)) in *. set (r4 := Z.sqrt ((aa + 4 * P18) * P18)) in *.
  assert (R4 : (aa + 4 * P18) * P18 < (rr + 1) * (rr + 1)).
  { assert (Z.succ r4 * Z.succ r4 <= (rr + 1) * (rr + 1)) by (apply Z.mul_le_mono_nonneg; lia). lia. }
  pose proof (sum_root_low P18 sxy sm sl a1 a2 rr (aa + 4 * P18) ltac:(lia) ltac:(lia) ltac:(lia) Gap XS A1 A2 A1l A1u A2u ltac:(lia) R4) as SR.
  replace (aa + 4 * P18 - 4 * P18) with aa in SR by lia. specialize (SR Dl). destruct SR as [SR1 SR2].
  unfold dquo_int in Hsp. rewrite Z.quot_div_nonneg in Hsp by lia.
  pose proof (Z.div_mod (a1 - a2 + rr) 2 ltac:(lia)) as Hd. pose proof (Z.mod_pos_bound (a1 - a2 + rr) 2 ltac:(lia)) as Hm2.
  set (h := (a1 - a2 + rr) / 2) in *.
  pose proof (dmul_near h sxy ltac:(lia) ltac:(lia)) as (F0 & Fu & Fl). rewrite <- Hsp in F0, Fu, Fl.
  apply (sp_low P18 sxy sm h a1 sp); lia.
Qed.

Lemma dquo_nonneg a b : 0 <= a -> 0 < b -> 0 <= dquo a b.
Proof. intros. apply (dquo_near a b); assumption. Qed.
Lemma dmul_nonneg a b : 0 <= a -> 0 <= b -> 0 <= dmul a b.
Proof. intros. apply (dmul_near a b); assumption. Qed.
Lemma dquo_sign_neg_neg a b : a <= 0 -> b < 0 -> 0 <= dquo a b.
Proof.
  intros Ha Hb. rewrite <- (Z.opp_involutive a), <- (Z.opp_involutive b).
  rewrite dquo_opp_l, dquo_opp_r, Z.opp_involutive by lia. apply dquo_nonneg; lia.
Qed.

(** Whatever translation the code derives for a valid range, the resulting price is not negative. *)
Lemma derive_price_nonneg rx ry minp maxp tx ty pp : good_range minp maxp -> 0 <= rx -> 0 <= ry ->
  derive_translation rx ry minp maxp = Ok (tx, ty) -> c_quo (of_int rx + tx) (of_int ry + ty) = Ok pp -> 0 <= pp.
Proof.
  intros Hg Hrx Hry H Hpp. pose proof P18_pos as Hp. assert (E18 : P18 = 10 ^ 18) by reflexivity.
  pose proof (range_roots minp maxp Hg) as (Lm & Ll & Gap).
  unfold derive_translation in H.
  set (rxd := of_int rx) in *. set (ryd := of_int ry) in *.
  apply rbind_ok in H. destruct H as (sp & Esp & H).
  assert (Rx : 0 <= rxd) by (unfold rxd, of_int; nia). assert (Ry : 0 <= ryd) by (unfold ryd, of_int; nia).
  assert (HS : (sp = dsqrt minp \/ sp = dsqrt maxp) \/ (P18 <= rxd /\ P18 <= ryd /\ 2 * dsqrt minp <= 3 * sp)).
  { clear H Hpp. destruct (Z.eqb_spec rxd 0) as [e|n1]; [inversion Esp; tauto|]. destruct (Z.eqb_spec ryd 0) as [e|n2]; [inversion Esp; tauto|].
    inv_ok. destruct (Z.eqb_spec x 0) as [e|n3]; [inversion Esp; tauto|]. inv_ok.
    destruct (Z.eqb_spec x0 0) as [e|n4]; [inversion Esp; tauto|]. inv_ok. right.
    assert (1 <= rx) by (unfold rxd, of_int in n1; nia). assert (1 <= ry) by (unfold ryd, of_int in n2; nia).
    split; [unfold rxd, of_int; nia|]. split; [unfold ryd, of_int; nia|]. subst x x0 x1 x2 x3 x4 x5 x6.
    apply (derive_sp rx ry minp maxp sp Hg); try assumption. subst x7. assumption. }
  clear Esp.
  set (sm := dsqrt minp) in *. set (sl := dsqrt maxp) in *.
  apply rbind_ok in H. destruct H as (k1 & Ek1 & H). apply rbind_ok in H. destruct H as (k & Ek & H).
  destruct k as [k|]; [|discriminate H]. apply rbind_ok in H. destruct H as (tx' & Etx & H).
  apply rbind_ok in H. destruct H as (ty' & Ety & H). inversion H; subst tx' ty'; clear H.
  apply c_mul_ok in Etx. apply c_quo_ok in Ety. destruct Ety as [_ Ety]. apply c_quo_ok in Hpp. destruct Hpp as [Hnz Hpp].
  assert (POS : 0 <= k -> 0 <= pp).
  { intros Hk. subst pp tx ty. pose proof (dmul_nonneg k sm Hk ltac:(lia)). pose proof (dquo_nonneg k sl Hk ltac:(lia)). apply dquo_nonneg; lia. }
  destruct (Z.eqb_spec sp sm) as [e1|n1].
  { inversion Ek1; subst k1. destruct (Z.eqb_spec sp sl) as [e2|n2]; [discriminate Ek|]. inv_ok.
    apply POS. subst. apply dquo_nonneg; [assumption|]. pose proof (dquo_mono_r one_dec sm sl ltac:(unfold one_dec; lia) ltac:(lia)). lia. }
  apply rbind_ok in Ek1. destruct Ek1 as (d & Ed & Ek1). apply rbind_ok in Ek1. destruct Ek1 as (kk & Ekk & Ek1).
  inversion Ek1; subst k1; clear Ek1. apply c_sub_ok in Ed. apply c_quo_ok in Ekk. destruct Ekk as [Hdz Ekk].
  destruct (Z.eqb_spec sp sl) as [e2|n2].
  { inversion Ek; subst k. apply POS. subst kk d. apply dquo_nonneg; lia. }
  destruct HS as [[|]|(Px & Py & H23)]; [lia|lia|].
  apply rbind_ok in Ek. destruct Ek as (i1 & Ei1 & Ek). apply c_quo_ok in Ei1. destruct Ei1 as [_ Ei1].
  apply rbind_ok in Ek. destruct Ek as (i2 & Ei2 & Ek). apply c_quo_ok in Ei2. destruct Ei2 as [_ Ei2].
  apply rbind_ok in Ek. destruct Ek as (d' & Ed' & Ek). apply c_sub_ok in Ed'.
  apply rbind_ok in Ek. destruct Ek as (k2 & Ek2 & Ek). apply c_quo_ok in Ek2. destruct Ek2 as [Hdz' Ek2].
  apply rbind_ok in Ek. destruct Ek as (p0 & Ep0 & Ek). apply c_mul_ok in Ep0.
  apply rbind_ok in Ek. destruct Ek as (p & Ep & Ek). apply c_mul_ok in Ep. rewrite dmul_one in Ep. subst p0.
  apply rbind_ok in Ek. destruct Ek as (km & Ekm & Ek). apply c_mul_ok in Ekm.
  apply rbind_ok in Ek. destruct Ek as (m1 & En1 & Ek). apply c_add_ok in En1.
  apply rbind_ok in Ek. destruct Ek as (kl & Ekl & Ek). apply c_quo_ok in Ekl. destruct Ekl as [_ Ekl].
  apply rbind_ok in Ek. destruct Ek as (d1 & Ed1 & Ek). apply c_add_ok in Ed1.
  apply rbind_ok in Ek. destruct Ek as (p1 & Ep1 & Ek). apply c_quo_ok in Ep1. destruct Ep1 as [Hd1 Ep1].
  apply rbind_ok in Ek. destruct Ek as (k2m & Ek2m & Ek). apply c_mul_ok in Ek2m.
  apply rbind_ok in Ek. destruct Ek as (m2 & En2 & Ek). apply c_add_ok in En2.
  apply rbind_ok in Ek. destruct Ek as (k2l & Ek2l & Ek). apply c_quo_ok in Ek2l. destruct Ek2l as [_ Ek2l].
  apply rbind_ok in Ek. destruct Ek as (d2 & Ed2 & Ek). apply c_add_ok in Ed2.
  apply rbind_ok in Ek. destruct Ek as (p2 & Ep2 & Ek). apply c_quo_ok in Ep2. destruct Ep2 as [Hd2 Ep2].
  apply rbind_ok in Ek. destruct Ek as (e1 & Ee1 & Ek). apply c_sub_ok in Ee1.
  apply rbind_ok in Ek. destruct Ek as (e2 & Ee2 & Ek). apply c_sub_ok in Ee2.
  pose proof (dmul_near sp sp ltac:(lia) ltac:(lia)) as (Pn & Pu & Pl). rewrite <- Ep in Pn, Pu, Pl.
  clearbody sm sl rxd ryd.
  assert (One : 0 <= one_dec) by (unfold one_dec; lia).
  assert (BIG : 600 * P18 <= sm * sp).
  { assert (31622776601 * 21081851067 <= sm * sp) by (apply Z.mul_le_mono_nonneg; lia). rewrite E18. lia. }
  destruct (Z_lt_le_dec sp sm) as [Lo|Hi].
  - (* below the range *)
    assert (EK : kk = - dquo rxd (sm - sp)) by (subst kk d; rewrite <- dquo_opp_r by lia; f_equal; lia).
    pose proof (dquo_near rxd (sm - sp) Rx ltac:(lia)) as (K0 & Ku & Kl). set (K := dquo rxd (sm - sp)) in *.
    pose proof (dmul_near K sm K0 ltac:(lia)) as (M0 & Mu & Ml).
    pose proof (dquo_near K sl K0 ltac:(lia)) as (L0 & Lu & Ll').
    assert (EM : km = - dmul K sm) by (rewrite Ekm, EK, dmul_opp_l; reflexivity).
    assert (EL : kl = - dquo K sl) by (rewrite Ekl, EK, dquo_opp_l by lia; reflexivity).
    set (M := dmul K sm) in *. set (L := dquo K sl) in *.
    assert (I12 : 0 < i1 - i2) by (pose proof (dquo_mono_r one_dec sp sl One ltac:(lia)); lia).
    pose proof (dquo_near one_dec sp One ltac:(lia)) as (I1 & I1u & I1l). rewrite <- Ei1 in I1, I1u, I1l.
    pose proof (dquo_near one_dec sl One ltac:(lia)) as (I2 & I2u & I2l). rewrite <- Ei2 in I2, I2u, I2l.
    assert (K2n : 0 <= k2) by (subst k2 d'; apply dquo_nonneg; lia).
    pose proof (dquo_near ryd d' Ry ltac:(lia)) as (_ & K2u & _). rewrite <- Ek2, Ed' in K2u.
    pose proof (dmul_near k2 sm K2n ltac:(lia)) as (M20 & M2u & M2l). rewrite <- Ek2m in M20, M2u, M2l.
    pose proof (dquo_near k2 sl K2n ltac:(lia)) as (L20 & L2u & L2l). rewrite <- Ek2l in L20, L2u, L2l.
    destruct (Z.abs e2 <? Z.abs e1) eqn:C; inversion Ek; subst k; [apply POS; assumption|].
    destruct (Z_lt_le_dec pp 0) as [Neg|]; [exfalso|assumption].
    assert (EQ : pp = p1) by (rewrite Hpp, Ep1, Etx, Ety, Ed1, En1, Ekm, Ekl; reflexivity).
    assert (SM : 1000 * sm <= P18 * P18) by (rewrite E18; lia).
    pose proof (below_neg P18 rxd sm sp K M ltac:(lia) Px ltac:(lia) H23 SM K0 Kl Ml) as RM.
    assert (D1 : 0 < d1).
    { destruct (Z_lt_le_dec 0 d1); [assumption|exfalso]. pose proof (dquo_sign_neg_neg m1 d1 ltac:(lia) ltac:(lia)). lia. }
    assert (Q1 : p1 = - dquo (M - rxd) d1) by (rewrite <- dquo_opp_l by lia; rewrite Ep1; f_equal; lia).
    pose proof (dquo_near (M - rxd) d1 ltac:(lia) D1) as (Q10 & Q1u & Q1l). set (q1 := dquo (M - rxd) d1) in *.
    replace d1 with (ryd - L) in Q1l, D1 by lia.
    assert (D2 : 0 < d2) by lia.
    pose proof (dquo_near m2 d2 ltac:(lia) D2) as (P20 & P2u & _). rewrite <- Ep2 in P20, P2u. rewrite Ed2, En2 in P2u.
    pose proof (second_wins P18 rxd ryd sm sl sp K M L k2 k2m k2l i1 i2 q1 p2 p ltac:(lia) Px Py ltac:(lia) Lo ltac:(lia) H23 SM BIG
      K0 Kl Ml L0 D1 I1l I2u I12 K2n K2u M2u L20 L2l Q1l P2u Pl Pn Q10) as W.
    apply Z.ltb_ge in C. lia.
  - destruct (Z_lt_le_dec sp sl) as [In|Out].
    + apply POS. assert (I12 : 0 < i1 - i2) by (pose proof (dquo_mono_r one_dec sp sl One ltac:(lia)); lia).
      destruct (Z.abs e2 <? Z.abs e1); inversion Ek; subst k; [subst k2|subst kk]; apply dquo_nonneg; lia.
    + (* above the range *)
      assert (K0 : 0 <= kk) by (subst kk; apply dquo_nonneg; lia).
      destruct (Z.abs e2 <? Z.abs e1) eqn:C; inversion Ek; subst k; [|apply POS; assumption].
      destruct (Z_lt_le_dec pp 0) as [Neg|]; [exfalso|assumption].
      assert (EQ : pp = p2) by (rewrite Hpp, Ep2, Etx, Ety, Ed2, En2, Ek2m, Ek2l; reflexivity).
      pose proof (dquo_near rxd d Rx ltac:(lia)) as (_ & _ & Kl). rewrite <- Ekk, Ed in Kl.
      pose proof (dmul_near kk sm K0 ltac:(lia)) as (M0 & Mu & Ml). rewrite <- Ekm in M0, Mu, Ml.
      pose proof (dquo_near kk sl K0 ltac:(lia)) as (L0 & Lu & Ll'). rewrite <- Ekl in L0, Lu, Ll'.
      pose proof (dquo_near m1 d1 ltac:(lia) ltac:(lia)) as (P10 & P1u & _). rewrite <- Ep1 in P10, P1u. rewrite Ed1, En1 in P1u.
      assert (BIG2 : 1000 * P18 <= sp * sl).
      { assert (31622776602 * 31622776602 <= sp * sl) by (apply Z.mul_le_mono_nonneg; lia).
        assert (31624359177 * 31624359177 <= sp * sl) by (apply Z.mul_le_mono_nonneg; lia). rewrite E18. lia. }
      pose proof (first_wins P18 rxd ryd sm sl sp kk km kl p1 p ltac:(lia) Px Py ltac:(lia) ltac:(lia) BIG2 K0 Kl Mu L0 Ll' Pn P1u Pl) as W.
      apply Z.ltb_lt in C. lia.
Qed.
