(** Creating a ranged pool never takes more than was offered. *)
From Verif Require Import Base Dec DecProofs TickModel TickSpec TickProofs OrderModel MatchModel MatchSpec OrderProofs PoolModel PoolProofs PoolOrderProofs SqrtProofs RangeProofs.

(** The price of a freshly translated ranged pool. *)
Lemma ranged_price_nonneg rx ry rx0 ry0 ps minp maxp t1 t2 p pp : good_range minp maxp -> 0 <= rx -> 0 <= ry ->
  set_balances (Ranged rx0 ry0 ps minp maxp t1 t2) rx ry true = Ok p -> pool_price p = Ok pp -> 0 <= pp.
Proof.
  intros Hg Hx Hy H Hpp. cbn [set_balances] in H. apply rbind_ok in H. destruct H as ([tx ty] & Et & H). cbn [fst snd] in H.
  apply rbind_ok in H. destruct H as (? & _ & H). apply rbind_ok in H. destruct H as (? & _ & H). inversion H; subst p; clear H.
  cbn [pool_price] in Hpp. destruct ((rx =? 0) && (ry =? 0)); [discriminate|].
  exact (derive_price_nonneg rx ry minp maxp tx ty pp Hg Hx Hy Et Hpp).
Qed.

Lemma ceil_gt m c : 0 <= m -> c < dtrunc (dceil m) -> c * P18 < m.
Proof. intros Hm H. destruct (Z_lt_le_dec (c * P18) m); [assumption|]. pose proof (ceil_le m c Hm l). lia. Qed.
Lemma ceil_nonpos m : m <= 0 -> dtrunc (dceil m) <= 0.
Proof.
  intros H. unfold dceil, dtrunc, chop_trunc. pose proof P18_pos. destruct (Z.eq_dec m 0) as [->|]; [reflexivity|].
  pose proof (Z.rem_bound_pos_neg m P18 ltac:(lia) ltac:(lia)). destruct (Z.leb_spec (Z.rem m P18) 0); [|lia].
  rewrite Z.quot_mul by lia. pose proof (Z.quot_le_mono m 0 P18 ltac:(lia) ltac:(lia)) as Q. rewrite Z.quot_0_l in Q; lia.
Qed.
Lemma dquo_half a b : 0 <= a -> 0 < b -> 2 * (dquo a b * b) <= 2 * (a * P18) + b.
Proof.
  intros Ha Hb. pose proof P18_pos as Hp. unfold dquo. rewrite Z.quot_div_nonneg by nia.
  assert (D0 : 0 <= a * P18 * P18 / b) by (apply Z.div_pos; nia).
  pose proof (chop_round_bounds _ D0) as B. pose proof (div_bounds (a * P18 * P18) b Hb) as D.
  set (z := a * P18 * P18 / b) in *. set (c := chop_round z) in *.
  assert (2 * (c * P18) * b <= (2 * z + P18) * b) by (apply Z.mul_le_mono_nonneg_r; lia).
  apply (Z.mul_le_mono_pos_r _ _ P18); lia.
Qed.
Lemma dmul_sign_neg a b : 0 <= a -> b <= 0 -> dmul a b <= 0.
Proof.
  intros. replace (dmul a b) with (- dmul a (- b)); [pose proof (dmul_nonneg a (- b) ltac:(lia) ltac:(lia)); lia|].
  unfold dmul. replace (a * - b) with (- (a * b)) by lia. rewrite chop_round_opp. lia.
Qed.

Lemma accept_le P x y d e q q' : 0 < P -> 0 <= x -> 0 <= y -> 0 < d -> 0 < e -> d < P \/ e < P ->
  2 * (q * d) <= 2 * (x * P * P) + d -> 2 * (q' * e) <= 2 * (y * P * P) + e ->
  2 * (y * P + 1) * P - P <= 2 * (q * e) -> 2 * (x * P + 1) * P - P <= 2 * (q' * d) -> False.
Proof.
  intros HP Hx Hy Hd He Hor A B C D.
  assert (T1 : P - d <= 2 * ((q' - q) * d)) by lia. assert (T2 : P - e <= 2 * ((q - q') * e)) by lia.
  destruct (Z.lt_trichotomy q q') as [L|[E|L]].
  - assert ((q - q') * e <= -1 * e) by (apply Z.mul_le_mono_nonneg_r; lia). lia.
  - subst q'. lia.
  - assert ((q' - q) * d <= -1 * d) by (apply Z.mul_le_mono_nonneg_r; lia). lia.
Qed.

Lemma create_ranged_accepts x y minp maxp initp p : 0 <= x -> 0 <= y -> create_ranged_pool x y minp maxp initp = Ok (Some p) ->
  p_rx p <= x /\ p_ry p <= y.
Proof.
  intros Hx Hy H. unfold create_ranged_pool in H. pose proof P18_pos as Hp. assert (E18 : P18 = 10 ^ 18) by reflexivity.
  destruct ((x <=? 0) && (y <=? 0)); [discriminate H|]. apply rbind_ok in H. destruct H as (v & Hv & H).
  destruct v; cbn [negb] in H; [|discriminate H]. apply validate_good_range in Hv. destruct Hv as [Hg Hi].
  apply rbind_ok in H. destruct H as ([ax ay] & Ha & H). cbn [fst snd] in H. apply rbind_ok in H. destruct H as (p' & Hn & H).
  inversion H; subst p'; clear H. unfold new_ranged_pool in Hn. apply set_balances_res in Hn. destruct Hn as (-> & -> & _).
  destruct (initp =? minp); [inversion Ha; subst; lia|]. destruct (initp =? maxp); [inversion Ha; subst; lia|].
  pose proof (range_roots minp maxp Hg) as (Lm & Ll & Gap).
  assert (Rng : 0 < initp < 2 ^ 298).
  { destruct Hg as (G1 & G2 & _). unfold min_pool_price, max_pool_price in *. assert (10 ^ 38 < 2 ^ 298) by reflexivity. lia. }
  pose proof (dsqrt_pos initp (proj1 Rng)) as Sp.
  set (sp := dsqrt initp) in *. set (sm := dsqrt minp) in *. set (sl := dsqrt maxp) in *. clearbody sp sm sl.
  apply rbind_ok in Ha. destruct Ha as (d & Ed & Ha). apply c_sub_ok in Ed.
  apply rbind_ok in Ha. destruct Ha as (q & Eq & Ha). apply c_quo_ok in Eq. destruct Eq as [Hdz Eq].
  apply rbind_ok in Ha. destruct Ha as (ip & Eip & Ha). apply c_quo_ok in Eip. destruct Eip as [_ Eip].
  apply rbind_ok in Ha. destruct Ha as (il & Eil & Ha). apply c_quo_ok in Eil. destruct Eil as [_ Eil].
  apply rbind_ok in Ha. destruct Ha as (e & Ee & Ha). apply c_sub_ok in Ee.
  apply rbind_ok in Ha. destruct Ha as (m & Em & Ha). apply c_mul_ok in Em.
  apply rbind_ok in Ha. destruct Ha as (ay0 & Eay & Ha). apply chk_int_ok in Eay. destruct Eay as [Eay _].
  destruct (Z.ltb_spec y ay0) as [Lt|Ge]; [|inversion Ha; subst; lia].
  apply rbind_ok in Ha. destruct Ha as (q' & Eq' & Ha). apply c_quo_ok in Eq'. destruct Eq' as [Hez Eq'].
  apply rbind_ok in Ha. destruct Ha as (m' & Em' & Ha). apply c_mul_ok in Em'.
  apply rbind_ok in Ha. destruct Ha as (ax0 & Eax & Ha). apply chk_int_ok in Eax. destruct Eax as [Eax _].
  inversion Ha; subst ax ay; clear Ha. split; [|lia].
  destruct (Z_le_gt_dec ax0 x) as [|Gt]; [assumption|exfalso].
  assert (Hm0 : 0 < m) by (destruct (Z_lt_le_dec 0 m) as [|N]; [assumption|pose proof (ceil_nonpos m N); lia]).
  assert (One : 0 <= one_dec) by (unfold one_dec; lia).
  assert (OX : 0 <= of_int x) by (unfold of_int; nia). assert (OY : 0 <= of_int y) by (unfold of_int; nia).
  assert (Dpos : 0 < d).
  { destruct (Z_lt_le_dec 0 d) as [|N]; [assumption|exfalso].
    assert (0 <= e) by (pose proof (dquo_mono_r one_dec sp sl One ltac:(lia)); lia).
    pose proof (dquo_nonneg (of_int x) (- d) OX ltac:(lia)) as Q. rewrite dquo_opp_r in Q by assumption. rewrite <- Eq in Q.
    pose proof (dmul_nonneg (- q) e ltac:(lia) ltac:(lia)) as M. rewrite dmul_opp_l in M. lia. }
  pose proof (dquo_nonneg (of_int x) d OX Dpos) as Q0. rewrite <- Eq in Q0.
  assert (Epos : 0 < e).
  { destruct (Z_lt_le_dec 0 e) as [|N]; [assumption|exfalso]. pose proof (dmul_sign_neg q e Q0 N). lia. }
  pose proof (dquo_nonneg (of_int y) e OY Epos) as Q0'. rewrite <- Eq' in Q0'.
  pose proof (dmul_near q e Q0 ltac:(lia)) as (M0 & Mu & _). rewrite <- Em in M0, Mu.
  pose proof (dmul_near q' d Q0' ltac:(lia)) as (M0' & Mu' & _). rewrite <- Em' in M0', Mu'.
  pose proof (dquo_half (of_int x) d OX Dpos) as A. rewrite <- Eq in A.
  pose proof (dquo_half (of_int y) e OY Epos) as B. rewrite <- Eq' in B.
  pose proof (ceil_gt m y M0 ltac:(lia)) as C1. pose proof (ceil_gt m' x M0' ltac:(lia)) as C2.
  assert (HOR : d < P18 \/ e < P18).
  { destruct (Z_lt_le_dec d P18) as [|DP]; [tauto|right]. pose proof (dquo_nonneg one_dec sl One ltac:(lia)) as I0.
    destruct (Z_lt_le_dec e P18) as [|EP]; [assumption|exfalso].
    pose proof (dquo_near one_dec sp One Sp) as (_ & I1 & _). rewrite <- Eip in I1.
    assert (P18 * sp <= ip * sp) by (apply Z.mul_le_mono_nonneg_r; lia). unfold one_dec in *. rewrite E18 in *. lia. }
  unfold of_int in *.
  assert (C1' : 2 * (y * P18 + 1) * P18 <= 2 * m * P18) by (apply Z.mul_le_mono_nonneg_r; lia).
  assert (C2' : 2 * (x * P18 + 1) * P18 <= 2 * m' * P18) by (apply Z.mul_le_mono_nonneg_r; lia).
  apply (accept_le P18 x y d e q q'); try assumption; lia.
Qed.

Lemma create_ranged_facts x y minp maxp initp p : create_ranged_pool x y minp maxp initp = Ok (Some p) ->
  (0 < x \/ 0 < y) /\ good_range minp maxp /\ minp <= initp <= maxp /\ (p_rx p = x \/ p_ry p = y) /\
  exists tx ty, p = Ranged (p_rx p) (p_ry p) (initial_pool_coin_supply (p_rx p) (p_ry p)) minp maxp tx ty.
Proof.
  intros H. unfold create_ranged_pool in H.
  destruct ((x <=? 0) && (y <=? 0)) eqn:E0; [discriminate H|]. apply rbind_ok in H. destruct H as (v & Hv & H).
  destruct v; cbn [negb] in H; [|discriminate H]. apply validate_good_range in Hv. destruct Hv as [Hg Hi].
  apply rbind_ok in H. destruct H as ([ax ay] & Ha & H). cbn [fst snd] in H. apply rbind_ok in H. destruct H as (p' & Hn & H).
  inversion H; subst p'; clear H. unfold new_ranged_pool in Hn. cbn [set_balances] in Hn.
  apply rbind_ok in Hn. destruct Hn as ([tx ty] & _ & Hn). apply rbind_ok in Hn. destruct Hn as (? & _ & Hn). apply rbind_ok in Hn. destruct Hn as (? & _ & Hn).
  inversion Hn; subst p; clear Hn. cbn [p_rx p_ry fst snd].
  split; [apply andb_false_iff in E0; lia|]. split; [assumption|]. split; [assumption|]. split; [|exists tx, ty; reflexivity].
  destruct (initp =? minp); [inversion Ha; subst; tauto|]. destruct (initp =? maxp); [inversion Ha; subst; tauto|].
  apply rbind_ok in Ha. destruct Ha as (d & _ & Ha). apply rbind_ok in Ha. destruct Ha as (q & _ & Ha). apply rbind_ok in Ha. destruct Ha as (ip & _ & Ha).
  apply rbind_ok in Ha. destruct Ha as (il & _ & Ha). apply rbind_ok in Ha. destruct Ha as (e & _ & Ha). apply rbind_ok in Ha. destruct Ha as (m & _ & Ha).
  apply rbind_ok in Ha. destruct Ha as (ay0 & _ & Ha). destruct (y <? ay0); [|inversion Ha; subst; tauto].
  apply rbind_ok in Ha. destruct Ha as (q' & _ & Ha). apply rbind_ok in Ha. destruct Ha as (m' & _ & Ha). apply rbind_ok in Ha. destruct Ha as (ax0 & _ & Ha).
  inversion Ha; subst; tauto.
Qed.
