(** The price of a ranged pool that holds only one of its coins (C55). *)
From Verif Require Import Base Dec DecProofs PoolModel PoolProofs PoolOrderProofs SqrtProofs RangeProofs.

(** Multiplying and dividing both sides of an inequality. *)
Lemma cut a b c : 0 < a -> a * b <= a * c -> b <= c.
Proof. intros. nia. Qed.
Lemma scale c a b : 0 <= c -> a <= b -> c * a <= c * b.
Proof. intros. nia. Qed.
Lemma pos2 a b : 0 <= a -> 0 <= b -> 0 <= a * b.
Proof. intros. nia. Qed.

Section Low.
Variables P M R sm sl i1 i2 k tx ty pp : Z.
Hypothesis HP : 10 ^ 18 <= P.
Hypothesis Hsm : 30000000000 <= sm.
Hypothesis Hsl : sm < sl.
Hypothesis Hbig : 40000000 * sm <= P * P.
Hypothesis HM : (sm - 3) * (sm - 3) <= M * P.
Hypothesis HM' : M * P <= (sm + 1) * (sm + 1).
Hypothesis HR : P <= R.
Hypothesis Hi1 : i1 * sm <= P * P + sm.
Hypothesis Hi1' : P * P <= (i1 + 1) * sm.
Hypothesis Hi2 : 0 <= i2.
Hypothesis Hi2' : i2 * sl <= P * P + sl.
Hypothesis Hi2'' : P * P <= (i2 + 1) * sl.
Hypothesis Hd : 0 < i1 - i2.
Hypothesis Hk : 0 <= k.
Hypothesis Hk' : k * (i1 - i2) <= R * P + (i1 - i2).
Hypothesis Hk'' : R * P <= (k + 1) * (i1 - i2).
Hypothesis Htx : 2 * (tx * P) <= 2 * (k * sm) + P.
Hypothesis Htx' : 2 * (k * sm) - P <= 2 * (tx * P).
Hypothesis Hty : 0 <= ty.
Hypothesis Hty' : ty * sl <= k * P + sl.
Hypothesis Hty'' : k * P <= (ty + 1) * sl.
Hypothesis Hpp : 0 <= pp.
Hypothesis Hpp' : pp * (R + ty) <= tx * P + (R + ty).
Hypothesis Hpp'' : tx * P <= (pp + 1) * (R + ty).
Lemma PP_pos : 0 < P * P. Proof. clear - HP. nia. Qed.
Lemma low_k : 99 * sm <= 100 * k.
Proof.
  pose proof PP_pos as PP.
  assert (A : (i1 - i2) * sm <= P * P + sm). { pose proof (pos2 i2 sm Hi2 ltac:(lia)). lia. }
  assert (B : P * P <= R * P) by (pose proof (scale P P R ltac:(lia) HR); lia).
  assert (E : P * P * sm <= (k + 1) * (P * P + sm)).
  { pose proof (scale sm _ _ ltac:(lia) B). pose proof (scale sm _ _ ltac:(lia) Hk''). pose proof (scale (k + 1) _ _ ltac:(lia) A). lia. }
  assert (F : P * P * (40000000 * sm) <= P * P * (40000001 * (k + 1))) by (pose proof (scale (k + 1) _ _ ltac:(lia) Hbig); lia).
  apply cut in F; [|exact PP]. lia.
Qed.
Lemma low_d_below : P * P * (sl - sm) - 2 * (sm * sl) <= (i1 - i2) * sm * sl.
Proof. pose proof (scale sl _ _ ltac:(lia) Hi1'). pose proof (scale sm _ _ ltac:(lia) Hi2'). lia. Qed.
Lemma low_d_above : (i1 - i2) * sm * sl <= P * P * (sl - sm) + 2 * (sm * sl).
Proof. pose proof (scale sl _ _ ltac:(lia) Hi1). pose proof (scale sm _ _ ltac:(lia) Hi2''). lia. Qed.
Lemma low_small : 2 * (k * sm) * 20000000 <= k * (P * P) /\ 2 * sm * 20000000 <= P * P /\ P * P * 29000000000 <= k * (P * P) /\ P * sm * 100000000 <= k * (P * P).
Proof.
  pose proof low_k as K. pose proof PP_pos as PP. split; [pose proof (scale k _ _ Hk Hbig); lia|]. split; [lia|]. split; [pose proof (scale (P * P) 29000000000 k ltac:(lia) ltac:(lia)); lia|].
  pose proof (scale P _ _ ltac:(lia) K). pose proof (scale (P * k) _ _ (pos2 P k ltac:(lia) Hk) HP). pose proof (pos2 P k ltac:(lia) Hk). lia.
Qed.
Lemma low_den_below : (10000000 - 1) * (k * P) <= 10000000 * ((R + ty) * sm).
Proof.
  pose proof low_d_below as D. pose proof low_k as K. destruct low_small as (X1 & X0 & X2 & X3). pose proof PP_pos as PP.
  pose proof (pos2 sm sl ltac:(lia) ltac:(lia)) as ss.
  assert (A : (k - 1) * (i1 - i2) <= R * P) by lia.
  pose proof (scale (k - 1) _ _ ltac:(lia) D) as E1. pose proof (scale (sm * sl) _ _ ss A) as E2.
  pose proof (scale (P * sm) _ _ (pos2 P sm ltac:(lia) ltac:(lia)) Hty'') as F.
  assert (G : sl * (k * (P * P) - P * P - 2 * (k * sm) - P * sm) <= sl * ((R + ty) * P * sm)). { pose proof (pos2 (P * P) sm ltac:(lia) ltac:(lia)). lia. }
  apply cut in G; [|lia]. apply (cut P); [lia|]. lia.
Qed.
Lemma low_den_above : 10000000 * ((R + ty) * sm) <= (10000000 + 1) * (k * P).
Proof.
  pose proof low_d_above as D. pose proof low_k as K. destruct low_small as (X1 & X0 & X2 & X3). pose proof PP_pos as PP.
  pose proof (pos2 sm sl ltac:(lia) ltac:(lia)) as ss.
  pose proof (scale (k + 1) _ _ ltac:(lia) D) as E1. pose proof (scale (sm * sl) _ _ ss Hk'') as E2.
  pose proof (scale (P * sm) _ _ (pos2 P sm ltac:(lia) ltac:(lia)) Hty') as F.
  assert (G : sl * ((R + ty) * P * sm) <= sl * (k * (P * P) + P * P + 2 * ((k + 1) * sm) + P * sm)). { pose proof (pos2 (P * P) sm ltac:(lia) ltac:(lia)). lia. }
  apply cut in G; [|lia]. apply (cut P); [lia|]. lia.
Qed.
Lemma low_square : 1000000000 * (sm * sm) <= 1000000001 * (M * P) /\ 999999999 * (M * P) <= 1000000000 * (sm * sm).
Proof. pose proof (scale sm _ _ ltac:(lia) Hsm). lia. Qed.
Lemma low_end : 1000000 * (pp - M) <= M + 3000000 /\ 1000000 * (M - pp) <= M + 3000000.
Proof.
  pose proof low_k as K. pose proof low_den_below as B. pose proof low_den_above as A. destruct low_square as [S1 S2].
  assert (KP : 0 < k * P) by (assert (0 < k) by lia; clear - H HP; nia). assert (M0 : 0 <= M). { apply (cut P); [lia|]. pose proof (pos2 sm sm ltac:(lia) ltac:(lia)). lia. }
  assert (sP : sm * P * 99 <= 100 * (k * P)) by (pose proof (scale P _ _ ltac:(lia) K); lia). split.
  - destruct (Z.le_gt_cases pp 1) as [|G]; [lia|].
    assert (U : (pp - 1) * (R + ty) <= k * sm + P) by lia.
    pose proof (scale (pp - 1) _ _ ltac:(lia) B) as V1. pose proof (scale sm _ _ ltac:(lia) U) as V2. pose proof (scale k _ _ Hk S1) as W.
    assert (X : (k * P) * (100 * ((pp - 1) * (10000000 - 1))) <= (k * P) * (1000000001 * M + 1020000000)) by lia.
    apply cut in X; [|exact KP]. lia.
  - assert (U : k * sm - P <= (pp + 1) * (R + ty)) by lia.
    pose proof (scale (pp + 1) _ _ ltac:(lia) A) as V1. pose proof (scale sm _ _ ltac:(lia) U) as V2. pose proof (scale k _ _ Hk S2) as W.
    assert (X : (k * P) * (999999999 * M) <= (k * P) * (100 * ((pp + 1) * (10000000 + 1)) + 1020000000)) by lia.
    apply cut in X; [|exact KP]. lia.
Qed.
End Low.
Section High.
Variables P L R sm sl k tx ty pp : Z.
Hypothesis HP : 10 ^ 18 <= P.
Hypothesis Hsm : 30000000000 <= sm.
Hypothesis Hsl : sm < sl.
Hypothesis Hbig : 40000000 * sl <= P * P.
Hypothesis HL : (sl - 3) * (sl - 3) <= L * P.
Hypothesis HL' : L * P <= (sl + 1) * (sl + 1).
Hypothesis HR : P <= R.
Hypothesis Hrich : 1000000 * L <= R * P.
Hypothesis Hk : 0 <= k.
Hypothesis Hk' : k * (sl - sm) <= R * P + (sl - sm).
Hypothesis Hk'' : R * P <= (k + 1) * (sl - sm).
Hypothesis Htx : 2 * (tx * P) <= 2 * (k * sm) + P.
Hypothesis Htx' : 2 * (k * sm) - P <= 2 * (tx * P).
Hypothesis Hty : 0 < ty.
Hypothesis Hty' : ty * sl <= k * P + sl.
Hypothesis Hty'' : k * P <= (ty + 1) * sl.
Hypothesis Hpp : 0 <= pp.
Hypothesis Hpp' : pp * ty <= (R + tx) * P + ty.
Hypothesis Hpp'' : (R + tx) * P <= (pp + 1) * ty.
Lemma high_k0 : P * P <= (k + 1) * sl.
Proof. pose proof (scale P P R ltac:(lia) HR). pose proof (pos2 (k + 1) sm ltac:(lia) ltac:(lia)). lia. Qed.
Lemma high_k : 39000000 <= k.
Proof. pose proof high_k0 as A. assert (sl * 40000000 <= sl * (k + 1)) by lia. apply cut in H; lia. Qed.
Lemma high_square : 1000000000 * (sl * sl) <= 1000000001 * (L * P) /\ 999999999 * (L * P) <= 1000000000 * (sl * sl).
Proof. pose proof (scale sl 30000000000 sl ltac:(lia) ltac:(lia)). lia. Qed.
Lemma high_kP : 990000 * sl <= k * P.
Proof.
  pose proof high_k as K. destruct high_square as [S _]. pose proof (scale P _ _ ltac:(lia) Hrich) as A. pose proof (scale P _ _ ltac:(lia) Hk'') as B.
  pose proof (pos2 (k + 1) (sm * P) ltac:(lia) (pos2 sm P ltac:(lia) ltac:(lia))).
  pose proof (pos2 sl sl ltac:(lia) ltac:(lia)).
  assert (E : sl * (999999 * sl) <= sl * ((k + 1) * P)) by lia. apply cut in E; [|lia]. pose proof (scale P _ _ ltac:(lia) K). lia.
Qed.
Lemma high_end : 100000 * (pp - L) <= L + 200000 /\ 100000 * (L - pp) <= L + 200000.
Proof.
  pose proof high_k as K. pose proof high_k0 as K0. pose proof high_kP as KP. destruct high_square as [S1 S2].
  assert (KP0 : 0 < k * P) by lia. pose proof (pos2 sl sl ltac:(lia) ltac:(lia)) as ss. assert (L0 : 0 <= L). { apply (cut P); [lia|]. lia. }
  pose proof (scale P _ _ ltac:(lia) HP) as PP. pose proof (scale sl _ _ ltac:(lia) K) as sK.
  assert (Psm : 100000000 * P <= k * sl) by lia.
  assert (N1 : (R + tx) * P <= k * sl + sl + P) by lia. assert (N2 : k * sl - sl - P <= (R + tx) * P) by lia.
  pose proof (scale sl _ _ ltac:(lia) Psm) as sP. pose proof (scale sl _ _ ltac:(lia) sK) as ssK. pose proof (scale k _ _ Hk S1) as W1. pose proof (scale k _ _ Hk S2) as W2. split.
  - destruct (Z.le_gt_cases pp 1) as [|G]; [lia|].
    assert (U : (pp - 1) * ty <= k * sl + sl + P) by lia. pose proof (scale sl _ _ ltac:(lia) U) as V1. pose proof (scale (pp - 1) _ _ ltac:(lia) Hty'') as V2. pose proof (scale (pp - 1) _ _ ltac:(lia) KP) as V3.
    assert (X : (k * P) * ((pp - 1) * (990000 - 1)) <= (k * P) * (990001 * L)) by lia.
    apply cut in X; [|exact KP0]. lia.
  - assert (U : k * sl - sl - P <= (pp + 1) * ty) by lia. pose proof (scale sl _ _ ltac:(lia) U) as V1. pose proof (scale (pp + 1) _ _ ltac:(lia) Hty') as V2. pose proof (scale (pp + 1) _ _ ltac:(lia) KP) as V3.
    assert (X : (k * P) * (989999 * L) <= (k * P) * ((pp + 1) * (990000 + 1))) by lia.
    apply cut in X; [|exact KP0]. lia.
Qed.
End High.
Lemma root_square d : 0 < d < 2 ^ 298 -> 30000000000 <= dsqrt d -> (dsqrt d - 3) * (dsqrt d - 3) <= d * P18 /\ d * P18 <= (dsqrt d + 1) * (dsqrt d + 1).
Proof.
  intros H G. pose proof (dsqrt_bounds d H) as B. pose proof P18_pos. pose proof (Z.sqrt_spec (d * P18) ltac:(nia)) as Sq. unfold Z.succ in Sq. set (r := Z.sqrt (d * P18)) in *. clearbody r. generalize dependent (dsqrt d). intros q G B. nia.
Qed.
Lemma near_le a b : 0 <= a -> 0 < b -> 0 <= dquo a b /\ dquo a b * b <= a * P18 + b /\ a * P18 <= (dquo a b + 1) * b.
Proof. intros A B. destruct (dquo_near a b A B) as (X & Y & Z). split; [exact X|split; [exact Y|lia]]. Qed.
Theorem ranged_ends rx ry ps minp maxp p pp : good_range minp maxp -> new_ranged_pool rx ry ps minp maxp = Ok p -> pool_price p = Ok pp ->
  (rx = 0 -> 0 < ry -> 1000000 * Z.abs (pp - minp) <= minp + 3000000) /\
  (ry = 0 -> 0 < rx -> 1000000 * maxp <= rx * P18 * P18 -> 100000 * Z.abs (pp - maxp) <= maxp + 200000).
Proof.
  intros Hg H Hpp. pose proof P18_pos as Hp. assert (E18 : 10 ^ 18 <= P18) by (vm_compute; discriminate).
  assert (Rm : 0 < minp < 2 ^ 298 /\ 0 < maxp < 2 ^ 298). { destruct Hg as (A & B & _). assert (T : max_pool_price < 2 ^ 298) by (vm_compute; reflexivity). assert (B0 : 0 < min_pool_price) by reflexivity. revert A B T B0. generalize (2 ^ 298), max_pool_price, min_pool_price. clear. intros. lia. }
  pose proof (range_roots minp maxp Hg) as (Lm & Ll & Gap). cbn zeta in Lm, Ll, Gap.
  pose proof (root_square minp (proj1 Rm)) as Qm. pose proof (root_square maxp (proj2 Rm)) as Ql.
  assert (Hlt : dsqrt minp < dsqrt maxp) by lia. specialize (Qm ltac:(lia)). specialize (Ql ltac:(lia)).
  assert (Big : 40000000 * (10 ^ 28 + 3) <= P18 * P18) by (vm_compute; discriminate). assert (HsP : 40000000 * dsqrt maxp <= P18 * P18) by lia. clear Big Ll Gap.
  unfold new_ranged_pool, set_balances in H. apply rbind_ok in H. destruct H as ([tx ty] & D & H). cbn [fst snd] in H.
  apply rbind_ok in H. destruct H as (x1 & _ & H). apply rbind_ok in H. destruct H as (x2 & _ & H). inversion H; subst p; clear H x1 x2. cbn [pool_price] in Hpp.
  unfold derive_translation in D. set (sm := dsqrt minp) in *. set (sl := dsqrt maxp) in *. clearbody sm sl. split.
  - intros -> Hy. assert (N : (ry =? 0) = false) by lia. rewrite N in Hpp. cbn [Z.eqb andb] in Hpp. change (of_int 0) with 0 in *. cbn [Z.eqb] in D. cbn [rbind] in D. rewrite Z.eqb_refl in D.
    cbn [rbind] in D. replace (sm =? sl) with false in D by lia. apply rbind_ok in D. destruct D as (kk & Ek & D). apply rbind_ok in Ek. destruct Ek as (i1 & Ei1 & Ek). apply rbind_ok in Ek. destruct Ek as (i2 & Ei2 & Ek).
    apply rbind_ok in Ek. destruct Ek as (d & Ed & Ek). apply rbind_ok in Ek. destruct Ek as (k & Ekk & Ek). injection Ek as <-. apply rbind_ok in D. destruct D as (x & Ex & D). apply rbind_ok in D. destruct D as (y & Ey & D). injection D as -> ->.
    apply c_quo_ok in Ei1, Ei2, Ekk, Ey, Hpp. apply c_sub_ok in Ed. apply c_mul_ok in Ex. destruct Ei1 as [_ Ei1], Ei2 as [_ Ei2], Ekk as [Nd Ekk], Ey as [_ Ey], Hpp as [_ Hpp].
    set (R := of_int ry) in *. assert (HR : P18 <= R) by (unfold R, of_int; pose proof (scale P18 1 ry ltac:(lia) ltac:(lia)); lia). clearbody R.
    pose proof (near_le one_dec sm ltac:(unfold one_dec; lia) ltac:(lia)) as I1. pose proof (near_le one_dec sl ltac:(unfold one_dec; lia) ltac:(lia)) as I2. pose proof (dquo_mono_r one_dec sm sl ltac:(unfold one_dec; lia) ltac:(lia)) as Mo. unfold one_dec in *. rewrite <- Ei1 in *. rewrite <- Ei2 in *.
    assert (Hd : 0 < i1 - i2) by lia. pose proof (near_le R d ltac:(lia) ltac:(lia)) as Kk. rewrite <- Ekk in Kk. pose proof (dmul_near k sm ltac:(lia) ltac:(lia)) as Tx. rewrite <- Ex in Tx. pose proof (near_le k sl ltac:(lia) ltac:(lia)) as Ty. rewrite <- Ey in Ty.
    rewrite Z.add_0_l in Hpp. pose proof (near_le tx (R + ty) ltac:(lia) ltac:(lia)) as Pp. rewrite <- Hpp in Pp. rewrite Ed in Kk.
    destruct (low_end P18 minp R sm sl i1 i2 k tx ty pp) as [U V]; try lia.
  - intros -> Hx Rich. assert (N : (rx =? 0) = false) by lia. rewrite N in Hpp. cbn [Z.eqb andb] in Hpp. change (of_int 0) with 0 in *.
    assert (N' : (of_int rx =? 0) = false) by (unfold of_int; nia). rewrite N' in D. cbn [Z.eqb rbind] in D. replace (sl =? sm) with false in D by lia. rewrite Z.eqb_refl in D.
    apply rbind_ok in D. destruct D as (k1 & E1 & D). apply rbind_ok in E1. destruct E1 as (d & Ed & E1). apply rbind_ok in E1. destruct E1 as (k & Ekk & E1). injection E1 as <-. cbn [rbind] in D.
    apply rbind_ok in D. destruct D as (x & Ex & D). apply rbind_ok in D. destruct D as (y & Ey & D). injection D as -> ->.
    apply c_quo_ok in Ekk, Ey, Hpp. apply c_sub_ok in Ed. apply c_mul_ok in Ex. destruct Ekk as [Nd Ekk], Ey as [_ Ey], Hpp as [Nz Hpp].
    assert (RE : of_int rx = rx * P18) by reflexivity. set (R := of_int rx) in *. assert (HR : P18 <= R) by (rewrite RE; pose proof (scale P18 1 rx ltac:(lia) ltac:(lia)); lia). clearbody R.
    pose proof (near_le R d ltac:(lia) ltac:(lia)) as Kk. rewrite <- Ekk in Kk. pose proof (dmul_near k sm ltac:(lia) ltac:(lia)) as Tx. rewrite <- Ex in Tx. pose proof (near_le k sl ltac:(lia) ltac:(lia)) as Ty. rewrite <- Ey in Ty.
    rewrite Z.add_0_l in Hpp, Nz. pose proof (near_le (R + tx) ty ltac:(lia) ltac:(lia)) as Pp. rewrite <- Hpp in Pp. rewrite Ed in Kk.
    destruct (high_end P18 maxp R sm sl k tx ty pp) as [U V]; try lia.
Qed.
