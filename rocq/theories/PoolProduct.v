(** The constant product of a basic pool when its emitted orders are filled. *)
From Verif Require Import Base Dec DecProofs TickModel TickSpec TickProofs OrderModel MatchModel MatchSpec OrderProofs PoolModel PoolProofs PoolOrderProofs SqrtProofs RangeProofs RangeCreate ProductSpec.

(** ** Orders generated one from the other's resulting reserves. *)
Inductive buys (E : Z) : Z -> Z -> list (dec * Z) -> Z -> Z -> Prop :=
| buys_nil rx ry : buys E rx ry [] rx ry
| buys_snoc rx ry os rx1 ry1 price amt e : buys E rx ry os rx1 ry1 -> (e = 0 \/ e = E /\ os = []) ->
    0 < price -> 0 <= amt -> price * (ry1 + amt) <= (rx1 + e) * P18 -> 0 <= rx1 - ceil_value price amt ->
    buys E rx ry (os ++ [(price, amt)]) (rx1 - ceil_value price amt) (ry1 + amt).
Inductive sells (E : Z) : Z -> Z -> list (dec * Z) -> Z -> Z -> Prop :=
| sells_nil rx ry : sells E rx ry [] rx ry
| sells_snoc rx ry os rx1 ry1 price amt e : sells E rx ry os rx1 ry1 -> (e = 0 \/ e = E /\ os = []) ->
    0 < price -> 0 <= amt -> rx1 * P18 <= price * (ry1 - amt) + e * P18 -> 0 <= ry1 - amt ->
    sells E rx ry (os ++ [(price, amt)]) (rx1 + floor_value price amt) (ry1 - amt).

(** The same, from the front. *)
Fixpoint buys_f (e0 : Z) (rx ry : Z) (os : list (dec * Z)) : Prop :=
  match os with
  | [] => True
  | (price, amt) :: os => 0 < price /\ 0 <= amt /\ price * (ry + amt) <= (rx + e0) * P18 /\ 0 <= rx - ceil_value price amt /\ buys_f 0 (rx - ceil_value price amt) (ry + amt) os
  end.
Fixpoint sells_f (e0 : Z) (rx ry : Z) (os : list (dec * Z)) : Prop :=
  match os with
  | [] => True
  | (price, amt) :: os => 0 < price /\ 0 <= amt /\ rx * P18 <= price * (ry - amt) + e0 * P18 /\ 0 <= ry - amt /\ sells_f 0 (rx + floor_value price amt) (ry - amt) os
  end.
Fixpoint cost_b (os : list (dec * Z)) : Z := match os with [] => 0 | (p, a) :: t => ceil_value p a + cost_b t end.
Fixpoint base_of (os : list (dec * Z)) : Z := match os with [] => 0 | (_, a) :: t => a + base_of t end.
Fixpoint gain_s (os : list (dec * Z)) : Z := match os with [] => 0 | (p, a) :: t => floor_value p a + gain_s t end.
Lemma buys_f_snoc os : forall e0 rx ry price amt e, buys_f e0 rx ry os -> (e = 0 \/ e = e0 /\ os = []) -> (0 <= e0) ->
  0 < price -> 0 <= amt -> price * (ry + base_of os + amt) <= (rx - cost_b os + e) * P18 -> 0 <= rx - cost_b os - ceil_value price amt -> buys_f e0 rx ry (os ++ [(price, amt)]).
Proof.
  pose proof P18_pos as Hp. induction os as [|[p a] os IH]; intros e0 rx ry price amt e H He H0 Hpr Ha R C; cbn [app buys_f cost_b base_of] in *.
  - rewrite Z.add_0_r, Z.sub_0_r in *. assert (e <= e0) by (destruct He as [|[]]; lia). repeat (split; [try assumption; try lia; nia|]). exact Logic.I.
  - destruct H as (A1 & A2 & A3 & A4 & A5). repeat (split; [assumption|]). apply (IH 0 _ _ price amt e A5); try assumption; try lia; destruct He as [|[_ X]]; [left; assumption|discriminate X].
Qed.
Lemma buys_front E rx ry os rx1 ry1 : 0 <= E -> buys E rx ry os rx1 ry1 -> buys_f E rx ry os /\ rx1 = rx - cost_b os /\ ry1 = ry + base_of os.
Proof.
  intros HE H. induction H as [|rx ry os rx1 ry1 price amt e H (I1 & I2 & I3) He Hpr Ha R C]; [cbn; split; [exact Logic.I|lia]|].
  split; [apply (buys_f_snoc os E rx ry price amt e); try assumption; subst; assumption|].
  subst. assert (X : cost_b (os ++ [(price, amt)]) = cost_b os + ceil_value price amt /\ base_of (os ++ [(price, amt)]) = base_of os + amt).
  { clear. induction os as [|[p a] os [I1 I2]]; cbn [app cost_b base_of]; [lia|]. rewrite I1, I2. lia. } destruct X as [-> ->]. lia.
Qed.
Lemma sells_f_snoc os : forall e0 rx ry price amt e, sells_f e0 rx ry os -> (e = 0 \/ e = e0 /\ os = []) -> (0 <= e0) ->
  0 < price -> 0 <= amt -> (rx + gain_s os) * P18 <= price * (ry - base_of os - amt) + e * P18 -> 0 <= ry - base_of os - amt -> sells_f e0 rx ry (os ++ [(price, amt)]).
Proof.
  pose proof P18_pos as Hp. induction os as [|[p a] os IH]; intros e0 rx ry price amt e H He H0 Hpr Ha R C; cbn [app sells_f gain_s base_of] in *.
  - rewrite Z.add_0_r, Z.sub_0_r in *. assert (e <= e0) by (destruct He as [|[]]; lia). repeat (split; [try assumption; try lia; nia|]). exact Logic.I.
  - destruct H as (A1 & A2 & A3 & A4 & A5). repeat (split; [assumption|]). apply (IH 0 _ _ price amt e A5); try assumption; try lia; destruct He as [|[_ X]]; [left; assumption|discriminate X].
Qed.
Lemma sells_front E rx ry os rx1 ry1 : 0 <= E -> sells E rx ry os rx1 ry1 -> sells_f E rx ry os /\ rx1 = rx + gain_s os /\ ry1 = ry - base_of os.
Proof.
  intros HE H. induction H as [|rx ry os rx1 ry1 price amt e H (I1 & I2 & I3) He Hpr Ha R C]; [cbn; split; [exact Logic.I|lia]|].
  split; [apply (sells_f_snoc os E rx ry price amt e); try assumption; subst; assumption|].
  subst. assert (X : gain_s (os ++ [(price, amt)]) = gain_s os + floor_value price amt /\ base_of (os ++ [(price, amt)]) = base_of os + amt).
  { clear. induction os as [|[p a] os [I1 I2]]; cbn [app gain_s base_of]; [lia|]. rewrite I1, I2. lia. } destruct X as [-> ->]. lia.
Qed.

(** ** One order *)

(** ** The first order when the pool's price is outside the limits *)
Lemma root_lo d : 0 < d < 2 ^ 298 -> 0 <= dsqrt d /\ d * P18 < (dsqrt d + 1) * (dsqrt d + 1).
Proof.
  intros H. pose proof (dsqrt_bounds d H) as B. pose proof P18_pos. pose proof (Z.sqrt_spec (d * P18) ltac:(nia)) as S. pose proof (Z.sqrt_nonneg (d * P18)). unfold Z.succ in S. nia.
Qed.
Lemma root_hi d n : 0 < d < 2 ^ 298 -> 0 <= n -> d * P18 <= n * n -> dsqrt d <= n + 3.
Proof.
  intros H Hn L. pose proof (dsqrt_bounds d H) as B. pose proof (Z.sqrt_le_mono _ _ L) as M. rewrite Z.sqrt_square in M by assumption. lia.
Qed.
Lemma root_sq d : 0 < d < 2 ^ 298 -> 3 <= dsqrt d -> (dsqrt d - 3) * (dsqrt d - 3) <= d * P18.
Proof.
  intros H W. pose proof (dsqrt_bounds d H) as B. pose proof P18_pos. pose proof (Z.sqrt_spec (d * P18) ltac:(nia)) as S. pose proof (Z.sqrt_nonneg (d * P18)).
  assert ((dsqrt d - 3) * (dsqrt d - 3) <= Z.sqrt (d * P18) * Z.sqrt (d * P18)) by (apply Z.mul_le_mono_nonneg; lia). cbv zeta in S. lia.
Qed.
Lemma lt_of_squares a b : 0 <= a -> b * b < a * a -> b < a.
Proof. intros. nia. Qed.
(** Three roots of [X], [Y], [Z] (at 18 digits each) against a number whose square is below the product. *)
Lemma three_roots u v w X Y Z N : 0 <= u -> 0 <= v -> 0 <= w -> 0 <= X -> 0 <= Y -> 0 <= Z -> X < (u + 1) * (u + 1) -> Y < (v + 1) * (v + 1) -> Z < (w + 1) * (w + 1) -> N * N <= X * Y * Z ->
  N < u * v * w + (u * v + u * w + v * w + u + v + w + 1).
Proof.
  intros Hu Hv Hw HX HY HZ A B C D. replace (u * v * w + (u * v + u * w + v * w + u + v + w + 1)) with ((u + 1) * (v + 1) * (w + 1)) by ring.
  apply lt_of_squares; [nia|].
  assert (XY : X * Y < (u + 1) * (u + 1) * ((v + 1) * (v + 1))) by (apply Z.mul_lt_mono_nonneg; assumption).
  assert (T : X * Y * Z < (u + 1) * (u + 1) * ((v + 1) * (v + 1)) * ((w + 1) * (w + 1))).
  { apply Z.mul_lt_mono_nonneg; try assumption. apply Z.mul_nonneg_nonneg; assumption. }
  replace ((u + 1) * (v + 1) * (w + 1) * ((u + 1) * (v + 1) * (w + 1))) with ((u + 1) * (u + 1) * ((v + 1) * (v + 1)) * ((w + 1) * (w + 1))) by ring. lia.
Qed.
Lemma err_bound B C P u v w : 1 <= B -> 1 <= C -> 1000 <= P -> 0 <= u <= P * B + 3 -> 0 <= v <= P * B + 3 -> 0 <= w <= P * C + 3 ->
  7 * (u * v) + u * w + v * w + u + v + 7 * w + 1 + 7 * (w * P) + 7 * (P * P) + w * w <= P * P * (16 * ((B + C) * (B + C))).
Proof.
  intros HB HC HP Hu Hv Hw. 
  assert (PB : P <= P * B) by nia. assert (PC : P <= P * C) by nia.
  remember (P * (B + C)) as T. assert (E : P * P * (16 * ((B + C) * (B + C))) = 16 * (T * T)) by (subst T; ring). rewrite E.
  assert (ET : T = P * B + P * C) by (subst T; ring). clear HeqT E.
  assert (Hu' : u <= T) by lia. assert (Hv' : v <= T) by lia. assert (Hw' : w <= T) by lia. assert (T2 : 2 * P <= T) by lia.
  assert (u * v <= T * T) by nia. assert (u * w <= T * T) by nia. assert (v * w <= T * T) by nia. assert (w * w <= T * T) by nia.
  assert (2 * (w * P) <= T * T) by nia. assert (4 * (P * P) <= T * T) by nia. assert (2000 * T <= T * T) by nia. lia.
Qed.
Lemma buy_to_room rx ry ps price amt E : 0 < rx <= 10 ^ 40 -> 0 < ry <= 10 ^ 40 -> 0 < price -> sized rx ry price E ->
  buy_amount_to (Basic rx ry ps) price = Ok amt -> amt <> 0 -> price * (ry + amt) <= (rx + E) * P18.
Proof.
  intros Hx Hy Hpr (B & C & HB & HC & Bx & By & Cp & HE) H Hnz. pose proof P18_pos as Hp. unfold buy_amount_to in H.
  apply rbind_ok in H. destruct H as (pp & Epp & H). set (price' := if price <? min_pool_price then min_pool_price else price) in *.
  assert (Hge : price <= price') by (unfold price'; destruct (Z.ltb_spec price min_pool_price); lia).
  assert (Cp' : price' <= C * C * P18). { unfold price', min_pool_price. destruct (Z.ltb_spec price 1000); [|exact Cp]. assert (1000 <= P18) by discriminate. nia. }
  destruct (Z.leb_spec pp price') as [L|L]; [inv_ok; congruence|].
  assert (Exact : price' * ry < rx * P18 /\ price' < 10 ^ 40 * P18 + 1).
  { unfold pool_price in Epp. destruct (_ || _); [discriminate Epp|]. apply c_quo_ok in Epp. destruct Epp as [_ Epp]. unfold of_int in Epp.
    pose proof (dquo_half (rx * P18) (ry * P18) ltac:(nia) ltac:(nia)) as D. rewrite <- Epp in D.
    assert (D' : 2 * (pp * ry) <= 2 * (rx * P18) + ry) by nia. split; [nia|]. assert (2 * pp <= 2 * (rx * P18) + 1) by nia. assert (rx * P18 <= 10 ^ 40 * P18) by (apply Z.mul_le_mono_nonneg_r; lia). lia. }
  destruct Exact as [Ex Pb]. 
  assert (Big : 10 ^ 40 * P18 + 1 < 2 ^ 298) by reflexivity.
  assert (D1 : 0 < of_int rx < 2 ^ 298). { unfold of_int. assert (rx * P18 <= 10 ^ 40 * P18) by (apply Z.mul_le_mono_nonneg_r; lia). split; [nia|lia]. }
  assert (D2 : 0 < of_int ry < 2 ^ 298). { unfold of_int. assert (ry * P18 <= 10 ^ 40 * P18) by (apply Z.mul_le_mono_nonneg_r; lia). split; [nia|lia]. }
  assert (D3 : 0 < price' < 2 ^ 298) by lia. clear Big Pb.
  destruct (root_lo _ D1) as [U0 U1]. destruct (root_lo _ D2) as [V0 V1]. destruct (root_lo _ D3) as [W0 W1].
  assert (U2 : dsqrt (of_int rx) <= P18 * B + 3) by (apply root_hi; [exact D1|nia|unfold of_int; nia]).
  assert (V2 : dsqrt (of_int ry) <= P18 * B + 3) by (apply root_hi; [exact D2|nia|unfold of_int; nia]).
  assert (W2 : dsqrt price' <= P18 * C + 3) by (apply root_hi; [exact D3|nia|nia]).
  remember (dsqrt (of_int rx)) as u. remember (dsqrt (of_int ry)) as v. remember (dsqrt price') as w. unfold of_int in U1, V1.
  apply rbind_ok in H. destruct H as (m & Em & H). apply c_mul_ok in Em. apply rbind_ok in H. destruct H as (m' & Em' & H). apply c_mul_ok in Em'.
  apply rbind_ok in H. destruct H as (dx & Edx & H). apply c_sub_ok in Edx. destruct (Z.leb_spec dx 0); [inv_ok; congruence|].
  apply capped_quo_spec in H; [|lia|assumption]. destruct H as [H1 H2].
  pose proof (dmul_near u v U0 V0) as (M0 & _ & M1). rewrite <- Em in M0, M1. pose proof (dmul_near w m W0 M0) as (M0' & _ & M1'). rewrite <- Em' in M0', M1'.
  assert (T : P18 * P18 * (price' * ry) < u * v * w + (u * v + u * w + v * w + u + v + w + 1)).
  { apply (three_roots u v w (rx * P18 * P18) (ry * P18 * P18) (price' * P18)); try assumption; [nia..|].
    replace (P18 * P18 * (price' * ry) * (P18 * P18 * (price' * ry))) with (P18 * P18 * P18 * P18 * (price' * ry) * (price' * ry)) by ring.
    replace (rx * P18 * P18 * (ry * P18 * P18) * (price' * P18)) with (P18 * P18 * P18 * P18 * (price' * ry) * (rx * P18)) by ring.
    apply Z.mul_le_mono_nonneg_l; [|lia]. apply Z.mul_nonneg_nonneg; [discriminate|nia]. }
  pose proof (err_bound B C P18 u v w HB HC ltac:(discriminate) ltac:(lia) ltac:(lia) ltac:(lia)) as Er.
  assert (Emm : P18 * P18 * m' >= u * v * w - w * P18 - P18 * P18).
  { assert (w * (u * v - P18) <= w * (m * P18)) by (apply Z.mul_le_mono_nonneg_l; lia). nia. }
  assert (Fin : price' * ry <= m' + E * P18).
  { assert (P18 * P18 * (price' * ry) <= P18 * P18 * (m' + 16 * ((B + C) * (B + C)))) as F1; [|apply Z.mul_le_mono_pos_l in F1; [lia|reflexivity]].
    rewrite Z.mul_add_distr_l. assert (0 <= u * v) by nia. assert (0 <= w * P18) by nia. assert (0 <= P18 * P18) by nia. assert (0 <= w * w) by nia. lia. }
  unfold of_int in Edx. assert (price * ry <= price' * ry) by (apply Z.mul_le_mono_nonneg_r; lia). clear T Er Emm. lia.
Qed.
Lemma sell_arith P u v w m q price rx K : 1 <= P -> 0 <= w -> 0 <= q -> (w - 3) * (w - 3) <= price * P -> m * P < (q + 1) * w -> q * w <= m * P + w -> 2 * (u * v) - P <= 2 * (m * P) -> 2 * (m * P) <= 2 * (u * v) + P ->
  P * P * P * rx < u * v * w + (u * v + u * w + v * w + u + v + w + 1) ->
  7 * (u * v) + u * w + v * w + u + v + 7 * w + 1 + 7 * (w * P) + 7 * (P * P) + w * w <= P * P * K ->
  P * P * rx <= price * q + P * K.
Proof.
  intros HP Hw Hq W4 Q1 Q2 M1 M2 T Er.
  assert (S1 : (w - 3) * (w - 3) * q <= price * P * q) by (apply Z.mul_le_mono_nonneg_r; assumption).
  assert (S2 : w * (m * P) <= w * ((q + 1) * w)) by (apply Z.mul_le_mono_nonneg_l; lia).
  assert (S3 : w * (2 * (u * v) - P) <= w * (2 * (m * P))) by (apply Z.mul_le_mono_nonneg_l; assumption).
  assert (S0 : 0 <= w * P) by (apply Z.mul_nonneg_nonneg; lia).
  assert (S4 : P * 1 <= P * P) by (apply Z.mul_le_mono_nonneg_l; lia).
  assert (S6 : P * (P * P * rx) <= P * (price * q + P * K)); [|apply Z.mul_le_mono_pos_l in S6; lia].
  replace ((w - 3) * (w - 3) * q) with (w * (q * w) - 6 * (q * w) + 9 * q) in S1 by ring.
  replace (w * ((q + 1) * w)) with (w * (q * w) + w * w) in S2 by ring. 
  replace (w * (2 * (u * v) - P)) with (2 * (u * v * w) - w * P) in S3 by ring. replace (w * (2 * (m * P))) with (2 * (w * (m * P))) in S3 by ring.
  replace (P * (P * P * rx)) with (P * P * P * rx) by ring. replace (P * (price * q + P * K)) with (price * P * q + P * P * K) by ring.
  generalize dependent (P * P * P * rx). generalize dependent (price * P * q). generalize dependent (P * P * K). generalize dependent (w * (q * w)). generalize dependent (u * v * w).
  generalize dependent (w * (m * P)). generalize dependent (q * w). generalize dependent (m * P). generalize dependent (w * w). generalize dependent (w * P). generalize dependent (P * P). generalize dependent (u * v). intros. lia.
Qed.
Lemma sell_to_room rx ry ps price amt E : 0 < rx <= 10 ^ 40 -> 0 < ry <= 10 ^ 40 -> 0 < price -> sized rx ry price E ->
  sell_amount_to (Basic rx ry ps) price = Ok amt -> amt <> 0 -> 0 <= ry - amt /\ rx * P18 <= price * (ry - amt) + E * P18.
Proof.
  intros Hx Hy Hpr (B & C & HB & HC & Bx & By & Cp & HE) H Hnz. pose proof P18_pos as Hp. unfold sell_amount_to in H.
  set (price' := if max_pool_price <? price then max_pool_price else price) in *.
  assert (Hle : 0 < price' <= price /\ price' <= max_pool_price). { unfold price'. assert (0 < max_pool_price) by reflexivity. destruct (Z.ltb_spec max_pool_price price); lia. }
  destruct Hle as [[Hp' Hle] Hmx]. clearbody price'. assert (Cp' : price' <= C * C * P18) by lia.
  apply rbind_ok in H. destruct H as (pp & Epp & H).
  destruct (Z.leb_spec price' pp) as [L|L]; [inv_ok; congruence|].
  assert (Ex : rx * P18 <= price' * ry).
  { unfold pool_price in Epp. destruct (_ || _); [discriminate Epp|]. apply c_quo_ok in Epp. destruct Epp as [_ Epp]. unfold of_int in Epp.
    pose proof (dquo_near (rx * P18) (ry * P18) ltac:(nia) ltac:(nia)) as (_ & _ & D). rewrite <- Epp in D.
    assert (rx * P18 < (pp + 1) * ry) by nia. assert ((pp + 1) * ry <= price' * ry) by (apply Z.mul_le_mono_nonneg_r; lia). lia. }
  assert (Big : 10 ^ 40 * P18 < 2 ^ 298) by reflexivity. assert (Big2 : max_pool_price < 2 ^ 298) by reflexivity.
  assert (D1 : 0 < of_int rx < 2 ^ 298). { unfold of_int. assert (rx * P18 <= 10 ^ 40 * P18) by (apply Z.mul_le_mono_nonneg_r; lia). split; [nia|lia]. }
  assert (D2 : 0 < of_int ry < 2 ^ 298). { unfold of_int. assert (ry * P18 <= 10 ^ 40 * P18) by (apply Z.mul_le_mono_nonneg_r; lia). split; [nia|lia]. }
  assert (D3 : 0 < price' < 2 ^ 298) by lia. clear Big Big2 Hmx.
  destruct (root_lo _ D1) as [U0 U1]. destruct (root_lo _ D2) as [V0 V1]. destruct (root_lo _ D3) as [W0 W1].
  assert (U2 : dsqrt (of_int rx) <= P18 * B + 3) by (apply root_hi; [exact D1|nia|unfold of_int; nia]).
  assert (V2 : dsqrt (of_int ry) <= P18 * B + 3) by (apply root_hi; [exact D2|nia|unfold of_int; nia]).
  assert (W2 : dsqrt price' <= P18 * C + 3) by (apply root_hi; [exact D3|nia|nia]).
  assert (W3 : 3 <= dsqrt price').
  { destruct (Z.le_gt_cases 3 (dsqrt price')) as [|Lt]; [assumption|exfalso]. assert ((dsqrt price' + 1) * (dsqrt price' + 1) <= 3 * 3) by (apply Z.mul_le_mono_nonneg; lia).
    assert (9 < P18) by reflexivity. nia. }
  pose proof (root_sq _ D3 W3) as W4.
  remember (dsqrt (of_int rx)) as u. remember (dsqrt (of_int ry)) as v. remember (dsqrt price') as w. unfold of_int in U1, V1.
  apply rbind_ok in H. destruct H as (m & Em & H). apply c_mul_ok in Em. apply rbind_ok in H. destruct H as (q & Eq & H). apply c_quo_ok in Eq. destruct Eq as [_ Eq].
  apply rbind_ok in H. destruct H as (d & Ed & H). apply c_sub_ok in Ed. apply rbind_ok in H. destruct H as (a & Ea & H). apply c_trunc_ok in Ea. destruct Ea as [Ea _].
  pose proof (dmul_near u v U0 V0) as (M0 & M2 & M1). rewrite <- Em in M0, M1, M2. pose proof (dquo_near m w M0 ltac:(lia)) as (Q0 & Q2 & Q1). rewrite <- Eq in Q0, Q1, Q2.
  destruct (Z.leb_spec a 0); [inv_ok; congruence|]. inv_ok.
  assert (Ha : dtrunc d * P18 <= d).
  { destruct (Z.le_gt_cases 0 d) as [Hd|Hd]; [exact (proj1 (dtrunc_bounds d Hd))|]. exfalso. assert (X : dtrunc d <= 0); [|lia]. unfold dtrunc, chop_trunc.
     rewrite <- (Z.opp_involutive d), Z.quot_opp_l by lia. assert (0 <= Z.quot (- d) P18) by (apply Z.quot_pos; lia). lia. }
  unfold of_int in Ed. rewrite <- Ea, H in Ha. clear Ea H.
  assert (Hq : q <= (ry - amt) * P18) by lia. assert (Hry : 0 <= ry - amt) by (apply (proj1 (Z.mul_nonneg_cancel_r _ P18 Hp)); lia). split; [exact Hry|].
  assert (T : P18 * P18 * P18 * rx < u * v * w + (u * v + u * w + v * w + u + v + w + 1)).
  { apply (three_roots u v w (rx * P18 * P18) (ry * P18 * P18) (price' * P18)); try assumption; [nia..|].
    replace (P18 * P18 * P18 * rx * (P18 * P18 * P18 * rx)) with (P18 * P18 * P18 * P18 * P18 * rx * (rx * P18)) by ring.
    replace (rx * P18 * P18 * (ry * P18 * P18) * (price' * P18)) with (P18 * P18 * P18 * P18 * P18 * rx * (price' * ry)) by ring.
    apply Z.mul_le_mono_nonneg_l; [|exact Ex]. apply Z.mul_nonneg_nonneg; [discriminate|lia]. }
  pose proof (err_bound B C P18 u v w HB HC ltac:(discriminate) ltac:(lia) ltac:(lia) ltac:(lia)) as Er.
  assert (Sum : P18 * P18 * rx <= price' * q + P18 * (E * P18)).
  { apply (sell_arith P18 u v w m q price' rx (E * P18)); try assumption; [lia|].
    assert (P18 * P18 * (16 * ((B + C) * (B + C))) <= P18 * P18 * (E * P18)) by (apply Z.mul_le_mono_nonneg_l; [discriminate|assumption]). eapply Z.le_trans; [exact Er|assumption]. }
  clear - Hp Hp' Hle Hq Hry Sum Q0.
  assert (S5 : P18 * (rx * P18) <= P18 * (price' * (ry - amt) + E * P18)).
  { assert (price' * q <= price' * ((ry - amt) * P18)) by (apply Z.mul_le_mono_nonneg_l; lia). lia. }
  apply Z.mul_le_mono_pos_l in S5; [|exact Hp]. assert (price' * (ry - amt) <= price * (ry - amt)) by (apply Z.mul_le_mono_nonneg_r; assumption). lia.
Qed.

(** ** The whole list of orders of a basic pool *)
Lemma place_buy_basic rx ry ps price amt d p' : 0 < price -> 0 <= amt -> place_buy (Basic rx ry ps) price amt d = Ok p' -> p' = Basic (rx - ceil_value price amt) (ry + amt) ps.
Proof.
  intros Hp Ha H. destruct (place_buy_res _ _ _ _ _ Hp Ha H) as [E1 E2]. cbn [p_rx p_ry] in E1, E2. unfold place_buy in H.
  apply rbind_ok in H. destruct H as (m & _ & H). apply rbind_ok in H. destruct H as (c & _ & H). apply rbind_ok in H. destruct H as (x & _ & H). apply rbind_ok in H. destruct H as (y & _ & H).
  cbn [set_balances] in H. injection H; intros <-. cbn [p_rx p_ry] in E1, E2. subst. reflexivity.
Qed.
Lemma place_sell_basic rx ry ps price amt d p' : 0 < price -> 0 <= amt -> place_sell (Basic rx ry ps) price amt d = Ok p' -> p' = Basic (rx + floor_value price amt) (ry - amt) ps.
Proof.
  intros Hp Ha H. destruct (place_sell_res _ _ _ _ _ Hp Ha H) as [E1 E2]. cbn [p_rx p_ry] in E1, E2. unfold place_sell in H.
  apply rbind_ok in H. destruct H as (m & _ & H). apply rbind_ok in H. destruct H as (c & _ & H). apply rbind_ok in H. destruct H as (x & _ & H). apply rbind_ok in H. destruct H as (y & _ & H).
  cbn [set_balances] in H. injection H; intros <-. cbn [p_rx p_ry] in E1, E2. subst. reflexivity.
Qed.
Lemma min_coin_pos : 0 < min_coin_amount.
Proof. reflexivity. Qed.
Definition buy_chain (E rx ry : Z) (s : dec * pool * porders) : Prop :=
  let '(_, p, os) := s in exists rx1 ry1 ps, p = Basic rx1 ry1 ps /\ buys E rx ry os rx1 ry1.
Definition sell_chain (E rx ry : Z) (s : dec * pool * porders) : Prop :=
  let '(_, p, os) := s in exists rx1 ry1 ps, p = Basic rx1 ry1 ps /\ sells E rx ry os rx1 ry1.
Lemma buy_step_chain E rx ry prec lowest highest pp s : 0 < lowest -> buy_inv prec lowest highest pp rx s -> buy_chain E rx ry s ->
  match buy_step pp lowest prec s with inl s' => buy_chain E rx ry s' | inr (Some os) => exists rx1 ry1, buys E rx ry os rx1 ry1 | inr None => True end.
Proof.
  intros Hl Iv C. pose proof min_coin_pos as Mc. destruct s as [[tick p] os]. cbn [buy_inv] in Iv. destruct Iv as (Rx & Ry & _ & Ht & _). destruct C as (rx1 & ry1 & ps & -> & C). cbn [p_rx p_ry] in Rx, Ry. unfold buy_step.
  destruct (Z.ltb_spec tick lowest) as [L|L]; [exists rx1, ry1; exact C|].
  destruct (buy_amount_over (Basic rx1 ry1 ps) tick) as [amt| |] eqn:EA; [|exact Logic.I..].
  destruct (Z.ltb_spec amt min_coin_amount) as [Lm|Lm]; [destruct (tick =? 0); [exact Logic.I|exists rx1, ry1, ps; auto]|].
  pose proof (tick_pos _ _ (proj1 (Ht L))) as Tp.
  destruct (place_buy (Basic rx1 ry1 ps) tick amt false) as [p'| |] eqn:EP; [|exact Logic.I..].
  pose proof (place_buy_basic rx1 ry1 ps tick amt false p' Tp ltac:(lia) EP) as ->.
  pose proof (basic_buy_room rx1 ry1 ps tick amt Rx Ry Tp EA ltac:(lia)) as Rm. unfold of_int in Rm.
  pose proof (buy_amount_over_spec (Basic rx1 ry1 ps) tick amt Rx Ry Tp EA) as (A1 & A2 & A3). pose proof (ceil_value_le _ _ _ A2) as Cle. cbn [p_rx] in Cle.
  assert (C' : buys E rx ry (os ++ [(tick, amt)]) (rx1 - ceil_value tick amt) (ry1 + amt)).
  { apply (buys_snoc E rx ry os rx1 ry1 tick amt 0 C); [left; reflexivity|exact Tp|lia|lia|lia]. }
  cbn [p_rx]. destruct (Z.leb_spec (rx1 - ceil_value tick amt) 0); [eauto|].
  match goal with |- match (match ?x with Ok _ => _ | Overflow => _ | Panic => _ end) with _ => _ end => destruct x end; [|exact Logic.I..]. do 3 eexists. split; [reflexivity|exact C'].
Qed.
Lemma sell_step_chain E rx ry prec lowest highest pp s : 0 < lowest -> highest <= P18 * P18 -> sell_inv prec lowest highest pp ry s -> sell_chain E rx ry s ->
  match sell_step pp highest prec s with inl s' => sell_chain E rx ry s' | inr (Some os) => exists rx1 ry1, sells E rx ry os rx1 ry1 | inr None => True end.
Proof.
  intros Hl Hh Iv C. pose proof min_coin_pos as Mc. destruct s as [[tick p] os]. cbn [sell_inv] in Iv. destruct Iv as (Rx & Ry & _ & Ht & _). destruct C as (rx1 & ry1 & ps & -> & C). cbn [p_rx p_ry] in Rx, Ry. unfold sell_step.
  destruct (Z.ltb_spec highest tick) as [L|L]; [exists rx1, ry1; exact C|]. pose proof (tick_pos _ _ Ht) as Tp.
  destruct (sell_amount_under (Basic rx1 ry1 ps) tick) as [amt| |] eqn:EA; cbn [rbind]; [|exact Logic.I..].
  destruct (Z.ltb_spec amt min_coin_amount) as [Lm|Lm]; [exists rx1, ry1, ps; auto|].
  destruct (c_mul_int tick amt) as [m| |] eqn:Em; cbn [rbind]; [|exact Logic.I..]. destruct (c_trunc m) as [v| |] eqn:Ev; cbn [rbind]; [|exact Logic.I..].
  destruct (v =? 0); [exists rx1, ry1, ps; auto|].
  destruct (place_sell (Basic rx1 ry1 ps) tick amt false) as [p'| |] eqn:EP; [|exact Logic.I..].
  pose proof (place_sell_basic rx1 ry1 ps tick amt false p' Tp ltac:(lia) EP) as ->.
  pose proof (basic_sell_room rx1 ry1 ps tick amt Rx Ry ltac:(lia) EA ltac:(lia)) as Rm. unfold of_int in Rm.
  assert (Le : 0 <= ry1 - amt). { destruct (Z.le_gt_cases 0 (ry1 - amt)); [assumption|exfalso]. assert (0 <= rx1 * P18) by (apply Z.mul_nonneg_nonneg; [lia|discriminate]). assert (tick * (ry1 - amt) < 0) by (apply Z.mul_pos_neg; lia). lia. }
  assert (C' : sells E rx ry (os ++ [(tick, amt)]) (rx1 + floor_value tick amt) (ry1 - amt)).
  { apply (sells_snoc E rx ry os rx1 ry1 tick amt 0 C); [left; reflexivity|exact Tp|lia|lia|exact Le]. }
  cbn [p_ry]. destruct (Z.leb_spec (ry1 - amt) min_coin_amount); [eauto|].
  match goal with |- match (match ?x with Ok _ => _ | Overflow => _ | Panic => _ end) with _ => _ end => destruct x end; [|exact Logic.I..]. do 3 eexists. split; [reflexivity|exact C'].
Qed.

Lemma buy_start_chain E rx ry ps lowest highest prec pp s : 0 < rx <= 10 ^ 40 -> 0 < ry <= 10 ^ 40 -> 0 < lowest <= highest -> pool_price (Basic rx ry ps) = Ok pp -> pp <= highest \/ sized rx ry highest E ->
  buy_start (Basic rx ry ps) lowest highest prec = Ok (Some s) -> buy_chain E rx ry s.
Proof.
  intros Hx Hy Hl Epp Sz H. pose proof min_coin_pos as Mc. unfold buy_start in H. rewrite Epp in H. cbn [rbind] in H. destruct (Z.leb_spec pp lowest) as [L|L]; [discriminate H|].
  apply rbind_ok in H. destruct H as ([p1 os] & E1 & H). apply rbind_ok in H. destruct H as (pp1 & Epp1 & H). apply rbind_ok in H. destruct H as (tick & _ & H). injection H; intros <-. clear H. cbn [buy_chain].
  assert (Triv : p1 = Basic rx ry ps -> os = [] -> exists rx1 ry1 ps0, p1 = Basic rx1 ry1 ps0 /\ buys E rx ry os rx1 ry1) by (intros -> ->; do 3 eexists; split; [reflexivity|constructor]).
  destruct (Z.ltb_spec highest pp) as [Lh|Lh]; [|injection E1; intros; subst; apply Triv; reflexivity].
  destruct Sz as [Sz|Sz]; [lia|].
  apply rbind_ok in E1. destruct E1 as (amt & EA & E1). destruct (Z.leb_spec min_coin_amount amt) as [Lm|Lm]; [|injection E1; intros; subst; apply Triv; reflexivity].
  apply rbind_ok in E1. destruct E1 as (p' & EP & E1). injection E1; intros; subst p1 os. pose proof (place_buy_basic rx ry ps highest amt true p' ltac:(lia) ltac:(lia) EP) as ->.
  pose proof (buy_to_room rx ry ps highest amt E Hx Hy ltac:(lia) Sz EA ltac:(lia)) as Rm.
  destruct (buy_amount_to_spec (Basic rx ry ps) highest amt) as (A1 & A2 & A3); [cbn; lia|cbn; lia|lia|exact EA|]. pose proof (ceil_value_le _ _ _ A2) as Cle. cbn [p_rx] in Cle.
  do 3 eexists. split; [reflexivity|]. apply (buys_snoc E rx ry [] rx ry highest amt E); [constructor|right; auto|lia|lia|exact Rm|lia].
Qed.
Lemma sell_start_chain E rx ry ps lowest highest prec pp s : 0 < rx <= 10 ^ 40 -> 0 < ry <= 10 ^ 40 -> 0 < lowest <= highest -> pool_price (Basic rx ry ps) = Ok pp -> lowest <= pp \/ sized rx ry lowest E ->
  sell_start (Basic rx ry ps) lowest highest prec = Ok (Some s) -> sell_chain E rx ry s.
Proof.
  intros Hx Hy Hl Epp Sz H. pose proof min_coin_pos as Mc. unfold sell_start in H. rewrite Epp in H. cbn [rbind] in H. destruct (Z.leb_spec highest pp) as [L|L]; [discriminate H|].
  apply rbind_ok in H. destruct H as ([p1 os] & E1 & H). apply rbind_ok in H. destruct H as (pp1 & Epp1 & H). apply rbind_ok in H. destruct H as (tick & _ & H). injection H; intros <-. clear H. cbn [sell_chain].
  assert (Triv : p1 = Basic rx ry ps -> os = [] -> exists rx1 ry1 ps0, p1 = Basic rx1 ry1 ps0 /\ sells E rx ry os rx1 ry1) by (intros -> ->; do 3 eexists; split; [reflexivity|constructor]).
  destruct (Z.ltb_spec pp lowest) as [Lh|Lh]; [|injection E1; intros; subst; apply Triv; reflexivity].
  destruct Sz as [Sz|Sz]; [lia|].
  apply rbind_ok in E1. destruct E1 as (amt & EA & E1). destruct (Z.leb_spec min_coin_amount amt) as [Lm|Lm]; [|injection E1; intros; subst; apply Triv; reflexivity].
  apply rbind_ok in E1. destruct E1 as (m & _ & E1). apply rbind_ok in E1. destruct E1 as (v & _ & E1). destruct (0 <? v); [|injection E1; intros; subst; apply Triv; reflexivity].
  apply rbind_ok in E1. destruct E1 as (p' & EP & E1). injection E1; intros; subst p1 os. pose proof (place_sell_basic rx ry ps lowest amt true p' ltac:(lia) ltac:(lia) EP) as ->.
  destruct (sell_to_room rx ry ps lowest amt E Hx Hy ltac:(lia) Sz EA ltac:(lia)) as [Le Rm].
  do 3 eexists. split; [reflexivity|]. apply (sells_snoc E rx ry [] rx ry lowest amt E); [constructor|right; auto|lia|lia|exact Rm|exact Le].
Qed.

Lemma basic_buys rx ry ps lowest highest prec pp os E : 0 <= prec -> 0 < lowest <= highest -> is_tick prec highest -> 0 < rx <= 10 ^ 40 -> 0 < ry <= 10 ^ 40 ->
  pool_price (Basic rx ry ps) = Ok pp -> pp <= highest \/ sized rx ry highest E -> pool_buy_orders (Basic rx ry ps) lowest highest prec = Some os -> exists rx1 ry1, buys E rx ry os rx1 ry1.
Proof.
  intros Hprec Hl Ht Hx Hy Epp Sz H. unfold pool_buy_orders in H. rewrite Epp in H.
  assert (Nil : os = [] -> exists rx1 ry1, buys E rx ry os rx1 ry1) by (intros ->; do 2 eexists; constructor).
  destruct (buy_start (Basic rx ry ps) lowest highest prec) as [[s|]| |] eqn:ES; [|apply Nil; congruence..].
  pose proof (buy_start_chain E rx ry ps lowest highest prec pp s Hx Hy Hl Epp Sz ES) as C.
  destruct (buy_start_inv (Basic rx ry ps) lowest highest prec pp s Hprec Hl Ht) as (Lpp & Inv & _ & _); [cbn; lia|cbn; lia|exact Epp|exact ES|]. cbn [p_rx] in Inv.
  pose proof (iter_until_inv (buy_step pp lowest prec) (fun s => buy_inv prec lowest highest pp rx s /\ buy_chain E rx ry s)
    (fun r => match r with Some os => exists rx1 ry1, buys E rx ry os rx1 ry1 | None => True end)) as G.
  specialize (G (fun s Hs => ltac:(pose proof (buy_step_inv prec lowest highest pp rx Hprec ltac:(lia) ltac:(lia) s (proj1 Hs)) as X1; pose proof (buy_step_chain E rx ry prec lowest highest pp s (proj1 Hl) (proj1 Hs) (proj2 Hs)) as X2;
     destruct (buy_step pp lowest prec s) as [s'|[os'|]]; [exact (conj (proj1 X1) X2)|exact X2|exact Logic.I])) loop_bits s (conj Inv C)).
  destruct (iter_until loop_bits (buy_step pp lowest prec) s) as [?|[os'|]]; [discriminate H| |apply Nil; congruence]. injection H; intros <-. exact G.
Qed.
Lemma basic_sells rx ry ps lowest highest prec pp os E : 0 <= prec -> 0 < lowest <= highest -> highest <= P18 * P18 -> is_tick prec lowest -> 0 < rx <= 10 ^ 40 -> 0 < ry <= 10 ^ 40 ->
  pool_price (Basic rx ry ps) = Ok pp -> lowest <= pp \/ sized rx ry lowest E -> pool_sell_orders (Basic rx ry ps) lowest highest prec = Some os -> exists rx1 ry1, sells E rx ry os rx1 ry1.
Proof.
  intros Hprec Hl Hh Ht Hx Hy Epp Sz H. unfold pool_sell_orders in H. rewrite Epp in H.
  assert (Nil : os = [] -> exists rx1 ry1, sells E rx ry os rx1 ry1) by (intros ->; do 2 eexists; constructor).
  destruct (sell_start (Basic rx ry ps) lowest highest prec) as [[s|]| |] eqn:ES; [|apply Nil; congruence..].
  pose proof (sell_start_chain E rx ry ps lowest highest prec pp s Hx Hy Hl Epp Sz ES) as C.
  destruct (sell_start_inv (Basic rx ry ps) lowest highest prec pp s Hprec Hl Ht) as (Lpp & Inv & _); [cbn; lia|cbn; lia|exact Epp|exact ES|]. cbn [p_ry] in Inv.
  assert (P0 : 0 <= pp). { unfold pool_price in Epp. destruct (_ || _); [discriminate Epp|]. apply c_quo_ok in Epp. destruct Epp as [_ ->]. apply (dquo_near (of_int rx) (of_int ry)); unfold of_int; pose proof P18_pos; nia. }
  pose proof (iter_until_inv (sell_step pp highest prec) (fun s => sell_inv prec lowest highest pp ry s /\ sell_chain E rx ry s)
    (fun r => match r with Some os => exists rx1 ry1, sells E rx ry os rx1 ry1 | None => True end)) as G.
  specialize (G (fun s Hs => ltac:(pose proof (sell_step_inv prec lowest highest pp ry Hprec ltac:(lia) P0 s (proj1 Hs)) as X1; pose proof (sell_step_chain E rx ry prec lowest highest pp s (proj1 Hl) Hh (proj1 Hs) (proj2 Hs)) as X2;
     destruct (sell_step pp highest prec s) as [s'|[os'|]]; [exact (conj (proj1 X1) X2)|exact X2|exact Logic.I])) loop_bits s (conj Inv C)).
  destruct (iter_until loop_bits (sell_step pp highest prec) s) as [?|[os'|]]; [discriminate H| |apply Nil; congruence]. injection H; intros <-. exact G.
Qed.
