(** Proofs about pool arithmetic: deposit, withdraw, order amounts, initial supply. *)
From Verif Require Import Base Dec DecProofs TickModel TickSpec TickProofs OrderModel MatchModel MatchSpec OrderProofs PoolModel.

Opaque P18.

(** ** Inversion of the failure monad. *)
Lemma rbind_ok {A B} (r : res A) (f : A -> res B) b : rbind r f = Ok b -> exists a, r = Ok a /\ f a = Ok b.
Proof. destruct r; cbn; intros H; try discriminate. eauto. Qed.
Lemma chk_dec_ok d x : chk_dec d = Ok x -> x = d /\ Z.abs d < 2 ^ 315.
Proof. unfold chk_dec, dec_fits. destruct (Z.ltb_spec (Z.abs d) (2 ^ 315)); intros E; inversion E; subst; split; [reflexivity|assumption]. Qed.
Lemma chk_int_ok d x : chk_int d = Ok x -> x = d /\ Z.abs d < 2 ^ 256.
Proof. unfold chk_int, int_fits. destruct (Z.ltb_spec (Z.abs d) (2 ^ 256)); intros E; inversion E; subst; split; [reflexivity|assumption]. Qed.
Lemma chk_dec_not_panic d : chk_dec d <> Panic.
Proof. unfold chk_dec. destruct (dec_fits d); discriminate. Qed.
Lemma chk_int_not_panic d : chk_int d <> Panic.
Proof. unfold chk_int. destruct (int_fits d); discriminate. Qed.
Lemma chk_dec_overflow d : chk_dec d = Overflow -> 2 ^ 315 <= Z.abs d.
Proof. unfold chk_dec, dec_fits. destruct (Z.ltb_spec (Z.abs d) (2 ^ 315)); intros E; [discriminate|lia]. Qed.
Lemma chk_int_overflow d : chk_int d = Overflow -> 2 ^ 256 <= Z.abs d.
Proof. unfold chk_int, int_fits. destruct (Z.ltb_spec (Z.abs d) (2 ^ 256)); intros E; [discriminate|lia]. Qed.
Lemma chk_dec_fits d : Z.abs d < 2 ^ 315 -> chk_dec d = Ok d.
Proof. intros H. unfold chk_dec, dec_fits. destruct (Z.ltb_spec (Z.abs d) (2 ^ 315)); [reflexivity|lia]. Qed.
Lemma chk_int_fits d : Z.abs d < 2 ^ 256 -> chk_int d = Ok d.
Proof. intros H. unfold chk_int, int_fits. destruct (Z.ltb_spec (Z.abs d) (2 ^ 256)); [reflexivity|lia]. Qed.

Lemma c_quo_trunc_ok a b x : c_quo_trunc a b = Ok x -> b <> 0 /\ x = dquo_trunc a b.
Proof. unfold c_quo_trunc. destruct (Z.eqb_spec b 0); intros E; [discriminate|]. apply chk_dec_ok in E. tauto. Qed.
Lemma c_quo_ok a b x : c_quo a b = Ok x -> b <> 0 /\ x = dquo a b.
Proof. unfold c_quo. destruct (Z.eqb_spec b 0); intros E; [discriminate|]. apply chk_dec_ok in E. tauto. Qed.
Lemma c_quo_up_ok a b x : c_quo_up a b = Ok x -> b <> 0 /\ x = dquo_up a b.
Proof. unfold c_quo_up. destruct (Z.eqb_spec b 0); intros E; [discriminate|]. apply chk_dec_ok in E. tauto. Qed.
Lemma c_mul_ok a b x : c_mul a b = Ok x -> x = dmul a b.
Proof. intros E. apply chk_dec_ok in E. tauto. Qed.
Lemma c_mul_trunc_ok a b x : c_mul_trunc a b = Ok x -> x = dmul_trunc a b.
Proof. intros E. apply chk_dec_ok in E. tauto. Qed.
Lemma c_mul_int_ok a b x : c_mul_int a b = Ok x -> x = a * b.
Proof. intros E. apply chk_dec_ok in E. unfold dmul_int in E. tauto. Qed.
Lemma c_sub_ok a b x : c_sub a b = Ok x -> x = a - b.
Proof. intros E. apply chk_dec_ok in E. tauto. Qed.
Lemma c_add_ok a b x : c_add a b = Ok x -> x = a + b.
Proof. intros E. apply chk_dec_ok in E. tauto. Qed.
Lemma c_trunc_ok a x : c_trunc a = Ok x -> x = dtrunc a /\ Z.abs x < 2 ^ 256.
Proof. intros E. apply chk_int_ok in E. destruct E as [-> ?]. auto. Qed.

(** Turns [let! .. = Ok _] hypotheses into equations. *)
Ltac inv_ok :=
  repeat match goal with
  | H : rbind _ _ = Ok _ |- _ => apply rbind_ok in H; let E := fresh "E" in destruct H as (? & E & H); cbn beta in H
  | H : c_quo_trunc _ _ = Ok _ |- _ => apply c_quo_trunc_ok in H; destruct H as [? ?]
  | H : c_quo_up _ _ = Ok _ |- _ => apply c_quo_up_ok in H; destruct H as [? ?]
  | H : c_quo _ _ = Ok _ |- _ => apply c_quo_ok in H; destruct H as [? ?]
  | H : c_mul _ _ = Ok _ |- _ => apply c_mul_ok in H
  | H : c_mul_trunc _ _ = Ok _ |- _ => apply c_mul_trunc_ok in H
  | H : c_mul_int _ _ = Ok _ |- _ => apply c_mul_int_ok in H
  | H : c_sub _ _ = Ok _ |- _ => apply c_sub_ok in H
  | H : c_add _ _ = Ok _ |- _ => apply c_add_ok in H
  | H : c_trunc _ = Ok _ |- _ => apply c_trunc_ok in H; destruct H as [? ?]
  | H : i_add _ _ = Ok _ |- _ => apply chk_int_ok in H; destruct H as [? ?]
  | H : i_sub _ _ = Ok _ |- _ => apply chk_int_ok in H; destruct H as [? ?]
  | H : chk_int _ = Ok _ |- _ => apply chk_int_ok in H; destruct H as [? ?]
  | H : Ok _ = Ok _ |- _ => injection H; clear H; intros
  end.

Lemma safe_math_ok {A} (r : res A) d a : safe_math r d = Ok a -> r = Ok a \/ (r = Overflow /\ a = d).
Proof. destruct r; cbn; intros H; inversion H; auto. Qed.

(** ** Decimal facts on integers. *)
Lemma quo_trunc_ints a b : 0 <= a -> 0 < b -> dquo_trunc (of_int a) (of_int b) = a * P18 / b.
Proof.
  intros Ha Hb. pose proof P18_pos as Hp. unfold of_int. rewrite dquo_trunc_nn by nia.
  replace (a * P18 * P18) with ((a * P18) * P18) by lia. rewrite Z.div_mul_cancel_r by lia. reflexivity.
Qed.
Lemma mul_trunc_int a d : 0 <= a -> 0 <= d -> dmul_trunc (of_int a) d = a * d.
Proof.
  intros Ha Hd. pose proof P18_pos as Hp. unfold of_int. rewrite dmul_trunc_nn by nia.
  replace (a * P18 * d) with (a * d * P18) by lia. apply Z.div_mul. lia.
Qed.
Lemma mul_int_exact a d : dmul (of_int a) d = a * d.
Proof. unfold dmul, of_int. replace (a * P18 * d) with (a * d * P18) by lia. apply chop_round_exact. Qed.
Lemma quo_ints a b : 0 <= a -> 0 < b -> dquo (of_int a) (of_int b) = chop_round (a * P18 * P18 / b).
Proof.
  intros Ha Hb. pose proof P18_pos as Hp. unfold dquo, of_int. f_equal.
  rewrite Z.quot_div_nonneg by nia.
  replace (a * P18 * P18 * P18) with ((a * P18 * P18) * P18) by lia. apply Z.div_mul_cancel_r; lia.
Qed.

Lemma div_le_iff a b c : 0 < b -> c <= a / b <-> c * b <= a.
Proof. intros Hb. split; intros H. - pose proof (Z.mul_div_le a b Hb). nia. - apply Z.div_le_lower_bound; nia. Qed.
Lemma div_bounds a b : 0 < b -> a / b * b <= a < (a / b + 1) * b.
Proof. intros Hb. pose proof (Z.mul_div_le a b Hb). pose proof (Z.mul_succ_div_gt a b Hb). nia. Qed.

(** ** Deposit *)
Definition deposit_ratio (rx ry x y : Z) : Z :=
  if rx =? 0 then y * P18 / ry else if ry =? 0 then x * P18 / rx else Z.min (x * P18 / rx) (y * P18 / ry).

(** Closed form of the values computed when nothing overflows. *)
Lemma deposit_closed rx ry ps x y ax ay pc :
  0 <= rx -> 0 <= ry -> 0 < rx + ry -> 0 < ps -> 0 <= x -> 0 <= y ->
  deposit rx ry ps x y = Ok (ax, ay, pc) ->
  (ax, ay, pc) = (0, 0, 0) \/
  (pc = ps * deposit_ratio rx ry x y / P18 /\
   let mint := chop_round (pc * P18 * P18 / ps) in
   ax = dtrunc (dceil (rx * mint)) /\ ay = dtrunc (dceil (ry * mint))).
Proof.
  intros Hrx Hry Hr Hps Hx Hy H. pose proof P18_pos as Hp.
  unfold deposit in H. apply safe_math_ok in H. destruct H as [H|[_ H]]; [|left; assumption]. right.
  apply rbind_ok in H. destruct H as (ratio & ER & H). cbn beta in H.
  assert (R : ratio = deposit_ratio rx ry x y /\ 0 <= ratio).
  { unfold deposit_ratio. unfold of_int in ER at 1.
    assert (Z1 : (rx * P18 =? 0) = (rx =? 0)) by (destruct (Z.eqb_spec rx 0), (Z.eqb_spec (rx * P18) 0); try reflexivity; nia).
    rewrite Z1 in ER. destruct (Z.eqb_spec rx 0).
    - inv_ok. subst ratio. rewrite quo_trunc_ints by lia. split; [reflexivity|]. apply Z.div_pos; nia.
    - unfold of_int in ER at 1.
      assert (Z2 : (ry * P18 =? 0) = (ry =? 0)) by (destruct (Z.eqb_spec ry 0), (Z.eqb_spec (ry * P18) 0); try reflexivity; nia).
      rewrite Z2 in ER. destruct (Z.eqb_spec ry 0).
      + inv_ok. subst ratio. rewrite quo_trunc_ints by lia. split; [reflexivity|]. apply Z.div_pos; nia.
      + inv_ok. subst. rewrite !quo_trunc_ints by lia. split; [reflexivity|]. apply Z.min_glb; apply Z.div_pos; nia. }
  destruct R as [R Rn]. clear ER. inv_ok. subst.
  rewrite mul_trunc_int by lia. rewrite dtrunc_nn by nia.
  assert (0 <= ps * deposit_ratio rx ry x y / P18) by (apply Z.div_pos; nia).
  rewrite quo_ints by lia. rewrite !mul_int_exact. auto.
Qed.

Lemma mint_le_ratio ps r pc : 0 < ps -> 0 <= r -> pc = ps * r / P18 -> chop_round (pc * P18 * P18 / ps) <= r.
Proof.
  intros Hps Hr ->. pose proof P18_pos as Hp.
  transitivity (chop_round (r * P18)); [|rewrite chop_round_exact; lia]. apply chop_round_mono.
  - apply Z.div_pos; [|lia]. assert (0 <= ps * r / P18) by (apply Z.div_pos; nia). nia.
  - apply Z.div_le_upper_bound; [lia|]. pose proof (div_bounds (ps * r) P18 Hp). nia.
Qed.

Lemma deposit_ratio_bounds rx ry x y : 0 <= rx -> 0 <= ry -> 0 < rx + ry -> 0 <= x -> 0 <= y ->
  0 <= deposit_ratio rx ry x y /\ rx * deposit_ratio rx ry x y <= x * P18 /\ ry * deposit_ratio rx ry x y <= y * P18.
Proof.
  intros Hrx Hry Hr Hx Hy. pose proof P18_pos as Hp. unfold deposit_ratio.
  destruct (Z.eqb_spec rx 0); [|destruct (Z.eqb_spec ry 0)].
  - pose proof (div_bounds (y * P18) ry ltac:(lia)). assert (0 <= y * P18 / ry) by (apply Z.div_pos; nia). subst rx. rewrite Z.mul_0_l. split; [assumption|]. split; [nia|lia].
  - pose proof (div_bounds (x * P18) rx ltac:(lia)). assert (0 <= x * P18 / rx) by (apply Z.div_pos; nia). subst ry. rewrite Z.mul_0_l. split; [assumption|]. split; [lia|nia].
  - pose proof (div_bounds (y * P18) ry ltac:(lia)). assert (0 <= y * P18 / ry) by (apply Z.div_pos; nia).
    pose proof (div_bounds (x * P18) rx ltac:(lia)). assert (0 <= x * P18 / rx) by (apply Z.div_pos; nia).
    split; [apply Z.min_glb; assumption|].
    pose proof (Z.le_min_l (x * P18 / rx) (y * P18 / ry)). pose proof (Z.le_min_r (x * P18 / rx) (y * P18 / ry)). split; nia.
Qed.

(** The facts about a deposit; see Props_Pool for their reading. *)
Lemma deposit_facts rx ry ps x y ax ay pc :
  0 <= rx -> 0 <= ry -> 0 < rx + ry -> 0 < ps -> 0 <= x -> 0 <= y ->
  deposit rx ry ps x y = Ok (ax, ay, pc) ->
  0 <= ax <= x /\ 0 <= ay <= y /\ 0 <= pc /\ (pc = 0 -> ax = 0 /\ ay = 0) /\
  pc * rx <= x * ps /\ pc * ry <= y * ps /\
  P18 * (pc * rx - ax * ps) <= ps * rx /\ P18 * (pc * ry - ay * ps) <= ps * ry.
Proof.
  intros Hrx Hry Hr Hps Hx Hy H. pose proof P18_pos as Hp.
  destruct (deposit_closed _ _ _ _ _ _ _ _ Hrx Hry Hr Hps Hx Hy H) as [E|(Epc & Eax & Eay)].
  { inversion E; subst. lia. }
  destruct (deposit_ratio_bounds rx ry x y Hrx Hry Hr Hx Hy) as (R0 & Rx & Ry).
  set (r := deposit_ratio rx ry x y) in *.
  assert (Hpc : 0 <= pc) by (subst pc; apply Z.div_pos; nia).
  pose proof (div_bounds (ps * r) P18 Hp) as Bpc. rewrite <- Epc in Bpc.
  pose proof (mint_le_ratio ps r pc Hps R0 Epc) as Hm.
  set (mint := chop_round (pc * P18 * P18 / ps)) in *. cbv zeta in Eax, Eay.
  assert (Q0 : 0 <= pc * P18 * P18 / ps) by (apply Z.div_pos; nia).
  assert (M0 : 0 <= mint) by (apply chop_round_nonneg; assumption).
  pose proof (chop_round_bounds (pc * P18 * P18 / ps) Q0) as Bm. fold mint in Bm.
  pose proof (div_bounds (pc * P18 * P18) ps Hps) as Bq.
  assert (ML : 2 * pc * P18 * P18 < (2 * mint * P18 + P18 + 2) * ps) by nia.
  assert (ML' : 2 * pc * P18 <= (2 * mint + 2) * ps).
  { assert (P18 + 2 <= 2 * P18) by (vm_compute; discriminate). nia. }
  pose proof (ceil_bounds (rx * mint) ltac:(nia)) as (C1 & C2 & C3). rewrite <- Eax in *.
  pose proof (ceil_bounds (ry * mint) ltac:(nia)) as (D1 & D2 & D3). rewrite <- Eay in *.
  assert (Ax : ax <= x) by (rewrite Eax; apply ceil_le; nia).
  assert (Ay : ay <= y) by (rewrite Eay; apply ceil_le; nia).
  split; [lia|]. split; [lia|]. split; [assumption|]. split.
  { intros ->. assert (mint = 0). { unfold mint. replace (0 * P18 * P18 / ps) with 0. reflexivity. rewrite Z.div_0_l by lia. reflexivity. }
    rewrite H0 in *. rewrite Z.mul_0_r in *. split; [rewrite Eax|rewrite Eay]; reflexivity. }
  split. { assert (pc * P18 * rx <= ps * (x * P18)) by nia. nia. }
  split. { assert (pc * P18 * ry <= ps * (y * P18)) by nia. nia. }
  split.
  - assert (2 * pc * P18 * rx <= (2 * mint + 2) * ps * rx) by nia. assert (rx * mint * ps <= ax * P18 * ps) by nia. nia.
  - assert (2 * pc * P18 * ry <= (2 * mint + 2) * ps * ry) by nia. assert (ry * mint * ps <= ay * P18 * ps) by nia. nia.
Qed.

Lemma rbind_not_panic {A B} (r : res A) (f : A -> res B) : r <> Panic -> (forall a, r = Ok a -> f a <> Panic) -> rbind r f <> Panic.
Proof. destruct r; cbn; intros H1 H2; [apply H2; reflexivity|discriminate|congruence]. Qed.
Lemma safe_math_not_panic {A} (r : res A) d : r <> Panic -> exists a, safe_math r d = Ok a.
Proof. destruct r; cbn; intros H; [eauto|eauto|congruence]. Qed.
Lemma c_quo_trunc_not_panic a b : b <> 0 -> c_quo_trunc a b <> Panic.
Proof. intros H. unfold c_quo_trunc. destruct (Z.eqb_spec b 0); [contradiction|apply chk_dec_not_panic]. Qed.
Lemma c_quo_not_panic a b : b <> 0 -> c_quo a b <> Panic.
Proof. intros H. unfold c_quo. destruct (Z.eqb_spec b 0); [contradiction|apply chk_dec_not_panic]. Qed.
Lemma of_int_nz n : n <> 0 -> of_int n <> 0.
Proof. pose proof P18_pos. unfold of_int. nia. Qed.
Lemma of_int_eqb n : (of_int n =? 0) = (n =? 0).
Proof. pose proof P18_pos. unfold of_int. destruct (Z.eqb_spec n 0), (Z.eqb_spec (n * P18) 0); try reflexivity; nia. Qed.

Ltac no_panic := first
  [ apply rbind_not_panic; [|intros ? ?] | apply chk_dec_not_panic | apply chk_int_not_panic
  | apply c_quo_trunc_not_panic | apply c_quo_not_panic | discriminate ].

(** A deposit into a pool with some reserve and some supply never panics. *)
Lemma deposit_total rx ry ps x y : 0 <= rx -> 0 <= ry -> 0 < rx + ry -> 0 < ps ->
  exists ax ay pc, deposit rx ry ps x y = Ok (ax, ay, pc).
Proof.
  intros Hrx Hry Hr Hps.
  assert (H : exists a, deposit rx ry ps x y = Ok a).
  { unfold deposit. apply safe_math_not_panic. rewrite !of_int_eqb.
    repeat no_panic; try (apply of_int_nz; lia).
    destruct (Z.eqb_spec rx 0); [|destruct (Z.eqb_spec ry 0)]; repeat no_panic; apply of_int_nz; lia. }
  destruct H as [[[ax ay] pc] H]. eauto.
Qed.

(** When nothing overflows the pool coins minted are the most the offered amounts allow, up to one
    pool coin and the 18 digit truncation of the ratio. *)
Lemma deposit_ratio_le rx ry x y : 0 <= rx -> 0 <= ry -> 0 < rx + ry -> 0 <= x -> 0 <= y ->
  deposit_ratio rx ry x y <= (x + y) * P18.
Proof.
  intros Hrx Hry Hr Hx Hy. pose proof P18_pos as Hp.
  assert (A : forall n d, 0 <= n -> 0 < d -> n / d <= n) by (intros n d Hn Hd; apply Z.div_le_upper_bound; nia).
  unfold deposit_ratio. destruct (Z.eqb_spec rx 0); [|destruct (Z.eqb_spec ry 0)].
  - pose proof (A (y * P18) ry ltac:(nia) ltac:(lia)). nia.
  - pose proof (A (x * P18) rx ltac:(nia) ltac:(lia)). nia.
  - pose proof (A (x * P18) rx ltac:(nia) ltac:(lia)). pose proof (Z.le_min_l (x * P18 / rx) (y * P18 / ry)). nia.
Qed.

Lemma c_quo_trunc_fits a b : b <> 0 -> Z.abs (dquo_trunc a b) < 2 ^ 315 -> c_quo_trunc a b = Ok (dquo_trunc a b).
Proof. intros Hb H. unfold c_quo_trunc. destruct (Z.eqb_spec b 0); [contradiction|]. apply chk_dec_fits. assumption. Qed.
Lemma c_quo_fits a b : b <> 0 -> Z.abs (dquo a b) < 2 ^ 315 -> c_quo a b = Ok (dquo a b).
Proof. intros Hb H. unfold c_quo. destruct (Z.eqb_spec b 0); [contradiction|]. apply chk_dec_fits. assumption. Qed.
Lemma rbind_of_ok {A B} (r : res A) (f : A -> res B) a : r = Ok a -> rbind r f = f a.
Proof. intros ->. reflexivity. Qed.

Lemma deposit_no_overflow rx ry ps x y :
  0 <= rx -> 0 <= ry -> 0 < rx + ry -> 0 < ps -> 0 <= x -> 0 <= y -> ps * (x + y) < 2 ^ 255 ->
  let pc := ps * deposit_ratio rx ry x y / P18 in
  let mint := chop_round (pc * P18 * P18 / ps) in
  deposit rx ry ps x y = Ok (dtrunc (dceil (rx * mint)), dtrunc (dceil (ry * mint)), pc).
Proof.
  intros Hrx Hry Hr Hps Hx Hy Hov pc mint. pose proof P18_pos as Hp.
  destruct (deposit_ratio_bounds rx ry x y Hrx Hry Hr Hx Hy) as (R0 & Rx & Ry).
  pose proof (deposit_ratio_le rx ry x y Hrx Hry Hr Hx Hy) as Rle.
  assert (P60 : P18 <= 2 ^ 60) by (vm_compute; discriminate).
  assert (Hxy : x + y <= ps * (x + y)) by nia.
  assert (B : (x + y) * P18 < 2 ^ 315) by (replace (2 ^ 315) with (2 ^ 255 * 2 ^ 60) by reflexivity; nia).
  assert (B2 : ps * (x + y) * P18 < 2 ^ 315) by (replace (2 ^ 315) with (2 ^ 255 * 2 ^ 60) by reflexivity; nia).
  assert (B256 : 2 ^ 255 < 2 ^ 256) by reflexivity.
  assert (A : forall n d, 0 <= n -> 0 < d -> 0 <= n / d <= n).
  { intros n d Hn Hd. split; [apply Z.div_pos; lia|]. apply Z.div_le_upper_bound; nia. }
  assert (Hpc : 0 <= pc) by (apply Z.div_pos; nia).
  pose proof (div_bounds (ps * deposit_ratio rx ry x y) P18 Hp) as Bpc. fold pc in Bpc.
  pose proof (mint_le_ratio ps (deposit_ratio rx ry x y) pc Hps R0 eq_refl) as Hm. fold mint in Hm.
  assert (M0 : 0 <= mint) by (apply chop_round_nonneg, Z.div_pos; nia).
  unfold deposit. rewrite !of_int_eqb.
  assert (ER : (if rx =? 0 then c_quo_trunc (of_int y) (of_int ry)
        else if ry =? 0 then c_quo_trunc (of_int x) (of_int rx)
        else let! qx := c_quo_trunc (of_int x) (of_int rx) in
             let! qy := c_quo_trunc (of_int y) (of_int ry) in Ok (Z.min qx qy)) = Ok (deposit_ratio rx ry x y)).
  { unfold deposit_ratio. destruct (Z.eqb_spec rx 0); [|destruct (Z.eqb_spec ry 0)].
    - pose proof (A (y * P18) ry ltac:(nia) ltac:(lia)).
      rewrite c_quo_trunc_fits; rewrite ?quo_trunc_ints by lia; [reflexivity|apply of_int_nz; lia|rewrite Z.abs_eq by lia; nia].
    - pose proof (A (x * P18) rx ltac:(nia) ltac:(lia)).
      rewrite c_quo_trunc_fits; rewrite ?quo_trunc_ints by lia; [reflexivity|apply of_int_nz; lia|rewrite Z.abs_eq by lia; nia].
    - pose proof (A (x * P18) rx ltac:(nia) ltac:(lia)). pose proof (A (y * P18) ry ltac:(nia) ltac:(lia)).
      rewrite !c_quo_trunc_fits; rewrite ?quo_trunc_ints by lia;
        [reflexivity|apply of_int_nz; lia|rewrite Z.abs_eq by lia; nia|apply of_int_nz; lia|rewrite Z.abs_eq by lia; nia]. }
  rewrite (rbind_of_ok _ _ _ ER). clear ER. cbv beta.
  set (r := deposit_ratio rx ry x y) in *.
  unfold c_mul_trunc. rewrite mul_trunc_int by lia. rewrite chk_dec_fits by (rewrite Z.abs_eq by nia; nia). cbn [rbind].
  unfold c_trunc. rewrite dtrunc_nn by nia. fold pc. rewrite chk_int_fits by (rewrite Z.abs_eq by lia; nia). cbn [rbind].
  rewrite c_quo_fits; [|apply of_int_nz; lia|]; rewrite quo_ints by lia; fold mint; [|rewrite Z.abs_eq by lia; nia]. cbn [rbind].
  unfold c_mul. rewrite !mul_int_exact.
  rewrite chk_dec_fits by (rewrite Z.abs_eq by nia; nia). cbn [rbind].
  assert (C1 : 0 <= dtrunc (dceil (rx * mint)) <= x) by (split; [apply ceil_bounds; nia|apply ceil_le; nia]).
  assert (C2 : 0 <= dtrunc (dceil (ry * mint)) <= y) by (split; [apply ceil_bounds; nia|apply ceil_le; nia]).
  rewrite chk_int_fits by lia. cbn [rbind].
  rewrite chk_dec_fits by (rewrite Z.abs_eq by nia; nia). cbn [rbind].
  rewrite chk_int_fits by lia. reflexivity.
Qed.

Lemma deposit_mint_lower rx ry ps x y ax ay pc :
  0 <= rx -> 0 <= ry -> 0 < rx + ry -> 0 < ps -> 0 <= x -> 0 <= y -> ps * (x + y) < 2 ^ 255 ->
  deposit rx ry ps x y = Ok (ax, ay, pc) ->
  (0 < rx /\ P18 * (x * ps - (pc + 1) * rx) < ps * rx) \/ (0 < ry /\ P18 * (y * ps - (pc + 1) * ry) < ps * ry).
Proof.
  intros Hrx Hry Hr Hps Hx Hy Hov H. pose proof P18_pos as Hp.
  rewrite deposit_no_overflow in H by assumption. injection H; clear H; intros E _ _.
  destruct (deposit_ratio_bounds rx ry x y Hrx Hry Hr Hx Hy) as (R0 & _ & _).
  pose proof (div_bounds (ps * deposit_ratio rx ry x y) P18 Hp) as Bpc. rewrite E in Bpc.
  assert (K : forall n d, 0 <= n -> 0 < d -> n * P18 / d <= deposit_ratio rx ry x y -> P18 * (n * ps - (pc + 1) * d) < ps * d).
  { intros n d Hn Hd Hle. pose proof (div_bounds (n * P18) d Hd).
    assert (n * P18 < (deposit_ratio rx ry x y + 1) * d) by nia. nia. }
  unfold deposit_ratio in K, Bpc. destruct (Z.eqb_spec rx 0); [|destruct (Z.eqb_spec ry 0)].
  - right. split; [lia|]. apply K; lia.
  - left. split; [lia|]. apply K; lia.
  - destruct (Z.min_spec (x * P18 / rx) (y * P18 / ry)) as [[? M]|[? M]]; rewrite M in K.
    + left. split; [lia|]. apply K; lia.
    + right. split; [lia|]. apply K; lia.
Qed.

(** ** Withdraw *)
Lemma withdraw_facts rx ry ps pc fee x y :
  0 <= rx -> 0 <= ry -> 0 < ps -> 0 <= pc <= ps -> 0 <= fee <= P18 ->
  withdraw rx ry ps pc fee = Ok (x, y) ->
  0 <= x <= rx /\ 0 <= y <= ry /\ (pc = ps -> x = rx /\ y = ry) /\
  (pc <> ps -> x * P18 * ps <= rx * pc * (P18 - fee) /\ y * P18 * ps <= ry * pc * (P18 - fee)).
Proof.
  intros Hrx Hry Hps Hpc Hfee H. pose proof P18_pos as Hp. unfold withdraw in H. unfold one_dec in H.
  destruct (Z.eqb_spec pc ps) as [->|Hne].
  { injection H; intros; subst. split; [lia|]. split; [lia|]. split; [auto|lia]. }
  apply safe_math_ok in H. destruct H as [H|[_ H]].
  2:{ injection H; intros; subst. split; [lia|]. split; [lia|]. split; [lia|]. intros _. split; nia. }
  inv_ok. subst. rewrite quo_trunc_ints in * by lia.
  pose proof (div_bounds (pc * P18) ps Hps) as Bq. set (q := pc * P18 / ps) in *.
  assert (Q0 : 0 <= q) by (apply Z.div_pos; nia).
  assert (QP : q <= P18) by nia.
  rewrite !(mul_trunc_int) in * by lia. rewrite !dmul_trunc_nn in * by nia.
  assert (K : forall r, 0 <= r -> let v := dtrunc (r * q * (P18 - fee) / P18) in
     0 <= v <= r /\ v * P18 * ps <= r * pc * (P18 - fee)).
  { intros r Hr v. assert (HN : 0 <= r * q * (P18 - fee) / P18) by (apply Z.div_pos; nia).
    pose proof (div_bounds (r * q * (P18 - fee)) P18 Hp) as B1.
    pose proof (dtrunc_bounds _ HN) as B2. fold v in B2.
    assert (V0 : 0 <= v) by (apply dtrunc_nonneg; assumption).
    assert (V1 : v * P18 * P18 <= r * q * (P18 - fee)) by nia.
    assert (V2 : r * q * (P18 - fee) <= r * (q * P18)) by nia.
    split. { split; [assumption|]. assert (r * (q * P18) <= r * (P18 * P18)) by nia. nia. }
    assert (V3 : r * q * (P18 - fee) * ps <= r * (pc * P18) * (P18 - fee)).
    { replace (r * q * (P18 - fee) * ps) with ((q * ps) * (r * (P18 - fee))) by ring.
      replace (r * (pc * P18) * (P18 - fee)) with ((pc * P18) * (r * (P18 - fee))) by ring.
      apply Z.mul_le_mono_nonneg_r; [nia|lia]. }
    assert (V4 : v * P18 * P18 * ps <= r * (pc * P18) * (P18 - fee)) by nia.
    assert (v * P18 * ps * P18 <= r * pc * (P18 - fee) * P18) by nia. nia. }
  pose proof (K rx Hrx) as K1. pose proof (K ry Hry) as K2. cbv zeta in K1, K2.
  split; [apply K1|]. split; [apply K2|]. split; [intros; contradiction|]. intros _. split; [apply K1|apply K2].
Qed.

Lemma withdraw_total rx ry ps pc fee : 0 < ps -> exists x y, withdraw rx ry ps pc fee = Ok (x, y).
Proof.
  intros Hps. assert (H : exists a, withdraw rx ry ps pc fee = Ok a).
  { unfold withdraw. destruct (pc =? ps); [eauto|]. apply safe_math_not_panic. repeat no_panic. apply of_int_nz; lia. }
  destruct H as [[x y] H]. eauto.
Qed.

(** Without overflow the payout is short of the pro rata share by less than one coin plus the 18
    digit truncation of the proportion. *)
Lemma withdraw_lower rx ry ps pc fee x y :
  0 <= rx < 2 ^ 255 -> 0 <= ry < 2 ^ 255 -> 0 < ps -> 0 <= pc <= ps -> 0 <= fee <= P18 ->
  withdraw rx ry ps pc fee = Ok (x, y) ->
  rx * (P18 - fee) * (pc * P18 - ps) < (x + 1) * P18 * P18 * ps /\
  ry * (P18 - fee) * (pc * P18 - ps) < (y + 1) * P18 * P18 * ps.
Proof.
  intros Hrx Hry Hps Hpc Hfee H. pose proof P18_pos as Hp. unfold withdraw in H. unfold one_dec in H.
  destruct (Z.eqb_spec pc ps) as [->|Hne].
  { injection H; intros; subst.
    assert (K : forall r, 0 <= r -> r * (P18 - fee) * (ps * P18 - ps) < (r + 1) * P18 * P18 * ps).
    { intros r Hr. assert (r * (P18 - fee) <= r * P18) by nia. assert (0 <= ps * P18 - ps) by nia.
      assert (r * (P18 - fee) * (ps * P18 - ps) <= r * P18 * (ps * P18 - ps)) by nia. nia. }
    split; apply K; lia. }
  assert (P60 : P18 <= 2 ^ 60) by (vm_compute; discriminate).
  assert (Bq : 0 <= pc * P18 / ps <= P18).
  { split; [apply Z.div_pos; nia|]. apply Z.div_le_upper_bound; nia. }
  pose proof (div_bounds (pc * P18) ps Hps) as Bd.
  set (q := pc * P18 / ps) in *.
  assert (F : forall r, 0 <= r < 2 ^ 255 -> r * q < 2 ^ 315).
  { intros r Hr. replace (2 ^ 315) with (2 ^ 255 * 2 ^ 60) by reflexivity. nia. }
  assert (F2 : forall r, 0 <= r < 2 ^ 255 -> 0 <= r * q * (P18 - fee) / P18 <= r * q).
  { intros r Hr. split; [apply Z.div_pos; nia|]. apply Z.div_le_upper_bound; nia. }
  assert (F3 : forall r, 0 <= r < 2 ^ 255 -> 0 <= dtrunc (r * q * (P18 - fee) / P18) <= r).
  { intros r Hr. pose proof (F2 r Hr) as F2r. split; [apply dtrunc_nonneg; lia|].
    pose proof (dtrunc_bounds _ (proj1 F2r)). nia. }
  assert (S255 : 2 ^ 255 < 2 ^ 256) by reflexivity. assert (S315 : P18 < 2 ^ 315) by reflexivity.
  pose proof (F rx Hrx). pose proof (F ry Hry). pose proof (F2 rx Hrx). pose proof (F2 ry Hry). pose proof (F3 rx Hrx). pose proof (F3 ry Hry).
  assert (EQ : dquo_trunc (of_int pc) (of_int ps) = q) by (apply quo_trunc_ints; lia).
  rewrite c_quo_trunc_fits in H; [rewrite EQ in H|apply of_int_nz; lia|rewrite EQ, Z.abs_eq by lia; lia].
  cbn [rbind] in H. unfold c_sub in H. rewrite chk_dec_fits in H by (rewrite Z.abs_eq by lia; lia). cbn [rbind] in H.
  unfold c_mul_trunc, c_trunc in H. rewrite !mul_trunc_int in H by lia.
  rewrite chk_dec_fits in H by (rewrite Z.abs_eq by nia; lia). cbn [rbind] in H.
  rewrite dmul_trunc_nn in H by nia. rewrite chk_dec_fits in H by (rewrite Z.abs_eq by lia; lia). cbn [rbind] in H.
  rewrite chk_int_fits in H by lia. cbn [rbind] in H.
  rewrite chk_dec_fits in H by (rewrite Z.abs_eq by nia; lia). cbn [rbind] in H.
  rewrite dmul_trunc_nn in H by nia. rewrite chk_dec_fits in H by (rewrite Z.abs_eq by lia; lia). cbn [rbind] in H.
  rewrite chk_int_fits in H by lia. cbn [rbind safe_math] in H.
  assert (K : forall r, 0 <= r < 2 ^ 255 -> r * (P18 - fee) * (pc * P18 - ps) < (dtrunc (r * q * (P18 - fee) / P18) + 1) * P18 * P18 * ps).
  { intros r Hr. pose proof (F2 r Hr) as F2r. pose proof (dtrunc_bounds _ (proj1 F2r)) as B2.
    pose proof (div_bounds (r * q * (P18 - fee)) P18 Hp) as B1. set (v := dtrunc (r * q * (P18 - fee) / P18)) in *.
    assert (V1 : r * q * (P18 - fee) < (v + 1) * P18 * P18) by nia.
    assert (V2 : pc * P18 - ps <= q * ps) by nia.
    assert (V3 : r * (P18 - fee) * (pc * P18 - ps) <= r * (P18 - fee) * (q * ps)) by (apply Z.mul_le_mono_nonneg_l; nia).
    assert (V4 : r * q * (P18 - fee) * ps < (v + 1) * P18 * P18 * ps) by nia. nia. }
  injection H; intros; subst. split; apply K; lia.
Qed.

(** ** Deposit then withdraw *)
Lemma deposit_withdraw rx ry ps x y ax ay pc fee wx wy :
  0 <= rx -> 0 <= ry -> 0 < rx + ry -> 0 < ps -> 0 <= x -> 0 <= y -> 0 <= fee <= P18 ->
  deposit rx ry ps x y = Ok (ax, ay, pc) -> withdraw (rx + ax) (ry + ay) (ps + pc) pc fee = Ok (wx, wy) ->
  P18 * (wx - ax) <= rx /\ P18 * (wy - ay) <= ry /\ (rx < P18 -> wx <= ax) /\ (ry < P18 -> wy <= ay).
Proof.
  intros Hrx Hry Hr Hps Hx Hy Hfee HD HW. pose proof P18_pos as Hp.
  destruct (deposit_facts _ _ _ _ _ _ _ _ Hrx Hry Hr Hps Hx Hy HD) as (Ax & Ay & Pc & _ & _ & _ & Dx & Dy).
  destruct (withdraw_facts (rx + ax) (ry + ay) (ps + pc) pc fee wx wy ltac:(lia) ltac:(lia) ltac:(lia) ltac:(lia) Hfee HW) as (Wx & Wy & _ & W).
  specialize (W ltac:(lia)). destruct W as [W1 W2].
  assert (K : forall r a w, 0 <= r -> 0 <= a -> 0 <= w -> P18 * (pc * r - a * ps) <= ps * r ->
     w * P18 * (ps + pc) <= (r + a) * pc * (P18 - fee) -> P18 * (w - a) <= r).
  { intros r a w Hr0 Ha Hw HD0 HW0.
    assert (w * P18 * (ps + pc) <= (r + a) * pc * P18) by nia.
    assert (w * (ps + pc) <= (r + a) * pc) by nia.
    assert (P18 * ((w - a) * (ps + pc)) <= P18 * (pc * r - a * ps)) by nia.
    assert (P18 * (w - a) * (ps + pc) <= r * (ps + pc)) by nia. nia. }
  pose proof (K rx ax wx Hrx ltac:(lia) ltac:(lia) Dx W1). pose proof (K ry ay wy Hry ltac:(lia) ltac:(lia) Dy W2).
  split; [assumption|]. split; [assumption|]. split; intros; nia.
Qed.

(** ** Initial supply *)
Lemma initial_supply_facts x y : 0 < x -> 0 < y ->
  exists c, 0 < c /\ initial_pool_coin_supply x y = 10 ^ c /\
    x * y < 10 ^ c * 10 ^ c <= 1000 * (x * y).
Proof.
  intros Hx Hy. pose proof (ndigits_spec x Hx) as Dx. pose proof (ndigits_spec y Hy) as Dy.
  unfold initial_pool_coin_supply. set (dx := ndigits x) in *. set (dy := ndigits y) in *.
  exists ((dx + dy + 1) / 2). replace (dx - 1 + 1 + (dy - 1 + 1) + 1) with (dx + dy + 1) by lia.
  destruct Dx as (D1 & D2). destruct Dy as (E1 & E2).
  rewrite Z.quot_div_nonneg by lia.
  pose proof (div_bounds (dx + dy + 1) 2 ltac:(lia)) as B. set (c := (dx + dy + 1) / 2) in *.
  split; [lia|]. split; [reflexivity|].
  rewrite <- pow10_add by lia. split.
  - apply Z.lt_le_trans with (10 ^ dx * 10 ^ dy); [nia|]. rewrite <- pow10_add by lia. apply pow10_le. lia.
  - apply Z.le_trans with (10 ^ 3 * (10 ^ (dx - 1) * 10 ^ (dy - 1))).
    + rewrite <- pow10_add by lia. rewrite <- pow10_add by lia. apply pow10_le. lia.
    + replace (10 ^ 3) with 1000 by reflexivity. nia.
Qed.
Lemma initial_supply_sym x y : initial_pool_coin_supply x y = initial_pool_coin_supply y x.
Proof. unfold initial_pool_coin_supply. f_equal. f_equal. lia. Qed.
