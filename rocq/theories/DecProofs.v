(** Arithmetic facts about the decimal operations. *)
From Verif Require Import Base Dec.

Lemma P18_pos : 0 < P18. Proof. reflexivity. Qed.
#[global] Hint Resolve P18_pos : core.

Lemma chop_trunc_nn d : 0 <= d -> chop_trunc d = d / P18.
Proof. intros. unfold chop_trunc. apply Z.quot_div_nonneg; [assumption|apply P18_pos]. Qed.

Lemma dtrunc_nn d : 0 <= d -> dtrunc d = d / P18.
Proof. apply chop_trunc_nn. Qed.

Lemma dtrunc_bounds d : 0 <= d -> dtrunc d * P18 <= d < (dtrunc d + 1) * P18.
Proof.
  intros H. rewrite dtrunc_nn by assumption.
  pose proof (Z.div_mod d P18 ltac:(pose proof P18_pos; lia)).
  pose proof (Z.mod_pos_bound d P18 P18_pos). lia.
Qed.

Lemma dtrunc_nonneg d : 0 <= d -> 0 <= dtrunc d.
Proof. intros. rewrite dtrunc_nn by assumption. apply Z.div_pos; [assumption|apply P18_pos]. Qed.

Lemma dtrunc_mono a b : 0 <= a -> a <= b -> dtrunc a <= dtrunc b.
Proof. intros. rewrite !dtrunc_nn by lia. apply Z.div_le_mono; [apply P18_pos|assumption]. Qed.

Lemma dtrunc_of_int n : dtrunc (of_int n) = n.
Proof. unfold dtrunc, chop_trunc, of_int. apply Z.quot_mul. pose proof P18_pos; lia. Qed.

(** Ceil then TruncateInt is the least integer not below. *)
Lemma ceil_bounds d : 0 <= d ->
  let c := dtrunc (dceil d) in 0 <= c /\ (c - 1) * P18 < d <= c * P18.
Proof.
  intros H c. unfold c, dceil. pose proof P18_pos as Hp.
  rewrite Z.quot_div_nonneg, Z.rem_mod_nonneg by lia.
  pose proof (Z.div_mod d P18 ltac:(lia)) as Hdm.
  pose proof (Z.mod_pos_bound d P18 Hp) as Hm.
  assert (0 <= d / P18) by (apply Z.div_pos; lia).
  destruct (Z.leb_spec (d mod P18) 0).
  - fold (of_int (d / P18)). rewrite dtrunc_of_int. lia.
  - fold (of_int (d / P18 + 1)). rewrite dtrunc_of_int. lia.
Qed.

Lemma ceil_le d c : 0 <= d -> d <= c * P18 -> dtrunc (dceil d) <= c.
Proof. intros H Hc. pose proof (ceil_bounds d H) as (A & B & C). pose proof P18_pos. nia. Qed.

Lemma ceil_pos d : 0 < d -> 0 < dtrunc (dceil d).
Proof. intros H. pose proof (ceil_bounds d ltac:(lia)) as (A & B & C). pose proof P18_pos. nia. Qed.

Lemma quo_trunc_int n price : 0 <= n -> 0 < price ->
  dtrunc (dquo_trunc (of_int n) price) = n * P18 / price.
Proof.
  intros Hn Hp. pose proof P18_pos as H18. unfold dquo_trunc, of_int.
  assert (0 <= n * P18 * P18 * P18) by nia.
  rewrite Z.quot_div_nonneg by lia.
  assert (0 <= n * P18 * P18 * P18 / price) by (apply Z.div_pos; lia).
  rewrite (chop_trunc_nn (n * P18 * P18 * P18 / price)) by assumption.
  assert (0 <= n * P18 * P18 * P18 / price / P18) by (apply Z.div_pos; lia).
  rewrite dtrunc_nn by assumption.
  rewrite !Z.div_div by lia.
  replace (n * P18 * P18 * P18) with ((n * P18) * (P18 * P18)) by lia.
  replace (price * P18 * P18) with (price * (P18 * P18)) by lia.
  rewrite Z.div_mul_cancel_r by lia. reflexivity.
Qed.

Lemma dquo_trunc_nn a b : 0 <= a -> 0 < b -> dquo_trunc a b = a * P18 / b.
Proof.
  intros Ha Hb. pose proof P18_pos as H18. unfold dquo_trunc.
  assert (0 <= a * P18 * P18) by nia.
  rewrite Z.quot_div_nonneg by lia.
  assert (0 <= a * P18 * P18 / b) by (apply Z.div_pos; lia).
  rewrite chop_trunc_nn by assumption. rewrite Z.div_div by lia.
  replace (a * P18 * P18) with ((a * P18) * P18) by lia.
  rewrite Z.div_mul_cancel_r by lia. reflexivity.
Qed.

(** Truncated products: floor(a*b). *)
Lemma dmul_trunc_nn a b : 0 <= a -> 0 <= b -> dmul_trunc a b = a * b / P18.
Proof. intros. unfold dmul_trunc. apply chop_trunc_nn. nia. Qed.

(** Banker's rounding is within half a unit. *)
Lemma chop_round_nn_bounds d : 0 <= d -> 2 * d - P18 <= 2 * (chop_round_nn d * P18) <= 2 * d + P18.
Proof.
  intros H. unfold chop_round_nn. pose proof P18_pos as Hp.
  pose proof (Z.div_mod d P18 ltac:(lia)) as Hdm.
  pose proof (Z.mod_pos_bound d P18 Hp) as Hm.
  set (q := d / P18) in *. set (r := d mod P18) in *.
  assert (HH : P18 = 2 * H18) by reflexivity.
  destruct (Z.eqb_spec r 0); [lia|].
  destruct (Z.compare_spec r H18) as [E|E|E]; [|lia|lia].
  destruct (Z.even q); lia.
Qed.

Lemma chop_round_bounds d : 0 <= d -> 2 * d - P18 <= 2 * (chop_round d * P18) <= 2 * d + P18.
Proof.
  intros H. unfold chop_round. destruct (Z.ltb_spec d 0); [lia|]. apply chop_round_nn_bounds; assumption.
Qed.

Lemma chop_round_nonneg d : 0 <= d -> 0 <= chop_round d.
Proof.
  intros H. unfold chop_round. destruct (Z.ltb_spec d 0); [lia|]. unfold chop_round_nn.
  assert (0 <= d / P18) by (apply Z.div_pos; [assumption|apply P18_pos]).
  destruct (_ =? _); [lia|]. destruct (_ ?= _); try lia. destruct (Z.even _); lia.
Qed.

Lemma chop_round_exact q : chop_round (q * P18) = q.
Proof.
  pose proof P18_pos. unfold chop_round, chop_round_nn.
  destruct (Z.ltb_spec (q * P18) 0).
  - replace (- (q * P18)) with ((- q) * P18) by lia. rewrite Z.mod_mul, Z.div_mul by lia. cbn. lia.
  - rewrite Z.mod_mul, Z.div_mul by lia. reflexivity.
Qed.

Lemma chop_round_nn_mono a b : 0 <= a -> a <= b -> chop_round_nn a <= chop_round_nn b.
Proof.
  intros Ha Hab. pose proof P18_pos as Hp. unfold chop_round_nn.
  pose proof (Z.div_mod a P18 ltac:(lia)) as Hda. pose proof (Z.mod_pos_bound a P18 Hp) as Hma.
  pose proof (Z.div_mod b P18 ltac:(lia)) as Hdb. pose proof (Z.mod_pos_bound b P18 Hp) as Hmb.
  pose proof (Z.div_le_mono a b P18 Hp Hab) as Hq.
  set (qa := a / P18) in *. set (qb := b / P18) in *.
  set (ra := a mod P18) in *. set (rb := b mod P18) in *.
  assert (E : qa = qb \/ qa + 1 <= qb) by lia.
  destruct (Z.eqb_spec ra 0); destruct (Z.eqb_spec rb 0);
    destruct (Z.compare_spec ra H18); destruct (Z.compare_spec rb H18);
    destruct (Z.even qa) eqn:Eva; destruct (Z.even qb) eqn:Evb; destruct E as [E|E];
    try lia; rewrite E in Eva; congruence.
Qed.

Lemma chop_round_mono a b : 0 <= a -> a <= b -> chop_round a <= chop_round b.
Proof.
  intros. unfold chop_round. destruct (Z.ltb_spec a 0); [lia|]. destruct (Z.ltb_spec b 0); [lia|].
  apply chop_round_nn_mono; assumption.
Qed.
