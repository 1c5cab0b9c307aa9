(** Accuracy of LegacyDec.ApproxSqrt: at most 3 raw units above the integer square root. *)
From Verif Require Import Base Dec DecProofs.

Lemma chop_round_nn_floor d : 0 <= d -> d / P18 <= chop_round_nn d <= d / P18 + 1.
Proof.
  intros H. unfold chop_round_nn. destruct (_ =? 0); [lia|]. destruct (_ ?= _); [destruct (Z.even _)| |]; lia.
Qed.
(** Quo by rounding of a non negative decimal. *)
Lemma dquo_floor a g : 0 <= a -> 0 < g -> a * P18 / g <= dquo a g <= a * P18 / g + 1.
Proof.
  intros Ha Hg. pose proof P18_pos as Hp. unfold dquo, chop_round.
  rewrite Z.quot_div_nonneg by nia. assert (0 <= a * P18 * P18 / g) by (apply Z.div_pos; nia).
  destruct (Z.ltb_spec (a * P18 * P18 / g) 0); [lia|].
  pose proof (chop_round_nn_floor (a * P18 * P18 / g) H) as B.
  rewrite Z.div_div in B by lia. rewrite (Z.mul_comm g P18) in B. rewrite <- Z.div_div in B by lia.
  rewrite Z.div_mul in B by lia. exact B.
Qed.

Lemma newton_step d g : 0 < d -> 0 < g ->
  let S := Z.sqrt (d * P18) in
  let delta := Z.quot (dquo d g - g) 2 in
  let g' := g + delta in
  S <= g' /\ (Z.abs delta <= 1 -> g' <= S + 3) /\ (S <= g -> 2 * (g' - S) <= g - S + 2).
Proof.
  intros Hd Hg S delta g'. pose proof P18_pos as Hp.
  destruct (Z.sqrt_spec (d * P18) ltac:(nia)) as [S1 S2]. fold S in S1, S2.
  assert (S0 : 10 <= S) by (unfold S; change 10 with (Z.sqrt 100); apply Z.sqrt_le_mono; unfold P18; lia).
  pose proof (dquo_floor d g ltac:(lia) Hg) as C. set (c := dquo d g) in *.
  pose proof (Z.div_mod (d * P18) g ltac:(lia)) as DM. pose proof (Z.mod_pos_bound (d * P18) g Hg) as MB.
  set (q := d * P18 / g) in *. set (r := (d * P18) mod g) in *.
  assert (Q0 : 0 <= q) by (apply Z.div_pos; nia).
  assert (DE : (g <= c -> c - g - 1 <= 2 * delta <= c - g) /\ (c < g -> c - g <= 2 * delta <= c - g + 1)).
  { pose proof (Z.quot_rem' (c - g) 2) as QR. fold delta in QR. split; intros L.
    - pose proof (Z.rem_bound_pos (c - g) 2 ltac:(lia) ltac:(lia)). lia.
    - pose proof (Z.rem_bound_pos_neg (c - g) 2 ltac:(lia) ltac:(lia)). lia. }
  clearbody S c q r delta. subst g'.
  assert (AG : 2 * S <= g + q).
  { destruct (Z_lt_le_dec (g + q) (2 * S)) as [L|L]; [exfalso|assumption].
    assert (E1 : (g + (q + 1)) * (g + (q + 1)) <= (2 * S) * (2 * S)) by (apply Z.mul_le_mono_nonneg; lia).
    assert (E2 : 4 * (g * (q + 1)) <= (g + (q + 1)) * (g + (q + 1))) by (pose proof (Z.square_nonneg (g - (q + 1))); lia).
    lia. }
  split; [|split].
  - destruct (Z_le_gt_dec g c) as [L|L]; [destruct DE as [DE _]; specialize (DE L)|destruct DE as [_ DE]; specialize (DE ltac:(lia))]; lia.
  - intros Ha.
    assert (U : g * q <= d * P18) by lia.
    destruct (Z_le_gt_dec g c) as [L|L]; [destruct DE as [DE _]; specialize (DE L)|destruct DE as [_ DE]; specialize (DE ltac:(lia))].
    + assert (g <= S + 1) by nia. lia.
    + assert (c = g - 1 \/ c = g - 2 \/ c = g - 3) as [E|[E|E]] by lia.
      * assert (g <= S + 2) by nia. lia.
      * assert (g <= S + 3) by nia. lia.
      * assert (g <= S + 4) by nia. lia.
  - intros L0.
    assert (U : g * q <= d * P18) by lia.
    destruct (Z.eq_dec g S) as [E|N].
    + subst g. assert (q <= S + 2) by nia.
      destruct (Z_le_gt_dec S c) as [L|L]; [destruct DE as [DE _]; specialize (DE L)|destruct DE as [_ DE]; specialize (DE ltac:(lia))]; lia.
    + assert (q <= S) by nia.
      destruct (Z_le_gt_dec g c) as [L|L]; [destruct DE as [DE _]; specialize (DE L)|destruct DE as [_ DE]; specialize (DE ltac:(lia))]; lia.
Qed.

Lemma sqrt_loop_bound d : 0 < d -> forall fuel g delta,
  let S := Z.sqrt (d * P18) in
  S <= g -> (Z.abs delta <= 1 -> g <= S + 3) -> g - S <= 2 ^ Z.of_nat fuel + 2 -> S <= sqrt_loop fuel d g delta <= S + 3.
Proof.
  intros Hd. pose proof P18_pos as Hp.
  assert (S0 : 0 < Z.sqrt (d * P18)) by (apply Z.sqrt_pos; nia).
  induction fuel as [|k IH]; intros g delta S Hg Hdl Hb; cbn [sqrt_loop].
  - change (2 ^ Z.of_nat 0) with 1 in Hb. lia.
  - destruct (Z.leb_spec (Z.abs delta) 1) as [L|L]; [lia|].
    destruct (Z.eqb_spec g 0); [lia|]. unfold dquo_int.
    destruct (newton_step d g Hd ltac:(lia)) as (A & B & C). apply IH; try assumption.
    rewrite Nat2Z.inj_succ, Z.pow_succ_r in Hb by lia. specialize (C Hg). unfold S in *. lia.
Qed.

Lemma sqrt_loop_start fuel d : Z.of_nat fuel = 299 -> 0 < d < 2 ^ 298 ->
  Z.sqrt (d * P18) <= sqrt_loop (S fuel) d one_dec one_dec <= Z.sqrt (d * P18) + 3.
Proof.
  intros E299 Hd. pose proof P18_pos as Hp.
  cbn [sqrt_loop]. change (Z.abs one_dec <=? 1) with false. cbn iota.
  change (one_dec =? 0) with false. cbn iota. unfold dquo_int.
  assert (O : 0 < one_dec) by reflexivity.
  destruct (newton_step d one_dec ltac:(lia) O) as (A & B & _).
  apply sqrt_loop_bound; [lia|assumption|assumption|].
  assert (0 <= Z.sqrt (d * P18)) by apply Z.sqrt_nonneg.
  assert (E : dquo d one_dec = d).
  { unfold dquo, one_dec. rewrite Z.quot_mul by lia. apply chop_round_exact. }
  rewrite E. pose proof (Z.quot_rem' (d - one_dec) 2). pose proof (Z.rem_bound_abs (d - one_dec) 2 ltac:(lia)).
  assert (one_dec < 2 ^ 100) by reflexivity. assert (2 ^ 298 + 2 ^ 100 <= 2 ^ 299) by (vm_compute; discriminate).
  rewrite E299. lia.
Qed.

(** ApproxSqrt of a positive decimal below 2^298 (about 5*10^71 in units). *)
Lemma dsqrt_bounds d : 0 < d < 2 ^ 298 -> Z.sqrt (d * P18) <= dsqrt d <= Z.sqrt (d * P18) + 3.
Proof.
  intros Hd. pose proof P18_pos as Hp. unfold dsqrt. destruct (Z.ltb_spec d 0); [lia|]. unfold dsqrt_nn.
  destruct (Z.eqb_spec d 0); [lia|]. cbn [orb]. destruct (Z.eqb_spec d one_dec) as [->|].
  { unfold one_dec. rewrite Z.sqrt_square by lia. lia. }
  apply (sqrt_loop_start 299 d eq_refl Hd).
Qed.
