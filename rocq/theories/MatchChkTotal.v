(** When the orders and prices of a batch are small enough, no checked operation of [MatchChk]
    overflows. *)
From Coq Require Import Permutation.
From Verif Require Import Base Dec DecProofs TickModel OrderModel MatchModel MatchSpec OrderProofs KeyedProofs MatchProofs MatchLoopProofs PoolModel KeeperModel MatchChk MatchChkProofs.

Lemma fits_int x : Z.abs x < 2 ^ 256 -> of_res (chk_int x) = Some x.
Proof. intros H. unfold chk_int, int_fits. rewrite (proj2 (Z.ltb_lt _ _) H). reflexivity. Qed.
Lemma fits_dec x : Z.abs x < 2 ^ 315 -> of_res (chk_dec x) = Some x.
Proof. intros H. unfold chk_dec, dec_fits. rewrite (proj2 (Z.ltb_lt _ _) H). reflexivity. Qed.

Lemma sub_sum (g : nat -> Z) : forall ps L, NoDup ps -> incl ps L -> (forall p, In p L -> 0 <= g p) -> sumZ (map g ps) <= sumZ (map g L).
Proof.
  induction ps as [|p ps IH]; intros L N I G; [exact (sumZ_map_nonneg g L G)|].
  inversion N as [|p' ps' Np N']; subst. destruct (in_split p L (I p (or_introl eq_refl))) as (L1 & L2 & ->).
  assert (J : incl ps (L1 ++ L2)).
  { intros q Hq. assert (q <> p) by (intros ->; exact (Np Hq)). specialize (I q (or_intror Hq)). apply in_app_iff in I. apply in_app_iff. destruct I as [I|[I|I]]; [left; exact I|congruence|right; exact I]. }
  specialize (IH (L1 ++ L2) N' J ltac:(intros q Hq; apply G; apply in_app_iff in Hq; apply in_app_iff; destruct Hq; [left|right; right]; assumption)).
  rewrite map_app, sumZ_app in IH. rewrite map_app, sumZ_app. cbn [map]. rewrite !sumZ_cons. lia.
Qed.
Lemma map_get_seq h : map (get h) (seq 0 (length h)) = h.
Proof.
  induction h as [|o h IH]; [reflexivity|]. cbn [length seq map]. f_equal. rewrite <- seq_shift, map_map. exact IH.
Qed.
Lemma heap_sum (f : order -> Z) h : sumZ (map f h) = sumZ (map (fun p => f (get h p)) (seq 0 (length h))).
Proof. rewrite <- (map_get_seq h) at 1. rewrite map_map. reflexivity. Qed.
Lemma heap_sub_sum (f : order -> Z) h ps : NoDup ps -> (forall p, In p ps -> (p < length h)%nat) -> (forall i, (i < length h)%nat -> 0 <= f (get h i)) ->
  sumZ (map (fun p => f (get h p)) ps) <= sumZ (map f h).
Proof.
  intros N R G. rewrite heap_sum. apply sub_sum; [exact N| |].
  - intros p Hp. apply in_seq. specialize (R p Hp). lia.
  - intros p Hp. apply in_seq in Hp. apply G. lia.
Qed.
Lemma heap_sum_upd (f : order -> Z) : forall h i o, (i < length h)%nat -> sumZ (map f (upd h i o)) = sumZ (map f h) - f (get h i) + f o.
Proof.
  induction h as [|x h IH]; intros i o Hi; [cbn in Hi; lia|]. destruct i as [|i]; cbn [upd map length] in *; rewrite !sumZ_cons; unfold get; cbn [nth].
  - lia.
  - rewrite IH by lia. unfold get. lia.
Qed.

Definition wt (o : order) : Z := o_amt o + o_offer o.
Definition potv (o : order) : Z := match o_dir o with Buy => o_paid o | Sell => o_recv o end.
Definition pot (h : heap) : Z := sumZ (map potv h).
Definition inr (h : heap) (ps : list nat) : Prop := NoDup ps /\ forall p, In p ps -> (p < length h)%nat.

Section Total.
  Variables P W : Z.
  Hypothesis HW : 0 <= W < 2 ^ 195.
  Hypothesis HPW : P * W < 2 ^ 314.

  Definition small (h : heap) : Prop :=
    wf_heap h /\ sumZ (map wt h) <= W /\ (forall i, (i < length h)%nat -> o_recv (get h i) * P18 <= (P + P18) * (o_amt (get h i) - o_open (get h i))).
  Definition pok (p : dec) : Prop := 0 < p <= P.

  Lemma wt_nonneg h i : wf_heap h -> (i < length h)%nat -> 0 <= wt (get h i).
  Proof. intros Hw Hi. destruct (Hw i Hi) as (_ & A & B & _). unfold wt. lia. Qed.
  Lemma small_wt h i : small h -> (i < length h)%nat -> 0 <= wt (get h i) <= W.
  Proof.
    intros (Hw & Hs & _) Hi. split; [exact (wt_nonneg h i Hw Hi)|].
    pose proof (heap_sub_sum wt h [i]) as X. cbn [map] in X. rewrite sumZ_cons in X. change (sumZ []) with 0 in X.
    specialize (X ltac:(constructor; [intros []|constructor]) ltac:(intros p [<-|[]]; exact Hi) ltac:(intros j Hj; exact (wt_nonneg h j Hw Hj))). lia.
  Qed.
  Lemma small_sum (f : order -> Z) h ps : small h -> inr h ps -> (forall i, (i < length h)%nat -> 0 <= f (get h i) <= wt (get h i)) -> sumZ (map (fun p => f (get h p)) ps) <= W.
  Proof.
    intros (Hw & Hs & _) [N R] F. pose proof (heap_sub_sum f h ps N R (fun i Hi => proj1 (F i Hi))) as A.
    assert (B : sumZ (map f h) <= sumZ (map wt h)).
    { rewrite !heap_sum. apply sumZ_map_le. intros p Hp. apply in_seq in Hp. apply F. lia. }
    lia.
  Qed.
  Lemma potv_nonneg h i : wf_heap h -> (i < length h)%nat -> 0 <= potv (get h i).
  Proof. intros Hw Hi. destruct (Hw i Hi) as (_ & _ & B & C & _). unfold potv. destruct (o_dir _); lia. Qed.
  Lemma pot_bound h : small h -> 0 <= pot h < 2 ^ 255.
  Proof.
    intros Sm. pose proof Sm as (Hw & Hs & Hr). split.
    - unfold pot. rewrite heap_sum. apply sumZ_map_nonneg. intros p Hp. apply in_seq in Hp. apply potv_nonneg; [exact Hw|lia].
    - destruct (Z_lt_le_dec P 0) as [Np|Np].
      + (* P negative cannot be used; every order is then unfilled in quote terms *)
        assert (A : pot h * P18 <= P18 * W).
        { unfold pot. rewrite heap_sum. rewrite <- Z.mul_comm, <- sumZ_map_mul. apply Z.le_trans with (P18 * sumZ (map wt h)); [|pose proof P18_pos; nia].
          rewrite heap_sum, <- sumZ_map_mul. apply sumZ_map_le. intros p Hp. apply in_seq in Hp. assert (Hi : (p < length h)%nat) by lia. pose proof P18_pos as Pp.
          destruct (Hw p Hi) as (_ & A & B & C & _). specialize (Hr p Hi). unfold potv, wt. destruct (o_dir (get h p)); nia. }
        pose proof P18_pos. assert (pot h <= W) by nia. apply Z.le_lt_trans with W; [assumption|]. apply Z.lt_trans with (2 ^ 195); [lia|reflexivity].
      + assert (A : pot h * P18 <= (P + P18) * W).
        { unfold pot. rewrite heap_sum. rewrite <- Z.mul_comm, <- sumZ_map_mul. pose proof P18_pos as Pp. apply Z.le_trans with ((P + P18) * sumZ (map wt h)); [|nia].
          rewrite heap_sum, <- sumZ_map_mul. apply sumZ_map_le. intros p Hp. apply in_seq in Hp. assert (Hi : (p < length h)%nat) by lia.
          destruct (Hw p Hi) as (_ & A & B & C & _). specialize (Hr p Hi). unfold potv, wt. destruct (o_dir (get h p)); nia. }
        assert (B : P18 * W < 2 ^ 255) by (apply Z.lt_le_trans with (P18 * 2 ^ 195); [pose proof P18_pos; nia|vm_compute; discriminate]).
        assert (C : 2 ^ 314 + 2 ^ 255 <= 2 ^ 255 * P18) by (vm_compute; discriminate).
        destruct (Z_lt_le_dec (pot h) (2 ^ 255)) as [L|L]; [exact L|]. exfalso. pose proof P18_pos. nia.
  Qed.

  Lemma W256 : W < 2 ^ 256. Proof. apply Z.lt_trans with (2 ^ 195); [lia|reflexivity]. Qed.
  Lemma add_ok a b : 0 <= a -> 0 <= b -> a + b <= W -> of_res (i_add a b) = Some (a + b).
  Proof. intros A B C. apply fits_int. pose proof W256. lia. Qed.
  Lemma sub_ok a b : 0 <= a <= W -> 0 <= b <= W -> of_res (i_sub a b) = Some (a - b).
  Proof. intros A B. apply fits_int. pose proof W256. lia. Qed.
  Lemma mul_ok p a : 0 <= p <= P -> 0 <= a <= W -> of_res (c_mul_int p a) = Some (p * a) /\ Z.abs (p * a) < 2 ^ 314.
  Proof.
    intros Hp Ha. assert (0 <= p * a <= P * W) by nia. assert (Z.abs (p * a) < 2 ^ 314) by (rewrite Z.abs_eq; lia). split; [|assumption].
    apply fits_dec. apply Z.lt_trans with (2 ^ 314); [assumption|reflexivity].
  Qed.
  Lemma trunc_ok v : 0 <= v < 2 ^ 314 -> of_res (c_trunc v) = Some (dtrunc v).
  Proof.
    intros H. apply fits_int. unfold dtrunc, chop_trunc. pose proof P18_pos. rewrite Z.quot_div_nonneg by lia.
    assert (0 <= v / P18 <= v) by (split; [apply Z.div_pos; lia|apply Z.div_le_upper_bound; nia]).
    rewrite Z.abs_eq by lia. apply Z.div_lt_upper_bound; [lia|]. apply Z.lt_trans with (2 ^ 314); [lia|reflexivity].
  Qed.
  Lemma trunc_ceil_ok v : 0 <= v < 2 ^ 314 -> of_res (c_trunc (dceil v)) = Some (dtrunc (dceil v)).
  Proof.
    intros H. apply fits_int. unfold dtrunc, dceil, chop_trunc. pose proof P18_pos. rewrite (Z.quot_div_nonneg v), (Z.rem_mod_nonneg v) by lia.
    assert (A : 0 <= v / P18 < 2 ^ 255).
    { split; [apply Z.div_pos; lia|]. apply Z.div_lt_upper_bound; [lia|]. apply Z.lt_trans with (2 ^ 314); [lia|reflexivity]. }
    change (2 ^ 256) with (2 * 2 ^ 255). set (B := 2 ^ 255) in *. destruct (_ <=? 0); rewrite Z.quot_mul by lia; lia.
  Qed.

  Lemma quo_ok r p : 0 <= r <= W -> 0 < p -> of_res (c_quo_trunc (of_int r) p) = Some (dquo_trunc (of_int r) p) /\ of_res (c_trunc (dquo_trunc (of_int r) p)) = Some (dtrunc (dquo_trunc (of_int r) p)).
  Proof.
    intros Hr Hp. pose proof P18_pos as Pp. unfold c_quo_trunc, dquo_trunc, of_int, chop_trunc. destruct (Z.eqb_spec p 0); [lia|].
    rewrite (Z.quot_div_nonneg (r * P18 * P18 * P18)) by nia. rewrite Z.quot_div_nonneg by (try apply Z.div_pos; nia).
    set (x := r * P18 * P18 * P18 / p / P18).
    assert (A : 0 <= x <= r * P18 * P18).
    { unfold x. split; [apply Z.div_pos; [apply Z.div_pos; nia|lia]|]. apply Z.div_le_upper_bound; [lia|]. apply Z.div_le_upper_bound; [lia|]. assert (0 <= r * P18 * P18 * P18) by nia. nia. }
    assert (B : r * P18 * P18 < 2 ^ 315).
    { apply Z.le_lt_trans with (2 ^ 195 * (P18 * P18)); [nia|reflexivity]. }
    assert (C : x / P18 < 2 ^ 256).
    { apply Z.div_lt_upper_bound; [lia|]. apply Z.lt_trans with (2 ^ 315); [lia|reflexivity]. }
    split; [apply fits_dec; rewrite Z.abs_eq by lia; lia|]. apply fits_int. unfold dtrunc, chop_trunc. rewrite Z.quot_div_nonneg by lia.
    rewrite Z.abs_eq; [exact C|apply Z.div_pos; lia].
  Qed.

  Lemma matchable_total o p : wf_order o -> wt o <= W -> pok p -> matchable_c o p = Some (matchable_amount o p) /\ 0 <= matchable_amount o p <= wt o.
  Proof.
    intros Hw Hs [Hp HP]. pose proof (matchable_le_open o p Hw Hp) as Hm. pose proof Hw as (_ & A & B & _). unfold wt in Hs. split; [|unfold wt; lia].
    unfold matchable_c, matchable_amount. destruct (o_dir o) eqn:Ed.
    - rewrite sub_ok by lia. destruct (quo_ok (o_offer o - o_paid o) p ltac:(lia) Hp) as [-> ->].
      set (m := Z.min (o_open o) (dtrunc (dquo_trunc (of_int (o_offer o - o_paid o)) p))).
      assert (Hq : 0 <= dtrunc (dquo_trunc (of_int (o_offer o - o_paid o)) p)).
      { unfold dtrunc, dquo_trunc, of_int, chop_trunc. pose proof P18_pos. assert (0 <= (o_offer o - o_paid o) * P18 * P18 * P18) by (repeat apply Z.mul_nonneg_nonneg; lia). repeat (apply Z.quot_pos; [|lia]). assumption. }
      destruct (mul_ok p m ltac:(lia) ltac:(unfold m; lia)) as [-> L]. rewrite trunc_ok by nia. reflexivity.
    - destruct (mul_ok p (o_open o) ltac:(lia) ltac:(lia)) as [-> L]. rewrite trunc_ok by nia. reflexivity.
  Qed.
  Lemma matchable_heap h i p : small h -> (i < length h)%nat -> pok p -> matchable_c (get h i) p = Some (matchable_amount (get h i) p) /\ 0 <= matchable_amount (get h i) p <= wt (get h i).
  Proof. intros Sm Hi Hp. apply matchable_total; [exact (proj1 Sm i Hi)|exact (proj2 (small_wt h i Sm Hi))|exact Hp]. Qed.

  Lemma sum_c_total f (g : nat -> Z) : forall ps acc, (forall p, In p ps -> f p = Some (g p) /\ 0 <= g p) -> 0 <= acc -> acc + sumZ (map g ps) <= W -> sum_c f ps acc = Some (acc + sumZ (map g ps)).
  Proof.
    induction ps as [|p ps IH]; intros acc Hf Ha Hs; cbn [sum_c map]; [f_equal; change (sumZ []) with 0; lia|].
    cbn [map] in Hs. rewrite sumZ_cons in *. destruct (Hf p (or_introl eq_refl)) as [-> G].
    assert (0 <= sumZ (map g ps)) by (apply sumZ_map_nonneg; intros q Hq; apply Hf; right; exact Hq).
    rewrite add_ok by lia. rewrite IH; [f_equal; lia|intros q Hq; apply Hf; right; exact Hq|lia|lia].
  Qed.
  Lemma total_matchable_bound h ps p : small h -> inr h ps -> pok p -> 0 <= total_matchable h ps p <= W.
  Proof.
    intros Sm R Hp. rewrite total_matchable_sum. split.
    - apply sumZ_map_nonneg. intros q Hq. apply (matchable_heap h q p Sm (proj2 R q Hq) Hp).
    - apply (small_sum (fun o => matchable_amount o p) h ps Sm R). intros i Hi. apply (matchable_heap h i p Sm Hi Hp).
  Qed.
  Lemma total_matchable_total h ps p : small h -> inr h ps -> pok p -> total_matchable_c h ps p = Some (total_matchable h ps p).
  Proof.
    intros Sm R Hp. pose proof (total_matchable_bound h ps p Sm R Hp) as B. rewrite total_matchable_sum in *. unfold total_matchable_c.
    rewrite (sum_c_total _ (fun q => matchable_amount (get h q) p)); [reflexivity| |lia|lia].
    intros q Hq. destruct (matchable_heap h q p Sm (proj2 R q Hq) Hp). auto with zarith.
  Qed.
  Lemma total_amount_bound h ps : small h -> inr h ps -> 0 <= total_amount h ps <= W.
  Proof.
    intros Sm R. rewrite total_amount_sum. pose proof Sm as (Hw & _). split.
    - apply sumZ_map_nonneg. intros q Hq. destruct (Hw q (proj2 R q Hq)) as (_ & A & _). lia.
    - apply (small_sum o_amt h ps Sm R). intros i Hi. destruct (Hw i Hi) as (_ & A & B & _). unfold wt. lia.
  Qed.
  Lemma total_amount_total h ps : small h -> inr h ps -> total_amount_c h ps = Some (total_amount h ps).
  Proof.
    intros Sm R. pose proof (total_amount_bound h ps Sm R) as B. rewrite total_amount_sum in *. unfold total_amount_c.
    rewrite (sum_c_total _ (fun q => o_amt (get h q))); [reflexivity| |lia|lia].
    intros q Hq. destruct (proj1 Sm q (proj2 R q Hq)) as (_ & A & _). split; [reflexivity|lia].
  Qed.

  (** What every filling function guarantees: it answers, keeps the heap small and changes the
      difference by at most what was filled. *)
  Definition good (h : heap) (qd : Z) (r : option (heap * Z)) : Prop :=
    exists h' q, r = Some (h', q) /\ small h' /\ heap_static h h' /\ Z.abs (q - qd) <= pot h' - pot h.
  Lemma inr_static h h' ps : heap_static h h' -> inr h ps -> inr h' ps.
  Proof. intros [L _] [N R]. split; [exact N|]. rewrite L. exact R. Qed.
  Lemma inr_app h ps qs : inr h (ps ++ qs) -> inr h ps /\ inr h qs.
  Proof.
    intros [N R]. destruct (NoDup_app_inv _ _ N) as (N1 & N2 & _). split; (split; [assumption|]); intros p Hp; apply R; apply in_app_iff; auto.
  Qed.
  Lemma inr_sub h ps qs : inr h ps -> incl qs ps -> NoDup qs -> inr h qs.
  Proof. intros [N R] I N'. split; [exact N'|]. intros p Hp. apply R, I, Hp. Qed.
  Lemma qd_ok h qd : small h -> Z.abs qd <= pot h -> of_res (chk_int qd) = Some qd.
  Proof. intros Sm H. apply fits_int. pose proof (pot_bound h Sm) as [_ B]. change (2 ^ 256) with (2 * 2 ^ 255). set (X := 2 ^ 255) in *. lia. Qed.

  Lemma fill_total h p a price : small h -> (p < length h)%nat -> pok price -> 0 <= a <= matchable_amount (get h p) price ->
    good h 0 (fill_order_c h p a price) /\ fill_order_c h p a price = Some (upd h p (filled (get h p) a price), fill_diff (get h p) a price).
  Proof.
    intros Sm Hi Hp Ha. pose proof (small_wt h p Sm Hi) as Hwt. destruct (matchable_heap h p price Sm Hi Hp) as [Em Hm].
    pose proof Sm as (Hw & Hs & Hr). pose proof (Hw p Hi) as (_ & A & B & C & D). specialize (Hr p Hi). destruct Hp as [Hp HP]. pose proof P18_pos as Pp.
    pose proof (matchable_le_open (get h p) price (Hw p Hi) Hp) as Ho.
    pose proof (filled_wf (get h p) a price (Hw p Hi) Hp ltac:(lia)) as Fw.
    assert (Pa : 0 <= price * a) by nia.
    pose proof (fill_paid_val (get h p) a price Pa) as Vp. pose proof (fill_recv_val (get h p) a price Pa) as Vr.
    set (h' := upd h p (filled (get h p) a price)).
    assert (St : heap_static h h') by (apply upd_static; exact Hi).
    assert (Ws : sumZ (map wt h') = sumZ (map wt h)).
    { unfold h'. rewrite heap_sum_upd by exact Hi. unfold wt at 2 3. cbn [filled o_amt o_offer]. lia. }
    assert (Rb : (o_recv (get h p) + fill_recv (get h p) a price) * P18 <= (P + P18) * (o_amt (get h p) - (o_open (get h p) - a))).
    { rewrite Vr. destruct (o_dir (get h p)); [nia|]. pose proof (floor_value_bounds price a). nia. }
    assert (Sm' : small h').
    { split; [|split; [lia|]].
      - intros i Li. unfold h' in *. rewrite upd_length in Li. destruct (Nat.eq_dec p i) as [<-|Ne]; [rewrite get_upd_same by exact Hi; exact Fw|rewrite get_upd_other by exact Ne; exact (Hw i Li)].
      - intros i Li. unfold h' in *. rewrite upd_length in Li. destruct (Nat.eq_dec p i) as [<-|Ne].
        + rewrite get_upd_same by exact Hi. cbn [filled o_recv o_amt o_open]. exact Rb.
        + rewrite get_upd_other by exact Ne. exact (proj2 (proj2 Sm) i Li). }
    assert (Pt : pot h' = pot h + match o_dir (get h p) with Buy => fill_paid (get h p) a price | Sell => fill_recv (get h p) a price end).
    { unfold pot, h'. rewrite heap_sum_upd by exact Hi. unfold potv at 2 3. cbn [filled o_dir o_paid o_recv]. destruct (o_dir (get h p)); lia. }
    assert (Dp : Z.abs (fill_diff (get h p) a price) = pot h' - pot h).
    { rewrite Pt. unfold fill_diff. destruct (o_dir (get h p)) eqn:Ed.
      - rewrite Vp. pose proof (ceil_value_bounds price a). assert (0 <= ceil_value price a) by nia. lia.
      - rewrite Vr. pose proof (floor_value_bounds price a). assert (0 <= floor_value price a) by nia. lia. }
    assert (E : fill_order_c h p a price = Some (h', fill_diff (get h p) a price)).
    { unfold fill_order_c. cbv zeta. rewrite Em. destruct (Z.ltb_spec (matchable_amount (get h p) price) a); [lia|].
      destruct (mul_ok price a ltac:(lia) ltac:(lia)) as [-> L]. rewrite Z.abs_eq in L by lia.
      pose proof W256 as W2. pose proof (Fw) as (_ & A' & B' & C' & D'). cbn [filled o_open o_amt o_paid o_offer o_recv o_dir] in A', B', C', D'. unfold wt in Hwt.
      assert (Rv : o_recv (get h p) + fill_recv (get h p) a price < 2 ^ 256).
      { assert ((o_recv (get h p) + fill_recv (get h p) a price) * P18 <= (P + P18) * W) by nia.
        assert (X1 : P18 * W < 2 ^ 255) by (apply Z.lt_le_trans with (P18 * 2 ^ 195); [nia|vm_compute; discriminate]).
        assert (X2 : 2 ^ 314 + 2 ^ 255 <= 2 ^ 256 * P18) by (vm_compute; discriminate). nia. }
      unfold h', filled. unfold fill_diff, fill_paid, fill_recv in *. unfold dmul_int in *.
      destruct (o_dir (get h p)) eqn:Ed.
      - rewrite trunc_ceil_ok by lia. unfold i_add, i_sub. rewrite !fits_int by lia. reflexivity.
      - rewrite trunc_ok by lia. unfold i_add, i_sub. rewrite !fits_int by lia. reflexivity. }
    split; [|exact E]. exists h', (fill_diff (get h p) a price). split; [exact E|]. split; [exact Sm'|]. split; [exact St|]. rewrite Z.sub_0_r. lia.
  Qed.

  Lemma good_refl h qd : small h -> good h qd (Some (h, qd)).
  Proof. intros Sm. exists h, qd. split; [reflexivity|]. split; [exact Sm|]. split; [apply heap_static_refl|]. rewrite Z.sub_diag. cbn. lia. Qed.
  (** Chaining: a step from [h], its difference added to [qd], and the continuation. *)
  Lemma good_step h qd r (k : heap -> Z -> option (heap * Z)) : small h -> Z.abs qd <= pot h -> good h 0 r ->
    (forall h1 q1, small h1 -> heap_static h h1 -> Z.abs q1 <= pot h1 -> good h1 q1 (k h1 q1)) ->
    good h qd (do x <- r; do q <- of_res (i_add qd (snd x)); k (fst x) q).
  Proof.
    intros Sm Q (h1 & d & -> & Sm1 & St1 & D1) K. rewrite Z.sub_0_r in D1. cbn [fst snd]. unfold i_add. rewrite (qd_ok h1 (qd + d) Sm1) by lia.
    destruct (K h1 (qd + d) Sm1 St1 ltac:(lia)) as (h2 & q & E & Sm2 & St2 & D2). exists h2, q. split; [exact E|]. split; [exact Sm2|]. split; [exact (heap_static_trans _ _ _ St1 St2)|lia].
  Qed.

  Lemma fulfill_total h p price : small h -> (p < length h)%nat -> pok price -> good h 0 (fulfill_order_c h p price).
  Proof.
    intros Sm Hi Hp. unfold fulfill_order_c. destruct (matchable_heap h p price Sm Hi Hp) as [-> M].
    destruct (Z.ltb_spec 0 (matchable_amount (get h p) price)); [|exact (good_refl h 0 Sm)]. apply fill_total; [exact Sm|exact Hi|exact Hp|lia].
  Qed.
  Lemma fulfills_total price : pok price -> forall ps h qd, small h -> inr h ps -> Z.abs qd <= pot h -> good h qd (fulfill_orders_c h ps price qd).
  Proof.
    intros Hp. induction ps as [|p ps IH]; intros h qd Sm R Q; cbn [fulfill_orders_c]; [exact (good_refl h qd Sm)|].
    apply (inr_app h [p] ps) in R. destruct R as [R1 R2].
    apply (good_step h qd _ (fun h1 q1 => fulfill_orders_c h1 ps price q1) Sm Q); [exact (fulfill_total h p price Sm (proj2 R1 p (or_introl eq_refl)) Hp)|].
    intros h1 q1 Sm1 St1 Q1. exact (IH h1 q1 Sm1 (inr_static _ _ _ St1 R2) Q1).
  Qed.
  Lemma fill_list_total price : pok price -> forall l h qd, small h -> inr h (map fst l) -> (forall p m, In (p, m) l -> 0 <= m <= matchable_amount (get h p) price) ->
    Z.abs qd <= pot h -> good h qd (fill_list_c h price l qd).
  Proof.
    intros Hp. induction l as [|[p m] l IH]; intros h qd Sm R B Q; cbn [fill_list_c]; [exact (good_refl h qd Sm)|]. cbn [map fst] in R.
    pose proof (proj1 R) as N. inversion N as [|p' l' Np N']; subst. apply (inr_app h [p] (map fst l)) in R. destruct R as [R1 R2].
    destruct (fill_total h p m price Sm (proj2 R1 p (or_introl eq_refl)) Hp (B p m (or_introl eq_refl))) as [G E].
    destruct G as (h1 & d & E1 & Sm1 & St1 & D1). rewrite E1. rewrite E in E1. injection E1 as <- <-. cbn [fst snd]. rewrite Z.sub_0_r in D1.
    set (h1 := upd h p (filled (get h p) m price)) in *. set (d := fill_diff (get h p) m price) in *. unfold i_add. rewrite (qd_ok h1 (qd + d) Sm1) by lia.
    destruct (IH h1 (qd + d) Sm1 (inr_static _ _ _ St1 R2)) as (h2 & q & E2 & Sm2 & St2 & D2); [|lia|].
    - intros q n Hq. assert (p <> q) by (intros ->; apply Np; apply in_map_iff; exists (q, n); auto). unfold h1. rewrite get_upd_other by assumption. apply B. right. exact Hq.
    - exists h2, q. split; [exact E2|]. split; [exact Sm2|]. split; [exact (heap_static_trans _ _ _ St1 St2)|lia].
  Qed.

  Lemma side_total_total h mp : small h -> pok mp -> forall ts acc, inr h (flat_map snd ts) -> 0 <= acc -> acc + total_matchable h (flat_map snd ts) mp <= W ->
    side_total_c h mp ts acc = Some (acc + total_matchable h (flat_map snd ts) mp).
  Proof.
    intros Sm Hp. induction ts as [|t ts IH]; intros acc R A B; cbn [side_total_c flat_map] in *; [f_equal; change (total_matchable h [] mp) with 0; lia|].
    destruct (inr_app _ _ _ R) as [R1 R2]. rewrite total_matchable_app in *. rewrite (total_matchable_total h _ mp Sm R1 Hp).
    pose proof (total_matchable_bound h _ mp Sm R1 Hp). pose proof (total_matchable_bound h _ mp Sm R2 Hp).
    rewrite add_ok by lia. rewrite (IH _ R2) by lia. f_equal. lia.
  Qed.
  Lemma side_step_total h mp sl st tot other : small h -> pok mp -> inr h (flat_map snd st) -> 0 <= tot <= W -> 0 <= other <= W ->
    total_matchable h (flat_map snd st) mp = tot -> side_step_c h mp sl st tot other = Some (side_step h mp sl st tot other).
  Proof.
    intros Sm Hp R Ht Ho E. unfold side_step_c, side_step. destruct st as [|t r]; [reflexivity|]. cbv zeta. cbn [flat_map] in *.
    destruct (inr_app _ _ _ R) as [R1 R2]. rewrite total_matchable_app in E. pose proof (total_matchable_bound h _ mp Sm R1 Hp). pose proof (total_matchable_bound h _ mp Sm R2 Hp).
    rewrite (total_matchable_total h _ mp Sm R1 Hp). rewrite sub_ok by lia. rewrite sub_ok by lia.
    set (a := total_matchable h (snd t) mp) in *. set (m := Z.min tot other).
    destruct (Z.leb_spec m (tot - a)) as [L|L]; cbn [orb].
    - destruct r; reflexivity.
    - destruct sl; cbn [andb]; [|reflexivity]. destruct Hp as [Hp HP]. destruct (mul_ok mp (m - (tot - a)) ltac:(lia) ltac:(lia)) as [-> Lm].
      rewrite trunc_ok by nia. unfold dmul_int. destruct (_ =? 0); [destruct r; reflexivity|reflexivity].
  Qed.
  Lemma side_step_keeps h mp sl st tot other st' tot' m b : small h -> pok mp -> inr h (flat_map snd st) -> total_matchable h (flat_map snd st) mp = tot ->
    side_step h mp sl st tot other = Some (st', tot', m, b) -> inr h (flat_map snd st') /\ total_matchable h (flat_map snd st') mp = tot' /\ m = Z.min tot other /\ (b = true -> length st = S (length st')) /\ (b = false -> st' = st).
  Proof.
    intros Sm Hp R E. unfold side_step. destruct st as [|t r]; [discriminate|]. cbv zeta. cbn [flat_map] in *. destruct (inr_app _ _ _ R) as [R1 R2]. pose proof (total_matchable_app h (snd t) (flat_map snd r) mp) as Ea.
    destruct (_ || _); [destruct r as [|u r]; [discriminate|]|]; intros X; injection X as <- <- <- <-.
    - split; [exact R2|]. split; [lia|]. split; [reflexivity|]. split; [reflexivity|discriminate].
    - split; [exact R|]. split; [exact E|]. split; [reflexivity|]. split; [discriminate|reflexivity].
  Qed.
  Lemma single_loop_total h mp : small h -> pok mp -> forall fuel bst sst bt st, inr h (flat_map snd bst) -> inr h (flat_map snd sst) ->
    total_matchable h (flat_map snd bst) mp = bt -> total_matchable h (flat_map snd sst) mp = st ->
    single_loop_c fuel h mp bst sst bt st = single_loop fuel h mp bst sst bt st /\ (forall m, single_loop fuel h mp bst sst bt st = Some (Some m) -> 0 <= m <= W).
  Proof.
    intros Sm Hp. induction fuel as [|k IH]; intros bst sst bt st Rb Rs Eb Es; cbn [single_loop_c single_loop]; [split; [reflexivity|discriminate]|].
    pose proof (total_matchable_bound h _ mp Sm Rb Hp) as Bb. pose proof (total_matchable_bound h _ mp Sm Rs Hp) as Bs. rewrite Eb in Bb. rewrite Es in Bs.
    rewrite (side_step_total h mp false bst bt st Sm Hp Rb Bb Bs Eb).
    destruct (side_step h mp false bst bt st) as [[[[bst' bt'] mb] bd]|] eqn:E1; [|split; [reflexivity|discriminate]].
    destruct (side_step_keeps _ _ _ _ _ _ _ _ _ _ Sm Hp Rb Eb E1) as (Rb' & Eb' & _). pose proof (total_matchable_bound h _ mp Sm Rb' Hp) as Bb'. rewrite Eb' in Bb'.
    rewrite (side_step_total h mp true sst st bt' Sm Hp Rs Bs Bb' Es).
    destruct (side_step h mp true sst st bt') as [[[[sst' st'] m] sd]|] eqn:E2; [|split; [reflexivity|discriminate]].
    destruct (side_step_keeps _ _ _ _ _ _ _ _ _ _ Sm Hp Rs Es E2) as (Rs' & Es' & Em & _).
    destruct (negb bd && negb sd); [split; [reflexivity|intros x X; injection X as <-; lia]|]. exact (IH bst' sst' bt' st' Rb' Rs' Eb' Es').
  Qed.
  Lemma flat_map_rev (ts : list (dec * list nat)) : Permutation (flat_map snd (rev ts)) (flat_map snd ts).
  Proof. apply Permutation_flat_map, Permutation_sym, Permutation_rev. Qed.
  Lemma inr_perm h ps qs : Permutation ps qs -> inr h ps -> inr h qs.
  Proof. intros Pm [N R]. split; [exact (Permutation_NoDup Pm N)|]. intros p Hp. apply R. exact (Permutation_in p (Permutation_sym Pm) Hp). Qed.
  Lemma inr_prefix h inc mp ts : inr h (flat_map snd ts) -> inr h (flat_map snd (side_prefix inc mp ts)).
  Proof. intros R. destruct (side_prefix_app inc mp ts) as (rest & E). rewrite E in R. rewrite flat_map_app in R. exact (proj1 (inr_app _ _ _ R)). Qed.
  Definition book_inr (h : heap) (ob : book) : Prop := inr h (flat_map snd (buys ob)) /\ inr h (flat_map snd (sells ob)).
  Lemma find_matchable_total h ob mp : small h -> pok mp -> book_inr h ob ->
    find_matchable_single_c h ob mp = find_matchable_single h ob mp /\ (forall m, find_matchable_single h ob mp = Some (Some m) -> 0 <= m <= W).
  Proof.
    intros Sm Hp [Rb Rs]. unfold find_matchable_single_c, find_matchable_single. cbv zeta.
    pose proof (inr_prefix h false mp _ Rb) as Rb'. pose proof (inr_prefix h true mp _ Rs) as Rs'. set (bs := side_prefix false mp (buys ob)) in *. set (ss := side_prefix true mp (sells ob)) in *.
    pose proof (total_matchable_bound h _ mp Sm Rb' Hp). pose proof (total_matchable_bound h _ mp Sm Rs' Hp).
    rewrite (side_total_total h mp Sm Hp bs 0 Rb') by lia. rewrite (side_total_total h mp Sm Hp ss 0 Rs') by lia. rewrite !Z.add_0_l.
    pose proof (single_loop_total h mp Sm Hp (S (length bs + length ss)) (rev bs) (rev ss) (total_matchable h (flat_map snd bs) mp) (total_matchable h (flat_map snd ss) mp)
      (inr_perm _ _ _ (Permutation_sym (flat_map_rev bs)) Rb') (inr_perm _ _ _ (Permutation_sym (flat_map_rev ss)) Rs') (total_matchable_perm _ _ _ _ (flat_map_rev bs)) (total_matchable_perm _ _ _ _ (flat_map_rev ss))) as X.
    rewrite !side_total_sum. destruct bs as [|b bs]; [split; [reflexivity|discriminate]|]. destruct ss as [|s ss]; [split; [reflexivity|discriminate]|]. exact X.
  Qed.

  Lemma first_shares_total h price amt total : small h -> pok price -> 0 <= amt <= W -> total <= W -> forall ps acc,
    (forall p, In p ps -> (p < length h)%nat /\ o_amt (get h p) <= total) -> 0 <= acc ->
    acc + sumZ (map (fun p => matchable_amount (get h p) price) ps) <= W ->
    exists a, first_shares_c h price amt total ps acc = Some (map (fun p => (p, first_share h price amt total p)) ps, a) /\
      acc <= a /\ a = acc + alloc_sum (map (fun p => (p, first_share h price amt total p)) ps).
  Proof.
    intros Sm Hp Ha Ht. induction ps as [|p ps IH]; intros acc R A S; cbn [first_shares_c map] in *.
    - exists acc. split; [reflexivity|]. split; [lia|]. change (alloc_sum []) with 0. lia.
    - rewrite sumZ_cons in S. destruct (R p (or_introl eq_refl)) as [Hi Hle]. destruct (matchable_heap h p price Sm Hi Hp) as [-> M].
      assert (0 <= sumZ (map (fun p => matchable_amount (get h p) price) ps)) by (apply sumZ_map_nonneg; intros q Hq; apply (matchable_heap h q price Sm (proj1 (R q (or_intror Hq))) Hp)).
      pose proof (first_share_bounds h price amt total p (proj1 Sm) (proj1 Hp) Hi (proj1 Ha) Hle) as [B _]. cbv zeta in B.
      assert (E : (if matchable_amount (get h p) price =? 0 then Some None
               else do q <- of_res (c_quo_trunc (of_int (o_amt (get h p))) (of_int total)); do v <- of_res (c_mul_int q amt); do x <- of_res (c_trunc v);
                    let y := Z.min (matchable_amount (get h p) price) x in Some (if 0 <? y then Some y else None)) = Some (first_share h price amt total p)).
      { unfold first_share. destruct (Z.eqb_spec (matchable_amount (get h p) price) 0) as [E0|E0]; [reflexivity|].
        pose proof P18_pos as Pp. destruct (proj1 Sm p Hi) as (_ & O & _). pose proof (matchable_le_open (get h p) price (proj1 Sm p Hi) (proj1 Hp)).
        assert (T : 0 < total) by lia.
        unfold c_quo_trunc. destruct (Z.eqb_spec (of_int total) 0) as [Z0|Z0]; [unfold of_int in Z0; nia|].
        assert (Q : 0 <= dquo_trunc (of_int (o_amt (get h p))) (of_int total) <= P18).
        { unfold dquo_trunc, of_int, chop_trunc. set (x := o_amt (get h p)) in *.
          replace (x * P18 * P18 * P18) with (x * P18 * P18 * P18) by reflexivity.
          rewrite (Z.quot_div_nonneg (x * P18 * P18 * P18)) by (try nia; repeat apply Z.mul_nonneg_nonneg; lia).
          assert (Y : 0 <= x * P18 * P18 * P18 / (total * P18) <= P18 * P18).
          { split; [apply Z.div_pos; [repeat apply Z.mul_nonneg_nonneg; lia|nia]|]. apply Z.div_le_upper_bound; [nia|].
            replace (x * P18 * P18 * P18) with (x * (P18 * P18 * P18)) by ring. replace (total * P18 * (P18 * P18)) with (total * (P18 * P18 * P18)) by ring. apply Z.mul_le_mono_nonneg_r; [|lia]. repeat apply Z.mul_nonneg_nonneg; lia. }
          rewrite Z.quot_div_nonneg by lia. split; [apply Z.div_pos; lia|apply Z.div_le_upper_bound; lia]. }
        set (q := dquo_trunc (of_int (o_amt (get h p))) (of_int total)) in *.
        rewrite fits_dec by (rewrite Z.abs_eq by lia; apply Z.le_lt_trans with P18; [lia|reflexivity]).
        assert (V : 0 <= q * amt < 2 ^ 314).
        { split; [nia|]. apply Z.le_lt_trans with (P18 * 2 ^ 195); [nia|reflexivity]. }
        unfold c_mul_int, dmul_int. rewrite fits_dec by (rewrite Z.abs_eq by lia; apply Z.lt_trans with (2 ^ 314); [lia|reflexivity]).
        rewrite trunc_ok by exact V. reflexivity. }
      cbv zeta in E; cbv zeta; rewrite E. set (e := first_share h price amt total p) in *.
      assert (E2 : (match e with Some y => of_res (i_add acc y) | None => Some acc end) = Some (acc + opt_or0 e)).
      { destruct e as [y|]; cbn [opt_or0] in *; [apply add_ok; lia|f_equal; lia]. }
      rewrite E2. destruct (IH (acc + opt_or0 e) (fun q Hq => R q (or_intror Hq)) ltac:(lia) ltac:(lia)) as (a & -> & L & ->).
      cbn [fst snd]. eexists. split; [reflexivity|]. unfold alloc_sum in *. cbn [map snd]. rewrite sumZ_cons. split; [lia|]. lia.
  Qed.
  Lemma second_share_total h price : small h -> pok price -> forall l rem, 0 <= rem <= W ->
    (forall p m, In (p, m) l -> (p < length h)%nat /\ 0 <= opt_or0 m <= matchable_amount (get h p) price) ->
    second_share_c h price rem l = Some (second_share h price rem l).
  Proof.
    intros Sm Hp. induction l as [|[p m] l IH]; intros rem Hr B; cbn [second_share_c second_share]; [reflexivity|].
    destruct (rem =? 0); [reflexivity|]. destruct (B p m (or_introl eq_refl)) as [Hi Bm]. destruct (matchable_heap h p price Sm Hi Hp) as [-> M]. pose proof (small_wt h p Sm Hi).
    rewrite sub_ok by lia. rewrite add_ok by lia. rewrite sub_ok by lia. rewrite IH; [reflexivity|lia|intros q n Hq; apply B; right; exact Hq].
  Qed.
  Lemma split_shares_total h price : small h -> pok price -> forall l, (forall p m, In (p, m) l -> 0 <= opt_or0 m <= W) ->
    split_shares_c h price l = Some (filter (share_ok h price) l, filter (fun pm => negb (share_ok h price pm)) l).
  Proof.
    intros Sm [Hp HP]. induction l as [|[p m] l IH]; intros B; cbn [split_shares_c filter]; [reflexivity|]. cbv zeta. cbn [fst snd].
    specialize (IH (fun q n Hq => B q n (or_intror Hq))). specialize (B p m (or_introl eq_refl)).
    assert (E : (if opt_or0 m =? 0 then Some false else if is_buy (o_dir (get h p)) then Some true else do v <- of_res (c_mul_int price (opt_or0 m)); do x <- of_res (c_trunc v); Some (0 <? x)) = Some (share_ok h price (p, m))).
    { unfold share_ok. cbn [fst snd]. destruct (opt_or0 m =? 0); [reflexivity|]. cbn [negb andb]. destruct (is_buy (o_dir (get h p))); [reflexivity|]. cbn [orb].
      destruct (mul_ok price (opt_or0 m) ltac:(lia) B) as [-> L]. rewrite trunc_ok by nia. reflexivity. }
    rewrite E, IH. cbn [fst snd]. destruct (share_ok h price (p, m)); reflexivity.
  Qed.

  Section Iter.
  Variable iter : list (nat * Z) -> list (nat * Z).
  Hypothesis Hiter : is_perm_iter iter.

  Lemma dist_orders_total price : pok price -> forall fuel h ps amt, small h -> inr h ps -> (length ps < fuel)%nat -> 0 <= amt <= W -> good h 0 (dist_orders_c iter fuel h ps amt price).
  Proof.
    intros Hp. induction fuel as [|fuel IH]; intros h ps amt Sm R Hf Ha; [lia|]. cbn [dist_orders_c]. pose proof (proj1 Sm) as Hw. destruct R as [N Hlt].
    rewrite (total_amount_total h ps Sm (conj N Hlt)). pose proof (total_amount_bound h ps Sm (conj N Hlt)) as Tb. set (total := total_amount h ps) in *.
    assert (Hle : forall p, In p ps -> o_amt (get h p) <= total).
    { intros p Hq. unfold total. rewrite total_amount_sum. apply (sumZ_in_le (fun p => o_amt (get h p))); [|exact Hq]. intros r Hr. destruct (Hw r (Hlt r Hr)) as (_ & H & _). lia. }
    pose proof (total_matchable_bound h ps price Sm (conj N Hlt) Hp) as Mb. rewrite total_matchable_sum in Mb.
    destruct (first_shares_total h price amt total Sm Hp Ha ltac:(lia) ps 0 (fun p Hq => conj (Hlt p Hq) (Hle p Hq)) ltac:(lia) ltac:(lia)) as (a & -> & L & Ea).
    cbn [fst snd]. set (l1 := map (fun p => (p, first_share h price amt total p)) ps) in *. rewrite Z.add_0_l in Ea.
    assert (Hs1 : alloc_sum l1 <= amt) by (apply first_shares_sum; [exact Hw|exact (proj1 Hp)|exact Hlt|exact (proj1 Ha)]).
    assert (Hl1 : forall p m, In (p, m) l1 -> 0 <= opt_or0 m <= matchable_amount (get h p) price).
    { intros p m Hin. unfold l1 in Hin. apply in_map_iff in Hin. destruct Hin as (q & E & Hq). injection E as -> <-. apply first_share_bounds; auto; [exact (proj1 Hp)|lia]. }
    assert (Hf1 : map fst l1 = ps) by (unfold l1; rewrite map_map; cbn; apply map_id).
    assert (Hin1 : forall p m, In (p, m) l1 -> In p ps) by (intros p m Hin; rewrite <- Hf1; apply in_map_iff; exists (p, m); auto).
    rewrite sub_ok by lia.
    rewrite (second_share_total h price Sm Hp l1 (amt - a) ltac:(lia) (fun p m Hin => conj (Hlt p (Hin1 p m Hin)) (Hl1 p m Hin))).
    destruct (second_share_spec h price l1 (amt - a) ltac:(lia) Hl1) as (F2 & B2 & _). set (l2 := second_share h price (amt - a) l1) in *. rewrite Hf1 in F2.
    assert (Hin2 : forall p m, In (p, m) l2 -> In p ps) by (intros p m Hin; rewrite <- F2; apply in_map_iff; exists (p, m); auto).
    rewrite (split_shares_total h price Sm Hp l2).
    2:{ intros p m Hin. pose proof (B2 p m Hin). pose proof (Hlt p (Hin2 p m Hin)) as Hi. pose proof (small_wt h p Sm Hi). destruct (matchable_heap h p price Sm Hi Hp) as [_ M]. lia. }
    cbn [fst snd].
    destruct (filter (fun pm => negb (share_ok h price pm)) l2) as [|u us] eqn:Eun.
    - set (l3 := map (fun pm => (fst pm, opt_or0 (snd pm))) l2).
      assert (F3 : map fst l3 = ps) by (unfold l3; rewrite map_map; cbn; exact F2).
      assert (Hp3 : Permutation (iter l3) l3) by apply Hiter.
      apply fill_list_total; [exact Hp|exact Sm| | |cbn; pose proof (pot_bound h Sm); lia].
      + apply (inr_perm h ps); [|split; assumption]. rewrite <- F3. apply Permutation_map, Permutation_sym. exact Hp3.
      + intros p m Hin. apply (Permutation_in _ Hp3) in Hin. unfold l3 in Hin. apply in_map_iff in Hin. destruct Hin as ([q n] & Eq & Hq). cbn in Eq. injection Eq as -> <-. exact (B2 _ _ Hq).
    - assert (Hu : In u l2 /\ share_ok h price u = false).
      { assert (In u (filter (fun pm => negb (share_ok h price pm)) l2)) as Hu by (rewrite Eun; left; reflexivity). apply filter_In in Hu. destruct Hu as [Hu1 Hu2]. split; [exact Hu1|]. destruct (share_ok h price u); [discriminate|reflexivity]. }
      destruct Hu as [Hu0 Hu1]. assert (Hlen2 : length l2 = length ps) by (rewrite <- F2, map_length; reflexivity).
      destruct (filter (share_ok h price) l2) as [|w ws] eqn:Em.
      + assert (Hps : ps <> []) by (intros Enil; destruct u as [up um]; apply Hin2 in Hu0; rewrite Enil in Hu0; destruct Hu0).
        pose proof (removelast_length ps Hps). apply IH; [exact Sm| |lia|exact Ha].
        apply (inr_sub h ps); [split; assumption|apply removelast_incl|apply removelast_NoDup; exact N].
      + rewrite <- Em. pose proof (filter_length_lt (share_ok h price) l2 u Hu0 Hu1). apply IH; [exact Sm| |rewrite map_length; lia|exact Ha].
        apply (inr_sub h ps); [split; assumption| |apply map_fst_filter_NoDup; rewrite F2; exact N].
        intros p Hq. apply in_map_iff in Hq. destruct Hq as ([q n] & <- & Hq). apply filter_In in Hq. exact (Hin2 _ _ (proj1 Hq)).
  Qed.

  Lemma dist_groups_total price : pok price -> forall gs h amt qd, small h -> inr h (flat_map snd gs) -> 0 <= amt <= W -> Z.abs qd <= pot h -> good h qd (dist_groups_c iter h gs amt price qd).
  Proof.
    intros Hp. induction gs as [|[b ps] gs IH]; intros h amt qd Sm R Ha Q; cbn [dist_groups_c flat_map snd] in *; [exact (good_refl h qd Sm)|].
    destruct (inr_app _ _ _ R) as [R1 R2]. rewrite (total_matchable_total h ps price Sm R1 Hp). pose proof (total_matchable_bound h ps price Sm R1 Hp) as Tb.
    destruct (Z.eqb_spec (total_matchable h ps price) 0); [exact (IH h amt qd Sm R2 Ha Q)|].
    destruct (Z.leb_spec (total_matchable h ps price) amt).
    - apply (good_step h qd _ (fun h1 q => do rem' <- of_res (i_sub amt (total_matchable h ps price)); if rem' =? 0 then Some (h1, q) else dist_groups_c iter h1 gs rem' price q) Sm Q).
      + apply fulfills_total; [exact Hp|exact Sm|exact R1|cbn; pose proof (pot_bound h Sm); lia].
      + intros h1 q1 Sm1 St1 Q1. rewrite sub_ok by lia. destruct (_ =? 0); [exact (good_refl h1 q1 Sm1)|]. exact (IH h1 (amt - total_matchable h ps price) q1 Sm1 (inr_static _ _ _ St1 R2) ltac:(lia) Q1).
    - apply (good_step h qd _ (fun h1 q => Some (h1, q)) Sm Q).
      + pose proof (sort_orders_perm h ps) as Ps. apply dist_orders_total; [exact Hp|exact Sm|exact (inr_perm _ _ _ (Permutation_sym Ps) R1)|lia|exact Ha].
      + intros h1 q1 Sm1 St1 Q1. exact (good_refl h1 q1 Sm1).
  Qed.
  Lemma dist_tick_total price h t amt : pok price -> small h -> inr h (snd t) -> 0 <= amt <= W -> good h 0 (distribute_to_tick_c iter h t amt price).
  Proof.
    intros Hp Sm R Ha. unfold distribute_to_tick_c. pose proof (keyed_perm batch_before batch_before_irrefl _ _ _ (group_by_batch_keyed h (snd t))) as Pm.
    apply dist_groups_total; [exact Hp|exact Sm|exact (inr_perm _ _ _ (Permutation_sym Pm) R)|exact Ha|cbn; pose proof (pot_bound h Sm); lia].
  Qed.
  Lemma dist_ticks_total mp : pok mp -> forall ts h amt qd, small h -> inr h (flat_map snd ts) -> 0 <= amt <= W -> Z.abs qd <= pot h -> good h qd (distribute_to_ticks_c iter h ts amt mp qd).
  Proof.
    intros Hp. induction ts as [|t ts IH]; intros h amt qd Sm R Ha Q; cbn [distribute_to_ticks_c flat_map] in *; [exact (good_refl h qd Sm)|].
    destruct (inr_app _ _ _ R) as [R1 R2]. rewrite (total_matchable_total h _ mp Sm R1 Hp). pose proof (total_matchable_bound h _ mp Sm R1 Hp) as Tb.
    destruct (Z.leb_spec (total_matchable h (snd t) mp) amt).
    - apply (good_step h qd _ (fun h1 q => do rem' <- of_res (i_sub amt (total_matchable h (snd t) mp)); if rem' =? 0 then Some (h1, q) else distribute_to_ticks_c iter h1 ts rem' mp q) Sm Q).
      + apply fulfills_total; [exact Hp|exact Sm|exact R1|cbn; pose proof (pot_bound h Sm); lia].
      + intros h1 q1 Sm1 St1 Q1. rewrite sub_ok by lia. destruct (_ =? 0); [exact (good_refl h1 q1 Sm1)|]. exact (IH h1 (amt - total_matchable h (snd t) mp) q1 Sm1 (inr_static _ _ _ St1 R2) ltac:(lia) Q1).
    - apply (good_step h qd _ (fun h1 q => Some (h1, q)) Sm Q).
      + exact (dist_tick_total mp h t amt Hp Sm R1 Ha).
      + intros h1 q1 Sm1 St1 Q1. exact (good_refl h1 q1 Sm1).
  Qed.

  Lemma book_static h h' ob : heap_static h h' -> book_inr h ob -> book_inr h' ob.
  Proof. intros S [A B]. split; eapply inr_static; eassumption. Qed.
  (** MatchAtSinglePrice answers whenever the unchecked search does. *)
  Lemma match_single_total h ob mp : small h -> pok mp -> book_inr h ob -> find_matchable_single h ob mp <> None ->
    exists r, match_single_c iter h ob mp = Some r /\
      match r with Some (h', q) => small h' /\ heap_static h h' /\ Z.abs q <= pot h' | None => True end.
  Proof.
    intros Sm Hp R Hn. destruct (find_matchable_total h ob mp Sm Hp R) as [E B]. unfold match_single_c. rewrite E. destruct (find_matchable_single h ob mp) as [[m|]|]; [|exists None; auto|congruence].
    pose proof (pot_bound h Sm) as Pb.
    destruct (dist_ticks_total mp Hp (buys ob) h m 0 Sm (proj1 R) (B m eq_refl) ltac:(cbn; lia)) as (h1 & q1 & -> & Sm1 & St1 & D1). cbn [fst snd]. rewrite Z.sub_0_r in D1.
    destruct (dist_ticks_total mp Hp (sells ob) h1 m q1 Sm1 (inr_static _ _ _ St1 (proj2 R)) (B m eq_refl) ltac:(lia)) as (h2 & q2 & -> & Sm2 & St2 & D2).
    exists (Some (h2, q2)). split; [reflexivity|]. split; [exact Sm2|]. split; [exact (heap_static_trans _ _ _ St1 St2)|lia].
  Qed.
  Lemma beyond_total h inc last : small h -> pok last -> forall ts over, inr h (flat_map snd ts) -> 0 <= over -> over + total_matchable h (flat_map snd ts) last <= W ->
    beyond_at_c h inc last ts over = Some (beyond_at h inc last ts over) /\
    0 <= fst (beyond_at h inc last ts over) /\ 0 <= snd (beyond_at h inc last ts over) /\ fst (beyond_at h inc last ts over) + snd (beyond_at h inc last ts over) <= W.
  Proof.
    intros Sm Hp. induction ts as [|[p ps] ts IH]; intros over R A B; cbn [beyond_at_c beyond_at flat_map snd] in *; [change (total_matchable h [] last) with 0 in B; cbn [fst snd]; split; [reflexivity|lia]|].
    destruct (inr_app _ _ _ R) as [R1 R2]. rewrite total_matchable_app in B. pose proof (total_matchable_bound h _ last Sm R1 Hp). pose proof (total_matchable_bound h _ last Sm R2 Hp).
    destruct (if inc then last <? p else p <? last); [cbn [fst snd]; split; [reflexivity|lia]|]. rewrite (total_matchable_total h ps last Sm R1 Hp). cbv zeta.
    destruct (p =? last); [cbn [fst snd]; split; [reflexivity|lia]|]. rewrite add_ok by lia. exact (IH (over + total_matchable h ps last) R2 ltac:(lia) ltac:(lia)).
  Qed.
  Lemma price_direction_total h ob last : small h -> pok last -> book_inr h ob -> price_direction_c h ob last = Some (price_direction h ob last).
  Proof.
    intros Sm Hp [Rb Rs]. unfold price_direction_c, price_direction. pose proof (total_matchable_bound h _ last Sm Rb Hp). pose proof (total_matchable_bound h _ last Sm Rs Hp).
    destruct (beyond_total h false last Sm Hp (buys ob) 0 Rb ltac:(lia) ltac:(lia)) as (-> & B1 & B2 & B3). destruct (beyond_total h true last Sm Hp (sells ob) 0 Rs ltac:(lia) ltac:(lia)) as (-> & S1 & S2 & S3).
    destruct (beyond_at h false last (buys ob) 0) as [bo ba]. destruct (beyond_at h true last (sells ob) 0) as [su sa]. cbn [fst snd] in *.
    rewrite add_ok by lia. destruct (sa + su <? bo); [reflexivity|]. rewrite add_ok by lia. destruct (ba + bo <? su); reflexivity.
  Qed.
  Lemma match_loop_total d : forall fuel h bs ss mp qd m, small h -> inr h (flat_map snd bs) -> inr h (flat_map snd ss) -> (forall t, In t bs -> pok (fst t)) -> (forall t, In t ss -> pok (fst t)) ->
    (length bs + length ss < fuel)%nat -> Z.abs qd <= pot h -> match_loop_c iter fuel d h bs ss mp qd m <> None.
  Proof.
    induction fuel as [|k IH]; intros h bs ss mp qd m Sm Rb Rs Pb Ps Hf Q; [lia|]. cbn [match_loop_c].
    destruct bs as [|bt br]; [discriminate|]. destruct ss as [|st sr]; [discriminate|]. destruct (fst st <=? fst bt); [|discriminate]. cbv zeta.
    set (p := match d with PriceIncreasing => fst st | _ => fst bt end).
    assert (Hp : pok p) by (unfold p; destruct d; [apply Pb|apply Ps|apply Pb]; left; reflexivity).
    cbn [flat_map length] in *. destruct (inr_app _ _ _ Rb) as [Rb1 Rb2]. destruct (inr_app _ _ _ Rs) as [Rs1 Rs2].
    rewrite (total_matchable_total h _ p Sm Rb1 Hp), (total_matchable_total h _ p Sm Rs1 Hp). pose proof (total_matchable_bound h _ p Sm Rb1 Hp) as B1. pose proof (total_matchable_bound h _ p Sm Rs1 Hp) as B2.
    set (bo := total_matchable h (snd bt) p) in *. set (so := total_matchable h (snd st) p) in *.
    destruct (Z.leb_spec bo 0); [apply IH; [exact Sm|exact Rb2|exact Rs|intros t Ht; apply Pb; right; exact Ht|exact Ps|cbn [length]; lia|exact Q]|].
    destruct (Z.leb_spec so 0); [apply IH; [exact Sm|exact Rb|exact Rs2|exact Pb|intros t Ht; apply Ps; right; exact Ht|cbn [length]; lia|exact Q]|].
    destruct (dist_tick_total p h bt (if bo <=? so then bo else so) Hp Sm Rb1 ltac:(destruct (bo <=? so); lia)) as (h1 & d1 & -> & Sm1 & St1 & D1). cbn [fst snd]. rewrite Z.sub_0_r in D1.
    unfold i_add. rewrite (qd_ok h1 (qd + d1) Sm1) by lia.
    destruct (dist_tick_total p h1 st (if so <=? bo then so else bo) Hp Sm1 (inr_static _ _ _ St1 Rs1) ltac:(destruct (so <=? bo); lia)) as (h2 & d2 & -> & Sm2 & St2 & D2). cbn [fst snd]. rewrite Z.sub_0_r in D2.
    rewrite (qd_ok h2 (qd + d1 + d2) Sm2) by lia.
    assert (St : heap_static h h2) by (exact (heap_static_trans _ _ _ St1 St2)).
    apply IH; [exact Sm2| | | | | |lia].
    - apply (inr_static h h2 _ St). destruct (bo <=? so); [exact Rb2|exact Rb].
    - apply (inr_static h h2 _ St). destruct (so <=? bo); [exact Rs2|exact Rs].
    - intros t Ht. apply Pb. destruct (bo <=? so); [right|]; exact Ht.
    - intros t Ht. apply Ps. destruct (so <=? bo); [right|]; exact Ht.
    - destruct (Z.leb_spec bo so); destruct (Z.leb_spec so bo); cbn [length]; lia.
  Qed.
  (** Match answers whenever the unchecked one does. *)
  Lemma match_book_total h ob last : small h -> pok last -> book_inr h ob -> (forall t, In t (buys ob) -> pok (fst t)) -> (forall t, In t (sells ob) -> pok (fst t)) ->
    match_book iter h ob last <> None -> match_book_c iter h ob last <> None.
  Proof.
    intros Sm Hp R Pb Ps Hn. unfold match_book_c. unfold match_book in Hn. destruct (buys ob) as [|b bs] eqn:Eb; [discriminate|]. destruct (sells ob) as [|s ss] eqn:Es; [discriminate|]. cbv zeta in Hn.
    rewrite (price_direction_total h ob last Sm Hp R).
    assert (Hm : find_matchable_single h ob last <> None).
    { unfold match_single in Hn. destruct (find_matchable_single h ob last); congruence. }
    destruct (match_single_total h ob last Sm Hp R Hm) as (r & -> & Hr).
    rewrite <- Eb, <- Es in *.
    destruct r as [[h1 q1]|].
    - destruct Hr as (Sm1 & St1 & Q1). destruct (inr_static _ _ _ St1 (proj1 R)) as [N1 R1].
      destruct (price_direction h ob last); [discriminate| |]; (apply match_loop_total; [exact Sm1|exact (inr_static _ _ _ St1 (proj1 R))|exact (inr_static _ _ _ St1 (proj2 R))|exact Pb|exact Ps|lia|exact Q1]).
    - pose proof (pot_bound h Sm) as Pt. destruct (price_direction h ob last); [discriminate| |]; (apply match_loop_total; [exact Sm|exact (proj1 R)|exact (proj2 R)|exact Pb|exact Ps|lia|cbn; lia]).
  Qed.
  End Iter.

  Lemma add_orders_total h : small h -> (forall i, (i < length h)%nat -> o_price (get h i) <= P) -> forall ps ob, (forall p, In p ps -> (p < length h)%nat) -> add_orders_c h ps ob = Some (fold_left (add_order h) ps ob).
  Proof.
    intros Sm Hp. induction ps as [|p ps IH]; intros ob R; cbn [add_orders_c fold_left]; [reflexivity|].
    assert (Hi : (p < length h)%nat) by (apply R; left; reflexivity).
    unfold add_order_c. destruct (matchable_heap h p (o_price (get h p)) Sm Hi) as [-> _]; [split; [destruct (proj1 Sm p Hi) as (A & _); exact A|exact (Hp p Hi)]|].
    rewrite IH by (intros q Hq; apply R; right; exact Hq). reflexivity.
  Qed.
  Lemma new_book_total h : small h -> (forall i, (i < length h)%nat -> o_price (get h i) <= P) -> new_order_book_c h = Some (new_order_book h).
  Proof. intros Sm Hp. apply add_orders_total; [exact Sm|exact Hp|]. intros p Hq. apply in_seq in Hq. lia. Qed.
  Lemma acc_ticks_total h : small h -> forall ts acc, inr h (flat_map snd ts) -> (forall t, In t ts -> pok (fst t)) -> 0 <= acc -> acc + sumZ (map (fun p => o_amt (get h p)) (flat_map snd ts)) <= W -> acc_ticks_c h acc ts = Some (acc_ticks h acc ts).
  Proof.
    intros Sm. induction ts as [|[p ps] ts IH]; intros acc R Hp A B; cbn [acc_ticks_c acc_ticks flat_map snd] in *; [reflexivity|].
    destruct (inr_app _ _ _ R) as [R1 R2]. assert (Pp : pok p) by (apply (Hp (p, ps)); left; reflexivity). rewrite (total_matchable_total h ps p Sm R1 Pp). pose proof (total_matchable_bound h ps p Sm R1 Pp) as [T0 _].
    rewrite map_app, sumZ_app in B.
    assert (T : total_matchable h ps p <= sumZ (map (fun p => o_amt (get h p)) ps)).
    { rewrite total_matchable_sum. apply sumZ_map_le. intros q Hq. pose proof (matchable_le_open (get h q) p (proj1 Sm q (proj2 R1 q Hq)) (proj1 Pp)). destruct (proj1 Sm q (proj2 R1 q Hq)) as (_ & O & _). lia. }
    assert (0 <= sumZ (map (fun p => o_amt (get h p)) (flat_map snd ts))).
    { apply sumZ_map_nonneg. intros q Hq. destruct (proj1 Sm q (proj2 R2 q Hq)) as (_ & O & _). lia. }
    rewrite add_ok by lia. cbv zeta. rewrite (IH _ R2 (fun t Ht => Hp t (or_intror Ht))) by lia. reflexivity.
  Qed.
  Lemma make_view_total h ob : small h -> book_inr h ob -> (forall t, In t (buys ob) -> pok (fst t)) -> (forall t, In t (sells ob) -> pok (fst t)) -> make_view_c h ob = Some (make_view h ob).
  Proof.
    intros Sm [Rb Rs] Pb Ps. unfold make_view_c, make_view. pose proof (total_amount_bound h _ Sm Rb) as B1. pose proof (total_amount_bound h _ Sm Rs) as B2. rewrite total_amount_sum in B1, B2.
    rewrite (acc_ticks_total h Sm (buys ob) 0 Rb Pb) by lia. rewrite (acc_ticks_total h Sm (sells ob) 0 Rs Ps) by lia. reflexivity.
  Qed.
End Total.
