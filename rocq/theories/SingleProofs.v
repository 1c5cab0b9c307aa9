(** The amount matched by a single price auction. *)
From Verif Require Import Base Dec DecProofs OrderModel MatchModel MatchSpec KeyedProofs OrderProofs MatchProofs MatchLoopProofs MatchBookProofs MatchTop.
From Coq Require Import Permutation Sorted.

(** with prices of at least one no dust is dropped: the matched amount is the smaller side *)
Lemma single_loop_exact h mp : P18 <= mp -> forall fuel bst sst, nonneg_side h mp bst -> nonneg_side h mp sst ->
  (length bst + length sst < fuel)%nat ->
  let m := Z.min (side_total h mp bst) (side_total h mp sst) in
  single_loop fuel h mp bst sst (side_total h mp bst) (side_total h mp sst) = Some (if 0 <? m then Some m else None).
Proof.
  intros Hmp. pose proof P18_pos as H18.
  assert (Hdust : forall a, 0 < a -> dtrunc (dmul_int mp a) =? 0 = false).
  { intros a Ha. rewrite floor_value_dec by nia. pose proof (floor_value_bounds mp a). apply Z.eqb_neq. nia. }
  assert (Step : forall s st other, nonneg_side h mp st -> 0 <= other -> let tot := side_total h mp st in let m := Z.min tot other in
     match side_step h mp s st tot other with
     | None => m = 0
     | Some (st', tot', m', dropped) => tot' = side_total h mp st' /\ nonneg_side h mp st' /\ m' = m /\ Z.min tot' other = m /\ (0 <= tot') /\
         (if dropped then length st = S (length st') else st' = st /\ 0 < m)
     end).
  { intros s st other Hn Ho tot m. pose proof (side_total_nonneg h mp st Hn) as Ht. fold tot in Ht. unfold side_step.
    destruct st as [|t r]; [unfold m, tot; cbn; lia|].
    assert (Hr : nonneg_side h mp r) by (intros x Hx; apply Hn; right; assumption).
    pose proof (side_total_nonneg h mp r Hr) as Hrt.
    pose proof (Hn t (or_introl eq_refl)) as Htt.
    assert (Et : tot = total_matchable h (snd t) mp + side_total h mp r) by (apply side_total_cons).
    fold m. replace (tot - total_matchable h (snd t) mp) with (side_total h mp r) by lia.
    destruct (Z.leb_spec m (side_total h mp r)) as [Hle|Hgt].
    - cbn [orb]. destruct r as [|t2 r2]; [unfold side_total in Hle; cbn in Hle; lia|].
      split; [lia|]. split; [assumption|]. split; [reflexivity|]. split; [lia|]. split; [lia|reflexivity].
    - cbn [orb]. rewrite (Hdust (m - side_total h mp r)) by lia. rewrite andb_false_r.
      split; [reflexivity|]. split; [assumption|]. split; [reflexivity|]. split; [reflexivity|]. split; [lia|]. split; [reflexivity|lia]. }
  induction fuel as [|fuel IH]; intros bst sst Hb Hs Hf m; [lia|]. cbn [single_loop].
  pose proof (side_total_nonneg h mp bst Hb). pose proof (side_total_nonneg h mp sst Hs).
  pose proof (Step false bst (side_total h mp sst) Hb ltac:(assumption)) as S1. cbv zeta in S1.
  destruct (side_step h mp false bst _ _) as [[[[bst' bt'] m1] bd]|].
  2:{ unfold m. rewrite S1. reflexivity. }
  destruct S1 as (E1 & Hb' & _ & M1 & N1 & D1). subst bt'.
  pose proof (Step true sst (side_total h mp bst') Hs N1) as S2. cbv zeta in S2.
  destruct (side_step h mp true sst _ _) as [[[[sst' st'] m2] sd]|].
  2:{ unfold m. rewrite <- M1, Z.min_comm, S2. reflexivity. }
  destruct S2 as (E2 & Hs' & Em2 & M2 & N2 & D2). subst st'.
  assert (Em : m2 = m) by (unfold m; lia).
  destruct bd, sd; cbn [negb andb].
  - rewrite IH; [|assumption|assumption|lia]. replace (Z.min (side_total h mp bst') (side_total h mp sst')) with m by lia. reflexivity.
  - destruct D2 as [-> _]. rewrite IH; [|assumption|assumption|lia]. replace (Z.min (side_total h mp bst') (side_total h mp sst)) with m by lia. reflexivity.
  - destruct D1 as [-> _]. rewrite IH; [|assumption|assumption|lia]. replace (Z.min (side_total h mp bst) (side_total h mp sst')) with m by lia. reflexivity.
  - destruct D1 as [-> D1], D2 as [_ D2]. rewrite Em. destruct (Z.ltb_spec 0 m); [reflexivity|lia].
Qed.

(** total matchable amount at price [p] of the orders of a side whose limit accepts [p] *)
Definition can_trade (d : dir) (p : dec) (o : order) : bool :=
  match d, o_dir o with
  | Buy, Buy => (p <=? o_price o) && (0 <? matchable_amount o (o_price o))
  | Sell, Sell => (o_price o <=? p) && (0 <? matchable_amount o (o_price o))
  | _, _ => false
  end.
Definition side_volume (d : dir) (p : dec) (h : list order) : Z :=
  sumZ (map (fun o => if can_trade d p o then matchable_amount o p else 0) h).

Lemma sorted_prefix_filter (inc : bool) mp ts : StronglySorted (tick_order inc) (map fst ts) ->
  side_prefix inc mp ts = filter (fun t : tick => if inc then fst t <=? mp else mp <=? fst t) ts.
Proof.
  induction ts as [|t ts IH]; intros Hs; [reflexivity|]. cbn [side_prefix filter]. cbn in Hs. inversion Hs as [|? ? Hs' HF]; subst.
  rewrite Forall_forall in HF.
  assert (E : (inc && (mp <? fst t)) || (negb inc && (fst t <? mp)) = negb (if inc then fst t <=? mp else mp <=? fst t)).
  { destruct inc; cbn; rewrite ?orb_false_r; apply Z.ltb_antisym. }
  rewrite E. destruct (if inc then fst t <=? mp else mp <=? fst t) eqn:Ek; cbn [negb].
  - rewrite IH by assumption. reflexivity.
  - symmetry.
    assert (G : forall u, In u ts -> (if inc then fst u <=? mp else mp <=? fst u) = false).
    { intros u Hu. specialize (HF (fst u) (in_map fst ts u Hu)). destruct inc; cbn in HF; apply Z.leb_gt; apply Z.leb_gt in Ek; lia. }
    clear - G. induction ts as [|u ts IHt]; [reflexivity|]. cbn. rewrite (G u) by (left; reflexivity). apply IHt. intros v Hv. apply G. right. assumption.
Qed.

Lemma flat_filter_perm h d inc (g : Z -> bool) ts :
  keyed (tick_order inc) (fun p => o_price (get h p)) (filter (listed h d) (seq 0 (length h))) ts ->
  Permutation (flat_map snd (filter (fun t : tick => g (fst t)) ts)) (filter (fun p => listed h d p && g (o_price (get h p))) (seq 0 (length h))).
Proof.
  intros HK. apply NoDup_Permutation.
  - assert (Hnd : NoDup (flat_map snd ts)).
    { eapply Permutation_NoDup; [apply Permutation_sym, (keyed_perm _ (tick_order_irrefl inc) _ _ _ HK)|apply NoDup_filter, seq_NoDup]. }
    clear HK. induction ts as [|t ts IH]; [constructor|]. cbn in Hnd |- *. destruct (NoDup_app_inv _ _ Hnd) as (N1 & N2 & N3).
    destruct (g (fst t)); [|auto]. cbn [flat_map].
    assert (G : forall l1 l2 : list nat, NoDup l1 -> NoDup l2 -> (forall x, In x l2 -> ~ In x l1) -> NoDup (l1 ++ l2)).
    { clear. induction l1 as [|x l1 IH]; intros l2 A B C; [assumption|]. cbn. inversion A; subst. constructor.
      - intros Hin. apply in_app_iff in Hin. destruct Hin as [?|Hin]; [contradiction|]. apply (C x Hin). left. reflexivity.
      - apply IH; auto. intros y Hy Hy1. apply (C y Hy). right. assumption. }
    apply G; auto. intros x Hx. apply N3. apply in_flat_map in Hx. destruct Hx as (u & Hu & Hx). apply filter_In in Hu.
    apply in_flat_map. exists u. tauto.
  - apply NoDup_filter, seq_NoDup.
  - intros p. rewrite in_flat_map, filter_In, andb_true_iff. split.
    + intros ([x ms] & Ht & Hp). apply filter_In in Ht. destruct Ht as [Ht Hg]. cbn [fst snd] in *.
      destruct (keyed_members _ _ _ _ _ _ HK Ht) as (_ & _ & Hm). apply Hm in Hp. destruct Hp as [Hp <-].
      apply filter_In in Hp. tauto.
    + intros (Hp & Hl & Hg).
      assert (Hx : In (o_price (get h p)) (map fst ts)).
      { apply (keyed_keys _ _ _ _ _ HK). exists p. split; [apply filter_In; auto|reflexivity]. }
      apply in_map_iff in Hx. destruct Hx as ([x ms] & Ex & Ht). cbn in Ex. subst x. exists (o_price (get h p), ms). split.
      * apply filter_In. split; [assumption|exact Hg].
      * cbn [snd]. apply (keyed_members _ _ _ _ _ _ HK Ht). split; [apply filter_In; auto|reflexivity].
Qed.

Lemma side_volume_prefix h d (inc : bool) p ts : (d = if inc then Sell else Buy) ->
  keyed (tick_order inc) (fun p => o_price (get h p)) (filter (listed h d) (seq 0 (length h))) ts ->
  side_total h p (side_prefix inc p ts) = side_volume d p h.
Proof.
  intros Hd HK. rewrite sorted_prefix_filter by (apply (keyed_sorted _ _ _ _ HK)).
  rewrite side_total_sum.
  rewrite (total_matchable_perm h _ _ p (flat_filter_perm h d inc (fun x => if inc then x <=? p else p <=? x) ts HK)).
  rewrite total_matchable_sum. unfold side_volume.
  assert (G : forall l k, (forall i, (i < length l)%nat -> get h (k + i) = nth i l dummy_order) ->
    sumZ (map (fun q => matchable_amount (get h q) p) (filter (fun q => listed h d q && (if inc then o_price (get h q) <=? p else p <=? o_price (get h q))) (seq k (length l)))) =
    sumZ (map (fun o => if can_trade d p o then matchable_amount o p else 0) l)).
  { induction l as [|o l IH]; intros k H; [reflexivity|]. cbn [length seq filter map]. rewrite sumZ_cons.
    rewrite <- (IH (S k)).
    - pose proof (H O ltac:(cbn; lia)) as E. rewrite Nat.add_0_r in E. cbn [nth] in E.
      assert (Ec : listed h d k && (if inc then o_price (get h k) <=? p else p <=? o_price (get h k)) = can_trade d p o).
      { unfold listed, can_trade. rewrite E. subst d. destruct inc, (o_dir o); cbn; rewrite ?andb_true_r, ?andb_false_r; try reflexivity; apply andb_comm. }
      rewrite Ec. destruct (can_trade d p o); cbn [map]; rewrite ?sumZ_cons, ?E; lia.
    - intros i Hi. specialize (H (S i) ltac:(cbn; lia)). cbn [nth] in H. rewrite <- H. f_equal. lia. }
  apply G. intros i Hi. reflexivity.
Qed.

Lemma match_single_amount iter h p : is_perm_iter iter -> Forall wf_order h -> 0 < p ->
  match match_single iter h (new_order_book h) p with
  | None => False
  | Some None => P18 <= p -> Z.min (side_volume Buy p h) (side_volume Sell p h) <= 0
  | Some (Some (h', qd)) => exists m,
      0 < m <= Z.min (side_volume Buy p h) (side_volume Sell p h) /\
      (P18 <= p -> m = Z.min (side_volume Buy p h) (side_volume Sell p h)) /\
      buys_received h h' = m /\ sells_paid h h' <= m /\ (P18 <= p -> sells_paid h h' = m) /\
      exists tr, trace h tr h' /\ tr <> [] /\ forall f, In f tr -> f_price f = p
  end.
Proof.
  intros Hi Hf Hp. pose proof (proj1 (wf_heap_Forall h) Hf) as Hwf. destruct (new_order_book_ok h) as [KB KS].
  destruct (book_side_wf h Hwf) as [HB HS].
  destruct (match_single_ok iter Hi h (new_order_book h) p Hwf Hp HB HS) as (r & E & Hr). rewrite E.
  pose proof (side_volume_prefix h Buy false p _ eq_refl KB) as VB. pose proof (side_volume_prefix h Sell true p _ eq_refl KS) as VS.
  assert (NB : nonneg_side h p (side_prefix false p (buys (new_order_book h)))).
  { intros t Ht. apply total_matchable_nonneg; auto. intros q Hq. destruct (side_prefix_app false p (buys (new_order_book h))) as [rest Er].
    apply (sw_ord _ _ _ _ HB t q); [|assumption]. rewrite Er. apply in_app_iff. auto. }
  assert (NS : nonneg_side h p (side_prefix true p (sells (new_order_book h)))).
  { intros t Ht. apply total_matchable_nonneg; auto. intros q Hq. destruct (side_prefix_app true p (sells (new_order_book h))) as [rest Er].
    apply (sw_ord _ _ _ _ HS t q); [|assumption]. rewrite Er. apply in_app_iff. auto. }
  pose proof (side_total_nonneg _ _ _ NB) as VB0. pose proof (side_total_nonneg _ _ _ NS) as VS0.
  assert (Ex : P18 <= p -> find_matchable_single h (new_order_book h) p =
     Some (if 0 <? Z.min (side_volume Buy p h) (side_volume Sell p h) then Some (Z.min (side_volume Buy p h) (side_volume Sell p h)) else None)).
  { intros H1. unfold find_matchable_single. rewrite <- VB, <- VS.
    set (bs := side_prefix false p (buys (new_order_book h))) in *. set (ss := side_prefix true p (sells (new_order_book h))) in *.
    destruct bs as [|b0 bs0] eqn:Eb.
    { unfold side_total at 1 3. cbn [fold_left]. rewrite Z.min_l by lia. reflexivity. }
    destruct ss as [|s0 ss0] eqn:Es.
    { unfold side_total at 2 4. cbn [fold_left]. rewrite Z.min_r by lia. reflexivity. }
    rewrite <- Eb, <- Es in *. clear Eb Es. rewrite <- (side_total_rev h p bs), <- (side_total_rev h p ss).
    apply (single_loop_exact h p H1).
    - intros t Ht. apply NB. apply in_rev. assumption.
    - intros t Ht. apply NS. apply in_rev. assumption.
    - rewrite !rev_length. lia. }
  destruct r as [[h' qd]|].
  - destruct Hr as (tr & M & Hne & Hpr & m & Em & Hm & A & B & B1 & C & D & _ & _). exists m. rewrite VB in C. rewrite VS in D.
    split; [lia|]. split.
    { intros H1. rewrite Ex in Em by assumption. destruct (0 <? _); [injection Em as <-; reflexivity|discriminate]. }
    destruct (trace_totals _ _ _ (mr_trace _ _ _ _ _ _ M)) as (T1 & T2 & _). split; [lia|]. split; [lia|]. split.
    + intros H1. rewrite T2. auto.
    + exists tr. destruct M. auto.
  - intros H1. unfold match_single in E. rewrite Ex in E by assumption. destruct (Z.ltb_spec 0 (Z.min (side_volume Buy p h) (side_volume Sell p h))); [|assumption].
    destruct (distribute_to_ticks iter h _ _ _) as [[h1 d1]|]; [|discriminate]. destruct (distribute_to_ticks iter h1 _ _ _) as [[h2 d2]|]; discriminate.
Qed.
