(** Nobody trades across: no traded sell order asks for more than a traded buy order offers. *)
From Verif Require Import Base Dec DecProofs OrderModel MatchModel MatchSpec KeyedProofs OrderProofs MatchProofs MatchLoopProofs MatchBookProofs MatchTop DirectionProofs.
From Coq Require Import Permutation Sorted.

Lemma total_pos_some h ps p : 0 < total_matchable h ps p -> exists q, In q ps /\ 0 < matchable_amount (get h q) p.
Proof.
  rewrite total_matchable_sum. induction ps as [|q ps IH]; [cbn; lia|]. cbn [map]. rewrite sumZ_cons. intros H.
  destruct (Z_lt_le_dec 0 (matchable_amount (get h q) p)) as [X|X]; [exists q; split; [left; reflexivity|assumption]|].
  destruct IH as (r & Hr & Hp); [lia|]. exists r. split; [right; assumption|assumption].
Qed.

Section Cross.
  Variable iter : list (nat * Z) -> list (nat * Z).
  Hypothesis Hiter : is_perm_iter iter.

  Definition changed (h h' : heap) (q : nat) : Prop := get h' q <> get h q.

  (** What the loop leaves: (a) nothing traded across; (b) a sell trades only if some buy at or above
      it had something to trade, (c) and conversely. *)
  Definition loop_good (h : heap) (bs ss : list tick) (h' : heap) : Prop :=
    (forall f g, In f (flat_map snd bs) -> In g (flat_map snd ss) -> changed h h' f -> changed h h' g -> o_price (get h g) <= o_price (get h f)) /\
    (forall g, In g (flat_map snd ss) -> changed h h' g -> exists q p, In q (flat_map snd bs) /\ o_price (get h g) <= p <= o_price (get h q) /\ 0 < matchable_amount (get h q) p) /\
    (forall f, In f (flat_map snd bs) -> changed h h' f -> exists q p, In q (flat_map snd ss) /\ o_price (get h q) <= p <= o_price (get h f) /\ 0 < matchable_amount (get h q) p).

  Lemma side_first h inc d t ts q : side_wf h inc d (t :: ts) -> In q (flat_map snd (t :: ts)) -> if inc then fst t <= o_price (get h q) else o_price (get h q) <= fst t.
  Proof.
    intros HS Hq. pose proof (sw_sorted _ _ _ _ HS) as Ss. apply in_flat_map in Hq. destruct Hq as (u & Hu & Hq).
    destruct (sw_ord _ _ _ _ HS u q Hu Hq) as (_ & _ & E). rewrite E. destruct Hu as [->|Hu]; [destruct inc; lia|].
    cbn [map] in Ss. inversion Ss as [|? ? _ F]; subst. rewrite Forall_forall in F. specialize (F (fst u) (in_map fst _ _ Hu)). unfold tick_order in F. destruct inc; lia.
  Qed.

  Lemma changed_dec h h' q : {changed h h' q} + {get h' q = get h q}.
  Proof. unfold changed. destruct (order_eq_dec (get h' q) (get h q)); [right|left]; assumption. Qed.

  Lemma matchable_pos_back h tr h' j p : trace h tr h' -> wf_heap h -> (j < length h)%nat -> 0 < p -> 0 < matchable_amount (get h' j) p -> 0 < matchable_amount (get h j) p.
  Proof.
    intros T Hwf Hj Hp H. pose proof (matchable_trace_mono h tr h' j p T Hwf Hj Hp) as M.
    pose proof (matchable_le_open (get h j) p (Hwf j Hj) Hp) as B. destruct (Z.eq_dec (matchable_amount (get h j) p) 0) as [E|N]; [rewrite (M E) in H; lia|lia].
  Qed.

  Lemma match_loop_cross d : forall fuel h bs ss mp qd matched h' mp' qd' m', wf_heap h ->
    side_wf h false Buy bs -> side_wf h true Sell ss -> match_loop iter fuel d h bs ss mp qd matched = Some (h', mp', qd', m') ->
    loop_good h bs ss h' /\ (forall q, ~ In q (flat_map snd bs) -> ~ In q (flat_map snd ss) -> get h' q = get h q).
  Proof.
    assert (Stop : forall h bs ss, loop_good h bs ss h /\ (forall q, ~ In q (flat_map snd bs) -> ~ In q (flat_map snd ss) -> get h q = get h q)).
    { intros h bs ss. split; [|reflexivity]. split; [|split]; unfold changed; [intros f g _ _ X; congruence|intros g _ X; congruence|intros f _ X; congruence]. }
    induction fuel as [|fuel IH]; intros h bs ss mp qd matched h' mp' qd' m' Hwf HB HS H; cbn [match_loop] in H; [discriminate H|].
    destruct bs as [|bt br]; [injection H as <- _ _ _; apply Stop|]. destruct ss as [|st sr]; [injection H as <- _ _ _; apply Stop|].
    destruct (Z.leb_spec (fst st) (fst bt)) as [Hcross|_]; [|injection H as <- _ _ _; apply Stop].
    set (p := match d with PriceIncreasing => fst st | _ => fst bt end) in H.
    assert (Hp : fst st <= p <= fst bt) by (unfold p; destruct d; lia). clearbody p.
    assert (Hst_pos : 0 < fst st) by (apply (sw_pos _ _ _ _ HS); left; reflexivity).
    assert (Hp0 : 0 < p) by lia.
    pose proof (tick_ptrs h false Buy bt br p HB eq_refl ltac:(cbn; lia)) as OB.
    pose proof (tick_ptrs h true Sell st sr p HS eq_refl ltac:(cbn; lia)) as OS.
    pose proof (sides_disjoint h _ _ HB HS) as Hdis.
    assert (NBr : forall q, In q (flat_map snd br) -> ~ In q (snd bt)).
    { pose proof (sw_nodup _ _ _ _ HB) as N. cbn in N. apply NoDup_app_inv in N. apply N. }
    assert (NSr : forall q, In q (flat_map snd sr) -> ~ In q (snd st)).
    { pose proof (sw_nodup _ _ _ _ HS) as N. cbn in N. apply NoDup_app_inv in N. apply N. }
    assert (IB : forall q, In q (flat_map snd (bt :: br)) <-> In q (snd bt) \/ In q (flat_map snd br)) by (intros q; cbn [flat_map]; apply in_app_iff).
    assert (IS : forall q, In q (flat_map snd (st :: sr)) <-> In q (snd st) \/ In q (flat_map snd sr)) by (intros q; cbn [flat_map]; apply in_app_iff).
    set (bo := total_matchable h (snd bt) p) in *. set (so := total_matchable h (snd st) p) in *.
    destruct (Z.leb_spec bo 0) as [Hb0|Hb0]; [|destruct (Z.leb_spec so 0) as [Hs0|Hs0]].
    - (* the buy tick is dropped *)
      destruct (IH h br (st :: sr) mp qd matched h' mp' qd' m' Hwf (side_wf_tail _ _ _ _ _ HB) HS H) as ((A & B & C) & U).
      assert (Unb : forall q, In q (snd bt) -> get h' q = get h q).
      { intros q Hq. apply U; [intros X; exact (NBr q X Hq)|intros X; apply (Hdis q X), IB; left; exact Hq]. }
      split; [split; [|split]|].
      + intros f g Hf Hg Cf Cg. apply IB in Hf. destruct Hf as [Hf|Hf]; [exfalso; exact (Cf (Unb f Hf))|]. exact (A f g Hf Hg Cf Cg).
      + intros g Hg Cg. destruct (B g Hg Cg) as (q & x & Hq & R). exists q, x. split; [apply IB; right; exact Hq|exact R].
      + intros f Hf Cf. apply IB in Hf. destruct Hf as [Hf|Hf]; [exfalso; exact (Cf (Unb f Hf))|]. exact (C f Hf Cf).
      + intros q N1 N2. apply U; [intros X; apply N1, IB; right; exact X|exact N2].
    - destruct (IH h (bt :: br) sr mp qd matched h' mp' qd' m' Hwf HB (side_wf_tail _ _ _ _ _ HS) H) as ((A & B & C) & U).
      assert (Uns : forall q, In q (snd st) -> get h' q = get h q).
      { intros q Hq. apply U; [apply (Hdis q), IS; left; exact Hq|intros X; exact (NSr q X Hq)]. }
      split; [split; [|split]|].
      + intros f g Hf Hg Cf Cg. apply IS in Hg. destruct Hg as [Hg|Hg]; [exfalso; exact (Cg (Uns g Hg))|]. exact (A f g Hf Hg Cf Cg).
      + intros g Hg Cg. apply IS in Hg. destruct Hg as [Hg|Hg]; [exfalso; exact (Cg (Uns g Hg))|]. exact (B g Hg Cg).
      + intros f Hf Cf. destruct (C f Hf Cf) as (q & x & Hq & R). exists q, x. split; [apply IS; right; exact Hq|exact R].
      + intros q N1 N2. apply U; [exact N1|intros X; apply N2, IS; right; exact X].
    - destruct (distribute_to_tick_ok iter Hiter p Buy h bt (if bo <=? so then bo else so) Hp0 Hwf OB) as (h1 & d1 & a & E1 & (P1 & _) & _); [destruct (bo <=? so); lia|].
      rewrite E1 in H. pose proof (phase_static _ _ _ _ _ _ P1) as St1. pose proof (phase_wf _ _ _ _ _ _ P1 Hwf) as Hwf1.
      destruct (distribute_to_tick_ok iter Hiter p Sell h1 st (if so <=? bo then so else bo) Hp0 Hwf1) as (h2 & d2 & b & E2 & (P2 & _) & _).
      { eapply ptrs_ok_static; eassumption. }
      { destruct (so <=? bo); lia. }
      rewrite E2 in H. pose proof (phase_static _ _ _ _ _ _ P2) as St2. pose proof (phase_wf _ _ _ _ _ _ P2 Hwf1) as Hwf2.
      assert (St : heap_static h h2) by (eapply heap_static_trans; eassumption).
      assert (Oth : forall q, ~ In q (snd bt) -> ~ In q (snd st) -> get h2 q = get h q).
      { intros q N1 N2. rewrite (phase_other _ _ _ _ _ _ q P2 N2). exact (phase_other _ _ _ _ _ _ q P1 N1). }
      destruct P1 as (t1 & T1 & _), P2 as (t2 & T2 & _). pose proof (trace_app _ _ _ _ _ T1 T2) as T.
      assert (Pr : forall q, o_price (get h2 q) = o_price (get h q)) by (intros q; destruct St as [_ S]; apply S).
      set (bs' := if bo <=? so then br else bt :: br) in *. set (ss' := if so <=? bo then sr else st :: sr) in *.
      assert (HB2 : side_wf h2 false Buy bs').
      { apply (side_wf_static h); [assumption|]. unfold bs'. destruct (bo <=? so); [eapply side_wf_tail; exact HB|assumption]. }
      assert (HS2 : side_wf h2 true Sell ss').
      { apply (side_wf_static h); [assumption|]. unfold ss'. destruct (so <=? bo); [eapply side_wf_tail; exact HS|assumption]. }
      assert (Ib : forall q, In q (flat_map snd bs') -> In q (flat_map snd (bt :: br))).
      { intros q. unfold bs'. destruct (bo <=? so); [intros X; apply IB; right; exact X|tauto]. }
      assert (Is : forall q, In q (flat_map snd ss') -> In q (flat_map snd (st :: sr))).
      { intros q. unfold ss'. destruct (so <=? bo); [intros X; apply IS; right; exact X|tauto]. }
      destruct (IH h2 bs' ss' p (qd + d1 + d2) true h' mp' qd' m' Hwf2 HB2 HS2 H) as ((A & B & C) & U).
      assert (Lb : forall q, In q (flat_map snd (bt :: br)) -> (q < length h)%nat).
      { intros q Hq. apply in_flat_map in Hq. destruct Hq as (u & Hu & Hq). apply (sw_ord _ _ _ _ HB u q Hu Hq). }
      assert (Ls : forall q, In q (flat_map snd (st :: sr)) -> (q < length h)%nat).
      { intros q Hq. apply in_flat_map in Hq. destruct Hq as (u & Hu & Hq). apply (sw_ord _ _ _ _ HS u q Hu Hq). }
      assert (Pb : forall q, In q (snd bt) -> o_price (get h q) = fst bt) by (intros q Hq; apply (sw_ord _ _ _ _ HB bt q (or_introl eq_refl) Hq)).
      assert (Ps : forall q, In q (snd st) -> o_price (get h q) = fst st) by (intros q Hq; apply (sw_ord _ _ _ _ HS st q (or_introl eq_refl) Hq)).
      assert (Db : forall q, In q (flat_map snd (bt :: br)) -> changed h h' q -> (In q (snd bt) /\ changed h h2 q) \/ (In q (flat_map snd bs') /\ changed h2 h' q)).
      { intros q Hq Cq. destruct (changed_dec h2 h' q) as [X|X].
        - right. split; [|exact X]. destruct (in_dec Nat.eq_dec q (flat_map snd bs')) as [Y|Y]; [exact Y|]. exfalso. apply X, U; [exact Y|]. intros Z. exact (Hdis q (Is q Z) Hq).
        - left. assert (Y : changed h h2 q) by (unfold changed in *; rewrite X in Cq; exact Cq). split; [|exact Y].
          apply IB in Hq. destruct Hq as [Hq|Hq]; [exact Hq|]. exfalso. apply Y, Oth; [exact (NBr q Hq)|]. intros Z. apply (Hdis q); [apply IS; left; exact Z|apply IB; right; exact Hq]. }
      assert (Ds : forall q, In q (flat_map snd (st :: sr)) -> changed h h' q -> (In q (snd st) /\ changed h h2 q) \/ (In q (flat_map snd ss') /\ changed h2 h' q)).
      { intros q Hq Cq. destruct (changed_dec h2 h' q) as [X|X].
        - right. split; [|exact X]. destruct (in_dec Nat.eq_dec q (flat_map snd ss')) as [Y|Y]; [exact Y|]. exfalso. apply X, U; [|exact Y]. intros Z. exact (Hdis q Hq (Ib q Z)).
        - left. assert (Y : changed h h2 q) by (unfold changed in *; rewrite X in Cq; exact Cq). split; [|exact Y].
          apply IS in Hq. destruct Hq as [Hq|Hq]; [exact Hq|]. exfalso. apply Y, Oth; [|exact (NSr q Hq)]. intros Z. apply (Hdis q); [apply IS; right; exact Hq|apply IB; left; exact Z]. }
      assert (Gpos : forall q, In q (flat_map snd (st :: sr)) -> 0 < o_price (get h q)).
      { intros q Hq. pose proof (side_first h true Sell st sr q HS Hq) as X. cbv iota in X. lia. }
      split; [split; [|split]|].
      + intros f g Hf Hg Cf Cg. destruct (Db f Hf Cf) as [[If Rf]|[If Rf]], (Ds g Hg Cg) as [[Ig Rg]|[Ig Rg]].
        * rewrite (Pb f If), (Ps g Ig). exact Hcross.
        * destruct (B g Ig Rg) as (q & x & Hq & R & _). rewrite !Pr in R. pose proof (side_first h false Buy bt br q HB (Ib q Hq)) as X. cbn in X. rewrite (Pb f If). lia.
        * destruct (C f If Rf) as (q & x & Hq & R & _). rewrite !Pr in R. pose proof (side_first h true Sell st sr q HS (Is q Hq)) as X. cbn in X. rewrite (Ps g Ig). lia.
        * pose proof (A f g If Ig Rf Rg) as X. rewrite !Pr in X. exact X.
      + intros g Hg Cg. destruct (Ds g Hg Cg) as [[Ig Rg]|[Ig Rg]].
        * destruct (total_pos_some h (snd bt) p Hb0) as (q & Hq & X). exists q, p. split; [apply IB; left; exact Hq|]. rewrite (Ps g Ig), (Pb q Hq). split; [lia|exact X].
        * destruct (B g Ig Rg) as (q & x & Hq & R & X). rewrite !Pr in R. exists q, x. split; [exact (Ib q Hq)|]. split; [exact R|].
          apply (matchable_pos_back h _ h2 q x T Hwf (Lb q (Ib q Hq))); [pose proof (Gpos g Hg); lia|exact X].
      + intros f Hf Cf. destruct (Db f Hf Cf) as [[If Rf]|[If Rf]].
        * destruct (total_pos_some h (snd st) p Hs0) as (q & Hq & X). exists q, p. split; [apply IS; left; exact Hq|]. rewrite (Pb f If), (Ps q Hq). split; [lia|exact X].
        * destruct (C f If Rf) as (q & x & Hq & R & X). rewrite !Pr in R. exists q, x. split; [exact (Is q Hq)|]. split; [exact R|].
          apply (matchable_pos_back h _ h2 q x T Hwf (Ls q (Is q Hq))); [pose proof (Gpos q (Is q Hq)); lia|exact X].
      + intros q N1 N2. rewrite U.
        * apply Oth; [intros X; apply N1, IB; left; exact X|intros X; apply N2, IS; left; exact X].
        * intros X. exact (N1 (Ib q X)).
        * intros X. exact (N2 (Is q X)).
  Qed.
  (** strictly better-priced orders are served first *)
  Definition ahead (inc : bool) (h : heap) (r f : nat) : Prop := if inc then o_price (get h r) < o_price (get h f) else o_price (get h f) < o_price (get h r).

  Lemma prio_ahead h inc d h' p rest : forall pre, side_wf h inc d (pre ++ rest) -> prio (map snd pre) h h' p ->
    forall f r, In f (flat_map snd pre) -> In r (flat_map snd (pre ++ rest)) -> changed h h' f -> ahead inc h r f -> matchable_amount (get h' r) p = 0.
  Proof.
    induction pre as [|t pre IH]; intros HS Hpr f r Hf Hr Hc Ha; [destruct Hf|]. cbn [app map prio flat_map] in *. destruct Hpr as [P1 P2].
    apply in_app_or in Hf. pose proof (in_app_or _ _ _ Hr) as Hr2. destruct Hf as [Hf|Hf].
    - exfalso. destruct (sw_ord _ _ _ _ HS t f (or_introl eq_refl) Hf) as (_ & _ & Ef). pose proof (side_first h inc d t (pre ++ rest) r HS Hr) as X.
      unfold ahead in Ha. destruct inc; lia.
    - destruct Hr2 as [Hr2|Hr2].
      + apply P1; [|exact Hr2]. exists f. split; [rewrite concat_map_snd; exact Hf|exact Hc].
      + exact (IH (side_wf_tail _ _ _ _ _ HS) P2 f r Hf Hr2 Hc Ha).
  Qed.

  Definition single_good (h : heap) (bs ss : list tick) (h' : heap) (mp : dec) : Prop :=
    (forall f, In f (flat_map snd bs) -> changed h h' f -> mp <= o_price (get h f)) /\
    (forall g, In g (flat_map snd ss) -> changed h h' g -> o_price (get h g) <= mp) /\
    (forall f r, In f (flat_map snd bs) -> In r (flat_map snd bs) -> changed h h' f -> o_price (get h f) < o_price (get h r) -> matchable_amount (get h' r) mp = 0) /\
    (forall g r, In g (flat_map snd ss) -> In r (flat_map snd ss) -> changed h h' g -> o_price (get h r) < o_price (get h g) -> matchable_amount (get h' r) mp = 0) /\
    (exists tr, trace h tr h') /\ (h' = h \/ exists t, In t ss /\ fst t <= mp).

  Lemma match_single_cross h ob mp h' qd : wf_heap h -> 0 < mp -> side_wf h false Buy (buys ob) -> side_wf h true Sell (sells ob) ->
    match_single iter h ob mp = Some (Some (h', qd)) -> single_good h (buys ob) (sells ob) h' mp.
  Proof.
    intros Hwf Hmp HB HS. unfold match_single.
    destruct (side_prefix_app false mp (buys ob)) as [brest Eb].
    destruct (side_prefix_app true mp (sells ob)) as [srest Es].
    pose proof (side_prefix_accept false mp (buys ob)) as Ab.
    pose proof (side_prefix_accept true mp (sells ob)) as As.
    destruct (find_matchable_single_ok h ob mp) as (r & E & Hr).
    { eapply side_nonneg; eauto. rewrite Eb in HB. eapply side_wf_prefix; exact HB. }
    { eapply side_nonneg; eauto. rewrite Es in HS. eapply side_wf_prefix; exact HS. }
    rewrite E. destruct r as [m|]; [|intros X; discriminate X].
    set (bp := side_prefix false mp (buys ob)) in *. set (sp := side_prefix true mp (sells ob)) in *.
    destruct Hr as (Nb & Ns & Hm & Hm2). pose proof (sides_disjoint h _ _ HB HS) as Hdis.
    assert (HBp : ptrs_ok h (flat_map snd bp) Buy mp).
    { apply (side_wf_ptrs h false); [|reflexivity|assumption]. rewrite Eb in HB. eapply side_wf_prefix; exact HB. }
    assert (HSp : ptrs_ok h (flat_map snd sp) Sell mp).
    { apply (side_wf_ptrs h true); [|reflexivity|assumption]. rewrite Es in HS. eapply side_wf_prefix; exact HS. }
    assert (Ib : incl (flat_map snd bp) (flat_map snd (buys ob))).
    { rewrite Eb. rewrite flat_map_app. apply incl_appl, incl_refl. }
    assert (Is : incl (flat_map snd sp) (flat_map snd (sells ob))).
    { rewrite Es. rewrite flat_map_app. apply incl_appl, incl_refl. }
    destruct (distribute_to_ticks_ok iter Hiter mp Buy Hmp bp brest h m Hwf HBp) as (h1 & d1 & a & E1 & (P1 & La & Xa & Fa) & Pr1 & _).
    { rewrite <- side_total_sum. lia. }
    { assumption. }
    assert (E1' : distribute_to_ticks iter h (buys ob) m mp = Some (h1, d1)) by (rewrite Eb; exact E1). rewrite E1'.
    pose proof (phase_static _ _ _ _ _ _ P1) as St1.
    assert (Hsame1 : forall q, In q (flat_map snd (sells ob)) -> get h1 q = get h q).
    { intros q Hq. eapply phase_other; [exact P1|]. intros H2. apply (Hdis q); auto. }
    assert (Hsp1 : forall q, In q (flat_map snd sp) -> get h1 q = get h q) by auto.
    destruct (distribute_to_ticks_ok iter Hiter mp Sell Hmp sp srest h1 m) as (h2 & d2 & b & E2 & (P2 & Lb & Xb & Fb) & Pr2 & _).
    { eapply phase_wf; eassumption. }
    { eapply ptrs_ok_static; eassumption. }
    { rewrite (total_matchable_ext h h1) by assumption. rewrite <- side_total_sum. lia. }
    { assumption. }
    assert (E2' : distribute_to_ticks iter h1 (sells ob) m mp = Some (h2, d2)) by (rewrite Es; exact E2). rewrite E2'.
    intros X. injection X as X _. subst h'.
    assert (Hsame2 : forall q, In q (flat_map snd (buys ob)) -> get h2 q = get h1 q).
    { intros q Hq. eapply phase_other; [exact P2|]. intros H2. apply (Hdis q); auto. }
    assert (Hs2 : forall q, In q (flat_map snd bp) -> get h2 q = get h1 q) by auto.
    assert (Pr1' : prio (map snd bp) h h2 mp).
    { clear - Pr1 Hs2. revert Pr1 Hs2. induction bp as [|t bp IH]; intros Pr1 Hs2; [exact Logic.I|].
      cbn [map prio flat_map] in *. destruct Pr1 as [X Y]. split.
      - intros (q & Hq & Hc) r Hr. rewrite Hs2 by (apply in_or_app; auto). apply X; [|assumption].
        exists q. split; [assumption|]. rewrite <- Hs2; [assumption|]. rewrite concat_map_snd in Hq. apply in_or_app. auto.
      - apply IH; [assumption|]. intros q Hq. apply Hs2. apply in_or_app. auto. }
    assert (Pr2' : prio (map snd sp) h h2 mp).
    { apply (prio_ext _ h h1); [|assumption]. rewrite concat_map_snd. assumption. }
    assert (Cb : forall f, In f (flat_map snd (buys ob)) -> changed h h2 f -> In f (flat_map snd bp)).
    { intros f Hf Hc. destruct (in_dec Nat.eq_dec f (flat_map snd bp)) as [Y|Y]; [exact Y|]. exfalso. apply Hc. rewrite (Hsame2 f Hf). exact (phase_other _ _ _ _ _ _ f P1 Y). }
    assert (Cs : forall f, In f (flat_map snd (sells ob)) -> changed h h2 f -> In f (flat_map snd sp)).
    { intros f Hf Hc. destruct (in_dec Nat.eq_dec f (flat_map snd sp)) as [Y|Y]; [exact Y|]. exfalso. apply Hc. rewrite <- (Hsame1 f Hf). exact (phase_other _ _ _ _ _ _ f P2 Y). }
    split; [|split; [|split; [|split; [|split]]]].
    - intros f Hf Hc. destruct (proj2 HBp f (Cb f Hf Hc)) as (_ & Dd & Ac). unfold accepts in Ac. rewrite Dd in Ac. exact Ac.
    - intros g Hg Hc. destruct (proj2 HSp g (Cs g Hg Hc)) as (_ & Dd & Ac). unfold accepts in Ac. rewrite Dd in Ac. exact Ac.
    - intros f r Hf Hr Hc Hlt. rewrite Eb in HB, Hr. exact (prio_ahead h false Buy h2 mp brest bp HB Pr1' f r (Cb f Hf Hc) Hr Hc Hlt).
    - intros f r Hf Hr Hc Hlt. rewrite Es in HS, Hr. exact (prio_ahead h true Sell h2 mp srest sp HS Pr2' f r (Cs f Hf Hc) Hr Hc Hlt).
    - destruct P1 as (t1 & T1 & _), P2 as (t2 & T2 & _). exists (t1 ++ t2). exact (trace_app _ _ _ _ _ T1 T2).
    - right. destruct sp as [|t0 sp'] eqn:Esp; [congruence|]. exists t0. split; [rewrite Es; left; reflexivity|]. exact (As t0 (or_introl eq_refl)).
  Qed.

  (** No traded sell order asks more than a traded buy order offers. *)
  Definition no_cross (h : heap) (bs ss : list tick) (h' : heap) : Prop :=
    forall f g, In f (flat_map snd bs) -> In g (flat_map snd ss) -> changed h h' f -> changed h h' g -> o_price (get h g) <= o_price (get h f).

  Lemma match_book_cross h ob last h' mp qd m : wf_heap h -> 0 < last -> (P18 <= last \/ forall t, In t (sells ob) -> P18 <= fst t) -> side_wf h false Buy (buys ob) -> side_wf h true Sell (sells ob) ->
    match_book iter h ob last = Some (h', mp, qd, m) -> no_cross h (buys ob) (sells ob) h'.
  Proof.
    intros Hwf Hl0 Hl HB HS. pose proof P18_pos as H18. unfold match_book.
    assert (Stop : no_cross h (buys ob) (sells ob) h) by (intros f g _ _ X; exfalso; apply X; reflexivity).
    destruct (match_single iter h ob last) as [r|] eqn:Er.
    2:{ destruct (buys ob); [intros X; injection X as <- _ _ _; exact Stop|]. destruct (sells ob); intros X; [injection X as <- _ _ _; exact Stop|discriminate X]. }
    assert (Mid : exists h1 q1 m1, (match r with Some (h1, q) => (h1, q, true) | None => (h, 0, false) end) = (h1, q1, m1) /\ single_good h (buys ob) (sells ob) h1 last).
    { destruct r as [[h1 q1]|].
      - exists h1, q1, true. split; [reflexivity|]. exact (match_single_cross h ob last h1 q1 Hwf ltac:(lia) HB HS Er).
      - exists h, 0, false. split; [reflexivity|]. unfold single_good, changed. repeat match goal with |- _ /\ _ => split end.
        + intros f _ X. congruence.
        + intros f _ X. congruence.
        + intros f r _ _ X. congruence.
        + intros f r _ _ X. congruence.
        + exists []. constructor.
        + left. reflexivity. }
    destruct Mid as (h1 & q1 & m1 & -> & (A1 & A2 & A3 & A4 & (t1 & T1) & A5)).
    pose proof (trace_static _ _ _ T1) as St. pose proof (trace_wf _ _ _ T1 Hwf) as Hwf1.
    assert (Pr : forall q, o_price (get h1 q) = o_price (get h q)) by (intros q; destruct St as [_ S]; apply S).
    assert (One : no_cross h (buys ob) (sells ob) h1).
    { intros f g Hf Hg Cf Cg. pose proof (A1 f Hf Cf). pose proof (A2 g Hg Cg). lia. }
    assert (Two : loop_good h1 (buys ob) (sells ob) h' -> no_cross h (buys ob) (sells ob) h').
    { intros (L1 & L2 & L3) f g Hf Hg Cf Cg. 
      destruct (changed_dec h1 h' f) as [Rf|Rf], (changed_dec h1 h' g) as [Rg|Rg].
      - pose proof (L1 f g Hf Hg Rf Rg) as X. rewrite !Pr in X. exact X.
      - (* the sell traded first, the buy in the search *)
        assert (Cg1 : changed h h1 g) by (unfold changed in *; rewrite Rg in Cg; exact Cg).
        destruct (L3 f Hf Rf) as (q & x & Hq & R & X). rewrite !Pr in R.
        destruct (Z_lt_le_dec (o_price (get h q)) (o_price (get h g))) as [Y|Y]; [|lia].
        destruct (Z_le_gt_dec (o_price (get h g)) (o_price (get h f))) as [W|W]; [exact W|]. exfalso.
        pose proof (A4 g q Hg Hq Cg1 Y) as Zr. pose proof (A2 g Hg Cg1).
        apply in_flat_map in Hq. destruct Hq as (u & Hu & Hq). destruct (sw_ord _ _ _ _ HS u q Hu Hq) as (Lq & Dq & Pq). pose proof (sw_pos _ _ _ _ HS u Hu).
        pose proof (sell_zero_mono (get h1 q) last x) as M. rewrite M in X; [lia| | |lia|exact Zr].
        + apply Hwf1. destruct St as [L _]. rewrite L. exact Lq.
        + destruct St as [_ S]. destruct (S q) as (-> & _). exact Dq.
      - assert (Cf1 : changed h h1 f) by (unfold changed in *; rewrite Rf in Cf; exact Cf).
        destruct (L2 g Hg Rg) as (q & x & Hq & R & X). rewrite !Pr in R.
        destruct (Z_lt_le_dec (o_price (get h f)) (o_price (get h q))) as [Y|Y]; [|lia].
        destruct (Z_le_gt_dec (o_price (get h g)) (o_price (get h f))) as [W|W]; [exact W|]. exfalso.
        pose proof (A3 f q Hf Hq Cf1 Y) as Zr. pose proof (A1 f Hf Cf1).
        assert (Hl1 : P18 <= last).
        { destruct Hl as [Hl|Hl]; [exact Hl|]. destruct A5 as [A5|(t & Ht & A5)]; [exfalso; apply Cf1; rewrite A5; reflexivity|]. specialize (Hl t Ht). lia. }
        apply in_flat_map in Hq. destruct Hq as (u & Hu & Hq). destruct (sw_ord _ _ _ _ HB u q Hu Hq) as (Lq & Dq & Pq).
        pose proof (buy_zero_mono (get h1 q) last x) as M. rewrite M in X; [lia| | |lia|exact Zr].
        + apply Hwf1. destruct St as [L _]. rewrite L. exact Lq.
        + destruct St as [_ S]. destruct (S q) as (-> & _). exact Dq.
      - apply One; [exact Hf|exact Hg|unfold changed in *; rewrite Rf in Cf; exact Cf|unfold changed in *; rewrite Rg in Cg; exact Cg]. }
    assert (Lp : forall d, match_loop iter (S (length (buys ob) + length (sells ob))) d h1 (buys ob) (sells ob) last q1 m1 = Some (h', mp, qd, m) -> no_cross h (buys ob) (sells ob) h').
    { intros d H. apply Two. apply (match_loop_cross d (S (length (buys ob) + length (sells ob))) h1 (buys ob) (sells ob) last q1 m1 h' mp qd m Hwf1); [apply (side_wf_static h); assumption|apply (side_wf_static h); assumption|exact H]. }
    clear Two. remember (buys ob) as bs eqn:Eb. remember (sells ob) as ss eqn:Es. clear Eb Es.
    destruct bs as [|b0 br]; [intros X; injection X as <- _ _ _; exact Stop|]. destruct ss as [|s0 sr]; [intros X; injection X as <- _ _ _; exact Stop|].
    destruct (price_direction h ob last) eqn:Ed; [intros X; injection X as <- _ _ _; exact One|apply Lp|apply Lp].
  Qed.
End Cross.
