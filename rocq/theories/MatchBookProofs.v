(** The whole of Match: single price phase followed by continuous matching. *)
From Verif Require Import Base Dec DecProofs OrderModel MatchModel MatchSpec KeyedProofs OrderProofs MatchProofs MatchLoopProofs.
From Coq Require Import Permutation Sorted.

Lemma order_eq_dec (a b : order) : {a = b} + {a <> b}.
Proof. repeat decide equality. Qed.

(** [r] goes before [q] on side [d]: strictly better price, or same price and earlier batch. *)
Definition better (h : heap) (d : dir) (r q : nat) : Prop :=
  (match d with Buy => o_price (get h q) < o_price (get h r) | Sell => o_price (get h r) < o_price (get h q) end) \/
  (o_price (get h r) = o_price (get h q) /\ batch_before (o_batch (get h r)) (o_batch (get h q))).

(** [r] has nothing matchable left at some price it accepts. *)
Definition zero_at (h : heap) (r : nat) : Prop :=
  exists p, 0 < p /\ accepts (get h r) p /\ matchable_amount (get h r) p = 0.

Definition side_prio (h : heap) (ps : list nat) (h' : heap) (d : dir) : Prop :=
  forall r q, In r ps -> In q ps -> better h d r q -> get h' q <> get h q -> zero_at h' r.

Lemma better_static h h' d r q : heap_static h h' -> better h' d r q <-> better h d r q.
Proof.
  intros [_ S]. destruct (S r) as (_ & P1 & _ & _ & B1 & _), (S q) as (_ & P2 & _ & _ & B2 & _).
  unfold better. rewrite P1, P2, B1, B2. reflexivity.
Qed.

Lemma zero_at_trace h tr h' r : trace h tr h' -> wf_heap h -> (r < length h)%nat -> zero_at h r -> zero_at h' r.
Proof.
  intros T Hwf Hr (p & Hp & Ha & Hz). exists p. split; [assumption|]. split.
  - apply (accepts_static (get h r)); [|assumption]. apply (trace_static _ _ _ T).
  - eapply matchable_trace_mono; eassumption.
Qed.

Record side_wf (h : heap) (inc : bool) (d : dir) (ts : list tick) : Prop := {
  sw_sorted : StronglySorted (tick_order inc) (map fst ts);
  sw_nodup : NoDup (flat_map snd ts);
  sw_pos : forall t, In t ts -> 0 < fst t;
  sw_ord : forall t p, In t ts -> In p (snd t) -> (p < length h)%nat /\ o_dir (get h p) = d /\ o_price (get h p) = fst t }.

Lemma side_wf_static h h' inc d ts : heap_static h h' -> side_wf h inc d ts -> side_wf h' inc d ts.
Proof.
  intros [L S] [A B C D]. constructor; auto. intros t p Ht Hp. destruct (D t p Ht Hp) as (D1 & D2 & D3).
  destruct (S p) as (S1 & S2 & _). split; [lia|]. split; congruence.
Qed.

Lemma side_wf_tail h inc d t ts : side_wf h inc d (t :: ts) -> side_wf h inc d ts.
Proof.
  intros [A B C D]. constructor.
  - cbn in A. inversion A; assumption.
  - cbn in B. apply NoDup_app_inv in B. apply B.
  - intros u Hu. apply C. right. assumption.
  - intros u p Hu. apply D. right. assumption.
Qed.

Lemma side_wf_in h inc d ts p : side_wf h inc d ts -> In p (flat_map snd ts) -> (p < length h)%nat.
Proof. intros [_ _ _ D] Hp. apply in_flat_map in Hp. destruct Hp as (t & Ht & Hp). apply (D t p Ht Hp). Qed.

Definition side_acc (inc : bool) (t : tick) (p : dec) : Prop := if inc then fst t <= p else p <= fst t.

Lemma side_wf_ptrs h inc d ts p : side_wf h inc d ts -> (d = if inc then Sell else Buy) ->
  (forall t, In t ts -> side_acc inc t p) -> ptrs_ok h (flat_map snd ts) d p.
Proof.
  intros [A B C D] Hd Hacc. split; [assumption|]. intros q Hq. apply in_flat_map in Hq. destruct Hq as (t & Ht & Hq).
  destruct (D t q Ht Hq) as (D1 & D2 & D3). split; [assumption|]. split; [assumption|].
  specialize (Hacc t Ht). unfold accepts, side_acc in *. rewrite D2, D3, Hd. destruct inc; assumption.
Qed.

Lemma tick_ptrs h inc d t ts p : side_wf h inc d (t :: ts) -> (d = if inc then Sell else Buy) ->
  side_acc inc t p -> ptrs_ok h (snd t) d p.
Proof.
  intros H Hd Ha. assert (Hs : side_wf h inc d [t]).
  { destruct H as [A B C D]. constructor.
    - cbn. constructor; constructor.
    - cbn in *. rewrite app_nil_r. apply NoDup_app_inv in B. apply B.
    - intros u [<-|[]]. apply C. left. reflexivity.
    - intros u q [<-|[]]. apply D. left. reflexivity. }
  pose proof (side_wf_ptrs h inc d [t] p Hs Hd) as G. cbn in G. rewrite app_nil_r in G. apply G.
  intros u [<-|[]]. assumption.
Qed.

(** no order of a later tick is better than an order of the first tick *)
Lemma better_first h inc d t ts r q : side_wf h inc d (t :: ts) -> (d = if inc then Sell else Buy) ->
  In q (snd t) -> In r (flat_map snd ts) -> ~ better h d r q.
Proof.
  intros [A _ _ D] Hd Hq Hr Hb. apply in_flat_map in Hr. destruct Hr as (u & Hu & Hr).
  destruct (D t q (or_introl eq_refl) Hq) as (_ & _ & Pq). destruct (D u r (or_intror Hu) Hr) as (_ & _ & Pr).
  cbn in A. inversion A as [|? ? _ HF]; subst. rewrite Forall_forall in HF.
  assert (Ho : tick_order inc (fst t) (fst u)) by (apply HF; apply in_map; assumption).
  unfold better in Hb. rewrite Pq, Pr in Hb. destruct inc; cbn in *; lia.
Qed.

Lemma batch_prio_tick h inc d t ts h2 p r q : side_wf h inc d (t :: ts) -> (d = if inc then Sell else Buy) ->
  batch_prio h (snd t) h2 p -> In r (snd t) -> In q (snd t) -> better h d r q -> get h2 q <> get h q ->
  matchable_amount (get h2 r) p = 0.
Proof.
  intros [_ _ _ D] Hd Hb Hr Hq Hbet Hc. apply (Hb r q); auto.
  destruct (D t q (or_introl eq_refl) Hq) as (_ & _ & Pq). destruct (D t r (or_introl eq_refl) Hr) as (_ & _ & Pr).
  unfold better in Hbet. rewrite Pq, Pr in Hbet. destruct inc; subst d; destruct Hbet as [Hbet|[_ Hbet]]; (lia || assumption).
Qed.

(** one matching round changes only the first tick of a side *)
Lemma side_prio_step h inc d t ts h2 p tr h' (drop : bool) :
  side_wf h inc d (t :: ts) -> (d = if inc then Sell else Buy) -> 0 < p -> side_acc inc t p ->
  heap_static h h2 -> wf_heap h2 -> batch_prio h (snd t) h2 p ->
  (forall q, In q (flat_map snd ts) -> get h2 q = get h q) ->
  trace h2 tr h' ->
  (drop = true -> forall r, In r (snd t) -> matchable_amount (get h2 r) p = 0) ->
  side_prio h2 (flat_map snd (if drop then ts else t :: ts)) h' d ->
  side_prio h (flat_map snd (t :: ts)) h' d.
Proof.
  intros HS Hd Hp Hacc Hst Hwf2 Hbp Hsame T Hdrop IH r q Hr Hq Hbet Hc.
  pose proof (tick_ptrs h inc d t ts p HS Hd Hacc) as [_ Hptr].
  assert (Hzero : In r (snd t) -> matchable_amount (get h2 r) p = 0 -> zero_at h' r).
  { intros Hrt Hz. destruct (Hptr r Hrt) as (L & _ & Ac). eapply zero_at_trace; [exact T|assumption| |].
    - destruct Hst as [E _]. rewrite E. assumption.
    - exists p. split; [assumption|]. split; [|assumption]. apply (accepts_static (get h r)); [apply Hst|assumption]. }
  cbn [flat_map] in Hr, Hq. apply in_app_or in Hr. apply in_app_or in Hq.
  assert (Hb2 : better h2 d r q) by (apply better_static with (h := h); assumption).
  destruct drop.
  - destruct Hr as [Hr|Hr]; [apply Hzero; auto|].
    destruct Hq as [Hq|Hq]; [exfalso; eapply better_first; eassumption|].
    apply (IH r q); auto. rewrite Hsame by assumption. assumption.
  - destruct (order_eq_dec (get h2 q) (get h q)) as [Eq|Neq].
    + apply (IH r q); [| |assumption|congruence]; cbn [flat_map]; apply in_or_app; assumption.
    + destruct Hq as [Hq|Hq]; [|exfalso; auto].
      destruct Hr as [Hr|Hr]; [|exfalso; eapply better_first; eassumption].
      apply Hzero; [assumption|]. eapply batch_prio_tick; eassumption.
Qed.

(** ** amounts *)
Definition side_amt (h : heap) (d : dir) (tr : list fill) : Z :=
  sumZ (map (fun f => match d, o_dir (get h (f_ptr f)) with Buy, Buy => f_amt f | Sell, Sell => f_amt f | _, _ => 0 end) tr).

Lemma side_amt_app h d t1 t2 : side_amt h d (t1 ++ t2) = side_amt h d t1 + side_amt h d t2.
Proof. unfold side_amt. rewrite map_app. apply sumZ_app. Qed.
Lemma side_amt_static h h' d tr : heap_static h h' -> side_amt h' d tr = side_amt h d tr.
Proof.
  intros [_ S]. unfold side_amt. apply sumZ_map_ext. intros f _. destruct (S (f_ptr f)) as (-> & _). reflexivity.
Qed.

Lemma trace_pos h tr h' : trace h tr h' -> forall f, In f tr -> 0 < f_amt f /\ 0 < f_price f.
Proof.
  induction 1 as [h|h i a p rest h' Hi Hp Ha Hacc Htr IH]; intros f Hf; [destruct Hf|].
  destruct Hf as [<-|Hf]; [cbn; lia|auto].
Qed.

Lemma phase_side h ps price h' qd a d : phase h ps price h' qd a -> 0 < price ->
  (forall p, In p ps -> o_dir (get h p) = d) ->
  exists tr, trace h tr h' /\ qd = trace_diff h tr /\ (forall f, In f tr -> In (f_ptr f) ps /\ f_price f = price) /\
    a = trace_amt tr /\
    (forall d', side_amt h d' tr = match d, d' with Buy, Buy => a | Sell, Sell => a | _, _ => 0 end) /\
    match d with Buy => price * a <= qd * P18 | Sell => - qd * P18 <= price * a end.
Proof.
  intros (tr & T & D & F & A) Hpr Hd. exists tr. repeat (split; [assumption|]). subst qd a.
  assert (Hdir : forall f, In f tr -> o_dir (get h (f_ptr f)) = d) by (intros f Hf; apply Hd, F; assumption).
  pose proof (trace_pos _ _ _ T) as Hpos. clear T.
  unfold side_amt, trace_diff, trace_amt. induction tr as [|f tr IH].
  - cbn. split; [intros d'; destruct d, d'; reflexivity|]. destruct d; lia.
  - destruct IH as [I1 I2]; [intros g Hg; apply F; right; assumption|intros g Hg; apply Hdir; right; assumption|intros g Hg; apply Hpos; right; assumption|].
    pose proof (Hdir f (or_introl eq_refl)) as Ef. pose proof (Hpos f (or_introl eq_refl)) as Pf.
    destruct (F f (or_introl eq_refl)) as [_ Pp]. split.
    + intros d'. specialize (I1 d'). cbn [map]. rewrite !sumZ_cons, Ef. destruct d, d'; lia.
    + cbn [map]. rewrite !sumZ_cons. unfold fill_diff in *. rewrite Ef. rewrite Pp in *.
      pose proof P18_pos. destruct d.
      * rewrite fill_paid_val by nia. rewrite Ef. pose proof (ceil_value_bounds price (f_amt f)). lia.
      * rewrite fill_recv_val by nia. rewrite Ef. pose proof (floor_value_bounds price (f_amt f)). lia.
Qed.

(** What a part of the matching does: a trace over the orders of the two sides. *)
Record mres (h : heap) (bs ss : list tick) (h' : heap) (qd : Z) (tr : list fill) : Prop := {
  mr_trace : trace h tr h';
  mr_diff : qd = trace_diff h tr;
  mr_in : forall f, In f tr -> In (f_ptr f) (flat_map snd bs ++ flat_map snd ss);
  mr_nonneg : 0 <= qd;
  mr_le : side_amt h Sell tr <= side_amt h Buy tr;
  mr_eq : (forall t, In t ss -> P18 <= fst t) -> side_amt h Sell tr = side_amt h Buy tr;
  mr_bp : side_prio h (flat_map snd bs) h' Buy;
  mr_sp : side_prio h (flat_map snd ss) h' Sell }.

(** Two disjoint distributions at one price. *)
Lemma round_amounts h bps sps p h1 d1 a h2 d2 b : 0 < p ->
  phase h bps p h1 d1 a -> phase h1 sps p h2 d2 b ->
  (forall q, In q bps -> o_dir (get h q) = Buy) -> (forall q, In q sps -> o_dir (get h q) = Sell) -> b <= a ->
  exists tr, trace h tr h2 /\ d1 + d2 = trace_diff h tr /\
    (forall f, In f tr -> In (f_ptr f) (bps ++ sps) /\ f_price f = p) /\ 0 <= d1 + d2 /\
    side_amt h Buy tr = a /\ side_amt h Sell tr = b /\ (0 < a -> tr <> []).
Proof.
  intros Hp P1 P2 Hb Hs Hba. pose proof (phase_static _ _ _ _ _ _ P1) as S1. pose proof P18_pos as H18.
  destruct (phase_side _ _ _ _ _ _ Buy P1 Hp Hb) as (t1 & T1 & D1 & F1 & A1 & SA1 & V1).
  destruct (phase_side _ _ _ _ _ _ Sell P2 Hp) as (t2 & T2 & D2 & F2 & A2 & SA2 & V2).
  { intros q Hq. destruct S1 as [_ S1]. destruct (S1 q) as (-> & _). auto. }
  exists (t1 ++ t2). split; [eapply trace_app; eassumption|].
  rewrite trace_diff_app, !side_amt_app.
  rewrite <- (trace_diff_static h h1 t2 S1), <- !(side_amt_static h h1 _ t2 S1), SA1, SA1, SA2, SA2.
  split; [lia|]. split.
  - intros f Hf. apply in_app_or in Hf. destruct Hf as [Hf|Hf].
    + destruct (F1 f Hf). split; [apply in_or_app; left|]; assumption.
    + destruct (F2 f Hf). split; [apply in_or_app; right|]; assumption.
  - split; [nia|]. split; [lia|]. split; [lia|]. intros Ha E. apply app_eq_nil in E. destruct E as [-> _].
    cbn in A1. lia.
Qed.

(** prefix priorities give side priorities *)
Lemma prefix_side_prio h inc d pre rest h' p :
  side_wf h inc d (pre ++ rest) -> (d = if inc then Sell else Buy) -> 0 < p ->
  (forall t, In t pre -> side_acc inc t p) -> heap_static h h' ->
  prio (map snd pre) h h' p -> (forall t, In t pre -> batch_prio h (snd t) h' p) ->
  (forall q, In q (flat_map snd rest) -> get h' q = get h q) ->
  side_prio h (flat_map snd (pre ++ rest)) h' d.
Proof.
  induction pre as [|t pre IH]; intros HS Hd Hp Hacc Hst Hpr Hbp Hrest.
  - cbn [app]. intros r q _ Hq _ Hc. exfalso. auto.
  - cbn [app map prio] in *. destruct Hpr as [Hpr1 Hpr2].
    pose proof (tick_ptrs h inc d t _ p HS Hd (Hacc t (or_introl eq_refl))) as [_ Hptr].
    assert (Hz : forall r, In r (snd t) -> matchable_amount (get h' r) p = 0 -> zero_at h' r).
    { intros r Hr Hz. exists p. split; [assumption|]. split; [|assumption].
      apply (accepts_static (get h r)); [apply Hst|]. apply Hptr. assumption. }
    intros r q Hr Hq Hb Hc. cbn [flat_map] in Hr, Hq. apply in_app_or in Hr, Hq.
    destruct Hq as [Hq|Hq].
    + destruct Hr as [Hr|Hr]; [|exfalso; eapply better_first; eassumption].
      apply Hz; [assumption|]. eapply batch_prio_tick; try eassumption. apply Hbp. left. reflexivity.
    + destruct Hr as [Hr|Hr].
      * apply Hz; [assumption|]. apply Hpr1; [|assumption]. exists q. split; [|assumption].
        rewrite concat_map_snd. rewrite flat_map_app in Hq. apply in_app_or in Hq. destruct Hq as [Hq|Hq]; [assumption|].
        exfalso. auto.
      * assert (HS' := side_wf_tail _ _ _ _ _ HS).
        apply (IH HS' Hd Hp) with (q := q); auto.
        -- intros u Hu. apply Hacc. right. assumption.
        -- intros u Hu. apply Hbp. right. assumption.
Qed.

Lemma side_wf_prefix h inc d pre rest : side_wf h inc d (pre ++ rest) -> side_wf h inc d pre.
Proof.
  intros [A B C D]. constructor.
  - rewrite map_app in A. apply (sorted_app_inv (tick_order inc)) in A. apply A.
  - rewrite flat_map_app in B. apply NoDup_app_inv in B. apply B.
  - intros t Ht. apply C. apply in_or_app. auto.
  - intros t p Ht. apply D. apply in_or_app. auto.
Qed.

Lemma side_nonneg h inc d ts mp : wf_heap h -> 0 < mp -> side_wf h inc d ts -> nonneg_side h mp ts.
Proof.
  intros Hwf Hmp [_ _ _ D] t Ht. apply total_matchable_nonneg; auto. intros p Hp. apply (D t p Ht Hp).
Qed.

Section Book.
  Variable iter : list (nat * Z) -> list (nat * Z).
  Hypothesis Hiter : is_perm_iter iter.

  Lemma sides_disjoint h bs ss : side_wf h false Buy bs -> side_wf h true Sell ss ->
    forall q, In q (flat_map snd ss) -> ~ In q (flat_map snd bs).
  Proof.
    intros [_ _ _ D1] [_ _ _ D2] q Hs Hb. apply in_flat_map in Hs, Hb.
    destruct Hs as (t & Ht & Hs), Hb as (u & Hu & Hb).
    destruct (D2 t q Ht Hs) as (_ & E2 & _), (D1 u q Hu Hb) as (_ & E1 & _). congruence.
  Qed.

  Lemma match_single_ok h ob mp : wf_heap h -> 0 < mp ->
    side_wf h false Buy (buys ob) -> side_wf h true Sell (sells ob) ->
    exists r, match_single iter h ob mp = Some r /\
      match r with
      | None => True
      | Some (h', qd) => exists tr, mres h (buys ob) (sells ob) h' qd tr /\ tr <> [] /\
          (forall f, In f tr -> f_price f = mp) /\
          exists m, find_matchable_single h ob mp = Some (Some m) /\ 0 < m /\
            side_amt h Buy tr = m /\ side_amt h Sell tr <= m /\
            (P18 <= mp -> side_amt h Sell tr = m) /\
            m <= side_total h mp (side_prefix false mp (buys ob)) /\
            m <= side_total h mp (side_prefix true mp (sells ob)) /\
            (side_total h mp (side_prefix false mp (buys ob)) <= m ->
               forall q, In q (flat_map snd (side_prefix false mp (buys ob))) -> matchable_amount (get h' q) mp = 0) /\
            (side_total h mp (side_prefix true mp (sells ob)) <= m ->
               forall q, In q (flat_map snd (side_prefix true mp (sells ob))) -> matchable_amount (get h' q) mp = 0)
      end.
  Proof.
    intros Hwf Hmp HB HS. unfold match_single.
    destruct (side_prefix_app false mp (buys ob)) as [brest Eb].
    destruct (side_prefix_app true mp (sells ob)) as [srest Es].
    pose proof (side_prefix_accept false mp (buys ob)) as Ab.
    pose proof (side_prefix_accept true mp (sells ob)) as As.
    destruct (find_matchable_single_ok h ob mp) as (r & E & Hr).
    { eapply side_nonneg; eauto. rewrite Eb in HB. eapply side_wf_prefix; exact HB. }
    { eapply side_nonneg; eauto. rewrite Es in HS. eapply side_wf_prefix; exact HS. }
    rewrite E. destruct r as [m|]; [|exists None; auto].
    set (bp := side_prefix false mp (buys ob)) in *. set (sp := side_prefix true mp (sells ob)) in *.
    destruct Hr as (Nb & Ns & Hm & Hm2). pose proof (sides_disjoint h _ _ HB HS) as Hdis.
    assert (HBp : ptrs_ok h (flat_map snd bp) Buy mp).
    { apply (side_wf_ptrs h false); [|reflexivity|assumption]. rewrite Eb in HB. eapply side_wf_prefix; exact HB. }
    assert (HSp : ptrs_ok h (flat_map snd sp) Sell mp).
    { apply (side_wf_ptrs h true); [|reflexivity|assumption]. rewrite Es in HS. eapply side_wf_prefix; exact HS. }
    assert (Ib : incl (flat_map snd bp) (flat_map snd (buys ob))).
    { rewrite Eb. rewrite flat_map_app. apply incl_appl, incl_refl. }
    assert (Is : incl (flat_map snd sp) (flat_map snd (sells ob))).
    { rewrite Es. rewrite flat_map_app. apply incl_appl, incl_refl. }
    assert (Dps : forall q, In q (flat_map snd sp) -> ~ In q (flat_map snd bp)).
    { intros q H1 H2. apply (Hdis q); auto. }
    destruct (distribute_to_ticks_ok iter Hiter mp Buy Hmp bp brest h m Hwf HBp) as (h1 & d1 & a & E1 & (P1 & La & Xa & Fa) & Pr1 & Bp1).
    { rewrite <- side_total_sum. lia. }
    { assumption. }
    assert (E1' : distribute_to_ticks iter h (buys ob) m mp = Some (h1, d1)) by (rewrite Eb; exact E1). rewrite E1'.
    pose proof (phase_static _ _ _ _ _ _ P1) as St1.
    assert (Hsame1 : forall q, In q (flat_map snd (sells ob)) -> get h1 q = get h q).
    { intros q Hq. eapply phase_other; [exact P1|]. intros H2. apply (Hdis q); auto. }
    assert (Hsp1 : forall q, In q (flat_map snd sp) -> get h1 q = get h q) by auto.
    destruct (distribute_to_ticks_ok iter Hiter mp Sell Hmp sp srest h1 m) as (h2 & d2 & b & E2 & (P2 & Lb & Xb & Fb) & Pr2 & Bp2).
    { eapply phase_wf; eassumption. }
    { eapply ptrs_ok_static; eassumption. }
    { rewrite (total_matchable_ext h h1) by assumption. rewrite <- side_total_sum. lia. }
    { assumption. }
    assert (E2' : distribute_to_ticks iter h1 (sells ob) m mp = Some (h2, d2)) by (rewrite Es; exact E2). rewrite E2'.
    pose proof (phase_static _ _ _ _ _ _ P2) as St2.
    assert (St : heap_static h h2) by (eapply heap_static_trans; eassumption).
    assert (Hsame2 : forall q, In q (flat_map snd (buys ob)) -> get h2 q = get h1 q).
    { intros q Hq. eapply phase_other; [exact P2|]. intros H2. apply (Hdis q); auto. }
    assert (Ea : a = m). { apply Xa; [left; reflexivity|]. rewrite <- side_total_sum. lia. }
    destruct (round_amounts h _ _ mp h1 d1 a h2 d2 b Hmp P1 P2) as (tr & T & D & F & N & SB & SS & NE).
    { intros q Hq. apply HBp. assumption. }
    { intros q Hq. apply HSp. assumption. }
    { lia. }
    exists (Some (h2, d1 + d2)). split; [reflexivity|]. exists tr. split; [|split; [apply NE; lia|split; [intros f Hf; apply F; assumption|]]].
    - constructor; auto.
      + intros f Hf. apply F in Hf. destruct Hf as [Hf _]. apply in_app_or in Hf. apply in_or_app. destruct Hf; auto.
      + lia.
      + intros Hge. rewrite SB, SS, Ea. apply Xb.
        * right. destruct sp as [|t0 sp'] eqn:Esp; [congruence|]. specialize (As t0 (or_introl eq_refl)). cbn in As.
          assert (In t0 (sells ob)) as Hin by (rewrite Es; left; reflexivity). specialize (Hge t0 Hin). lia.
        * rewrite (total_matchable_ext h h1) by assumption. rewrite <- side_total_sum. lia.
      + assert (HBs : forall q, In q (flat_map snd brest) -> get h2 q = get h q).
        { intros q Hq. rewrite Hsame2 by (rewrite Eb, flat_map_app; apply in_or_app; auto).
          eapply phase_other; [exact P1|]. rewrite Eb in HB. destruct HB as [_ B _ _]. rewrite flat_map_app in B.
          apply NoDup_app_inv in B. destruct B as (_ & _ & B). auto. }
        assert (Hs2 : forall q, In q (flat_map snd bp) -> get h2 q = get h1 q) by auto.
        assert (Pr1' : prio (map snd bp) h h2 mp).
        { clear - Pr1 Hs2. revert Pr1 Hs2. induction bp as [|t bp IH]; intros Pr1 Hs2; [exact I|].
          cbn [map prio flat_map] in *. destruct Pr1 as [X Y]. split.
          - intros (q & Hq & Hc) r Hr. rewrite Hs2 by (apply in_or_app; auto). apply X; [|assumption].
            exists q. split; [assumption|]. rewrite <- Hs2; [assumption|]. rewrite concat_map_snd in Hq. apply in_or_app. auto.
          - apply IH; [assumption|]. intros q Hq. apply Hs2. apply in_or_app. auto. }
        rewrite Eb in HB |- *. apply (prefix_side_prio h false Buy bp brest h2 mp); auto.
        intros t Ht r q Hr Hq Hb Hc.
        assert (Hin : forall x, In x (snd t) -> In x (flat_map snd bp)) by (intros x Hx; apply in_flat_map; exists t; auto).
        rewrite Hs2 by auto. rewrite Hs2 in Hc by auto. apply (Bp1 t Ht r q); auto.
      + assert (HSs : forall q, In q (flat_map snd srest) -> get h2 q = get h q).
        { intros q Hq. rewrite <- (Hsame1 q) by (rewrite Es, flat_map_app; apply in_or_app; auto).
          eapply phase_other; [exact P2|]. rewrite Es in HS. destruct HS as [_ B _ _]. rewrite flat_map_app in B.
          apply NoDup_app_inv in B. destruct B as (_ & _ & B). auto. }
        rewrite Es in HS |- *. apply (prefix_side_prio h true Sell sp srest h2 mp); auto.
        * apply (prio_ext _ h h1); [|assumption]. rewrite concat_map_snd. assumption.
        * intros t Ht. apply (batch_prio_ext h h1); [|auto]. intros q Hq. apply Hsp1. apply in_flat_map. exists t. auto.
    - exists m. split; [reflexivity|]. split; [lia|]. split; [lia|]. split; [lia|]. split; [|split; [lia|split; [lia|split]]].
      + intros H1. rewrite SS. apply Xb; [right; assumption|].
        rewrite (total_matchable_ext h h1) by assumption. rewrite <- side_total_sum. lia.
      + intros Hle q Hq. rewrite Hsame2 by auto. rewrite side_total_sum in Hle. apply (proj2 (Fa Hle)). assumption.
      + intros Hle q Hq. rewrite side_total_sum, <- (total_matchable_ext h h1) in Hle by assumption. apply (proj2 (Fb Hle)). assumption.
  Qed.

  Lemma mres_nil h bs ss : mres h bs ss h 0 [].
  Proof.
    constructor.
    - constructor.
    - reflexivity.
    - intros f [].
    - lia.
    - apply Z.le_refl.
    - reflexivity.
    - intros r q _ _ _ Hc. congruence.
    - intros r q _ _ _ Hc. congruence.
  Qed.

  (** orders of ticks that are only ever dropped from the front *)
  Lemma match_loop_ok d : forall fuel h bs ss mp qd matched, wf_heap h ->
    side_wf h false Buy bs -> side_wf h true Sell ss -> (length bs + length ss < fuel)%nat ->
    exists h' mp' qd' m' tr, match_loop iter fuel d h bs ss mp qd matched = Some (h', mp', qd + qd', m') /\
      mres h bs ss h' qd' tr /\
      (m' = true <-> matched = true \/ tr <> []) /\ (tr = [] -> mp' = mp) /\
      (tr <> [] -> exists f, In f tr /\ f_price f = mp') /\
      (forall f, In f tr -> exists t, In t (match d with PriceIncreasing => ss | _ => bs end) /\ f_price f = fst t) /\
      (forall f, In f tr -> match d with PriceIncreasing => f_price f <= mp' | _ => mp' <= f_price f end).
  Proof.
    induction fuel as [|fuel IH]; intros h bs ss mp qd matched Hwf HB HS Hf; [lia|]. cbn [match_loop].
    assert (Hstop : exists h' mp' qd' m' tr, Some (h, mp, qd, matched) = Some (h', mp', qd + qd', m') /\
      mres h bs ss h' qd' tr /\
      (m' = true <-> matched = true \/ tr <> []) /\ (tr = [] -> mp' = mp) /\
      (tr <> [] -> exists f, In f tr /\ f_price f = mp') /\
      (forall f, In f tr -> exists t, In t (match d with PriceIncreasing => ss | _ => bs end) /\ f_price f = fst t) /\
      (forall f, In f tr -> match d with PriceIncreasing => f_price f <= mp' | _ => mp' <= f_price f end)).
    { exists h, mp, 0, matched, []. split; [rewrite Z.add_0_r; reflexivity|]. split; [apply mres_nil|].
      split; [split; [auto|intros [?|?]; congruence]|]. split; [auto|]. split; [congruence|]. split; intros f []. }
    destruct bs as [|bt br]; [exact Hstop|]. destruct ss as [|st sr]; [exact Hstop|].
    destruct (Z.leb_spec (fst st) (fst bt)) as [Hcross|_]; [|exact Hstop]. clear Hstop.
    set (p := match d with PriceIncreasing => fst st | _ => fst bt end).
    assert (Hp : fst st <= p <= fst bt /\ (p = fst st \/ p = fst bt)) by (unfold p; destruct d; lia).
    assert (Hpd : match d with PriceIncreasing => p = fst st | _ => p = fst bt end) by (unfold p; destruct d; reflexivity).
    clearbody p. destruct Hp as [Hp Hpe].
    assert (Hst_pos : 0 < fst st) by (apply (sw_pos _ _ _ _ HS); left; reflexivity).
    assert (Hp0 : 0 < p) by lia.
    pose proof (tick_ptrs h false Buy bt br p HB eq_refl ltac:(cbn; lia)) as OB.
    pose proof (tick_ptrs h true Sell st sr p HS eq_refl ltac:(cbn; lia)) as OS.
    assert (LB : forall q, In q (snd bt) -> (q < length h)%nat) by (intros q Hq; apply OB; assumption).
    assert (LS : forall q, In q (snd st) -> (q < length h)%nat) by (intros q Hq; apply OS; assumption).
    pose proof (total_matchable_nonneg h _ p Hwf Hp0 LB) as NB.
    pose proof (total_matchable_nonneg h _ p Hwf Hp0 LS) as NS.
    set (bo := total_matchable h (snd bt) p) in *. set (so := total_matchable h (snd st) p) in *.
    pose proof (sides_disjoint h _ _ HB HS) as Hdis.
    destruct (Z.leb_spec bo 0) as [Hb0|Hb0]; [|destruct (Z.leb_spec so 0) as [Hs0|Hs0]].
    - (* drop the buy tick: nothing matchable *)
      destruct (IH h br (st :: sr) mp qd matched Hwf (side_wf_tail _ _ _ _ _ HB) HS) as (h' & mp' & qd' & m' & tr & E & [R1 R2 R3 R4 R5 R6 R7 R8] & C1 & C2 & C3 & C4 & C5).
      { cbn in *. lia. }
      exists h', mp', qd', m', tr. split; [exact E|]. split; [|split; [assumption|split; [assumption|split; [assumption|split; [|exact C5]]]]].
      + constructor; auto.
        * intros f Hf'. specialize (R3 f Hf'). apply in_app_or in R3. cbn [flat_map]. rewrite <- app_assoc. apply in_or_app. right. apply in_or_app. assumption.
        * apply (side_prio_step h false Buy bt br h p tr h' true); auto.
          -- cbn; lia.
          -- apply heap_static_refl.
          -- intros r q Hr Hq _ Hc. congruence.
          -- intros _ r Hr. apply (total_zero_each h (snd bt) p); auto.
      + intros f Hf'. destruct (C4 f Hf') as (t & Ht & Ep). exists t. split; [destruct d; try (right; assumption); assumption|assumption].
    - (* drop the sell tick *)
      destruct (IH h (bt :: br) sr mp qd matched Hwf HB (side_wf_tail _ _ _ _ _ HS)) as (h' & mp' & qd' & m' & tr & E & [R1 R2 R3 R4 R5 R6 R7 R8] & C1 & C2 & C3 & C4 & C5).
      { cbn in *. lia. }
      exists h', mp', qd', m', tr. split; [exact E|]. split; [|split; [assumption|split; [assumption|split; [assumption|split; [|exact C5]]]]].
      + constructor; auto.
        * intros f Hf'. specialize (R3 f Hf'). apply in_app_or in R3. apply in_or_app. destruct R3; [auto|]. right. cbn. apply in_or_app. auto.
        * intros Hge. apply R6. intros t Ht. apply Hge. right. assumption.
        * apply (side_prio_step h true Sell st sr h p tr h' true); auto.
          -- cbn; lia.
          -- apply heap_static_refl.
          -- intros r q Hr Hq _ Hc. congruence.
          -- intros _ r Hr. apply (total_zero_each h (snd st) p); auto.
      + intros f Hf'. destruct (C4 f Hf') as (t & Ht & Ep). exists t. split; [|assumption].
        destruct d; [assumption|right; assumption|assumption].
    - (* a round *)
      set (m := if bo <=? so then bo else so).
      assert (Em : m = Z.min bo so) by (unfold m; destruct (Z.leb_spec bo so); lia).
      assert (Em2 : (if so <=? bo then so else bo) = m) by (rewrite Em; destruct (Z.leb_spec so bo); lia).
      rewrite Em2.
      destruct (distribute_to_tick_ok iter Hiter p Buy h bt m Hp0 Hwf OB ltac:(lia)) as (h1 & d1 & a & E1 & (P1 & La & Xa & Fa) & B1).
      fold bo in Xa, Fa. rewrite E1.
      pose proof (phase_static _ _ _ _ _ _ P1) as St1. pose proof (phase_wf _ _ _ _ _ _ P1 Hwf) as Hwf1.
      assert (InB : forall q, In q (snd bt) -> In q (flat_map snd (bt :: br))) by (intros q Hq; cbn; apply in_or_app; auto).
      assert (InS : forall q, In q (snd st) -> In q (flat_map snd (st :: sr))) by (intros q Hq; cbn; apply in_or_app; auto).
      assert (Hsame1 : forall q, In q (flat_map snd (st :: sr)) -> get h1 q = get h q).
      { intros q Hq. eapply phase_other; [exact P1|]. intros H2. apply (Hdis q); auto. }
      destruct (distribute_to_tick_ok iter Hiter p Sell h1 st m Hp0 Hwf1) as (h2 & d2 & b & E2 & (P2 & Lb & Xb & Fb) & B2).
      { eapply ptrs_ok_static; eassumption. }
      { lia. }
      rewrite (total_matchable_ext h h1) in Xb, Fb by auto. fold so in Xb, Fb. rewrite E2.
      pose proof (phase_static _ _ _ _ _ _ P2) as St2. pose proof (phase_wf _ _ _ _ _ _ P2 Hwf1) as Hwf2.
      assert (St : heap_static h h2) by (eapply heap_static_trans; eassumption).
      assert (Hsame2 : forall q, In q (flat_map snd (bt :: br)) -> get h2 q = get h1 q).
      { intros q Hq. eapply phase_other; [exact P2|]. intros H2. apply (Hdis q); auto. }
      assert (Ea : a = m) by (apply Xa; [left; reflexivity|lia]).
      destruct (round_amounts h _ _ p h1 d1 a h2 d2 b Hp0 P1 P2) as (tr1 & T1 & D1 & F1 & N1 & SB & SS & NE).
      { intros q Hq. apply OB. assumption. }
      { intros q Hq. apply OS. assumption. }
      { lia. }
      assert (NBr : forall q, In q (flat_map snd br) -> ~ In q (snd bt)).
      { pose proof (sw_nodup _ _ _ _ HB) as N. cbn in N. apply NoDup_app_inv in N. apply N. }
      assert (NSr : forall q, In q (flat_map snd sr) -> ~ In q (snd st)).
      { pose proof (sw_nodup _ _ _ _ HS) as N. cbn in N. apply NoDup_app_inv in N. apply N. }
      assert (B1' : batch_prio h (snd bt) h2 p).
      { intros r q Hr Hq Hb Hc. rewrite Hsame2 in Hc |- * by auto. apply (B1 r q); auto. }
      assert (B2' : batch_prio h (snd st) h2 p).
      { apply (batch_prio_ext h h1); auto. }
      set (bs' := if bo <=? so then br else bt :: br). set (ss' := if so <=? bo then sr else st :: sr).
      assert (HB2 : side_wf h2 false Buy bs').
      { apply (side_wf_static h); [assumption|]. unfold bs'. destruct (bo <=? so); [eapply side_wf_tail; exact HB|assumption]. }
      assert (HS2 : side_wf h2 true Sell ss').
      { apply (side_wf_static h); [assumption|]. unfold ss'. destruct (so <=? bo); [eapply side_wf_tail; exact HS|assumption]. }
      destruct (IH h2 bs' ss' p (qd + d1 + d2) true Hwf2 HB2 HS2) as (h' & mp' & qd' & m' & tr & E & [R1 R2 R3 R4 R5 R6 R7 R8] & C1 & C2 & C3 & C4 & C5).
      { unfold bs', ss'. destruct (Z.leb_spec bo so), (Z.leb_spec so bo); cbn in *; lia. }
      assert (Ibs : incl bs' (bt :: br)).
      { unfold bs'. destruct (bo <=? so); [apply incl_tl, incl_refl|apply incl_refl]. }
      assert (Iss : incl ss' (st :: sr)).
      { unfold ss'. destruct (so <=? bo); [apply incl_tl, incl_refl|apply incl_refl]. }
      assert (Hincl : forall (l l' : list tick), incl l l' -> incl (flat_map snd l) (flat_map snd l')).
      { intros l l' Hi q Hq. apply in_flat_map in Hq. destruct Hq as (t & Ht & Hq). apply in_flat_map. exists t. auto. }
      assert (NEt : tr1 <> []) by (apply NE; lia).
      assert (NEapp : tr1 ++ tr <> []).
      { intros X. apply app_eq_nil in X. destruct X. contradiction. }
      exists h', mp', (d1 + d2 + qd'), m', (tr1 ++ tr). split; [rewrite E; replace (qd + d1 + d2 + qd') with (qd + (d1 + d2 + qd')) by lia; reflexivity|].
      split; [|split; [|split; [|split; [|split]]]].
      + constructor.
        * eapply trace_app; eassumption.
        * rewrite trace_diff_app. rewrite <- (trace_diff_static h h2 tr St). lia.
        * intros f Hf'. apply in_app_or in Hf'. destruct Hf' as [Hf'|Hf'].
          -- apply F1 in Hf'. destruct Hf' as [Hf' _]. apply in_app_or in Hf'. apply in_or_app. destruct Hf'; auto.
          -- apply R3 in Hf'. apply in_app_or in Hf'. apply in_or_app. destruct Hf' as [X|X]; [left|right]; eapply Hincl; eassumption.
        * lia.
        * rewrite !side_amt_app, <- !(side_amt_static h h2 _ tr St). lia.
        * intros Hge. rewrite !side_amt_app, <- !(side_amt_static h h2 _ tr St). rewrite R6 by (intros t Ht; apply Hge; auto).
          rewrite SB, SS, Ea. f_equal. apply Xb; [|lia]. right. specialize (Hge st (or_introl eq_refl)). lia.
        * apply (side_prio_step h false Buy bt br h2 p tr h' (bo <=? so)); auto.
          -- cbn; lia.
          -- intros q Hq. rewrite Hsame2 by (cbn; apply in_or_app; auto). eapply phase_other; [exact P1|auto].
          -- intros Hd r Hr. apply Z.leb_le in Hd. rewrite Hsame2 by auto. destruct (Fa ltac:(lia)) as [_ Fz]. auto.
        * apply (side_prio_step h true Sell st sr h2 p tr h' (so <=? bo)); auto.
          -- cbn; lia.
          -- intros q Hq. rewrite <- (Hsame1 q) by (cbn; apply in_or_app; auto). eapply phase_other; [exact P2|auto].
          -- intros Hd r Hr. apply Z.leb_le in Hd. destruct (Fb ltac:(lia)) as [_ Fz]. auto.
      + rewrite C1. split; auto.
      + intros X. contradiction.
      + intros _. destruct tr as [|f0 tr'] eqn:Etr.
        * rewrite (C2 eq_refl). destruct tr1 as [|g tr1']; [contradiction|]. exists g. split; [left; reflexivity|].
          apply F1. left. reflexivity.
        * destruct (C3 ltac:(discriminate)) as (f & Hf1 & Hf2). exists f. split; [|assumption]. apply in_or_app. right. assumption.
      + intros f Hf'. apply in_app_or in Hf'. destruct Hf' as [Hf'|Hf'].
        * apply F1 in Hf'. destruct Hf' as [_ Hf'].
          destruct d; [exists bt|exists st|exists bt]; (split; [left; reflexivity|lia]).
        * destruct (C4 f Hf') as (t & Ht & Ep). exists t. split; [|assumption]. destruct d; auto.
      + (* the final price is the last of the loop, and prices only move one way *)
        assert (Hlast : match d with PriceIncreasing => p <= mp' | _ => mp' <= p end).
        { destruct tr as [|f0 tr'] eqn:Etr; [rewrite (C2 eq_refl); destruct d; lia|]. destruct (C3 ltac:(discriminate)) as (f & Hf1 & Hf2).
          destruct (C4 f Hf1) as (t & Ht & Ep). pose proof (sw_sorted _ _ _ _ HB) as SoB. pose proof (sw_sorted _ _ _ _ HS) as SoS. cbn [map] in SoB, SoS.
          apply StronglySorted_inv in SoB. apply StronglySorted_inv in SoS. destruct SoB as [_ SoB]. destruct SoS as [_ SoS]. rewrite Forall_forall in SoB, SoS.
          assert (Bt : In t bs' -> fst t <= fst bt) by (intros X; apply Ibs in X; destruct X as [<-|X]; [lia|]; specialize (SoB _ (in_map fst _ _ X)); cbn in SoB; lia).
          assert (Stt : In t ss' -> fst st <= fst t) by (intros X; apply Iss in X; destruct X as [<-|X]; [lia|]; specialize (SoS _ (in_map fst _ _ X)); cbn in SoS; lia).
          destruct d; [specialize (Bt Ht)|specialize (Stt Ht)|specialize (Bt Ht)]; lia. }
        intros f Hf'. apply in_app_or in Hf'. destruct Hf' as [Hf'|Hf']; [|exact (C5 f Hf')]. apply F1 in Hf'. destruct Hf' as [_ ->]. exact Hlast.
  Qed.

  Lemma side_prio_trans h ps h1 h2 d tr : (forall p, In p ps -> (p < length h)%nat) ->
    heap_static h h1 -> wf_heap h1 -> trace h1 tr h2 ->
    side_prio h ps h1 d -> side_prio h1 ps h2 d -> side_prio h ps h2 d.
  Proof.
    intros Hlt Hst Hwf T A B r q Hr Hq Hb Hc. destruct (order_eq_dec (get h1 q) (get h q)) as [E|N].
    - apply (B r q); auto; [|congruence]. apply better_static with (h := h); assumption.
    - eapply zero_at_trace; [exact T|assumption| |apply (A r q); auto].
      destruct Hst as [L _]. rewrite L. auto.
  Qed.

  Theorem match_book_ok h ob last : wf_heap h -> 0 < last ->
    side_wf h false Buy (buys ob) -> side_wf h true Sell (sells ob) ->
    exists h' mp qd m tr, match_book iter h ob last = Some (h', mp, qd, m) /\
      mres h (buys ob) (sells ob) h' qd tr /\
      (m = true <-> tr <> []) /\ (tr = [] -> mp = last /\ h' = h) /\
      (tr <> [] -> exists f, In f tr /\ f_price f = mp) /\
      (forall f, In f tr -> f_price f = last \/ exists t, In t (buys ob ++ sells ob) /\ f_price f = fst t).
  Proof.
    intros Hwf Hlast HB HS. unfold match_book.
    assert (Hstop : exists h' mp qd m tr, Some (h, last, 0, false) = Some (h', mp, qd, m) /\
      mres h (buys ob) (sells ob) h' qd tr /\
      (m = true <-> tr <> []) /\ (tr = [] -> mp = last /\ h' = h) /\
      (tr <> [] -> exists f, In f tr /\ f_price f = mp) /\
      (forall f, In f tr -> f_price f = last \/ exists t, In t (buys ob ++ sells ob) /\ f_price f = fst t)).
    { exists h, last, 0, false, []. split; [reflexivity|]. split; [apply mres_nil|].
      split; [split; congruence|]. split; [auto|]. split; [congruence|intros f []]. }
    destruct (match_single_ok h ob last Hwf Hlast HB HS) as (r & Er & Hr). rewrite Er.
    destruct (buys ob) as [|b0 br] eqn:Eb; [exact Hstop|]. destruct (sells ob) as [|s0 sr] eqn:Es; [exact Hstop|].
    clear Hstop. rewrite <- Eb, <- Es in *. clear b0 br s0 sr Eb Es.
    set (d := price_direction h ob last).
    assert (Hmid : exists h1 qd m tr, (match r with Some (h1, q) => (h1, q, true) | None => (h, 0, false) end) = (h1, qd, m) /\
              mres h (buys ob) (sells ob) h1 qd tr /\ (m = true <-> tr <> []) /\ (forall f, In f tr -> f_price f = last)).
    { destruct r as [[h1 q]|].
      - destruct Hr as (tr & R & N & P & _). exists h1, q, true, tr. split; [reflexivity|]. split; [assumption|]. split; [split; auto|assumption].
      - exists h, 0, false, []. split; [reflexivity|]. split; [apply mres_nil|]. split; [split; congruence|intros f []]. }
    destruct Hmid as (h1 & qd & m & tr & Em & R & Hm & Hpr). rewrite Em. clear Em Hr Er r.
    pose proof R as [R1 R2 R3 R4 R5 R6 R7 R8].
    pose proof (trace_static _ _ _ R1) as St. pose proof (trace_wf _ _ _ R1 Hwf) as Hwf1.
    assert (Hnil : tr = [] -> h1 = h) by (intros ->; inversion R1; reflexivity).
    assert (Hloop : exists h' mp qd' m' tr2,
       match_loop iter (S (length (buys ob) + length (sells ob))) d h1 (buys ob) (sells ob) last qd m = Some (h', mp, qd', m') /\
       mres h (buys ob) (sells ob) h' qd' tr2 /\
       (m' = true <-> tr2 <> []) /\ (tr2 = [] -> mp = last /\ h' = h) /\
       (tr2 <> [] -> exists f, In f tr2 /\ f_price f = mp) /\
       (forall f, In f tr2 -> f_price f = last \/ exists t, In t (buys ob ++ sells ob) /\ f_price f = fst t)).
    { destruct (match_loop_ok d (S (length (buys ob) + length (sells ob))) h1 (buys ob) (sells ob) last qd m Hwf1)
        as (h' & mp & qd' & m' & tr2 & E & [Q1 Q2 Q3 Q4 Q5 Q6 Q7 Q8] & C1 & C2 & C3 & C4 & _).
      { apply (side_wf_static h); assumption. }
      { apply (side_wf_static h); assumption. }
      { lia. }
      exists h', mp, (qd + qd'), m', (tr ++ tr2). split; [exact E|]. split; [|split; [|split; [|split]]].
      - constructor.
        + eapply trace_app; eassumption.
        + rewrite trace_diff_app. rewrite <- (trace_diff_static h h1 tr2 St). lia.
        + intros f Hf. apply in_app_or in Hf. destruct Hf; auto.
        + lia.
        + rewrite !side_amt_app, <- !(side_amt_static h h1 _ tr2 St). lia.
        + intros Hge. rewrite !side_amt_app, <- !(side_amt_static h h1 _ tr2 St). rewrite R6, Q6 by assumption. reflexivity.
        + eapply side_prio_trans; try eassumption. intros p Hp. eapply side_wf_in; [exact HB|assumption].
        + eapply side_prio_trans; try eassumption. intros p Hp. eapply side_wf_in; [exact HS|assumption].
      - rewrite C1, Hm. split.
        + intros [H|H] X; apply app_eq_nil in X; destruct X; contradiction.
        + intros H. destruct tr as [|x tr]; [right|left; discriminate]. exact H.
      - intros X. apply app_eq_nil in X. destruct X as [X1 X2]. split; [auto|]. subst tr2. rewrite <- (Hnil X1). inversion Q1. reflexivity.
      - intros X. destruct tr2 as [|g tr2'] eqn:E2.
        + rewrite (C2 eq_refl). rewrite app_nil_r in *. destruct tr as [|g tr]; [contradiction|]. exists g. split; [left; reflexivity|].
          apply Hpr. left. reflexivity.
        + destruct (C3 ltac:(discriminate)) as (f & F1 & F2). exists f. split; [apply in_or_app; right; assumption|assumption].
      - intros f Hf. apply in_app_or in Hf. destruct Hf as [Hf|Hf]; [left; auto|right].
        destruct (C4 f Hf) as (t & Ht & Ep). exists t. split; [|assumption]. apply in_or_app. destruct d; auto. }
    destruct d; [|exact Hloop|exact Hloop].
    exists h1, last, qd, m, tr. split; [reflexivity|]. split; [assumption|]. split; [assumption|]. split; [auto|]. split.
    - intros X. destruct tr as [|g tr']; [contradiction|]. exists g. split; [left; reflexivity|]. apply Hpr. left. reflexivity.
    - intros f Hf. left. auto.
  Qed.
End Book.
