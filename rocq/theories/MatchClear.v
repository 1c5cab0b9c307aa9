(** After a match no two opposite orders can still trade (C80): proofs. *)
From Verif Require Import Base Dec DecProofs OrderModel MatchModel MatchSpec OrderProofs MatchProofs MatchLoopProofs MatchBookProofs MatchTop KeyedProofs ViewProofs SingleProofs DirectionProofs CrossProofs.
From Coq Require Import Sorted.

(** Nothing of the order can be traded at its own limit price. *)
Definition spent (o : order) : Prop := matchable_amount o (o_price o) = 0.
(** Of a buy and a sell whose limits cross one is spent. *)
Definition cleared (h : heap) (bs ss : list tick) : Prop :=
  forall f g, In f (flat_map snd bs) -> In g (flat_map snd ss) -> o_price (get h g) <= o_price (get h f) -> spent (get h f) \/ spent (get h g).

Section Clear.
  Variable iter : list (nat * Z) -> list (nat * Z).
  Hypothesis Hiter : is_perm_iter iter.

  Lemma spent_buy h q p x : wf_order (get h q) -> o_dir (get h q) = Buy -> o_price (get h q) = x -> 0 < p <= x -> p = x \/ P18 <= p -> matchable_amount (get h q) p = 0 -> spent (get h q).
  Proof. intros W D P Hp [->|H1] E; unfold spent; rewrite P; [exact E|]. apply (buy_zero_mono _ p x W D); [lia|exact E]. Qed.
  Lemma spent_sell h q p x : wf_order (get h q) -> o_dir (get h q) = Sell -> o_price (get h q) = x -> 0 < x <= p -> matchable_amount (get h q) p = 0 -> spent (get h q).
  Proof. intros W D P Hp E; unfold spent; rewrite P. apply (sell_zero_mono _ p x W D); [lia|exact E]. Qed.

  Lemma match_loop_clear d : forall fuel h bs ss mp qd matched h' mp' qd' m', wf_heap h ->
    side_wf h false Buy bs -> side_wf h true Sell ss -> (d = PriceIncreasing -> forall t, In t ss -> P18 <= fst t) ->
    match_loop iter fuel d h bs ss mp qd matched = Some (h', mp', qd', m') -> heap_static h h' /\ cleared h' bs ss.
  Proof.
    assert (Rf : forall h, heap_static h h) by (intros h; split; [reflexivity|intros q; repeat split]).
    induction fuel as [|fuel IH]; intros h bs ss mp qd matched h' mp' qd' m' Hwf HB HS Hd H; cbn [match_loop] in H; [discriminate H|].
    destruct bs as [|bt br]; [injection H as <- _ _ _; split; [apply Rf|intros f g []]|]. destruct ss as [|st sr]; [injection H as <- _ _ _; split; [apply Rf|intros f g _ []]|].
    destruct (Z.leb_spec (fst st) (fst bt)) as [Hcross|Hn].
    2:{ injection H as <- _ _ _. split; [apply Rf|]. intros f g Hf Hg Hx. pose proof (side_first h false Buy bt br f HB Hf) as A. pose proof (side_first h true Sell st sr g HS Hg) as B. cbn in A, B. lia. }
    set (p := match d with PriceIncreasing => fst st | _ => fst bt end) in H.
    assert (Hp : fst st <= p <= fst bt) by (unfold p; destruct d; lia).
    assert (Hp1 : p = fst bt \/ P18 <= p) by (unfold p; destruct d; [left; reflexivity|right; apply Hd; [reflexivity|left; reflexivity]|left; reflexivity]). clearbody p.
    assert (Hst_pos : 0 < fst st) by (apply (sw_pos _ _ _ _ HS); left; reflexivity).
    assert (Hp0 : 0 < p) by lia.
    pose proof (tick_ptrs h false Buy bt br p HB eq_refl ltac:(cbn; lia)) as OB.
    pose proof (tick_ptrs h true Sell st sr p HS eq_refl ltac:(cbn; lia)) as OS.
    pose proof (sides_disjoint h _ _ HB HS) as Hdis.
    assert (NBr : forall q, In q (flat_map snd br) -> ~ In q (snd bt)).
    { pose proof (sw_nodup _ _ _ _ HB) as N. cbn in N. apply NoDup_app_inv in N. apply N. }
    assert (NSr : forall q, In q (flat_map snd sr) -> ~ In q (snd st)).
    { pose proof (sw_nodup _ _ _ _ HS) as N. cbn in N. apply NoDup_app_inv in N. apply N. }
    assert (IB : forall q, In q (flat_map snd (bt :: br)) <-> In q (snd bt) \/ In q (flat_map snd br)) by (intros q; cbn [flat_map]; apply in_app_iff).
    assert (IS : forall q, In q (flat_map snd (st :: sr)) <-> In q (snd st) \/ In q (flat_map snd sr)) by (intros q; cbn [flat_map]; apply in_app_iff).
    assert (Ob : forall q, In q (snd bt) -> (q < length h)%nat /\ o_dir (get h q) = Buy /\ o_price (get h q) = fst bt) by (intros q Hq; exact (sw_ord _ _ _ _ HB bt q (or_introl eq_refl) Hq)).
    assert (Os : forall q, In q (snd st) -> (q < length h)%nat /\ o_dir (get h q) = Sell /\ o_price (get h q) = fst st) by (intros q Hq; exact (sw_ord _ _ _ _ HS st q (or_introl eq_refl) Hq)).
    set (bo := total_matchable h (snd bt) p) in *. set (so := total_matchable h (snd st) p) in *.
    destruct (Z.leb_spec bo 0) as [Hb0|Hb0]; [|destruct (Z.leb_spec so 0) as [Hs0|Hs0]].
    - pose proof (side_wf_tail _ _ _ _ _ HB) as HBt.
      destruct (IH h br (st :: sr) mp qd matched h' mp' qd' m' Hwf HBt HS Hd H) as (St & A). split; [exact St|].
      destruct (match_loop_cross iter Hiter d fuel h br (st :: sr) mp qd matched h' mp' qd' m' Hwf HBt HS H) as (_ & U).
      intros f g Hf Hg Hx. apply IB in Hf. destruct Hf as [Hf|Hf]; [left|exact (A f g Hf Hg Hx)].
      rewrite U; [|intros X; exact (NBr f X Hf)|intros X; apply (Hdis f X), IB; left; exact Hf]. destruct (Ob f Hf) as (L & D & P).
      apply (spent_buy h f p (fst bt) (Hwf f L) D P); [lia|exact Hp1|]. apply (total_zero_each h (snd bt) p Hwf Hp0); [intros q Hq; apply (Ob q Hq)|exact Hb0|exact Hf].
    - pose proof (side_wf_tail _ _ _ _ _ HS) as HSt.
      destruct (IH h (bt :: br) sr mp qd matched h' mp' qd' m' Hwf HB HSt (fun E t Ht => Hd E t (or_intror Ht)) H) as (St & A). split; [exact St|].
      destruct (match_loop_cross iter Hiter d fuel h (bt :: br) sr mp qd matched h' mp' qd' m' Hwf HB HSt H) as (_ & U).
      intros f g Hf Hg Hx. apply IS in Hg. destruct Hg as [Hg|Hg]; [right|exact (A f g Hf Hg Hx)].
      rewrite U; [|apply (Hdis g), IS; left; exact Hg|intros X; exact (NSr g X Hg)]. destruct (Os g Hg) as (L & D & P).
      apply (spent_sell h g p (fst st) (Hwf g L) D P); [lia|]. apply (total_zero_each h (snd st) p Hwf Hp0); [intros q Hq; apply (Os q Hq)|exact Hs0|exact Hg].
    - destruct (distribute_to_tick_ok iter Hiter p Buy h bt (if bo <=? so then bo else so) Hp0 Hwf OB) as (h1 & d1 & a & E1 & (P1 & _ & _ & F1) & _); [destruct (bo <=? so); lia|].
      rewrite E1 in H. pose proof (phase_static _ _ _ _ _ _ P1) as St1. pose proof (phase_wf _ _ _ _ _ _ P1 Hwf) as Hwf1.
      assert (Es1 : total_matchable h1 (snd st) p = so).
      { apply total_matchable_ext. intros q Hq. apply (phase_other _ _ _ _ _ _ q P1). intros X. apply (Hdis q); [apply IS; left; exact Hq|apply IB; left; exact X]. }
      destruct (distribute_to_tick_ok iter Hiter p Sell h1 st (if so <=? bo then so else bo) Hp0 Hwf1) as (h2 & d2 & b & E2 & (P2 & _ & _ & F2) & _).
      { eapply ptrs_ok_static; eassumption. }
      { destruct (so <=? bo); lia. }
      rewrite E2 in H. pose proof (phase_static _ _ _ _ _ _ P2) as St2. pose proof (phase_wf _ _ _ _ _ _ P2 Hwf1) as Hwf2.
      assert (St : heap_static h h2) by (eapply heap_static_trans; eassumption).
      set (bs' := if bo <=? so then br else bt :: br) in *. set (ss' := if so <=? bo then sr else st :: sr) in *.
      assert (HB2 : side_wf h2 false Buy bs').
      { apply (side_wf_static h); [assumption|]. unfold bs'. destruct (bo <=? so); [eapply side_wf_tail; exact HB|assumption]. }
      assert (HS2 : side_wf h2 true Sell ss').
      { apply (side_wf_static h); [assumption|]. unfold ss'. destruct (so <=? bo); [eapply side_wf_tail; exact HS|assumption]. }
      assert (Hd' : d = PriceIncreasing -> forall t, In t ss' -> P18 <= fst t).
      { intros E t. unfold ss'. destruct (so <=? bo); intros Ht; apply (Hd E); [right; exact Ht|exact Ht]. }
      destruct (IH h2 bs' ss' p (qd + d1 + d2) true h' mp' qd' m' Hwf2 HB2 HS2 Hd' H) as (St' & A).
      destruct (match_loop_cross iter Hiter d fuel h2 bs' ss' p (qd + d1 + d2) true h' mp' qd' m' Hwf2 HB2 HS2 H) as (_ & U).
      split; [eapply heap_static_trans; eassumption|].
      assert (Pr2 : forall q, o_dir (get h2 q) = o_dir (get h q) /\ o_price (get h2 q) = o_price (get h q)) by (intros q; destruct St as [_ S]; destruct (S q) as (X & Y & _); split; assumption).
      assert (Ln : forall q, (q < length h)%nat -> wf_order (get h2 q)) by (intros q Hq; apply Hwf2; destruct St as [L _]; rewrite L; exact Hq).
      intros f g Hf Hg Hx.
      destruct (in_dec Nat.eq_dec f (flat_map snd bs')) as [If|Nf]; [destruct (in_dec Nat.eq_dec g (flat_map snd ss')) as [Ig|Ng]; [exact (A f g If Ig Hx)|right]|left].
      + unfold ss' in Ng. destruct (Z.leb_spec so bo) as [Hle|Hle]; [|contradiction]. apply IS in Hg. destruct Hg as [Hg|Hg]; [|contradiction].
        rewrite U; [|unfold bs'; intros X; apply (Hdis g); [apply IS; left; exact Hg|destruct (bo <=? so); [apply IB; right; exact X|exact X]]|unfold ss'; exact Ng].
        destruct (Os g Hg) as (L & D & P). destruct (Pr2 g) as [D2 P2']. apply (spent_sell h2 g p (fst st) (Ln g L)); [congruence|congruence|lia|].
        apply F2; [lia|exact Hg].
      + unfold bs' in Nf. destruct (Z.leb_spec bo so) as [Hle|Hle]; [|contradiction]. apply IB in Hf. destruct Hf as [Hf|Hf]; [|contradiction].
        assert (Ns : ~ In f (flat_map snd (st :: sr))) by (intros X; apply (Hdis f X), IB; left; exact Hf).
        rewrite U; [|unfold bs'; exact Nf|unfold ss'; intros X; apply Ns; destruct (so <=? bo); [apply IS; right; exact X|exact X]].
        destruct (Ob f Hf) as (L & D & P). destruct (Pr2 f) as [D2 P2']. apply (spent_buy h2 f p (fst bt) (Ln f L)); [congruence|congruence|lia|exact Hp1|].
        rewrite (phase_other _ _ _ _ _ _ f P2) by (intros X; apply Ns, IS; left; exact X). apply F1; [fold bo; lia|exact Hf].
  Qed.

  (** The ticks whose total is at most what is distributed are served in full. *)
  Lemma distribute_served price d : 0 < price -> forall pre mid rest h amt h' qd, wf_heap h -> ptrs_ok h (flat_map snd (pre ++ mid)) d price -> no_dust d price ->
    total_matchable h (flat_map snd pre) price <= amt <= total_matchable h (flat_map snd (pre ++ mid)) price ->
    distribute_to_ticks iter h ((pre ++ mid) ++ rest) amt price = Some (h', qd) -> forall q, In q (flat_map snd pre) -> matchable_amount (get h' q) price = 0.
  Proof.
    intros Hp. induction pre as [|t pre IH]; intros mid rest h amt h' qd Hwf Hok Hnd Ht H q Hq; [destruct Hq|].
    cbn [app distribute_to_ticks] in H. cbn [app flat_map] in Hok, Ht, Hq. rewrite !total_matchable_app in Ht.
    destruct (ptrs_ok_app _ _ _ _ _ Hok) as (Hok1 & Hok2 & Hdisj).
    assert (Hn2 : 0 <= total_matchable h (flat_map snd pre) price).
    { apply total_matchable_nonneg; [exact Hwf|exact Hp|]. intros p Hp'. apply Hok2. rewrite flat_map_app. apply in_or_app. left. exact Hp'. }
    set (ta := total_matchable h (snd t) price) in *. destruct (Z.leb_spec ta amt) as [Hle|Hgt]; [|lia].
    destruct (fulfill_orders_ok price d Hp (snd t) h Hwf Hok1) as (h1 & d1 & E1 & P1 & Z1). rewrite E1 in H.
    pose proof (phase_static _ _ _ _ _ _ P1) as St1. pose proof (phase_wf _ _ _ _ _ _ P1 Hwf) as Hwf1.
    assert (Same : forall x, In x (flat_map snd (pre ++ mid)) -> get h1 x = get h x) by (intros x Hx; apply (phase_other _ _ _ _ _ _ x P1); exact (Hdisj x Hx)).
    assert (Tm : total_matchable h1 (flat_map snd (pre ++ mid)) price = total_matchable h (flat_map snd (pre ++ mid)) price) by (apply total_matchable_ext; exact Same).
    assert (Tp : total_matchable h1 (flat_map snd pre) price = total_matchable h (flat_map snd pre) price) by (apply total_matchable_ext; intros x Hx; apply Same; rewrite flat_map_app; apply in_or_app; left; exact Hx).
    pose proof (ptrs_ok_static _ _ _ _ _ St1 Hok2) as Hok3.
    destruct (Z.eqb_spec (amt - ta) 0) as [E0|N0].
    - injection H as <- _. apply in_app_iff in Hq. destruct Hq as [Hq|Hq]; [exact (Z1 q Hq)|].
      apply (total_zero_each h1 (flat_map snd pre) price Hwf1 Hp); [intros x Hx; apply Hok3; rewrite flat_map_app; apply in_or_app; left; exact Hx|lia|exact Hq].
    - destruct (distribute_to_ticks iter h1 ((pre ++ mid) ++ rest) (amt - ta) price) as [[h2 d2]|] eqn:E2; [|discriminate H]. injection H as <- _.
      apply in_app_iff in Hq. destruct Hq as [Hq|Hq]; [|refine (IH mid rest h1 (amt - ta) h2 d2 Hwf1 Hok3 Hnd _ E2 q Hq); lia].
      assert (Ne : pre ++ mid <> []) by (intros E; rewrite E in Ht; cbn in Ht; lia).
      destruct (distribute_to_ticks_ok iter Hiter price d Hp (pre ++ mid) rest h1 (amt - ta) Hwf1 Hok3) as (h2' & d2' & a & E2' & (P2 & _) & _); [lia|exact Ne|].
      rewrite E2 in E2'. injection E2' as <- <-. rewrite (phase_other _ _ _ _ _ _ q P2) by (intros X; exact (Hdisj q X Hq)). exact (Z1 q Hq).
  Qed.

  Definition better (inc : bool) (x p : Z) : bool := if inc then x <? p else p <? x.
  Definition within (inc : bool) (x p : Z) : bool := if inc then x <=? p else p <=? x.

  Lemma split_prefix (inc : bool) p : forall ts : list tick, StronglySorted (tick_order inc) (map fst ts) ->
    exists mid, side_prefix inc p ts = filter (fun t : tick => better inc (fst t) p) ts ++ mid.
  Proof.
    induction ts as [|t ts IH]; intros Hs; [exists []; reflexivity|]. cbn [map] in Hs. inversion Hs as [|? ? Hs' HF]; subst.
    cbn [filter]. destruct (better inc (fst t) p) eqn:Eb.
    - destruct (IH Hs') as (mid & E). exists mid. cbn [side_prefix]. unfold better in Eb.
      assert (X : (inc && (p <? fst t)) || (negb inc && (fst t <? p)) = false) by (destruct inc; cbn; lia). rewrite X, E. reflexivity.
    - exists (side_prefix inc p (t :: ts)). rewrite filter_none; [reflexivity|]. intros u Hu. rewrite Forall_forall in HF. specialize (HF (fst u) (in_map fst _ _ Hu)).
      unfold better, tick_order in *. destruct inc; lia.
  Qed.

  Lemma side_served h (inc : bool) d p amt h' qd ts : d = (if inc : bool then Sell else Buy) -> wf_heap h -> P18 <= p -> side_wf h inc d ts ->
    0 < amt <= side_total h p (side_prefix inc p ts) -> side_total h p (filter (fun t : tick => better inc (fst t) p) ts) <= amt -> distribute_to_ticks iter h ts amt p = Some (h', qd) ->
    heap_static h h' /\ wf_heap h' /\ (forall q, ~ In q (flat_map snd ts) -> get h' q = get h q) /\
    (forall t q, In t ts -> In q (snd t) -> better inc (fst t) p = true -> matchable_amount (get h' q) p = 0) /\
    (amt = side_total h p (side_prefix inc p ts) -> forall t q, In t ts -> In q (snd t) -> within inc (fst t) p = true -> matchable_amount (get h' q) p = 0).
  Proof.
    intros Hd Hwf Hp HS Ha Hb E. pose proof P18_pos as H18. destruct (side_prefix_app inc p ts) as [rest Er]. destruct (split_prefix inc p ts (sw_sorted _ _ _ _ HS)) as [mid Em].
    set (st := filter (fun t : tick => better inc (fst t) p) ts) in *. set (pre := side_prefix inc p ts) in *.
    assert (HSp : side_wf h inc d pre) by (rewrite Er in HS; eapply side_wf_prefix; exact HS).
    assert (Acc : forall t, In t pre -> side_acc inc t p) by (intros t Ht; exact (side_prefix_accept inc p ts t Ht)).
    pose proof (side_wf_ptrs h inc d pre p HSp Hd Acc) as Ok.
    assert (Nd : no_dust d p) by (right; exact Hp). rewrite side_total_sum in Ha, Hb.
    assert (Ne : pre <> []) by (intros X; rewrite X in Ha; cbn in Ha; lia).
    rewrite Er in E.
    destruct (distribute_to_ticks_ok iter Hiter p d ltac:(lia) pre rest h amt Hwf Ok ltac:(lia) Ne) as (h2 & d2 & a & E2 & (P2 & _ & _ & F2) & _).
    rewrite E in E2. injection E2 as <- <-. split; [exact (phase_static _ _ _ _ _ _ P2)|]. split; [exact (phase_wf _ _ _ _ _ _ P2 Hwf)|]. split; [|split].
    - intros q Hq. apply (phase_other _ _ _ _ _ _ q P2). intros X. apply Hq. rewrite Er, flat_map_app. apply in_or_app. left. exact X.
    - intros t q Ht Hq Hx. rewrite Em in E, Ok. rewrite Em, flat_map_app, total_matchable_app in Ha.
      refine (distribute_served p d ltac:(lia) st mid rest h amt h' qd Hwf Ok Nd _ E q _).
      + rewrite flat_map_app, total_matchable_app. lia.
      + apply in_flat_map. exists t. split; [apply filter_In; split; [exact Ht|exact Hx]|exact Hq].
    - intros Ea t q Ht Hq Hx. rewrite side_total_sum in Ea. apply F2; [lia|]. apply in_flat_map. exists t. split; [|exact Hq].
      apply in_prefix_price; [exact (sw_sorted _ _ _ _ HS)|exact Ht|]. unfold within in Hx. destruct inc; lia.
  Qed.

  Lemma sides_at h p : let ob := new_order_book h in
    side_total h p (side_prefix false p (buys ob)) = volume (buy_ge p) p h /\ side_total h p (side_prefix true p (sells ob)) = volume (sell_le p) p h /\
    side_total h p (filter (fun t : tick => better false (fst t) p) (buys ob)) = volume (buy_gt p) p h /\ side_total h p (filter (fun t : tick => better true (fst t) p) (sells ob)) = volume (sell_lt p) p h.
  Proof.
    destruct (new_order_book_ok h) as [KB KS]. cbv zeta. split; [|split; [|split]].
    - rewrite sorted_prefix_filter by exact (keyed_sorted _ _ _ _ KB). apply (filter_volume h Buy false (fun x => p <=? x) (buy_ge p) p _ KB). intros o; unfold buy_ge, on_dir; destruct (o_dir o); reflexivity.
    - rewrite sorted_prefix_filter by exact (keyed_sorted _ _ _ _ KS). apply (filter_volume h Sell true (fun x => x <=? p) (sell_le p) p _ KS). intros o; unfold sell_le, on_dir; destruct (o_dir o); reflexivity.
    - apply (filter_volume h Buy false (fun x => p <? x) (buy_gt p) p _ KB). intros o; unfold buy_gt, on_dir; destruct (o_dir o); reflexivity.
    - apply (filter_volume h Sell true (fun x => x <? p) (sell_lt p) p _ KS). intros o; unfold sell_lt, on_dir; destruct (o_dir o); reflexivity.
  Qed.

  (** A single price that balances the two sides clears the book. *)
  Lemma single_clear h p r : Forall wf_order h -> P18 <= p -> match_single iter h (new_order_book h) p = Some r ->
    volume (buy_gt p) p h <= volume (sell_le p) p h -> volume (sell_lt p) p h <= volume (buy_ge p) p h ->
    let h' := match r with Some (x, _) => x | None => h end in heap_static h h' /\ cleared h' (buys (new_order_book h)) (sells (new_order_book h)).
  Proof.
    intros Hf Hp E V1 V2. pose proof P18_pos as H18. pose proof (proj1 (wf_heap_Forall h) Hf) as Hwf. destruct (book_side_wf h Hwf) as [HB HS].
    destruct (sides_at h p) as (A1 & A2 & A3 & A4). set (ob := new_order_book h) in *. cbv zeta.
    pose proof (volume_add _ _ _ p h (buy_split p) (buy_disj p)) as Sb. pose proof (volume_add _ _ _ p h (sell_split p) (sell_disj p)) as Ss.
    assert (Hp0 : 0 < p) by lia. pose proof (volume_nonneg (buy_eq p) p h Hf Hp0). pose proof (volume_nonneg (sell_eq p) p h Hf Hp0).
    pose proof (volume_nonneg (buy_gt p) p h Hf Hp0). pose proof (volume_nonneg (sell_lt p) p h Hf Hp0).
    unfold match_single in E. rewrite (find_matchable_exact h ob p Hwf Hp0 HB HS (or_introl Hp)) in E. rewrite A1, A2 in E.
    set (b := volume (buy_ge p) p h) in *. set (s := volume (sell_le p) p h) in *.
    assert (K : forall h', heap_static h h' -> wf_heap h' ->
      (forall t q, In t (buys ob) -> In q (snd t) -> better false (fst t) p = true -> matchable_amount (get h' q) p = 0) ->
      (forall t q, In t (sells ob) -> In q (snd t) -> better true (fst t) p = true -> matchable_amount (get h' q) p = 0) ->
      ((forall t q, In t (buys ob) -> In q (snd t) -> within false (fst t) p = true -> matchable_amount (get h' q) p = 0) \/
       (forall t q, In t (sells ob) -> In q (snd t) -> within true (fst t) p = true -> matchable_amount (get h' q) p = 0)) -> cleared h' (buys ob) (sells ob)).
    { intros h' St W' B1 S1 M f g If Ig Hx. apply in_flat_map in If, Ig. destruct If as (t & Ht & Hq), Ig as (u & Hu & Hr).
      destruct (sw_ord _ _ _ _ HB t f Ht Hq) as (L1 & D1 & P1). destruct (sw_ord _ _ _ _ HS u g Hu Hr) as (L2 & D2 & P2). pose proof (sw_pos _ _ _ _ HS u Hu) as Pu.
      destruct St as [Ln S]. destruct (S f) as (Df & Pf & _), (S g) as (Dg & Pg & _). rewrite Pf, Pg, P1, P2 in Hx. rewrite P1 in Pf. rewrite P2 in Pg. rewrite D1 in Df. rewrite D2 in Dg.
      assert (Wf : wf_order (get h' f)) by (apply W'; rewrite Ln; exact L1). assert (Wg : wf_order (get h' g)) by (apply W'; rewrite Ln; exact L2).
      assert (Zf : p <= fst t -> matchable_amount (get h' f) p = 0 -> spent (get h' f)) by (intros X Y; apply (spent_buy h' f p (fst t) Wf Df Pf); [lia|right; exact Hp|exact Y]).
      assert (Zg : fst u <= p -> matchable_amount (get h' g) p = 0 -> spent (get h' g)) by (intros X Y; apply (spent_sell h' g p (fst u) Wg Dg Pg); [lia|exact Y]).
      destruct (Z_lt_le_dec p (fst t)) as [X|X]; [left; apply Zf; [lia|apply (B1 t f Ht Hq); unfold better; lia]|].
      destruct (Z_lt_le_dec (fst u) p) as [Y|Y]; [right; apply Zg; [lia|apply (S1 u g Hu Hr); unfold better; lia]|].
      destruct M as [M|M]; [left; apply Zf; [lia|apply (M t f Ht Hq); unfold within; lia]|right; apply Zg; [lia|apply (M u g Hu Hr); unfold within; lia]]. }
    destruct (Z.ltb_spec 0 (Z.min b s)) as [Hm|Hm].
    - destruct (distribute_to_ticks iter h (buys ob) (Z.min b s) p) as [[h1 d1]|] eqn:E1; [|discriminate E].
      destruct (distribute_to_ticks iter h1 (sells ob) (Z.min b s) p) as [[h2 d2]|] eqn:E2; [|discriminate E]. injection E as <-.
      destruct (side_served h false Buy p (Z.min b s) h1 d1 (buys ob) eq_refl Hwf Hp HB ltac:(lia) ltac:(lia) E1) as (St1 & W1 & U1 & B1 & B2).
      pose proof (sides_disjoint h _ _ HB HS) as Hdis.
      assert (Tx : forall ts : list tick, incl ts (sells ob) -> side_total h1 p ts = side_total h p ts).
      { intros ts Hi. rewrite !side_total_sum. apply total_matchable_ext. intros q Hq. apply U1. apply (Hdis q). apply in_flat_map in Hq. destruct Hq as (t & Ht & Hq). apply in_flat_map. exists t. split; [exact (Hi t Ht)|exact Hq]. }
      assert (T1 : side_total h1 p (side_prefix true p (sells ob)) = s).
      { rewrite Tx, A2; [reflexivity|]. destruct (side_prefix_app true p (sells ob)) as [rest Er]. intros t Ht. rewrite Er. apply in_or_app. left. exact Ht. }
      assert (T2 : side_total h1 p (filter (fun t : tick => better true (fst t) p) (sells ob)) = volume (sell_lt p) p h) by (rewrite Tx, A4; [reflexivity|intros t Ht; apply filter_In in Ht; apply Ht]).
      destruct (side_served h1 true Sell p (Z.min b s) h2 d2 (sells ob) eq_refl W1 Hp (side_wf_static h h1 _ _ _ St1 HS) ltac:(lia) ltac:(lia) E2) as (St2 & W2 & U2 & S1 & S2).
      assert (Sm : forall t q, In t (buys ob) -> In q (snd t) -> get h2 q = get h1 q).
      { intros t q Ht Hq. apply U2. intros X. apply (Hdis q X). apply in_flat_map. exists t. split; assumption. }
      assert (St : heap_static h h2) by (eapply heap_static_trans; eassumption). split; [exact St|]. apply (K h2 St W2).
      + intros t q Ht Hq X. rewrite (Sm t q Ht Hq). exact (B1 t q Ht Hq X).
      + exact S1.
      + destruct (Z_le_gt_dec b s) as [L|L]; [left; intros t q Ht Hq X; rewrite (Sm t q Ht Hq); apply (B2 ltac:(lia) t q Ht Hq X)|right; apply S2; lia].
    - injection E as <-. assert (St : heap_static h h) by (split; [reflexivity|intros q; repeat split]). split; [exact St|].
      assert (Zt : forall (ts : list tick) inc d t q, side_wf h inc d ts -> side_total h p (side_prefix inc p ts) <= 0 -> In t ts -> In q (snd t) -> within inc (fst t) p = true -> matchable_amount (get h q) p = 0).
      { intros ts inc d t q HW Hz Ht Hq X. rewrite side_total_sum in Hz.
        assert (Hi : In t (side_prefix inc p ts)) by (apply in_prefix_price; [exact (sw_sorted _ _ _ _ HW)|exact Ht|unfold within in X; destruct inc; lia]).
        apply (total_zero_each h (flat_map snd (side_prefix inc p ts)) p Hwf Hp0); [|exact Hz|apply in_flat_map; exists t; split; assumption].
        intros x Hx. apply in_flat_map in Hx. destruct Hx as (u & Hu & Hx). destruct (side_prefix_app inc p ts) as [rest Er]. apply (sw_ord _ _ _ _ HW u x); [rewrite Er; apply in_or_app; left; exact Hu|exact Hx]. }
      assert (Zs : forall (ts : list tick) inc d t q, side_wf h inc d ts -> side_total h p (filter (fun t : tick => better inc (fst t) p) ts) <= 0 -> In t ts -> In q (snd t) -> better inc (fst t) p = true -> matchable_amount (get h q) p = 0).
      { intros ts inc d t q HW Hz Ht Hq X. rewrite side_total_sum in Hz.
        apply (total_zero_each h (flat_map snd (filter (fun t : tick => better inc (fst t) p) ts)) p Hwf Hp0); [|exact Hz|apply in_flat_map; exists t; split; [apply filter_In; split; assumption|exact Hq]].
        intros x Hx. apply in_flat_map in Hx. destruct Hx as (u & Hu & Hx). apply filter_In in Hu. apply (sw_ord _ _ _ _ HW u x); [apply Hu|exact Hx]. }
      apply (K h St Hwf); [intros t q; apply (Zs (buys ob) false Buy t q HB); lia|intros t q; apply (Zs (sells ob) true Sell t q HS); lia|].
      destruct (Z_le_gt_dec b 0) as [L|L]; [left; intros t q; apply (Zt (buys ob) false Buy t q HB); lia|right; intros t q; apply (Zt (sells ob) true Sell t q HS); lia].
  Qed.

  Lemma match_book_clear h last h' mp qd m : Forall wf_order h -> 0 < last -> match_book iter h (new_order_book h) last = Some (h', mp, qd, m) ->
    match price_direction h (new_order_book h) last with
    | PriceStaying => P18 <= last | PriceIncreasing => forall o, In o h -> o_dir o = Sell -> P18 <= o_price o | PriceDecreasing => True end ->
    heap_static h h' /\ cleared h' (buys (new_order_book h)) (sells (new_order_book h)).
  Proof.
    intros Hf Hl H C. pose proof (proj1 (wf_heap_Forall h) Hf) as Hwf. destruct (book_side_wf h Hwf) as [HB HS]. destruct (direction_iff h last Hf Hl) as [DI DD].
    assert (Rf : heap_static h h) by (split; [reflexivity|intros q; repeat split]).
    destruct (match_single_ok iter Hiter h (new_order_book h) last Hwf Hl HB HS) as (r & Er & Hr). set (ob := new_order_book h) in *. unfold match_book in H. rewrite Er in H.
    remember (buys ob) as bs eqn:Eb. destruct bs as [|b0 br]; [injection H as <- _ _ _; split; [exact Rf|intros f g []]|].
    remember (sells ob) as ss eqn:Es. destruct ss as [|s0 sr]; [injection H as <- _ _ _; split; [exact Rf|intros f g _ []]|].
    rewrite Eb, Es in *. clear Eb Es b0 br s0 sr.
    assert (Mid : exists h1 q1 m1, match price_direction h ob last with PriceStaying => Some (h1, last, q1, m1) | _ => match_loop iter (S (length (buys ob) + length (sells ob))) (price_direction h ob last) h1 (buys ob) (sells ob) last q1 m1 end = Some (h', mp, qd, m) /\ heap_static h h1 /\ wf_heap h1 /\ h1 = (match r with Some (x, _) => x | None => h end)).
    { destruct r as [[h1 q1]|]; [|exists h, 0, false; split; [exact H|]; split; [exact Rf|split; [exact Hwf|reflexivity]]].
      exists h1, q1, true. split; [exact H|]. destruct (match_single_cross iter Hiter h ob last h1 q1 Hwf Hl HB HS Er) as (_ & _ & _ & _ & (tr & T) & _).
      split; [exact (trace_static _ _ _ T)|]. split; [exact (trace_wf _ _ _ T Hwf)|reflexivity]. }
    destruct Mid as (h1 & q1 & m1 & E1 & St1 & W1 & Eh). clear H. rename E1 into H. pose proof (side_wf_static _ _ _ _ _ St1 HB) as HB1. pose proof (side_wf_static _ _ _ _ _ St1 HS) as HS1.
    destruct (price_direction h ob last) eqn:Ed.
    - injection H as <- _ _ _. rewrite Eh. apply (single_clear h last r Hf C Er).
      + destruct (Z_le_gt_dec (volume (buy_gt last) last h) (volume (sell_le last) last h)) as [L|L]; [exact L|]. assert (X : PriceStaying = PriceIncreasing) by (apply DI; lia). discriminate X.
      + destruct (Z_le_gt_dec (volume (sell_lt last) last h) (volume (buy_ge last) last h)) as [L|L]; [exact L|]. assert (X : PriceStaying = PriceDecreasing) by (apply DD; lia). discriminate X.
    - destruct (match_loop_clear PriceIncreasing (S (length (buys ob) + length (sells ob))) h1 (buys ob) (sells ob) last q1 m1 h' mp qd m W1 HB1 HS1) with (2 := H) as (St & A).
      { intros _ [x ps] Ht. destruct (new_book_contents h) as [_ (_ & _ & _ & S)]. destruct (S x ps Ht) as (Ne & _ & S'). destruct ps as [|q ps]; [exfalso; apply Ne; reflexivity|].
        destruct (proj1 (S' q) (or_introl eq_refl)) as [(X & Y & _) <-]. apply C; [apply nth_In; exact X|exact Y]. }
      split; [eapply heap_static_trans; eassumption|exact A].
    - destruct (match_loop_clear PriceDecreasing (S (length (buys ob) + length (sells ob))) h1 (buys ob) (sells ob) last q1 m1 h' mp qd m W1 HB1 HS1) with (2 := H) as (St & A); [intros X; discriminate X|].
      split; [eapply heap_static_trans; eassumption|exact A].
  Qed.
End Clear.

(** The same over all orders of the heap: those kept out of the book were spent before. *)
Section Clear2.
  Variable iter : list (nat * Z) -> list (nat * Z).
  Hypothesis Hiter : is_perm_iter iter.

  Lemma out_spent h d p : Forall wf_order h -> (p < length h)%nat -> o_dir (get h p) = d -> ~ on_side h d p -> spent (get h p).
  Proof.
    intros Hf Hp D N. assert (W : wf_order (get h p)) by (rewrite Forall_forall in Hf; apply Hf, nth_In; exact Hp).
    pose proof (matchable_le_open (get h p) (o_price (get h p)) W ltac:(apply W)) as B. unfold spent. destruct (Z.eq_dec (matchable_amount (get h p) (o_price (get h p))) 0) as [E|E]; [exact E|].
    exfalso. apply N. split; [exact Hp|]. split; [exact D|]. lia.
  Qed.

  Lemma cleared_all h h' tr qd : Forall wf_order h -> mres h (buys (new_order_book h)) (sells (new_order_book h)) h' qd tr ->
    cleared h' (buys (new_order_book h)) (sells (new_order_book h)) ->
    forall i j, (i < length h)%nat -> (j < length h)%nat -> o_dir (get h i) = Buy -> o_dir (get h j) = Sell -> o_price (get h j) <= o_price (get h i) -> spent (get h' i) \/ spent (get h' j).
  Proof.
    intros Hf M C i j Hi Hj Di Dj P. destruct (new_book_contents h) as [(_ & _ & B & _) (_ & _ & S & _)].
    pose proof (mr_trace _ _ _ _ _ _ M) as T. destruct (trace_static _ _ _ T) as [_ St].
    assert (Un : forall p d, (p < length h)%nat -> o_dir (get h p) = d -> ~ on_side h d p -> spent (get h' p)).
    { intros p d Hp D N. rewrite (trace_other _ _ _ p T); [apply (out_spent h d); assumption|].
      intros X. apply in_map_iff in X. destruct X as (f & <- & X). apply (mr_in _ _ _ _ _ _ M) in X. apply in_app_iff in X. destruct X as [X|X].
      - apply B in X. apply N. destruct X as (X1 & X2 & X3). split; [exact X1|]. split; [exact D|exact X3].
      - apply S in X. apply N. destruct X as (X1 & X2 & X3). split; [exact X1|]. split; [exact D|exact X3]. }
    destruct (in_dec Nat.eq_dec i (flat_map snd (buys (new_order_book h)))) as [Ii|Ni]; [|left; apply (Un i Buy Hi Di); intros X; apply Ni, B, X].
    destruct (in_dec Nat.eq_dec j (flat_map snd (sells (new_order_book h)))) as [Ij|Nj]; [|right; apply (Un j Sell Hj Dj); intros X; apply Nj, S, X].
    apply C; [exact Ii|exact Ij|]. destruct (St i) as (_ & Pi & _). destruct (St j) as (_ & Pj & _). congruence.
  Qed.

  Theorem match_book_clears h last h' mp qd m : Forall wf_order h -> 0 < last -> match_book iter h (new_order_book h) last = Some (h', mp, qd, m) ->
    match price_direction h (new_order_book h) last with
    | PriceStaying => P18 <= last | PriceIncreasing => forall o, In o h -> o_dir o = Sell -> P18 <= o_price o | PriceDecreasing => True end ->
    forall i j, (i < length h)%nat -> (j < length h)%nat -> o_dir (get h i) = Buy -> o_dir (get h j) = Sell -> o_price (get h j) <= o_price (get h i) -> spent (get h' i) \/ spent (get h' j).
  Proof.
    intros Hf Hl H C. destruct (match_orders_ok iter h last Hiter Hf Hl) as (h2 & mp2 & qd2 & m2 & tr & E & M & _). rewrite H in E. injection E as <- <- <- <-.
    apply (cleared_all h h' tr qd Hf M). exact (proj2 (match_book_clear iter Hiter h last h' mp qd m Hf Hl H C)).
  Qed.
  Lemma match_book_idle h last h' mp qd : Forall wf_order h -> 0 < last -> match_book iter h (new_order_book h) last = Some (h', mp, qd, false) -> h' = h.
  Proof.
    intros Hf Hl H. destruct (match_orders_ok iter h last Hiter Hf Hl) as (h2 & mp2 & qd2 & m2 & tr & E & M & Em & Et & _). rewrite H in E. injection E as <- <- <- <-.
    destruct tr; [apply Et; reflexivity|]. assert (X : false = true) by (apply Em; discriminate). discriminate X.
  Qed.
End Clear2.
