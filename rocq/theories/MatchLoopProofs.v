(** Distribution to groups, ticks and sides; single price auction; the loop of Match. *)
From Verif Require Import Base Dec DecProofs OrderModel MatchModel MatchSpec KeyedProofs OrderProofs MatchProofs.
From Coq Require Import Permutation Sorted.

Lemma insert_sorted_perm h p l : Permutation (insert_sorted h p l) (p :: l).
Proof.
  induction l as [|q l IH]; [reflexivity|]. cbn. destruct (has_priority _ _); [reflexivity|].
  eapply perm_trans; [apply perm_skip, IH|apply perm_swap].
Qed.
Lemma sort_orders_perm h ps : Permutation (sort_orders h ps) ps.
Proof.
  unfold sort_orders.
  assert (G : forall qs acc, Permutation (fold_left (fun acc p => insert_sorted h p acc) qs acc) (qs ++ acc)).
  { induction qs as [|q qs IH]; intros acc; [reflexivity|]. cbn [fold_left app].
    eapply perm_trans; [apply IH|]. eapply perm_trans; [apply Permutation_app_head, insert_sorted_perm|].
    apply Permutation_sym, Permutation_middle. }
  eapply perm_trans; [apply G|]. rewrite app_nil_r. reflexivity.
Qed.

(** "if a later list had an order changed, every earlier order is exhausted at [price]" *)
Fixpoint prio (L : list (list nat)) (h h' : heap) (price : dec) : Prop :=
  match L with
  | [] => True
  | ps :: t => ((exists q, In q (concat t) /\ get h' q <> get h q) ->
                forall r, In r ps -> matchable_amount (get h' r) price = 0) /\ prio t h h' price
  end.

Lemma matchable_fill_mono o a p q : wf_order o -> 0 < p -> 0 < q -> 0 <= a <= matchable_amount o p ->
  matchable_amount o q = 0 -> matchable_amount (filled o a p) q = 0.
Proof.
  intros Hwf Hp Hq Ha Hz. pose proof (filled_wf o a p Hwf Hp Ha) as Hwf'.
  pose proof (matchable_spec o p Hwf Hp) as (A & _). pose proof P18_pos as H18.
  assert (Hpd : 0 <= fill_paid o a p).
  { rewrite fill_paid_val by nia. destruct (o_dir o); [|lia]. pose proof (ceil_value_bounds p a). nia. }
  destruct Hwf as (_ & Hop & Hpaid & _ & _). destruct Hwf' as (_ & Hop' & Hpaid' & _ & _).
  unfold matchable_amount in *. cbn [filled o_dir o_open o_offer o_paid] in *.
  destruct (o_dir o).
  - rewrite quo_trunc_int in * by lia.
    assert (Hle : (o_offer o - (o_paid o + fill_paid o a p)) * P18 / q <= (o_offer o - o_paid o) * P18 / q).
    { apply Z.div_le_mono; [lia|]. nia. }
    assert (0 <= (o_offer o - (o_paid o + fill_paid o a p)) * P18 / q) by (apply Z.div_pos; nia).
    set (x := (o_offer o - (o_paid o + fill_paid o a p)) * P18 / q) in *.
    set (y := (o_offer o - o_paid o) * P18 / q) in *. clearbody x y.
    rewrite floor_value_dec in * by nia.
    destruct (Z.eqb_spec (floor_value q (Z.min (o_open o - a) x)) 0); [reflexivity|].
    destruct (Z.eqb_spec (floor_value q (Z.min (o_open o) y)) 0) as [E|E].
    + assert (floor_value q (Z.min (o_open o - a) x) <= floor_value q (Z.min (o_open o) y)).
      { apply Z.div_le_mono; nia. }
      assert (0 <= floor_value q (Z.min (o_open o - a) x)) by (apply Z.div_pos; nia). lia.
    + lia.
  - rewrite floor_value_dec in * by nia.
    destruct (Z.eqb_spec (floor_value q (o_open o - a)) 0); [reflexivity|].
    destruct (Z.eqb_spec (floor_value q (o_open o)) 0) as [E|E].
    + assert (floor_value q (o_open o - a) <= floor_value q (o_open o)) by (apply Z.div_le_mono; nia).
      assert (0 <= floor_value q (o_open o - a)) by (apply Z.div_pos; nia). lia.
    + lia.
Qed.

Lemma matchable_trace_mono h tr h' j q : trace h tr h' -> wf_heap h -> (j < length h)%nat -> 0 < q ->
  matchable_amount (get h j) q = 0 -> matchable_amount (get h' j) q = 0.
Proof.
  induction 1 as [h|h i a p rest h' Hi Hp Ha Hacc Htr IH]; intros Hwf Hj Hq Hz; [assumption|].
  assert (Hwf' : wf_heap (upd h i (filled (get h i) a p))).
  { intros k Hk. rewrite upd_length in Hk. destruct (Nat.eq_dec i k) as [->|Hne].
    - rewrite get_upd_same by assumption. apply filled_wf; [auto|assumption|lia].
    - rewrite get_upd_other by assumption. auto. }
  apply IH; auto; [rewrite upd_length; assumption|].
  destruct (Nat.eq_dec i j) as [->|Hne].
  - rewrite get_upd_same by assumption. apply matchable_fill_mono; auto. lia.
  - rewrite get_upd_other by assumption. assumption.
Qed.

Lemma matchable_phase_mono h ps price h' qd a j q : phase h ps price h' qd a -> wf_heap h -> (j < length h)%nat -> 0 < q ->
  matchable_amount (get h j) q = 0 -> matchable_amount (get h' j) q = 0.
Proof. intros (tr & T & _). eapply matchable_trace_mono; eassumption. Qed.

Lemma total_zero_each h ps price : wf_heap h -> 0 < price -> (forall p, In p ps -> (p < length h)%nat) ->
  total_matchable h ps price <= 0 -> forall p, In p ps -> matchable_amount (get h p) price = 0.
Proof.
  intros Hwf Hpr Hlt Hz p Hp. rewrite total_matchable_sum in Hz.
  pose proof (sumZ_in_le (fun q => matchable_amount (get h q) price) ps p) as H. cbn beta in H.
  assert (forall y, In y ps -> 0 <= matchable_amount (get h y) price).
  { intros y Hy. apply (matchable_le_open (get h y) price); auto. }
  specialize (H H0 Hp). specialize (H0 p Hp). lia.
Qed.

Lemma prio_no_change L h h' price : (forall q, In q (concat L) -> get h' q = get h q) -> prio L h h' price.
Proof.
  induction L as [|ps t IH]; intros H; [exact I|]. cbn. split.
  - intros (q & Hq & Hc). exfalso. apply Hc. apply H. cbn. apply in_or_app. right. assumption.
  - apply IH. intros q Hq. apply H. cbn. apply in_or_app. right. assumption.
Qed.

Lemma concat_map_snd {A} (gs : list (A * list nat)) : concat (map snd gs) = flat_map snd gs.
Proof. rewrite flat_map_concat_map. reflexivity. Qed.

(** Post-condition shared by all distribution functions on one side. *)
Definition dist_post (d : dir) (h : heap) (ps : list nat) (price : dec) (amt : Z) (h' : heap) (qd a : Z) : Prop :=
  phase h ps price h' qd a /\ a <= amt /\
  (no_dust d price -> amt <= total_matchable h ps price -> a = amt) /\
  (total_matchable h ps price <= amt ->
     a = total_matchable h ps price /\ forall p, In p ps -> matchable_amount (get h' p) price = 0).

Lemma NoDup_app_inv {A} (l1 l2 : list A) : NoDup (l1 ++ l2) -> NoDup l1 /\ NoDup l2 /\ (forall x, In x l2 -> ~ In x l1).
Proof.
  induction l1 as [|x l1 IH]; cbn; intros H; [repeat split; [constructor|assumption|auto]|].
  inversion H as [|? ? Hn Hd]; subst. destruct (IH Hd) as (A1 & A2 & A3).
  split; [constructor; [|assumption]; intros Hin; apply Hn; apply in_or_app; auto|]. split; [assumption|].
  intros y Hy [<-|Hin]; [apply Hn; apply in_or_app; auto|]. apply (A3 y Hy Hin).
Qed.

Section Dist2.
  Variable iter : list (nat * Z) -> list (nat * Z).
  Hypothesis Hiter : is_perm_iter iter.

  Lemma ptrs_ok_app h ps qs d price : ptrs_ok h (ps ++ qs) d price ->
    ptrs_ok h ps d price /\ ptrs_ok h qs d price /\ (forall q, In q qs -> ~ In q ps).
  Proof.
    intros [Hnd H]. destruct (NoDup_app_inv _ _ Hnd) as (N1 & N2 & N3). split; [|split; [|assumption]].
    - split; [assumption|]. intros p Hp. apply H. apply in_or_app. auto.
    - split; [assumption|]. intros p Hp. apply H. apply in_or_app. auto.
  Qed.

  Lemma dist_groups_ok price d : 0 < price -> forall gs h amt, wf_heap h ->
    ptrs_ok h (flat_map snd gs) d price -> 0 <= amt ->
    exists h' qd a, dist_groups iter h gs amt price = Some (h', qd) /\
      dist_post d h (flat_map snd gs) price amt h' qd a /\ prio (map snd gs) h h' price.
  Proof.
    intros Hpr. induction gs as [|[b ps] gs IH]; intros h amt Hwf Hok Hamt.
    - exists h, 0, 0. split; [reflexivity|]. split; [|exact I]. cbn [flat_map].
      unfold dist_post. change (total_matchable h [] price) with 0.
      split; [apply phase_nil|]. split; [lia|]. split; [lia|].
      intros _. split; [reflexivity|intros p []].
    - cbn [flat_map snd] in *. destruct (ptrs_ok_app _ _ _ _ _ Hok) as (Hok1 & Hok2 & Hdisj).
      assert (Hlt1 : forall p, In p ps -> (p < length h)%nat) by (intros p Hp; apply Hok1; assumption).
      assert (Hlt2 : forall p, In p (flat_map snd gs) -> (p < length h)%nat) by (intros p Hp; apply Hok2; assumption).
      pose proof (total_matchable_nonneg h ps price Hwf Hpr Hlt1) as Hn1.
      pose proof (total_matchable_nonneg h (flat_map snd gs) price Hwf Hpr Hlt2) as Hn2.
      unfold dist_post. rewrite total_matchable_app. cbn [dist_groups].
      set (oa := total_matchable h ps price) in *. set (ot := total_matchable h (flat_map snd gs) price) in *.
      destruct (Z.eqb_spec oa 0) as [E0|E0]; [|destruct (Z.leb_spec oa amt) as [Hle|Hgt]].
      + destruct (IH h amt Hwf Hok2 Hamt) as (h' & qd & a & E & (P & Ha & Hx & Hf) & Pr). fold ot in Hx, Hf.
        exists h', qd, a. split; [exact E|].
        assert (Hz : forall r, In r ps -> matchable_amount (get h' r) price = 0).
        { intros r Hr. rewrite (phase_other _ _ _ _ _ _ r P) by (intros Hin; apply (Hdisj r Hin Hr)).
          apply (total_zero_each h ps price); auto. fold oa. lia. }
        split; [|cbn [map snd prio]; split; [intros _; exact Hz|exact Pr]].
        split; [eapply phase_incl; [|exact P]; apply incl_appr, incl_refl|].
        split; [lia|]. split; [intros; apply Hx; [assumption|lia]|].
        intros Ht. destruct (Hf ltac:(lia)) as [-> Hf2]. split; [lia|].
        intros p Hp. apply in_app_or in Hp. destruct Hp as [Hp|Hp]; auto.
      + destruct (fulfill_orders_ok price d Hpr ps h Hwf Hok1) as (h1 & d1 & E1 & P1 & Z1). fold oa in P1.
        rewrite E1.
        assert (Hsame1 : forall q, In q (flat_map snd gs) -> get h1 q = get h q).
        { intros q Hq. eapply phase_other; [exact P1|]. apply Hdisj. assumption. }
        destruct (Z.eqb_spec (amt - oa) 0) as [Er|Er].
        * exists h1, d1, oa. split; [reflexivity|]. split.
          -- split; [eapply phase_incl; [|exact P1]; apply incl_appl, incl_refl|].
             split; [lia|]. split; [intros; lia|]. intros Ht. assert (ot = 0) by lia. split; [lia|].
             intros p Hp. apply in_app_or in Hp. destruct Hp as [Hp|Hp]; [auto|].
             rewrite Hsame1 by assumption. apply (total_zero_each h (flat_map snd gs) price); auto. fold ot. lia.
          -- cbn [map snd prio]. split; [intros _; assumption|]. apply prio_no_change.
             rewrite concat_map_snd. assumption.
        * destruct (IH h1 (amt - oa)) as (h2 & d2 & a2 & E2 & (P2 & Ha2 & Hx2 & Hf2) & Pr2).
          { eapply phase_wf; eassumption. }
          { eapply ptrs_ok_static; [eapply phase_static; eassumption|assumption]. }
          { lia. }
          rewrite (total_matchable_ext h h1 _ price Hsame1) in Hx2, Hf2. fold ot in Hx2, Hf2.
          rewrite E2. exists h2, (d1 + d2), (oa + a2). split; [reflexivity|].
          assert (Hz2 : forall r, In r ps -> matchable_amount (get h2 r) price = 0).
          { intros r Hr. rewrite (phase_other _ _ _ _ _ _ r P2); auto. intros Hin. apply (Hdisj r Hin Hr). }
          split.
          -- split; [eapply phase_app; eassumption|]. split; [lia|].
             split; [intros Hd Hle2; rewrite (Hx2 Hd) by lia; lia|].
             intros Ht. destruct (Hf2 ltac:(lia)) as [-> Hf3]. split; [lia|].
             intros p Hp. apply in_app_or in Hp. destruct Hp as [Hp|Hp]; auto.
          -- cbn [map snd prio]. split; [intros _; exact Hz2|].
             clear - Pr2 Hsame1. revert Pr2 Hsame1. generalize gs. clear gs.
             induction gs as [|[b ps] gs IH]; intros Pr2 Hs; [exact I|]. cbn [map snd prio flat_map] in *.
             destruct Pr2 as [A B]. split.
             ++ intros (q & Hq & Hc). apply A. exists q. split; [assumption|]. rewrite Hs; [assumption|].
                rewrite concat_map_snd in Hq. apply in_or_app. auto.
             ++ apply IH; [assumption|]. intros q Hq. apply Hs. apply in_or_app. auto.
      + unfold distribute_to_orders.
        pose proof (sort_orders_perm h ps) as Hp.
        assert (Hok1' : ptrs_ok h (sort_orders h ps) d price).
        { apply (ptrs_ok_sub h ps); [assumption| |].
          - intros p Hin. eapply Permutation_in; eassumption.
          - eapply Permutation_NoDup; [apply Permutation_sym; exact Hp|]. apply Hok1. }
        rewrite (Permutation_length Hp).
        destruct (dist_orders_ok iter Hiter price d Hpr (S (length ps)) h (sort_orders h ps) amt Hwf Hok1') as (h' & qd & a & E & P & Ha & Hx).
        { rewrite (Permutation_length Hp). lia. }
        { assumption. }
        rewrite (total_matchable_perm h _ ps price Hp) in Hx. fold oa in Hx.
        assert (P' : phase h ps price h' qd a).
        { eapply phase_incl; [|exact P]. intros p Hin. eapply Permutation_in; eassumption. }
        exists h', qd, a. split; [exact E|]. split.
        * split; [eapply phase_incl; [|exact P']; apply incl_appl, incl_refl|].
          split; [assumption|]. split; [intros Hd _; apply Hx; [assumption|lia]|]. intros Ht. lia.
        * assert (Hs : forall q, In q (flat_map snd gs) -> get h' q = get h q).
          { intros q Hq. eapply phase_other; [exact P'|]. apply Hdisj. assumption. }
          cbn [map snd prio]. rewrite concat_map_snd. split.
          -- intros (q & Hq & Hc). exfalso. auto.
          -- apply prio_no_change. rewrite concat_map_snd. assumption.
  Qed.

  Lemma dist_post_perm d h ps qs price amt h' qd a : Permutation ps qs ->
    dist_post d h ps price amt h' qd a -> dist_post d h qs price amt h' qd a.
  Proof.
    intros Hp (P & Ha & Hx & Hf). unfold dist_post. rewrite <- (total_matchable_perm h ps qs price Hp).
    split; [eapply phase_incl; [|exact P]; intros x; apply Permutation_in; assumption|].
    split; [assumption|]. split; [assumption|]. intros Ht. destruct (Hf Ht) as [E Hz]. split; [assumption|].
    intros p Hin. apply Hz. eapply Permutation_in; [apply Permutation_sym; exact Hp|assumption].
  Qed.

  (** within one tick, an earlier batch is exhausted before a later one gets anything *)
  Definition batch_prio (h : heap) (ps : list nat) (h' : heap) (price : dec) : Prop :=
    forall r q, In r ps -> In q ps -> batch_before (o_batch (get h r)) (o_batch (get h q)) ->
      get h' q <> get h q -> matchable_amount (get h' r) price = 0.

  Lemma distribute_to_tick_ok price d h t amt : 0 < price -> wf_heap h ->
    ptrs_ok h (snd t) d price -> 0 <= amt ->
    exists h' qd a, distribute_to_tick iter h t amt price = Some (h', qd) /\
      dist_post d h (snd t) price amt h' qd a /\ batch_prio h (snd t) h' price.
  Proof.
    intros Hpr Hwf Hok Hamt. unfold distribute_to_tick.
    pose proof (group_by_batch_keyed h (snd t)) as HK. set (gs := group_by_batch h (snd t)) in *.
    pose proof (keyed_perm batch_before batch_before_irrefl _ _ _ HK) as Hp.
    destruct (dist_groups_ok price d Hpr gs h amt Hwf) as (h' & qd & a & E & HD & Pr).
    { apply (ptrs_ok_sub h (snd t)); [assumption| |].
      - intros p Hin. eapply Permutation_in; eassumption.
      - eapply Permutation_NoDup; [apply Permutation_sym; exact Hp|apply Hok]. }
    { assumption. }
    exists h', qd, a. split; [exact E|]. split; [eapply dist_post_perm; eassumption|].
    intros r q Hr Hq Hb Hc.
    assert (Hmem : forall p, In p (snd t) -> exists ms, In (o_batch (get h p), ms) gs /\ In p ms).
    { intros p Hin. assert (In (o_batch (get h p)) (map fst gs)) as Hk.
      { apply (keyed_keys batch_before (fun p => o_batch (get h p)) (snd t) gs _ HK). exists p. auto. }
      apply in_map_iff in Hk. destruct Hk as ([b ms] & Eb & Hms). cbn in Eb. subst b. exists ms. split; [assumption|].
      apply (keyed_members _ _ _ _ _ _ HK Hms). auto. }
    assert (Hun : forall b ms, In (b, ms) gs -> forall p, In p ms -> o_batch (get h p) = b).
    { intros b ms Hin p Hpm. apply (keyed_members _ _ _ _ _ _ HK Hin) in Hpm. apply Hpm. }
    pose proof (keyed_sorted _ _ _ _ HK) as Hs.
    destruct (Hmem r Hr) as (mr & Hmr & Hr'). destruct (Hmem q Hq) as (mq & Hmq & Hq').
    clear HD E HK Hmem Hp. clearbody gs. clear iter Hiter.
    induction gs as [|[b ms] gs IH]; [destruct Hmr|]. cbn [map fst snd prio] in *.
    inversion Hs as [|? ? Hs1 Hs2]; subst. destruct Pr as [Pr1 Pr2].
    assert (Hqin : In (o_batch (get h q), mq) gs).
    { destruct Hmq as [Eq|]; [|assumption]. injection Eq as Eb Em. exfalso.
      destruct Hmr as [Er|Hmr].
      - injection Er as Er _. rewrite <- Er, Eb in Hb. apply (batch_before_irrefl _ Hb).
      - rewrite Forall_forall in Hs2. assert (batch_before b (o_batch (get h r))) as Hb2.
        { apply Hs2. apply in_map_iff. exists (o_batch (get h r), mr). auto. }
        rewrite Eb in Hb2. unfold batch_before in *. lia. }
    destruct Hmr as [Er|Hmr].
    - injection Er as Eb Em. subst ms. apply Pr1; [|assumption]. exists q. split; [|assumption].
      rewrite concat_map_snd. apply in_flat_map. exists (o_batch (get h q), mq). auto.
    - apply IH; auto. intros b' ms' Hin. apply (Hun b' ms'). right. assumption.
  Qed.

  Lemma batch_prio_ext h h1 ps h' price : (forall q, In q ps -> get h1 q = get h q) ->
    batch_prio h1 ps h' price -> batch_prio h ps h' price.
  Proof.
    intros Hs H r q Hr Hq Hb Hc. apply (H r q); auto; rewrite !Hs by assumption; assumption.
  Qed.

  Lemma prio_ext L h h1 h' price : (forall q, In q (concat L) -> get h1 q = get h q) ->
    prio L h1 h' price -> prio L h h' price.
  Proof.
    induction L as [|ps t IH]; intros Hs H; [exact I|]. cbn in *. destruct H as [A B]. split.
    - intros (q & Hq & Hc). apply A. exists q. split; [assumption|]. rewrite Hs; [assumption|]. apply in_or_app. auto.
    - apply IH; [|assumption]. intros q Hq. apply Hs. apply in_or_app. auto.
  Qed.

  Lemma distribute_to_ticks_ok price d : 0 < price -> forall pre rest h amt, wf_heap h ->
    ptrs_ok h (flat_map snd pre) d price -> 0 <= amt <= total_matchable h (flat_map snd pre) price ->
    pre <> [] ->
    exists h' qd a, distribute_to_ticks iter h (pre ++ rest) amt price = Some (h', qd) /\
      dist_post d h (flat_map snd pre) price amt h' qd a /\ prio (map snd pre) h h' price /\
      (forall t, In t pre -> batch_prio h (snd t) h' price).
  Proof.
    intros Hpr. induction pre as [|t pre IH]; intros rest h amt Hwf Hok Hamt Hne; [congruence|].
    cbn [flat_map snd] in *. destruct (ptrs_ok_app _ _ _ _ _ Hok) as (Hok1 & Hok2 & Hdisj).
    assert (Hlt1 : forall p, In p (snd t) -> (p < length h)%nat) by (intros p Hp; apply Hok1; assumption).
    assert (Hlt2 : forall p, In p (flat_map snd pre) -> (p < length h)%nat) by (intros p Hp; apply Hok2; assumption).
    pose proof (total_matchable_nonneg h (snd t) price Hwf Hpr Hlt1) as Hn1.
    pose proof (total_matchable_nonneg h (flat_map snd pre) price Hwf Hpr Hlt2) as Hn2.
    unfold dist_post. rewrite total_matchable_app in *. cbn [app distribute_to_ticks].
    set (oa := total_matchable h (snd t) price) in *. set (ot := total_matchable h (flat_map snd pre) price) in *.
    assert (Hin_pre : forall u q, In u pre -> In q (snd u) -> In q (flat_map snd pre)).
    { intros u q Hu Hq. apply in_flat_map. exists u. auto. }
    destruct (Z.leb_spec oa amt) as [Hle|Hgt].
    - destruct (fulfill_orders_ok price d Hpr (snd t) h Hwf Hok1) as (h1 & d1 & E1 & P1 & Z1). fold oa in P1.
      rewrite E1.
      assert (Hsame1 : forall q, In q (flat_map snd pre) -> get h1 q = get h q).
      { intros q Hq. eapply phase_other; [exact P1|]. apply Hdisj. assumption. }
      destruct (Z.eqb_spec (amt - oa) 0) as [Er|Er].
      + exists h1, d1, oa. split; [reflexivity|]. split; [|split].
        * split; [eapply phase_incl; [|exact P1]; apply incl_appl, incl_refl|].
          split; [lia|]. split; [intros; lia|]. intros Ht. assert (ot = 0) by lia. split; [lia|].
          intros p Hp. apply in_app_or in Hp. destruct Hp as [Hp|Hp]; [auto|].
          rewrite Hsame1 by assumption. apply (total_zero_each h (flat_map snd pre) price); auto. fold ot. lia.
        * cbn [map snd prio]. split; [intros _; assumption|]. apply prio_no_change.
          rewrite concat_map_snd. assumption.
        * intros u [<-|Hu] r q Hr Hq Hb Hc; [auto|]. exfalso. apply Hc. apply Hsame1. eauto.
      + destruct (IH rest h1 (amt - oa)) as (h2 & d2 & a2 & E2 & (P2 & Ha2 & Hx2 & Hf2) & Pr2 & B2).
        { eapply phase_wf; eassumption. }
        { eapply ptrs_ok_static; [eapply phase_static; eassumption|assumption]. }
        { rewrite (total_matchable_ext h h1 _ price Hsame1). fold ot. lia. }
        { intros ->. cbn in ot. change (total_matchable h [] price) with 0 in ot. lia. }
        rewrite (total_matchable_ext h h1 _ price Hsame1) in Hx2, Hf2. fold ot in Hx2, Hf2.
        rewrite E2. exists h2, (d1 + d2), (oa + a2). split; [reflexivity|].
        assert (Hz2 : forall r, In r (snd t) -> matchable_amount (get h2 r) price = 0).
        { intros r Hr. rewrite (phase_other _ _ _ _ _ _ r P2); auto. intros Hin. apply (Hdisj r Hin Hr). }
        split; [|split].
        * split; [eapply phase_app; eassumption|]. split; [lia|].
          split; [intros Hd Hle2; rewrite (Hx2 Hd) by lia; lia|].
          intros Ht. destruct (Hf2 ltac:(lia)) as [-> Hf3]. split; [lia|].
          intros p Hp. apply in_app_or in Hp. destruct Hp as [Hp|Hp]; auto.
        * cbn [map snd prio]. split; [intros _; exact Hz2|].
          apply (prio_ext _ h h1); [|assumption]. rewrite concat_map_snd. assumption.
        * intros u [<-|Hu]; [intros r q Hr Hq Hb Hc; auto|].
          apply (batch_prio_ext h h1); [|auto]. intros q Hq. apply Hsame1. eauto.
    - destruct (distribute_to_tick_ok price d h t amt Hpr Hwf Hok1 ltac:(lia)) as (h' & qd & a & E & (P & Ha & Hx & Hf) & Pr).
      fold oa in Hx, Hf. exists h', qd, a. split; [exact E|].
      assert (Hs : forall q, In q (flat_map snd pre) -> get h' q = get h q).
      { intros q Hq. eapply phase_other; [exact P|]. apply Hdisj. assumption. }
      split; [|split].
      + split; [eapply phase_incl; [|exact P]; apply incl_appl, incl_refl|].
        split; [assumption|]. split; [intros Hd _; apply Hx; [assumption|lia]|]. intros Ht. lia.
      + cbn [map snd prio]. rewrite concat_map_snd. split.
        * intros (q & Hq & Hc). exfalso. auto.
        * apply prio_no_change. rewrite concat_map_snd. assumption.
      + intros u [<-|Hu]; [assumption|]. intros r q Hr Hq Hb Hc. exfalso. apply Hc. apply Hs. eauto.
  Qed.
End Dist2.

(** ** find_matchable_single *)
Lemma side_total_sum h mp ts : side_total h mp ts = total_matchable h (flat_map snd ts) mp.
Proof.
  unfold side_total. rewrite fold_left_sum, total_matchable_sum, Z.add_0_l.
  induction ts as [|t ts IH]; [reflexivity|]. cbn [map flat_map].
  rewrite map_app, sumZ_app, sumZ_cons, IH, total_matchable_sum. reflexivity.
Qed.

Lemma side_prefix_app inc mp ts : exists rest, ts = side_prefix inc mp ts ++ rest.
Proof.
  induction ts as [|t ts [rest IH]]; [exists []; reflexivity|]. cbn [side_prefix].
  destruct (_ || _); [exists (t :: ts); reflexivity|]. exists rest. cbn. congruence.
Qed.
Lemma side_prefix_accept inc mp ts t : In t (side_prefix inc mp ts) -> if inc then fst t <= mp else mp <= fst t.
Proof.
  induction ts as [|u ts IH]; intros H; [destruct H|]. cbn [side_prefix] in H.
  destruct inc; cbn [andb negb orb] in H; rewrite ?orb_false_r in H.
  - destruct (Z.ltb_spec mp (fst u)); [destruct H|]. destruct H as [<-|H]; [lia|auto].
  - destruct (Z.ltb_spec (fst u) mp); [destruct H|]. destruct H as [<-|H]; [lia|auto].
Qed.

Definition nonneg_side (h : heap) (mp : dec) (ts : list tick) : Prop :=
  forall t, In t ts -> 0 <= total_matchable h (snd t) mp.
Lemma side_total_nonneg h mp ts : nonneg_side h mp ts -> 0 <= side_total h mp ts.
Proof. intros H. unfold side_total. rewrite fold_left_sum. assert (0 <= sumZ (map (fun t => total_matchable h (snd t) mp) ts)); [|lia]. apply sumZ_map_nonneg. assumption. Qed.
Lemma side_total_cons h mp t ts : side_total h mp (t :: ts) = total_matchable h (snd t) mp + side_total h mp ts.
Proof. rewrite !side_total_sum. cbn [flat_map]. apply total_matchable_app. Qed.
Lemma side_total_rev h mp ts : side_total h mp (rev ts) = side_total h mp ts.
Proof.
  unfold side_total. rewrite !fold_left_sum. f_equal. apply sumZ_perm. apply Permutation_map. apply Permutation_sym, Permutation_rev.
Qed.

Lemma side_step_ok h mp is_sell st other : nonneg_side h mp st ->
  match side_step h mp is_sell st (side_total h mp st) other with
  | None => True
  | Some (st', tot', m, dropped) =>
      tot' = side_total h mp st' /\ nonneg_side h mp st' /\ tot' <= side_total h mp st /\
      m = Z.min (side_total h mp st) other /\
      (if dropped then length st = S (length st') else st' = st /\ 0 < m)
  end.
Proof.
  intros Hn. unfold side_step. destruct st as [|t r]; [exact I|].
  rewrite side_total_cons. set (a := total_matchable h (snd t) mp). set (b := side_total h mp r).
  assert (0 <= a) by (apply Hn; left; reflexivity).
  assert (Hr : nonneg_side h mp r) by (intros u Hu; apply Hn; right; assumption).
  assert (0 <= b) by (apply side_total_nonneg; assumption).
  destruct ((Z.min (a + b) other <=? a + b - a) || _) eqn:Ec.
  - destruct r as [|u r']; [exact I|]. split; [lia|]. split; [assumption|]. split; [lia|]. split; [reflexivity|]. reflexivity.
  - apply orb_false_iff in Ec. destruct Ec as [Ec _]. apply Z.leb_gt in Ec.
    split; [unfold b; rewrite side_total_cons; unfold a; lia|]. split; [assumption|]. split; [lia|].
    split; [reflexivity|]. split; [reflexivity|lia].
Qed.

Lemma single_loop_ok h mp : forall fuel bst sst, nonneg_side h mp bst -> nonneg_side h mp sst ->
  (length bst + length sst < fuel)%nat ->
  exists r, single_loop fuel h mp bst sst (side_total h mp bst) (side_total h mp sst) = Some r /\
    match r with None => True | Some m => 0 < m <= side_total h mp bst /\ m <= side_total h mp sst end.
Proof.
  induction fuel as [|fuel IH]; intros bst sst Hb Hs Hf; [lia|]. cbn [single_loop].
  pose proof (side_step_ok h mp false bst (side_total h mp sst) Hb) as Sb.
  destruct (side_step h mp false bst _ _) as [[[[bst' bt'] mb] bd]|]; [|exists None; auto].
  destruct Sb as (Ebt & Hb' & Hle & _ & Hbd).
  pose proof (side_step_ok h mp true sst bt' Hs) as Ss.
  destruct (side_step h mp true sst _ _) as [[[[sst' stt'] m] sd]|]; [|exists None; auto].
  destruct Ss as (Est & Hs' & Hle' & Em & Hsd).
  destruct (negb bd && negb sd) eqn:Ed.
  - exists (Some m). split; [reflexivity|]. apply andb_true_iff in Ed. destruct Ed as [Ed1 Ed2].
    destruct sd; [discriminate|]. lia.
  - subst bt' stt'. destruct (IH bst' sst' Hb' Hs') as (r & E & Hr).
    { destruct bd; [|destruct Hbd as [Hbd _]; subst bst']; (destruct sd; [|destruct Hsd as [Hsd _]; subst sst']);
        cbn in Ed; try discriminate; lia. }
    exists r. split; [exact E|]. destruct r; [lia|exact I].
Qed.

Lemma find_matchable_single_ok h ob mp :
  let bs := side_prefix false mp (buys ob) in let ss := side_prefix true mp (sells ob) in
  nonneg_side h mp bs -> nonneg_side h mp ss ->
  exists r, find_matchable_single h ob mp = Some r /\
    match r with None => True | Some m => bs <> [] /\ ss <> [] /\ 0 < m <= side_total h mp bs /\ m <= side_total h mp ss end.
Proof.
  intros bs ss Hb Hs. unfold find_matchable_single. fold bs ss.
  destruct bs as [|b0 bs'] eqn:Eb; [exists None; auto|]. destruct ss as [|s0 ss'] eqn:Es; [exists None; auto|].
  rewrite <- Eb, <- Es in *.
  destruct (single_loop_ok h mp (S (length bs + length ss)) (rev bs) (rev ss)) as (r & E & Hr).
  { intros t Ht. apply Hb. apply in_rev. assumption. }
  { intros t Ht. apply Hs. apply in_rev. assumption. }
  { rewrite !rev_length. lia. }
  rewrite !side_total_rev in E, Hr. exists r. split; [exact E|]. destruct r; [|exact I].
  split; [rewrite Eb; discriminate|]. split; [rewrite Es; discriminate|]. lia.
Qed.
