(** Cancelling orders. *)
From Verif Require Import Base Dec OrderModel MatchModel PoolModel KeeperModel KeeperLib KeeperSpec KeeperSpec2 KeeperMicro KeeperBank KeeperSteps KeeperTrade KeeperInv KeeperHist KeeperBlock MatchProofs.

Lemma finish_order_closed s o st s' : str s -> live o = true -> 0 <= ko_remaining o -> finish_order s o st = Some s' ->
  order_closed s s' o st /\ ko_remaining o <= Z.max 0 (bal (st_bank s) (PairEscrow (ko_pair o)) (ko_offer_denom o)).
Proof.
  intros S L N H. destruct (finish_order_spec _ _ _ _ H L) as (b & Hb & ->).
  assert (X : refunded (st_bank s) b o /\ ko_remaining o <= Z.max 0 (bal (st_bank s) (PairEscrow (ko_pair o)) (ko_offer_denom o))).
  { destruct (Z.ltb_spec 0 (ko_remaining o)).
    - destruct (send_spec _ _ _ _ _ Hb) as (_ & (M1 & M2) & M3). split; [split|].
      + intros a d. rewrite M1. unfold at_acc, of_denom. cbn [amount_of]. destruct (addr_eqb a (ko_owner o)), (addr_eqb a (PairEscrow (ko_pair o))), (denom_eqb d (ko_offer_denom o)); lia.
      + exact M2.
      + specialize (M3 (ko_offer_denom o)). cbn [amount_of] in M3. rewrite denom_eqb_refl in M3. lia.
    - subst b. assert (ko_remaining o = 0) as -> by lia. split; [split|lia]; [|reflexivity]. intros a d. unfold at_acc, of_denom. destruct (addr_eqb a (ko_owner o)), (addr_eqb a (PairEscrow (ko_pair o))), (denom_eqb d (ko_offer_denom o)); lia. }
  destruct X as [X1 X2]. split; [|exact X2].
  assert (O : st_bank (match ko_type o with
          | TMM => set_mm_count (put_order (set_bank s b) (ko_with_status o st)) (ko_owner o) (ko_pair o) (if st_mm s (ko_owner o) (ko_pair o) <=? 1 then 0 else st_mm s (ko_owner o) (ko_pair o) - 1)
          | _ => put_order (set_bank s b) (ko_with_status o st) end) = b) by (destruct (ko_type o); reflexivity).
  unfold order_closed. cbn zeta. rewrite O. split; [exact X1|].
  repeat match goal with |- _ /\ _ => split end; try (destruct (ko_type o); reflexivity).
  intros i j. unfold get_order. replace (st_orders _) with (mset (st_orders s) (ko_pair o, ko_id o) (ko_with_status o st)) by (destruct (ko_type o); reflexivity).
  rewrite mget_mset. reflexivity.
Qed.

Lemma finish_order_succeeds s o st : live o = true -> get_pair s (ko_pair o) <> None -> ko_remaining o <= bal (st_bank s) (PairEscrow (ko_pair o)) (ko_offer_denom o) ->
  finish_order s o st <> None.
Proof.
  intros L P H. unfold finish_order. unfold live in L. apply negb_true_iff in L. rewrite L.
  destruct (Z.ltb_spec 0 (ko_remaining o)); [|discriminate]. destruct (get_pair s (ko_pair o)); [|congruence]. unfold st_send.
  destruct (send_ok (st_bank s) (PairEscrow (ko_pair o)) (ko_owner o) [(ko_offer_denom o, ko_remaining o)]) as (b & ->).
  - cbn [valid_coins has_denom existsb]. rewrite (proj2 (Z.ltb_lt 0 (ko_remaining o))) by assumption. reflexivity.
  - intros d. cbn [amount_of]. destruct (denom_eqb_spec d (ko_offer_denom o)) as [->|]; lia.
  - discriminate.
Qed.

Lemma order_facts Q c i j o : reach (sane Q) c -> get_order (snd c) i j = Some o ->
  ko_pair o = i /\ ko_id o = j /\ 1 <= i /\ 1 <= j /\ exists pr, get_pair (snd c) i = Some pr /\ order_ok pr o.
Proof.
  intros R G. pose proof (reach_str Q c R) as S. destruct (i_orders _ S _ _ G) as (E & pr & Gp & O). injection E as E1 E2.
  rewrite <- E1 in Gp. pose proof O as (B & _). destruct (i_pairs _ S _ _ Gp) as (E & B2 & _). injection E as E. repeat split; try congruence; try lia. eauto.
Qed.

(** Exactly when a cancellation is accepted. *)
Lemma cancel_accepted Q s u i j : reach (sane Q) (InBlock, s) ->
  (deliver s (MCancelOrder u i j) <> None <->
   exists o, get_order s i j = Some o /\ ko_owner o = User u /\ live o = true /\ earlier_batch s o /\ ko_remaining o <= bal (st_bank s) (PairEscrow i) (ko_offer_denom o)).
Proof.
  intros R. pose proof (reach_str Q _ R) as S. cbn [snd] in S. destruct (reach_in_block Q s R) as (_ & _ & IB). split.
  - intros H. unfold deliver in H. cbn [validate_basic handle] in H. destruct (negb (i =? 0) && negb (j =? 0)); [|congruence]. unfold cancel_order in H.
    destruct (get_order s i j) as [o|] eqn:G; [|congruence]. destruct (addr_eqb_spec (User u) (ko_owner o)) as [E|]; [|cbn in H; congruence]. cbn [negb] in H.
    destruct (order_facts Q _ i j o R G) as (<- & <- & _ & _ & pr & Gp & O). cbn [snd] in Gp. rewrite Gp in H.
    pose proof O as (_ & B & _ & _ & _ & _ & _ & _ & Nr & _).
    exists o. split; [reflexivity|]. split; [auto|].
    assert (L : live o = true). { destruct (IB _ _ G) as [L|C]; [exact L|]. rewrite C in H. cbn in H. congruence. }
    split; [exact L|]. assert (NC : match ko_status o with OCanceled => true | _ => false end = false) by (unfold live in L; destruct (ko_status o); try reflexivity; discriminate L).
    rewrite NC in H. destruct (Z.eqb_spec (ko_batch o) (pr_batch pr)); [congruence|]. split; [exists pr; split; [assumption|lia]|].
    destruct (finish_order s o OCanceled) as [s'|] eqn:F; [|congruence]. destruct (finish_order_closed _ _ _ _ S L (proj1 Nr) F) as (_ & X).
    destruct (v_bank _ _ (reach_okp Q _ R)) as [Nb _]. cbn [snd] in Nb. pose proof (Nb (PairEscrow (ko_pair o)) (ko_offer_denom o)). lia.
  - intros (o & G & E & L & (pr & Gp & B) & X). destruct (order_facts Q _ i j o R G) as (<- & <- & P1 & P2 & _). unfold deliver. cbn [validate_basic handle].
    replace (negb (ko_pair o =? 0) && negb (ko_id o =? 0)) with true by (symmetry; apply andb_true_iff; split; apply negb_true_iff, Z.eqb_neq; lia). unfold cancel_order. rewrite G, E, addr_eqb_refl. cbn [negb].
    assert (NC : match ko_status o with OCanceled => true | _ => false end = false) by (unfold live in L; destruct (ko_status o); try reflexivity; discriminate L).
    rewrite NC, Gp. destruct (Z.eqb_spec (ko_batch o) (pr_batch pr)); [lia|]. apply finish_order_succeeds; auto. congruence.
Qed.
Lemma cancel_exact Q s u i j s' : reach (sane Q) (InBlock, s) -> deliver s (MCancelOrder u i j) = Some s' ->
  exists o, get_order s i j = Some o /\ ko_owner o = User u /\ live o = true /\ earlier_batch s o /\ order_closed s s' o OCanceled.
Proof.
  intros R H. destruct (proj1 (cancel_accepted Q s u i j R)) as (o & G & E & L & B & X); [congruence|]. exists o. repeat (split; [assumption|]).
  pose proof (reach_str Q _ R) as S. cbn [snd] in S. destruct (order_facts Q _ i j o R G) as (<- & <- & _ & _ & pr & _ & O).
  unfold deliver in H. cbn [validate_basic handle] in H. destruct (_ && _); [|discriminate H]. unfold cancel_order in H. rewrite G in H.
  destruct (negb _); [discriminate H|]. destruct (match ko_status o with OCanceled => true | _ => false end); [discriminate H|].
  destruct (ko_batch o =? _); [discriminate H|]. apply (finish_order_closed s o OCanceled s' S L) in H; [apply H|apply O].
Qed.

(** ** Cancel all *)
Definition wants (u : Z) (ids : list Z) (s : state) (o : korder) : bool :=
  addr_eqb (User u) (ko_owner o) && live o && (match ids with [] => true | _ => false end || existsb (Z.eqb (ko_pair o)) ids) &&
  (ko_batch o <? match get_pair s (ko_pair o) with Some pr => pr_batch pr | None => 0 end).

Definition lock_of (a : addr) (d : denom) (o : korder) : Z := if live o && addr_eqb a (ko_owner o) then of_denom d (ko_offer_denom o) (ko_remaining o) else 0.
Lemma locked_put s o old a d : msorted (st_orders s) -> get_order s (ko_pair o) (ko_id o) = Some old ->
  locked (put_order s o) a d = locked s a d - lock_of a d old + lock_of a d o.
Proof.
  intros S G. change (msum (lock_of a d) (mset (st_orders s) (ko_pair o, ko_id o) o) = msum (lock_of a d) (st_orders s) - lock_of a d old + lock_of a d o).
  rewrite (msum_mset _ _ _ _ S). unfold get_order in G. rewrite G. lia.
Qed.
Lemma finish_locked s o st s' : str s -> get_order s (ko_pair o) (ko_id o) = Some o -> live o = true -> o_terminal st = true -> 0 <= ko_remaining o -> finish_order s o st = Some s' ->
  (forall u d, bal (st_bank s') (User u) d + locked s' (User u) d = bal (st_bank s) (User u) d + locked s (User u) d).
Proof.
  intros S G L T N H u d. destruct (finish_order_closed _ _ _ _ S L N H) as (((B & _) & _) & _). rewrite B.
  replace (locked s' (User u) d) with (locked s (User u) d - (if addr_eqb (User u) (ko_owner o) then of_denom d (ko_offer_denom o) (ko_remaining o) else 0)).
  - unfold at_acc. destruct (addr_eqb (User u) (PairEscrow (ko_pair o))) eqn:X; [discriminate X|]. destruct (addr_eqb (User u) (ko_owner o)); lia.
  - destruct (finish_order_spec _ _ _ _ H L) as (b & _ & ->). pose proof (locked_put (set_bank s b) (ko_with_status o st) o (User u) d (i_orders_sorted _ S) G) as E. unfold lock_of in E.
    replace (live (ko_with_status o st)) with false in E by (unfold live; cbn; rewrite T; reflexivity). rewrite L in E. cbn [andb ko_owner ko_with_status] in E.
    change (locked (set_bank s b) (User u) d) with (locked s (User u) d) in E.
    transitivity (locked (put_order (set_bank s b) (ko_with_status o st)) (User u) d); [lia|destruct (ko_type o); reflexivity].
Qed.

Definition unmoved (s s' : state) (a : addr) : Prop := forall d, bal (st_bank s') a d = bal (st_bank s) a d.
Lemma cancel_loop (Q : ctl) u ids l : stage_of Q = SMsg -> forall s s', inv Q s -> NoDup l -> (forall k, In k l -> exists o, mget (st_orders s) k = Some o /\ ko_owner o = User u) ->
  for_each (cancel_one ids) l s = Some s' ->
  (forall k, mget (st_orders s') k = match mget (st_orders s) k with
       | Some o => Some (if existsb (key_eqb k) l && wants u ids s o then ko_with_status o OCanceled else o) | None => None end) /\
  (forall v d, bal (st_bank s') (User v) d + locked s' (User v) d = bal (st_bank s) (User v) d + locked s (User v) d) /\
  (forall i d, slack s' i d = slack s i d) /\ (forall a, match a with User _ | PairEscrow _ => True | _ => unmoved s s' a end) /\ st_pairs s' = st_pairs s /\ st_pools s' = st_pools s /\ st_deps s' = st_deps s /\ st_wds s' = st_wds s /\ st_params s' = st_params s.
Proof.
  intros HS. induction l as [|k l IH]; intros s s' I Nd Hl H; cbn in H.
  - injection H as <-. split; [|split; [|split; [|split; [|auto]]]]; try (intros; reflexivity).
    + intros k. cbn. destruct (mget (st_orders s) k); reflexivity.
    + intros []; try exact Logic.I; intros d; reflexivity.
  - destruct (cancel_one ids k s) as [s1|] eqn:E; [|discriminate H]. apply NoDup_cons_iff in Nd. destruct Nd as [Nk Nd].
    destruct (Hl k (or_introl eq_refl)) as (o & G & Ow). pose proof (v_str _ _ I) as S.
    assert (I1 : inv Q s1) by (eapply inv_mics; [eapply cancel_one_mics; eassumption|assumption]).
    destruct (i_orders _ S _ _ G) as (Ek & pr & Gp & O). pose proof O as (_ & _ & _ & _ & _ & _ & _ & _ & [Nr _] & _).
    assert (X : (mget (st_orders s1) k = Some (if wants u ids s o then ko_with_status o OCanceled else o)) /\ (forall k', k' <> k -> mget (st_orders s1) k' = mget (st_orders s) k') /\
      (forall v d, bal (st_bank s1) (User v) d + locked s1 (User v) d = bal (st_bank s) (User v) d + locked s (User v) d) /\
      (forall i d, slack s1 i d = slack s i d) /\ (forall a, match a with User _ | PairEscrow _ => True | _ => unmoved s s1 a end) /\ st_pairs s1 = st_pairs s /\ st_pools s1 = st_pools s /\ st_deps s1 = st_deps s /\ st_wds s1 = st_wds s /\ st_params s1 = st_params s).
    { unfold cancel_one in E. subst k. cbn [fst snd] in E. unfold get_order in E. rewrite G in E. cbn zeta in E. unfold wants. rewrite Ow, addr_eqb_refl. cbn [andb].
      assert (Same : s1 = s -> (forall k', k' <> (ko_pair o, ko_id o) -> mget (st_orders s1) k' = mget (st_orders s) k') /\
        (forall v d, bal (st_bank s1) (User v) d + locked s1 (User v) d = bal (st_bank s) (User v) d + locked s (User v) d) /\
        (forall i d, slack s1 i d = slack s i d) /\ (forall a, match a with User _ | PairEscrow _ => True | _ => unmoved s s1 a end) /\ st_pairs s1 = st_pairs s /\ st_pools s1 = st_pools s /\ st_deps s1 = st_deps s /\ st_wds s1 = st_wds s /\ st_params s1 = st_params s).
      { intros ->. repeat match goal with |- _ /\ _ => split end; try (intros; reflexivity). intros []; try exact Logic.I; intros d; reflexivity. }
      destruct ((match ids with [] => true | _ => false end) || existsb (Z.eqb (ko_pair o)) ids) eqn:Ei; [|injection E as E; rewrite !andb_false_r; split; [subst s1; exact G|apply Same; congruence]].
      destruct (negb match ko_status o with OCanceled => true | _ => false end) eqn:Es; cbn [andb] in E.
      2: { injection E as E. assert (live o = false) as -> by (unfold live; destruct (ko_status o); try discriminate Es; reflexivity). cbn [andb]. split; [subst s1; exact G|apply Same; congruence]. }
      destruct (ko_batch o <? _) eqn:Eb; [|injection E as E; rewrite !andb_false_r; split; [subst s1; exact G|apply Same; congruence]]. rewrite !andb_true_r.
      destruct (live o) eqn:L.
      2: { unfold finish_order in E. unfold live in L. apply negb_false_iff in L. rewrite L in E. injection E as E. split; [subst s1; exact G|apply Same; congruence]. }
      destruct (finish_order_closed _ _ _ _ S L Nr E) as (((B & _) & C1 & C2 & C3 & C4 & C5 & C6) & _).
      split; [specialize (C1 (ko_pair o) (ko_id o)); rewrite !Z.eqb_refl in C1; exact C1|]. split.
      { intros [i j] N. specialize (C1 i j). unfold get_order in C1. destruct (Z.eqb_spec i (ko_pair o)), (Z.eqb_spec j (ko_id o)); cbn [andb] in C1; try exact C1. subst. congruence. }
      split; [exact (finish_locked s o OCanceled s1 S G L eq_refl Nr E)|]. split; [exact (slack_finish s o OCanceled s1 S G L eq_refl E)|]. split; [|auto 10].
      rewrite Ow in B. intros []; try exact Logic.I; intros d; rewrite B; unfold at_acc; cbn; lia. }
    destruct X as (X1 & X2 & X3 & X4 & X5 & X6 & X7 & X8 & X9 & X10).
    destruct (IH s1 s' I1 Nd) as (Y1 & Y3 & Y4 & Y5 & Y6 & Y7 & Y8 & Y9 & Y10); [|exact H|].
    { intros k' Hk. destruct (Hl k' (or_intror Hk)) as (o' & Go & Oo). exists o'. rewrite X2; [auto|]. intros ->. contradiction. }
    split; [|split; [|split; [|split; [|repeat split; congruence]]]].
    + intros k'. rewrite Y1. cbn [existsb]. destruct (key_eqb_spec k' k) as [->|N]; cbn [orb].
      * rewrite X1, G. assert (NI : existsb (key_eqb k) l = false).
        { destruct (existsb (key_eqb k) l) eqn:Ex; [|reflexivity]. apply existsb_exists in Ex. destruct Ex as (k2 & H2 & E2). destruct (key_eqb_spec k k2); [subst; contradiction|discriminate E2]. }
        rewrite NI. reflexivity.
      * rewrite (X2 _ N). destruct (mget (st_orders s) k') as [o'|]; [|reflexivity]. unfold wants, get_pair. rewrite X6. reflexivity.
    + intros v d. rewrite Y3. apply X3.
    + intros i d. rewrite Y4. apply X4.
    + intros a. specialize (X5 a). specialize (Y5 a). destruct a; try exact Logic.I; intros d; rewrite Y5; apply X5.
Qed.

Lemma wants_spec Q s u ids o i j : reach (sane Q) (InBlock, s) -> get_order s i j = Some o ->
  (wants u ids s o = true <-> ko_owner o = User u /\ live o = true /\ earlier_batch s o /\ (ids = [] \/ In i ids)).
Proof.
  intros R G. destruct (order_facts Q _ i j o R G) as (<- & <- & _ & _ & pr & Gp & _). cbn [snd] in Gp. unfold wants, earlier_batch. rewrite Gp, !andb_true_iff, orb_true_iff, existsb_exists, Z.ltb_lt. split.
  - intros [[[A B] C] D]. destruct (addr_eqb_spec (User u) (ko_owner o)); [|discriminate A]. split; [congruence|]. split; [assumption|]. split; [eauto|]. destruct C as [C|(x & C1 & C2)].
    + left. destruct ids; [reflexivity|discriminate C].
    + right. apply Z.eqb_eq in C2. congruence.
  - intros (A & B & (pr' & Gp' & C) & D). rewrite A, addr_eqb_refl. assert (pr' = pr) as -> by congruence. repeat split; auto. destruct D as [->|D]; [auto|]. right. exists (ko_pair o). rewrite Z.eqb_refl. auto.
Qed.
Lemma cancel_all_exact Q s u ids s' : reach (sane Q) (InBlock, s) -> deliver s (MCancelAllOrders u ids) = Some s' ->
  (forall i j, get_order s' i j = match get_order s i j with Some o => Some (if wants u ids s o then ko_with_status o OCanceled else o) | None => None end) /\
  (forall v d, bal (st_bank s') (User v) d + locked s' (User v) d = bal (st_bank s) (User v) d + locked s (User v) d) /\
  (forall i d, slack s' i d = slack s i d) /\ (forall a, match a with User _ | PairEscrow _ => True | _ => unmoved s s' a end) /\ st_pairs s' = st_pairs s /\ st_pools s' = st_pools s /\ st_deps s' = st_deps s /\ st_wds s' = st_wds s /\ st_params s' = st_params s.
Proof.
  intros R H. pose proof (reach_okp Q _ R) as I. cbn [snd] in I. pose proof (v_str _ _ I) as S. unfold deliver in H. destruct (validate_basic _); [|discriminate H]. cbn [handle] in H. unfold cancel_all in H.
  destruct (existsb _ ids); [discriminate H|].
  destruct (cancel_loop (mkCtl (sane Q) SMsg) u ids _ eq_refl s s' I (msorted_NoDup _ (i_oidx_sorted _ S (User u)))) as (A & B); [|exact H|].
  - intros k Hk. apply in_map_iff in Hk. destruct Hk as ([k' []] & <- & Hk). apply (i_oidx _ S). apply (proj2 (mget_iff _ _ _ (i_oidx_sorted _ S (User u)))). exact Hk.
  - split; [|exact B]. intros i j. unfold get_order. rewrite A. destruct (mget (st_orders s) (i, j)) as [o|] eqn:G; [|reflexivity].
    destruct (wants u ids s o) eqn:W; [|rewrite andb_false_r; reflexivity]. rewrite andb_true_r. 
    assert (O : ko_owner o = User u) by (apply (wants_spec Q s u ids o i j R G) in W; apply W).
    replace (existsb (key_eqb (i, j)) (map fst (st_oidx s (User u)))) with true; [reflexivity|]. symmetry. apply existsb_exists. exists (i, j). split; [|apply key_eqb_refl].
    apply in_map_iff. exists ((i, j), tt). split; [reflexivity|]. apply mget_iff; [apply (i_oidx_sorted _ S)|]. apply (i_oidx _ S). eauto.
Qed.
