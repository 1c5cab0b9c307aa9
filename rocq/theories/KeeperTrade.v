(** ExecuteMatching is a sequence of elementary steps, and what it does to the pair escrow. *)
From Verif Require Import Base Dec DecProofs TickModel OrderModel MatchModel MatchSpec MatchProofs MatchTop PoolModel PoolProofs KeeperModel KeeperLib KeeperSpec KeeperMicro KeeperBank KeeperSteps KeeperReqs KeeperOrders TickSpec TickOrders KeeperBulk.
From Coq Require Import Permutation.

(** ** What a pair's escrow holds beyond the remaining offer coins of the live orders *)
Definition slack (s : state) (i : Z) (d : denom) : Z := bal (st_bank s) (PairEscrow i) d - orders_owed s i d.
Definition due (i : Z) (d : denom) (o : korder) : Z := if live o && (ko_pair o =? i) && denom_eqb d (ko_offer_denom o) then ko_remaining o else 0.

Lemma owed_put s o old i d : msorted (st_orders s) -> get_order s (ko_pair o) (ko_id o) = Some old ->
  orders_owed (put_order s o) i d = orders_owed s i d + due i d o - due i d old.
Proof.
  intros S G. change (msum (due i d) (mset (st_orders s) (ko_pair o, ko_id o) o) = msum (due i d) (st_orders s) + due i d o - due i d old).
  rewrite (msum_mset _ _ _ _ S). unfold get_order in G. rewrite G. reflexivity.
Qed.
Lemma owed_new s o i d : msorted (st_orders s) -> get_order s (ko_pair o) (ko_id o) = None ->
  orders_owed (put_order s o) i d = orders_owed s i d + due i d o.
Proof.
  intros S G. change (msum (due i d) (mset (st_orders s) (ko_pair o, ko_id o) o) = msum (due i d) (st_orders s) + due i d o).
  rewrite (msum_mset _ _ _ _ S). unfold get_order in G. rewrite G. lia.
Qed.

Lemma inv_ctl Q b s : inv Q s <-> inv (mkCtl (allowed Q) b) s.
Proof. split; intros [A B C D]; constructor; assumption. Qed.

(** Finishing an order refunds exactly what was due. *)
Lemma slack_finish s o st s' : str s -> get_order s (ko_pair o) (ko_id o) = Some o -> live o = true -> o_terminal st = true ->
  finish_order s o st = Some s' -> forall i d, slack s' i d = slack s i d.
Proof.
  intros S G L T H i d. destruct (finish_order_spec _ _ _ _ H L) as (b & Hb & ->).
  destruct (i_orders _ S _ _ G) as (_ & pr & _ & Ok). destruct Ok as (_ & _ & _ & _ & _ & (u & U) & _ & _ & R & _).
  assert (E : slack (put_order (set_bank s b) (ko_with_status o st)) i d = slack s i d).
  { unfold slack. rewrite (owed_put (set_bank s b) (ko_with_status o st) o i d (i_orders_sorted _ S) G). cbn [st_bank put_order set_orders set_bank].
    unfold due at 1. unfold live at 1. cbn [ko_status ko_with_status]. rewrite T. cbn [negb andb]. unfold due. rewrite L. cbn [andb].
    change (orders_owed (set_bank s b) i d) with (orders_owed s i d).
    destruct (Z.ltb_spec 0 (ko_remaining o)).
    - destruct (send_spec _ _ _ _ _ Hb) as (_ & (M & _) & _). rewrite M, U. cbn [addr_eqb]. cbn [amount_of]. rewrite (Z.eqb_sym i).
      destruct (ko_pair o =? i); cbn [andb]; [destruct (denom_eqb d (ko_offer_denom o))|]; lia.
    - subst b. destruct ((ko_pair o =? i) && denom_eqb d (ko_offer_denom o)); lia. }
  cbn zeta. destruct (ko_type o); exact E.
Qed.

(** Outside of trading no step lowers the slack. *)
Lemma slack_same s s' i d : st_orders s' = st_orders s -> bal (st_bank s) (PairEscrow i) d <= bal (st_bank s') (PairEscrow i) d -> slack s i d <= slack s' i d.
Proof. intros E H. unfold slack, orders_owed, order_sum. rewrite E. lia. Qed.
Lemma send_slack s x y cs s' i d : st_send s x y cs = Some s' -> x <> PairEscrow i -> slack s i d <= slack s' i d.
Proof.
  intros H N. apply st_send_spec in H. destruct H as (b & -> & H). apply slack_same; [reflexivity|]. cbn. destruct (send_spec _ _ _ _ _ H) as (V & (M & _) & _).
  rewrite M. destruct (addr_eqb_spec (PairEscrow i) x); [congruence|]. pose proof (valid_amount_nonneg cs d V). destruct (addr_eqb _ y); lia.
Qed.
Theorem slack_mic (Q : ctl) s s' i d : mic Q s s' -> inv Q s -> stage_of Q <> STrade -> slack s i d <= slack s' i d.
Proof.
  intros M I T. pose proof (v_str _ _ I) as S. destruct M.
  - eapply send_slack; [eassumption|discriminate].
  - congruence.
  - apply slack_same; [reflexivity|]. cbn. destruct H1 as [M _]. rewrite M. cbn. lia.
  - apply slack_same; [reflexivity|cbn; lia].
  - apply slack_same; [reflexivity|cbn; lia].
  - apply slack_same; [reflexivity|cbn; lia].
  - apply slack_same; [reflexivity|cbn; lia].
  - apply slack_same; [reflexivity|cbn; lia].
  - transitivity (slack s1 i d); [eapply send_slack; [eassumption|discriminate]|]. apply slack_same; [reflexivity|cbn; lia].
  - transitivity (slack s1 i d); [eapply send_slack; [eassumption|discriminate]|]. apply slack_same; [reflexivity|cbn; lia].
  - apply st_send_spec in H5. destruct H5 as (b & -> & Es). destruct (send_spec _ _ _ _ _ Es) as (_ & (Mb & _) & _).
    assert (Fr : get_order s (pr_id pr) (pr_last_order pr + 1) = None).
    { destruct (get_order s (pr_id pr) (pr_last_order pr + 1)) as [q|] eqn:E; [|reflexivity].
      destruct (i_orders _ S _ _ E) as (A & q2 & B & C). injection A as A1 A2. rewrite <- A1, H in B. injection B as <-. unfold order_ok in C. lia. }
    set (o := mkKOrder typ (pr_last_order pr + 1) (pr_id pr) (st_height s) (User u) d0 (offer_denom_of pr d0) (offer_coin_amount d0 price amt) (offer_coin_amount d0 price amt) (demand_denom_of pr d0) 0
                   price amt amt (pr_batch pr) (st_time s + lifespan) ONotExecuted).
    assert (E : slack s i d <= slack (put_order (set_bank s b) o) i d).
    { unfold slack. rewrite (owed_new (set_bank s b) o i d (i_orders_sorted _ S) Fr). cbn [st_bank put_order set_orders set_bank]. rewrite Mb.
      change (orders_owed (set_bank s b) i d) with (orders_owed s i d). unfold due. cbn. rewrite (Z.eqb_sym i). destruct (pr_id pr =? i); cbn [andb]; destruct (denom_eqb d (offer_denom_of pr d0)); lia. }
    destruct typ; exact E.
  - destruct H6 as [X|(_ & -> & -> & ->)]; [congruence|]. unfold slack.
    rewrite (owed_put s (ko_with_status (ko_with_fill o (ko_remaining o) (ko_received o) (ko_open o)) st) o i d (i_orders_sorted _ S) H). cbn [st_bank put_order set_orders].
    assert (E : due i d (ko_with_status (ko_with_fill o (ko_remaining o) (ko_received o) (ko_open o)) st) = due i d o).
    { unfold due. rewrite H0. unfold live. cbn. destruct H5 as [->|[-> _]]; reflexivity. }
    rewrite E. lia.
  - rewrite (slack_finish s o st s' S H H0 H1 H2 i d). lia.
  - apply slack_same; [reflexivity|cbn; lia].
  - transitivity (slack s1 i d); [eapply send_slack; [eassumption|discriminate]|]. apply slack_same; [reflexivity|cbn; lia].
  - apply slack_same; [reflexivity|]. cbn. destruct H2 as (A & B & _ & M & _). rewrite M. destruct (i_deps _ S _ _ H) as (_ & _ & _ & _ & (u & U) & _). rewrite U. cbn. lia.
  - transitivity (slack s1 i d); [eapply send_slack; [eassumption|discriminate]|]. apply slack_same; [reflexivity|cbn; lia].
  - apply slack_same; [reflexivity|]. cbn. destruct H2 as (A & B & M & _). rewrite M. destruct (i_wds _ S _ _ H) as (_ & _ & _ & _ & (u & U)). rewrite U. cbn. lia.
  - unfold slack. rewrite delete_bank. destruct (delete_outdated_eq s) as (f & E & _).
    assert (X : orders_owed (delete_outdated s) i d = orders_owed s i d); [|lia]. rewrite E.
    change (msum (due i d) (filter (fun kv => negb (o_terminal (ko_status (snd kv)))) (st_orders s)) = msum (due i d) (st_orders s)).
    apply msum_filter. intros kv _ Hk. unfold due, live. rewrite Hk. reflexivity.
Qed.
Lemma slack_mics (Q : ctl) s s' i d : mics Q s s' -> inv Q s -> stage_of Q <> STrade -> slack s i d <= slack s' i d.
Proof.
  intros M. induction M; intros I T; [lia|]. etransitivity; [exact (slack_mic Q _ _ i d H I T)|]. apply IHM; [exact (inv_mic Q _ _ H I)|assumption].
Qed.

(** ** The orders offered for matching *)
Definition uid (o : order) : list Z := match o_kind o with KUser id => [id] | _ => [] end.
Definition user_ids (h : list order) : list Z := flat_map uid h.
(** [o] is the fresh matching order of the stored live order with the same id. *)
Definition entry (s : state) (i : Z) (o : order) : Prop :=
  fresh_order o /\ exists id ko, o_kind o = KUser id /\ get_order s i id = Some ko /\ live ko = true /\ ko_dir ko = o_dir o /\
    o_offer o = ko_remaining ko /\ o_amt o <= ko_open ko /\ o_price o = ko_price ko /\ o_batch o = ko_batch ko.
(** Nothing but orders, balances and market making counters changes. *)
Definition same_rest (s s' : state) : Prop :=
  st_pairs s' = st_pairs s /\ st_pools s' = st_pools s /\ st_plidx s' = st_plidx s /\ st_params s' = st_params s /\ st_time s' = st_time s /\
  st_deps s' = st_deps s /\ st_wds s' = st_wds s /\ st_height s' = st_height s.
Lemma same_rest_refl s : same_rest s s.
Proof. unfold same_rest. auto 10. Qed.
Lemma same_rest_trans a b c : same_rest a b -> same_rest b c -> same_rest a c.
Proof. unfold same_rest. intros (A1 & A2 & A3 & A4 & A5 & A6 & A7 & A8) (B1 & B2 & B3 & B4 & B5 & B6 & B7 & B8). repeat split; congruence. Qed.
Lemma finish_order_rest s o st s' : finish_order s o st = Some s' -> live o = true -> same_rest s s'.
Proof. intros H L. destruct (finish_order_spec _ _ _ _ H L) as (b & _ & ->). destruct (ko_type o); unfold same_rest; cbn; auto 10. Qed.
Lemma finish_order_get s o st s' : finish_order s o st = Some s' -> live o = true -> get_order s' (ko_pair o) (ko_id o) = Some (ko_with_status o st).
Proof. intros H L. destruct (finish_order_spec _ _ _ _ H L) as (b & _ & ->). destruct (ko_type o); apply mget_mset_eq. Qed.

Lemma user_ids_app h1 h2 : user_ids (h1 ++ h2) = user_ids h1 ++ user_ids h2.
Proof. apply flat_map_app. Qed.

Lemma entry_frame s s' i o : entry s i o -> (forall id, In id (uid o) -> get_order s' i id = get_order s i id) -> entry s' i o.
Proof.
  intros (F & id & ko & K & G & R) H. split; [assumption|]. exists id, ko. split; [assumption|]. split; [|assumption]. rewrite H; [assumption|]. unfold uid. rewrite K. left. reflexivity.
Qed.

Lemma batching_not_begin Q : batching Q -> stage_of Q <> SBegin.
Proof. intros [H|H]; congruence. Qed.
Lemma collect_orders_spec (Q : ctl) i l : batching Q -> forall s h s1 h1, inv Q s -> NoDup (map fst l) -> (forall k o, In (k, o) l -> mget (st_orders s) k = Some o /\ fst k = i) ->
  Forall (entry s i) h -> NoDup (user_ids h) -> (forall k o, In (k, o) l -> ~ In (snd k) (user_ids h)) ->
  collect_orders l s h = Some (s1, h1) ->
  mics Q s s1 /\ same_rest s s1 /\ Forall (entry s1 i) h1 /\ NoDup (user_ids h1) /\ (forall o, In o h -> In o h1) /\
  (forall k, ~ In k (map fst l) -> mget (st_orders s1) k = mget (st_orders s) k) /\
  (forall k o, In (k, o) l -> live o = true ->
     if (match ko_status o with ONotExecuted => false | _ => true end) && expired_at o (st_time s)
     then mget (st_orders s1) k = Some (ko_with_status o OExpired)
     else mget (st_orders s1) k = Some (ko_with_status o (match ko_status o with ONotExecuted => ONotMatched | st => st end)) /\ exists uo, user_order o = Ok uo /\ In uo h1).
Proof.
  intros HB. pose proof (batching_not_begin Q HB) as HS. induction l as [|[k o] l IH]; intros s h s1 h1 I N C F NU D H; cbn [collect_orders] in H.
  - injection H as <- <-. split; [constructor|]. split; [apply same_rest_refl|]. split; [assumption|]. split; [assumption|]. split; [auto|]. split; [auto|]. intros k o [].
  - inversion N as [|? ? N1 N2]; subst. destruct (C k o (or_introl eq_refl)) as [G Ei].
    destruct (i_orders _ (v_str _ _ I) _ _ G) as (Ek & pr & Gp & Ok). assert (Ep : ko_pair o = i) by (rewrite <- Ei, Ek; reflexivity).
    assert (Go : get_order s (ko_pair o) (ko_id o) = Some o) by (unfold get_order; rewrite <- Ek; exact G).
    assert (Kl : forall k' o', In (k', o') l -> k' <> k) by (intros k' o' X ->; apply N1; change k with (fst (k, o')); apply in_map; exact X).
    assert (Dk : ~ In (ko_id o) (user_ids h)) by (replace (ko_id o) with (snd k) by (rewrite Ek; reflexivity); apply (D k o); left; reflexivity).
    assert (NF : forall s', (forall k', k' <> k -> mget (st_orders s') k' = mget (st_orders s) k') -> Forall (entry s' i) h).
    { intros s' X. eapply Forall_impl; [|apply Forall_and with (1 := F); apply Forall_forall; intros x Hx; exact Hx]. intros x [Ex Hx]. eapply entry_frame; [exact Ex|].
      intros id Hid. apply X. rewrite Ek. intros E0. injection E0 as _ E2. apply Dk. rewrite <- E2. unfold user_ids. apply in_flat_map. eauto. }
    destruct (o_terminal (ko_status o)) eqn:T.
    + destruct (IH s h s1 h1 I N2 (fun k o X => C k o (or_intror X)) F NU (fun k o X => D k o (or_intror X)) H) as (A1 & A2 & A3 & A4 & A5 & A6 & A7).
      split; [assumption|]. split; [assumption|]. split; [assumption|]. split; [assumption|]. split; [assumption|]. split; [intros k' Nk; apply A6; cbn in Nk; tauto|].
      intros k' o' [E0|X] L; [injection E0 as <- <-; unfold live in L; rewrite T in L; discriminate L|exact (A7 k' o' X L)].
    + assert (L : live o = true) by (unfold live; rewrite T; reflexivity).
      set (ex := match ko_status o with ONotExecuted => false | _ => expired_at o (st_time s) end) in H.
      assert (Eex : ex = (match ko_status o with ONotExecuted => false | _ => true end) && expired_at o (st_time s)) by (unfold ex; destruct (ko_status o); reflexivity).
      destruct ex.
      * destruct (finish_order s o OExpired) as [s2|] eqn:Ef; [|discriminate H].
        pose proof (finish_order_mics Q s o OExpired s2 (ends_batch Q OExpired HB ltac:(discriminate)) Go eq_refl Ef) as M2. pose proof (finish_order_rest _ _ _ _ Ef L) as R2.
        assert (Fo : forall k', k' <> k -> mget (st_orders s2) k' = mget (st_orders s) k') by (rewrite Ek; exact (finish_order_orders _ _ _ _ Ef)).
        destruct (IH s2 h s1 h1 (inv_mics Q _ _ M2 I) N2) as (A1 & A2 & A3 & A4 & A5 & A6 & A7); auto.
        { intros k' o' X. rewrite (Fo k' (Kl _ _ X)). apply C. right. assumption. }
        { intros k' o' X. apply (D k' o'). right. assumption. }
        split; [exact (mics_trans _ _ _ _ M2 A1)|]. split; [exact (same_rest_trans _ _ _ R2 A2)|]. split; [assumption|]. split; [assumption|]. split; [assumption|].
        assert (Ti : st_time s2 = st_time s) by apply R2. rewrite Ti in A7. split.
        { intros k' Nk. cbn in Nk. rewrite A6 by tauto. apply Fo. intros ->. tauto. }
        intros k' o' [E0|X] L'; [|exact (A7 k' o' X L')]. injection E0 as <- <-. rewrite <- Eex. rewrite A6 by assumption. rewrite Ek. exact (finish_order_get _ _ _ _ Ef L).
      * destruct (user_order o) as [uo| |] eqn:Eu; [|discriminate H|discriminate H]. cbn [of_res] in H.
        set (s2 := match ko_status o with ONotExecuted => put_order s (ko_with_status o ONotMatched) | _ => s end) in H.
        set (o2 := ko_with_status o (match ko_status o with ONotExecuted => ONotMatched | st => st end)).
        assert (R2 : same_rest s s2) by (unfold s2; destruct (ko_status o); unfold same_rest; cbn; auto 10).
        assert (M2 : mics Q s s2).
        { unfold s2. destruct (ko_status o) eqn:Es; try constructor. apply mics_one. destruct Ok as (_ & _ & _ & _ & _ & _ & _ & O1 & O2 & O3 & _).
          change (ko_with_status o ONotMatched) with (ko_with_status (ko_with_fill o (ko_remaining o) (ko_received o) (ko_open o)) ONotMatched).
          apply mic_upd; auto; try lia. destruct HB as [HB|HB]; auto. }
        assert (Fo : forall k', k' <> k -> mget (st_orders s2) k' = mget (st_orders s) k').
        { intros k' Nk. unfold s2. destruct (ko_status o); try reflexivity. cbn. apply mget_mset_neq. rewrite <- Ek. assumption. }
        assert (G2 : mget (st_orders s2) k = Some o2).
        { unfold s2, o2. destruct (ko_status o) eqn:Es; [rewrite Ek; apply mget_mset_eq|..]; rewrite G; f_equal; destruct o; cbn in *; rewrite Es; reflexivity. }
        assert (L2 : live o2 = true) by (unfold o2, live; cbn; unfold live in L; destruct (ko_status o); try discriminate T; reflexivity).
        destruct (user_order_fresh pr o uo Ok Eu) as (U1 & U2 & U3 & U4 & U5 & U6 & U7).
        destruct (IH s2 (h ++ [uo]) s1 h1 (inv_mics Q _ _ M2 I) N2) as (A1 & A2 & A3 & A4 & A5 & A6 & A7); auto.
        { intros k' o' X. rewrite (Fo k' (Kl _ _ X)). apply C. right. assumption. }
        { apply Forall_app. split; [apply NF; assumption|]. constructor; [|constructor]. split; [assumption|]. exists (ko_id o), o2. split; [assumption|].
          split; [unfold get_order; rewrite <- Ep, <- Ek; exact G2|]. split; [assumption|]. unfold o2. cbn. auto 10. }
        { rewrite user_ids_app. apply NoDup_app_intro; [assumption|unfold user_ids, uid; cbn; rewrite U2; constructor; [intros []|constructor]|].
          intros x X1 X2. unfold user_ids, uid in X2. cbn in X2. rewrite U2 in X2. cbn in X2. destruct X2 as [<-|[]]. contradiction. }
        { intros k' o' X. rewrite user_ids_app, in_app_iff. intros [Y|Y]; [exact (D k' o' (or_intror X) Y)|]. unfold user_ids, uid in Y. cbn in Y. rewrite U2 in Y. cbn in Y.
          destruct Y as [Y|[]]. destruct (C k' o' (or_intror X)) as [_ E1]. apply (Kl _ _ X). rewrite Ek, Ep. destruct k'; cbn in *; congruence. }
        split; [exact (mics_trans _ _ _ _ M2 A1)|]. split; [exact (same_rest_trans _ _ _ R2 A2)|]. split; [assumption|]. split; [assumption|].
        split; [intros x Hx; apply A5; apply in_app_iff; auto|].
        assert (Ti : st_time s2 = st_time s) by apply R2. rewrite Ti in A7. split.
        { intros k' Nk. cbn in Nk. rewrite A6 by tauto. apply Fo. intros ->. tauto. }
        intros k' o' [E0|X] L'; [|exact (A7 k' o' X L')]. injection E0 as <- <-. rewrite <- Eex. split; [rewrite A6 by assumption; exact G2|]. exists uo. split; [assumption|].
        apply A5. apply in_app_iff. right. left. reflexivity.
Qed.

(** ** The pools taking part *)
Definition same_but_pools (s s' : state) : Prop := s' = set_pools s (st_pools s').
Lemma same_but_pools_refl s : same_but_pools s s.
Proof. destruct s. reflexivity. Qed.
Lemma same_but_pools_trans a b c : same_but_pools a b -> same_but_pools b c -> same_but_pools a c.
Proof. unfold same_but_pools. intros A B. rewrite B, A. reflexivity. Qed.

Lemma collect_pools_spec (Q : ctl) pr l : batching Q -> forall s s2 ps, inv Q s -> collect_pools l pr s = Some (s2, ps) ->
  mics Q s s2 /\ same_but_pools s s2 /\ Forall sound_pool ps /\
  Forall (fun ip => In (fst ip) (map (fun kv => snd (fst kv)) l) /\ p_rx (snd ip) = bal (st_bank s) (PoolReserve (fst ip)) (pr_quote pr) /\ p_ry (snd ip) = bal (st_bank s) (PoolReserve (fst ip)) (pr_base pr)) ps.
Proof.
  intros HB. induction l as [|[k u] l IH]; intros s s2 ps I H; cbn [collect_pools] in H.
  - injection H as <- <-. split; [constructor|]. split; [apply same_but_pools_refl|]. split; constructor.
  - destruct (get_pool s (snd k)) as [p|] eqn:Ep; [|discriminate H].
    assert (Eid : pl_id p = snd k) by (eapply get_pool_id; [exact (v_str _ _ I)|eassumption]).
    assert (W : forall ps, Forall (fun ip => In (fst ip) (map (fun kv : key * unit => snd (fst kv)) l) /\ p_rx (snd ip) = bal (st_bank s) (PoolReserve (fst ip)) (pr_quote pr) /\ p_ry (snd ip) = bal (st_bank s) (PoolReserve (fst ip)) (pr_base pr)) ps ->
       Forall (fun ip => In (fst ip) (map (fun kv : key * unit => snd (fst kv)) ((k, u) :: l)) /\ p_rx (snd ip) = bal (st_bank s) (PoolReserve (fst ip)) (pr_quote pr) /\ p_ry (snd ip) = bal (st_bank s) (PoolReserve (fst ip)) (pr_base pr)) ps).
    { intros ps0. apply Forall_impl. intros a (X & Y). split; [right; assumption|assumption]. }
    destruct (pl_disabled p); [destruct (IH _ _ _ I H) as (A & B & C & D); auto|].
    destruct (amm_pool p (pool_rx s p pr) (pool_ry s p pr) (pool_ps s p)) as [ap| |] eqn:Ea; [|discriminate H|discriminate H]. cbn [of_res] in H.
    destruct (is_depleted ap).
    + assert (M : mics Q s (mark_disabled s p)) by (apply mics_one, mic_disable; [rewrite Eid; assumption|exact HB]).
      destruct (IH _ _ _ (inv_mics Q _ _ M I) H) as (A & B & C & D). split; [exact (mics_trans _ _ _ _ M A)|].
      split; [eapply same_but_pools_trans; [|exact B]; reflexivity|]. split; [assumption|]. apply W. exact D.
    + destruct (collect_pools l pr s) as [[s3 r]|] eqn:Er; [|discriminate H]. injection H as <- <-. cbn [fst snd].
      destruct (IH _ _ _ I Er) as (A & B & C & D). split; [assumption|]. split; [assumption|].
      destruct (v_bank _ _ I) as [N _].
      destruct (amm_pool_facts p _ _ _ ap (v_good _ _ I _ _ Ep) (N _ _) (N _ _) Ea) as (F1 & F2 & _ & F3).
      split.
      * constructor; [|assumption]. unfold sound_pool. cbn [snd]. rewrite F1, F2. split; [apply N|]. split; [apply N|exact F3].
      * constructor; [|apply W; assumption]. cbn [fst snd]. split; [left; cbn; congruence|]. rewrite F1, F2. split; reflexivity.
Qed.

(** ** Applying a match result *)
Definition paid_in (pr : pair) (os : list order) (d : denom) : Z :=
  sumZ (map (fun o => if is_matched o then of_denom d (offer_denom_of pr (o_dir o)) (o_paid o) else 0) os).
Definition recv_in (pr : pair) (os : list order) (d : denom) : Z :=
  sumZ (map (fun o => if is_matched o then of_denom d (demand_denom_of pr (o_dir o)) (o_recv o) else 0) os).
Definition of_pool (o : order) : bool := match o_kind o with KPool _ => true | _ => false end.

(** Queues out of pools and out of pair escrows. *)
Definition from_pools (i : Z) (q : bulk) : Prop := Forall (fun e => (exists id, fst (fst e) = PoolReserve id) /\ snd (fst e) = PairEscrow i) q.
Definition from_escrow (i : Z) (q : bulk) : Prop := Forall (fun e => fst (fst e) = PairEscrow i) q.

Lemma bulk_mics (Q : ctl) q : stage_of Q = STrade -> Forall (fun e => match fst (fst e) with PoolReserve _ | PairEscrow _ => True | _ => False end) q ->
  forall s b', bulk_run (st_bank s) q = Some b' -> mics Q s (set_bank s b').
Proof.
  intros T F. induction F as [|[[f t] cs] q Hf F IH]; intros s b' H; cbn [bulk_run] in H.
  - injection H as <-. replace (set_bank s (st_bank s)) with s by (destruct s; reflexivity). constructor.
  - destruct (send (st_bank s) f t cs) as [b1|] eqn:E; [|discriminate H].
    apply (mics_cons Q s (set_bank s b1)).
    + apply (mic_out Q s f t cs); [destruct f; auto| |exact T]. unfold st_send. rewrite E. reflexivity.
    + apply (IH (set_bank s b1) b' H).
Qed.

Lemma queue_pool_spec pr os : forall q q', q_valid q -> queue_pool_payments pr os q = Some q' ->
  q_valid q' /\ (from_pools (pr_id pr) q -> from_pools (pr_id pr) q') /\
  (forall j d, q_out q' (PairEscrow j) d = q_out q (PairEscrow j) d) /\
  (forall j d, q_in q' (PairEscrow j) d = q_in q (PairEscrow j) d + if j =? pr_id pr then paid_in pr (filter of_pool os) d else 0) /\
  (forall id d, q_out q' (PoolReserve id) d = q_out q (PoolReserve id) d + paid_in pr (filter (fun o => match o_kind o with KPool j => j =? id | _ => false end) os) d).
Proof.
  induction os as [|o os IH]; intros q q' V H; cbn [queue_pool_payments] in H.
  - injection H as <-. split; [assumption|]. split; [auto|]. unfold paid_in. cbn. split; [reflexivity|]. split; intros; [destruct (_ =? _)|]; lia.
  - assert (Skip : (is_matched o = true -> of_pool o = false) -> queue_pool_payments pr os q = Some q' ->
      q_valid q' /\ (from_pools (pr_id pr) q -> from_pools (pr_id pr) q') /\
      (forall j d, q_out q' (PairEscrow j) d = q_out q (PairEscrow j) d) /\
      (forall j d, q_in q' (PairEscrow j) d = q_in q (PairEscrow j) d + if j =? pr_id pr then paid_in pr (filter of_pool (o :: os)) d else 0) /\
      (forall id d, q_out q' (PoolReserve id) d = q_out q (PoolReserve id) d + paid_in pr (filter (fun o => match o_kind o with KPool j => j =? id | _ => false end) (o :: os)) d)).
    { intros S H0. destruct (IH q q' V H0) as (A & B & C & D & E). split; [assumption|]. split; [assumption|]. split; [assumption|]. split.
      - intros j d. rewrite D. cbn [filter]. destruct (of_pool o) eqn:P; [|reflexivity]. unfold paid_in. cbn [map]. rewrite sumZ_cons.
        destruct (is_matched o); [discriminate (S eq_refl)|reflexivity].
      - intros id d. rewrite E. cbn [filter]. destruct (o_kind o) eqn:K; try reflexivity. destruct (_ =? id); [|reflexivity]. unfold paid_in. cbn [map]. rewrite sumZ_cons.
        destruct (is_matched o); [specialize (S eq_refl); unfold of_pool in S; rewrite K in S; discriminate S|reflexivity]. }
    destruct (o_kind o) as [|uid|id] eqn:K; [apply Skip; [intros _; unfold of_pool; rewrite K; reflexivity|assumption]..|].
    destruct (is_matched o) eqn:Mt; [|apply Skip; [discriminate|assumption]].
    destruct (new_coins [(offer_denom_of pr (o_dir o), o_paid o)]) as [cs|] eqn:En; [|discriminate H].
    destruct (new_coins_one _ _ _ En) as (P0 & Vc & Am & _).
    destruct (bulk_queue_spec q (PoolReserve id) (PairEscrow (pr_id pr)) cs V Vc) as (A & B & C). destruct (IH _ _ A H) as (A' & B' & C' & D' & E').
    split; [assumption|]. split; [|split; [|split]].
    + intros Fq. apply B'. unfold from_pools in *. apply (bulk_queue_ends (fun f t => (exists id, f = PoolReserve id) /\ t = PairEscrow (pr_id pr))); [|assumption]. split; [eauto|reflexivity].
    + intros j d. rewrite C', B. unfold at_acc. cbn. lia.
    + intros j d. rewrite D', C. unfold at_acc. cbn [addr_eqb filter]. unfold of_pool at 2. rewrite K. destruct (j =? pr_id pr); [|lia].
      unfold paid_in. cbn [map]. rewrite sumZ_cons, Mt, Am. unfold of_denom. lia.
    + intros j d. rewrite E', B. unfold at_acc. cbn [addr_eqb filter]. rewrite K, (Z.eqb_sym j id). destruct (id =? j); [|lia].
      unfold paid_in. cbn [map]. rewrite sumZ_cons, Mt, Am. unfold of_denom. lia.
Qed.

(** A matched order and the stored order it belongs to. *)
Definition filled_entry (s : state) (i : Z) (o : order) : Prop := is_matched o = true ->
  0 <= o_paid o /\ 0 <= o_recv o /\
  match o_kind o with
  | KUser id => exists ko, get_order s i id = Some ko /\ live ko = true /\ ko_dir ko = o_dir o /\ o_paid o <= ko_remaining ko /\
      0 <= o_amt o - o_open o <= ko_open ko /\ (o_dir o = Sell -> o_paid o = o_amt o - o_open o)
  | KPool _ => True
  | KBase => False
  end.
Definition matched_order (ko : korder) (o : order) : korder :=
  let open := ko_open ko - (o_amt o - o_open o) in
  ko_with_status (ko_with_fill ko (ko_remaining ko - o_paid o) (ko_received ko + o_recv o) open) (if open =? 0 then OCompleted else OPartiallyMatched).

Lemma finish_put s o st0 st : o_terminal (ko_status o) = false -> o_terminal st0 = false ->
  finish_order (put_order s (ko_with_status o st0)) (ko_with_status o st0) st = finish_order s o st.
Proof.
  intros T T0. unfold finish_order. cbn [ko_status ko_with_status ko_remaining ko_pair ko_owner ko_offer_denom ko_type]. rewrite T, T0.
  destruct (0 <? ko_remaining o).
  - change (get_pair (put_order s (ko_with_status o st0)) (ko_pair o)) with (get_pair s (ko_pair o)). destruct (get_pair s (ko_pair o)); [|reflexivity].
    unfold st_send. cbn [st_bank put_order set_orders]. destruct (send _ _ _ _) as [b|]; [|reflexivity].
    unfold put_order. cbn. rewrite mset_mset. reflexivity.
  - unfold put_order. cbn. rewrite mset_mset. reflexivity.
Qed.

Lemma fill_step (Q : ctl) s ko o s1 : inv Q s -> stage_of Q = STrade -> get_order s (ko_pair ko) (ko_id ko) = Some ko -> live ko = true ->
  0 <= o_paid o <= ko_remaining ko -> 0 <= o_recv o -> 0 <= o_amt o - o_open o <= ko_open ko -> (ko_dir ko = Sell -> o_paid o = o_amt o - o_open o) ->
  (let ko' := ko_with_fill ko (ko_remaining ko - o_paid o) (ko_received ko + o_recv o) (ko_open ko - (o_amt o - o_open o)) in
   if ko_open ko' =? 0 then finish_order s ko' OCompleted else Some (put_order s (ko_with_status ko' OPartiallyMatched))) = Some s1 ->
  mics Q s s1 /\ same_rest s s1 /\ get_order s1 (ko_pair ko) (ko_id ko) = Some (matched_order ko o) /\
  (forall k, k <> (ko_pair ko, ko_id ko) -> mget (st_orders s1) k = mget (st_orders s) k) /\
  forall j d, slack s1 j d = slack s j d + if j =? ko_pair ko then of_denom d (ko_offer_denom ko) (o_paid o) else 0.
Proof.
  intros I T G L Pd Rv Op Sl H. cbn zeta in H. set (ko' := ko_with_fill _ _ _ _) in H.
  assert (Tk : o_terminal (ko_status ko') = false) by (unfold live in L; apply negb_true_iff in L; exact L).
  pose proof (v_str _ _ I) as S.
  set (sp := put_order s (ko_with_status ko' OPartiallyMatched)) in *.
  assert (M : mic Q s sp).
  { apply mic_upd; auto; try lia. intros D. specialize (Sl D). lia. }
  assert (SL : forall j d, slack sp j d = slack s j d + if j =? ko_pair ko then of_denom d (ko_offer_denom ko) (o_paid o) else 0).
  { intros j d. unfold sp, slack. rewrite (owed_put s (ko_with_status ko' OPartiallyMatched) ko j d (i_orders_sorted _ S) G). cbn [st_bank put_order set_orders].
    unfold due. rewrite L. unfold live, of_denom. cbn. rewrite (Z.eqb_sym j). destruct (ko_pair ko =? j); cbn [andb]; [destruct (denom_eqb d (ko_offer_denom ko))|]; lia. }
  assert (Gp : get_order sp (ko_pair ko) (ko_id ko) = Some (ko_with_status ko' OPartiallyMatched)) by (apply mget_mset_eq).
  assert (Fp : forall k, k <> (ko_pair ko, ko_id ko) -> mget (st_orders sp) k = mget (st_orders s) k) by (intros k Nk; cbn; apply mget_mset_neq; assumption).
  assert (Rp : same_rest s sp) by (unfold same_rest; cbn; auto 10).
  unfold matched_order. change (ko_open ko') with (ko_open ko - (o_amt o - o_open o)) in H. fold ko'. destruct (_ =? 0).
  - rewrite <- (finish_put s ko' OPartiallyMatched OCompleted Tk eq_refl) in H. fold sp in H.
    assert (Lp : live (ko_with_status ko' OPartiallyMatched) = true) by reflexivity.
    assert (Ip : inv Q sp) by exact (inv_mic Q _ _ M I).
    split; [apply (mics_cons Q s sp _ M); apply (finish_order_mics Q sp (ko_with_status ko' OPartiallyMatched) OCompleted s1 (ends_batch Q OCompleted (or_introl T) ltac:(discriminate)) Gp eq_refl H)|].
    split; [exact (same_rest_trans _ _ _ Rp (finish_order_rest _ _ _ _ H Lp))|].
    split; [exact (finish_order_get _ _ _ _ H Lp)|]. split.
    + intros k Nk. rewrite (finish_order_orders _ _ _ _ H k Nk). apply Fp. assumption.
    + intros j d. rewrite (slack_finish sp (ko_with_status ko' OPartiallyMatched) OCompleted s1 (v_str _ _ Ip) Gp Lp eq_refl H). apply SL.
  - injection H as <-. split; [apply mics_one; exact M|]. auto.
Qed.

Lemma apply_orders_spec (Q : ctl) pr os : forall s q seen s' q', inv Q s -> stage_of Q = STrade -> get_pair s (pr_id pr) = Some pr -> q_valid q ->
  Forall (filled_entry s (pr_id pr)) os -> NoDup (user_ids os) -> apply_orders pr os s q seen = Some (s', q') ->
  mics Q s s' /\ same_rest s s' /\ q_valid q' /\ (from_escrow (pr_id pr) q -> from_escrow (pr_id pr) q') /\
  (forall j d, slack s' j d = slack s j d + if j =? pr_id pr then paid_in pr (filter (fun o => negb (of_pool o)) os) d else 0) /\
  (forall j d, q_out q' (PairEscrow j) d = q_out q (PairEscrow j) d + if j =? pr_id pr then recv_in pr os d else 0) /\
  (forall j d, q_in q' (PairEscrow j) d = q_in q (PairEscrow j) d) /\
  (forall k, (forall o, In o os -> is_matched o = true -> o_kind o = KUser (snd k) -> fst k <> pr_id pr) -> mget (st_orders s') k = mget (st_orders s) k) /\
  (forall o id ko, In o os -> is_matched o = true -> o_kind o = KUser id -> get_order s (pr_id pr) id = Some ko -> get_order s' (pr_id pr) id = Some (matched_order ko o)).
Proof.
  induction os as [|o os IH]; intros s q seen s' q' I T Gp V F NU H; cbn [apply_orders] in H.
  - injection H as <- <-. split; [constructor|]. split; [apply same_rest_refl|]. split; [assumption|]. split; [auto|]. unfold paid_in, recv_in. cbn.
    split; [intros; destruct (_ =? _); lia|]. split; [intros; destruct (_ =? _); lia|]. split; [reflexivity|]. split; [reflexivity|]. intros o id ko [].
  - inversion F as [|? ? F1 F2]; subst. unfold user_ids in NU. cbn [flat_map] in NU. fold (user_ids os) in NU.
    destruct (is_matched o) eqn:Mt.
    2:{ assert (NU' : NoDup (user_ids os)) by (unfold uid in NU; destruct (o_kind o); [exact NU|inversion NU; assumption|exact NU]).
        destruct (IH _ _ _ _ _ I T Gp V F2 NU' H) as (A & B & C & D & E & G & K & O1 & O2). split; [assumption|]. split; [assumption|]. split; [assumption|]. split; [assumption|].
        split; [intros j d; rewrite E; cbn [filter]; unfold paid_in; destruct (negb (of_pool o)); [cbn [map]; rewrite sumZ_cons, Mt|]; destruct (_ =? _); lia|].
        split; [intros j d; rewrite G; unfold recv_in; cbn [map]; rewrite sumZ_cons, Mt; destruct (_ =? _); lia|]. split; [assumption|].
        split; [intros k X; apply O1; intros x Hx; apply X; right; assumption|]. intros x id ko [->|Hx] Mx; [congruence|exact (O2 x id ko Hx Mx)]. }
    destruct (F1 Mt) as (P0 & R0 & F1'). destruct (o_kind o) as [|id|id] eqn:K; [discriminate H| |].
    + destruct F1' as (ko & G & L & Dr & Pm & Op & Sl). rewrite G in H.
      destruct (Z.ltb_spec (ko_remaining ko) (o_paid o)) as [|_]; [lia|].
      match type of H with (match ?e with Some x => _ | None => None end) = _ => destruct e as [s1|] eqn:Es; [|discriminate H] end.
      destruct (get_order_id _ _ _ _ (v_str _ _ I) G) as [Ei Eid].
      destruct (fill_step Q s ko o s1 I T ltac:(rewrite Ei, Eid; exact G) L ltac:(lia) R0 Op ltac:(rewrite Dr; exact Sl) Es) as (M1 & S1 & G1 & O1 & L1).
      destruct (i_orders _ (v_str _ _ I) _ _ G) as (_ & pr0 & Gp0 & Ok0). rewrite Ei in Gp0. assert (pr0 = pr) as -> by congruence.
      destruct Ok0 as (_ & _ & _ & Od & Dd & (u & U) & _).
      destruct (new_coins [(ko_demand_denom ko, o_recv o)]) as [cs|] eqn:En; [|discriminate H]. destruct (new_coins_one _ _ _ En) as (_ & Vc & Am & _).
      destruct (bulk_queue_spec q (PairEscrow (pr_id pr)) (ko_owner ko) cs V Vc) as (Vq & Qo & Qi).
      unfold uid in NU. rewrite K in NU. cbn [app] in NU. apply NoDup_cons_iff in NU. destruct NU as [NU1 NU2].
      assert (Gp1 : get_pair s1 (pr_id pr) = Some pr) by (unfold get_pair; destruct S1 as (-> & _); exact Gp).
      assert (Fe : Forall (filled_entry s1 (pr_id pr)) os).
      { eapply Forall_impl; [|apply Forall_and with (1 := F2); apply Forall_forall; intros x Hx; exact Hx]. intros x [Ex Hx] Mx. specialize (Ex Mx).
        destruct Ex as (X1 & X2 & X3). split; [assumption|]. split; [assumption|]. destruct (o_kind x) as [|id'|] eqn:Kx; auto. destruct X3 as (kx & Y1 & Y2). exists kx. split; [|assumption].
        unfold get_order in *. rewrite O1; [assumption|]. rewrite Ei, Eid. intros E0. injection E0 as E0. apply NU1. rewrite <- E0. unfold user_ids. apply in_flat_map. exists x. split; [assumption|].
        unfold uid. rewrite Kx. left. reflexivity. }
      destruct (IH _ _ _ _ _ (inv_mics Q _ _ M1 I) T Gp1 Vq Fe NU2 H) as (A & B & C & D & E & G' & K' & O1' & O2').
      assert (Np : of_pool o = false) by (unfold of_pool; rewrite K; reflexivity).
      split; [exact (mics_trans _ _ _ _ M1 A)|]. split; [exact (same_rest_trans _ _ _ S1 B)|]. split; [assumption|].
      split; [intros X; apply D; unfold from_escrow in *; apply (bulk_queue_ends (fun f t => f = PairEscrow (pr_id pr))); [reflexivity|assumption]|].
      split; [|split; [|split; [|split]]].
      * intros j d. rewrite E, L1. cbn [filter]. rewrite Np. cbn [negb]. unfold paid_in. cbn [map]. rewrite sumZ_cons, Mt, Ei, Od, Dr. destruct (j =? pr_id pr); lia.
      * intros j d. rewrite G', Qo. unfold at_acc. cbn [addr_eqb]. unfold recv_in. cbn [map]. rewrite sumZ_cons, Mt, Am, Dd, Dr. unfold of_denom. destruct (j =? pr_id pr); lia.
      * intros j d. rewrite K', Qi, U. unfold at_acc. cbn. lia.
      * intros k X. rewrite O1' by (intros x Hx; apply X; right; assumption). apply O1. intros ->. apply (X o (or_introl eq_refl) Mt); [rewrite K, Eid; reflexivity|exact Ei].
      * intros x id' kx [<-|Hx] Mx Kx Gx.
        { rewrite K in Kx. injection Kx as <-. assert (kx = ko) as -> by congruence. rewrite Ei, Eid in G1. unfold get_order. rewrite O1'; [exact G1|].
          intros y Hy My Ky _. cbn in Ky. apply NU1. unfold user_ids. apply in_flat_map. exists y. split; [assumption|]. unfold uid. rewrite Ky. left. reflexivity. }
        { apply (O2' x id' kx Hx Mx Kx). unfold get_order. rewrite O1; [exact Gx|]. rewrite Ei, Eid. intros E0. injection E0 as ->. apply NU1. unfold user_ids. apply in_flat_map. exists x. split; [assumption|].
          unfold uid. rewrite Kx. left. reflexivity. }
    + destruct (new_coins [(demand_denom_of pr (o_dir o), o_recv o)]) as [cs|] eqn:En; [|discriminate H]. destruct (new_coins_one _ _ _ En) as (_ & Vc & Am & _).
      destruct (existsb _ seen); [discriminate H|].
      destruct (bulk_queue_spec q (PairEscrow (pr_id pr)) (PoolReserve id) cs V Vc) as (Vq & Qo & Qi).
      assert (NU' : NoDup (user_ids os)) by (unfold uid in NU; rewrite K in NU; exact NU).
      destruct (IH _ _ _ _ _ I T Gp Vq F2 NU' H) as (A & B & C & D & E & G' & K' & O1' & O2').
      assert (Np : of_pool o = true) by (unfold of_pool; rewrite K; reflexivity).
      split; [assumption|]. split; [assumption|]. split; [assumption|].
      split; [intros X; apply D; unfold from_escrow in *; apply (bulk_queue_ends (fun f t => f = PairEscrow (pr_id pr))); [reflexivity|assumption]|].
      split; [|split; [|split; [|split]]].
      * intros j d. rewrite E. cbn [filter]. rewrite Np. reflexivity.
      * intros j d. rewrite G', Qo. unfold at_acc. cbn [addr_eqb]. unfold recv_in. cbn [map]. rewrite sumZ_cons, Mt, Am. unfold of_denom. destruct (j =? pr_id pr); lia.
      * intros j d. rewrite K', Qi. unfold at_acc. cbn. lia.
      * intros k X. apply O1'. intros x Hx. apply X. right. assumption.
      * intros x id' kx [<-|Hx] Mx Kx Gx; [congruence|]. exact (O2' x id' kx Hx Mx Kx Gx).
Qed.

Lemma sumZ_filter_split {A} (f : A -> bool) (g : A -> Z) l : sumZ (map g l) = sumZ (map g (filter f l)) + sumZ (map g (filter (fun x => negb (f x)) l)).
Proof. induction l as [|x l IH]; [reflexivity|]. cbn [filter map]. destruct (f x); cbn [negb map]; rewrite !sumZ_cons; lia. Qed.

Lemma apply_match_spec (Q : ctl) s pr os qd s' : inv Q s -> stage_of Q = STrade -> get_pair s (pr_id pr) = Some pr ->
  Forall (filled_entry s (pr_id pr)) os -> NoDup (user_ids os) -> apply_match s pr os qd = Some s' ->
  mics Q s s' /\ same_rest s s' /\ 0 <= qd /\
  (forall j d, slack s' j d = slack s j d
     + (if j =? pr_id pr then paid_in pr os d - recv_in pr os d - of_denom d (pr_quote pr) qd else 0)
     + at_acc (PairEscrow j) (pm_dust_collector (st_params s)) (of_denom d (pr_quote pr) qd)) /\
  (forall k, (forall o, In o os -> is_matched o = true -> o_kind o = KUser (snd k) -> fst k <> pr_id pr) -> mget (st_orders s') k = mget (st_orders s) k) /\
  (forall o id ko, In o os -> is_matched o = true -> o_kind o = KUser id -> get_order s (pr_id pr) id = Some ko -> get_order s' (pr_id pr) id = Some (matched_order ko o)).
Proof.
  intros I T Gp F NU H. unfold apply_match in H.
  destruct (queue_pool_payments pr os []) as [q1|] eqn:E1; [|discriminate H].
  destruct (queue_pool_spec pr os [] q1 (Forall_nil _) E1) as (V1 & Fp & Qo1 & Qi1 & _). specialize (Fp (Forall_nil _)).
  destruct (bulk_run (st_bank s) q1) as [b1|] eqn:E2; [|discriminate H]. destruct (bulk_run_spec _ _ _ E2) as (_ & B1 & _).
  assert (M1 : mics Q s (set_bank s b1)).
  { apply (bulk_mics Q q1 T); [|assumption]. eapply Forall_impl; [|exact Fp]. intros e [(id & X) _]. rewrite X. exact Logic.I. }
  destruct (apply_orders pr os (set_bank s b1) [] []) as [[s2 q2]|] eqn:E3; [|discriminate H]. cbn [fst snd] in H.
  destruct (apply_orders_spec Q pr os (set_bank s b1) [] [] s2 q2 (inv_mics Q _ _ M1 I) T Gp (Forall_nil _) F NU E3) as (M2 & R2 & V2 & Fe & L2 & Qo2 & Qi2 & O1 & O2).
  specialize (Fe (Forall_nil _)).
  destruct (new_coins [(pr_quote pr, qd)]) as [dust|] eqn:E4; [|discriminate H]. destruct (new_coins_one _ _ _ E4) as (Q0 & Vd & Ad & _).
  destruct (bulk_queue_spec q2 (PairEscrow (pr_id pr)) (pm_dust_collector (st_params s)) dust V2 Vd) as (V3 & Qo3 & Qi3).
  set (q3 := bulk_queue q2 (PairEscrow (pr_id pr)) (pm_dust_collector (st_params s)) dust) in *.
  destruct (bulk_run (st_bank s2) q3) as [b2|] eqn:E5; [|discriminate H]. injection H as <-. destruct (bulk_run_spec _ _ _ E5) as (_ & B2 & _).
  assert (M3 : mics Q s2 (set_bank s2 b2)).
  { apply (bulk_mics Q q3 T); [|assumption]. eapply Forall_impl; [|apply (bulk_queue_ends (fun f t => f = PairEscrow (pr_id pr)) q2 (PairEscrow (pr_id pr)) (pm_dust_collector (st_params s)) dust eq_refl Fe)].
    intros e X. cbn in X. rewrite X. exact Logic.I. }
  split; [exact (mics_trans _ _ _ _ M1 (mics_trans _ _ _ _ M2 M3))|]. split; [exact R2|]. split; [assumption|]. split; [|split; [exact O1|exact O2]].
  intros j d.
  assert (A1 : slack (set_bank s b1) j d = slack s j d + if j =? pr_id pr then paid_in pr (filter of_pool os) d else 0).
  { unfold slack. change (orders_owed (set_bank s b1) j d) with (orders_owed s j d). cbn [st_bank set_bank]. rewrite B1, Qo1, Qi1. unfold q_out, q_in. cbn. lia. }
  assert (A2 : slack (set_bank s2 b2) j d = slack s2 j d - (if j =? pr_id pr then recv_in pr os d + of_denom d (pr_quote pr) qd else 0) + at_acc (PairEscrow j) (pm_dust_collector (st_params s)) (of_denom d (pr_quote pr) qd)).
  { unfold slack. change (orders_owed (set_bank s2 b2) j d) with (orders_owed s2 j d). cbn [st_bank set_bank]. rewrite B2, Qo3, Qi3, Qo2, Qi2. unfold q_out, q_in. cbn [map sumZ fold_right].
    rewrite Ad. fold (of_denom d (pr_quote pr) qd). unfold at_acc. cbn [addr_eqb]. unfold sumZ. cbn. destruct (j =? pr_id pr); lia. }
  rewrite A2, L2, A1. pose proof (sumZ_filter_split of_pool (fun o => if is_matched o then of_denom d (offer_denom_of pr (o_dir o)) (o_paid o) else 0) os) as X.
  unfold paid_in in *. destruct (j =? pr_id pr); lia.
Qed.

(** ** The totals of a match outcome *)
Lemma map_get_seq (h : heap) : map (get h) (seq 0 (length h)) = h.
Proof.
  induction h as [|o h IH]; [reflexivity|]. cbn [length seq map]. f_equal. rewrite <- seq_shift, map_map. exact IH.
Qed.
Lemma sum_ptrs (g : order -> Z) (h : heap) ps : NoDup ps -> (forall p, In p ps -> (p < length h)%nat) ->
  (forall p, (p < length h)%nat -> ~ In p ps -> g (get h p) = 0) -> sumZ (map g (map (get h) ps)) = sumZ (map g h).
Proof.
  intros N B Zr. rewrite <- (map_get_seq h) at 2. rewrite !map_map.
  rewrite (sumZ_filter_split (fun p => if in_dec Nat.eq_dec p ps then true else false) (fun p => g (get h p)) (seq 0 (length h))).
  assert (E : sumZ (map (fun p => g (get h p)) (filter (fun p => negb (if in_dec Nat.eq_dec p ps then true else false)) (seq 0 (length h)))) = 0).
  { assert (X : forall p, In p (filter (fun p => negb (if in_dec Nat.eq_dec p ps then true else false)) (seq 0 (length h))) -> g (get h p) = 0).
    { intros p Hp. apply filter_In in Hp. destruct Hp as [Hp Hn]. apply in_seq in Hp. destruct (in_dec Nat.eq_dec p ps); [discriminate Hn|]. apply Zr; [lia|assumption]. }
    revert X. generalize (filter (fun p => negb (if in_dec Nat.eq_dec p ps then true else false)) (seq 0 (length h))). induction l as [|p l IH]; intros X; [reflexivity|]. cbn [map]. rewrite sumZ_cons.
    rewrite (X p (or_introl eq_refl)), IH; [reflexivity|]. intros q Hq. apply X. right. assumption. }
  rewrite E, Z.add_0_r. apply sumZ_perm, Permutation_map. apply NoDup_Permutation; [assumption|apply NoDup_filter, seq_NoDup|].
  intros p. rewrite filter_In, in_seq. split.
  - intros Hp. split; [specialize (B p Hp); lia|]. destruct (in_dec Nat.eq_dec p ps); [reflexivity|contradiction].
  - intros [_ Hp]. destruct (in_dec Nat.eq_dec p ps); [assumption|discriminate Hp].
Qed.

Lemma fresh_filled_idle o fs o' : fresh_order o -> filled_by o fs o' -> is_matched o' = false -> o_paid o' = 0 /\ o_recv o' = 0.
Proof.
  intros (_ & _ & Fo & _ & Fp & Fr & _) (Ff & _ & _ & Ea & _ & _ & _ & Eo & Epd & Erv) M. unfold is_matched in M. apply Z.ltb_ge in M.
  destruct fs as [|f fs]; [cbn in Epd, Erv; lia|]. exfalso. inversion Ff as [|? ? [X _] Y]; subst. cbn [map] in Eo. rewrite sumZ_cons in Eo.
  assert (0 <= sumZ (map fst fs)).
  { apply sumZ_nonneg. intros x Hx. apply in_map_iff in Hx. destruct Hx as (y & <- & Hy). rewrite Forall_forall in Y. destruct (Y y Hy). lia. }
  lia.
Qed.

Lemma side_tot_fresh (g : order -> Z) d h : (forall o, In o h -> g o = 0) -> side_tot g d h = 0.
Proof.
  intros H. unfold side_tot. induction h as [|o h IH]; [reflexivity|]. cbn [map]. rewrite sumZ_cons, IH by (intros x Hx; apply H; right; assumption).
  rewrite (H o (or_introl eq_refl)). destruct d, (o_dir o); lia.
Qed.

Lemma outcome_totals iter h h' mp qd pr : is_perm_iter iter -> Forall fresh_order h -> match_outcome iter h h' mp qd -> pr_base pr <> pr_quote pr ->
  let os := map (get h') (book_orders (new_order_book h)) in
  paid_in pr os (pr_quote pr) = buys_paid h h' /\ paid_in pr os (pr_base pr) = sells_paid h h' /\
  recv_in pr os (pr_quote pr) = sells_received h h' /\ recv_in pr os (pr_base pr) = buys_received h h' /\
  forall d, d <> pr_quote pr -> d <> pr_base pr -> paid_in pr os d = 0 /\ recv_in pr os d = 0.
Proof.
  intros Hi Hf Ho Nb os. assert (Hw : Forall wf_order h) by (eapply Forall_impl; [|exact Hf]; exact fresh_wf).
  destruct (match_outcome_orders _ _ _ _ _ Hi Hw Ho) as (Ln & Wf' & Fb). destruct (book_ptrs h) as [Nd Rg].
  pose proof (book_ptrs_changed _ _ _ _ _ Hi Hw Ho) as Ch.
  assert (Fr : forall p, (p < length h)%nat -> fresh_order (get h p)) by (intros p Hp; rewrite Forall_forall in Hf; apply Hf; apply nth_In; assumption).
  assert (Idle : forall p, (p < length h')%nat -> is_matched (get h' p) = false -> o_paid (get h' p) = 0 /\ o_recv (get h' p) = 0).
  { intros p Hp M. destruct (Fb p ltac:(lia)) as (fs & X). exact (fresh_filled_idle _ _ _ (Fr p ltac:(lia)) X M). }
  assert (Out : forall p, (p < length h')%nat -> ~ In p (book_orders (new_order_book h)) -> is_matched (get h' p) = false).
  { intros p Hp Np. rewrite (Ch p Np). destruct (Fr p ltac:(lia)) as (_ & _ & E & _). unfold is_matched. rewrite E. apply Z.ltb_irrefl. }
  assert (Dir : forall p, o_dir (get h' p) = o_dir (get h p)).
  { intros p. destruct (Nat.lt_ge_cases p (length h)) as [Lp|Gp]; [destruct (Fb p Lp) as (fs & X); apply X|]. unfold get. rewrite !nth_overflow by lia. reflexivity. }
  assert (Gen : forall (den : dir -> denom) (v : order -> Z) d, (forall p, (p < length h')%nat -> is_matched (get h' p) = false -> v (get h' p) = 0) ->
     sumZ (map (fun o => if is_matched o then of_denom d (den (o_dir o)) (v o) else 0) os) =
     sumZ (map (fun o => of_denom d (den (o_dir o)) (v o)) h')).
  { intros den v d Hv. unfold os. rewrite (sum_ptrs _ h' (book_orders (new_order_book h)) Nd).
    - f_equal. apply map_ext_in. intros o Hin. destruct (is_matched o) eqn:M; [reflexivity|]. destruct (In_nth h' o dummy_order Hin) as (p & Hp & <-). fold (get h' p) in *.
      rewrite (Hv p Hp M). unfold of_denom. destruct (denom_eqb _ _); reflexivity.
    - intros p Hp. rewrite Ln. apply Rg. assumption.
    - intros p Hp Np. rewrite (Out p Hp Np). reflexivity. }
  pose proof (combine_diff o_recv Buy h h' Ln Dir) as E1. pose proof (combine_diff o_paid Sell h h' Ln Dir) as E2.
  pose proof (combine_diff o_paid Buy h h' Ln Dir) as E3. pose proof (combine_diff o_recv Sell h h' Ln Dir) as E4.
  assert (Zp : forall d, side_tot o_paid d h = 0) by (intros d; apply side_tot_fresh; intros o Hin; rewrite Forall_forall in Hf; destruct (Hf o Hin) as (_ & _ & _ & _ & X & _); exact X).
  assert (Zv : forall d, side_tot o_recv d h = 0) by (intros d; apply side_tot_fresh; intros o Hin; rewrite Forall_forall in Hf; destruct (Hf o Hin) as (_ & _ & _ & _ & _ & X & _); exact X).
  unfold side_tot in Zp, Zv. unfold buys_received, sells_paid, buys_paid, sells_received. cbv iota in E1, E2, E3, E4. pose proof (Zp Buy) as Zp1. pose proof (Zp Sell) as Zp2. pose proof (Zv Buy) as Zv1. pose proof (Zv Sell) as Zv2. cbv iota in Zp1, Zp2, Zv1, Zv2.
  rewrite E1, E2, E3, E4, Zp1, Zp2, Zv1, Zv2, !Z.sub_0_r. clear E1 E2 E3 E4 Zp Zv Zp1 Zp2 Zv1 Zv2.
  assert (P : forall d, paid_in pr os d = sumZ (map (fun o => of_denom d (offer_denom_of pr (o_dir o)) (o_paid o)) h')) by (intros d; apply (Gen (offer_denom_of pr) o_paid d); intros p Hp M; apply (Idle p Hp M)).
  assert (R : forall d, recv_in pr os d = sumZ (map (fun o => of_denom d (demand_denom_of pr (o_dir o)) (o_recv o)) h')) by (intros d; apply (Gen (demand_denom_of pr) o_recv d); intros p Hp M; apply (Idle p Hp M)).
  assert (Bq : denom_eqb (pr_base pr) (pr_quote pr) = false) by (destruct (denom_eqb_spec (pr_base pr) (pr_quote pr)); congruence).
  assert (Qb : denom_eqb (pr_quote pr) (pr_base pr) = false) by (destruct (denom_eqb_spec (pr_quote pr) (pr_base pr)); congruence).
  rewrite !P, !R. split; [|split; [|split; [|split]]].
  1-4: f_equal; apply map_ext; intros o; unfold of_denom; destruct (o_dir o); cbn [offer_denom_of demand_denom_of]; rewrite ?denom_eqb_refl, ?Bq, ?Qb; reflexivity.
  intros d N1 N2. rewrite P, R.
  assert (D1 : denom_eqb d (pr_quote pr) = false) by (destruct (denom_eqb_spec d (pr_quote pr)); congruence).
  assert (D2 : denom_eqb d (pr_base pr) = false) by (destruct (denom_eqb_spec d (pr_base pr)); congruence).
  assert (X : forall (f : order -> Z), (forall o, f o = 0) -> sumZ (map f h') = 0).
  { intros f Hz. clear -Hz. induction h' as [|o l IH]; [reflexivity|]. cbn [map]. rewrite sumZ_cons, Hz, IH. reflexivity. }
  split; apply X; intros o; unfold of_denom; destruct (o_dir o); cbn [offer_denom_of demand_denom_of]; rewrite ?D1, ?D2; reflexivity.
Qed.

(** ** ExecuteMatching *)

Lemma entry_filled s i o fs o' : entry s i o -> filled_by o fs o' -> wf_order o' -> filled_entry s i o'.
Proof.
  intros (F & id & ko & K & G & L & D & Of & Am & _) (_ & Ed & _ & Ea & Eof & _ & Ek & _) W M. destruct W as (_ & W1 & W2 & W3 & W4).
  split; [lia|]. split; [lia|]. rewrite Ek, K. exists ko. split; [assumption|]. split; [assumption|]. split; [congruence|]. split; [lia|]. split; [lia|].
  intros S. rewrite S in W4. lia.
Qed.

Lemma user_ids_sub h' ps (h : heap) : (forall p, In p ps -> o_kind (get h' p) = o_kind (get h p)) -> NoDup ps -> (forall p, In p ps -> (p < length h)%nat) ->
  NoDup (user_ids h) -> NoDup (user_ids (map (get h') ps)).
Proof.
  intros K K0 B N. assert (E : user_ids (map (get h') ps) = user_ids (map (get h) ps)).
  { unfold user_ids. rewrite !flat_map_concat_map, !map_map. f_equal. apply map_ext_in. intros p Hp. unfold uid. rewrite (K p Hp). reflexivity. }
  rewrite E. clear E K h'. rename K0 into Np.
  assert (Inj : forall p q id, (p < length h)%nat -> (q < length h)%nat -> In id (uid (get h p)) -> In id (uid (get h q)) -> p = q).
  { clear ps B Np. induction h as [|o h IH]; intros p q id Hp Hq Ip Iq; [cbn in Hp; lia|]. unfold user_ids in N. cbn [flat_map] in N. fold (user_ids h) in N.
    assert (N2 : NoDup (user_ids h)). { clear -N. induction (uid o) as [|x l IH]; [exact N|]. cbn in N. inversion N; auto. }
    assert (N3 : forall id, In id (uid o) -> ~ In id (user_ids h)).
    { clear -N. intros id. induction (uid o) as [|x l IH]; [intros []|]. cbn in N. inversion N as [|? ? A1 A2]; subst. intros [->|X]; [|auto]. intros Y. apply A1. apply in_app_iff. auto. }
    assert (In' : forall r id, (r < length h)%nat -> In id (uid (get h r)) -> In id (user_ids h)).
    { intros r id' Hr Hx. unfold user_ids. apply in_flat_map. exists (get h r). split; [apply nth_In; assumption|assumption]. }
    destruct p as [|p], q as [|q]; cbn [length] in Hp, Hq; unfold get in *; cbn [nth] in *.
    - reflexivity.
    - exfalso. apply (N3 id Ip). apply (In' q id ltac:(lia) Iq).
    - exfalso. apply (N3 id Iq). apply (In' p id ltac:(lia) Ip).
    - f_equal. apply (IH N2 p q id); auto; lia. }
  induction ps as [|p ps IH]; [constructor|]. inversion Np as [|? ? A1 A2]; subst. cbn [map]. unfold user_ids. cbn [flat_map]. fold (user_ids (map (get h) ps)).
  apply NoDup_app_intro.
  - unfold uid. destruct (o_kind (get h p)); [constructor|constructor; [intros []|constructor]|constructor].
  - apply IH; [assumption|]. intros q Hq. apply B. right. assumption.
  - intros id X Y. unfold user_ids in Y. apply in_flat_map in Y. destruct Y as (o & Ho & Y). apply in_map_iff in Ho. destruct Ho as (q & <- & Hq).
    assert (p = q) by (apply (Inj p q id); auto; apply B; [left; reflexivity|right; assumption]). subst q. contradiction.
Qed.

(** What one pair's matching does.  [ss] is the state in which the match result is applied. *)
Record matching_done (iter : list (nat * Z) -> list (nat * Z)) (pr : pair) (s ss : state) (h h2 : heap) (mp : dec) (qd : Z) (s' : state) : Prop := mkMD {
  md_fresh : Forall fresh_order h;
  md_users : forall o id, In o h -> o_kind o = KUser id -> entry ss (pr_id pr) o;
  md_nodup : NoDup (user_ids h);
  md_outcome : match_outcome iter h h2 mp qd;
  md_slack : forall j d, slack s' j d = slack ss j d
     + (if j =? pr_id pr then
          (if denom_eqb d (pr_base pr) then sells_paid h h2 - buys_received h h2 else 0) else 0)
     + at_acc (PairEscrow j) (pm_dust_collector (st_params s)) (of_denom d (pr_quote pr) qd);
  md_unmatched : forall k, (forall o, In o h2 -> is_matched o = true -> o_kind o = KUser (snd k) -> fst k <> pr_id pr) -> mget (st_orders s') k = mget (st_orders ss) k;
  md_matched : forall o id ko, In o h2 -> is_matched o = true -> o_kind o = KUser id -> get_order ss (pr_id pr) id = Some ko -> get_order s' (pr_id pr) id = Some (matched_order ko o);
  md_pool_sells : forall l lo hi, pr_last_price pr = Some l -> price_limits l (pm_price_ratio (st_params s)) (pm_tick_prec (st_params s)) = Ok (lo, hi) ->
     forall o, In o h -> o_dir o = Sell -> (exists id, o_kind o = KUser id) \/ lo <= o_price o;
  md_applied : let os := map (get h2) (book_orders (new_order_book h)) in
    Forall (filled_entry ss (pr_id pr)) os /\ NoDup (user_ids os) /\
    exists s3, apply_match ss pr os qd = Some s3 /\ s' = put_pair s3 (mkPair (pr_id pr) (pr_base pr) (pr_quote pr) (pr_last_order pr) (Some mp) (pr_batch pr + 1));
  md_kmatch : exists hu ps, kmatch iter (st_params s) hu ps (pr_last_price pr) = Some (h, Some (h2, mp, qd))
}.
(** The preparation: [hu] are the user orders offered, [ps] the pools taking part. *)
Record matching_begun (pr : pair) (s ss : state) (hu : heap) (ps : list (Z * pool)) : Prop := mkMB {
  mb_collect : exists s1, collect_orders (mprefix (st_orders s) (pr_id pr)) s [] = Some (s1, hu) /\ collect_pools (mprefix (st_plidx s1) (pr_id pr)) pr s1 = Some (ss, ps);
  mb_entries : Forall (entry ss (pr_id pr)) hu;
  mb_pools : Forall (fun ip => p_rx (snd ip) = bal (st_bank ss) (PoolReserve (fst ip)) (pr_quote pr) /\ p_ry (snd ip) = bal (st_bank ss) (PoolReserve (fst ip)) (pr_base pr)) ps;
  mb_sound : Forall sound_pool ps;
  mb_offered : forall k o, mget (st_orders s) k = Some o -> fst k = pr_id pr -> live o = true ->
     if (match ko_status o with ONotExecuted => false | _ => true end) && expired_at o (st_time s)
     then mget (st_orders ss) k = Some (ko_with_status o OExpired)
     else mget (st_orders ss) k = Some (ko_with_status o (match ko_status o with ONotExecuted => ONotMatched | st => st end)) /\ exists uo, user_order o = Ok uo /\ In uo hu;
  mb_same : forall k, fst k <> pr_id pr -> mget (st_orders ss) k = mget (st_orders s) k;
  mb_rest : st_pairs ss = st_pairs s /\ st_params ss = st_params s /\ st_time ss = st_time s /\ st_deps ss = st_deps s /\ st_wds ss = st_wds s
}.

Lemma execute_matching_full (Q : ctl) iter pr s s' : is_perm_iter iter -> inv Q s -> (forall p, Q p -> sane_ratio p) -> stage_of Q = STrade -> get_pair s (pr_id pr) = Some pr ->
  execute_matching iter pr s = Some s' ->
  exists ss price hu ps, matching_begun pr s ss hu ps /\ (forall b, b = STrade \/ b = SReq -> mics (mkCtl (allowed Q) b) s ss) /\ mics Q s s' /\
    st_pairs s' = mset (st_pairs s) (pr_id pr, 0) (mkPair (pr_id pr) (pr_base pr) (pr_quote pr) (pr_last_order pr) price (pr_batch pr + 1)) /\
    st_deps s' = st_deps s /\ st_wds s' = st_wds s /\ st_params s' = st_params s /\ st_time s' = st_time s /\ st_height s' = st_height s /\
    (forall k, fst k <> pr_id pr -> mget (st_orders s') k = mget (st_orders s) k) /\
    ((price = pr_last_price pr /\ (exists h1, kmatch iter (st_params s) hu ps (pr_last_price pr) = Some (h1, None)) /\ (forall j d, slack s' j d = slack ss j d) /\ st_orders s' = st_orders ss /\ st_bank s' = st_bank ss) \/
     exists po h h2 mp qd, kmatch iter (st_params s) hu ps (pr_last_price pr) = Some (h, Some (h2, mp, qd)) /\ price = Some mp /\ h = hu ++ po /\ Forall (pool_made ps) po /\ matching_done iter pr s ss h h2 mp qd s').
Proof.
  intros Hi I HQ T Gp H. unfold execute_matching in H.
  destruct (collect_orders (mprefix (st_orders s) (pr_id pr)) s []) as [[s1 h]|] eqn:E1; [|discriminate H]. cbn [fst snd] in H.
  assert (Pre : NoDup (map fst (mprefix (st_orders s) (pr_id pr)))) by (apply msorted_NoDup, msorted_filter, (i_orders_sorted _ (v_str _ _ I))).
  assert (Cur : forall k o, In (k, o) (mprefix (st_orders s) (pr_id pr)) -> mget (st_orders s) k = Some o /\ fst k = pr_id pr).
  { intros k o X. apply mprefix_In in X. destruct X as [X Y]. split; [apply snap_current; [apply (i_orders_sorted _ (v_str _ _ I))|assumption]|exact Y]. }
  assert (C1 : forall b, b = STrade \/ b = SReq -> _) by (intros b Hb; exact (collect_orders_spec (mkCtl (allowed Q) b) (pr_id pr) _ Hb s [] s1 h (proj1 (inv_ctl Q b s) I) Pre Cur (Forall_nil _) (NoDup_nil _) (fun _ _ _ X => X) E1)).
  destruct (C1 STrade (or_introl eq_refl)) as (_ & R1 & En & NU & _ & O1 & Off).
  destruct (collect_pools (mprefix (st_plidx s1) (pr_id pr)) pr s1) as [[ss ps]|] eqn:E2; [|discriminate H]. cbn [fst snd] in H.
  assert (C2 : forall b, b = STrade \/ b = SReq -> _) by (intros b Hb; exact (collect_pools_spec (mkCtl (allowed Q) b) pr _ Hb s1 ss ps (inv_mics _ _ _ (proj1 (C1 b Hb)) (proj1 (inv_ctl Q b s) I)) E2)).
  destruct (C2 STrade (or_introl eq_refl)) as (_ & R2 & Sp & Pb).
  assert (MS : forall b, b = STrade \/ b = SReq -> mics (mkCtl (allowed Q) b) s ss) by (intros b Hb; exact (mics_trans _ _ _ _ (proj1 (C1 b Hb)) (proj1 (C2 b Hb)))).
  assert (MQ : mics Q s ss) by (destruct Q as [al tr]; exact (MS tr (or_introl T))).
  clear C1 C2. pose proof (inv_mics Q _ _ MQ I) as Is.
  unfold same_but_pools in R2. destruct R1 as (R11 & R12 & R13 & R14 & R15 & R16 & R17 & R18).
  assert (Ess : st_pairs ss = st_pairs s /\ st_params ss = st_params s /\ st_time ss = st_time s /\ st_deps ss = st_deps s /\ st_wds ss = st_wds s /\ st_height ss = st_height s /\ st_orders ss = st_orders s1).
  { rewrite R2. cbn. auto 10. }
  destruct Ess as (X1 & X2 & X3 & X4 & X5 & X6 & X7).
  assert (Oth : forall k, fst k <> pr_id pr -> mget (st_orders ss) k = mget (st_orders s) k).
  { intros k Nk. rewrite X7. apply O1. intros Y. apply in_map_iff in Y. destruct Y as ([k' o] & <- & Y). apply Cur in Y. tauto. }
  assert (En2 : Forall (entry ss (pr_id pr)) h).
  { eapply Forall_impl; [|exact En]. intros o Ho. eapply entry_frame; [exact Ho|]. intros id _. unfold get_order. rewrite X7. reflexivity. }
  assert (MB : matching_begun pr s ss h ps).
  { constructor; [exists s1; auto|assumption| |assumption| |exact Oth|exact (conj X1 (conj X2 (conj X3 (conj X4 X5))))].
    - eapply Forall_impl; [|exact Pb]. intros a (_ & X). rewrite R2. exact X.
    - intros k o G Ek L. rewrite X7. apply Off; [|assumption]. apply mprefix_In. split; [apply mget_In; assumption|exact Ek]. }
  assert (Fh : Forall fresh_order h) by (eapply Forall_impl; [|exact En2]; intros o Ho; apply Ho).
  assert (Gss : get_pair ss (pr_id pr) = Some pr) by (unfold get_pair; rewrite X1; exact Gp).
  destruct (v_params _ _ I) as [Vp Qp]. unfold valid_params in Vp. rewrite !andb_true_iff in Vp.
  assert (Hprec : 0 <= pm_tick_prec (st_params s)) by lia. assert (Hrat : 0 <= pm_price_ratio (st_params s) < P18) by (split; [lia|apply HQ; assumption]).
  destruct (kmatch iter (st_params s) h ps (pr_last_price pr)) as [[h1 r]|] eqn:E3; [|discriminate H]. cbn [fst snd] in H.
  destruct (i_pairs _ (v_str _ _ I) _ _ Gp) as (_ & _ & Nbq & _ & _ & Lp & _).
  destruct (kmatch_facts iter (st_params s) h ps (pr_last_price pr) h1 r Hprec Hrat Fh Sp Lp E3) as (po & Eh1 & Fpo & Out & Flo).
  destruct r as [[[h2 mp] qd]|].
  - specialize (Out h2 mp qd eq_refl).
    assert (F1 : Forall fresh_order h1) by (rewrite Eh1; apply Forall_app; split; [assumption|eapply Forall_impl; [|exact Fpo]; intros o Ho; apply Ho]).
    assert (W1 : Forall wf_order h1) by (eapply Forall_impl; [|exact F1]; exact fresh_wf).
    destruct (match_outcome_orders _ _ _ _ _ Hi W1 Out) as (Ln & W2 & Fb). destruct (book_ptrs h1) as [Nd Rg].
    assert (U1 : user_ids h1 = user_ids h).
    { rewrite Eh1, user_ids_app. replace (user_ids po) with (@nil Z); [apply app_nil_r|]. clear -Fpo. induction Fpo as [|o po (_ & i & K & _) _ IH]; [reflexivity|].
      unfold user_ids. cbn [flat_map]. unfold uid at 1. rewrite K. exact IH. }
    assert (Usr : forall o id, In o h1 -> o_kind o = KUser id -> entry ss (pr_id pr) o).
    { intros o id Hin K. rewrite Eh1 in Hin. apply in_app_iff in Hin. destruct Hin as [Hin|Hin]; [rewrite Forall_forall in En2; auto|].
      rewrite Forall_forall in Fpo. destruct (Fpo o Hin) as (_ & i & K' & _). congruence. }
    set (os := map (get h2) (book_orders (new_order_book h1))) in *.
    assert (NUo : NoDup (user_ids os)).
    { apply (user_ids_sub h2 _ h1); auto; [|rewrite U1; assumption]. intros p Hp. destruct (Fb p (Rg p Hp)) as (fs & X). apply X. }
    assert (Fo : Forall (filled_entry ss (pr_id pr)) os).
    { apply Forall_forall. intros o Ho. apply in_map_iff in Ho. destruct Ho as (p & <- & Hp). destruct (Fb p (Rg p Hp)) as (fs & X). pose proof (Rg p Hp) as Rp.
      assert (In1 : In (get h1 p) h1) by (apply nth_In; assumption).
      assert (W : wf_order (get h2 p)) by (rewrite Forall_forall in W2; apply W2; apply nth_In; lia).
      assert (In2 : In (get h1 p) (h ++ po)) by (rewrite <- Eh1; exact In1). clear In1. rename In2 into In1. apply in_app_iff in In1. destruct In1 as [In1|In1].
      - rewrite Forall_forall in En2. exact (entry_filled _ _ _ _ _ (En2 _ In1) X W).
      - rewrite Forall_forall in Fpo. destruct (Fpo _ In1) as (_ & i & K & _). intros M. destruct W as (_ & Wa & Wb & Wc & _). split; [lia|]. split; [lia|].
        destruct X as (_ & _ & _ & _ & _ & _ & X & _). rewrite X, K. exact Logic.I. }
    destruct (apply_match ss pr os qd) as [s3|] eqn:E4; [|discriminate H]. injection H as <-.
    destruct (apply_match_spec Q ss pr os qd s3 Is T Gss Fo NUo E4) as (M3 & R3 & Q0 & L3 & P1 & P2).
    destruct R3 as (R31 & R32 & R33 & R34 & R35 & R36 & R37 & R38).
    pose proof (match_outcome_price _ _ _ _ _ Hi W1 Out) as Mp.
    exists ss, (Some mp), h, ps. split; [exact MB|]. split; [exact MS|]. split.
    { apply (mics_trans _ _ _ _ MQ). apply (mics_trans _ _ _ _ M3). apply mics_one. apply mic_batch; [unfold get_pair; rewrite R31; exact Gss|right; eauto|exact T|].
      rewrite R34, X2. intros n Hn To Tl p Ep. injection Ep as <-. apply (kmatch_tick n iter (st_params s) h ps (pr_last_price pr) h1 h2 mp qd (conj Hprec Hn) Hrat Sp); [|exact Tl|exact E3].
      apply Forall_forall. intros o Ho. rewrite Forall_forall in En2. destruct (En2 o Ho) as (_ & id & ko & K & G & _ & _ & _ & _ & Epr & _). rewrite Epr.
      destruct (existsb (fun o' => is_matched o' && match o_kind o' with KUser j => j =? id | _ => false end) os) eqn:Ex.
      - apply existsb_exists in Ex. destruct Ex as (o' & Ho' & Ex). apply andb_true_iff in Ex. destruct Ex as [Mx Ex]. destruct (o_kind o') eqn:Kj; try discriminate Ex. apply Z.eqb_eq in Ex. rewrite Ex in Kj.
        pose proof (P2 o' id ko Ho' Mx Kj G) as G3. exact (To _ _ G3).
      - apply (To (pr_id pr, id)). rewrite P1; [exact G|]. intros o' Ho' Mx Kj Y0. cbn [snd] in Kj. clear Y0. assert (Y : existsb (fun o' => is_matched o' && match o_kind o' with KUser j => j =? id | _ => false end) os = true).
        { apply existsb_exists. exists o'. split; [exact Ho'|]. rewrite Mx, Kj, Z.eqb_refl. reflexivity. } rewrite Ex in Y. discriminate Y. }
    split; [unfold put_pair; cbn; congruence|]. split; [cbn; congruence|]. split; [cbn; congruence|]. split; [cbn; congruence|]. split; [cbn; congruence|]. split; [cbn; congruence|].
    assert (Mem : forall o, In o h2 -> is_matched o = true -> In o os).
    { intros o Ho M. destruct (In_nth h2 o dummy_order Ho) as (p & Hp & Ep). fold (get h2 p) in Ep.
      destruct (in_dec Nat.eq_dec p (book_orders (new_order_book h1))) as [Y|N]; [apply in_map_iff; eauto|]. exfalso.
      rewrite <- Ep, (book_ptrs_changed _ _ _ _ _ Hi W1 Out p N) in M. rewrite Ln in Hp. assert (X : fresh_order (get h1 p)) by (rewrite Forall_forall in F1; apply F1, nth_In; assumption).
      destruct X as (_ & _ & X & _). unfold is_matched in M. rewrite X, Z.ltb_irrefl in M. discriminate M. }
    assert (Sub : forall o, In o os -> In o h2).
    { intros o Ho. apply in_map_iff in Ho. destruct Ho as (p & <- & Hp). apply nth_In. rewrite Ln. apply Rg. assumption. }
    split.
    { intros k Nk. cbn. rewrite P1 by (intros; assumption). apply Oth. assumption. }
    right. exists po, h1, h2, mp, qd. split; [exact E3|]. split; [reflexivity|]. split; [exact Eh1|]. split; [exact Fpo|]. constructor; auto.
    + rewrite U1. assumption.
    + intros j d. change (slack (put_pair s3 _) j d) with (slack s3 j d). rewrite L3, X2.
      destruct (outcome_totals iter h1 h2 mp qd pr Hi F1 Out Nbq) as (Y1 & Y2 & Y3 & Y4 & Y5). fold os in Y1, Y2, Y3, Y4, Y5.
      destruct (match_outcome_totals _ _ _ _ _ Hi W1 Out) as (Tq & _).
      destruct (j =? pr_id pr); [|lia]. destruct (denom_eqb_spec d (pr_base pr)) as [->|Nb].
      * rewrite Y2, Y4. unfold of_denom at 1. destruct (denom_eqb_spec (pr_base pr) (pr_quote pr)); [congruence|]. lia.
      * destruct (denom_eqb_spec d (pr_quote pr)) as [->|Nq]; [rewrite Y1, Y3; unfold of_denom at 1; rewrite denom_eqb_refl; lia|].
        destruct (Y5 d Nq Nb) as [-> ->]. unfold of_denom at 1. destruct (denom_eqb_spec d (pr_quote pr)); [congruence|]. lia.
    + intros k X. cbn. apply P1. intros o Ho. apply X. apply Sub. assumption.
    + intros o id ko Ho M K G. change (get_order (put_pair s3 _) (pr_id pr) id) with (get_order s3 (pr_id pr) id). exact (P2 o id ko (Mem o Ho M) M K G).
    + intros l lo hi El Ll o Ho Do. rewrite Eh1 in Ho. apply in_app_iff in Ho. destruct Ho as [Ho|Ho].
      * left. rewrite Forall_forall in En2. destruct (En2 o Ho) as (_ & id & ko & K & _). exists id. exact K.
      * right. pose proof (Flo l lo hi El Ll) as X. rewrite Forall_forall in X. exact (X o Ho Do).
    + cbn zeta. fold os. split; [exact Fo|]. split; [exact NUo|]. exists s3. split; [exact E4|reflexivity].
    + exists h, ps. exact E3.
  - injection H as <-. exists ss, (pr_last_price pr), h, ps. split; [exact MB|]. split; [exact MS|]. split.
    { apply (mics_trans _ _ _ _ MQ). apply mics_one. apply mic_batch; [exact Gss|left; reflexivity|exact T|intros n _ _ Tl p Ep; exact (Tl p Ep)]. }
    split; [unfold put_pair; cbn; congruence|]. split; [cbn; congruence|]. split; [cbn; congruence|]. split; [cbn; congruence|]. split; [cbn; congruence|]. split; [cbn; congruence|].
    split; [intros k Nk; cbn; apply Oth; assumption|]. left. split; [reflexivity|]. split; [exists h1; exact E3|]. split; [reflexivity|]. split; reflexivity.
Qed.

Lemma execute_matching_spec (Q : ctl) iter pr s s' : is_perm_iter iter -> inv Q s -> (forall p, Q p -> sane_ratio p) -> stage_of Q = STrade -> get_pair s (pr_id pr) = Some pr ->
  execute_matching iter pr s = Some s' ->
  exists ss price hu ps, matching_begun pr s ss hu ps /\ (forall b, b = STrade \/ b = SReq -> mics (mkCtl (allowed Q) b) s ss) /\ mics Q s s' /\
    st_pairs s' = mset (st_pairs s) (pr_id pr, 0) (mkPair (pr_id pr) (pr_base pr) (pr_quote pr) (pr_last_order pr) price (pr_batch pr + 1)) /\
    st_deps s' = st_deps s /\ st_wds s' = st_wds s /\ st_params s' = st_params s /\ st_time s' = st_time s /\ st_height s' = st_height s /\
    (forall k, fst k <> pr_id pr -> mget (st_orders s') k = mget (st_orders s) k) /\
    ((price = pr_last_price pr /\ (forall j d, slack s' j d = slack ss j d) /\ st_orders s' = st_orders ss /\ st_bank s' = st_bank ss) \/
     exists po h h2 mp qd, price = Some mp /\ h = hu ++ po /\ Forall (pool_made ps) po /\ matching_done iter pr s ss h h2 mp qd s').
Proof.
  intros Hi I HQ T Gp H. destruct (execute_matching_full Q iter pr s s' Hi I HQ T Gp H) as (ss & price & hu & ps & MB & MS & M & P & A1 & A2 & A3 & A4 & A5 & Oth & R).
  exists ss, price, hu, ps. split; [exact MB|]. split; [exact MS|]. split; [exact M|]. split; [exact P|]. split; [exact A1|]. split; [exact A2|]. split; [exact A3|]. split; [exact A4|]. split; [exact A5|]. split; [exact Oth|].
  destruct R as [(X & _ & Y)|(po & h & h2 & mp & qd & _ & X)]; [left; exact (conj X Y)|right; exists po, h, h2, mp, qd; exact X].
Qed.

(** ** The end blocker *)
Lemma pairs_key Q s k pr : inv Q s -> mget (st_pairs s) k = Some pr -> k = (pr_id pr, 0).
Proof. intros I G. destruct (i_pairs _ (v_str _ _ I) _ _ G) as (E & _). exact E. Qed.

Lemma match_stage (Q : ctl) iter s s' : is_perm_iter iter -> inv Q s -> (forall p, Q p -> sane_ratio p) -> stage_of Q = STrade ->
  for_each (fun kv : key * pair => execute_matching iter (snd kv)) (st_pairs s) s = Some s' -> mics Q s s'.
Proof.
  intros Hi I HQ T H. apply (for_each_snap Q st_pairs (execute_matching iter) (st_pairs s)) with (s := s); auto.
  - intros k pr s1 s2 I1 G E. pose proof (pairs_key Q _ _ _ I1 G) as ->.
    destruct (execute_matching_spec Q iter pr s1 s2 Hi I1 HQ T G E) as (ss & price & hu & ps & _ & _ & M & P & _). split; [assumption|].
    intros k' Nk. rewrite P. apply mget_mset_neq. assumption.
  - apply msorted_NoDup, (i_pairs_sorted _ (v_str _ _ I)).
  - intros k v X. apply snap_current; [apply (i_pairs_sorted _ (v_str _ _ I))|assumption].
Qed.

(** In the end blocker only the matching stage moves coins out of reserves and escrows by trading. *)
Theorem end_block_mics (A : params -> Prop) iter s s' : is_perm_iter iter -> inv (mkCtl A SMsg) s -> (forall p, A p -> sane_ratio p) ->
  end_block iter s = Some s' -> exists s1, mics (mkCtl A STrade) s s1 /\ mics (mkCtl A SReq) s1 s'.
Proof.
  intros Hi I HQ H. unfold end_block in H. destruct (_ =? 0); [|injection H as <-; exists s; split; constructor]. unfold execute_requests in H.
  apply (inv_ctl _ STrade) in I. cbn [allowed] in I.
  destruct (for_each _ (st_pairs s) s) as [s1|] eqn:E1; [|discriminate H]. pose proof (match_stage (mkCtl A STrade) iter s s1 Hi I HQ eq_refl E1) as M1. pose proof (inv_mics _ _ _ M1 I) as I1.
  apply (inv_ctl _ SReq) in I1. cbn [allowed] in I1. exists s1. split; [assumption|].
  destruct (for_each _ (st_orders s1) s1) as [s2|] eqn:E2; [|discriminate H]. pose proof (expire_stage (mkCtl A SReq) s1 s2 (or_intror eq_refl) I1 E2) as M2. pose proof (inv_mics _ _ _ M2 I1) as I2.
  destruct (for_each _ (st_deps s2) s2) as [s3|] eqn:E3; [|discriminate H]. pose proof (dep_stage (mkCtl A SReq) s2 s3 eq_refl I2 E3) as M3. pose proof (inv_mics _ _ _ M3 I2) as I3.
  pose proof (wd_stage (mkCtl A SReq) s3 s' eq_refl I3 H) as M4. eauto using mics_trans.
Qed.

(** ** Histories as elementary steps of any stage *)
Definition amic (A : params -> Prop) (s s' : state) : Prop := exists st, mic (mkCtl A st) s s'.
Inductive amics (A : params -> Prop) : state -> state -> Prop :=
| amics_refl s : amics A s s
| amics_cons s1 s2 s3 : amic A s1 s2 -> amics A s2 s3 -> amics A s1 s3.
Lemma amics_trans A s1 s2 s3 : amics A s1 s2 -> amics A s2 s3 -> amics A s1 s3.
Proof. intros H. induction H; [auto|]. intros X. econstructor; eauto. Qed.
Lemma mics_amics A st s s' : mics (mkCtl A st) s s' -> amics A s s'.
Proof. intros H. induction H; [constructor|]. econstructor; [exists st; eassumption|assumption]. Qed.

Definition okp (A : params -> Prop) (s : state) : Prop := inv (mkCtl A SMsg) s.
Lemma okp_st A st s : okp A s <-> inv (mkCtl A st) s.
Proof. apply (inv_ctl (mkCtl A SMsg) st s). Qed.
Lemma okp_amic A s s' : amic A s s' -> okp A s -> okp A s'.
Proof. intros (st & M) I. apply (okp_st A st). apply (inv_mic _ _ _ M). apply okp_st. assumption. Qed.
Lemma okp_amics A s s' : amics A s s' -> okp A s -> okp A s'.
Proof. intros M. induction M; auto. intros I. apply IHM. eapply okp_amic; eassumption. Qed.

Theorem step_mics (Q : params -> Prop) c c' : step (sane Q) c c' -> okp (sane Q) (snd c) -> amics (sane Q) (snd c) (snd c').
Proof.
  intros S I. destruct S; cbn [snd] in *.
  - apply (mics_amics _ SBegin). apply begin_block_mics; [reflexivity|assumption].
  - apply (mics_amics _ SMsg). eapply deliver_mics; eauto.
  - destruct (end_block_mics (sane Q) iter s s') as (s1 & M1 & M2); auto; [intros p [_ X]; exact X|].
    exact (amics_trans _ _ _ _ (mics_amics _ _ _ _ M1) (mics_amics _ _ _ _ M2)).
Qed.
Theorem runs_mics (Q : params -> Prop) c c' : runs (sane Q) c c' -> okp (sane Q) (snd c) -> amics (sane Q) (snd c) (snd c').
Proof.
  intros R. induction R as [c|c1 c2 c3 R IH S]; intros I; [constructor|]. specialize (IH I). apply (amics_trans _ _ _ _ IH).
  exact (step_mics Q c2 c3 S (okp_amics _ _ _ IH I)).
Qed.
Theorem reach_inv (Q : params -> Prop) ph s : reach (sane Q) (ph, s) -> okp (sane Q) s.
Proof.
  intros (s0 & (p & b & h & t & V & HQ & G & _ & ->) & R). pose proof (inv_init (mkCtl (sane Q) SMsg) p b h t V HQ G) as I.
  exact (okp_amics _ _ _ (runs_mics Q _ _ R I) I).
Qed.
