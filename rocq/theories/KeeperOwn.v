(** Messages take coins from their signer only, and touch only the signer's orders and requests. *)
From Verif Require Import Base Dec DecProofs TickModel TickSpec OrderModel MatchModel MatchSpec MatchProofs PoolModel KeeperModel KeeperLib KeeperSpec KeeperMicro KeeperInv KeeperBank KeeperSteps KeeperTrade KeeperHist OwnSpec.

Definition takes (s s' : state) (P : addr -> Prop) : Prop := forall a d, ~ P a -> bal (st_bank s) a d <= bal (st_bank s') a d.
Lemma takes_trans s1 s2 s3 P : takes s1 s2 P -> takes s2 s3 P -> takes s1 s3 P.
Proof. intros A B a d N. specialize (A a d N). specialize (B a d N). lia. Qed.
Lemma takes_refl s P : takes s s P. Proof. intros a d _. lia. Qed.
Lemma send_takes s from to cs s' (P : addr -> Prop) : st_send s from to cs = Some s' -> P from -> takes s s' P.
Proof.
  intros H F a d N. apply st_send_spec in H. destruct H as (b & -> & H). destruct (send_spec _ _ _ _ _ H) as (V & (Mv & _) & _). cbn [st_bank set_bank]. rewrite Mv.
  destruct (addr_eqb_spec a from) as [->|]; [contradiction|]. pose proof (valid_amount_nonneg cs d V). destruct (addr_eqb a to); lia.
Qed.
Lemma same_bank_takes s s1 s' P : takes s s1 P -> st_bank s' = st_bank s1 -> takes s s' P.
Proof. intros T E a d N. rewrite E. exact (T a d N). Qed.

Lemma finish_takes s o st s' (P : addr -> Prop) : finish_order s o st = Some s' -> P (PairEscrow (ko_pair o)) -> takes s s' P.
Proof.
  intros H F. unfold finish_order in H. destruct (o_terminal (ko_status o)); [injection H as <-; apply takes_refl|].
  match type of H with match ?e with Some _ => _ | None => None end = _ => destruct e as [s1|] eqn:E; [|discriminate H] end. injection H as <-.
  assert (T : takes s s1 P).
  { destruct (0 <? ko_remaining o); [|injection E as <-; apply takes_refl]. destruct (get_pair s (ko_pair o)); [|discriminate E]. exact (send_takes _ _ _ _ _ P E F). }
  apply (same_bank_takes s s1 _ P T). destruct (ko_type o); reflexivity.
Qed.
Lemma place_takes s typ u i d od offer dd p amt l s' (P : addr -> Prop) : place_order s typ u i d od offer dd p amt l = Some s' -> P (User u) -> takes s s' P.
Proof.
  intros H F. unfold place_order in H. cbv zeta in H. destruct (_ <? offer); [discriminate H|]. destruct (_ <? l); [discriminate H|]. destruct (get_pair s i) as [pr|]; [|discriminate H].
  match type of H with match ?e with Some _ => _ | None => None end = _ => destruct e; [|discriminate H] end.
  match type of H with match ?e with Some _ => _ | None => None end = _ => destruct e; [|discriminate H] end.
  match type of H with match ?e with Some _ => _ | None => None end = _ => destruct e as [rp|]; [|discriminate H] end.
  destruct (negb _); [discriminate H|]. destruct (_ <? 0); [discriminate H|]. destruct (offer <? _); [discriminate H|].
  match type of H with match ?e with Some _ => _ | None => None end = _ => destruct e as [[|]|]; [discriminate H| |discriminate H] end.
  match type of H with match ?e with Some _ => _ | None => None end = _ => destruct e as [oc|]; [|discriminate H] end.
  match type of H with match ?e with Some _ => _ | None => None end = _ => destruct e as [s1|] eqn:E; [|discriminate H] end. injection H as <-.
  apply (same_bank_takes s s1 _ P (send_takes _ _ _ _ _ P E F)). reflexivity.
Qed.
Lemma tail_takes s u pr kind ps dc s' (P : addr -> Prop) : create_pool_tail s u pr kind ps dc = Some s' -> 0 < pm_min_supply (st_params s) -> P (User u) -> takes s s' P.
Proof.
  intros H Mn F. unfold create_pool_tail in H. cbv zeta in H.
  match type of H with match ?e with Some _ => _ | None => None end = _ => destruct e as [s3|] eqn:E3; [|discriminate H] end.
  match type of H with match ?e with Some _ => _ | None => None end = _ => destruct e as [s4|] eqn:E4; [|discriminate H] end.
  match type of H with match ?e with Some _ => _ | None => None end = _ => destruct e as [pc|] eqn:Ec; [|discriminate H] end.
  assert (T : takes s s4 P).
  { eapply takes_trans; [|exact (send_takes _ _ _ _ _ P E4 F)]. pose proof (send_takes _ _ _ _ _ P E3 F) as X. exact X. }
  apply (takes_trans s s4 s' P T). clear T E3 E4.
  destruct (new_coins_one _ _ _ Ec) as (_ & _ & _ & _ & EC). destruct (Z.eqb_spec (Z.max ps (pm_min_supply (st_params s))) 0); [lia|].
  apply st_send_spec in H. destruct H as (b3 & -> & H). rewrite EC in H. cbn [st_bank set_bank] in *.
  destruct (mint_one (st_bank s4) (PoolCoin (st_last_pool s + 1)) (Z.max ps (pm_min_supply (st_params s)))) as (M1 & M2).
  destruct (send_spec _ _ _ _ _ H) as (_ & (S1 & S2) & _). intros a d _. cbn [st_bank set_bank]. rewrite S1, M1. unfold at_acc, of_denom. cbn [amount_of].
  destruct (addr_eqb a DexModule), (addr_eqb a (User u)), (denom_eqb d (PoolCoin (st_last_pool s + 1))); cbn; lia.
Qed.
Lemma cancel_loop_takes ids l (P : addr -> Prop) : (forall i, P (PairEscrow i)) -> forall s s', for_each (cancel_one ids) l s = Some s' -> takes s s' P.
Proof.
  intros F. induction l as [|k l IH]; intros s s' H; cbn [for_each] in H; [injection H as <-; apply takes_refl|].
  destruct (cancel_one ids k s) as [s1|] eqn:E; [|discriminate H]. apply (takes_trans s s1); [|exact (IH _ _ H)].
  unfold cancel_one in E. destruct (get_order s (fst k) (snd k)) as [o|]; [|discriminate E]. destruct (_ || _); [|injection E as <-; apply takes_refl].
  destruct (_ && _); [|injection E as <-; apply takes_refl]. exact (finish_takes _ _ _ _ P E (F _)).
Qed.
Lemma min_supply_pos p : valid_params p = true -> 0 < pm_min_supply p.
Proof. unfold valid_params. lia. Qed.

Lemma deliver_takes s m s' : valid_params (st_params s) = true -> deliver s m = Some s' ->
  takes s s' (fun a => (exists u, signer m = Some u /\ a = User u) \/ (is_cancel m = true /\ pair_escrow a)).
Proof.
  intros V H. unfold deliver in H. destruct (validate_basic m); [|discriminate H].
  assert (SP : forall u, signer m = Some u -> (fun a => (exists u, signer m = Some u /\ a = User u) \/ (is_cancel m = true /\ pair_escrow a)) (User u)) by (intros u E; left; exists u; auto).
  destruct m; cbn [handle signer is_cancel] in *.
  - unfold create_pair in H. cbv zeta in H. match type of H with (if ?e then None else _) = _ => destruct e; [discriminate H|] end.
    match type of H with match ?e with Some _ => _ | None => None end = _ => destruct e as [s1|] eqn:E; [|discriminate H] end. injection H as <-.
    apply (same_bank_takes s s1); [exact (send_takes _ _ _ _ _ _ E (SP u eq_refl))|reflexivity].
  - unfold create_pool in H. inv_do. eapply tail_takes; [eassumption|exact (min_supply_pos _ V)|exact (SP u eq_refl)].
  - unfold create_rpool in H. cbv zeta in H. inv_do. eapply tail_takes; [eassumption|exact (min_supply_pos _ V)|exact (SP u eq_refl)].
  - unfold deposit_msg in H. inv_do. match goal with E : st_send s _ _ _ = Some ?s1 |- _ => apply (same_bank_takes s s1); [exact (send_takes _ _ _ _ _ _ E (SP u eq_refl))|reflexivity] end.
  - unfold withdraw_msg in H. inv_do. match goal with E : st_send s _ _ _ = Some ?s1 |- _ => apply (same_bank_takes s s1); [exact (send_takes _ _ _ _ _ _ E (SP u eq_refl))|reflexivity] end.
  - eapply place_takes; [eassumption|exact (SP u eq_refl)].
  - eapply place_takes; [eassumption|exact (SP u eq_refl)].
  - unfold mm_order in H. cbv zeta in H. inv_do. eapply same_bank_takes; [eapply place_takes; [eassumption|exact (SP u eq_refl)]|reflexivity].
  - unfold cancel_order in H. cbv zeta in H. inv_do. eapply finish_takes; [eassumption|]. right. split; [reflexivity|]. eexists; reflexivity.
  - unfold cancel_all in H. inv_do. eapply cancel_loop_takes; [|eassumption]. intros i. right. split; [reflexivity|]. exists i. reflexivity.
  - destruct (valid_params p); [|discriminate H]. injection H as <-. exact (takes_refl _ _).
  - exact (send_takes _ _ _ _ _ _ H (SP u eq_refl)).
Qed.

(** ** Orders and requests *)
Lemma send_orders s a b cs s' : st_send s a b cs = Some s' -> st_orders s' = st_orders s /\ st_deps s' = st_deps s /\ st_wds s' = st_wds s /\ st_pools s' = st_pools s /\ st_pairs s' = st_pairs s.
Proof. intros H. apply st_send_spec in H. destruct H as (b' & -> & _). auto. Qed.
Lemma tail_orders s u pr kind ps dc s' : create_pool_tail s u pr kind ps dc = Some s' -> st_orders s' = st_orders s /\ st_deps s' = st_deps s /\ st_wds s' = st_wds s.
Proof.
  intros H. unfold create_pool_tail in H. cbv zeta in H.
  match type of H with match ?e with Some _ => _ | None => None end = _ => destruct e as [s3|] eqn:E3; [|discriminate H] end.
  match type of H with match ?e with Some _ => _ | None => None end = _ => destruct e as [s4|] eqn:E4; [|discriminate H] end.
  match type of H with match ?e with Some _ => _ | None => None end = _ => destruct e as [pc|] eqn:Ec; [|discriminate H] end.
  apply send_orders in H, E3, E4. destruct H as (-> & -> & -> & _), E4 as (E41 & E42 & E43 & _), E3 as (E31 & E32 & E33 & _). cbn [st_orders st_deps st_wds set_bank]. rewrite E41, E42, E43, E31, E32, E33. auto.
Qed.
Lemma place_orders (Q : ctl) s typ u i d od offer dd p amt l s' : inv Q s -> place_order s typ u i d od offer dd p amt l = Some s' ->
  st_deps s' = st_deps s /\ st_wds s' = st_wds s /\ exists k o, mget (st_orders s) k = None /\ st_orders s' = mset (st_orders s) k o /\ ko_owner o = User u.
Proof.
  intros I H. destruct (place_order_spec _ _ _ _ _ _ _ _ _ _ _ _ (v_str _ _ I) H) as (pr & rp & s1 & G & _ & _ & _ & _ & Sd & _ & ->).
  apply send_orders in Sd. destruct Sd as (E1 & E2 & E3 & _). split; [exact E2|]. split; [exact E3|]. eexists. eexists. split; [|split; [cbn [st_orders oidx_add put_order set_orders put_pair set_pairs set_oidx]; rewrite E1; reflexivity|reflexivity]].
  cbn [ko_pair ko_id]. destruct (mget (st_orders s) (pr_id pr, pr_last_order pr + 1)) as [o|] eqn:Eo; [|reflexivity]. exfalso.
  destruct (i_orders _ (v_str _ _ I) _ _ Eo) as (Ek & pr' & G' & Ok). injection Ek as E4 E5. rewrite <- E4 in G'. rewrite G in G'. injection G' as <-. destruct Ok as (X & _). lia.
Qed.

Definition canceled (s : state) (k : key) : Prop := exists o, mget (st_orders s) k = Some o /\ ko_status o = OCanceled.
Lemma canceled_mic (Q : ctl) s s' k : mic Q s s' -> batching Q -> canceled s' k -> canceled s k.
Proof.
  intros M B (o' & G & C). assert (N : stage_of Q <> SMsg) by (destruct B; congruence). assert (N' : stage_of Q <> SBegin) by (destruct B; congruence).
  destruct M; try congruence; try (match goal with E : st_send s _ _ _ = Some _ |- _ => apply send_orders in E; destruct E as (E & _) end).
  all: cbn [st_orders put_order put_pair put_dep put_wd put_pool mark_disabled set_bank set_clock set_orders set_pairs set_deps set_wds set_pools set_params add_pool] in G.
  all: try (exists o'; split; [congruence|exact C]).
  - rewrite mget_mset in G. destruct (key_eqb_spec k (ko_pair (ko_with_status (ko_with_fill o rem recv open) st), ko_id (ko_with_status (ko_with_fill o rem recv open) st))); [|exists o'; auto].
    injection G as <-. cbn [ko_status ko_with_status] in C. destruct H5 as [->|[-> _]]; discriminate C.
  - destruct (finish_order_spec _ _ _ _ H2 H0) as (b & _ & ->). assert (G' : mget (mset (st_orders s) (ko_pair o, ko_id o) (ko_with_status o st)) k = Some o') by (destruct (ko_type o); exact G).
    rewrite mget_mset in G'. destruct (key_eqb_spec k (ko_pair o, ko_id o)); [|exists o'; auto]. injection G' as <-. cbn [ko_status ko_with_status] in C. destruct H3 as [_ E]. exfalso. apply N. apply E. exact C.
Qed.
Lemma canceled_mics (Q : ctl) s s' k : mics Q s s' -> batching Q -> canceled s' k -> canceled s k.
Proof. induction 1 as [|s1 s2 s3 M1 M IH]; intros B C; [exact C|]. exact (canceled_mic Q s1 s2 k M1 B (IH B C)). Qed.
Lemma canceled_begin s t k : ~ canceled (begin_block s t) k.
Proof.
  intros (o & G & C). unfold begin_block in G. destruct (delete_outdated_eq (set_clock s (st_height s + 1) t)) as (f & E & _). rewrite E in G. cbn [st_orders set_oidx set_orders set_wds set_deps set_clock] in G.
  apply mget_In in G. apply filter_In in G. destruct G as [_ G]. cbn [snd] in G. rewrite C in G. discriminate G.
Qed.

(** What a message other than a cancellation does to a table of owned objects: nothing, or it adds one
    object owned by the signer under a new key. *)
Definition adds_own {V} (owner : V -> addr) (m : msg) (x x' : amap V) : Prop :=
  x' = x \/ exists u k v, signer m = Some u /\ mget x k = None /\ x' = mset x k v /\ owner v = User u.

Lemma own_same {V} (owner : V -> addr) m (x : amap V) x' : x' = x -> adds_own owner m x x'.
Proof. left. assumption. Qed.
Lemma own_pool s i p : str s -> get_pool s i = Some p -> get_pool s (pl_id p) = Some p.
Proof. intros St G. destruct (i_pools _ St (i, 0) p G) as (E & _). injection E as E. rewrite <- E. exact G. Qed.
Lemma deliver_objects (Q : ctl) s m s' : inv Q s -> deliver s m = Some s' -> is_cancel m = false ->
  adds_own ko_owner m (st_orders s) (st_orders s') /\ adds_own dr_owner m (st_deps s) (st_deps s') /\ adds_own wr_owner m (st_wds s) (st_wds s').
Proof.
  intros I H Ec. pose proof (v_str _ _ I) as St.
  assert (Same : st_orders s' = st_orders s /\ st_deps s' = st_deps s /\ st_wds s' = st_wds s ->
     adds_own ko_owner m (st_orders s) (st_orders s') /\ adds_own dr_owner m (st_deps s) (st_deps s') /\ adds_own wr_owner m (st_wds s) (st_wds s'))
    by (intros (A & B & C); split; [exact (own_same _ _ _ _ A)|split; [exact (own_same _ _ _ _ B)|exact (own_same _ _ _ _ C)]]).
  assert (Placed : forall u, signer m = Some u -> st_deps s' = st_deps s /\ st_wds s' = st_wds s /\ (exists k o, mget (st_orders s) k = None /\ st_orders s' = mset (st_orders s) k o /\ ko_owner o = User u) ->
     adds_own ko_owner m (st_orders s) (st_orders s') /\ adds_own dr_owner m (st_deps s) (st_deps s') /\ adds_own wr_owner m (st_wds s) (st_wds s')).
  { intros u Eu (A & B & k & o & C). split; [|split; [exact (own_same _ _ _ _ A)|exact (own_same _ _ _ _ B)]]. right. exists u, k, o. split; [exact Eu|exact C]. }
  unfold deliver in H. destruct (validate_basic m); [|discriminate H].
  destruct m; cbn [handle] in H; try discriminate Ec.
  - apply Same. unfold create_pair in H. cbv zeta in H. match type of H with (if ?e then None else _) = _ => destruct e; [discriminate H|] end.
    match type of H with match ?e with Some _ => _ | None => None end = _ => destruct e as [s1|] eqn:E; [|discriminate H] end. injection H as <-.
    apply send_orders in E. destruct E as (A & B & C & _). split; [exact A|split; [exact B|exact C]].
  - apply Same. unfold create_pool in H. inv_do. eapply tail_orders; eassumption.
  - apply Same. unfold create_rpool in H. cbv zeta in H. inv_do. eapply tail_orders; eassumption.
  - unfold deposit_msg in H. inv_do. match goal with E : st_send s _ _ _ = Some ?s1 |- _ => apply send_orders in E; destruct E as (A & B & C & _) end.
    split; [exact (own_same _ _ _ _ A)|]. split; [|exact (own_same _ _ _ _ C)]. right. eexists _, _, _. split; [reflexivity|]. split; [|split; [cbn [put_dep put_pool set_pools set_deps st_deps]; rewrite B; reflexivity|reflexivity]].
    match goal with |- mget ?x ?k = None => destruct (mget x k) as [r|] eqn:Er; [|reflexivity] end. exfalso. cbn [dr_pool dr_id] in Er.
    destruct (i_deps _ St _ _ Er) as (Ek & (p' & G' & L & _) & _). injection Ek as E1 E2.
    match goal with G : get_pool s i = Some _ |- _ => apply (own_pool _ _ _ St) in G; rewrite <- E1 in G'; rewrite G in G' end. injection G' as <-. lia.
  - unfold withdraw_msg in H. inv_do. match goal with E : st_send s _ _ _ = Some ?s1 |- _ => apply send_orders in E; destruct E as (A & B & C & _) end.
    split; [exact (own_same _ _ _ _ A)|]. split; [exact (own_same _ _ _ _ B)|]. right. eexists _, _, _. split; [reflexivity|]. split; [|split; [cbn [put_wd put_pool set_pools set_wds st_wds]; rewrite C; reflexivity|reflexivity]].
    match goal with |- mget ?x ?k = None => destruct (mget x k) as [r|] eqn:Er; [|reflexivity] end. exfalso. cbn [wr_pool wr_id] in Er.
    destruct (i_wds _ St _ _ Er) as (Ek & (p' & G' & L) & _). injection Ek as E1 E2.
    match goal with G : get_pool s i = Some _ |- _ => apply (own_pool _ _ _ St) in G; rewrite <- E1 in G'; rewrite G in G' end. injection G' as <-. lia.
  - apply (Placed u eq_refl). eapply place_orders; eassumption.
  - apply (Placed u eq_refl). eapply place_orders; eassumption.
  - apply (Placed u eq_refl). unfold mm_order in H. cbv zeta in H. inv_do. match goal with E : place_order _ _ _ _ _ _ _ _ _ _ _ = Some _ |- _ => exact (place_orders _ _ _ _ _ _ _ _ _ _ _ _ _ I E) end.
  - apply Same. destruct (valid_params p); [|discriminate H]. injection H as <-. auto.
  - apply Same. apply send_orders in H. destruct H as (A & B & C & _). auto.
Qed.

Lemma adds_own_keeps {V} (owner : V -> addr) m (x x' : amap V) k v : adds_own owner m x x' -> mget x k = Some v -> mget x' k = Some v.
Proof.
  intros [->|(u & k0 & v0 & _ & N & -> & _)] G; [exact G|]. rewrite mget_mset. destruct (key_eqb_spec k k0) as [E|]; [subst; congruence|exact G].
Qed.
Lemma adds_own_new {V} (owner : V -> addr) m (x x' : amap V) k v : adds_own owner m x x' -> mget x' k = Some v -> mget x k <> Some v -> exists u, signer m = Some u /\ owner v = User u /\ mget x k = None.
Proof.
  intros [->|(u & k0 & v0 & E & N & -> & Ow)] G Ne; [contradiction|]. rewrite mget_mset in G. destruct (key_eqb_spec k k0) as [E0|]; [|contradiction]. injection G as <-. subst. exists u. auto.
Qed.

(** Batches create no orders and no requests. *)
Definition no_new (s s' : state) : Prop := forall k,
  (mget (st_orders s) k = None -> mget (st_orders s') k = None) /\ (mget (st_deps s) k = None -> mget (st_deps s') k = None) /\ (mget (st_wds s) k = None -> mget (st_wds s') k = None).
Lemma batch_same_keys (Q : ctl) s s' : mic Q s s' -> batching Q -> no_new s s'.
Proof.
  intros M B k. assert (N : stage_of Q <> SMsg) by (destruct B; congruence). assert (N' : stage_of Q <> SBegin) by (destruct B; congruence). split; [|split]; intros G.
  - destruct (orders_mic _ _ _ M) as [->|[[X _]|[(o & o' & G0 & _ & La & _ & _ & _ & ->)|[X _]]]]; [exact G|contradiction| |contradiction].
    rewrite mget_mset. destruct (key_eqb_spec k (ko_pair o', ko_id o')) as [E|]; [|exact G]. exfalso. unfold get_order in G0. assert (E1 : ko_pair o' = ko_pair o) by apply La. assert (E2 : ko_id o' = ko_id o) by apply La. rewrite E1, E2 in E. subst k. congruence.
  - destruct (deps_mic _ _ _ M) as [->|[[X _]|[(_ & r & r' & G0 & _ & _ & La & ->)|[X _]]]]; [exact G|contradiction| |contradiction].
    rewrite mget_mset. destruct (key_eqb_spec k (dr_pool r', dr_id r')) as [E|]; [|exact G]. exfalso. assert (E1 : dr_pool r' = dr_pool r) by apply La. assert (E2 : dr_id r' = dr_id r) by apply La. rewrite E1, E2 in E. subst k. congruence.
  - destruct (wds_mic _ _ _ M) as [->|[[X _]|[(_ & r & r' & G0 & _ & _ & La & ->)|[X _]]]]; [exact G|contradiction| |contradiction].
    rewrite mget_mset. destruct (key_eqb_spec k (wr_pool r', wr_id r')) as [E|]; [|exact G]. exfalso. assert (E1 : wr_pool r' = wr_pool r) by apply La. assert (E2 : wr_id r' = wr_id r) by apply La. rewrite E1, E2 in E. subst k. congruence.
Qed.
Lemma batch_no_new (Q : ctl) s s' : mics Q s s' -> batching Q -> no_new s s'.
Proof. induction 1 as [|s1 s2 s3 M1 M IH]; intros B k; [auto|]. destruct (batch_same_keys Q _ _ M1 B k) as (X & Y & Z). destruct (IH B k) as (X' & Y' & Z'). auto. Qed.
