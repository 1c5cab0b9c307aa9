(** The invariants of keeper/invariants.go hold in every reachable state, but for the offer coins. *)
From Verif Require Import Base Dec OrderModel MatchModel MatchProofs PoolModel PoolProofs KeeperModel KeeperLib KeeperSpec CoverSpec KeeperMicro KeeperBank KeeperSteps KeeperReqs KeeperBulk KeeperTrade KeeperInv KeeperHist KeeperSettle KeeperMsgs KeeperBlock KeeperCover GenesisSpec InvariantModel.

Lemma add_up_spec {V} (f : V -> coins) (m : amap V) : (forall k v, In (k, v) m -> valid_coins (f v) = true) ->
  valid_coins (add_up f m) = true /\ forall d, amount_of (add_up f m) d = msum (fun v => amount_of (f v) d) m.
Proof.
  intros H. unfold add_up.
  assert (X : forall acc, valid_coins acc = true -> valid_coins (fold_left (fun a (kv : key * V) => coins_add a (f (snd kv))) m acc) = true /\
     forall d, amount_of (fold_left (fun a (kv : key * V) => coins_add a (f (snd kv))) m acc) d = amount_of acc d + msum (fun v => amount_of (f v) d) m).
  { induction m as [|[k v] m IH]; intros acc Va.
    - split; [exact Va|]. intros d. cbn. lia.
    - cbn [fold_left snd]. destruct (coins_add_spec (f v) acc Va (H k v (or_introl eq_refl))) as [C1 C2].
      destruct (IH (fun k v Hk => H k v (or_intror Hk)) _ C1) as [D1 D2]. split; [exact D1|]. intros d. rewrite D2, C2, msum_cons. cbn [snd]. lia. }
  destruct (X [] eq_refl) as [X1 X2]. split; [exact X1|]. intros d. rewrite X2. reflexivity.
Qed.
Lemma in_amount cs : valid_coins cs = true -> forall d x, In (d, x) cs -> amount_of cs d = x.
Proof.
  induction cs as [|[e y] cs IH]; intros V d x Hin; [destruct Hin|]. destruct (valid_coins_cons _ _ _ V) as (A1 & A2 & A3). cbn [amount_of]. destruct Hin as [E|Hin].
  - injection E as -> ->. rewrite denom_eqb_refl. reflexivity.
  - destruct (denom_eqb_spec d e) as [->|N]; [|apply IH; assumption]. specialize (IH A3 _ _ Hin). rewrite (amount_of_notin _ _ A2) in IH. subst x.
    exfalso. clear -A3 Hin A2. induction cs as [|[f z] cs IH]; [destruct Hin|]. destruct (valid_coins_cons _ _ _ A3) as (B1 & B2 & B3). destruct Hin as [E|Hin]; [injection E as -> ->; lia|].
    apply IH; auto. cbn in A2. apply orb_false_iff in A2. apply A2.
Qed.
Lemma all_gte_iff f cs : valid_coins cs = true -> (all_gte f cs = true <-> forall d, 0 < amount_of cs d -> amount_of cs d <= f d).
Proof.
  intros V. unfold all_gte. rewrite forallb_forall. split.
  - intros H d Hd. assert (X : exists x, In (d, x) cs).
    { clear -Hd. induction cs as [|[e y] cs IH]; [cbn in Hd; lia|]. cbn [amount_of] in Hd. destruct (denom_eqb_spec d e) as [E|N]; [exists y; left; congruence|]. destruct (IH Hd) as (x & Hx). exists x. right. exact Hx. }
    destruct X as (x & Hx). specialize (H _ Hx). cbn [fst snd] in H. rewrite (in_amount _ V _ _ Hx). apply negb_true_iff in H. lia.
  - intros H [d x] Hin. cbn [fst snd]. rewrite <- (in_amount _ V _ _ Hin). pose proof (valid_amount_nonneg cs d V). apply negb_true_iff. specialize (H d). assert (0 < amount_of cs d); [|lia].
    rewrite (in_amount _ V _ _ Hin). clear -V Hin. induction cs as [|[e y] cs IH]; [destruct Hin|]. destruct (valid_coins_cons _ _ _ V) as (B1 & B2 & B3). destruct Hin as [E|Hin]; [injection E as -> ->; lia|auto].
Qed.

Lemma conserved_le b a d : bank_ok b -> bal b a d <= supply b d.
Proof.
  intros [Nn (acc & Nd & Out & Sum)]. rewrite Sum. destruct (in_dec addr_dec a acc) as [Ha|Ha].
  - clear -Nn Ha. induction acc as [|x acc IH]; [destruct Ha|]. cbn [map]. rewrite sumZ_cons.
    assert (0 <= sumZ (map (fun a => bal b a d) acc)) by (apply sumZ_nonneg; intros y Hy; apply in_map_iff in Hy; destruct Hy as (z & <- & _); apply Nn).
    destruct Ha as [->|Ha]; [lia|]. specialize (IH Ha). pose proof (Nn x d). lia.
  - rewrite (Out a d Ha). apply sumZ_nonneg. intros y Hy. apply in_map_iff in Hy. destruct Hy as (z & <- & _). apply Nn.
Qed.

(** ** Active pools have pool coins *)
Definition alive (s : state) : Prop := forall i p, get_pool s i = Some p -> pl_disabled p = false -> 0 < supply (st_bank s) (PoolCoin i).
Lemma alive_up s s' : (forall i p', get_pool s' i = Some p' -> pl_disabled p' = false -> exists p, get_pool s i = Some p /\ pl_disabled p = false) ->
  (forall i, supply (st_bank s) (PoolCoin i) <= supply (st_bank s') (PoolCoin i)) -> alive s -> alive s'.
Proof. intros H1 H2 A i p' G D. destruct (H1 i p' G D) as (p & Gp & Dp). specialize (A i p Gp Dp). specialize (H2 i). lia. Qed.
Lemma pools_shrink (Q : ctl) s s' : mics Q s s' -> stage_of Q <> SMsg -> forall i p', get_pool s' i = Some p' -> pl_disabled p' = false -> exists p, get_pool s i = Some p /\ pl_disabled p = false.
Proof.
  intros M B. induction M as [s|s1 s2 s3 M1 M2 IH]; intros i p G D; [eauto|]. destruct (IH i p G D) as (q & Gq & Dq). unfold get_pool in *.
  destruct (pools_mic _ _ _ M1) as [(E & _)|[(S & _)|(a & a' & Ga & La & _ & _ & E)]]; [rewrite E in Gq; eauto|contradiction|].
  rewrite E, mget_mset in Gq. destruct (key_eqb_spec (i, 0) (pl_id a', 0)) as [Ek|N]; [|eauto].
  injection Ek as ->. injection Gq as <-. destruct La as (-> & _ & _ & _ & _ & _ & Dis). unfold get_pool in Ga. exists a. split; [exact Ga|]. destruct (pl_disabled a); [rewrite Dis in Dq; [discriminate Dq|reflexivity]|reflexivity].
Qed.
Lemma supply_fixed (Q : ctl) s s' : mics Q s s' -> str s -> batching Q -> st_deps s' = st_deps s -> st_wds s' = st_wds s -> forall i, supply (st_bank s') (PoolCoin i) = supply (st_bank s) (PoolCoin i).
Proof. intros M S B E1 E2 i. pose proof (ledger_mics Q s s' i M S B) as L. unfold ledger in L. rewrite E1, E2 in L. lia. Qed.

(** A pass over a snapshot keeps what every step keeps. *)
Lemma for_each_keeps {V} (Q : ctl) (proj : state -> amap V) f (P : state -> Prop) l :
  (forall k v s s', inv Q s -> mget (proj s) k = Some v -> f v s = Some s' -> mics Q s s' /\ forall k', k' <> k -> mget (proj s') k' = mget (proj s) k') ->
  (forall k v s s', inv Q s -> mget (proj s) k = Some v -> f v s = Some s' -> P s -> P s') ->
  NoDup (map fst l) -> forall s s', inv Q s -> (forall k v, In (k, v) l -> mget (proj s) k = Some v) ->
  for_each (fun kv : key * V => f (snd kv)) l s = Some s' -> P s -> P s'.
Proof.
  intros Hf HP. induction l as [|[k v] l IH]; intros N s s' I C H X; cbn in H; [injection H as <-; exact X|].
  destruct (f v s) as [s1|] eqn:E; [|discriminate H]. cbn in N. apply NoDup_cons_iff in N. destruct N as [N1 N2].
  pose proof (C k v (or_introl eq_refl)) as G. destruct (Hf k v s s1 I G E) as [M O].
  apply (IH N2 s1 s'); [exact (inv_mics Q _ _ M I)| |exact H|exact (HP k v s s1 I G E X)].
  intros k' v' Hin. rewrite O; [apply C; right; assumption|]. intros ->. apply N1. change k with (fst (k, v')). apply in_map. assumption.
Qed.

Section Batch.
Variable A : params -> Prop.
Hypothesis HA : forall p, A p -> sane_ratio p.
Let Q : ctl := mkCtl A SReq.

Lemma dep_step_alive k r s s' : inv Q s -> mget (st_deps s) k = Some r -> execute_dep_if r s = Some s' -> alive s -> alive s'.
Proof.
  intros I G E Al. destruct (dep_if_step Q eq_refl k r s s' I G E) as [M _]. apply (alive_up s); [apply (pools_shrink Q _ _ M); discriminate| |exact Al].
  intros i. unfold execute_dep_if in E. destruct (dr_status r) eqn:St; [|injection E as <-; lia|injection E as <-; lia].
  destruct (i_deps _ (v_str _ _ I) _ _ G) as (-> & _).
  destruct (execute_dep_spec Q r s s' I G St E) as (p & pr & r' & Gp & Gr & _ & [(_ & _ & Sup)|Acc]); [rewrite Sup; lia|].
  destruct Acc as (x & y & pc & acc & Acc). assert (X : dep_settled (st_bank s) (st_bank s') r acc pc) by (clear -Acc; intuition).
  destruct X as (_ & P & _ & _ & Sup). rewrite Sup. unfold of_denom. destruct (denom_eqb _ _); lia.
Qed.

Lemma wd_step_alive k r s s' : inv Q s -> mget (st_wds s) k = Some r -> execute_wd_if r s = Some s' -> alive s /\ wd_blank s -> alive s' /\ wd_blank s'.
Proof.
  intros I G E (Al & B). destruct (wd_if_step Q eq_refl k r s s' I G E) as [M _]. split; [|exact (wd_blank_mics _ _ _ M (v_str _ _ I) B)].
  pose proof (pools_shrink Q _ _ M (fun e => ltac:(discriminate e))) as Sh.
  unfold execute_wd_if in E. destruct (wr_status r) eqn:St; [|injection E as <-; exact Al|injection E as <-; exact Al].
  pose proof (B k r G St) as W. destruct (i_wds _ (v_str _ _ I) _ _ G) as (-> & _ & D & Pos & _).
  destruct (execute_wd_spec Q r s s' I G St W E) as (p & pr & r' & Gp & Gr & _ & [(_ & _ & Sup)|(Acc & p' & Gp' & Dis)]).
  - apply (alive_up s); [exact Sh|intros i; rewrite Sup; lia|exact Al].
  - destruct Acc as (x & y & w & Acc). assert (X : wd_settled (st_bank s) (st_bank s') r w) by (clear -Acc; intuition). clear Acc.
    destruct X as (_ & Cov & _ & Sup). pose proof (get_pool_id s (wr_pool r) p (v_str _ _ I) Gp) as Eid.
    intros i q Gq Dq. destruct (Sh i q Gq Dq) as (q0 & Gq0 & Dq0). specialize (Al i q0 Gq0 Dq0). rewrite Sup, D. unfold of_denom. cbn [denom_eqb].
    destruct (Z.eqb_spec i (wr_pool r)) as [->|N]; [|lia].
    assert (q = p') by congruence. subst q. rewrite Dis in Dq. apply Z.eqb_neq in Dq. rewrite Eid in Dq. rewrite D in Cov.
    pose proof (conserved_le _ GlobalEscrow (PoolCoin (wr_pool r)) (v_bank _ _ I)). lia.
Qed.

Lemma requests_alive iter s s' : is_perm_iter iter -> okp A s -> wd_blank s -> execute_requests iter s = Some s' -> alive s -> alive s'.
Proof.
  intros Hi I B H Al. unfold execute_requests in H. destruct (for_each _ (st_pairs s) s) as [s1|] eqn:E1; [|discriminate H]. destruct (for_each _ (st_orders s1) s1) as [s2|] eqn:E2; [|discriminate H].
  destruct (for_each _ (st_deps s2) s2) as [s3|] eqn:E3; [|discriminate H]. destruct (expired_point A iter Hi HA s s1 s2 I E1 E2) as (M1 & M2 & I1 & I2 & D1 & D2).
  pose proof (proj1 (okp_st A STrade s) I) as It. pose proof (proj1 (okp_st A SReq s1) I1) as I1r. pose proof (proj1 (okp_st A SReq s2) I2) as I2r.
  destruct (trade_keeps_reqs _ _ _ M1 eq_refl) as [F1 F2]. destruct (expire_keeps_reqs _ _ _ E2) as (F3 & F4 & _).
  assert (A1 : alive s1).
  { apply (alive_up s); [apply (pools_shrink _ _ _ M1); discriminate| |exact Al]. intros i. rewrite (supply_fixed _ _ _ M1 (v_str _ _ It) (or_introl eq_refl) F1 F2). lia. }
  assert (A2 : alive s2).
  { apply (alive_up s1); [apply (pools_shrink _ _ _ M2); discriminate| |exact A1]. intros i. rewrite (supply_fixed _ _ _ M2 (v_str _ _ I1r) (or_intror eq_refl) F3 F4). lia. }
  pose proof (dep_stage Q s2 s3 eq_refl I2r E3) as M3. pose proof (inv_mics _ _ _ M3 I2r) as I3.
  assert (A3 : alive s3).
  { refine (for_each_keeps Q st_deps execute_dep_if alive (st_deps s2) (dep_if_step Q eq_refl) dep_step_alive (msorted_NoDup _ (i_deps_sorted _ (v_str _ _ I2r))) s2 s3 I2r _ E3 A2).
    intros k v. apply snap_current. apply (i_deps_sorted _ (v_str _ _ I2r)). }
  assert (B3 : wd_blank s3).
  { apply (wd_blank_mics _ _ _ M3 (v_str _ _ I2r)). apply (wd_blank_mics _ _ _ M2 (v_str _ _ I1r)). exact (wd_blank_mics _ _ _ M1 (v_str _ _ It) B). }
  refine (proj1 (for_each_keeps Q st_wds execute_wd_if (fun s => alive s /\ wd_blank s) (st_wds s3) (wd_if_step Q eq_refl) wd_step_alive (msorted_NoDup _ (i_wds_sorted _ (v_str _ _ I3))) s3 s' I3 _ H (conj A3 B3))).
  intros k v. apply snap_current. apply (i_wds_sorted _ (v_str _ _ I3)).
Qed.
End Batch.

Lemma deliver_last_pool (Q : ctl) s m s' : inv Q s -> deliver s m = Some s' -> creates_pool m = None -> st_last_pool s' = st_last_pool s.
Proof.
  assert (F : forall s o st s', finish_order s o st = Some s' -> st_last_pool s' = st_last_pool s).
  { clear. intros s o st s' H. destruct (live o) eqn:L.
    - destruct (finish_order_spec _ _ _ _ H L) as (b & _ & ->). destruct (ko_type o); reflexivity.
    - unfold live in L. apply negb_false_iff in L. unfold finish_order in H. rewrite L in H. injection H as <-. reflexivity. }
  assert (P : forall s typ u i d od offer dd price amt l s', str s -> place_order s typ u i d od offer dd price amt l = Some s' -> st_last_pool s' = st_last_pool s).
  { intros s0 typ u i d od offer dd price amt l s0' S H. destruct (place_order_spec _ _ _ _ _ _ _ _ _ _ _ _ S H) as (pr & rp & s1 & _ & _ & _ & _ & _ & E & _ & ->).
    apply st_send_spec in E. destruct E as (b & -> & _). reflexivity. }
  intros I H E. pose proof (v_str _ _ I) as S. unfold deliver in H. destruct (validate_basic m); [|discriminate H]. destruct m; try discriminate E; clear E; cbn [handle] in H.
  - unfold create_pair in H. inv_do. match goal with H : st_send _ _ _ _ = Some _ |- _ => apply st_send_spec in H; destruct H as (b & -> & _); reflexivity end.
  - unfold deposit_msg in H. inv_do. match goal with H : st_send _ _ _ _ = Some _ |- _ => apply st_send_spec in H; destruct H as (b & -> & _); reflexivity end.
  - unfold withdraw_msg in H. inv_do. match goal with H : st_send _ _ _ _ = Some _ |- _ => apply st_send_spec in H; destruct H as (b & -> & _); reflexivity end.
  - eapply P; eassumption.
  - eapply P; eassumption.
  - unfold mm_order in H. cbn zeta in H. destruct (_ <=? _); [discriminate H|]. destruct (place_order _ _ _ _ _ _ _ _ _ _ _) as [s1|] eqn:E1; [|discriminate H]. injection H as <-.
    rewrite <- (P _ _ _ _ _ _ _ _ _ _ _ _ S E1). reflexivity.
  - unfold cancel_order in H. inv_do. eapply F; eassumption.
  - unfold cancel_all in H. destruct (existsb _ ids); [discriminate H|]. generalize dependent (map fst (st_oidx s (User u))). intros l. clear S I. revert s. induction l as [|k l IH]; intros s H; cbn in H; [injection H as <-; reflexivity|].
    destruct (cancel_one ids k s) as [s1|] eqn:E1; [|discriminate H]. rewrite (IH _ H).
    unfold cancel_one in E1. destruct (get_order _ _ _); [|discriminate E1]. destruct (_ || _); [|injection E1 as <-; reflexivity]. cbn zeta in E1. destruct (_ && _); [|injection E1 as <-; reflexivity].
    eapply F; eassumption.
  - destruct (valid_params p); [|discriminate H]. injection H as <-. reflexivity.
  - apply st_send_spec in H. destruct H as (b & -> & _). reflexivity.
Qed.
Lemma deliver_alive (Q : params -> Prop) s m s' : okp Q s -> (forall p, m = MUpdateParams p -> Q p) -> (forall p, Q p -> sane_ratio p) -> deliver s m = Some s' -> no_coin_yet s -> alive s -> alive s'.
Proof.
  intros I HQ _ H N Al i p' G D. pose proof (proj1 (okp_st Q SMsg s) I) as Im. pose proof (deliver_mics (mkCtl Q SMsg) s m s' eq_refl Im HQ H) as M.
  pose proof (later_amics Q s s' (mics_amics _ _ _ _ M) I) as La.
  assert (Old : get_pool s i <> None -> 0 < supply (st_bank s) (PoolCoin i)).
  { intros E. destruct (get_pool s i) as [p|] eqn:Gp; [|congruence]. destruct (l_pools _ _ La i p Gp) as (p2 & G2 & L2). assert (p2 = p') by congruence. subst p2.
    apply (Al i p Gp). destruct L2 as (_ & _ & _ & _ & _ & _ & X). destruct (pl_disabled p); [rewrite X in D; [discriminate D|reflexivity]|reflexivity]. }
  destruct (creates_pool m) as [u|] eqn:E.
  - destruct (create_pool_tail_of s m s' u H E) as (pr & kind & ps & dc & T).
    destruct (create_pool_tail_bank s u pr kind ps dc s' (proj1 (v_params _ _ Im)) T) as (X & L & _ & _ & S & _). rewrite S. unfold of_denom. cbn [denom_eqb].
    destruct (Z.eqb_spec i (st_last_pool s + 1)) as [->|Ni]; [specialize (N (st_last_pool s + 1)); lia|].
    destruct (l_new_pools _ _ La i p' G) as [O|O]; [specialize (Old O); lia|]. lia.
  - rewrite (deliver_same _ _ _ _ Im H E). destruct (l_new_pools _ _ La i p' G) as [O|O]; [exact (Old O)|]. rewrite (deliver_last_pool _ _ _ _ Im H E) in O. lia.
Qed.
Theorem reach_alive Q c : reach (sane Q) c -> alive (snd c).
Proof.
  intros R. apply (reach_config (sane Q) (fun c => alive (snd c))) with (3 := R).
  - intros s (p & b & h & t & _ & _ & _ & _ & ->) i q G. discriminate G.
  - intros c1 c2 R1 S Al. pose proof (reach_okp Q c1 R1) as I. inversion S; subst; cbn [snd] in *.
    + intros i p G D. unfold begin_block in *. rewrite delete_bank. destruct (delete_outdated_eq (set_clock s (st_height s + 1) t)) as (f & E & _). rewrite E in G. exact (Al i p G D).
    + apply (deliver_alive (sane Q) s m s' I H0 (fun p X => proj2 X) H (reach_no_coin Q _ R1) Al).
    + unfold end_block in H0. destruct (_ =? 0); [|injection H0 as <-; exact Al].
      exact (requests_alive (sane Q) (fun p X => proj2 X) iter s s' H I (reach_wd_blank Q _ R1) H0 Al).
Qed.

(** ** The invariants *)
Lemma existsb_false {A} (f : A -> bool) l : existsb f l = false <-> forall x, In x l -> f x = false.
Proof.
  induction l as [|a l IH]; cbn; [split; [intros _ x []|reflexivity]|]. rewrite orb_false_iff, IH. split; [intros [H1 H2] x [->|H]; auto|]. intros H. split; [apply H; auto|]. intros x Hx. apply H. auto.
Qed.
Lemma addr_eqb_sym a b : addr_eqb a b = addr_eqb b a.
Proof. destruct (addr_eqb_spec a b), (addr_eqb_spec b a); congruence. Qed.
Lemma deposit_escrow_holds Q c : reach (sane Q) c -> deposit_escrow_broken (snd c) = false.
Proof.
  intros R. pose proof (reach_okp Q c R) as I. set (s := snd c) in *. unfold deposit_escrow_broken. apply negb_false_iff.
  set (f := fun r : dreq => match dr_status r with RNotExecuted => dr_coins r | _ => [] end).
  destruct (add_up_spec f (st_deps s)) as [V Am].
  { intros k r Hr. unfold f. destruct (dr_status r); try reflexivity. apply snap_current in Hr; [|apply (i_deps_sorted _ (v_str _ _ I))]. apply (i_deps _ (v_str _ _ I) _ _ Hr). }
  apply all_gte_iff; [exact V|]. intros d _. rewrite Am. pose proof (reach_excess Q c d R) as X. fold s in X. unfold excess, requests_owed in X.
  assert (W : 0 <= wd_sum s (fun r => if pending (wr_status r) && denom_eqb d (wr_denom r) then wr_amt r else 0)).
  { apply msum_nonneg. intros k r Hr. apply snap_current in Hr; [|apply (i_wds_sorted _ (v_str _ _ I))]. destruct (i_wds _ (v_str _ _ I) _ _ Hr) as (_ & _ & _ & P & _). destruct (_ && _); lia. }
  assert (Eq : msum (fun v => amount_of (f v) d) (st_deps s) = dep_sum s (fun r => if pending (dr_status r) then amount_of (dr_coins r) d else 0)).
  { apply msum_ext. intros k r _. unfold f. destruct (dr_status r); reflexivity. }
  lia.
Qed.
Lemma pool_coin_escrow_holds Q c : reach (sane Q) c -> pool_coin_escrow_broken (snd c) = false.
Proof.
  intros R. pose proof (reach_okp Q c R) as I. set (s := snd c) in *. unfold pool_coin_escrow_broken. apply negb_false_iff.
  set (f := fun r : wreq => match wr_status r with RNotExecuted => [(wr_denom r, wr_amt r)] | _ => [] end).
  destruct (add_up_spec f (st_wds s)) as [V Am].
  { intros k r Hr. unfold f. destruct (wr_status r); try reflexivity. apply snap_current in Hr; [|apply (i_wds_sorted _ (v_str _ _ I))]. destruct (i_wds _ (v_str _ _ I) _ _ Hr) as (_ & _ & _ & P & _).
    cbn. rewrite (proj2 (Z.ltb_lt _ _) P). reflexivity. }
  apply all_gte_iff; [exact V|]. intros d _. rewrite Am. pose proof (reach_excess Q c d R) as X. fold s in X. unfold excess, requests_owed in X.
  assert (W : 0 <= dep_sum s (fun r => if pending (dr_status r) then amount_of (dr_coins r) d else 0)).
  { apply msum_nonneg. intros k r Hr. apply snap_current in Hr; [|apply (i_deps_sorted _ (v_str _ _ I))]. destruct (i_deps _ (v_str _ _ I) _ _ Hr) as (_ & _ & P & _). destruct (pending _); [apply valid_amount_nonneg; exact P|lia]. }
  assert (Eq : msum (fun v => amount_of (f v) d) (st_wds s) = wd_sum s (fun r => if pending (wr_status r) && denom_eqb d (wr_denom r) then wr_amt r else 0)).
  { apply msum_ext. intros k r _. unfold f. destruct (wr_status r); cbn [pending andb amount_of]; destruct (denom_eqb d (wr_denom r)); reflexivity. }
  lia.
Qed.
Lemma offer_escrow_iff Q c : reach (sane Q) c -> (offer_escrow_broken (snd c) = false <-> forall i pr, get_pair (snd c) i = Some pr -> forall d, covered (snd c) i d).
Proof.
  intros R. pose proof (reach_okp Q c R) as I. set (s := snd c) in *. pose proof (v_str _ _ I) as S.
  assert (K : forall i, valid_coins (add_up remaining_offer_coins (mprefix (st_orders s) i)) = true /\ forall d, amount_of (add_up remaining_offer_coins (mprefix (st_orders s) i)) d = orders_owed s i d).
  { intros i. destruct (add_up_spec remaining_offer_coins (mprefix (st_orders s) i)) as [V Am].
    { intros k o Ho. apply mprefix_In in Ho. destruct Ho as [Ho _]. apply snap_current in Ho; [|apply (i_orders_sorted _ S)]. destruct (i_orders _ S _ _ Ho) as (_ & pr & _ & Ok).
      unfold remaining_offer_coins. destruct (o_terminal _); [reflexivity|]. destruct (Z.eqb_spec (ko_remaining o) 0); [reflexivity|]. destruct Ok as (_ & _ & _ & _ & _ & _ & _ & _ & X & _). cbn. assert (P : 0 < ko_remaining o) by lia. rewrite (proj2 (Z.ltb_lt _ _) P). reflexivity. }
    split; [exact V|]. intros d. rewrite Am. unfold mprefix.
    rewrite (msum_ext _ (fun o => if live o && (ko_pair o =? i) && denom_eqb d (ko_offer_denom o) then ko_remaining o else 0)).
    - apply (msum_filter (fun o => if live o && (ko_pair o =? i) && denom_eqb d (ko_offer_denom o) then ko_remaining o else 0)).
      intros [k o] Ho E. cbn [fst snd] in *. apply snap_current in Ho; [|apply (i_orders_sorted _ S)]. destruct (i_orders _ S _ _ Ho) as (-> & _). cbn [fst] in E. rewrite E, andb_false_r. reflexivity.
    - intros k o Ho. apply mprefix_In in Ho. cbn [fst] in Ho. destruct Ho as [Ho E]. apply snap_current in Ho; [|apply (i_orders_sorted _ S)]. destruct (i_orders _ S _ _ Ho) as (-> & _). cbn [fst] in E. subst i.
      rewrite Z.eqb_refl, andb_true_r. unfold remaining_offer_coins, live. destruct (o_terminal _); [reflexivity|]. cbn [negb andb]. destruct (Z.eqb_spec (ko_remaining o) 0) as [->|]; cbn [amount_of]; destruct (denom_eqb _ _); reflexivity. }
  unfold offer_escrow_broken. rewrite existsb_false. split.
  - intros H i pr Gp d. pose proof (get_pair_id s i pr S Gp) as Ei. specialize (H ((i, 0), pr) (mget_In _ _ _ Gp)). cbn [snd] in H. rewrite Ei in H. apply negb_false_iff in H. destruct (K i) as [V Am].
    rewrite (all_gte_iff _ _ V) in H. specialize (H d). rewrite Am in H. unfold covered. pose proof (proj1 (v_bank _ _ I) (PairEscrow i) d). destruct (Z_lt_le_dec 0 (orders_owed s i d)); [auto|lia].
  - intros H [k pr] Hin. apply snap_current in Hin; [|apply (i_pairs_sorted _ S)]. destruct (i_pairs _ S _ _ Hin) as (-> & _). cbn [snd]. apply negb_false_iff. destruct (K (pr_id pr)) as [V Am].
    apply all_gte_iff; [exact V|]. intros d _. rewrite Am. exact (H (pr_id pr) pr Hin d).
Qed.
Lemma pool_status_holds Q c : reach (sane Q) c -> pool_status_broken (snd c) = false.
Proof.
  intros R. pose proof (reach_okp Q c R) as I. pose proof (reach_alive Q c R) as Al. set (s := snd c) in *. pose proof (v_str _ _ I) as S. unfold pool_status_broken. rewrite existsb_false.
  intros [k p] Hin. apply snap_current in Hin; [|apply (i_pools_sorted _ S)]. destruct (i_pools _ S _ _ Hin) as (-> & _). cbn [snd]. destruct (pl_disabled p) eqn:D; [reflexivity|]. cbn [negb andb].
  specialize (Al (pl_id p) p Hin D). lia.
Qed.
Lemma count_mm_sum s f : count_mm s f = order_sum s (fun o => if f o then 1 else 0).
Proof. unfold count_mm, order_sum. induction (st_orders s) as [|kv l IH]; [reflexivity|]. cbn [filter map]. rewrite sumZ_cons, <- IH. destruct (f (snd kv)); cbn [length]; lia. Qed.
Lemma num_mm_holds Q c records : reach (sane Q) c -> lists_counters (snd c) records -> num_mm_broken (snd c) records = false.
Proof.
  intros R (_ & Ls). pose proof (reach_mm Q c R) as Mm. set (s := snd c) in *. unfold num_mm_broken. rewrite existsb_false. intros [[a i] n] Hin. apply Ls in Hin. destruct Hin as [E Nz].
  specialize (Mm a i). rewrite E in Mm.
  assert (C : count_mm s (fun o => mm_order_of a o && (ko_pair o =? i)) = n).
  { rewrite count_mm_sum, Mm. unfold live_mm_orders, order_sum. f_equal. apply map_ext. intros kv. unfold mm_order_of, live. destruct (ko_type (snd kv)), (o_terminal _); cbn [negb andb]; rewrite ?andb_false_r; try reflexivity.
    rewrite (addr_eqb_sym a). rewrite andb_true_r. reflexivity. }
  assert (C2 : n <= count_mm s (mm_order_of a)).
  { rewrite <- C. unfold count_mm. apply inj_le. clear. induction (st_orders s) as [|kv l IH]; [reflexivity|]. cbn [filter]. destruct (mm_order_of a (snd kv)); [|exact IH]. cbn [andb]. destruct (_ =? _); cbn [length]; lia. }
  assert (0 <= n) by (rewrite <- C; unfold count_mm; lia). rewrite C, Z.eqb_refl. destruct (Z.eqb_spec (count_mm s (mm_order_of a)) 0); [lia|]. destruct (Z.eqb_spec n 0); [lia|]. reflexivity.
Qed.
