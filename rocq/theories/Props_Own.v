(** ** C74: nobody can spend or cancel what belongs to another *)
From Verif Require Import Base Dec OrderModel MatchModel MatchSpec MatchProofs PoolModel KeeperModel KeeperLib KeeperSpec KeeperSpec2 KeeperMicro KeeperInv KeeperBank KeeperTrade KeeperHist KeeperCancel KeeperReqs KeeperLedger KeeperExample OwnSpec KeeperOwn Props_Keeper3.

(** A message takes coins from its signer's account only; a cancellation also from pair escrows
    (exactly the remainders of the signer's orders, C36). *)
Theorem C74_only_signer_pays : forall Q s m s' a d, reach (sane Q) (InBlock, s) -> deliver s m = Some s' ->
  (forall u, signer m = Some u -> a <> User u) -> (is_cancel m = true -> ~ pair_escrow a) -> bal (st_bank s) a d <= bal (st_bank s') a d.
Proof.
  intros Q s m s' a d R H N1 N2. apply (deliver_takes s m s' (proj1 (v_params _ _ (reach_okp Q _ R))) H). intros [(u & E & ->)|[E P]]; [exact (N1 u E eq_refl)|exact (N2 E P)].
Qed.
Print Assumptions C74_only_signer_pays.

(** A message changes and creates orders of its signer only. *)
Theorem C74_orders : forall Q s m s' i j, reach (sane Q) (InBlock, s) -> deliver s m = Some s' ->
  (forall o, get_order s i j = Some o -> (forall u, signer m = Some u -> ko_owner o <> User u) -> get_order s' i j = Some o) /\
  (forall o, get_order s' i j = Some o -> get_order s i j <> Some o -> exists u, signer m = Some u /\ ko_owner o = User u).
Proof.
  intros Q s m s' i j R H. pose proof (reach_okp Q _ R) as I. cbn [snd] in I. destruct (is_cancel m) eqn:Ec.
  - destruct m; try discriminate Ec.
    + destruct (cancel_exact Q s u i0 j0 s' R H) as (o & G & Ow & _ & _ & _ & C & _). split.
      * intros o0 G0 N. rewrite C. destruct ((i =? ko_pair o) && (j =? ko_id o)) eqn:E; [|exact G0]. exfalso. apply andb_true_iff in E. destruct E as [E1 E2]. apply Z.eqb_eq in E1, E2. subst.
        destruct (order_facts Q _ i0 j0 o R G) as (<- & <- & _). cbn [snd] in *. rewrite G in G0. injection G0 as <-. exact (N u eq_refl Ow).
      * intros o0 G0 N. rewrite C in G0. destruct ((i =? ko_pair o) && (j =? ko_id o)); [|contradiction]. injection G0 as <-. exists u. split; [reflexivity|exact Ow].
    + destruct (C36_cancel_all Q s u ids s' R H) as (C1 & _). destruct (cancel_all_exact Q s u ids s' R H) as (A & _). split.
      * intros o G N. apply (proj2 (C1 i j o G)). intros (X & _). exact (N u eq_refl X).
      * intros o G N. exists u. split; [reflexivity|]. rewrite A in G. destruct (get_order s i j) as [o0|] eqn:G0; [|discriminate G].
        destruct (wants u ids s o0) eqn:W; [|contradiction]. injection G as <-. exact (proj1 (proj1 (wants_spec Q s u ids o0 i j R G0) W)).
  - destruct (deliver_objects _ s m s' I H Ec) as (A & _). unfold get_order. split.
    + intros o G _. exact (adds_own_keeps _ _ _ _ _ _ A G).
    + intros o G N. destruct (adds_own_new _ _ _ _ _ _ A G N) as (u & E & Ow & _). exists u. auto.
Qed.
Print Assumptions C74_orders.

(** A message changes no deposit or withdrawal request, and creates requests of its signer only. *)
Theorem C74_requests : forall Q s m s' k, reach (sane Q) (InBlock, s) -> deliver s m = Some s' ->
  (forall r, mget (st_deps s) k = Some r -> mget (st_deps s') k = Some r) /\
  (forall r, mget (st_wds s) k = Some r -> mget (st_wds s') k = Some r) /\
  (forall r, mget (st_deps s') k = Some r -> mget (st_deps s) k <> Some r -> exists u, signer m = Some u /\ dr_owner r = User u) /\
  (forall r, mget (st_wds s') k = Some r -> mget (st_wds s) k <> Some r -> exists u, signer m = Some u /\ wr_owner r = User u).
Proof.
  intros Q s m s' k R H. pose proof (reach_okp Q _ R) as I. cbn [snd] in I.
  assert (X : adds_own dr_owner m (st_deps s) (st_deps s') /\ adds_own wr_owner m (st_wds s) (st_wds s')).
  { destruct (is_cancel m) eqn:Ec; [|exact (proj2 (deliver_objects _ s m s' I H Ec))]. destruct m; try discriminate Ec.
    - destruct (cancel_exact Q s u i j s' R H) as (o & _ & _ & _ & _ & E). unfold order_closed in E. decompose [and] E. split; apply own_same; assumption.
    - destruct (C36_cancel_all Q s u ids s' R H) as (_ & _ & _ & _ & _ & _ & _ & E1 & E2 & _). split; apply own_same; assumption. }
  destruct X as [A B]. split; [|split; [|split]].
  - intros r. exact (adds_own_keeps _ _ _ _ _ _ A).
  - intros r. exact (adds_own_keeps _ _ _ _ _ _ B).
  - intros r G N. destruct (adds_own_new _ _ _ _ _ _ A G N) as (u & E & Ow & _). exists u. auto.
  - intros r G N. destruct (adds_own_new _ _ _ _ _ _ B G N) as (u & E & Ow & _). exists u. auto.
Qed.
Print Assumptions C74_requests.

Lemma quiet_is_run Q u c c' : quiet_runs Q u c c' -> runs Q c c'.
Proof.
  induction 1 as [c|c s t _ IH T|c s m s' _ IH H Hq _|c iter s s' _ IH Hi H]; [constructor|eapply Runs_step; [exact IH|constructor; exact T]|eapply Runs_step; [exact IH|econstructor; eassumption]|eapply Runs_step; [exact IH|econstructor; eassumption]].
Qed.
Lemma run_later Q c c' : reach (sane Q) c -> step (sane Q) c c' -> later (snd c) (snd c').
Proof.
  intros R S. pose proof (reach_okp Q _ R) as I. apply (later_amics (sane Q)); [|exact I]. apply runs_mics; [|exact I]. eapply Runs_step; [constructor|exact S].
Qed.
(** Whatever others do, over any number of blocks, a user who signs nothing only gains coins, none of the
    user's orders gets canceled, and no order or request in the user's name appears. *)
Theorem C74_quiet : forall Q u c c', reach (sane Q) c -> quiet_runs (sane Q) u c c' ->
  (forall d, bal (st_bank (snd c)) (User u) d <= bal (st_bank (snd c')) (User u) d) /\
  (forall i j o', get_order (snd c') i j = Some o' -> ko_owner o' = User u ->
     exists o, get_order (snd c) i j = Some o /\ order_later o o' /\ (ko_status o' = OCanceled -> ko_status o = OCanceled)) /\
  (forall k r', mget (st_deps (snd c')) k = Some r' -> dr_owner r' = User u -> is_some (mget (st_deps (snd c)) k) = true) /\
  (forall k r', mget (st_wds (snd c')) k = Some r' -> wr_owner r' = User u -> is_some (mget (st_wds (snd c)) k) = true).
Proof.
  intros Q u c c' R H. induction H as [c|c s t H IH T|c s m s' H IH D Hq N|c iter s s' H IH Hi D]; cbn [snd] in *.
  - split; [intros d; lia|]. split; [|split]; [|intros k r' -> _; reflexivity|intros k r' -> _; reflexivity].
    intros i j o' G _. exists o'. split; [exact G|]. split; [|auto].
    assert (okp (sane Q) (snd c)) by (apply reach_okp; exact R). destruct (l_orders _ _ (later_refl _ (v_str _ _ H)) i j o' G) as [(o & G' & La)|(X & _)]; [|congruence]. rewrite G in G'. injection G' as <-. exact La.
  - destruct (IH R) as (A & B & Cd & Cw). pose proof (reach_runs _ _ _ R (quiet_is_run _ _ _ _ H)) as R1. pose proof (reach_okp Q _ R1) as I1. cbn [snd] in I1.
    pose proof (reach_step _ _ _ R1 (Step_begin (sane Q) s t T)) as R2.
    split; [|split; [|split]].
    + intros d. specialize (A d). unfold begin_block. rewrite delete_bank. exact A.
    + intros i j o' G Ow. assert (G0 : get_order s i j = Some o').
      { unfold begin_block, get_order in *. destruct (delete_outdated_eq (set_clock s (st_height s + 1) t)) as (f & E & _). rewrite E in G. cbn [st_orders set_oidx set_orders set_wds set_deps set_clock] in G.
        apply mget_In in G. apply filter_In in G. exact (snap_current _ _ _ (i_orders_sorted _ (v_str _ _ I1)) (proj1 G)). }
      exact (B i j o' G0 Ow).
    + intros k r' G Ow. apply (Cd k r'); [|exact Ow]. unfold begin_block in G. destruct (delete_outdated_eq (set_clock s (st_height s + 1) t)) as (f & E & _). rewrite E in G. cbn [st_deps set_oidx set_orders set_wds set_deps set_clock] in G.
      apply mget_In in G. apply filter_In in G. exact (snap_current _ _ _ (i_deps_sorted _ (v_str _ _ I1)) (proj1 G)).
    + intros k r' G Ow. apply (Cw k r'); [|exact Ow]. unfold begin_block in G. destruct (delete_outdated_eq (set_clock s (st_height s + 1) t)) as (f & E & _). rewrite E in G. cbn [st_wds set_oidx set_orders set_wds set_deps set_clock] in G.
      apply mget_In in G. apply filter_In in G. exact (snap_current _ _ _ (i_wds_sorted _ (v_str _ _ I1)) (proj1 G)).
  - destruct (IH R) as (A & B & Cd & Cw). pose proof (reach_runs _ _ _ R (quiet_is_run _ _ _ _ H)) as R1.
    split; [|split; [|split]].
    + intros d. specialize (A d). assert (bal (st_bank s) (User u) d <= bal (st_bank s') (User u) d); [|lia].
      apply (C74_only_signer_pays Q s m s' (User u) d R1 D); [intros v E X; injection X as ->; contradiction|]. intros _ (i & X). discriminate X.
    + intros i j o' G Ow. destruct (C74_orders Q s m s' i j R1 D) as [K1 K2].
      destruct (l_orders _ _ (run_later Q _ _ R1 (Step_msg (sane Q) s m s' D Hq)) i j o' G) as [(o & G0 & La)|(G0 & _)].
      * assert (Eo : ko_owner o = User u) by (rewrite <- Ow; symmetry; apply La). rewrite (K1 o G0 ltac:(intros v E X; rewrite Eo in X; injection X as ->; contradiction)) in G. injection G as ->. exact (B i j o' G0 Ow).
      * exfalso. destruct (K2 o' G ltac:(cbn [snd] in G0; congruence)) as (v & E & Ev). rewrite Ow in Ev. injection Ev as ->. contradiction.
    + intros k r' G Ow. destruct (C74_requests Q s m s' k R1 D) as (K1 & _ & K2 & _). destruct (mget (st_deps s) k) as [r|] eqn:Er.
      * rewrite (K1 r eq_refl) in G. injection G as ->. exact (Cd k r' Er Ow).
      * destruct (K2 r' G ltac:(discriminate)) as (v & E & Ev). rewrite Ow in Ev. injection Ev as ->. contradiction.
    + intros k r' G Ow. destruct (C74_requests Q s m s' k R1 D) as (_ & K1 & _ & K2). destruct (mget (st_wds s) k) as [r|] eqn:Er.
      * rewrite (K1 r eq_refl) in G. injection G as ->. exact (Cw k r' Er Ow).
      * destruct (K2 r' G ltac:(discriminate)) as (v & E & Ev). rewrite Ow in Ev. injection Ev as ->. contradiction.
  - destruct (IH R) as (A & B & Cd & Cw). pose proof (reach_runs _ _ _ R (quiet_is_run _ _ _ _ H)) as R1. pose proof (reach_okp Q _ R1) as I1. cbn [snd] in I1.
    pose proof (run_later Q _ _ R1 (Step_end (sane Q) iter s s' Hi D)) as L. cbn [snd] in L.
    destruct (end_block_mics (sane Q) iter s s' Hi I1 (fun p X => proj2 X) D) as (s1 & M1 & M2).
    assert (I2 : inv (mkCtl (sane Q) STrade) s) by (apply okp_st; exact I1). pose proof (inv_mics _ _ _ M1 I2) as I3.
    assert (I4 : inv (mkCtl (sane Q) SReq) s1) by (apply okp_st; apply okp_st in I3; exact I3).
    assert (NN : no_new s s') by (intros k; destruct (batch_no_new _ _ _ M1 (or_introl eq_refl) k) as (X & Y & Z); destruct (batch_no_new _ _ _ M2 (or_intror eq_refl) k) as (X' & Y' & Z'); auto).
    split; [|split; [|split]].
    + intros d. specialize (A d). pose proof (user_gains_mics _ _ _ u d M1 I2 (or_introl eq_refl)). pose proof (user_gains_mics _ _ _ u d M2 I4 (or_intror eq_refl)). lia.
    + intros i j o' G Ow. destruct (l_orders _ _ L i j o' G) as [(o & G0 & La)|(G0 & _)].
      * assert (Eo : ko_owner o = User u) by (rewrite <- Ow; symmetry; apply La). destruct (B i j o G0 Eo) as (o1 & G1 & L1 & C1). exists o1. split; [exact G1|]. split; [exact (order_later_trans _ _ _ L1 La)|].
        intros Ec. apply C1. destruct (canceled_mics _ _ _ (i, j) M1 (or_introl eq_refl)) as (x & X1 & X2); [apply (canceled_mics _ _ _ (i, j) M2 (or_intror eq_refl)); exists o'; auto|].
        unfold get_order in G0. rewrite G0 in X1. injection X1 as <-. exact X2.
      * exfalso. unfold get_order in G, G0. rewrite (proj1 (NN (i, j)) G0) in G. discriminate G.
    + intros [i j] r' G Ow. destruct (l_deps _ _ L i j r' G) as [(r & G0 & La)|(G0 & _)]; [|exfalso; rewrite (proj1 (proj2 (NN (i, j))) G0) in G; discriminate G]. apply (Cd (i, j) r G0). rewrite <- Ow. symmetry. apply La.
    + intros [i j] r' G Ow. destruct (l_wds _ _ L i j r' G) as [(r & G0 & La)|(G0 & _)]; [|exfalso; rewrite (proj2 (proj2 (NN (i, j))) G0) in G; discriminate G]. apply (Cw (i, j) r G0). rewrite <- Ow. symmetry. apply La.
Qed.
Print Assumptions C74_quiet.

(** User 2 places an order in [trade1] and signs nothing afterwards, while users 1 and 3 trade, cancel and
    make markets over three batches: the hypotheses hold and user 2 has gained coins. *)
Definition quiet_action (u : Z) (a : action) : bool := match a with AMsg m => match signer m with Some v => negb (v =? u) | None => true end | _ => true end.
Lemma quiet_trans Q u a b c : quiet_runs Q u a b -> quiet_runs Q u b c -> quiet_runs Q u a c.
Proof. intros A B. revert A. induction B; intros A; [exact A|econstructor 2; eauto|econstructor 3; eauto|econstructor 4; eauto]. Qed.
Lemma play1_quiet Q u c a c' : play1 c a = Some c' -> quiet_action u a = true -> quiet_runs Q u c c'.
Proof.
  destruct c as [ph s]. destruct a as [t|m|]; cbn.
  - destruct ph; [|discriminate]. destruct (Z.leb_spec (st_time s) t); [|discriminate]. intros E _. injection E as <-. constructor; [constructor|assumption].
  - intros E K. assert (X : (forall p, m <> MUpdateParams p) /\ ph = InBlock /\ exists s', deliver s m = Some s' /\ c' = (InBlock, s')).
    { destruct m; try discriminate E; (destruct ph; [discriminate E|]; match type of E with context [deliver s ?m] => destruct (deliver s m) as [s'|] eqn:D end; [|discriminate E];
      injection E as <-; split; [discriminate|]; split; [reflexivity|]; exists s'; split; reflexivity). }
    destruct X as (N & -> & s' & D & ->). apply (Quiet_msg Q u (InBlock, s) s m s'); [constructor|exact D|intros p ->; exfalso; exact (N p eq_refl)|].
    intros Es. rewrite Es in K. rewrite Z.eqb_refl in K. discriminate K.
  - destruct ph; [discriminate|]. destruct (end_block idl s) as [s'|] eqn:D; [|discriminate]. intros E _. injection E as <-. econstructor 4; [constructor|exact idl_perm|exact D].
Qed.
Lemma play_quiet Q u l : forall c, forallb (quiet_action u) l = true -> quiet_runs Q u c (fst (play c l)).
Proof.
  induction l as [|a l IH]; intros c K; cbn; [constructor|]. cbn in K. apply andb_true_iff in K. destruct K as [K1 K2]. destruct (play1 c a) as [c'|] eqn:E; [|constructor].
  exact (quiet_trans _ _ _ _ _ (play1_quiet Q u _ _ _ E K1) (IH c' K2)).
Qed.
Definition others : list action := [AEnd; ABegin 15;
   AMsg (MMMOrder 1 1 Buy (Coin 2) 500000 (Coin 1) (P18 * 49 / 100) 100000 3600); AMsg (MMMOrder 1 1 Sell (Coin 1) 500000 (Coin 2) (P18 * 51 / 100) 100000 60);
   AMsg (MMarketOrder 3 1 Sell (Coin 1) 70000 (Coin 2) 70000 60); AEnd; ABegin 20; AMsg (MCancelAllOrders 1 []); AMsg (MSend 3 (User 2) [(Coin 9, 7)]); AEnd].
Example C74_example : quiet_runs (sane any_params) 2 (after 1 trade1) (fst (play (after 1 trade1) others)) /\
  (let s := snd (after 1 trade1) in let c' := play (after 1 trade1) others in
   snd c' && (bal (st_bank (snd (fst c'))) (User 2) (Coin 1) - bal (st_bank s) (User 2) (Coin 1) =? 140000) &&
   (bal (st_bank (snd (fst c'))) (User 2) (Coin 9) - bal (st_bank s) (User 2) (Coin 9) =? 7) &&
   is_some (deliver s (MCancelAllOrders 3 [])) && negb (is_some (deliver (snd (after 1 trade3)) (MCancelOrder 2 1 3)))) = true.
Proof. split; [apply play_quiet; reflexivity|vm_compute; reflexivity]. Qed.
