(** Histories: invariants of all reachable states, and what one block step can do. *)
From Verif Require Import Base Dec OrderModel MatchModel PoolModel PoolProofs KeeperModel KeeperLib KeeperSpec KeeperMicro KeeperBank KeeperSteps KeeperReqs KeeperTrade KeeperInv MatchProofs.
From Coq Require Import Permutation.

(** ** Lifting *)
Lemma amics_ind_okp A (P : state -> Prop) : (forall s s', amic A s s' -> okp A s -> P s -> P s') -> forall s s', amics A s s' -> okp A s -> P s -> P s'.
Proof. intros H s s' M. induction M; auto. intros I X. apply IHM; [eapply okp_amic; eassumption|eauto]. Qed.
Lemma reach_state Q (P : state -> Prop) : (forall p b h t, valid_params p = true -> sane Q p -> genesis_bank b -> P (init_state p b h t)) ->
  (forall s s', amic (sane Q) s s' -> okp (sane Q) s -> P s -> P s') -> forall c, reach (sane Q) c -> P (snd c).
Proof.
  intros H0 H1 [ph s] (s0 & (p & b & h & t & V & HQ & G & _ & ->) & R). pose proof (inv_init (mkCtl (sane Q) SMsg) p b h t V HQ G) as I.
  exact (amics_ind_okp (sane Q) P H1 _ _ (runs_mics Q _ _ R I) I (H0 p b h t V HQ G)).
Qed.
Lemma reach_okp Q c : reach (sane Q) c -> okp (sane Q) (snd c).
Proof. destruct c as [ph s]. apply reach_inv. Qed.
Lemma runs_trans Q a b c : runs Q a b -> runs Q b c -> runs Q a c.
Proof. intros H1 H2. revert H1. induction H2; intros H1; [assumption|]. apply (Runs_step Q a c2 c3); auto. Qed.
Lemma reach_runs Q c c' : reach Q c -> runs Q c c' -> reach Q c'.
Proof. intros (s0 & G & R) R'. exists s0. split; [assumption|]. eapply runs_trans; eassumption. Qed.
Lemma reach_step Q c c' : reach Q c -> step Q c c' -> reach Q c'.
Proof. intros H S. eapply reach_runs; [eassumption|]. eapply Runs_step; [constructor|assumption]. Qed.
(** Induction over histories, phases included. *)
Lemma reach_config Q (P : config -> Prop) : (forall s, genesis Q s -> P (Between, s)) -> (forall c c', reach Q c -> step Q c c' -> P c -> P c') -> forall c, reach Q c -> P c.
Proof.
  intros H0 H1 c (s0 & G & R). remember (Between, s0) as c0. revert Heqc0. induction R; intros ->; [auto|]. apply (H1 c2); auto. exists s0. split; assumption.
Qed.

(** ** Supply of ordinary coins *)
Lemma finish_supply s o st s' : finish_order s o st = Some s' -> forall d, supply (st_bank s') d = supply (st_bank s) d.
Proof.
  intros H d. destruct (live o) eqn:L.
  - destruct (finish_order_spec _ _ _ _ H L) as (b & Hb & ->).
    assert (supply b d = supply (st_bank s) d) by (destruct (0 <? ko_remaining o); [destruct (send_spec _ _ _ _ _ Hb) as (_ & (_ & M) & _); apply M|subst b; reflexivity]).
    destruct (ko_type o); assumption.
  - unfold live in L. apply negb_false_iff in L. unfold finish_order in H. rewrite L in H. injection H as <-. reflexivity.
Qed.
Lemma send_supply b x y cs b' d : send b x y cs = Some b' -> supply b' d = supply b d.
Proof. intros H. destruct (send_spec _ _ _ _ _ H) as (_ & (_ & M) & _). apply M. Qed.
Lemma st_send_supply s x y cs s' d : st_send s x y cs = Some s' -> supply (st_bank s') d = supply (st_bank s) d.
Proof. intros H. apply st_send_spec in H. destruct H as (b & -> & H). exact (send_supply _ _ _ _ _ d H). Qed.

Theorem supply_mic Q s s' k : mic Q s s' -> str s -> supply (st_bank s') (Coin k) = supply (st_bank s) (Coin k).
Proof.
  intros M S. destruct M; norm_send; try reflexivity; try (eapply send_supply; eassumption).
  - destruct H1 as [_ M]. cbn. rewrite M. cbn. lia.
  - transitivity (supply b (Coin k)); [destruct typ; reflexivity|eapply send_supply; eassumption].
  - eapply finish_supply; eassumption.
  - cbn. destruct H2 as (_ & _ & _ & _ & M). rewrite M. cbn. lia.
  - cbn. destruct H2 as (_ & _ & _ & M). rewrite M. destruct (i_wds _ S _ _ H) as (_ & _ & E & _). rewrite E. cbn. lia.
  - rewrite delete_bank. reflexivity.
Qed.
Lemma supply_amics A s s' k : amics A s s' -> okp A s -> supply (st_bank s') (Coin k) = supply (st_bank s) (Coin k).
Proof.
  intros M. induction M; intros I; [reflexivity|]. rewrite (IHM (okp_amic _ _ _ H I)). destruct H as (st & H). exact (supply_mic _ _ _ k H (v_str _ _ I)).
Qed.

(** ** Supply of pool coins *)
Definition dep_minted (i : Z) (r : dreq) : Z := if succeeded (dr_status r) && (dr_pool r =? i) then dr_minted r else 0.
Definition wd_burned (i : Z) (r : wreq) : Z := if succeeded (wr_status r) && (wr_pool r =? i) then wr_amt r else 0.
Definition ledger (s : state) (i : Z) : Z := supply (st_bank s) (PoolCoin i) - msum (dep_minted i) (st_deps s) + msum (wd_burned i) (st_wds s).
Lemma ledger_same s s' i : st_deps s' = st_deps s -> st_wds s' = st_wds s -> supply (st_bank s') (PoolCoin i) = supply (st_bank s) (PoolCoin i) -> ledger s' i = ledger s i.
Proof. intros E1 E2 E3. unfold ledger. rewrite E1, E2, E3. reflexivity. Qed.

Theorem ledger_mic (Q : ctl) s s' i : mic Q s s' -> str s -> batching Q -> ledger s' i = ledger s i.
Proof.
  intros M S B. assert (N1 : stage_of Q <> SMsg) by (destruct B; congruence). assert (N2 : stage_of Q <> SBegin) by (destruct B; congruence).
  destruct M; try congruence; norm_send.
  - apply ledger_same; [reflexivity|reflexivity|]. cbn. eapply send_supply; eassumption.
  - apply ledger_same; reflexivity.
  - apply ledger_same; reflexivity.
  - pose proof (finish_supply _ _ _ _ H2 (PoolCoin i)) as X. destruct (finish_order_spec _ _ _ _ H2 H0) as (b & _ & ->). apply ledger_same; [destruct (ko_type o); reflexivity|destruct (ko_type o); reflexivity|exact X].
  - apply ledger_same; reflexivity.
  - unfold ledger. cbn [st_deps st_wds put_dep set_deps set_bank st_bank]. rewrite (msum_mset _ _ _ _ (i_deps_sorted _ S)). cbn [dr_pool dr_id dr_with]. rewrite H.
    replace (dep_minted i r) with 0 by (unfold dep_minted; rewrite H0; reflexivity).
    match goal with |- context [dep_minted i (dr_with ?r ?a ?b ?c)] => change (dep_minted i (dr_with r a b c)) with 0 end. rewrite (send_supply _ _ _ _ _ _ Es). lia.
  - unfold ledger. cbn [st_deps st_wds put_dep set_deps set_bank st_bank]. rewrite (msum_mset _ _ _ _ (i_deps_sorted _ S)). cbn [dr_pool dr_id dr_with]. rewrite H.
    replace (dep_minted i r) with 0 by (unfold dep_minted; rewrite H0; reflexivity).
    match goal with |- context [dep_minted i (dr_with ?r ?a ?b ?c)] => change (dep_minted i (dr_with r a b c)) with (if dr_pool r =? i then b else 0) end.
    destruct H2 as (_ & _ & _ & _ & Ms). rewrite Ms. unfold of_denom, denom_eqb. rewrite (Z.eqb_sym i). destruct (dr_pool r =? i); lia.
  - unfold ledger. cbn [st_deps st_wds put_wd set_wds set_bank st_bank]. rewrite (msum_mset _ _ _ _ (i_wds_sorted _ S)). cbn [wr_pool wr_id wr_with]. rewrite H.
    replace (wd_burned i r) with 0 by (unfold wd_burned; rewrite H0; reflexivity).
    match goal with |- context [wd_burned i (wr_with ?r ?a ?b)] => change (wd_burned i (wr_with r a b)) with 0 end. rewrite (send_supply _ _ _ _ _ _ Es). lia.
  - unfold ledger. cbn [st_deps st_wds put_wd set_wds set_bank st_bank]. rewrite (msum_mset _ _ _ _ (i_wds_sorted _ S)). cbn [wr_pool wr_id wr_with]. rewrite H.
    replace (wd_burned i r) with 0 by (unfold wd_burned; rewrite H0; reflexivity).
    match goal with |- context [wd_burned i (wr_with ?r ?a ?b)] => change (wd_burned i (wr_with r a b)) with (if wr_pool r =? i then wr_amt r else 0) end.
    destruct H2 as (_ & _ & _ & Ms). rewrite Ms. destruct (i_wds _ S _ _ H) as (_ & _ & E & _). rewrite E. unfold of_denom, denom_eqb. rewrite (Z.eqb_sym i). destruct (wr_pool r =? i); lia.
Qed.
Lemma ledger_mics (Q : ctl) s s' i : mics Q s s' -> str s -> batching Q -> ledger s' i = ledger s i.
Proof. intros M. induction M; intros S B; [reflexivity|]. rewrite (IHM (str_mic _ _ _ H S) B). eapply ledger_mic; eassumption. Qed.

(** Pool coins of pools not created yet do not exist. *)
Definition no_coin_yet (s : state) : Prop := forall i, st_last_pool s < i -> supply (st_bank s) (PoolCoin i) = 0.
Lemma no_coin_mic Q s s' : mic Q s s' -> str s -> no_coin_yet s -> no_coin_yet s'.
Proof.
  intros M S X. destruct M; norm_send; try exact X; try (intros i Hi; rewrite <- (X i Hi); eapply send_supply; eassumption).
  - intros i' Hi. change (st_last_pool s < i') in Hi. cbn. destruct H1 as [_ M]. rewrite M, (X i' Hi). unfold of_denom, denom_eqb.
    destruct (Z.eqb_spec i' i) as [->|]; [|reflexivity]. destruct (get_pool s i) as [p|] eqn:E; [|congruence]. destruct (i_pools _ S _ _ E) as (Ek & B & _). injection Ek as ->. lia.
  - intros i' Hi. cbn in *. apply X. lia.
  - intros i' Hi. transitivity (supply b (PoolCoin i')); [destruct typ; reflexivity|]. rewrite (send_supply _ _ _ _ _ _ Es). apply X. destruct typ; exact Hi.
  - intros i Hi. rewrite (finish_supply _ _ _ _ H2). destruct (finish_order_spec _ _ _ _ H2 H0) as (b & _ & ->). apply X. destruct (ko_type o); exact Hi.
  - intros i Hi. cbn in *. destruct H2 as (_ & _ & _ & _ & M). rewrite M, (X i Hi). unfold of_denom, denom_eqb. destruct (Z.eqb_spec i (dr_pool r)) as [->|]; [|reflexivity].
    destruct (i_deps _ S _ _ H) as (_ & (p & G & _) & _). destruct (i_pools _ S _ _ G) as (Ek & B & _). injection Ek as Ek. lia.
  - intros i Hi. cbn in *. destruct H2 as (_ & _ & _ & M). rewrite M, (X i Hi). destruct (i_wds _ S _ _ H) as (_ & (p & G & _) & E & _). rewrite E. unfold of_denom, denom_eqb. destruct (Z.eqb_spec i (wr_pool r)) as [->|]; [|reflexivity].
    destruct (i_pools _ S _ _ G) as (Ek & B & _). injection Ek as Ek. lia.
  - intros i Hi. rewrite delete_bank. destruct (delete_outdated_eq s) as (f & E & _). rewrite E in Hi. apply X. exact Hi.
Qed.
Theorem reach_no_coin Q c : reach (sane Q) c -> no_coin_yet (snd c).
Proof.
  apply reach_state.
  - intros p b h t _ _ (_ & _ & G) i _. apply G.
  - intros s s' (st & M) I X. exact (no_coin_mic _ _ _ M (v_str _ _ I) X).
Qed.

(** ** Global escrow, counters *)
Theorem reach_excess Q c d : reach (sane Q) c -> 0 <= excess (snd c) d.
Proof.
  intros H. revert c H. apply (reach_state Q (fun s => 0 <= excess s d)).
  - intros p b h t _ _ (G & _). unfold excess, requests_owed, dep_sum, wd_sum. cbn. pose proof (G GlobalEscrow d). lia.
  - intros s s' (st & M) I X. pose proof (excess_mic _ _ _ d M (v_str _ _ I)). lia.
Qed.
Lemma excess_amics A s s' d : amics A s s' -> okp A s -> excess s d <= excess s' d.
Proof.
  intros M. induction M; intros I; [lia|]. specialize (IHM (okp_amic _ _ _ H I)). destruct H as (st & H). pose proof (excess_mic _ _ _ d H (v_str _ _ I)). lia.
Qed.
Theorem reach_mm Q c : reach (sane Q) c -> mm_exact (snd c).
Proof.
  apply reach_state; [intros p b h t _ _ _ a i; reflexivity|]. intros s s' (st & M) I X. exact (mm_exact_mic _ _ _ M (v_str _ _ I) X).
Qed.
Theorem reach_mm_bound (Q : params -> Prop) N c : 0 <= N -> (forall p, Q p -> pm_max_mm p <= N) -> reach (sane Q) c -> forall a i, st_mm (snd c) a i <= N.
Proof.
  intros N0 HQ. assert (X : reach (sane Q) c -> mm_exact (snd c) /\ forall a i, st_mm (snd c) a i <= N); [|intros H; apply X; assumption].
  revert c. apply (reach_state Q (fun s => mm_exact s /\ forall a i, st_mm s a i <= N)).
  - intros p b h t _ _ _. split; [intros a i; reflexivity|]. intros; exact N0.
  - intros s s' (st & M) I [E B]. split; [exact (mm_exact_mic _ _ _ M (v_str _ _ I) E)|]. 
    apply (mm_bound_mic (mkCtl (sane Q) st) N s s'); auto; [|apply okp_st; exact I]. intros p [Hp _]. auto.
Qed.

(** ** Inside a block: requests are pending, orders live or cancelled in this block *)
Definition in_block (s : state) : Prop :=
  (forall k r, mget (st_deps s) k = Some r -> dr_status r = RNotExecuted) /\ (forall k r, mget (st_wds s) k = Some r -> wr_status r = RNotExecuted) /\
  (forall k o, mget (st_orders s) k = Some o -> live o = true \/ ko_status o = OCanceled).
Lemma in_block_begin s t : str s -> in_block (begin_block s t).
Proof.
  intros S. unfold begin_block. destruct (delete_outdated_eq (set_clock s (st_height s + 1) t)) as (f & -> & _). unfold in_block. cbn [st_deps st_wds st_orders set_oidx set_orders set_wds set_deps set_clock].
  split; [|split]; intros k r H; (rewrite mget_filter in H by (apply msorted_NoDup; first [apply (i_deps_sorted _ S)|apply (i_wds_sorted _ S)|apply (i_orders_sorted _ S)])).
  - destruct (mget (st_deps s) k) as [r0|]; [|discriminate H]. cbn [snd] in H. destruct (dr_status r0) eqn:E; cbn in H; try discriminate H. injection H as <-. assumption.
  - destruct (mget (st_wds s) k) as [r0|]; [|discriminate H]. cbn [snd] in H. destruct (wr_status r0) eqn:E; cbn in H; try discriminate H. injection H as <-. assumption.
  - destruct (mget (st_orders s) k) as [r0|]; [|discriminate H]. cbn [snd] in H. destruct (negb (o_terminal (ko_status r0))) eqn:E; [|discriminate H]. injection H as <-. left. exact E.
Qed.
Lemma in_block_mic (Q : ctl) s s' : mic Q s s' -> stage_of Q = SMsg -> in_block s -> in_block s'.
Proof.
  intros M B (H1 & H2 & H3). pose proof (orders_mic _ _ _ M) as EO. pose proof (deps_mic _ _ _ M) as ED. pose proof (wds_mic _ _ _ M) as EW. split; [|split]; intros k r H.
  - destruct ED as [E|[(_ & p & r0 & _ & _ & _ & St & E)|[(X & _)|(X & _)]]]; [rewrite E in H; eauto| |congruence|congruence]. rewrite E, mget_mset in H. destruct (key_eqb _ _); [injection H as <-; exact St|eauto].
  - destruct EW as [E|[(_ & p & r0 & _ & _ & _ & St & E)|[(X & _)|(X & _)]]]; [rewrite E in H; eauto| |congruence|congruence]. rewrite E, mget_mset in H. destruct (key_eqb _ _); [injection H as <-; exact St|eauto].
  - destruct EO as [E|[(_ & pr & o & _ & _ & _ & St & _ & _ & _ & E)|[(o & o' & _ & _ & _ & _ & _ & [C _] & E)|(X & _)]]]; [rewrite E in H; eauto| | |congruence]; rewrite E, mget_mset in H; destruct (key_eqb _ _); eauto; injection H as <-.
    + left. unfold live. rewrite St. reflexivity.
    + right. auto.
Qed.
Theorem reach_in_block Q s : reach (sane Q) (InBlock, s) -> in_block s.
Proof.
  intros H. assert (X : forall c, reach (sane Q) c -> fst c = InBlock -> in_block (snd c)); [|exact (X _ H eq_refl)]. clear s H.
  apply (reach_config (sane Q) (fun c => fst c = InBlock -> in_block (snd c))); [discriminate|]. intros c c' R S IH E. pose proof (reach_okp _ _ R) as I. destruct S; cbn [fst snd] in *.
  - apply in_block_begin. exact (v_str _ _ I).
  - specialize (IH eq_refl). assert (M : mics (mkCtl (sane Q) SMsg) s s') by (eapply deliver_mics; eauto). clear -M IH. revert IH. induction M; intros IH; [assumption|]. apply IHM. eapply in_block_mic; eauto.
  - discriminate E.
Qed.
