(** ** C78: a disabled pool is closed for good *)
From Verif Require Import Base Dec OrderModel MatchModel MatchSpec MatchProofs PoolModel KeeperModel KeeperLib KeeperSpec KeeperMicro KeeperInv KeeperBank KeeperSteps KeeperTrade KeeperHist KeeperBlock GenesisProofs KeeperExample IsoSpec KeeperIso KeeperFrozen Props_Keeper.

(** Nobody can deposit into or withdraw from a disabled pool. *)
Theorem C78_rejected : forall s n p, get_pool s n = Some p -> pl_disabled p = true ->
  (forall u cs, deliver s (MDeposit u n cs) = None) /\ (forall u d x, deliver s (MWithdraw u n d x) = None).
Proof.
  intros s n p G D. split; intros; unfold deliver; destruct (validate_basic _); try reflexivity; cbn [handle]; unfold deposit_msg, withdraw_msg; rewrite G, D; reflexivity.
Qed.
Print Assumptions C78_rejected.

(** A batch neither takes anything from a disabled pool nor adds anything, and mints and burns none of its coins. *)
Theorem C78_batch : forall (Q : params -> Prop) n s s' iter p, (forall x, Q x -> plain_collectors x) -> reach (sane Q) (InBlock, s) -> is_perm_iter iter -> end_block iter s = Some s' ->
  get_pool s n = Some p -> pl_disabled p = true ->
  get_pool s' n = Some p /\ supply (st_bank s') (PoolCoin n) = supply (st_bank s) (PoolCoin n) /\ forall d, bal (st_bank s') (PoolReserve n) d = bal (st_bank s) (PoolReserve n) d.
Proof.
  intros Q n s s' iter p HC R Hi E G D. pose proof (proj1 (okp_st (sane Q) SMsg s) (reach_okp Q _ R)) as I.
  assert (HA : forall x, sane Q x -> sane_ratio x /\ plain_collectors x) by (intros x [X Y]; split; [exact Y|exact (HC x X)]).
  destruct (batch_frozen n (sane Q) iter s s' Hi HA I (ex_intro _ p (conj G D)) E) as [A [B C]]. split; [rewrite A; exact G|]. split; [symmetry; apply C; apply Z.eqb_refl|].
  intros d. symmetry. apply B. right. exists n. split; [reflexivity|apply Z.eqb_refl].
Qed.
Print Assumptions C78_batch.

Lemma step_frozen (Q : params -> Prop) n c c' p : (forall x, Q x -> plain_collectors x) -> reach (sane Q) c -> step (sane Q) c c' -> get_pool (snd c) n = Some p -> pl_disabled p = true -> grown n (snd c) (snd c').
Proof.
  intros HC R S G D. pose proof (proj1 (okp_st (sane Q) SMsg (snd c)) (reach_okp Q _ R)) as I. inversion S; subst; cbn [snd] in *.
  - apply frz_grown. unfold begin_block. destruct (delete_outdated_eq (set_clock s (st_height s + 1) t)) as (f & -> & _). split; [reflexivity|apply agree_refl].
  - refine (proj1 (deliver_frozen n (sane Q) m s s' I _ (ex_intro _ p (conj G D)) H)). exact (HC _ (proj1 (proj2 (v_params _ _ I)))).
  - apply frz_grown. refine (batch_frozen n (sane Q) iter s s' H _ I (ex_intro _ p (conj G D)) H0). intros x [X Y]. split; [exact Y|exact (HC x X)].
Qed.
(** From the moment a pool is disabled its record never changes again, the supply of its pool coin stays what
    it is, and its reserves never fall (anybody can still send coins to the address). *)
Theorem C78_forever : forall (Q : params -> Prop) n c c' p, (forall x, Q x -> plain_collectors x) -> reach (sane Q) c -> runs (sane Q) c c' ->
  get_pool (snd c) n = Some p -> pl_disabled p = true ->
  get_pool (snd c') n = Some p /\ supply (st_bank (snd c')) (PoolCoin n) = supply (st_bank (snd c)) (PoolCoin n) /\
  forall d, bal (st_bank (snd c)) (PoolReserve n) d <= bal (st_bank (snd c')) (PoolReserve n) d.
Proof.
  intros Q n c c' p HC R H. induction H as [c|c1 c2 c3 H IH S]; intros G D; [split; [exact G|split; [reflexivity|intros d; lia]]|].
  destruct (IH R G D) as (G2 & U2 & B2). destruct (step_frozen Q n c2 c3 p HC (reach_runs _ _ _ R H) S G2 D) as (G3 & U3 & B3). split; [congruence|]. split; [congruence|]. intros d. specialize (B2 d). specialize (B3 d). lia.
Qed.
Print Assumptions C78_forever.

(** Messages never disable a pool; only a batch does. *)
Theorem C78_only_batches : forall Q s m s' n p', reach (sane Q) (InBlock, s) -> deliver s m = Some s' -> get_pool s' n = Some p' -> pl_disabled p' = true ->
  exists p, get_pool s n = Some p /\ pl_disabled p = true.
Proof. intros Q s m s' n p' R H G D. exact (msg_disables m s s' n p' (v_str _ _ (reach_okp Q _ R)) H G D). Qed.
Print Assumptions C78_only_batches.

(** No request ever waits for a disabled pool, so no coins are stuck with it. *)
Theorem C78_nothing_waits : forall (Q : params -> Prop) c n p, (forall x, Q x -> plain_collectors x) -> reach (sane Q) c -> get_pool (snd c) n = Some p -> pl_disabled p = true ->
  (forall j r, mget (st_deps (snd c)) (n, j) = Some r -> dr_status r <> RNotExecuted) /\ (forall j r, mget (st_wds (snd c)) (n, j) = Some r -> wr_status r <> RNotExecuted).
Proof.
  intros Q c n p HC R. revert c R p.
  apply (reach_config (sane Q) (fun c => forall p, get_pool (snd c) n = Some p -> pl_disabled p = true ->
    (forall j r, mget (st_deps (snd c)) (n, j) = Some r -> dr_status r <> RNotExecuted) /\ (forall j r, mget (st_wds (snd c)) (n, j) = Some r -> wr_status r <> RNotExecuted))).
  - intros s (p0 & b & h & t & _ & _ & _ & _ & ->) p G. discriminate G.
  - intros c c' R S IH p G D. pose proof (proj1 (okp_st (sane Q) SMsg (snd c)) (reach_okp Q _ R)) as I. inversion S; subst; cbn [snd] in *.
    + destruct (begin_block_facts s t (v_str _ _ I)) as (A1 & A2 & _).
      assert (G0 : get_pool s n = Some p). { revert G. unfold begin_block. destruct (delete_outdated_eq (set_clock s (st_height s + 1) t)) as (f & -> & _). exact (fun x => x). }
      destruct (IH p G0 D) as [X Y]. split; intros j r Gj; [apply A1 in Gj; exact (X _ _ (proj1 Gj))|apply A2 in Gj; exact (Y _ _ (proj1 Gj))].
    + destruct (msg_disables m s s' n p (v_str _ _ I) H G D) as (p0 & G0 & D0). destruct (IH p0 G0 D0) as [X Y].
      destruct (deliver_frozen n (sane Q) m s s' I (HC _ (proj1 (proj2 (v_params _ _ I)))) (ex_intro _ p0 (conj G0 D0)) H) as [_ K].
      split; intros j r Gj; destruct (K j) as [K1 K2]; [rewrite K1 in Gj; exact (X _ _ Gj)|rewrite K2 in Gj; exact (Y _ _ Gj)].
    + destruct (Z.eq_dec (st_height s mod pm_batch_size (st_params s)) 0) as [B|B].
      * destruct (C33_batch_executes_all Q iter s s' R H B H0) as (_ & _ & X & Y). split; intros j r Gj Er; [destruct (proj2 (X _ _ Gj)); congruence|destruct (proj2 (Y _ _ Gj)); congruence].
      * unfold end_block in H0. destruct (Z.eqb_spec (st_height s mod pm_batch_size (st_params s)) 0); [contradiction|]. injection H0 as <-. exact (IH p G D).
Qed.
Print Assumptions C78_nothing_waits.

(** The creator of a pool withdraws everything: the batch disables the pool.  Then the pair goes on trading
    around it, coins are sent to it, and it is refused a deposit. *)
Definition closing : list action := pools1 ++ [AEnd; ABegin 10; AMsg (MWithdraw 1 1 (PoolCoin 1) 1000000000000); AEnd].
Definition onward : list action := [ABegin 20; AMsg (MSend 3 (PoolReserve 1) [(Coin 1, 5)]); AMsg (MLimitOrder 2 1 Sell (Coin 1) 100000 (Coin 2) half 100000 3600); AMsg (MLimitOrder 3 1 Buy (Coin 2) 70000 (Coin 1) half 140000 3600); AEnd].
Definition closed_check (s : state) : bool := match get_pool s 1 with Some p => pl_disabled p | None => false end.
Definition frozen_check (c c' : config) : bool :=
  closed_check (snd c) && negb (is_some (deliver (snd c) (MDeposit 2 1 [(Coin 1, 1000000); (Coin 2, 1000000)]))) && negb (is_some (deliver (snd c) (MWithdraw 1 1 (PoolCoin 1) 1))) &&
  (match get_pair (snd c') 1 with Some pr => match pr_last_price pr with Some x => x =? half | None => false end | None => false end) &&
  (bal (st_bank (snd c)) (PoolReserve 1) (Coin 1) + 5 =? bal (st_bank (snd c')) (PoolReserve 1) (Coin 1)).
Lemma plain_start l : reach (sane plain_collectors) (after 1 l).
Proof.
  destruct (ex_genesis 1 eq_refl) as (p & b & h & t & V & [_ Sa] & G & Hh & E). exists (ex_start 1). split; [|apply play_runs]. exists p, b, h, t. split; [exact V|]. split; [|split; [exact G|split; [exact Hh|exact E]]].
  split; [|exact Sa]. assert (X : p = st_params (ex_start 1)) by (rewrite E; reflexivity). rewrite X. repeat split; discriminate.
Qed.
Example C78_example : reach (sane plain_collectors) (after 1 closing) /\ negb (closed_check (snd (after 1 pools1))) && frozen_check (after 1 closing) (after 1 (closing ++ onward)) = true.
Proof. split; [apply plain_start|vm_compute; reflexivity]. Qed.
