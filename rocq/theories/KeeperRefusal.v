(** Why a request is refused (C83): proofs. *)
From Verif Require Import Base Dec OrderModel MatchModel MatchSpec MatchProofs PoolModel KeeperModel KeeperLib KeeperMicro KeeperBank KeeperSteps KeeperReqs KeeperTrade KeeperSpec KeeperInv KeeperHist KeeperSettle KeeperBlock PoolLedgerSpec ClosedSpec KeeperClosed.

(** The reasons. *)
Definition closed_or_empty (s : state) (p : kpool) (pr : pair) : Prop := pl_disabled p = true \/ run_empty s p pr.

Lemma finish_wd_status s r st s' : wr_status r = RNotExecuted -> finish_wd s r st = Some s' ->
  exists r', mget (st_wds s') (wr_pool r, wr_id r) = Some r' /\ wr_status r' = st.
Proof.
  intros E. unfold finish_wd. rewrite E. destruct (match st with RFailed => _ | _ => _ end) as [s1|]; [|discriminate]. intros H. injection H as <-.
  unfold put_wd. cbn [st_wds set_wds wr_pool wr_id]. eexists. rewrite mget_mset_eq. split; reflexivity.
Qed.
Lemma finish_dep_status s r st s' : dr_status r = RNotExecuted -> finish_dep s r st = Some s' ->
  exists r', mget (st_deps s') (dr_pool r, dr_id r) = Some r' /\ dr_status r' = st.
Proof.
  intros E. unfold finish_dep. rewrite E. destruct (coins_sub _ _) as [rf|]; [|discriminate]. destruct (match rf with [] => _ | _ => _ end) as [s1|]; [|discriminate]. intros H. injection H as <-.
  unfold put_dep. cbn [st_deps set_deps dr_pool dr_id]. eexists. rewrite mget_mset_eq. split; reflexivity.
Qed.

Lemma execute_wd_why s r s' p pr r' : get_pool s (wr_pool r) = Some p -> pl_id p = wr_pool r -> get_pair s (pl_pair p) = Some pr -> wr_status r = RNotExecuted -> execute_wd s r = Some s' -> mget (st_wds s') (wr_pool r, wr_id r) = Some r' ->
  wr_status r' = RFailed <-> (closed_or_empty s p pr \/
    withdraw (reserve s (wr_pool r) (pr_quote pr)) (reserve s (wr_pool r) (pr_base pr)) (supply (st_bank s) (PoolCoin (wr_pool r))) (wr_amt r) (pm_withdraw_fee (st_params s)) = Ok (0, 0)).
Proof.
  intros G Ei Gp Es E Gr. unfold execute_wd in E. rewrite G in E. unfold closed_or_empty.
  assert (Fin : forall s1 st, finish_wd s1 r st = Some s' -> wr_status r' = st). { intros s1 st H. destruct (finish_wd_status _ _ _ _ Es H) as (r2 & X & Y). congruence. }
  destruct (pl_disabled p) eqn:D. { split; intros _; [left; left; reflexivity|exact (Fin _ _ E)]. }
  rewrite Gp in E. destruct (amm_pool p _ _ _) as [ap| |] eqn:A; cbn [of_res] in E; [|discriminate E|discriminate E].
  assert (RE : is_depleted ap = true <-> run_empty s p pr). { unfold run_empty, reserve. exact (depleted_iff _ _ _ _ _ A). }
  destruct (is_depleted ap) eqn:Dp. { split; intros _; [left; right; apply RE; reflexivity|exact (Fin _ _ E)]. }
  assert (NE : ~ run_empty s p pr) by (intros X; apply RE in X; discriminate X).
  unfold pool_rx, pool_ry, pool_ps in E. unfold reserve. rewrite Ei in E.
  destruct (withdraw _ _ _ _ _) as [[x y]| |]; cbn [of_res] in E; [|discriminate E|discriminate E].
  destruct ((x =? 0) && (y =? 0)) eqn:Z0.
  { apply andb_true_iff in Z0. destruct Z0 as [X Y]. apply Z.eqb_eq in X, Y. subst x y. split; intros _; [right; reflexivity|exact (Fin _ _ E)]. }
  assert (N0 : (x, y) <> (0, 0)) by (intros X; injection X as -> ->; discriminate Z0).
  destruct (new_coins [(pr_quote pr, x); (pr_base pr, y)]) as [w|]; [|discriminate E]. destruct (new_coins [(wr_denom r, wr_amt r)]) as [bu|]; [|discriminate E].
  destruct (bulk_run _ _) as [b1|]; [|discriminate E]. destruct (burn b1 bu) as [b2|]; [|discriminate E].
  match type of E with finish_wd ?a ?q ?st = _ => destruct (finish_wd_status a q st s' Es E) as (r2 & X & Y) end. cbn [wr_pool wr_id] in X. rewrite Gr in X. injection X as <-.
  rewrite Y. split; [discriminate|]. intros [[X|X]|X]; [discriminate X|contradiction|congruence].
Qed.

Lemma execute_dep_why s r s' p pr r' : get_pool s (dr_pool r) = Some p -> pl_id p = dr_pool r -> get_pair s (pl_pair p) = Some pr -> dr_status r = RNotExecuted -> execute_dep s r = Some s' -> mget (st_deps s') (dr_pool r, dr_id r) = Some r' ->
  dr_status r' = RFailed <-> (closed_or_empty s p pr \/
    exists ax ay, deposit (reserve s (dr_pool r) (pr_quote pr)) (reserve s (dr_pool r) (pr_base pr)) (supply (st_bank s) (PoolCoin (dr_pool r))) (amount_of (dr_coins r) (pr_quote pr)) (amount_of (dr_coins r) (pr_base pr)) = Ok (ax, ay, 0)).
Proof.
  intros G Ei Gp Es E Gr. unfold execute_dep in E. rewrite G in E. unfold closed_or_empty.
  assert (Fin : forall s1 st, finish_dep s1 r st = Some s' -> dr_status r' = st). { intros s1 st H. destruct (finish_dep_status _ _ _ _ Es H) as (r2 & X & Y). congruence. }
  destruct (pl_disabled p) eqn:D. { split; intros _; [left; left; reflexivity|exact (Fin _ _ E)]. }
  rewrite Gp in E. destruct (amm_pool p _ _ _) as [ap| |] eqn:A; cbn [of_res] in E; [|discriminate E|discriminate E].
  assert (RE : is_depleted ap = true <-> run_empty s p pr). { unfold run_empty, reserve. exact (depleted_iff _ _ _ _ _ A). }
  destruct (is_depleted ap) eqn:Dp. { split; intros _; [left; right; apply RE; reflexivity|exact (Fin _ _ E)]. }
  assert (NE : ~ run_empty s p pr) by (intros X; apply RE in X; discriminate X).
  unfold pool_rx, pool_ry, pool_ps in E. unfold reserve. rewrite Ei in E.
  destruct (deposit _ _ _ _ _) as [[[ax ay] pc]| |]; cbn [of_res] in E; [|discriminate E|discriminate E].
  destruct (pc =? 0) eqn:Np; [apply Z.eqb_eq in Np; rewrite Np; split; intros _; [right; eauto|exact (Fin _ _ E)]|]. apply Z.eqb_neq in Np.
  destruct (new_coins [(PoolCoin (dr_pool r), pc)]) as [m|]; [|discriminate E]. destruct (new_coins [(pr_quote pr, ax); (pr_base pr, ay)]) as [w|]; [|discriminate E].
  destruct (bulk_run _ _) as [b1|]; [|discriminate E].
  match type of E with finish_dep ?a ?q ?st = _ => destruct (finish_dep_status a q st s' Es E) as (r2 & X & Y) end. cbn [dr_pool dr_id] in X. rewrite Gr in X. injection X as <-.
  rewrite Y. split; [discriminate|]. intros [[X|X]|(bx & by_ & X)]; [discriminate X|contradiction|congruence].
Qed.
