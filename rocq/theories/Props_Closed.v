(** ** C82: a pool is closed when, and only when, it has run empty *)
From Verif Require Import Base Dec OrderModel MatchModel MatchSpec MatchProofs PoolModel KeeperModel KeeperLib KeeperSpec KeeperMicro KeeperInv KeeperBank KeeperSteps KeeperTrade KeeperHist KeeperBlock GenesisProofs KeeperExample IsoSpec KeeperIso KeeperFrozen PoolLedgerSpec ClosedSpec KeeperClosed KeeperSettle KeeperRefusal Props_Frozen.

(** A pool that a batch disables has run empty when the batch is over. *)
Theorem C82_only_empty : forall (Q : params -> Prop) n s s' iter p p', (forall x, Q x -> plain_collectors x) -> reach (sane Q) (InBlock, s) -> is_perm_iter iter -> end_block iter s = Some s' ->
  get_pool s n = Some p -> pl_disabled p = false -> get_pool s' n = Some p' -> pl_disabled p' = true ->
  exists pr', get_pair s' (pl_pair p') = Some pr' /\ run_empty s' p' pr'.
Proof.
  intros Q n s s' iter p p' HC R Hi E G D G' D'. pose proof (proj1 (okp_st (sane Q) SMsg s) (reach_okp Q _ R)) as I.
  assert (HA : forall x, sane Q x -> sane_ratio x /\ plain_collectors x) by (intros x [X Y]; split; [exact Y|exact (HC x X)]).
  assert (L : closed_ok n s) by (apply closed_live; intros (q & X & Y); congruence).
  exact (batch_closed n (sane Q) iter s s' Hi HA I L E p' G' D').
Qed.
Print Assumptions C82_only_empty.

(** An active pool that has run empty is disabled by the next batch, whatever else happens in it. *)
Theorem C82_empty_closes : forall (Q : params -> Prop) n s s' iter p pr, (forall x, Q x -> plain_collectors x) -> reach (sane Q) (InBlock, s) -> is_perm_iter iter -> end_block iter s = Some s' ->
  st_height s mod pm_batch_size (st_params s) = 0 -> get_pool s n = Some p -> get_pair s (pl_pair p) = Some pr -> run_empty s p pr ->
  exists p', get_pool s' n = Some p' /\ pl_disabled p' = true.
Proof.
  intros Q n s s' iter p pr HC R Hi E B G Gp M. pose proof (proj1 (okp_st (sane Q) SMsg s) (reach_okp Q _ R)) as I.
  assert (HA : forall x, sane Q x -> sane_ratio x /\ plain_collectors x) by (intros x [X Y]; split; [exact Y|exact (HC x X)]).
  exact (batch_closes n (sane Q) iter s s' p pr Hi HA I B E G Gp M).
Qed.
Print Assumptions C82_empty_closes.

(** The creator withdraws everything: the pool coin supply is zero and the pool is disabled.  And: all but a
    few of the pool coins are withdrawn, leaving 2 quote coins; trades at less than half of the pool's price
    take these (payments are rounded up), and the next batch disables the pool. *)
Definition low : dec := P18 * 45 / 1000000.
Definition drained : list action :=
  [ABegin 5; AMsg (MCreatePair 1 (Coin 1) (Coin 2)); AMsg (MCreatePool 1 1 [(Coin 1, 10000000000); (Coin 2, 1000000)]); AEnd; ABegin 10; AMsg (MWithdraw 1 1 (PoolCoin 1) 999998000000); AEnd;
   ABegin 15; AMsg (MLimitOrder 3 1 Buy (Coin 2) 200 (Coin 1) low 2400000 3600); AMsg (MLimitOrder 2 1 Sell (Coin 1) 6000000 (Coin 2) low 6000000 3600); AEnd].
Definition holds (s : state) (disabled : bool) (base quote coins : Z) : bool :=
  match get_pool s 1 with
  | Some p => eqb (pl_disabled p) disabled && (pl_pair p =? 1) && (reserve s 1 (Coin 1) =? base) && (reserve s 1 (Coin 2) =? quote) && (supply (st_bank s) (PoolCoin 1) =? coins)
  | None => false
  end.
Definition dr : config := after 1 (drained ++ [ABegin 20]).
Example C82_example : (forall l, reach (sane plain_collectors) (after 1 l)) /\ runs (sane plain_collectors) dr (fst (play dr [AEnd])) /\
  holds (snd (after 1 pools1)) false 100000000 50000000 1000000000000 && holds (snd (after 1 closing)) true 0 0 0 &&
  holds (snd dr) false 44444 0 2000000 && holds (snd (fst (play dr [AEnd]))) true 44444 0 2000000 = true.
Proof. split; [apply plain_start|]. split; [apply play_runs|vm_compute; reflexivity]. Qed.

(** ** C83: a deposit or withdrawal is refused for a reason *)

(** A withdrawal is refused exactly if, when its turn comes, the pool is disabled or has run empty, or the
    share comes out as nothing of both coins; otherwise it is paid (C56). *)
Theorem C83_withdrawal_partial : forall Q iter s s' k r, reach (sane Q) (InBlock, s) -> is_perm_iter iter -> st_height s mod pm_batch_size (st_params s) = 0 -> end_block iter s = Some s' ->
  mget (st_wds s) k = Some r ->
  exists sa p pr r', at_withdraw iter s k r sa /\ get_pool sa (wr_pool r) = Some p /\ get_pair sa (pl_pair p) = Some pr /\ mget (st_wds s') k = Some r' /\
    (wr_status r' = RFailed \/ wr_status r' = RSucceeded) /\
    (wr_status r' = RFailed <-> (pl_disabled p = true \/ run_empty sa p pr) \/
      withdraw (reserve sa (wr_pool r) (pr_quote pr)) (reserve sa (wr_pool r) (pr_base pr)) (supply (st_bank sa) (PoolCoin (wr_pool r))) (wr_amt r) (pm_withdraw_fee (st_params sa)) = Ok (0, 0)).
Proof.
  intros Q iter s s' k r R Hi B H G. pose proof (reach_okp Q _ R) as I. cbn [snd] in I.
  destruct (batch_wd Q iter Hi s s' R B H k r G) as (sa & sb & p & pr & r' & E1 & E2 & E3 & E4 & E5 & E6 & E7).
  destruct (at_withdraw_ok (sane Q) iter Hi (batch_sane Q) s k r sa I E1) as (Ia & _ & _ & ->). destruct (reach_in_block Q s R) as (_ & P & _).
  exists sa, p, pr, r'. split; [exact E1|]. split; [exact E3|]. split; [exact E4|]. split; [exact E6|]. split; [destruct E7 as [(-> & _)|((x & y & w & _ & _ & _ & -> & _) & _)]; [left|right]; reflexivity|].
  refine (execute_wd_why sa r sb p pr r' E3 _ E4 (P _ r G) E2 E5). destruct (i_pools _ (v_str _ _ Ia) _ _ E3) as (X & _). injection X as ->. reflexivity.
Qed.
Print Assumptions C83_withdrawal_partial.

(** A deposit is refused exactly if the pool is disabled or has run empty, or if it would be given no pool coins. *)
Theorem C83_deposit_partial : forall Q iter s s' k r, reach (sane Q) (InBlock, s) -> is_perm_iter iter -> st_height s mod pm_batch_size (st_params s) = 0 -> end_block iter s = Some s' ->
  mget (st_deps s) k = Some r ->
  exists sa p pr r', at_deposit iter s k r sa /\ get_pool sa (dr_pool r) = Some p /\ get_pair sa (pl_pair p) = Some pr /\ mget (st_deps s') k = Some r' /\
    (dr_status r' = RFailed \/ dr_status r' = RSucceeded) /\
    (dr_status r' = RFailed <-> (pl_disabled p = true \/ run_empty sa p pr) \/
      exists ax ay, deposit (reserve sa (dr_pool r) (pr_quote pr)) (reserve sa (dr_pool r) (pr_base pr)) (supply (st_bank sa) (PoolCoin (dr_pool r))) (amount_of (dr_coins r) (pr_quote pr)) (amount_of (dr_coins r) (pr_base pr)) = Ok (ax, ay, 0)).
Proof.
  intros Q iter s s' k r R Hi B H G. pose proof (reach_okp Q _ R) as I. cbn [snd] in I.
  destruct (batch_dep Q iter Hi s s' R B H k r G) as (sa & sb & p & pr & r' & E1 & E2 & E3 & E4 & E5 & E6 & E7).
  destruct (at_deposit_ok (sane Q) iter Hi (batch_sane Q) s k r sa I E1) as (Ia & _ & _ & ->). destruct (reach_in_block Q s R) as (P & _).
  exists sa, p, pr, r'. split; [exact E1|]. split; [exact E3|]. split; [exact E4|]. split; [exact E6|]. split; [destruct E7 as [(-> & _)|(x & y & pc & w & _ & _ & _ & -> & _)]; [left|right]; reflexivity|].
  refine (execute_dep_why sa r sb p pr r' E3 _ E4 (P _ r G) E2 E5). destruct (i_pools _ (v_str _ _ Ia) _ _ E3) as (X & _). injection X as ->. reflexivity.
Qed.
Print Assumptions C83_deposit_partial.

(** The full claim, that pool coins of a pool with reserves can be cashed in, fails.  In the history above the
    pool still has 44444 base coins when it has run out of quote coins.  The only holder asks for everything:
    the batch disables the pool first and refuses the withdrawal, and from then on the 44444 base coins and the
    2000000 pool coins stay where they are, in every history. *)
Definition too_late : list action := drained ++ [ABegin 20; AMsg (MWithdraw 1 1 (PoolCoin 1) 2000000); AEnd].
Definition stuck_check (s : state) : bool :=
  holds s true 44444 0 2000000 && (bal (st_bank s) (User 1) (PoolCoin 1) =? 2000000) && match mget (st_wds s) (1, 2) with Some r => match wr_status r with RFailed => wr_amt r =? 2000000 | _ => false end | None => false end.
Lemma stuck c : reach (sane plain_collectors) c -> stuck_check (snd c) = true ->
  (exists r, mget (st_wds (snd c)) (1, 2) = Some r /\ wr_status r = RFailed) /\ bal (st_bank (snd c)) (User 1) (PoolCoin 1) = 2000000 /\ reserve (snd c) 1 (Coin 1) = 44444 /\
  forall c', runs (sane plain_collectors) c c' ->
    supply (st_bank (snd c')) (PoolCoin 1) = 2000000 /\ 44444 <= reserve (snd c') 1 (Coin 1) /\ forall u d x, deliver (snd c') (MWithdraw u 1 d x) = None.
Proof.
  intros R K. unfold stuck_check, holds in K. apply andb_true_iff in K. destruct K as [K K3]. apply andb_true_iff in K. destruct K as [K K2]. apply Z.eqb_eq in K2.
  destruct (get_pool (snd c) 1) as [p|] eqn:G; [|discriminate K]. apply andb_true_iff in K. destruct K as [K Ks]. apply andb_true_iff in K. destruct K as [K Kq]. apply andb_true_iff in K. destruct K as [K Kb]. apply andb_true_iff in K. destruct K as [Kd _].
  apply Z.eqb_eq in Ks, Kb. apply eqb_prop in Kd.
  split; [destruct (mget (st_wds (snd c)) (1, 2)) as [r|]; [|discriminate K3]; exists r; split; [reflexivity|]; destruct (wr_status r); try discriminate K3; reflexivity|]. split; [exact K2|]. split; [exact Kb|].
  intros c' H. destruct (C78_forever plain_collectors 1 c c' p (fun x X => X) R H G Kd) as (A & B & C). split; [rewrite B; exact Ks|]. split; [rewrite <- Kb; apply C|].
  intros u d x. exact (proj2 (C78_rejected (snd c') 1 p A Kd) u d x).
Qed.
Theorem C83_stranded_refuted : exists c, reach (sane plain_collectors) c /\
  (exists r, mget (st_wds (snd c)) (1, 2) = Some r /\ wr_status r = RFailed) /\ bal (st_bank (snd c)) (User 1) (PoolCoin 1) = 2000000 /\ reserve (snd c) 1 (Coin 1) = 44444 /\
  forall c', runs (sane plain_collectors) c c' ->
    supply (st_bank (snd c')) (PoolCoin 1) = 2000000 /\ 44444 <= reserve (snd c') 1 (Coin 1) /\ forall u d x, deliver (snd c') (MWithdraw u 1 d x) = None.
Proof. exists (after 1 too_late). split; [apply plain_start|]. apply stuck; [apply plain_start|vm_compute; reflexivity]. Qed.
Print Assumptions C83_stranded_refuted.

(** A deposit and a withdrawal that are paid, and a withdrawal too small to be. *)
Definition small_requests : list action := pools1 ++ [AEnd; ABegin 10; AMsg (MDeposit 2 1 [(Coin 1, 100000000); (Coin 2, 50000000)]); AMsg (MWithdraw 1 1 (PoolCoin 1) 400000000000); AMsg (MWithdraw 1 1 (PoolCoin 1) 1); AEnd].
Definition status_of (s : state) (i : Z) : option rstatus := match mget (st_wds s) (1, i) with Some r => Some (wr_status r) | None => None end.
Example C83_example : reach (sane plain_collectors) (after 1 small_requests) /\ fst (after 1 small_requests) = Between /\
  (status_of (snd (after 1 small_requests)) 1, status_of (snd (after 1 small_requests)) 2) = (Some RSucceeded, Some RFailed).
Proof.
  assert (F : let c := after 1 small_requests in fst c = Between /\ (status_of (snd c) 1, status_of (snd c) 2) = (Some RSucceeded, Some RFailed)) by (vm_compute; split; reflexivity).
  split; [apply plain_start|exact F].
Qed.
