(** C84: the events report what happened. *)
From Verif Require Import Base Dec OrderModel MatchModel MatchProofs PoolModel KeeperModel KeeperSpec KeeperLib KeeperMicro KeeperBank KeeperHist KeeperBlock IsoSpec PoolLedgerSpec
  EventModel EventSpec EventProofs EventOrders EventReqs EventHist EventPools EventTrades KeeperExample Props_Frozen Props_PoolLedger.

(** The histories with a log are the histories without. *)
Theorem C84_same_histories : forall (Q : params -> Prop) c c', runs Q c c' <-> exists log, runs_log Q c log c'.
Proof. intros Q c c'. split; [apply runs_runs_log|]. intros [log H]. exact (runs_log_runs _ _ _ _ H). Qed.
Print Assumptions C84_same_histories.

(** From genesis on, the log tells the truth about every order and every request in store. *)
Theorem C84_orders : forall Q s0 log c i j o, genesis (sane Q) s0 -> runs_log (sane Q) (Between, s0) log c -> get_order (snd c) i j = Some o -> order_told i j o log.
Proof. intros Q s0 log c i j o G H Go. exact (proj1 (history_recorded Q s0 log c G H) i j o Go). Qed.
Print Assumptions C84_orders.
Theorem C84_deposits : forall Q s0 log c n j r, genesis (sane Q) s0 -> runs_log (sane Q) (Between, s0) log c -> mget (st_deps (snd c)) (n, j) = Some r -> deposit_told n j r log.
Proof. intros Q s0 log c n j r G H Go. exact (proj1 (proj2 (history_recorded Q s0 log c G H)) n j r Go). Qed.
Print Assumptions C84_deposits.
Theorem C84_withdrawals : forall Q s0 log c n j r, genesis (sane Q) s0 -> runs_log (sane Q) (Between, s0) log c -> mget (st_wds (snd c)) (n, j) = Some r -> withdrawal_told n j r log.
Proof. intros Q s0 log c n j r G H Go. exact (proj2 (proj2 (history_recorded Q s0 log c G H)) n j r Go). Qed.
Print Assumptions C84_withdrawals.

(** Once an order or request has ended, nothing more is ever said about it, also after it has been deleted. *)
Theorem C84_order_silence : forall Q c log c' i j, reach (sane Q) c -> runs_log (sane Q) c log c' ->
  (exists o, get_order (snd c) i j = Some o /\ o_terminal (ko_status o) = true) \/ (get_order (snd c) i j = None /\ exists pr, get_pair (snd c) i = Some pr /\ j <= pr_last_order pr) ->
  filter (on_order i j) log = [].
Proof.
  intros Q c log c' i j R H E. refine (silence Q (order_over i j) _ (order_over_later i j) (order_over_quiet i j) c log c' R H _). destruct E as [(o & G & T)|(G & X)].
  - split; [|intros o' G'; rewrite G in G'; injection G' as <-; unfold live; rewrite T; reflexivity].
    destruct (i_orders _ (KeeperBlock.reach_str Q c R) (i, j) o G) as (E & pr & P & K). injection E as Ei Ej. exists pr. rewrite Ei, Ej. split; [exact P|exact (proj2 (proj1 K))].
  - split; [exact X|]. intros o' G'. rewrite G in G'. discriminate G'.
Qed.
Print Assumptions C84_order_silence.
Theorem C84_deposit_silence : forall Q c log c' n j, reach (sane Q) c -> runs_log (sane Q) c log c' ->
  (exists r, mget (st_deps (snd c)) (n, j) = Some r /\ dr_status r <> RNotExecuted) \/ (mget (st_deps (snd c)) (n, j) = None /\ exists p, get_pool (snd c) n = Some p /\ j <= pl_last_dep p) ->
  filter (on_deposit n j) log = [].
Proof.
  intros Q c log c' n j R H E. refine (silence Q (dep_over n j) _ (dep_over_later n j) (dep_over_quiet n j) c log c' R H _). destruct E as [(r & G & T)|(G & X)].
  - split; [|intros r' G'; rewrite G in G'; injection G' as <-; exact T].
    destruct (i_deps _ (KeeperBlock.reach_str Q c R) (n, j) r G) as (E & (p & P & K & _) & _). injection E as Ei Ej. exists p. rewrite Ei, Ej. split; [exact P|exact (proj2 K)].
  - split; [exact X|]. intros r' G'. rewrite G in G'. discriminate G'.
Qed.
Print Assumptions C84_deposit_silence.
Theorem C84_withdrawal_silence : forall Q c log c' n j, reach (sane Q) c -> runs_log (sane Q) c log c' ->
  (exists r, mget (st_wds (snd c)) (n, j) = Some r /\ wr_status r <> RNotExecuted) \/ (mget (st_wds (snd c)) (n, j) = None /\ exists p, get_pool (snd c) n = Some p /\ j <= pl_last_wd p) ->
  filter (on_withdrawal n j) log = [].
Proof.
  intros Q c log c' n j R H E. refine (silence Q (wd_over n j) _ (wd_over_later n j) (wd_over_quiet n j) c log c' R H _). destruct E as [(r & G & T)|(G & X)].
  - split; [|intros r' G'; rewrite G in G'; injection G' as <-; exact T].
    destruct (i_wds _ (KeeperBlock.reach_str Q c R) (n, j) r G) as (E & (p & P & K) & _). injection E as Ei Ej. exists p. rewrite Ei, Ej. split; [exact P|exact (proj2 K)].
  - split; [exact X|]. intros r' G'. rewrite G in G'. discriminate G'.
Qed.
Print Assumptions C84_withdrawal_silence.

(** In every batch the log accounts for the reserves of all pools: what a pool gave and got in the matching of the
    batch is the sum of what the events say it paid and received. *)
Theorem C84_pools : forall (Q : params -> Prop) iter s s' ev, is_perm_iter iter -> (forall p, Q p -> plain_collectors p) -> reach (sane Q) (InBlock, s) ->
  st_height s mod pm_batch_size (st_params s) = 0 -> end_block_e iter s = Some (s', ev) ->
  exists sm, all_matched iter s sm /\ forall n d, reserve sm n d - reserve s n d = total (pool_received n d) ev - total (pool_paid n d) ev.
Proof.
  intros Q iter s s' ev Hi HQ R B H. unfold end_block_e in H. rewrite B in H. cbn in H.
  destruct (batch_pools (sane Q) iter s s' ev Hi (reach_okp Q _ R)) as (sm & M & T); [intros p [_ X]; exact X|intros p [X _]; exact (HQ p X)|exact H|].
  exists sm. split; [exact M|]. intros n d. rewrite (T n d). lia.
Qed.
Print Assumptions C84_pools.

(** Every match event of a batch shows a trade in the coins of its pair in which the matched amount of base coin changed
    hands, and no pool appears twice. *)
Theorem C84_trades : forall (Q : params -> Prop) iter s s' ev, is_perm_iter iter -> reach (sane Q) (InBlock, s) -> end_block_e iter s = Some (s', ev) -> Forall (trade_shown s) ev /\ NoDup (pools_named ev).
Proof. intros Q iter s s' ev Hi R H. refine (batch_trades (sane Q) iter s s' ev Hi (reach_okp Q _ R) _ H). intros p [_ X]. exact X. Qed.
Print Assumptions C84_trades.

(** ** Examples *)
Definition play1_e (c : config) (a : action) : option (config * list event) :=
  match a, c with
  | ABegin t, (Between, s) => if st_time s <=? t then Some ((InBlock, begin_block s t), []) else None
  | AMsg (MUpdateParams _), _ => None
  | AMsg m, (InBlock, s) => match deliver_e s m with Some (s', ev) => Some ((InBlock, s'), ev) | None => None end
  | AEnd, (InBlock, s) => match end_block_e idl s with Some (s', ev) => Some ((Between, s'), ev) | None => None end
  | _, _ => None
  end.
Fixpoint play_e (c : config) (log : list event) (l : list action) : config * list event :=
  match l with
  | [] => (c, log)
  | a :: t => match play1_e c a with Some (c', ev) => play_e c' (log ++ ev) t | None => (c, log) end
  end.
Lemma play1_e_step Q c a c' ev : play1_e c a = Some (c', ev) -> step_log Q c ev c'.
Proof.
  destruct c as [ph s]. destruct a as [t|m|]; cbn.
  - destruct ph; [|discriminate]. destruct (Z.leb_spec (st_time s) t); [|discriminate]. intros E. injection E as <- <-. constructor. assumption.
  - assert (X : forall m', m = m' -> (forall p, m' <> MUpdateParams p) -> match ph with InBlock => match deliver_e s m with Some (s', e) => Some ((InBlock, s'), e) | None => None end | Between => None end = Some (c', ev) -> step_log Q (ph, s) ev c').
    { intros m' -> N E. destruct ph; [discriminate E|]. destruct (deliver_e s m') as [[s' e]|] eqn:D; [|discriminate E]. injection E as <- <-. apply (Log_msg Q s m'); [exact D|]. intros p F. destruct (N p F). }
    destruct m; try (intros E; apply (X _ eq_refl); [discriminate|destruct ph; exact E]). destruct ph; discriminate.
  - destruct ph; [discriminate|]. destruct (end_block_e idl s) as [[s' e]|] eqn:D; [|discriminate]. intros E. injection E as <- <-. apply (Log_end Q idl); [exact idl_perm|exact D].
Qed.
Lemma play_e_runs Q c0 l : forall c log, runs_log Q c0 log c -> runs_log Q c0 (snd (play_e c log l)) (fst (play_e c log l)).
Proof.
  induction l as [|a l IH]; intros c log H; cbn [play_e]; [exact H|]. destruct (play1_e c a) as [[c' ev]|] eqn:E; [|exact H]. apply IH. exact (Log_more _ _ _ _ _ _ H (play1_e_step Q _ _ _ _ E)).
Qed.
Definition logged (l : list action) : config * list event := play_e (Between, ex_start 1) [] l.
(** Two matches, two completions, a cancellation and an expiry; a request of each kind; a pool that sells. *)
Example C84_example : genesis (sane any_params) (ex_start 1) /\ (forall l, runs_log (sane any_params) (Between, ex_start 1) (snd (logged l)) (fst (logged l))) /\ (forall l, reach (sane plain_collectors) (after 1 l)) /\
  (snd (logged trade6) =
   [UserOrderMatched Buy (User 2) 1 2 100000 (Coin 2) 50000 (Coin 1) 100000;
    OrderResult Sell (User 1) 1 1 100000 0 (Coin 1) 100000 0 (Coin 2) 50000 OCompleted;
    UserOrderMatched Sell (User 1) 1 1 100000 (Coin 1) 100000 (Coin 2) 50000;
    OrderResult Buy (User 3) 1 5 70000 0 (Coin 2) 38500 2800 (Coin 1) 70000 OCompleted;
    UserOrderMatched Buy (User 3) 1 5 70000 (Coin 2) 35700 (Coin 1) 70000;
    UserOrderMatched Sell (User 1) 1 4 70000 (Coin 1) 70000 (Coin 2) 35700;
    OrderResult Buy (User 1) 1 3 100000 100000 (Coin 2) 49000 49000 (Coin 1) 0 OCanceled;
    OrderResult Sell (User 1) 1 4 100000 30000 (Coin 1) 100000 30000 (Coin 2) 35700 OExpired]) /\
  (snd (logged pools3) =
   [DepositResult 1 (User 2) 1 [(Coin 1, 100000000); (Coin 2, 60000000)] [(Coin 2, 50000000); (Coin 1, 100000000)] [(Coin 2, 10000000)] 1000000000000 RSucceeded;
    WithdrawalResult 1 (User 1) 1 (PoolCoin 1) 400000000000 [] [(Coin 2, 20000000); (Coin 1, 40000000)] RSucceeded]) /\
  (filter (fun e => match e with PoolOrderMatched _ _ _ _ _ _ _ _ => true | _ => false end) (snd (logged (pool_trade1 ++ [AEnd]))) =
   [PoolOrderMatched Sell 1 1 1000000 (Coin 1) 1000000 (Coin 2) 505060]).
Proof. split; [exact (ex_genesis 1 eq_refl)|]. split; [intros l; apply play_e_runs; constructor|]. split; [exact plain_start|]. split; [vm_compute; reflexivity|]. split; vm_compute; reflexivity. Qed.
