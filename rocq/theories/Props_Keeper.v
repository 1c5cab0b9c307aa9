(** Properties C31-C34, C38-C40, C42, C48: histories of the chain.
    [reach (sane Q) c]: configuration [c] (a phase and a state) is reached from some genesis by some
    history whose parameters always satisfy [Q] and have a price limit ratio below one (KeeperSpec).
    [Q] is arbitrary; take [any_params] for no further restriction. *)
From Verif Require Import Base Dec OrderModel MatchModel PoolModel KeeperModel KeeperLib KeeperSpec KeeperMicro KeeperBank KeeperSteps KeeperReqs KeeperTrade KeeperInv KeeperHist KeeperSettle KeeperMsgs KeeperBlock MatchProofs KeeperExample.

(** ** C31: coins are conserved. *)

(** The supply of every coin that is not a pool coin never changes. *)
Theorem C31_supply_constant : forall Q c c' k, reach (sane Q) c -> runs (sane Q) c c' ->
  supply (st_bank (snd c')) (Coin k) = supply (st_bank (snd c)) (Coin k).
Proof. intros Q c c' k R H. exact (supply_amics _ _ _ k (runs_mics Q c c' H (reach_okp Q c R)) (reach_okp Q c R)). Qed.
Print Assumptions C31_supply_constant.

(** At every point balances are non negative and, for every coin, add up to the supply. *)
Theorem C31_balances_sum_to_supply : forall Q c, reach (sane Q) c ->
  conserved (st_bank (snd c)) /\ forall a d, 0 <= bal (st_bank (snd c)) a d.
Proof. intros Q c R. destruct (v_bank _ _ (reach_okp Q c R)) as [N C]. split; assumption. Qed.
Print Assumptions C31_balances_sum_to_supply.

(** Pool coins: a message changes no supply, except that creating a pool mints the coin of the new
    pool, which did not exist, to its creator. *)
Theorem C31_pool_coin_messages : forall Q s m s' i, reach (sane Q) (InBlock, s) -> deliver s m = Some s' ->
  supply (st_bank s') (PoolCoin i) = supply (st_bank s) (PoolCoin i) \/
  exists u, (match m with MCreatePool v _ _ | MCreateRangedPool v _ _ _ _ _ => v = u | _ => False end) /\
    st_last_pool s' = i /\ i = st_last_pool s + 1 /\ supply (st_bank s) (PoolCoin i) = 0 /\
    0 < supply (st_bank s') (PoolCoin i) /\ bal (st_bank s') (User u) (PoolCoin i) = supply (st_bank s') (PoolCoin i) /\
    pm_min_supply (st_params s) <= supply (st_bank s') (PoolCoin i).
Proof.
  intros Q s m s' i R H. pose proof (reach_okp Q _ R) as I. cbn [snd] in I. destruct (creates_pool m) as [u|] eqn:E; [|left; exact (deliver_same _ s m s' I H E (PoolCoin i))].
  destruct (create_pool_tail_of s m s' u H E) as (pr & kind & ps & dc & T).
  destruct (create_pool_tail_bank s u pr kind ps dc s' (proj1 (v_params _ _ I)) T) as (X & L & _ & B & S & F). destruct (Z.eqb_spec i (st_last_pool s + 1)) as [->|N].
  - right. exists u. split; [destruct m; try discriminate E; injection E as ->; reflexivity|]. split; [exact L|]. split; [reflexivity|].
    assert (Z0 : supply (st_bank s) (PoolCoin (st_last_pool s + 1)) = 0) by (apply (reach_no_coin Q _ R); cbn; lia). split; [exact Z0|].
    rewrite S, B, Z0. unfold of_denom, at_acc. rewrite denom_eqb_refl, addr_eqb_refl. cbn [addr_eqb].
    assert (B0 : forall a, bal (st_bank s) a (PoolCoin (st_last_pool s + 1)) = 0).
    { intros a. destruct (v_bank _ _ I) as [Nn (acc & Nd & Out & Sum)]. specialize (Sum (PoolCoin (st_last_pool s + 1))). rewrite Z0 in Sum.
      destruct (in_dec addr_dec a acc) as [Ha|Ha]; [|apply Out; assumption]. clear -Nn Sum Ha. induction acc as [|b acc IH]; [destruct Ha|]. cbn [map] in Sum. rewrite sumZ_cons in Sum.
      pose proof (Nn b (PoolCoin (st_last_pool s + 1))). assert (0 <= sumZ (map (fun a => bal (st_bank s) a (PoolCoin (st_last_pool s + 1))) acc)) by (apply sumZ_nonneg; intros x Hx; apply in_map_iff in Hx; destruct Hx as (y & <- & _); apply Nn).
      destruct Ha as [->|Ha]; [lia|]. apply IH; [lia|assumption]. }
    destruct (F (PoolCoin (st_last_pool s + 1))) as (F1 & F2 & F3). rewrite !B0 in *. split; [lia|]. split; [|lia]. match goal with |- context [if ?e then _ else _] => destruct e end; lia.
  - left. rewrite S. unfold of_denom. cbn. apply Z.eqb_neq in N. rewrite N. lia.
Qed.
Print Assumptions C31_pool_coin_messages.


(** The begin blocker changes no supply; the end blocker changes the supply of each pool coin by what
    this batch's deposits minted and its withdrawals burned, as recorded in the executed requests. *)
Theorem C31_pool_coin_blocks : forall Q s t, reach (sane Q) (Between, s) -> forall d, supply (st_bank (begin_block s t)) d = supply (st_bank s) d.
Proof. intros Q s t _ d. unfold begin_block. rewrite delete_bank. reflexivity. Qed.
Print Assumptions C31_pool_coin_blocks.
Theorem C31_pool_coin_batch : forall Q iter s s' i, reach (sane Q) (InBlock, s) -> is_perm_iter iter -> end_block iter s = Some s' ->
  supply (st_bank s') (PoolCoin i) = supply (st_bank s) (PoolCoin i) + minted_by_deposits s' i - burned_by_withdrawals s' i.
Proof.
  intros Q iter s s' i R Hi H. pose proof (reach_okp Q _ R) as I. cbn [snd] in I. destruct (end_block_mics (sane Q) iter s s' Hi I) as (s1 & M1 & M2); [intros p [_ X]; exact X|exact H|].
  pose proof (proj1 (okp_st (sane Q) STrade s) I) as I0. pose proof (inv_mics _ _ _ M1 I0) as I1.
  pose proof (ledger_mics _ s s1 i M1 (v_str _ _ I0) (or_introl eq_refl)) as L1. pose proof (ledger_mics _ s1 s' i M2 (v_str _ _ I1) (or_intror eq_refl)) as L2.
  destruct (reach_in_block Q s R) as (P1 & P2 & _).
  assert (Z1 : msum (dep_minted i) (st_deps s) = 0).
  { transitivity (msum (fun _ : dreq => 0) (st_deps s)); [apply msum_ext; intros k r Hr; apply In_mget in Hr; [|apply msorted_NoDup, (i_deps_sorted _ (v_str _ _ I))]; unfold dep_minted; rewrite (P1 k r Hr); reflexivity|].
    clear. induction (st_deps s) as [|x l IH]; [reflexivity|]. rewrite msum_cons, IH. reflexivity. }
  assert (Z2 : msum (wd_burned i) (st_wds s) = 0).
  { transitivity (msum (fun _ : wreq => 0) (st_wds s)); [apply msum_ext; intros k r Hr; apply In_mget in Hr; [|apply msorted_NoDup, (i_wds_sorted _ (v_str _ _ I))]; unfold wd_burned; rewrite (P2 k r Hr); reflexivity|].
    clear. induction (st_wds s) as [|x l IH]; [reflexivity|]. rewrite msum_cons, IH. reflexivity. }
  unfold ledger in L1, L2. rewrite Z1, Z2 in L1. change (minted_by_deposits s' i) with (msum (dep_minted i) (st_deps s')). change (burned_by_withdrawals s' i) with (msum (wd_burned i) (st_wds s')). lia.
Qed.
Print Assumptions C31_pool_coin_batch.
(** Non-vacuity.  One run serves the examples of C31 to C34 and C56: a block with a deposit and a withdrawal, and its end. *)
Definition two : config := after 1 pools2.
Definition three : config := fst (play two [AEnd]).
Lemma two_reach : reach (sane any_params) two.
Proof. apply after_reach. reflexivity. Qed.
Lemma pools_run :
  (fst two = InBlock /\ is_some (end_block idl (snd two)) = true /\ fst three = Between) /\
  ((supply (st_bank (snd two)) (PoolCoin 1), supply (st_bank (snd three)) (PoolCoin 1), minted_by_deposits (snd three) 1, burned_by_withdrawals (snd three) 1) =
   (1000000000000, 1600000000000, 1000000000000, 400000000000)) /\
  map (requests_owed (snd two)) [Coin 1; Coin 2; PoolCoin 1] = [100000000; 60000000; 400000000000] /\
  st_height (snd two) mod pm_batch_size (st_params (snd two)) = 0 /\
  (map (fun kv => dr_status (snd kv)) (st_deps (snd two)) = [RNotExecuted] /\ map (fun kv => wr_status (snd kv)) (st_wds (snd two)) = [RNotExecuted]) /\
  (map (fun kv => dr_status (snd kv)) (st_deps (snd three)) = [RSucceeded] /\ map (fun kv => wr_status (snd kv)) (st_wds (snd three)) = [RSucceeded]) /\
  mget (st_deps (snd three)) (1, 1) =
    Some (mkDreq 1 1 2 (User 2) [(Coin 1, 100000000); (Coin 2, 60000000)] [(Coin 2, 50000000); (Coin 1, 100000000)] 1000000000000 RSucceeded) /\
  mget (st_wds (snd three)) (1, 1) =
    Some (mkWreq 1 1 2 (User 1) (PoolCoin 1) 400000000000 [(Coin 2, 20000000); (Coin 1, 40000000)] RSucceeded).
Proof. vm_compute. repeat split. Qed.
(** In this history pool 1 exists and its coin changes by one mint and one burn. *)
Example C31_example : reach (sane any_params) two /\ fst two = InBlock /\ is_some (end_block idl (snd two)) = true /\
  (supply (st_bank (snd two)) (PoolCoin 1), supply (st_bank (snd three)) (PoolCoin 1), minted_by_deposits (snd three) 1, burned_by_withdrawals (snd three) 1) =
  (1000000000000, 1600000000000, 1000000000000, 400000000000).
Proof. destruct pools_run as ((A & B & _) & C0 & _). split; [exact two_reach|]. split; [exact A|]. split; [exact B|exact C0]. Qed.

(** ** C32: the global escrow covers all pending requests, at every point. *)
Theorem C32_escrow_covers_requests : forall Q c d, reach (sane Q) c -> requests_owed (snd c) d <= bal (st_bank (snd c)) GlobalEscrow d.
Proof. intros Q c d R. pose proof (reach_excess Q c d R) as H. unfold excess in H. lia. Qed.
Print Assumptions C32_escrow_covers_requests.
(** What the escrow holds beyond that (gifts) is never spent. *)
Theorem C32_escrow_surplus_kept : forall Q c c' d, reach (sane Q) c -> runs (sane Q) c c' ->
  bal (st_bank (snd c)) GlobalEscrow d - requests_owed (snd c) d <= bal (st_bank (snd c')) GlobalEscrow d - requests_owed (snd c') d.
Proof. intros Q c c' d R H. exact (excess_amics _ _ _ d (runs_mics Q c c' H (reach_okp Q c R)) (reach_okp Q c R)). Qed.
Print Assumptions C32_escrow_surplus_kept.
Example C32_example : reach (sane any_params) two /\
  map (requests_owed (snd two)) [Coin 1; Coin 2; PoolCoin 1] = [100000000; 60000000; 400000000000].
Proof. destruct pools_run as (_ & _ & A & _). split; [exact two_reach|exact A]. Qed.

(** ** C33: every request is executed exactly once. *)
Definition is_batch (s : state) : Prop := st_height s mod pm_batch_size (st_params s) = 0.

(** The batch executes every request: each one stored before is stored after, with the same terms,
    succeeded or failed; no other request appears. *)
Theorem C33_batch_executes_all : forall Q iter s s', reach (sane Q) (InBlock, s) -> is_perm_iter iter -> is_batch s -> end_block iter s = Some s' ->
  (forall k r, mget (st_deps s) k = Some r -> exists r', mget (st_deps s') k = Some r' /\ dep_later r r') /\
  (forall k r, mget (st_wds s) k = Some r -> exists r', mget (st_wds s') k = Some r' /\ wd_later r r') /\
  (forall k r', mget (st_deps s') k = Some r' -> mget (st_deps s) k <> None /\ (dr_status r' = RSucceeded \/ dr_status r' = RFailed)) /\
  (forall k r', mget (st_wds s') k = Some r' -> mget (st_wds s) k <> None /\ (wr_status r' = RSucceeded \/ wr_status r' = RFailed)).
Proof.
  intros Q iter s s' R Hi B H. destruct (batch_same_keys Q iter Hi s s' R H) as (K1 & K2 & _). pose proof (batch_later Q iter Hi s s' R H) as L.
  split; [|split; [|split]].
  - intros [i j] r G. destruct (mget (st_deps s') (i, j)) as [r'|] eqn:E; [|exfalso; apply (proj2 (K1 (i, j))); [congruence|assumption]]. exists r'. split; [reflexivity|].
    destruct (l_deps _ _ L i j r' E) as [(r0 & G0 & X)|(G0 & _)]; congruence.
  - intros [i j] r G. destruct (mget (st_wds s') (i, j)) as [r'|] eqn:E; [|exfalso; apply (proj2 (K2 (i, j))); [congruence|assumption]]. exists r'. split; [reflexivity|].
    destruct (l_wds _ _ L i j r' E) as [(r0 & G0 & X)|(G0 & _)]; congruence.
  - intros k r' E. assert (N : mget (st_deps s) k <> None) by (apply (K1 k); congruence). split; [assumption|]. destruct (mget (st_deps s) k) as [r|] eqn:G; [|congruence].
    destruct (batch_dep Q iter Hi s s' R B H k r G) as (sa & sb & p & pr & r2 & _ & _ & _ & _ & _ & E2 & [(-> & _)|(ax & ay & pc & acc & _ & _ & _ & -> & _)]); rewrite E2 in E; injection E as <-; auto.
  - intros k r' E. assert (N : mget (st_wds s) k <> None) by (apply (K2 k); congruence). split; [assumption|]. destruct (mget (st_wds s) k) as [r|] eqn:G; [|congruence].
    destruct (batch_wd Q iter Hi s s' R B H k r G) as (sa & sb & p & pr & r2 & _ & _ & _ & _ & _ & E2 & [(-> & _)|((x & y & w & _ & _ & _ & -> & _) & _)]); rewrite E2 in E; injection E as <-; auto.
Qed.
Print Assumptions C33_batch_executes_all.

(** Until then it waits unchanged: no message touches it, an end blocker outside the batch heights
    does nothing, the begin blocker keeps it. *)
Theorem C33_waits_unchanged : forall Q s, 
  (forall m s', reach (sane Q) (InBlock, s) -> deliver s m = Some s' ->
     (forall k r, mget (st_deps s) k = Some r -> mget (st_deps s') k = Some r) /\ (forall k r, mget (st_wds s) k = Some r -> mget (st_wds s') k = Some r)) /\
  (forall iter, ~ is_batch s -> end_block iter s = Some s) /\
  (forall t, reach (sane Q) (Between, s) ->
     (forall k r, mget (st_deps (begin_block s t)) k = Some r <-> mget (st_deps s) k = Some r /\ dr_status r = RNotExecuted) /\
     (forall k r, mget (st_wds (begin_block s t)) k = Some r <-> mget (st_wds s) k = Some r /\ wr_status r = RNotExecuted)).
Proof.
  intros Q s. split; [|split].
  - intros m s' R H. pose proof (reach_okp Q _ R) as I. cbn [snd] in I. assert (M : mics (mkCtl (fun p => allowed (mkCtl (sane Q) SMsg) p \/ valid_params p = true) SMsg) s s').
    { apply (deliver_mics (mkCtl (fun p => allowed (mkCtl (sane Q) SMsg) p \/ valid_params p = true) SMsg) s m s' eq_refl); [|intros p ->; right|assumption].
      - destruct I as [A1 A2 A3 [A4 A5]]. constructor; [exact A1|exact A2|exact A3|split; [exact A4|left; exact A5]].
      - unfold deliver in H. cbn [validate_basic handle] in H. destruct (valid_params p); [reflexivity|discriminate H]. }
    destruct (msg_keeps _ _ _ M (reach_str Q _ R) eq_refl) as (A1 & A2 & _). auto.
  - intros iter N. unfold end_block. unfold is_batch in N. destruct (Z.eqb_spec (st_height s mod pm_batch_size (st_params s)) 0); [contradiction|reflexivity].
  - intros t R. destruct (begin_block_facts s t (reach_str Q _ R)) as (A1 & A2 & _). auto.
Qed.
Print Assumptions C33_waits_unchanged.

(** Never twice: once succeeded or failed, a request stays exactly as it is until it disappears, and
    its id is not used again. *)
Theorem C33_executed_once : forall Q c c', reach (sane Q) c -> runs (sane Q) c c' ->
  (forall k r, mget (st_deps (snd c)) k = Some r -> dr_status r <> RNotExecuted -> mget (st_deps (snd c')) k = None \/ mget (st_deps (snd c')) k = Some r) /\
  (forall k r, mget (st_wds (snd c)) k = Some r -> wr_status r <> RNotExecuted -> mget (st_wds (snd c')) k = None \/ mget (st_wds (snd c')) k = Some r).
Proof.
  intros Q c c' R H. pose proof (reach_later Q c c' R H) as L. split; intros [i j] r G N.
  - destruct (mget (st_deps (snd c')) (i, j)) as [r'|] eqn:E; [right|left; reflexivity]. destruct (l_deps _ _ L i j r' E) as [(r0 & G0 & X)|(G0 & _)]; [|congruence].
    rewrite G in G0. injection G0 as <-. f_equal. apply X. left. destruct (dr_status r); [congruence|reflexivity|reflexivity].
  - destruct (mget (st_wds (snd c')) (i, j)) as [r'|] eqn:E; [right|left; reflexivity]. destruct (l_wds _ _ L i j r' E) as [(r0 & G0 & X)|(G0 & _)]; [|congruence].
    rewrite G in G0. injection G0 as <-. f_equal. apply X. left. destruct (wr_status r); [congruence|reflexivity|reflexivity].
Qed.
Print Assumptions C33_executed_once.
Example C33_example : reach (sane any_params) two /\ fst two = InBlock /\ is_batch (snd two) /\
  is_some (end_block idl (snd two)) = true /\
  map (fun kv => dr_status (snd kv)) (st_deps (snd two)) = [RNotExecuted] /\ map (fun kv => wr_status (snd kv)) (st_wds (snd two)) = [RNotExecuted] /\
  map (fun kv => dr_status (snd kv)) (st_deps (snd three)) = [RSucceeded] /\ map (fun kv => wr_status (snd kv)) (st_wds (snd three)) = [RSucceeded].
Proof.
  destruct pools_run as ((A & B & _) & _ & _ & D & (E1 & E2) & (F1 & F2) & _). split; [exact two_reach|].
  split; [exact A|]. split; [exact D|]. split; [exact B|]. split; [exact E1|]. split; [exact E2|]. split; [exact F1|exact F2].
Qed.

(** ** C34: a deposit is settled exactly.  In the state [sa] in which the batch executes it (after
    matching, expiry and the deposits before it) the request is either refused, with everything
    returned and nothing minted, or the pool takes [ax] quote and [ay] base coins computed by the pool
    formula from its reserves and supply in [sa], mints [pc] pool coins to the depositor and returns
    the rest (KeeperSpec: [dep_refused], [dep_accepted], [dep_settled]). *)
Theorem C34_deposit_settled : forall Q iter s s' k r, reach (sane Q) (InBlock, s) -> is_perm_iter iter -> is_batch s -> end_block iter s = Some s' ->
  mget (st_deps s) k = Some r ->
  exists sa sb p pr r', at_deposit iter s k r sa /\ execute_dep sa r = Some sb /\ get_pool sa (dr_pool r) = Some p /\ get_pair sa (pl_pair p) = Some pr /\
    mget (st_deps s') k = Some r' /\
    (dep_refused (st_bank sa) (st_bank sb) r r' \/ dep_accepted sa (st_bank sb) p pr r r').
Proof.
  intros Q iter s s' k r R Hi B H G. destruct (batch_dep Q iter Hi s s' R B H k r G) as (sa & sb & p & pr & r' & E1 & E2 & E3 & E4 & _ & E5 & E6).
  exists sa, sb, p, pr, r'. auto 10.
Qed.
Print Assumptions C34_deposit_settled.
Example C34_example : mget (st_deps (snd three)) (1, 1) =
  Some (mkDreq 1 1 2 (User 2) [(Coin 1, 100000000); (Coin 2, 60000000)] [(Coin 2, 50000000); (Coin 1, 100000000)] 1000000000000 RSucceeded).
Proof. destruct pools_run as (_ & _ & _ & _ & _ & _ & A & _). exact A. Qed.

(** ** C56: a withdrawal is settled exactly: refused with the pool coins returned, or the pool pays
    [x] quote and [y] base coins computed by the pool formula, the pool coins are destroyed, and the
    pool is disabled exactly if the whole supply was withdrawn. *)
Theorem C56_withdrawal_settled : forall Q iter s s' k r, reach (sane Q) (InBlock, s) -> is_perm_iter iter -> is_batch s -> end_block iter s = Some s' ->
  mget (st_wds s) k = Some r ->
  exists sa sb p pr r', at_withdraw iter s k r sa /\ execute_wd sa r = Some sb /\ get_pool sa (wr_pool r) = Some p /\ get_pair sa (pl_pair p) = Some pr /\
    mget (st_wds s') k = Some r' /\
    (wd_refused (st_bank sa) (st_bank sb) r r' \/
     wd_accepted sa (st_bank sb) p pr r r' /\ exists p', get_pool sb (wr_pool r) = Some p' /\ pl_disabled p' = (wr_amt r =? supply (st_bank sa) (PoolCoin (pl_id p)))).
Proof.
  intros Q iter s s' k r R Hi B H G. destruct (batch_wd Q iter Hi s s' R B H k r G) as (sa & sb & p & pr & r' & E1 & E2 & E3 & E4 & _ & E5 & E6).
  exists sa, sb, p, pr, r'. auto 10.
Qed.
Print Assumptions C56_withdrawal_settled.
Example C56_example : mget (st_wds (snd three)) (1, 1) =
  Some (mkWreq 1 1 2 (User 1) (PoolCoin 1) 400000000000 [(Coin 2, 20000000); (Coin 1, 40000000)] RSucceeded).
Proof. destruct pools_run as (_ & _ & _ & _ & _ & _ & _ & A). exact A. Qed.
