(** * C85: a chain that is exported and started again keeps the exchange *)
From Coq Require Import List ZArith Lia Bool.
From Verif Require Import Base Dec OrderModel MatchModel PoolModel KeeperModel KeeperSpec KeeperLib KeeperMicro KeeperBank KeeperHist KeeperExample GenesisModel RestartModel.
Import ListNotations.
Local Open Scope Z_scope.

(** What the exchange holds apart from balances and parameters. *)
Definition same_contents (s s' : state) : Prop :=
  st_pairs s' = st_pairs s /\ st_pools s' = st_pools s /\ st_deps s' = st_deps s /\ st_wds s' = st_wds s /\ st_orders s' = st_orders s.
(** Messages that refer to a pair, a pool or an order. *)
Definition refers (m : msg) : Prop :=
  match m with MCreatePair _ _ _ | MCancelAllOrders _ [] | MUpdateParams _ | MSend _ _ _ => False | _ => True end.

Lemma empty_map {V} (m : amap V) : (forall k x, mget m k = Some x -> False) -> m = [].
Proof. destruct m as [|[k x] m]; [reflexivity|]. intros H. exfalso. apply (H k x). cbn. destruct (key_eqb_spec k k) as [_|N]; [reflexivity|destruct (N eq_refl)]. Qed.
Lemma no_pairs_nothing s : str s -> st_pairs s = [] -> st_pools s = [] /\ st_deps s = [] /\ st_wds s = [] /\ st_orders s = [].
Proof.
  intros T E. assert (G : forall i, get_pair s i = None) by (intros i; unfold get_pair; rewrite E; reflexivity).
  assert (P : st_pools s = []). { apply empty_map. intros k p M. destruct (i_pools s T k p M) as (_ & _ & _ & _ & N & _). exact (N (G _)). }
  assert (GP : forall i, get_pool s i = None) by (intros i; unfold get_pool; rewrite P; reflexivity).
  split; [exact P|]. split; [|split]; apply empty_map; intros k x M.
  - destruct (i_deps s T k x M) as (_ & (p & X & _) & _). rewrite GP in X. discriminate X.
  - destruct (i_wds s T k x M) as (_ & (p & X & _) & _). rewrite GP in X. discriminate X.
  - destruct (i_orders s T k x M) as (_ & pr & X & _). rewrite G in X. discriminate X.
Qed.

(** C85.  From every state of every history the chain can be exported and started again, with the same
    parameters and balances.  The pairs, pools, requests and orders are the same exactly when there
    were none: the file holds parameters only.  The full claim (always the same) is refuted below. *)
Theorem C85_restart_partial : forall Q ph s h t, reach (sane Q) (ph, s) -> exists s', restart h t s = Some s' /\
  st_params s' = st_params s /\ st_bank s' = st_bank s /\ st_height s' = h /\ st_time s' = t /\ (same_contents s s' <-> st_pairs s = []).
Proof.
  intros Q ph s h t R. pose proof (reach_okp Q _ R) as I. cbn [snd] in I. unfold restart, app_init, app_export, bare_genesis. cbn [g_params].
  destruct (v_params _ _ I) as [V _]. rewrite V. eexists. split; [reflexivity|]. repeat (split; [reflexivity|]). unfold same_contents. cbn [init_state st_pairs st_pools st_deps st_wds st_orders]. split.
  - intros [E _]. symmetry. exact E.
  - intros E. destruct (no_pairs_nothing s (v_str _ _ I) E) as (A & B & C & D). rewrite E, A, B, C, D. repeat split.
Qed.
Print Assumptions C85_restart_partial.

(** After the restart nothing that was there can be addressed: every message about a pair, a pool or an
    order is refused, in particular withdrawals of pool coins and cancellations of open orders. *)
Theorem C85_refused : forall h t s s' m, restart h t s = Some s' -> refers m -> deliver s' m = None.
Proof.
  intros h t s s' m H R. unfold restart, app_init in H. destruct (valid_params _); [|discriminate H]. injection H as <-. unfold deliver. destruct (validate_basic m); [|reflexivity].
  set (e := init_state _ _ _ _). assert (G : forall i, get_pair e i = None) by reflexivity. assert (PO : forall ty u i d od o dd p a l, place_order e ty u i d od o dd p a l = None).
  { intros. unfold place_order. rewrite G. destruct (_ <? o); [reflexivity|]. destruct (_ <? l); reflexivity. }
  destruct m; try destruct R; try reflexivity; cbn [handle]; try apply PO.
  - unfold create_rpool. cbv zeta. repeat match goal with |- match get_pair e ?j with Some _ => _ | None => None end = None => rewrite (G j); reflexivity | |- match ?x with Some _ => _ | None => None end = None => destruct x; [|reflexivity] | |- (if ?x then None else _) = None => destruct x; [reflexivity|] end.

  - unfold mm_order. destruct (_ <=? _); [reflexivity|]. rewrite PO. reflexivity.
  - destruct ids; [destruct R|]. reflexivity.
Qed.
Print Assumptions C85_refused.

(** A genesis file that the module accepts as valid is not stored either. *)
Theorem C85_file_ignored : forall b h t g s', app_init b h t g = Some s' ->
  st_params s' = g_params g /\ st_pairs s' = [] /\ st_pools s' = [] /\ st_deps s' = [] /\ st_wds s' = [] /\ st_orders s' = [] /\ st_last_pair s' = 0 /\ st_last_pool s' = 0.
Proof. intros b h t g s' H. unfold app_init in H. destruct (valid_params _); [|discriminate H]. injection H as <-. repeat split. Qed.
Print Assumptions C85_file_ignored.

(** Refutation of the full claim.  User 1 owns all coins of pool 1 and user 3 has an open order; the
    chain is exported and started again; their coins are still on the accounts of the module, they
    cannot withdraw or cancel. *)
Definition before_restart : list action := pools1 ++ [AMsg (MLimitOrder 3 1 Buy (Coin 2) 400000 (Coin 1) (P18 * 4 / 10) 1000000 3600); AEnd].
Theorem C85_lost_refuted : exists s s' o, reach (sane any_params) (Between, s) /\ restart 0 10 s = Some s' /\
  get_order s 1 1 = Some o /\ ko_owner o = User 3 /\ ko_status o = ONotMatched /\
  bal (st_bank s) (User 1) (PoolCoin 1) = supply (st_bank s) (PoolCoin 1) /\ bal (st_bank s) (PoolReserve 1) (Coin 1) = 100000000 /\
  bal (st_bank s') (PairEscrow 1) (Coin 2) = 400000 /\ bal (st_bank s') (PoolReserve 1) (Coin 1) = 100000000 /\
  deliver s' (MCancelOrder 3 1 1) = None /\ (forall x, deliver s' (MWithdraw 1 1 (PoolCoin 1) x) = None) /\ ~ same_contents s s'.
Proof.
  assert (R : reach (sane any_params) (after 1 before_restart)) by (apply after_reach; lia).
  assert (F : fst (after 1 before_restart) = Between) by (vm_compute; reflexivity).
  assert (X : match get_order (snd (after 1 before_restart)) 1 1 with
    | Some o => addr_eqb (ko_owner o) (User 3) && (match ko_status o with ONotMatched => true | _ => false end) | None => false end &&
    (let b := st_bank (snd (after 1 before_restart)) in (bal b (User 1) (PoolCoin 1) =? supply b (PoolCoin 1)) && (bal b (PoolReserve 1) (Coin 1) =? 100000000) && (bal b (PairEscrow 1) (Coin 2) =? 400000)) = true)
    by (vm_compute; reflexivity).
  rewrite (surjective_pairing (after 1 before_restart)), F in R. generalize dependent (snd (after 1 before_restart)). intros s R X. cbv zeta in X.
  apply andb_true_iff in X. destruct X as [X Y]. destruct (get_order s 1 1) as [o|] eqn:Eo; [|discriminate X]. apply andb_true_iff in X, Y. destruct X as [X1 X2], Y as [Y Y3]. apply andb_true_iff in Y. destruct Y as [Y1 Y2].
  destruct (C85_restart_partial _ _ _ 0 10 R) as (s' & E & _ & B & _ & _ & K). exists s, s', o. split; [exact R|]. split; [exact E|]. split; [exact Eo|].
  split; [destruct (addr_eqb_spec (ko_owner o) (User 3)); [assumption|discriminate X1]|]. split; [destruct (ko_status o); try discriminate X2; reflexivity|].
  rewrite B. apply Z.eqb_eq in Y1, Y2, Y3. repeat (split; [assumption|]). split; [exact (C85_refused 0 10 s s' (MCancelOrder 3 1 1) E Logic.I)|]. split; [intros x; exact (C85_refused 0 10 s s' (MWithdraw 1 1 (PoolCoin 1) x) E Logic.I)|].
  intros S. apply K in S. pose proof (reach_okp _ _ R) as I. cbn [snd] in I. destruct (i_orders s (v_str _ _ I) (1, 1) o Eo) as (A & pr & G & _). unfold get_pair in G. rewrite S in G. discriminate G.
Qed.
Print Assumptions C85_lost_refuted.

(** Identifiers start again at one while the coins of the old pools still exist.  User 2 creates the
    first pool of the new chain, from other coins; user 1, who contributes nothing, withdraws half of it
    with the coins of the old pool 1. *)
Definition after_restart1 : list action := [ABegin 20; AMsg (MCreatePair 2 (Coin 1) (Coin 9)); AMsg (MCreatePool 2 1 [(Coin 1, 100000000); (Coin 9, 100000000)])].
Theorem C85_hijack_refuted : exists s s' s1 s2, reach (sane any_params) (Between, s) /\ restart 0 10 s = Some s' /\
  runs any_params (Between, s') (InBlock, s1) /\ bal (st_bank s1) (User 2) (Coin 9) = bal (st_bank s') (User 2) (Coin 9) - 100000000 - 2000000 /\
  runs any_params (InBlock, s1) (Between, s2) /\ bal (st_bank s2) (User 1) (Coin 9) = bal (st_bank s') (User 1) (Coin 9) + 50000000 /\
  bal (st_bank s2) (PoolReserve 1) (Coin 9) = 50000000.
Proof.
  assert (R : reach (sane any_params) (after 1 before_restart)) by (apply after_reach; lia).
  assert (F : fst (after 1 before_restart) = Between) by (vm_compute; reflexivity).
  assert (X : match restart 0 10 (snd (after 1 before_restart)) with
    | Some s' => let r1 := play (Between, s') after_restart1 in
       match r1 with ((InBlock, s1), true) =>
         match play (InBlock, s1) [AMsg (MWithdraw 1 1 (PoolCoin 1) 1000000000000); AEnd] with
         | ((Between, s2), true) => (bal (st_bank s1) (User 2) (Coin 9) =? bal (st_bank s') (User 2) (Coin 9) - 100000000 - 2000000) &&
             (bal (st_bank s2) (User 1) (Coin 9) =? bal (st_bank s') (User 1) (Coin 9) + 50000000) && (bal (st_bank s2) (PoolReserve 1) (Coin 9) =? 50000000)
         | _ => false end
       | _ => false end
    | None => false end = true) by (vm_compute; reflexivity).
  rewrite (surjective_pairing (after 1 before_restart)), F in R. generalize dependent (snd (after 1 before_restart)). intros s R X. cbv zeta in X.
  destruct (restart 0 10 s) as [s'|] eqn:E; [|discriminate X]. destruct (play (Between, s') after_restart1) as [[[|] s1] b1] eqn:P1; [discriminate X|]. destruct b1; [|discriminate X].
  match type of X with match ?e with _ => _ end = _ => destruct e as [[[|] s2] b2] eqn:P2 end; [|discriminate X]. destruct b2; [|discriminate X].
  apply andb_true_iff in X. destruct X as [X X3]. apply andb_true_iff in X. destruct X as [X1 X2]. apply Z.eqb_eq in X1, X2, X3.
  exists s, s', s1, s2. split; [exact R|]. split; [exact E|]. split.
  { pose proof (play_runs any_params after_restart1 (Between, s')) as Y. rewrite P1 in Y. exact Y. }
  split; [exact X1|]. split; [|split; assumption].
  match type of P2 with play ?c ?l = _ => pose proof (play_runs any_params l c) as Y end. rewrite P2 in Y. exact Y.
Qed.
Print Assumptions C85_hijack_refuted.
