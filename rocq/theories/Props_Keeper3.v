(** Properties C36, C41: cancelling orders, number of pools.  See Props_Keeper.v for [reach (sane Q)]. *)
From Verif Require Import Base Dec OrderModel MatchModel PoolModel KeeperModel KeeperLib KeeperSpec KeeperSpec2 KeeperMicro KeeperBank KeeperSteps KeeperTrade KeeperInv KeeperHist KeeperBlock KeeperCancel CancelSpec KeeperCancelAll KeeperPools MatchProofs KeeperExample.

(** ** C36: cancelling. *)

(** A cancellation is accepted exactly when the caller owns the order, it is live, it was placed in an
    earlier batch of the pair, and the escrow can pay the refund. *)
Theorem C36_cancel_accepted_iff : forall Q s u i j, reach (sane Q) (InBlock, s) ->
  (deliver s (MCancelOrder u i j) <> None <->
   exists o, get_order s i j = Some o /\ ko_owner o = User u /\ live o = true /\ earlier_batch s o /\ ko_remaining o <= bal (st_bank s) (PairEscrow i) (ko_offer_denom o)).
Proof. exact cancel_accepted. Qed.
Print Assumptions C36_cancel_accepted_iff.

(** It refunds exactly the remaining offer coin to the owner and marks exactly that order cancelled. *)
Theorem C36_cancel_refunds_remainder : forall Q s u i j s', reach (sane Q) (InBlock, s) -> deliver s (MCancelOrder u i j) = Some s' ->
  exists o, get_order s i j = Some o /\ ko_owner o = User u /\ live o = true /\ earlier_batch s o /\ order_closed s s' o OCanceled.
Proof. exact cancel_exact. Qed.
Print Assumptions C36_cancel_refunds_remainder.

(** Afterwards the order stays exactly as it is until it disappears; nobody can cancel it again. *)
Theorem C36_cancelled_for_good : forall Q s u i j s' c o, reach (sane Q) (InBlock, s) -> get_order s i j = Some o -> deliver s (MCancelOrder u i j) = Some s' ->
  runs (sane Q) (InBlock, s') c ->
  (get_order (snd c) i j = Some (ko_with_status o OCanceled) \/ get_order (snd c) i j = None) /\ forall v, deliver (snd c) (MCancelOrder v i j) = None.
Proof.
  intros Q s u i j s' c o R G H Rn. destruct (cancel_exact Q s u i j s' R H) as (o' & G' & _ & _ & _ & (_ & C & _)). assert (o' = o) as -> by congruence.
  destruct (order_facts Q _ i j o R G) as (<- & <- & _). specialize (C (ko_pair o) (ko_id o)). rewrite !Z.eqb_refl in C. cbn [andb] in C.
  assert (R' : reach (sane Q) (InBlock, s')) by (eapply reach_step; [exact R|]; econstructor; [exact H|discriminate]).
  assert (X : get_order (snd c) (ko_pair o) (ko_id o) = Some (ko_with_status o OCanceled) \/ get_order (snd c) (ko_pair o) (ko_id o) = None).
  { destruct (get_order (snd c) (ko_pair o) (ko_id o)) as [o2|] eqn:E; [|auto]. left.
    destruct (l_orders _ _ (reach_later Q _ _ R' Rn) _ _ _ E) as [(o1 & X & L)|(X & _)]; cbn [snd] in X; [|congruence].
    assert (o1 = ko_with_status o OCanceled) as -> by congruence. destruct L as (_ & _ & _ & _ & _ & _ & _ & _ & _ & _ & _ & _ & _ & _ & _ & _ & L & _). rewrite (L eq_refl). reflexivity. }
  split; [exact X|]. intros v. unfold deliver. destruct (validate_basic _); [|reflexivity]. cbn [handle]. unfold cancel_order. destruct X as [X|X]; rewrite X; [|reflexivity].
  destruct (negb _); reflexivity.
Qed.
Print Assumptions C36_cancelled_for_good.

(** Cancelling all orders cancels exactly the caller's live orders of earlier batches (in the given
    pairs, or all pairs), pays every user exactly what is released from his live orders, out of
    the escrows of the orders' pairs, and changes nothing else. *)
Theorem C36_cancel_all : forall Q s u ids s', reach (sane Q) (InBlock, s) -> deliver s (MCancelAllOrders u ids) = Some s' ->
  (forall i j o, get_order s i j = Some o ->
     let chosen := ko_owner o = User u /\ live o = true /\ earlier_batch s o /\ (ids = [] \/ In i ids) in
     (chosen -> get_order s' i j = Some (ko_with_status o OCanceled)) /\ (~ chosen -> get_order s' i j = Some o)) /\
  (forall i j, get_order s i j = None -> get_order s' i j = None) /\
  (forall v d, bal (st_bank s') (User v) d - bal (st_bank s) (User v) d = locked s (User v) d - locked s' (User v) d) /\
  (forall i d, bal (st_bank s) (PairEscrow i) d - bal (st_bank s') (PairEscrow i) d = orders_owed s i d - orders_owed s' i d) /\
  (forall a d, (forall v, a <> User v) -> (forall i, a <> PairEscrow i) -> bal (st_bank s') a d = bal (st_bank s) a d) /\
  st_pairs s' = st_pairs s /\ st_pools s' = st_pools s /\ st_deps s' = st_deps s /\ st_wds s' = st_wds s /\ st_params s' = st_params s.
Proof.
  intros Q s u ids s' R H. destruct (cancel_all_exact Q s u ids s' R H) as (A & B & C & D & E). split; [|split; [|split; [|split; [|split; [|exact E]]]]].
  - intros i j o G ch. pose proof (wants_spec Q s u ids o i j R G) as W. fold ch in W. rewrite A, G. destruct (wants u ids s o); split; intros X; try reflexivity; exfalso.
    + apply X, W. reflexivity.
    + apply W in X. discriminate X.
  - intros i j G. rewrite A, G. reflexivity.
  - intros v d. specialize (B v d). lia.
  - intros i d. specialize (C i d). unfold slack in C. lia.
  - intros a d N1 N2. specialize (D a). destruct a; try (apply D); [exfalso; exact (N1 _ eq_refl)|exfalso; exact (N2 _ eq_refl)].
Qed.
Print Assumptions C36_cancel_all.
(** It is accepted exactly when the pairs named are distinct and exist and each pair's escrow can pay what
    the orders to be cancelled release. *)
Theorem C36_cancel_all_accepted_iff : forall Q s u ids, reach (sane Q) (InBlock, s) ->
  (deliver s (MCancelAllOrders u ids) <> None <->
   NoDup ids /\ (forall i, In i ids -> get_pair s i <> None) /\ forall i d, released s u ids i d <= bal (st_bank s) (PairEscrow i) d).
Proof. exact cancel_all_accepted. Qed.
Print Assumptions C36_cancel_all_accepted_iff.
Example C36_cancel_all_example : reach (sane any_params) (InBlock, snd (after 1 trade3)) /\
  (let s := snd (after 1 trade3) in is_some (deliver s (MCancelAllOrders 1 [1])) && negb (is_some (deliver s (MCancelAllOrders 1 [1; 1]))) && negb (is_some (deliver s (MCancelAllOrders 1 [1; 2]))) &&
   (0 <? released s 1 [1] 1 (Coin 1))) = true.
Proof. split; [apply after_in_block; reflexivity|]. vm_compute. reflexivity. Qed.

Example C36_example : reach (sane any_params) (after 1 trade3) /\ fst (after 1 trade3) = InBlock /\
  is_some (deliver (snd (after 1 trade3)) (MCancelOrder 1 1 3)) = true /\ is_some (deliver (snd (after 1 trade3)) (MCancelAllOrders 1 [])) = true /\
  is_some (deliver (snd (after 1 trade3)) (MCancelOrder 2 1 3)) = false /\ is_some (deliver (snd (after 1 trade4)) (MCancelOrder 1 1 3)) = false /\
  is_some (deliver (snd (after 1 trade2)) (MCancelOrder 1 1 3)) = false.
Proof. split; [apply after_reach; reflexivity|]. vm_compute. repeat split. Qed.
(** Cancel-all releases the market making orders 3 and 4 at once. *)
Example C36_example_all : match deliver (snd (after 1 trade3)) (MCancelAllOrders 1 [1]) with
  | Some s' => (bal (st_bank s') (User 1) (Coin 1) - bal (st_bank (snd (after 1 trade3))) (User 1) (Coin 1), bal (st_bank s') (User 1) (Coin 2) - bal (st_bank (snd (after 1 trade3))) (User 1) (Coin 2))
  | None => (0, 0) end = (30000, 49000).
Proof. vm_compute. reflexivity. Qed.

(** ** C41: at most one active basic pool per pair, and at most the configured number of active pools
    (the largest number ever configured, when governance lowers it). *)
Theorem C41_one_basic_pool : forall Q c i j p q, reach (sane Q) c -> get_pool (snd c) i = Some p -> get_pool (snd c) j = Some q ->
  pl_pair p = pl_pair q -> pl_disabled p = false -> pl_disabled q = false -> pl_kind p = PBasic -> pl_kind q = PBasic -> i = j.
Proof. intros Q c i j p q R. exact (reach_one_basic Q c R i j p q). Qed.
Print Assumptions C41_one_basic_pool.
Theorem C41_pool_limit : forall (Q : params -> Prop) N c i, (forall p, Q p -> pm_max_pools p <= N) -> reach (sane Q) c -> active_pools (snd c) i <= N.
Proof.
  intros Q N c i H R. apply (reach_active_pools Q N c i); auto.
  destruct R as (s0 & (p & b & h & t & V & [HQ _] & _) & _). specialize (H p HQ). unfold valid_params in V. lia.
Qed.
Print Assumptions C41_pool_limit.
(** A pool creation when the limit in force is reached is rejected. *)
Theorem C41_rejects_over_limit : forall Q s m u i, reach (sane Q) (InBlock, s) -> pm_max_pools (st_params s) <= active_pools s i ->
  (exists cs, m = MCreatePool u i cs) \/ (exists cs a b c, m = MCreateRangedPool u i cs a b c) -> deliver s m = None.
Proof.
  intros Q s m u i R L H. pose proof (reach_str Q _ R) as S. cbn [snd] in S. rewrite <- (num_active_exact s i S) in L. unfold deliver. destruct (validate_basic m); [|reflexivity].
  destruct H as [(cs & ->)|(cs & a & b & c & ->)]; cbn [handle].
  - unfold create_pool. destruct (get_pair s i) as [pr|] eqn:G; [|reflexivity]. rewrite (get_pair_id _ _ _ S G). destruct (existsb _ cs); [reflexivity|]. destruct (existsb active_basic _); [reflexivity|]. rewrite (proj2 (Z.leb_le _ _) L). reflexivity.
  - unfold create_rpool. cbn zeta. destruct (of_res _); [|reflexivity]. destruct (of_res _); [|reflexivity]. destruct (of_res _); [|reflexivity]. destruct (negb _); [reflexivity|]. destruct (lowest_tick_chk _); [|reflexivity]. destruct (a <? _); [reflexivity|].
    destruct (get_pair s i) as [pr|] eqn:G; [|reflexivity]. rewrite (get_pair_id _ _ _ S G). destruct (existsb _ cs); [reflexivity|]. rewrite (proj2 (Z.leb_le _ _) L). reflexivity.
Qed.
Print Assumptions C41_rejects_over_limit.
Example C41_example : reach (sane any_params) (after 1 pools2) /\ active_pools (snd (after 1 pools2)) 1 = 2 /\
  is_some (deliver (snd (after 1 pools1)) (MCreatePool 2 1 [(Coin 1, 100000000); (Coin 2, 50000000)])) = false.
Proof. split; [apply after_reach; reflexivity|]. vm_compute. split; reflexivity. Qed.
