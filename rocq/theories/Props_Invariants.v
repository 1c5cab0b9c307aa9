(** Property C59 (and C35): the module's own invariants, keeper/invariants.go.  See Props_Keeper.v for
    [reach (sane Q)]; InvariantModel.v has the checks as the code computes them. *)
From Verif Require Import Base Dec OrderModel MatchModel PoolModel KeeperModel KeeperLib KeeperSpec CoverSpec KeeperMicro KeeperBank KeeperHist MatchProofs GenesisSpec InvariantModel InvariantProofs KeeperExample Props_Keeper6.

(** ** C59: the module's request, pool and counter invariants are never broken. *)
Theorem C59_deposit_coins_escrow : forall Q c, reach (sane Q) c -> deposit_escrow_broken (snd c) = false.
Proof. exact deposit_escrow_holds. Qed.
Print Assumptions C59_deposit_coins_escrow.
Theorem C59_pool_coin_escrow : forall Q c, reach (sane Q) c -> pool_coin_escrow_broken (snd c) = false.
Proof. exact pool_coin_escrow_holds. Qed.
Print Assumptions C59_pool_coin_escrow.
Theorem C59_pool_status : forall Q c, reach (sane Q) c -> pool_status_broken (snd c) = false.
Proof. exact pool_status_holds. Qed.
Print Assumptions C59_pool_status.
(** What the last one means: a pool that is not disabled has pool coins. *)
Theorem C59_active_pool_has_supply : forall Q c i p, reach (sane Q) c -> get_pool (snd c) i = Some p -> pl_disabled p = false -> 0 < supply (st_bank (snd c)) (PoolCoin i).
Proof. intros Q c i p R. exact (reach_alive Q c R i p). Qed.
Print Assumptions C59_active_pool_has_supply.
(** [lists_counters s records]: the stored counters (counters at zero are not stored). *)
Theorem C59_num_mm_orders : forall Q c records, reach (sane Q) c -> lists_counters (snd c) records -> num_mm_broken (snd c) records = false.
Proof. exact num_mm_holds. Qed.
Print Assumptions C59_num_mm_orders.

(** ** C35: the fifth invariant is exactly that every pair escrow covers its live orders... *)
Theorem C35_invariant_exact : forall Q c, reach (sane Q) c -> (offer_escrow_broken (snd c) = false <-> forall i pr, get_pair (snd c) i = Some pr -> forall d, covered (snd c) i d).
Proof. exact offer_escrow_iff. Qed.
Print Assumptions C35_invariant_exact.
(** AllInvariants reports a broken state exactly when one of the five checks does, in any state; *)
Theorem C59_all_is_five : forall s records, all_invariants_broken s records = false <->
  deposit_escrow_broken s = false /\ pool_coin_escrow_broken s = false /\ offer_escrow_broken s = false /\ pool_status_broken s = false /\ num_mm_broken s records = false.
Proof. intros s records. unfold all_invariants_broken. rewrite !orb_false_iff. tauto. Qed.
Print Assumptions C59_all_is_five.
(** so on reachable states it reports exactly the pair escrows that do not cover their live orders. *)
Theorem C59_all_invariants : forall Q c records, reach (sane Q) c -> lists_counters (snd c) records ->
  (all_invariants_broken (snd c) records = false <-> forall i pr, get_pair (snd c) i = Some pr -> forall d, covered (snd c) i d).
Proof.
  intros Q c records R L. rewrite C59_all_is_five, <- (C35_invariant_exact Q c R). split; [intros (_ & _ & X & _); exact X|]. intros X.
  split; [exact (C59_deposit_coins_escrow Q c R)|]. split; [exact (C59_pool_coin_escrow Q c R)|]. split; [exact X|]. split; [exact (C59_pool_status Q c R)|exact (C59_num_mm_orders Q c records R L)].
Qed.
Print Assumptions C59_all_invariants.
(** ... and a reachable state breaks it. *)
Theorem C35_invariant_refuted : exists c, reach (sane any_params) c /\ fst c = Between /\ offer_escrow_broken (snd c) = true.
Proof. exists (after 1 drain_short). split; [apply after_reach; reflexivity|]. split; vm_compute; reflexivity. Qed.
Print Assumptions C35_invariant_refuted.

(** Concrete cases: pending requests and active pools; two market making orders and their counter.
    The checks are not vacuous: the same states with the bank emptied, and with a wrong counter, break them. *)
Example C59_requests_example : reach (sane any_params) (after 1 pools2) /\
  (let s := snd (after 1 pools2) in let poor := set_bank s (mkBank (fun _ _ => 0) (fun _ => 0)) in
   (length (st_deps s), length (st_wds s), length (st_pools s), deposit_escrow_broken poor, pool_coin_escrow_broken poor, pool_status_broken poor) = (1%nat, 1%nat, 2%nat, true, true, true)).
Proof. split; [apply after_reach; reflexivity|]. vm_compute. reflexivity. Qed.
Example C59_counter_example : reach (sane any_params) (after 1 trade2) /\
  (let s := snd (after 1 trade2) in (st_mm s (User 1) 1, num_mm_broken s [((User 1, 1), 2)], num_mm_broken s [((User 1, 1), 1)], num_mm_broken s [((User 1, 1), 2); ((User 2, 1), 1)]) = (2, false, true, true)).
Proof. split; [apply after_reach; reflexivity|]. vm_compute. reflexivity. Qed.
