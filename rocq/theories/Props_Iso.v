(** ** C77: pairs trade independently *)
From Verif Require Import Base Dec OrderModel MatchModel MatchSpec MatchProofs PoolModel KeeperModel KeeperLib KeeperSpec KeeperMicro KeeperInv KeeperBank KeeperSteps KeeperTrade KeeperHist GenesisProofs KeeperExample IsoSpec KeeperIso KeeperIso2 KeeperIso3 KeeperIso4 Props_Node.

Lemma reach_str Q ph s : reach (sane Q) (ph, s) -> str s.
Proof. intros R. exact (v_str _ _ (reach_okp Q _ R)). Qed.
Lemma wst_at i s1 s2 : same_market i s1 s2 -> str s2 -> plain_collectors (st_params s1) -> wst i (pool_in s1 i) True s2.
Proof.
  intros M S PC. apply wst_str; [exact S| |].
  - intros _ n p G. rewrite (sm_member _ _ _ M). unfold pool_in. rewrite G. apply Z.eqb_eq.
  - rewrite <- (sm_params _ _ _ M). intros [E|(n & E & _)]; [exact (proj1 (proj1 PC) _ E)|exact (proj2 (proj1 PC) _ E)].
Qed.
Lemma same_refl i s : same_market i s s.
Proof. constructor; auto. Qed.
Lemma same_trans i a b c : same_market i a b -> same_market i b c -> same_market i a c.
Proof.
  intros A B. pose proof (sm_member _ _ _ A) as N. constructor.
  - rewrite (sm_pair _ _ _ A). apply B.
  - intros j. rewrite (sm_orders _ _ _ A). apply B.
  - intros x. rewrite (sm_mm _ _ _ A). apply B.
  - intros n. rewrite N. apply B.
  - intros n Pn. rewrite (sm_pools _ _ _ A) by exact Pn. apply B. rewrite <- N. exact Pn.
  - intros n j Pn. rewrite (sm_deps _ _ _ A) by exact Pn. apply B. rewrite <- N. exact Pn.
  - intros n j Pn. rewrite (sm_wds _ _ _ A) by exact Pn. apply B. rewrite <- N. exact Pn.
  - intros d. rewrite (sm_escrow _ _ _ A). apply B.
  - intros n d Pn. rewrite (sm_reserves _ _ _ A) by exact Pn. apply B. rewrite <- N. exact Pn.
  - intros n Pn. rewrite (sm_supplies _ _ _ A) by exact Pn. apply B. rewrite <- N. exact Pn.
  - rewrite (sm_params _ _ _ A). apply B.
  - rewrite (sm_time _ _ _ A). apply B.
  - rewrite (sm_height _ _ _ A). apply B.
Qed.

(** What a batch does to a pair and everything that belongs to it depends on nothing else: two states that
    agree on the pair agree on it after the batch, whatever else is in them. *)
Theorem C77_batch : forall Q i s1 s2 iter1 iter2 t1 t2, reach (sane Q) (InBlock, s1) -> reach (sane Q) (InBlock, s2) -> plain_collectors (st_params s1) -> same_market i s1 s2 ->
  is_perm_iter iter1 -> is_perm_iter iter2 -> end_block iter1 s1 = Some t1 -> end_block iter2 s2 = Some t2 -> same_market i t1 t2.
Proof.
  intros Q i s1 s2 iter1 iter2 t1 t2 R1 R2 PC M Hi1 Hi2 H1 H2. rewrite (C73_end_block Q s2 iter2 iter1 R2 Hi2 Hi1) in H2.
  pose proof (reach_okp Q _ R1) as I1. pose proof (reach_okp Q _ R2) as I2. cbn [snd] in I1, I2.
  destruct (batch_sim i (pool_in s1 i) True (sane Q) iter1 s1 s2 t1 t2 Logic.I Hi1 (fun p H => proj2 H) I1 I2 (wst_at i s1 s1 (same_refl i s1) (v_str _ _ I1) PC) (wst_at i s1 s2 M (v_str _ _ I2) PC) (to_mkt i s1 s2 M) H1 H2) as (N & W1 & W2).
  assert (L : forall s t, reach (sane Q) (InBlock, s) -> end_block iter1 s = Some t -> (forall n, pool_in s i n = pool_in s1 i n) -> forall n, pool_in s1 i n = true -> get_pool t n <> None).
  { intros s t R E Em n Pn. rewrite <- Em in Pn. unfold pool_in in Pn. destruct (get_pool s n) as [p|] eqn:G; [|discriminate Pn].
    assert (X : later s t). { apply (later_amics (sane Q)); [|exact (reach_okp Q _ R)]. exact (step_mics Q (InBlock, s) (Between, t) (Step_end _ iter1 s t Hi1 E) (reach_okp Q _ R)). }
    destruct (l_pools _ _ X n p G) as (p' & G' & _). congruence. }
  apply (of_mkt i (pool_in s1 i) t1 t2 N).
  - exact (members_wst i s1 t1 W1 (L s1 t1 R1 H1 (fun n => eq_refl))).
  - exact (members_wst i s1 t2 W2 (L s2 t2 R2 H2 (fun n => eq_sym (sm_member _ _ _ M n)))).
Qed.
Print Assumptions C77_batch.

(** A message that has nothing to do with the pair leaves it and everything that belongs to it untouched. *)
Theorem C77_messages : forall Q i s m s', reach (sane Q) (InBlock, s) -> plain_collectors (st_params s) -> elsewhere i s m = true -> deliver s m = Some s' -> same_market i s s'.
Proof.
  intros Q i s m s' R PC El H. assert (HP : forall m, get_pool s m = None -> pool_in s i m = false) by (intros k G; unfold pool_in; rewrite G; reflexivity).
  destruct (elsewhere_fr i (pool_in s i) True s (reach_str _ _ _ R) PC (wst_at i s s (same_refl i s) (reach_str _ _ _ R) PC) HP m s' (fun n => eq_refl) El H) as [N K]. exact (of_mkt i (pool_in s i) s s' N (fun n => eq_refl) K).
Qed.
Print Assumptions C77_messages.

(** The begin blocker keeps the agreement. *)
Theorem C77_begin_block : forall Q i s1 s2 t, reach (sane Q) (Between, s1) -> reach (sane Q) (Between, s2) -> same_market i s1 s2 -> same_market i (begin_block s1 t) (begin_block s2 t).
Proof.
  intros Q i s1 s2 t R1 R2 M. pose proof (reach_str _ _ _ R1) as S1. pose proof (reach_str _ _ _ R2) as S2. unfold begin_block.
  destruct (delete_outdated_eq (set_clock s1 (st_height s1 + 1) t)) as (f1 & -> & _). destruct (delete_outdated_eq (set_clock s2 (st_height s2 + 1) t)) as (f2 & -> & _).
  destruct M as [A1 A2 A3 A4 A5 A6 A7 A8 A9 A10 A11 A12 A13]. constructor; try assumption.
  - intros j. unfold get_order in *. cbn [st_orders set_oidx set_orders set_clock set_deps set_wds]. rewrite !mget_filter by (apply msorted_NoDup; apply i_orders_sorted; assumption). rewrite A2. reflexivity.
  - intros n j Pn. cbn [st_deps set_oidx set_orders set_clock set_deps set_wds]. rewrite !mget_filter by (apply msorted_NoDup; apply i_deps_sorted; assumption). rewrite (A6 n j Pn). reflexivity.
  - intros n j Pn. cbn [st_wds set_oidx set_orders set_clock set_deps set_wds]. rewrite !mget_filter by (apply msorted_NoDup; apply i_wds_sorted; assumption). rewrite (A7 n j Pn). reflexivity.
  - reflexivity.
  - cbn [st_height set_oidx set_orders set_clock set_deps set_wds]. rewrite A13. reflexivity.
Qed.
Print Assumptions C77_begin_block.

(** Whatever others do in a block with other pairs, the batch does the same to this pair. *)
Theorem C77_no_interference : forall Q i s ms s' iter iter' t t', reach (sane Q) (InBlock, s) -> plain_collectors (st_params s) -> elsewhere_run i s ms = Some s' ->
  is_perm_iter iter -> is_perm_iter iter' -> end_block iter s = Some t -> end_block iter' s' = Some t' -> same_market i t t'.
Proof.
  intros Q i s ms s' iter iter' t t' R PC H Hi Hi' E E'.
  assert (X : forall ms s, reach (sane Q) (InBlock, s) -> plain_collectors (st_params s) -> elsewhere_run i s ms = Some s' -> reach (sane Q) (InBlock, s') /\ same_market i s s').
  { clear. induction ms as [|m ms IH]; intros s R PC H; cbn [elsewhere_run] in H; [injection H as <-; split; [exact R|apply same_refl]|].
    destruct (elsewhere i s m) eqn:El; [|discriminate H]. destruct (deliver s m) as [s1|] eqn:D; [|discriminate H].
    assert (R1 : reach (sane Q) (InBlock, s1)). { apply (reach_step _ _ _ R). econstructor; [exact D|]. intros p ->. discriminate El. }
    pose proof (C77_messages Q i s m s1 R PC El D) as M. destruct (IH s1 R1) as [A B]; [rewrite <- (sm_params _ _ _ M); exact PC|exact H|]. split; [exact A|exact (same_trans _ _ _ _ M B)]. }
  destruct (X ms s R PC H) as [R' M]. exact (C77_batch Q i s s' iter iter' t t' R R' PC M Hi Hi' E E').
Qed.
Print Assumptions C77_no_interference.

(** While pair 1 trades, others create a second pair with a pool, trade there and deposit; both batches complete. *)
Definition others : list msg :=
  [MCreatePair 2 (Coin 1) (Coin 9); MCreatePool 3 2 [(Coin 1, 100000000); (Coin 9, 50000000)]; MLimitOrder 3 2 Buy (Coin 9) 70000 (Coin 1) half 140000 3600;
   MLimitOrder 2 2 Sell (Coin 1) 100000 (Coin 9) half 100000 3600; MCancelAllOrders 3 [2]; MSend 3 (PairEscrow 2) [(Coin 1, 5)]; MDeposit 2 1 [(Coin 1, 10000000); (Coin 9, 6000000)]].
Definition traded (i : Z) (o : option state) : bool := match o with Some s => match get_pair s i with Some p => is_some (pr_last_price p) | None => false end | None => false end.
Definition iso_check (s : state) : bool := match elsewhere_run 1 s others with Some s' => negb (traded 1 (Some s')) && traded 1 (end_block idl s) && traded 1 (end_block idl s') && traded 2 (end_block idl s') | None => false end.
Example C77_example : reach (sane any_params) (InBlock, snd (after 1 trade1)) /\ st_params (snd (after 1 trade1)) = ex_params 1 /\ plain_collectors (ex_params 1) /\ iso_check (snd (after 1 trade1)) = true.
Proof.
  split; [apply after_in_block; [reflexivity|vm_compute; reflexivity]|]. split; [vm_compute; reflexivity|]. split; [repeat split; discriminate|vm_compute; reflexivity].
Qed.
