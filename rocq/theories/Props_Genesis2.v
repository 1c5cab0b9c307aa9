(** C70, C71: importing any accepted genesis file (not only an exported one).  [zero] is Go's zero time;
    [b], [h] and [t] are the bank and the clock at the time of the import. *)
From Coq Require Import List ZArith Lia Bool Permutation.
From Verif Require Import Base Dec OrderModel MatchModel PoolModel KeeperModel KeeperSpec KeeperExample GenesisModel GenesisSpec GenesisProofs GenesisImport.
Import ListNotations.
Local Open Scope Z_scope.

(** ** C70: an accepted genesis is stored as it is: exporting gives back the same parameters, counters
    and records, sorted by key; each record is found under its own id and nothing else is; and the
    bank is not touched. *)
Theorem C70_import_exact : forall zero b h t g s, init_genesis zero b h t g = Some s ->
  st_params s = g_params g /\ st_last_pair s = g_last_pair g /\ st_last_pool s = g_last_pool g /\ st_bank s = b /\ st_height s = h /\ st_time s = t /\
  (forall mm, let g' := export_genesis s mm in Permutation (g_pairs g') (g_pairs g) /\ Permutation (g_pools g') (g_pools g) /\ Permutation (g_deps g') (g_deps g) /\
     Permutation (g_wds g') (g_wds g) /\ Permutation (g_orders g') (g_orders g)) /\
  (forall i p, get_pair s i = Some p <-> In p (g_pairs g) /\ pr_id p = i) /\ (forall i p, get_pool s i = Some p <-> In p (g_pools g) /\ pl_id p = i) /\
  (forall i j r, mget (st_deps s) (i, j) = Some r <-> In r (g_deps g) /\ dr_pool r = i /\ dr_id r = j) /\ (forall i j r, mget (st_wds s) (i, j) = Some r <-> In r (g_wds g) /\ wr_pool r = i /\ wr_id r = j) /\
  (forall i j o, get_order s i j = Some o <-> In o (g_orders g) /\ ko_pair o = i /\ ko_id o = j).
Proof.
  intros zero b h t g s H. rewrite init_genesis_eq in H. destruct (genesis_valid zero g) eqn:V; [|discriminate H]. injection H as <-.
  destruct (imported_fields b h t g) as (E1 & E2 & E3 & E4 & E5 & E6 & _). do 2 (split; [assumption|]). do 4 (split; [assumption|]). split; [intros mm; exact (imported_lists zero b h t g V)|exact (imported_gets zero b h t g V)].
Qed.
Print Assumptions C70_import_exact.
(** The stored counters are the listed ones when no user and pair is listed twice. *)
Theorem C70_counters : forall zero b h t g s, init_genesis zero b h t g = Some s -> NoDup (map fst (g_mm g)) -> lists_counters s (g_mm g).
Proof. intros zero b h t g s H. rewrite init_genesis_eq in H. destruct (genesis_valid zero g) eqn:V; [|discriminate H]. injection H as <-. exact (imported_counters zero b h t g V). Qed.
Print Assumptions C70_counters.
(** References resolve: a pool's pair, a request's pool, an order's pair and its coins; ids are within the counters. *)
Theorem C70_references : forall zero b h t g s, init_genesis zero b h t g = Some s ->
  (forall i p, get_pair s i = Some p -> i <> 0 /\ i <= st_last_pair s) /\
  (forall i p, get_pool s i = Some p -> i <> 0 /\ i <= st_last_pool s /\ exists pr, get_pair s (pl_pair p) = Some pr) /\
  (forall i j r, mget (st_deps s) (i, j) = Some r -> exists p, get_pool s i = Some p) /\
  (forall i j r, mget (st_wds s) (i, j) = Some r -> (exists p, get_pool s i = Some p) /\ wr_denom r = PoolCoin i) /\
  (forall i j o, get_order s i j = Some o -> exists pr, get_pair s i = Some pr /\ ko_offer_denom o = (match ko_dir o with Buy => pr_quote pr | Sell => pr_base pr end) /\
     ko_demand_denom o = (match ko_dir o with Buy => pr_base pr | Sell => pr_quote pr end)).
Proof.
  intros zero b h t g s H. rewrite init_genesis_eq in H. destruct (genesis_valid zero g) eqn:V; [|discriminate H]. injection H as <-.
  destruct (imported_fields b h t g) as (_ & _ & _ & _ & E5 & E6 & _). destruct (imported_gets zero b h t g V) as (G1 & G2 & G3 & G4 & G5). destruct (imported_refs zero b h t g V) as (R1 & R2 & R3 & R4 & R5 & R6). rewrite E5, E6.
  split; [|split; [|split; [|split]]].
  - intros i p H. apply G1 in H. destruct H as [H <-]. exact (R5 p H).
  - intros i p H. apply G2 in H. destruct H as [H <-]. destruct (R6 p H) as [A B]. split; [exact A|]. split; [exact B|exact (R1 p H)].
  - intros i j r H. apply G3 in H. destruct H as (H & <- & _). exact (R2 r H).
  - intros i j r H. apply G4 in H. destruct H as (H & <- & _). destruct (R3 r H) as (p & A & B). split; [exists p; exact A|exact B].
  - intros i j o H. apply G5 in H. destruct H as (H & <- & _). exact (R4 o H).
Qed.
Print Assumptions C70_references.
(** The indexes list exactly the records; a pair is found by its coins if no other has the same. *)
Theorem C70_indexes : forall zero b h t g s, init_genesis zero b h t g = Some s ->
  (forall i j, mget (st_plidx s) (i, j) = Some tt <-> exists p, get_pool s j = Some p /\ pl_pair p = i) /\
  (forall a i j, mget (st_oidx s a) (i, j) = Some tt <-> exists o, get_order s i j = Some o /\ ko_owner o = a) /\
  (forall i p, get_pair s i = Some p -> (forall j q, get_pair s j = Some q -> pr_base q = pr_base p -> pr_quote q = pr_quote p -> q = p) -> st_pidx s (pr_base p) (pr_quote p) = Some i) /\
  (forall x y, (forall i p, get_pair s i = Some p -> ~ (pr_base p = x /\ pr_quote p = y)) -> st_pidx s x y = None).
Proof.
  intros zero b h t g s H. rewrite init_genesis_eq in H. destruct (genesis_valid zero g) eqn:V; [|discriminate H]. injection H as <-.
  destruct (imported_gets zero b h t g V) as (G1 & G2 & G3 & G4 & G5). destruct (imported_indexes zero b h t g V) as (I1 & I2 & I3 & I4). split; [|split; [|split]].
  - intros i j. rewrite I1. split; [intros (p & H & A & B); exists p; split; [apply G2; auto|exact A]|intros (p & H & A); apply G2 in H; destruct H; exists p; auto].
  - intros a i j. rewrite I2. split; [intros (o & H & A & B & C); exists o; split; [apply G5; auto|exact A]|intros (o & H & A); apply G5 in H; destruct H as (H & B & C); exists o; auto].
  - intros i p H U. apply G1 in H. destruct H as [H <-]. apply I3; [exact H|]. intros q Hq A B. apply (U (pr_id q) q); [apply G1; auto|exact A|exact B].
  - intros x y H. apply I4. intros p Hp. apply (H (pr_id p) p). apply G1. auto.
Qed.
Print Assumptions C70_indexes.
(** What it exports is accepted again. *)
Theorem C70_reexport : forall zero b h t g s mm, init_genesis zero b h t g = Some s -> lists_counters s mm -> exists s', init_genesis zero b h t (export_genesis s mm) = Some s'.
Proof.
  intros zero b h t g s mm H L. rewrite init_genesis_eq in H. destruct (genesis_valid zero g) eqn:V; [|discriminate H]. injection H as <-. rewrite init_genesis_eq.
  destruct (imported_fields b h t g) as (E1 & _ & _ & _ & E5 & E6 & _). destruct (imported_lists zero b h t g V) as (P1 & P2 & P3 & P4 & P5).
  assert (X : genesis_valid zero (mkG (g_params g) (g_last_pair g) (g_last_pool g) (g_pairs g) (g_pools g) (g_deps g) (g_wds g) (g_orders g) mm) = true).
  { unfold genesis_valid in V. apply andb_true_iff in V. destruct V as [V _]. unfold genesis_valid. apply andb_true_iff. split; [exact V|]. apply forallb_forall. intros [[a i] n] Hn. apply (proj2 L) in Hn. apply negb_true_iff, Z.eqb_neq. apply Hn. }
  assert (Y : genesis_valid zero (export_genesis (imported b h t g) mm) = true); [|rewrite Y; eexists; reflexivity].
  refine (valid_perm zero _ (mkG (g_params g) (g_last_pair g) (g_last_pool g) (g_pairs g) (g_pools g) (g_deps g) (g_wds g) (g_orders g) mm) _ _ _ _ _ _ _ _ _ X); try assumption. apply Permutation_refl.
Qed.
Print Assumptions C70_reexport.

(** A genesis with two pairs listed out of order, a pool, a deposit, an order and its counter. *)
Definition g_coin_pair (i k l : Z) : pair := mkPair i (Coin k) (Coin l) 1 None 1.
Definition g_example : gstate :=
  mkG (ex_params 1) 2 1 [g_coin_pair 2 2 9; g_coin_pair 1 1 2] [mkPool 1 1 PBasic (User 1) 1 0 false] [mkDreq 1 1 3 (User 2) [(Coin 1, 100); (Coin 2, 50)] [] 0 RNotExecuted] []
    [mkKOrder TMM 1 1 3 (User 3) Sell (Coin 1) 500 500 (Coin 2) 0 P18 500 500 1 1000 ONotExecuted] [((User 3, 1), 1)].
Example C70_example : match init_genesis (-1) ex_bank 10 20 g_example with
  | Some s => map pr_id (map snd (st_pairs s)) = [1; 2] /\ is_some (get_order s 1 1) = true /\ NoDup (map fst (g_mm g_example)) /\ st_mm s (User 3) 1 = 1
  | None => False end.
Proof. vm_compute. repeat split; try reflexivity. constructor; [intros []|constructor]. Qed.
(** Two orders under one key are rejected. *)
Example C70_rejected : init_genesis (-1) ex_bank 10 20 (mkG (ex_params 1) 2 1 (g_pairs g_example) (g_pools g_example) [] [] (g_orders g_example ++ g_orders g_example) []) = None.
Proof. vm_compute. reflexivity. Qed.

(** ** C71: an accepted genesis satisfies the module's invariants and the chain runs from it.  It does
    not: none of the following is checked.  Two pairs with the same coins (C40): *)
Theorem C71_same_coins_refuted : exists zero g s p q, init_genesis zero ex_bank 10 20 g = Some s /\ get_pair s 1 = Some p /\ get_pair s 2 = Some q /\
  pr_base p = pr_base q /\ pr_quote p = pr_quote q /\ st_pidx s (pr_base p) (pr_quote p) = Some 2.
Proof.
  exists (-1), (mkG (ex_params 1) 2 0 [g_coin_pair 1 1 2; g_coin_pair 2 1 2] [] [] [] [] []). eexists. exists (g_coin_pair 1 1 2), (g_coin_pair 2 1 2).
  rewrite init_genesis_eq. split; [reflexivity|]. vm_compute. repeat split; reflexivity.
Qed.
Print Assumptions C71_same_coins_refuted.
(** Market making counters without orders (C38): *)
Theorem C71_counters_refuted : exists zero g s, init_genesis zero ex_bank 10 20 g = Some s /\ live_mm_orders s (User 1) 1 = 0 /\ st_mm s (User 1) 1 = 15.
Proof.
  exists (-1), (mkG (ex_params 1) 1 0 [g_coin_pair 1 1 2] [] [] [] [] [((User 1, 1), 15)]). eexists. rewrite init_genesis_eq. split; [reflexivity|]. vm_compute. split; reflexivity.
Qed.
Print Assumptions C71_counters_refuted.
(** An open order whose offer coins are not in escrow (C35): its expiry cannot be refunded and the first
    end blocker after it fails (C43). *)
Theorem C71_escrow_refuted : exists zero g s, init_genesis zero ex_bank 10 20 g = Some s /\ (forall d, bal (st_bank s) (PairEscrow 1) d = 0) /\ end_block idl (begin_block s 2000) = None.
Proof. exists (-1), (mkG (ex_params 1) 1 0 [g_coin_pair 1 1 2] [] [] [] (g_orders g_example) []). eexists. rewrite init_genesis_eq. split; [reflexivity|]. split; [intros d; reflexivity|]. vm_compute. reflexivity. Qed.
Print Assumptions C71_escrow_refuted.
