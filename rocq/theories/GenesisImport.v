(** Importing an arbitrary accepted genesis. *)
From Coq Require Import List ZArith Lia Bool Permutation.
From Verif Require Import Base Dec OrderModel KeeperModel KeeperLib KeeperSpec KeeperMicro GenesisModel GenesisSpec GenesisProofs.
Import ListNotations.
Local Open Scope Z_scope.

Lemma fill_get {A V} (f : A -> key) (g : A -> V) l k v : NoDup (map f l) -> mget (fill f g l []) k = Some v <-> exists x, In x l /\ f x = k /\ g x = v.
Proof.
  intros N. split.
  - intros H. destruct (in_dec (fun a b : key => ltac:(decide equality; apply Z.eq_dec)) k (map f l)) as [I|I].
    + apply in_map_iff in I. destruct I as (x & <- & Hx). rewrite (fill_in f g l [] x N Hx) in H. injection H as <-. exists x. auto.
    + rewrite fill_out in H by exact I. discriminate H.
  - intros (x & Hx & <- & <-). apply fill_in; assumption.
Qed.
Lemma fill_perm {V} (f : V -> key) l : NoDup (map f l) -> msorted (fill f (fun v => v) l []) /\ Permutation (map snd (fill f (fun v => v) l [])) l /\
  (forall k v, mget (fill f (fun v => v) l []) k = Some v <-> In v l /\ f v = k).
Proof.
  intros N. assert (G : forall k v, mget (fill f (fun v => v) l []) k = Some v <-> In v l /\ f v = k).
  { intros k v. rewrite fill_get by exact N. split; [intros (x & H & E & <-); auto|intros [H E]; exists v; auto]. }
  assert (S : msorted (fill f (fun v => v) l [])) by (apply fill_sorted; constructor). split; [exact S|]. split; [|exact G].
  apply NoDup_Permutation.
  - apply (NoDup_map_inv f). rewrite map_map. pose proof (msorted_NoDup _ S) as Nm. assert (W : map fst (fill f (fun v => v) l []) = map (fun x : key * V => f (snd x)) (fill f (fun v => v) l [])); [|rewrite W in Nm; exact Nm].
    apply map_ext_in. intros [k v] X. cbn [fst snd]. symmetry. apply (G k v). apply mget_iff; assumption.
  - apply (NoDup_map_inv f). exact N.
  - intros v. rewrite values_In by exact S. split; [intros (k & H); apply G in H; apply H|intros H; exists (f v); apply G; auto].
Qed.
Lemma find_in {A} (f : A -> Z) (l : list A) i x : find (fun p => f p =? i) l = Some x -> In x l /\ f x = i.
Proof. intros H. split; [exact (proj1 (find_some _ _ H))|]. apply Z.eqb_eq. exact (proj2 (find_some _ _ H)). Qed.

Section Imported.
Context (zero : Z) (b : bank) (h t : Z) (g : gstate) (V : genesis_valid zero g = true).
Let s := imported b h t g.
Lemma valid_parts : valid_params (g_params g) = true /\ (forall p, In p (g_pairs g) -> pair_valid g p = true) /\ NoDup (map (fun p => (pr_id p, 0)) (g_pairs g)) /\
  (forall p, In p (g_pools g) -> pool_valid g p = true) /\ NoDup (map (fun p => (pl_id p, 0)) (g_pools g)) /\
  (forall r, In r (g_deps g) -> dep_valid g r = true) /\ NoDup (map (fun r => (dr_pool r, dr_id r)) (g_deps g)) /\
  (forall r, In r (g_wds g) -> wd_valid g r = true) /\ NoDup (map (fun r => (wr_pool r, wr_id r)) (g_wds g)) /\
  (forall o, In o (g_orders g) -> order_valid zero g o = true) /\ NoDup (map (fun o => (ko_pair o, ko_id o)) (g_orders g)) /\ (forall r, In r (g_mm g) -> snd r <> 0).
Proof.
  unfold genesis_valid in V. rewrite !andb_true_iff in V. rewrite !forallb_forall, !unique_NoDup in V. destruct V as [[[[[[[[[[[V1 V2] V3] V4] V5] V6] V7] V8] V9] V10] V11] V12].
  repeat (split; [assumption|]). intros r H. specialize (V12 r H). apply negb_true_iff, Z.eqb_neq in V12. exact V12.
Qed.
Lemma imported_fields : st_params s = g_params g /\ st_bank s = b /\ st_height s = h /\ st_time s = t /\ st_last_pair s = g_last_pair g /\ st_last_pool s = g_last_pool g /\
  st_pairs s = fill (fun p => (pr_id p, 0)) (fun p => p) (g_pairs g) [] /\ st_pools s = fill (fun p => (pl_id p, 0)) (fun p => p) (g_pools g) [] /\
  st_deps s = fill (fun r => (dr_pool r, dr_id r)) (fun r => r) (g_deps g) [] /\ st_wds s = fill (fun r => (wr_pool r, wr_id r)) (fun r => r) (g_wds g) [] /\
  st_orders s = fill (fun o => (ko_pair o, ko_id o)) (fun o => o) (g_orders g) [] /\
  st_pidx s = fold_left add_pidx (g_pairs g) (fun _ _ => None) /\ st_plidx s = fill (fun p => (pl_pair p, pl_id p)) (fun _ => tt) (g_pools g) [] /\
  st_oidx s = fold_left add_oidx (g_orders g) (fun _ => []) /\ st_mm s = fold_left add_mm (g_mm g) (fun _ _ => 0).
Proof. unfold s, imported. rewrite import_mms_eq, import_orders_eq, import_wds_eq, import_deps_eq, import_pools_eq, import_pairs_eq. repeat (split; [reflexivity|]). reflexivity. Qed.

Lemma imported_lists : Permutation (map snd (st_pairs s)) (g_pairs g) /\ Permutation (map snd (st_pools s)) (g_pools g) /\ Permutation (map snd (st_deps s)) (g_deps g) /\
  Permutation (map snd (st_wds s)) (g_wds g) /\ Permutation (map snd (st_orders s)) (g_orders g).
Proof.
  destruct valid_parts as (_ & _ & N1 & _ & N2 & _ & N3 & _ & N4 & _ & N5 & _). destruct imported_fields as (_ & _ & _ & _ & _ & _ & E1 & E2 & E3 & E4 & E5 & _).
  rewrite E1, E2, E3, E4, E5. repeat (split; [apply fill_perm; assumption|]). apply fill_perm; assumption.
Qed.
Lemma imported_gets : (forall i p, get_pair s i = Some p <-> In p (g_pairs g) /\ pr_id p = i) /\ (forall i p, get_pool s i = Some p <-> In p (g_pools g) /\ pl_id p = i) /\
  (forall i j r, mget (st_deps s) (i, j) = Some r <-> In r (g_deps g) /\ dr_pool r = i /\ dr_id r = j) /\ (forall i j r, mget (st_wds s) (i, j) = Some r <-> In r (g_wds g) /\ wr_pool r = i /\ wr_id r = j) /\
  (forall i j o, get_order s i j = Some o <-> In o (g_orders g) /\ ko_pair o = i /\ ko_id o = j).
Proof.
  destruct valid_parts as (_ & _ & N1 & _ & N2 & _ & N3 & _ & N4 & _ & N5 & _). destruct imported_fields as (_ & _ & _ & _ & _ & _ & E1 & E2 & E3 & E4 & E5 & _).
  unfold get_pair, get_pool, get_order. rewrite E1, E2, E3, E4, E5.
  assert (PE : forall a c i j : Z, (a, c) = (i, j) <-> a = i /\ c = j) by (intros; split; [intros X; injection X; auto|intros [-> ->]; reflexivity]).
  repeat split; intros;
    repeat match goal with
    | H : mget (fill ?f _ _ _) _ = Some _ |- _ => apply (proj2 (proj2 (fill_perm f _ ltac:(eassumption)))) in H; destruct H as [? H]; apply PE in H; destruct H
    | |- mget (fill ?f _ _ _) _ = Some _ => apply (proj2 (proj2 (fill_perm f _ ltac:(eassumption)))); rewrite PE; intuition
    end; assumption.
Qed.
Lemma imported_refs : (forall p, In p (g_pools g) -> exists pr, get_pair s (pl_pair p) = Some pr) /\
  (forall r, In r (g_deps g) -> exists p, get_pool s (dr_pool r) = Some p) /\ (forall r, In r (g_wds g) -> exists p, get_pool s (wr_pool r) = Some p /\ wr_denom r = PoolCoin (wr_pool r)) /\
  (forall o, In o (g_orders g) -> exists pr, get_pair s (ko_pair o) = Some pr /\ ko_offer_denom o = (match ko_dir o with Buy => pr_quote pr | Sell => pr_base pr end) /\
     ko_demand_denom o = (match ko_dir o with Buy => pr_base pr | Sell => pr_quote pr end)) /\
  (forall p, In p (g_pairs g) -> pr_id p <> 0 /\ pr_id p <= g_last_pair g) /\ (forall p, In p (g_pools g) -> pl_id p <> 0 /\ pl_id p <= g_last_pool g).
Proof.
  destruct valid_parts as (_ & V1 & _ & V2 & _ & V3 & _ & V4 & _ & V5 & _ & _). destruct imported_gets as (G1 & G2 & _ & _ & _).
  assert (FP : forall i p, find_pair (g_pairs g) i = Some p -> get_pair s i = Some p) by (intros i p H; apply G1; apply (find_in pr_id); exact H).
  assert (FL : forall i p, find_pool (g_pools g) i = Some p -> get_pool s i = Some p) by (intros i p H; apply G2; apply (find_in pl_id); exact H).
  split; [|split; [|split; [|split; [|split]]]].
  - intros p H. specialize (V2 p H). unfold pool_valid in V2. destruct (find_pair (g_pairs g) (pl_pair p)) as [pr|] eqn:E; [|cbn [is_some] in V2; rewrite andb_false_r in V2; discriminate V2]. exists pr. apply FP. exact E.
  - intros r H. specialize (V3 r H). unfold dep_valid in V3. destruct (find_pool (g_pools g) (dr_pool r)) as [p|] eqn:E; [|rewrite andb_false_r in V3; discriminate V3]. exists p. apply FL. exact E.
  - intros r H. specialize (V4 r H). unfold wd_valid in V4. destruct (find_pool (g_pools g) (wr_pool r)) as [p|] eqn:E; [|rewrite andb_false_r in V4; discriminate V4]. exists p. split; [apply FL; exact E|].
    apply andb_true_iff in V4. destruct V4 as [_ V4]. destruct (denom_eqb_spec (wr_denom r) (PoolCoin (pl_id p))) as [->|]; [|discriminate V4]. rewrite (proj2 (find_in pl_id _ _ _ E)). reflexivity.
  - intros o H. specialize (V5 o H). unfold order_valid in V5. destruct (find_pair (g_pairs g) (ko_pair o)) as [pr|] eqn:E; [|rewrite andb_false_r in V5; discriminate V5]. exists pr. split; [apply FP; exact E|].
    apply andb_true_iff in V5. destruct V5 as [_ V5]. apply andb_true_iff in V5. destruct V5 as [_ V5].
    destruct (ko_dir o); apply andb_true_iff in V5; destruct V5 as [X Y];
      repeat match goal with Z0 : denom_eqb ?a ?c = true |- _ => destruct (denom_eqb_spec a c) as [?|]; [clear Z0|discriminate Z0] end; split; assumption.
  - intros p H. specialize (V1 p H). unfold pair_valid in V1. rewrite !andb_true_iff in V1. destruct V1 as [[[V1 _] _] V1']. apply negb_true_iff, Z.eqb_neq in V1. apply Z.leb_le in V1'. auto.
  - intros p H. specialize (V2 p H). unfold pool_valid in V2. rewrite !andb_true_iff in V2. destruct V2 as [[[V2 _] V2'] _]. apply negb_true_iff, Z.eqb_neq in V2. apply Z.leb_le in V2'. auto.
Qed.
Lemma imported_indexes : (forall i j, mget (st_plidx s) (i, j) = Some tt <-> exists p, In p (g_pools g) /\ pl_pair p = i /\ pl_id p = j) /\
  (forall a i j, mget (st_oidx s a) (i, j) = Some tt <-> exists o, In o (g_orders g) /\ ko_owner o = a /\ ko_pair o = i /\ ko_id o = j) /\
  (forall p, In p (g_pairs g) -> (forall q, In q (g_pairs g) -> pr_base q = pr_base p -> pr_quote q = pr_quote p -> q = p) -> st_pidx s (pr_base p) (pr_quote p) = Some (pr_id p)) /\
  (forall x y, (forall p, In p (g_pairs g) -> ~ (pr_base p = x /\ pr_quote p = y)) -> st_pidx s x y = None).
Proof.
  destruct valid_parts as (_ & _ & _ & _ & N2 & _ & _ & _ & _ & _ & N5 & _). destruct imported_fields as (_ & _ & _ & _ & _ & _ & _ & _ & _ & _ & _ & E1 & E2 & E3 & _). rewrite E1, E2, E3.
  split; [|split; [|split]].
  - intros i j. rewrite fill_get.
    + split; [intros (p & H & E & _); injection E as Ea Eb; exists p; auto|intros (p & H & <- & <-); exists p; auto].
    + clear -N2. induction (g_pools g) as [|p l IH]; cbn [map] in *; [constructor|]. apply NoDup_cons_iff in N2. destruct N2 as [N N2]. constructor; [|apply IH; exact N2].
      intros H. apply N. apply in_map_iff in H. destruct H as (q & E & H). injection E as _ E. apply in_map_iff. exists q. split; [congruence|exact H].
  - intros a i j. rewrite add_oidx_fill, fill_get.
    + split.
      * intros (o & H & E & _). injection E as Ea Eb. apply filter_In in H. destruct H as [H O]. destruct (addr_eqb_spec a (ko_owner o)) as [->|]; [|discriminate O]. exists o. auto.
      * intros (o & H & <- & <- & <-). exists o. split; [apply filter_In; split; [exact H|apply addr_eqb_refl]|]. auto.
    + clear -N5. induction (g_orders g) as [|o l IH]; cbn [map filter] in *; [constructor|]. apply NoDup_cons_iff in N5. destruct N5 as [N N5]. destruct (addr_eqb a (ko_owner o)); [|apply IH; exact N5].
      cbn [map]. constructor; [|apply IH; exact N5]. intros H. apply N. apply in_map_iff in H. destruct H as (q & E & H). apply filter_In in H. apply in_map_iff. exists q. split; [exact E|apply H].
  - intros p H U. apply add_pidx_in; [exact H|]. intros q Hq Eb Eq. rewrite (U q Hq Eb Eq). reflexivity.
  - intros x y H. rewrite add_pidx_out by exact H. reflexivity.
Qed.
Lemma imported_counters : NoDup (map fst (g_mm g)) -> lists_counters s (g_mm g).
Proof.
  intros N. destruct valid_parts as (_ & _ & _ & _ & _ & _ & _ & _ & _ & _ & _ & NZ). destruct imported_fields as (_ & _ & _ & _ & _ & _ & _ & _ & _ & _ & _ & _ & _ & _ & E). split; [exact N|].
  intros a i n. rewrite E. split.
  - intros H. split; [apply add_mm_in; assumption|exact (NZ _ H)].
  - intros [H Nn]. destruct (in_dec (fun x y : addr * Z => ltac:(decide equality; [apply Z.eq_dec|destruct (addr_eqb_spec a0 a1); auto])) (a, i) (map fst (g_mm g))) as [I|I].
    + apply in_map_iff in I. destruct I as ([k m] & Ek & I). cbn [fst] in Ek. subst k. rewrite (add_mm_in _ _ a i m N I) in H. subst m. exact I.
    + rewrite add_mm_out in H by exact I. congruence.
Qed.
End Imported.

(** Exporting the imported state gives an accepted genesis again. *)
Lemma find_perm {A} (f : A -> Z) (l l' : list A) i : NoDup (map (fun p => (f p, 0)) l) -> Permutation l l' -> find (fun p => f p =? i) l = find (fun p => f p =? i) l'.
Proof.
  intros N P. assert (N' : NoDup (map (fun p => (f p, 0)) l')) by (eapply Permutation_NoDup; [apply Permutation_map; exact P|exact N]).
  assert (U : forall m, NoDup (map (fun p => (f p, 0)) m) -> forall x y, In x m -> In y m -> f x = f y -> x = y).
  { clear. induction m as [|z m IH]; intros N x y Hx Hy E; [destruct Hx|]. cbn [map] in N. apply NoDup_cons_iff in N. destruct N as [N1 N2].
    destruct Hx as [->|Hx], Hy as [->|Hy]; [reflexivity| | |exact (IH N2 x y Hx Hy E)]; exfalso; apply N1; apply in_map_iff; [exists y|exists x]; split; congruence || assumption. }
  destruct (find (fun p => f p =? i) l) as [x|] eqn:E, (find (fun p => f p =? i) l') as [y|] eqn:E'; try reflexivity.
  - apply find_in in E. apply find_in in E'. f_equal. apply (U l' N'); [exact (Permutation_in _ P (proj1 E))|apply E'|destruct E, E'; congruence].
  - apply find_in in E. exfalso. pose proof (find_none _ _ E' x (Permutation_in _ P (proj1 E))) as X. apply Z.eqb_neq in X. apply X. apply E.
  - apply find_in in E'. exfalso. pose proof (find_none _ _ E y (Permutation_in _ (Permutation_sym P) (proj1 E'))) as X. apply Z.eqb_neq in X. apply X. apply E'.
Qed.
Lemma forallb_perm {A} (f f' : A -> bool) l l' : Permutation l l' -> (forall x, In x l -> f x = f' x) -> forallb f l = forallb f' l'.
Proof.
  intros P E. apply eq_true_iff_eq. rewrite !forallb_forall. split; intros H x Hx.
  - apply (Permutation_in _ (Permutation_sym P)) in Hx. rewrite <- E by exact Hx. exact (H x Hx).
  - rewrite E by exact Hx. apply H. exact (Permutation_in _ P Hx).
Qed.
Lemma unique_perm {A} (f : A -> Z * Z) l l' : Permutation l l' -> unique f l = unique f l'.
Proof.
  intros P. apply eq_true_iff_eq. rewrite !unique_NoDup. split; apply Permutation_NoDup; apply Permutation_map; [exact P|apply Permutation_sym; exact P].
Qed.
Lemma valid_perm zero g g' : g_params g = g_params g' -> g_last_pair g = g_last_pair g' -> g_last_pool g = g_last_pool g' -> Permutation (g_pairs g) (g_pairs g') -> Permutation (g_pools g) (g_pools g') ->
  Permutation (g_deps g) (g_deps g') -> Permutation (g_wds g) (g_wds g') -> Permutation (g_orders g) (g_orders g') -> Permutation (g_mm g) (g_mm g') -> genesis_valid zero g' = true -> genesis_valid zero g = true.
Proof.
  intros E1 E2 E3 P1 P2 P3 P4 P5 P6 H. pose proof (valid_parts zero g' H) as W. destruct W as (_ & _ & N1 & _ & N2 & _).
  assert (F1 : forall i, find_pair (g_pairs g') i = find_pair (g_pairs g) i) by (intros i; apply (find_perm pr_id); [exact N1|apply Permutation_sym; exact P1]).
  assert (F2 : forall i, find_pool (g_pools g') i = find_pool (g_pools g) i) by (intros i; apply (find_perm pl_id); [exact N2|apply Permutation_sym; exact P2]).
  rewrite <- H. unfold genesis_valid. rewrite E1, (unique_perm _ _ _ P1), (unique_perm _ _ _ P2), (unique_perm _ _ _ P3), (unique_perm _ _ _ P4), (unique_perm _ _ _ P5).
  rewrite (forallb_perm (pair_valid g) (pair_valid g') _ _ P1), (forallb_perm (pool_valid g) (pool_valid g') _ _ P2), (forallb_perm (dep_valid g) (dep_valid g') _ _ P3),
    (forallb_perm (wd_valid g) (wd_valid g') _ _ P4), (forallb_perm (order_valid zero g) (order_valid zero g') _ _ P5), (forallb_perm (fun r => negb (snd r =? 0)) (fun r => negb (snd r =? 0)) _ _ P6); [reflexivity|..]; intros x _; try reflexivity.
  - unfold order_valid. rewrite F1. reflexivity.
  - unfold wd_valid. rewrite F2. reflexivity.
  - unfold dep_valid. rewrite F2. destruct (find_pool (g_pools g) (dr_pool x)); [rewrite F1|]; reflexivity.
  - unfold pool_valid. rewrite F1, E3. reflexivity.
  - unfold pair_valid. rewrite E2. reflexivity.
Qed.
