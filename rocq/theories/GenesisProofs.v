(** * Proofs about genesis export and import *)
From Coq Require Import List ZArith Lia Bool Sorted Permutation.
From Verif Require Import Base Dec OrderModel OrderProofs MatchModel PoolModel KeeperModel KeeperSpec KeeperLib KeeperMicro KeeperInv KeeperBank KeeperSteps
  KeeperTrade KeeperHist KeeperBlock GenesisModel GenesisSpec.
Import ListNotations.
Local Open Scope Z_scope.

(** ** Sorted maps *)
Lemma mget_above {V} (m : amap V) k : (forall kv, In kv m -> key_ltb k (fst kv) = true) -> mget m k = None.
Proof.
  induction m as [|[k' v] m IH]; intros H; [reflexivity|]. cbn [mget]. destruct (key_eqb_spec k k') as [->|_].
  - specialize (H (k', v) (or_introl eq_refl)). cbn [fst] in H. rewrite key_ltb_irrefl in H. discriminate H.
  - apply IH. intros kv X. apply H. right. exact X.
Qed.
Lemma msorted_ext {V} (m m' : amap V) : msorted m -> msorted m' -> (forall k, mget m k = mget m' k) -> m = m'.
Proof.
  revert m'. induction m as [|[k v] m IH]; intros [|[k' v'] m'] S S' H.
  - reflexivity.
  - specialize (H k'). cbn in H. rewrite key_eqb_refl in H. discriminate H.
  - specialize (H k). cbn in H. rewrite key_eqb_refl in H. discriminate H.
  - inversion S as [|? ? Sm Lm]; subst. inversion S' as [|? ? Sm' Lm']; subst.
    assert (A : forall kv, In kv m -> key_ltb k (fst kv) = true) by (intros kv X; exact (proj1 (Forall_forall _ _) Lm kv X)).
    assert (A' : forall kv, In kv m' -> key_ltb k' (fst kv) = true) by (intros kv X; exact (proj1 (Forall_forall _ _) Lm' kv X)).
    assert (E : k = k').
    { destruct (key_eqb_spec k k') as [E|N]; [exact E|exfalso]. destruct (key_ltb k k') eqn:L.
      - pose proof (H k) as X. cbn [mget] in X. rewrite key_eqb_refl in X. destruct (key_eqb_spec k k'); [congruence|].
        rewrite mget_above in X; [discriminate X|]. intros kv Y. exact (key_ltb_trans _ _ _ L (A' kv Y)).
      - pose proof (key_ltb_total _ _ L N) as L2. pose proof (H k') as X. cbn [mget] in X. rewrite key_eqb_refl in X.
        destruct (key_eqb_spec k' k); [congruence|]. rewrite mget_above in X; [discriminate X|]. intros kv Y. exact (key_ltb_trans _ _ _ L2 (A kv Y)). }
    subst k'. pose proof (H k) as X. cbn [mget] in X. rewrite key_eqb_refl in X. injection X as <-. f_equal. apply IH; [assumption|assumption|].
    intros j. destruct (key_eqb_spec j k) as [->|N].
    + rewrite (mget_above m k A), (mget_above m' k A'). reflexivity.
    + specialize (H j). cbn [mget] in H. destruct (key_eqb_spec j k); [congruence|]. exact H.
Qed.

Section Fold.
Context {A V : Type} (f : A -> key) (g : A -> V).
Definition fill (l : list A) (m : amap V) : amap V := fold_left (fun m x => mset m (f x) (g x)) l m.
Lemma fill_sorted l : forall m, msorted m -> msorted (fill l m).
Proof. induction l as [|x l IH]; intros m S; [exact S|]. cbn. apply IH. apply msorted_mset. exact S. Qed.
Lemma fill_out l : forall m k, ~ In k (map f l) -> mget (fill l m) k = mget m k.
Proof.
  induction l as [|x l IH]; intros m k H; [reflexivity|]. cbn in *. rewrite IH by tauto. apply mget_mset_neq. intros ->. tauto.
Qed.
Lemma fill_in l : forall m x, NoDup (map f l) -> In x l -> mget (fill l m) (f x) = Some (g x).
Proof.
  induction l as [|y l IH]; intros m x N H; [destruct H|]. cbn in *. apply NoDup_cons_iff in N. destruct N as [N1 N2]. destruct H as [->|H].
  - rewrite fill_out by assumption. apply mget_mset_eq.
  - apply IH; assumption.
Qed.
End Fold.
(** Filling an empty map with the values of a sorted map whose keys are functions of the values. *)
Lemma refill {V} (f : V -> key) (m : amap V) : msorted m -> (forall k v, mget m k = Some v -> k = f v) -> fill f (fun v => v) (map snd m) [] = m.
Proof.
  intros S H. assert (E : map f (map snd m) = map fst m).
  { rewrite map_map. apply map_ext_in. intros [k v] X. cbn. symmetry. apply H. apply mget_iff; assumption. }
  apply msorted_ext; [apply fill_sorted; constructor|exact S|]. intros k. destruct (mget m k) as [v|] eqn:G.
  - rewrite (H _ _ G). apply (fill_in f (fun v => v)); [rewrite E; apply msorted_NoDup; exact S|]. apply in_map_iff. exists (k, v). split; [reflexivity|apply mget_In; exact G].
  - rewrite fill_out; [reflexivity|]. rewrite E. intros X. apply in_map_iff in X. destruct X as ([k' v] & X & Y). cbn in X. subst k'. apply (mget_iff m k v S) in Y. congruence.
Qed.

(** ** The folds of InitGenesis, field by field *)
Definition add_pidx (f : denom -> denom -> option Z) (p : pair) : denom -> denom -> option Z :=
  fun a b => if denom_eqb a (pr_base p) && denom_eqb b (pr_quote p) then Some (pr_id p) else f a b.
Lemma import_pairs_eq l : forall s, fold_left import_pair l s =
  set_pidx (set_pairs s (fill (fun p => (pr_id p, 0)) (fun p => p) l (st_pairs s))) (fold_left add_pidx l (st_pidx s)).
Proof. induction l as [|p l IH]; intros s; [destruct s; reflexivity|]. cbn [fold_left]. rewrite IH. reflexivity. Qed.
Lemma import_pools_eq l : forall s, fold_left import_pool l s =
  set_plidx (set_pools s (fill (fun p => (pl_id p, 0)) (fun p => p) l (st_pools s))) (fill (fun p => (pl_pair p, pl_id p)) (fun _ => tt) l (st_plidx s)).
Proof. induction l as [|p l IH]; intros s; [destruct s; reflexivity|]. cbn [fold_left]. rewrite IH. reflexivity. Qed.
Lemma import_deps_eq l : forall s, fold_left put_dep l s = set_deps s (fill (fun r => (dr_pool r, dr_id r)) (fun r => r) l (st_deps s)).
Proof. induction l as [|p l IH]; intros s; [destruct s; reflexivity|]. cbn [fold_left]. rewrite IH. reflexivity. Qed.
Lemma import_wds_eq l : forall s, fold_left put_wd l s = set_wds s (fill (fun r => (wr_pool r, wr_id r)) (fun r => r) l (st_wds s)).
Proof. induction l as [|p l IH]; intros s; [destruct s; reflexivity|]. cbn [fold_left]. rewrite IH. reflexivity. Qed.
Definition add_oidx (f : addr -> amap unit) (o : korder) : addr -> amap unit :=
  fun a => if addr_eqb a (ko_owner o) then mset (f a) (ko_pair o, ko_id o) tt else f a.
Lemma import_orders_eq l : forall s, fold_left import_order l s =
  set_oidx (set_orders s (fill (fun o => (ko_pair o, ko_id o)) (fun o => o) l (st_orders s))) (fold_left add_oidx l (st_oidx s)).
Proof. induction l as [|p l IH]; intros s; [destruct s; reflexivity|]. cbn [fold_left]. rewrite IH. reflexivity. Qed.
Definition add_mm (f : addr -> Z -> Z) (r : (addr * Z) * Z) : addr -> Z -> Z :=
  fun a i => if addr_eqb a (fst (fst r)) && (i =? snd (fst r)) then snd r else f a i.
Lemma import_mms_eq l : forall s, fold_left import_mm l s = set_mm s (fold_left add_mm l (st_mm s)).
Proof. induction l as [|p l IH]; intros s; [destruct s; reflexivity|]. cbn [fold_left]. rewrite IH. reflexivity. Qed.

Lemma add_pidx_out l : forall f b q, (forall p, In p l -> ~ (pr_base p = b /\ pr_quote p = q)) -> fold_left add_pidx l f b q = f b q.
Proof.
  induction l as [|p l IH]; intros f b q H; [reflexivity|]. cbn [fold_left]. rewrite IH by (intros p' X; apply H; right; exact X).
  unfold add_pidx. destruct (denom_eqb_spec b (pr_base p)), (denom_eqb_spec q (pr_quote p)); cbn; try reflexivity. destruct (H p); [left; reflexivity|]. auto.
Qed.
Lemma add_pidx_in l : forall f p, In p l -> (forall p', In p' l -> pr_base p' = pr_base p -> pr_quote p' = pr_quote p -> pr_id p' = pr_id p) ->
  fold_left add_pidx l f (pr_base p) (pr_quote p) = Some (pr_id p).
Proof.
  induction l as [|x l IH]; intros f p H U; [destruct H|]. cbn [fold_left].
  assert (D : (exists p', In p' l /\ pr_base p' = pr_base p /\ pr_quote p' = pr_quote p) \/ (forall p', In p' l -> ~ (pr_base p' = pr_base p /\ pr_quote p' = pr_quote p))).
  { clear. induction l as [|y l IH]; [right; intros ? []|]. destruct IH as [(p' & X & Y)|N]; [left; exists p'; split; [right; exact X|exact Y]|].
    destruct (denom_eqb_spec (pr_base y) (pr_base p)), (denom_eqb_spec (pr_quote y) (pr_quote p)); [left; exists y; split; [left; reflexivity|auto]| | |];
    right; intros p' [<-|X]; (apply N; exact X) || tauto. }
  destruct D as [(p' & X & Eb & Eq)|N].
  - rewrite <- Eb, <- Eq. rewrite IH; [f_equal; apply U; [right; exact X|exact Eb|exact Eq]|exact X|].
    intros p2 Y E1 E2. rewrite (U p2); [|right; exact Y|congruence|congruence]. symmetry. apply U; [right; exact X|exact Eb|exact Eq].
  - rewrite add_pidx_out by exact N. destruct H as [->|H]; [|destruct (N p H); auto]. unfold add_pidx. rewrite !denom_eqb_refl. reflexivity.
Qed.
Lemma add_oidx_fill l : forall f a, fold_left add_oidx l f a = fill (fun o => (ko_pair o, ko_id o)) (fun _ => tt) (filter (fun o => addr_eqb a (ko_owner o)) l) (f a).
Proof.
  induction l as [|o l IH]; intros f a; [reflexivity|]. cbn [fold_left filter]. rewrite IH. unfold add_oidx at 1. destruct (addr_eqb a (ko_owner o)); reflexivity.
Qed.
Lemma add_mm_out l : forall f a i, ~ In (a, i) (map fst l) -> fold_left add_mm l f a i = f a i.
Proof.
  induction l as [|r l IH]; intros f a i H; [reflexivity|]. cbn [fold_left map] in *. rewrite IH by (intros X; apply H; right; exact X). unfold add_mm.
  destruct (addr_eqb_spec a (fst (fst r))), (Z.eqb_spec i (snd (fst r))); cbn; try reflexivity. destruct H. left. subst. destruct (fst r); reflexivity.
Qed.
Lemma add_mm_in l : forall f a i n, NoDup (map fst l) -> In ((a, i), n) l -> fold_left add_mm l f a i = n.
Proof.
  induction l as [|r l IH]; intros f a i n N H; [destruct H|]. cbn [fold_left map] in *. apply NoDup_cons_iff in N. destruct N as [N1 N2]. destruct H as [->|H].
  - cbn [fst] in N1. rewrite add_mm_out by exact N1. unfold add_mm. cbn. rewrite addr_eqb_refl, Z.eqb_refl. reflexivity.
  - apply IH; assumption.
Qed.

(** ** Importing what was exported *)
Definition imported (b : bank) (h t : Z) (g : gstate) : state :=
  let s0 := set_last_pool (set_last_pair (init_state (g_params g) b h t) (g_last_pair g)) (g_last_pool g) in
  fold_left import_mm (g_mm g) (fold_left import_order (g_orders g) (fold_left put_wd (g_wds g) (fold_left put_dep (g_deps g)
    (fold_left import_pool (g_pools g) (fold_left import_pair (g_pairs g) s0))))).
Lemma init_genesis_eq zero b h t g : init_genesis zero b h t g = if genesis_valid zero g then Some (imported b h t g) else None.
Proof. unfold init_genesis, imported. destruct (genesis_valid zero g); reflexivity. Qed.

Lemma values_In {V} (m : amap V) v : msorted m -> In v (map snd m) <-> exists k, mget m k = Some v.
Proof.
  intros S. rewrite in_map_iff. split.
  - intros ([k x] & E & X). cbn in E. subst x. exists k. apply mget_iff; assumption.
  - intros (k & G). exists (k, v). split; [reflexivity|apply mget_In; exact G].
Qed.

Lemma import_export s mm : str s -> lists_counters s mm -> same_state s (imported (st_bank s) (st_height s) (st_time s) (export_genesis s mm)).
Proof.
  intros S (N & L). unfold imported, export_genesis. cbn [g_params g_last_pair g_last_pool g_pairs g_pools g_deps g_wds g_orders g_mm].
  rewrite import_mms_eq, import_orders_eq, import_wds_eq, import_deps_eq, import_pools_eq, import_pairs_eq.
  constructor; cbn [st_params st_bank st_last_pair st_last_pool st_pairs st_pools st_deps st_wds st_orders st_pidx st_plidx st_oidx st_mm st_height st_time
    set_mm set_oidx set_orders set_wds set_deps set_plidx set_pools set_pidx set_pairs set_last_pool set_last_pair init_state]; try reflexivity.
  - symmetry. apply (refill (fun p => (pr_id p, 0))); [exact (i_pairs_sorted _ S)|]. intros k p G. exact (proj1 (i_pairs _ S _ _ G)).
  - symmetry. apply (refill (fun p => (pl_id p, 0))); [exact (i_pools_sorted _ S)|]. intros k p G. exact (proj1 (i_pools _ S _ _ G)).
  - symmetry. apply (refill (fun p => (dr_pool p, dr_id p))); [exact (i_deps_sorted _ S)|]. intros k p G. exact (proj1 (i_deps _ S _ _ G)).
  - symmetry. apply (refill (fun p => (wr_pool p, wr_id p))); [exact (i_wds_sorted _ S)|]. intros k p G. exact (proj1 (i_wds _ S _ _ G)).
  - symmetry. apply (refill (fun p => (ko_pair p, ko_id p))); [exact (i_orders_sorted _ S)|]. intros k p G. exact (proj1 (i_orders _ S _ _ G)).
  - intros b q. destruct (st_pidx s b q) as [i|] eqn:E.
    + destruct (i_pidx _ S _ _ _ E) as (p & G & <- & <-). rewrite add_pidx_in; [| |].
      * f_equal. symmetry. exact (get_pair_id _ _ _ S G).
      * apply (values_In (st_pairs s) p (i_pairs_sorted _ S)). exists (i, 0). exact G.
      * intros p' X E1 E2. apply (values_In (st_pairs s) p' (i_pairs_sorted _ S)) in X. destruct X as (k & X). pose proof (i_pairs _ S _ _ X) as (_ & _ & _ & _ & _ & _ & Y).
        rewrite E1, E2, E in Y. injection Y as ->. symmetry. exact (get_pair_id _ _ _ S G).
    + rewrite add_pidx_out; [reflexivity|]. intros p X [<- <-]. apply (values_In (st_pairs s) p (i_pairs_sorted _ S)) in X. destruct X as (k & X).
      pose proof (i_pairs _ S _ _ X) as (_ & _ & _ & _ & _ & _ & Y). congruence.
  - apply msorted_ext; [exact (i_plidx_sorted _ S)|apply fill_sorted; constructor|]. intros [i j].
    assert (ND : NoDup (map (fun p => (pl_pair p, pl_id p)) (map snd (st_pools s)))).
    { assert (X : NoDup (map (fun kj : key => snd kj) (map (fun p => (pl_pair p, pl_id p)) (map snd (st_pools s))))); [|exact (NoDup_map_inv _ _ X)].
      rewrite !map_map. cbn [snd]. assert (Y : NoDup (map fst (map fst (st_pools s)))).
      { pose proof (msorted_NoDup _ (i_pools_sorted _ S)) as Z. apply (NoDup_map_inv (fun i => (i, 0))). rewrite map_map.
        assert (W : map fst (st_pools s) = map (fun x : BinNums.Z * BinNums.Z => (fst x, 0)) (map fst (st_pools s))); [|rewrite <- W; exact Z]. rewrite map_map. apply map_ext_in. intros [k p] X. cbn [fst].
        apply (mget_iff _ _ _ (i_pools_sorted _ S)) in X. rewrite (proj1 (i_pools _ S _ _ X)). reflexivity. }
      rewrite map_map in Y. replace (map (fun x : key * kpool => pl_id (snd x)) (st_pools s)) with (map (fun x : key * kpool => fst (fst x)) (st_pools s)); [exact Y|].
      apply map_ext_in. intros [k p] X. cbn [fst snd]. apply (mget_iff _ _ _ (i_pools_sorted _ S)) in X. rewrite (proj1 (i_pools _ S _ _ X)). reflexivity. }
    destruct (mget (st_plidx s) (i, j)) as [[]|] eqn:E.
    + destruct (i_plidx _ S _ _ E) as (p & G & <-). pose proof (get_pool_id _ _ _ S G) as <-. symmetry.
      apply (fill_in (fun p => (pl_pair p, pl_id p)) (fun _ : kpool => tt)); [exact ND|]. apply (values_In _ _ (i_pools_sorted _ S)). exists (pl_id p, 0). exact G.
    + rewrite fill_out; [reflexivity|]. intros X. apply in_map_iff in X. destruct X as (p & X & Y). injection X as <- <-. apply (values_In _ _ (i_pools_sorted _ S)) in Y. destruct Y as (k & Y).
      pose proof (i_pools _ S _ _ Y) as (_ & _ & _ & _ & _ & Z). congruence.
  - intros a. rewrite add_oidx_fill. apply msorted_ext; [exact (i_oidx_sorted _ S a)|apply fill_sorted; constructor|]. intros k.
    set (l := filter (fun o => addr_eqb a (ko_owner o)) (map snd (st_orders s))).
    assert (ML : forall o, In o l <-> (exists j, mget (st_orders s) j = Some o) /\ ko_owner o = a).
    { intros o. unfold l. rewrite filter_In, (values_In _ _ (i_orders_sorted _ S)). split; intros [X Y]; (split; [exact X|]).
      - destruct (addr_eqb_spec a (ko_owner o)); congruence.
      - rewrite Y. apply addr_eqb_refl. }
    assert (ND : NoDup (map (fun o => (ko_pair o, ko_id o)) l)).
    { unfold l. assert (X : NoDup (map (fun o => (ko_pair o, ko_id o)) (map snd (st_orders s)))).
      { rewrite map_map. replace (map (fun x : key * korder => (ko_pair (snd x), ko_id (snd x))) (st_orders s)) with (map fst (st_orders s)); [apply msorted_NoDup; exact (i_orders_sorted _ S)|].
        apply map_ext_in. intros [j o] X. cbn [fst snd]. apply (mget_iff _ _ _ (i_orders_sorted _ S)) in X. exact (proj1 (i_orders _ S _ _ X)). }
      clear -X. induction (map snd (st_orders s)) as [|o m IH]; [constructor|]. cbn [map] in X. apply NoDup_cons_iff in X. destruct X as [X1 X2]. cbn [filter].
      destruct (addr_eqb a (ko_owner o)); [|auto]. cbn [map]. constructor; [|auto]. intros Y. apply X1. apply in_map_iff in Y. destruct Y as (o' & E & Y). apply filter_In in Y.
      apply in_map_iff. exists o'. tauto. }
    destruct (mget (st_oidx s a) k) as [[]|] eqn:E.
    + apply (i_oidx _ S) in E. destruct E as (o & G & O). rewrite (proj1 (i_orders _ S _ _ G)). symmetry.
      apply (fill_in (fun o => (ko_pair o, ko_id o)) (fun _ : korder => tt)); [exact ND|]. apply ML. eauto.
    + rewrite fill_out; [reflexivity|]. intros X. apply in_map_iff in X. destruct X as (o & X & Y). apply ML in Y. destruct Y as ((j & G) & O).
      assert (W : mget (st_oidx s a) j = Some tt) by (apply (i_oidx _ S); eauto). rewrite (proj1 (i_orders _ S _ _ G)) in W. rewrite X in W. congruence.
  - intros a i. destruct (Z.eq_dec (st_mm s a i) 0) as [E|E].
    + rewrite add_mm_out; [exact E|]. intros X. apply in_map_iff in X. destruct X as ([[a' i'] n] & X & Y). cbn in X. injection X as -> ->. apply L in Y. destruct Y. congruence.
    + symmetry. apply add_mm_in; [exact N|]. apply L. auto.
Qed.

(** ** What is stored passes validation *)
Record stored_ok (z : Z) (s : state) : Prop := mkStored {
  so_time : z < st_time s;
  so_deps : forall k r, mget (st_deps s) k = Some r ->
    1 <= dr_height r /\ (length (dr_coins r) <= 2)%nat /\ valid_coins (dr_accepted r) = true /\ 0 <= dr_minted r /\
    (forall d, amount_of (dr_accepted r) d <= amount_of (dr_coins r) d);
  so_wds : forall k r, mget (st_wds s) k = Some r -> 1 <= wr_height r /\ valid_coins (wr_withdrawn r) = true /\ (length (wr_withdrawn r) <= 2)%nat;
  so_orders : forall k o, mget (st_orders s) k = Some o -> 1 <= ko_height o /\ 0 < ko_amt o /\ 0 < ko_offer o /\ z < ko_expire o }.

Lemma stored_same z s s' : st_time s' = st_time s -> st_deps s' = st_deps s -> st_wds s' = st_wds s -> st_orders s' = st_orders s -> stored_ok z s -> stored_ok z s'.
Proof. intros E1 E2 E3 E4 []. constructor; rewrite ?E1, ?E2, ?E3, ?E4; assumption. Qed.

Lemma stored_mic z (Q : ctl) s s' : mic Q s s' -> str s -> (stage_of Q = SMsg -> 1 <= st_height s) -> stored_ok z s -> stored_ok z s'.
Proof.
  intros M S Hh O. destruct M.
  - apply st_send_spec in H. destruct H as (b & -> & _). revert O. apply stored_same; reflexivity.
  - apply st_send_spec in H0. destruct H0 as (b & -> & _). revert O. apply stored_same; reflexivity.
  - revert O. apply stored_same; reflexivity.
  - destruct O. constructor; cbn [st_time st_deps st_wds st_orders set_clock]; auto. lia.
  - revert O. apply stored_same; reflexivity.
  - revert O. apply stored_same; reflexivity.
  - revert O. apply stored_same; reflexivity.
  - revert O. apply stored_same; reflexivity.
  - apply st_send_spec in H5. destruct H5 as (b & -> & Hs). destruct O. constructor; auto. cbn [st_deps put_dep set_deps put_pool set_pools set_bank]. intros k r G.
    rewrite mget_mset in G. destruct (key_eqb _ _); [|eauto]. injection G as <-. cbn [dr_height dr_coins dr_accepted dr_minted]. specialize (Hh H6).
    repeat match goal with |- _ /\ _ => split end; [lia|assumption|reflexivity|lia|]. intros d. cbn [amount_of]. apply send_spec in Hs. apply valid_amount_nonneg. tauto.
  - apply st_send_spec in H2. destruct H2 as (b & -> & _). destruct O. constructor; auto. cbn [st_wds put_wd set_wds put_pool set_pools set_bank]. intros k r G.
    rewrite mget_mset in G. destruct (key_eqb _ _); [|eauto]. injection G as <-. cbn [wr_height wr_withdrawn]. specialize (Hh H3). split; [lia|]. split; [reflexivity|cbn; lia].
  - apply st_send_spec in H5. destruct H5 as (b & -> & _). destruct O.
    assert (E : exists o, st_orders (add_order (set_bank s b) typ u pr d price amt lifespan) = mset (st_orders s) (ko_pair o, ko_id o) o /\
      ko_height o = st_height s /\ ko_amt o = amt /\ ko_offer o = offer_coin_amount d price amt /\ ko_expire o = st_time s + lifespan).
    { unfold add_order. cbv zeta. eexists. repeat match goal with |- _ /\ _ => split end; [destruct typ; reflexivity|reflexivity|reflexivity|reflexivity|reflexivity]. }
    destruct E as (o & E & E1 & E2 & E3 & E4).
    constructor; [destruct typ; exact so_time0|destruct typ; exact so_deps0|destruct typ; exact so_wds0|]. intros k x G. rewrite E in G.
    rewrite mget_mset in G. destruct (key_eqb _ _); [|eauto]. injection G as <-. rewrite E1, E2, E3, E4. specialize (Hh H6).
    repeat match goal with |- _ /\ _ => split end; [lia|unfold min_coin_amount in *; lia|apply offer_coin_amount_pos; [assumption|unfold min_coin_amount in *; lia]|lia].
  - destruct O. constructor; auto. cbn [st_orders put_order set_orders]. intros k x G. rewrite mget_mset in G. destruct (key_eqb _ _); [|eauto]. injection G as <-. exact (so_orders0 _ _ H).
  - destruct (finish_order_spec _ _ _ _ H2 H0) as (b & _ & ->). destruct O.
    constructor; [destruct (ko_type o); exact so_time0|destruct (ko_type o); exact so_deps0|destruct (ko_type o); exact so_wds0|]. intros k x G.
    assert (G' : mget (mset (st_orders s) (ko_pair o, ko_id o) (ko_with_status o st)) k = Some x) by (destruct (ko_type o); exact G). clear G.
    rewrite mget_mset in G'. destruct (key_eqb _ _); [|eauto]. injection G' as <-. exact (so_orders0 _ _ H).
  - revert O. apply stored_same; reflexivity.
  - apply st_send_spec in H1. destruct H1 as (b & -> & Hs). destruct O. constructor; auto. cbn [st_deps put_dep set_deps set_bank]. intros k x G.
    rewrite mget_mset in G. destruct (key_eqb _ _); [|eauto]. injection G as <-. cbn [dr_height dr_coins dr_accepted dr_minted dr_with].
    destruct (so_deps0 _ _ H) as (A1 & A2 & A3 & A4 & A5). repeat match goal with |- _ /\ _ => split end; try assumption; try reflexivity. intros d. cbn [amount_of]. apply send_spec in Hs. apply valid_amount_nonneg. tauto.
  - destruct O. constructor; auto. cbn [st_deps put_dep set_deps set_bank]. intros k x G.
    rewrite mget_mset in G. destruct (key_eqb _ _); [|eauto]. injection G as <-. cbn [dr_height dr_coins dr_accepted dr_minted dr_with].
    destruct (so_deps0 _ _ H) as (A1 & A2 & A3 & A4 & A5). destruct H2 as (B1 & B2 & _). repeat match goal with |- _ /\ _ => split end; try assumption; [lia|]. intros d. apply B1.
  - apply st_send_spec in H1. destruct H1 as (b & -> & Hs). destruct O. constructor; auto. cbn [st_wds put_wd set_wds set_bank]. intros k x G.
    rewrite mget_mset in G. destruct (key_eqb _ _); [|eauto]. injection G as <-. cbn [wr_height wr_withdrawn wr_with]. exact (so_wds0 _ _ H).
  - destruct O. constructor; auto. cbn [st_wds put_wd set_wds set_bank]. intros k x G.
    rewrite mget_mset in G. destruct (key_eqb _ _); [|eauto]. injection G as <-. cbn [wr_height wr_withdrawn wr_with]. destruct (so_wds0 _ _ H) as (A1 & _). tauto.
  - destruct (delete_outdated_eq s) as (f & -> & _). destruct O. constructor; cbn [st_time st_deps st_wds st_orders set_oidx set_orders set_wds set_deps]; auto; intros k r G;
    (rewrite mget_filter in G by (apply msorted_NoDup; first [apply (i_deps_sorted _ S)|apply (i_wds_sorted _ S)|apply (i_orders_sorted _ S)])).
    + destruct (mget (st_deps s) k) eqn:E; [|discriminate G]. destruct (negb _); [|discriminate G]. injection G as <-. eauto.
    + destruct (mget (st_wds s) k) eqn:E; [|discriminate G]. destruct (negb _); [|discriminate G]. injection G as <-. eauto.
    + destruct (mget (st_orders s) k) eqn:E; [|discriminate G]. destruct (negb _); [|discriminate G]. injection G as <-. eauto.
Qed.

Lemma height_mic (Q : ctl) s s' : mic Q s s' -> st_height s <= st_height s'.
Proof.
  intros M. destruct M; try (cbn; lia);
    try (match goal with H : st_send _ _ _ _ = Some _ |- _ => apply st_send_spec in H; destruct H as (b & -> & _); try (destruct typ); cbn; lia end).
  - destruct (finish_order_spec _ _ _ _ H2 H0) as (b & _ & ->). destruct (ko_type o); cbn; lia.
  - destruct (delete_outdated_eq s) as (f & -> & _). cbn. lia.
Qed.
Lemma stored_mics z (Q : ctl) s s' : mics Q s s' -> inv Q s -> (stage_of Q = SMsg -> 1 <= st_height s) -> stored_ok z s -> stored_ok z s' /\ st_height s <= st_height s'.
Proof.
  intros M. induction M as [s|s1 s2 s3 M MS IH]; intros I H O; [split; [assumption|lia]|]. pose proof (height_mic _ _ _ M) as L.
  destruct (IH (inv_mic _ _ _ M I)) as [A B].
  - intros E. specialize (H E). lia.
  - exact (stored_mic z Q _ _ M (v_str _ _ I) H O).
  - split; [exact A|lia].
Qed.

(** Every state of a history that started after the zero time. *)
Lemma stored_history Q z s0 c : genesis (sane Q) s0 -> z < st_time s0 -> runs (sane Q) (Between, s0) c ->
  stored_ok z (snd c) /\ 0 <= st_height (snd c) /\ (fst c = InBlock -> 1 <= st_height (snd c)).
Proof.
  intros G T R. remember (Between, s0) as c0 eqn:E. assert (RC : reach (sane Q) c) by (exists s0; subst c0; auto). revert E RC. induction R as [c|c1 c2 c3 R IH S]; intros -> RC.
  - destruct G as (p & b & h & t & _ & _ & _ & H & ->). cbn [snd fst]. split; [|split; [exact H|discriminate]].
    constructor; [exact T|intros k r X; discriminate X|intros k r X; discriminate X|intros k r X; discriminate X].
  - assert (R2 : reach (sane Q) c2) by (exists s0; auto). destruct (IH eq_refl R2) as (O & H0 & H1). pose proof (reach_okp Q _ R2) as I. destruct S as [s t L|s m s' D HQ|iter s s' P E]; cbn [fst snd] in *.
    + assert (M : mics (mkCtl (sane Q) SBegin) s (begin_block s t)) by (apply begin_block_mics; [reflexivity|assumption]).
      destruct (stored_mics z _ _ _ M (proj1 (okp_st _ _ _) I) ltac:(discriminate) O) as [A B]. split; [exact A|].
      destruct (begin_block_facts s t (v_str _ _ I)) as (_ & _ & _ & _ & _ & _ & _ & HH & _). lia.
    + assert (M : mics (mkCtl (sane Q) SMsg) s s') by (eapply deliver_mics; eauto). destruct (stored_mics z _ _ _ M I (fun _ => H1 eq_refl) O) as [A B].
      split; [exact A|]. specialize (H1 eq_refl). lia.
    + destruct (end_block_mics (sane Q) iter s s' P I (fun p X => proj2 X) E) as (s1 & M1 & M2).
      destruct (stored_mics z _ _ _ M1 (proj1 (okp_st _ _ _) I) ltac:(discriminate) O) as [A1 B1].
      assert (I1 : okp (sane Q) s1) by (apply (okp_st _ STrade); apply (inv_mics _ _ _ M1); apply okp_st; exact I).
      destruct (stored_mics z _ _ _ M2 (proj1 (okp_st _ _ _) I1) ltac:(discriminate) A1) as [A2 B2].
      split; [exact A2|]. split; [lia|discriminate].
Qed.

(** ** Validation *)
Lemma unique_NoDup {A} (f : A -> Z * Z) l : unique f l = true <-> NoDup (map f l).
Proof.
  induction l as [|x l IH]; cbn [unique map]; [split; [constructor|reflexivity]|]. rewrite andb_true_iff, NoDup_cons_iff, IH, negb_true_iff.
  assert (E : existsb (fun y => key_eqb (f x) (f y)) l = false <-> ~ In (f x) (map f l)); [|tauto].
  rewrite <- not_true_iff_false, existsb_exists, in_map_iff. split; intros H (y & X); apply H; exists y.
  - destruct X as [X Y]. split; [exact Y|]. rewrite X. apply key_eqb_refl.
  - destruct X as [X Y]. split; [|exact X]. destruct (key_eqb_spec (f x) (f y)); congruence.
Qed.
Lemma unique_values {V} (f : V -> key) (m : amap V) : msorted m -> (forall k v, mget m k = Some v -> k = f v) -> unique f (map snd m) = true.
Proof.
  intros S H. apply unique_NoDup. rewrite map_map. pose proof (msorted_NoDup _ S) as N.
  assert (W : map fst m = map (fun x : key * V => f (snd x)) m); [|rewrite W in N; exact N].
  apply map_ext_in. intros [k v] X. apply H. apply mget_iff; assumption.
Qed.
Lemma find_pair_get s i : str s -> find_pair (map snd (st_pairs s)) i = get_pair s i.
Proof.
  intros S. unfold find_pair. destruct (find _ _) as [p|] eqn:E.
  - apply find_some in E. destruct E as [X Y]. apply Z.eqb_eq in Y. apply (values_In _ _ (i_pairs_sorted _ S)) in X. destruct X as (k & X). pose proof (proj1 (i_pairs _ S _ _ X)) as ->.
    unfold get_pair. rewrite <- Y. symmetry. exact X.
  - destruct (get_pair s i) as [p|] eqn:G; [|reflexivity]. assert (X : In p (map snd (st_pairs s))) by (apply (values_In _ _ (i_pairs_sorted _ S)); exists (i, 0); exact G).
    pose proof (find_none _ _ E p X) as Y. cbv beta in Y. rewrite (get_pair_id _ _ _ S G), Z.eqb_refl in Y. discriminate Y.
Qed.
Lemma find_pool_get s i : str s -> find_pool (map snd (st_pools s)) i = get_pool s i.
Proof.
  intros S. unfold find_pool. destruct (find _ _) as [p|] eqn:E.
  - apply find_some in E. destruct E as [X Y]. apply Z.eqb_eq in Y. apply (values_In _ _ (i_pools_sorted _ S)) in X. destruct X as (k & X). pose proof (proj1 (i_pools _ S _ _ X)) as ->.
    unfold get_pool. rewrite <- Y. symmetry. exact X.
  - destruct (get_pool s i) as [p|] eqn:G; [|reflexivity]. assert (X : In p (map snd (st_pools s))) by (apply (values_In _ _ (i_pools_sorted _ S)); exists (i, 0); exact G).
    pose proof (find_none _ _ E p X) as Y. cbv beta in Y. rewrite (get_pool_id _ _ _ S G), Z.eqb_refl in Y. discriminate Y.
Qed.
Lemma all_values {V} (f : V -> bool) (m : amap V) : msorted m -> forallb f (map snd m) = true <-> forall k v, mget m k = Some v -> f v = true.
Proof.
  intros S. rewrite forallb_forall. split.
  - intros H k v G. apply H. apply (values_In _ _ S). eauto.
  - intros H v X. apply (values_In _ _ S) in X. destruct X as (k & G). eauto.
Qed.
(** Valid coins whose amounts do not exceed those of [cs] have no more denominations than [cs]. *)
Lemma valid_NoDup cs : valid_coins cs = true -> NoDup (map fst cs).
Proof.
  induction cs as [|[d x] cs IH]; intros V; [constructor|]. apply valid_coins_cons in V. destruct V as (_ & H & V). cbn. constructor; [|auto].
  intros X. apply in_map_iff in X. destruct X as ([d' y] & E & X). cbn in E. subst d'. assert (Y : has_denom cs d = true) by (apply has_denom_In; eauto). congruence.
Qed.
Lemma valid_amount_pos cs d : valid_coins cs = true -> In d (map fst cs) <-> 0 < amount_of cs d.
Proof.
  induction cs as [|[d' x] cs IH]; intros V; [cbn; split; [tauto|lia]|]. apply valid_coins_cons in V. destruct V as (P & H & V). cbn [map fst amount_of]. 
  destruct (denom_eqb_spec d d') as [->|N].
  - split; [lia|left; reflexivity].
  - rewrite <- IH by exact V. cbn [In]. split; [intros [X|X]; [congruence|exact X]|right; assumption].
Qed.
Lemma within_length acc cs : valid_coins acc = true -> valid_coins cs = true -> (forall d, amount_of acc d <= amount_of cs d) -> (length acc <= length cs)%nat.
Proof.
  intros V V' H. rewrite <- (map_length fst acc), <- (map_length fst cs). apply NoDup_incl_length; [apply valid_NoDup; exact V|]. intros d X.
  apply (valid_amount_pos _ _ V) in X. apply (valid_amount_pos _ _ V'). specialize (H d). lia.
Qed.

Ltac bools := repeat match goal with |- _ && _ = true => apply andb_true_intro; split end.
Lemma nonzero x : 1 <= x -> negb (x =? 0) = true.
Proof. intros H. destruct (Z.eqb_spec x 0); [lia|reflexivity]. Qed.

Lemma export_valid Q z s mm : okp Q s -> stored_ok z s -> lists_counters s mm ->
  genesis_valid z (export_genesis s mm) = true <-> deposits_two_sided s.
Proof.
  intros I O (N & L). pose proof (v_str _ _ I) as S. unfold genesis_valid, export_genesis at 1.
  cbn [g_params g_pairs g_pools g_deps g_wds g_orders g_mm].
  split.
  - intros H. repeat match goal with X : _ && _ = true |- _ => apply andb_prop in X; destruct X end. intros k r p pr G Gp Gpr.
    match goal with X : forallb (dep_valid _) _ = true |- _ => pose proof (proj1 (all_values _ _ (i_deps_sorted _ S)) X k r G) as D end.
    unfold dep_valid, export_genesis in D. cbn [g_pools g_pairs] in D. apply andb_prop in D. destruct D as [_ D].
    rewrite (find_pool_get s _ S), Gp, (find_pair_get s _ S), Gpr in D. rewrite negb_true_iff, orb_false_iff in D. destruct D as [D1 D2].
    apply Z.eqb_neq in D1, D2. destruct (i_deps _ S _ _ G) as (_ & _ & V & _).
    pose proof (valid_amount_nonneg _ (pr_base pr) V). pose proof (valid_amount_nonneg _ (pr_quote pr) V). lia.
  - intros D. bools.
    + exact (proj1 (v_params _ _ I)).
    + apply (all_values _ _ (i_pairs_sorted _ S)). intros k p G. destruct (i_pairs _ S _ _ G) as (_ & A & _ & _ & B & C & _). unfold pair_valid, export_genesis. cbn [g_last_pair]. bools.
      * apply nonzero. lia.
      * destruct (pr_last_price p) as [x|]; [|reflexivity]. apply Z.ltb_lt. apply C. reflexivity.
      * apply nonzero. lia.
      * apply Z.leb_le. lia.
    + apply (unique_values (fun p => (pr_id p, 0))); [exact (i_pairs_sorted _ S)|]. intros k p G. exact (proj1 (i_pairs _ S _ _ G)).
    + apply (all_values _ _ (i_pools_sorted _ S)). intros k p G. destruct (i_pools _ S _ _ G) as (_ & A & _ & _ & B & _). unfold pool_valid, export_genesis. cbn [g_last_pool g_pairs]. rewrite (find_pair_get s _ S).
      destruct (get_pair s (pl_pair p)) as [pr|] eqn:E; [|congruence]. pose proof (i_pairs _ S _ _ E) as (X & Y & _). injection X as X. bools; [apply nonzero; lia|apply nonzero; lia|apply Z.leb_le; lia|reflexivity].
    + apply (unique_values (fun p => (pl_id p, 0))); [exact (i_pools_sorted _ S)|]. intros k p G. exact (proj1 (i_pools _ S _ _ G)).
    + apply (all_values _ _ (i_deps_sorted _ S)). intros k r G. destruct (i_deps _ S _ _ G) as (_ & (p & Gp & A & _) & V & NE & _). destruct (so_deps _ _ O _ _ G) as (B1 & B2 & B3 & B4 & B5).
      unfold dep_valid, export_genesis. cbn [g_pools g_pairs]. rewrite (find_pool_get s _ S), Gp, (find_pair_get s _ S).
      pose proof (i_pools _ S _ _ Gp) as (X & Y & _ & _ & W & _). injection X as X. destruct (get_pair s (pl_pair p)) as [pr|] eqn:E; [|congruence]. bools.
      * apply nonzero. lia.
      * apply nonzero. lia.
      * apply nonzero. lia.
      * exact V.
      * destruct (dr_coins r); [congruence|reflexivity].
      * apply Nat.leb_le. exact B2.
      * exact B3.
      * apply Nat.leb_le. pose proof (within_length _ _ B3 V B5). lia.
      * apply forallb_forall. intros c X1. apply negb_true_iff, Z.eqb_neq. assert (X2 : In (fst c) (map fst (dr_accepted r))) by (apply in_map; exact X1).
        apply (valid_amount_pos _ _ B3) in X2. specialize (B5 (fst c)). lia.
      * apply Z.leb_le. exact B4.
      * destruct (D k r p pr G Gp E) as [D1 D2]. apply negb_true_iff, orb_false_iff. split; apply Z.eqb_neq; lia.
    + apply (unique_values (fun r => (dr_pool r, dr_id r))); [exact (i_deps_sorted _ S)|]. intros k p G. exact (proj1 (i_deps _ S _ _ G)).
    + apply (all_values _ _ (i_wds_sorted _ S)). intros k r G. destruct (i_wds _ S _ _ G) as (_ & (p & Gp & A) & De & Am & _). destruct (so_wds _ _ O _ _ G) as (B1 & B2 & B3).
      unfold wd_valid, export_genesis. cbn [g_pools]. rewrite (find_pool_get s _ S), Gp. pose proof (i_pools _ S _ _ Gp) as (X & Y & _). injection X as X. bools.
      * apply nonzero. lia.
      * apply nonzero. lia.
      * apply nonzero. lia.
      * apply Z.leb_le. lia.
      * apply nonzero. lia.
      * exact B2.
      * apply Nat.leb_le. exact B3.
      * rewrite De, X. apply denom_eqb_refl.
    + apply (unique_values (fun r => (wr_pool r, wr_id r))); [exact (i_wds_sorted _ S)|]. intros k p G. exact (proj1 (i_wds _ S _ _ G)).
    + apply (all_values _ _ (i_orders_sorted _ S)). intros k o G. destruct (i_orders _ S _ _ G) as (_ & pr & Gp & K). destruct (so_orders _ _ O _ _ G) as (B1 & B2 & B3 & B4).
      destruct K as (K1 & K2 & K3 & K4 & K5 & _ & K6 & K7 & K8 & K9 & _).
      unfold order_valid, export_genesis. cbn [g_pairs]. rewrite (find_pair_get s _ S), Gp. pose proof (i_pairs _ S _ _ Gp) as (X & Y & _). injection X as X. bools.
      * apply nonzero. lia.
      * apply nonzero. lia.
      * apply nonzero. lia.
      * apply Z.leb_le. lia.
      * apply nonzero. lia.
      * apply Z.leb_le. lia.
      * apply Z.leb_le. lia.
      * apply Z.ltb_lt. lia.
      * apply Z.ltb_lt. lia.
      * apply Z.leb_le. lia.
      * apply nonzero. lia.
      * apply negb_true_iff, Z.eqb_neq. lia.
      * apply Z.leb_le. lia.
      * rewrite K4, K5. destruct (ko_dir o); cbn; rewrite !denom_eqb_refl; reflexivity.
    + apply (unique_values (fun o => (ko_pair o, ko_id o))); [exact (i_orders_sorted _ S)|]. intros k p G. exact (proj1 (i_orders _ S _ _ G)).
    + apply forallb_forall. intros [[a i] n] X. apply L in X. destruct X as [_ X]. cbn [snd]. apply negb_true_iff, Z.eqb_neq. exact X.
Qed.

(** ** The counters can be listed *)
Lemma counters_listed Q s : okp Q s -> mm_exact s -> exists mm, lists_counters s mm.
Proof.
  intros I E. set (cand := map (fun kv => (ko_owner (snd kv), ko_pair (snd kv))) (st_orders s)).
  assert (DEC : forall x y : addr * Z, {x = y} + {x <> y}).
  { intros [a i] [b j]. destruct (addr_eqb_spec a b), (Z.eq_dec i j); [left; congruence|right; congruence..]. }
  exists (map (fun x => (x, st_mm s (fst x) (snd x))) (filter (fun x => negb (st_mm s (fst x) (snd x) =? 0)) (nodup DEC cand))). split.
  - rewrite map_map. cbn [fst]. rewrite map_id. apply NoDup_filter. apply NoDup_nodup.
  - intros a i n. rewrite in_map_iff. split.
    + intros ([a' i'] & X & Y). cbn [fst snd] in X. injection X as -> -> <-. apply filter_In in Y. destruct Y as [_ Y]. cbn [fst snd] in Y. apply negb_true_iff, Z.eqb_neq in Y. auto.
    + intros [X Y]. exists (a, i). cbn [fst snd]. rewrite X. split; [reflexivity|]. apply filter_In. cbn [fst snd]. split; [|apply negb_true_iff, Z.eqb_neq; congruence].
      apply nodup_In. destruct (in_dec DEC (a, i) cand) as [Z|Z]; [exact Z|exfalso]. apply Y. rewrite <- X, E. unfold live_mm_orders, order_sum.
      unfold cand in Z. clear -Z. induction (st_orders s) as [|[k o] m IH]; [reflexivity|]. cbn [map snd] in *. rewrite sumZ_cons, IH by (intros W; apply Z; right; exact W).
      destruct (live o); [|reflexivity]. destruct (addr_eqb_spec a (ko_owner o)); [|reflexivity]. destruct (Z.eqb_spec (ko_pair o) i); [|reflexivity]. destruct Z. left. congruence.
Qed.
