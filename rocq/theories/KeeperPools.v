(** How many pools a pair has. *)
From Verif Require Import Base Dec OrderModel MatchModel PoolModel KeeperModel KeeperLib KeeperSpec KeeperMicro KeeperBank KeeperTrade KeeperInv KeeperHist KeeperBlock MatchProofs.
From Coq Require Import Permutation.

Definition is_active_of (i : Z) (p : kpool) : bool := negb (pl_disabled p) && (pl_pair p =? i).
Definition active_one (i : Z) (p : kpool) : Z := if is_active_of i p then 1 else 0.
Lemma sum_count {A} (f : A -> bool) l : sumZ (map (fun x => if f x then 1 else 0) l) = Z.of_nat (length (filter f l)).
Proof. induction l as [|x l IH]; [reflexivity|]. cbn [map filter]. rewrite sumZ_cons, IH. destruct (f x); cbn [length]; lia. Qed.
Lemma NoDup_map_on {A B} (f : A -> B) l : (forall x y, In x l -> In y l -> f x = f y -> x = y) -> NoDup l -> NoDup (map f l).
Proof.
  intros H N. induction N as [|x l Nx N IH]; [constructor|]. cbn. constructor.
  - intros X. apply in_map_iff in X. destruct X as (y & E & Hy). apply Nx. replace x with y; [assumption|]. apply H; [right; assumption|left; reflexivity|assumption].
  - apply IH. intros a b Ha Hb. apply H; right; assumption.
Qed.
Lemma filter_map_comm {A B} (f : A -> B) (g : B -> bool) l : filter g (map f l) = map f (filter (fun x => g (f x)) l).
Proof. induction l as [|x l IH]; [reflexivity|]. cbn. destruct (g (f x)); cbn; rewrite IH; reflexivity. Qed.
Lemma msorted_nodup {V} (m : amap V) : msorted m -> NoDup m.
Proof. intros S. apply (NoDup_map_inv fst), msorted_NoDup. exact S. Qed.

(** The counter used for the limit counts exactly the active pools. *)
Lemma num_active_exact s i : str s -> num_active s i = active_pools s i.
Proof.
  intros S. unfold active_pools. change (sumZ _) with (sumZ (map (fun kv : key * kpool => if is_active_of i (snd kv) then 1 else 0) (st_pools s))).
  rewrite sum_count. unfold num_active, pools_of_pair. f_equal. rewrite filter_map_comm, map_length.
  set (l1 := @filter (Z * Z * unit) (fun x => active (get_pool s (snd (fst x)))) (mprefix (st_plidx s) i)). set (l2 := filter (fun x : key * kpool => is_active_of i (snd x)) (st_pools s)).
  transitivity (length (map (fun kv : key * unit => snd (fst kv)) l1)); [symmetry; apply map_length|]. transitivity (length (map (fun kv : key * kpool => fst (fst kv)) l2)); [|apply map_length]. apply Permutation_length.
  assert (M1 : forall k u, In (k, u) l1 -> fst k = i /\ exists p, get_pool s (snd k) = Some p /\ is_active_of i p = true).
  { intros [a b] []. unfold l1. rewrite filter_In, mprefix_In. cbn [fst snd]. intros [[X1 ->] X2]. split; [reflexivity|]. apply (In_mget _ _ _ (msorted_NoDup _ (i_plidx_sorted _ S))) in X1.
    destruct (i_plidx _ S _ _ X1) as (p & G & E). exists p. split; [assumption|]. rewrite G in X2. cbn in X2. unfold is_active_of. rewrite X2, E, Z.eqb_refl. reflexivity. }
  assert (M2 : forall k p, In (k, p) l2 -> k = (pl_id p, 0) /\ get_pool s (pl_id p) = Some p /\ is_active_of i p = true /\ mget (st_plidx s) (i, pl_id p) = Some tt).
  { intros k p. unfold l2. rewrite filter_In. cbn [snd]. intros [X1 X2]. apply (In_mget _ _ _ (msorted_NoDup _ (i_pools_sorted _ S))) in X1.
    destruct (i_pools _ S _ _ X1) as (Ek & _ & _ & _ & _ & P). subst k. split; [reflexivity|]. split; [exact X1|]. split; [exact X2|]. unfold is_active_of in X2. apply andb_true_iff in X2. destruct X2 as [_ X2]. apply Z.eqb_eq in X2. congruence. }
  apply NoDup_Permutation.
  - apply NoDup_map_on; [|unfold l1; apply NoDup_filter; unfold mprefix; apply NoDup_filter; apply msorted_nodup, (i_plidx_sorted _ S)].
    intros [k1 []] [k2 []] H1 H2 E. apply M1 in H1, H2. destruct H1 as [H1 _], H2 as [H2 _]. cbn [fst snd] in E. destruct k1, k2; cbn in *; congruence.
  - apply NoDup_map_on; [|unfold l2; apply NoDup_filter; apply msorted_nodup, (i_pools_sorted _ S)].
    intros [k1 p1] [k2 p2] H1 H2 E. apply M2 in H1, H2. destruct H1 as (-> & G1 & _), H2 as (-> & G2 & _). cbn [fst snd] in E. rewrite E in G1. rewrite G1 in G2. congruence.
  - intros x. rewrite !in_map_iff. split.
    + intros ([k u] & <- & H). destruct (M1 _ _ H) as (_ & p & G & A). cbn [fst snd]. exists ((snd k, 0), p). split; [reflexivity|]. unfold l2. rewrite filter_In. split; [apply mget_In; exact G|exact A].
    + intros ([k p] & <- & H). destruct (M2 _ _ H) as (-> & G & A & P). cbn [fst snd]. exists ((i, pl_id p), tt). split; [reflexivity|]. unfold l1. rewrite filter_In, mprefix_In. cbn [fst snd]. split; [split; [apply mget_In; exact P|reflexivity]|].
      rewrite G. cbn. unfold is_active_of in A. apply andb_true_iff in A. apply A.
Qed.

Definition one_basic (s : state) : Prop := forall i j p q, get_pool s i = Some p -> get_pool s j = Some q -> pl_pair p = pl_pair q ->
  pl_disabled p = false -> pl_disabled q = false -> pl_kind p = PBasic -> pl_kind q = PBasic -> i = j.
Lemma one_basic_mic Q s s' : mic Q s s' -> str s -> one_basic s -> one_basic s'.
Proof.
  intros M S B. destruct (pools_mic _ _ _ M) as [(E & _)|[(_ & p0 & E1 & E2 & _ & Nb & _ & E)|(p0 & p1 & G & (L1 & L2 & L3 & _ & _ & _ & L4) & _ & _ & E)]]; intros i j p q; unfold get_pool; rewrite E.
  - apply B.
  - rewrite !mget_mset. rewrite E1 in *. 
    assert (X : forall k v, mget (st_pools s) (k, 0) = Some v -> pl_pair v = pl_pair p0 -> pl_disabled v = false -> pl_kind v = PBasic -> pl_kind p0 = PBasic -> False).
    { intros k v Gv Ev Dv Kv Kp. specialize (Nb Kp). destruct (i_pools _ S _ _ Gv) as (Ek & _ & _ & _ & _ & P). assert (ex : existsb active_basic (pools_of_pair s (pl_pair p0)) = true); [|congruence].
      apply existsb_exists. exists (Some v). split; [|cbn; rewrite Dv, Kv; reflexivity]. unfold pools_of_pair. apply in_map_iff. exists ((pl_pair p0, pl_id v), tt). cbn [fst snd]. split; [unfold get_pool; injection Ek as <-; exact Gv|].
      apply mprefix_In. split; [|reflexivity]. apply mget_In. congruence. }
    destruct (key_eqb_spec (i, 0) (st_last_pool s + 1, 0)) as [Ei|Ni], (key_eqb_spec (j, 0) (st_last_pool s + 1, 0)) as [Ej|Nj]; intros G1 G2 Ep D1 D2 K1 K2.
    + congruence.
    + injection G1 as <-. exfalso. eapply (X j q); eauto.
    + injection G2 as <-. exfalso. eapply (X i p); eauto.
    + eapply B; eauto.
  - rewrite !mget_mset. rewrite L1 in *.
    destruct (key_eqb_spec (i, 0) (pl_id p0, 0)) as [Ei|Ni], (key_eqb_spec (j, 0) (pl_id p0, 0)) as [Ej|Nj]; intros G1 G2 Ep D1 D2 K1 K2.
    + congruence.
    + injection G1 as <-. injection Ei as ->. apply (B (pl_id p0) j p0 q); auto; try congruence. destruct (pl_disabled p0); [specialize (L4 eq_refl); congruence|reflexivity].
    + injection G2 as <-. injection Ej as ->. apply (B i (pl_id p0) p p0); auto; try congruence. destruct (pl_disabled p0); [specialize (L4 eq_refl); congruence|reflexivity].
    + eapply B; eauto.
Qed.
Lemma reach_one_basic Q c : reach (sane Q) c -> one_basic (snd c).
Proof.
  apply (reach_state Q one_basic).
  - intros p b h t _ _ _ i j p0 q H. discriminate H.
  - intros s s' (st & M) I X. exact (one_basic_mic _ _ _ M (v_str _ _ I) X).
Qed.

Lemma active_pools_mic (A : params -> Prop) st N s s' : (forall p, A p -> pm_max_pools p <= N) -> mic (mkCtl A st) s s' -> okp A s -> (forall i, active_pools s i <= N) -> forall i, active_pools s' i <= N.
Proof.
  intros HN M I B i. pose proof (v_str _ _ I) as S. destruct (v_params _ _ I) as [_ Hp]. cbn [allowed] in Hp. specialize (HN _ Hp).
  change (msum (active_one i) (st_pools s') <= N). assert (B' : forall i, msum (active_one i) (st_pools s) <= N) by exact B.
  destruct (pools_mic _ _ _ M) as [(E & _)|[(_ & p0 & E1 & E2 & Nm & _ & _ & E)|(p0 & p1 & G & (L1 & L2 & L3 & _ & _ & _ & L4) & _ & _ & E)]]; rewrite E; [apply B'| |].
  - rewrite (msum_mset _ _ _ _ (i_pools_sorted _ S)). destruct (mget (st_pools s) (pl_id p0, 0)) as [v|] eqn:G; [exfalso; destruct (i_pools _ S _ _ G) as (Ek & X & _); injection Ek as Ek; lia|].
    unfold active_one at 2. unfold is_active_of. rewrite E2. cbn [negb andb]. destruct (Z.eqb_spec (pl_pair p0) i) as [<-|]; [|specialize (B' i); lia].
    rewrite (num_active_exact s _ S) in Nm. change (active_pools s (pl_pair p0)) with (msum (active_one (pl_pair p0)) (st_pools s)) in Nm. lia.
  - rewrite (msum_mset _ _ _ _ (i_pools_sorted _ S)). unfold get_pool in G. rewrite L1, G. specialize (B' i).
    assert (active_one i p1 <= active_one i p0); [|lia]. unfold active_one, is_active_of. rewrite L2. destruct (pl_disabled p0) eqn:D; [rewrite (L4 eq_refl); reflexivity|]. destruct (pl_disabled p1); cbn [negb andb]; destruct (pl_pair p0 =? i); lia.
Qed.
Lemma reach_active_pools (Q : params -> Prop) N c i : 0 <= N -> (forall p, Q p -> pm_max_pools p <= N) -> reach (sane Q) c -> active_pools (snd c) i <= N.
Proof.
  intros N0 HN R. revert c R i. apply (reach_state Q (fun s => forall i, active_pools s i <= N)).
  - intros p b h t _ _ _ i. exact N0.
  - intros s s' (st & M) I X. exact (active_pools_mic (sane Q) st N s s' (fun p Hp => HN p (proj1 Hp)) M I X).
Qed.
