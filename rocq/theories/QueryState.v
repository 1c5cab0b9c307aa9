(** The queries over reachable states, and the indexes that serve only them. *)
From Verif Require Import Base Dec OrderModel PoolModel KeeperModel KeeperLib KeeperSpec KeeperMicro KeeperBank KeeperSteps KeeperTrade KeeperInv KeeperHist QueryModel QuerySpec QueryProofs.
From Coq Require Import Sorting.Sorted.

(** ** Which steps create pairs and pools *)
Lemma send_last s a b cs s' : st_send s a b cs = Some s' -> st_last_pair s' = st_last_pair s /\ st_last_pool s' = st_last_pool s.
Proof. intros H. apply st_send_spec in H. destruct H as (x & -> & _). split; reflexivity. Qed.
Lemma finish_last s o st s' : finish_order s o st = Some s' -> st_last_pair s' = st_last_pair s /\ st_last_pool s' = st_last_pool s.
Proof.
  unfold finish_order. destruct (o_terminal (ko_status o)); [intros H; injection H as <-; split; reflexivity|]. intros H.
  destruct (if 0 <? ko_remaining o then _ else _) as [s1|] eqn:E; [|discriminate H]. injection H as <-.
  assert (X : st_last_pair s1 = st_last_pair s /\ st_last_pool s1 = st_last_pool s).
  { destruct (0 <? ko_remaining o); [|injection E as <-; split; reflexivity]. destruct (get_pair s (ko_pair o)); [|discriminate E]. exact (send_last _ _ _ _ _ E). }
  destruct X as [X1 X2]. destruct (ko_type o); split; assumption.
Qed.
Lemma for_each_last {A} (f : A -> state -> option state) l : (forall x s s', f x s = Some s' -> st_last_pair s' = st_last_pair s /\ st_last_pool s' = st_last_pool s) ->
  forall s s', for_each f l s = Some s' -> st_last_pair s' = st_last_pair s /\ st_last_pool s' = st_last_pool s.
Proof.
  intros F. induction l as [|x l IH]; intros s s' H; cbn [for_each] in H; [injection H as <-; split; reflexivity|]. destruct (f x s) as [s1|] eqn:E; [|discriminate H].
  destruct (F _ _ _ E). destruct (IH _ _ H). split; congruence.
Qed.
Lemma place_last s typ u i d od offer dd price amt l s' : str s -> place_order s typ u i d od offer dd price amt l = Some s' -> st_last_pair s' = st_last_pair s /\ st_last_pool s' = st_last_pool s.
Proof.
  intros S H. destruct (place_order_spec s typ u i d od offer dd price amt l s' S H) as (pr & rp & s1 & _ & _ & _ & _ & _ & E & _ & ->). exact (send_last _ _ _ _ _ E).
Qed.
Lemma tail_last s u pr kind ps cs s' : create_pool_tail s u pr kind ps cs = Some s' -> st_last_pair s' = st_last_pair s /\ st_last_pool s' = st_last_pool s + 1.
Proof.
  unfold create_pool_tail. cbn zeta. intros H. destruct (st_send _ _ (PoolReserve _) _) as [s3|] eqn:E1; [|discriminate H]. destruct (st_send s3 _ _ _) as [s4|] eqn:E2; [|discriminate H].
  destruct (new_coins _) as [pc|]; [|discriminate H]. apply send_last in E1, E2, H. destruct E1 as [A1 A2], E2 as [B1 B2], H as [C1 C2].
  rewrite C1, C2. cbn [st_last_pair st_last_pool set_bank]. rewrite B1, B2, A1, A2. split; reflexivity.
Qed.
Lemma tail_pools s u pr kind ps cs s' : create_pool_tail s u pr kind ps cs = Some s' -> exists p, st_pools s' = mset (st_pools s) (st_last_pool s + 1, 0) p.
Proof.
  unfold create_pool_tail. cbn zeta. intros H. destruct (st_send _ _ (PoolReserve _) _) as [s3|] eqn:E1; [|discriminate H]. destruct (st_send s3 _ _ _) as [s4|] eqn:E2; [|discriminate H].
  destruct (new_coins _) as [pc|]; [|discriminate H]. apply st_send_spec in E1, E2, H. destruct E1 as (b1 & -> & _), E2 as (b2 & -> & _), H as (b3 & -> & _). eexists. reflexivity.
Qed.
Definition is_new_pair (m : msg) : bool := match m with MCreatePair _ _ _ => true | _ => false end.
Definition is_new_pool (m : msg) : bool := match m with MCreatePool _ _ _ | MCreateRangedPool _ _ _ _ _ _ => true | _ => false end.
Lemma deliver_last s m s' : str s -> deliver s m = Some s' ->
  st_last_pair s' = st_last_pair s + (if is_new_pair m then 1 else 0) /\ st_last_pool s' = st_last_pool s + (if is_new_pool m then 1 else 0).
Proof.
  intros S H. unfold deliver in H. destruct (validate_basic m); [|discriminate H]. destruct m; cbn [handle is_new_pair is_new_pool] in *; rewrite ?Z.add_0_r.
  - unfold create_pair in H. destruct (match st_pidx s base quote with Some i => is_some (get_pair s i) | None => false end); [discriminate H|].
    destruct (st_send _ _ _ _) as [s1|] eqn:E; [|discriminate H]. injection H as <-. apply send_last in E. destruct E as [E1 E2]. cbn. rewrite E1, E2. split; reflexivity.
  - unfold create_pool in H. inv_do. exact (tail_last _ _ _ _ _ _ _ H).
  - unfold create_rpool in H. cbn zeta in H. inv_do. exact (tail_last _ _ _ _ _ _ _ H).
  - unfold deposit_msg in H. inv_do. match goal with E : st_send _ _ _ _ = Some _ |- _ => exact (send_last _ _ _ _ _ E) end.
  - unfold withdraw_msg in H. inv_do. match goal with E : st_send _ _ _ _ = Some _ |- _ => exact (send_last _ _ _ _ _ E) end.
  - exact (place_last _ _ _ _ _ _ _ _ _ _ _ _ S H).
  - exact (place_last _ _ _ _ _ _ _ _ _ _ _ _ S H).
  - unfold mm_order in H. cbn zeta in H. destruct (_ <=? _); [discriminate H|]. destruct (place_order _ _ _ _ _ _ _ _ _ _ _) as [s1|] eqn:E; [|discriminate H]. injection H as <-. exact (place_last _ _ _ _ _ _ _ _ _ _ _ _ S E).
  - unfold cancel_order in H. inv_do. exact (finish_last _ _ _ _ H).
  - unfold cancel_all in H. destruct (existsb _ _); [discriminate H|]. revert H. apply for_each_last. intros k t t' H. unfold cancel_one in H. destruct (get_order t (fst k) (snd k)) as [o|]; [|discriminate H].
    destruct (_ || _); [|injection H as <-; split; reflexivity]. cbn zeta in H. destruct (_ && _); [exact (finish_last _ _ _ _ H)|injection H as <-; split; reflexivity].
  - destruct (valid_params p); [|discriminate H]. injection H as <-. split; reflexivity.
  - exact (send_last _ _ _ _ _ H).
Qed.
Lemma quiet_last Q s s' : mics Q s s' -> stage_of Q <> SMsg -> st_last_pair s' = st_last_pair s /\ st_last_pool s' = st_last_pool s.
Proof.
  intros M N. induction M as [|s1 s2 s3 M Ms IH]; [split; reflexivity|]. destruct IH as [I1 I2].
  assert (X : st_last_pair s2 = st_last_pair s1 /\ st_last_pool s2 = st_last_pool s1).
  { destruct M; try (exfalso; congruence); norm_send; try (split; reflexivity).
    - exact (finish_last _ _ _ _ H2).
    - destruct (delete_outdated_eq s1) as (f & -> & _). split; reflexivity. }
  destruct X. split; congruence.
Qed.

(** A step that issues no pair id leaves the pairs and their coins; likewise for pools. *)
Definition coins_of (s : state) (i : Z) : option (denom * denom) := match get_pair s i with Some p => Some (pr_base p, pr_quote p) | None => None end.
Lemma amics_pairs A s s' : amics A s s' -> okp A s -> st_last_pair s <= st_last_pair s' /\ (st_last_pair s' = st_last_pair s -> forall i, coins_of s' i = coins_of s i).
Proof.
  intros M. induction M as [|s1 s2 s3 M Ms IH]; intros I; [split; [lia|auto]|]. destruct (IH (okp_amic _ _ _ M I)) as [L E]. destruct M as (st & M).
  assert (X : st_last_pair s1 <= st_last_pair s2 /\ (st_last_pair s2 = st_last_pair s1 -> forall i, coins_of s2 i = coins_of s1 i)).
  { destruct (pairs_mic _ _ _ M) as [[A1 A2]|[(p & P1 & P2 & P3)|(p & p' & P1 & (P2 & P3 & P4 & _) & P5 & P6)]].
    - rewrite A2. split; [lia|]. intros _ i. unfold coins_of, get_pair. rewrite A1. reflexivity.
    - rewrite P2. split; [lia|]. lia.
    - rewrite P5. split; [lia|]. intros _ i. unfold coins_of, get_pair in *. rewrite P6, mget_mset. destruct (key_eqb_spec (i, 0) (pr_id p', 0)) as [E1|]; [|reflexivity].
      injection E1 as ->. rewrite P2, P1, P3, P4. reflexivity. }
  destruct X as [X1 X2]. split; [lia|]. intros E1 i. rewrite (E ltac:(lia) i). apply X2. lia.
Qed.
Lemma amics_pools A s s' : amics A s s' -> okp A s -> st_last_pool s <= st_last_pool s' /\ (st_last_pool s' = st_last_pool s -> forall i, is_some (get_pool s' i) = is_some (get_pool s i)).
Proof.
  intros M. induction M as [|s1 s2 s3 M Ms IH]; intros I; [split; [lia|auto]|]. destruct (IH (okp_amic _ _ _ M I)) as [L E]. destruct M as (st & M).
  assert (X : st_last_pool s1 <= st_last_pool s2 /\ (st_last_pool s2 = st_last_pool s1 -> forall i, is_some (get_pool s2 i) = is_some (get_pool s1 i))).
  { destruct (pools_mic _ _ _ M) as [(A1 & A2 & _)|[(_ & p & _ & _ & _ & _ & P2 & P3)|(p & p' & P1 & (P2 & _) & P5 & _ & P6)]].
    - rewrite A2. split; [lia|]. intros _ i. unfold get_pool. rewrite A1. reflexivity.
    - rewrite P2. split; [lia|]. lia.
    - rewrite P5. split; [lia|]. intros _ i. unfold get_pool in *. rewrite P6, mget_mset. destruct (key_eqb_spec (i, 0) (pl_id p', 0)) as [E1|]; [|reflexivity].
      injection E1 as ->. rewrite P2, P1. reflexivity. }
  destruct X as [X1 X2]. split; [lia|]. intros E1 i. rewrite (E ltac:(lia) i). apply X2. lia.
Qed.

(** ** The indexes are exact *)
Record idx_ok (rank : denom -> Z) (s : state) (x : qidx) : Prop := mkIdxOk {
  ix_sorted : forall a, msorted (x_lookup x a);
  ix_lookup : forall a k, mget (x_lookup x a) k = Some tt <-> exists b p, k = (rank b, pr_id p) /\ get_pair s (pr_id p) = Some p /\ trades p a b;
  ix_reserve : forall a i, x_reserve x a = Some i <-> a = PoolReserve i /\ is_some (get_pool s i) = true }.

Lemma idx_same rank s s' x : (forall i, coins_of s' i = coins_of s i) -> (forall i, is_some (get_pool s' i) = is_some (get_pool s i)) -> str s -> str s' -> idx_ok rank s x -> idx_ok rank s' x.
Proof.
  intros HC HP S S' [A B C]. constructor; [exact A| |].
  - intros a k. rewrite B. assert (T : forall t t', str t -> str t' -> (forall i, coins_of t' i = coins_of t i) -> forall b p, k = (rank b, pr_id p) /\ get_pair t (pr_id p) = Some p /\ trades p a b ->
        exists b p, k = (rank b, pr_id p) /\ get_pair t' (pr_id p) = Some p /\ trades p a b).
    { intros t t' St St' H b p (K & G & Tr). specialize (H (pr_id p)). unfold coins_of in H. rewrite G in H. destruct (get_pair t' (pr_id p)) as [p'|] eqn:G'; [|discriminate H]. injection H as H1 H2.
      destruct (i_pairs _ St' _ _ G') as (Ek & _). injection Ek as Ek. exists b, p'. rewrite <- Ek. split; [exact K|]. split; [exact G'|]. unfold trades in *. rewrite H1, H2. exact Tr. }
    split; intros (b & p & H); [apply (T s s' S S' HC b p H)|apply (T s' s S' S (fun i => eq_sym (HC i)) b p H)].
  - intros a i. rewrite C, HP. reflexivity.
Qed.
Lemma lookup_set rank x a b i c k : mget (x_lookup (set_lookup rank x a b i) c) k = Some tt <-> (c = a /\ k = (rank b, i)) \/ mget (x_lookup x c) k = Some tt.
Proof.
  cbn [set_lookup x_lookup]. destruct (denom_eqb_spec c a) as [->|N].
  - rewrite mget_mset. destruct (key_eqb_spec k (rank b, i)) as [->|Nk]; [split; auto|]. split; [auto|]. intros [[_ E]|E]; [congruence|exact E].
  - split; [auto|]. intros [[E _]|E]; [congruence|exact E].
Qed.
Lemma sorted_set rank x a b i c : msorted (x_lookup x c) -> msorted (x_lookup (set_lookup rank x a b i) c).
Proof. intros H. cbn [set_lookup x_lookup]. destruct (denom_eqb c a); [apply msorted_mset|]; exact H. Qed.

Lemma qreach_reach rank Q c x : qreach rank Q c x -> reach Q c.
Proof.
  induction 1 as [s G|s s' x H IH S|s m s' x H IH D P|s s' x H IH S].
  - exists s. split; [exact G|constructor].
  - exact (reach_step _ _ _ IH S).
  - eapply reach_step; [exact IH|]. econstructor; [exact D|exact P].
  - exact (reach_step _ _ _ IH S).
Qed.

Lemma step_quiet Q s s' ph ph' : reach (sane Q) (ph, s) -> step (sane Q) (ph, s) (ph', s') -> ph <> ph' ->
  (forall i, coins_of s' i = coins_of s i) /\ (forall i, is_some (get_pool s' i) = is_some (get_pool s i)).
Proof.
  intros R St N. pose proof (reach_okp Q _ R) as I. cbn [snd] in I. pose proof (step_mics Q _ _ St I) as M. cbn [snd] in M.
  assert (X : st_last_pair s' = st_last_pair s /\ st_last_pool s' = st_last_pool s).
  { inversion St; subst; [| |].
    - unfold begin_block. destruct (delete_outdated_eq (set_clock s (st_height s + 1) t)) as (f & -> & _). split; reflexivity.
    - contradiction.
    - destruct (end_block_mics (sane Q) iter s s') as (s1 & M1 & M2); [assumption|exact I|intros p [_ Hp]; exact Hp|assumption|].
      apply quiet_last in M1; [|discriminate]. apply quiet_last in M2; [|discriminate]. destruct M1, M2. split; congruence. }
  destruct X as [X1 X2]. split; [exact (proj2 (amics_pairs _ _ _ M I) X1)|exact (proj2 (amics_pools _ _ _ M I) X2)].
Qed.

Lemma qreach_ok rank Q c x : qreach rank (sane Q) c x -> idx_ok rank (snd c) x.
Proof.
  induction 1 as [s G|s s' x H IH S|s m s' x H IH D P|s s' x H IH S]; cbn [snd] in *.
  - destruct G as (p & b & h & t & _ & _ & _ & _ & ->). constructor; [intros a; constructor| |].
    + intros a k. split; [discriminate|]. intros (b0 & p0 & _ & X & _). discriminate X.
    + intros a i. split; [discriminate|]. intros [_ X]. discriminate X.
  - pose proof (qreach_reach _ _ _ _ H) as R. destruct (step_quiet Q s s' _ _ R S ltac:(discriminate)) as [X1 X2].
    exact (idx_same rank s s' x X1 X2 (v_str _ _ (reach_okp Q _ R)) (v_str _ _ (reach_okp Q _ (reach_step _ _ _ R S))) IH).
  - pose proof (qreach_reach _ _ _ _ H) as R. pose proof (reach_okp Q _ R) as I. cbn [snd] in I. pose proof (v_str _ _ I) as St.
    assert (Sp : step (sane Q) (InBlock, s) (InBlock, s')) by (econstructor; [exact D|exact P]).
    pose proof (reach_okp Q _ (reach_step _ _ _ R Sp)) as I'. cbn [snd] in I'. pose proof (v_str _ _ I') as St'.
    pose proof (step_mics Q _ _ Sp I) as M. cbn [snd] in M. destruct (deliver_last s m s' St D) as [L1 L2].
    destruct (is_new_pair m) eqn:E1; [|destruct (is_new_pool m) eqn:E2].
    + assert (Pl : forall i, is_some (get_pool s' i) = is_some (get_pool s i)) by (apply (proj2 (amics_pools _ _ _ M I)); destruct m; try discriminate E1; cbn [is_new_pool] in L2; lia).
      destruct m; try discriminate E1. unfold deliver in D. destruct (validate_basic _) eqn:Vb; [|discriminate D]. cbn [handle] in D. unfold create_pair in D.
      destruct (match st_pidx s base quote with Some i => is_some (get_pair s i) | None => false end); [discriminate D|]. destruct (st_send _ _ _ _) as [s1|] eqn:E; [|discriminate D].
      apply st_send_spec in E. destruct E as (bk & -> & _). injection D as D. cbn [index_msg].
      assert (G : forall i, get_pair s' i = if i =? st_last_pair s + 1 then Some (mkPair (st_last_pair s + 1) base quote 0 None 1) else get_pair s i).
      { intros i. rewrite <- D. unfold get_pair. cbn [st_pairs set_pidx put_pair set_pairs set_last_pair set_bank st_last_pair pr_id]. rewrite mget_mset. unfold key_eqb. cbn [fst snd]. rewrite andb_true_r. reflexivity. }
      set (n := st_last_pair s + 1) in *. cbn [validate_basic] in Vb. apply negb_true_iff in Vb. destruct (denom_eqb_spec base quote) as [|Nbq]; [discriminate Vb|].
      destruct IH as [A B C]. constructor.
      * intros a. apply sorted_set, sorted_set. apply A.
      * intros a k. rewrite !lookup_set, B. split.
        -- intros [[-> ->]|[[-> ->]|(b & p & -> & Gp & T)]].
           ++ exists base, (mkPair n base quote 0 None 1). split; [reflexivity|]. split; [rewrite G; cbn [pr_id]; rewrite Z.eqb_refl; reflexivity|right; split; reflexivity].
           ++ exists quote, (mkPair n base quote 0 None 1). split; [reflexivity|]. split; [rewrite G; cbn [pr_id]; rewrite Z.eqb_refl; reflexivity|left; split; reflexivity].
           ++ exists b, p. split; [reflexivity|]. split; [|exact T]. rewrite G. destruct (Z.eqb_spec (pr_id p) n) as [En|_]; [|exact Gp]. destruct (i_pairs _ St _ _ Gp) as (_ & Lp & _). lia.
        -- intros (b & p & -> & Gp & T). rewrite G in Gp. destruct (Z.eqb_spec (pr_id p) n) as [En|Nn].
           ++ injection Gp as <-. cbn [pr_id]. destruct T as [[T1 T2]|[T1 T2]]; cbn [pr_base pr_quote] in T1, T2; subst; [right; left|left]; split; reflexivity.
           ++ right. right. exists b, p. auto.
      * intros a i. cbn [set_lookup x_reserve]. rewrite C, Pl. reflexivity.
    + assert (Pr : forall i, coins_of s' i = coins_of s i) by (apply (proj2 (amics_pairs _ _ _ M I)); lia).
      assert (Ex : exists p, st_pools s' = mset (st_pools s) (st_last_pool s + 1, 0) p).
      { unfold deliver in D. destruct (validate_basic m); [|discriminate D]. destruct m; try discriminate E2; cbn [handle] in D.
        - unfold create_pool in D. inv_do. exact (tail_pools _ _ _ _ _ _ _ D).
        - unfold create_rpool in D. cbn zeta in D. inv_do. exact (tail_pools _ _ _ _ _ _ _ D). }
      destruct Ex as (p & Ex). assert (Ei : index_msg rank s m x = set_reserve x (st_last_pool s + 1)) by (destruct m; try discriminate E2; reflexivity). rewrite Ei.
      assert (IH1 : idx_ok rank s' (mkQidx (x_lookup x) (fun a => if addr_eqb a (PoolReserve (st_last_pool s + 1)) then Some (st_last_pool s + 1) else x_reserve x a))); [|exact IH1].
      destruct IH as [A B C]. constructor; cbn [x_lookup x_reserve]; [exact A| |].
      * assert (Y : idx_ok rank s (mkQidx (x_lookup x) (x_reserve x))) by (constructor; assumption).
        intros a k. rewrite B. split; intros (b & q & K & Gq & T).
        -- specialize (Pr (pr_id q)). unfold coins_of in Pr. rewrite Gq in Pr. destruct (get_pair s' (pr_id q)) as [q'|] eqn:G'; [|discriminate Pr]. injection Pr as P1 P2.
           destruct (i_pairs _ St' _ _ G') as (Ek & _). injection Ek as Ek. exists b, q'. rewrite <- Ek. split; [exact K|]. split; [exact G'|]. unfold trades in *. rewrite P1, P2. exact T.
        -- specialize (Pr (pr_id q)). unfold coins_of in Pr. rewrite Gq in Pr. destruct (get_pair s (pr_id q)) as [q'|] eqn:G'; [|discriminate Pr]. injection Pr as P1 P2.
           destruct (i_pairs _ St _ _ G') as (Ek & _). injection Ek as Ek. exists b, q'. rewrite <- Ek. split; [exact K|]. split; [exact G'|]. unfold trades in *. rewrite <- P1, <- P2. exact T.
      * assert (Gp : forall i, is_some (get_pool s' i) = (i =? st_last_pool s + 1) || is_some (get_pool s i)).
        { intros i. unfold get_pool. rewrite Ex, mget_mset. unfold key_eqb. cbn [fst snd]. rewrite andb_true_r. destruct (i =? st_last_pool s + 1); reflexivity. }
        intros a i. rewrite Gp. destruct (addr_eqb_spec a (PoolReserve (st_last_pool s + 1))) as [->|Na].
        -- split; [intros Y; injection Y as <-; split; [reflexivity|rewrite Z.eqb_refl; reflexivity]|]. intros [Y _]. injection Y as <-. reflexivity.
        -- rewrite C. split; intros [-> Y]; split; try reflexivity; [rewrite Y; apply orb_true_r|]. destruct (Z.eqb_spec i (st_last_pool s + 1)) as [->|]; [contradiction|exact Y].
    + rewrite Z.add_0_r in L1, L2. assert (Ei : index_msg rank s m x = x) by (destruct m; try discriminate E1; try discriminate E2; reflexivity). rewrite Ei.
      exact (idx_same rank s s' x (proj2 (amics_pairs _ _ _ M I) L1) (proj2 (amics_pools _ _ _ M I) L2) St St' IH).
  - pose proof (qreach_reach _ _ _ _ H) as R. destruct (step_quiet Q s s' _ _ R S ltac:(discriminate)) as [X1 X2].
    exact (idx_same rank s s' x X1 X2 (v_str _ _ (reach_okp Q _ R)) (v_str _ _ (reach_okp Q _ (reach_step _ _ _ R S))) IH).
Qed.
