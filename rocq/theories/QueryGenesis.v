(** The query-only indexes after an export and an import. *)
From Verif Require Import Base Dec OrderModel KeeperModel KeeperLib KeeperSpec KeeperMicro KeeperBank KeeperTrade KeeperHist GenesisModel GenesisProofs QueryModel QuerySpec QueryProofs QueryState QueryLists.

Definition both (rank : denom -> Z) (x : qidx) (p : pair) : qidx := set_lookup rank (set_lookup rank x (pr_base p) (pr_quote p) (pr_id p)) (pr_quote p) (pr_base p) (pr_id p).
Lemma fold_both rank ps : forall x, (forall a, msorted (x_lookup x a)) ->
  (forall a, msorted (x_lookup (fold_left (both rank) ps x) a)) /\ x_reserve (fold_left (both rank) ps x) = x_reserve x /\
  forall a k, mget (x_lookup (fold_left (both rank) ps x) a) k = Some tt <-> mget (x_lookup x a) k = Some tt \/ exists b p, In p ps /\ k = (rank b, pr_id p) /\ trades p a b.
Proof.
  induction ps as [|p ps IH]; intros x S; cbn [fold_left].
  - split; [exact S|]. split; [reflexivity|]. intros a k. split; [auto|]. intros [H|(b & p & [] & _)]; exact H.
  - destruct (IH (both rank x p)) as (A & B & C); [intros a; apply sorted_set, sorted_set, S|]. split; [exact A|]. split; [rewrite B; reflexivity|].
    intros a k. rewrite C. unfold both at 1. rewrite !lookup_set. split.
    + intros [[[E1 E2]|[[E1 E2]|H]]|(b & q & H & K & T)].
      * right. exists (pr_base p), p. split; [left; reflexivity|]. split; [exact E2|right; split; [reflexivity|symmetry; exact E1]].
      * right. exists (pr_quote p), p. split; [left; reflexivity|]. split; [exact E2|left; split; [symmetry; exact E1|reflexivity]].
      * left. exact H.
      * right. exists b, q. split; [right; exact H|]. split; [exact K|exact T].
    + intros [H|(b & q & [<-|H] & K & T)].
      * left. right. right. exact H.
      * left. destruct T as [[T1 T2]|[T1 T2]]; subst; [right; left|left]; split; reflexivity.
      * right. exists b, q. split; [exact H|]. split; [exact K|exact T].
Qed.
Lemma fold_reserve pls : forall x, x_lookup (fold_left (fun x p => set_reserve x (pl_id p)) pls x) = x_lookup x /\
  forall a i, x_reserve (fold_left (fun x p => set_reserve x (pl_id p)) pls x) a = Some i <-> (a = PoolReserve i /\ exists p, In p pls /\ pl_id p = i) \/ (x_reserve x a = Some i /\ forall p, In p pls -> a <> PoolReserve (pl_id p)).
Proof.
  induction pls as [|p pls IH]; intros x; cbn [fold_left].
  - split; [reflexivity|]. intros a i. split; [intros H; right; split; [exact H|intros p []]|]. intros [(_ & p & [] & _)|[H _]]. exact H.
  - destruct (IH (set_reserve x (pl_id p))) as [A B]. split; [rewrite A; reflexivity|]. intros a i. rewrite B. cbn [set_reserve x_reserve]. split.
    + intros [(E & q & H & Eq)|[H N]]; [left; split; [exact E|]; exists q; split; [right; exact H|exact Eq]|]. destruct (addr_eqb_spec a (PoolReserve (pl_id p))) as [->|Na].
      * injection H as <-. left. split; [reflexivity|]. exists p. split; [left; reflexivity|reflexivity].
      * right. split; [exact H|]. intros q [<-|Hq]; [exact Na|exact (N q Hq)].
    + intros [(E & q & [<-|H] & Eq)|[H N]].
      * destruct (in_dec Z.eq_dec (pl_id p) (map pl_id pls)) as [I|I].
        -- left. split; [exact E|]. apply in_map_iff in I. destruct I as (q & Eq' & Hq). exists q. split; [exact Hq|congruence].
        -- right. rewrite E, <- Eq. destruct (addr_eqb_spec (PoolReserve (pl_id p)) (PoolReserve (pl_id p))) as [_|N]; [|contradiction]. split; [reflexivity|]. intros q Hq X. injection X as X. apply I. rewrite X. apply in_map. exact Hq.
      * left. split; [exact E|]. exists q. split; [exact H|exact Eq].
      * right. destruct (addr_eqb_spec a (PoolReserve (pl_id p))) as [->|_]; [exfalso; exact (N p (or_introl eq_refl) eq_refl)|]. split; [exact H|]. intros q Hq. apply N. right. exact Hq.
Qed.
Lemma unit_eq (o o' : option unit) : (o = Some tt <-> o' = Some tt) -> o = o'.
Proof. destruct o as [[]|], o' as [[]|]; intros [H1 H2]; try reflexivity; [rewrite (H1 eq_refl)|rewrite (H2 eq_refl)]; reflexivity. Qed.
Lemma genesis_indexes rank s x : str s -> idx_ok rank s x ->
  (forall a, x_lookup (index_genesis rank (map snd (st_pairs s)) (map snd (st_pools s))) a = x_lookup x a) /\
  (forall a, x_reserve (index_genesis rank (map snd (st_pairs s)) (map snd (st_pools s))) a = x_reserve x a).
Proof.
  intros S I. unfold index_genesis. change (fun x0 p => set_lookup rank (set_lookup rank x0 (pr_base p) (pr_quote p) (pr_id p)) (pr_quote p) (pr_base p) (pr_id p)) with (both rank).
  destruct (fold_both rank (map snd (st_pairs s)) no_idx) as (A & B & C); [intros a; constructor|]. destruct (fold_reserve (map snd (st_pools s)) (fold_left (both rank) (map snd (st_pairs s)) no_idx)) as [D E]. split.
  - intros a. rewrite D. apply msorted_ext; [apply A|exact (ix_sorted _ _ _ I a)|]. intros k. apply unit_eq. rewrite C, (ix_lookup _ _ _ I). cbn [no_idx x_lookup mget]. split.
    + intros [H|(b & p & H & K & T)]; [discriminate H|]. exists b, p. split; [exact K|]. split; [|exact T]. apply in_map_iff in H. destruct H as ([k' p'] & <- & H). cbn [snd]. apply (in_mget _ _ _ (i_pairs_sorted _ S)) in H. destruct (i_pairs _ S _ _ H) as (-> & _). exact H.
    + intros (b & p & K & G & T). right. exists b, p. split; [|split; [exact K|exact T]]. apply in_map_iff. exists ((pr_id p, 0), p). split; [reflexivity|]. apply (in_mget _ _ _ (i_pairs_sorted _ S)). exact G.
  - intros a. destruct (x_reserve x a) as [i|] eqn:X.
    + apply (ix_reserve _ _ _ I) in X. destruct X as [-> G]. apply E. left. split; [reflexivity|]. destruct (get_pool s i) as [p|] eqn:Gp; [|discriminate G]. destruct (i_pools _ S _ _ Gp) as (Ek & _). injection Ek as Ek.
      exists p. split; [|symmetry; exact Ek]. apply in_map_iff. exists ((i, 0), p). split; [reflexivity|]. apply (in_mget _ _ _ (i_pools_sorted _ S)). exact Gp.
    + destruct (x_reserve (fold_left _ _ _) a) as [i|] eqn:Y; [|reflexivity]. exfalso. apply E in Y. rewrite B in Y. destruct Y as [(-> & p & H & Ei)|[Y _]]; [|discriminate Y].
      apply in_map_iff in H. destruct H as ([k p'] & Ep & H). cbn [snd] in Ep. subst p'. apply (in_mget _ _ _ (i_pools_sorted _ S)) in H. destruct (i_pools _ S _ _ H) as (-> & _). rewrite Ei in H.
      assert (Z0 : x_reserve x (PoolReserve i) = Some i) by (apply (ix_reserve _ _ _ I); split; [reflexivity|unfold get_pool; rewrite H; reflexivity]). congruence.
Qed.
