(** When cancelling all orders is accepted. *)
From Verif Require Import Base Dec OrderModel MatchModel PoolModel KeeperModel KeeperLib KeeperSpec KeeperSpec2 KeeperMicro KeeperBank KeeperSteps KeeperTrade KeeperInv KeeperHist KeeperBlock KeeperCancel CancelSpec MatchProofs.
From Coq Require Import Permutation.

Lemma to_cancel_eq u ids s o : get_pair s (ko_pair o) <> None -> to_cancel u ids s o = wants u ids s o.
Proof.
  intros P. unfold to_cancel, wants, live, o_terminal. destruct (get_pair s (ko_pair o)) as [pr|]; [|congruence]. destruct ids; cbn [orb]; destruct (ko_status o); cbn [negb]; rewrite ?andb_true_r; reflexivity.
Qed.

Definition need_of (u : Z) (ids : list Z) (s : state) (i : Z) (d : denom) (o : korder) : Z :=
  if wants u ids s o && (ko_pair o =? i) && denom_eqb d (ko_offer_denom o) then ko_remaining o else 0.
Definition need (u : Z) (ids : list Z) (s : state) (i : Z) (d : denom) (k : key) : Z := match mget (st_orders s) k with Some o => need_of u ids s i d o | None => 0 end.

Lemma cancel_one_iff (Q : ctl) u ids k s o : stage_of Q = SMsg -> inv Q s -> mget (st_orders s) k = Some o -> ko_owner o = User u ->
  (cancel_one ids k s <> None <-> forall i d, need u ids s i d k <= bal (st_bank s) (PairEscrow i) d) /\
  forall s1, cancel_one ids k s = Some s1 -> inv Q s1 /\ st_pairs s1 = st_pairs s /\ (forall k', k' <> k -> mget (st_orders s1) k' = mget (st_orders s) k') /\
    forall i d, bal (st_bank s1) (PairEscrow i) d = bal (st_bank s) (PairEscrow i) d - need u ids s i d k.
Proof.
  intros HS I G Ow. pose proof (v_str _ _ I) as S. pose proof (i_orders _ S _ _ G) as (Ek & pr & Gp & O). pose proof O as (_ & _ & _ & _ & _ & _ & _ & _ & [Nr _] & _).
  destruct (v_bank _ _ I) as [Nb _].
  assert (I1 : forall s1, cancel_one ids k s = Some s1 -> inv Q s1) by (intros s1 E; eapply inv_mics; [eapply cancel_one_mics; eassumption|assumption]).
  unfold need. rewrite G.
  assert (D : (wants u ids s o = true /\ live o = true /\ cancel_one ids k s = finish_order s o OCanceled) \/ (wants u ids s o = false /\ cancel_one ids k s = Some s)).
  { unfold cancel_one, wants. subst k. cbn [fst snd]. unfold get_order. rewrite G, Ow, addr_eqb_refl. cbn [andb]. rewrite Gp. destruct (live o) eqn:L; cbn [andb].
    - assert (NC : match ko_status o with OCanceled => true | _ => false end = false) by (unfold live in L; destruct (ko_status o); try reflexivity; discriminate L). rewrite NC. cbn [negb andb].
      destruct (_ || _); cbn [andb]; [|right; auto]. destruct (ko_batch o <? pr_batch pr); [left; auto|right; auto].
    - right. split; [reflexivity|]. destruct (_ || _); [|reflexivity]. destruct (_ && _); [|reflexivity]. unfold finish_order. unfold live in L. apply negb_false_iff in L. rewrite L. reflexivity. }
  unfold need_of. destruct D as [(-> & L & E)|[-> E]]; cbn [andb].
  - split.
    + rewrite E. split.
      * intros H i d. destruct (finish_order s o OCanceled) as [s1|] eqn:F; [|congruence]. destruct (finish_order_closed _ _ _ _ S L Nr F) as (_ & X). specialize (Nb (PairEscrow i) d).
        destruct (Z.eqb_spec (ko_pair o) i) as [<-|]; cbn [andb]; [|lia]. destruct (denom_eqb_spec d (ko_offer_denom o)) as [->|]; lia.
      * intros H. specialize (H (ko_pair o) (ko_offer_denom o)). rewrite Z.eqb_refl, denom_eqb_refl in H. apply finish_order_succeeds; auto. congruence.
    + intros s1 E1. split; [exact (I1 s1 E1)|]. rewrite E in E1. destruct (finish_order_closed _ _ _ _ S L Nr E1) as (((B & _) & C1 & _ & C3 & _) & _).
      destruct (finish_order_spec _ _ _ _ E1 L) as (b0 & _ & Es1). split; [rewrite Es1; destruct (ko_type o); reflexivity|]. split.
      { intros [i j] N. specialize (C1 i j). unfold get_order in C1. rewrite Ek in N. destruct (Z.eqb_spec i (ko_pair o)), (Z.eqb_spec j (ko_id o)); cbn [andb] in C1; try exact C1. subst. congruence. }
      intros i d. rewrite B, Ow. unfold at_acc, of_denom. cbn [addr_eqb]. rewrite Z.eqb_sym. destruct (Z.eqb_spec (ko_pair o) i), (denom_eqb d (ko_offer_denom o)); cbn [andb]; lia.
  - rewrite E. split; [split; [intros _ i d; apply Nb|discriminate]|]. intros s1 E1. split; [apply I1; rewrite E; exact E1|]. injection E1 as <-. split; [reflexivity|]. split; [auto|]. intros i d. lia.
Qed.

Lemma cancel_loop_iff (Q : ctl) u ids l : stage_of Q = SMsg -> forall s, inv Q s -> NoDup l -> (forall k, In k l -> exists o, mget (st_orders s) k = Some o /\ ko_owner o = User u) ->
  (for_each (cancel_one ids) l s <> None <-> forall i d, sumZ (map (need u ids s i d) l) <= bal (st_bank s) (PairEscrow i) d).
Proof.
  intros HS. induction l as [|k l IH]; intros s I Nd Hl.
  - cbn [for_each map]. destruct (v_bank _ _ I) as [Nb _]. split; [intros _ i d; apply Nb|discriminate].
  - apply NoDup_cons_iff in Nd. destruct Nd as [Nk Nd]. destruct (Hl k (or_introl eq_refl)) as (o & G & Ow). destruct (cancel_one_iff Q u ids k s o HS I G Ow) as [A B]. cbn [for_each].
    assert (NN : forall i d k', 0 <= need u ids s i d k').
    { intros i d k'. unfold need. destruct (mget (st_orders s) k') as [o'|] eqn:G'; [|lia]. destruct (i_orders _ (v_str _ _ I) _ _ G') as (_ & pr' & _ & O'). destruct O' as (_ & _ & _ & _ & _ & _ & _ & _ & [Nr _] & _). unfold need_of. destruct (_ && _); lia. }
    assert (NS : forall i d, 0 <= sumZ (map (need u ids s i d) l)).
    { intros i d. clear -NN. induction l as [|x l IHl]; [reflexivity|]. cbn [map]. rewrite sumZ_cons. specialize (NN i d x). lia. }
    destruct (cancel_one ids k s) as [s1|] eqn:E.
    + destruct (B s1 eq_refl) as (I1 & P1 & O1 & B1).
      assert (Same : forall i d, map (need u ids s1 i d) l = map (need u ids s i d) l).
      { intros i d. apply map_ext_in. intros k' Hk. unfold need. rewrite O1 by (intros ->; contradiction). destruct (mget (st_orders s) k') as [o'|]; [|reflexivity]. unfold need_of, wants, get_pair. rewrite P1. reflexivity. }
      rewrite IH; [|exact I1|exact Nd|].
      * split; intros H i d; specialize (H i d); cbn [map] in *; rewrite ?sumZ_cons in *; rewrite Same, B1 in *; lia.
      * intros k' Hk. destruct (Hl k' (or_intror Hk)) as (o' & Go & Oo). exists o'. rewrite O1; [auto|]. intros ->. contradiction.
    + split; [congruence|]. intros H. exfalso. apply (proj2 A); [|reflexivity]. intros i d. specialize (H i d). cbn [map] in H. rewrite sumZ_cons in H. specialize (NS i d). lia.
Qed.

Lemma sum_perm l l' : Permutation l l' -> sumZ l = sumZ l'.
Proof. induction 1; rewrite ?sumZ_cons in *; try reflexivity; lia. Qed.
Lemma sum_filter {A} (f : A -> Z) (p : A -> bool) l : (forall x, In x l -> p x = false -> f x = 0) -> sumZ (map f l) = sumZ (map f (filter p l)).
Proof.
  induction l as [|x l IH]; intros H; [reflexivity|]. cbn [map filter]. rewrite sumZ_cons, IH by (intros y Y; apply H; right; exact Y). destruct (p x) eqn:E; [cbn [map]; rewrite sumZ_cons; reflexivity|]. rewrite (H x (or_introl eq_refl) E). lia.
Qed.
Lemma released_need Q s u ids i d : reach (sane Q) (InBlock, s) -> released s u ids i d = sumZ (map (need u ids s i d) (map fst (st_oidx s (User u)))).
Proof.
  intros R. pose proof (reach_okp Q _ R) as I. cbn [snd] in I. pose proof (v_str _ _ I) as S. unfold released.
  assert (Cur : forall kv, In kv (st_orders s) -> mget (st_orders s) (fst kv) = Some (snd kv)) by (intros [k o] X; apply mget_iff; [apply (i_orders_sorted _ S)|exact X]).
  rewrite (sum_filter _ (fun kv => addr_eqb (User u) (ko_owner (snd kv)))).
  2: { intros [k o] X E. cbn [snd] in *. unfold to_cancel. rewrite E. reflexivity. }
  transitivity (sumZ (map (need u ids s i d) (map fst (filter (fun kv : key * korder => addr_eqb (User u) (ko_owner (snd kv))) (st_orders s))))).
  - rewrite map_map. f_equal. apply map_ext_in. intros kv X. apply filter_In in X. destruct X as [X _]. unfold need. rewrite (Cur kv X). unfold need_of. cbv zeta.
    rewrite to_cancel_eq; [reflexivity|]. destruct (i_orders _ S _ _ (Cur kv X)) as (_ & pr & Gp & _). congruence.

  - apply sum_perm, Permutation_map. apply NoDup_Permutation.
    + apply msorted_NoDup, msorted_filter, (i_orders_sorted _ S).
    + apply msorted_NoDup, (i_oidx_sorted _ S).
    + intros k. rewrite !in_map_iff. split.
      * intros ([k0 o] & <- & X). apply filter_In in X. destruct X as [X Y]. cbn [fst snd] in *. destruct (addr_eqb_spec (User u) (ko_owner o)) as [Y'|]; [|discriminate Y]. exists (k0, tt). split; [reflexivity|].
        apply mget_iff; [apply (i_oidx_sorted _ S)|]. apply (i_oidx _ S). exists o. split; [exact (Cur _ X)|congruence].
      * intros ([k0 []] & <- & X). apply mget_iff in X; [|apply (i_oidx_sorted _ S)]. apply (i_oidx _ S) in X. destruct X as (o & G & Ow). exists (k0, o). split; [reflexivity|]. apply filter_In. split; [apply mget_In; exact G|]. cbn [snd]. rewrite Ow. apply addr_eqb_refl.
Qed.

Lemma distinct_NoDup l : distinct l = true <-> NoDup l.
Proof.
  induction l as [|x l IH]; cbn [distinct]; [split; [constructor|reflexivity]|]. rewrite andb_true_iff, negb_true_iff, IH, NoDup_cons_iff. split; intros [A B]; (split; [|exact B]).
  - intros X. assert (Y : existsb (Z.eqb x) l = true) by (apply existsb_exists; exists x; rewrite Z.eqb_refl; auto). congruence.
  - destruct (existsb (Z.eqb x) l) eqn:Y; [|reflexivity]. apply existsb_exists in Y. destruct Y as (y & Y & Z0). apply Z.eqb_eq in Z0. subst y. contradiction.
Qed.
Lemma cancel_all_accepted Q s u ids : reach (sane Q) (InBlock, s) ->
  (deliver s (MCancelAllOrders u ids) <> None <-> NoDup ids /\ (forall i, In i ids -> get_pair s i <> None) /\ forall i d, released s u ids i d <= bal (st_bank s) (PairEscrow i) d).
Proof.
  intros R. pose proof (reach_okp Q _ R) as I. cbn [snd] in I. pose proof (v_str _ _ I) as S. unfold deliver. cbn [validate_basic handle]. unfold cancel_all.
  assert (L : for_each (cancel_one ids) (map fst (st_oidx s (User u))) s <> None <-> forall i d, released s u ids i d <= bal (st_bank s) (PairEscrow i) d).
  { rewrite (cancel_loop_iff (mkCtl (sane Q) SMsg) u ids _ eq_refl s I (msorted_NoDup _ (i_oidx_sorted _ S (User u)))).
    - split; intros H i d; specialize (H i d); rewrite (released_need Q s u ids i d R) in *; exact H.
    - intros k Hk. apply in_map_iff in Hk. destruct Hk as ([k' []] & <- & Hk). apply (i_oidx _ S). apply mget_iff; [apply (i_oidx_sorted _ S)|exact Hk]. }
  destruct (distinct ids) eqn:Ed.
  - apply distinct_NoDup in Ed. destruct (existsb (fun i => negb (is_some (get_pair s i))) ids) eqn:Ex.
    + split; [destruct (_ && _); congruence|]. intros (_ & X & _). exfalso. apply existsb_exists in Ex. destruct Ex as (i & Hi & Y). specialize (X i Hi). destruct (get_pair s i); [discriminate Y|congruence].
    + assert (Ep : forall i, In i ids -> get_pair s i <> None).
      { intros i Hi E. assert (Y : existsb (fun i => negb (is_some (get_pair s i))) ids = true) by (apply existsb_exists; exists i; rewrite E; auto). congruence. }
      assert (Ez : forallb (fun i => negb (i =? 0)) ids = true).
      { apply forallb_forall. intros i Hi. specialize (Ep i Hi). destruct (get_pair s i) as [p|] eqn:G; [|congruence]. destruct (i_pairs _ S _ _ G) as (E & B & _). injection E as ->. apply negb_true_iff, Z.eqb_neq. lia. }
      rewrite Ez. cbn [andb]. rewrite L. tauto.
  - rewrite andb_false_r. split; [congruence|]. intros (N & _). apply distinct_NoDup in N. congruence.
Qed.
