(** Matching does not depend on the sequence in which the orders were added to the book (C94): proofs. *)
From Verif Require Import Base Dec DecProofs OrderModel MatchModel MatchSpec FairSpec ArrivalSpec KeyedProofs OrderProofs MatchProofs MatchLoopProofs MatchBookProofs MatchTop MatchFair.
From Coq Require Import Permutation Sorted.

Definition idm := fun l : list (nat * Z) => l.

(** ** twins *)
Lemma twin_refl o : twin o o. Proof. repeat split. Qed.
Lemma twins_refl h : twins h h. Proof. split; [reflexivity|intros; apply twin_refl]. Qed.
Lemma twin_eq a b : twin a b -> b = mkOrder (o_dir a) (o_price a) (o_amt a) (o_offer a) (o_open a) (o_paid a) (o_recv a) (o_batch a) (o_kind b).
Proof. intros (A & B & C & D & E & F & G & H). destruct b; cbn in *. congruence. Qed.
Lemma twin_matchable a b p : twin a b -> matchable_amount a p = matchable_amount b p.
Proof. intros H. rewrite (twin_eq a b H). reflexivity. Qed.
Lemma twin_filled a b x p : twin a b -> twin (filled a x p) (filled b x p).
Proof. intros H. rewrite (twin_eq a b H). repeat split. Qed.
Lemma twin_diff a b x p : twin a b -> fill_diff a x p = fill_diff b x p.
Proof. intros H. rewrite (twin_eq a b H). reflexivity. Qed.
Lemma upd_out h i o : (length h <= i)%nat -> upd h i o = h.
Proof. revert i. induction h as [|x h IH]; intros i H; [destruct i; reflexivity|]. destruct i; cbn in *; [lia|]. rewrite IH by lia. reflexivity. Qed.
Lemma twins_upd h h2 p a b : twins h h2 -> twin a b -> twins (upd h p a) (upd h2 p b).
Proof.
  intros [L T] H. split; [rewrite !upd_length; exact L|]. intros q. destruct (Nat.lt_ge_cases p (length h)) as [X|X].
  - destruct (Nat.eq_dec p q) as [<-|N]; [rewrite !get_upd_same by lia; exact H|rewrite !get_upd_other by exact N; apply T].
  - rewrite !upd_out by lia. apply T.
Qed.

(** results that agree up to names *)
Definition orel (r r2 : option (heap * Z)) : Prop :=
  match r, r2 with
  | Some (h, d), Some (h2, d2) => twins h h2 /\ d = d2
  | None, None => True
  | _, _ => False
  end.
Lemma fill_order_twins h h2 p x price : twins h h2 -> orel (fill_order h p x price) (fill_order h2 p x price).
Proof.
  intros T. unfold fill_order. rewrite <- (twin_matchable _ _ price (proj2 T p)). destruct (_ <? x); [exact Logic.I|]. cbn.
  split; [apply twins_upd; [exact T|apply twin_filled, T]|apply twin_diff, T].
Qed.
Lemma orel_bind r r2 (f f2 : heap -> Z -> option (heap * Z)) : orel r r2 -> (forall h h2 d, twins h h2 -> orel (f h d) (f2 h2 d)) ->
  orel (match r with None => None | Some (h, d) => f h d end) (match r2 with None => None | Some (h, d) => f2 h d end).
Proof. destruct r as [[h d]|], r2 as [[h2 d2]|]; cbn; try tauto. intros [T <-] H. apply H. exact T. Qed.
Lemma orel_add r r2 d1 : orel r r2 -> orel (match r with None => None | Some (h, d) => Some (h, d1 + d) end) (match r2 with None => None | Some (h, d) => Some (h, d1 + d) end).
Proof. destruct r as [[h d]|], r2 as [[h2 d2]|]; cbn; try tauto. intros [T <-]. split; [exact T|reflexivity]. Qed.
Lemma fulfill_orders_twins price : forall ps h h2, twins h h2 -> orel (fulfill_orders h ps price) (fulfill_orders h2 ps price).
Proof.
  induction ps as [|p ps IH]; intros h h2 T; cbn [fulfill_orders]; [split; [exact T|reflexivity]|].
  apply orel_bind; [|intros; apply orel_add, IH; assumption]. unfold fulfill_order. rewrite <- (twin_matchable _ _ price (proj2 T p)).
  destruct (0 <? _); [apply fill_order_twins; exact T|split; [exact T|reflexivity]].
Qed.
Lemma fill_list_twins price : forall l h h2, twins h h2 -> orel (fill_list h price l) (fill_list h2 price l).
Proof.
  induction l as [|[p m] l IH]; intros h h2 T; cbn [fill_list]; [split; [exact T|reflexivity]|].
  apply orel_bind; [apply fill_order_twins; exact T|]. intros. apply orel_add, IH. assumption.
Qed.
Lemma total_matchable_twins h h2 ps price : twins h h2 -> total_matchable h ps price = total_matchable h2 ps price.
Proof. intros T. rewrite !total_matchable_sum. apply sumZ_map_ext. intros p _. apply twin_matchable, T. Qed.
Lemma total_amount_twins h h2 ps : twins h h2 -> total_amount h ps = total_amount h2 ps.
Proof. intros T. rewrite !total_amount_sum. apply sumZ_map_ext. intros p _. apply T. Qed.
Lemma first_share_twins h h2 price amt tot p : twins h h2 -> first_share h price amt tot p = first_share h2 price amt tot p.
Proof. intros T. unfold first_share. rewrite <- (twin_matchable _ _ price (proj2 T p)). destruct (proj2 T p) as (_ & _ & <- & _). reflexivity. Qed.
Lemma second_share_twins h h2 price : twins h h2 -> forall l rem, second_share h price rem l = second_share h2 price rem l.
Proof.
  intros T. induction l as [|[p m] l IH]; intros rem; cbn [second_share]; [reflexivity|]. destruct (rem =? 0); [reflexivity|].
  rewrite (twin_matchable _ _ price (proj2 T p)), IH. reflexivity.
Qed.
Lemma share_ok_twins h h2 price pm : twins h h2 -> share_ok h price pm = share_ok h2 price pm.
Proof. intros T. unfold share_ok. destruct (proj2 T (fst pm)) as (-> & _). reflexivity. Qed.
Lemma dist_orders_twins price : forall fuel h h2 ps amt, twins h h2 -> orel (dist_orders idm fuel h ps amt price) (dist_orders idm fuel h2 ps amt price).
Proof.
  induction fuel as [|fuel IH]; intros h h2 ps amt T; cbn [dist_orders]; [exact Logic.I|].
  rewrite <- (total_amount_twins h h2 ps T).
  rewrite <- (map_ext (fun p => (p, first_share h price amt (total_amount h ps) p)) (fun p => (p, first_share h2 price amt (total_amount h ps) p))) by (intros p; rewrite (first_share_twins h h2) by exact T; reflexivity).
  rewrite <- (second_share_twins h h2 price T).
  set (l2 := second_share h price _ _).
  rewrite <- (filter_ext (share_ok h price) (share_ok h2 price)) by (intros a; apply share_ok_twins; exact T).
  rewrite <- (filter_ext (fun pm => negb (share_ok h price pm)) (fun pm => negb (share_ok h2 price pm))) by (intros a; rewrite (share_ok_twins h h2) by exact T; reflexivity).
  destruct (filter (fun pm => negb _) l2); [apply fill_list_twins; exact T|].
  destruct (filter _ l2); apply IH; exact T.
Qed.

(** ** fulfilling in another sequence *)
Definition todo (h : heap) (price : dec) (ps : list nat) : list (nat * Z) :=
  map (fun p => (p, matchable_amount (get h p) price)) (filter (fun p => 0 <? matchable_amount (get h p) price) ps).
Lemma todo_other h price p o ps : ~ In p ps -> todo (upd h p o) price ps = todo h price ps.
Proof.
  intros N. unfold todo. induction ps as [|q ps IH]; [reflexivity|]. cbn [filter]. assert (p <> q) by (intros ->; apply N; left; reflexivity).
  rewrite get_upd_other by assumption. assert (N' : ~ In p ps) by (intros X; apply N; right; exact X).
  destruct (0 <? _); cbn [map]; [rewrite get_upd_other by assumption; f_equal|]; apply IH; exact N'.
Qed.
Lemma fulfill_todo price : forall ps h, NoDup ps -> fulfill_orders h ps price = fill_list h price (todo h price ps).
Proof.
  induction ps as [|p ps IH]; intros h ND; [reflexivity|]. inversion ND as [|? ? N ND']; subst. cbn [fulfill_orders]. unfold fulfill_order, todo. cbn [filter].
  destruct (Z.ltb_spec 0 (matchable_amount (get h p) price)) as [E|E].
  - cbn [map fill_list]. fold (todo h price ps). unfold fill_order. rewrite Z.ltb_irrefl. rewrite IH by exact ND'. rewrite todo_other by exact N. reflexivity.
  - rewrite IH by exact ND'. unfold todo. destruct (fill_list h price _) as [[h2 d2]|]; [|reflexivity]. rewrite Z.add_0_l. reflexivity.
Qed.
Lemma fulfill_orders_perm price ps qs h : NoDup ps -> Permutation ps qs -> fulfill_orders h ps price = fulfill_orders h qs price.
Proof.
  intros ND P. rewrite (fulfill_todo price ps) by exact ND. rewrite (fulfill_todo price qs) by exact (Permutation_NoDup P ND). apply fill_list_perm.
  - unfold todo. apply Permutation_map, filter_perm, P.
  - unfold todo. rewrite map_map, map_id. apply NoDup_filter. exact ND.
Qed.

(** ** sorting in another sequence *)
Lemma sorted_unique {A} (R : A -> A -> Prop) : forall l l', StronglySorted R l -> StronglySorted R l' -> Permutation l l' ->
  (forall x y, In x l -> In y l -> R x y -> R y x -> x = y) -> l = l'.
Proof.
  induction l as [|a l IH]; intros l' S1 S2 P H; [apply Permutation_nil in P; congruence|].
  destruct l' as [|b l']; [apply Permutation_sym, Permutation_nil in P; discriminate P|].
  apply StronglySorted_inv in S1. destruct S1 as [S1 F1]. apply StronglySorted_inv in S2. destruct S2 as [S2 F2]. rewrite Forall_forall in F1, F2.
  assert (a = b).
  { assert (Ia : In a (b :: l')) by (apply (Permutation_in _ P); left; reflexivity). assert (Ib : In b (a :: l)) by (apply (Permutation_in _ (Permutation_sym P)); left; reflexivity).
    destruct Ia as [E|Ia]; [congruence|]. destruct Ib as [E|Ib]; [congruence|]. apply H; [left; reflexivity|right; exact Ib|apply F1; exact Ib|apply F2; exact Ia]. }
  subst b. f_equal. apply IH; [exact S1|exact S2|exact (Permutation_cons_inv P)|]. intros x y X Y. apply H; right; assumption.
Qed.

(** orders of one tick: the two heaps rank rivals alike, and there are no ties *)
Definition ranked (h h2 : heap) (ps : list nat) : Prop :=
  all_owned h ps /\ all_owned h2 ps /\
  forall p q, In p ps -> In q ps -> p <> q -> o_batch (get h p) = o_batch (get h q) ->
    (goes_first (get h p) (get h q) <-> goes_first (get h2 p) (get h2 q)) /\ (goes_first (get h p) (get h q) \/ goes_first (get h q) (get h p)).
Lemma ranked_sub h h2 ps qs : ranked h h2 ps -> (forall p, In p qs -> In p ps) -> ranked h h2 qs.
Proof.
  intros (A & B & R) S. split; [intros p Hp; apply A, S, Hp|]. split; [intros p Hp; apply B, S, Hp|]. intros p q Hp Hq. apply R; apply S; assumption.
Qed.
Lemma goes_static a a' b b' : same_static a a' -> same_static b b' -> goes_first a' b' <-> goes_first a b.
Proof. intros (_ & _ & A1 & _ & _ & A2) (_ & _ & B1 & _ & _ & B2). unfold goes_first. rewrite A1, A2, B1, B2. reflexivity. Qed.
Lemma ranked_static h h2 h' h2' ps : heap_static h h' -> heap_static h2 h2' -> ranked h h2 ps -> ranked h' h2' ps.
Proof.
  intros [_ S] [_ S2] (A & B & R). split; [|split].
  - intros p Hp. unfold owned. destruct (S p) as (_ & _ & _ & _ & _ & ->). exact (A p Hp).
  - intros p Hp. unfold owned. destruct (S2 p) as (_ & _ & _ & _ & _ & ->). exact (B p Hp).
  - intros p q Hp Hq N E. rewrite !(goes_static _ _ _ _ (S p) (S q)), !(goes_static _ _ _ _ (S q) (S p)), !(goes_static _ _ _ _ (S2 p) (S2 q)). apply R; try assumption.
    destruct (S p) as (_ & _ & _ & _ & <- & _). destruct (S q) as (_ & _ & _ & _ & <- & _). exact E.
Qed.
Lemma sorted_impl_in {A} (R R' : A -> A -> Prop) l : StronglySorted R l -> NoDup l -> (forall x y, In x l -> In y l -> x <> y -> R x y -> R' x y) -> StronglySorted R' l.
Proof.
  induction l as [|a l IH]; intros S ND H; [constructor|]. apply StronglySorted_inv in S. destruct S as [S F]. inversion ND as [|? ? N ND']; subst. constructor.
  - apply IH; [exact S|exact ND'|]. intros x y X Y. apply H; right; assumption.
  - rewrite Forall_forall in *. intros x X. apply H; [left; reflexivity|right; exact X|intros ->; contradiction|apply F; exact X].
Qed.
Lemma sort_orders_same h h2 ps qs b : NoDup ps -> Permutation ps qs -> ranked h h2 ps -> (forall p, In p ps -> o_batch (get h p) = b) -> sort_orders h ps = sort_orders h2 qs.
Proof.
  intros ND P (A & B & R) Eb. pose proof (sort_orders_perm h ps) as P1. pose proof (sort_orders_perm h2 qs) as P2.
  assert (B2 : all_owned h2 qs) by (intros p Hp; apply B; exact (Permutation_in _ (Permutation_sym P) Hp)).
  apply (sorted_unique (fun x y => nbefore h x y)).
  - apply sort_orders_sorted. exact A.
  - apply (sorted_impl_in (nbefore h2)); [apply sort_orders_sorted; exact B2| |].
    + apply (Permutation_NoDup (Permutation_sym P2)). exact (Permutation_NoDup P ND).
    + assert (J : forall x, In x (sort_orders h2 qs) -> In x ps) by (intros x X; apply (Permutation_in _ (Permutation_sym P)), (Permutation_in _ P2), X).
      intros x y X Y N. unfold nbefore. intros H G. apply H. apply R; [apply J, Y|apply J, X|congruence|rewrite !Eb by (apply J; assumption); reflexivity|exact G].
  - eapply Permutation_trans; [exact P1|]. eapply Permutation_trans; [exact P|]. apply Permutation_sym, P2.
  - assert (J : forall x, In x (sort_orders h ps) -> In x ps) by (intros x X; exact (Permutation_in _ P1 X)).
    intros x y X Y H1 H2. destruct (Nat.eq_dec x y) as [E|N]; [exact E|]. exfalso. unfold nbefore in H1, H2.
    destruct (R x y (J x X) (J y Y) N) as [_ [G|G]]; [rewrite !Eb by (apply J; assumption); reflexivity|exact (H2 G)|exact (H1 G)].
Qed.

(** ** fills keep the terms of the orders *)
Lemma upd_static_any h p x price : heap_static h (upd h p (filled (get h p) x price)).
Proof. destruct (Nat.lt_ge_cases p (length h)) as [X|X]; [apply upd_static; exact X|rewrite upd_out by exact X; apply heap_static_refl]. Qed.
Lemma fill_order_static h p x price h' d : fill_order h p x price = Some (h', d) -> heap_static h h'.
Proof. unfold fill_order. destruct (_ <? x); [discriminate|]. intros E. injection E as <- _. apply upd_static_any. Qed.
Lemma fulfill_orders_static price : forall ps h h' d, fulfill_orders h ps price = Some (h', d) -> heap_static h h'.
Proof.
  induction ps as [|p ps IH]; intros h h' d; cbn [fulfill_orders]; [intros E; injection E as <- _; apply heap_static_refl|].
  destruct (fulfill_order h p price) as [[h1 d1]|] eqn:E1; [|discriminate]. destruct (fulfill_orders h1 ps price) as [[h2 d2]|] eqn:E2; [|discriminate].
  intros E. injection E as <- _. eapply heap_static_trans; [|exact (IH _ _ _ E2)]. unfold fulfill_order in E1. destruct (0 <? _); [exact (fill_order_static _ _ _ _ _ _ E1)|injection E1 as <- _; apply heap_static_refl].
Qed.
Lemma fill_list_static price : forall l h h' d, fill_list h price l = Some (h', d) -> heap_static h h'.
Proof.
  induction l as [|[p m] l IH]; intros h h' d; cbn [fill_list]; [intros E; injection E as <- _; apply heap_static_refl|].
  destruct (fill_order h p m price) as [[h1 d1]|] eqn:E1; [|discriminate]. destruct (fill_list h1 price l) as [[h2 d2]|] eqn:E2; [|discriminate].
  intros E. injection E as <- _. exact (heap_static_trans _ _ _ (fill_order_static _ _ _ _ _ _ E1) (IH _ _ _ E2)).
Qed.
Lemma dist_orders_static it price : forall fuel h ps amt h' d, dist_orders it fuel h ps amt price = Some (h', d) -> heap_static h h'.
Proof.
  induction fuel as [|fuel IH]; intros h ps amt h' d; cbn [dist_orders]; [discriminate|].
  set (l2 := second_share h price _ _). destruct (filter (fun pm => negb _) l2); [apply fill_list_static|]. destruct (filter _ l2); apply IH.
Qed.
Lemma dist_groups_static it price : forall gs h amt h' d, dist_groups it h gs amt price = Some (h', d) -> heap_static h h'.
Proof.
  induction gs as [|[b ps] gs IH]; intros h amt h' d; cbn [dist_groups]; [intros E; injection E as <- _; apply heap_static_refl|].
  destruct (_ =? 0); [apply IH|]. destruct (_ <=? amt); [|apply dist_orders_static].
  destruct (fulfill_orders h ps price) as [[h1 d1]|] eqn:E1; [|discriminate]. pose proof (fulfill_orders_static _ _ _ _ _ E1) as S1.
  destruct (_ =? 0); [intros E; injection E as <- _; exact S1|]. destruct (dist_groups it h1 gs _ price) as [[h2 d2]|] eqn:E2; [|discriminate].
  intros E. injection E as <- _. exact (heap_static_trans _ _ _ S1 (IH _ _ _ _ E2)).
Qed.
Lemma to_ticks_static it price : forall ts h amt h' d, distribute_to_ticks it h ts amt price = Some (h', d) -> heap_static h h'.
Proof.
  induction ts as [|t ts IH]; intros h amt h' d; cbn [distribute_to_ticks]; [intros E; injection E as <- _; apply heap_static_refl|].
  destruct (_ <=? amt); [|apply dist_groups_static].
  destruct (fulfill_orders h (snd t) price) as [[h1 d1]|] eqn:E1; [|discriminate]. pose proof (fulfill_orders_static _ _ _ _ _ E1) as S1.
  destruct (_ =? 0); [intros E; injection E as <- _; exact S1|]. destruct (distribute_to_ticks it h1 ts _ price) as [[h2 d2]|] eqn:E2; [|discriminate].
  intros E. injection E as <- _. exact (heap_static_trans _ _ _ S1 (IH _ _ _ _ E2)).
Qed.

(** ** ticks and groups with permuted orders *)
Definition teq (t t2 : Z * list nat) : Prop := fst t = fst t2 /\ Permutation (snd t) (snd t2).
Lemma keyed_teq R (Ri : forall x, ~ R x x) (Rt : forall x y z, R x y -> R y z -> R x z) k k2 ps qs L L2 : (forall p, In p ps -> k p = k2 p) -> Permutation ps qs -> keyed R k ps L -> keyed R k2 qs L2 -> Forall2 teq L L2.
Proof.
  intros K P (ks & S1 & I1 & ->) (ks2 & S2 & I2 & ->).
  assert (ND : forall l, StronglySorted R l -> NoDup l).
  { induction l as [|a l IH]; intros S; [constructor|]. apply StronglySorted_inv in S. destruct S as [S F]. rewrite Forall_forall in F. constructor; [intros X; exact (Ri a (F a X))|exact (IH S)]. }
  assert (E : ks = ks2).
  { apply (sorted_unique R); [exact S1|exact S2| |].
    - apply NoDup_Permutation; [exact (ND _ S1)|exact (ND _ S2)|]. intros x. rewrite I1, I2. split; intros (p & Hp & E).
      + exists p. split; [exact (Permutation_in _ P Hp)|]. rewrite <- K by exact Hp. exact E.
      + pose proof (Permutation_in _ (Permutation_sym P) Hp) as Hp'. exists p. split; [exact Hp'|]. rewrite K by exact Hp'. exact E.
    - intros x y _ _ A B. exfalso. exact (Ri x (Rt _ _ _ A B)). }
  subst ks2. clear -K P. induction ks as [|x ks IH]; cbn [map]; constructor; [|exact IH]. split; [reflexivity|]. cbn [bucket snd].
  rewrite (filter_ext_in (fun p => k p =? x) (fun p => k2 p =? x)) by (intros p Hp; rewrite (K p Hp); reflexivity). apply filter_perm. exact P.
Qed.
Lemma total_matchable_same h h2 ps qs price : twins h h2 -> Permutation ps qs -> total_matchable h ps price = total_matchable h2 qs price.
Proof. intros T P. rewrite (total_matchable_perm h ps qs price P). apply total_matchable_twins. exact T. Qed.
Lemma fulfill_same price h h2 ps qs : NoDup ps -> twins h h2 -> Permutation ps qs -> orel (fulfill_orders h ps price) (fulfill_orders h2 qs price).
Proof. intros ND T P. rewrite (fulfill_orders_perm price ps qs h ND P). apply fulfill_orders_twins. exact T. Qed.

Lemma NoDup_parts {A} (a b : list A) : NoDup (a ++ b) -> NoDup a /\ NoDup b.
Proof. intros N. destruct (NoDup_app_inv _ _ N) as (X & Y & _). split; assumption. Qed.

Lemma dist_groups_same price : forall gs gs2 h h2 amt, twins h h2 -> Forall2 teq gs gs2 -> NoDup (flat_map snd gs) ->
  (forall g, In g gs -> ranked h h2 (snd g) /\ exists b, forall p, In p (snd g) -> o_batch (get h p) = b) ->
  orel (dist_groups idm h gs amt price) (dist_groups idm h2 gs2 amt price).
Proof.
  induction gs as [|[b ps] gs IH]; intros gs2 h h2 amt T F ND H; inversion F as [|? [b2 qs] ? gs2' [Eb P] F']; subst; cbn [dist_groups]; [split; [exact T|reflexivity]|].
  cbn in Eb, P. cbn [flat_map snd] in ND. destruct (NoDup_parts _ _ ND) as [N1 N2]. destruct (H _ (or_introl eq_refl)) as [Hr [b' Hb]]. cbn [snd] in Hr, Hb.
  rewrite <- (total_matchable_same h h2 ps qs price T P).
  destruct (_ =? 0); [apply IH; [exact T|exact F'|exact N2|intros g Hg; apply H; right; exact Hg]|].
  destruct (_ <=? amt).
  - pose proof (fulfill_same price h h2 ps qs N1 T P) as O.
    destruct (fulfill_orders h ps price) as [[h1 d1]|] eqn:E1; destruct (fulfill_orders h2 qs price) as [[h12 d12]|] eqn:E2; cbn in O; try tauto.
    destruct O as [T1 <-]. destruct (_ =? 0); [split; [exact T1|reflexivity]|]. apply orel_add, IH; [exact T1|exact F'|exact N2|].
    intros g Hg. destruct (H g (or_intror Hg)) as [R [bb Hbb]]. pose proof (fulfill_orders_static _ _ _ _ _ E1) as S1. pose proof (fulfill_orders_static _ _ _ _ _ E2) as S2. split.
    + exact (ranked_static _ _ _ _ _ S1 S2 R).
    + exists bb. intros p Hp. destruct (proj2 S1 p) as (_ & _ & _ & _ & -> & _). exact (Hbb p Hp).
  - rewrite <- (sort_orders_same h h2 ps qs b' N1 P Hr Hb). apply dist_orders_twins. exact T.
Qed.

Lemma batch_before_trans x y z : batch_before x y -> batch_before y z -> batch_before x z.
Proof. unfold batch_before. lia. Qed.
Lemma to_tick_same price h h2 t t2 amt : twins h h2 -> teq t t2 -> NoDup (snd t) -> ranked h h2 (snd t) ->
  orel (distribute_to_tick idm h t amt price) (distribute_to_tick idm h2 t2 amt price).
Proof.
  intros T [_ P] ND R. unfold distribute_to_tick. pose proof (group_by_batch_keyed h (snd t)) as K1. pose proof (group_by_batch_keyed h2 (snd t2)) as K2.
  apply dist_groups_same; [exact T| | |].
  - apply (keyed_teq batch_before batch_before_irrefl batch_before_trans _ _ (snd t) (snd t2) _ _) with (2 := P) (3 := K1) (4 := K2). intros p _. apply (proj2 T p).
  - apply (Permutation_NoDup (Permutation_sym (keyed_perm batch_before batch_before_irrefl _ _ _ K1))). exact ND.
  - intros [b ms] Hg. pose proof (keyed_members _ _ _ _ _ _ K1 Hg) as (_ & _ & M). cbn [snd]. split; [apply (ranked_sub _ _ _ _ R); intros p Hp; apply M; exact Hp|].
    exists b. intros p Hp. apply M. exact Hp.
Qed.

(** a side of the book *)
Definition sides (h h2 : heap) (ts ts2 : list (Z * list nat)) : Prop :=
  Forall2 teq ts ts2 /\ NoDup (flat_map snd ts) /\ forall t, In t ts -> ranked h h2 (snd t).
Lemma sides_static h h2 h' h2' ts ts2 : heap_static h h' -> heap_static h2 h2' -> sides h h2 ts ts2 -> sides h' h2' ts ts2.
Proof. intros A B (F & N & R). split; [exact F|]. split; [exact N|]. intros t Ht. exact (ranked_static _ _ _ _ _ A B (R t Ht)). Qed.
Lemma sides_cons h h2 t t2 ts ts2 : sides h h2 (t :: ts) (t2 :: ts2) -> teq t t2 /\ NoDup (snd t) /\ ranked h h2 (snd t) /\ sides h h2 ts ts2.
Proof.
  intros (F & N & R). inversion F; subst. cbn [flat_map] in N. destruct (NoDup_parts _ _ N). split; [assumption|]. split; [assumption|]. split; [apply R; left; reflexivity|].
  split; [assumption|]. split; [assumption|]. intros x X. apply R. right. exact X.
Qed.
Lemma sides_inv h h2 ts ts2 : sides h h2 ts ts2 -> (ts = [] /\ ts2 = []) \/ exists t t2 r r2, ts = t :: r /\ ts2 = t2 :: r2.
Proof. intros (F & _). destruct F; [left; split; reflexivity|right; eauto 8]. Qed.

Lemma to_ticks_same mp : forall ts ts2 h h2 amt, twins h h2 -> sides h h2 ts ts2 -> orel (distribute_to_ticks idm h ts amt mp) (distribute_to_ticks idm h2 ts2 amt mp).
Proof.
  induction ts as [|t ts IH]; intros ts2 h h2 amt T SD; destruct (sides_inv _ _ _ _ SD) as [[E ->]|(a & t2 & b & r2 & E & ->)]; try discriminate E; cbn [distribute_to_ticks]; [split; [exact T|reflexivity]|].
  injection E as <- <-. destruct (sides_cons _ _ _ _ _ _ SD) as (TE & ND & R & SD'). rewrite <- (total_matchable_same h h2 _ _ mp T (proj2 TE)).
  destruct (_ <=? amt); [|apply to_tick_same; assumption].
  pose proof (fulfill_same mp h h2 _ _ ND T (proj2 TE)) as O.
  destruct (fulfill_orders h (snd t) mp) as [[h1 d1]|] eqn:E1; destruct (fulfill_orders h2 (snd t2) mp) as [[h12 d12]|] eqn:E2; cbn in O; try tauto.
  destruct O as [T1 <-]. destruct (_ =? 0); [split; [exact T1|reflexivity]|]. apply orel_add, IH; [exact T1|].
  exact (sides_static _ _ _ _ _ _ (fulfill_orders_static _ _ _ _ _ E1) (fulfill_orders_static _ _ _ _ _ E2) SD').
Qed.

(** ** how much can be matched at one price *)
Lemma side_prefix_same inc mp ts ts2 : Forall2 teq ts ts2 -> Forall2 teq (side_prefix inc mp ts) (side_prefix inc mp ts2).
Proof. induction 1 as [|t t2 ts ts2 E F IH]; cbn [side_prefix]; [constructor|]. rewrite (proj1 E). destruct (_ || _); [constructor|constructor; assumption]. Qed.
Lemma side_total_same h h2 mp ts ts2 : twins h h2 -> Forall2 teq ts ts2 -> side_total h mp ts = side_total h2 mp ts2.
Proof.
  intros T F. unfold side_total. rewrite !fold_left_sum. f_equal. induction F as [|t t2 ts ts2 E F IH]; [reflexivity|]. cbn [map]. rewrite !sumZ_cons, IH.
  rewrite (total_matchable_same h h2 _ _ mp T (proj2 E)). reflexivity.
Qed.
Lemma rev_teq ts ts2 : Forall2 teq ts ts2 -> Forall2 teq (rev ts) (rev ts2).
Proof. induction 1 as [|t t2 ts ts2 E F IH]; [constructor|]. cbn [rev]. apply Forall2_app; [exact IH|constructor; [exact E|constructor]]. Qed.
Lemma teq_length {A B} (R : A -> B -> Prop) l l2 : Forall2 R l l2 -> length l = length l2.
Proof. induction 1; cbn; congruence. Qed.
Definition steq (r r2 : option (list (Z * list nat) * Z * Z * bool)) : Prop :=
  match r, r2 with
  | Some (st, a, b, c), Some (st2, a2, b2, c2) => Forall2 teq st st2 /\ a = a2 /\ b = b2 /\ c = c2
  | None, None => True
  | _, _ => False
  end.
Lemma side_step_same h h2 mp s st st2 tot other : twins h h2 -> Forall2 teq st st2 -> steq (side_step h mp s st tot other) (side_step h2 mp s st2 tot other).
Proof.
  intros T F. destruct F as [|t t2 r r2 E F]; cbn [side_step]; [exact Logic.I|]. rewrite <- (total_matchable_same h h2 _ _ mp T (proj2 E)).
  destruct (_ || _); [|repeat split; constructor; assumption]. destruct F; [exact Logic.I|repeat split; constructor; assumption].
Qed.
Lemma single_loop_same mp h h2 : twins h h2 -> forall fuel bst bst2 sst sst2 bt stt, Forall2 teq bst bst2 -> Forall2 teq sst sst2 -> single_loop fuel h mp bst sst bt stt = single_loop fuel h2 mp bst2 sst2 bt stt.
Proof.
  intros T. induction fuel as [|fuel IH]; intros bst bst2 sst sst2 bt stt FB FS; [reflexivity|]. cbn [single_loop].
  pose proof (side_step_same h h2 mp false bst bst2 bt stt T FB) as A. destruct (side_step h mp false bst bt stt) as [[[[b1 bt1] m1] bd]|], (side_step h2 mp false bst2 bt stt) as [[[[b2 bt2] m2] bd2]|]; cbn in A; try tauto.
  destruct A as (FB1 & <- & _ & <-).
  pose proof (side_step_same h h2 mp true sst sst2 stt bt1 T FS) as A. destruct (side_step h mp true sst stt bt1) as [[[[s1 st1] n1] sd]|], (side_step h2 mp true sst2 stt bt1) as [[[[s2 st2] n2] sd2]|]; cbn in A; try tauto.
  destruct A as (FS1 & <- & <- & <-). destruct (_ && _); [reflexivity|]. apply IH; assumption.
Qed.
Lemma single_same h h2 ob ob2 mp : twins h h2 -> Forall2 teq (buys ob) (buys ob2) -> Forall2 teq (sells ob) (sells ob2) -> find_matchable_single h ob mp = find_matchable_single h2 ob2 mp.
Proof.
  intros T FB FS. unfold find_matchable_single. pose proof (side_prefix_same false mp _ _ FB) as B. pose proof (side_prefix_same true mp _ _ FS) as S.
  rewrite <- (side_total_same h h2 mp _ _ T B), <- (side_total_same h h2 mp _ _ T S). rewrite <- (teq_length _ _ _ B), <- (teq_length _ _ _ S).
  pose proof (rev_teq _ _ B) as RB. pose proof (rev_teq _ _ S) as RS.
  destruct B; [reflexivity|]. destruct S; [reflexivity|]. apply single_loop_same; assumption.
Qed.

(** ** the whole book *)
Definition books (h h2 : heap) (ob ob2 : book) : Prop := sides h h2 (buys ob) (buys ob2) /\ sides h h2 (sells ob) (sells ob2).
Definition srel (r r2 : option (option (heap * Z))) : Prop :=
  match r, r2 with
  | Some (Some (h, d)), Some (Some (h2, d2)) => twins h h2 /\ d = d2
  | Some None, Some None => True
  | None, None => True
  | _, _ => False
  end.
Lemma match_single_static it h ob mp h' d : match_single it h ob mp = Some (Some (h', d)) -> heap_static h h'.
Proof.
  unfold match_single. destruct (find_matchable_single h ob mp) as [[m|]|]; [|discriminate|discriminate].
  destruct (distribute_to_ticks it h (buys ob) m mp) as [[h1 d1]|] eqn:E1; [|discriminate]. destruct (distribute_to_ticks it h1 (sells ob) m mp) as [[h2 d2]|] eqn:E2; [|discriminate].
  intros E. injection E as <- _. exact (heap_static_trans _ _ _ (to_ticks_static _ _ _ _ _ _ _ E1) (to_ticks_static _ _ _ _ _ _ _ E2)).
Qed.
Lemma match_single_same h h2 ob ob2 mp : twins h h2 -> books h h2 ob ob2 -> srel (match_single idm h ob mp) (match_single idm h2 ob2 mp).
Proof.
  intros T [SB SS]. unfold match_single. rewrite <- (single_same h h2 ob ob2 mp T (proj1 SB) (proj1 SS)). destruct (find_matchable_single h ob mp) as [[m|]|]; [|exact Logic.I|exact Logic.I].
  pose proof (to_ticks_same mp _ _ h h2 m T SB) as O. destruct (distribute_to_ticks idm h (buys ob) m mp) as [[h1 d1]|] eqn:E1, (distribute_to_ticks idm h2 (buys ob2) m mp) as [[h12 d12]|] eqn:E2; cbn in O; try tauto.
  destruct O as [T1 <-]. pose proof (sides_static _ _ _ _ _ _ (to_ticks_static _ _ _ _ _ _ _ E1) (to_ticks_static _ _ _ _ _ _ _ E2) SS) as SS1.
  pose proof (to_ticks_same mp _ _ h1 h12 m T1 SS1) as O. destruct (distribute_to_ticks idm h1 (sells ob) m mp) as [[h3 d3]|], (distribute_to_ticks idm h12 (sells ob2) m mp) as [[h4 d4]|]; cbn in O; try tauto.
  destruct O as [T3 <-]. split; [exact T3|reflexivity].
Qed.
Lemma beyond_same h h2 inc last ts ts2 : twins h h2 -> Forall2 teq ts ts2 -> forall o, beyond_at h inc last ts o = beyond_at h2 inc last ts2 o.
Proof.
  intros T. induction 1 as [|[p ps] [p2 qs] ts ts2 [E P] F IH]; intros o; cbn [beyond_at]; [reflexivity|]. cbn in E, P. subst p2.
  rewrite <- (total_matchable_same h h2 _ _ last T P). destruct (if inc then _ else _); [reflexivity|]. destruct (p =? last); [reflexivity|apply IH].
Qed.
Lemma direction_same h h2 ob ob2 last : twins h h2 -> books h h2 ob ob2 -> price_direction h ob last = price_direction h2 ob2 last.
Proof. intros T [SB SS]. unfold price_direction. rewrite (beyond_same h h2 _ _ _ _ T (proj1 SB)), (beyond_same h h2 _ _ _ _ T (proj1 SS)). reflexivity. Qed.
Definition mrel (r r2 : option (heap * dec * Z * bool)) : Prop :=
  match r, r2 with
  | Some (h, p, d, m), Some (h2, p2, d2, m2) => twins h h2 /\ p = p2 /\ d = d2 /\ m = m2
  | None, None => True
  | _, _ => False
  end.
Lemma match_loop_same d : forall fuel h h2 bs bs2 ss ss2 mp qd m, twins h h2 -> sides h h2 bs bs2 -> sides h h2 ss ss2 ->
  mrel (match_loop idm fuel d h bs ss mp qd m) (match_loop idm fuel d h2 bs2 ss2 mp qd m).
Proof.
  induction fuel as [|fuel IH]; intros h h2 bs bs2 ss ss2 mp qd m T SB SS; cbn [match_loop]; [exact Logic.I|].
  destruct (sides_inv _ _ _ _ SB) as [[-> ->]|(bt & bt2 & br & br2 & -> & ->)]; [repeat split; apply T|].
  destruct (sides_inv _ _ _ _ SS) as [[-> ->]|(st & st2 & sr & sr2 & -> & ->)]; [repeat split; apply T|].
  destruct (sides_cons _ _ _ _ _ _ SB) as (TB & NB & RB & SB'). destruct (sides_cons _ _ _ _ _ _ SS) as (TS & NS & RS & SS').
  rewrite <- (proj1 TB), <- (proj1 TS). destruct (fst st <=? fst bt); [|repeat split; apply T].
  set (p := match d with PriceIncreasing => _ | _ => _ end).
  rewrite <- (total_matchable_same h h2 _ _ p T (proj2 TB)), <- (total_matchable_same h h2 _ _ p T (proj2 TS)).
  set (bo := total_matchable h (snd bt) p). set (so := total_matchable h (snd st) p).
  destruct (bo <=? 0); [apply IH; assumption|]. destruct (so <=? 0); [apply IH; assumption|].
  pose proof (to_tick_same p h h2 bt bt2 (if bo <=? so then bo else so) T TB NB RB) as O.
  destruct (distribute_to_tick idm h bt _ p) as [[h1 d1]|] eqn:E1, (distribute_to_tick idm h2 bt2 _ p) as [[h12 d12]|] eqn:E2; cbn in O; try tauto.
  destruct O as [T1 <-]. pose proof (dist_groups_static _ _ _ _ _ _ _ E1) as S1. pose proof (dist_groups_static _ _ _ _ _ _ _ E2) as S2.
  pose proof (to_tick_same p h1 h12 st st2 (if so <=? bo then so else bo) T1 TS NS (ranked_static _ _ _ _ _ S1 S2 RS)) as O.
  destruct (distribute_to_tick idm h1 st _ p) as [[h3 d3]|] eqn:E3, (distribute_to_tick idm h12 st2 _ p) as [[h4 d4]|] eqn:E4; cbn in O; try tauto.
  destruct O as [T3 <-]. pose proof (heap_static_trans _ _ _ S1 (dist_groups_static _ _ _ _ _ _ _ E3)) as S3. pose proof (heap_static_trans _ _ _ S2 (dist_groups_static _ _ _ _ _ _ _ E4)) as S4.
  apply IH; [exact T3| |]; [destruct (bo <=? so)|destruct (so <=? bo)]; apply (sides_static _ _ _ _ _ _ S3 S4); assumption.
Qed.
Lemma match_book_same h h2 ob ob2 last : twins h h2 -> books h h2 ob ob2 -> mrel (match_book idm h ob last) (match_book idm h2 ob2 last).
Proof.
  intros T BK. pose proof BK as [SB SS]. unfold match_book. pose proof (teq_length _ _ _ (proj1 SB)) as LB. pose proof (teq_length _ _ _ (proj1 SS)) as LS.
  pose proof (direction_same h h2 ob ob2 last T BK) as D. pose proof (match_single_same h h2 ob ob2 last T BK) as M.
  destruct (buys ob) as [|b1 br] eqn:Eb; [destruct (buys ob2); [repeat split; apply T|discriminate LB]|]. destruct (buys ob2) as [|b2 br2] eqn:Eb2; [discriminate LB|]. rewrite <- Eb, <- Eb2 in *.
  destruct (sells ob) as [|s1 sr] eqn:Es; [destruct (sells ob2); [repeat split; apply T|discriminate LS]|]. destruct (sells ob2) as [|s2 sr2] eqn:Es2; [discriminate LS|]. rewrite <- Es, <- Es2 in *.
  rewrite <- D, <- LB, <- LS. destruct (match_single idm h ob last) as [r|] eqn:E1, (match_single idm h2 ob2 last) as [r2|] eqn:E2; cbn in M; [|destruct r as [[? ?]|]; tauto|destruct r2 as [[? ?]|]; tauto|exact Logic.I].
  destruct r as [[h1 q]|], r2 as [[h12 q2]|]; try tauto.
  - destruct M as [T1 <-]. pose proof (match_single_static _ _ _ _ _ _ E1) as S1. pose proof (match_single_static _ _ _ _ _ _ E2) as S2.
    destruct (price_direction h ob last); [repeat split; apply T1| |]; (apply match_loop_same; [exact T1| |]; apply (sides_static _ _ _ _ _ _ S1 S2); assumption).
  - destruct (price_direction h ob last); [repeat split; apply T| |]; (apply match_loop_same; assumption).
Qed.

(** ** books built in different sequences *)
Lemma book_of_ok h ps : book_ok h ps (book_of h ps).
Proof. apply (add_orders_ok h ps []). apply book_ok_nil. Qed.
Lemma tick_order_trans inc x y z : tick_order inc x y -> tick_order inc y z -> tick_order inc x z.
Proof. destruct inc; cbn; lia. Qed.
Definition comparable (h h2 : heap) (ps : list nat) : Prop :=
  forall p q, In p ps -> In q ps -> p <> q -> rivals (get h p) (get h q) ->
    (goes_first (get h p) (get h q) <-> goes_first (get h2 p) (get h2 q)) /\ (goes_first (get h p) (get h q) \/ goes_first (get h q) (get h p)).
Lemma listed_twins h h2 d p : twins h h2 -> listed h d p = listed h2 d p.
Proof. intros T. unfold listed. destruct (proj2 T p) as (Ed & Ep & _). rewrite <- Ed, <- Ep, <- (twin_matchable _ _ _ (proj2 T p)). reflexivity. Qed.
Lemma books_of h h2 ps qs : twins h h2 -> NoDup ps -> Permutation ps qs -> all_owned h ps -> all_owned h2 ps -> comparable h h2 ps -> books h h2 (book_of h ps) (book_of h2 qs).
Proof.
  intros T ND P O O2 C. destruct (book_of_ok h ps) as [KB KS]. destruct (book_of_ok h2 qs) as [KB2 KS2].
  assert (G : forall d inc ts ts2, keyed (tick_order inc) (fun p => o_price (get h p)) (filter (listed h d) ps) ts -> keyed (tick_order inc) (fun p => o_price (get h2 p)) (filter (listed h2 d) qs) ts2 -> sides h h2 ts ts2).
  { intros d inc ts ts2 K1 K2. split; [|split].
    - apply (keyed_teq _ (tick_order_irrefl inc) (tick_order_trans inc) _ _ (filter (listed h d) ps) (filter (listed h2 d) qs) _ _) with (3 := K1) (4 := K2); [intros p _; apply (proj2 T p)|].
      rewrite (filter_ext (listed h2 d) (listed h d)) by (intros p; symmetry; apply listed_twins; exact T). apply filter_perm. exact P.
    - apply (Permutation_NoDup (Permutation_sym (keyed_perm _ (tick_order_irrefl inc) _ _ _ K1))). apply NoDup_filter. exact ND.
    - intros [x ms] Ht. destruct (keyed_members _ _ _ _ _ _ K1 Ht) as (_ & _ & M). cbn [snd].
      assert (J : forall p, In p ms -> In p ps /\ o_dir (get h p) = d /\ o_price (get h p) = x).
      { intros p Hp. apply M in Hp. destruct Hp as [Hp E]. apply filter_In in Hp. destruct Hp as [Hp L]. split; [exact Hp|]. split; [apply listed_dir; exact L|exact E]. }
      split; [intros p Hp; apply O, J, Hp|]. split; [intros p Hp; apply O2, J, Hp|]. intros p q Hp Hq N Eb. apply C; [apply J, Hp|apply J, Hq|exact N|].
      destruct (J p Hp) as (_ & Dp & Xp). destruct (J q Hq) as (_ & Dq & Xq). split; [congruence|]. split; [congruence|exact Eb]. }
  split; [exact (G _ _ _ _ KB KB2)|exact (G _ _ _ _ KS KS2)].
Qed.
Lemma books_nodup h h2 ob ob2 : books h h2 ob ob2 -> NoDup (flat_map snd (buys ob2)) /\ NoDup (flat_map snd (sells ob2)) /\ NoDup (flat_map snd (buys ob)) /\ NoDup (flat_map snd (sells ob)).
Proof.
  assert (G : forall ts ts2, sides h h2 ts ts2 -> NoDup (flat_map snd ts2)).
  { intros ts ts2 (F & N & _). apply (Permutation_NoDup (l := flat_map snd ts)); [|exact N]. clear N. induction F as [|t t2 ts ts2 E F IH]; [constructor|]. cbn [flat_map]. apply Permutation_app; [apply E|exact IH]. }
  intros [B S]. split; [exact (G _ _ B)|]. split; [exact (G _ _ S)|]. split; [apply B|apply S].
Qed.

(** ** the first price *)
Lemma acc_ticks_same h h2 ts ts2 : twins h h2 -> Forall2 teq ts ts2 -> forall a, acc_ticks h a ts = acc_ticks h2 a ts2.
Proof. intros T. induction 1 as [|[p ps] [p2 qs] ts ts2 [E P] F IH]; intros a; [reflexivity|]. cbn in E, P. subst p2. cbn [acc_ticks]. rewrite (total_matchable_same h h2 _ _ p T P), IH. reflexivity. Qed.
Lemma view_same h h2 ob ob2 : twins h h2 -> books h h2 ob ob2 -> make_view h ob = make_view h2 ob2.
Proof. intros T [B S]. unfold make_view. rewrite (acc_ticks_same h h2 _ _ T (proj1 B)), (acc_ticks_same h h2 _ _ T (proj1 S)). reflexivity. Qed.

(** ** equal results *)
Lemma match_loop_static it d : forall fuel h bs ss mp qd m h' p' d' m', match_loop it fuel d h bs ss mp qd m = Some (h', p', d', m') -> heap_static h h'.
Proof.
  induction fuel as [|fuel IH]; intros h bs ss mp qd m h' p' d' m'; cbn [match_loop]; [discriminate|].
  destruct bs as [|bt br]; [intros E; injection E as <- _ _ _; apply heap_static_refl|]. destruct ss as [|st sr]; [intros E; injection E as <- _ _ _; apply heap_static_refl|].
  destruct (fst st <=? fst bt); [|intros E; injection E as <- _ _ _; apply heap_static_refl].
  set (p := match d with PriceIncreasing => _ | _ => _ end). destruct (_ <=? 0); [apply IH|]. destruct (_ <=? 0); [apply IH|].
  destruct (distribute_to_tick it h bt _ p) as [[h1 d1]|] eqn:E1; [|discriminate]. destruct (distribute_to_tick it h1 st _ p) as [[h2 d2]|] eqn:E2; [|discriminate].
  intros E. apply IH in E. exact (heap_static_trans _ _ _ (heap_static_trans _ _ _ (dist_groups_static _ _ _ _ _ _ _ E1) (dist_groups_static _ _ _ _ _ _ _ E2)) E).
Qed.
Lemma match_book_static it h ob last h' p' d' m' : match_book it h ob last = Some (h', p', d', m') -> heap_static h h'.
Proof.
  unfold match_book. destruct (buys ob) eqn:Eb; [intros E; injection E as <- _ _ _; apply heap_static_refl|]. destruct (sells ob) eqn:Es; [intros E; injection E as <- _ _ _; apply heap_static_refl|]. rewrite <- Eb, <- Es.
  destruct (match_single it h ob last) as [r|] eqn:E1; [|discriminate].
  assert (S1 : heap_static h (fst (fst (match r with Some (h1, q) => (h1, q, true) | None => (h, 0, false) end)))).
  { destruct r as [[h1 q]|]; [exact (match_single_static _ _ _ _ _ _ E1)|apply heap_static_refl]. }
  destruct (match r with Some (h1, q) => (h1, q, true) | None => (h, 0, false) end) as [[h1 qd] mm]. cbn in S1.
  destruct (price_direction h ob last); intros E; [injection E as <- _ _ _; exact S1| |]; apply match_loop_static in E; exact (heap_static_trans _ _ _ S1 E).
Qed.
Lemma twins_eq h a b : heap_static h a -> heap_static h b -> twins a b -> a = b.
Proof.
  intros [LA A] [LB B] [L T]. apply (nth_ext a b dummy_order dummy_order); [exact L|]. intros p _. change (get a p = get b p). rewrite (twin_eq _ _ (T p)).
  destruct (A p) as (_ & _ & _ & _ & _ & KA). destruct (B p) as (_ & _ & _ & _ & _ & KB). rewrite KB, <- KA. destruct (get a p); reflexivity.
Qed.
Lemma comparable_names h ps : all_owned h ps -> (forall p q, In p ps -> In q ps -> p <> q -> rivals (get h p) (get h q) -> o_kind (get h p) <> o_kind (get h q)) -> comparable h h ps.
Proof.
  intros O N p q Hp Hq Npq R. split; [reflexivity|]. pose proof (N p q Hp Hq Npq R) as K. pose proof (O p Hp) as A. pose proof (O q Hq) as B. unfold goes_first, owned in *.
  destruct (o_kind (get h p)) as [|i|i], (o_kind (get h q)) as [|j|j]; try congruence; try (assert (i <> j) by congruence); lia.
Qed.
Lemma comparable_amounts h h2 ps : twins h h2 -> (forall p q, In p ps -> In q ps -> p <> q -> rivals (get h p) (get h q) -> o_amt (get h p) <> o_amt (get h q)) -> comparable h h2 ps.
Proof.
  intros T N p q Hp Hq Npq R. pose proof (N p q Hp Hq Npq R) as K. destruct (proj2 T p) as (_ & _ & Ep & _). destruct (proj2 T q) as (_ & _ & Eq & _). unfold goes_first. rewrite <- Ep, <- Eq. split; [|lia].
  split; intros [X|[X _]]; [left; exact X|congruence|left; exact X|congruence].
Qed.
