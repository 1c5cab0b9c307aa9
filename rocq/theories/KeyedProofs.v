(** Binary search and grouping by key: shared by order book ticks and batch groups. *)
From Verif Require Import Base Dec OrderModel MatchModel.
From Coq Require Import Permutation Sorted.

(** ** sort.Search *)

Lemma search_loop_spec n f fuel : forall i j, 0 <= i <= j -> j <= n -> j - i < 2 ^ (Z.of_nat fuel) ->
  (j < n -> f j = true) -> (0 < i -> f (i - 1) = false) ->
  let r := search_loop fuel f i j in
  i <= r <= j /\ (r < n -> f r = true) /\ (0 < r -> f (r - 1) = false).
Proof.
  induction fuel as [|k IH]; intros i j Hij Hjn Hf Hj Hi; cbn [search_loop].
  - change (2 ^ Z.of_nat 0) with 1 in Hf. replace j with i in * by lia. repeat split; auto; lia.
  - rewrite Nat2Z.inj_succ, Z.pow_succ_r in Hf by lia.
    destruct (Z.ltb_spec i j) as [Hlt|Hge].
    + set (h := (i + j) / 2).
      pose proof (Z.div_mod (i + j) 2 ltac:(lia)) as Hdm.
      pose proof (Z.mod_pos_bound (i + j) 2 ltac:(lia)) as Hm. fold h in Hdm.
      destruct (f h) eqn:E.
      * destruct (IH i h) as (A & B & C); [lia|lia|lia|auto|auto|]. repeat split; auto; lia.
      * destruct (IH (h + 1) j) as (A & B & C); [lia|lia|lia|auto| |].
        { intros _. replace (h + 1 - 1) with h by lia. exact E. }
        repeat split; auto; lia.
    + replace j with i in * by lia. repeat split; auto; lia.
Qed.

Lemma go_search_spec n f : 0 <= n ->
  let r := go_search n f in
  0 <= r <= n /\ (r < n -> f r = true) /\ (0 < r -> f (r - 1) = false).
Proof.
  intros Hn. unfold go_search. apply search_loop_spec; try lia.
  rewrite !Nat2Z.inj_succ, Z2Nat.id by apply Z.log2_nonneg.
  destruct (Z.eq_dec n 0) as [->|Hne].
  - change (Z.log2 0) with 0. change (2 ^ Z.succ (Z.succ 0)) with 4. lia.
  - pose proof (Z.log2_spec n ltac:(lia)) as [_ H].
    rewrite (Z.pow_succ_r 2 (Z.succ (Z.log2 n))) by (pose proof (Z.log2_nonneg n); lia). lia.
Qed.

Lemma go_search_mono n f : 0 <= n ->
  (forall i j, 0 <= i <= j -> j < n -> f i = true -> f j = true) ->
  let r := go_search n f in
  0 <= r <= n /\ (forall i, 0 <= i < r -> f i = false) /\ (forall i, r <= i < n -> f i = true).
Proof.
  intros Hn Hmono r. destruct (go_search_spec n f Hn) as (A & B & C). fold r in A, B, C.
  split; [assumption|]. split.
  - intros i Hi. destruct (f i) eqn:E; [|reflexivity].
    rewrite (Hmono i (r - 1)) in C by (lia || auto). discriminate C. lia.
  - intros i Hi. apply (Hmono r i); [lia|lia|]. apply B. lia.
Qed.

Lemma find_first_true_up lo hi f : lo < hi ->
  (forall i j, lo <= i <= j -> j <= hi -> f i = true -> f j = true) ->
  match find_first_true lo hi f with
  | Some i => lo <= i <= hi /\ f i = true /\ forall k, lo <= k < i -> f k = false
  | None => forall k, lo <= k <= hi -> f k = false
  end.
Proof.
  intros Hlt Hm. unfold find_first_true. destruct (Z.ltb_spec lo hi); [|lia].
  destruct (go_search_mono (hi - lo + 1) (fun i => f (lo + i))) as (A & B & C); [lia| |].
  { intros i j Hij Hj. apply Hm; lia. }
  set (r := go_search (hi - lo + 1) (fun i => f (lo + i))) in *. cbv beta zeta in *.
  destruct (Z.ltb_spec hi (lo + r)).
  - intros k Hk. specialize (B (k - lo) ltac:(lia)). replace (lo + (k - lo)) with k in B by lia. exact B.
  - split; [lia|]. split; [apply C; lia|].
    intros k Hk. specialize (B (k - lo) ltac:(lia)). replace (lo + (k - lo)) with k in B by lia. exact B.
Qed.

Lemma find_first_true_down lo hi f : lo <= hi ->
  (forall i j, lo <= i <= j -> j <= hi -> f j = true -> f i = true) ->
  match find_first_true hi lo f with
  | Some i => lo <= i <= hi /\ f i = true /\ forall k, i < k <= hi -> f k = false
  | None => forall k, lo <= k <= hi -> f k = false
  end.
Proof.
  intros Hle Hm. unfold find_first_true. destruct (Z.ltb_spec hi lo); [lia|].
  destruct (go_search_mono (hi - lo + 1) (fun i => f (hi - i))) as (A & B & C); [lia| |].
  { intros i j Hij Hj. apply Hm; lia. }
  set (r := go_search (hi - lo + 1) (fun i => f (hi - i))) in *. cbv beta zeta in *.
  destruct (Z.ltb_spec (hi - r) lo).
  - intros k Hk. specialize (B (hi - k) ltac:(lia)). replace (hi - (hi - k)) with k in B by lia. exact B.
  - split; [lia|]. split; [apply C; lia|].
    intros k Hk. specialize (B (hi - k) ltac:(lia)). replace (hi - (hi - k)) with k in B by lia. exact B.
Qed.

(** ** Lists *)

Lemma nth_In_firstn {A} (l : list A) i x d : In x (firstn i l) -> exists j, (j < i)%nat /\ (j < length l)%nat /\ nth j l d = x.
Proof.
  intros H. destruct (In_nth _ _ d H) as (j & Hj & E). rewrite firstn_length in Hj.
  exists j. split; [lia|]. split; [lia|]. rewrite <- E.
  rewrite <- (firstn_skipn i l) at 1. rewrite app_nth1 by (rewrite firstn_length; lia). reflexivity.
Qed.

Lemma nth_In_skipn {A} (l : list A) i x d : In x (skipn i l) -> exists j, (i <= j)%nat /\ (j < length l)%nat /\ nth j l d = x.
Proof.
  intros H. destruct (In_nth _ _ d H) as (j & Hj & E). rewrite skipn_length in Hj.
  exists (i + j)%nat. split; [lia|]. split; [lia|]. rewrite <- E.
  rewrite <- (firstn_skipn i l) at 1. rewrite app_nth2 by (rewrite firstn_length; lia).
  rewrite firstn_length. f_equal. lia.
Qed.

Lemma firstn_map' {A B} (f : A -> B) i l : firstn i (map f l) = map f (firstn i l).
Proof. apply firstn_map. Qed.

Lemma insert_at_map {A B} (f : A -> B) i x l : insert_at i (f x) (map f l) = map f (insert_at i x l).
Proof. unfold insert_at. rewrite firstn_map, skipn_map, map_app. reflexivity. Qed.

Lemma insert_at_perm {A} i (x : A) l : Permutation (insert_at i x l) (x :: l).
Proof.
  unfold insert_at. rewrite <- (firstn_skipn i l) at 3. apply Permutation_sym, Permutation_middle.
Qed.

Lemma sorted_app {A} (R : A -> A -> Prop) l1 l2 :
  StronglySorted R l1 -> StronglySorted R l2 -> (forall x y, In x l1 -> In y l2 -> R x y) ->
  StronglySorted R (l1 ++ l2).
Proof.
  induction l1 as [|a l1 IH]; intros H1 H2 H; [assumption|].
  inversion H1 as [|? ? Hs Hf]; subst. cbn. constructor.
  - apply IH; auto. intros x y Hx Hy. apply H; [right|]; assumption.
  - apply Forall_app. split; [assumption|]. apply Forall_forall. intros y Hy. apply H; [left; reflexivity|assumption].
Qed.

Lemma sorted_app_inv {A} (R : A -> A -> Prop) l1 l2 :
  StronglySorted R (l1 ++ l2) -> StronglySorted R l1 /\ StronglySorted R l2 /\ (forall x y, In x l1 -> In y l2 -> R x y).
Proof.
  induction l1 as [|a l1 IH]; intros H.
  - split; [constructor|]. split; [assumption|]. intros x y [].
  - cbn in H. inversion H as [|? ? Hs Hf]; subst. destruct (IH Hs) as (A1 & A2 & A3).
    apply Forall_app in Hf. destruct Hf as [F1 F2]. split; [constructor; assumption|]. split; [assumption|].
    intros x y [->|Hx] Hy; [|auto]. rewrite Forall_forall in F2. auto.
Qed.

Lemma sorted_insert {A} (R : A -> A -> Prop) i x l :
  StronglySorted R l -> (forall y, In y (firstn i l) -> R y x) -> (forall y, In y (skipn i l) -> R x y) ->
  StronglySorted R (insert_at i x l).
Proof.
  intros Hs H1 H2. unfold insert_at. rewrite <- (firstn_skipn i l) in Hs.
  apply sorted_app_inv in Hs. destruct Hs as (A1 & A2 & A3).
  apply sorted_app; [assumption| |].
  - constructor; [assumption|]. apply Forall_forall. assumption.
  - intros y z Hy [<-|Hz]; [auto|auto].
Qed.

Lemma sorted_nth {A} (R : A -> A -> Prop) l d i j : StronglySorted R l -> (i < j)%nat -> (j < length l)%nat ->
  R (nth i l d) (nth j l d).
Proof.
  intros Hs. revert i j. induction Hs as [|a l Hs IH Hf]; intros i j Hij Hj; [cbn in Hj; lia|].
  destruct j as [|j]; [lia|]. destruct i as [|i]; cbn.
  - rewrite Forall_forall in Hf. apply Hf. apply nth_In. cbn in Hj. lia.
  - apply IH; cbn in Hj; lia.
Qed.

(** ** Lists of (key, members) *)
Section Keyed.
  Variable R : Z -> Z -> Prop.
  Hypothesis R_irrefl : forall x, ~ R x x.
  Variable k : nat -> Z.

  Definition bucket (ps : list nat) (x : Z) : Z * list nat := (x, filter (fun p => k p =? x) ps).

  Definition keyed (ps : list nat) (L : list (Z * list nat)) : Prop :=
    exists ks, StronglySorted R ks /\ (forall x, In x ks <-> exists p, In p ps /\ k p = x)
               /\ L = map (bucket ps) ks.

  Lemma keyed_nil : keyed [] [].
  Proof.
    exists []. split; [constructor|]. split; [|reflexivity]. intros x. split; [intros []|intros (p & [] & _)].
  Qed.

  Lemma bucket_snoc_other ps p x : k p <> x -> bucket (ps ++ [p]) x = bucket ps x.
  Proof.
    intros H. unfold bucket. rewrite filter_app. cbn.
    destruct (Z.eqb_spec (k p) x); [congruence|]. rewrite app_nil_r. reflexivity.
  Qed.

  Lemma bucket_snoc_same ps p : bucket (ps ++ [p]) (k p) = (k p, snd (bucket ps (k p)) ++ [p]).
  Proof.
    unfold bucket. rewrite filter_app. cbn. rewrite Z.eqb_refl. reflexivity.
  Qed.

  Lemma sorted_NoDup ks : StronglySorted R ks -> NoDup ks.
  Proof.
    induction 1 as [|a l Hs IH Hf]; constructor; [|assumption].
    intros Hin. rewrite Forall_forall in Hf. apply (R_irrefl a). auto.
  Qed.

  Lemma map_bucket_snoc_notin ps p ks : ~ In (k p) ks -> map (bucket (ps ++ [p])) ks = map (bucket ps) ks.
  Proof.
    intros H. apply map_ext_in. intros x Hx. apply bucket_snoc_other. intros <-. contradiction.
  Qed.

  Lemma append_at_keyed ps p ks : NoDup ks -> forall i, (i < length ks)%nat -> nth i ks 0 = k p ->
    append_at i p (map (bucket ps) ks) = map (bucket (ps ++ [p])) ks.
  Proof.
    induction ks as [|x ks IH]; intros Hnd i Hi E; [cbn in Hi; lia|].
    inversion Hnd as [|? ? Hn1 Hn2]; subst. destruct i as [|i]; cbn in E |- *.
    - rewrite E in *. rewrite bucket_snoc_same. rewrite map_bucket_snoc_notin by assumption. reflexivity.
    - f_equal.
      + symmetry. apply bucket_snoc_other. intros Ex. apply Hn1. rewrite <- Ex, <- E. apply nth_In. cbn in Hi. lia.
      + apply IH; [assumption|cbn in Hi; lia|assumption].
  Qed.

  Lemma keyed_in_snoc ps p x ks :
    (forall x, In x ks <-> exists q, In q ps /\ k q = x) -> In (k p) ks ->
    In x ks <-> exists q, In q (ps ++ [p]) /\ k q = x.
  Proof.
    intros H Hin. rewrite H. split.
    - intros (q & Hq & E). exists q. split; [apply in_or_app; left|]; assumption.
    - intros (q & Hq & E). apply in_app_or in Hq. destruct Hq as [Hq|[<-|[]]]; [exists q; auto|].
      rewrite <- E. apply H. assumption.
  Qed.

  Lemma group_append_some ps p ks : NoDup ks -> In (k p) ks ->
    group_append (k p) p (map (bucket ps) ks) = Some (map (bucket (ps ++ [p])) ks).
  Proof.
    induction ks as [|x ks IH]; intros Hnd Hin; [destruct Hin|].
    inversion Hnd as [|? ? Hn1 Hn2]; subst. cbn [map group_append bucket].
    destruct (Z.eqb_spec (k p) x) as [E|Hne].
    - subst x. rewrite map_bucket_snoc_notin by assumption. rewrite bucket_snoc_same. reflexivity.
    - destruct Hin as [->|Hin]; [congruence|].
      change (map (fun x0 : Z => (x0, filter (fun p0 : nat => k p0 =? x0) ps)) ks) with (map (bucket ps) ks).
      rewrite IH by assumption. rewrite bucket_snoc_other by assumption. reflexivity.
  Qed.

  Lemma group_append_none ps p ks : ~ In (k p) ks -> group_append (k p) p (map (bucket ps) ks) = None.
  Proof.
    induction ks as [|x ks IH]; intros Hin; [reflexivity|]. cbn [map group_append bucket].
    destruct (Z.eqb_spec (k p) x) as [E|Hne]; [exfalso; apply Hin; left; congruence|].
    change (map (fun x0 : Z => (x0, filter (fun p0 : nat => k p0 =? x0) ps)) ks) with (map (bucket ps) ks).
    rewrite IH; [reflexivity|]. intros H. apply Hin. right. assumption.
  Qed.

  Lemma insert_at_keyed ps p ks i :
    StronglySorted R ks -> (forall x, In x ks <-> exists q, In q ps /\ k q = x) ->
    ~ In (k p) ks ->
    (forall y, In y (firstn i ks) -> R y (k p)) -> (forall y, In y (skipn i ks) -> R (k p) y) ->
    keyed (ps ++ [p]) (insert_at i (k p, [p]) (map (bucket ps) ks)).
  Proof.
    intros Hs Hin Hnot H1 H2. exists (insert_at i (k p) ks).
    split; [apply sorted_insert; assumption|]. split.
    - intros x. rewrite (Permutation_in' (eq_refl x) (insert_at_perm i (k p) ks)). cbn [In]. rewrite Hin. split.
      + intros [<-|(q & Hq & E)]; [exists p|exists q]; (split; [apply in_or_app|]); auto. right; left; reflexivity.
      + intros (q & Hq & E). apply in_app_or in Hq. destruct Hq as [Hq|[<-|[]]]; [right; exists q; auto|left; assumption].
    - rewrite <- (map_bucket_snoc_notin ps p ks Hnot).
      replace (k p, [p]) with (bucket (ps ++ [p]) (k p)).
      + apply insert_at_map.
      + rewrite bucket_snoc_same. unfold bucket. cbn. f_equal.
        replace (filter (fun p0 : nat => k p0 =? k p) ps) with (@nil nat); [reflexivity|].
        symmetry. destruct (filter (fun p0 : nat => k p0 =? k p) ps) as [|q l] eqn:E; [reflexivity|].
        assert (Hq : In q (filter (fun p0 : nat => k p0 =? k p) ps)) by (rewrite E; left; reflexivity).
        apply filter_In in Hq. destruct Hq as [Hq1 Hq2]. exfalso. apply Hnot. apply Hin.
        exists q. split; [assumption|]. apply Z.eqb_eq. assumption.
  Qed.

  (** consequences *)
  Lemma filter_none {A} (f : A -> bool) l : (forall x, In x l -> f x = false) -> filter f l = [].
  Proof.
    induction l as [|x l IH]; intros H; [reflexivity|]. cbn. rewrite (H x) by (left; reflexivity).
    apply IH. intros y Hy. apply H. right. assumption.
  Qed.

  Lemma buckets_perm ks : NoDup ks -> forall ps, (forall p, In p ps -> In (k p) ks) ->
    Permutation (flat_map snd (map (bucket ps) ks)) ps.
  Proof.
    intros Hnd. induction Hnd as [|x ks Hx Hnd IH]; intros ps H.
    - destruct ps as [|p ps]; [constructor|]. destruct (H p). left; reflexivity.
    - cbn [map flat_map bucket snd].
      set (ps2 := filter (fun p => negb (k p =? x)) ps).
      assert (E : map (bucket ps) ks = map (bucket ps2) ks).
      { apply map_ext_in. intros y Hy. unfold bucket. f_equal. unfold ps2.
        clear - Hy Hx. induction ps as [|p ps IHp]; [reflexivity|]. cbn.
        destruct (Z.eqb_spec (k p) x) as [E1|E1]; cbn [negb].
        - destruct (Z.eqb_spec (k p) y) as [E2|E2]; [exfalso; apply Hx; congruence|]. apply IHp.
        - cbn. destruct (k p =? y); [f_equal|]; apply IHp. }
      rewrite E. rewrite IH.
      + unfold ps2. clear. induction ps as [|p ps IHp]; [constructor|]. cbn.
        destruct (k p =? x); cbn.
        * constructor. assumption.
        * rewrite <- Permutation_middle. constructor. assumption.
      + intros p Hp. unfold ps2 in Hp. apply filter_In in Hp. destruct Hp as [Hp1 Hp2].
        destruct (H p Hp1) as [Ex|]; [|assumption]. rewrite Ex, Z.eqb_refl in Hp2. discriminate.
  Qed.

  Lemma keyed_perm ps L : keyed ps L -> Permutation (flat_map snd L) ps.
  Proof.
    intros (ks & Hs & Hin & ->). apply buckets_perm; [apply sorted_NoDup; assumption|].
    intros p Hp. apply Hin. exists p. auto.
  Qed.

  Lemma keyed_members ps L x ms : keyed ps L -> In (x, ms) L ->
    ms = filter (fun p => k p =? x) ps /\ ms <> [] /\ (forall p, In p ms <-> In p ps /\ k p = x).
  Proof.
    intros (ks & Hs & Hin & ->) H. apply in_map_iff in H. destruct H as (y & E & Hy).
    unfold bucket in E. injection E as -> <-. split; [reflexivity|]. split.
    - apply Hin in Hy. destruct Hy as (p & Hp & E2).
      intros E3. assert (In p (filter (fun p0 : nat => k p0 =? x) ps)) as H3.
      { apply filter_In. split; [assumption|]. apply Z.eqb_eq. assumption. }
      rewrite E3 in H3. destruct H3.
    - intros p. rewrite filter_In, Z.eqb_eq. reflexivity.
  Qed.

  Lemma keyed_sorted ps L : keyed ps L -> StronglySorted R (map fst L).
  Proof.
    intros (ks & Hs & _ & ->). rewrite map_map. cbn. rewrite map_id. assumption.
  Qed.

  Lemma keyed_keys ps L x : keyed ps L -> In x (map fst L) <-> exists p, In p ps /\ k p = x.
  Proof.
    intros (ks & Hs & Hin & ->). rewrite map_map. cbn. rewrite map_id. apply Hin.
  Qed.
End Keyed.

(** ** Batch groups *)

(** batch order: smaller id first, id 0 (current batch) last. *)
Definition batch_before (a b : Z) : Prop := a <> 0 /\ (b = 0 \/ a < b).

Lemma batch_before_irrefl x : ~ batch_before x x.
Proof. unfold batch_before. lia. Qed.

Lemma group_step_keyed h ps p gs :
  keyed batch_before (fun p => o_batch (get h p)) ps gs ->
  keyed batch_before (fun p => o_batch (get h p)) (ps ++ [p]) (group_step h gs p).
Proof.
  intros (ks & Hs & Hin & ->). set (k := fun p => o_batch (get h p)) in *.
  unfold group_step. change (o_batch (get h p)) with (k p). cbv zeta.
  pose proof (sorted_NoDup batch_before batch_before_irrefl ks Hs) as Hnd.
  destruct (in_dec Z.eq_dec (k p) ks) as [Hi|Hi].
  - rewrite group_append_some by assumption. exists ks. split; [assumption|]. split; [|reflexivity].
    intros x. apply keyed_in_snoc; assumption.
  - rewrite group_append_none by assumption. rewrite map_length.
    set (f := fun i : Z => if k p =? 0 then fst (nth (Z.to_nat i) (map (bucket k ps) ks) (0, [])) =? 0
                           else if fst (nth (Z.to_nat i) (map (bucket k ps) ks) (0, [])) =? 0 then true
                           else k p <=? fst (nth (Z.to_nat i) (map (bucket k ps) ks) (0, []))).
    destruct (go_search_spec (Z.of_nat (length ks)) f ltac:(lia)) as (A & B & C).
    set (r := go_search (Z.of_nat (length ks)) f) in *.
    try match goal with |- context[go_search ?n ?g] => change (go_search n g) with r end.
    assert (Hf : forall i, 0 <= i < Z.of_nat (length ks) ->
              f i = let gb := nth (Z.to_nat i) ks 0 in if k p =? 0 then gb =? 0 else if gb =? 0 then true else k p <=? gb).
    { intros i Hi'. unfold f.
      rewrite (nth_indep _ (0, []) (bucket k ps 0)) by (rewrite map_length; lia).
      rewrite map_nth. reflexivity. }
    apply insert_at_keyed; [assumption|assumption|assumption| |].
    + intros y Hy. destruct (nth_In_firstn _ _ _ 0 Hy) as (j & Hj1 & Hj2 & E).
      assert (Hr : 0 < r) by lia. specialize (C Hr). rewrite Hf in C by lia.
      assert (Hne : k p <> y).
      { intros E2. apply Hi. rewrite E2, <- E. apply nth_In. assumption. }
      assert (HR : y = nth (Z.to_nat (r - 1)) ks 0 \/ batch_before y (nth (Z.to_nat (r - 1)) ks 0)).
      { rewrite <- E. destruct (Nat.eq_dec j (Z.to_nat (r - 1))) as [->|Hne2]; [left; reflexivity|right].
        apply sorted_nth; [assumption|lia|lia]. }
      set (g := nth (Z.to_nat (r - 1)) ks 0) in *. cbv zeta in C.
      unfold batch_before in *.
      destruct (Z.eqb_spec (k p) 0).
      * split; [lia|left; assumption].
      * destruct (Z.eqb_spec g 0); [discriminate|]. apply Z.leb_gt in C. lia.
    + intros y Hy. destruct (nth_In_skipn _ _ _ 0 Hy) as (j & Hj1 & Hj2 & E).
      assert (Hr : r < Z.of_nat (length ks)) by lia. specialize (B Hr). rewrite Hf in B by lia.
      assert (Hne : k p <> y).
      { intros E2. apply Hi. rewrite E2, <- E. apply nth_In. assumption. }
      assert (HR : y = nth (Z.to_nat r) ks 0 \/ batch_before (nth (Z.to_nat r) ks 0) y).
      { rewrite <- E. destruct (Nat.eq_dec j (Z.to_nat r)) as [->|Hne2]; [left; reflexivity|right].
        apply sorted_nth; [assumption|lia|lia]. }
      assert (Hg : k p <> nth (Z.to_nat r) ks 0).
      { intros E2. apply Hi. rewrite E2. apply nth_In. lia. }
      set (g := nth (Z.to_nat r) ks 0) in *. cbv zeta in B. unfold batch_before in *.
      destruct (Z.eqb_spec (k p) 0) as [E0|E0].
      * exfalso. apply Z.eqb_eq in B. congruence.
      * destruct (Z.eqb_spec g 0); [|apply Z.leb_le in B; lia]. destruct HR as [->|HR]; [lia|]. lia.
Qed.

Lemma group_by_batch_keyed h ps :
  keyed batch_before (fun p => o_batch (get h p)) ps (group_by_batch h ps).
Proof.
  unfold group_by_batch.
  assert (A : forall qs done gs, keyed batch_before (fun p => o_batch (get h p)) done gs ->
            keyed batch_before (fun p => o_batch (get h p)) (done ++ qs) (fold_left (group_step h) qs gs)).
  { induction qs as [|q qs IH]; intros dn gs H; cbn.
    - rewrite app_nil_r. assumption.
    - replace (dn ++ q :: qs) with ((dn ++ [q]) ++ qs) by (rewrite <- app_assoc; reflexivity).
      apply IH. apply group_step_keyed. assumption. }
  apply (A ps [] []). apply keyed_nil.
Qed.

(** ** Order book ticks *)

Definition tick_order (increasing : bool) (a b : Z) : Prop := if increasing then a < b else b < a.

Lemma tick_order_irrefl inc x : ~ tick_order inc x x.
Proof. destruct inc; cbn; lia. Qed.

Lemma ticks_add_keyed inc h ps p ts :
  keyed (tick_order inc) (fun p => o_price (get h p)) ps ts ->
  keyed (tick_order inc) (fun p => o_price (get h p)) (ps ++ [p]) (ticks_add inc ts (o_price (get h p)) p).
Proof.
  intros (ks & Hs & Hin & ->). set (k := fun p => o_price (get h p)) in *.
  change (o_price (get h p)) with (k p).
  pose proof (sorted_NoDup _ (tick_order_irrefl inc) ks Hs) as Hnd.
  unfold ticks_add, find_price. cbv zeta. rewrite map_length.
  set (f := fun i : Z => if inc then k p <=? fst (nth (Z.to_nat i) (map (bucket k ps) ks) (0, []))
                         else fst (nth (Z.to_nat i) (map (bucket k ps) ks) (0, [])) <=? k p).
  destruct (go_search_spec (Z.of_nat (length ks)) f ltac:(lia)) as (A & B & C).
  set (r := go_search (Z.of_nat (length ks)) f) in *.
  repeat match goal with |- context[go_search ?n ?g] => change (go_search n g) with r end.
  assert (Hn : forall i, 0 <= i < Z.of_nat (length ks) ->
            fst (nth (Z.to_nat i) (map (bucket k ps) ks) (0, [])) = nth (Z.to_nat i) ks 0).
  { intros i Hi. rewrite (nth_indep _ (0, []) (bucket k ps 0)) by (rewrite map_length; lia).
    rewrite map_nth. reflexivity. }
  assert (Hf : forall i, 0 <= i < Z.of_nat (length ks) ->
            f i = let pr := nth (Z.to_nat i) ks 0 in if inc then k p <=? pr else pr <=? k p).
  { intros i Hi. unfold f. cbv zeta. rewrite Hn by assumption. reflexivity. }
  destruct (Z.ltb_spec r (Z.of_nat (length ks))) as [Hr|Hr]; cbn [andb].
  - rewrite Hn by lia. destruct (Z.eqb_spec (nth (Z.to_nat r) ks 0) (k p)) as [E|Hne].
    + rewrite append_at_keyed; [|assumption|lia|assumption].
      exists ks. split; [assumption|]. split; [|reflexivity].
      intros x. apply keyed_in_snoc; [assumption|]. rewrite <- E. apply nth_In. lia.
    + specialize (B Hr). rewrite Hf in B by lia. cbv zeta in B.
      assert (Hgt : tick_order inc (k p) (nth (Z.to_nat r) ks 0)).
      { unfold tick_order. destruct inc; apply Z.leb_le in B; lia. }
      assert (Hsk : forall y, In y (skipn (Z.to_nat r) ks) -> tick_order inc (k p) y).
      { intros y Hy. destruct (nth_In_skipn _ _ _ 0 Hy) as (j & Hj1 & Hj2 & E).
        destruct (Nat.eq_dec j (Z.to_nat r)) as [->|Hj3]; [congruence|].
        pose proof (sorted_nth _ ks 0 (Z.to_nat r) j Hs ltac:(lia) ltac:(lia)) as HR. rewrite E in HR.
        unfold tick_order in *. destruct inc; lia. }
      assert (Hfi : forall y, In y (firstn (Z.to_nat r) ks) -> tick_order inc y (k p)).
      { intros y Hy. destruct (nth_In_firstn _ _ _ 0 Hy) as (j & Hj1 & Hj2 & E).
        specialize (C ltac:(lia)). rewrite Hf in C by lia. cbv zeta in C.
        destruct (Nat.eq_dec j (Z.to_nat (r - 1))) as [->|Hj3].
        - rewrite E in C. unfold tick_order. destruct inc; apply Z.leb_gt in C; lia.
        - pose proof (sorted_nth _ ks 0 j (Z.to_nat (r - 1)) Hs ltac:(lia) ltac:(lia)) as HR. rewrite E in HR.
          unfold tick_order in *. destruct inc; apply Z.leb_gt in C; lia. }
      apply insert_at_keyed; try assumption.
      intros Hi. rewrite <- (firstn_skipn (Z.to_nat r) ks) in Hi. apply in_app_or in Hi.
      destruct Hi as [Hi|Hi]; [specialize (Hfi _ Hi)|specialize (Hsk _ Hi)]; eapply tick_order_irrefl; eassumption.
  - assert (Er : r = Z.of_nat (length ks)) by lia.
    assert (Hfi : forall y, In y ks -> tick_order inc y (k p)).
    { intros y Hy. destruct (In_nth _ _ 0 Hy) as (j & Hj & E).
      specialize (C ltac:(lia)). rewrite Hf in C by lia. cbv zeta in C.
      destruct (Nat.eq_dec j (Z.to_nat (r - 1))) as [->|Hj3].
      - rewrite E in C. unfold tick_order. destruct inc; apply Z.leb_gt in C; lia.
      - pose proof (sorted_nth _ ks 0 j (Z.to_nat (r - 1)) Hs ltac:(lia) ltac:(lia)) as HR. rewrite E in HR.
        unfold tick_order in *. destruct inc; apply Z.leb_gt in C; lia. }
    rewrite Er, Nat2Z.id. apply insert_at_keyed; try assumption.
    + intros Hi. specialize (Hfi _ Hi). eapply tick_order_irrefl; eassumption.
    + intros y Hy. apply Hfi. rewrite firstn_all in Hy. assumption.
    + intros y Hy. rewrite skipn_all in Hy. destruct Hy.
Qed.

(** Everything placed in the book: exactly the orders with a positive matchable amount. *)
Definition listed (h : heap) (d : dir) (p : nat) : bool :=
  (0 <? matchable_amount (get h p) (o_price (get h p))) &&
  match d, o_dir (get h p) with Buy, Buy => true | Sell, Sell => true | _, _ => false end.

Definition book_ok (h : heap) (ps : list nat) (ob : book) : Prop :=
  keyed (tick_order false) (fun p => o_price (get h p)) (filter (listed h Buy) ps) (buys ob) /\
  keyed (tick_order true) (fun p => o_price (get h p)) (filter (listed h Sell) ps) (sells ob).

Lemma add_order_ok h ps p ob : book_ok h ps ob -> book_ok h (ps ++ [p]) (add_order h ob p).
Proof.
  intros [Hb Hs]. unfold add_order, book_ok. rewrite !filter_app. cbn [filter].
  unfold listed at 2 4.
  destruct (0 <? matchable_amount (get h p) (o_price (get h p))); cbn [andb].
  2:{ rewrite !app_nil_r. split; assumption. }
  destruct (o_dir (get h p)); cbn [buys sells]; rewrite ?app_nil_r.
  - split; [apply ticks_add_keyed|]; assumption.
  - split; [|apply ticks_add_keyed]; assumption.
Qed.

Lemma add_orders_ok h qs : forall ps ob, book_ok h ps ob -> book_ok h (ps ++ qs) (fold_left (add_order h) qs ob).
Proof.
  induction qs as [|q qs IH]; intros ps ob H; cbn.
  - rewrite app_nil_r. assumption.
  - replace (ps ++ q :: qs) with ((ps ++ [q]) ++ qs) by (rewrite <- app_assoc; reflexivity).
    apply IH. apply add_order_ok. assumption.
Qed.

Lemma book_ok_nil h : book_ok h [] (mkBook [] []).
Proof. split; apply keyed_nil. Qed.

Lemma new_order_book_ok h : book_ok h (seq 0 (length h)) (new_order_book h).
Proof. apply (add_orders_ok h (seq 0 (length h)) []). apply book_ok_nil. Qed.
