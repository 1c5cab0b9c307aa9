(** Facts about single orders, the heap, traces of fills. *)
From Verif Require Import Base Dec DecProofs OrderModel MatchModel MatchSpec.
From Coq Require Import Permutation.

Lemma sumZ_app a b : sumZ (a ++ b) = sumZ a + sumZ b.
Proof. induction a as [|x a IH]; cbn; [reflexivity|]. unfold sumZ in *. cbn. lia. Qed.
Lemma sumZ_cons x a : sumZ (x :: a) = x + sumZ a. Proof. reflexivity. Qed.
Lemma sumZ_perm a b : Permutation a b -> sumZ a = sumZ b.
Proof. induction 1; cbn in *; unfold sumZ in *; cbn in *; lia. Qed.
Lemma sumZ_nonneg l : (forall x, In x l -> 0 <= x) -> 0 <= sumZ l.
Proof.
  induction l as [|x l IH]; intros H; [cbn; lia|]. rewrite sumZ_cons.
  assert (0 <= x) by (apply H; left; reflexivity). assert (0 <= sumZ l) by (apply IH; intros; apply H; right; assumption). lia.
Qed.
Lemma sumZ_map_le {A} (f g : A -> Z) l : (forall x, In x l -> f x <= g x) -> sumZ (map f l) <= sumZ (map g l).
Proof.
  induction l as [|x l IH]; intros H; [cbn; lia|]. cbn [map]. rewrite !sumZ_cons.
  assert (f x <= g x) by (apply H; left; reflexivity).
  assert (sumZ (map f l) <= sumZ (map g l)) by (apply IH; intros; apply H; right; assumption). lia.
Qed.
Lemma sumZ_map_ext {A} (f g : A -> Z) l : (forall x, In x l -> f x = g x) -> sumZ (map f l) = sumZ (map g l).
Proof. intros H. f_equal. apply map_ext_in. assumption. Qed.
Lemma sumZ_map_nonneg {A} (f : A -> Z) l : (forall x, In x l -> 0 <= f x) -> 0 <= sumZ (map f l).
Proof. intros H. apply sumZ_nonneg. intros y Hy. apply in_map_iff in Hy. destruct Hy as (x & <- & Hx). auto. Qed.
Lemma sumZ_map_mul {A} (f : A -> Z) c l : sumZ (map (fun x => c * f x) l) = c * sumZ (map f l).
Proof. induction l as [|x l IH]; [cbn; lia|]. cbn [map]. rewrite !sumZ_cons, IH. lia. Qed.
Lemma sumZ_map_add {A} (f g : A -> Z) l : sumZ (map (fun x => f x + g x) l) = sumZ (map f l) + sumZ (map g l).
Proof. induction l as [|x l IH]; [reflexivity|]. cbn [map]. rewrite !sumZ_cons, IH. lia. Qed.
Lemma sumZ_in_le {A} (f : A -> Z) l x : (forall y, In y l -> 0 <= f y) -> In x l -> f x <= sumZ (map f l).
Proof.
  induction l as [|y l IH]; intros H Hin; [destruct Hin|]. destruct Hin as [->|Hx]; cbn [map]; rewrite sumZ_cons.
  - assert (0 <= sumZ (map f l)) by (apply sumZ_map_nonneg; intros; apply H; right; assumption). lia.
  - assert (0 <= f y) by (apply H; left; reflexivity).
    assert (f x <= sumZ (map f l)) by (apply IH; [intros; apply H; right|]; assumption). lia.
Qed.

Lemma fold_left_sum {A} (f : A -> Z) l : forall acc, fold_left (fun a x => a + f x) l acc = acc + sumZ (map f l).
Proof. induction l as [|x l IH]; intros acc; cbn [fold_left map]; [cbn; lia|]. rewrite IH, sumZ_cons. lia. Qed.

Lemma total_amount_sum h ps : total_amount h ps = sumZ (map (fun p => o_amt (get h p)) ps).
Proof. unfold total_amount. rewrite fold_left_sum. lia. Qed.
Lemma total_matchable_sum h ps p : total_matchable h ps p = sumZ (map (fun q => matchable_amount (get h q) p) ps).
Proof. unfold total_matchable. rewrite fold_left_sum. lia. Qed.

(** ** values *)
Lemma ceil_value_dec p a : 0 <= p * a -> dtrunc (dceil (dmul_int p a)) = ceil_value p a.
Proof.
  intros H. unfold dmul_int, ceil_value. pose proof (ceil_bounds (p * a) H) as (A & B & C).
  set (c := dtrunc (dceil (p * a))) in *. pose proof P18_pos as Hp.
  assert (- (p * a) / P18 = - c); [|lia]. symmetry. apply Z.div_unique with (r := c * P18 - p * a); lia.
Qed.
Lemma floor_value_dec p a : 0 <= p * a -> dtrunc (dmul_int p a) = floor_value p a.
Proof. intros H. unfold dmul_int, floor_value. apply dtrunc_nn. assumption. Qed.
Lemma ceil_value_bounds p a : (ceil_value p a - 1) * P18 < p * a <= ceil_value p a * P18.
Proof.
  unfold ceil_value. pose proof P18_pos as Hp.
  pose proof (Z.div_mod (- (p * a)) P18 ltac:(lia)). pose proof (Z.mod_pos_bound (- (p * a)) P18 Hp). lia.
Qed.
Lemma floor_value_bounds p a : floor_value p a * P18 <= p * a < (floor_value p a + 1) * P18.
Proof.
  unfold floor_value. pose proof P18_pos as Hp.
  pose proof (Z.div_mod (p * a) P18 ltac:(lia)). pose proof (Z.mod_pos_bound (p * a) P18 Hp). lia.
Qed.

Lemma fill_paid_val o a p : 0 <= p * a ->
  fill_paid o a p = match o_dir o with Buy => ceil_value p a | Sell => a end.
Proof. intros. unfold fill_paid. destruct (o_dir o); [apply ceil_value_dec; assumption|reflexivity]. Qed.
Lemma fill_recv_val o a p : 0 <= p * a ->
  fill_recv o a p = match o_dir o with Buy => a | Sell => floor_value p a end.
Proof. intros. unfold fill_recv. destruct (o_dir o); [reflexivity|apply floor_value_dec; assumption]. Qed.

(** ** matchable amount *)
Lemma matchable_spec o p : wf_order o -> 0 < p ->
  let m := matchable_amount o p in
  0 <= m <= o_open o /\ (o_dir o = Buy -> p * m <= (o_offer o - o_paid o) * P18) /\
  (m <> 0 -> 0 < floor_value p m).
Proof.
  intros (Hpr & Hop & Hpd & Hrc & Hd) Hp m. unfold m, matchable_amount. pose proof P18_pos as H18.
  set (m0 := match o_dir o with Buy => _ | Sell => _ end).
  assert (A : 0 <= m0 <= o_open o /\ (o_dir o = Buy -> p * m0 <= (o_offer o - o_paid o) * P18)).
  { unfold m0. destruct (o_dir o); [|split; [lia|discriminate]].
    rewrite quo_trunc_int by lia.
    assert (0 <= (o_offer o - o_paid o) * P18 / p) by (apply Z.div_pos; nia).
    pose proof (Z.div_mod ((o_offer o - o_paid o) * P18) p ltac:(lia)) as E1.
    pose proof (Z.mod_pos_bound ((o_offer o - o_paid o) * P18) p Hp) as E2.
    split; [lia|]. intros _. nia. }
  destruct A as [A1 A2].
  assert (Hpm : 0 <= p * m0) by nia.
  rewrite floor_value_dec by assumption.
  destruct (Z.eqb_spec (floor_value p m0) 0) as [E|E].
  - split; [lia|]. split; [nia|congruence].
  - split; [assumption|]. split; [assumption|]. intros _.
    assert (0 <= floor_value p m0) by (apply Z.div_pos; lia). lia.
Qed.

Lemma matchable_le_open o p : wf_order o -> 0 < p -> 0 <= matchable_amount o p <= o_open o.
Proof. intros H Hp. destruct (matchable_spec o p H Hp) as (A & _). exact A. Qed.

(** After filling the whole matchable amount nothing is matchable at that price. *)
Lemma matchable_after o p : wf_order o -> 0 < p ->
  matchable_amount (filled o (matchable_amount o p) p) p = 0.
Proof.
  intros Hwf Hp. pose proof (matchable_spec o p Hwf Hp) as (A & B & C).
  destruct Hwf as (Hpr & Hop & Hpd & Hrc & Hd). pose proof P18_pos as H18.
  set (m := matchable_amount o p) in *.
  unfold matchable_amount. cbn [o_dir o_open o_offer o_paid filled].
  rewrite fill_paid_val by nia.
  destruct (o_dir o) eqn:Ed.
  - assert (Hm : m = (let m0 := Z.min (o_open o) ((o_offer o - o_paid o) * P18 / p) in
                     if floor_value p m0 =? 0 then 0 else m0)).
    { unfold m, matchable_amount. rewrite Ed. rewrite quo_trunc_int by lia. cbv zeta.
      rewrite floor_value_dec; [reflexivity|].
      assert (0 <= (o_offer o - o_paid o) * P18 / p) by (apply Z.div_pos; nia). nia. }
    cbv zeta in Hm. set (m0 := Z.min (o_open o) ((o_offer o - o_paid o) * P18 / p)) in *.
    pose proof (ceil_value_bounds p m) as Hcv.
    assert (Hcr : ceil_value p m <= o_offer o - o_paid o).
    { specialize (B eq_refl). nia. }
    assert (0 <= ceil_value p m) by nia.
    rewrite quo_trunc_int by lia.
    set (r := o_offer o - (o_paid o + ceil_value p m)).
    assert (0 <= r * P18 / p) by (apply Z.div_pos; nia).
    set (m1 := Z.min (o_open o - m) (r * P18 / p)).
    assert (0 <= m1) by lia. rewrite floor_value_dec by nia.
    destruct (Z.eqb_spec (floor_value p m1) 0) as [|Hne]; [reflexivity|exfalso].
    apply Hne. destruct (Z.eq_dec (floor_value p m0) 0) as [E0|E0];
      [rewrite E0, Z.eqb_refl in Hm|rewrite (proj2 (Z.eqb_neq _ _) E0) in Hm].
    + (* nothing was matchable: m = 0 and m1 <= m0 *)
      assert (m1 <= m0).
      { assert (Er : r = o_offer o - o_paid o).
        { unfold r. rewrite Hm. assert (ceil_value p 0 = 0) as ->; [|lia]. unfold ceil_value. rewrite Z.mul_0_r. reflexivity. }
        unfold m1, m0. rewrite Er. lia. }
      pose proof (floor_value_bounds p m0). unfold floor_value. apply Z.div_small. nia.
    + assert (m1 = 0) as ->; [|unfold floor_value; rewrite Z.mul_0_r; reflexivity].
      assert (Hc : m0 = o_open o \/ m0 = (o_offer o - o_paid o) * P18 / p) by lia.
      destruct Hc as [Hc|Hc]; [lia|].
      assert (r * P18 / p = 0); [|lia]. apply Z.div_small. split; [unfold r; nia|].
      pose proof (Z.div_mod ((o_offer o - o_paid o) * P18) p ltac:(lia)) as E1.
      pose proof (Z.mod_pos_bound ((o_offer o - o_paid o) * P18) p Hp) as E2.
      rewrite <- Hc, <- Hm in E1. unfold r. nia.
  - assert (Hm : m = if floor_value p (o_open o) =? 0 then 0 else o_open o).
    { unfold m, matchable_amount. rewrite Ed, floor_value_dec by nia. reflexivity. }
    rewrite floor_value_dec by nia.
    destruct (Z.eqb_spec (floor_value p (o_open o)) 0) as [E|E].
    + rewrite Hm. rewrite Z.sub_0_r. unfold floor_value in *. rewrite E. reflexivity.
    + rewrite Hm. rewrite Z.sub_diag. destruct (_ =? _); reflexivity.
Qed.

(** ** heap *)
Lemma upd_length h i o : length (upd h i o) = length h.
Proof. revert i. induction h as [|x h IH]; intros [|i]; cbn; auto. Qed.
Lemma get_upd_same h i o : (i < length h)%nat -> get (upd h i o) i = o.
Proof.
  unfold get. revert i. induction h as [|x h IH]; intros [|i] H; cbn in *; try lia; [reflexivity|].
  apply IH. lia.
Qed.
Lemma get_upd_other h i j o : i <> j -> get (upd h i o) j = get h j.
Proof.
  unfold get. revert i j. induction h as [|x h IH]; intros [|i] [|j] H; cbn; auto; try congruence.
Qed.
Lemma upd_comm h i j a b : i <> j -> upd (upd h i a) j b = upd (upd h j b) i a.
Proof.
  revert i j. induction h as [|x h IH]; intros [|i] [|j] H; cbn; auto; try congruence.
  f_equal. apply IH. congruence.
Qed.

(** ** wf preservation *)
Lemma filled_wf o a p : wf_order o -> 0 < p -> 0 <= a <= matchable_amount o p -> wf_order (filled o a p).
Proof.
  intros Hwf Hp Ha. destruct (matchable_spec o p Hwf Hp) as (A & B & _).
  destruct Hwf as (Hpr & Hop & Hpd & Hrc & Hd). pose proof P18_pos as H18.
  assert (0 <= p * a) by nia.
  unfold wf_order. cbn [filled o_price o_open o_amt o_paid o_offer o_recv o_dir].
  rewrite fill_paid_val, fill_recv_val by assumption.
  destruct (o_dir o).
  - pose proof (ceil_value_bounds p a). specialize (B eq_refl).
    assert (ceil_value p a <= o_offer o - o_paid o) by nia.
    assert (0 <= ceil_value p a) by nia. lia.
  - assert (0 <= floor_value p a) by (apply Z.div_pos; lia). lia.
Qed.

(** ** traces *)
Definition fill := (nat * Z * dec)%type.
Definition f_ptr (f : fill) : nat := fst (fst f).
Definition f_amt (f : fill) : Z := snd (fst f).
Definition f_price (f : fill) : dec := snd f.

Inductive trace : heap -> list fill -> heap -> Prop :=
| trace_nil h : trace h [] h
| trace_cons h i a p rest h' :
    (i < length h)%nat -> 0 < p -> 0 < a <= matchable_amount (get h i) p -> accepts (get h i) p ->
    trace (upd h i (filled (get h i) a p)) rest h' -> trace h ((i, a, p) :: rest) h'.

Definition trace_diff (h : heap) (tr : list fill) : Z :=
  sumZ (map (fun f => fill_diff (get h (f_ptr f)) (f_amt f) (f_price f)) tr).
Definition trace_amt (tr : list fill) : Z := sumZ (map f_amt tr).

(** the fields FillOrder never changes *)
Definition same_static (o o' : order) : Prop :=
  o_dir o' = o_dir o /\ o_price o' = o_price o /\ o_amt o' = o_amt o /\ o_offer o' = o_offer o /\
  o_batch o' = o_batch o /\ o_kind o' = o_kind o.

Lemma same_static_refl o : same_static o o. Proof. repeat split. Qed.
Lemma same_static_trans a b c : same_static a b -> same_static b c -> same_static a c.
Proof. unfold same_static. intuition congruence. Qed.
Lemma filled_static o a p : same_static o (filled o a p). Proof. repeat split. Qed.

Definition heap_static (h h' : heap) : Prop :=
  length h' = length h /\ forall i, same_static (get h i) (get h' i).
Lemma heap_static_refl h : heap_static h h. Proof. split; [reflexivity|intros; apply same_static_refl]. Qed.
Lemma heap_static_trans a b c : heap_static a b -> heap_static b c -> heap_static a c.
Proof.
  intros [L1 H1] [L2 H2]. split; [congruence|]. intros i. eapply same_static_trans; eauto.
Qed.
Lemma upd_static h i a p : (i < length h)%nat -> heap_static h (upd h i (filled (get h i) a p)).
Proof.
  intros Hi. split; [apply upd_length|]. intros j. destruct (Nat.eq_dec i j) as [->|Hne].
  - rewrite get_upd_same by assumption. apply filled_static.
  - rewrite get_upd_other by assumption. apply same_static_refl.
Qed.

Lemma trace_static h tr h' : trace h tr h' -> heap_static h h'.
Proof.
  induction 1 as [h|h i a p rest h' Hi Hp Ha Hacc Htr IH]; [apply heap_static_refl|].
  eapply heap_static_trans; [apply upd_static; eassumption|exact IH].
Qed.

Lemma fill_diff_static o o' a p : same_static o o' -> fill_diff o' a p = fill_diff o a p.
Proof. intros (H1 & _). unfold fill_diff, fill_paid, fill_recv. rewrite H1. reflexivity. Qed.

Lemma trace_diff_static h h' tr : heap_static h h' -> trace_diff h' tr = trace_diff h tr.
Proof.
  intros [_ H]. unfold trace_diff. apply sumZ_map_ext. intros f _. apply fill_diff_static. apply H.
Qed.

Lemma accepts_static o o' p : same_static o o' -> accepts o' p <-> accepts o p.
Proof. intros (H1 & H2 & _). unfold accepts. rewrite H1, H2. reflexivity. Qed.

Lemma trace_app h1 tr1 h2 tr2 h3 : trace h1 tr1 h2 -> trace h2 tr2 h3 -> trace h1 (tr1 ++ tr2) h3.
Proof.
  intros H1. revert tr2 h3. induction H1; intros tr2 h3 Hnext; [assumption|].
  cbn. constructor; auto.
Qed.

Lemma trace_diff_app h tr1 tr2 : trace_diff h (tr1 ++ tr2) = trace_diff h tr1 + trace_diff h tr2.
Proof. unfold trace_diff. rewrite map_app. apply sumZ_app. Qed.
Lemma trace_amt_app tr1 tr2 : trace_amt (tr1 ++ tr2) = trace_amt tr1 + trace_amt tr2.
Proof. unfold trace_amt. rewrite map_app. apply sumZ_app. Qed.

Lemma trace_other h tr h' j : trace h tr h' -> ~ In j (map f_ptr tr) -> get h' j = get h j.
Proof.
  induction 1 as [h|h i a p rest h' Hi Hp Ha Hacc Htr IH]; intros Hj; [reflexivity|].
  cbn in Hj. rewrite IH by tauto. apply get_upd_other. intros ->. apply Hj. left. reflexivity.
Qed.

Definition wf_heap (h : heap) : Prop := forall i, (i < length h)%nat -> wf_order (get h i).

Lemma trace_wf h tr h' : trace h tr h' -> wf_heap h -> wf_heap h'.
Proof.
  induction 1 as [h|h i a p rest h' Hi Hp Ha Hacc Htr IH]; intros Hwf; [assumption|].
  apply IH. intros j Hj. rewrite upd_length in Hj. destruct (Nat.eq_dec i j) as [->|Hne].
  - rewrite get_upd_same by assumption. apply filled_wf; [auto|assumption|lia].
  - rewrite get_upd_other by assumption. auto.
Qed.

(** The effect of a trace on one order. *)
Definition fills_of (j : nat) (tr : list fill) : list (Z * dec) :=
  map (fun f => (f_amt f, f_price f)) (filter (fun f => Nat.eqb (f_ptr f) j) tr).

Lemma trace_filled_by h tr h' j : trace h tr h' -> filled_by (get h j) (fills_of j tr) (get h' j).
Proof.
  induction 1 as [h|h i a p rest h' Hi Hp Ha Hacc Htr IH].
  - unfold filled_by, fills_of. cbn. repeat split; try lia. constructor.
  - unfold fills_of. cbn [filter f_ptr fst snd]. destruct (Nat.eqb_spec i j) as [->|Hne].
    + rewrite get_upd_same in IH by assumption. cbn [map f_amt f_price fst snd].
      destruct IH as (F & S1 & S2 & S3 & S4 & S5 & S6 & O1 & O2 & O3).
      cbn [filled o_dir o_price o_amt o_offer o_batch o_kind o_open o_paid o_recv] in *.
      rewrite fill_paid_val in O2 by nia. rewrite fill_recv_val in O3 by nia.
      fold (fills_of j rest). repeat split; try assumption; cbn [map fst snd]; rewrite ?sumZ_cons; try lia.
      constructor; [cbn; repeat split; (lia || assumption)|].
      eapply Forall_impl; [|exact F]. intros f (H1 & H2 & H3). repeat split; assumption.
    + rewrite get_upd_other in IH by assumption. exact IH.
Qed.

(** ** single fills *)
Lemma fill_order_some h p a price : a <= matchable_amount (get h p) price ->
  fill_order h p a price = Some (upd h p (filled (get h p) a price), fill_diff (get h p) a price).
Proof. intros H. unfold fill_order. destruct (Z.ltb_spec (matchable_amount (get h p) price) a); [lia|reflexivity]. Qed.

Lemma get_out h i : (length h <= i)%nat -> get h i = dummy_order.
Proof. intros. unfold get. apply nth_overflow. assumption. Qed.

Lemma filter_perm {A} (f : A -> bool) l l' : Permutation l l' -> Permutation (filter f l) (filter f l').
Proof.
  induction 1; cbn.
  - constructor.
  - destruct (f x); [constructor|]; assumption.
  - destruct (f x), (f y); try apply Permutation_refl. apply perm_swap.
  - eapply Permutation_trans; eassumption.
Qed.
