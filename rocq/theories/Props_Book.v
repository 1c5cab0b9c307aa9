(** * C92: asking the order book for a price gives exactly the orders added at that price *)
From Verif Require Import Base Dec TickModel OrderModel MatchModel MatchSpec KeyedProofs BookModel MatchTop KeeperOrders.
From Coq Require Import Sorted.

Lemma ticks_at_keyed (inc : bool) (k : nat -> Z) ps ts x : keyed (tick_order inc) k ps ts -> ticks_at inc ts x = filter (fun p => k p =? x) ps.
Proof.
  intros (ks & Hs & Hin & ->). unfold ticks_at, find_price. cbv zeta. rewrite map_length.
  set (f := fun i : Z => if inc then x <=? fst (nth (Z.to_nat i) (map (bucket k ps) ks) (0, [])) else fst (nth (Z.to_nat i) (map (bucket k ps) ks) (0, [])) <=? x).
  assert (Hn : forall i, 0 <= i < Z.of_nat (length ks) -> nth (Z.to_nat i) (map (bucket k ps) ks) (0, []) = bucket k ps (nth (Z.to_nat i) ks 0)).
  { intros i Hi. rewrite (nth_indep _ (0, []) (bucket k ps 0)) by (rewrite map_length; lia). apply map_nth. }
  assert (Hf : forall i, 0 <= i < Z.of_nat (length ks) -> f i = if inc then x <=? nth (Z.to_nat i) ks 0 else nth (Z.to_nat i) ks 0 <=? x).
  { intros i Hi. unfold f. rewrite Hn by assumption. reflexivity. }
  destruct (go_search_mono (Z.of_nat (length ks)) f ltac:(lia)) as (A & B & C).
  { intros i j Hi Hj Fi. rewrite Hf in * by lia. destruct (Z.eq_dec i j) as [<-|N]; [exact Fi|]. pose proof (sorted_nth _ ks 0 (Z.to_nat i) (Z.to_nat j) Hs ltac:(lia) ltac:(lia)) as HR. unfold tick_order in HR. destruct inc; lia. }
  set (r := go_search (Z.of_nat (length ks)) f) in *. repeat match goal with |- context[go_search ?n ?g] => change (go_search n g) with r end.
  assert (None_at : ~ In x ks -> [] = filter (fun p => k p =? x) ps).
  { intros N. symmetry. apply filter_none. intros p Hp. apply Z.eqb_neq. intros E. apply N. apply Hin. exists p. auto. }
  assert (Before : forall j, (j < length ks)%nat -> Z.of_nat j < r -> nth j ks 0 <> x).
  { intros j Hj Hr E. pose proof (B (Z.of_nat j) ltac:(lia)) as F. rewrite Hf in F by lia. rewrite Nat2Z.id, E in F. destruct inc; rewrite Z.leb_refl in F; discriminate F. }
  destruct (Z.ltb_spec r (Z.of_nat (length ks))) as [Hr|Hr]; cbn [andb].
  - rewrite Hn by lia. cbn [bucket fst snd]. destruct (Z.eqb_spec (nth (Z.to_nat r) ks 0) x) as [E|Hne]; [rewrite E; reflexivity|]. apply None_at. intros Hx. destruct (In_nth _ _ 0 Hx) as (j & Hj & E).
    destruct (Z.lt_ge_cases (Z.of_nat j) r) as [L|G]; [exact (Before j Hj L E)|]. destruct (Nat.eq_dec j (Z.to_nat r)) as [->|Nj]; [contradiction|].
    pose proof (sorted_nth _ ks 0 (Z.to_nat r) j Hs ltac:(lia) ltac:(lia)) as HR. pose proof (C r ltac:(lia)) as F. rewrite Hf in F by lia. rewrite E in HR. unfold tick_order in HR. destruct inc; lia.
  - apply None_at. intros Hx. destruct (In_nth _ _ 0 Hx) as (j & Hj & E). exact (Before j Hj ltac:(lia) E).
Qed.

(** [placed h d x p]: the [p]-th order handed to the book is on side [d], priced [x], and big enough to be
    taken in (an order worth less than one unit of the quote coin at its own price is not). *)
Definition placed (h : heap) (d : dir) (x : dec) (p : nat) : bool :=
  match d, o_dir (get h p) with Buy, Buy => true | Sell, Sell => true | _, _ => false end && (0 <? matchable_amount (get h p) (o_price (get h p))) && (o_price (get h p) =? x).

(** For every list of orders and every price: exactly the orders of that side and price, in the order they
    were added; none for a price nobody gave. *)
Theorem C92_orders_at : forall h x,
  buy_orders_at (new_order_book h) x = filter (placed h Buy x) (seq 0 (length h)) /\ sell_orders_at (new_order_book h) x = filter (placed h Sell x) (seq 0 (length h)).
Proof.
  assert (F : forall h d x l, filter (fun p => o_price (get h p) =? x) (filter (listed h d) l) = filter (placed h d x) l).
  { intros h d x l. induction l as [|p l IH]; [reflexivity|]. cbn [filter]. unfold placed at 1, listed at 1. rewrite <- IH. rewrite (andb_comm (match d with Buy => _ | Sell => _ end)).
    destruct ((0 <? matchable_amount (get h p) (o_price (get h p))) && match d with Buy => match o_dir (get h p) with Buy => true | Sell => false end | Sell => match o_dir (get h p) with Buy => false | Sell => true end end); cbn [andb filter]; reflexivity. }
  intros h x. destruct (new_order_book_ok h) as [KB KS]. unfold buy_orders_at, sell_orders_at. rewrite (ticks_at_keyed _ _ _ _ x KB), (ticks_at_keyed _ _ _ _ x KS). split; apply F.
Qed.
Print Assumptions C92_orders_at.

(** [taken_in h p]: the same on either side and at any price. *)
Definition taken_in (h : heap) (p : nat) : Prop := (p < length h)%nat /\ 0 < matchable_amount (get h p) (o_price (get h p)).

Lemma taken_side h p : taken_in h p <-> on_side h Buy p \/ on_side h Sell p.
Proof. unfold taken_in, on_side. destruct (o_dir (get h p)); split; [intros (A & B); left; auto|intros [(A & _ & B)|(A & _ & B)]; auto|intros (A & B); right; auto|intros [(A & _ & B)|(A & _ & B)]; auto]. Qed.

(** All the orders of the book: every one taken in, once. *)
Theorem C92_orders : forall h, NoDup (book_orders (new_order_book h)) /\ forall p, In p (book_orders (new_order_book h)) <-> taken_in h p.
Proof.
  intros h. split; [apply book_ptrs|]. intros p. unfold book_orders. rewrite flat_map_app, in_app_iff, taken_side. destruct (new_book_contents h) as [(_ & _ & B & _) (_ & _ & S & _)]. rewrite B, S. reflexivity.
Qed.
Print Assumptions C92_orders.

Lemma side_bounds h d (R : Z -> Z -> Prop) ts : side_contents h d R ts ->
  (forall p, on_side h d p -> In (o_price (get h p)) (map fst ts)) /\ (forall x, In x (map fst ts) -> exists p, on_side h d p /\ o_price (get h p) = x).
Proof.
  intros (_ & _ & B & C). split.
  - intros p Hp. apply B in Hp. apply in_flat_map in Hp. destruct Hp as ([x ps] & Ht & Hp). destruct (C x ps Ht) as (_ & _ & H). cbn in Hp. pose proof (proj1 (H p) Hp) as (_ & E). rewrite E. apply in_map_iff. exists (x, ps). auto.
  - intros x Hx. apply in_map_iff in Hx. destruct Hx as ([y ps] & E & Ht). cbn in E. subst y. destruct (C x ps Ht) as (N & _ & H). destruct ps as [|p ps]; [contradiction|]. exists p. apply (H p). cbn. auto.
Qed.
Lemma side_first h d (R : Z -> Z -> Prop) ts : side_contents h d R ts ->
  match first_price ts with None => forall p, ~ on_side h d p | Some x => (exists p, on_side h d p /\ o_price (get h p) = x) /\ forall p, on_side h d p -> o_price (get h p) = x \/ R x (o_price (get h p)) end.
Proof.
  intros H. destruct (side_bounds h d R ts H) as (P & Q). destruct H as (Srt & _). destruct ts as [|[x ps] ts]; cbn [first_price].
  - intros p Hp. exact (P p Hp).
  - cbn [fst]. split; [apply Q; cbn; auto|]. intros p Hp. apply P in Hp. cbn in Hp, Srt. destruct Hp as [E|Hp]; [left; congruence|right]. inversion Srt as [|? ? _ F]. subst. rewrite Forall_forall in F. exact (F _ Hp).
Qed.
Lemma last_cases {A} (l : list A) d : l = [] \/ exists l1, l = l1 ++ [last l d].
Proof. destruct l as [|x l]; [auto|]. right. exists (removelast (x :: l)). apply app_removelast_last. discriminate. Qed.
Lemma last_before (R : Z -> Z -> Prop) l x : StronglySorted R (l ++ [x]) -> forall y, In y l -> R y x.
Proof.
  induction l as [|z l IH]; intros Hs y Hy; [destruct Hy|]. cbn in Hs. inversion Hs as [|? ? S F]. subst. rewrite Forall_forall in F. destruct Hy as [->|Hy]; [apply F, in_app_iff; right; cbn; auto|exact (IH S y Hy)].
Qed.
Lemma side_last h d (R : Z -> Z -> Prop) ts : side_contents h d R ts ->
  match last_tick_price ts with None => forall p, ~ on_side h d p | Some x => (exists p, on_side h d p /\ o_price (get h p) = x) /\ forall p, on_side h d p -> o_price (get h p) = x \/ R (o_price (get h p)) x end.
Proof.
  intros H. destruct (side_bounds h d R ts H) as (P & Q). destruct H as (Srt & _). destruct ts as [|t ts]; cbn [last_tick_price].
  - intros p Hp. exact (P p Hp).
  - assert (E : exists l, t :: ts = l ++ [last ts t]). { destruct (last_cases ts t) as [->|(l & E)]; [exists []; reflexivity|]. exists (t :: l). cbn. rewrite <- E. reflexivity. }
    destruct E as (l & E). rewrite E, map_app in *. cbn [map] in *. split; [apply Q; apply in_app_iff; right; cbn; auto|]. intros p Hp. apply P in Hp. apply in_app_iff in Hp. destruct Hp as [Hp|[Hp|[]]]; [right; exact (last_before R _ _ Srt _ Hp)|left; congruence].
Qed.

(** The highest and the lowest price of the book: some order taken in has it, and no order is priced above
    (below) it; there is none exactly when the book is empty. *)
Theorem C92_extremes : forall h,
  match book_highest_price (new_order_book h) with
  | None => forall p, ~ taken_in h p
  | Some x => (exists p, taken_in h p /\ o_price (get h p) = x) /\ forall p, taken_in h p -> o_price (get h p) <= x end /\
  match book_lowest_price (new_order_book h) with
  | None => forall p, ~ taken_in h p
  | Some x => (exists p, taken_in h p /\ o_price (get h p) = x) /\ forall p, taken_in h p -> x <= o_price (get h p) end.
Proof.
  intros h. destruct (new_book_contents h) as [B S]. pose proof (side_first _ _ _ _ B) as B1. pose proof (side_last _ _ _ _ B) as B2. pose proof (side_first _ _ _ _ S) as S1. pose proof (side_last _ _ _ _ S) as S2. clear B S.
  unfold book_highest_price, book_lowest_price, buys_highest, sells_highest, buys_lowest, sells_lowest.
  assert (N : forall p, ~ on_side h Buy p -> ~ on_side h Sell p -> ~ taken_in h p) by (intros p X Y Z; apply taken_side in Z; tauto).
  split.
  - destruct (first_price (buys (new_order_book h))) as [b|], (last_tick_price (sells (new_order_book h))) as [s|].
    + destruct B1 as ((p & P1 & P2) & P3), S2 as ((q & Q1 & Q2) & Q3). split.
      * destruct (Z.max_spec b s) as [(_ & ->)|(_ & ->)]; [exists q|exists p]; rewrite taken_side; auto.
      * intros r Hr. apply taken_side in Hr. destruct Hr as [Hr|Hr]; [specialize (P3 r Hr)|specialize (Q3 r Hr)]; lia.
    + destruct B1 as ((p & P1 & P2) & P3). split; [exists p; rewrite taken_side; auto|]. intros r Hr. apply taken_side in Hr. destruct Hr as [Hr|Hr]; [specialize (P3 r Hr); lia|destruct (S2 r Hr)].
    + destruct S2 as ((p & P1 & P2) & P3). split; [exists p; rewrite taken_side; auto|]. intros r Hr. apply taken_side in Hr. destruct Hr as [Hr|Hr]; [destruct (B1 r Hr)|specialize (P3 r Hr); lia].
    + intros p. apply N; auto.
  - destruct (last_tick_price (buys (new_order_book h))) as [b|], (first_price (sells (new_order_book h))) as [s|].
    + destruct B2 as ((p & P1 & P2) & P3), S1 as ((q & Q1 & Q2) & Q3). split.
      * destruct (Z.min_spec b s) as [(_ & ->)|(_ & ->)]; [exists p|exists q]; rewrite taken_side; auto.
      * intros r Hr. apply taken_side in Hr. destruct Hr as [Hr|Hr]; [specialize (P3 r Hr)|specialize (Q3 r Hr)]; lia.
    + destruct B2 as ((p & P1 & P2) & P3). split; [exists p; rewrite taken_side; auto|]. intros r Hr. apply taken_side in Hr. destruct Hr as [Hr|Hr]; [specialize (P3 r Hr); lia|destruct (S1 r Hr)].
    + destruct S1 as ((p & P1 & P2) & P3). split; [exists p; rewrite taken_side; auto|]. intros r Hr. apply taken_side in Hr. destruct Hr as [Hr|Hr]; [destruct (B2 r Hr)|specialize (P3 r Hr); lia].
    + intros p. apply N; auto.
Qed.
Print Assumptions C92_extremes.

Example C92_example : let h := [new_order Buy one_dec 1000 1000 1 (KUser 1); new_order Sell one_dec 500 500 1 (KUser 2); new_order Buy (2 * one_dec) 10 20 1 (KUser 3); new_order Buy one_dec 7 7 1 (KUser 4); new_order Buy (one_dec / 10) 3 1 1 (KUser 5)] in
  (buy_orders_at (new_order_book h) one_dec, buy_orders_at (new_order_book h) (2 * one_dec), buy_orders_at (new_order_book h) (3 * one_dec), sell_orders_at (new_order_book h) one_dec, buy_orders_at (new_order_book h) (one_dec / 10)) = ([0%nat; 3%nat], [2%nat], [], [1%nat], []) /\
  (book_orders (new_order_book h), book_highest_price (new_order_book h), book_lowest_price (new_order_book h)) = ([2; 0; 3; 1]%nat, Some (2 * one_dec), Some one_dec).
Proof. vm_compute. split; reflexivity. Qed.
