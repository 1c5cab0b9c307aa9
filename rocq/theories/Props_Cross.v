(** Property C60: within one batch nobody trades across.  A traded order is one whose open amount
    went down. *)
From Verif Require Import Base Dec DecProofs OrderModel MatchModel MatchSpec OrderProofs MatchProofs MatchLoopProofs MatchBookProofs MatchTop DirectionProofs CrossProofs.

Definition mk (d : dir) (price amt batch : Z) (id : Z) : order :=
  new_order d price amt (offer_coin_amount d price amt) batch (KUser id).
Definition idl := fun l : list (nat * Z) => l.

Definition traded (h h' : list order) (i : nat) : Prop := (i < length h)%nat /\ o_open (get h' i) < o_open (get h i).
(** No traded sell order asks for more than any traded buy order offers. *)
Definition nobody_crosses (h h' : list order) : Prop :=
  forall i j, traded h h' i -> traded h h' j -> o_dir (get h i) = Buy -> o_dir (get h j) = Sell ->
    o_price (get h j) <= o_price (get h i).

Lemma traded_listed iter h h' mp qd d i : is_perm_iter iter -> Forall wf_order h -> match_outcome iter h h' mp qd -> o_dir (get h i) = d -> traded h h' i ->
  In i (flat_map snd (match d with Buy => buys (new_order_book h) | Sell => sells (new_order_book h) end)) /\ changed h h' i.
Proof.
  intros Hi Hw Ho Hd [Hl Ht]. assert (C : changed h h' i) by (intros E; rewrite E in Ht; lia). split; [|exact C].
  destruct (match_outcome_ok _ _ _ _ _ Hi Hw Ho) as (tr & M & _).
  assert (Hin : In i (map f_ptr tr)).
  { destruct (in_dec Nat.eq_dec i (map f_ptr tr)) as [X|X]; [exact X|]. exfalso. apply C. exact (trace_other _ _ _ _ (mr_trace _ _ _ _ _ _ M) X). }
  apply in_map_iff in Hin. destruct Hin as (f & <- & Hf). pose proof (mr_in _ _ _ _ _ _ M f Hf) as X.
  destruct (new_book_contents h) as [(_ & _ & B & _) (_ & _ & S & _)]. apply in_app_iff in X.
  destruct X as [X|X]; destruct d; try exact X; [pose proof (proj1 (B _) X) as (_ & Y & _)|pose proof (proj1 (S _) X) as (_ & Y & _)]; rewrite Y in Hd; discriminate Hd.
Qed.

(** The first batch of a pair, matched at one price. *)
Theorem C60_first_batch : forall iter h p h' qd, is_perm_iter iter -> Forall wf_order h -> 0 < p ->
  match_single iter h (new_order_book h) p = Some (Some (h', qd)) -> nobody_crosses h h'.
Proof.
  intros iter h p h' qd Hi Hw Hp E i j Ti Tj Di Dj. pose proof (MO_single iter h h' p qd Hp E) as Ho.
  destruct (traded_listed iter h h' p qd Buy i Hi Hw Ho Di Ti) as [Li Ci]. destruct (traded_listed iter h h' p qd Sell j Hi Hw Ho Dj Tj) as [Lj Cj].
  apply wf_heap_Forall in Hw. destruct (book_side_wf h Hw) as [HB HS].
  destruct (match_single_cross iter Hi h (new_order_book h) p h' qd Hw Hp HB HS E) as (A & B & _). specialize (A i Li Ci). specialize (B j Lj Cj). lia.
Qed.
Print Assumptions C60_first_batch.

(** Every later batch, if the last price or all sell orders are at least one.
    Missing: batches below price one, where it is false (C60_refuted). *)
Theorem C60_no_cross_partial : forall iter h last h' mp qd, is_perm_iter iter -> Forall wf_order h -> 0 < last ->
  (P18 <= last \/ forall j, (j < length h)%nat -> o_dir (get h j) = Sell -> P18 <= o_price (get h j)) ->
  match_book iter h (new_order_book h) last = Some (h', mp, qd, true) -> nobody_crosses h h'.
Proof.
  intros iter h last h' mp qd Hi Hw Hp Hl E i j Ti Tj Di Dj. pose proof (MO_last iter h h' mp qd last Hp E) as Ho.
  destruct (traded_listed iter h h' mp qd Buy i Hi Hw Ho Di Ti) as [Li Ci]. destruct (traded_listed iter h h' mp qd Sell j Hi Hw Ho Dj Tj) as [Lj Cj].
  apply wf_heap_Forall in Hw. destruct (book_side_wf h Hw) as [HB HS].
  apply (match_book_cross iter Hi h (new_order_book h) last h' mp qd true Hw Hp); try assumption.
  destruct Hl as [Hl|Hl]; [left; exact Hl|right]. intros [x ps] Ht. destruct (new_book_contents h) as [_ (_ & _ & _ & S)].
  destruct (S x ps Ht) as (Ne & _ & S'). destruct ps as [|q ps]; [exfalso; apply Ne; reflexivity|]. destruct (proj1 (S' q) (or_introl eq_refl)) as [(X & Y & _) <-]. exact (Hl q X Y).
Qed.
Print Assumptions C60_no_cross_partial.

Definition half : Z := 500000000000000000.
Definition crossing : list order :=
  [mk Buy half 2 1 1; mk Sell 400000000000000000 4 1 2; mk Buy P18 1 1 3; mk Buy P18 1 1 4; mk Buy P18 1 1 5; mk Sell P18 1 1 6].
Theorem C60_refuted : exists h last h' mp qd, Forall fresh_order h /\ 0 < last /\
  match_book idl h (new_order_book h) last = Some (h', mp, qd, true) /\ ~ nobody_crosses h h'.
Proof.
  exists crossing, half. eexists. eexists. eexists. split; [repeat constructor; vm_compute; try discriminate; auto|].
  split; [reflexivity|]. split; [vm_compute; reflexivity|].
  intros X. assert (T : forall i, (i < 6)%nat -> o_open (get crossing i) <> 0 -> forall h', o_open (get h' i) = 0 -> traded crossing h' i).
  { intros i Hi Hn h' E. split; [exact Hi|]. rewrite E. destruct i as [|[|[|[|[|[|i]]]]]]; [..|lia]; reflexivity. }
  pose proof (X 0%nat 5%nat) as Y. assert (Z : o_price (get crossing 5) <= o_price (get crossing 0)).
  { apply Y; [apply T|apply T|reflexivity|reflexivity]; try (vm_compute; discriminate); try lia; reflexivity. }
  vm_compute in Z. apply Z. reflexivity.
Qed.
Print Assumptions C60_refuted.

(** Satisfiability: a batch above one in which two buy orders and two sell orders trade, the lower buy
    limit meeting the higher sell limit exactly. *)
Definition two_each : list order :=
  [mk Sell 1000000000000000000 1000 1 1; mk Sell 1010000000000000000 500 1 2; mk Sell 1030000000000000000 700 1 3;
   mk Buy 1020000000000000000 900 1 4; mk Buy 1010000000000000000 600 1 5].
Example C60_example : Forall wf_order two_each /\ exists h' mp qd,
  match_book idl two_each (new_order_book two_each) P18 = Some (h', mp, qd, true) /\
  traded two_each h' 0 /\ traded two_each h' 1 /\ ~ traded two_each h' 2 /\ traded two_each h' 3 /\ traded two_each h' 4.
Proof.
  split; [repeat constructor; vm_compute; try discriminate; auto|]. eexists. eexists. eexists. split; [vm_compute; reflexivity|].
  unfold traded. repeat match goal with |- _ /\ _ => split end; try (intros [_ H]; vm_compute in H; discriminate H); try (vm_compute; reflexivity); cbn; lia.
Qed.
Example C60_first_example : exists h' qd, match_single idl two_each (new_order_book two_each) 1010000000000000000 = Some (Some (h', qd)) /\ traded two_each h' 1 /\ traded two_each h' 4.
Proof.
  eexists. eexists. split; [vm_compute; reflexivity|]. unfold traded. repeat match goal with |- _ /\ _ => split end; try (vm_compute; reflexivity); cbn; lia.
Qed.
