(** C94: the sequence in which orders reach the book does not matter. *)
From Verif Require Import Base Dec OrderModel MatchModel MatchSpec OrderProofs FairSpec ArrivalSpec MatchProofs MatchTop MatchFair ArrivalProofs.
From Coq Require Import Permutation.

(** The book NewOrderBook builds is the one that gets the orders in the sequence of the list. *)
Remark new_book_is_book_of : forall h, new_order_book h = book_of h (seq 0 (length h)).
Proof. reflexivity. Qed.

(** The same orders of users and pools, no two rivals under one name, added in any sequence: depth, single price
    match and match are the same, order by order. *)
Theorem C94_any_sequence : forall iter1 iter2 h ps qs, is_perm_iter iter1 -> is_perm_iter iter2 -> NoDup ps -> Permutation ps qs ->
  (forall p, In p ps -> owned (get h p)) ->
  (forall p q, In p ps -> In q ps -> p <> q -> rivals (get h p) (get h q) -> o_kind (get h p) <> o_kind (get h q)) ->
  make_view h (book_of h ps) = make_view h (book_of h qs) /\
  (forall price, match_single iter1 h (book_of h ps) price = match_single iter2 h (book_of h qs) price) /\
  (forall last, match_book iter1 h (book_of h ps) last = match_book iter2 h (book_of h qs) last).
Proof.
  intros i1 i2 h ps qs H1 H2 ND P O N. pose proof (twins_refl h) as T.
  pose proof (books_of h h ps qs T ND P O O (comparable_names h ps O N)) as B. destruct (books_nodup _ _ _ _ B) as (N1 & N2 & N3 & N4).
  split; [exact (view_same h h _ _ T B)|]. split; intros x.
  - rewrite (match_single_iter i1 H1) by assumption. rewrite (match_single_iter i2 H2) by assumption. pose proof (match_single_same h h _ _ x T B) as M. fold idm.
    destruct (match_single idm h (book_of h ps) x) as [[[a d]|]|] eqn:E1, (match_single idm h (book_of h qs) x) as [[[a2 d2]|]|] eqn:E2; cbn in M; try tauto.
    destruct M as [M <-]. rewrite (twins_eq h a a2 (match_single_static _ _ _ _ _ _ E1) (match_single_static _ _ _ _ _ _ E2) M). reflexivity.
  - rewrite (match_book_iter i1 H1) by assumption. rewrite (match_book_iter i2 H2) by assumption. pose proof (match_book_same h h _ _ x T B) as M. fold idm.
    destruct (match_book idm h (book_of h ps) x) as [[[[a p] d] m]|] eqn:E1, (match_book idm h (book_of h qs) x) as [[[[a2 p2] d2] m2]|] eqn:E2; cbn in M; try tauto.
    destruct M as (M & <- & <- & <-). rewrite (twins_eq h a a2 (match_book_static _ _ _ _ _ _ _ _ E1) (match_book_static _ _ _ _ _ _ _ _ E2) M). reflexivity.
Qed.
Print Assumptions C94_any_sequence.

(** Who asked first does not matter: give the orders other ids and another sequence.  If no two rivals are for the
    same amount, every order is filled, charged and paid the same, at the same price, with the same leftover. *)
Theorem C94_any_names : forall iter1 iter2 h h2 ps qs last, is_perm_iter iter1 -> is_perm_iter iter2 -> twins h h2 -> NoDup ps -> Permutation ps qs ->
  (forall p, In p ps -> owned (get h p)) -> (forall p, In p ps -> owned (get h2 p)) ->
  (forall p q, In p ps -> In q ps -> p <> q -> rivals (get h p) (get h q) -> o_amt (get h p) <> o_amt (get h q)) ->
  match match_book iter1 h (book_of h ps) last, match_book iter2 h2 (book_of h2 qs) last with
  | Some (h', price, left_over, matched), Some (h2', price2, left_over2, matched2) =>
      twins h' h2' /\ price = price2 /\ left_over = left_over2 /\ matched = matched2
  | None, None => True
  | _, _ => False
  end.
Proof.
  intros i1 i2 h h2 ps qs last H1 H2 T ND P O O2 N.
  pose proof (books_of h h2 ps qs T ND P O O2 (comparable_amounts h h2 ps T N)) as B. destruct (books_nodup _ _ _ _ B) as (N1 & N2 & N3 & N4).
  rewrite (match_book_iter i1 H1) by assumption. rewrite (match_book_iter i2 H2) by assumption. exact (match_book_same h h2 _ _ last T B).
Qed.
Print Assumptions C94_any_names.

(** Two buyers and two sellers at one price, and one better buyer. *)
Definition five (k : Z -> Z) : heap :=
  [new_order Buy P18 1000 1000 1 (KUser (k 1)); new_order Buy P18 700 700 1 (KUser (k 2)); new_order Sell P18 901 901 1 (KUser (k 3));
   new_order Sell P18 300 300 1 (KUser (k 4)); new_order Buy (2 * P18) 150 300 1 (KPool 1)].
Example C94_example :
  let h := five (fun i => i) in let h2 := five (fun i => 9 - i) in
  book_of h [4; 2; 1; 3; 0]%nat <> book_of h [0; 1; 2; 3; 4]%nat /\ twins h h2 /\
  (forall p, In p [0; 1; 2; 3; 4]%nat -> owned (get h p) /\ owned (get h2 p)) /\
  (forall p q, In p [0; 1; 2; 3; 4]%nat -> In q [0; 1; 2; 3; 4]%nat -> p <> q -> rivals (get h p) (get h q) -> o_amt (get h p) <> o_amt (get h q)) /\
  match match_book (fun l => l) h (book_of h [0; 1; 2; 3; 4]%nat) P18 with
  | Some (h', _, _, true) => map o_open h' = [381; 268; 0; 0; 0] | _ => False end.
Proof.
  cbv zeta. split; [vm_compute; discriminate|]. split.
  { split; [reflexivity|]. intros p. destruct (Nat.lt_ge_cases p 5) as [L|L]; [|rewrite !get_out by exact L; apply twin_refl].
    do 5 (destruct p as [|p]; [repeat split|]). lia. }
  split.
  { intros p Hp. cbn [In] in Hp. repeat (destruct Hp as [<-|Hp]; [split; discriminate|]). destruct Hp. }
  split.
  { intros p q Hp Hq. cbn [In] in Hp, Hq.
    repeat (destruct Hp as [<-|Hp]; [repeat (destruct Hq as [<-|Hq]; [intros N (D & X & _); first [congruence|discriminate D|(vm_compute in X; discriminate X)|(vm_compute; discriminate)]|]); destruct Hq|]). destruct Hp. }
  vm_compute. reflexivity.
Qed.

(** Rivals under the same name and for the same amount: the one added first gets the odd coin. *)
Definition tied : heap := [new_order Buy P18 1000 1000 1 KBase; new_order Buy P18 1000 1000 1 KBase; new_order Sell P18 999 999 1 KBase].
Example C94_tie_example :
  match match_book (fun l => l) tied (book_of tied [0; 1; 2]%nat) P18, match_book (fun l => l) tied (book_of tied [1; 0; 2]%nat) P18 with
  | Some (a, _, _, _), Some (b, _, _, _) => map o_open a = [500; 501; 0] /\ map o_open b = [501; 500; 0] | _, _ => False end.
Proof. vm_compute. split; reflexivity. Qed.
