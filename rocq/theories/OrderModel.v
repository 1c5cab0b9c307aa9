(** Model of /repo/x/dex/amm/order.go, /repo/x/dex/amm/util.go and the order kinds of
    /repo/x/dex/types/order.go. *)
From Verif Require Import Base Dec.

(** OrderDirection, order.go:17-23. *)
Inductive dir := Buy | Sell.

(** Plumbing of the model. *)
Definition is_buy (d : dir) : bool := match d with Buy => true | Sell => false end.

(** Dynamic type of an [amm.Order]: BaseOrder (order.go:70-81), UserOrder and PoolOrder
    (types/order.go:26-32, 86-91).  The payload is the field used by HasPriority; the remaining
    fields of user and pool orders (addresses, denoms) are resolved in the keeper model by id. *)
Inductive okind := KBase | KUser (id : Z) | KPool (pool_id : Z).

(** BaseOrder, order.go:70-81, plus the batch id of UserOrder (types/order.go:30, 63-65;
    BaseOrder.GetBatchId returns 0, order.go:101-103). *)
Record order := mkOrder {
  o_dir : dir; o_price : dec; o_amt : Z; o_offer : Z;
  o_open : Z; o_paid : Z; o_recv : Z;
  o_batch : Z; o_kind : okind }.

(** NewBaseOrder, order.go:84-94. *)
Definition new_order (d : dir) (price : dec) (amt offer batch : Z) (k : okind) : order :=
  mkOrder d price amt offer amt 0 0 batch k.

(** What a dangling pointer reads in the model; never read from a well formed book. *)
Definition dummy_order : order := mkOrder Buy one_dec 0 0 0 0 0 0 KBase.

(** OfferCoinAmount, util.go:20-29. *)
Definition offer_coin_amount (d : dir) (price : dec) (amt : Z) : Z :=
  match d with
  | Buy => dtrunc (dceil (dmul_int price amt))
  | Sell => amt
  end.

(** MatchableAmount, util.go:33-48. *)
Definition matchable_amount (o : order) (price : dec) : Z :=
  let m := match o_dir o with
           | Buy => Z.min (o_open o) (dtrunc (dquo_trunc (of_int (o_offer o - o_paid o)) price))
           | Sell => o_open o
           end in
  if dtrunc (dmul_int price m) =? 0 then 0 else m.

(** BaseOrder.IsMatched, order.go:143-145. *)
Definition is_matched (o : order) : bool := o_open o <? o_amt o.

(** HasPriority: order.go:149-151 and types/order.go:67-79, 105-117.  Comparing a user/pool order
    with a BaseOrder of equal amount panics in the code (types/order.go:76-77); the keeper never
    mixes them, the model returns [false]. *)
Definition has_priority (a b : order) : bool :=
  match o_kind a with
  | KBase => o_amt b <? o_amt a
  | KUser i =>
      if o_amt a =? o_amt b then
        match o_kind b with KUser j => i <? j | KPool _ => true | KBase => false end
      else o_amt b <? o_amt a
  | KPool i =>
      if o_amt a =? o_amt b then
        match o_kind b with KUser _ => false | KPool j => i <? j | KBase => false end
      else o_amt b <? o_amt a
  end.

(** ** The heap.  Go orders are pointers mutated in place: a pointer is an index into a list. *)
Definition heap := list order.
Definition get (h : heap) (i : nat) : order := nth i h dummy_order.
Fixpoint upd (h : heap) (i : nat) (o : order) : heap :=
  match h, i with
  | [], _ => []
  | _ :: t, O => o :: t
  | x :: t, S k => x :: upd t k o
  end.

(** TotalAmount, util.go:51-57. *)
Definition total_amount (h : heap) (ps : list nat) : Z :=
  fold_left (fun acc p => acc + o_amt (get h p)) ps 0.

(** TotalMatchableAmount, util.go:60-66. *)
Definition total_matchable (h : heap) (ps : list nat) (price : dec) : Z :=
  fold_left (fun acc p => acc + matchable_amount (get h p) price) ps 0.

(** ** sort.Search (Go standard library): binary search over [0,n). *)
Fixpoint search_loop (fuel : nat) (f : Z -> bool) (i j : Z) : Z :=
  match fuel with
  | O => i
  | S k =>
      if i <? j then
        let h := (i + j) / 2 in
        if f h then search_loop k f i h else search_loop k f (h + 1) j
      else i
  end.
Definition go_search (n : Z) (f : Z -> bool) : Z :=
  search_loop (S (S (Z.to_nat (Z.log2 n)))) f 0 n.

(** findFirstTrueCondition, util.go:110-127.  [None] is found=false. *)
Definition find_first_true (start stop : Z) (f : Z -> bool) : option Z :=
  if start <? stop then
    let i := start + go_search (stop - start + 1) (fun i => f (start + i)) in
    if stop <? i then None else Some i
  else
    let i := start - go_search (start - stop + 1) (fun i => f (start - i)) in
    if i <? stop then None else Some i.

(** Insertion of an element at an index: append(l[:i], append([]T{x}, l[i:]...)...), util.go:92, orderbook.go:179. *)
Definition insert_at {A} (i : nat) (x : A) (l : list A) : list A := firstn i l ++ x :: skipn i l.

(** OrderGroup, util.go:69-72. *)
Notation group := (Z * list nat)%type (only parsing).

(** The map lookup of util.go:79 is by batch id: append [p] to the group if it exists. *)
Fixpoint group_append (b : Z) (p : nat) (gs : list group) : option (list group) :=
  match gs with
  | [] => None
  | (b', ps) :: t =>
      if b =? b' then Some ((b', ps ++ [p]) :: t)
      else match group_append b p t with Some t' => Some ((b', ps) :: t') | None => None end
  end.

(** Loop body of GroupOrdersByBatchId, util.go:78-95. *)
Definition group_step (h : heap) (gs : list group) (p : nat) : list group :=
  let b := o_batch (get h p) in
  match group_append b p gs with
  | Some gs' => gs'
  | None =>
      let i := go_search (Z.of_nat (length gs)) (fun i =>
                 let gb := fst (nth (Z.to_nat i) gs (0, [])) in
                 if b =? 0 then gb =? 0 else if gb =? 0 then true else b <=? gb) in
      insert_at (Z.to_nat i) (b, [p]) gs
  end.

(** GroupOrdersByBatchId, util.go:76-97. *)
Definition group_by_batch (h : heap) (ps : list nat) : list group :=
  fold_left (group_step h) ps [].

(** SortOrders, util.go:100-104: a stable sort; modelled by stable insertion. *)
Fixpoint insert_sorted (h : heap) (p : nat) (l : list nat) : list nat :=
  match l with
  | [] => [p]
  | q :: t => if has_priority (get h p) (get h q) then p :: q :: t
              else q :: insert_sorted h p t
  end.
Definition sort_orders (h : heap) (ps : list nat) : list nat :=
  fold_left (fun acc p => insert_sorted h p acc) ps [].
