(** Specification vocabulary for matching: what a well formed order is and what it means for an
    order to have been filled legally.  Independent of the matching code. *)
From Verif Require Import Base Dec OrderModel.

(** Quote coin value of [amt] base coins at raw price [p]: exact value is [p*amt/10^18]. *)
Definition ceil_value (p amt : Z) : Z := - ((- (p * amt)) / P18).
Definition floor_value (p amt : Z) : Z := (p * amt) / P18.

(** State of an order during matching.
    A seller pays base coin one for one; a buyer receives base coin one for one. *)
Definition wf_order (o : order) : Prop :=
  0 < o_price o /\ 0 <= o_open o <= o_amt o /\ 0 <= o_paid o <= o_offer o /\ 0 <= o_recv o /\
  match o_dir o with
  | Buy => o_recv o = o_amt o - o_open o
  | Sell => o_paid o = o_amt o - o_open o /\ o_amt o <= o_offer o
  end.

(** A freshly submitted order: nothing filled, a sell order offers at least its amount. *)
Definition fresh_order (o : order) : Prop :=
  0 < o_price o /\ 0 <= o_amt o /\ o_open o = o_amt o /\ 0 <= o_offer o /\ o_paid o = 0 /\ o_recv o = 0 /\
  match o_dir o with Buy => True | Sell => o_amt o <= o_offer o end.

(** The price is no worse than the order's limit. *)
Definition accepts (o : order) (p : dec) : Prop :=
  match o_dir o with Buy => p <= o_price o | Sell => o_price o <= p end.

(** [o'] is [o] after the fills [fs] (amount, price): each fill has a positive amount, respects
    the limit, and is paid for: buyers pay the value rounded up, sellers get it rounded down. *)
Definition filled_by (o : order) (fs : list (Z * dec)) (o' : order) : Prop :=
  Forall (fun f => 0 < fst f /\ 0 < snd f /\ accepts o (snd f)) fs /\
  o_dir o' = o_dir o /\ o_price o' = o_price o /\ o_amt o' = o_amt o /\ o_offer o' = o_offer o /\
  o_batch o' = o_batch o /\ o_kind o' = o_kind o /\
  o_open o' = o_open o - sumZ (map fst fs) /\
  o_paid o' = o_paid o + sumZ (map (fun f => match o_dir o with Buy => ceil_value (snd f) (fst f) | Sell => fst f end) fs) /\
  o_recv o' = o_recv o + sumZ (map (fun f => match o_dir o with Buy => fst f | Sell => floor_value (snd f) (fst f) end) fs).

(** Totals over a set of orders before/after. *)
Definition buys_received (h h' : list order) : Z :=
  sumZ (map (fun oo => match o_dir (fst oo) with Buy => o_recv (snd oo) - o_recv (fst oo) | Sell => 0 end) (combine h h')).
Definition buys_paid (h h' : list order) : Z :=
  sumZ (map (fun oo => match o_dir (fst oo) with Buy => o_paid (snd oo) - o_paid (fst oo) | Sell => 0 end) (combine h h')).
Definition sells_paid (h h' : list order) : Z :=
  sumZ (map (fun oo => match o_dir (fst oo) with Sell => o_paid (snd oo) - o_paid (fst oo) | Buy => 0 end) (combine h h')).
Definition sells_received (h h' : list order) : Z :=
  sumZ (map (fun oo => match o_dir (fst oo) with Sell => o_recv (snd oo) - o_recv (fst oo) | Buy => 0 end) (combine h h')).
