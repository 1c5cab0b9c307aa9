(** What the order book query should show: specification side of C51 and C57. *)
From Verif Require Import Base OrderModel.

(** resting buy orders at [p] or better, sell orders at [p] or better (amounts still matchable at their own price) *)
Definition resting_buys (h : list order) (p : Z) : Z :=
  sumZ (map (fun o => if is_buy (o_dir o) && (p <=? o_price o) then matchable_amount o (o_price o) else 0) h).
Definition resting_sells (h : list order) (p : Z) : Z :=
  sumZ (map (fun o => if negb (is_buy (o_dir o)) && (o_price o <=? p) then matchable_amount o (o_price o) else 0) h).
Definition all_buys (h : list order) : Z := sumZ (map (fun o => if is_buy (o_dir o) then matchable_amount o (o_price o) else 0) h).
Definition all_sells (h : list order) : Z := sumZ (map (fun o => if negb (is_buy (o_dir o)) then matchable_amount o (o_price o) else 0) h).

(** [m] is the largest amount that can trade at one price *)
Definition exec_volume (h : list order) (m : Z) : Prop :=
  (exists p, m = Z.min (resting_buys h p) (resting_sells h p)) /\ forall p, Z.min (resting_buys h p) (resting_sells h p) <= m.

(** what is left at [p] or better when the best [m] have traded *)
Definition left_buys (h : list order) (m p : Z) : Z := Z.max 0 (resting_buys h p - m).
Definition left_sells (h : list order) (m p : Z) : Z := Z.max 0 (resting_sells h p - m).

(** Rows of one side.  [key] of a price is larger the worse the price; [cum k] the amount offered at keys up to [k].
    The rows are the best [n] of the non empty units with key at most [limit], in order from the best, each with its whole amount;
    the unit with key [k] collects everything with a key in (k - u, k]. *)
Record unit_rows (cum : Z -> Z) (limit u n : Z) (rows : list (Z * Z)) : Prop := {
  ur_count : Z.of_nat (length rows) <= Z.max 0 n;
  ur_row : forall k a, In (k, a) rows -> k mod u = 0 /\ k <= limit /\ 0 < a /\ a = cum k - cum (k - u);
  ur_best_first : forall i j k a l b, (i < j)%nat -> nth_error rows i = Some (k, a) -> nth_error rows j = Some (l, b) -> k < l;
  ur_complete : forall k, k mod u = 0 -> k <= limit -> 0 < cum k - cum (k - u) ->
    In (k, cum k - cum (k - u)) rows \/ Z.of_nat (length rows) = Z.max 0 n /\ forall l b, In (l, b) rows -> l < k }.

(** What the query puts on display: what is left when the executable volume has traded, except that a book whose two
    sides trade completely is displayed as if nothing had traded (see C57_refuted). *)
Definition trades_completely (h : list order) (m : Z) : bool := (m =? all_buys h) && (m =? all_sells h).
Definition shown_buys (h : list order) (m p : Z) : Z := if trades_completely h m then resting_buys h p else left_buys h m p.
Definition shown_sells (h : list order) (m p : Z) : Z := if trades_completely h m then resting_sells h p else left_sells h m p.

(** the best displayed prices *)
Definition best_buy (cum : Z -> Z) (x : Z) : Prop := forall p, 0 < cum p <-> p <= x.
Definition best_sell (cum : Z -> Z) (x : Z) : Prop := forall p, 0 < cum p <-> x <= p.
