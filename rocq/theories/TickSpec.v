(** Specification of the tick grid, independent of the code. *)
From Verif Require Import Base.

(** A positive raw price is on the grid of precision [prec] when it is [m * 10^e] with a mantissa
    of at most [prec+1] decimal digits. *)
Definition is_tick (prec v : Z) : Prop :=
  exists m e, 0 < m < 10 ^ (prec + 1) /\ 0 <= e /\ v = m * 10 ^ e.

Definition greatest_tick_le (prec price t : Z) : Prop :=
  is_tick prec t /\ t <= price /\ forall u, is_tick prec u -> u <= price -> u <= t.
Definition least_tick_ge (prec price t : Z) : Prop :=
  is_tick prec t /\ price <= t /\ forall u, is_tick prec u -> price <= u -> t <= u.
Definition greatest_tick_lt (prec price t : Z) : Prop :=
  is_tick prec t /\ t < price /\ forall u, is_tick prec u -> u < price -> u <= t.
Definition least_tick_gt (prec price t : Z) : Prop :=
  is_tick prec t /\ price < t /\ forall u, is_tick prec u -> price < u -> t <= u.
