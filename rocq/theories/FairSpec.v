(** Who goes first among orders of one price and batch: the order with the larger amount; among equal
    amounts users before pools and the lower id first. *)
From Verif Require Import Base Dec OrderModel.

Definition goes_first (a b : order) : Prop :=
  o_amt b < o_amt a \/
  o_amt a = o_amt b /\ match o_kind a, o_kind b with
                       | KUser i, KUser j => i < j
                       | KUser _, KPool _ => True
                       | KPool i, KPool j => i < j
                       | _, _ => False
                       end.
(** An order of a user or of a pool. *)
Definition owned (o : order) : Prop := o_kind o <> KBase.
(** What order [q] was filled between two states of the orders. *)
Definition got (h h' : heap) (q : nat) : Z := o_open (get h q) - o_open (get h' q).
