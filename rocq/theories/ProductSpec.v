(** Vocabulary for the constant product of a basic pool whose orders are filled (C30). *)
From Verif Require Import Base Dec DecProofs TickModel OrderModel MatchSpec OrderProofs.

(** Reserves are at most B^2 coins and the price at most C^2, with 16 (B + C)^2 at most E * 10^18: the
    error E is one coin while B + C is at most 2.5 * 10^8 (reserves up to about 10^16 coins). *)
Definition sized (rx ry : Z) (price : dec) (E : Z) : Prop :=
  exists B C, 1 <= B /\ 1 <= C /\ rx <= B * B /\ ry <= B * B /\ price <= C * C * P18 /\ 16 * ((B + C) * (B + C)) <= E * P18.

(** ** Fills of the orders a pool hands to the matching engine: order by order a list of fills (base
    amount, price).  Any order may be filled, in any part and in any number of fills. *)
Definition base_sum (fs : list (Z * dec)) : Z := sumZ (map fst fs).
Definition cost_sum (fs : list (Z * dec)) : Z := sumZ (map (fun f => ceil_value (snd f) (fst f)) fs).
Definition gain_sum (fs : list (Z * dec)) : Z := sumZ (map (fun f => floor_value (snd f) (fst f)) fs).
(** Over all orders: base coins, quote coins paid or received, number of fills. *)
Definition base_all (fss : list (list (Z * dec))) : Z := sumZ (map base_sum fss).
Definition cost_all (fss : list (list (Z * dec))) : Z := sumZ (map cost_sum fss).
Definition gain_all (fss : list (list (Z * dec))) : Z := sumZ (map gain_sum fss).
Definition fills_all (fss : list (list (Z * dec))) : Z := sumZ (map (fun fs => Z.of_nat (length fs)) fss).
(** The pool buys: no fill above the order's price, no more than its amount, not more paid than it offered. *)
Definition bought (os : list (dec * Z)) (fss : list (list (Z * dec))) : Prop :=
  Forall2 (fun o fs => Forall (fun f => 0 < fst f /\ 0 < snd f <= fst o) fs /\ base_sum fs <= snd o /\ cost_sum fs <= ceil_value (fst o) (snd o)) os fss.
(** The pool sells: no fill below the order's price, no more than its amount. *)
Definition sold (os : list (dec * Z)) (fss : list (list (Z * dec))) : Prop :=
  Forall2 (fun o fs => Forall (fun f => 0 < fst f /\ fst o <= snd f) fs /\ base_sum fs <= snd o) os fss.
