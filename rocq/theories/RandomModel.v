(** RandomTick, amm/tick.go:210-219.  [draw n] is what r.Intn(n) returns for the random source in the state it
    is in: some number from 0 to n-1; Intn panics on n <= 0. *)
From Verif Require Import Base Dec TickModel.

(** RandomTick, amm/tick.go:210-219. *)
Definition random_tick (draw : Z -> Z) (min_price max_price : dec) (prec : Z) : res dec :=
  let! lo := price_to_up_tick_chk min_price prec in
  let! hi := price_to_down_tick_chk max_price prec in
  let i := tick_to_index lo prec in
  let j := tick_to_index hi prec in
  if j - i <=? 0 then Panic else Ok (tick_from_index (i + draw (j - i)) prec).
