(** Model of /repo/x/dex/amm/tick.go. Prices are raw decimals, [prec] is the tick precision.
    Simplification: int64 arithmetic on tick indices is unbounded [Z]. *)
From Verif Require Import Base Dec.

(** Number of decimal digits, big.Int.Text(10) of a non negative number has this length. *)
Fixpoint ndigits_fuel (fuel : nat) (x : Z) : Z :=
  match fuel with
  | O => 1
  | S k => if x <? 10 then 1 else 1 + ndigits_fuel k (x / 10)
  end.
Definition ndigits (x : Z) : Z := ndigits_fuel (S (Z.to_nat (Z.log2 x))) x.

(** char, tick.go:60-65; the text of a negative number has a sign.  The panic for 0 is in the [_chk]
    variants below. *)
Definition char (x : dec) : Z := if x <? 0 then ndigits (- x) else ndigits x - 1.

(** pow10, tick.go:68-72: big.Int.Exp yields 1 for a non positive exponent. *)
Definition pow10 (n : Z) : dec := if n <=? 0 then 1 else 10 ^ n.

(** isPow10, tick.go:75-93. *)
Fixpoint is_pow10_loop (fuel : nat) (b : Z) : bool :=
  match fuel with
  | O => false
  | S k => if 10 <=? b then (if b mod 10 =? 0 then is_pow10_loop k (b / 10) else false)
           else b =? 1
  end.
Definition is_pow10 (x : dec) : bool :=
  if x <=? 0 then false
  else if x =? 10 then true
  else is_pow10_loop (S (Z.to_nat (Z.log2 x))) x.

(** PriceToDownTick, tick.go:96-106, for a positive price. *)
Definition price_to_down_tick (price : dec) (prec : Z) : dec :=
  let l := char price in
  let d := l - prec in
  if 0 <? d then Z.quot price (10 ^ d) * 10 ^ d else price.

(** UpTick, tick.go:119-127. *)
Definition up_tick (price : dec) (prec : Z) : dec :=
  let tick := price_to_down_tick price prec in
  if tick =? price then price + pow10 (char price - prec)
  else tick + pow10 (char tick - prec).

(** PriceToUpTick, tick.go:110-116. *)
Definition price_to_up_tick (price : dec) (prec : Z) : dec :=
  let tick := price_to_down_tick price prec in
  if tick =? price then tick else up_tick tick prec.

(** DownTick, tick.go:131-144. *)
Definition down_tick (price : dec) (prec : Z) : dec :=
  let tick := price_to_down_tick price prec in
  if tick =? price then
    let l := char price in
    let d := if is_pow10 price then pow10 (l - prec - 1) else pow10 (l - prec) in
    price - d
  else tick.

(** HighestTick, tick.go:147-152. *)
Definition highest_tick (prec : Z) : dec := price_to_down_tick (2 ^ 300 - 1) prec.

(** LowestTick, tick.go:155-157: LegacyNewDecWithPrec(1, 18-prec) is raw 10^prec. *)
Definition lowest_tick (prec : Z) : dec := 10 ^ prec.

(** TickToIndex, tick.go:161-173. *)
Definition tick_to_index (price : dec) (prec : Z) : Z :=
  let l := ndigits price - 1 in
  let d := l - prec in
  let b := if 0 <? d then Z.quot price (10 ^ d) else price in
  let p := 10 ^ prec in
  (l - prec) * 9 * p + (b - p).

(** TickFromIndex, tick.go:177-187: Go's / and % truncate. *)
Definition tick_from_index (i prec : Z) : dec :=
  let p := 10 ^ prec in
  let l := Z.quot i (9 * p) + prec in
  let t := p + Z.rem i (p * 9) in
  if prec <? l then t * 10 ^ (l - prec) else t.

(** RoundTickIndex, tick.go:190-192. *)
Definition round_tick_index (i : Z) : Z := Z.quot (i + 1) 2 * 2.

(** RoundPrice, tick.go:195-201. *)
Definition round_price (price : dec) (prec : Z) : dec :=
  let tick := price_to_down_tick price prec in
  if price =? tick then price
  else tick_from_index (round_tick_index (tick_to_index tick prec)) prec.

(** TickGap, tick.go:204-208. *)
Definition tick_gap (price : dec) (prec : Z) : dec :=
  let tick := price_to_down_tick price prec in
  pow10 (char tick - prec).

(** char's panic on 0 (tick.go:61-63), surfaced for the entry points that can receive 0. *)
Definition price_to_down_tick_chk (price : dec) (prec : Z) : res dec :=
  if price =? 0 then Panic else Ok (price_to_down_tick price prec).
Definition price_to_up_tick_chk (price : dec) (prec : Z) : res dec :=
  if price =? 0 then Panic else Ok (price_to_up_tick price prec).
