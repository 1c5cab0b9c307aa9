(** [cosmossdk.io/math v1.3.0] LegacyDec arithmetic on raw integers (value * 10^18).
    The library is a dependency (not vendored in /repo; /repo/go.mod pins it), so there are no lines of
    /repo to cite: this file records the behaviour the model trusts, one definition per library function.  [math.Int] is [Z].  Overflow checks exist only in the [c_] variants, which
    are used where the code of /repo recovers from overflow (utils.SafeMath). *)
From Verif Require Import Base.

(** A LegacyDec, represented by its raw integer. *)
Notation dec := Z (only parsing).

(** 10^LegacyPrecision, LegacyPrecision = 18. *)
Definition P18 : Z := 1000000000000000000.
Definition H18 : Z := 500000000000000000.

Definition one_dec : dec := P18.

(** Int.ToLegacyDec *)
Definition of_int (x : Z) : dec := x * P18.

(** chopPrecisionAndRound: division by 10^18 with banker's rounding, symmetric in sign. *)
Definition chop_round_nn (d : Z) : Z :=
  let q := d / P18 in
  let r := d mod P18 in
  if r =? 0 then q
  else match r ?= H18 with
       | Lt => q
       | Gt => q + 1
       | Eq => if Z.even q then q else q + 1
       end.
Definition chop_round (d : Z) : Z :=
  if d <? 0 then - chop_round_nn (- d) else chop_round_nn d.

(** chopPrecisionAndTruncate: big.Int.Quo truncates towards zero. *)
Definition chop_trunc (d : Z) : Z := Z.quot d P18.

(** chopPrecisionAndRoundUp: towards +infinity for positive, truncation for negative. *)
Definition chop_up (d : Z) : Z :=
  if d <? 0 then - chop_trunc (- d)
  else if d mod P18 =? 0 then d / P18 else d / P18 + 1.

(** LegacyDec.Mul, MulTruncate, MulInt. *)
Definition dmul (a b : dec) : dec := chop_round (a * b).
Definition dmul_trunc (a b : dec) : dec := chop_trunc (a * b).
Definition dmul_int (a : dec) (n : Z) : dec := a * n.
(** LegacyDec.Quo, QuoTruncate, QuoRoundUp, QuoInt; the divisor is assumed non zero (callers below guard or use [c_] variants). *)
Definition dquo (a b : dec) : dec := chop_round (Z.quot (a * P18 * P18) b).
Definition dquo_trunc (a b : dec) : dec := chop_trunc (Z.quot (a * P18 * P18) b).
Definition dquo_up (a b : dec) : dec := chop_up (Z.quot (a * P18 * P18) b).
Definition dquo_int (a : dec) (n : Z) : dec := Z.quot a n.

(** LegacyDec.Ceil (as a Dec). *)
Definition dceil (d : dec) : dec :=
  let q := Z.quot d P18 in
  let r := Z.rem d P18 in
  if r <=? 0 then q * P18 else (q + 1) * P18.

(** LegacyDec.TruncateInt *)
Definition dtrunc (d : dec) : Z := chop_trunc d.

(** big.Int.BitLen bounds: LegacyDec at most 315 bits, Int at most 256 bits. *)
Definition dec_fits (d : Z) : bool := Z.abs d <? 2 ^ 315.
Definition int_fits (d : Z) : bool := Z.abs d <? 2 ^ 256.

(** The overflow panics of LegacyDec and Int. *)
Definition chk_dec (d : Z) : res dec := if dec_fits d then Ok d else Overflow.
Definition chk_int (d : Z) : res Z := if int_fits d then Ok d else Overflow.

(** Checked variants.  Division by zero is a runtime panic of math/big, not an overflow. *)
Definition c_mul (a b : dec) : res dec := chk_dec (dmul a b).
Definition c_mul_trunc (a b : dec) : res dec := chk_dec (dmul_trunc a b).
Definition c_quo (a b : dec) : res dec := if b =? 0 then Panic else chk_dec (dquo a b).
Definition c_quo_trunc (a b : dec) : res dec := if b =? 0 then Panic else chk_dec (dquo_trunc a b).
Definition c_quo_up (a b : dec) : res dec := if b =? 0 then Panic else chk_dec (dquo_up a b).
Definition c_add (a b : dec) : res dec := chk_dec (a + b).
Definition c_sub (a b : dec) : res dec := chk_dec (a - b).
Definition c_mul_int (a : dec) (n : Z) : res dec := chk_dec (dmul_int a n).
(** Int.Add / Int.Sub *)
Definition i_add (a b : Z) : res Z := chk_int (a + b).
Definition i_sub (a b : Z) : res Z := chk_int (a - b).
Definition c_trunc (a : dec) : res Z := chk_int (dtrunc a).

(** LegacyDec.ApproxSqrt = ApproxRoot(2): Newton iteration, at most 300 steps, stopping when the
    step is at most the smallest decimal. *)
Fixpoint sqrt_loop (fuel : nat) (d guess delta : dec) : dec :=
  match fuel with
  | O => guess
  | S k =>
      if Z.abs delta <=? 1 then guess
      else
        let prev := if guess =? 0 then 1 else guess in
        let delta' := dquo_int (dquo d prev - guess) 2 in
        sqrt_loop k d (guess + delta') delta'
  end.
Definition dsqrt_nn (d : dec) : dec :=
  if (d =? 0) || (d =? one_dec) then d else sqrt_loop 300 d one_dec one_dec.
Definition dsqrt (d : dec) : dec :=
  if d <? 0 then - dsqrt_nn (- d) else dsqrt_nn d.

(** LegacyDec.Power(2) *)
Definition dpow2 (d : dec) : dec := dmul (dmul d d) one_dec.
