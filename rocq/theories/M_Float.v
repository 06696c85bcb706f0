(** Go's float64 arithmetic as far as the widgets use it: IEEE 754 binary64 with rounding to nearest, ties to even, and the
    functions math.Round, math.Floor and math.Mod(_, 1).  A finite value is a fraction with a positive denominator.
    Simplification: exponents are unbounded (no subnormal numbers, no overflow to infinity); the code only forms numbers
    between 2^-64 and 2^64 and zero.  Division by zero and conversions that do not fit an int have no defined result in Go;
    the functions that need them take the value such a conversion delivers as an argument [junk]. *)
From Verif Require Import Base.
From Coq Require Import ZArith.
Open Scope Z_scope.

Record float := Float { fnum : Z; fden : Z }.

(** the integer nearest to n/d, the even one when two are equally near *)
Definition nearest_even (n d : Z) : Z :=
  let q := n / d in
  match 2 * (n mod d) ?= d with
  | Lt => q
  | Gt => q + 1
  | Eq => if Z.even q then q else q + 1
  end.

(** the scale at which n/d (both positive) has a 53-bit significand *)
Definition scale (n d : Z) : Z :=
  let s := 52 - (Z.log2 n - Z.log2 d) in
  if d * 2 ^ Z.max 0 (- s) * 2 ^ 52 <=? n * 2 ^ Z.max 0 s then s else s + 1.

(** rounding of a positive fraction *)
Definition round_pos (n d : Z) : float :=
  let s := scale n d in
  let m := nearest_even (n * 2 ^ Z.max 0 s) (d * 2 ^ Z.max 0 (- s)) in
  Float (m * 2 ^ Z.max 0 (- s)) (2 ^ Z.max 0 s).

(** rounding of a fraction with a non-zero denominator *)
Definition fround (n d : Z) : float :=
  let n := if d <? 0 then - n else n in
  let d := Z.abs d in
  if n =? 0 then Float 0 1
  else if n <? 0 then let f := round_pos (- n) d in Float (- fnum f) (fden f)
  else round_pos n d.

(** float64(z), x * y, x / y *)
Definition of_int (z : Z) : float := fround z 1.
Definition fmul (x y : float) : float := fround (fnum x * fnum y) (fden x * fden y).
Definition fdiv (x y : float) : float := fround (fnum x * fden y) (fden x * fnum y).
Definition is_zero (x : float) : bool := fnum x =? 0.

(** math.Round: to the nearest integer, halves away from zero *)
Definition math_round (x : float) : Z :=
  if fnum x <? 0 then - ((2 * - fnum x + fden x) / (2 * fden x)) else (2 * fnum x + fden x) / (2 * fden x).
(** math.Floor *)
Definition math_floor (x : float) : Z := fnum x / fden x.
(** math.Mod(x, 1): the sign is that of x; the result is exact *)
Definition math_mod1 (x : float) : float := Float (Z.rem (fnum x) (fden x)) (fden x).
(** x < y *)
Definition flt (x y : float) : bool := fnum x * fden y <? fnum y * fden x.

(** int(x) of an integral value *)
Definition fits_int (z : Z) : bool := (- 2 ^ 63 <=? z) && (z <? 2 ^ 63).
Definition to_int (junk z : Z) : Z := if fits_int z then z else junk.
(** the result of an int multiplication or addition *)
Definition wrap64 (z : Z) : Z := (z + 2 ^ 63) mod 2 ^ 64 - 2 ^ 63.
