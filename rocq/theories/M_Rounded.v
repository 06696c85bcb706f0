(** The arithmetic of float64 for the solver and for layouts: the exact result of each operation, rounded to 53 significant
    bits (see M_Float for the rounding and for what it leaves out).
    Simplifications: no operation is fused with the next, which Go allows on some processors; a whole number that is turned into
    a float64 (float64(n) in layout.go) is not rounded by itself, it needs no rounding up to 2^53. *)
From Verif Require Import Base M_Solver M_Layout M_Float.
From Coq Require Import ZArith QArith.
Open Scope Q_scope.

(** the number nearest to [q] *)
Definition frnd (q : Q) : Q := let f := fround (Qnum q) (Zpos (Qden q)) in Qred (fnum f # Z.to_pos (fden f)).
(** internal/casso/casso.go:215-290 and operators.go: the operators +, *, - and / of float64 *)
Definition float64 : arith := {| qadd a b := frnd (a + b); qmul a b := frnd (a * b); qopp a := frnd (- a); qdiv a b := frnd (a / b) |}.
(** layout.go:100-201, with the arithmetic of float64 and the tolerance of the code: nothing of Split is left out but the cache of layouts. *)
Definition split64 (order : nat -> list symbol -> list symbol) (fuel : nat) (vs : list variable) (l : layout) (area : M_Geom.rect) : split_result :=
  @M_Layout.split float64 code_tolerance order fuel vs l area.
