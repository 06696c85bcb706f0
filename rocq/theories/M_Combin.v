(** Model of the enumeration of combinations (layout.go:686-737). *)
From Verif Require Import Base.
From Coq Require Import ZArith List Bool.
Import ListNotations.
Open Scope Z_scope.

(** layout.go:721-737. Ints are unbounded; the products are of non-negative numbers, so Go's division is the floor. *)
Definition binomial (n k : Z) : outcome Z :=
  if (n <? 0) || (k <? 0) then Panic
  else if n <? k then Panic
  else
    let k := if k >? n / 2 then n - k else k in
    Ret (fold_left (fun b i => (n - k + i) * b / i) (zrange 1 (k + 1)) 1).

(** layout.go:708-719: the loop over [j], which starts at k - 1; [fuel] is j + 1. Indexing panics outside the slice. *)
Fixpoint next_loop (fuel : nat) (s : list Z) (n k : Z) : outcome (list Z) :=
  match fuel with
  | O => Ret s
  | S f =>
      let j := Z.of_nat f in
      let! sj := index_at s j in
      if sj =? n + j - k then next_loop f s n k
      else
        let s := list_update f (fun v => v + 1) s in
        ofold (fun s l =>
          let! sj := index_at s j in
          let! _ := index_at s l in
          Ret (list_update (Z.to_nat l) (fun _ => sj + l - j) s)) (zrange (j + 1) k) s
  end.
Definition next_combination (s : list Z) (n k : Z) : outcome (list Z) := next_loop (Z.to_nat k) s n k.

(** layout.go:698-703: each next one is made from a copy of the one before *)
Fixpoint fill_next (count : nat) (prev : list Z) (n k : Z) : outcome (list (list Z)) :=
  match count with
  | O => Ret []
  | S c =>
      let! next := next_combination prev n k in
      let! rest := fill_next c next n k in
      Ret (next :: rest)
  end.
(** layout.go:686-706 *)
Definition combinations (n k : Z) : outcome (list (list Z)) :=
  let! combins := binomial n k in
  if combins <? 0 then Panic (* make *)
  else if combins =? 0 then Ret []
  else
    let first := zrange 0 k in
    let! rest := fill_next (Z.to_nat (combins - 1)) first n k in
    Ret (first :: rest).
