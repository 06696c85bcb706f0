(** The helpers of the result of a split. *)
From Verif Require Import Base M_Geom.
From Coq Require Import ZArith List.
Import ListNotations.
Open Scope Z_scope.

(** What pointers to rectangles point at *)
Definition places := nat -> rect.
Definition store (m : places) (p : nat) (r : rect) : places := fun q => if Nat.eqb q p then r else m q.
(** layout.go:30-36; None: a nil pointer *)
Fixpoint assign_from (i : Z) (s : list rect) (areas : list (option nat)) (m : places) : outcome places :=
  match areas with
  | [] => Ret m
  | None :: areas => assign_from (i + 1) s areas m
  | Some p :: areas => let! r := index_at s i in assign_from (i + 1) s areas (store m p r)
  end.
Definition assign (s : list rect) (areas : list (option nat)) (m : places) : outcome places := assign_from 0 s areas m.
(** layout.go:38-40 *)
Definition unwrap (s : list rect) : outcome rect := index_at s 0.
(** layout.go:42-44 *)
Definition unwrap2 (s : list rect) : outcome (rect * rect) := let! a := index_at s 0 in let! b := index_at s 1 in Ret (a, b).
(** layout.go:46-48 *)
Definition unwrap3 (s : list rect) : outcome (rect * rect * rect) := let! a := index_at s 0 in let! b := index_at s 1 in let! c := index_at s 2 in Ret (a, b, c).
(** layout.go:50-52 *)
Definition unwrap4 (s : list rect) : outcome (rect * rect * rect * rect) :=
  let! a := index_at s 0 in let! b := index_at s 1 in let! c := index_at s 2 in let! d := index_at s 3 in Ret (a, b, c, d).
