(** Model of internal/sliceutil. *)
From Verif Require Import Base.
From Coq Require Import ZArith List Bool.
Import ListNotations.
Open Scope Z_scope.

(** sliceutil.go:3-11 *)
Definition slice_repeat {A} (v : A) (n : Z) : outcome (list A) :=
  if n <? 0 then Panic else Ret (repeat v (Z.to_nat n)).
(** sliceutil.go:13-17; [slice[:take]] panics on a negative bound *)
Definition take {A} (l : list A) (n : Z) : outcome (list A) :=
  let n := Z.min n (zlen l) in
  if n <? 0 then Panic else Ret (firstn (Z.to_nat n) l).
(** sliceutil.go:19-25; [slice[skip:]] panics on a negative bound *)
Definition skip {A} (l : list A) (n : Z) : outcome (list A) :=
  if n >=? zlen l then Ret [] else if n <? 0 then Panic else Ret (skipn (Z.to_nat n) l).
