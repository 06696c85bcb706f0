(** Shared vocabulary: outcomes of Go code, Go integer helpers, lists addressed by integers. *)
From Coq Require Import ZArith List Bool Lia.
Import ListNotations.
Open Scope Z_scope.

(** A Go call either returns a value or panics (explicit [panic], index out of range, nil dereference, negative make).
    Panics are ordinary values, so "returns [Ret]" means "does not panic". *)
Inductive outcome (A : Type) : Type :=
| Ret (a : A)
| Panic.
Arguments Ret {A} a.
Arguments Panic {A}.

Definition bind {A B} (m : outcome A) (f : A -> outcome B) : outcome B :=
  match m with Ret a => f a | Panic => Panic end.
Definition omap {A B} (f : A -> B) (m : outcome A) : outcome B := bind m (fun a => Ret (f a)).

Declare Scope outcome_scope.
Notation "'let!' x ':=' m 'in' f" := (bind m (fun x => f))
  (at level 200, x pattern, m at level 100, f at level 200) : outcome_scope.
Open Scope outcome_scope.

Definition returns {A} (m : outcome A) : Prop := exists a, m = Ret a.

(** Go [s[i]] on a slice: panics when [i] is outside [0, len). *)
Definition index_at {A} (l : list A) (i : Z) : outcome A :=
  if (i <? 0) then Panic else
  match nth_error l (Z.to_nat i) with Some a => Ret a | None => Panic end.

Fixpoint list_update {A} (n : nat) (f : A -> A) (l : list A) : list A :=
  match l, n with
  | [], _ => []
  | a :: t, O => f a :: t
  | a :: t, S m => a :: list_update m f t
  end.

Definition zlen {A} (l : list A) : Z := Z.of_nat (length l).

(** [for i := lo; i < hi; i++] as the list of values taken by [i]. *)
Definition zrange (lo hi : Z) : list Z :=
  map (fun k => lo + Z.of_nat k) (seq 0 (Z.to_nat (hi - lo))).

(** Left fold of a panicking body over a list of loop indices. *)
Fixpoint ofold {A S} (f : S -> A -> outcome S) (l : list A) (s : S) : outcome S :=
  match l with
  | [] => Ret s
  | a :: t => let! s' := f s a in ofold f t s'
  end.

Definition zsum (l : list Z) : Z := fold_right Z.add 0 l.
