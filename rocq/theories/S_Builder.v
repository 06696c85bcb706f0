(** What deriving configuration values should mean: lists, without sharing. *)
From Verif Require Import M_Builder.
From Coq Require Import List.
Import ListNotations.

Section Lists.
Variable A : Type.
Implicit Types (cs : list (call A)) (c : call A).
(** The value a call derives from, and every call deriving from an earlier value. *)
Definition source c : option nat := match c with New _ => None | With v _ | Other v => Some v end.
Definition valid cs : Prop := forall k c v, nth_error cs k = Some c -> source c = Some v -> (v < k)%nat.
(** The elements each value should have. *)
Definition meant cs : list (list A) :=
  fold_left (fun acc c => acc ++ [match c with New xs => xs | With v xs => nth v acc [] ++ xs | Other v => nth v acc [] end]) cs [].
(** A value and those it was derived from. *)
Inductive comes_from cs : nat -> nat -> Prop :=
| cf_self v : comes_from cs v v
| cf_step v c u w : nth_error cs v = Some c -> source c = Some u -> comes_from cs u w -> comes_from cs v w.
(** The value whose elements a value has, when elements are not added; and the values that elements were added to. *)
Definition elements_of cs : list nat :=
  fold_left (fun acc c => acc ++ [match c with New _ | With _ (_ :: _) => length acc | With v [] | Other v => nth v acc 0 end]) cs [].
Definition extended cs : list nat :=
  flat_map (fun c => match c with With v (_ :: _) => [nth v (elements_of cs) 0] | _ => [] end) cs.
End Lists.
