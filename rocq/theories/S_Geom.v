(** Specification vocabulary for geometry: a rectangle denotes a set of positions. *)
From Verif Require Import Base M_Geom.
From Coq Require Import ZArith List.
Open Scope Z_scope.

(** Position [p] is one of the cells of rectangle [r]. *)
Definition inside (p : pos) (r : rect) : Prop :=
  rx r <= px p < rx r + rw r /\ ry r <= py p < ry r + rh r.

Definition sized (r : rect) : Prop := 0 <= rw r /\ 0 <= rh r.

Definition subrect (a b : rect) : Prop := forall p, inside p a -> inside p b.

Definition nonneg_padding (p : padding) : Prop :=
  0 <= ptop p /\ 0 <= pright p /\ 0 <= pbottom p /\ 0 <= pleft p.
