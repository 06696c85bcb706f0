(** Specification vocabulary for buffers: a buffer as a function from positions to cells. *)
From Verif Require Import Base M_Geom S_Geom M_Style M_Buffer.
From Coq Require Import ZArith List Bool.
Open Scope Z_scope.

(** One stored cell per position of the area. *)
Definition wf_buffer (b : buffer) : Prop :=
  sized (barea b) /\ zlen (bcells b) = rw (barea b) * rh (barea b).

(** The cell the buffer stores for position [p] (row-major), [None] outside the area. *)
Definition look (b : buffer) (p : pos) : option cell :=
  let r := barea b in
  if (rx r <=? px p) && (px p <? rx r + rw r) && (ry r <=? py p) && (py p <? ry r + rh r)
  then nth_error (bcells b) (Z.to_nat ((py p - ry r) * rw r + (px p - rx r)))
  else None.

(** [b'] is [b] with the cells in the set [S] changed by [f] and all others, and the area, unchanged. *)
Definition changed_exactly (S : pos -> Prop) (f : pos -> cell -> cell) (b b' : buffer) : Prop :=
  barea b' = barea b /\ wf_buffer b' /\
  (forall p, S p -> look b' p = option_map (f p) (look b p)) /\
  (forall p, ~ S p -> look b' p = look b p).

(** [b'] differs from [b] at most at positions in [S]. *)
Definition changed_only (S : pos -> Prop) (b b' : buffer) : Prop :=
  barea b' = barea b /\ wf_buffer b' /\ forall p, ~ S p -> look b' p = look b p.
