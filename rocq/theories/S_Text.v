(** Specification vocabulary for text laid out in columns. *)
From Verif Require Import Base M_Geom M_Style M_Uniseg.
From Coq Require Import ZArith List Bool.
Import ListNotations.
Open Scope Z_scope.

(** What a run of clusters, laid side by side, shows at column offset [o]: the first column of a cluster shows the
    cluster itself, its further columns show nothing of their own. *)
Inductive glyph := Head (c : str) | Tail.

Fixpoint glyph_at (width : str -> Z) (l : list str) (o : Z) : option glyph :=
  match l with
  | [] => None
  | c :: l' =>
      if o <? 0 then None
      else if o =? 0 then Some (Head c)
      else if o <? width c then Some Tail
      else glyph_at width l' (o - width c)
  end.

Definition widths (u : uniseg) (l : list str) : Z := zsum (map (cwidth u) l).

(** ** A line of styled clusters seen through a window of columns *)

Inductive shown_at := HeadOf (c : str) (st : style) | TailOf.

(** Column [o] of a window [0, W), when the first cluster starts at window column [off]: the first column of a cluster that
    lies completely inside the window, a further column of such a cluster, or nothing (no cluster, or a cut one). *)
Fixpoint seen (width : str -> Z) (l : list (str * style)) (W off o : Z) : option shown_at :=
  match l with
  | [] => None
  | (c, st) :: l' =>
      if (off <=? o) && (o <? off + width c) then
        if (0 <=? off) && (off + width c <=? W) then (if o =? off then Some (HeadOf c st) else Some TailOf)
        else None
      else seen width l' W (off + width c) o
  end.
