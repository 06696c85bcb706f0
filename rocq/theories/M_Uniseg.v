(** Interface of github.com/rivo/uniseg as used by bento: grapheme segmentation and monospace widths.
    The library is not modelled: its functions are an argument ([uniseg]), its laws ([uniseg_ok]) are hypotheses of
    the theorems that need them; [ascii_uniseg] is a concrete instance satisfying them. *)
From Verif Require Import Base M_Style.
From Coq Require Import ZArith NArith List Bool.
Import ListNotations.
Open Scope Z_scope.

Record uniseg := Uniseg {
  clusters : str -> list str;   (* the graphemes of uniseg.NewGraphemes(s), in order *)
  cwidth : str -> Z             (* Graphemes.Width() of one grapheme *)
}.

(** uniseg.StringWidth: the sum of the widths of the graphemes of the string. *)
Definition string_width (u : uniseg) (s : str) : Z := zsum (map (cwidth u) (clusters u s)).

Record uniseg_ok (u : uniseg) : Prop := {
  (** segmentation only cuts: the pieces concatenate to the string, and none is empty *)
  clusters_concat : forall s, concat (clusters u s) = s;
  clusters_nonempty : forall s c, In c (clusters u s) -> c <> [];
  (** cutting again a run of whole graphemes gives the same graphemes *)
  clusters_sub : forall s l1 l2 l3, clusters u s = l1 ++ l2 ++ l3 -> clusters u (concat l2) = l2;
  cwidth_nonneg : forall c, 0 <= cwidth u c
}.

(** A simple concrete instance: every code point is a grapheme; C0 controls, DEL and U+200B have width 0, CJK ideographs
    width 2, U+2E3A width 3, U+2E3B width 4 (as in uniseg 0.4.7), everything else width 1. *)
Definition rune_width (r : N) : Z :=
  if (r <? 32)%N || (r =? 127)%N || (r =? 8203)%N then 0
  else if (r =? 11834)%N then 3
  else if (r =? 11835)%N then 4
  else if ((19968 <=? r) && (r <=? 40959))%N then 2
  else 1.

Definition simple_uniseg : uniseg :=
  {| clusters := map (fun r => [r]); cwidth := fun c => match c with r :: _ => rune_width r | [] => 0 end |}.
