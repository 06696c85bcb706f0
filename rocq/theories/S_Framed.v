(** What it means for a widget to keep the decoration of its block. *)
From Verif Require Import Base M_Geom S_Geom M_Style M_Uniseg M_Buffer S_Buffer M_Block.
From Coq Require Import ZArith.
Open Scope Z_scope.

(** Outside the content area of the block [k], the buffer [b'] is what the background [s] and the block alone leave of [b]. *)
Definition keeps_block (u : uniseg) (s : style) (k : block) (area : rect) (b b' : buffer) : Prop :=
  exists b0 b1, buffer_set_style b area s = Ret b0 /\ block_render u k area b0 = Ret b1 /\ barea b' = barea b /\
    forall p, ~ inside p (block_inner k area) -> look b' p = look b1 p.
