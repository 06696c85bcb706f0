(** Text of characters of several columns, cut at a column. *)
From Verif Require Import Base M_Geom M_Style M_Uniseg S_Text.
From Coq Require Import ZArith List.
Import ListNotations.
Open Scope Z_scope.

(** Laid side by side from column 0, no cluster lies across column [n]. *)
Definition clean_cut (u : uniseg) (l : list str) (n : Z) : Prop := exists a b, l = a ++ b /\ widths u a <= n /\ (b = [] \/ widths u a = n).
