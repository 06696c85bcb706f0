(** What C18 says of characters of no width: each joins the character before it. *)
From Verif Require Import Base M_Geom M_Style M_Buffer M_Text S_Buffer.
From Coq Require Import ZArith List.
Import ListNotations.
Open Scope Z_scope.

(** The columns of the characters of a text that starts at column [j] of [n], as far as they fit: a character of no width stands in the column before, if there is one. *)
Fixpoint columns_of (w : str -> Z) (n j : Z) (cl : list str) : list (Z * str) :=
  match cl with
  | [] => []
  | c :: cl => if j + w c <=? n then (if w c =? 0 then Z.max 0 (j - 1) else j, c) :: columns_of w n (j + w c) cl else []
  end.
(** What stands in column [k]. *)
Definition in_column (k : Z) (l : list (Z * str)) : list str := map snd (filter (fun p => fst p =? k) l).
(** The symbol of the cell at [p]. *)
Definition symbol_at (b : buffer) (p : pos) : str := match look b p with Some c => csym c | None => [] end.
