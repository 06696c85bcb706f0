(** C99: what a text input shows, cell by cell. *)
From Verif Require Import Base M_Geom M_Style M_Uniseg M_Buffer S_Text M_Text S_Line M_Input.
From Coq Require Import ZArith NArith List Bool.
Import ListNotations.
Open Scope Z_scope.

(** The elements of a list from position [f] up to, but not including, [l]. *)
Definition part {A} (t : list A) (f l : Z) : list A := firstn (Z.to_nat (l - f)) (skipn (Z.to_nat f) t).
(** The style of the grapheme under the cursor, which had the style [st]. *)
Definition under_cursor (i : input) (show : bool) (st : style) : style := if show then patched st (ip_cursor_style i) else st.
(** A cursor that stands behind the last grapheme is a blank; a hidden one is nothing. *)
Definition cursor_behind (i : input) (show : bool) : list (str * style) := if show then [([32%N], under_cursor i show new_style)] else [].

(** The graphemes of the row, each with its style: the prompt in its style; then the part of the text from grapheme [f] to grapheme [l], unstyled, with the
    cursor at its place; without text, the placeholder in its style with the cursor on its first grapheme. *)
Definition field_cells (u : uniseg) (i : input) (text : list str) (cursor : Z) (show : bool) (f l : Z) : list (str * style) :=
  map (fun g => (g, ip_prompt_style i)) (clusters u (ip_prompt i)) ++
  match text with
  | [] => match ip_placeholder i with
          | [] => cursor_behind i show
          | g :: rest => (g, under_cursor i show (ip_placeholder_style i)) :: map (fun g => (g, ip_placeholder_style i)) rest
          end
  | _ => map (fun g => (g, new_style)) (part text f cursor) ++
         (if cursor <? l then [(nth (Z.to_nat cursor) text [], under_cursor i show new_style)] else cursor_behind i show) ++
         map (fun g => (g, new_style)) (part text (cursor + 1) l)
  end.

(** What these graphemes make of the cell in column [o] of a row of [W] columns, which had the content [c]. *)
Definition field_cell (u : uniseg) (al : alignment) (cells : list (str * style)) (W o : Z) (c : cell) : cell :=
  paint (seen (cwidth u) cells W (start_column al W (cells_width u cells)) o) c.
