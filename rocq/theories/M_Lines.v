(** Model of Lines.NewBuffer (widget/textwidget/line.go). *)
From Verif Require Import Base M_Geom M_Style M_Uniseg M_Buffer M_Text M_Solver M_Layout M_Popup M_Input M_Throbber M_View.
From Coq Require Import ZArith NArith List Bool.
Import ListNotations.
Open Scope Z_scope.

(** widget/textwidget/line.go:302-315: the loop over the spans.  The room left is the larger of what it was and what was written. *)
Fixpoint set_line_spans (u : uniseg) (st : style) (spans : list span) (x y : Z) (b : buffer) (remaining : Z) : outcome (buffer * (Z * Z)) :=
  match spans with
  | [] => Ret (b, (x, y))
  | s :: spans =>
      if remaining =? 0 then Ret (b, (x, y))
      else
        let! (b, (new_x, _)) := set_string_n u b x y (sp_content s) remaining (patched st (sp_style s)) in
        let w := Z.max 0 (new_x - x) in
        set_line_spans u st spans new_x y b (Z.max 0 (Z.max remaining w))
  end.
(** widget/textwidget/line.go:299-318 *)
Definition set_line (u : uniseg) (x y : Z) (b : buffer) (l : line) (max_width : Z) : outcome (buffer * (Z * Z)) :=
  set_line_spans u (ln_style l) (ln_spans l) x y b max_width.
(** widget/textwidget/line.go:64-66 *)
Fixpoint set_lines (u : uniseg) (y : Z) (lines : list line) (width : Z) (b : buffer) : outcome buffer :=
  match lines with
  | [] => Ret b
  | l :: lines => let! (b, _) := set_line u 0 y b l width in set_lines u (y + 1) lines width b
  end.
(** widget/textwidget/line.go:55-69 *)
Definition lines_new_buffer (u : uniseg) (lines : list line) : outcome buffer :=
  let height := lines_height lines in
  let width := lines_width u lines in
  let! b := new_buffer_empty (Rect 0 0 width height) in
  set_lines u 0 lines width b.
