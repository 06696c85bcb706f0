(** Model of widget/tabswidget. *)
From Verif Require Import Base M_Geom M_Style M_Uniseg M_Buffer M_Text M_Block M_List.
From Coq Require Import ZArith NArith List Bool.
Import ListNotations.
Open Scope Z_scope.

(** tabs.go:12-21 *)
Record tabs := Tabs {
  tb_block : option block; tb_titles : list line; tb_selected : option Z;
  tb_style : style; tb_hl_style : style; tb_divider : span; tb_left : line; tb_right : line
}.
(** tabs.go:23-34 *)
Definition new_tabs (titles : list line) : tabs :=
  Tabs None titles None new_style (with_modifier new_style ModifierReversed) (new_span [9474%N])
       (new_line [new_span [32%N]]) (new_line [new_span [32%N]]).

(** tabs.go:112-157; [i] is the index of the first remaining title, [n] the number of all titles *)
Fixpoint tabs_loop (u : uniseg) (t : tabs) (area : rect) (n i : Z) (titles : list line) (b : buffer) (x : Z) : outcome buffer :=
  match titles with
  | [] => Ret b
  | title :: rest =>
      let is_last := i =? n - 1 in
      let remaining := Z.max 0 (rright area - x) in
      if remaining =? 0 then Ret b else
      let! (b, (x, _)) := line_print u (tb_left t) b x (rtop area) remaining in
      let remaining := Z.max 0 (rright area - x) in
      if remaining =? 0 then Ret b else
      let! (b, (new_x, _)) := line_print u title b x (rtop area) remaining in
      let! b := (match tb_selected t with
                 | Some k => if k =? i then buffer_set_style b (Rect x (rtop area) (Z.max 0 (new_x - x)) 1) (tb_hl_style t) else Ret b
                 | None => Ret b
                 end) in
      let x := new_x in
      let remaining := Z.max 0 (rright area - x) in
      if remaining =? 0 then Ret b else
      let! (b, (x, _)) := line_print u (tb_right t) b x (rtop area) remaining in
      let remaining := Z.max 0 (rright area - x) in
      if (remaining =? 0) || is_last then Ret b else
      let! (b, (x, _)) := span_print u (tb_divider t) b x (rtop area) remaining in
      tabs_loop u t area n (i + 1) rest b x
  end.

(** tabs.go:104-110 *)
Definition tabs_render_inner (u : uniseg) (t : tabs) (area : rect) (b : buffer) : outcome buffer :=
  if rect_is_empty area then Ret b
  else tabs_loop u t area (zlen (tb_titles t)) 0 (tb_titles t) b (rleft area).

(** tabs.go:93-102 *)
Definition tabs_render (u : uniseg) (t : tabs) (area : rect) (b : buffer) : outcome buffer :=
  let! b := buffer_set_style b area (tb_style t) in
  let! b := opt_block_render u (tb_block t) area b in
  tabs_render_inner u t (opt_block_inner (tb_block t) area) b.
