(** C97: what a list shows, cell by cell. *)
From Verif Require Import Base M_Geom M_Style M_Uniseg M_Buffer S_Text M_Text S_Line M_List.
From Coq Require Import ZArith NArith List Bool.
Import ListNotations.
Open Scope Z_scope.

(** What line [l] makes of a cell [o] columns from the left edge of a window of [W] columns, which had the content [c]. *)
Definition line_in (u : uniseg) (parent : alignment) (W o : Z) (l : line) (c : cell) : cell :=
  paint (seen (cwidth u) (line_cells u (ln_spans l)) W (start_column (effective (ln_align l) parent) W (line_width u l)) o)
        (if o <? Z.min W (line_width u l) then cell_set_style (ln_style l) c else c).
(** What a string in one style, written from a column on, makes of the cell [o] columns further. *)
Definition written (u : uniseg) (st : style) (s : list str) (o : Z) (c : cell) : cell :=
  match glyph_at (cwidth u) s o with Some (Head g) => cell_set_style st (cell_set_symbol g c) | Some Tail => cell_reset c | None => c end.
(** Whether a column is kept for the marker of the selected item. *)
Definition keeps_column (l : lst) (selected : option Z) : bool :=
  match ls_spacing l, selected with SpacingAlways, _ => true | SpacingNever, _ => false | WhenSelected, Some _ => true | WhenSelected, None => false end.

(** Whether item [i] is the selected one. *)
Definition is_chosen (selected : option Z) (i : Z) : bool := match selected with Some s => s =? i | None => false end.

(** What an item of the list makes of the cell in column [x] and row [y] of the item's rows, which are [W] columns wide: on the list's and the item's style, the
    marker - in the first row of the selected item, in all its rows if it is repeated, blanks elsewhere - and then the item's lines; the selected item's
    rows get the highlight style on top. *)
Definition item_cell (u : uniseg) (l : lst) (chosen column : bool) (item : text) (W x y : Z) (c : cell) : cell :=
  let st := patched (ls_style l) (tx_style item) in
  let c := cell_set_style st c in
  let marker := clusters u (ls_hl_symbol l) in
  let w := if column then widths u marker else 0 in
  let c := if x <? w then written u st (if chosen && ((y =? 0) || ls_repeat l) then marker else repeat [32%N] (Z.to_nat w)) x c
           else let c := cell_set_style (tx_style item) c in
                match nth_error (tx_lines item) (Z.to_nat y) with Some ln => line_in u (tx_align item) (W - w) (x - w) ln c | None => c end in
  if chosen then cell_set_style (ls_hl_style l) c else c.

(** The rows of an item of height [h], after items of total height [cur], counted from the top or from the bottom. *)
Definition rows_of (dir : list_direction) (area : rect) (cur h : Z) : rect :=
  match dir with TopToBottom => Rect (rx area) (ry area + cur) (rw area) h | BottomToTop => Rect (rx area) (ry area + rh area - (cur + h)) (rw area) h end.
(** Blanks are one column wide and stay apart, as they do in every text. *)
Definition blanks_apart (u : uniseg) : Prop := cwidth u [32%N] = 1 /\ forall n, clusters u (repeat 32%N n) = repeat [32%N] n.
(** The list without its items. *)
Definition without_items (l : lst) : lst := Lst [] (ls_block l) (ls_style l) (ls_dir l) (ls_hl_style l) (ls_hl_symbol l) (ls_repeat l) (ls_spacing l) (ls_padding l).
