(** Model of widget/blockwidget. *)
From Verif Require Import Base M_Geom M_Style M_Uniseg M_Buffer M_Text.
From Coq Require Import ZArith NArith List Bool.
Import ListNotations.
Open Scope Z_scope.

(** border.go:34-43: Side is a uint8 bit set *)
Definition side := N.
Definition SideNone : side := 0%N.
Definition SideTop : side := 1%N.
Definition SideRight : side := 2%N.
Definition SideBottom : side := 4%N.
Definition SideLeft : side := 8%N.
Definition SideAll : side := 15%N.
(** border.go:45-51 *)
Definition side_intersects (b o : side) : bool := bit_intersects b o.
Definition side_contains (b o : side) : bool := bit_contains b o.

(** border.go:94-103 *)
Record border_set := BorderSet {
  bs_top_left : str; bs_top_right : str; bs_bottom_left : str; bs_bottom_right : str;
  bs_left : str; bs_right : str; bs_top : str; bs_bottom : str
}.

(** border.go:53-62, symbol/line.go *)
Definition sharp_set : border_set :=
  BorderSet [9484%N] [9488%N] [9492%N] [9496%N] [9474%N] [9474%N] [9472%N] [9472%N].
(** border.go:64-68 *)
Definition rounded_set : border_set :=
  BorderSet [9581%N] [9582%N] [9584%N] [9583%N] [9474%N] [9474%N] [9472%N] [9472%N].
(** border.go:70-79 *)
Definition thick_set : border_set :=
  BorderSet [9487%N] [9491%N] [9495%N] [9499%N] [9475%N] [9475%N] [9473%N] [9473%N].
(** border.go:81-90 *)
Definition double_set : border_set :=
  BorderSet [9556%N] [9559%N] [9562%N] [9565%N] [9553%N] [9553%N] [9552%N] [9552%N].

(** title.go:8-13 *)
Inductive title_position := TitleTop | TitleBottom.
Definition title_position_eqb (a b : title_position) : bool :=
  match a, b with TitleTop, TitleTop | TitleBottom, TitleBottom => true | _, _ => false end.
(** title.go:15-19; a nil position is [None] *)
Record title := Title { ti_align : alignment; ti_pos : option title_position; ti_line : line }.

(** block.go:12-24 *)
Record block := Block {
  bk_titles : list title; bk_titles_style : style; bk_titles_align : alignment; bk_titles_pos : title_position;
  bk_borders : side; bk_border_style : style; bk_set : border_set;
  bk_style : style; bk_padding : padding
}.

(** block.go:26-37 *)
Definition new_block : block :=
  Block [] new_style AlignLeft TitleTop SideNone new_style sharp_set new_style (Padding 0 0 0 0).

(** line.go: Line.WithAlignment *)
Definition line_with_alignment (l : line) (a : alignment) : line := Line (ln_style l) (ln_spans l) a.

(** block.go:70-77; [append] as a pure operation (sharing of backing arrays is modelled in M_Builder.v, C53) *)
Definition block_with_title (b : block) (t : title) : block :=
  let t := match ti_align t with AlignNone => t | a => Title a (ti_pos t) (line_with_alignment (ti_line t) a) end in
  Block (bk_titles b ++ [t]) (bk_titles_style b) (bk_titles_align b) (bk_titles_pos b)
        (bk_borders b) (bk_border_style b) (bk_set b) (bk_style b) (bk_padding b).
(** block.go:92-105 *)
Definition block_with_sides (b : block) (sides : list side) : block :=
  Block (bk_titles b) (bk_titles_style b) (bk_titles_align b) (bk_titles_pos b)
        (match sides with [] => SideAll | _ => fold_left bit_union sides SideNone end)
        (bk_border_style b) (bk_set b) (bk_style b) (bk_padding b).

(** block.go:152-164: the position of a title *)
Definition title_pos (b : block) (t : title) : title_position :=
  match ti_pos t with Some p => p | None => bk_titles_pos b end.
(** block.go:152-165 *)
Definition has_title_at (b : block) (p : title_position) : bool :=
  existsb (fun t => title_position_eqb (title_pos b t) p) (bk_titles b).

(** block.go:122-150, one field assignment after the other *)
Definition block_inner (b : block) (area : rect) : rect :=
  let i := area in
  let i := if side_intersects (bk_borders b) SideLeft
           then let x := Z.min (rx i + 1) (rright i) in Rect x (ry i) (Z.max 0 (rw i - 1)) (rh i) else i in
  let i := if side_intersects (bk_borders b) SideTop || has_title_at b TitleTop
           then let y := Z.min (ry i + 1) (rbottom i) in Rect (rx i) y (rw i) (Z.max 0 (rh i - 1)) else i in
  let i := if side_intersects (bk_borders b) SideRight then with_width i (Z.max 0 (rw i - 1)) else i in
  let i := if side_intersects (bk_borders b) SideBottom || has_title_at b TitleBottom
           then with_height i (Z.max 0 (rh i - 1)) else i in
  let p := bk_padding b in
  Rect (rx i + pleft p) (ry i + ptop p)
       (Z.max 0 (rw i - pleft p - pright p)) (Z.max 0 (rh i - ptop p - pbottom p)).

(** CellAt(..).SetSymbol(s).SetStyle(st) *)
Definition put (sym : str) (st : style) (c : cell) : cell := cell_set_style st (cell_set_symbol sym c).

(** block.go:191-203 *)
Definition render_left_side (k : block) (area : rect) (b : buffer) : outcome buffer :=
  if side_contains (bk_borders k) SideLeft then
    ofold (fun b y => upd_cell b (Pos (rleft area) y) (put (bs_left (bk_set k)) (bk_border_style k)))
          (zrange (rtop area) (rbottom area)) b
  else Ret b.
(** block.go:205-217 *)
Definition render_top_side (k : block) (area : rect) (b : buffer) : outcome buffer :=
  if side_contains (bk_borders k) SideTop then
    ofold (fun b x => upd_cell b (Pos x (rtop area)) (put (bs_top (bk_set k)) (bk_border_style k)))
          (zrange (rleft area) (rright area)) b
  else Ret b.
(** block.go:219-233 *)
Definition render_right_side (k : block) (area : rect) (b : buffer) : outcome buffer :=
  if side_contains (bk_borders k) SideRight then
    ofold (fun b y => upd_cell b (Pos (rright area - 1) y) (put (bs_right (bk_set k)) (bk_border_style k)))
          (zrange (rtop area) (rbottom area)) b
  else Ret b.
(** block.go:235-249 *)
Definition render_bottom_side (k : block) (area : rect) (b : buffer) : outcome buffer :=
  if side_contains (bk_borders k) SideBottom then
    ofold (fun b x => upd_cell b (Pos x (rbottom area - 1)) (put (bs_bottom (bk_set k)) (bk_border_style k)))
          (zrange (rleft area) (rright area)) b
  else Ret b.
(** block.go:251-261 *)
Definition render_bottom_right (k : block) (area : rect) (b : buffer) : outcome buffer :=
  if side_contains (bk_borders k) (bit_union SideRight SideBottom) then
    upd_cell b (Pos (rright area - 1) (rbottom area - 1)) (put (bs_bottom_right (bk_set k)) (bk_border_style k))
  else Ret b.
(** block.go:263-273 *)
Definition render_top_right (k : block) (area : rect) (b : buffer) : outcome buffer :=
  if side_contains (bk_borders k) (bit_union SideRight SideTop) then
    upd_cell b (Pos (rright area - 1) (rtop area)) (put (bs_top_right (bk_set k)) (bk_border_style k))
  else Ret b.
(** block.go:275-285 *)
Definition render_bottom_left (k : block) (area : rect) (b : buffer) : outcome buffer :=
  if side_contains (bk_borders k) (bit_union SideLeft SideBottom) then
    upd_cell b (Pos (rleft area) (rbottom area - 1)) (put (bs_bottom_left (bk_set k)) (bk_border_style k))
  else Ret b.
(** block.go:287-297 *)
Definition render_top_left (k : block) (area : rect) (b : buffer) : outcome buffer :=
  if side_contains (bk_borders k) (bit_union SideLeft SideTop) then
    upd_cell b (Pos (rleft area) (rtop area)) (put (bs_top_left (bk_set k)) (bk_border_style k))
  else Ret b.
(** block.go:179-189 *)
Definition render_borders (k : block) (area : rect) (b : buffer) : outcome buffer :=
  let! b := render_left_side k area b in
  let! b := render_top_side k area b in
  let! b := render_right_side k area b in
  let! b := render_bottom_side k area b in
  let! b := render_bottom_right k area b in
  let! b := render_top_right k area b in
  let! b := render_bottom_left k area b in
  render_top_left k area b.

Definition alignment_eqb (a b : alignment) : bool :=
  match a, b with
  | AlignNone, AlignNone | AlignLeft, AlignLeft | AlignCenter, AlignCenter | AlignRight, AlignRight => true
  | _, _ => false
  end.

(** block.go:414-440 *)
Definition title_align (k : block) (t : title) : alignment :=
  match ti_align t with AlignNone => bk_titles_align k | a => a end.
Definition filter_titles (k : block) (p : title_position) (a : alignment) : list title :=
  filter (fun t => title_position_eqb (title_pos k t) p && alignment_eqb (title_align k t) a) (bk_titles k).

(** block.go:442-470 *)
Definition titles_area (k : block) (area : rect) (p : title_position) : rect :=
  let lb := if side_contains (bk_borders k) SideLeft then 1 else 0 in
  let rb := if side_contains (bk_borders k) SideRight then 1 else 0 in
  Rect (rleft area + lb) (match p with TitleTop => rtop area | TitleBottom => rbottom area - 1 end)
       (Z.max 0 (rw area - lb - rb)) 1.

(** The common end of the three loops: style the title's cells, then draw its line. *)
Definition draw_title (u : uniseg) (k : block) (t : title) (ta : rect) (b : buffer) : outcome buffer :=
  let! b1 := buffer_set_style b ta (bk_titles_style k) in
  line_render u (ti_line t) ta b1.

(** block.go:317-336: the loop of renderRightTitles *)
Fixpoint right_titles (u : uniseg) (k : block) (ts : list title) (ta : rect) (b : buffer) : outcome buffer :=
  match ts with
  | [] => Ret b
  | t :: ts' =>
      if rect_is_empty ta then Ret b
      else
        let w := line_width u (ti_line t) in
        let! b' := draw_title u k t
          (Rect (Z.max 0 (Z.max (rleft ta) (rright ta - w))) (ry ta) (Z.min (rw ta) w) (rh ta)) b in
        right_titles u k ts' (with_width ta (Z.max 0 (rw ta - w - 1))) b'
  end.
(** block.go:364-384 and 391-411: the loops of renderCenterTitles and renderLeftTitles *)
Fixpoint left_titles (u : uniseg) (k : block) (ts : list title) (ta : rect) (b : buffer) : outcome buffer :=
  match ts with
  | [] => Ret b
  | t :: ts' =>
      if rect_is_empty ta then Ret b
      else
        let w := line_width u (ti_line t) in
        let! b' := draw_title u k t (Rect (rx ta) (ry ta) (Z.min w (rw ta)) (rh ta)) b in
        left_titles u k ts' (Rect (rx ta + (w + 1)) (ry ta) (Z.max 0 (rw ta - w - 1)) (rh ta)) b'
  end.

(** block.go:311-315 *)
Definition render_right_titles (u : uniseg) (k : block) (p : title_position) (area : rect) (b : buffer) : outcome buffer :=
  right_titles u k (rev (filter_titles k p AlignRight)) (titles_area k area p) b.
(** block.go:339-362 *)
Definition render_center_titles (u : uniseg) (k : block) (p : title_position) (area : rect) (b : buffer) : outcome buffer :=
  let ts := filter_titles k p AlignCenter in
  let total := Z.max 0 (zsum (map (fun t => line_width u (ti_line t) + 1) ts) - 1) in
  let ta := titles_area k area p in
  let ta := Rect (rleft ta + Z.quot (Z.max 0 (rw ta - total)) 2) (ry ta) (rw ta) (rh ta) in
  left_titles u k ts ta b.
(** block.go:387-389 *)
Definition render_left_titles (u : uniseg) (k : block) (p : title_position) (area : rect) (b : buffer) : outcome buffer :=
  left_titles u k (filter_titles k p AlignLeft) (titles_area k area p) b.
(** block.go:304-309 *)
Definition render_title_position (u : uniseg) (k : block) (p : title_position) (area : rect) (b : buffer) : outcome buffer :=
  let! b := render_right_titles u k p area b in
  let! b := render_center_titles u k p area b in
  render_left_titles u k p area b.
(** block.go:299-302 *)
Definition render_titles (u : uniseg) (k : block) (area : rect) (b : buffer) : outcome buffer :=
  let! b := render_title_position u k TitleTop area b in
  render_title_position u k TitleBottom area b.

(** block.go:167-177 (the area is intersected with itself, not with the buffer) *)
Definition block_render (u : uniseg) (k : block) (area : rect) (b : buffer) : outcome buffer :=
  let area := intersection area area in
  if rect_is_empty area then Ret b
  else
    let! b := buffer_set_style b area (bk_style k) in
    let! b := render_borders k area b in
    render_titles u k area b.

(** The block of a widget is a pointer; nil draws nothing and keeps the area. *)
Definition opt_block_render (u : uniseg) (k : option block) (area : rect) (b : buffer) : outcome buffer :=
  match k with None => Ret b | Some k => block_render u k area b end.
Definition opt_block_inner (k : option block) (area : rect) : rect :=
  match k with None => area | Some k => block_inner k area end.
