(** Model of widget/listwidget. *)
From Verif Require Import Base M_Geom M_Style M_Uniseg M_Buffer M_Text M_Block M_Slice.
From Coq Require Import ZArith NArith List Bool.
Import ListNotations.
Open Scope Z_scope.

(** list.go:13-18 *)
Inductive list_direction := TopToBottom | BottomToTop.
(** list.go:20-26 *)
Inductive highlight_spacing := WhenSelected | SpacingAlways | SpacingNever.
(** list.go:28-39 *)
Definition should_add (h : highlight_spacing) (has_selection : bool) : bool :=
  match h with WhenSelected => has_selection | SpacingAlways => true | SpacingNever => false end.

(** list.go:46-56 *)
Record lst := Lst {
  ls_items : list text; ls_block : option block; ls_style : style; ls_dir : list_direction;
  ls_hl_style : style; ls_hl_symbol : str; ls_repeat : bool; ls_spacing : highlight_spacing; ls_padding : Z
}.

(** text.go: Text.Height is the number of lines *)
Definition text_height (t : text) : Z := zlen (tx_lines t).

(** ** The window (list.go:222-336), on the heights of the items *)

(** list.go:233-243 *)
Fixpoint fit_loop (hs : list Z) (max_h h last : Z) : Z * Z :=
  match hs with
  | [] => (h, last)
  | x :: hs' => if h + x >? max_h then (h, last) else fit_loop hs' max_h (h + x) (last + 1)
  end.

(** list.go:267-274: [n] bounds the number of items from [first] to the end of the list; beyond them the indexing panics *)
Fixpoint drop_first (n : nat) (hs : list Z) (max_h h first : Z) : outcome (Z * Z) :=
  if h >? max_h then
    match n with
    | O => Panic
    | S n' => let! x := index_at hs first in drop_first n' hs max_h (Z.max 0 (h - x)) (first + 1)
    end
  else Ret (h, first).
(** list.go:284-289: [n] bounds the number of items before [last] *)
Fixpoint drop_last (n : nat) (hs : list Z) (max_h h last : Z) : outcome (Z * Z) :=
  if h >? max_h then
    match n with
    | O => Panic
    | S n' => let last := last - 1 in let! x := index_at hs last in drop_last n' hs max_h (Z.max 0 (h - x)) last
    end
  else Ret (h, last).

(** list.go:311-318: the sum around the selected item *)
Definition height_around (hs : list Z) (from to : Z) : outcome Z :=
  ofold (fun acc i => let! x := index_at hs i in Ret (acc + x)) (zrange from (to + 1)) 0.
(** list.go:308-325: [n] is the current (positive) padding *)
Fixpoint reduce_padding (n : nat) (hs : list Z) (max_h selected : Z) : outcome Z :=
  match n with
  | O => Ret 0
  | S n' =>
      let pad := Z.of_nat n in
      let from := Z.max 0 (selected - pad) in
      let to := Z.min (Z.max 0 (zlen hs - 1)) (selected + pad) in
      let! h := height_around hs from to in
      if h <=? max_h then Ret pad else reduce_padding n' hs max_h selected
  end.
(** list.go:299-336 *)
Definition apply_padding (hs : list Z) (padding selected max_h first last : Z) : outcome Z :=
  let last_valid := Z.max 0 (zlen hs - 1) in
  let selected := Z.min selected last_valid in
  let! pad := (if padding >? 0 then reduce_padding (Z.to_nat padding) hs max_h selected else Ret padding) in
  let res := if Z.min last_valid (selected + pad) >=? last then selected + pad
             else if Z.max 0 (selected - pad) <? first then Z.max 0 (selected - pad) else selected in
  Ret (Z.min res last_valid).

(** list.go:223-293 *)
Definition get_items_bounds (hs : list Z) (padding : Z) (selected : option Z) (offset max_h : Z) : outcome (Z * Z) :=
  let offset := Z.min offset (Z.max 0 (zlen hs - 1)) in
  let! tail := skip hs offset in
  let (h, last) := fit_loop tail max_h 0 offset in
  let first := offset in
  let! idx := match selected with
              | None => Ret offset
              | Some s => apply_padding hs padding s max_h first last
              end in
  (* for indexToDisplay >= lastVisibleIndex *)
  let! (h, first) := ofold (fun (st : Z * Z) last =>
      let (h, first) := st in
      let! x := index_at hs last in
      drop_first (Z.to_nat (zlen hs - first)) hs max_h (h + x) first) (zrange last (idx + 1)) (h, first) in
  let last := Z.max last (idx + 1) in
  (* for indexToDisplay < firstVisibleIndex *)
  let! (_, last) := ofold (fun (st : Z * Z) first =>
      let (h, last) := st in
      let! x := index_at hs first in
      drop_last (Z.to_nat last) hs max_h (h + x) last) (rev (zrange idx first)) (h, last) in
  Ret (Z.min first idx, last).

(** ** Rendering *)

(** state.go:12-15 *)
Record list_state := ListState { st_offset : Z; st_selected : option Z }.

(** state.go:71-74 *)
Definition st_select (s : list_state) (i : Z) : list_state := ListState (st_offset s) (Some (Z.max 0 i)).

(** strings.Repeat(" ", n) *)
Definition spaces (n : Z) : str := repeat 32%N (Z.to_nat n).

(** list.go:114-179: the body of the loop. [i] is the item's index, [cur] is currentHeight; returns the new one. *)
Definition draw_item (u : uniseg) (l : lst) (area : rect) (selected : option Z) (st : Z * buffer) (ii : Z * text)
  : outcome (Z * buffer) :=
  let (cur, b) := st in
  let (i, item) := ii in
  let h := text_height item in
  let x := rleft area in
  let y := match ls_dir l with BottomToTop => rbottom area - (cur + h) | TopToBottom => rtop area + cur end in
  let row := Rect x y (rw area) h in
  let item_style := patched (ls_style l) (tx_style item) in
  let! b := buffer_set_style b row item_style in
  let is_selected := match selected with Some s => s =? i | None => false end in
  let spacing := should_add (ls_spacing l) (match selected with Some _ => true | None => false end) in
  let w := string_width u (ls_hl_symbol l) in
  let item_area := if spacing then Rect (rx row + w) (ry row) (Z.max 0 (rw row - w)) (rh row) else row in
  let! b := text_render u item item_area b in
  let! b := (if spacing then
               ofold (fun b j =>
                 let symbol := if is_selected && ((j =? 0) || ls_repeat l) then ls_hl_symbol l else spaces w in
                 let! (b, _) := set_string_n u b x (y + j) symbol (rw area) item_style in Ret b) (zrange 0 h) b
             else Ret b) in
  let! b := (if is_selected then buffer_set_style b row (ls_hl_style l) else Ret b) in
  Ret (cur + h, b).

(** A slice with the indices of its elements, counted from [i]. *)
Fixpoint indexed {A} (i : Z) (l : list A) : list (Z * A) :=
  match l with [] => [] | a :: l' => (i, a) :: indexed (i + 1) l' end.

(** list.go:82-180; returns the new state as well *)
Definition list_render (u : uniseg) (l : lst) (area : rect) (b : buffer) (s : list_state) : outcome (buffer * list_state) :=
  let! b := buffer_set_style b area (ls_style l) in
  let! b := opt_block_render u (ls_block l) area b in
  let list_area := opt_block_inner (ls_block l) area in
  if rect_is_empty list_area || (zlen (ls_items l) =? 0) then Ret (b, s)
  else
    let s := match st_selected s with
             | Some i => if i >=? zlen (ls_items l) then st_select s (Z.max 0 (zlen (ls_items l) - 1)) else s
             | None => s
             end in
    let! (first, last) := get_items_bounds (map text_height (ls_items l)) (ls_padding l) (st_selected s) (st_offset s) (rh list_area) in
    let s := ListState first (st_selected s) in
    let! rest := skip (ls_items l) first in
    let! shown := take rest (last - first) in
    let! (_, b) := ofold (draw_item u l list_area (st_selected s)) (indexed first shown) (0, b) in
    Ret (b, s).

(** ** The state's operations (state.go), with 64-bit wrap-around *)

(** int64 arithmetic *)
Definition min_int : Z := -9223372036854775808.
Definition wrap64 (z : Z) : Z := (z - min_int) mod 18446744073709551616 + min_int.

(** state.go:67-69 *)
Definition st_set_offset (s : list_state) (o : Z) : list_state := ListState o (st_selected s).
(** state.go:76-84 *)
Definition st_select_next (s : list_state) : list_state :=
  st_select s (match st_selected s with Some i => wrap64 (i + 1) | None => 0 end).
(** state.go:86-94 *)
Definition st_select_previous (s : list_state) : list_state :=
  st_select s (match st_selected s with Some i => Z.max 0 (wrap64 (i - 1)) | None => max_int end).
(** state.go:96-98 *)
Definition st_select_first (s : list_state) : list_state := st_select s 0.
(** state.go:100-102 *)
Definition st_select_last (s : list_state) : list_state := st_select s max_int.
(** state.go:104-112 *)
Definition st_scroll_down (s : list_state) (n : Z) : list_state :=
  st_select s (wrap64 (match st_selected s with Some i => i | None => 0 end + n)).
(** state.go:114-122 *)
Definition st_scroll_up (s : list_state) (n : Z) : list_state :=
  st_select s (wrap64 (match st_selected s with Some i => i | None => 0 end - n)).
(** state.go:124-127 *)
Definition st_unselect (s : list_state) : list_state := ListState 0 None.
(** state.go:129-140 *)
Definition st_selected_max (s : list_state) (max : Z) : Z * bool :=
  match st_selected s with None => (0, false) | Some i => (Z.min max (Z.max 0 i), true) end.

(** state.go:27-65: the key bindings, by the key's name ([key.String()]) *)
Inductive list_key := KCtrlU | KCtrlD | KUpperG | KLowerG | KJ | KDown | KK | KUp | KOther.
Definition st_update (s : list_state) (k : list_key) : list_state * bool :=
  match k with
  | KCtrlU => (st_scroll_up s 8, true)
  | KCtrlD => (st_scroll_down s 8, true)
  | KUpperG => (st_select_last s, true)
  | KLowerG => (st_select_first s, true)
  | KJ | KDown => (st_select_next s, true)
  | KK | KUp => (st_select_previous s, true)
  | KOther => (s, false)
  end.
