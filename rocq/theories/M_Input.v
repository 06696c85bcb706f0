(** Model of widget/inputwidget. A grapheme ([internal/grapheme.Grapheme]) is represented by its symbol alone: every grapheme
    of an input state is made by [grapheme.New], whose width is StringWidth of the symbol, or is the empty grapheme of width 0. *)
From Verif Require Import Base M_Geom M_Style M_Uniseg M_Buffer M_Text M_Block M_Slice M_List M_Reflow.
From Coq Require Import ZArith NArith List Bool.
Import ListNotations.
Open Scope Z_scope.

(** state.go:14-21 *)
Record input_state := IState { is_cursor : Z; is_show : bool; is_text : list str; is_offset : Z }.
(** state.go:23-27 *)
Definition new_input_state : input_state := IState 0 true [] 0.
(** state.go:29-31 with internal/grapheme/graphemes.go:36-48 *)
Definition is_string (s : input_state) : str := concat (is_text s).

(** state.go:175-180 *)
Definition clamp_cursor (len cursor : Z) : Z := Z.min (Z.max 0 cursor) len.
(** state.go:33-36 *)
Definition is_set_cursor (s : input_state) (c : Z) : input_state :=
  IState (clamp_cursor (zlen (is_text s)) c) (is_show s) (is_text s) (is_offset s).
(** state.go:38-40 *)
Definition is_show_cursor (s : input_state) (show : bool) : input_state :=
  IState (is_cursor s) show (is_text s) (is_offset s).
(** state.go:42-44 *)
Definition is_left (s : input_state) : input_state := is_set_cursor s (is_cursor s - 1).
(** state.go:46-48 *)
Definition is_right (s : input_state) : input_state := is_set_cursor s (is_cursor s + 1).
(** state.go:50-53 *)
Definition is_begin (s : input_state) : input_state :=
  let s := is_set_cursor s 0 in IState (is_cursor s) (is_show s) (is_text s) 0.
(** state.go:55-57 *)
Definition is_end (s : input_state) : input_state := is_set_cursor s (zlen (is_text s)).

(** slices.Insert(s, i, v): panics when [i] is outside [0, len] *)
Definition slice_insert {A} (l : list A) (i : Z) (a : A) : outcome (list A) :=
  if (i <? 0) || (i >? zlen l) then Panic
  else Ret (firstn (Z.to_nat i) l ++ a :: skipn (Z.to_nat i) l).
(** state.go:59-66 *)
Definition is_append (u : uniseg) (s : input_state) (content : str) : outcome input_state :=
  ofold (fun s c =>
    let! t := slice_insert (is_text s) (is_cursor s) c in
    Ret (is_right (IState (is_cursor s) (is_show s) t (is_offset s)))) (clusters u content) s.
(** state.go:68-71; the offset stays *)
Definition is_delete_line (s : input_state) : input_state := IState 0 (is_show s) [] (is_offset s).

(** state.go:182-188 *)
Definition under_cursor (s : input_state) : outcome str :=
  if (zlen (is_text s) =? 0) || (is_cursor s =? 0) then Ret [] else index_at (is_text s) (is_cursor s - 1).
(** state.go:204-217. [graphemes[:cursor-1]] panics on a negative bound (a bound beyond the length may be accepted, up to the
    capacity, but then [graphemes[cursor-1]] panics). *)
Definition split_at_cursor (s : input_state) : outcome (list str * str * list str) :=
  if (zlen (is_text s) =? 0) || (is_cursor s =? 0) then Ret ([], [], is_text s)
  else
    let! under := index_at (is_text s) (is_cursor s - 1) in
    Ret (firstn (Z.to_nat (is_cursor s - 1)) (is_text s), under,
         if zlen (is_text s) >? is_cursor s then skipn (Z.to_nat (is_cursor s)) (is_text s) else []).

(** state.go:93-102: the loop; [before] is reversed, [len] the number of graphemes, which does not change during the loop *)
Fixpoint delete_loop (cond : str -> bool) (len : Z) (before : list str) (current : str) (cursor : Z) : list str * str * Z :=
  if cond current then
    match before with
    | [] => ([], [], cursor)
    | c :: before' => delete_loop cond len before' c (clamp_cursor len (cursor - 1))
    end
  else (before, current, cursor).
(** state.go:88-106. [append] writes over the array of [before] only where nothing of [after] is stored. *)
Definition delete_while (s : input_state) (cond : str -> bool) : outcome input_state :=
  let! (before, under, after) := split_at_cursor s in
  let '(before, current, cursor) := delete_loop cond (zlen (is_text s)) (rev before) under (is_cursor s) in
  Ret (IState cursor (is_show s) (rev before ++ [current] ++ after) (is_offset s)).

(** internal/grapheme/grapheme.go:33-35 *)
Definition is_empty_str (s : str) : bool := match s with [] => true | _ => false end.
(** state.go:73-86 *)
Definition is_delete_word (s : input_state) : outcome input_state :=
  let! current := under_cursor s in
  if is_empty_str current then Ret s
  else
    let! s := (if is_whitespace current then delete_while s is_whitespace else Ret s) in
    delete_while s (fun g => negb (is_empty_str g) && negb (is_whitespace g)).
(** state.go:108-113 *)
Definition is_delete_under (s : input_state) : outcome input_state :=
  let! (before, _, after) := split_at_cursor s in
  Ret (is_left (IState (is_cursor s) (is_show s) (before ++ after) (is_offset s))).

(** The keys of state.go:132-173 *)
Inductive input_key := IKLeft | IKShiftLeft | IKRight | IKShiftRight | IKBackspace | IKDelete | IKCtrlA | IKCtrlE | IKCtrlW
                     | IKRunes (s : str) | IKSpace (s : str) | IKOther.
(** state.go:132-173; MoveWordLeft and MoveWordRight (115-121) are empty *)
Definition is_update (u : uniseg) (s : input_state) (k : input_key) : outcome (input_state * bool) :=
  match k with
  | IKLeft => Ret (is_left s, true)
  | IKShiftLeft => Ret (s, true)
  | IKRight => Ret (is_right s, true)
  | IKShiftRight => Ret (s, true)
  | IKBackspace | IKDelete => let! s := is_delete_under s in Ret (s, true)
  | IKCtrlA => Ret (is_begin s, true)
  | IKCtrlE => Ret (is_end s, true)
  | IKCtrlW => let! s := is_delete_word s in Ret (s, true)
  | IKRunes t | IKSpace t => let! s := is_append u s t in Ret (s, true)
  | IKOther => Ret (s, false)
  end.

(** state.go:190-202 *)
Definition is_is_empty (s : input_state) : bool := forallb is_empty_str (is_text s).

(** state.go:219-278, on the widths of the graphemes *)
Definition get_bounds (ws : list Z) (cursor offset max_w : Z) : outcome (Z * Z) :=
  if zlen ws =? 0 then Ret (0, 0)
  else
    let offset := Z.min offset (Z.max 0 (zlen ws - 1)) in
    let! tail := skip ws offset in
    let (w, last) := fit_loop tail max_w 0 offset in
    let first := offset in
    let idx := if negb (cursor =? 0) then Z.min (cursor - 1) last else offset in
    (* for indexToDisplay >= lastVisibleIndex *)
    let! (w, first) := ofold (fun (st : Z * Z) last =>
        let (w, first) := st in
        let! x := index_at ws last in
        drop_first (Z.to_nat (zlen ws - first)) ws max_w (w + x) first) (zrange last (idx + 1)) (w, first) in
    let last := Z.max last (idx + 1) in
    (* for indexToDisplay < firstVisibleIndex *)
    let! (_, last) := ofold (fun (st : Z * Z) first =>
        let (w, last) := st in
        let! x := index_at ws first in
        drop_last (Z.to_nat last) ws max_w (w + x) last) (rev (zrange idx first)) (w, last) in
    let first := Z.min first idx in
    if cursor - first >=? last then
      let diff := cursor - last in Ret (first + diff, last + diff)
    else Ret (first, last).

(** input.go:14-24 *)
Record input := Input {
  ip_block : option block; ip_style : style; ip_align : alignment; ip_placeholder : list str; ip_placeholder_style : style;
  ip_cursor_style : style; ip_prompt : str; ip_prompt_style : style
}.

(** input.go:156-184 *)
Definition input_split (i : input) (s : input_state) : outcome (span * span * span) :=
  if is_is_empty s then
    match ip_placeholder i with
    | [] => Ret (new_span [], new_span [], new_span [])
    | c :: rest => Ret (new_span [], Span (ip_placeholder_style i) c, Span (ip_placeholder_style i) (concat rest))
    end
  else
    let! (before, under, after) := split_at_cursor s in
    let before := before ++ [under] in
    let (cursor, after) := match after with [] => ([], []) | c :: rest => (c, rest) end in
    Ret (new_span (concat before), new_span cursor, new_span (concat after)).

(** input.go:119-151: the line drawn in a row of [width] columns, and the new state *)
Definition input_line_of (u : uniseg) (i : input) (width : Z) (s : input_state) : outcome (line * input_state) :=
  let max_w := width - string_width u (ip_prompt i) - 1 in
  let! (first, last) := get_bounds (map (string_width u) (is_text s)) (is_cursor s) (is_offset s) max_w in
  let s := IState (is_cursor s) (is_show s) (is_text s) first in
  let! rest := skip (is_text s) first in
  let! shown := take rest (last - first) in
  let temp := IState (is_cursor s - is_offset s) false shown (is_offset s) in
  let! (before, cursor, after) := input_split i temp in
  let cursor := if is_show s then
      let c := Span (patched (sp_style cursor) (ip_cursor_style i)) (sp_content cursor) in
      if is_empty_str (sp_content c) then Span (sp_style c) [32%N] else c
    else cursor in
  let prompt := if is_empty_str (ip_prompt i) then Span new_style [] else Span (ip_prompt_style i) (ip_prompt i) in
  Ret (Line new_style [prompt; before; cursor; after] (ip_align i), s).

(** input.go:104-154. [row_of] is the one-row area that Layout(ConstraintLen(1)).Vertical().WithFlex(vertical).Split returns
    for the content area (layout.go, modelled separately). *)
Definition input_render (u : uniseg) (row_of : rect -> rect) (i : input) (area : rect) (b : buffer) (s : input_state)
  : outcome (buffer * input_state) :=
  let! b := buffer_set_style b area (ip_style i) in
  let! b := opt_block_render u (ip_block i) area b in
  let row := row_of (opt_block_inner (ip_block i) area) in
  let! (l, s) := input_line_of u i (rw row) s in
  let! b := line_render u l row b in
  Ret (b, s).
