(** Model of terminal_backend.go (Draw and the modifier diff) and terminal.go. *)
From Verif Require Import Base M_Geom M_Style M_Uniseg M_Buffer M_Ansi.
From Coq Require Import ZArith NArith List Bool.
Import ListNotations.
Open Scope Z_scope.

Definition when (b : bool) (c : command) : list command := if b then [c] else [].

(** terminal_backend.go:304-380 *)
Definition modifier_diff (from to : modifier) : list command :=
  let removed := bit_difference from to in
  let added := bit_difference to from in
  when (bit_contains removed ModifierReversed) (SetAttribute AttrNoReverse) ++
  (if bit_contains removed ModifierBold || bit_contains removed ModifierDim then
     [SetAttribute AttrNormalIntensity] ++
     when (bit_contains to ModifierDim) (SetAttribute AttrDim) ++
     when (bit_contains to ModifierBold) (SetAttribute AttrBold)
   else []) ++
  when (bit_contains removed ModifierItalic) (SetAttribute AttrNoItalic) ++
  when (bit_contains removed ModifierUnderlined) (SetAttribute AttrNoUnderline) ++
  when (bit_contains removed ModifierCrossedOut) (SetAttribute AttrNotCrossedOut) ++
  when (bit_contains removed ModifierSlowBlink || bit_contains removed ModifierRapidBlink) (SetAttribute AttrNoBlink) ++
  when (bit_contains added ModifierReversed) (SetAttribute AttrReverse) ++
  when (bit_contains added ModifierBold) (SetAttribute AttrBold) ++
  when (bit_contains added ModifierItalic) (SetAttribute AttrItalic) ++
  when (bit_contains added ModifierUnderlined) (SetAttribute AttrUnderlined) ++
  when (bit_contains added ModifierDim) (SetAttribute AttrDim) ++
  when (bit_contains added ModifierCrossedOut) (SetAttribute AttrCrossedOut) ++
  when (bit_contains added ModifierSlowBlink) (SetAttribute AttrSlowBlink) ++
  when (bit_contains added ModifierRapidBlink) (SetAttribute AttrRapidBlink).

(** Local variables of terminal_backend.go:133-200 *)
Record draw_state := DrawState { ds_last : option pos; ds_mod : modifier; ds_fg : option color; ds_bg : option color }.

(** terminal_backend.go:148: no MoveTo when the cell is right after the previous one *)
Definition adjacent (last : option pos) (p : pos) : bool :=
  match last with
  | None => false
  | Some l => (px l + 1 =? px p) && (py l =? py p)
  end.

(** terminal_backend.go:144-187: the commands of one iteration and the new state *)
Definition draw_cell (te : termenv) (st : draw_state) (pc : pos * cell) : list command * draw_state :=
  let (p, c) := pc in
  let mv := if adjacent (ds_last st) p then [] else [MoveTo (px p) (py p)] in
  let md := if N.eqb (cmod c) (ds_mod st) then [] else modifier_diff (ds_mod st) (cmod c) in
  let cl := if ocolor_eqb (cfg c) (ds_fg st) && ocolor_eqb (cbg c) (ds_bg st) then []
            else [SetColors (conv te (cfg c)) (conv te (cbg c))] in
  (mv ++ md ++ cl ++ [Print (csym c)], DrawState (Some p) (cmod c) (cfg c) (cbg c)).

Fixpoint draw_cells (te : termenv) (st : draw_state) (l : list (pos * cell)) : list command :=
  match l with
  | [] => []
  | pc :: l' => let (cs, st') := draw_cell te st pc in cs ++ draw_cells te st' l'
  end.

(** terminal_backend.go:133-200 *)
Definition backend_draw (te : termenv) (l : list (pos * cell)) : list command :=
  draw_cells te (DrawState None 0%N (Some ColReset) (Some ColReset)) l
  ++ [SetColors (Some ColReset) (Some ColReset); SetAttribute AttrReset].

(** viewport.go; ViewportInline is unimplemented (panics) *)
Inductive viewport := Fullscreen | Fixed (r : rect) | Inline (n : Z).

(** terminal.go:16-30; [tm_current] selects buffers[0] ([false]) or buffers[1]; the fields that only record
    cursor bookkeeping are dropped. *)
Record terminal := Terminal {
  tm_viewport : viewport; tm_area : rect; tm_buf0 : buffer; tm_buf1 : buffer; tm_current : bool; tm_frames : Z }.

(** terminal.go:217-223 *)
Definition current_buffer (t : terminal) : buffer := if tm_current t then tm_buf1 t else tm_buf0 t.
Definition previous_buffer (t : terminal) : buffer := if tm_current t then tm_buf0 t else tm_buf1 t.
Definition set_current (t : terminal) (b : buffer) : terminal :=
  if tm_current t then Terminal (tm_viewport t) (tm_area t) (tm_buf0 t) b (tm_current t) (tm_frames t)
  else Terminal (tm_viewport t) (tm_area t) b (tm_buf1 t) (tm_current t) (tm_frames t).
Definition set_previous (t : terminal) (b : buffer) : terminal :=
  if tm_current t then Terminal (tm_viewport t) (tm_area t) b (tm_buf1 t) (tm_current t) (tm_frames t)
  else Terminal (tm_viewport t) (tm_area t) (tm_buf0 t) b (tm_current t) (tm_frames t).

(** terminal.go:32-77; [w],[h] is the size reported by the backend *)
Definition new_terminal (v : viewport) (w h : Z) : outcome terminal :=
  match v with
  | Inline _ => Panic
  | Fullscreen =>
      let area := new_rect w h in
      let! b0 := new_buffer_empty area in
      let! b1 := new_buffer_empty area in
      Ret (Terminal v area b0 b1 false 0)
  | Fixed r =>
      let! b0 := new_buffer_empty r in
      let! b1 := new_buffer_empty r in
      Ret (Terminal v r b0 b1 false 0)
  end.

(** A widget's Render(area, buffer) as a function on the buffer. *)
Definition widget := rect -> buffer -> outcome buffer.

(** terminal.go:279-282 *)
Definition swap_buffers (t : terminal) : terminal :=
  let t1 := set_previous t (buffer_reset (previous_buffer t)) in
  Terminal (tm_viewport t1) (tm_area t1) (tm_buf0 t1) (tm_buf1 t1) (negb (tm_current t1)) (tm_frames t1).

(** terminal.go:120-158 with Flush 189-206; frame.cursorPosition has no setter, so it is always nil and the cursor is hidden.
    Returns the new terminal and the commands sent. *)
Definition terminal_draw (u : uniseg) (te : termenv) (t : terminal) (w : widget) : outcome (terminal * list command) :=
  let! b := w (tm_area t) (current_buffer t) in
  let t1 := set_current t b in
  let! updates := diff u (previous_buffer t1) (current_buffer t1) in
  let cmds := backend_draw te updates ++ [HideCursor] in
  let t2 := swap_buffers t1 in
  Ret (Terminal (tm_viewport t2) (tm_area t2) (tm_buf0 t2) (tm_buf1 t2) (tm_current t2) (tm_frames t2 + 1), cmds).

(** terminal.go:246-277 *)
Definition terminal_clear (t : terminal) : outcome (terminal * list command) :=
  match tm_viewport t with
  | Fullscreen => Ret (set_previous t (buffer_reset (previous_buffer t)), [ClearAll])
  | Fixed _ =>
      Ret (set_previous t (buffer_reset (previous_buffer t)),
           flat_map (fun y => [MoveTo 0 y; ClearAfterCursor]) (zrange (rtop (tm_area t)) (rbottom (tm_area t))))
  | Inline _ =>
      Ret (set_previous t (buffer_reset (previous_buffer t)),
           [MoveTo (rx (tm_area t)) (ry (tm_area t)); ClearAfterCursor])
  end.

(** terminal.go:225-244 with setViewportArea 288-293 *)
Definition terminal_resize (t : terminal) (area : rect) : outcome (terminal * list command) :=
  match tm_viewport t with
  | Inline _ => Panic
  | _ =>
      let! c := buffer_resize (current_buffer t) area in
      let t1 := set_current t c in
      let! p := buffer_resize (previous_buffer t1) area in
      let t2 := set_previous t1 p in
      terminal_clear (Terminal (tm_viewport t2) area (tm_buf0 t2) (tm_buf1 t2) (tm_current t2) (tm_frames t2))
  end.
