(** Model of widget/scrollwidget. *)
From Verif Require Import Base M_Geom M_Style M_Uniseg M_Buffer M_Slice M_Float.
From Coq Require Import ZArith NArith List Bool.
Import ListNotations.
Open Scope Z_scope.

(** orientation.go:3-10; values outside the enumeration are not modelled *)
Inductive orientation := VerticalRight | VerticalLeft | HorizontalBottom | HorizontalTop.
(** orientation.go:12-19 *)
Definition is_vertical (o : orientation) : bool := match o with VerticalLeft | VerticalRight => true | _ => false end.

(** scroll.go:14-28; a nil symbol is [None] *)
Record scroll := Scroll {
  sc_orientation : orientation;
  sc_thumb_style : style; sc_thumb : str;
  sc_track_style : style; sc_track : option str;
  sc_begin_style : style; sc_begin : option str;
  sc_end_style : style; sc_end : option str
}.
(** state.go:22-26 *)
Record scroll_state := ScrollState { ss_content : Z; ss_position : Z; ss_viewport : Z }.

(** scroll.go:30-49 with set.go:41-67 (double vertical: ║ █ ▲ ▼; double horizontal: ═ █ and empty strings) *)
Definition new_scroll (o : orientation) : scroll :=
  if is_vertical o
  then Scroll o new_style [9608%N] new_style (Some [9553%N]) new_style (Some [9650%N]) new_style (Some [9660%N])
  else Scroll o new_style [9608%N] new_style (Some [9552%N]) new_style (Some []) new_style (Some []).

(** scroll.go:244-281 *)
Definition scrollbar_area (o : orientation) (area : rect) : option rect :=
  match o with
  | VerticalLeft => hd_error (columns area)
  | VerticalRight => hd_error (rev (columns area))
  | HorizontalBottom => hd_error (rows area)
  | HorizontalTop => hd_error (rev (rows area))
  end.

(** scroll.go:51-73 *)
Definition scroll_inner (o : orientation) (area : rect) : rect :=
  match scrollbar_area o area with
  | None => Rect 0 0 0 0
  | Some bar =>
      let none := Padding 0 0 0 0 in
      inner area (match o with
                  | HorizontalBottom => pad_with_bottom none (rh bar)
                  | HorizontalTop => pad_with_top none (rh bar)
                  | VerticalLeft => pad_with_left none (rw bar)
                  | VerticalRight => pad_with_right none (rw bar)
                  end)
  end.

(** scroll.go:168-188 *)
Definition symbol_len (u : uniseg) (o : option str) : Z := match o with None => 0 | Some s => string_width u s end.
Definition side_len (o : orientation) (area : rect) : Z := if is_vertical o then rh area else rw area.
Definition track_len (u : uniseg) (s : scroll) (area : rect) : Z :=
  Z.max 0 (side_len (sc_orientation s) area - (symbol_len u (sc_begin s) + symbol_len u (sc_end s))).

(** scroll.go:232-242 *)
Definition viewport_len (s : scroll) (area : rect) (st : scroll_state) : Z :=
  if negb (ss_viewport st =? 0) then ss_viewport st else side_len (sc_orientation s) area.

(** scroll.go:217-224: int(math.Round(float64(n) / float64(d))); [junk] stands for what Go's conversion delivers when the
    quotient is not a number that fits an int *)
Definition round_quotient (junk n d : Z) : Z :=
  let fn := of_int n in
  let fd := of_int d in
  if is_zero fd then junk else to_int junk (math_round (fdiv fn fd)).

(** scroll.go:200-230 *)
Definition part_lens (junk track viewport : Z) (st : scroll_state) : Z * Z * Z :=
  let max_position := Z.max 0 (wrap64 (ss_content st - 1)) in
  let start_position := Z.max 0 (Z.min max_position (ss_position st)) in
  let max_viewport := wrap64 (max_position + viewport) in
  let end_position := wrap64 (start_position + viewport) in
  let thumb_start := Z.max 0 (Z.min (track - 1) (round_quotient junk (wrap64 (start_position * track)) max_viewport)) in
  let thumb_end := Z.max 0 (Z.min track (round_quotient junk (wrap64 (end_position * track)) max_viewport)) in
  let thumb_len := Z.max 1 (Z.max 0 (thumb_end - thumb_start)) in
  (thumb_start, thumb_len, Z.max 0 (track - thumb_start - thumb_len)).

(** scroll.go:110-161 *)
Definition bar_symbols (u : uniseg) (junk : Z) (s : scroll) (area : rect) (st : scroll_state) : outcome (list (option (str * style))) :=
  let '(before, thumb, after) := part_lens junk (track_len u s area) (viewport_len s area st) st in
  let track := option_map (fun x => (x, sc_track_style s)) (sc_track s) in
  let! start_part := slice_repeat track before in
  let! thumb_part := slice_repeat (Some (sc_thumb s, sc_thumb_style s)) thumb in
  let! end_part := slice_repeat track after in
  Ret ([option_map (fun x => (x, sc_begin_style s)) (sc_begin s)] ++ start_part ++ thumb_part ++ end_part
       ++ [option_map (fun x => (x, sc_end_style s)) (sc_end s)]).

(** scroll.go:91-102: one iteration *)
Definition draw_symbol (u : uniseg) (b : buffer) (e : rect * option (str * style)) : outcome buffer :=
  match snd e with
  | None => Ret b
  | Some (s, st) => set_string u b (rx (fst e)) (ry (fst e)) s st
  end.

(** scroll.go:75-103; the loop runs over the shorter of the two lists *)
Definition scroll_render (u : uniseg) (junk : Z) (s : scroll) (area : rect) (b : buffer) (st : scroll_state) : outcome buffer :=
  if (ss_content st =? 0) || (track_len u s area =? 0) then Ret b
  else match scrollbar_area (sc_orientation s) area with
  | None => Ret b
  | Some bar =>
      let! symbols := bar_symbols u junk s bar st in
      ofold (draw_symbol u) (combine (flat_map rows (columns bar)) symbols) b
  end.

(** state.go:32-38 *)
Definition new_scroll_state (content : Z) : scroll_state := ScrollState content 0 0.
(** state.go:40-48 *)
Definition scroll_set_position (st : scroll_state) (p : Z) : scroll_state := ScrollState (ss_content st) p (ss_viewport st).
Definition scroll_set_viewport (st : scroll_state) (v : Z) : scroll_state := ScrollState (ss_content st) (ss_position st) v.
(** state.go:51-53 *)
Definition scroll_prev (st : scroll_state) : scroll_state := scroll_set_position st (Z.max 0 (wrap64 (ss_position st - 1))).
(** state.go:56-58 *)
Definition scroll_next (st : scroll_state) : scroll_state :=
  scroll_set_position st (Z.min (wrap64 (ss_position st + 1)) (Z.max 0 (wrap64 (ss_content st - 1)))).
(** state.go:60-66 *)
Definition scroll_first (st : scroll_state) : scroll_state := scroll_set_position st 0.
Definition scroll_last (st : scroll_state) : scroll_state := scroll_set_position st (Z.max 0 (wrap64 (ss_content st - 1))).

(** direction.go, state.go:68-75 *)
Inductive direction := Forward | Backward.
Definition scroll_scroll (st : scroll_state) (d : direction) : scroll_state :=
  match d with Forward => scroll_next st | Backward => scroll_prev st end.
