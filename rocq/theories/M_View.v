(** The widgets that place themselves with a layout: the throbber (widget/throbberwidget/throbber.go) and the row of an input
    (widget/inputwidget/input.go). *)
From Verif Require Import Base M_Geom M_Style M_Uniseg M_Buffer M_Text M_Block M_Solver M_Layout M_Popup M_Input M_Throbber.
From Coq Require Import ZArith NArith List Bool.
Import ListNotations.
Open Scope Z_scope.

(** widget/textwidget/line.go:72-84 *)
Definition lines_height (l : list line) : Z := zlen l.
Definition lines_width (u : uniseg) (l : list line) : Z := fold_left (fun width x => Z.max width (line_width u x)) l 0.

(** ** Throbber *)
(** throbber.go:10-16 *)
Record throbber := Throbber { tw_style : style; tw_set : list str; tw_vertical : flex; tw_horizontal : flex; tw_padding : padding }.
(** throbber.go:18-26; NewPadding() is no padding (padding.go) *)
Definition new_throbber : throbber := Throbber new_style line_set FlexCenter FlexCenter (Padding 0 0 0 0).
(** throbber.go:28-31 *)
Definition throbber_with_type (t : throbber) (ty : throbber_type) : throbber := Throbber (tw_style t) (frame_set ty) (tw_vertical t) (tw_horizontal t) (tw_padding t).
(** set.go:81-85 *)
Definition frame_dimensions (u : uniseg) (f : str) : Z * Z := let ls := new_lines_str [f] in (lines_width u ls, lines_height ls).
(** throbber.go:38-39 *)
Definition throbber_rows (u : uniseg) (t : throbber) (f : str) : layout := Layout DirVertical [LLen (snd (frame_dimensions u f))] (tw_padding t) (tw_vertical t) (SpSpace 0).
Definition throbber_columns (u : uniseg) (t : throbber) (f : str) : layout := Layout DirHorizontal [LLen (fst (frame_dimensions u f))] (tw_padding t) (tw_horizontal t) (SpSpace 0).
Section Tolerance.
Context {ar : arith} {tolr : tolerance}.
(** throbber.go:41-42 *)
Definition throbber_area (u : uniseg) (r r' : run) (t : throbber) (f : str) (area : rect) : place :=
  match split_one r (throbber_rows u t f) area with At rows => split_one r' (throbber_columns u t f) rows | x => x end.
(** throbber.go:33-47; no result while the solver is busy *)
Definition throbber_render (u : uniseg) (r r' : run) (t : throbber) (area : rect) (b : buffer) (s : throbber_state) : option (outcome buffer) :=
  match set_frame (tw_set t) (th_frame s) with
  | Panic => Some Panic
  | Ret f =>
      match throbber_area u r r' t f area with
      | At at_ => Some (text_render u (Text (tw_style t) (tx_lines (new_text_str f)) AlignNone) at_ b)
      | PlacePanics => Some Panic
      | PlaceBusy => None
      end
  end.
End Tolerance.

(** ** Input *)
(** widget/inputwidget/input.go:14-24: [input] and the field vertical *)
Record input_widget := InputWidget { iw_input : input; iw_vertical : flex }.
(** widget/inputwidget/input.go:26-38 *)
Definition new_input : input_widget := InputWidget (Input None new_style AlignLeft [] (italic (dim new_style)) (reversed new_style) [] new_style) FlexLegacy.
(** widget/inputwidget/input.go:64-78 *)
Definition input_with_vertical (w : input_widget) (f : flex) : input_widget := InputWidget (iw_input w) f.
Definition input_top (w : input_widget) : input_widget := input_with_vertical w FlexStart.
Definition input_middle (w : input_widget) : input_widget := input_with_vertical w FlexCenter.
Definition input_bottom (w : input_widget) : input_widget := input_with_vertical w FlexEnd.
(** widget/inputwidget/input.go:40-48, 80-102 *)
Definition input_with_prompt (w : input_widget) (p : str) : input_widget :=
  let i := iw_input w in InputWidget (Input (ip_block i) (ip_style i) (ip_align i) (ip_placeholder i) (ip_placeholder_style i) (ip_cursor_style i) p (ip_prompt_style i)) (iw_vertical w).
Definition input_with_prompt_style (w : input_widget) (s : style) : input_widget :=
  let i := iw_input w in InputWidget (Input (ip_block i) (ip_style i) (ip_align i) (ip_placeholder i) (ip_placeholder_style i) (ip_cursor_style i) (ip_prompt i) s) (iw_vertical w).
Definition input_with_block (w : input_widget) (k : block) : input_widget :=
  let i := iw_input w in InputWidget (Input (Some k) (ip_style i) (ip_align i) (ip_placeholder i) (ip_placeholder_style i) (ip_cursor_style i) (ip_prompt i) (ip_prompt_style i)) (iw_vertical w).
(** with internal/grapheme/graphemes.go: NewGraphemes splits into clusters *)
Definition input_with_placeholder (u : uniseg) (w : input_widget) (p : str) : input_widget :=
  let i := iw_input w in InputWidget (Input (ip_block i) (ip_style i) (ip_align i) (clusters u p) (ip_placeholder_style i) (ip_cursor_style i) (ip_prompt i) (ip_prompt_style i)) (iw_vertical w).
Definition input_with_placeholder_style (w : input_widget) (s : style) : input_widget :=
  let i := iw_input w in InputWidget (Input (ip_block i) (ip_style i) (ip_align i) (ip_placeholder i) s (ip_cursor_style i) (ip_prompt i) (ip_prompt_style i)) (iw_vertical w).
Definition input_with_cursor_style (w : input_widget) (s : style) : input_widget :=
  let i := iw_input w in InputWidget (Input (ip_block i) (ip_style i) (ip_align i) (ip_placeholder i) (ip_placeholder_style i) s (ip_prompt i) (ip_prompt_style i)) (iw_vertical w).
Definition input_with_alignment (w : input_widget) (a : alignment) : input_widget :=
  let i := iw_input w in InputWidget (Input (ip_block i) (ip_style i) a (ip_placeholder i) (ip_placeholder_style i) (ip_cursor_style i) (ip_prompt i) (ip_prompt_style i)) (iw_vertical w).
(** widget/inputwidget/input.go:50-62 *)
Definition input_left (w : input_widget) : input_widget := input_with_alignment w AlignLeft.
Definition input_center (w : input_widget) : input_widget := input_with_alignment w AlignCenter.
Definition input_right (w : input_widget) : input_widget := input_with_alignment w AlignRight.
(** widget/inputwidget/input.go:112-117 *)
Definition input_layout (w : input_widget) : layout := Layout DirVertical [LLen 1] (Padding 0 0 0 0) (iw_vertical w) (SpSpace 0).
Section Tolerance2.
Context {ar : arith} {tolr : tolerance}.
(** widget/inputwidget/input.go:104-154 *)
Definition input_draw (u : uniseg) (r : run) (w : input_widget) (area : rect) (b : buffer) (s : input_state) : option (outcome (buffer * input_state)) :=
  match split_one r (input_layout w) (opt_block_inner (ip_block (iw_input w)) area) with
  | At row => Some (input_render u (fun _ => row) (iw_input w) area b s)
  | PlacePanics => Some Panic
  | PlaceBusy => None
  end.
End Tolerance2.
