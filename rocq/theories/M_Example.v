(** Model of the repository's example program examples/input/main.go: a text input in a popup over a filled background. *)
From Verif Require Import Base M_Geom M_Style M_Uniseg M_Buffer M_Text M_Block M_Solver M_Layout M_Popup M_Input M_View M_Options M_Utf8 M_KeyTable M_Decode M_Typing M_Cmd.
From Coq Require Import ZArith NArith String List Bool.
Import ListNotations.
Open Scope Z_scope.

(** examples/input/main.go:21 *)
Definition example_block : block := block_build [Block_Bordered; Block_Thick; Block_WithTitleStr (asc "Input")] new_block.
(** examples/input/main.go:22 *)
Definition example_input (u : uniseg) : input_widget := input_with_prompt (input_with_placeholder u new_input (asc "Placeholder...")) (asc "> ").
(** examples/input/main.go:24 *)
Definition example_popup : popup := popup_with_height (popup_with_block new_popup example_block) (LLen 3).
(** examples/input/main.go:26: the symbol and the style *)
Definition example_symbol : str := [9586%N].
Definition example_fill : style := dim new_style.

Section Tolerance.
Context {ar : arith} {tolr : tolerance}.
(** The runs of the solver in one Render: two in popup.Render, two in popup.Inner, one in input.RenderStateful. *)
Record draw_runs := DrawRuns { dr_rows : run; dr_columns : run; dr_rows' : run; dr_columns' : run; dr_row : run }.
(** examples/input/main.go:28-30, for any popup, input and background. No result while the solver is busy. *)
Definition example_render (u : uniseg) (r : draw_runs) (symbol : str) (fill : style) (p : popup) (w : input_widget) (area : rect) (b : buffer) (s : input_state) : option (outcome (buffer * input_state)) :=
  match fill_render symbol fill area b with
  | Panic => Some Panic
  | Ret b =>
      match popup_render u (dr_rows r) (dr_columns r) p area b with
      | None => None
      | Some Panic => Some Panic
      | Some (Ret b) =>
          match popup_inner (dr_rows' r) (dr_columns' r) p area with
          | None => None
          | Some Panic => Some Panic
          | Some (Ret inner) => input_draw u (dr_row r) w inner b s
          end
      end
  end.
End Tolerance.

(** examples/input/main.go:39-54. The [n]-th message of the input reader is [MUser n]; every other message is none the input or the switch knows. A panic of
    TryUpdate is one of Update. *)
Definition example_update (u : uniseg) (ds : list M_Decode.msg) (s : input_state) (x : M_Cmd.msg) : option (input_state * option cmd) :=
  match x with
  | MUser n =>
      match nth_error ds n with
      | Some d =>
          match try_update u s d with
          | Panic => None
          | Ret (s', true) => Some (s', None)
          | Ret (s', false) => Some (s', match d with KeyMsg k => if bytes_eqb (key_string k) (asc "ctrl+c") then Some (quit_cmd 0) else None | _ => None end)
          end
      | None => Some (s, None)
      end
  | _ => Some (s, None)
  end.
