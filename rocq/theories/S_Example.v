(** C101: what the program of examples/input shows. *)
From Verif Require Import Base M_Geom S_Geom M_Style M_Uniseg M_Buffer M_Text M_Block M_Solver M_Layout M_Popup M_Input M_View M_Decode M_Typing M_Cmd M_Backend S_Stateful S_Session T_Popup M_Example.
From Coq Require Import ZArith NArith List Bool.
Import ListNotations.
Open Scope Z_scope.

(** The cell of a background filled with a symbol. *)
Definition filled (symbol : str) (st : style) : cell :=
  Cell symbol (match sfg st with Some c => Some c | None => Some ColReset end) (match sbg st with Some c => Some c | None => Some ColReset end) (N.ldiff (sadd st) (ssub st)) false.
(** The cell of the inside of a popup with a block, on which an input is going to be drawn. *)
Definition cleared (p : popup) (i : input) : cell :=
  cell_set_style (ip_style i) (match pp_block p with Some k => cell_set_style (bk_style k) (cell_set_style (pp_style p) empty_cell) | None => cell_set_style (pp_style p) empty_cell end).
(** The row of an input without a block: the whole content area, or the line that Top, Middle or Bottom names. *)
Definition row_in (w : input_widget) (content : rect) : rect :=
  match iw_vertical w with
  | FlexStart => Rect (rx content) (ry content) (rw content) 1
  | FlexCenter => Rect (rx content) (ry content + rh content / 2) (rw content) 1
  | FlexEnd => Rect (rx content) (ry content + rh content - 1) (rw content) 1
  | _ => content
  end.
(** The frame contains the rectangle, which has room for something. *)
Definition holds (frame r : rect) : Prop := 1 <= rw r /\ 1 <= rh r /\ rx frame <= rx r /\ ry frame <= ry r /\ rx r + rw r <= rx frame + rw frame /\ ry r + rh r <= ry frame + rh frame.

Section Tolerance.
Context {ar : arith} {tolr : tolerance}.
(** In a frame of this size the popup is at [at_], whatever the runs of the solver that end; and the input's row is found. *)
Definition laid_out (p : popup) (w : input_widget) (size : Z * Z) (at_ : rect) : Prop :=
  let frame := new_rect (fst size) (snd size) in let content := popup_inner_at p at_ in
  holds frame at_ /\
  (forall r r', any_run r (popup_rows p) -> any_run r' (popup_columns p) -> popup_area r r' p frame = At at_ \/ popup_area r r' p frame = PlaceBusy) /\
  (forall r, any_run r (input_layout w) -> split_one r (input_layout w) content = At (row_in w content) \/ split_one r (input_layout w) content = PlaceBusy).
(** Any orders of the maps in the five runs *)
Definition any_runs (p : popup) (w : input_widget) (r : draw_runs) : Prop :=
  any_run (dr_rows r) (popup_rows p) /\ any_run (dr_columns r) (popup_columns p) /\ any_run (dr_rows' r) (popup_rows p) /\ any_run (dr_columns' r) (popup_columns p) /\ any_run (dr_row r) (input_layout w).
(** The program: its model is the state of the input, its Update the example's; each of its draws is the example's Render with some runs of the solver,
    which end, and leaves the state that Render leaves. *)
Record input_program (u : uniseg) (ds : list M_Decode.msg) (symbol : str) (fill : style) (p : popup) (w : input_widget) (at_size : Z * Z -> Prop)
  (update : input_state -> M_Cmd.msg -> option (input_state * option cmd)) (redrawn : input_state -> Z * Z -> input_state) (view : input_state -> widget) : Prop := {
  ip_update : forall s x, update s x = example_update u ds s x;
  ip_draws : forall s W H, at_size (W, H) -> let frame := new_rect W H in
    exists r o, any_runs p w r /\ example_render u r symbol fill p w frame (blank frame) s = Some o /\
      view s frame (blank frame) = omap fst o /\ forall b' s', o = Ret (b', s') -> redrawn s (W, H) = s' }.
End Tolerance.

(** Where the popup of the example is on a terminal of so many columns and rows: three rows high, in the middle; from a fifth of the columns on to four fifths. *)
Definition example_place (size : Z * Z) : rect :=
  let (columns, rows) := size in let x := (2 * columns + 5) / 10 in Rect x ((rows - 2) / 2) ((8 * columns + 5) / 10 - x) 3.
