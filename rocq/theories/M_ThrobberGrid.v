(** Model of examples/throbber: the grid in which the program draws its throbbers, and the drawing of them. *)
From Verif Require Import Base M_Geom M_Style M_Utf8 M_Uniseg M_Buffer M_Text M_Block M_Options M_Solver M_Layout M_Popup M_Throbber M_View M_Splitted.
From Coq Require Import ZArith NArith String List Bool.
Import ListNotations.
Open Scope Z_scope.

(** examples/throbber/main.go:85-86; Go's division rounds toward zero *)
Definition grid_columns : Z := 3.
Definition grid_rows (items : Z) : Z := Z.quot items grid_columns + Z.rem items grid_columns.
(** main.go:88-94; Vertical() keeps the direction (layout.go:63-75, 81-84) *)
Definition rows_layout (items : Z) : layout := new_layout (repeat (LFill 1) (Z.to_nat (grid_rows items))).
(** main.go:99-105: Horizontal() changes the direction (layout.go:77-84) *)
Definition columns_layout : layout := Layout DirHorizontal (repeat (LFill 1) (Z.to_nat grid_columns)) (Padding 0 0 0 0) FlexLegacy (SpSpace 0).

Section Tolerance.
Context {ar : arith} {tolr : tolerance}.
(** main.go:96-110: the columns of every row, one after the other; [rs i] is the run of the solver for the row i. No result while the solver is busy. *)
Fixpoint rows_areas (rs : nat -> run) (i : nat) (rows : list rect) : option (outcome (list rect)) :=
  match rows with
  | [] => Some (Ret [])
  | ra :: rows =>
      match M_Layout.split (run_order (rs i)) (run_fuel (rs i)) (run_vars (rs i)) columns_layout ra with
      | Splits segs _ =>
          match rows_areas rs (S i) rows with
          | Some (Ret l) => Some (Ret (segs ++ l))
          | x => x
          end
      | SplitPanics => Some Panic
      | SplitBusy => None
      end
  end.
(** main.go:84-113 (getGrid) *)
Definition get_grid (r : run) (rs : nat -> run) (area : rect) (items : Z) : option (outcome (list rect)) :=
  match M_Layout.split (run_order r) (run_fuel r) (run_vars r) (rows_layout items) area with
  | Splits rows _ => rows_areas rs 0 rows
  | SplitPanics => Some Panic
  | SplitBusy => None
  end.
End Tolerance.

(** set.go:23-46 *)
Definition type_string (t : throbber_type) : str :=
  asc match t with
  | TypeBrailleEight => "BrailleEight" | TypeCanadian => "Canadian" | TypeEllipsis => "Ellipsis" | TypeHorizontalBlock => "HorizontalBlock" | TypeLine => "Line"
  | TypeMeter => "Meter" | TypeParenthesis => "Parenthesis" | TypePulse => "Pulse" | TypeVerticalBlock => "VerticalBlock"
  end.
(** main.go:56-66 *)
Definition shown_types : list throbber_type :=
  [TypeLine; TypeHorizontalBlock; TypeVerticalBlock; TypeBrailleEight; TypeParenthesis; TypeCanadian; TypeEllipsis; TypeMeter; TypePulse].
(** main.go:71 *)
Definition type_block (t : throbber_type) : block := block_apply (block_apply new_block Block_Bordered) (Block_WithTitleStr (type_string t)).

Section Drawing.
Context {ar : arith} {tolr : tolerance}.
(** main.go:70-81: [rs i] are the two runs of the solver for the throbber i (throbber.go:33-47). The throbber's state does not change when it is drawn. *)
Fixpoint draw_types (u : uniseg) (rs : nat -> run * run) (s : throbber_state) (grid : list rect) (i : nat) (types : list throbber_type) (b : buffer) : option (outcome buffer) :=
  match types with
  | [] => Some (Ret b)
  | t :: types =>
      match index_at grid (Z.of_nat i) with
      | Panic => Some Panic
      | Ret g =>
          let a := block_inner (type_block t) g in
          match block_render u (type_block t) g b with
          | Panic => Some Panic
          | Ret b =>
              match throbber_render u (fst (rs i)) (snd (rs i)) (throbber_with_type new_throbber t) a b s with
              | Some (Ret b) => draw_types u rs s grid (S i) types b
              | x => x
              end
          end
      end
  end.
(** main.go:55-82 *)
Definition render_throbbers (u : uniseg) (r : run) (rows : nat -> run) (rs : nat -> run * run) (s : throbber_state) (area : rect) (b : buffer) : option (outcome buffer) :=
  match get_grid r rows area (zlen shown_types) with
  | Some (Ret grid) => draw_types u rs s grid 0 shown_types b
  | Some Panic => Some Panic
  | None => None
  end.
End Drawing.

(** main.go:28-36: NewLayout(...).Vertical() *)
Definition screen_layout : layout := new_layout [LLen 1; LFill 1; LLen 1].
(** main.go:44 *)
Definition footer_text : str := asc """+"" - increment FPS | ""-"" - decrement FPS".
(** main.go:50; [duration] is the String of time.Duration, which is not modelled *)
Definition info_text (duration : Z -> str) (rate : Z) : str := asc "FPS " ++ duration rate.
Section Screen.
Context {ar : arith} {tolr : tolerance}.
(** The runs of the solver for one drawing of the screen *)
Record spin_runs_of := SpinRuns { sr_screen : run; sr_grid : run; sr_rows : nat -> run; sr_spins : nat -> run * run }.
(** main.go:25-53: Assign (layout.go:30-36) stores the three segments; then the information, the throbbers and the footer are drawn.
    No result while the solver is busy. *)
Definition spin_render (u : uniseg) (duration : Z -> str) (rs : spin_runs_of) (s : throbber_state) (rate : Z) (area : rect) (b : buffer) : option (outcome buffer) :=
  match M_Layout.split (run_order (sr_screen rs)) (run_fuel (sr_screen rs)) (run_vars (sr_screen rs)) screen_layout area with
  | Splits segs _ =>
      match assign segs [Some 0; Some 1; Some 2]%nat (fun _ => Rect 0 0 0 0) with
      | Ret m =>
          match text_render u (new_text_str (info_text duration rate)) (m 0%nat) b with
          | Ret b =>
              match render_throbbers u (sr_grid rs) (sr_rows rs) (sr_spins rs) s (m 1%nat) b with
              | Some (Ret b) => Some (text_render u (new_text_str footer_text) (m 2%nat) b)
              | x => x
              end
          | Panic => Some Panic
          end
      | Panic => Some Panic
      end
  | SplitPanics => Some Panic
  | SplitBusy => None
  end.
End Screen.
