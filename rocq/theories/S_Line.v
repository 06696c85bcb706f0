(** What a rendered line should look like. *)
From Verif Require Import Base M_Geom M_Style M_Uniseg S_Text M_Text.
From Coq Require Import ZArith List Bool.
Import ListNotations.
Open Scope Z_scope.

(** The clusters of a span / of a line with the span style they carry. *)
Definition span_cells (u : uniseg) (s : span) : list (str * style) := map (fun c => (c, sp_style s)) (clusters u (sp_content s)).
Definition line_cells (u : uniseg) (spans : list span) : list (str * style) := flat_map (span_cells u) spans.

(** The cell at a place where [s] is seen and [c] was before. *)
Definition paint (s : option shown_at) (c : cell) : cell :=
  match s with
  | Some (HeadOf sym st) => cell_set_style st (cell_set_symbol sym c)
  | Some TailOf => cell_reset c
  | None => c
  end.

Definition cells_width (u : uniseg) (l : list (str * style)) : Z := zsum (map (fun cs => cwidth u (fst cs)) l).

(** Window column at which the line starts, in a window of [W] columns, for a line of [lw] columns; negative when the line
    is cut on the left. *)
Definition start_column (al : alignment) (W lw : Z) : Z :=
  match al with
  | AlignNone | AlignLeft => 0
  | AlignRight => W - lw
  | AlignCenter => if lw <=? W then (W - lw) / 2 else - ((lw - W) / 2)
  end.

(** A line's own alignment, if set, has precedence over the one inherited from the text. *)
Definition effective (own inherited : alignment) : alignment := match own with AlignNone => inherited | _ => own end.

(** Every cluster takes at least one column and holds no control character. *)
Definition visible_line (u : uniseg) (spans : list span) : Prop :=
  forall s c, In s spans -> In c (clusters u (sp_content s)) -> 1 <= cwidth u c /\ existsb is_control c = false.
