(** Where the titles of a block should be. *)
From Verif Require Import Base M_Geom M_Style M_Uniseg S_Text M_Text M_Block S_Line.
From Coq Require Import ZArith NArith List Bool.
Import ListNotations.
Open Scope Z_scope.

(** The titles of a block that belong to a row and an alignment, in the order in which they were added; what a title does
    not say itself is taken from the block. *)
Definition belongs (k : block) (p : title_position) (a : alignment) (t : title) : bool :=
  match match ti_pos t with Some q => q | None => bk_titles_pos k end, p with
  | TitleTop, TitleTop | TitleBottom, TitleBottom => true | _, _ => false end &&
  match match ti_align t with AlignNone => bk_titles_align k | x => x end, a with
  | AlignNone, AlignNone | AlignLeft, AlignLeft | AlignCenter, AlignCenter | AlignRight, AlignRight => true | _, _ => false end.
Definition group (k : block) (p : title_position) (a : alignment) : list title := filter (belongs k p a) (bk_titles k).

Section Strip.
Context (u : uniseg).

(** Columns of a title; of a group of titles with one column between them. *)
Definition title_width (t : title) : Z := cells_width u (line_cells u (ln_spans (ti_line t))).
Definition group_width (ts : list title) : Z := zsum (map (fun t => title_width t + 1) ts) - 1.

(** The first column of a group in a strip of [W] columns (negative if a right group is cut on the left). *)
Definition group_start (a : alignment) (W : Z) (ts : list title) : Z :=
  match a with
  | AlignRight => W - group_width ts
  | AlignCenter => Z.max 0 (W - group_width ts) / 2
  | _ => 0
  end.

(** The title of a group starting at [start] that takes column [o], and the column where it starts. *)
Fixpoint slot_at (start : Z) (ts : list title) (o : Z) : option (title * Z) :=
  match ts with
  | [] => None
  | t :: r => if (start <=? o) && (o <? start + title_width t) then Some (t, start) else slot_at (start + title_width t + 1) r o
  end.

(** Column [o] of a strip of [W] columns when title [t] starts at column [s]: its line is shown in the part of its columns
    that lies in the strip, over the style of titles. *)
Definition written (st : style) (W : Z) (t : title) (s o : Z) (c : cell) : cell :=
  let from := Z.max 0 s in
  let until := Z.min W (s + title_width t) in
  paint (seen (cwidth u) (line_cells u (ln_spans (ti_line t))) (until - from) (start_column (ln_align (ti_line t)) (until - from) (title_width t)) (o - from))
        (cell_set_style (ln_style (ti_line t)) (cell_set_style st c)).
Definition over (st : style) (W start : Z) (ts : list title) (o : Z) (c : cell) : cell :=
  match slot_at start ts o with Some (t, s) => written st W t s o c | None => c end.

(** One row of titles: right titles under centred titles under left titles. *)
Definition title_row (k : block) (p : title_position) (W o : Z) (c : cell) : cell :=
  let of a := over (bk_titles_style k) W (group_start a W (group k p a)) (group k p a) o in
  of AlignLeft (of AlignCenter (of AlignRight c)).
End Strip.

(** The titles' rows of a block in its area: between the vertical sides, in the first and the last row. *)
Definition titled (u : uniseg) (k : block) (area : rect) (q : pos) (c : cell) : cell :=
  let lb := if N.testbit (bk_borders k) 3 then 1 else 0 in
  let rb := if N.testbit (bk_borders k) 1 then 1 else 0 in
  let W := rw area - lb - rb in
  let o := px q - rx area - lb in
  let row p y c := if (py q =? y) && (0 <=? o) && (o <? W) then title_row u k p W o c else c in
  row TitleBottom (ry area + rh area - 1) (row TitleTop (ry area) c).
