(** Model of buffer.go, and of the clear and fill widgets. *)
From Verif Require Import Base M_Geom M_Style M_Uniseg.
From Coq Require Import ZArith NArith List Bool.
Import ListNotations.
Open Scope Z_scope.

(** buffer.go:11-15: the area and the cells, row by row. *)
Record buffer := Buf { barea : rect; bcells : list cell }.

(** buffer.go:21-33; a negative size makes [make] panic. *)
Definition new_buffer_filled (area : rect) (c : cell) : outcome buffer :=
  if rect_area area <? 0 then Panic else Ret (Buf area (repeat c (Z.to_nat (rect_area area)))).
(** buffer.go:17-19 *)
Definition new_buffer_empty (area : rect) : outcome buffer := new_buffer_filled area empty_cell.

(** buffer.go:81-90; Go's [%] and [/] truncate towards zero; a zero width divides by zero. *)
Definition pos_of (b : buffer) (index : Z) : outcome pos :=
  if index >=? zlen (bcells b) then Panic
  else if rw (barea b) =? 0 then Panic
  else Ret (Pos (Z.rem index (rw (barea b)) + rx (barea b)) (Z.quot index (rw (barea b)) + ry (barea b))).

(** buffer.go:141-153 *)
Definition index_of (b : buffer) (p : pos) : outcome Z :=
  if contains (barea b) p then
    let y := Z.max 0 (py p - ry (barea b)) in
    let x := Z.max 0 (px p - rx (barea b)) in
    Ret (y * rw (barea b) + x)
  else Panic.

(** buffer.go:132-134, reading through the returned pointer *)
Definition cell_at (b : buffer) (p : pos) : outcome cell :=
  let! i := index_of b p in index_at (bcells b) i.
(** buffer.go:132-134, writing through the returned pointer *)
Definition upd_cell (b : buffer) (p : pos) (f : cell -> cell) : outcome buffer :=
  let! i := index_of b p in
  let! _ := index_at (bcells b) i in
  Ret (Buf (barea b) (list_update (Z.to_nat i) f (bcells b))).

(** buffer.go:97-101 *)
Definition buffer_reset (b : buffer) : buffer := Buf (barea b) (map cell_reset (bcells b)).

(** buffer.go:112-127: the loop over graphemes *)
Fixpoint set_clusters (u : uniseg) (b : buffer) (x y rem : Z) (cl : list str) (st : style) : outcome (buffer * Z) :=
  match cl with
  | [] => Ret (b, x)
  | sym :: cl' =>
      if rem >? 0 then
        let width := cwidth u sym in
        let! b1 := upd_cell b (Pos x y) (fun c => cell_set_style st (cell_set_symbol sym c)) in
        let next := x + width in
        let! b2 := ofold (fun b x' => upd_cell b (Pos x' y) cell_reset) (zrange (x + 1) next) b1 in
        set_clusters u b2 (Z.max (x + 1) next) y (rem - width) cl' st
      else Ret (b, x)
  end.

(** buffer.go:107-130 *)
Definition set_string_n (u : uniseg) (b : buffer) (x y : Z) (value : str) (max_width : Z) (st : style)
  : outcome (buffer * (Z * Z)) :=
  let rem := Z.min max_width (Z.max 0 (rright (barea b) - x)) in
  let! (b', x') := set_clusters u b x y rem (clusters u value) st in
  Ret (b', (x', y)).

(** math.MaxInt *)
Definition max_int : Z := 9223372036854775807.

(** buffer.go:93-95 *)
Definition set_string (u : uniseg) (b : buffer) (x y : Z) (value : str) (st : style) : outcome buffer :=
  let! (b', _) := set_string_n u b x y value max_int st in Ret b'.

(** buffer.go:155-169; slices.Delete panics when the new length is negative. *)
Definition buffer_resize (b : buffer) (area : rect) : outcome buffer :=
  let length := rect_area area in
  if zlen (bcells b) >? length then
    if length <? 0 then Panic else Ret (Buf area (firstn (Z.to_nat length) (bcells b)))
  else Ret (Buf area (bcells b ++ repeat empty_cell (Z.to_nat (length - zlen (bcells b))))).

(** buffer.go:171-181 *)
Definition buffer_set_style (b : buffer) (area : rect) (st : style) : outcome buffer :=
  let area := intersection (barea b) area in
  ofold (fun b y =>
    ofold (fun b x => upd_cell b (Pos x y) (cell_set_style st)) (zrange (rleft area) (rright area)) b)
    (zrange (rtop area) (rbottom area)) b.

(** buffer.go:45-79: one element per index of the loop *)
Record diff_state := DiffState { d_updates : list (pos * cell); d_inval : Z; d_skip : Z }.

Definition diff_step (u : uniseg) (b : buffer) (st : diff_state) (i : Z) (previous current : cell) : outcome diff_state :=
  let! ups :=
    (if negb (cskip current) && (negb (cell_eqb current previous) || (d_inval st >? 0)) && (d_skip st =? 0) then
       let! p := pos_of b i in Ret (d_updates st ++ [(p, current)])
     else Ret (d_updates st)) in
  let previous_width := string_width u (csym previous) in
  let current_width := string_width u (csym current) in
  let affected := Z.max previous_width current_width in
  Ret (DiffState ups (Z.max 0 (Z.max (d_inval st) affected - 1)) (Z.max 0 (current_width - 1))).

Fixpoint diff_loop (u : uniseg) (b : buffer) (i : Z) (prev next : list cell) (st : diff_state) : outcome diff_state :=
  match prev, next with
  | p :: prev', n :: next' =>
      let! st' := diff_step u b st i p n in diff_loop u b (i + 1) prev' next' st'
  | _, _ => Ret st
  end.

Definition diff (u : uniseg) (b other : buffer) : outcome (list (pos * cell)) :=
  let! st := diff_loop u b 0 (bcells b) (bcells other) (DiffState [] 0 0) in Ret (d_updates st).

(** widget/clearwidget/clear.go:15-21 *)
Definition clear_render (area : rect) (b : buffer) : outcome buffer :=
  ofold (fun b x => ofold (fun b y => upd_cell b (Pos x y) cell_reset) (zrange (rtop area) (rbottom area)) b)
    (zrange (rleft area) (rright area)) b.

(** widget/fillwidget/fill.go:24-36 *)
Definition fill_render (sym : str) (st : style) (area : rect) (b : buffer) : outcome buffer :=
  ofold (fun b x => ofold (fun b y =>
      upd_cell b (Pos x y) (fun c => cell_set_symbol sym (cell_set_style st (cell_reset c))))
      (zrange (rtop area) (rbottom area)) b)
    (zrange (rleft area) (rright area)) b.
