(** Model of widget/gaugewidget. *)
From Verif Require Import Base M_Geom M_Style M_Uniseg M_Buffer M_Text M_Ansi M_Block M_List M_Float.
From Coq Require Import ZArith NArith List Bool.
Import ListNotations.
Open Scope Z_scope.

(** gauge.go:15-22 *)
Record gauge := Gauge {
  gg_block : option block; gg_ratio : float; gg_label : option span; gg_unicode : bool;
  gg_style : style; gg_gauge_style : style
}.
(** gauge.go:24-33 *)
Definition new_gauge : gauge := Gauge None (Float 0 1) None false new_style new_style.

Definition float_zero : float := Float 0 1.
Definition float_one : float := Float 1 1.

(** gauge.go:43-50: the guard is a conjunction.  NaN and the infinities are not modelled. *)
Definition gauge_with_ratio (g : gauge) (ratio : float) : outcome gauge :=
  if flt ratio float_zero && flt float_one ratio then Panic
  else Ret (Gauge (gg_block g) ratio (gg_label g) (gg_unicode g) (gg_style g) (gg_gauge_style g)).

(** gauge.go:59-66 *)
Definition gauge_with_percent (g : gauge) (percent : Z) : outcome gauge :=
  if (percent <? 0) || (percent >? 100) then Panic
  else Ret (Gauge (gg_block g) (fdiv (of_int percent) (of_int 100)) (gg_label g) (gg_unicode g) (gg_style g) (gg_gauge_style g)).

(** symbol/block.go *)
Definition block_full : str := [9608%N].
(** gauge.go:169-190; frac * 8.0 is exact *)
Definition unicode_block (frac : float) : str :=
  let k := math_round (Float (fnum frac * 8) (fden frac)) in
  if k =? 1 then [9615%N] else if k =? 2 then [9614%N] else if k =? 3 then [9613%N] else if k =? 4 then [9612%N]
  else if k =? 5 then [9611%N] else if k =? 6 then [9610%N] else if k =? 7 then [9609%N] else if k =? 8 then block_full
  else [32%N].

(** gauge.go:123-126 *)
Definition gauge_label (g : gauge) : span :=
  match gg_label g with
  | Some l => l
  | None => Span new_style (itoa (math_round (fmul (gg_ratio g) (of_int 100))) ++ [37%N])
  end.

(** gauge.go:139-146 *)
Definition or_reset (o : option color) : option color := match o with Some c => Some c | None => Some ColReset end.

(** gauge.go:116-167.  Simplification: the conversions of a rounded float to int are taken to fit (widths and ratios whose
    product is below 2^63). *)
Definition gauge_render_inner (u : uniseg) (g : gauge) (area : rect) (b : buffer) : outcome buffer :=
  if rect_is_empty area then Ret b
  else
    let! b := buffer_set_style b area (gg_gauge_style g) in
    let label := gauge_label g in
    let label_width := Z.min (rw area) (span_width u label) in
    let label_col := rleft area + (rw area - label_width) / 2 in
    let label_row := rtop area + rh area / 2 in
    let filled := fmul (of_int (rw area)) (gg_ratio g) in
    let end_ := if gg_unicode g then rleft area + math_floor filled else rleft area + math_round filled in
    let fg := or_reset (sfg (gg_gauge_style g)) in
    let bg := or_reset (sbg (gg_gauge_style g)) in
    let frac := math_mod1 filled in
    let! b := ofold (fun b y =>
      let! b := ofold (fun b x =>
        upd_cell b (Pos x y) (fun c =>
          cell_set_bg bg (cell_set_fg fg (cell_set_symbol
            (if (x <? label_col) || (x >=? label_col + label_width) || negb (y =? label_row) then block_full else [32%N]) c))))
        (zrange (rleft area) end_) b in
      if gg_unicode g && flt (gg_ratio g) float_one
      then upd_cell b (Pos end_ y) (cell_set_symbol (unicode_block frac))
      else Ret b) (zrange (rtop area) (rbottom area)) b in
    let! (b, _) := set_string_n u b label_col label_row (sp_content label) label_width (sp_style label) in
    Ret b.

(** gauge.go:105-114 *)
Definition gauge_render (u : uniseg) (g : gauge) (area : rect) (b : buffer) : outcome buffer :=
  let! b := buffer_set_style b area (gg_style g) in
  let! b := opt_block_render u (gg_block g) area b in
  gauge_render_inner u g (opt_block_inner (gg_block g) area) b.
