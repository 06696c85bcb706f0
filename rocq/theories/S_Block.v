(** What a block should look like. *)
From Verif Require Import Base M_Geom M_Style.
From Coq Require Import ZArith NArith List Bool.
Open Scope Z_scope.

(** The eight symbols of a frame. *)
Record frame := Frame { f_tl : str; f_tr : str; f_bl : str; f_br : str; f_l : str; f_r : str; f_t : str; f_b : str }.

(** The frame symbol at [p] when the sides [l], [t], [r], [b] of the outline of [area] are drawn: a corner where two drawn
    sides meet (in areas of one row or column the top left corner wins, then the bottom left, the top right and the bottom
    right one), else the side the cell lies on. *)
Definition frame_at (l t r b : bool) (f : frame) (area : rect) (p : pos) : option str :=
  let on_l := px p =? rx area in
  let on_r := px p =? rx area + rw area - 1 in
  let on_t := py p =? ry area in
  let on_b := py p =? ry area + rh area - 1 in
  if negb ((rx area <=? px p) && (px p <? rx area + rw area) && (ry area <=? py p) && (py p <? ry area + rh area)) then None
  else if l && t && on_l && on_t then Some (f_tl f)
  else if l && b && on_l && on_b then Some (f_bl f)
  else if r && t && on_r && on_t then Some (f_tr f)
  else if r && b && on_r && on_b then Some (f_br f)
  else if b && on_b then Some (f_b f)
  else if r && on_r then Some (f_r f)
  else if t && on_t then Some (f_t f)
  else if l && on_l then Some (f_l f)
  else None.

(** The cell with symbol [s] drawn in style [st] over [c], or [c] itself. *)
Definition framed (s : option str) (st : style) (c : cell) : cell :=
  match s with Some s => cell_set_style st (cell_set_symbol s c) | None => c end.
