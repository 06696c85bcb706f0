(** Model of rect.go, padding.go, position.go, size.go. Go [int] is [Z] (no wrap-around). *)
From Verif Require Import Base.
From Coq Require Import ZArith List Bool.
Import ListNotations.
Open Scope Z_scope.

(** position.go:3-9 *)
Record pos := Pos { px : Z; py : Z }.
(** rect.go:3-7 (the embedded Position is flattened into [rx], [ry]) *)
Record rect := Rect { rx : Z; ry : Z; rw : Z; rh : Z }.
(** padding.go:3-5 *)
Record padding := Padding { ptop : Z; pright : Z; pbottom : Z; pleft : Z }.

(** rect.go:9-11 *)
Definition new_rect (w h : Z) : rect := Rect 0 0 w h.
(** rect.go:13-17 *)
Definition positioned (r : rect) (x y : Z) : rect := Rect x y (rw r) (rh r).
(** rect.go:19-22 *)
Definition with_width (r : rect) (w : Z) : rect := Rect (rx r) (ry r) w (rh r).
(** rect.go:24-27 *)
Definition with_height (r : rect) (h : Z) : rect := Rect (rx r) (ry r) (rw r) h.
(** rect.go:29-31 *)
Definition rect_is_empty (r : rect) : bool := (rw r =? 0) || (rh r =? 0).
(** rect.go:33-35 *)
Definition rect_area (r : rect) : Z := rw r * rh r.
(** rect.go:37-51 *)
Definition rleft (r : rect) : Z := rx r.
Definition rright (r : rect) : Z := rx r + rw r.
Definition rtop (r : rect) : Z := ry r.
Definition rbottom (r : rect) : Z := ry r + rh r.

(** rect.go:53-69 *)
Definition inner (r : rect) (p : padding) : rect :=
  let horizontal := pright p + pleft p in
  let vertical := ptop p + pbottom p in
  if (rw r <? horizontal) || (rh r <? vertical) then Rect 0 0 0 0
  else Rect (rx r + pleft p) (ry r + ptop p)
            (Z.max 0 (rw r - horizontal)) (Z.max 0 (rh r - vertical)).

(** rect.go:71-83 *)
Definition intersection (r o : rect) : rect :=
  let x1 := Z.max (rx r) (rx o) in
  let y1 := Z.max (ry r) (ry o) in
  let x2 := Z.min (rright r) (rright o) in
  let y2 := Z.min (rbottom r) (rbottom o) in
  Rect x1 y1 (Z.max 0 (x2 - x1)) (Z.max 0 (y2 - y1)).

(** rect.go:85-87 *)
Definition contains (r : rect) (p : pos) : bool :=
  (px p >=? rx r) && (px p <? rright r) && (py p >=? ry r) && (py p <? rbottom r).

(** rect.go:89-108; the [for] loop counting up from [Y] to [Bottom()] is [zrange]. *)
Definition rows (r : rect) : list rect :=
  map (fun y => Rect (rx r) y (rw r) 1) (zrange (ry r) (rbottom r)).

(** rect.go:110-116 *)
Definition indent_x (r : rect) (offset : Z) : rect :=
  Rect (rx r + offset) (ry r) (Z.max 0 (rw r - offset)) (rh r).

(** rect.go:118-132 *)
Definition columns (r : rect) : list rect :=
  map (fun x => positioned (new_rect 1 (rh r)) x (ry r)) (zrange (rx r) (rright r)).

(** padding.go:7-34 *)
Definition new_padding (sides : list Z) : outcome padding :=
  match sides with
  | [] => Ret (Padding 0 0 0 0)
  | [s] => Ret (Padding s s s s)
  | [v; h] => Ret (Padding v h v h)
  | [a; b; c; d] => Ret (Padding a b c d)
  | _ => Panic
  end.

(** padding.go:36-39 *)
Definition pad_with_top (p : padding) (s : Z) : padding := Padding s (pright p) (pbottom p) (pleft p).
(** padding.go:41-44 *)
Definition pad_with_right (p : padding) (s : Z) : padding := Padding (ptop p) s (pbottom p) (pleft p).
(** padding.go:46-49 *)
Definition pad_with_bottom (p : padding) (s : Z) : padding := Padding (ptop p) (pright p) s (pleft p).
(** padding.go:51-54: assigns [p.Bottom], not [p.Left]. *)
Definition pad_with_left (p : padding) (s : Z) : padding := Padding (ptop p) (pright p) s (pleft p).
