(** Model of the popup widget (widget/popupwidget/popup.go), on top of layouts and blocks. *)
From Verif Require Import Base M_Geom M_Style M_Uniseg M_Buffer M_Text M_Block M_Solver M_Layout.
From Coq Require Import ZArith NArith List Bool.
Import ListNotations.

(** A widget: what its Render does (widget.go:5-7). *)
Definition widget := rect -> buffer -> outcome buffer.
(** widget/popupwidget/popup.go:11-18 *)
Record popup := Popup { pp_block : option block; pp_horizontal : flex; pp_vertical : flex; pp_style : style; pp_width : lconstraint; pp_height : lconstraint; pp_content : option widget; pp_padding : padding }.
(** widget/popupwidget/popup.go:20-30 *)
Definition new_popup : popup := Popup None FlexCenter FlexCenter new_style (LPercentage 60) (LPercentage 20) None (Padding 0 0 0 0).
(** widget/popupwidget/popup.go:32-55 *)
Definition popup_with_block (p : popup) (k : block) : popup := Popup (Some k) (pp_horizontal p) (pp_vertical p) (pp_style p) (pp_width p) (pp_height p) (pp_content p) (pp_padding p).
Definition popup_with_style (p : popup) (s : style) : popup := Popup (pp_block p) (pp_horizontal p) (pp_vertical p) s (pp_width p) (pp_height p) (pp_content p) (pp_padding p).
Definition popup_with_height (p : popup) (c : lconstraint) : popup := Popup (pp_block p) (pp_horizontal p) (pp_vertical p) (pp_style p) (pp_width p) c (pp_content p) (pp_padding p).
Definition popup_with_width (p : popup) (c : lconstraint) : popup := Popup (pp_block p) (pp_horizontal p) (pp_vertical p) (pp_style p) c (pp_height p) (pp_content p) (pp_padding p).
Definition popup_with_padding (p : popup) (d : padding) : popup := Popup (pp_block p) (pp_horizontal p) (pp_vertical p) (pp_style p) (pp_width p) (pp_height p) (pp_content p) d.
(** The public field Content (popup.go:16), which has no builder. *)
Definition popup_set_content (p : popup) (w : widget) : popup := Popup (pp_block p) (pp_horizontal p) (pp_vertical p) (pp_style p) (pp_width p) (pp_height p) (Some w) (pp_padding p).
(** widget/popupwidget/popup.go:57-85: Top, Middle, Bottom, Left, Center, Right *)
Definition popup_vertically (p : popup) (f : flex) : popup := Popup (pp_block p) (pp_horizontal p) f (pp_style p) (pp_width p) (pp_height p) (pp_content p) (pp_padding p).
Definition popup_horizontally (p : popup) (f : flex) : popup := Popup (pp_block p) f (pp_vertical p) (pp_style p) (pp_width p) (pp_height p) (pp_content p) (pp_padding p).
Definition popup_top (p : popup) : popup := popup_vertically p FlexStart.
Definition popup_middle (p : popup) : popup := popup_vertically p FlexCenter.
Definition popup_bottom (p : popup) : popup := popup_vertically p FlexEnd.
Definition popup_left (p : popup) : popup := popup_horizontally p FlexStart.
Definition popup_center (p : popup) : popup := popup_horizontally p FlexCenter.
Definition popup_right (p : popup) : popup := popup_horizontally p FlexEnd.

(** popup.go:88-89, 104-105: the two layouts. NewLayout gives no spacing (layout.go:63-71). *)
Definition popup_rows (p : popup) : layout := Layout DirVertical [pp_height p] (pp_padding p) (pp_vertical p) (SpSpace 0).
Definition popup_columns (p : popup) : layout := Layout DirHorizontal [pp_width p] (pp_padding p) (pp_horizontal p) (SpSpace 0).

(** Where the popup is: a rectangle, a panic in Split or in Unwrap (layout.go:38-40), or the solver is still busy. *)
Inductive place := At (r : rect) | PlacePanics | PlaceBusy.
Section Tolerance.
Context {ar : arith} {tolr : tolerance}.
(** One run of the solver: the orders in which its maps are walked, its fuel, and the variables that NewVariable gives. *)
Record run := Run { run_order : nat -> list symbol -> list symbol; run_fuel : nat; run_vars : list variable }.
(** Split and Unwrap *)
Definition split_one (r : run) (l : layout) (area : rect) : place :=
  match M_Layout.split (run_order r) (run_fuel r) (run_vars r) l area with
  | Splits (seg :: _) _ => At seg
  | Splits [] _ | SplitPanics => PlacePanics
  | SplitBusy => PlaceBusy
  end.
(** popup.go:91-93, 107-108 *)
Definition popup_area (r r' : run) (p : popup) (area : rect) : place :=
  match split_one r (popup_rows p) area with At rows => split_one r' (popup_columns p) rows | x => x end.
End Tolerance.
(** popup.go:95-99, once the rectangle is known *)
Definition popup_inner_at (p : popup) (r : rect) : rect := opt_block_inner (pp_block p) r.
(** popup.go:110-115, once the rectangle is known *)
Definition popup_render_at (u : uniseg) (p : popup) (r : rect) (b : buffer) : outcome buffer :=
  let! b := clear_render r b in
  let! b := buffer_set_style b r (pp_style p) in
  opt_block_render u (pp_block p) r b.
Section Tolerance2.
Context {ar : arith} {tolr : tolerance}.
(** popup.go:103-116 and 87-101; no result while the solver is busy *)
Definition popup_render (u : uniseg) (r r' : run) (p : popup) (area : rect) (b : buffer) : option (outcome buffer) :=
  match popup_area r r' p area with At at_ => Some (popup_render_at u p at_ b) | PlacePanics => Some Panic | PlaceBusy => None end.
Definition popup_inner (r r' : run) (p : popup) (area : rect) : option (outcome rect) :=
  match popup_area r r' p area with At at_ => Some (Ret (popup_inner_at p at_)) | PlacePanics => Some Panic | PlaceBusy => None end.
End Tolerance2.
