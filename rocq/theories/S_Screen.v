(** C102: the screen of examples/list, letter by letter. *)
From Coq Require Import String.
From Verif Require Import Base M_Style M_Ansi M_Utf8 S_ExampleList.
From Coq Require Import ZArith NArith List Bool.
Import ListNotations.
Open Scope Z_scope.

(** The [o]-th letter of a text, if it has one *)
Definition letter (s : str) (o : Z) (default : N) : N := if o <? 0 then default else nth (Z.to_nat o) s default.
(** A cell that shows a letter in the terminal's own colours *)
Definition plain_cell (c : N) : cell := Cell [c] (Some ColReset) (Some ColReset) 0%N false.

(** The letters of a frame of [w] columns and [h] rows, with a title at the left of its top and one at the right of its bottom *)
Record strokes := Strokes { k_tl : N; k_tr : N; k_bl : N; k_br : N; k_h : N; k_v : N }.
Definition round_strokes : strokes := Strokes 9581 9582 9584 9583 9472 9474.
Definition thick_strokes : strokes := Strokes 9487 9491 9495 9499 9473 9475.
Definition on_edge (w h x y : Z) : bool := (x =? 0) || (x =? w - 1) || (y =? 0) || (y =? h - 1).
Definition edge_letter (k : strokes) (w h : Z) (top bottom : str) (x y : Z) : N :=
  if x =? 0 then (if y =? 0 then k_tl k else if y =? h - 1 then k_bl k else k_v k)
  else if x =? w - 1 then (if y =? 0 then k_tr k else if y =? h - 1 then k_br k else k_v k)
  else if y =? 0 then letter top (x - 1) (k_h k)
  else letter bottom (x - (w - 1 - zlen bottom)) (k_h k).

(** Row [r], 0 or 1, of item [i]: two columns for the marker, then the item's number in bold or its description, dim and italic; black on blue if selected. *)
Definition item_text (i r : Z) : str := if r =? 0 then (asc "Item #" ++ itoa (i + 1))%list else asc "Description".
Definition row_cell (selected : bool) (i r x : Z) : cell :=
  Cell [if x <? 2 then (if selected && (r =? 0) then letter (asc "> ") x 32 else 32%N) else letter (item_text i r) (x - 2) 32]
    (Some (if selected then ColAnsi 0 else ColReset)) (Some (if selected then ColAnsi 4 else ColReset))
    (if (2 <=? x) && (x <? 2 + zlen (item_text i r)) then (if r =? 0 then 1%N else 6%N) else 0%N) false.

(** The screen of [W] columns and [H] rows: the items from the first in view on, two rows each, in a rounded frame that counts them; the popup, thirty columns by
    three in the middle, over them. *)
Definition list_screen (count W H : Z) (v : viewer) (x y : Z) : cell :=
  let px := x - (W - 30 + 1) / 2 in let py := y - (H - 3 + 1) / 2 in
  if vw_popup v && (0 <=? px) && (px <? 30) && (0 <=? py) && (py <? 3) then
    plain_cell (if on_edge 30 3 px py then edge_letter thick_strokes 30 3 (asc "Popup") [] px py else letter (asc "Hello, world!") (px - 9) 32)
  else if on_edge W H x y then plain_cell (edge_letter round_strokes W H (asc "List") (itoa count ++ asc " items")%list x y)
  else
    let j := (y - 1) / 2 in let i := vw_first v + j in
    if (j <? (H - 2) / 2) && (i <? count) then row_cell (match vw_selected v with Some s => s =? i | None => false end) i ((y - 1) mod 2) (x - 1)
    else plain_cell 32.
