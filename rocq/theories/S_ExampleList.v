(** C102: what the program of examples/list shows. *)
From Verif Require Import Base M_Geom S_Geom M_Style M_Uniseg M_Buffer S_Text M_Text M_Block S_Block P_Block S_Titles M_Reflow S_Paragraph M_List S_Items M_Listing M_Solver M_Layout M_Popup M_KeyTable M_Decode M_Cmd M_Backend S_Stateful S_Session S_Listing T_Popup S_Example M_ExampleList.
From Coq Require Import ZArith NArith List Bool.
Import ListNotations.
Open Scope Z_scope.

(** What a plain viewer of the items knows: the first item on its screen, the selected item, and whether the popup is there. *)
Record viewer := Viewer { vw_first : Z; vw_selected : option Z; vw_popup : bool }.
(** Before it is shown on a screen with room for [k] of the items it scrolls: up to the selected item if that is above, down just as far as it takes if
    that is below. *)
Definition scrolls (k : Z) (v : viewer) : viewer :=
  let first := vw_first v in
  Viewer (match vw_selected v with Some s => if s <? first then s else if first + k <=? s then s + 1 - k else first | None => first end) (vw_selected v) (vw_popup v).
(** The space bar *)
Definition space_bar (d : M_Decode.msg) : bool := match d with KeyMsg (Key ty _ false false) => ty =? KeySpace | _ => false end.
(** A key moves the selection among the [n] items as in C96; the space bar shows or hides the popup. *)
Definition handles (n : Z) (d : M_Decode.msg) (v : viewer) : viewer :=
  Viewer (vw_first v) (pressed n d (vw_selected v)) (if space_bar d then negb (vw_popup v) else vw_popup v).
(** The viewer after the messages [xs], being shown before each of them; the size changes at the messages that say so. [room] is the number of items that
    fit at a size. *)
Fixpoint viewed (n : Z) (ds : list M_Decode.msg) (room : Z * Z -> Z) (v : viewer) (size : Z * Z) (xs : list M_Cmd.msg) (coming : list (Z * Z)) : viewer :=
  match xs with
  | [] => v
  | x :: xs =>
      let v := scrolls (room size) v in
      let v := match x with MUser k => match nth_error ds k with Some d => handles n d v | None => v end | _ => v end in
      let (size, coming) := next_size x size coming in viewed n ds room v size xs coming
  end.

(** The cells of the frame of a block over cells [c] *)
Definition edge_cell (u : uniseg) (k : block) (area : rect) (q : pos) (c : cell) : cell :=
  titled u k area q (framed (frame_at (N.testbit (bk_borders k) 3) (N.testbit (bk_borders k) 0) (N.testbit (bk_borders k) 1) (N.testbit (bk_borders k) 2) (the_frame (bk_set k)) area q)
    (bk_border_style k) (cell_set_style (bk_style k) c)).
(** A cell of a list with the block [k], from the top, of items of [d] rows each, on an empty frame; the items from [first] on, of which [room] fit *)
Definition listing_cell (u : uniseg) (l : lst) (k : block) (d : Z) (frame : rect) (first : Z) (selected : option Z) (q : pos) : cell :=
  let c := cell_set_style (ls_style l) empty_cell in
  let inner := block_inner k frame in
  if contains inner q then
    let c := cell_set_style (bk_style k) c in
    let y := py q - ry inner in let i := first + y / d in
    if y / d <? rh inner / d then
      match nth_error (ls_items l) (Z.to_nat i) with
      | Some item => item_cell u l (is_chosen selected i) (keeps_column l selected) item (rw inner) (px q - rx inner) (y mod d) c
      | None => c
      end
    else c
  else edge_cell u k frame q c.
(** A cell of a popup with the block [k] and the paragraph [g], of the one line [ln], in it *)
Definition note_cell (u : uniseg) (p : popup) (k : block) (g : paragraph) (ln : line) (at_ : rect) (q : pos) : cell :=
  let c := cell_set_style (pp_style p) empty_cell in
  let inner := block_inner k at_ in
  if contains inner q then
    let c := cell_set_style (pg_style g) (cell_set_style (bk_style k) c) in
    let text := text_of u (pg_text g) ln in
    if py q =? ry inner then
      match starts_at u text (px q - rx inner - begins (alignment_of g ln) (rw inner) (columns_of u text)) with
      | Some (s, st) => cell_set_style st (cell_set_symbol s c)
      | None => c
      end
    else c
  else edge_cell u k at_ q c.

(** A cell of the whole frame: the popup lies over the list. *)
Definition program_cell (u : uniseg) (l : lst) (k : block) (d : Z) (p : popup) (pk : block) (g : paragraph) (ln : line) (at_ frame : rect) (v : viewer) (q : pos) : cell :=
  if vw_popup v && contains at_ q then note_cell u p pk g ln at_ q else listing_cell u l k d frame (vw_first v) (vw_selected v) q.

Section Tolerance.
Context {ar : arith} {tolr : tolerance}.
(** In a frame of this size the popup is at [at_], whatever the runs of the solver that end. *)
Definition popup_found (p : popup) (size : Z * Z) (at_ : rect) : Prop :=
  let frame := new_rect (fst size) (snd size) in
  holds frame at_ /\ forall r r', any_run r (popup_rows p) -> any_run r' (popup_columns p) -> popup_area r r' p frame = At at_ \/ popup_area r r' p frame = PlaceBusy.
Definition any_popup_runs (p : popup) (r : popup_runs) : Prop :=
  any_run (pr_rows r) (popup_rows p) /\ any_run (pr_columns r) (popup_columns p) /\ any_run (pr_rows' r) (popup_rows p) /\ any_run (pr_columns' r) (popup_columns p).
(** The program: its Update is the example's; each of its draws is the example's Render with some runs of the solver, which end, and leaves the state that
    Render leaves. *)
Record list_program (u : uniseg) (ds : list M_Decode.msg) (l : lst) (p : popup) (g : paragraph) (at_size : Z * Z -> Prop)
  (update : listing -> M_Cmd.msg -> option (listing * option cmd)) (redrawn : listing -> Z * Z -> listing) (view : listing -> widget) : Prop := {
  lp_update : forall m x, update m x = listing_update ds m x;
  lp_draws : forall m W H, at_size (W, H) -> let frame := new_rect W H in
    exists r o, any_popup_runs p r /\ listing_render u r l p g frame (blank frame) m = Some o /\
      view m frame (blank frame) = omap fst o /\ forall b' m', o = Ret (b', m') -> redrawn m (W, H) = m' }.
End Tolerance.
