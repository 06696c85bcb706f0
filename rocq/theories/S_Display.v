(** What a buffer should look like on the terminal. *)
From Verif Require Import Base M_Geom S_Geom M_Style M_Uniseg M_Buffer S_Buffer M_Ansi S_Terminal.
From Coq Require Import ZArith NArith List Bool.
Import ListNotations.
Open Scope Z_scope.

(** The terminal colour a colour value asks for. [None]: no terminal colour corresponds to it. *)
Definition color_shown (te : termenv) (c : color) : option tcolor :=
  match c with
  | ColNone => None
  | ColReset => Some TDefault
  | ColAnsi n => if (n <? 16)%N then Some (TIndexed n) else None
  | ColAnsi256 n => Some (TIndexed n)
  | ColRGB s => match hex te s with Some (r, g, b) => Some (TRgb r g b) | None => None end
  end.

(** ... after conversion to what the terminal supports. *)
Definition shown (te : termenv) (oc : option color) : option tcolor :=
  match conv te oc with Some c => color_shown te c | None => None end.

Definition shown_or_default (te : termenv) (oc : option color) : tcolor :=
  match shown te oc with Some c => c | None => TDefault end.

Definition has (m M : modifier) : bool := negb (N.land m M =? 0)%N.

Definition attr_for (fg bg : tcolor) (m : modifier) : tattr :=
  TAttr fg bg (has m ModifierBold) (has m ModifierDim) (has m ModifierItalic) (has m ModifierUnderlined)
    (has m ModifierSlowBlink) (has m ModifierRapidBlink) (has m ModifierReversed) (has m ModifierHidden) (has m ModifierCrossedOut).

Definition attr_of (te : termenv) (c : cell) : tattr :=
  attr_for (shown_or_default te (cfg c)) (shown_or_default te (cbg c)) (cmod c).

Definition left_of (p : pos) : pos := Pos (px p - 1) (py p).
Definition right_of (p : pos) : pos := Pos (px p + 1) (py p).

(** What position [p] should show: the cell's own glyph, unless the glyph of the cell to its left is two columns wide. *)
Definition expected (u : uniseg) (te : termenv) (b : buffer) (p : pos) : tglyph :=
  match look b (left_of p) with
  | Some l => if cwidth u (csym l) =? 2 then TPart (csym l) (attr_of te l) 1
              else match look b p with Some c => TPart (csym c) (attr_of te c) 0 | None => Junk end
  | None => match look b p with Some c => TPart (csym c) (attr_of te c) 0 | None => Junk end
  end.

(** The terminal shows buffer [b] on the buffer's area. *)
Definition shows (u : uniseg) (te : termenv) (cells : pos -> tglyph) (b : buffer) : Prop :=
  forall p, inside p (barea b) -> cells p = expected u te b p.

(** Modifier sets that the escape sequences used can express. *)
Definition expressible (m : modifier) : Prop :=
  has m ModifierHidden = false /\ has m ModifierSlowBlink && has m ModifierRapidBlink = false.

(** Conditions under which a cell can be shown. *)
Record cell_ok (u : uniseg) (te : termenv) (c : cell) : Prop := {
  ok_single : clusters u (csym c) = [csym c];                       (* one grapheme *)
  ok_width : cwidth u (csym c) = 1 \/ cwidth u (csym c) = 2;
  ok_noskip : cskip c = false;
  ok_fg : shown te (cfg c) <> None;
  ok_bg : shown te (cbg c) <> None;
  ok_mod : expressible (cmod c) }.

(** A displayable buffer: displayable cells; a two-column glyph has room to its right and the cell there, which it hides,
    is one column wide (as Buffer.SetString leaves it). *)
Record displayable (u : uniseg) (te : termenv) (b : buffer) : Prop := {
  disp_wf : wf_buffer b;
  disp_cell : forall p c, look b p = Some c -> cell_ok u te c;
  disp_wide : forall p c, look b p = Some c -> cwidth u (csym c) = 2 ->
              exists c', look b (right_of p) = Some c' /\ cwidth u (csym c') = 1 }.

(** Graphemes of neighbouring cells of a row stay separate when printed one after the other. *)
Definition separate (u : uniseg) (b : buffer) : Prop :=
  forall p l, (forall k s, nth_error l k = Some s ->
                 exists c, look b (Pos (px p + Z.of_nat k) (py p)) = Some c /\ csym c = s) ->
  clusters u (concat l) = l.

(** No control characters in any cell. *)
Definition plain (s : str) : Prop := forall r, In r s -> (r <? 32)%N || ((127 <=? r)%N && (r <? 160)%N) = false.
