(** An abstract terminal, written without reference to the library: it executes control sequences and text.
    Whatever real terminals do differently from one another (overwriting half of a wide glyph, printing past the right
    margin, moving outside the screen) is an unspecified result ([Junk], unknown cursor). *)
From Verif Require Import Base M_Geom M_Style M_Uniseg.
From Coq Require Import ZArith NArith List Bool.
Import ListNotations.
Open Scope Z_scope.

Inductive tcolor := TDefault | TIndexed (n : N) | TRgb (r g b : N).

Record tattr := TAttr {
  a_fg : tcolor; a_bg : tcolor;
  a_bold : bool; a_dim : bool; a_italic : bool; a_underline : bool;
  a_slow : bool; a_rapid : bool; a_reverse : bool; a_hidden : bool; a_crossed : bool }.

Definition default_attr : tattr := TAttr TDefault TDefault false false false false false false false false false.

(** What a screen position shows: column [k] of glyph [s] printed with attributes [a], or something unspecified. *)
Inductive tglyph := TPart (s : str) (a : tattr) (k : Z) | Junk.

Record term := Term {
  t_w : Z; t_h : Z;
  t_cells : pos -> tglyph;
  t_cur : option pos;       (* None: unknown *)
  t_attr : tattr;
  t_visible : bool }.       (* cursor shown *)

(** A control sequence ESC [ <priv> p1 ; p2 ... <final>; a parameter is a list of ':'-separated numbers, [None] when empty. *)
Inductive token :=
| TText (s : str)                                        (* one grapheme *)
| TCsi (priv : bool) (params : list (list (option N))) (final : N).

(** Select Graphic Rendition, one simple parameter. *)
Definition sgr1 (n : N) (a : tattr) : tattr :=
  let '(TAttr fg bg bo di it un sl ra re hi cr) := a in
  match n with
  | 0 => default_attr
  | 1 => TAttr fg bg true di it un sl ra re hi cr
  | 2 => TAttr fg bg bo true it un sl ra re hi cr
  | 3 => TAttr fg bg bo di true un sl ra re hi cr
  | 4 => TAttr fg bg bo di it true sl ra re hi cr
  | 5 => TAttr fg bg bo di it un true ra re hi cr
  | 6 => TAttr fg bg bo di it un sl true re hi cr
  | 7 => TAttr fg bg bo di it un sl ra true hi cr
  | 8 => TAttr fg bg bo di it un sl ra re true cr
  | 9 => TAttr fg bg bo di it un sl ra re hi true
  | 22 => TAttr fg bg false false it un sl ra re hi cr
  | 23 => TAttr fg bg bo di false un sl ra re hi cr
  | 24 => TAttr fg bg bo di it false sl ra re hi cr
  | 25 => TAttr fg bg bo di it un false false re hi cr
  | 27 => TAttr fg bg bo di it un sl ra false hi cr
  | 28 => TAttr fg bg bo di it un sl ra re false cr
  | 29 => TAttr fg bg bo di it un sl ra re hi false
  | 39 => TAttr TDefault bg bo di it un sl ra re hi cr
  | 49 => TAttr fg TDefault bo di it un sl ra re hi cr
  | _ =>
      if (30 <=? n) && (n <=? 37) then TAttr (TIndexed (n - 30)) bg bo di it un sl ra re hi cr
      else if (40 <=? n) && (n <=? 47) then TAttr fg (TIndexed (n - 40)) bo di it un sl ra re hi cr
      else if (90 <=? n) && (n <=? 97) then TAttr (TIndexed (n - 90 + 8)) bg bo di it un sl ra re hi cr
      else if (100 <=? n) && (n <=? 107) then TAttr fg (TIndexed (n - 100 + 8)) bo di it un sl ra re hi cr
      else a
  end%N.

Definition set_fg (c : tcolor) (a : tattr) : tattr :=
  let '(TAttr _ bg bo di it un sl ra re hi cr) := a in TAttr c bg bo di it un sl ra re hi cr.
Definition set_bg (c : tcolor) (a : tattr) : tattr :=
  let '(TAttr fg _ bo di it un sl ra re hi cr) := a in TAttr fg c bo di it un sl ra re hi cr.

(** A full SGR parameter list; an empty parameter is 0; 38/48 take their operands from the following parameters;
    a parameter with sub-parameters ("4:3") is an underline style. *)
Definition pnum (p : list (option N)) : N := match p with Some n :: _ => n | _ => 0%N end.
Fixpoint sgr (ps : list (list (option N))) (a : tattr) : tattr :=
  match ps with
  | [] => a
  | [Some 38%N] :: [Some 5%N] :: n :: rest => sgr rest (set_fg (TIndexed (pnum n)) a)
  | [Some 48%N] :: [Some 5%N] :: n :: rest => sgr rest (set_bg (TIndexed (pnum n)) a)
  | [Some 38%N] :: [Some 2%N] :: r :: g :: b :: rest => sgr rest (set_fg (TRgb (pnum r) (pnum g) (pnum b)) a)
  | [Some 48%N] :: [Some 2%N] :: r :: g :: b :: rest => sgr rest (set_bg (TRgb (pnum r) (pnum g) (pnum b)) a)
  | p :: rest => sgr rest (sgr1 (pnum p) a)
  end.

(** Columns occupied by the glyph of which position [x] shows a part. *)
Definition glyph_cols (u : uniseg) (g : tglyph) (x : Z) : option (Z * Z) :=
  match g with TPart s _ k => Some (x - k, x - k + cwidth u s) | Junk => None end.

(** Put glyph [s] with attributes [a] at [p]; a glyph that loses some of its columns becomes unspecified. *)
Definition place (u : uniseg) (p : pos) (s : str) (a : tattr) (cells : pos -> tglyph) : pos -> tglyph :=
  let w := cwidth u s in
  fun q =>
    if py q =? py p then
      if (px p <=? px q) && (px q <? px p + w) then TPart s a (px q - px p)
      else match glyph_cols u (cells q) (px q) with
           | Some (lo, hi) => if (lo <? px p + w) && (px p <? hi) then Junk else cells q
           | None => cells q
           end
    else cells q.

Definition on_screen (t : term) (p : pos) : bool :=
  (0 <=? px p) && (px p <? t_w t) && (0 <=? py p) && (py p <? t_h t).

Definition print_glyph (u : uniseg) (s : str) (t : term) : term :=
  let w := cwidth u s in
  if w =? 0 then t
  else match t_cur t with
       | Some p =>
           if on_screen t p && (px p + w <=? t_w t)
           then Term (t_w t) (t_h t) (place u p s (t_attr t) (t_cells t)) (Some (Pos (px p + w) (py p))) (t_attr t) (t_visible t)
           else Term (t_w t) (t_h t) (fun _ => Junk) None (t_attr t) (t_visible t)
       | None => Term (t_w t) (t_h t) (fun _ => Junk) None (t_attr t) (t_visible t)
       end.

(** An erased position is blank, with the current background. *)
Definition erased (a : tattr) : tglyph := TPart space (set_bg (a_bg a) default_attr) 0.

Definition with_cells (t : term) (f : pos -> tglyph) : term := Term (t_w t) (t_h t) f (t_cur t) (t_attr t) (t_visible t).

Definition move_to (t : term) (p : pos) : term :=
  Term (t_w t) (t_h t) (t_cells t) (if on_screen t p then Some p else None) (t_attr t) (t_visible t).

Definition num1 (p : list (option N)) : Z := match p with Some n :: _ => Z.max 1 (Z.of_N n) | _ => 1 end.

(** CUP, ED, SGR, DECTCEM, alternate screen (1049: entering clears). Other sequences are ignored. *)
Definition erase_below (t : term) : term :=
  match t_cur t with
  | Some c => with_cells t (fun q => if (py c <? py q) || ((py c =? py q) && (px c <=? px q)) then erased (t_attr t)
                                     else if py c =? py q then Junk else t_cells t q)
  | None => with_cells t (fun _ => Junk)
  end.
Definition erase_line (t : term) : term :=
  with_cells t (fun q => match t_cur t with Some c => if py q =? py c then Junk else t_cells t q | None => Junk end).
Definition set_visible (v : bool) (t : term) : term := Term (t_w t) (t_h t) (t_cells t) (t_cur t) (t_attr t) v.
Definition set_attr (a : tattr) (t : term) : term := Term (t_w t) (t_h t) (t_cells t) (t_cur t) a (t_visible t).

Definition exec_token (u : uniseg) (t : term) (k : token) : term :=
  match k with
  | TText s => print_glyph u s t
  | TCsi false ps 72%N =>                                    (* H *)
      match ps with
      | [] => move_to t (Pos 0 0)
      | [r] => move_to t (Pos 0 (num1 r - 1))
      | r :: c :: _ => move_to t (Pos (num1 c - 1) (num1 r - 1))
      end
  | TCsi false ps 109%N => set_attr (sgr (match ps with [] => [[None]] | _ => ps end) (t_attr t)) t   (* m *)
  | TCsi false ps 74%N =>                                    (* J *)
      match pnum (nth 0 ps []) with
      | 2%N => with_cells t (fun _ => erased (t_attr t))
      | 0%N => erase_below t
      | _ => with_cells t (fun _ => Junk)
      end
  | TCsi false ps 75%N => erase_line t                         (* K *)
  | TCsi true [[Some 25%N]] 104%N => set_visible true t        (* h *)
  | TCsi true [[Some 25%N]] 108%N => set_visible false t       (* l *)
  | TCsi true [[Some 1049%N]] 104%N => with_cells t (fun _ => erased (t_attr t))
  | TCsi true [[Some 1049%N]] 108%N => with_cells t (fun _ => Junk)
  | _ => t
  end.

Definition exec (u : uniseg) (t : term) (l : list token) : term := fold_left (exec_token u) l t.

(** Terminals differing only pointwise on the screen are the same. *)
Definition same_screen (f g : pos -> tglyph) : Prop := forall p, f p = g p.
