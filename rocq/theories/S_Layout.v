(** What a split of an area looks like: a small specification. *)
From Verif Require Import Base M_Geom M_Layout.
From Coq Require Import ZArith List.
Import ListNotations.
Open Scope Z_scope.

(** The edges of a rectangle along the direction of the layout, and its extent across it. *)
Definition low (d : direction) (r : rect) : Z := match d with DirHorizontal => rx r | DirVertical => ry r end.
Definition high (d : direction) (r : rect) : Z := match d with DirHorizontal => rx r + rw r | DirVertical => ry r + rh r end.
Definition across (d : direction) (r : rect) : Z * Z := match d with DirHorizontal => (ry r, rh r) | DirVertical => (rx r, rw r) end.
(** A piece of an area: inside it, not of negative size, and as wide as the area. *)
Definition piece (d : direction) (a r : rect) : Prop := low d a <= low d r /\ low d r <= high d r /\ high d r <= high d a /\ across d r = across d a.

(** ** How much a layout asks of the solver *)
(** The solver names its quantities with bytes. A layout of n constraints has 2n + 2 borders, and takes at most two names more for each thing
    it asks for: the ends of the area (2), that every border be inside it (4n + 4) and every segment not be turned around (n), how long each
    segment is to be, how long the gaps are to be, that the segments that take what is left be alike, two by two, and, unless it is laid out
    as New does, that neighbours be alike. *)
Definition size_names (c : lconstraint) : nat := match c with LMin _ | LMax _ => 4 | _ => 2 end%nat.
Definition gap_names (fl : flex) (n : nat) : nat :=
  match fl with
  | FlexLegacy | FlexStart | FlexEnd => 2 * (n - 1) + 4
  | FlexCenter => 2 * (n - 1) + 6
  | FlexSpaceAround => (n - 1) * (n - 2) + 4 * (n - 1)
  | FlexSpaceBetween => (n - 1) * (n - 2) + 4 * (n - 1) + 4
  end%nat.
Definition stretches (fl : flex) (c : lconstraint) : bool :=
  match fl, c with _, LFill _ => true | FlexLegacy, LMin _ => false | _, LMin _ => true | _, _ => false end.
Definition names_for (l : layout) : nat :=
  let n := length (l_constraints l) in
  let k := length (filter (stretches (l_flex l)) (l_constraints l)) in
  (2 * n + 2 + 2 * (2 + (4 * n + 4) + n) + gap_names (l_flex l) n + fold_right (fun c m => size_names c + m) 0 (l_constraints l) + k * (k - 1) +
  match l_flex l with FlexLegacy => 0 | _ => 2 * (n - 1) end)%nat.
(** Few enough for a byte. *)
Definition few_names (l : layout) : Prop := (names_for l <= 254)%nat.
