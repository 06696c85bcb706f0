(** Model of layouts (layout.go, constraint.go, spacing.go, flex.go, direction.go), on top of the solver. *)
From Verif Require Import Base M_Geom M_Combin M_Solver.
From Coq Require Import ZArith NArith QArith Qround List Bool.
Import ListNotations.
Open Scope Q_scope.

(** constraint.go:11-18 *)
Inductive lconstraint := LMin (n : Z) | LMax (n : Z) | LLen (n : Z) | LPercentage (n : Z) | LRatio (num den : Z) | LFill (n : Z).
(** spacing.go:5-8; anything else in the interface counts as no spacing *)
Inductive spacing := SpSpace (n : Z) | SpOverlap (n : Z) | SpOther.
(** flex.go:5-12, direction.go:5-8; only the declared constants *)
Inductive flex := FlexLegacy | FlexStart | FlexEnd | FlexCenter | FlexSpaceBetween | FlexSpaceAround.
Inductive direction := DirVertical | DirHorizontal.
(** layout.go:54-60 *)
Record layout := Layout { l_direction : direction; l_constraints : list lconstraint; l_padding : padding; l_flex : flex; l_spacing : spacing }.
(** layout.go:62-71 *)
Definition new_layout (cs : list lconstraint) : layout := Layout DirVertical cs (Padding 0 0 0 0) FlexLegacy (SpSpace 0).

(** layout.go:10-26 *)
Definition multiplier : Q := 100.
Definition spacer_size_eq : Q := qdiv required 10.
Definition min_size_gte : Q := qmul strong 100.
Definition max_size_lte : Q := qmul strong 100.
Definition length_size_eq : Q := qmul strong 10.
Definition percentage_size_eq : Q := strong.
Definition ratio_size_eq : Q := qdiv strong 10.
Definition min_size_eq : Q := qmul medium 10.
Definition max_size_eq : Q := qmul medium 10.
Definition grow : Q := 100.
Definition fill_grow : Q := medium.
Definition space_grow : Q := qmul weak 10.
Definition all_segment_grow : Q := weak.
(** layout.go:639-644 *)
Definition required_less : Q := qadd required (-(1)).

(** layout.go:624-626, 628-633 *)
Record element := Element { el_start : variable; el_end : variable }.
(** layout.go:610-622: pairs of variables, an odd one at the end left out *)
Fixpoint new_elements (vs : list variable) : list element :=
  match vs with a :: b :: vs => Element a b :: new_elements vs | _ => [] end.
(** layout.go:635-637 *)
Definition el_size (e : element) : expression := v_sub (el_end e) (el_start e).
Section Arith.
Context {ar : arith}.
(** layout.go:639-644; the strength is a constant expression, which Go evaluates exactly *)
Definition is_empty (e : element) : constr := rel_const REq required_less (el_size e) 0.
(** layout.go:646-654 *)
Definition has_size (e : element) (size : expression) (strength : Q) : constr := rel_expr REq strength (el_size e) size.
(** layout.go:656-684 *)
Definition has_max_size (e : element) (size : Z) (strength : Q) : constr := rel_const RLe strength (el_size e) (qmul (inject_Z size) multiplier).
Definition has_min_size (e : element) (size : Z) (strength : Q) : constr := rel_const RGe strength (el_size e) (qmul (inject_Z size) multiplier).
Definition has_int_size (e : element) (size : Z) (strength : Q) : constr := rel_const REq strength (el_size e) (qmul (inject_Z size) multiplier).

(** layout.go:591-608 *)
Definition area_constraints (area : element) (lo hi : Q) : list constr :=
  [rel_const REq required (e_var (el_start area)) lo; rel_const REq required (e_var (el_end area)) hi].
(** layout.go:570-589 *)
Definition in_area_constraints (vs : list variable) (area : element) : list constr :=
  flat_map (fun v => [rel_var RGe required (e_var v) (el_start area); rel_var RLe required (e_var v) (el_end area)]) vs.
(** layout.go:549-568; [vs] are all variables *)
Definition variable_constraints (vs : list variable) : list constr :=
  map (fun e => rel_var RLe required (e_var (el_start e)) (el_end e)) (new_elements (tl vs)).

(** Pairs of elements at the indices that [combinations] gives (layout.go:285, 430, 454). *)
Definition pairs {A} (l : list A) : outcome (list (A * A)) :=
  let! ixs := combinations (zlen l) 2 in
  ofold (fun acc ix =>
    let! i := index_at ix 0 in
    let! j := index_at ix 1 in
    let! a := index_at l i in
    let! b := index_at l j in
    Ret (acc ++ [(a, b)])) ixs [].

(** layout.go:397-547. [spacers] are all spacers; the slice expressions are guarded by their lengths. *)
Definition middle {A} (l : list A) : list A := if (2 <? length l)%nat then removelast (tl l) else [].
Definition ends {A} (l : list A) (f : A -> A -> list constr) : list constr :=
  match l with a :: _ :: _ => f a (last l a) | _ => [] end.
Definition flex_constraints (area : element) (spacers : list element) (fl : flex) (space : Z) : outcome (list constr) :=
  let mid := middle spacers in
  let space_f := qmul (inject_Z space) multiplier in
  let fixed := map (fun s => has_size s (Expr [] space_f) spacer_size_eq) mid in
  let equal := if (2 <=? length mid)%nat then let! ps := pairs mid in Ret (map (fun p => has_size (fst p) (el_size (snd p)) spacer_size_eq) ps) else Ret [] in
  let growing := flat_map (fun s => [has_min_size s space spacer_size_eq; has_size s (el_size area) space_grow]) mid in
  match fl with
  | FlexLegacy => Ret (fixed ++ ends spacers (fun a b => [is_empty a; is_empty b]))
  | FlexSpaceAround => let! eq := equal in Ret (eq ++ growing)
  | FlexSpaceBetween => let! eq := equal in Ret (eq ++ growing ++ ends spacers (fun a b => [is_empty a; is_empty b]))
  | FlexStart => Ret (fixed ++ ends spacers (fun a b => [is_empty a; has_size b (el_size area) grow]))
  | FlexCenter => Ret (fixed ++ ends spacers (fun a b => [has_size a (el_size area) grow; has_size b (el_size area) grow; has_size a (el_size b) spacer_size_eq]))
  | FlexEnd => Ret (fixed ++ ends spacers (fun a b => [is_empty b; has_size a (el_size area) grow]))
  end.

(** layout.go:326-395, one constraint and its segment *)
Definition segment_constraints (area : element) (fl : flex) (c : lconstraint) (seg : element) : list constr :=
  match c with
  | LMax n => [has_max_size seg n max_size_lte; has_int_size seg n max_size_eq]
  | LMin n => has_min_size seg n min_size_gte ::
      match fl with FlexLegacy => [has_int_size seg n min_size_eq] | _ => [has_size seg (el_size area) fill_grow] end
  | LLen n => [has_int_size seg n length_size_eq]
  | LPercentage n => [has_size seg (e_div (e_mul (el_size area) (inject_Z n)) 100) percentage_size_eq]
  | LRatio num den => [has_size seg (e_div (e_mul (el_size area) (inject_Z num)) (inject_Z (Z.max 1 den))) ratio_size_eq]
  | LFill _ => [has_size seg (el_size area) fill_grow]
  end.
Definition size_constraints (area : element) (segs : list element) (cs : list lconstraint) (fl : flex) : list constr :=
  flat_map (fun p => segment_constraints area fl (fst p) (snd p)) (combine cs segs).

(** layout.go:255-324 *)
Definition scaling (c : lconstraint) : Q :=
  match c with
  | LFill n => if qltb (1 # 1000000) (inject_Z n) then inject_Z n else 1 # 1000000
  | LMin _ => 1
  | _ => 0
  end.
Definition fills (fl : flex) (c : lconstraint) : bool :=
  match c with LFill _ => true | LMin _ => match fl with FlexLegacy => false | _ => true end | _ => false end.
Definition fill_constraints (segs : list element) (cs : list lconstraint) (fl : flex) : outcome (list constr) :=
  let valid := filter (fun p => fills fl (fst p)) (combine cs segs) in
  if (length valid <? 2)%nat then Ret []
  else
    let! ps := pairs valid in
    Ret (map (fun p =>
      let '((lc, ls), (rc, rs)) := p in
      rel_expr REq grow (e_mul (el_size ls) (scaling rc)) (e_mul (el_size rs) (scaling lc))) ps).

(** layout.go:185-194 *)
Fixpoint neighbours (segs : list element) : list constr :=
  match segs with a :: (b :: _) as rest => has_size a (el_size b) all_segment_grow :: neighbours rest | _ => [] end.

(** layout.go:121-194: all the constraints, in the order in which they are added *)
Definition layout_constraints (l : layout) (lo hi : Q) (vs : list variable) : outcome (list constr) :=
  let spacers := new_elements vs in
  let segs := new_elements (tl vs) in
  let space := match l_spacing l with SpSpace n => n | SpOverlap n => (- n)%Z | SpOther => 0%Z end in
  let area := Element (hd 0%Z vs) (last vs 0%Z) in
  let! fx := flex_constraints area spacers (l_flex l) space in
  let! fill := fill_constraints segs (l_constraints l) (l_flex l) in
  Ret (area_constraints area lo hi ++ in_area_constraints vs area ++ variable_constraints vs ++ fx ++
       size_constraints area segs (l_constraints l) (l_flex l) ++ fill ++
       match l_flex l with FlexLegacy => [] | _ => neighbours segs end).

(** math.Round: halves away from zero *)
Definition round_q (q : Q) : Z := if qltb q 0 then (- Qfloor (- q + (1 # 2)))%Z else Qfloor (q + (1 # 2)).
(** layout.go:221-222 *)
Definition to_cells (q : Q) : Z := round_q (qdiv (inject_Z (round_q q)) multiplier).
(** layout.go:209-253. A missing change is 0. *)
Fixpoint change_of (v : variable) (l : list (variable * Q)) : Q := match l with [] => 0 | (v', q) :: l => if Z.eqb v v' then q else change_of v l end.
Definition changes_to_rects (changes : list (variable * Q)) (els : list element) (area : rect) (d : direction) : list rect :=
  map (fun e =>
    let lo := to_cells (change_of (el_start e) changes) in
    let hi := to_cells (change_of (el_end e) changes) in
    let size := Z.max 0 (hi - lo) in
    match d with
    | DirHorizontal => Rect lo (ry area) size (rh area)
    | DirVertical => Rect (rx area) lo (rw area) size
    end) els.

(** The results of Split: the segments and the spacers, a panic (layout.go:108-111), or still busy when the fuel is used up. *)
Inductive split_result := Splits (segments spacers : list rect) | SplitPanics | SplitBusy.
Section Tolerance.
Context {tolr : tolerance}.
(** layout.go:106-207. [vs] are the variables that NewVariable gives: distinct, two per constraint and two more (C39). *)
Definition split (order : nat -> list symbol -> list symbol) (fuel : nat) (vs : list variable) (l : layout) (area : rect) : split_result :=
  let a := inner area (l_padding l) in
  let '(lo, hi) := match l_direction l with DirHorizontal => (rx a, rright a) | DirVertical => (ry a, rbottom a) end in
  match layout_constraints l (qmul (inject_Z lo) multiplier) (qmul (inject_Z hi) multiplier) vs with
  | Panic => SplitPanics
  | Ret cs =>
      match add_constraints order fuel new_solver cs with
      | Done s =>
          let changes := fetch_changes s in
          Splits (changes_to_rects changes (new_elements (tl vs)) a (l_direction l)) (changes_to_rects changes (new_elements vs) a (l_direction l))
      | Fail _ _ => SplitPanics
      | NoFuel => SplitBusy
      end
  end.
End Tolerance.
End Arith.
Definition vars_for (cs : list lconstraint) : list variable := map Z.of_nat (seq 0 (2 * length cs + 2)).
