(** Which constraints of a layout give way when there is no room for all of them: a small specification, in cells and fractions of
    cells, that does not mention the solver. *)
From Verif Require Import Base M_Geom M_Layout S_Place.
From Coq Require Import ZArith QArith Qminmax List Bool.
Import ListNotations.
Open Scope Q_scope.

(** How long a segment asks to be in an area of [total] cells. A filling segment asks for nothing in particular. *)
Definition asks (total : Z) (c : lconstraint) : Q :=
  match c with
  | LMin n | LMax n | LLen n => inject_Z n
  | LPercentage p => inject_Z p * inject_Z total / 100
  | LRatio a b => inject_Z a * inject_Z total / inject_Z (Z.max 1 b)
  | LFill _ => 0
  end.
(** Minimums come first, then lengths, percentages and ratios; a segment with a maximum is that long only if these leave room for it;
    what fills comes last. *)
Definition rank (c : lconstraint) : nat :=
  match c with LMin _ => 6 | LLen _ => 5 | LPercentage _ => 4 | LRatio _ _ => 3 | LMax _ => 2 | LFill _ => 1 end.
(** What a segment may have while one of rank [p] is too short: what it asks for, if it is of that rank or of a higher one, and nothing otherwise. *)
Definition entitled (total : Z) (p : nat) (c : lconstraint) : Q := if (p <=? rank c)%nat then Qmax 0 (asks total c) else 0.
(** How much a segment minds to be longer than it asks to be. *)
Definition minds (c : lconstraint) : nat :=
  match c with LMax _ => 5 | LLen _ => 4 | LPercentage _ => 3 | LRatio _ _ => 2 | LMin _ => 1 | LFill _ => 0 end.
(** Layouts of at most eighty constraints whose filling weights add up to at most a hundred thousand. *)
Definition fill_weight (c : lconstraint) : Z := match c with LFill w => Z.max 1 w | _ => 0 end.
Definition moderate (l : layout) : Prop := (length (l_constraints l) <= 80)%nat /\ (fold_right (fun c z => fill_weight c + z) 0 (l_constraints l) <= 100000)%Z.
(** A layout in which some segment takes what is left. *)
Definition takes_rest (fl : flex) (c : lconstraint) : bool := match c with LFill _ => true | LMin _ => match fl with FlexLegacy => false | _ => true end | _ => false end.

(** The exact places of the segments of a split, in cells and fractions of cells: the edges of each segment stand for its start and its end. *)
Record exact_places (low high : rect -> Z) (segs : list rect) (start stop : nat -> Q) : Prop := {
  exact_low : forall k seg, nth_error segs k = Some seg -> stands_for (low seg) (start k);
  exact_high : forall k seg, nth_error segs k = Some seg -> stands_for (high seg) (stop k);
  exact_order : forall k seg, nth_error segs k = Some seg -> start k <= stop k;
  exact_empty : forall k seg, nth_error segs k = Some seg -> stop k <= start k -> low seg = high seg
}.
