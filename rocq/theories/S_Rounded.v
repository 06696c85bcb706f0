(** Layouts whose numbers stay whole: what they ask for. *)
From Verif Require Import Base M_Geom M_Layout S_Layout.
From Coq Require Import ZArith List.
Import ListNotations.
Open Scope Z_scope.

(** Sizes in whole cells, a limit of cells, or the rest: no percentages and no ratios. *)
Definition in_cells (c : lconstraint) : Prop := match c with LLen _ | LMin _ | LMax _ | LFill _ => True | LPercentage _ | LRatio _ _ => False end.
Definition is_fill (c : lconstraint) : bool := match c with LFill _ => true | _ => false end.
(** Layouts as New makes them, in cells, in which at most one segment takes the rest; and layouts of one segment. *)
Definition in_whole_cells (l : layout) : Prop :=
  (forall c, In c (l_constraints l) -> in_cells c) /\
  ((l_flex l = FlexLegacy /\ (length (filter is_fill (l_constraints l)) <= 1)%nat) \/ (length (l_constraints l) <= 1)%nat).
(** Numbers that an int32 can hold. *)
Definition int32 (n : Z) : Prop := Z.abs n <= 2147483648.
Definition asked (c : lconstraint) : Z := match c with LMin n | LMax n | LLen n => n | _ => 0 end.
Definition spaced (s : spacing) : Z := match s with SpSpace n | SpOverlap n => n | SpOther => 0 end.
Definition int32_layout (l : layout) (area : rect) : Prop :=
  (forall c, In c (l_constraints l) -> int32 (asked c)) /\ int32 (spaced (l_spacing l)) /\
  int32 (low (l_direction l) (inner area (l_padding l))) /\ int32 (high (l_direction l) (inner area (l_padding l))).
(** The layouts C75 is about: in whole cells, with numbers that an int32 can hold, and few enough of them. *)
Definition whole_layout (l : layout) (area : rect) : Prop := in_whole_cells l /\ int32_layout l area /\ few_names l.
