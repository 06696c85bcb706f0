(** Where the segments of a layout belong when there is room for all of them: a small specification, in cells and fractions of
    cells, that does not mention the solver. *)
From Verif Require Import Base M_Geom M_Layout.
From Coq Require Import ZArith QArith Qabs List Bool.
Import ListNotations.
Open Scope Q_scope.

Fixpoint sum_of {A} (f : A -> Q) (l : list A) : Q := match l with [] => 0 | a :: l => f a + sum_of f l end.

(** A constraint asks for a size, or for a share of the room that is left, at least so many cells. *)
Inductive demand := Exactly (size : Q) | Grow (weight least : Z).
Definition demand_of (fl : flex) (total : Z) (c : lconstraint) : demand :=
  match c with
  | LLen n | LMax n => Exactly (inject_Z n)
  | LMin n => match fl with FlexLegacy => Exactly (inject_Z n) | _ => Grow 1 n end
  | LPercentage p => Exactly (inject_Z p * inject_Z total / 100)
  | LRatio a b => Exactly (inject_Z a * inject_Z total / inject_Z (Z.max 1 b))
  | LFill w => Grow w 0
  end.
Definition fixed_size (d : demand) : Q := match d with Exactly q => q | Grow _ _ => 0 end.
Definition weight (d : demand) : Q := match d with Exactly _ => 0 | Grow w _ => inject_Z w end.
Definition grows (d : demand) : bool := match d with Exactly _ => false | Grow _ _ => true end.

(** The cells a layout asks for between two neighbours. *)
Definition cells_between (l : layout) : Z := match l_spacing l with SpSpace n => n | SpOverlap n => (- n)%Z | SpOther => 0%Z end.

(** A row of demands to be placed in [total] cells with [space] cells between neighbours. *)
Section Row.
Variables (fl : flex) (total space : Z) (ds : list demand).
(** What the fixed sizes and the spaces leave. *)
Definition room : Q := inject_Z total - sum_of fixed_size ds - inject_Z (Z.of_nat (length ds) - 1) * inject_Z space.
Definition share (d : demand) : Q := match d with Exactly q => q | Grow w _ => inject_Z w * (room / sum_of weight ds) end.
Definition someone_grows : bool := existsb grows ds.
(** The space before the first segment, and that between two segments. *)
Definition before : Q :=
  if someone_grows then 0 else match fl with FlexEnd => room | FlexCenter => room / 2 | _ => 0 end.
Definition gap : Q :=
  if someone_grows then inject_Z space
  else match fl with
       | FlexSpaceBetween | FlexSpaceAround => (inject_Z total - sum_of fixed_size ds) / inject_Z (Z.of_nat (length ds) - 1)
       | _ => inject_Z space
       end.
(** Where the k-th segment starts, counted from the start of the area. *)
Definition offset (k : nat) : Q := before + sum_of (fun d => share d + gap) (firstn k ds).
(** There is room: every segment is in the area, no share is too small. A layout in which nothing grows must leave no room in the
    legacy flex, which has nowhere to put it, and needs two segments for spaces between them. *)
Record fits : Prop := {
  fits_some : ds <> [];
  fits_weights : forall w m, In (Grow w m) ds -> (1 <= w)%Z /\ inject_Z m <= share (Grow w m);
  fits_sizes : forall d, In d ds -> 0 <= share d;
  fits_inside : forall k d, nth_error ds k = Some d -> 0 <= offset k /\ offset k + share d <= inject_Z total;
  fits_flex : someone_grows = false ->
    match fl with
    | FlexLegacy => room == 0
    | FlexSpaceBetween | FlexSpaceAround => (2 <= length ds)%nat /\ inject_Z space <= gap
    | _ => True
    end
}.
End Row.

(** A cell coordinate that stands for a position: at most 0.505 cells away. A position that is a whole number is met exactly. *)
Definition stands_for (z : Z) (q : Q) : Prop := Qabs (inject_Z z - q) <= 505 # 1000.
