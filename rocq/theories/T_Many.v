(** What Split does with many constraints: the solver names its symbols with one byte (internal/casso/solver.go:42, casso.go:185). *)
From Verif Require Import Base P_Base M_Geom M_Combin M_Solver M_Layout S_Solver S_Layout P_Row P_Layout T_Solver T_Layout.
From Coq Require Import ZArith NArith QArith List Bool Lia.
Import ListNotations.
#[local] Existing Instance code_tolerance.

Lemma fails_early order fuel a b : forall s e s', add_constraints order fuel s a = Fail e s' -> exists e s', add_constraints order fuel s (a ++ b) = Fail e s'.
Proof.
  induction a as [|c a IH]; intros s e s' E; [discriminate|]. cbn [app add_constraints rbind] in *. destruct (add_constraint order fuel s c) as [s1|e1 s1|]; cbn [rbind] in *; try discriminate; eauto.
Qed.
(** The constraints that come first are the same for every layout of this many constraints in this area. *)
Definition first_ones (n : nat) (lo hi : Q) : list constr :=
  let vs := map Z.of_nat (seq 0 (2 * n + 2)) in let area := Element (hd 0%Z vs) (last vs 0%Z) in
  area_constraints area lo hi ++ in_area_constraints vs area ++ variable_constraints vs.
Definition fails (order : nat -> list symbol -> list symbol) (hi : Z) (n : nat) : bool :=
  match add_constraints order 1000 new_solver (first_ones n (qmul (inject_Z 0) multiplier) (qmul (inject_Z hi) multiplier)) with Fail _ _ => true | _ => false end.
Definition backwards (n : nat) (l : list symbol) : list symbol := rev l.
Lemma many_fail : forallb (fun n => fails keep_order 24 n && fails keep_order 80 n && fails backwards 24 n && fails backwards 80 n) (seq 43 22) = true.
Proof. vm_compute. reflexivity. Qed.

(** ** C35 is false of layouts with 43 constraints and more: whatever they, the flex and the spacing are, dividing a terminal of the usual size panics. *)
Theorem C35_many_refuted : forall l order, (43 <= length (l_constraints l) <= 64)%nat -> l_padding l = Padding 0 0 0 0 -> order = keep_order \/ order = backwards ->
  M_Layout.split order 1000 (vars_for (l_constraints l)) l (Rect 0 0 80 24) = SplitPanics.
Proof.
  intros l order Hn Hp Ho. pose proof (proj1 (forallb_forall _ _) many_fail (length (l_constraints l)) ltac:(apply in_seq; lia)) as F. cbv beta in F. rewrite !andb_true_iff in F. destruct F as (((F1 & F2) & F3) & F4).
  unfold M_Layout.split. rewrite Hp.
  assert (G : forall d, l_direction l = d -> fails order (match d with DirHorizontal => 80 | DirVertical => 24 end) (length (l_constraints l)) = true) by (intros [|] _; destruct Ho as [-> | ->]; assumption).
  specialize (G _ eq_refl). change (inner (Rect 0 0 80 24) (Padding 0 0 0 0)) with (Rect 0 0 80 24). unfold fails in G.
  destruct (add_constraints order 1000 new_solver (first_ones _ _ _)) as [|e s'|] eqn:E in G; try discriminate. clear G F1 F2 F3 F4.
  replace (match l_direction l with DirHorizontal => _ | DirVertical => _ end) with (0, match l_direction l with DirHorizontal => 80 | DirVertical => 24 end)%Z by (destruct (l_direction l); reflexivity).
  unfold layout_constraints. destruct (flex_constraints _ _ _ _) as [fx|]; [|reflexivity]. cbn [bind]. destruct (fill_constraints _ _ _) as [fl|]; [|reflexivity]. cbn [bind].
  match goal with |- context [add_constraints order 1000 new_solver (?a ++ ?b ++ ?c ++ ?r)] => replace (a ++ b ++ c ++ r) with ((a ++ b ++ c) ++ r) by now rewrite <- !app_assoc end.
  match goal with |- context [add_constraints order 1000 new_solver (_ ++ ?r)] => destruct (fails_early order 1000 _ r _ _ _ E) as (e1 & s1 & E1) end.
  match goal with |- match ?x with _ => _ end = _ => assert (E2 : x = Fail e1 s1) by exact E1 end. rewrite E2. reflexivity.
Qed.
Print Assumptions C35_many_refuted.
(** *** An instance: a column of 43 rows, one line each. *)
Definition rows_of_one : layout := new_layout (repeat (LLen 1) 43).
Example C35_many_instance : any_order keep_order /\ any_order backwards /\ vars_ok (vars_for (l_constraints rows_of_one)) rows_of_one /\
  M_Layout.split keep_order 1000 (vars_for (l_constraints rows_of_one)) rows_of_one (Rect 0 0 80 24) = SplitPanics.
Proof.
  split; [exact keep_order_ok|]. split; [intros n l; symmetry; apply Permutation.Permutation_rev|]. split; [exact (vars_for_ok rows_of_one)|].
  refine (C35_many_refuted rows_of_one keep_order _ eq_refl (or_introl eq_refl)). change (length (l_constraints rows_of_one)) with 43%nat. lia.
Qed.
