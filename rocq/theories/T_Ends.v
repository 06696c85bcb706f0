(** C74: whether solving a layout ends. *)
From Verif Require Import Base P_Base M_Geom M_Solver M_Layout S_Solver S_Layout P_Row P_Tableau P_Simplex P_System P_Step P_Exact P_Count P_Bland P_Ends P_Cycle P_Layout T_Solver T_Layout T_Exact.
From Coq Require Import ZArith NArith QArith List Bool Lia Permutation.
Import ListNotations.
Open Scope Z_scope.

(** The order [order] for the first [n] walks over a map, then that of the numbers of the symbols. *)
Definition then_ranked (n : nat) (order : nat -> list symbol -> list symbol) : nat -> list symbol -> list symbol := fun k l => if (k <? n)%nat then order k l else rank l.
Lemma then_ranked_ok n order : any_order order -> any_order (then_ranked n order).
Proof. intros H k l. unfold then_ranked. destruct (k <? n)%nat; [apply H|apply rank_perm]. Qed.
Lemma then_ranked_fixed n order : fixed_from (then_ranked n order) n.
Proof. intros k l H. unfold then_ranked. destruct (Nat.ltb_spec k n); [lia|apply rank_ranked]. Qed.
Lemma then_ranked_first n order k l : (k < n)%nat -> then_ranked n order k l = order k l.
Proof. intros H. unfold then_ranked. destruct (Nat.ltb_spec k n); [reflexivity|lia]. Qed.

Section Ends.
#[local] Existing Instance no_tolerance.
Lemma ranked_ends : exists b, forall order n cs, any_order order -> (forall c, In c cs -> 0 <= c_strength c)%Q -> (names_needed cs <= 254)%nat ->
  forall fuel, (n + b <= fuel)%nat -> add_constraints (then_ranked n order) fuel new_solver cs <> NoFuel.
Proof.
  destruct names_exist as (names & Hn). exists (S (2 ^ length names))%nat. intros order n cs Oo St H fuel Hf.
  assert (Nr : forall q, near_zero q = true -> is_zero q = true) by (intros q Z; exact Z).
  destruct (adds_ends (then_ranked n order) (then_ranked_ok n order Oo) Nr n (then_ranked_fixed n order) names Hn (variables cs) cs 0 new_solver [] good_new eq_refl St) as (res & Rn & F).
  - intros c I v J. unfold variables. apply nodup_In. apply in_flat_map. eauto.
  - repeat split; [constructor|intros v []|cbn; lia].
  - rewrite Nat.add_0_r, symbols_two. exact H.
  - rewrite F by lia. exact Rn.
Qed.
Lemma split_fail order fuel vs l area cs e s : problem vs l area = Ret cs -> add_constraints order fuel new_solver cs = Fail e s -> M_Layout.split order fuel vs l area = SplitPanics.
Proof. unfold problem, bounds, M_Layout.split. cbv zeta. destruct (l_direction l); cbn [fst snd]; intros -> ->; reflexivity. Qed.
(** ** C74: however the maps were walked so far, the work can still end, within a number of rounds that depends on nothing: there is a way to
    walk them from there on with which it does. *)
Theorem C74_solver_can_end_partial : exists b, forall order n cs, any_order order -> (forall c, In c cs -> 0 <= c_strength c)%Q -> (names_needed cs <= 254)%nat ->
  exists order', any_order order' /\ (forall k l, (k < n)%nat -> order' k l = order k l) /\
    forall fuel, (n + b <= fuel)%nat -> (exists s, add_constraints order' fuel new_solver cs = Done s) \/ (exists e s, add_constraints order' fuel new_solver cs = Fail e s).
Proof.
  destruct ranked_ends as (b & K). exists b. intros order n cs Oo St H. exists (then_ranked n order). split; [now apply then_ranked_ok|]. split; [intros k l; apply then_ranked_first|].
  intros fuel Hf. pose proof (K order n cs Oo St H fuel Hf) as R. destruct (add_constraints _ _ _ _) as [s|e s|]; [left; eauto|right; eauto|congruence].
Qed.
Theorem C74_can_end_partial : exists b, forall order n vs l area, any_order order -> vars_ok vs l -> few_names l ->
  exists order', any_order order' /\ (forall k x, (k < n)%nat -> order' k x = order k x) /\
    forall fuel, (n + b <= fuel)%nat -> exists segs sps, M_Layout.split order' fuel vs l area = Splits segs sps.
Proof.
  destruct ranked_ends as (b & K). exists b. intros order n vs l area Oo V H. exists (then_ranked n order). pose proof (then_ranked_ok n order Oo) as Oo'. split; [exact Oo'|]. split; [intros k x; apply then_ranked_first|].
  intros fuel Hf. pose proof (C35_few_partial (then_ranked n order) fuel vs l area Oo' V H) as Np. destruct (problem_ok vs l area V) as (rest & E & _). pose proof (problem_strengths vs l area _ V E) as St. pose proof (few_needed vs l area _ V H E) as Nm.
  pose proof (K order n _ Oo St Nm fuel Hf) as R. clear K. destruct (add_constraints (then_ranked n order) fuel new_solver _) as [s|e s|] eqn:A in R; [| |congruence].
  - rewrite (split_done _ _ _ _ _ _ _ E A). eauto.
  - elim Np. exact (split_fail _ _ _ _ _ _ _ _ E A).
Qed.
(** With one and the same order, everything ends. *)
Theorem C74_one_order_partial : exists order b, any_order order /\ forall vs l area fuel, vars_ok vs l -> few_names l -> (b <= fuel)%nat ->
  exists segs sps, M_Layout.split order fuel vs l area = Splits segs sps.
Proof.
  destruct ranked_ends as (b & K). exists (then_ranked 0 keep_order), b. assert (Ok : any_order keep_order) by (intros n l; reflexivity). split; [now apply then_ranked_ok|]. intros vs l area fuel V H Hf.
  pose proof (C35_few_partial (then_ranked 0 keep_order) fuel vs l area (then_ranked_ok 0 _ Ok) V H) as Np. destruct (problem_ok vs l area V) as (rest & E & _). pose proof (problem_strengths vs l area _ V E) as St. pose proof (few_needed vs l area _ V H E) as Nm.
  pose proof (K keep_order 0%nat _ Ok St Nm fuel Hf) as R. clear K. destruct (add_constraints (then_ranked 0 keep_order) fuel new_solver _) as [s|e s|] eqn:A in R; [| |congruence].
  - rewrite (split_done _ _ _ _ _ _ _ E A). eauto.
  - elim Np. exact (split_fail _ _ _ _ _ _ _ _ E A).
Qed.
End Ends.

(** ** C74: but it need not: there is a layout of four constraints for an area of one cell and a way to walk the maps with which no number of rounds is enough. *)
Definition narrow_row : layout := Layout DirHorizontal [LLen 2; LFill 2; LMin 3; LMin 2] (Padding 0 0 0 0) FlexSpaceBetween (SpSpace 0).
(** The symbol that each walk meets first: for the first walks, and again and again after them. *)
Definition at_first : list (option symbol) := [
  Some (Sym 1 TExternal); None; Some (Sym 3 TExternal); None; None; None; None; None; Some (Sym 7 TExternal); None; None; None; Some (Sym 10 TExternal); None; None; None;
  Some (Sym 13 TExternal); None; None; None; Some (Sym 16 TExternal); None; None; None; Some (Sym 19 TExternal); None; None; None; Some (Sym 22 TExternal); None; None; None;
  Some (Sym 25 TExternal); None; None; None; Some (Sym 28 TExternal); None; None; None; None; None; None; None; Some (Sym 32 TSlack); None; None; Some (Sym 11 TSlack);
  Some (Sym 35 TSlack); None; None; None; Some (Sym 17 TSlack); Some (Sym 37 TSlack); None; None; None; Some (Sym 23 TSlack); Some (Sym 39 TSlack); None; None; None;
  Some (Sym 29 TSlack); Some (Sym 41 TSlack); None; None; None; Some (Sym 20 TSlack); Some (Sym 42 TError); None; None; Some (Sym 26 TSlack); Some (Sym 44 TError); None; None;
  None; None; None; None; Some (Sym 14 TSlack); Some (Sym 27 TSlack); Some (Sym 42 TError); Some (Sym 46 TError); None; None; None; None; Some (Sym 46 TError);
  Some (Sym 42 TError); None; None; None; None; None; None; None; None; Some (Sym 40 TSlack); Some (Sym 62 TError); None; None; Some (Sym 34 TSlack); Some (Sym 48 TSlack);
  Some (Sym 42 TError); Some (Sym 12 TSlack); None; None; Some (Sym 36 TSlack); Some (Sym 46 TError); None; None; Some (Sym 38 TSlack); Some (Sym 36 TSlack); Some (Sym 49 TError);
  Some (Sym 52 TSlack); Some (Sym 53 TError); Some (Sym 56 TSlack)].
Definition again : list (option symbol) := [
  Some (Sym 46 TError); Some (Sym 38 TSlack); Some (Sym 12 TSlack); Some (Sym 42 TError); Some (Sym 56 TSlack); Some (Sym 53 TError); Some (Sym 52 TSlack); Some (Sym 49 TError);
  Some (Sym 42 TError); Some (Sym 18 TSlack); Some (Sym 38 TSlack); Some (Sym 46 TError); Some (Sym 49 TError); Some (Sym 52 TSlack); Some (Sym 53 TError); Some (Sym 12 TSlack);
  Some (Sym 18 TSlack); Some (Sym 56 TSlack)].
Fixpoint take_out (x : symbol) (l : list symbol) : list symbol := match l with [] => [] | y :: l => if sym_eqb x y then l else y :: take_out x l end.
Definition front (x : option symbol) (l : list symbol) : list symbol := match x with Some x => if existsb (sym_eqb x) l then x :: take_out x l else l | None => l end.
Definition going_round (n : nat) (l : list symbol) : list symbol :=
  front (if (n <? length at_first)%nat then nth n at_first None else nth ((n - length at_first) mod length again) again None) l.
Lemma going_round_ok : any_order going_round.
Proof.
  intros n l. unfold going_round. generalize (if (n <? length at_first)%nat then nth n at_first None else nth ((n - length at_first) mod length again) again None). intros [x|]; [|reflexivity]. cbn [front].
  destruct (existsb (sym_eqb x) l) eqn:E; [|reflexivity]. induction l as [|y l IH]; [discriminate|]. cbn [take_out]. cbn in E. destruct (sym_eqb x y) eqn:D; [apply sym_eqb_ok in D; now subst|]. cbn in E.
  apply (Permutation_trans (perm_swap _ _ _)). constructor. now apply IH.
Qed.
Lemma going_round_again n l : (length at_first <= n)%nat -> going_round (n + length again) l = going_round n l.
Proof.
  intros H. unfold going_round. destruct (Nat.ltb_spec n (length at_first)); [lia|]. destruct (Nat.ltb_spec (n + length again) (length at_first)); [lia|].
  replace (n + length again - length at_first)%nat with ((n - length at_first) + 1 * length again)%nat by lia. rewrite Nat.mod_add by discriminate. reflexivity.
Qed.
Section Cycles.
Context {tolr : tolerance}.
Definition round_from (s : solver) : Prop := (length at_first <= s_uses s)%nat /\ turns going_round false (length again / 2)%nat s = Some (P_Cycle.shift (length again) s).
Lemma round_busy s0 k s : turns going_round false k s0 = Some s -> round_from s -> forall fuel, optimize going_round fuel false s0 = NoFuel.
Proof.
  intros T [U R] fuel. assert (B : forall f, optimize going_round f false s = NoFuel).
  { apply (never_ends going_round false s (length again) (length again / 2)%nat); [|vm_compute; lia|exact R]. intros n l H. apply going_round_again. lia. }
  destruct (Nat.le_gt_cases fuel k) as [L|L]; [exact (turns_short _ _ _ _ _ _ T L)|]. replace fuel with (k + (fuel - k))%nat by lia. rewrite (turns_optimize _ _ _ _ _ _ T). apply B.
Qed.
Definition narrow_problem : list constr := match problem (vars_for (l_constraints narrow_row)) narrow_row (Rect 0 0 1 1) with Ret cs => cs | Panic => [] end.
(** Constraint 40 is the one whose addition does not end. *)
Definition the_constraint : constr := nth 39 narrow_problem (Constr (Expr [] 0) REq 0).
Definition before_it : solver := match add_constraints going_round 100 new_solver (firstn 39 narrow_problem) with Done s => s | _ => new_solver end.
Definition put_it : solver := match put_row going_round before_it the_constraint 100 with Done s => s | _ => new_solver end.
Definition in_the_round : solver := match turns going_round false 12 put_it with Some s => s | None => new_solver end.
Lemma narrow_busy : narrow_problem = firstn 39 narrow_problem ++ the_constraint :: skipn 40 narrow_problem ->
  add_constraints going_round 100 new_solver (firstn 39 narrow_problem) = Done before_it -> put_row going_round before_it the_constraint 100 = Done put_it ->
  turns going_round false 12 put_it = Some in_the_round -> round_from in_the_round -> forall fuel, add_constraints going_round fuel new_solver narrow_problem = NoFuel.
Proof. intros E0 E1 E2 E3 R fuel. rewrite E0. apply (adds_busy going_round 100 _ _ _ _ before_it put_it E1 E2). exact (round_busy put_it 12 in_the_round E3 R). Qed.
End Cycles.

Section Code.
#[local] Existing Instance code_tolerance.
Theorem C74_every_order_refuted : exists order l area, any_order order /\ vars_ok (vars_for (l_constraints l)) l /\ (length (l_constraints l) <= 6)%nat /\ rw area = 1 /\ rh area = 1 /\
  forall fuel, M_Layout.split order fuel (vars_for (l_constraints l)) l area = SplitBusy.
Proof.
  exists going_round, narrow_row, (Rect 0 0 1 1). split; [apply going_round_ok|]. split; [apply vars_for_ok|]. split; [cbn; lia|]. split; [reflexivity|]. split; [reflexivity|]. intros fuel.
  assert (B : add_constraints going_round fuel new_solver narrow_problem = NoFuel).
  { apply narrow_busy; [vm_compute; reflexivity|vm_compute; reflexivity|vm_compute; reflexivity|vm_compute; reflexivity|]. split; [vm_compute; lia|vm_compute; reflexivity]. }
  assert (E : problem (vars_for (l_constraints narrow_row)) narrow_row (Rect 0 0 1 1) = Ret narrow_problem) by (vm_compute; reflexivity).
  revert B E. generalize narrow_problem. intros cs B E. unfold problem, bounds in E. unfold M_Layout.split. cbv zeta in *. cbn [l_direction narrow_row fst snd] in *. rewrite E, B. reflexivity.
Qed.
(** The same layout, with the keys in another order, ends. *)
Example C74_instance : exists sps, M_Layout.split keep_order 1000 (vars_for (l_constraints narrow_row)) narrow_row (Rect 0 0 1 1) = Splits [Rect 0 0 0 1; Rect 0 0 0 1; Rect 0 0 1 1; Rect 1 0 0 1] sps.
Proof. eexists. vm_compute. reflexivity. Qed.
End Code.
Section None.
#[local] Existing Instance no_tolerance.
Theorem C74_exact_refuted : exists order l area, any_order order /\ vars_ok (vars_for (l_constraints l)) l /\ (length (l_constraints l) <= 6)%nat /\ rw area = 1 /\ rh area = 1 /\
  forall fuel, M_Layout.split order fuel (vars_for (l_constraints l)) l area = SplitBusy.
Proof.
  exists going_round, narrow_row, (Rect 0 0 1 1). split; [apply going_round_ok|]. split; [apply vars_for_ok|]. split; [cbn; lia|]. split; [reflexivity|]. split; [reflexivity|]. intros fuel.
  assert (B : add_constraints going_round fuel new_solver narrow_problem = NoFuel).
  { apply narrow_busy; [vm_compute; reflexivity|vm_compute; reflexivity|vm_compute; reflexivity|vm_compute; reflexivity|]. split; [vm_compute; lia|vm_compute; reflexivity]. }
  assert (E : problem (vars_for (l_constraints narrow_row)) narrow_row (Rect 0 0 1 1) = Ret narrow_problem) by (vm_compute; reflexivity).
  revert B E. generalize narrow_problem. intros cs B E. unfold problem, bounds in E. unfold M_Layout.split. cbv zeta in *. cbn [l_direction narrow_row fst snd] in *. rewrite E, B. reflexivity.
Qed.
(** A case of the theorems on ending: the symbols in the order of their numbers after 125 walks along the way above. *)
Example C74_ends_instance : vars_ok (vars_for (l_constraints narrow_row)) narrow_row /\
  exists sps, M_Layout.split (then_ranked 125 going_round) 1000 (vars_for (l_constraints narrow_row)) narrow_row (Rect 0 0 1 1) = Splits [Rect 0 0 0 1; Rect 0 0 0 1; Rect 0 0 1 1; Rect 1 0 0 1] sps.
Proof. split; [apply vars_for_ok|]. eexists. vm_compute. reflexivity. Qed.
End None.

Print Assumptions C74_solver_can_end_partial.
Print Assumptions C74_can_end_partial.
Print Assumptions C74_one_order_partial.
Print Assumptions C74_every_order_refuted.
Print Assumptions C74_exact_refuted.
