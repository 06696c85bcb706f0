(** C34-C36, C60, C61 for the solver that takes only zero for zero: numbers have no rounding errors in this model, so there is
    nothing for the code's tolerance to absorb. No hypothesis mentions the run. *)
From Verif Require Import Base P_Base M_Geom M_Solver M_Layout S_Solver S_Layout S_Place P_Row P_Tableau P_Simplex P_System P_Step P_Exact P_Count P_Layout T_Solver T_Layout T_Place.
From Coq Require Import ZArith NArith QArith Qabs Qminmax List Bool Lia Lqa Setoid Permutation.
Import ListNotations.
Open Scope Z_scope.
#[local] Existing Instance no_tolerance.

(** The names that a list of constraints can need: one for each variable, at most two for each constraint. *)
Definition names_needed (cs : list constr) : nat := (length (variables cs) + 2 * length cs)%nat.
Lemma no_loss order fuel cs s : any_order order -> (forall c, In c cs -> 0 <= c_strength c)%Q -> (s_tick s <= 256)%N ->
  (add_constraints order fuel new_solver cs = Done s \/ exists e, add_constraints order fuel new_solver cs = Fail e s) -> exact s = true.
Proof.
  intros Oo St T A. assert (Nr : forall q, near_zero q = true -> is_zero q = true) by (intros q H; exact H).
  pose proof (adds_keeps Nr order Oo fuel cs new_solver [] good_new eq_refl St) as K. destruct A as [A|[e A]]; rewrite A in K; auto.
Qed.
(** ** C36: the solver's answer satisfies what is required and no answer that does has a smaller penalty; when it gives none, there is none. *)
Theorem C36_small_optimal_partial order fuel cs s : any_order order -> (forall c, In c cs -> 0 <= c_strength c)%Q -> (names_needed cs <= 255)%nat ->
  add_constraints order fuel new_solver cs = Done s ->
  feasible cs (get_value s) /\ forall x, feasible cs x -> (penalty cs (get_value s) <= penalty cs x)%Q.
Proof.
  intros Oo St N A. assert (T : (s_tick s <= 256)%N) by (apply (C36_small order fuel cs s Oo N); now left). apply (C36_optimal_partial order fuel cs s Oo St A); [|exact T]. apply (no_loss order fuel cs s Oo St T). now left.
Qed.
Theorem C36_small_failure_partial order fuel cs e s : any_order order -> (forall c, In c cs -> 0 <= c_strength c)%Q -> (names_needed cs <= 255)%nat ->
  add_constraints order fuel new_solver cs = Fail e s -> ~ exists x, feasible cs x.
Proof.
  intros Oo St N A. assert (T : (s_tick s <= 256)%N) by (apply (C36_small order fuel cs s Oo N); right; eauto). apply (C36_failure_partial order fuel cs e s Oo St A); [|exact T]. apply (no_loss order fuel cs s Oo St T). right; eauto.
Qed.

(** ** C34, C35, C60, C61: layouts that need few names. *)
Lemma few_regular order fuel vs l area : any_order order -> vars_ok vs l -> few_names l -> regular order fuel vs l area.
Proof.
  intros Oo V N cs s E A. assert (T := C38_few_partial order fuel vs l area cs s Oo V N E A). split; [|exact T]. apply (no_loss order fuel cs s Oo); [|exact T|exact A]. apply (problem_strengths vs l area cs V E).
Qed.
Theorem C34_few_partial order fuel vs l area segs sps : any_order order -> vars_ok vs l -> few_names l -> M_Layout.split order fuel vs l area = Splits segs sps ->
  let a := inner area (l_padding l) in let d := l_direction l in
  length segs = length (l_constraints l) /\ length sps = S (length segs) /\
  (forall r, In r segs -> piece d a r) /\ (forall r, In r sps -> piece d a r) /\
  (forall k seg sp, nth_error segs k = Some seg -> nth_error sps (S k) = Some sp -> low d sp = high d seg) /\
  (forall k seg sp, nth_error segs k = Some seg -> nth_error sps k = Some sp -> high d sp = Z.max (low d sp) (low d seg)) /\
  (forall sp, nth_error sps 0 = Some sp -> low d sp = low d a) /\ (forall sp, nth_error sps (length segs) = Some sp -> high d sp = high d a).
Proof. intros Oo V N E. exact (C34_pieces_partial order fuel vs l area segs sps Oo V (few_regular order fuel vs l area Oo V N) E). Qed.
Theorem C35_few_partial order fuel vs l area : any_order order -> vars_ok vs l -> few_names l -> M_Layout.split order fuel vs l area <> SplitPanics.
Proof. intros Oo V N. exact (C35_no_panic_partial order fuel vs l area Oo V (few_regular order fuel vs l area Oo V N)). Qed.
Theorem C60_few_partial order fuel vs l area segs sps : any_order order -> vars_ok vs l -> few_names l -> M_Layout.split order fuel vs l area = Splits segs sps ->
  let d := l_direction l in let a := inner area (l_padding l) in
  let total := (high d a - low d a)%Z in let space := cells_between l in
  let ds := map (demand_of (l_flex l) total) (l_constraints l) in
  fits (l_flex l) total space ds ->
  length segs = length ds /\
  forall k seg dm, nth_error segs k = Some seg -> nth_error ds k = Some dm ->
    let start := (inject_Z (low d a) + offset (l_flex l) total space ds k)%Q in
    stands_for (low d seg) start /\ stands_for (high d seg) (start + share total space ds dm).
Proof. intros Oo V N E. exact (C60_placed_partial order fuel vs l area segs sps Oo V (few_regular order fuel vs l area Oo V N) E). Qed.
Theorem C61_few_partial order fuel vs order' fuel' vs' l area segs sps segs' sps' :
  any_order order -> vars_ok vs l -> M_Layout.split order fuel vs l area = Splits segs sps ->
  any_order order' -> vars_ok vs' l -> M_Layout.split order' fuel' vs' l area = Splits segs' sps' ->
  few_names l ->
  let d := l_direction l in let a := inner area (l_padding l) in let total := (high d a - low d a)%Z in
  fits (l_flex l) total (cells_between l) (map (demand_of (l_flex l) total) (l_constraints l)) ->
  segs = segs' /\ sps = sps'.
Proof.
  intros Oo V E Oo' V' E' N. exact (C61_same_partial order fuel vs order' fuel' vs' l area segs sps segs' sps' Oo V (few_regular order fuel vs l area Oo V N) E Oo' V' (few_regular order' fuel' vs' l area Oo' V' N) E').
Qed.
(** Cases that meet the hypotheses: the layouts of T_Layout and T_Place, solved without the tolerance. *)
Example few_instance : few_names mixed /\
  exists sps, M_Layout.split keep_order 1000 (vars_for (l_constraints mixed)) mixed (Rect 2 1 40 5) = Splits [Rect 3 1 3 5; Rect 7 1 2 5; Rect 10 1 11 5; Rect 22 1 0 5; Rect 23 1 4 5; Rect 28 1 13 5] sps.
Proof. split; [unfold few_names; cbn; lia|]. eexists. vm_compute. reflexivity. Qed.
Example few_room_instance : few_names shared /\ fits FlexCenter 34 1 (map (demand_of FlexCenter 34) (l_constraints shared)) /\
  exists sps, M_Layout.split (fun _ l => rev l) 1000 (vars_for (l_constraints shared)) shared (Rect 4 2 36 5) = Splits [Rect 5 2 3 5; Rect 9 2 5 5; Rect 15 2 8 5; Rect 24 2 9 5; Rect 34 2 5 5] sps.
Proof. split; [unfold few_names; cbn; lia|]. split; [apply C60_instance|]. eexists. vm_compute. reflexivity. Qed.
Definition fourteen : layout := Layout DirVertical [LLen 1; LLen 3; LPercentage 10; LLen 2; LLen 1; LRatio 1 8; LLen 4; LLen 1; LLen 5; LLen 2; LLen 3; LLen 1; LLen 2; LLen 1] (Padding 1 0 1 2) FlexLegacy (SpSpace 1).
Example C38_counts_instance : few_names fourteen /\ length (l_constraints fourteen) = 14%nat /\ exists segs sps, M_Layout.split keep_order 1000 (vars_for (l_constraints fourteen)) fourteen (Rect 0 0 20 60) = Splits segs sps /\
  map (fun r => (ry r, rh r)) segs = [(1, 1); (3, 3); (7, 6); (14, 2); (17, 1); (19, 13); (33, 4); (38, 1); (40, 5); (46, 2); (49, 3); (53, 1); (55, 2); (58, 1)].
Proof.
  split; [apply C38_counts; do 2 right; left; split; [reflexivity|split; [intros c H; repeat (destruct H as [<-|H]; [exact Logic.I|]); destruct H|cbn; lia]]|]. split; [reflexivity|]. eexists. eexists. split; vm_compute; reflexivity.
Qed.
Example C36_small_instance : (names_needed sample <= 255)%nat /\ (names_needed clash <= 255)%nat /\
  (exists s, add_constraints keep_order 100 new_solver sample = Done s /\ get_value s 1%Z == 10 /\ get_value s 3%Z == 11)%Q /\ exists s, add_constraints keep_order 100 new_solver clash = Fail EUnsatisfiable s.
Proof. split; [vm_compute; lia|]. split; [vm_compute; lia|]. split; eexists; [|vm_compute; reflexivity]. split; [vm_compute; reflexivity|]. split; vm_compute; reflexivity. Qed.

Print Assumptions C36_small_optimal_partial.
Print Assumptions C36_small_failure_partial.
Print Assumptions C34_few_partial.
Print Assumptions C35_few_partial.
Print Assumptions C60_few_partial.
Print Assumptions C61_few_partial.
