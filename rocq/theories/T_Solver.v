(** C36, C37: what the constraint solver returns. *)
From Verif Require Import Base M_Solver M_Layout S_Solver P_Row P_Tableau P_Simplex P_Add P_Create P_System P_Step P_Noted P_Count.
From Coq Require Import ZArith NArith QArith Qabs Qminmax List Bool Lia Lqa Setoid Permutation.
Import ListNotations.
Open Scope Q_scope.
Section Tolerance.
Context {tolr : tolerance}.

(** Any order in which Go may range over its maps. *)
Definition any_order (order : nat -> list symbol -> list symbol) : Prop := forall n l, Permutation (order n l) l.

Lemma get_value_vals s v : get_value s v = vals s (sol (s_rows s)) v.
Proof. reflexivity. Qed.
Lemma optimal_new : optimal new_solver.
Proof. intros x []. Qed.
Lemma feasible_ext cs x y : (forall v, x v == y v) -> feasible cs x -> feasible cs y.
Proof.
  intros H F c I M. specialize (F c I M). assert (E : eval (c_expr c) x == eval (c_expr c) y) by (apply eval_cong; intros t _; now rewrite H). unfold satisfies in *. destruct (c_op c); lra.
Qed.

(** ** C36: the values found satisfy what is required, and no values that do cost less. Proved for runs in which every number that
    the solver took for zero was zero, and that make at most 255 symbols. *)
Theorem C36_optimal_partial order fuel cs s : any_order order -> (forall c, In c cs -> 0 <= c_strength c) ->
  add_constraints order fuel new_solver cs = Done s -> exact s = true -> (s_tick s <= 256)%N ->
  feasible cs (get_value s) /\ forall x, feasible cs x -> penalty cs (get_value s) <= penalty cs x.
Proof.
  intros Oo St E X H. pose proof (adds_ok order Oo fuel cs new_solver [] good_new optimal_new St) as A. rewrite E in A. assert (Xs : s_exact s = true) by (apply exact_parts in X; tauto). destruct (A H Xs) as (L & M & G & Op). cbn in M.
  destruct (g_sem _ _ G X) as (Kn & Ho & Ob). pose proof (proj1 (g_inv _ _ G)) as T. pose proof (proj1 (proj2 (g_inv _ _ G))) as O.
  assert (Hs : hold (s_rows s) (sol (s_rows s))) by now apply hold_sol.
  destruct (sys_penalty s L (sol (s_rows s))) as [F1 F2]; [apply G|intros c I; apply St; now rewrite <- M|now apply proper_sol|now apply Ho|]. rewrite M in F1, F2. split; [exact F1|].
  intros x Fx. destruct (extension s L x) as (v & Pv & _ & Sv & Tv); [apply G|apply G|apply G|exact Kn|rewrite M; exact Fx|]. rewrite M in Tv. apply (Qle_trans _ (total L (sol (s_rows s)))); [exact F2|]. rewrite <- Tv.
  apply Ho in Sv. rewrite <- (Ob _ Hs), <- (Ob _ Sv). rewrite (obj_sol _ _ O). exact (obj_min _ _ _ O Op Pv).
Qed.
(** The solver gives up only on systems that cannot be satisfied. *)
Theorem C36_failure_partial order fuel cs e s : any_order order -> (forall c, In c cs -> 0 <= c_strength c) ->
  add_constraints order fuel new_solver cs = Fail e s -> exact s = true -> (s_tick s <= 256)%N ->
  ~ exists x, feasible cs x.
Proof.
  intros Oo St E X H. pose proof (adds_ok order Oo fuel cs new_solver [] good_new optimal_new St) as A. rewrite E in A. exact (A H X).
Qed.
(** If everything can be had at once, it is. *)
Lemma violation_zero x c : violation x c == 0 <-> satisfies x c.
Proof.
  unfold violation, satisfies. set (e := eval (c_expr c) x). destruct (Qmax0 e) as [(P & E1 & E2 & E3)|(P & E1 & E2 & E3)]; destruct (c_op c); rewrite ?E1, ?E2, ?E3; split; intros; lra.
Qed.
Lemma violation_pos x c : 0 <= violation x c.
Proof. unfold violation. set (e := eval (c_expr c) x). destruct (Qmax0 e) as [(P & E1 & E2 & E3)|(P & E1 & E2 & E3)]; destruct (c_op c); rewrite ?E1, ?E2, ?E3; lra. Qed.
Lemma penalty_zero cs x : (forall c, In c cs -> 0 < c_strength c) -> 0 <= penalty cs x /\ ((forall c, In c cs -> ~ mandatory c -> satisfies x c) <-> penalty cs x == 0).
Proof.
  induction cs as [|c cs IH]; intros St; [split; [cbn; lra|split; [reflexivity|intros _ c []]]|]. destruct IH as [I1 I2]; [intros c' I; apply St; now right|]. change (penalty (c :: cs) x) with ((if Qle_bool required (c_strength c) then 0 else c_strength c * violation x c) + penalty cs x).
  pose proof (St c (or_introl eq_refl)) as Sc. pose proof (violation_pos x c) as Vp. destruct (Qle_bool required (c_strength c)) eqn:R.
  - apply Qle_bool_iff in R. split; [lra|]. setoid_replace (0 + penalty cs x) with (penalty cs x) by ring. rewrite <- I2. split; [intros H c' I; apply H; now right|]. intros H c' [<-|I] Nm; [elim Nm; exact R|now apply H].
  - assert (Nr : ~ mandatory c) by (intros Z; apply Qle_bool_iff in Z; congruence). assert (0 <= c_strength c * violation x c) by (apply Qmult_le_0_compat; lra). split; [lra|]. split.
    + intros H1. assert (P0 : penalty cs x == 0) by (apply I2; intros c' I; apply H1; now right). assert (V0 : violation x c == 0) by (apply violation_zero; apply H1; [now left|exact Nr]). rewrite P0, V0. ring.
    + intros H1. assert (P0 : penalty cs x == 0) by lra. assert (V0 : c_strength c * violation x c == 0) by lra. apply Qmult_integral in V0. intros c' [<-|I] Nm; [apply violation_zero; destruct V0; [lra|assumption]|]. now apply I2.
Qed.
Theorem C36_all_satisfied_partial order fuel cs s x : any_order order -> (forall c, In c cs -> 0 < c_strength c) ->
  add_constraints order fuel new_solver cs = Done s -> exact s = true -> (s_tick s <= 256)%N ->
  (forall c, In c cs -> satisfies x c) -> forall c, In c cs -> satisfies (get_value s) c.
Proof.
  intros Oo St E X H Sx c I. destruct (C36_optimal_partial order fuel cs s Oo) as [F O]; [intros c' J; apply Qlt_le_weak; now apply St|exact E|exact X|exact H|].
  assert (P : penalty cs (get_value s) <= penalty cs x) by (apply O; intros c' J _; now apply Sx). destruct (penalty_zero cs x St) as [_ Px]. destruct (penalty_zero cs (get_value s) St) as [P0 Pz]. assert (Z : penalty cs x == 0) by (apply Px; intros c' J _; now apply Sx).
  destruct (Qle_bool required (c_strength c)) eqn:R; [apply F; [exact I|now apply Qle_bool_iff]|]. apply Pz; [lra|exact I|]. intros M. apply Qle_bool_iff in M. congruence.
Qed.
(** A bound on the symbols that does not mention the run. *)
Theorem C36_small order fuel cs s : any_order order ->
  (length (variables cs) + 2 * length cs <= 255)%nat ->
  add_constraints order fuel new_solver cs = Done s \/ (exists e, add_constraints order fuel new_solver cs = Fail e s) -> (s_tick s <= 256)%N.
Proof. intros Oo H. apply (small_ticks order fuel cs s Oo). now rewrite symbols_two. Qed.

(** ** C37: what the changes say of a variable is its value; a variable they do not mention is zero. *)
Lemma changes_in s v q : In (v, q) (fetch_changes s) <-> In v (s_changed s) /\ find_var v (s_vars s) <> None /\ q = get_value s v.
Proof.
  unfold fetch_changes, get_value. rewrite in_flat_map. split.
  - intros (w & I & J). destruct (find_var w (s_vars s)) as [x|] eqn:F; [|contradiction]. destruct J as [J|[]]. injection J as <- <-. rewrite F. split; [exact I|]. split; [discriminate|reflexivity].
  - intros (I & N & ->). exists v. split; [exact I|]. destruct (find_var v (s_vars s)); [now left|congruence].
Qed.
Theorem C37_changes_partial order fuel cs s v : any_order order ->
  add_constraints order fuel new_solver cs = Done s -> (s_tick s <= 256)%N ->
  (forall q, In (v, q) (fetch_changes s) -> q == get_value s v) /\ ((forall q, ~ In (v, q) (fetch_changes s)) -> get_value s v == 0).
Proof.
  intros Oo E H. destruct (adds_live order Oo fuel cs new_solver s live_new eq_refl E H) as (V & _ & N). split.
  - intros q I. apply changes_in in I. destruct I as (_ & _ & ->). reflexivity.
  - intros No. destruct (Qeq_dec (get_value s v) 0) as [Z|Z]; [exact Z|]. elim (No (get_value s v)). apply changes_in. unfold get_value in *. destruct (find_var v (s_vars s)) as [x|] eqn:F; [|elim Z; reflexivity]. destruct (look x (s_rows s)) as [r|] eqn:Lk; [|elim Z; reflexivity].
    split; [|split; [discriminate|reflexivity]]. apply (N v x r); [now apply find_var_in|now apply look_in|exact Z].
Qed.
(** As the layout reads them. *)
Theorem C37_read_partial order fuel cs s v : any_order order ->
  add_constraints order fuel new_solver cs = Done s -> (s_tick s <= 256)%N -> change_of v (fetch_changes s) == get_value s v.
Proof.
  intros Oo E H. destruct (C37_changes_partial order fuel cs s v Oo E H) as [A B]. revert A B. generalize (fetch_changes s) as l. induction l as [|[w q] l IH]; intros A B; cbn [change_of].
  - symmetry. apply B. intros q [].
  - destruct (Z.eqb_spec v w) as [->|Nw]; [apply A; now left|]. apply IH; [intros q' I; apply A; now right|]. intros No. apply B. intros q' [J|J]; [injection J as J _; congruence|exact (No q' J)].
Qed.

End Tolerance.
#[local] Existing Instance code_tolerance.

(** *** Cases that meet the hypotheses *)
Definition keep_order (n : nat) (l : list symbol) : list symbol := l.
Lemma keep_order_ok : any_order keep_order. Proof. intros n l. apply Permutation_refl. Qed.
Lemma rev_order_ok : any_order (fun _ l => rev l). Proof. intros n l. apply Permutation_sym, Permutation_rev. Qed.
(** Three variables: x between 0 and 10, y from x to 10; x wants to be 12 (strongly) and 4 (weakly), y to be twice x and less than 5. *)
Definition sample : list constr :=
  [rel_const RGe required (e_var 1%Z) 0; rel_const RLe required (e_var 1%Z) 10; rel_var RLe required (e_var 1%Z) 2%Z; rel_const RLe required (e_var 2%Z) 10;
   rel_const REq strong (e_var 1%Z) 12; rel_const REq weak (e_var 1%Z) 4; rel_expr REq medium (e_var 2%Z) (e_mul (e_var 1%Z) 2); rel_const RLe medium (e_var 2%Z) 5;
   rel_const REq required (v_sub 3%Z 2%Z) 1].
Definition sample_ok (order : nat -> list symbol -> list symbol) : bool :=
  match add_constraints order 100 new_solver sample with
  | Done s => exact s && (s_tick s <=? 256)%N && Qeq_bool (get_value s 1%Z) 10 && Qeq_bool (get_value s 2%Z) 10 && Qeq_bool (get_value s 3%Z) 11 && (length (fetch_changes s) =? 3)%nat
  | _ => false
  end.
Example C36_instance : sample_ok keep_order = true /\ sample_ok (fun _ l => rev l) = true /\ (forall c, In c sample -> 0 <= c_strength c) /\
  (length (variables sample) + fold_right (fun c acc => (if Qle_bool required (c_strength c) then 2 else 3) + acc) 0 sample <= 255)%nat.
Proof. split; [vm_compute; reflexivity|]. split; [vm_compute; reflexivity|]. split; [|vm_compute; lia]. intros c I. cbn in I. repeat (destruct I as [<-|I]; [vm_compute; discriminate|]). contradiction. Qed.
(** A system that cannot be satisfied, found out through an artificial variable. *)
Definition clash : list constr := [rel_const RGe required (e_var 1%Z) 0; rel_const RGe required (e_var 2%Z) 3; rel_const RLe required (Expr [(1%Z, 1); (2%Z, 1)] 0) 2].
Example C36_clash_instance : match add_constraints keep_order 100 new_solver clash with Fail EUnsatisfiable s => exact s && (s_tick s <=? 256)%N | _ => false end = true.
Proof. vm_compute. reflexivity. Qed.

Print Assumptions C36_optimal_partial.
Print Assumptions C36_failure_partial.
Print Assumptions C36_all_satisfied_partial.
Print Assumptions C36_small.
Print Assumptions C37_changes_partial.
Print Assumptions C37_read_partial.
