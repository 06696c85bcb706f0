(** Runs of the solver that never end. *)
From Verif Require Import Base M_Solver P_Simplex P_Step.
From Coq Require Import ZArith NArith QArith List Bool Lia Permutation.
Import ListNotations.
Section Tolerance.
Context {tolr : tolerance}.

(** One round of [optimize]: solver.go:216-236 *)
Definition turn (order : nat -> list symbol -> list symbol) (art : bool) (s : solver) : option solver :=
  let '(entering, s) := get_entering_symbol order s (goal art s) in
  match entering with
  | None => None
  | Some entering =>
      let '(leaving, s) := get_leaving_row order s entering in
      match leaving with
      | None => None
      | Some (leaving, r) =>
          let r := solve_for_symbols r leaving entering in
          let s := substitute s entering r in
          let s := if is_external entering && negb (is_zero (r_const r)) then var_changed s (var_for s entering) else s in
          Some (with_rows s (put_at entering r (s_rows s)))
      end
  end.
Fixpoint turns (order : nat -> list symbol -> list symbol) (art : bool) (n : nat) (s : solver) : option solver :=
  match n with O => Some s | S n => match turn order art s with Some s => turns order art n s | None => None end end.
Lemma turn_optimize order art s s' fuel : turn order art s = Some s' -> optimize order (S fuel) art s = optimize order fuel art s'.
Proof.
  unfold turn. cbn [optimize]. destruct (get_entering_symbol order s (goal art s)) as [[x|] s1]; [|discriminate]. destruct (get_leaving_row order s1 x) as [[[y r]|] s2]; [|discriminate]. intros E. injection E as <-. reflexivity.
Qed.
Lemma turns_optimize order art : forall n s s' fuel, turns order art n s = Some s' -> optimize order (n + fuel) art s = optimize order fuel art s'.
Proof.
  induction n as [|n IH]; intros s s' fuel E; cbn [turns] in E; [injection E as <-; reflexivity|]. destruct (turn order art s) as [s1|] eqn:T; [|discriminate]. cbn [Nat.add]. rewrite (turn_optimize _ _ _ _ _ T). now apply IH.
Qed.
Lemma turns_short order art : forall n s s' fuel, turns order art n s = Some s' -> (fuel <= n)%nat -> optimize order fuel art s = NoFuel.
Proof.
  induction n as [|n IH]; intros s s' fuel E L; [replace fuel with O by lia; reflexivity|]. cbn [turns] in E. destruct (turn order art s) as [s1|] eqn:T; [|discriminate]. destruct fuel as [|fuel]; [reflexivity|]. rewrite (turn_optimize _ _ _ _ _ T). apply (IH s1 s'); [exact E|lia].
Qed.

(** The same solver with other uses of the order behind it *)
Definition shift (m : nat) (s : solver) : solver :=
  Solver (s_vars s) (s_var_for s) (s_changed s) (s_rows s) (s_objective s) (s_artificial s) (s_tick s) (s_uses s + m) (s_exact s).
Lemma fold_changed_shift m (l : list (symbol * row)) : forall s, fold_left (fun s p => var_changed s (var_for s (fst p))) l (shift m s) = shift m (fold_left (fun s p => var_changed s (var_for s (fst p))) l s).
Proof. induction l as [|p l IH]; intros s; [reflexivity|]. cbn [fold_left]. rewrite <- IH. reflexivity. Qed.
Lemma substitute_shift m s x r : substitute (shift m s) x r = shift m (substitute s x r).
Proof.
  unfold substitute. change (s_rows (shift m s)) with (s_rows s). rewrite fold_changed_shift. set (s1 := fold_left _ _ s). clearbody s1. cbn. destruct (s_artificial s1); reflexivity.
Qed.
Lemma turn_shift order art m s : turn order art (shift m s) = option_map (shift m) (turn (fun n => order (n + m)%nat) art s).
Proof.
  unfold turn, get_entering_symbol, keys. change (goal art (shift m s)) with (goal art s). change (s_uses (shift m s)) with (s_uses s + m)%nat. destruct (find _ _) as [x|]; [|reflexivity].
  unfold get_leaving_row, keys. cbn [use shift s_rows s_uses Nat.add]. destruct (fold_left _ _ None) as [[[y r] k]|]; [|reflexivity].
  set (r' := solve_for_symbols r y x). set (s1 := with_rows (use (use s)) (drop_key y (s_rows s))).
  change (with_rows (use (use (shift m s))) _) with (shift m s1). match goal with |- context[substitute ?q x r'] => change q with (shift m s1) end. rewrite substitute_shift. fold s1. generalize (substitute s1 x r'). intros q.
  destruct (is_external x && negb (is_zero (r_const r'))); reflexivity.
Qed.
Lemma turn_ext order order' art s : (forall n l, (s_uses s <= n)%nat -> order n l = order' n l) -> turn order art s = turn order' art s.
Proof.
  intros H. unfold turn, get_entering_symbol, keys. rewrite H by lia. destruct (find _ _) as [x|]; [|reflexivity]. unfold get_leaving_row, keys. cbn [use s_rows s_uses]. rewrite H by lia. reflexivity.
Qed.
Lemma turn_uses order art s s' : turn order art s = Some s' -> s_uses s' = S (S (s_uses s)).
Proof.
  unfold turn, get_entering_symbol. destruct (find _ _) as [x|]; [|discriminate]. unfold get_leaving_row. destruct (fold_left _ _ None) as [[[y r] k]|]; [|discriminate]. intros E. injection E as <-.
  cbn [with_rows s_uses]. match goal with |- context[substitute ?q x ?r'] => destruct (substitute_fields q x r') as (_ & _ & _ & _ & U & _) end. destruct (is_external x && _); cbn [s_uses var_changed]; rewrite U; reflexivity.
Qed.

Section Cycle.
Variables (order : nat -> list symbol -> list symbol) (art : bool) (s : solver) (m p : nat).
Hypothesis periodic : forall n l, (s_uses s <= n)%nat -> order (n + m)%nat l = order n l.
Hypothesis some : (0 < p)%nat.
Hypothesis back : turns order art p s = Some (shift m s).
Lemma periodic_many j : forall n l, (s_uses s <= n)%nat -> order (n + j * m)%nat l = order n l.
Proof. induction j as [|j IH]; intros n l H; [f_equal; lia|]. rewrite <- (IH n l H). replace (n + S j * m)%nat with ((n + j * m) + m)%nat by lia. apply periodic. lia. Qed.
Lemma turns_many j : forall n q, (s_uses s <= s_uses q)%nat -> turns order art n (shift (j * m) q) = option_map (shift (j * m)) (turns order art n q).
Proof.
  induction n as [|n IH]; intros q H; [reflexivity|]. cbn [turns]. rewrite turn_shift. rewrite (turn_ext _ order) by (intros; apply periodic_many; lia). destruct (turn order art q) as [q'|] eqn:T; [|reflexivity]. cbn [option_map]. apply IH. apply turn_uses in T. lia.
Qed.
Lemma never_ends fuel : optimize order fuel art s = NoFuel.
Proof.
  assert (K : forall n j, optimize order n art (shift (j * m) s) = NoFuel).
  { intros n. induction n as [n IH] using lt_wf_ind. intros j. pose proof (turns_many j p s (le_n _)) as T. rewrite back in T. cbn [option_map] in T.
    destruct (Nat.le_gt_cases n p) as [L|L]; [exact (turns_short _ _ _ _ _ _ T L)|]. replace n with (p + (n - p))%nat by lia. rewrite (turns_optimize _ _ _ _ _ _ T).
    replace (shift (j * m) (shift m s)) with (shift (S j * m) s) by (unfold shift; cbn; f_equal; lia). apply IH. lia. }
  rewrite <- (K fuel O). f_equal. destruct s. unfold shift. cbn. f_equal; lia.
Qed.
End Cycle.

(** More fuel changes no answer *)
Section Order.
Variable order : nat -> list symbol -> list symbol.
Definition grows {A} (f : nat -> result A) : Prop := forall n n', (n <= n')%nat -> f n <> NoFuel -> f n' = f n.
Lemma grows_bind {A B} (f : nat -> result A) (g : nat -> A -> result B) : grows f -> (forall a, grows (fun n => g n a)) -> grows (fun n => rbind (f n) (g n)).
Proof.
  intros F G n n' L H. destruct (f n) as [a|e q|] eqn:E; cbn [rbind] in *; [| |congruence].
  - rewrite (F n n' L) by (rewrite E; discriminate). rewrite E. cbn [rbind]. now apply (G a).
  - rewrite (F n n' L) by (rewrite E; discriminate). now rewrite E.
Qed.
Lemma optimize_grows art : forall s, grows (fun n => optimize order n art s).
Proof.
  intros s n. revert s. induction n as [|n IH]; intros s n' L H; [now elim H|]. destruct n' as [|n']; [lia|]. cbn [optimize] in *.
  destruct (get_entering_symbol order s (goal art s)) as [[x|] s1]; [|reflexivity]. destruct (get_leaving_row order s1 x) as [[[y r]|] s2]; [|reflexivity]. apply IH; [lia|exact H].
Qed.
Lemma const_grows {A} (r : result A) : grows (fun _ => r). Proof. intros n n' _ _. reflexivity. Qed.
Lemma art_grows s r : grows (fun n => add_with_artificial_variable order n s r).
Proof. unfold add_with_artificial_variable. cbn [fresh]. apply grows_bind; [apply optimize_grows|]. intros a. apply const_grows. Qed.
Lemma put_grows s c : grows (put_row order s c).
Proof.
  unfold put_row. destruct (create_row s c) as [[r t] s1]. destruct (choose_subject order s1 r t) as [subj s2]. destruct (_ && _ && _); [apply const_grows|]. destruct (_ && _); [apply const_grows|]. destruct subj as [x|]; [apply const_grows|].
  apply (grows_bind (fun n => add_with_artificial_variable order n s2 r) (fun _ p => if fst p then Done (snd p) else Fail EUnsatisfiable (snd p))); [apply art_grows|]. intros a. apply const_grows.
Qed.
Lemma add_grows s c : grows (fun n => add_constraint order n s c).
Proof.
  intros n n' L. rewrite !add_put_row. apply (grows_bind (put_row order s c) (fun n => optimize order n false)); [apply put_grows|apply optimize_grows|exact L].
Qed.
Lemma adds_grows cs : forall s, grows (fun n => add_constraints order n s cs).
Proof. induction cs as [|c cs IH]; intros s; [apply (const_grows (Done s))|]. cbn [add_constraints]. apply (grows_bind (fun n => add_constraint order n s c) (fun n s => add_constraints order n s cs)); [apply add_grows|exact IH]. Qed.
(** Two finished runs agree *)
Lemma grows_agree {A} (f : nat -> result A) n n' : grows f -> f n <> NoFuel -> f n' <> NoFuel -> f n = f n'.
Proof. intros G H H'. destruct (Nat.le_ge_cases n n') as [L|L]; [symmetry; now apply G|now apply G]. Qed.
Lemma adds_busy f cs c rest s s1 s2 : add_constraints order f s cs = Done s1 -> put_row order s1 c f = Done s2 -> (forall fuel, optimize order fuel false s2 = NoFuel) ->
  forall fuel, add_constraints order fuel s (cs ++ c :: rest) = NoFuel.
Proof.
  intros E1 E2 B fuel. revert s E1. induction cs as [|c0 cs IH]; intros s E1.
  - cbn in E1. injection E1 as ->. cbn [app add_constraints]. rewrite add_put_row. destruct (put_row order s1 c fuel) as [q|e q|] eqn:P; cbn [rbind]; [| |reflexivity].
    + rewrite (grows_agree (put_row order s1 c) fuel f (put_grows s1 c)) in P by congruence. rewrite E2 in P. injection P as <-. now rewrite B.
    + rewrite (grows_agree (put_row order s1 c) fuel f (put_grows s1 c)) in P by congruence. congruence.
  - cbn [app add_constraints] in *. destruct (add_constraint order f s c0) as [q0|e0 q0|] eqn:A0; cbn [rbind] in E1; try discriminate.
    destruct (add_constraint order fuel s c0) as [q|e q|] eqn:A; cbn [rbind]; [| |reflexivity]; pose proof (grows_agree _ fuel f (add_grows s c0)) as G; cbv beta in G; rewrite A, A0 in G; specialize (G ltac:(discriminate) ltac:(discriminate)); [|discriminate].
    injection G as ->. now apply IH.
Qed.
End Order.
End Tolerance.
