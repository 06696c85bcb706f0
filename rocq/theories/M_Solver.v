(** Model of the constraint solver (internal/casso/casso.go, operators.go, solver.go).

    Simplifications, all stated here once. Floats are rational numbers; whether the results of operations are rounded is a parameter, see [arith]. The coefficients that the code drops
    because they are near zero are dropped here too; a flag, which the code does not have, remembers whether all of them were
    exactly zero. What is near zero is a parameter, see [tolerance]. The order in which Go ranges over a map is given by a parameter [order], any permutation at every use. Loops that
    may not end take fuel. Constraints are pointers, new for each call of NewConstraint, so the check for a duplicate never
    succeeds and the map it reads is left out, as are the edits and the infeasible rows, which nothing reads. *)
From Verif Require Import Base.
From Coq Require Import ZArith NArith QArith Qround List Bool.
Import ListNotations.
Open Scope Q_scope.

(** The operations of float64 that the solver uses. They are a parameter: the numbers are fractions in lowest terms, and the
    result of an operation is either the exact one, as here, or the exact one rounded, see M_Rounded. *)
Class arith := { qadd : Q -> Q -> Q; qmul : Q -> Q -> Q; qopp : Q -> Q; qdiv : Q -> Q -> Q }.
#[global] Instance exact_arith : arith :=
  {| qadd a b := Qred (a + b); qmul a b := Qred (a * b); qopp a := Qred (- a); qdiv a b := Qred (a / b) |}.
Definition qltb (a b : Q) : bool := negb (Qle_bool b a).

(** casso.go:9-16 *)
Definition required : Q := 1001001000.
Definition strong : Q := 1000000.
Definition medium : Q := 1000.
Definition weak : Q := 1.

(** casso.go:18-24 *)
Inductive relation := RLe | REq | RGe.
(** casso.go:36-39, 53-56; a variable is its number *)
Definition variable := Z.
Record expression := Expr { e_terms : list (variable * Q); e_const : Q }.
(** casso.go:84-88 *)
Record constr := Constr { c_expr : expression; c_op : relation; c_strength : Q }.

Section Arith.
Context {ar : arith}.
(** casso.go:48-51, 73-82 *)
Definition e_negate (e : expression) : expression := Expr (map (fun t => (fst t, qopp (snd t))) (e_terms e)) (qopp (e_const e)).
(** operators.go:5-7 *)
Definition v_sub (v w : variable) : expression := Expr [(v, 1); (w, -(1))] 0.
(** operators.go:9-12 *)
Definition e_sub_const (e : expression) (k : Q) : expression := Expr (e_terms e) (qadd (e_const e) (qopp k)).
(** operators.go:14-21. The terms are appended to a slice that only this expression holds. *)
Definition e_sub (e f : expression) : expression := let f := e_negate f in Expr (e_terms e ++ e_terms f) (qadd (e_const e) (e_const f)).
(** operators.go:23-27 *)
Definition e_sub_var (e : expression) (v : variable) : expression := Expr (e_terms e ++ [(v, -(1))]) (e_const e).
(** operators.go:29-38 *)
Definition e_mul (e : expression) (k : Q) : expression := Expr (map (fun t => (fst t, qmul (snd t) k)) (e_terms e)) (qmul (e_const e) k).
(** operators.go:40-49 *)
Definition e_div (e : expression) (k : Q) : expression := Expr (map (fun t => (fst t, qdiv (snd t) k)) (e_terms e)) (qdiv (e_const e) k).
(** casso.go:126-131, 41-46, 62-64 *)
Definition e_var (v : variable) : expression := Expr [(v, 1)] 0.
(** casso.go:133-172, 92-100 *)
Definition rel_const (op : relation) (strength : Q) (e : expression) (k : Q) : constr := Constr (e_sub_const e k) op strength.
Definition rel_expr (op : relation) (strength : Q) (e f : expression) : constr := Constr (e_sub e f) op strength.
Definition rel_var (op : relation) (strength : Q) (e : expression) (v : variable) : constr := Constr (e_sub_var e v) op strength.

(** casso.go:174-194; an invalid symbol is [None] *)
Inductive stype := TExternal | TSlack | TError | TDummy.
Record symbol := Sym { sy_value : N; sy_type : stype }.
Definition stype_eqb (a b : stype) : bool := match a, b with TExternal, TExternal | TSlack, TSlack | TError, TError | TDummy, TDummy => true | _, _ => false end.
Definition sym_eqb (a b : symbol) : bool := N.eqb (sy_value a) (sy_value b) && stype_eqb (sy_type a) (sy_type b).

(** Maps whose keys are symbols. *)
Fixpoint look {A} (k : symbol) (l : list (symbol * A)) : option A :=
  match l with [] => None | (k', a) :: l => if sym_eqb k k' then Some a else look k l end.
Definition drop_key {A} (k : symbol) (l : list (symbol * A)) : list (symbol * A) := filter (fun p => negb (sym_eqb k (fst p))) l.
Fixpoint put_at {A} (k : symbol) (a : A) (l : list (symbol * A)) : list (symbol * A) :=
  match l with [] => [(k, a)] | (k', a') :: l => if sym_eqb k k' then (k, a) :: l else (k', a') :: put_at k a l end.

(** What counts as zero. The code takes numbers below 1e-8 for zero (casso.go:292-300), which absorbs rounding errors of float64. *)
Class tolerance := { near_zero : Q -> bool; zero_near : forall q, q == 0 -> near_zero q = true; one_far : near_zero 1 = false /\ near_zero (-(1)) = false }.
Definition below_1e8 (v : Q) : bool := if qltb v 0 then qltb (- v) (1 # 100000000) else qltb v (1 # 100000000).
Definition is_zero (v : Q) : bool := Qeq_bool v 0.
Lemma zero_below q : q == 0 -> below_1e8 q = true.
Proof. intros H. unfold below_1e8, qltb. rewrite !H. reflexivity. Qed.
Definition code_tolerance : tolerance := {| near_zero := below_1e8; zero_near := zero_below; one_far := conj eq_refl eq_refl |}.
(** Without rounding errors there is nothing to absorb: zero alone counts as zero. *)
Definition no_tolerance : tolerance := {| near_zero := is_zero; zero_near := fun q H => proj2 (Qeq_bool_iff q 0) H; one_far := conj eq_refl eq_refl |}.

(** casso.go:196-206, with the flag *)
Record row := Row { r_cells : list (symbol * Q); r_const : Q; r_exact : bool }.
Definition new_row (k : Q) : row := Row [] k true.
(** casso.go:215-221 *)
Definition reverse_sign (r : row) : row := Row (map (fun p => (fst p, qopp (snd p))) (r_cells r)) (qopp (r_const r)) (r_exact r).
Section Tolerance.
Context {tolr : tolerance}.
(** casso.go:228-246 *)
Definition insert_symbol (r : row) (s : symbol) (k : Q) : row :=
  match look s (r_cells r) with
  | Some v =>
      let v := qadd v k in
      if near_zero v then Row (drop_key s (r_cells r)) (r_const r) (r_exact r && is_zero v)
      else Row (put_at s v (r_cells r)) (r_const r) (r_exact r)
  | None => if near_zero k then Row (r_cells r) (r_const r) (r_exact r && is_zero k) else Row (put_at s k (r_cells r)) (r_const r) (r_exact r)
  end.
(** casso.go:248-257. The order does not matter: every symbol of the other row is inserted once. *)
Definition insert_row (r other : row) (k : Q) : row * bool :=
  let diff := qmul (r_const other) k in
  (fold_left (fun r p => insert_symbol r (fst p) (qmul (snd p) k)) (r_cells other) (Row (r_cells r) (qadd (r_const r) diff) (r_exact r && r_exact other)),
   negb (is_zero diff)).
(** casso.go:259-261 *)
Definition remove_symbol (r : row) (s : symbol) : row := Row (drop_key s (r_cells r)) (r_const r) (r_exact r).
(** casso.go:279-281 *)
Definition coefficient_for (r : row) (s : symbol) : Q := match look s (r_cells r) with Some v => v | None => 0 end.
(** casso.go:263-272. Dividing by a missing coefficient gives zero here; it does not happen while the symbols are distinct. *)
Definition solve_for_symbol (r : row) (s : symbol) : row :=
  let k := qdiv (-(1)) (coefficient_for r s) in
  Row (map (fun p => (fst p, qmul (snd p) k)) (drop_key s (r_cells r))) (qmul (r_const r) k) (r_exact r).
(** casso.go:274-277 *)
Definition solve_for_symbols (r : row) (lhs rhs : symbol) : row := solve_for_symbol (insert_symbol r lhs (-(1))) rhs.
(** casso.go:283-290 *)
Definition substitute_row (r : row) (s : symbol) (by_row : row) : row * bool :=
  match look s (r_cells r) with
  | Some k => insert_row (remove_symbol r s) by_row k
  | None => (r, false)
  end.

(** solver.go:13-16 *)
Record tag := Tag { t_marker : symbol; t_other : option symbol }.

(** solver.go:30-43. Of the data of a variable only its symbol is kept: the constant it starts with is NaN, which differs from
    every number, and is next written when the changes are fetched (see [fetch_changes]); its id is not read. [s_tick] counts the
    symbols made, plus one: the code has it modulo 256. [s_uses] counts the uses of [order]. [s_exact] is the flag for rows that are gone. *)
Record solver := Solver {
  s_vars : list (variable * symbol);
  s_var_for : list (symbol * variable);
  s_changed : list variable;
  s_rows : list (symbol * row);
  s_objective : row;
  s_artificial : option row;
  s_tick : N;
  s_uses : nat;
  s_exact : bool
}.
(** solver.go:45-60 *)
Definition new_solver : solver := Solver [] [] [] [] (new_row 0) None 1 0 true.

Inductive solver_error := EUnsatisfiable | EUnbounded.
(** An error is returned together with the solver as it is then. *)
Inductive result (A : Type) := Done (a : A) | Fail (e : solver_error) (s : solver) | NoFuel.
Arguments Done {A}. Arguments Fail {A}. Arguments NoFuel {A}.
Definition rbind {A B} (x : result A) (f : A -> result B) : result B := match x with Done a => f a | Fail e s => Fail e s | NoFuel => NoFuel end.

(** A new symbol: solver.go:193-194, 350-351, 356-357, 374-378, 391-392, 415-417. The counter is a uint8. *)
Definition fresh (s : solver) (ty : stype) : symbol * solver :=
  (Sym (s_tick s mod 256) ty,
   Solver (s_vars s) (s_var_for s) (s_changed s) (s_rows s) (s_objective s) (s_artificial s) (s_tick s + 1) (s_uses s) (s_exact s)).
Definition with_objective (s : solver) (r : row) : solver :=
  Solver (s_vars s) (s_var_for s) (s_changed s) (s_rows s) r (s_artificial s) (s_tick s) (s_uses s) (s_exact s).
Definition with_rows (s : solver) (rs : list (symbol * row)) : solver :=
  Solver (s_vars s) (s_var_for s) (s_changed s) rs (s_objective s) (s_artificial s) (s_tick s) (s_uses s) (s_exact s).
Definition with_artificial (s : solver) (a : option row) : solver :=
  Solver (s_vars s) (s_var_for s) (s_changed s) (s_rows s) (s_objective s) a (s_tick s) (s_uses s) (s_exact s).
Definition with_exact (s : solver) (b : bool) : solver :=
  Solver (s_vars s) (s_var_for s) (s_changed s) (s_rows s) (s_objective s) (s_artificial s) (s_tick s) (s_uses s) (s_exact s && b).
Definition use (s : solver) : solver :=
  Solver (s_vars s) (s_var_for s) (s_changed s) (s_rows s) (s_objective s) (s_artificial s) (s_tick s) (S (s_uses s)) (s_exact s).
(** solver.go:260-266, before the changes are fetched for the first time *)
Definition var_changed (s : solver) (v : variable) : solver :=
  Solver (s_vars s) (s_var_for s) (if existsb (Z.eqb v) (s_changed s) then s_changed s else v :: s_changed s) (s_rows s) (s_objective s) (s_artificial s) (s_tick s) (s_uses s) (s_exact s).
(** The variable of an external symbol; the map gives 0 for a missing one, which does not happen. *)
Definition var_for (s : solver) (x : symbol) : variable := match look x (s_var_for s) with Some v => v | None => 0%Z end.
Definition is_external (x : symbol) : bool := stype_eqb (sy_type x) TExternal.

(** solver.go:412-429 *)
Fixpoint find_var (v : variable) (l : list (variable * symbol)) : option symbol :=
  match l with [] => None | (v', x) :: l => if Z.eqb v v' then Some x else find_var v l end.
Definition get_var_symbol (s : solver) (v : variable) : symbol * solver :=
  match find_var v (s_vars s) with
  | Some x => (x, s)
  | None =>
      let '(x, s) := fresh s TExternal in
      (x, Solver ((v, x) :: s_vars s) (put_at x v (s_var_for s)) (s_changed s) (s_rows s) (s_objective s) (s_artificial s) (s_tick s) (s_uses s) (s_exact s))
  end.

(** solver.go:329-339: the terms *)
Definition add_term (acc : row * solver) (t : variable * Q) : row * solver :=
  let '(r, s) := acc in
  if near_zero (snd t) then (Row (r_cells r) (r_const r) (r_exact r && is_zero (snd t)), s)
  else
    let '(x, s) := get_var_symbol s (fst t) in
    match look x (s_rows s) with
    | Some other => (fst (insert_row r other (snd t)), s)
    | None => (insert_symbol r x (snd t), s)
    end.
(** solver.go:325-410 *)
Definition create_row (s : solver) (c : constr) : row * tag * solver :=
  let '(r, s) := fold_left add_term (e_terms (c_expr c)) (new_row (e_const (c_expr c)), s) in
  let '(r, t, s) :=
    match c_op c with
    | RGe | RLe =>
        let k := match c_op c with RLe => 1 | _ => -(1) end in
        let '(slack, s) := fresh s TSlack in
        let r := insert_symbol r slack k in
        if qltb (c_strength c) required then
          let '(err, s) := fresh s TError in
          (insert_symbol r err (qopp k), Tag slack (Some err), with_objective s (insert_symbol (s_objective s) err (c_strength c)))
        else (r, Tag slack None, s)
    | REq =>
        if qltb (c_strength c) required then
          let '(plus, s) := fresh s TError in
          let '(minus, s) := fresh s TError in
          (insert_symbol (insert_symbol r plus (-(1))) minus 1, Tag plus (Some minus),
           with_objective s (insert_symbol (insert_symbol (s_objective s) plus (c_strength c)) minus (c_strength c)))
        else
          let '(dummy, s) := fresh s TDummy in
          (insert_symbol r dummy 1, Tag dummy None, s)
    end in
  (if qltb (r_const r) 0 then reverse_sign r else r, t, s).

(** solver.go:268-289: [substitute]. The order in which the rows are visited does not matter. *)
Definition substitute (s : solver) (x : symbol) (r : row) : solver :=
  let moved := filter (fun p => is_external (fst p) && snd (substitute_row (snd p) x r)) (s_rows s) in
  let s := fold_left (fun s p => var_changed s (var_for s (fst p))) moved s in
  let s := with_rows s (map (fun p => (fst p, fst (substitute_row (snd p) x r))) (s_rows s)) in
  let s := with_objective s (fst (substitute_row (s_objective s) x r)) in
  match s_artificial s with Some a => with_artificial s (Some (fst (substitute_row a x r))) | None => s end.

(** solver.go:450-458 *)
Definition all_dummies (r : row) : bool := forallb (fun p => stype_eqb (sy_type (fst p)) TDummy) (r_cells r).

Section Order.
Variable order : nat -> list symbol -> list symbol.

(** Ranging over the keys of a map. *)
Definition keys {A} (s : solver) (l : list (symbol * A)) : list symbol := order (s_uses s) (map fst l).

(** solver.go:431-448 *)
Definition choose_subject (s : solver) (r : row) (t : tag) : option symbol * solver :=
  (match find is_external (keys s (r_cells r)) with
   | Some x => Some x
   | None =>
       let usable x := match sy_type x with TSlack | TError => qltb (coefficient_for r x) 0 | _ => false end in
       if usable (t_marker t) then Some (t_marker t)
       else match t_other t with Some x => if usable x then Some x else None | None => None end
   end, use s).
(** solver.go:460-468 *)
Definition get_entering_symbol (s : solver) (r : row) : option symbol * solver :=
  (find (fun x => negb (stype_eqb (sy_type x) TDummy) && qltb (coefficient_for r x) 0) (keys s (r_cells r)), use s).
(** solver.go:470-479 *)
Definition any_pivotable_symbol (s : solver) (r : row) : option symbol * solver :=
  (find (fun x => match sy_type x with TSlack | TError => true | _ => false end) (keys s (r_cells r)), use s).
(** solver.go:291-323 *)
Definition get_leaving_row (s : solver) (entering : symbol) : option (symbol * row) * solver :=
  let best := fold_left (fun best x =>
      match look x (s_rows s) with
      | Some r =>
          if negb (is_external x) then
            let k := coefficient_for r entering in
            if qltb k 0 then
              let ratio := qdiv (qopp (r_const r)) k in
              match best with
              | Some (_, _, least) => if qltb ratio least then Some (x, r, ratio) else best
              | None => Some (x, r, ratio)
              end
            else best
          else best
      | None => best
      end) (keys s (s_rows s)) None in
  let s := use s in
  match best with
  | Some (x, r, _) => (Some (x, r), with_rows s (drop_key x (s_rows s)))
  | None => (None, s)
  end.

(** The objective that is being optimised: that of the solver or the artificial one. *)
Definition goal (artificial : bool) (s : solver) : row :=
  if artificial then match s_artificial s with Some r => r | None => new_row 0 end else s_objective s.
(** solver.go:236-258 *)
Fixpoint optimize (fuel : nat) (artificial : bool) (s : solver) : result solver :=
  match fuel with
  | O => NoFuel
  | S fuel =>
      let '(entering, s) := get_entering_symbol s (goal artificial s) in
      match entering with
      | None => Done s
      | Some entering =>
          let '(leaving, s) := get_leaving_row s entering in
          match leaving with
          | None => Fail EUnbounded s
          | Some (leaving, r) =>
              let r := solve_for_symbols r leaving entering in
              let s := substitute s entering r in
              let s := if is_external entering && negb (is_zero (r_const r)) then var_changed s (var_for s entering) else s in
              optimize fuel artificial (with_rows s (put_at entering r (s_rows s)))
          end
      end
  end.

(** solver.go:191-234 *)
Definition add_with_artificial_variable (fuel : nat) (s : solver) (r : row) : result (bool * solver) :=
  let '(art, s) := fresh s TSlack in
  let s := with_rows s (put_at art r (s_rows s)) in
  let s := with_artificial s (Some r) in
  rbind (optimize fuel true s) (fun s =>
  let k := r_const (goal true s) in
  let success := near_zero k in
  let s := with_exact s (r_exact (goal true s) && (negb success || is_zero k)) in
  let s := with_artificial s None in
  let clean s :=
    let s := with_rows s (map (fun p => (fst p, remove_symbol (snd p) art)) (s_rows s)) in
    with_objective s (remove_symbol (s_objective s) art) in
  match look art (s_rows s) with
  | Some r =>
      let s := with_exact s (r_exact r && (negb success || is_zero (r_const r))) in
      let s := with_rows s (drop_key art (s_rows s)) in
      match r_cells r with
      | [] => Done (success, s)
      | _ =>
          let '(entering, s) := any_pivotable_symbol s r in
          match entering with
          | None => Done (false, s)
          | Some entering =>
              let r := solve_for_symbols r art entering in
              let s := substitute s entering r in
              let s := with_rows s (put_at entering r (s_rows s)) in
              Done (success, clean s)
          end
      end
  | None => Done (success, clean s)
  end).

(** solver.go:62-119 *)
Definition add_constraint (fuel : nat) (s : solver) (c : constr) : result solver :=
  let '(r, t, s) := create_row s c in
  let '(subject, s) := choose_subject s r t in
  let no_subject := match subject with None => true | Some _ => false end in
  if no_subject && all_dummies r && negb (near_zero (r_const r)) then Fail EUnsatisfiable (with_exact s (r_exact r))
  else
    let s := if no_subject && all_dummies r then with_exact s (is_zero (r_const r)) else s in
    let subject := if no_subject && all_dummies r then Some (t_marker t) else subject in
    rbind
      (match subject with
       | None => rbind (add_with_artificial_variable fuel s r) (fun p => if fst p then Done (snd p) else Fail EUnsatisfiable (snd p))
       | Some x =>
           let r := solve_for_symbol r x in
           let s := substitute s x r in
           let s := if is_external x && negb (is_zero (r_const r)) then var_changed s (var_for s x) else s in
           Done (with_rows s (put_at x r (s_rows s)))
       end)
      (fun s => optimize fuel false s).
Fixpoint add_constraints (fuel : nat) (s : solver) (cs : list constr) : result solver :=
  match cs with [] => Done s | c :: cs => rbind (add_constraint fuel s c) (fun s => add_constraints fuel s cs) end.
End Order.

(** solver.go:160-168 *)
Definition get_value (s : solver) (v : variable) : Q :=
  match find_var v (s_vars s) with
  | Some x => match look x (s_rows s) with Some r => r_const r | None => 0 end
  | None => 0
  end.
(** solver.go:125-158, the first call. Every changed variable is reported: the constant it had was NaN. *)
Definition fetch_changes (s : solver) : list (variable * Q) :=
  flat_map (fun v =>
    match find_var v (s_vars s) with
    | Some x => [(v, match look x (s_rows s) with Some r => r_const r | None => 0 end)]
    | None => []
    end) (s_changed s).

(** Whether every coefficient or constant taken for zero was exactly zero. *)
Definition exact (s : solver) : bool :=
  s_exact s && forallb (fun p => r_exact (snd p)) (s_rows s) && r_exact (s_objective s) && match s_artificial s with Some a => r_exact a | None => true end.
End Tolerance.
End Arith.
Arguments Done {A}. Arguments Fail {A}. Arguments NoFuel {A}.
