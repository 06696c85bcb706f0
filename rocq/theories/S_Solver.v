(** What a system of linear constraints with strengths asks for: a small specification, independent of how it is solved. *)
From Verif Require Import M_Solver.
From Coq Require Import ZArith QArith Qabs Qminmax List.
Import ListNotations.
Open Scope Q_scope.

(** The value of an expression when the variables have the values [x]. *)
Definition eval (e : expression) (x : variable -> Q) : Q := e_const e + fold_right (fun t acc => snd t * x (fst t) + acc) 0 (e_terms e).
(** The constraint says: the expression is at most, equal to, or at least zero. *)
Definition satisfies (x : variable -> Q) (c : constr) : Prop :=
  match c_op c with RLe => eval (c_expr c) x <= 0 | REq => eval (c_expr c) x == 0 | RGe => 0 <= eval (c_expr c) x end.
(** By how much it is missed. *)
Definition violation (x : variable -> Q) (c : constr) : Q :=
  match c_op c with RLe => Qmax 0 (eval (c_expr c) x) | REq => Qabs (eval (c_expr c) x) | RGe => Qmax 0 (- eval (c_expr c) x) end.
Definition mandatory (c : constr) : Prop := required <= c_strength c.
Definition feasible (cs : list constr) (x : variable -> Q) : Prop := forall c, In c cs -> mandatory c -> satisfies x c.
(** What the optional constraints cost: each its violation times its strength. *)
Definition penalty (cs : list constr) (x : variable -> Q) : Q :=
  fold_right (fun c acc => (if Qle_bool required (c_strength c) then 0 else c_strength c * violation x c) + acc) 0 cs.
(** The variables that are mentioned, each once. *)
Definition variables (cs : list constr) : list variable := nodup Z.eq_dec (flat_map (fun c => map fst (e_terms (c_expr c))) cs).
