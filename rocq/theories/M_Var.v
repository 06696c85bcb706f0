(** Model of the creation of layout variables (internal/casso/casso.go:26-34) by concurrent goroutines. *)
From Verif Require Import Base.
From Coq Require Import ZArith List Bool.
Import ListNotations.
Open Scope Z_scope.

(** One goroutine: between the load and the deferred add of NewVariable it holds the value it will return; the variables it has
    got so far, latest first. *)
Record maker := Maker { mk_loaded : option Z; mk_got : list Z }.
(** The counter and the goroutines. Each atomic operation is one step. *)
Record vstate := VState { v_next : Z; v_makers : nat -> maker }.
Definition v_init : vstate := VState 0 (fun _ => Maker None []).

Definition upd {A} (f : nat -> A) (g : nat) (a : A) : nat -> A := fun h => if Nat.eqb h g then a else f h.

(** casso.go:30-34: the next step of goroutine [g], which calls NewVariable over and over: the load (the argument of the
    return), then the deferred atomic add, after which the caller has the variable. The counter is a uint64. *)
Definition v_step (s : vstate) (g : nat) : vstate :=
  let m := v_makers s g in
  match mk_loaded m with
  | None => VState (v_next s) (upd (v_makers s) g (Maker (Some (v_next s)) (mk_got m)))
  | Some v => VState ((v_next s + 1) mod 2 ^ 64) (upd (v_makers s) g (Maker None (v :: mk_got m)))
  end.
(** A schedule is the list of goroutines that take the next step. *)
Definition v_run (schedule : list nat) : vstate := fold_left v_step schedule v_init.
