(** Walking maps at random: the words of C90. *)
From Verif Require Import Base M_Solver.
From Coq Require Import List Arith Permutation.
Import ListNotations.
Local Open Scope nat_scope.

(** A way to draw the order in which the keys of a map are met: one of [K] equally likely numbers is drawn, and [walk] says in what order the keys are
    met for it. Every order of up to [N] keys can be drawn, so each has a chance of at least one in [K]. *)
Record fair (K N : nat) (walk : nat -> list symbol -> list symbol) : Prop := Fair {
  fair_keys : forall c l, Permutation (walk c l) l;
  fair_every : forall l l', length l <= N -> Permutation l' l -> exists c, c < K /\ walk c l = l'
}.
(** The outcomes of [n] independent draws; there are [K ^ n] of them, equally likely. *)
Definition draws (K n : nat) (cs : list nat) : Prop := length cs = n /\ Forall (fun c => c < K) cs.
(** Maps are walked as drawn, for as long as there are draws, and in any order after that. *)
Definition follows (walk : nat -> list symbol -> list symbol) (cs : list nat) (order : nat -> list symbol -> list symbol) : Prop :=
  forall k c l, nth_error cs k = Some c -> order k l = walk c l.
(** Of all outcomes of [n] draws, at most one in [m] lacks [P]. *)
Definition all_but_one_in (m K n : nat) (P : list nat -> Prop) : Prop := exists bad, m * length bad <= K ^ n /\ forall cs, draws K n cs -> ~ In cs bad -> P cs.
