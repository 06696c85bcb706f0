(** Model of the values that widgets and layouts are configured with, as far as they hold Go slices: derived values share the
    backing array of the value they are derived from while it has room. *)
From Verif Require Import Base.
From Coq Require Import List Bool Arith.
Import ListNotations.

(** An array has a fixed number of places, some not written yet. A slice is its array and its length; simplification: it starts at the
    beginning of its array (the places before it are out of its reach) and its capacity is the rest of the array. *)
Section Values.
Variable A : Type.
Local Notation array := (list (option A)).
Record slice := Slice { sl_array : nat; sl_len : nat }.
Record world := World { w_arrays : list array; w_values : list slice }.

(** What the holder of a slice sees. *)
Definition seen (h : list array) (s : slice) : list (option A) := firstn (sl_len s) (nth (sl_array s) h []).
Fixpoint set_nth {B} (n : nat) (x : B) (l : list B) : list B :=
  match l, n with [], _ => [] | _ :: l, O => x :: l | y :: l, S n => y :: set_nth n x l end.

(** Go's append (and slices.Grow followed by append, line.go:140-148): in place while the capacity lasts, else in a new array whose
    capacity is up to the runtime, [grow] of the old capacity and the needed one. *)
Variable grow : nat -> nat -> nat.
Definition append (h : list array) (s : slice) (xs : list A) : list array * slice :=
  let a := nth (sl_array s) h [] in
  let n := sl_len s + length xs in
  if n <=? length a then (set_nth (sl_array s) (firstn (sl_len s) a ++ map Some xs ++ skipn n a) h, Slice (sl_array s) n)
  else (h ++ [firstn (sl_len s) a ++ map Some xs ++ repeat None (grow (length a) n - n)], Slice (length h) n).

(** The calls that make values; the k-th call makes value k.
    [New]: NewLayout (layout.go:63-71), NewLine (line.go:99-105), NewText (text.go:21-27): the slice of the variadic arguments, exactly as long as they are.
    [With v xs]: Layout.WithConstraints (layout.go:101-104), Line.WithSpans, WithSpansStr (line.go:135-148), Text.WithLines, WithLinesStr (text.go:29-37),
    Block.WithTitle, WithTitleStr (block.go:70-85).
    [Other v]: every other method that returns a changed copy (layout.go:73-99, line.go:166-196, text.go:47-66, block.go:30-130): the slice is shared. *)
Inductive call := New (xs : list A) | With (v : nat) (xs : list A) | Other (v : nat).
Definition empty_slice (w : world) : slice := Slice (length (w_arrays w)) 0.
Definition make (w : world) (c : call) : world :=
  match c with
  | New xs => World (w_arrays w ++ [map Some xs]) (w_values w ++ [Slice (length (w_arrays w)) (length xs)])
  | With v xs =>
      let '(h, s) := append (w_arrays w) (nth v (w_values w) (empty_slice w)) xs in
      World h (w_values w ++ [s])
  | Other v => World (w_arrays w) (w_values w ++ [nth v (w_values w) (empty_slice w)])
  end.
Definition made (cs : list call) : world := fold_left make cs (World [] []).
End Values.
Arguments New {A}. Arguments With {A}. Arguments Other {A}.
