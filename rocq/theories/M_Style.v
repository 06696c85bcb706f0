(** Model of style.go, cell.go, color.go, internal/bit/bit.go. *)
From Verif Require Import Base.
From Coq Require Import ZArith NArith List Bool.
Import ListNotations.

(** A string is the list of its code points (valid UTF-8 assumed). *)
Definition str := list N.

Fixpoint str_eqb (a b : str) : bool :=
  match a, b with
  | [], [] => true
  | x :: a', y :: b' => N.eqb x y && str_eqb a' b'
  | _, _ => false
  end.

(** termenv.Color implementations plus bento.ResetColor (color.go:5-18). The type is an interface: nil is [None]
    wherever a colour may be absent. *)
Inductive color :=
| ColNone                 (* termenv.NoColor *)
| ColReset                (* bento.ResetColor *)
| ColAnsi (n : N)         (* termenv.ANSIColor *)
| ColAnsi256 (n : N)      (* termenv.ANSI256Color *)
| ColRGB (s : str).       (* termenv.RGBColor *)

(** Go [==] on interface values of these comparable dynamic types. *)
Definition color_eqb (a b : color) : bool :=
  match a, b with
  | ColNone, ColNone => true
  | ColReset, ColReset => true
  | ColAnsi n, ColAnsi m => N.eqb n m
  | ColAnsi256 n, ColAnsi256 m => N.eqb n m
  | ColRGB s, ColRGB t => str_eqb s t
  | _, _ => false
  end.

Definition ocolor_eqb (a b : option color) : bool :=
  match a, b with
  | None, None => true
  | Some c, Some d => color_eqb c d
  | _, _ => false
  end.

(** style.go:10 Modifier is a uint16 bit set; the operations below never leave 16 bits. *)
Definition modifier := N.
(** style.go:12-22 *)
Definition ModifierNone : modifier := 0%N.
Definition ModifierBold : modifier := 1%N.
Definition ModifierDim : modifier := 2%N.
Definition ModifierItalic : modifier := 4%N.
Definition ModifierUnderlined : modifier := 8%N.
Definition ModifierSlowBlink : modifier := 16%N.
Definition ModifierRapidBlink : modifier := 32%N.
Definition ModifierReversed : modifier := 64%N.
Definition ModifierHidden : modifier := 128%N.
Definition ModifierCrossedOut : modifier := 256%N.
(** style.go:23-31 *)
Definition ModifierAll : modifier := 511%N.

(** internal/bit/bit.go:7-21 *)
Definition bit_difference (a b : modifier) : modifier := N.ldiff a b.
Definition bit_intersects (a b : modifier) : bool := negb (N.eqb (N.land a b) 0).
Definition bit_contains (a b : modifier) : bool := N.eqb (N.land a b) b.
Definition bit_union (a b : modifier) : modifier := N.lor a b.

(** style.go:62-66; a StyleColor (style.go:38-60) is an optional colour, nil meaning "not set". *)
Record style := Style { sfg : option color; sbg : option color; sadd : modifier; ssub : modifier }.

(** style.go:68-76 *)
Definition new_style : style := Style None None ModifierNone ModifierNone.

(** style.go:238-243 *)
Definition with_modifier (s : style) (m : modifier) : style :=
  Style (sfg s) (sbg s) (bit_union (sadd s) m) (bit_difference (ssub s) m).
(** style.go:245-250 *)
Definition without_modifier (s : style) (m : modifier) : style :=
  Style (sfg s) (sbg s) (bit_difference (sadd s) m) (bit_union (ssub s) m).
(** style.go:252-256 (a nil colour unsets) *)
Definition with_background (s : style) (c : option color) : style := Style (sfg s) c (sadd s) (ssub s).
(** style.go:258-262 *)
Definition with_foreground (s : style) (c : option color) : style := Style c (sbg s) (sadd s) (ssub s).

(** style.go:264-280 *)
Definition patched (s p : style) : style :=
  Style (match sfg p with Some c => Some c | None => sfg s end)
        (match sbg p with Some c => Some c | None => sbg s end)
        (bit_union (bit_difference (sadd s) (ssub p)) (sadd p))
        (bit_union (bit_difference (ssub s) (sadd p)) (ssub p)).

(** style.go:78-100: named helpers are [with_modifier] with one constant. *)
Definition reversed s := with_modifier s ModifierReversed.
Definition crossed_out s := with_modifier s ModifierCrossedOut.
Definition italic s := with_modifier s ModifierItalic.
Definition bold s := with_modifier s ModifierBold.
Definition underlined s := with_modifier s ModifierUnderlined.
Definition dim s := with_modifier s ModifierDim.

(** cell.go:8-13 *)
Record cell := Cell { csym : str; cfg : option color; cbg : option color; cmod : modifier; cskip : bool }.

Definition space : str := [32%N].

(** cell.go:19-26 *)
Definition new_cell (s : str) : cell := Cell s (Some ColReset) (Some ColReset) 0%N false.
(** cell.go:15-17 *)
Definition empty_cell : cell := new_cell space.
(** cell.go:28-32 *)
Definition cell_set_symbol (s : str) (c : cell) : cell := Cell s (cfg c) (cbg c) (cmod c) (cskip c).
(** cell.go:34-38 *)
Definition cell_append_symbol (s : str) (c : cell) : cell := Cell (csym c ++ s) (cfg c) (cbg c) (cmod c) (cskip c).
(** cell.go:40-43 *)
Definition cell_set_fg (f : option color) (c : cell) : cell := Cell (csym c) f (cbg c) (cmod c) (cskip c).
(** cell.go:45-48 *)
Definition cell_set_bg (f : option color) (c : cell) : cell := Cell (csym c) (cfg c) f (cmod c) (cskip c).
(** cell.go:50-63 *)
Definition cell_set_style (s : style) (c : cell) : cell :=
  Cell (csym c)
       (match sfg s with Some f => Some f | None => cfg c end)
       (match sbg s with Some f => Some f | None => cbg c end)
       (bit_difference (bit_union (cmod c) (sadd s)) (ssub s))
       (cskip c).
(** cell.go:65-71 *)
Definition cell_reset (c : cell) : cell := Cell space (Some ColReset) (Some ColReset) 0%N false.

(** Go [==] on Cell structs (used by buffer.go:59). *)
Definition cell_eqb (a b : cell) : bool :=
  str_eqb (csym a) (csym b) && ocolor_eqb (cfg a) (cfg b) && ocolor_eqb (cbg a) (cbg b)
  && N.eqb (cmod a) (cmod b) && Bool.eqb (cskip a) (cskip b).
