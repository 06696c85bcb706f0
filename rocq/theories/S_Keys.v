(** What a terminal sends and what a program should receive for it. *)
From Verif Require Import Base M_Utf8 M_KeyTable M_Decode.
From Coq Require Import ZArith NArith String Ascii List Bool Permutation.
Import ListNotations.
Open Scope Z_scope.

(** The byte sequences with a meaning of their own: the table of key sequences, its entries with the Alt modifier (an escape in
    front), control characters, the space and the escape, plain and with Alt. *)
Inductive known : bytes -> key -> Prop :=
| known_seq s k : In (s, k) sequences -> known s k
| known_alt_seq s k : In (s, k) sequences -> k_alt k = false -> known (ESC :: s) (Key (k_type k) (k_runes k) true (k_paste k))
| known_control c : (1 <= c <= 31)%N \/ c = 127%N -> c <> ESC -> known [c] (Key (Z.of_N c) [] false false)
| known_alt_control c : (1 <= c <= 31)%N \/ c = 127%N -> c <> ESC -> known [ESC; c] (Key (Z.of_N c) [] true false)
| known_space : known [32%N] (Key KeySpace [32%N] false false)
| known_alt_space : known [ESC; 32%N] (Key KeySpace [32%N] true false)
| known_alt_escape : known [ESC; ESC] (Key KeyEscape [] true false).

Definition begins (s b : bytes) : Prop := exists t, b = (s ++ t)%list.

(** The tables the decoder works with, built when the program starts, for some order of visiting maps. *)
Definition tables (seqs : kmap) (sizes : list nat) : Prop :=
  exists order keys, Permutation order sequences /\ seqs = ext_sequences order /\
    Permutation keys (map fst seqs) /\ sizes = seq_lengths keys.

(** The key press for a character of text. *)
Definition char_press (c : N) : key :=
  if (c <=? 31)%N || (c =? 127)%N then Key (Z.of_N c) [] false false
  else if (c =? 32)%N then Key KeySpace [32%N] false false
  else Key KeyRunes [c] false false.

(** The key presses of messages, one per rune of a group of runes; other messages count as themselves. *)
Definition presses (m : msg) : list msg :=
  match m with
  | KeyMsg (Key ty rs alt paste) => if (ty =? KeyRunes) && negb paste then map (fun r => KeyMsg (Key KeyRunes [r] alt false)) rs else [m]
  | _ => [m]
  end.

(** Text as a keyboard sends it, no escape among it; U+FFFD is what the decoder cannot tell from broken input. *)
Definition plain_char (c : N) : Prop := scalar c = true /\ c <> ESC /\ c <> RuneError.
