(** What reading a line composer to its end gives, and the vocabulary of wrapping. *)
From Verif Require Import Base M_Style M_Uniseg M_Text M_Reflow.
From Coq Require Import ZArith List Bool.
Import ListNotations.
Open Scope Z_scope.

(** Calling NextLine until it reports the end returns these lines. *)
Inductive yields {S} (next : S -> option (wrapped_line * S)) : S -> list wrapped_line -> Prop :=
| yields_end st : next st = None -> yields next st []
| yields_line st l st' ls : next st = Some (l, st') -> yields next st' ls -> yields next st (l :: ls).

(** The non-blank graphemes, in order. *)
Definition ink (l : list gr) : list gr := filter (fun g => negb (is_whitespace (g_sym g))) l.

(** Graphemes that fit a line of [max] columns at all. *)
Definition fitting (max : Z) (l : list gr) : list gr := filter (fun g => g_width g <=? max) l.

Definition is_word (l : list gr) : Prop := Forall (fun g => is_whitespace (g_sym g) = false) l.

(** No word (stretch without blanks) is wider than [max]. *)
Definition short_words (max : Z) (l : list gr) : Prop :=
  forall pre word post, l = pre ++ word ++ post -> is_word word -> gr_width word <= max.

(** [l] is [m] with some elements left out. *)
Inductive subseq {A} : list A -> list A -> Prop :=
| subseq_nil m : subseq [] m
| subseq_take a l m : subseq l m -> subseq (a :: l) (a :: m)
| subseq_skip a l m : subseq l m -> subseq l (a :: m).

(** The graphemes that hold a symbol (a cleared one is empty and takes no column). *)
Definition marks (l : list gr) : list gr := filter (fun g => negb (zlen (g_sym g) =? 0)) l.

(** A grapheme as uniseg cuts it: one cluster, with its width. *)
Definition proper (u : uniseg) (g : gr) : Prop := clusters u (g_sym g) = [g_sym g] /\ g_width g = cwidth u (g_sym g) /\ g_sym g <> [].
