(** A plain text editor: the clusters before the cursor (nearest first) and those after it. *)
From Verif Require Import Base M_Style M_Uniseg M_Reflow.
From Coq Require Import ZArith NArith List Bool.
Import ListNotations.

Record editor := Editor { ed_before : list str; ed_after : list str }.
Definition ed_empty : editor := Editor [] [].
Definition ed_clusters (e : editor) : list str := rev (ed_before e) ++ ed_after e.
Definition ed_text (e : editor) : str := concat (ed_clusters e).

Inductive edit := Left | Right | Home | End_ | Type_ (cs : list str) | EraseBack | EraseWord | EraseAll.

(** Drop the elements of [l] while [f] holds. *)
Fixpoint drop_while {A} (f : A -> bool) (l : list A) : list A :=
  match l with [] => [] | a :: l' => if f a then drop_while f l' else l end.

(** What erasing a word backwards leaves before the cursor: blanks next to the cursor go first, then the word. *)
Definition without_word (before : list str) : list str :=
  drop_while (fun c => negb (is_whitespace c)) (drop_while is_whitespace before).

Definition ed_step (e : editor) (o : edit) : editor :=
  match o, e with
  | Left, Editor (c :: b) a => Editor b (c :: a)
  | Right, Editor b (c :: a) => Editor (c :: b) a
  | Home, _ => Editor [] (ed_clusters e)
  | End_, _ => Editor (rev (ed_clusters e)) []
  | Type_ cs, Editor b a => Editor (rev cs ++ b) a
  | EraseBack, Editor (_ :: b) a => Editor b a
  | EraseWord, Editor b a => Editor (without_word b) a
  | EraseAll, _ => ed_empty
  | _, _ => e
  end.
Definition ed_run (e : editor) (os : list edit) : editor := fold_left ed_step os e.

(** No [EraseWord] of the history erases back to the very start of the text (unless there is nothing to erase). *)
Fixpoint words_inside (e : editor) (os : list edit) : Prop :=
  match os with
  | [] => True
  | o :: os' => (o = EraseWord -> ed_before e <> [] -> without_word (ed_before e) <> []) /\ words_inside (ed_step e o) os'
  end.
