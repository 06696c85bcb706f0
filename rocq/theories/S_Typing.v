(** What the user's key presses do to a line of text. *)
From Verif Require Import Base M_Style M_Uniseg M_Utf8 M_KeyTable M_Decode S_Input.
From Coq Require Import ZArith NArith List Bool.
Import ListNotations.
Open Scope Z_scope.

(** What one event does in a plain editor: characters typed or pasted are inserted one by one; the arrows move the cursor, Ctrl+A and Ctrl+E go to the
    ends, Backspace and Delete erase the character before the cursor, Ctrl+W the word; all of them with or without Alt. Everything else does nothing. *)
Definition event_edits (m : msg) : list edit :=
  match m with
  | KeyMsg (Key ty rs _ _) =>
      if (ty =? KeyRunes) || (ty =? KeySpace) then map (fun c => Type_ [[c]]) rs
      else if ty =? KeyLeft then [Left] else if ty =? KeyRight then [Right]
      else if ty =? KeyCtrlA then [Home] else if ty =? KeyCtrlE then [End_]
      else if (ty =? KeyBackspace) || (ty =? KeyDelete) then [EraseBack]
      else if ty =? KeyCtrlW then [EraseWord] else []
  | _ => []
  end.
(** The line after some events. *)
Definition edited (events : list msg) : editor := ed_run ed_empty (flat_map event_edits events).
(** Characters that stand alone: in a text made of them each is a grapheme. *)
Definition stand_alone (u : uniseg) (A : N -> Prop) : Prop := forall s, (forall c, In c s -> A c) -> clusters u s = map (fun c => [c]) s.
(** The characters an event brings. *)
Definition brings (m : msg) : str := match m with KeyMsg k => k_runes k | _ => [] end.
