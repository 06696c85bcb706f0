(** Model of how a text input takes messages (widget/inputwidget/state.go:123-173). *)
From Verif Require Import Base M_Uniseg M_Utf8 M_KeyTable M_Decode M_Input.
From Coq Require Import ZArith NArith List Bool.
Import ListNotations.
Open Scope Z_scope.

(** state.go:132-173: the cases of the switch on the key's type, in their order; the Alt and paste flags are not looked at *)
Definition input_key_of (k : key) : input_key :=
  let ty := k_type k in
  if ty =? KeyLeft then IKLeft
  else if ty =? KeyShiftLeft then IKShiftLeft
  else if ty =? KeyRight then IKRight
  else if ty =? KeyShiftRight then IKShiftRight
  else if ty =? KeyBackspace then IKBackspace
  else if ty =? KeyDelete then IKDelete
  else if ty =? KeyCtrlA then IKCtrlA
  else if ty =? KeyCtrlE then IKCtrlE
  else if ty =? KeyCtrlW then IKCtrlW
  else if ty =? KeyRunes then IKRunes (k_runes k)
  else if ty =? KeySpace then IKSpace (k_runes k)
  else IKOther.
(** state.go:123-130; the command returned is always nil *)
Definition try_update (u : uniseg) (s : input_state) (m : msg) : outcome (input_state * bool) :=
  match m with KeyMsg k => is_update u s (input_key_of k) | _ => Ret (s, false) end.
(** The messages given to the input one after the other. *)
Definition try_updates (u : uniseg) (ms : list msg) (s : input_state) : outcome input_state :=
  ofold (fun s m => let! (s, _) := try_update u s m in Ret s) ms s.
