(** Model of how a list takes messages (widget/listwidget/state.go:26-65). *)
From Verif Require Import Base M_Utf8 M_KeyTable M_Decode M_List.
From Coq Require Import ZArith NArith List Bool String.
Import ListNotations.
Open Scope Z_scope.

(** state.go:36-64: the cases of the switch on the key's name, in their order *)
Definition list_key_of (k : key) : list_key :=
  let s := key_string k in
  if bytes_eqb s (asc "ctrl+u") then KCtrlU
  else if bytes_eqb s (asc "ctrl+d") then KCtrlD
  else if bytes_eqb s (asc "G") then KUpperG
  else if bytes_eqb s (asc "g") then KLowerG
  else if bytes_eqb s (asc "j") then KJ
  else if bytes_eqb s (asc "down") then KDown
  else if bytes_eqb s (asc "k") then KK
  else if bytes_eqb s (asc "up") then KUp
  else KOther.
(** state.go:26-33; the command returned is always nil *)
Definition list_try_update (s : list_state) (m : msg) : list_state * bool :=
  match m with KeyMsg k => st_update s (list_key_of k) | _ => (s, false) end.
