(** The names of mouse events (mouse.go). *)
From Verif Require Import Base M_Utf8 M_KeyTable M_Decode.
From Coq Require Import ZArith NArith String List Bool.
Import ListNotations.
Open Scope Z_scope.
Local Open Scope list_scope.

(** mouse.go:76-80 *)
Definition mouse_actions : list (Z * bytes) := [(ActionPress, asc "press"); (ActionRelease, asc "release"); (ActionMotion, asc "motion")].
(** mouse.go:115-128 *)
Definition mouse_buttons : list (Z * bytes) := [
  (ButtonNone, asc "none"); (ButtonLeft, asc "left"); (ButtonMiddle, asc "middle"); (ButtonRight, asc "right");
  (ButtonWheelUp, asc "wheel up"); (ButtonWheelDown, asc "wheel down"); (ButtonWheelLeft, asc "wheel left"); (ButtonWheelRight, asc "wheel right");
  (ButtonBackward, asc "backward"); (ButtonForward, asc "forward"); (Button10, asc "button 10"); (Button11, asc "button 11")].
(** A key that is not in a Go map gives the zero value, here the empty string. *)
Definition named (t : Z) (l : list (Z * bytes)) : bytes := match name_of t l with Some s => s | None => [] end.
(** mouse.go:34-66 *)
Definition mouse_string (m : mouse) : bytes :=
  let s := (if m_ctrl m then asc "ctrl+" else []) ++ (if m_alt m then asc "alt+" else []) ++ (if m_shift m then asc "shift+" else []) in
  if m_button m =? ButtonNone then
    if (m_action m =? ActionMotion) || (m_action m =? ActionRelease) then s ++ named (m_action m) mouse_actions else s ++ asc "unknown"
  else if is_wheel (m_button m) then s ++ named (m_button m) mouse_buttons
  else
    let s := s ++ named (m_button m) mouse_buttons in
    match named (m_action m) mouse_actions with [] => s | a => s ++ asc " " ++ a end.
