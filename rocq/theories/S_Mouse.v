(** How a terminal encodes mouse events (xterm control sequences, "Mouse Tracking"). *)
From Verif Require Import Base M_Utf8 M_Decode M_Ansi.
From Coq Require Import ZArith NArith List Bool.
Import ListNotations.
Open Scope Z_scope.

(** The number of a button: left, middle, right are 0, 1, 2, no button is 3; wheels count from 64, further buttons from 128. *)
Definition button_code (button : Z) : Z :=
  if button =? ButtonNone then 3
  else if button <=? ButtonRight then button - 1
  else if button <=? ButtonWheelRight then 64 + (button - 4)
  else 128 + (button - 8).
Definition flag (c : bool) (v : Z) : Z := if c then v else 0.
(** The code of an event: button, modifiers, and 32 for a movement. *)
Definition event_code (m : mouse) : Z :=
  button_code (m_button m) + flag (m_shift m) 4 + flag (m_alt m) 8 + flag (m_ctrl m) 16 + flag (m_action m =? ActionMotion) 32.

(** The events there are: a button is pressed, released or held while moving; a wheel is only "pressed"; without a button the
    pointer only moves. *)
Definition event (m : mouse) : Prop :=
  (0 <= m_action m <= 2) /\ (0 <= m_button m <= 11) /\
  (is_wheel (m_button m) = true -> m_action m = ActionPress) /\ (m_button m = ButtonNone -> m_action m = ActionMotion).

(** SGR: ESC [ < code ; column ; row and M, or m for a release; columns and rows count from 1. *)
Definition sgr_bytes (m : mouse) : bytes :=
  [27; 91; 60]%N ++ itoa (event_code m) ++ [59%N] ++ itoa (m_x m + 1) ++ [59%N] ++ itoa (m_y m + 1) ++ [if m_action m =? ActionRelease then 109%N else 77%N].

(** X10: ESC [ M and three bytes, each with 32 added; a release does not say of which button (its number is 3). *)
Definition x10_bytes (m : mouse) : bytes :=
  let code := if m_action m =? ActionRelease then button_code ButtonNone + (event_code m - button_code (m_button m)) else event_code m in
  [27%N; 91%N; 77%N; Z.to_N (32 + code); Z.to_N (32 + (m_x m + 1)); Z.to_N (32 + (m_y m + 1))].
