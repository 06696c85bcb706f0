(** What Windows reports, and what a program should receive for it. *)
From Verif Require Import Base M_Utf8 M_KeyTable M_Decode S_Keys M_Windows.
From Coq Require Import ZArith NArith List Bool.
Import ListNotations.
Open Scope Z_scope.

(** The bits of the state of the control keys (Windows API, KEY_EVENT_RECORD): right and left Alt, right and left Ctrl, Shift. *)
Definition alt_held (state : N) : bool := N.testbit state 0 || N.testbit state 1.
Definition ctrl_held (state : N) : bool := N.testbit state 2 || N.testbit state 3.
Definition shift_held (state : N) : bool := N.testbit state 4.

(** The record of a pressed key leads to the key message [k], as often as the key was repeated, and to nothing else, whatever happened before. *)
Definition delivers (e : key_record) (k : key) : Prop := forall before,
  read_con_inputs con_start (before ++ [KeyRec e]) = read_con_inputs con_start before ++ repeat (Input (KeyMsg k)) (N.to_nat (kr_repeat e)).

(** What xterm sends for a cursor key: ESC [ and a letter; with modifiers, ESC [ 1 ; m and the letter, m being 1 plus 1 for Shift, 2 for Alt, 4 for Ctrl. *)
Definition modifier_digit (state : N) : N := (49 + (if shift_held state then 1 else 0) + (if alt_held state then 2 else 0) + (if ctrl_held state then 4 else 0))%N.
Definition xterm_cursor_key (letter state : N) : bytes :=
  if (modifier_digit state =? 49)%N then [27; 91; letter]%N else [27; 91; 49; 59; modifier_digit state; letter]%N.
(** The cursor keys (virtual key codes) and their letters: up A, down B, right C, left D, end F, home H. *)
Definition cursor_keys : list (N * N) := [(38, 65); (40, 66); (39, 67); (37, 68); (35, 70); (36, 72)]%N.
(** What a terminal sends for Enter, Backspace, Tab, Page Up, Page Down and Delete; an escape in front stands for Alt. *)
Definition editing_keys : list (N * bytes) := [(13, [13]); (8, [127]); (9, [9]); (33, [27; 91; 53; 126]); (34, [27; 91; 54; 126]); (46, [27; 91; 51; 126])]%N.
Definition with_escape (state : N) (s : bytes) : bytes := if alt_held state then ESC :: s else s.
(** The codes that are not looked up by their character: the above, Shift, Escape and the space bar. *)
Definition own_codes : list N := [8; 9; 13; 16; 27; 32; 33; 34; 35; 36; 37; 38; 39; 40; 46]%N.

(** The last size reported before; the console starts without one. *)
Definition last_size (before : list console_record) : Z * Z := fold_left (fun s r => match r with SizeRec w h => (w, h) | _ => s end) before (0, 0).
(** The state of the buttons in the last mouse record before. *)
Definition last_buttons (before : list console_record) : N := fold_left (fun s r => match r with MouseRec m => mr_buttons m | _ => s end) before 0%N.
(** The buttons by their bits (Windows API, MOUSE_EVENT_RECORD): the leftmost, the rightmost, the second, third and fourth from the left. *)
Definition button_of_bit (i : N) : Z := nth (N.to_nat i) [ButtonLeft; ButtonRight; ButtonMiddle; ButtonBackward; ButtonForward] ButtonNone.
(** The record of a mouse leads to just this event. *)
Definition reports (before : list console_record) (e : mouse_record) (button action : Z) : Prop :=
  read_con_inputs con_start (before ++ [MouseRec e]) =
  read_con_inputs con_start before ++ [Input (MouseMsg (Mouse (mr_x e) (mr_y e) (shift_held (mr_state e)) (alt_held (mr_state e)) (ctrl_held (mr_state e)) action button))].
