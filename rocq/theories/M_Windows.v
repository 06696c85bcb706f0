(** Model of the console input of Windows (key_windows.go).

    The records are those of github.com/erikgeiser/coninput, which passes on what the Windows function ReadConsoleInput returns; its constants are the
    ones of the Windows API, and [ControlKeyState.Contains] is true when one of the given bits is set. *)
From Verif Require Import Base M_Utf8 M_KeyTable M_Decode.
From Coq Require Import ZArith NArith List Bool.
Import ListNotations.
Open Scope Z_scope.

(** coninput.KeyEventRecord *)
Record key_record := KeyRecord { kr_down : bool; kr_repeat : N; kr_code : N; kr_char : N; kr_state : N }.
(** coninput.MouseEventRecord *)
Record mouse_record := MouseRecord { mr_x : Z; mr_y : Z; mr_buttons : N; mr_state : N; mr_flags : N; mr_wheel : Z }.
(** coninput.EventRecord, unwrapped *)
Inductive console_record := KeyRec (k : key_record) | SizeRec (width height : Z) | MouseRec (m : mouse_record) | FocusRec | MenuRec | OtherRec.

(** The constants of coninput that key_windows.go uses. *)
Definition VK_BACK : N := 8.
Definition VK_TAB : N := 9.
Definition VK_RETURN : N := 13.
Definition VK_SHIFT : N := 16.
Definition VK_ESCAPE : N := 27.
Definition VK_SPACE : N := 32.
Definition VK_PRIOR : N := 33.
Definition VK_NEXT : N := 34.
Definition VK_END : N := 35.
Definition VK_HOME : N := 36.
Definition VK_LEFT : N := 37.
Definition VK_UP : N := 38.
Definition VK_RIGHT : N := 39.
Definition VK_DOWN : N := 40.
Definition VK_DELETE : N := 46.
Definition VK_OEM_4 : N := 219.
Definition RIGHT_ALT_PRESSED : N := 1.
Definition LEFT_ALT_PRESSED : N := 2.
Definition RIGHT_CTRL_PRESSED : N := 4.
Definition LEFT_CTRL_PRESSED : N := 8.
Definition SHIFT_PRESSED : N := 16.
Definition FROM_LEFT_1ST_BUTTON_PRESSED : N := 1.
Definition RIGHTMOST_BUTTON_PRESSED : N := 2.
Definition FROM_LEFT_2ND_BUTTON_PRESSED : N := 4.
Definition FROM_LEFT_3RD_BUTTON_PRESSED : N := 8.
Definition FROM_LEFT_4TH_BUTTON_PRESSED : N := 16.
Definition CLICK : N := 0.
Definition MOUSE_MOVED : N := 1.
Definition DOUBLE_CLICK : N := 2.
Definition MOUSE_WHEELED : N := 4.
Definition MOUSE_HWHEELED : N := 8.

(** coninput: ControlKeyState.Contains *)
Definition has_bits (state bits : N) : bool := negb (N.land state bits =? 0)%N.
(** key_windows.go:54: the Alt field; also 134 *)
Definition alt_pressed (state : N) : bool := has_bits state (N.lor LEFT_ALT_PRESSED RIGHT_ALT_PRESSED).
(** key_windows.go:165; also 135 *)
Definition ctrl_pressed (state : N) : bool := has_bits state (N.lor LEFT_CTRL_PRESSED RIGHT_CTRL_PRESSED).
(** key_windows.go:164; also 136 *)
Definition shift_pressed (state : N) : bool := has_bits state SHIFT_PRESSED.

(** key_windows.go:182-191 and the five switches after it *)
Definition by_modifiers (state : N) (ctrl_shift shift ctrl plain : Z) : Z :=
  if shift_pressed state && ctrl_pressed state then ctrl_shift
  else if shift_pressed state then shift
  else if ctrl_pressed state then ctrl
  else plain.

(** key_windows.go:258-319: the switch on the character; the cases up to ctrl+z are in ascending order, but '@' *)
Definition control_of_char (c : N) : option Z :=
  if (c =? 64)%N then Some KeyCtrlAt
  else if (1 <=? c)%N && (c <=? 26)%N then
    nth_error [KeyCtrlA; KeyCtrlB; KeyCtrlC; KeyCtrlD; KeyCtrlE; KeyCtrlF; KeyCtrlG; KeyCtrlH; KeyCtrlI; KeyCtrlJ; KeyCtrlK; KeyCtrlL; KeyCtrlM; KeyCtrlN; KeyCtrlO;
      KeyCtrlP; KeyCtrlQ; KeyCtrlR; KeyCtrlS; KeyCtrlT; KeyCtrlU; KeyCtrlV; KeyCtrlW; KeyCtrlX; KeyCtrlY; KeyCtrlZ] (N.to_nat c - 1)
  else if (c =? 27)%N then Some KeyCtrlCloseBracket
  else if (c =? 28)%N then Some KeyCtrlBackslash
  else if (c =? 31)%N then Some KeyCtrlUnderscore
  else None.

(** key_windows.go:161-328 *)
Definition con_key_type (e : key_record) : Z :=
  let code := kr_code e in
  let st := kr_state e in
  if (code =? VK_RETURN)%N then KeyEnter
  else if (code =? VK_BACK)%N then KeyBackspace
  else if (code =? VK_TAB)%N then (if shift_pressed st then KeyShiftTab else KeyTab)
  else if (code =? VK_SPACE)%N then KeyRunes
  else if (code =? VK_ESCAPE)%N then KeyEscape
  else if (code =? VK_UP)%N then by_modifiers st KeyCtrlShiftUp KeyShiftUp KeyCtrlUp KeyUp
  else if (code =? VK_DOWN)%N then by_modifiers st KeyCtrlShiftDown KeyShiftDown KeyCtrlDown KeyDown
  else if (code =? VK_RIGHT)%N then by_modifiers st KeyCtrlShiftRight KeyShiftRight KeyCtrlRight KeyRight
  else if (code =? VK_LEFT)%N then by_modifiers st KeyCtrlShiftLeft KeyShiftLeft KeyCtrlLeft KeyLeft
  else if (code =? VK_HOME)%N then by_modifiers st KeyCtrlShiftHome KeyShiftHome KeyCtrlHome KeyHome
  else if (code =? VK_END)%N then by_modifiers st KeyCtrlShiftEnd KeyShiftEnd KeyCtrlEnd KeyEnd
  else if (code =? VK_PRIOR)%N then KeyPgUp
  else if (code =? VK_NEXT)%N then KeyPgDown
  else if (code =? VK_DELETE)%N then KeyDelete
  else if (N.land st (N.lor LEFT_CTRL_PRESSED RIGHT_CTRL_PRESSED) =? 0)%N then KeyRunes
  else match control_of_char (kr_char e) with
       | Some k => k
       | None => if (code =? VK_OEM_4)%N then KeyCtrlOpenBracket else KeyRunes
       end.

(** key_windows.go:41-55 *)
Definition con_key (e : key_record) : key :=
  let ty := con_key_type e in
  Key ty (if ty =? KeyRunes then [kr_char e] else []) (alt_pressed (kr_state e)) false.

(** key_windows.go:98-112: the button held, the first case that applies *)
Definition held_button (s : N) : Z :=
  if has_bits s FROM_LEFT_1ST_BUTTON_PRESSED then ButtonLeft
  else if has_bits s FROM_LEFT_2ND_BUTTON_PRESSED then ButtonMiddle
  else if has_bits s RIGHTMOST_BUTTON_PRESSED then ButtonRight
  else if has_bits s FROM_LEFT_3RD_BUTTON_PRESSED then ButtonBackward
  else if has_bits s FROM_LEFT_4TH_BUTTON_PRESSED then ButtonForward
  else ButtonNone.
(** key_windows.go:114-125: the button that changed *)
Definition changed_button (btn : N) : Z :=
  if (btn =? FROM_LEFT_1ST_BUTTON_PRESSED)%N then ButtonLeft
  else if (btn =? RIGHTMOST_BUTTON_PRESSED)%N then ButtonRight
  else if (btn =? FROM_LEFT_2ND_BUTTON_PRESSED)%N then ButtonMiddle
  else if (btn =? FROM_LEFT_3RD_BUTTON_PRESSED)%N then ButtonBackward
  else if (btn =? FROM_LEFT_4TH_BUTTON_PRESSED)%N then ButtonForward
  else ButtonNone.
(** key_windows.go:91-128 *)
Definition mouse_event_button (p s : N) : Z * Z :=
  let btn := N.lxor p s in
  let action := if (N.land btn s =? 0)%N then ActionRelease else ActionPress in
  if (btn =? 0)%N then (held_button s, action) else (changed_button btn, action).
(** key_windows.go:130-159; an action that is not set is MouseActionPress, the zero value *)
Definition con_mouse (p : N) (e : mouse_record) : mouse :=
  let '(button, action) :=
    if (mr_flags e =? CLICK)%N || (mr_flags e =? DOUBLE_CLICK)%N then mouse_event_button p (mr_buttons e)
    else if (mr_flags e =? MOUSE_WHEELED)%N then (if mr_wheel e >? 0 then ButtonWheelUp else ButtonWheelDown, ActionPress)
    else if (mr_flags e =? MOUSE_HWHEELED)%N then (if mr_wheel e >? 0 then ButtonWheelRight else ButtonWheelLeft, ActionPress)
    else if (mr_flags e =? MOUSE_MOVED)%N then (fst (mouse_event_button p (mr_buttons e)), ActionMotion)
    else (ButtonNone, ActionPress) in
  Mouse (mr_x e) (mr_y e) (shift_pressed (mr_state e)) (alt_pressed (mr_state e)) (ctrl_pressed (mr_state e)) action button.

(** The messages sent: those of M_Decode.v, and WindowSizeMsg. *)
Inductive con_msg := Input (m : msg) | WindowSize (width height : Z).
(** key_windows.go:24-25: [ps] and [ws] *)
Record con_state := ConState { cs_buttons : N; cs_size : Z * Z }.
Definition con_start : con_state := ConState 0 (0, 0).
(** key_windows.go:32-73 *)
Definition con_step (s : con_state) (r : console_record) : con_state * list con_msg :=
  match r with
  | KeyRec e =>
      if negb (kr_down e) || (kr_code e =? VK_SHIFT)%N then (s, [])
      else (s, repeat (Input (KeyMsg (con_key e))) (N.to_nat (kr_repeat e)))
  | SizeRec w h =>
      if (w =? fst (cs_size s)) && (h =? snd (cs_size s)) then (s, [])
      else (ConState (cs_buttons s) (w, h), [WindowSize w h])
  | MouseRec e => (ConState (mr_buttons e) (cs_size s), [Input (MouseMsg (con_mouse (cs_buttons s) e))])
  | FocusRec | MenuRec | OtherRec => (s, [])
  end.
(** key_windows.go:23-89, as long as reading does not fail and the context is not cancelled: how many records one read returns makes no difference *)
Fixpoint read_con_inputs (s : con_state) (rs : list console_record) : list con_msg :=
  match rs with
  | [] => []
  | r :: rs => let (s, ms) := con_step s r in ms ++ read_con_inputs s rs
  end.
