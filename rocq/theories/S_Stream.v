(** What the reads of a terminal's input carry. *)
From Verif Require Import Base M_Utf8 M_KeyTable M_Decode S_Keys S_Mouse.
From Coq Require Import ZArith NArith String Ascii List Bool.
Import ListNotations.
Open Scope Z_scope.

(** A read that carries whole events, and the messages for them: some characters typed, a key sequence, the escape key, a change
    of focus, a mouse event, or a paste. *)
Inductive carries : bytes -> list msg -> Prop :=
| carries_text cs : (forall c, In c cs -> plain_char c) -> carries (encode cs) (map (fun c => KeyMsg (char_press c)) cs)
| carries_key s k : known (ESC :: s) k -> carries (ESC :: s) [KeyMsg k]
| carries_escape : carries [ESC] [KeyMsg (Key KeyEscape [] false false)]
| carries_focus : carries (ESC :: asc "[I") [FocusMsg]
| carries_blur : carries (ESC :: asc "[O") [BlurMsg]
| carries_mouse m : event m -> 0 <= m_x m < 2 ^ 63 - 1 -> 0 <= m_y m < 2 ^ 63 - 1 -> carries (sgr_bytes m) [MouseMsg m]
| carries_paste text : (forall c, In c text -> scalar c = true /\ c <> RuneError) -> (forall u v, encode text <> (u ++ bp_end ++ v)%list) ->
    carries (bp_start ++ encode text ++ bp_end)%list [KeyMsg (Key KeyRunes text false true)].
