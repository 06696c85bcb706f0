(** What each output command is meant to say to the terminal, from the standards (ECMA-48, xterm), not from the code. *)
From Verif Require Import Base M_Style M_Ansi S_Terminal S_Ansi.
From Coq Require Import ZArith NArith List Bool.
Import ListNotations.
Open Scope N_scope.

(** SGR parameter of each text attribute. *)
Definition sgr_of_attribute (a : N) : list N :=
  if a =? AttrReset then [0] else if a =? AttrBold then [1] else if a =? AttrDim then [2] else if a =? AttrItalic then [3]
  else if a =? AttrUnderlined then [4] else if a =? AttrDoubleUnderlined then [4; 2] else if a =? AttrUndercurled then [4; 3]
  else if a =? AttrUnderdotted then [4; 4] else if a =? AttrUnderdashed then [4; 5]
  else if a =? AttrSlowBlink then [5] else if a =? AttrRapidBlink then [6] else if a =? AttrReverse then [7]
  else if a =? AttrHidden then [8] else if a =? AttrCrossedOut then [9] else if a =? AttrFraktur then [20]
  else if a =? AttrNoBold then [21] else if a =? AttrNormalIntensity then [22] else if a =? AttrNoItalic then [23]
  else if a =? AttrNoUnderline then [24] else if a =? AttrNoBlink then [25] else if a =? AttrNoReverse then [27]
  else if a =? AttrNoHidden then [28] else if a =? AttrNotCrossedOut then [29] else if a =? AttrFramed then [51]
  else if a =? AttrEncircled then [52] else if a =? AttrOverLined then [53] else if a =? AttrNotFramedOrEncircled then [54]
  else [55].

(** SGR parameters selecting a colour. *)
Definition sgr_of_color (te : termenv) (c : color) (bg : bool) : list (option N) :=
  let plus := if bg then 10 else 0 in
  match c with
  | ColNone => [None]
  | ColReset => [Some (39 + plus)]
  | ColAnsi n => [Some ((if n <? 8 then 30 + n else 90 + (n - 8)) + plus)]
  | ColAnsi256 n => [Some (38 + plus); Some 5; Some n]
  | ColRGB s => match hex te s with
                | Some (r, g, b) => [Some (38 + plus); Some 2; Some r; Some g; Some b]
                | None => [None]
                end
  end.

Definition csi (final : N) (params : list (option N)) : list ptok := [PCsi false (map (fun p => [p]) params) final].
Definition dec_private (final : N) (n : N) : list ptok := [PCsi true [[Some n]] final].

(** The control sequence (or characters) a command stands for; coordinates are zero-based in the API, one-based on the wire. *)
Definition intended (te : termenv) (c : command) : list ptok :=
  match c with
  | MoveTo column row => csi 72 (* CUP *) [Some (Z.to_N (row + 1)); Some (Z.to_N (column + 1))]
  | SetAttribute a => [PCsi false [map Some (sgr_of_attribute a)] 109]
  | SetColors (Some f) (Some b) => csi 109 (sgr_of_color te f false ++ sgr_of_color te b true)
  | SetColors _ _ => []
  | Print s => map PChar s
  | ShowCursor => dec_private 104 25
  | HideCursor => dec_private 108 25
  | ClearAll => csi 74 [Some 2]
  | ClearAfterCursor => csi 74 [None]
  | ClearBeforeCursor => csi 74 [Some 1]
  | ClearCurrentLine => csi 75 [Some 2]
  | ClearUntilNewLine => csi 75 [None]
  | EnterAlternateScreen => dec_private 104 1049
  | LeaveAlternateScreen => dec_private 108 1049
  | EnableBracketedPaste => dec_private 104 2004
  | DisableBracketedPaste => dec_private 108 2004
  end.
