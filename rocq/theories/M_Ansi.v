(** Model of internal/ansi (attr.go, command.go) and of the termenv colour sequences it prints.
    Output is the list of code points written (the escape sequences are ASCII). *)
From Verif Require Import Base M_Style.
From Coq Require Import ZArith NArith List Bool.
Import ListNotations.
Open Scope Z_scope.

(** strconv.Itoa on a non-negative number: decimal digits, most significant first. *)
Fixpoint dec_digits (fuel : nat) (n : N) (acc : str) : str :=
  match fuel with
  | O => acc
  | S f => let acc' := (48 + n mod 10)%N :: acc in
           if (n <? 10)%N then acc' else dec_digits f (n / 10)%N acc'
  end.
Definition itoa_N (n : N) : str := dec_digits (S (N.to_nat (N.log2 n))) n [].
(** strconv.Itoa *)
Definition itoa (z : Z) : str := if z <? 0 then 45%N :: itoa_N (Z.to_N (- z)) else itoa_N (Z.to_N z).

(** attr.go:7 *)
Definition sgr_table : list N :=
  [0; 1; 2; 3; 4; 2; 3; 4; 5; 5; 6; 7; 8; 9; 20; 21; 22; 23; 24; 25; 27; 28; 29; 51; 52; 53; 54; 55]%N.

(** attr.go:9-38 (iota) *)
Definition AttrReset : N := 0.            Definition AttrBold : N := 1.
Definition AttrDim : N := 2.              Definition AttrItalic : N := 3.
Definition AttrUnderlined : N := 4.       Definition AttrDoubleUnderlined : N := 5.
Definition AttrUndercurled : N := 6.      Definition AttrUnderdotted : N := 7.
Definition AttrUnderdashed : N := 8.      Definition AttrSlowBlink : N := 9.
Definition AttrRapidBlink : N := 10.      Definition AttrReverse : N := 11.
Definition AttrHidden : N := 12.          Definition AttrCrossedOut : N := 13.
Definition AttrFraktur : N := 14.         Definition AttrNoBold : N := 15.
Definition AttrNormalIntensity : N := 16. Definition AttrNoItalic : N := 17.
Definition AttrNoUnderline : N := 18.     Definition AttrNoBlink : N := 19.
Definition AttrNoReverse : N := 20.       Definition AttrNoHidden : N := 21.
Definition AttrNotCrossedOut : N := 22.   Definition AttrFramed : N := 23.
Definition AttrEncircled : N := 24.       Definition AttrOverLined : N := 25.
Definition AttrNotFramedOrEncircled : N := 26.  Definition AttrNotOverLined : N := 27.

(** attr.go:44-50; an attribute outside the table panics (index out of range). *)
Definition attr_sgr (a : N) : outcome str :=
  match nth_error sgr_table (N.to_nat a) with
  | None => Panic
  | Some code => Ret (if (4 <? a)%N && (a <? 9)%N then [52; 58]%N ++ itoa_N code else itoa_N code)
  end.

(** The parts of termenv the renderer uses, as functions given from outside:
    [conv] is Profile.Convert (nil is [None]); [hex] is colorful.Hex followed by the scaling of RGBColor.Sequence. *)
Record termenv := Termenv { conv : option color -> option color; hex : str -> option (N * N * N) }.

Definition semi : N := 59%N.

(** termenv's Color.Sequence(bg), and color.go:12-18 for ResetColor. (termenv v0.15.2 color.go: ANSIColor prints
    30+c / 90+c-8, backgrounds 10 more; ANSI256Color "38;5;n"; RGBColor "38;2;r;g;b" or "" if unparsable; NoColor "".) *)
Definition color_sequence (te : termenv) (c : color) (bg : bool) : str :=
  match c with
  | ColNone => []
  | ColReset => if bg then [52; 57]%N else [51; 57]%N
  | ColAnsi n => itoa_N ((if (n <? 8)%N then n + 30 else n - 8 + 90) + (if bg then 10 else 0))%N
  | ColAnsi256 n => (if bg then [52; 56]%N else [51; 56]%N) ++ [semi; 53%N; semi] ++ itoa_N n
  | ColRGB s =>
      match hex te s with
      | None => []
      | Some (r, g, b) => (if bg then [52; 56]%N else [51; 56]%N) ++ [semi; 50%N; semi] ++ itoa_N r ++ [semi] ++ itoa_N g ++ [semi] ++ itoa_N b
      end
  end.

(** command.go:24-151 *)
Inductive command :=
| MoveTo (column row : Z)
| SetAttribute (a : N)
| SetColors (fg bg : option color)
| Print (s : str)
| ShowCursor | HideCursor
| ClearAll | ClearAfterCursor | ClearBeforeCursor | ClearCurrentLine | ClearUntilNewLine
| EnterAlternateScreen | LeaveAlternateScreen
| EnableBracketedPaste | DisableBracketedPaste.

Definition CSI : str := [27; 91]%N.

(** command.go:32-37, 43-47, 62-73, 79-81, 87-151: what WriteANSI writes. Calling a method on a nil colour panics. *)
Definition write_ansi (te : termenv) (c : command) : outcome str :=
  match c with
  | MoveTo column row => Ret (CSI ++ itoa (row + 1) ++ [semi] ++ itoa (column + 1) ++ [72%N])
  | SetAttribute a => let! s := attr_sgr a in Ret (CSI ++ s ++ [109%N])
  | SetColors fg bg =>
      match fg, bg with
      | Some f, Some b => Ret (CSI ++ color_sequence te f false ++ [semi] ++ color_sequence te b true ++ [109%N])
      | None, Some _ => Panic   (* command.go:66-67 calls c.Foreground.Sequence with c.Foreground == nil *)
      | Some _, None => Panic   (* command.go:68-69 calls c.Background.Sequence with c.Background == nil *)
      | None, None => Ret []
      end
  | Print s => Ret s
  | ShowCursor => Ret (CSI ++ [63; 50; 53; 104]%N)
  | HideCursor => Ret (CSI ++ [63; 50; 53; 108]%N)
  | ClearAll => Ret (CSI ++ [50; 74]%N)
  | ClearAfterCursor => Ret (CSI ++ [74]%N)
  | ClearBeforeCursor => Ret (CSI ++ [49; 74]%N)
  | ClearCurrentLine => Ret (CSI ++ [50; 75]%N)
  | ClearUntilNewLine => Ret (CSI ++ [75]%N)
  | EnterAlternateScreen => Ret (CSI ++ [63; 49; 48; 52; 57; 104]%N)
  | LeaveAlternateScreen => Ret (CSI ++ [63; 49; 48; 52; 57; 108]%N)
  | EnableBracketedPaste => Ret (CSI ++ [63; 50; 48; 48; 52; 104]%N)
  | DisableBracketedPaste => Ret (CSI ++ [63; 50; 48; 48; 52; 108]%N)
  end.

(** terminal_backend.go:382-390: commands are written one after the other (writes to the output are assumed to succeed). *)
Fixpoint write_all (te : termenv) (l : list command) : outcome str :=
  match l with
  | [] => Ret []
  | c :: t => let! a := write_ansi te c in let! b := write_all te t in Ret (a ++ b)
  end.
