(** The key tables of input.go, written by tools/keytable.py. *)
From Verif Require Import Base M_Utf8.
From Coq Require Import ZArith NArith String Ascii List Bool.
Import ListNotations.
Open Scope Z_scope.

(** input.go:125-157 *)
Definition keyNUL : Z := 0.
Definition keySOH : Z := 1.
Definition keySTX : Z := 2.
Definition keyETX : Z := 3.
Definition keyEOT : Z := 4.
Definition keyENQ : Z := 5.
Definition keyACK : Z := 6.
Definition keyBEL : Z := 7.
Definition keyBS : Z := 8.
Definition keyHT : Z := 9.
Definition keyLF : Z := 10.
Definition keyVT : Z := 11.
Definition keyFF : Z := 12.
Definition keyCR : Z := 13.
Definition keySO : Z := 14.
Definition keySI : Z := 15.
Definition keyDLE : Z := 16.
Definition keyDC1 : Z := 17.
Definition keyDC2 : Z := 18.
Definition keyDC3 : Z := 19.
Definition keyDC4 : Z := 20.
Definition keyNAK : Z := 21.
Definition keySYN : Z := 22.
Definition keyETB : Z := 23.
Definition keyCAN : Z := 24.
Definition keyEM : Z := 25.
Definition keySUB : Z := 26.
Definition keyESC : Z := 27.
Definition keyFS : Z := 28.
Definition keyGS : Z := 29.
Definition keyRS : Z := 30.
Definition keyUS : Z := 31.
Definition keyDEL : Z := 127.
(** input.go:207-259: -(iota + 1) *)
Definition KeyRunes : Z := -1.
Definition KeyUp : Z := -2.
Definition KeyDown : Z := -3.
Definition KeyRight : Z := -4.
Definition KeyLeft : Z := -5.
Definition KeyShiftTab : Z := -6.
Definition KeyHome : Z := -7.
Definition KeyEnd : Z := -8.
Definition KeyPgUp : Z := -9.
Definition KeyPgDown : Z := -10.
Definition KeyCtrlPgUp : Z := -11.
Definition KeyCtrlPgDown : Z := -12.
Definition KeyDelete : Z := -13.
Definition KeyInsert : Z := -14.
Definition KeySpace : Z := -15.
Definition KeyCtrlUp : Z := -16.
Definition KeyCtrlDown : Z := -17.
Definition KeyCtrlRight : Z := -18.
Definition KeyCtrlLeft : Z := -19.
Definition KeyCtrlHome : Z := -20.
Definition KeyCtrlEnd : Z := -21.
Definition KeyShiftUp : Z := -22.
Definition KeyShiftDown : Z := -23.
Definition KeyShiftRight : Z := -24.
Definition KeyShiftLeft : Z := -25.
Definition KeyShiftHome : Z := -26.
Definition KeyShiftEnd : Z := -27.
Definition KeyCtrlShiftUp : Z := -28.
Definition KeyCtrlShiftDown : Z := -29.
Definition KeyCtrlShiftLeft : Z := -30.
Definition KeyCtrlShiftRight : Z := -31.
Definition KeyCtrlShiftHome : Z := -32.
Definition KeyCtrlShiftEnd : Z := -33.
Definition KeyF1 : Z := -34.
Definition KeyF2 : Z := -35.
Definition KeyF3 : Z := -36.
Definition KeyF4 : Z := -37.
Definition KeyF5 : Z := -38.
Definition KeyF6 : Z := -39.
Definition KeyF7 : Z := -40.
Definition KeyF8 : Z := -41.
Definition KeyF9 : Z := -42.
Definition KeyF10 : Z := -43.
Definition KeyF11 : Z := -44.
Definition KeyF12 : Z := -45.
Definition KeyF13 : Z := -46.
Definition KeyF14 : Z := -47.
Definition KeyF15 : Z := -48.
Definition KeyF16 : Z := -49.
Definition KeyF17 : Z := -50.
Definition KeyF18 : Z := -51.
Definition KeyF19 : Z := -52.
Definition KeyF20 : Z := -53.
(** input.go:162-202: aliases *)
Definition KeyNull : Z := keyNUL.
Definition KeyBreak : Z := keyETX.
Definition KeyEnter : Z := keyCR.
Definition KeyBackspace : Z := keyDEL.
Definition KeyTab : Z := keyHT.
Definition KeyEsc : Z := keyESC.
Definition KeyEscape : Z := keyESC.
Definition KeyCtrlAt : Z := keyNUL.
Definition KeyCtrlA : Z := keySOH.
Definition KeyCtrlB : Z := keySTX.
Definition KeyCtrlC : Z := keyETX.
Definition KeyCtrlD : Z := keyEOT.
Definition KeyCtrlE : Z := keyENQ.
Definition KeyCtrlF : Z := keyACK.
Definition KeyCtrlG : Z := keyBEL.
Definition KeyCtrlH : Z := keyBS.
Definition KeyCtrlI : Z := keyHT.
Definition KeyCtrlJ : Z := keyLF.
Definition KeyCtrlK : Z := keyVT.
Definition KeyCtrlL : Z := keyFF.
Definition KeyCtrlM : Z := keyCR.
Definition KeyCtrlN : Z := keySO.
Definition KeyCtrlO : Z := keySI.
Definition KeyCtrlP : Z := keyDLE.
Definition KeyCtrlQ : Z := keyDC1.
Definition KeyCtrlR : Z := keyDC2.
Definition KeyCtrlS : Z := keyDC3.
Definition KeyCtrlT : Z := keyDC4.
Definition KeyCtrlU : Z := keyNAK.
Definition KeyCtrlV : Z := keySYN.
Definition KeyCtrlW : Z := keyETB.
Definition KeyCtrlX : Z := keyCAN.
Definition KeyCtrlY : Z := keyEM.
Definition KeyCtrlZ : Z := keySUB.
Definition KeyCtrlOpenBracket : Z := keyESC.
Definition KeyCtrlBackslash : Z := keyFS.
Definition KeyCtrlCloseBracket : Z := keyGS.
Definition KeyCtrlCaret : Z := keyRS.
Definition KeyCtrlUnderscore : Z := keyUS.
Definition KeyCtrlQuestionMark : Z := keyDEL.

(** input.go:263-353 *)
Definition key_names : list (Z * bytes) := [
  (keyNUL, asc "ctrl+@");
  (keySOH, asc "ctrl+a");
  (keySTX, asc "ctrl+b");
  (keyETX, asc "ctrl+c");
  (keyEOT, asc "ctrl+d");
  (keyENQ, asc "ctrl+e");
  (keyACK, asc "ctrl+f");
  (keyBEL, asc "ctrl+g");
  (keyBS, asc "ctrl+h");
  (keyHT, asc "tab");
  (keyLF, asc "ctrl+j");
  (keyVT, asc "ctrl+k");
  (keyFF, asc "ctrl+l");
  (keyCR, asc "enter");
  (keySO, asc "ctrl+n");
  (keySI, asc "ctrl+o");
  (keyDLE, asc "ctrl+p");
  (keyDC1, asc "ctrl+q");
  (keyDC2, asc "ctrl+r");
  (keyDC3, asc "ctrl+s");
  (keyDC4, asc "ctrl+t");
  (keyNAK, asc "ctrl+u");
  (keySYN, asc "ctrl+v");
  (keyETB, asc "ctrl+w");
  (keyCAN, asc "ctrl+x");
  (keyEM, asc "ctrl+y");
  (keySUB, asc "ctrl+z");
  (keyESC, asc "esc");
  (keyFS, asc "ctrl+\");
  (keyGS, asc "ctrl+]");
  (keyRS, asc "ctrl+^");
  (keyUS, asc "ctrl+_");
  (keyDEL, asc "backspace");
  (KeyRunes, asc "runes");
  (KeyUp, asc "up");
  (KeyDown, asc "down");
  (KeyRight, asc "right");
  (KeySpace, asc " ");
  (KeyLeft, asc "left");
  (KeyShiftTab, asc "shift+tab");
  (KeyHome, asc "home");
  (KeyEnd, asc "end");
  (KeyCtrlHome, asc "ctrl+home");
  (KeyCtrlEnd, asc "ctrl+end");
  (KeyShiftHome, asc "shift+home");
  (KeyShiftEnd, asc "shift+end");
  (KeyCtrlShiftHome, asc "ctrl+shift+home");
  (KeyCtrlShiftEnd, asc "ctrl+shift+end");
  (KeyPgUp, asc "pgup");
  (KeyPgDown, asc "pgdown");
  (KeyCtrlPgUp, asc "ctrl+pgup");
  (KeyCtrlPgDown, asc "ctrl+pgdown");
  (KeyDelete, asc "delete");
  (KeyInsert, asc "insert");
  (KeyCtrlUp, asc "ctrl+up");
  (KeyCtrlDown, asc "ctrl+down");
  (KeyCtrlRight, asc "ctrl+right");
  (KeyCtrlLeft, asc "ctrl+left");
  (KeyShiftUp, asc "shift+up");
  (KeyShiftDown, asc "shift+down");
  (KeyShiftRight, asc "shift+right");
  (KeyShiftLeft, asc "shift+left");
  (KeyCtrlShiftUp, asc "ctrl+shift+up");
  (KeyCtrlShiftDown, asc "ctrl+shift+down");
  (KeyCtrlShiftLeft, asc "ctrl+shift+left");
  (KeyCtrlShiftRight, asc "ctrl+shift+right");
  (KeyF1, asc "f1");
  (KeyF2, asc "f2");
  (KeyF3, asc "f3");
  (KeyF4, asc "f4");
  (KeyF5, asc "f5");
  (KeyF6, asc "f6");
  (KeyF7, asc "f7");
  (KeyF8, asc "f8");
  (KeyF9, asc "f9");
  (KeyF10, asc "f10");
  (KeyF11, asc "f11");
  (KeyF12, asc "f12");
  (KeyF13, asc "f13");
  (KeyF14, asc "f14");
  (KeyF15, asc "f15");
  (KeyF16, asc "f16");
  (KeyF17, asc "f17");
  (KeyF18, asc "f18");
  (KeyF19, asc "f19");
  (KeyF20, asc "f20")
].

(** input.go:55-60 *)
Record key := Key { k_type : Z; k_runes : list N; k_alt : bool; k_paste : bool }.

(** input.go:356-534 *)
Definition sequences : list (bytes * key) := [
  (ESC :: asc "[A", Key KeyUp [] false false);
  (ESC :: asc "[B", Key KeyDown [] false false);
  (ESC :: asc "[C", Key KeyRight [] false false);
  (ESC :: asc "[D", Key KeyLeft [] false false);
  (ESC :: asc "[1;2A", Key KeyShiftUp [] false false);
  (ESC :: asc "[1;2B", Key KeyShiftDown [] false false);
  (ESC :: asc "[1;2C", Key KeyShiftRight [] false false);
  (ESC :: asc "[1;2D", Key KeyShiftLeft [] false false);
  (ESC :: asc "[OA", Key KeyShiftUp [] false false);
  (ESC :: asc "[OB", Key KeyShiftDown [] false false);
  (ESC :: asc "[OC", Key KeyShiftRight [] false false);
  (ESC :: asc "[OD", Key KeyShiftLeft [] false false);
  (ESC :: asc "[a", Key KeyShiftUp [] false false);
  (ESC :: asc "[b", Key KeyShiftDown [] false false);
  (ESC :: asc "[c", Key KeyShiftRight [] false false);
  (ESC :: asc "[d", Key KeyShiftLeft [] false false);
  (ESC :: asc "[1;3A", Key KeyUp [] true false);
  (ESC :: asc "[1;3B", Key KeyDown [] true false);
  (ESC :: asc "[1;3C", Key KeyRight [] true false);
  (ESC :: asc "[1;3D", Key KeyLeft [] true false);
  (ESC :: asc "[1;4A", Key KeyShiftUp [] true false);
  (ESC :: asc "[1;4B", Key KeyShiftDown [] true false);
  (ESC :: asc "[1;4C", Key KeyShiftRight [] true false);
  (ESC :: asc "[1;4D", Key KeyShiftLeft [] true false);
  (ESC :: asc "[1;5A", Key KeyCtrlUp [] false false);
  (ESC :: asc "[1;5B", Key KeyCtrlDown [] false false);
  (ESC :: asc "[1;5C", Key KeyCtrlRight [] false false);
  (ESC :: asc "[1;5D", Key KeyCtrlLeft [] false false);
  (ESC :: asc "[Oa", Key KeyCtrlUp [] true false);
  (ESC :: asc "[Ob", Key KeyCtrlDown [] true false);
  (ESC :: asc "[Oc", Key KeyCtrlRight [] true false);
  (ESC :: asc "[Od", Key KeyCtrlLeft [] true false);
  (ESC :: asc "[1;6A", Key KeyCtrlShiftUp [] false false);
  (ESC :: asc "[1;6B", Key KeyCtrlShiftDown [] false false);
  (ESC :: asc "[1;6C", Key KeyCtrlShiftRight [] false false);
  (ESC :: asc "[1;6D", Key KeyCtrlShiftLeft [] false false);
  (ESC :: asc "[1;7A", Key KeyCtrlUp [] true false);
  (ESC :: asc "[1;7B", Key KeyCtrlDown [] true false);
  (ESC :: asc "[1;7C", Key KeyCtrlRight [] true false);
  (ESC :: asc "[1;7D", Key KeyCtrlLeft [] true false);
  (ESC :: asc "[1;8A", Key KeyCtrlShiftUp [] true false);
  (ESC :: asc "[1;8B", Key KeyCtrlShiftDown [] true false);
  (ESC :: asc "[1;8C", Key KeyCtrlShiftRight [] true false);
  (ESC :: asc "[1;8D", Key KeyCtrlShiftLeft [] true false);
  (ESC :: asc "[Z", Key KeyShiftTab [] false false);
  (ESC :: asc "[2~", Key KeyInsert [] false false);
  (ESC :: asc "[3;2~", Key KeyInsert [] true false);
  (ESC :: asc "[3~", Key KeyDelete [] false false);
  (ESC :: asc "[3;3~", Key KeyDelete [] true false);
  (ESC :: asc "[5~", Key KeyPgUp [] false false);
  (ESC :: asc "[5;3~", Key KeyPgUp [] true false);
  (ESC :: asc "[5;5~", Key KeyCtrlPgUp [] false false);
  (ESC :: asc "[5^", Key KeyCtrlPgUp [] false false);
  (ESC :: asc "[5;7~", Key KeyCtrlPgUp [] true false);
  (ESC :: asc "[6~", Key KeyPgDown [] false false);
  (ESC :: asc "[6;3~", Key KeyPgDown [] true false);
  (ESC :: asc "[6;5~", Key KeyCtrlPgDown [] false false);
  (ESC :: asc "[6^", Key KeyCtrlPgDown [] false false);
  (ESC :: asc "[6;7~", Key KeyCtrlPgDown [] true false);
  (ESC :: asc "[1~", Key KeyHome [] false false);
  (ESC :: asc "[H", Key KeyHome [] false false);
  (ESC :: asc "[1;3H", Key KeyHome [] true false);
  (ESC :: asc "[1;5H", Key KeyCtrlHome [] false false);
  (ESC :: asc "[1;7H", Key KeyCtrlHome [] true false);
  (ESC :: asc "[1;2H", Key KeyShiftHome [] false false);
  (ESC :: asc "[1;4H", Key KeyShiftHome [] true false);
  (ESC :: asc "[1;6H", Key KeyCtrlShiftHome [] false false);
  (ESC :: asc "[1;8H", Key KeyCtrlShiftHome [] true false);
  (ESC :: asc "[4~", Key KeyEnd [] false false);
  (ESC :: asc "[F", Key KeyEnd [] false false);
  (ESC :: asc "[1;3F", Key KeyEnd [] true false);
  (ESC :: asc "[1;5F", Key KeyCtrlEnd [] false false);
  (ESC :: asc "[1;7F", Key KeyCtrlEnd [] true false);
  (ESC :: asc "[1;2F", Key KeyShiftEnd [] false false);
  (ESC :: asc "[1;4F", Key KeyShiftEnd [] true false);
  (ESC :: asc "[1;6F", Key KeyCtrlShiftEnd [] false false);
  (ESC :: asc "[1;8F", Key KeyCtrlShiftEnd [] true false);
  (ESC :: asc "[7~", Key KeyHome [] false false);
  (ESC :: asc "[7^", Key KeyCtrlHome [] false false);
  (ESC :: asc "[7$", Key KeyShiftHome [] false false);
  (ESC :: asc "[7@", Key KeyCtrlShiftHome [] false false);
  (ESC :: asc "[8~", Key KeyEnd [] false false);
  (ESC :: asc "[8^", Key KeyCtrlEnd [] false false);
  (ESC :: asc "[8$", Key KeyShiftEnd [] false false);
  (ESC :: asc "[8@", Key KeyCtrlShiftEnd [] false false);
  (ESC :: asc "[[A", Key KeyF1 [] false false);
  (ESC :: asc "[[B", Key KeyF2 [] false false);
  (ESC :: asc "[[C", Key KeyF3 [] false false);
  (ESC :: asc "[[D", Key KeyF4 [] false false);
  (ESC :: asc "[[E", Key KeyF5 [] false false);
  (ESC :: asc "OP", Key KeyF1 [] false false);
  (ESC :: asc "OQ", Key KeyF2 [] false false);
  (ESC :: asc "OR", Key KeyF3 [] false false);
  (ESC :: asc "OS", Key KeyF4 [] false false);
  (ESC :: asc "[1;3P", Key KeyF1 [] true false);
  (ESC :: asc "[1;3Q", Key KeyF2 [] true false);
  (ESC :: asc "[1;3R", Key KeyF3 [] true false);
  (ESC :: asc "[1;3S", Key KeyF4 [] true false);
  (ESC :: asc "[11~", Key KeyF1 [] false false);
  (ESC :: asc "[12~", Key KeyF2 [] false false);
  (ESC :: asc "[13~", Key KeyF3 [] false false);
  (ESC :: asc "[14~", Key KeyF4 [] false false);
  (ESC :: asc "[15~", Key KeyF5 [] false false);
  (ESC :: asc "[15;3~", Key KeyF5 [] true false);
  (ESC :: asc "[17~", Key KeyF6 [] false false);
  (ESC :: asc "[18~", Key KeyF7 [] false false);
  (ESC :: asc "[19~", Key KeyF8 [] false false);
  (ESC :: asc "[20~", Key KeyF9 [] false false);
  (ESC :: asc "[21~", Key KeyF10 [] false false);
  (ESC :: asc "[17;3~", Key KeyF6 [] true false);
  (ESC :: asc "[18;3~", Key KeyF7 [] true false);
  (ESC :: asc "[19;3~", Key KeyF8 [] true false);
  (ESC :: asc "[20;3~", Key KeyF9 [] true false);
  (ESC :: asc "[21;3~", Key KeyF10 [] true false);
  (ESC :: asc "[23~", Key KeyF11 [] false false);
  (ESC :: asc "[24~", Key KeyF12 [] false false);
  (ESC :: asc "[23;3~", Key KeyF11 [] true false);
  (ESC :: asc "[24;3~", Key KeyF12 [] true false);
  (ESC :: asc "[1;2P", Key KeyF13 [] false false);
  (ESC :: asc "[1;2Q", Key KeyF14 [] false false);
  (ESC :: asc "[25~", Key KeyF13 [] false false);
  (ESC :: asc "[26~", Key KeyF14 [] false false);
  (ESC :: asc "[25;3~", Key KeyF13 [] true false);
  (ESC :: asc "[26;3~", Key KeyF14 [] true false);
  (ESC :: asc "[1;2R", Key KeyF15 [] false false);
  (ESC :: asc "[1;2S", Key KeyF16 [] false false);
  (ESC :: asc "[28~", Key KeyF15 [] false false);
  (ESC :: asc "[29~", Key KeyF16 [] false false);
  (ESC :: asc "[28;3~", Key KeyF15 [] true false);
  (ESC :: asc "[29;3~", Key KeyF16 [] true false);
  (ESC :: asc "[15;2~", Key KeyF17 [] false false);
  (ESC :: asc "[17;2~", Key KeyF18 [] false false);
  (ESC :: asc "[18;2~", Key KeyF19 [] false false);
  (ESC :: asc "[19;2~", Key KeyF20 [] false false);
  (ESC :: asc "[31~", Key KeyF17 [] false false);
  (ESC :: asc "[32~", Key KeyF18 [] false false);
  (ESC :: asc "[33~", Key KeyF19 [] false false);
  (ESC :: asc "[34~", Key KeyF20 [] false false);
  (ESC :: asc "OA", Key KeyUp [] false false);
  (ESC :: asc "OB", Key KeyDown [] false false);
  (ESC :: asc "OC", Key KeyRight [] false false);
  (ESC :: asc "OD", Key KeyLeft [] false false)
].
