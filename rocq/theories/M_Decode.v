(** Model of the terminal input decoder (input.go) and of mouse events (mouse.go). *)
From Verif Require Import Base M_Utf8 M_KeyTable.
From Coq Require Import ZArith NArith String Ascii List Bool.
Import ListNotations.
Open Scope Z_scope.

(** *** mouse.go *)

(** mouse.go:17-25; actions and buttons are the integers of mouse.go:71-116 *)
Record mouse := Mouse { m_x : Z; m_y : Z; m_shift : bool; m_alt : bool; m_ctrl : bool; m_action : Z; m_button : Z }.
Definition ActionPress : Z := 0.
Definition ActionRelease : Z := 1.
Definition ActionMotion : Z := 2.
Definition ButtonNone : Z := 0.
Definition ButtonLeft : Z := 1.
Definition ButtonMiddle : Z := 2.
Definition ButtonRight : Z := 3.
Definition ButtonWheelUp : Z := 4.
Definition ButtonWheelDown : Z := 5.
Definition ButtonWheelLeft : Z := 6.
Definition ButtonWheelRight : Z := 7.
Definition ButtonBackward : Z := 8.
Definition ButtonForward : Z := 9.
Definition Button10 : Z := 10.
Definition Button11 : Z := 11.

(** mouse.go:28-31 *)
Definition is_wheel (button : Z) : bool :=
  (button =? ButtonWheelUp) || (button =? ButtonWheelDown) || (button =? ButtonWheelLeft) || (button =? ButtonWheelRight).

(** mouse.go:199-241; ints are modelled by unbounded integers, on which [Z.land] is two's complement *)
Definition parse_mouse_button (b : Z) (is_sgr : bool) : mouse :=
  let e := if is_sgr then b else b - 32 in
  let bit k := negb (Z.land e k =? 0) in
  let '(button, action) :=
    if bit 128 then (ButtonBackward + Z.land e 3, ActionPress)
    else if bit 64 then (ButtonWheelUp + Z.land e 3, ActionPress)
    else if Z.land e 3 =? 3 then (ButtonNone, ActionRelease)
    else (ButtonLeft + Z.land e 3, ActionPress) in
  let action := if bit 32 && negb (is_wheel button) then ActionMotion else action in
  Mouse 0 0 (bit 4) (bit 8) (bit 16) action button.

(** mouse.go:187-196; the caller guarantees six bytes *)
Definition parse_x10 (b0 b1 b2 : N) : mouse :=
  let m := parse_mouse_button (Z.of_N b0) false in
  Mouse (Z.of_N b1 - 32 - 1) (Z.of_N b2 - 32 - 1) (m_shift m) (m_alt m) (m_ctrl m) (m_action m) (m_button m).

Definition is_dig (b : N) : bool := in_range 48 b 57.
Fixpoint take_digits (s : bytes) : bytes * bytes :=
  match s with
  | c :: t => if is_dig c then let (d, r) := take_digits t in (c :: d, r) else ([], s)
  | [] => ([], [])
  end.

(** The submatches of a match of mouseSGRRegex and the length of the match. *)
Record sgr_match := SgrMatch { g_b : bytes; g_x : bytes; g_y : bytes; g_final : N; g_end : nat }.
(** input.go:613: (\d+);(\d+);(\d+)([Mm]) at the start of [s]. Greedy runs of digits are the only possible ones since no digit
    may follow them. *)
Definition sgr_at (s : bytes) : option sgr_match :=
  match take_digits s with
  | (d1, 59%N :: r) =>
      match take_digits r with
      | (d2, 59%N :: r) =>
          match take_digits r with
          | (d3, f :: _) =>
              if (f =? 77)%N || (f =? 109)%N then
                match d1, d2, d3 with
                | _ :: _, _ :: _, _ :: _ => Some (SgrMatch d1 d2 d3 f (length d1 + 1 + length d2 + 1 + length d3 + 1))
                | _, _, _ => None
                end
              else None
          | _ => None
          end
      | _ => None
      end
  | _ => None
  end.
(** The leftmost match: the regular expression is not anchored. *)
Fixpoint sgr_find (s : bytes) : option sgr_match :=
  match sgr_at s with
  | Some g => Some g
  | None => match s with
            | [] => None
            | _ :: t => match sgr_find t with Some g => Some (SgrMatch (g_b g) (g_x g) (g_y g) (g_final g) (S (g_end g))) | None => None end
            end
  end.
Definition max_int : Z := 2 ^ 63 - 1.
(** strconv.Atoi of a non-empty string of digits, the error ignored: out of range gives the largest int *)
Definition atoi (d : bytes) : Z := Z.min max_int (fold_left (fun v c => 10 * v + (Z.of_N c - 48)) d 0).

(** mouse.go:146-174; [s] is buf[3:] *)
Definition parse_sgr (s : bytes) : outcome mouse :=
  match sgr_find s with
  | None => Panic
  | Some g =>
      let m := parse_mouse_button (atoi (g_b g)) true in
      let release := (g_final g =? 109)%N in
      let action := if negb (m_action m =? ActionMotion) && negb (is_wheel (m_button m)) && release then ActionRelease else m_action m in
      Ret (Mouse (atoi (g_x g) - 1) (atoi (g_y g) - 1) (m_shift m) (m_alt m) (m_ctrl m) action (m_button m))
  end.

(** *** Messages *)

(** The messages detectOneMsg produces: KeyMsg, MouseMsg, FocusMsg, BlurMsg, unknownInputByteMsg, unknownCSISequenceMsg. *)
Inductive msg :=
| KeyMsg (k : key)
| MouseMsg (m : mouse)
| FocusMsg
| BlurMsg
| UnknownByte (b : N)
| UnknownCSI (s : bytes).

(** *** Key sequences *)

Definition bytes_eqb (a b : bytes) : bool := if list_eq_dec N.eq_dec a b then true else false.
(** A Go map with string keys: the latest binding first. *)
Definition kmap := list (bytes * key).
Fixpoint kget (m : kmap) (s : bytes) : option key :=
  match m with [] => None | (t, k) :: r => if bytes_eqb t s then Some k else kget r s end.

Definition with_alt (k : key) : key := Key (k_type k) (k_runes k) true (k_paste k).

(** input.go:805-815: for i := keyNUL + 1; i <= keyDEL; i++ *)
Fixpoint control_loop (fuel : nat) (i : Z) (s : kmap) : kmap :=
  match fuel with
  | O => s
  | S f =>
      if i <=? keyDEL then
        if i =? keyESC then control_loop f (i + 1) s
        else
          let s := ([Z.to_N i], Key i [] false false) :: s in
          let s := ([ESC; Z.to_N i], Key i [] true false) :: s in
          let i := if i =? keyUS then keyDEL - 1 else i in
          control_loop f (i + 1) s
      else s
  end.
(** input.go:795-819; [order] is the order in which range visits the map [sequences] *)
Definition ext_sequences (order : list (bytes * key)) : kmap :=
  let s := fold_left (fun s sk =>
             let '(seq, k) := sk in
             let s := (seq, k) :: s in
             if negb (k_alt k) then (ESC :: seq, with_alt k) :: s else s) order [] in
  let s := control_loop 128 (keyNUL + 1) s in
  let s := (asc " ", Key KeySpace [32%N] false false) :: s in
  let s := (ESC :: asc " ", Key KeySpace [32%N] true false) :: s in
  ([ESC; ESC], Key KeyEscape [] true false) :: s.

Fixpoint insert_desc (n : nat) (l : list nat) : list nat :=
  match l with [] => [n] | m :: r => if (m <? n)%nat then n :: l else m :: insert_desc n r end.
Definition sort_desc (l : list nat) : list nat := fold_right insert_desc [] l.
(** input.go:777-789; [keys] are the keys of extSequences in the order range visits them *)
Definition seq_lengths (keys : list bytes) : list nat := sort_desc (nodup Nat.eq_dec (map (@length N) keys)).

Fixpoint take_while (f : N -> bool) (s : bytes) : bytes * bytes :=
  match s with c :: t => if f c then let (d, r) := take_while f t in (c :: d, r) else ([], s) | [] => ([], []) end.
(** input.go:612: ^\x1b\[[\x30-\x3f]*[\x20-\x2f]*[\x40-\x7e]; the three classes are disjoint, so the greedy runs are the only
    possible ones. The length of the match. *)
Definition csi_match (s : bytes) : option nat :=
  match s with
  | 27%N :: 91%N :: r =>
      let (p, r) := take_while (fun c => in_range 48 c 63) r in
      let (q, r) := take_while (fun c => in_range 32 c 47) r in
      match r with
      | f :: _ => if in_range 64 f 126 then Some (2 + length p + length q + 1)%nat else None
      | [] => None
      end
  | _ => None
  end.

(** input.go:825-834, the loop over seqLengths *)
Fixpoint known_prefix (seqs : kmap) (sizes : list nat) (input : bytes) : option (nat * key) :=
  match sizes with
  | [] => None
  | sz :: r =>
      if (length input <? sz)%nat then known_prefix seqs r input
      else match kget seqs (firstn sz input) with
           | Some k => Some (sz, k)
           | None => known_prefix seqs r input
           end
  end.
(** input.go:823-841 *)
Definition detect_sequence (seqs : kmap) (sizes : list nat) (input : bytes) : option (nat * msg) :=
  match known_prefix seqs sizes input with
  | Some (w, k) => Some (w, KeyMsg k)
  | None => match csi_match input with
            | Some w => Some (w, UnknownCSI (firstn w input))
            | None => None
            end
  end.

(** *** Focus and paste *)

(** input.go:721-729 *)
Definition detect_report_focus (input : bytes) : option (nat * msg) :=
  if bytes_eqb input (ESC :: asc "[I") then Some (3%nat, FocusMsg)
  else if bytes_eqb input (ESC :: asc "[O") then Some (3%nat, BlurMsg)
  else None.

Definition bp_start : bytes := ESC :: asc "[200~".
Definition bp_end : bytes := ESC :: asc "[201~".
Definition has_prefix (p s : bytes) : bool := bytes_eqb (firstn (length p) s) p.
(** bytes.Index *)
Fixpoint index_of (p s : bytes) : option nat :=
  if has_prefix p s then Some 0%nat
  else match s with [] => None | _ :: t => option_map S (index_of p t) end.
(** input.go:764-770; the fuel is the number of bytes *)
Fixpoint paste_runes (fuel : nat) (paste : bytes) : list N :=
  match fuel, paste with
  | S f, _ :: _ => let (r, w) := decode_rune paste in
                   let rest := paste_runes f (skipn w paste) in
                   if (r =? RuneError)%N then rest else r :: rest
  | _, _ => []
  end.
(** input.go:737-773: None: no paste; Some None: unfinished *)
Definition detect_bracketed_paste (input : bytes) : option (option (nat * msg)) :=
  if has_prefix bp_start input then
    let input := skipn (length bp_start) input in
    match index_of bp_end input with
    | None => Some None
    | Some idx =>
        let paste := firstn idx input in
        Some (Some ((length bp_start + idx + length bp_end)%nat, KeyMsg (Key KeyRunes (paste_runes (length paste) paste) false true)))
    end
  else None.

(** *** One message *)

(** input.go:672-686: the runes and the number of bytes; the fuel is the number of bytes *)
Fixpoint rune_run (fuel : nat) (alt : bool) (b : bytes) : list N * nat :=
  match fuel, b with
  | S f, _ :: _ =>
      let (r, rw) := decode_rune b in
      if (r =? RuneError)%N || (r <=? Z.to_N keyUS)%N || (r =? Z.to_N keyDEL)%N || (r =? 32)%N then ([], 0%nat)
      else if alt then ([r], rw)
      else let (rs, n) := rune_run f alt (skipn rw b) in (r :: rs, (rw + n)%nat)
  | _, _ => ([], 0%nat)
  end.

(** input.go:617-631: the mouse branch; None when it does not apply *)
Definition detect_mouse (b : bytes) : outcome (option (nat * msg)) :=
  match b with
  | 27%N :: 91%N :: c :: (b0 :: b1 :: b2 :: _) as rest =>
      if (c =? 77)%N then Ret (Some (6%nat, MouseMsg (parse_x10 b0 b1 b2)))
      else if (c =? 60)%N then
        match sgr_find (skipn 3 b) with
        | Some g => let! m := parse_sgr (skipn 3 b) in Ret (Some ((g_end g + 3)%nat, MouseMsg m))
        | None => Ret None
        end
      else Ret None
  | _ => Ret None
  end.

(** input.go:616-716; [Ret None] is the answer "0 bytes, wait for more" *)
Definition detect_one_msg (seqs : kmap) (sizes : list nat) (b : bytes) (more : bool) : outcome (option (nat * msg)) :=
  let! m := detect_mouse b in
  match m with Some r => Ret (Some r) | None =>
  match detect_report_focus b with Some r => Ret (Some r) | None =>
  match detect_bracketed_paste b with Some r => Ret r | None =>
  match detect_sequence seqs sizes b with Some r => Ret (Some r) | None =>
  match b with
  | [] => Panic (* b[0] *)
  | b0 :: _ =>
      let alt := (b0 =? ESC)%N in
      let i := if alt then 1%nat else 0%nat in
      if match nth_error b i with Some 0%N => true | _ => false end then Ret (Some ((i + 1)%nat, KeyMsg (Key keyNUL [] alt false)))
      else
        let (runes, n) := rune_run (length b) alt (skipn i b) in
        let i := (i + n)%nat in
        if (length b <=? i)%nat && more then Ret None
        else match runes with
             | _ :: _ =>
                 let ty := if match runes with [32%N] => true | _ => false end then KeySpace else KeyRunes in
                 Ret (Some (i, KeyMsg (Key ty runes alt false)))
             | [] => if alt && (length b =? 1)%nat then Ret (Some (1%nat, KeyMsg (Key KeyEscape [] false false)))
                     else Ret (Some (1%nat, UnknownByte b0))
             end
  end end end end end.

(** *** Reading *)

(** input.go:585-606: the messages of one buffer, each with the bytes it covers, and what is left for the next read. The fuel
    is the number of bytes. *)
Fixpoint scan (seqs : kmap) (sizes : list nat) (fuel : nat) (b : bytes) (more : bool) : outcome (list (bytes * msg) * bytes) :=
  match b with
  | [] => Ret ([], [])
  | _ :: _ =>
      match fuel with
      | O => Ret ([], b)
      | S f =>
          let! r := detect_one_msg seqs sizes b more in
          match r with
          | None => Ret ([], b)
          | Some (w, m) => let! (ms, rest) := scan seqs sizes f (skipn w b) more in Ret ((firstn w b, m) :: ms, rest)
          end
      end
  end.

Definition read_size : nat := 256.
(** input.go:560-609: the reads of the input, one after the other, all messages being accepted; [left] is
    leftOverFromPrevIteration (nil and empty behave alike) *)
Fixpoint read_inputs (seqs : kmap) (sizes : list nat) (left : bytes) (reads : list bytes) : outcome (list (bytes * msg) * bytes) :=
  match reads with
  | [] => Ret ([], left)
  | r :: rs =>
      let b := (left ++ r)%list in
      let more := (length r =? read_size)%nat in
      let! (ms, left) := scan seqs sizes (length b) b more in
      let! (ms', left) := read_inputs seqs sizes left rs in
      Ret (ms ++ ms', left)
  end.

(** *** Names of keys *)
Fixpoint name_of (t : Z) (l : list (Z * bytes)) : option bytes :=
  match l with [] => None | (k, s) :: r => if k =? t then Some s else name_of t r end.
(** input.go:69-92 *)
Definition key_string (k : key) : bytes :=
  let a := if k_alt k then asc "alt+" else [] in
  if k_type k =? KeyRunes then
    a ++ (if k_paste k then asc "[" else []) ++ encode (k_runes k) ++ (if k_paste k then asc "]" else [])
  else match name_of (k_type k) key_names with Some s => a ++ s | None => [] end.
