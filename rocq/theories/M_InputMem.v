(** The state of an input as it lies in memory: its text is a Go slice, so several states can look at one array. The text of a
    state as a list is in M_Input; here the same calls are modelled with the writes they make. *)
From Verif Require Import Base M_Geom M_Style M_Uniseg M_Buffer M_Text M_Block M_Slice M_List M_Reflow M_Input.
From Coq Require Import ZArith NArith List Bool Arith.
Import ListNotations.
Open Scope Z_scope.

(** Memory: the arrays made so far, each a list of its places (as many as its capacity; places not written yet hold the zero
    grapheme). A slice: its array, where it starts in it, and its length. As in M_Input a grapheme is its symbol. *)
Definition memory := list (list str).
Record window := Window { wi_array : nat; wi_from : nat; wi_len : nat }.
Definition view (m : memory) (w : window) : list str := firstn (wi_len w) (skipn (wi_from w) (nth (wi_array w) m [])).
Definition capacity (m : memory) (w : window) : nat := (length (nth (wi_array w) m []) - wi_from w)%nat.
(** A nil slice: array 0 has no place. *)
Definition nil_window : window := Window 0 0 0.
Definition no_memory : memory := [[]].

(** Go's copy of [xs] to the place [i] of an array; what does not fit is dropped. *)
Definition overwrite (a : list str) (i : nat) (xs : list str) : list str :=
  firstn i a ++ firstn (length a - i) xs ++ skipn (i + length xs) a.
Fixpoint set_array (m : memory) (n : nat) (a : list str) : memory :=
  match m, n with [], _ => [] | _ :: m, O => a :: m | b :: m, S n => b :: set_array m n a end.
Definition copy_to (m : memory) (arr i : nat) (xs : list str) : memory := set_array m arr (overwrite (nth arr m []) i xs).

Section Grow.
(** The capacity that the runtime chooses for a new array, from the old capacity and the needed one. *)
Variable grow : nat -> nat -> nat.

(** Go's append: in place while the capacity lasts, else in a new array. *)
Definition append (m : memory) (w : window) (xs : list str) : memory * window :=
  let n := (wi_len w + length xs)%nat in
  if (n <=? capacity m w)%nat then (copy_to m (wi_array w) (wi_from w + wi_len w) xs, Window (wi_array w) (wi_from w) n)
  else (m ++ [view m w ++ xs ++ repeat [] (grow (capacity m w) n - n)], Window (length m) 0 n).

(** [s[:i]] and [s[i:]] for an [i] within the length *)
Definition upto (w : window) (i : nat) : window := Window (wi_array w) (wi_from w) i.
Definition from (w : window) (i : nat) : window := Window (wi_array w) (wi_from w + i) (wi_len w - i).

(** slices.Insert (Go 1.22) of one element: appended at the end; in a new array when there is no room; else what follows is
    moved by one place first. *)
Definition insert (m : memory) (w : window) (i : Z) (v : str) : outcome (memory * window) :=
  if (i <? 0) || (i >? Z.of_nat (wi_len w)) then Panic
  else
    let i := Z.to_nat i in
    let n := wi_len w in
    if (i =? n)%nat then Ret (append m w [v])
    else if (capacity m w <? n + 1)%nat then
      let (m1, w2) := append m (upto w i) (repeat [] (n + 1 - i)) in
      let m2 := copy_to m1 (wi_array w2) (wi_from w2 + i) [v] in
      let m3 := copy_to m2 (wi_array w2) (wi_from w2 + i + 1) (view m2 (from w i)) in
      Ret (m3, w2)
    else
      let m1 := copy_to m (wi_array w) (wi_from w + i + 1) (view m (from w i)) in
      let m2 := copy_to m1 (wi_array w) (wi_from w + i) [v] in
      Ret (m2, Window (wi_array w) (wi_from w) (n + 1)).

(** state.go:14-21 *)
Record mstate := MState { ms_cursor : Z; ms_show : bool; ms_text : window; ms_offset : Z }.
(** state.go:23-27 *)
Definition new_mstate : mstate := MState 0 true nil_window 0.
(** state.go:33-36 *)
Definition ms_set_cursor (s : mstate) (c : Z) : mstate :=
  MState (clamp_cursor (Z.of_nat (wi_len (ms_text s))) c) (ms_show s) (ms_text s) (ms_offset s).
(** state.go:38-40 *)
Definition ms_show_cursor (s : mstate) (show : bool) : mstate := MState (ms_cursor s) show (ms_text s) (ms_offset s).
(** state.go:42-57 *)
Definition ms_left (s : mstate) : mstate := ms_set_cursor s (ms_cursor s - 1).
Definition ms_right (s : mstate) : mstate := ms_set_cursor s (ms_cursor s + 1).
Definition ms_begin (s : mstate) : mstate := let s := ms_set_cursor s 0 in MState (ms_cursor s) (ms_show s) (ms_text s) 0.
Definition ms_end (s : mstate) : mstate := ms_set_cursor s (Z.of_nat (wi_len (ms_text s))).
(** state.go:59-66 *)
Definition ms_append (u : uniseg) (m : memory) (s : mstate) (content : str) : outcome (memory * mstate) :=
  ofold (fun (ms : memory * mstate) c =>
    let (m, s) := ms in
    let! (m, t) := insert m (ms_text s) (ms_cursor s) c in
    Ret (m, ms_right (MState (ms_cursor s) (ms_show s) t (ms_offset s)))) (clusters u content) (m, s).
(** state.go:68-71: the slice becomes nil, nothing is written *)
Definition ms_delete_line (s : mstate) : mstate := MState 0 (ms_show s) nil_window (ms_offset s).
(** state.go:182-188 *)
Definition ms_under (m : memory) (s : mstate) : outcome str :=
  if (Z.of_nat (wi_len (ms_text s)) =? 0) || (ms_cursor s =? 0) then Ret [] else index_at (view m (ms_text s)) (ms_cursor s - 1).
(** state.go:204-217: [before] and [after] are parts of the slice of the state (or nil) *)
Definition ms_split (m : memory) (s : mstate) : outcome (window * str * window) :=
  if (Z.of_nat (wi_len (ms_text s)) =? 0) || (ms_cursor s =? 0) then Ret (nil_window, [], ms_text s)
  else
    let! under := index_at (view m (ms_text s)) (ms_cursor s - 1) in
    Ret (upto (ms_text s) (Z.to_nat (ms_cursor s - 1)), under,
         if Z.of_nat (wi_len (ms_text s)) >? ms_cursor s then from (ms_text s) (Z.to_nat (ms_cursor s)) else nil_window).
(** state.go:93-102: the loop; it shortens [before] by one at each turn, [k] is its length *)
Fixpoint ms_delete_loop (cond : str -> bool) (m : memory) (len : Z) (before : window) (k : nat) (current : str) (cursor : Z) : nat * str * Z :=
  if cond current then
    match k with
    | O => (O, [], cursor)
    | S k' => ms_delete_loop cond m len before k' (nth k' (view m before) []) (clamp_cursor len (cursor - 1))
    end
  else (k, current, cursor).
(** state.go:88-106: the first append writes one place, then the second copies what [after] shows now *)
Definition ms_delete_while (m : memory) (s : mstate) (cond : str -> bool) : outcome (memory * mstate) :=
  let! (before, under, after) := ms_split m s in
  let '(k, current, cursor) := ms_delete_loop cond m (Z.of_nat (wi_len (ms_text s))) before (wi_len before) under (ms_cursor s) in
  let (m1, t1) := append m (upto before k) [current] in
  let (m2, t2) := append m1 t1 (view m1 after) in
  Ret (m2, MState cursor (ms_show s) t2 (ms_offset s)).
(** state.go:73-86 *)
Definition ms_delete_word (m : memory) (s : mstate) : outcome (memory * mstate) :=
  let! current := ms_under m s in
  if is_empty_str current then Ret (m, s)
  else
    let! (m, s) := (if is_whitespace current then ms_delete_while m s is_whitespace else Ret (m, s)) in
    ms_delete_while m s (fun g => negb (is_empty_str g) && negb (is_whitespace g)).
(** state.go:108-113 *)
Definition ms_delete_under (m : memory) (s : mstate) : outcome (memory * mstate) :=
  let! (before, _, after) := ms_split m s in
  let (m, t) := append m before (view m after) in
  Ret (m, ms_left (MState (ms_cursor s) (ms_show s) t (ms_offset s))).
(** state.go:132-173 *)
Definition ms_update (u : uniseg) (m : memory) (s : mstate) (k : input_key) : outcome (memory * mstate) :=
  match k with
  | IKLeft => Ret (m, ms_left s)
  | IKShiftLeft | IKShiftRight | IKOther => Ret (m, s)
  | IKRight => Ret (m, ms_right s)
  | IKBackspace | IKDelete => ms_delete_under m s
  | IKCtrlA => Ret (m, ms_begin s)
  | IKCtrlE => Ret (m, ms_end s)
  | IKCtrlW => ms_delete_word m s
  | IKRunes t | IKSpace t => ms_append u m s t
  end.
(** input.go:119-132 with 156-171, as far as the state and the memory go: the bounds are computed from the text, the offset is
    stored in the state, and [split] appends the cluster under the cursor to what is before it, in the array of the text.
    Nothing is appended when nothing but empty clusters is in view. The window handed to [split] is
    Take(Skip(text, offset), last - first). *)
Definition ms_draw (u : uniseg) (i : input) (width : Z) (m : memory) (s : mstate) : outcome (memory * mstate) :=
  let max_w := width - string_width u (ip_prompt i) - 1 in
  let! (first, last) := get_bounds (map (string_width u) (view m (ms_text s))) (ms_cursor s) (ms_offset s) max_w in
  let s := MState (ms_cursor s) (ms_show s) (ms_text s) first in
  let len := Z.of_nat (wi_len (ms_text s)) in
  let! rest := (if first >=? len then Ret nil_window else if first <? 0 then Panic else Ret (from (ms_text s) (Z.to_nat first))) in
  let n := Z.min (last - first) (Z.of_nat (wi_len rest)) in
  let! shown := (if n <? 0 then Panic else Ret (upto rest (Z.to_nat n))) in
  let temp := MState (ms_cursor s - ms_offset s) false shown (ms_offset s) in
  if forallb is_empty_str (view m shown) then Ret (m, s)
  else
    let! (before, under, _) := ms_split m temp in
    let (m, _) := append m before [under] in
    Ret (m, s).

(** The calls a program makes on the states it holds: it makes a new state, it copies the value of state [k] (by an assignment or
    by passing its model by value), it edits state [k], it draws state [k]. New states and copies get the next number. *)
Inductive input_edit := EdLeft | EdRight | EdBegin | EdEnd | EdAppend (s : str) | EdDeleteUnder | EdDeleteWord | EdDeleteLine
                      | EdShow (v : bool) | EdKey (k : input_key) | EdDraw (i : input) (width : Z).
Inductive call := MakeState | CopyState (k : nat) | Edit (k : nat) (e : input_edit).
Definition ms_edit (u : uniseg) (m : memory) (s : mstate) (e : input_edit) : outcome (memory * mstate) :=
  match e with
  | EdLeft => Ret (m, ms_left s) | EdRight => Ret (m, ms_right s) | EdBegin => Ret (m, ms_begin s) | EdEnd => Ret (m, ms_end s)
  | EdAppend t => ms_append u m s t | EdDeleteUnder => ms_delete_under m s | EdDeleteWord => ms_delete_word m s
  | EdDeleteLine => Ret (m, ms_delete_line s) | EdShow v => Ret (m, ms_show_cursor s v)
  | EdKey k => ms_update u m s k
  | EdDraw i width => ms_draw u i width m s
  end.

Record held := Held { h_memory : memory; h_states : list mstate }.
Definition nothing_held : held := Held no_memory [].
Fixpoint set_state (l : list mstate) (k : nat) (s : mstate) : list mstate :=
  match l, k with [], _ => [] | _ :: l, O => s :: l | x :: l, S k => x :: set_state l k s end.
(** A call on a state that is not there does nothing. *)
Definition do_call (u : uniseg) (h : held) (c : call) : outcome held :=
  match c with
  | MakeState => Ret (Held (h_memory h) (h_states h ++ [new_mstate]))
  | CopyState k => Ret (match nth_error (h_states h) k with Some s => Held (h_memory h) (h_states h ++ [s]) | None => h end)
  | Edit k e =>
    match nth_error (h_states h) k with
    | Some s => let! (m, s) := ms_edit u (h_memory h) s e in Ret (Held m (set_state (h_states h) k s))
    | None => Ret h
    end
  end.
Definition do_calls (u : uniseg) (cs : list call) : outcome held := ofold (do_call u) cs nothing_held.
End Grow.

(** A state as its user sees it: String() and where the cursor is. *)
Definition as_seen (m : memory) (s : mstate) : input_state := IState (ms_cursor s) (ms_show s) (view m (ms_text s)) (ms_offset s).
