(** Model of the way output takes: terminal.go and terminal_backend.go on a buffered writer whose device may fail. *)
From Verif Require Import Base M_Geom M_Style M_Uniseg M_Buffer M_Ansi M_Backend M_Utf8.
From Coq Require Import ZArith NArith List Bool.
Import ListNotations.
Open Scope Z_scope.

(** The device (os.Stdout): its answer to its k-th Write. [None]: it takes all bytes. [Some n]: it takes at most [n] bytes and reports an error.
    (io.Writer's contract: a Write that takes less than all bytes reports an error.) *)
Definition device := nat -> option nat.

(** bufio.Writer (Go's standard library), made by terminal_backend.go:55-62: the bytes not handed on yet, whether a Write has failed (the writer
    keeps its first error), the bytes the device has taken, the number of its Writes. *)
Record writer := Writer { wr_buf : bytes; wr_failed : bool; wr_sent : bytes; wr_calls : nat }.
Definition new_writer : writer := Writer [] false [] 0.
(** bufio.defaultBufSize *)
Definition buffer_size : Z := 4096.

(** A Write to the device: what it took, and whether it reported an error *)
Definition device_write (d : device) (w : writer) (p : bytes) : bytes * bool :=
  match d (wr_calls w) with
  | None => (p, false)
  | Some n => (firstn n p, true)
  end.

(** bufio.Writer.Flush *)
Definition flush (d : device) (w : writer) : writer * bool :=
  if wr_failed w then (w, false)
  else match wr_buf w with
       | [] => (w, true)
       | _ =>
           let (took, e) := device_write d w (wr_buf w) in
           if e then (Writer (skipn (length took) (wr_buf w)) true (wr_sent w ++ took) (S (wr_calls w)), false)
           else (Writer [] false (wr_sent w ++ took) (S (wr_calls w)), true)
       end.

(** The end of bufio.Writer.Write on an empty buffer: a large piece goes directly to the device, a small one to the buffer. *)
Definition write_rest (d : device) (w : writer) (p : bytes) : writer * bool :=
  if buffer_size <? zlen p then
    let (took, e) := device_write d w p in
    (Writer [] e (wr_sent w ++ took) (S (wr_calls w)), negb e)
  else (Writer p false (wr_sent w) (wr_calls w), true).

(** bufio.Writer.Write, called once per command (internal/ansi/command.go:153-157: fmt.Fprint makes one Write). The loop of the standard library
    goes round at most twice here, as the device takes all bytes or reports an error. *)
Definition write (d : device) (w : writer) (p : bytes) : writer * bool :=
  if wr_failed w then (w, false)
  else let room := buffer_size - zlen (wr_buf w) in
       if zlen p <=? room then (Writer (wr_buf w ++ p) false (wr_sent w) (wr_calls w), true)
       else match wr_buf w with
            | [] => write_rest d w p
            | _ =>
                let n := Z.to_nat room in
                let (w1, ok) := flush d (Writer (wr_buf w ++ firstn n p) false (wr_sent w) (wr_calls w)) in
                if ok then write_rest d w1 (skipn n p) else (w1, false)
            end.

(** terminal_backend.go:266-268 with 382-390: commands are written until one fails. internal/ansi/command.go:70-72: without colours nothing is written. *)
Fixpoint queue (d : device) (te : termenv) (w : writer) (l : list command) : outcome (writer * bool) :=
  match l with
  | [] => Ret (w, true)
  | SetColors None None :: l' => queue d te w l'
  | c :: l' =>
      let! s := write_ansi te c in
      let (w', ok) := write d w (encode s) in
      if ok then queue d te w' l' else Ret (w', false)
  end.

(** terminal_backend.go:270-280 *)
Definition execute (d : device) (te : termenv) (w : writer) (l : list command) : outcome (writer * bool) :=
  let! r := queue d te w l in
  let (w', ok) := r in
  if ok then Ret (flush d w') else Ret (w', false).

(** terminal.go:120-158 with Flush 189-206 and HideCursor 169-176 (frame.cursorPosition is always nil). The result of a failed draw: the widget has
    drawn, the buffers are swapped only if the output up to HideCursor got through. *)
Definition draw_out (d : device) (u : uniseg) (te : termenv) (t : terminal) (w : writer) (wd : widget) : outcome (terminal * writer * bool) :=
  let! b := wd (tm_area t) (current_buffer t) in
  let t1 := set_current t b in
  let! updates := diff u (previous_buffer t1) (current_buffer t1) in
  let! r1 := queue d te w (backend_draw te updates) in
  let (w1, ok1) := r1 in
  if negb ok1 then Ret (t1, w1, false)
  else
    let! r2 := execute d te w1 [HideCursor] in
    let (w2, ok2) := r2 in
    if negb ok2 then Ret (t1, w2, false)
    else
      let t2 := swap_buffers t1 in
      let (w3, ok3) := flush d w2 in
      if ok3 then Ret (Terminal (tm_viewport t2) (tm_area t2) (tm_buf0 t2) (tm_buf1 t2) (tm_current t2) (tm_frames t2 + 1), w3, true)
      else Ret (t2, w3, false).

(** terminal.go:225-244 with setViewportArea 288-293 and Clear 246-277, for the full-screen viewport, the only one app.go uses (app.go:127); a
    viewport of another kind is not modelled here. *)
Definition resize_out (d : device) (te : termenv) (t : terminal) (w : writer) (area : rect) : outcome (terminal * writer * bool) :=
  let! c := buffer_resize (current_buffer t) area in
  let t1 := set_current t c in
  let! p := buffer_resize (previous_buffer t1) area in
  let t2 := set_previous t1 p in
  let t3 := Terminal (tm_viewport t2) area (tm_buf0 t2) (tm_buf1 t2) (tm_current t2) (tm_frames t2) in
  let! r := execute d te w [ClearAll] in
  let (w', ok) := r in
  if ok then Ret (set_previous t3 (buffer_reset (previous_buffer t3)), w', true) else Ret (t3, w', false).

(** What a program does to a terminal: it draws, it handles a resize, it sets a mode (terminal.go:96-110, 160-187 with terminal_backend.go:64-70,
    107-131, 241-264: one command, executed). *)
Inductive term_op := OpDraw (w : widget) | OpResize (w h : Z) | OpMode (c : command).
Definition run_op (d : device) (u : uniseg) (te : termenv) (t : terminal) (w : writer) (o : term_op) : outcome (terminal * writer * bool) :=
  match o with
  | OpDraw wd => draw_out d u te t w wd
  | OpResize x y => resize_out d te t w (new_rect x y)
  | OpMode c => let! r := execute d te w [c] in let (w', ok) := r in Ret (t, w', ok)
  end.

(** A history of operations: the results reported, and the final state *)
Fixpoint run_ops (d : device) (u : uniseg) (te : termenv) (t : terminal) (w : writer) (l : list term_op) : outcome (terminal * writer * list bool) :=
  match l with
  | [] => Ret (t, w, [])
  | o :: l' =>
      let! r := run_op d u te t w o in
      let '(t', w', ok) := r in
      let! r' := run_ops d u te t' w' l' in
      let '(t'', w'', oks) := r' in
      Ret (t'', w'', ok :: oks)
  end.

(** app.go:388-398 with tty.go:26-50: restoring; [raw]: the terminal is in raw mode (terminal_backend.go:85-106; term.Restore is taken to succeed). *)
Definition restore_out (d : device) (te : termenv) (w : writer) (raw : bool) : outcome (writer * bool * bool) :=
  let! r1 := execute d te w [DisableBracketedPaste] in
  let (w1, ok1) := r1 in
  if negb ok1 then Ret (w1, raw, false)
  else
    let! r2 := execute d te w1 [ShowCursor] in
    let (w2, ok2) := r2 in
    if negb ok2 then Ret (w2, raw, false)
    else
      let! r3 := execute d te w2 [LeaveAlternateScreen] in
      let (w3, ok3) := r3 in Ret (w3, false, ok3).
(** tty.go:12-22 with app.go:376-386: the output of starting, once raw mode is on *)
Definition start_ops : list term_op := [OpMode HideCursor; OpMode EnterAlternateScreen].
