(** How a program learns the size of its terminal: signals_unix.go, signals_windows.go, tty.go:92-108, app.go:284-294, terminal_backend.go:221-239,
    and which reader the program's input gets: inputreader_windows.go:27-35, key_windows.go:15-21.

    The goroutines that ask for the size are those M_App calls GCheck, GSize and GListen; here they carry the sizes, the signals are explicit, and the rest of the
    program is reduced to a loop that takes a size message at any time. Abstracted: cancellation (the program runs on), and the time a signal takes. *)
From Verif Require Import Base.
From Coq Require Import ZArith List Bool String.
Import ListNotations.

Definition size := (Z * Z)%type.

(** terminal_backend.go:221-239: [is_file]: the output is a file; [answer]: what the system says about its size, None being an error. The results: size, whether it is
    known, and whether there was an error. *)
Definition backend_size (is_file : bool) (answer : option size) : size * bool * bool :=
  if is_file then match answer with None => ((0, 0)%Z, false, true) | Some s => (s, true, false) end
  else ((0, 0)%Z, false, false).
(** tty.go:92-107: what comes of asking: nothing, an error for the program, or a size message *)
Inductive asked := ANothing | AError | ATell (s : size).
Definition check_resize (r : size * bool * bool) : asked :=
  let '(s, ok, err) := r in if negb ok then ANothing else if err then AError else ATell s.

(** signals_unix.go:15-33: the listener before signal.Notify, waiting, about to ask, sending *)
Inductive listener := LStart | LWait | LCheck | LSend (s : size) | LGone.
(** app.go:288: the first question, asked by a goroutine of its own *)
Inductive first := FCheck | FSend (s : size) | FGone.
Record screen := Screen {
  sc_actual : size;          (* the size of the terminal *)
  sc_signal : bool;          (* a SIGWINCH is on its way *)
  sc_notified : bool;        (* signal.Notify has been called *)
  sc_chan : bool;            (* the channel of signals, which has room for one, holds one *)
  sc_listener : listener;
  sc_first : first;
  sc_told : list size        (* the sizes the program was told, latest first; the last is that of NewTerminal (terminal.go:36-44) *)
}.
Definition started (s : size) : screen := Screen s false false false LStart FCheck [s].

Inductive tick := Changed (s : size) | Quiet.
Inductive rstep : screen -> tick -> screen -> Prop :=
(* the user changes the size; the system sends a signal, or one is on its way already *)
| r_change a sg nt ch l f t s : rstep (Screen a sg nt ch l f t) (Changed s) (Screen s true nt ch l f t)
(* the signal arrives; it is lost if nobody asked for it, and joins the one in the channel if there is one *)
| r_deliver a nt ch l f t : rstep (Screen a true nt ch l f t) Quiet (Screen a false nt (nt || ch) l f t)
(* signals_unix.go:16-17 *)
| r_notify a sg nt ch f t : rstep (Screen a sg nt ch LStart f t) Quiet (Screen a sg true ch LWait f t)
(* signals_unix.go:25 *)
| r_take a sg nt f t : rstep (Screen a sg nt true LWait f t) Quiet (Screen a sg nt false LCheck f t)
(* signals_unix.go:28 with tty.go:92-107; the default backend on a file (ATell) *)
| r_ask a sg nt ch f t s : check_resize (backend_size true (Some a)) = ATell s -> rstep (Screen a sg nt ch LCheck f t) Quiet (Screen a sg nt ch (LSend s) f t)
| r_tell a sg nt ch f t s : rstep (Screen a sg nt ch (LSend s) f t) Quiet (Screen a sg nt ch LWait f (s :: t))
(* app.go:288 with tty.go:92-107 *)
| r_first_ask a sg nt ch l t s : check_resize (backend_size true (Some a)) = ATell s -> rstep (Screen a sg nt ch l FCheck t) Quiet (Screen a sg nt ch l (FSend s) t)
| r_first_tell a sg nt ch l t s : rstep (Screen a sg nt ch l (FSend s) t) Quiet (Screen a sg nt ch l FGone (s :: t)).
(** signals_windows.go:8-10: the listener does nothing *)
Inductive wstep : screen -> tick -> screen -> Prop :=
| w_gone a sg nt ch f t : wstep (Screen a sg nt ch LStart f t) Quiet (Screen a sg nt ch LGone f t)
| w_change a sg nt ch l f t s : wstep (Screen a sg nt ch l f t) (Changed s) (Screen s sg nt ch l f t)
| w_first_ask a sg nt ch l t s : check_resize (backend_size true (Some a)) = ATell s -> wstep (Screen a sg nt ch l FCheck t) Quiet (Screen a sg nt ch l (FSend s) t)
| w_first_tell a sg nt ch l t s : wstep (Screen a sg nt ch l (FSend s) t) Quiet (Screen a sg nt ch l FGone (s :: t)).

(** Several steps, with what the user did, in order. *)
Inductive runs (R : screen -> tick -> screen -> Prop) : screen -> list tick -> screen -> Prop :=
| runs_nil s : runs R s [] s
| runs_snoc s l s' e s'' : runs R s l s' -> R s' e s'' -> runs R s (l ++ [e]) s''.

(** The reader of the input on Windows (inputreader_windows.go:27-35): a console reader only if the value has the methods of term.File and is the standard input. *)
Open Scope string_scope.
Definition term_file : list string := ["Read"; "Write"; "Close"; "Fd"].
(** terminal.go: the exported methods of Terminal, which is what initCancelReader passes (tty.go:54) *)
Definition terminal_methods : list string :=
  ["Viewport"; "Input"; "Output"; "Read"; "DisableBracketedPaste"; "EnableBracketedPaste"; "EnableAlternateScreen"; "LeaveAlternateScreen"; "EnableRawMode";
   "DisableRawMode"; "Draw"; "SetCursorPosition"; "HideCursor"; "ShowCursor"; "Flush"; "GetFrame"; "CurrentBuffer"; "PreviousBuffer"; "Resize"; "Clear";
   "SwapBuffers"; "Size"].
Definition has_methods (l wanted : list string) : bool := forallb (fun m => existsb (String.eqb m) l) wanted.
Inductive reader := RConsole | ROther | RFailed.
(** inputreader_windows.go:27-52: [stdin]: it is the standard input; [handle], [prepared]: the two calls to the system succeed *)
Definition new_input_reader (methods : list string) (stdin handle prepared : bool) : reader :=
  if negb (has_methods methods term_file) || negb stdin then ROther
  else if negb handle then ROther
  else if prepared then RConsole else RFailed.
(** key_windows.go:15-21: whether the records of the console are read, not the bytes of the input *)
Definition reads_records (r : reader) : bool := match r with RConsole => true | _ => false end.
