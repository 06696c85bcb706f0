(** Model of the program runner: app.go, tty.go, signals_unix.go, and the sending side of input.go:560-609, as a transition system
    whose steps are those of the program's goroutines in any order.

    Abstracted: the model (its Update is a function, which may panic), what drawing puts on the screen (a draw succeeds, fails or
    panics at will), the bytes read (the reader's messages are given as a list, after which it sees the end of input; it may fail
    at any time), which signals arrive and whether asking for the terminal's size succeeds. A command returns at any time, or
    never. A panic in a command of a sequence is not recovered: it ends the process. Between two statements of Run that do not
    communicate there is no step. Channels are unbuffered: a send and the receive that takes it are one step. Not modelled: panics outside Update,
    drawing and commands; closeInput; time. *)
From Verif Require Import Base M_Cmd.
From Coq Require Import List Bool.
Import ListNotations.

(** Terminal modes and the operations that change them (terminal.go, terminal_backend.go). *)
Inductive mode_op := OpRaw (on : bool) | OpHide (on : bool) | OpAlt (on : bool) | OpPaste (on : bool).
Record modes := Modes { md_raw : bool; md_hidden : bool; md_alt : bool; md_paste : bool }.
Definition apply_op (o : mode_op) (m : modes) : modes :=
  match o with
  | OpRaw b => Modes b (md_hidden m) (md_alt m) (md_paste m)
  | OpHide b => Modes (md_raw m) b (md_alt m) (md_paste m)
  | OpAlt b => Modes (md_raw m) (md_hidden m) b (md_paste m)
  | OpPaste b => Modes (md_raw m) (md_hidden m) (md_alt m) b
  end.
Definition plain_modes : modes := Modes false false false false.
(** app.go:376-386 with tty.go:12-22 *)
Definition setup_ops : list mode_op := [OpRaw true; OpHide true; OpAlt true].
(** app.go:388-398 with tty.go:26-51 *)
Definition restore_ops : list mode_op := [OpPaste false; OpHide false; OpRaw false; OpAlt false].

(** Who sends a message: the reader (its k-th message), the resize listener, the command with number [id], the command at
    position i of the sequence with number [id] (j = 0), the j-th command of the batch it returned (j > 0). *)
Inductive who := WInput (k : nat) | WSize | WCmd (id : nat) | WSeq (id i j : nat).

Inductive item := IRun (c : cmd) | ISend (m : msg).
(** The goroutines besides that of Run, by where they are. *)
Inductive gor :=
| GInit (id : nat) (c : cmd)                                     (* app.go:179-186: sending the first command *)
| GHandler                                                       (* app.go:249-261: waiting for a command *)
| GRun (id : nat) (c : cmd)                                      (* app.go:276-279: running a command *)
| GSend (id : nat) (m : msg)                                     (* app.go:280 with 237-242: sending its message *)
| GSeq (id i : nat) (l : list (option cmd))                      (* app.go:320-323: next command of a sequence *)
| GSeqRun (id i : nat) (c : cmd) (l : list (option cmd))         (* app.go:325 *)
| GSeqSend (id i : nat) (m : msg) (l : list (option cmd))        (* app.go:340 *)
| GSeqBatch (id i : nat) (items : list (nat * item)) (l : list (option cmd)) (* app.go:326-337 with the group's goroutines *)
| GListen                                                        (* signals_unix.go:24-29: waiting for a signal *)
| GCheck (back : bool)                                           (* tty.go:92-96: asking for the size; [back]: called by the listener *)
| GSize (back : bool)                                            (* tty.go:107 *)
| GSizeErr (back : bool)                                         (* tty.go:98-105 *)
| GRead (k : nat)                                                (* input.go:586-606: about to deliver the k-th message *)
| GReadErr                                                       (* tty.go:71-76: sending the error *)
| GRecover                                                       (* app.go:353-362 in a command's goroutine: cancelling *)
| GRecoverWait                                                   (* app.go:364 *)
| GRecoverOps (ops : list mode_op).                              (* app.go:366 *)

Definition back_to (back : bool) : list gor := if back then [GListen] else [].
Fixpoint number (j : nat) (cs : list cmd) : list (nat * item) :=
  match cs with [] => [] | c :: r => (j, IRun c) :: number (S j) r end.

(** The goroutines Run waits for before it ends (handlers.add: app.go:177, 263, 293). *)
Definition is_handler (g : gor) : bool :=
  match g with
  | GInit _ _ | GHandler | GListen => true
  | GCheck b | GSize b | GSizeErr b => b
  | _ => false
  end.

Inductive event :=
| EReturned (id : nat) (c : cmd)   (* Init or Update returned a command (not nil) *)
| EStarted (w : who) (c : cmd)     (* a command begins to run *)
| EAccepted (w : who) (m : msg)    (* the event loop receives a message *)
| EDropped (w : who)               (* a message is given up, the context being done *)
| ESpawned (id : nat) (cs : list (option cmd)) (* a sequence begins *)
| EUpdate (m : msg)                (* the model's Update is called *)
| EDraw                            (* the screen is drawn, successfully *)
| EQuit                            (* the loop handles a quit message *)
| EFailed.                         (* putting back a terminal mode failed *)

(** app.go:328-334: the commands of a batch in a sequence start together *)
Fixpoint starts (id i j : nat) (cs : list cmd) : list event :=
  match cs with [] => [] | c :: r => EStarted (WSeq id i j) c :: starts id i (S j) r end.

Section App.
Variable M : Type.
Variable m0 : M.
Variable init_cmd : option cmd.
(** None: Update panics. *)
Variable update : M -> msg -> option (M * option cmd).
Variable inputs : list msg.

(** What one goroutine does on its own; [cancelled]: the context is done; the goroutines it leaves and the events. *)
Inductive gstep (cancelled : bool) : gor -> list gor -> list event -> Prop :=
| g_init_done id c : cancelled = true -> gstep cancelled (GInit id c) [] []
| g_handler_done : cancelled = true -> gstep cancelled GHandler [] []
| g_run id c : c_panics c = false -> gstep cancelled (GRun id c) [GSend id (c_msg c)] []
| g_run_panic id c : c_panics c = true -> gstep cancelled (GRun id c) [GRecover] []
| g_send_done id m : cancelled = true -> gstep cancelled (GSend id m) [] [EDropped (WCmd id)]
| g_seq_end id i : gstep cancelled (GSeq id i []) [] []
| g_seq_nil id i l : gstep cancelled (GSeq id i (None :: l)) [GSeq id (S i) l] []
| g_seq_start id i c l : gstep cancelled (GSeq id i (Some c :: l)) [GSeqRun id i c l] [EStarted (WSeq id i 0) c]
| g_seq_msg id i c l : c_panics c = false -> (forall cs, c_msg c <> MBatch cs) -> gstep cancelled (GSeqRun id i c l) [GSeqSend id i (c_msg c) l] []
| g_seq_batch id i c l cs : c_panics c = false -> c_msg c = MBatch cs -> gstep cancelled (GSeqRun id i c l) [GSeqBatch id i (number 1 cs) l] (starts id i 1 cs)
| g_seq_drop id i m l : cancelled = true -> gstep cancelled (GSeqSend id i m l) [GSeq id (S i) l] [EDropped (WSeq id i 0)]
| g_item_run id i l j c a b : c_panics c = false -> gstep cancelled (GSeqBatch id i (a ++ (j, IRun c) :: b) l) [GSeqBatch id i (a ++ (j, ISend (c_msg c)) :: b) l] []
| g_item_drop id i l j m a b : cancelled = true -> gstep cancelled (GSeqBatch id i (a ++ (j, ISend m) :: b) l) [GSeqBatch id i (a ++ b) l] [EDropped (WSeq id i j)]
| g_batch_end id i l : gstep cancelled (GSeqBatch id i [] l) [GSeq id (S i) l] []
| g_listen_done : cancelled = true -> gstep cancelled GListen [] []
| g_signal : gstep cancelled GListen [GCheck true] []
| g_size_unknown back : gstep cancelled (GCheck back) (back_to back) []
| g_size_known back : gstep cancelled (GCheck back) [GSize back] []
| g_size_err back : gstep cancelled (GCheck back) [GSizeErr back] []
| g_size_drop back : cancelled = true -> gstep cancelled (GSize back) (back_to back) [EDropped WSize]
| g_size_err_drop back : cancelled = true -> gstep cancelled (GSizeErr back) (back_to back) []
| g_read_end k : gstep cancelled (GRead k) [] []
| g_read_err k : gstep cancelled (GRead k) [GReadErr] []
| g_read_done k m : cancelled = true -> nth_error inputs k = Some m -> gstep cancelled (GRead k) [GReadErr] [EDropped (WInput k)]
| g_read_err_drop : cancelled = true -> gstep cancelled GReadErr [] [].

(** Sending on msgs: the sender, the message and what remains of the goroutine. *)
Inductive offers : gor -> who -> msg -> list gor -> Prop :=
| o_cmd id m : offers (GSend id m) (WCmd id) m []
| o_seq id i m l : offers (GSeqSend id i m l) (WSeq id i 0) m [GSeq id (S i) l]
| o_item id i l j m a b : offers (GSeqBatch id i (a ++ (j, ISend m) :: b) l) (WSeq id i j) m [GSeqBatch id i (a ++ b) l]
| o_size back : offers (GSize back) WSize MSize (back_to back)
| o_input k m : nth_error inputs k = Some m -> offers (GRead k) (WInput k) m [GRead (S k)].

Inductive error := EInit | EReader | EResize | EKilled | EShutdown.
(** Sending on errs. *)
Inductive offers_err : gor -> error -> list gor -> Prop :=
| oe_size back : offers_err (GSizeErr back) EResize (back_to back)
| oe_read : offers_err GReadErr EReader [].

(** The goroutine that called Run. *)
Inductive main :=
| PSetup (ops : list mode_op)          (* app.go:199-202 *)
| PDraw0                               (* app.go:205 *)
| PReader                              (* app.go:207-210 *)
| PStart                               (* app.go:213-216 *)
| PLoop (m : M)                        (* app.go:298: the select *)
| PUpdate (m : M) (x : msg)            (* app.go:346 *)
| PSendCmd (m : M) (c : option (nat * cmd))  (* app.go:347 *)
| PDraw (m : M)                        (* app.go:348 *)
| PErrSend                             (* app.go:372: sending the error of a draw *)
| PLoopEnd (m : M) (e : option error)  (* app.go:219-226 *)
| PFinalDraw (m : M)                   (* app.go:228 *)
| PCancel (r : option M)               (* app.go:362; None: recovering from a panic *)
| PWait (r : option M)                 (* app.go:364 *)
| PRestore (r : option M) (ops : list mode_op) (* app.go:366 *)
| PReturned (r : option M) (e : option error) (* app.go:197, 201, 209, 225, 231, 234: the results of Run *)
| PCrashed.                            (* the process is gone *)

Record state := State { st_main : main; st_gs : list gor; st_cancelled : bool; st_modes : modes; st_next : nat; st_log : list event }.
Definition initial : state := State (PSetup setup_ops) [] false plain_modes 0 [].

(** app.go:317-342: a sequence message starts a goroutine *)
Definition spawn_seq (next : nat) (x : msg) : list gor * list event :=
  match x with MSeq cs => ([GSeq next 0 cs], [ESpawned next cs]) | _ => ([], []) end.
Definition tag (next : nat) (c : option cmd) : option (nat * cmd) := match c with Some c => Some (next, c) | None => None end.
Definition returned (next : nat) (c : option cmd) : list event := match c with Some c => [EReturned next c] | None => [] end.

(** The log is kept with the latest event first. *)
Inductive step : state -> state -> Prop :=
| s_gor p g gs' evs l1 l2 x md n lg : gstep x g gs' evs ->
    step (State p (l1 ++ g :: l2) x md n lg) (State p (l1 ++ gs' ++ l2) x md n (evs ++ lg))
| s_cancel p gs x md n lg : step (State p gs x md n lg) (State p gs true md n lg)
| s_recover p l1 l2 x md n lg : step (State p (l1 ++ GRecover :: l2) x md n lg) (State p (l1 ++ GRecoverWait :: l2) true md n lg)
| s_recover_wait p l1 l2 x md n lg : existsb is_handler (l1 ++ l2) = false ->
    step (State p (l1 ++ GRecoverWait :: l2) x md n lg) (State p (l1 ++ GRecoverOps restore_ops :: l2) x md n lg)
| s_recover_op p o ops l1 l2 x md n lg :
    step (State p (l1 ++ GRecoverOps (o :: ops) :: l2) x md n lg) (State p (l1 ++ GRecoverOps ops :: l2) x (apply_op o md) n lg)
| s_recover_end p ops l1 l2 x md n lg : step (State p (l1 ++ GRecoverOps ops :: l2) x md n lg) (State p (l1 ++ l2) x md n lg)
| s_crash_seq p id i c l l1 l2 x md n lg : c_panics c = true ->
    step (State p (l1 ++ GSeqRun id i c l :: l2) x md n lg) (State PCrashed [] x md n lg)
| s_crash_item p id i l j c a b l1 l2 x md n lg : c_panics c = true ->
    step (State p (l1 ++ GSeqBatch id i (a ++ (j, IRun c) :: b) l :: l2) x md n lg) (State PCrashed [] x md n lg)
| s_setup o ops gs x md n lg : step (State (PSetup (o :: ops)) gs x md n lg) (State (PSetup ops) gs x (apply_op o md) n lg)
| s_setup_err ops gs x md n lg : step (State (PSetup ops) gs x md n lg) (State (PReturned (Some m0) (Some EInit)) gs x md n lg)
| s_init gs x md n lg : step (State (PSetup []) gs x md n lg)
    (State PDraw0 (match init_cmd with Some c => GInit n c :: gs | None => gs end) x md (S n) (returned n init_cmd ++ lg))
| s_draw0 gs x md n lg : step (State PDraw0 gs x md n lg) (State PReader gs x md n (EDraw :: lg))
| s_draw0_err gs x md n lg : step (State PDraw0 gs x md n lg) (State PErrSend gs x md n lg)
| s_draw0_panic gs x md n lg : step (State PDraw0 gs x md n lg) (State (PCancel None) gs x md n lg)
| s_reader gs x md n lg : step (State PReader gs x md n lg) (State PStart (GRead 0 :: gs) x md n lg)
| s_reader_err gs x md n lg : step (State PReader gs x md n lg) (State (PReturned (Some m0) (Some EInit)) gs x md n lg)
| s_start gs x md n lg : step (State PStart gs x md n lg) (State (PLoop m0) (GCheck false :: GListen :: GHandler :: gs) x md n lg)
| s_loop_done m gs md n lg : step (State (PLoop m) gs true md n lg) (State (PLoopEnd m None) gs true md n lg)
| s_loop_err m g e gs' l1 l2 x md n lg : offers_err g e gs' ->
    step (State (PLoop m) (l1 ++ g :: l2) x md n lg) (State (PLoopEnd m (Some e)) (l1 ++ gs' ++ l2) x md n lg)
| s_loop_nil m g w gs' l1 l2 x md n lg : offers g w MNil gs' ->
    step (State (PLoop m) (l1 ++ g :: l2) x md n lg) (State (PLoop m) (l1 ++ gs' ++ l2) x md n (EAccepted w MNil :: lg))
| s_loop_quit m g w gs' l1 l2 x md n lg : offers g w MQuit gs' ->
    step (State (PLoop m) (l1 ++ g :: l2) x md n lg) (State (PLoopEnd m None) (l1 ++ gs' ++ l2) x md n (EQuit :: EAccepted w MQuit :: lg))
| s_loop_resize_err m g w gs' l1 l2 x md n lg : offers g w MSize gs' ->
    step (State (PLoop m) (l1 ++ g :: l2) x md n lg) (State (PLoopEnd m (Some EResize)) (l1 ++ gs' ++ l2) x md n (EAccepted w MSize :: lg))
| s_loop_msg m g w y gs' l1 l2 x md n lg : offers g w y gs' -> y <> MNil -> y <> MQuit ->
    step (State (PLoop m) (l1 ++ g :: l2) x md n lg)
         (State (PUpdate m y) (fst (spawn_seq n y) ++ l1 ++ gs' ++ l2) x md (S n) (snd (spawn_seq n y) ++ EAccepted w y :: lg))
| s_update m y m' c gs x md n lg : update m y = Some (m', c) ->
    step (State (PUpdate m y) gs x md n lg) (State (PSendCmd m' (tag n c)) gs x md (S n) (returned n c ++ EUpdate y :: lg))
| s_update_panic m y gs x md n lg : update m y = None ->
    step (State (PUpdate m y) gs x md n lg) (State (PCancel None) gs x md n (EUpdate y :: lg))
| s_send_nil m l1 l2 x md n lg : step (State (PSendCmd m None) (l1 ++ GHandler :: l2) x md n lg) (State (PDraw m) (l1 ++ GHandler :: l2) x md n lg)
| s_send_cmd m id c l1 l2 x md n lg : step (State (PSendCmd m (Some (id, c))) (l1 ++ GHandler :: l2) x md n lg)
    (State (PDraw m) (GRun id c :: l1 ++ GHandler :: l2) x md n (EStarted (WCmd id) c :: lg))
| s_init_cmd p id c l1 l2 l3 x md n lg : (* the first command reaches the handler *)
    step (State p (l1 ++ GInit id c :: l2 ++ GHandler :: l3) x md n lg) (State p (GRun id c :: l1 ++ l2 ++ GHandler :: l3) x md n (EStarted (WCmd id) c :: lg))
| s_init_cmd' p id c l1 l2 l3 x md n lg :
    step (State p (l1 ++ GHandler :: l2 ++ GInit id c :: l3) x md n lg) (State p (GRun id c :: l1 ++ GHandler :: l2 ++ l3) x md n (EStarted (WCmd id) c :: lg))
| s_draw m gs x md n lg : step (State (PDraw m) gs x md n lg) (State (PLoop m) gs x md n (EDraw :: lg))
| s_draw_err m gs x md n lg : step (State (PDraw m) gs x md n lg) (State PErrSend gs x md n lg)
| s_draw_panic m gs x md n lg : step (State (PDraw m) gs x md n lg) (State (PCancel None) gs x md n lg)
| s_end_err m e gs x md n lg : step (State (PLoopEnd m (Some e)) gs x md n lg) (State (PReturned (Some m) (Some e)) gs x md n lg)
| s_end_killed m gs md n lg : step (State (PLoopEnd m None) gs true md n lg) (State (PReturned (Some m) (Some EKilled)) gs true md n lg)
| s_end m gs md n lg : step (State (PLoopEnd m None) gs false md n lg) (State (PFinalDraw m) gs false md n lg)
| s_final m gs x md n lg : step (State (PFinalDraw m) gs x md n lg) (State (PCancel (Some m)) gs x md n (EDraw :: lg))
| s_final_err m gs x md n lg : step (State (PFinalDraw m) gs x md n lg) (State PErrSend gs x md n lg)
| s_final_panic m gs x md n lg : step (State (PFinalDraw m) gs x md n lg) (State (PCancel None) gs x md n lg)
| s_shutdown r gs x md n lg : step (State (PCancel r) gs x md n lg) (State (PWait r) gs true md n lg)
| s_wait r gs x md n lg : existsb is_handler gs = false -> step (State (PWait r) gs x md n lg) (State (PRestore r restore_ops) gs x md n lg)
| s_restore r o ops gs x md n lg : step (State (PRestore r (o :: ops)) gs x md n lg) (State (PRestore r ops) gs x (apply_op o md) n lg)
| s_restore_err r o ops gs x md n lg : step (State (PRestore r (o :: ops)) gs x md n lg)
    (State (PReturned r (match r with Some _ => Some EShutdown | None => None end)) gs x md n (EFailed :: lg))
| s_restored r gs x md n lg : step (State (PRestore r []) gs x md n lg) (State (PReturned r None) gs x md n lg).

Inductive steps : state -> state -> Prop :=
| steps_refl s : steps s s
| steps_step s s' s'' : steps s s' -> step s' s'' -> steps s s''.
Definition reachable (s : state) : Prop := steps initial s.
End App.
Arguments PSetup {M}. Arguments PDraw0 {M}. Arguments PReader {M}. Arguments PStart {M}. Arguments PLoop {M}. Arguments PUpdate {M}.
Arguments PSendCmd {M}. Arguments PDraw {M}. Arguments PErrSend {M}. Arguments PLoopEnd {M}. Arguments PFinalDraw {M}. Arguments PCancel {M}.
Arguments PWait {M}. Arguments PRestore {M}. Arguments PReturned {M}. Arguments PCrashed {M}. Arguments State {M}.
Arguments st_main {M}. Arguments st_gs {M}. Arguments st_cancelled {M}. Arguments st_modes {M}. Arguments st_next {M}. Arguments st_log {M}.
Arguments initial {M}. Arguments step {M}. Arguments steps {M}. Arguments reachable {M}.
