(** Model of widget/throbberwidget: frames and ticks (the drawing of a frame is in M_View). *)
From Verif Require Import Base M_Style.
From Coq Require Import ZArith NArith List Bool.
Import ListNotations.
Open Scope Z_scope.

(** set.go:9-21 *)
Inductive throbber_type :=
  TypeLine | TypeHorizontalBlock | TypeVerticalBlock | TypeBrailleEight | TypeParenthesis | TypeCanadian | TypeEllipsis | TypeMeter | TypePulse.

(** set.go:91-101 *)
Definition line_set : list str := [[124%N]; [47%N]; [45%N]; [92%N]].
Definition horizontal_block_set : list str := [[9615%N]; [9614%N]; [9613%N]; [9612%N]; [9611%N]; [9610%N]; [9609%N]; [9608%N]].
Definition vertical_block_set : list str := [[9601%N]; [9602%N]; [9603%N]; [9604%N]; [9605%N]; [9606%N]; [9607%N]; [9608%N]].
Definition braille_eight_set : list str := [[10487%N]; [10479%N]; [10463%N]; [10367%N]; [10431%N]; [10491%N]; [10493%N]; [10494%N]].
Definition parenthesis_set : list str := [[9115%N]; [9116%N]; [9117%N]; [9118%N]; [9119%N]; [9120%N]].
Definition canadian_set : list str := [[5392%N]; [7111%N]; [5393%N]; [7111%N]].
Definition ellipsis_set : list str := [[]; [46%N]; [46%N; 46%N]; [46%N; 46%N; 46%N]].
Definition meter_set : list str := [[9649%N; 9649%N; 9649%N]; [9648%N; 9649%N; 9649%N]; [9648%N; 9648%N; 9649%N]; [9648%N; 9648%N; 9648%N]; [9648%N; 9648%N; 9649%N]; [9648%N; 9649%N; 9649%N]; [9649%N; 9649%N; 9649%N]].
Definition pulse_set : list str := [[9608%N]; [9619%N]; [9618%N]; [9617%N]].

(** set.go:48-71 *)
Definition frame_set (t : throbber_type) : list str :=
  match t with
  | TypeLine => line_set | TypeHorizontalBlock => horizontal_block_set | TypeVerticalBlock => vertical_block_set
  | TypeBrailleEight => braille_eight_set | TypeParenthesis => parenthesis_set | TypeCanadian => canadian_set
  | TypeEllipsis => ellipsis_set | TypeMeter => meter_set | TypePulse => pulse_set
  end.

(** set.go:87-89: Go's remainder has the sign of the dividend; a zero length or a negative index panics *)
Definition set_frame (s : list str) (frame : Z) : outcome str :=
  if zlen s =? 0 then Panic else index_at s (Z.rem frame (zlen s)).

(** state.go:11-16; the frame rate and the time of a tick do not influence the logic and are left out *)
Record throbber_state := ThrobberState { th_frame : Z; th_id : Z; th_tag : Z }.
(** msg.go:14-19 *)
Record tick_msg := TickMsg { tk_tag : Z; tk_id : Z }.

(** msg.go:8-12, state.go:18-25: the counter of identifiers is the first component.  Atomicity of the counter is assumed:
    each call sees the value the previous one left. *)
Definition new_throbber_state (last_id : Z) : Z * throbber_state := (last_id + 1, ThrobberState 0 (last_id + 1) 0).

(** state.go:69-80: the message the command returned by a successful update delivers *)
Definition throbber_tick_cmd (s : throbber_state) : tick_msg := TickMsg (th_tag s) (th_id s).
(** state.go:56-62 *)
Definition throbber_tick (s : throbber_state) : tick_msg := TickMsg (th_tag s) (th_id s).

(** state.go:34-52; messages of another type are [None]; the second component is the command, when the message is accepted.
    Simplification: the counters do not overflow. *)
Definition throbber_try_update (s : throbber_state) (m : option tick_msg) : throbber_state * option tick_msg :=
  match m with
  | None => (s, None)
  | Some m =>
      if (tk_id m >? 0) && negb (tk_id m =? th_id s) then (s, None)
      else if (tk_tag m >? 0) && negb (tk_tag m =? th_tag s) then (s, None)
      else let s' := ThrobberState (th_frame s + 1) (th_id s) (th_tag s + 1) in (s', Some (throbber_tick_cmd s'))
  end.
