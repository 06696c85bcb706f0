(** Model of examples/throbber: Init and Update of the program. *)
From Verif Require Import Base M_Utf8 M_KeyTable M_Decode M_Cmd M_Throbber.
From Coq Require Import ZArith NArith String List Bool.
Import ListNotations.
Open Scope Z_scope.

(** examples/throbber/main.go:16-18; the throbber's FPS (state.go:15), a duration in nanoseconds, is kept beside its state, where M_Throbber leaves it out. *)
Record spinning := Spinning { sp_state : throbber_state; sp_rate : Z }.
(** examples/throbber/main.go:137-140 with state.go:18-25: a ninth of a second *)
Definition new_spinning (last_id : Z) : spinning := Spinning (snd (new_throbber_state last_id)) (1000000000 / 9).

(** A tick as the message of a command. The messages of the input reader are [MUser 0] to [MUser (length ds - 1)]; the tick of the program's only throbber with the tag t is
    [MUser (length ds + t)]. cmd.go:60-70 (Tick): the command waits for the duration, then returns the message; the duration does not matter to when it may run (M_App). *)
Definition spin_cmd (ds : list M_Decode.msg) (t : tick_msg) : cmd := Cmd 0 false (MUser (length ds + Z.to_nat (tk_tag t))).
Definition spin_msg (ds : list M_Decode.msg) (m : spinning) (n : nat) : tick_msg := TickMsg (Z.of_nat (n - length ds)) (th_id (sp_state m)).
(** examples/throbber/main.go:20-22 with state.go:56-62. Simplification: the command reads the throbber when it runs; here when it is made. The tag changes
    only at a tick, and this command makes the first one. *)
Definition spin_init (ds : list M_Decode.msg) (m : spinning) : option cmd := Some (spin_cmd ds (throbber_tick (sp_state m))).
(** examples/throbber/main.go:116-135. A message neither of the reader nor a tick is none the program knows. Simplification: the duration does not overflow. *)
Definition spin_update (ds : list M_Decode.msg) (m : spinning) (x : M_Cmd.msg) : option (spinning * option cmd) :=
  match x with
  | MUser n =>
      match nth_error ds n with
      | None =>
          let (s, c) := throbber_try_update (sp_state m) (Some (spin_msg ds m n)) in
          Some (Spinning s (sp_rate m), match c with Some t => Some (spin_cmd ds t) | None => None end)
      | Some (KeyMsg k) =>
          let name := key_string k in
          if bytes_eqb name (asc "+") then Some (Spinning (sp_state m) (sp_rate m + 1000000), None)
          else if bytes_eqb name (asc "-") then Some (Spinning (sp_state m) (sp_rate m - 1000000), None)
          else if bytes_eqb name (asc "ctrl+c") then Some (m, Some (quit_cmd 0))
          else Some (m, None)
      | Some _ => Some (m, None)
      end
  | _ => Some (m, None)
  end.
