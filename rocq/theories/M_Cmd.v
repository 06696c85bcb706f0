(** Model of commands and messages (cmd.go). *)
From Verif Require Import Base.
From Coq Require Import List Bool.
Import ListNotations.

(** A command is a Go function without arguments; what matters is the message it returns when it is called, or that it panics.
    Commands are told apart by an identity [c_name] (a Go function value), which the code never inspects. A nil command is
    [None]. Messages: nil, QuitMsg, WindowSizeMsg, BatchMsg, sequenceMsg, any other. The commands of a BatchMsg are taken to be
    non-nil, as Batch makes them. *)
Inductive cmd := Cmd (c_name : nat) (c_panics : bool) (c_msg : msg)
with msg :=
| MNil
| MQuit
| MSize
| MUser (n : nat)
| MBatch (cs : list cmd)
| MSeq (cs : list (option cmd)).
Definition c_name (c : cmd) : nat := match c with Cmd n _ _ => n end.
Definition c_panics (c : cmd) : bool := match c with Cmd _ p _ => p end.
Definition c_msg (c : cmd) : msg := match c with Cmd _ _ m => m end.

(** cmd.go:24-26; a new function value *)
Definition quit_cmd (fresh : nat) : cmd := Cmd fresh false MQuit.
(** cmd.go:30-34 *)
Definition sequence (fresh : nat) (cs : list (option cmd)) : cmd := Cmd fresh false (MSeq cs).

(** cmd.go:39-48, the loop *)
Definition valid_cmds (cs : list (option cmd)) : list cmd :=
  fold_left (fun acc c => match c with None => acc | Some c => acc ++ [c] end) cs [].
(** cmd.go:38-58 *)
Definition batch (fresh : nat) (cs : list (option cmd)) : option cmd :=
  match valid_cmds cs with
  | [] => None
  | [c] => Some c
  | valid => Some (Cmd fresh false (MBatch valid))
  end.
