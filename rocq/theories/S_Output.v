(** What should reach the terminal. *)
From Verif Require Import Base M_Geom M_Style M_Uniseg M_Buffer M_Ansi M_Backend M_Utf8 M_Output S_Terminal S_Ansi S_Session.
From Coq Require Import ZArith NArith List Bool.
Import ListNotations.
Open Scope Z_scope.

(** [a] is the beginning of [b]. *)
Definition begins (a b : bytes) : Prop := exists r, b = a ++ r.

(** The commands of one operation, and the terminal after it, if nothing fails. *)
Definition ideal_op (u : uniseg) (te : termenv) (t : terminal) (o : term_op) : outcome (terminal * list command) :=
  match o with
  | OpDraw w => terminal_draw u te t w
  | OpResize x y => terminal_resize t (new_rect x y)
  | OpMode c => Ret (t, [c])
  end.
(** What a list of commands writes, up to one that panics. *)
Fixpoint written (te : termenv) (l : list command) : str :=
  match l with
  | [] => []
  | c :: l' => match write_ansi te c with Ret s => s ++ written te l' | Panic => [] end
  end.
(** What an operation is meant to write. *)
Definition op_written (u : uniseg) (te : termenv) (t : terminal) (o : term_op) : str :=
  match ideal_op u te t o with Ret (_, l) => written te l | Panic => [] end.
(** What a history of operations writes, and the terminal after it, if nothing fails. *)
Fixpoint ideal (u : uniseg) (te : termenv) (t : terminal) (l : list term_op) : outcome (terminal * str) :=
  match l with
  | [] => Ret (t, [])
  | o :: l' =>
      let! r := ideal_op u te t o in
      let (t', cmds) := r in
      let! s := write_all te cmds in
      let! r' := ideal u te t' l' in
      let (t'', s') := r' in Ret (t'', s ++ s')
  end.

(** The operations of a history of events. *)
Definition op_of (e : event) : list term_op := match e with EvDraw w => [OpDraw w] | EvResize w h => [OpResize w h] | EvTermSize _ _ _ _ => [] end.
Definition ops_of (l : list event) : list term_op := flat_map op_of l.
(** A terminal that gets one piece of output per operation. *)
Fixpoint watch (u : uniseg) (t : term) (l : list event) (pieces : list str) : option term :=
  match l with
  | [] => match pieces with [] => Some t | _ => None end
  | EvTermSize w h cells cur :: l' => watch u (Term w h cells cur (t_attr t) (t_visible t)) l' pieces
  | _ :: l' =>
      match pieces with
      | [] => None
      | s :: rest => match receive u t s with Some t' => watch u t' l' rest | None => None end
      end
  end.

(** A private mode of the terminal (25: the cursor is shown; 1049: the alternate screen; 2004: pastes are bracketed) after a stream. *)
Definition mode_step (n : N) (on : bool) (k : ptok) : bool :=
  match k with
  | PCsi true [[Some m]] f => if (m =? n)%N then if (f =? 104)%N then true else if (f =? 108)%N then false else on else on
  | _ => on
  end.
Definition mode_after (n : N) (l : list ptok) (on : bool) : bool := fold_left (mode_step n) l on.
