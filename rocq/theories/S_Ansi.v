(** Reading the byte stream a terminal receives: ECMA-48 control sequences (ESC [ parameters final) and text.
    Written independently of the library's writer. *)
From Verif Require Import Base M_Style M_Uniseg S_Terminal.
From Coq Require Import ZArith NArith List Bool.
Import ListNotations.
Open Scope N_scope.

(** One element of the stream: a character to print, or a complete control sequence. *)
Inductive ptok := PChar (r : N) | PCsi (priv : bool) (params : list (list (option N))) (final : N).

Inductive mode :=
| Ground
| Escape                                            (* ESC seen *)
| Bracket                                           (* ESC [ seen *)
| Params (priv : bool) (params : list (list (option N))) (subs : list (option N)) (cur : option N)
| Malformed.

Definition is_digit (r : N) : bool := (48 <=? r) && (r <=? 57).
Definition is_final (r : N) : bool := (64 <=? r) && (r <=? 126).
(** C0 controls, DEL and C1 controls are not text. *)
Definition is_control (r : N) : bool := (r <? 32) || ((127 <=? r) && (r <? 160)).

Definition push_digit (cur : option N) (r : N) : option N :=
  Some (10 * (match cur with Some n => n | None => 0 end) + (r - 48)).

Definition params_step (priv : bool) (params : list (list (option N))) (subs : list (option N)) (cur : option N) (r : N)
  : list ptok * mode :=
  if is_digit r then ([], Params priv params subs (push_digit cur r))
  else if r =? 58 (* : *) then ([], Params priv params (subs ++ [cur]) None)
  else if r =? 59 (* ; *) then ([], Params priv (params ++ [subs ++ [cur]]) [] None)
  else if is_final r then ([PCsi priv (params ++ [subs ++ [cur]]) r], Ground)
  else ([], Malformed).

Definition step (m : mode) (r : N) : list ptok * mode :=
  match m with
  | Ground => if r =? 27 then ([], Escape) else if is_control r then ([], Malformed) else ([PChar r], Ground)
  | Escape => if r =? 91 (* [ *) then ([], Bracket) else ([], Malformed)
  | Bracket => if r =? 63 (* ? *) then ([], Params true [] [] None) else params_step false [] [] None r
  | Params priv params subs cur => params_step priv params subs cur r
  | Malformed => ([], Malformed)
  end.

Fixpoint scan (m : mode) (s : str) : list ptok * mode :=
  match s with
  | [] => ([], m)
  | r :: s' => let (o, m') := step m r in let (o', m'') := scan m' s' in (o ++ o', m'')
  end.

(** A well-formed stream ends with every control sequence complete. *)
Definition parse (s : str) : option (list ptok) :=
  match scan Ground s with (o, Ground) => Some o | _ => None end.

(** Maximal runs of text are cut into graphemes by the terminal. *)
Fixpoint regroup (u : uniseg) (run : str) (l : list ptok) : list token :=
  match l with
  | [] => map TText (clusters u run)
  | PChar r :: l' => regroup u (run ++ [r]) l'
  | PCsi p ps f :: l' => map TText (clusters u run) ++ TCsi p ps f :: regroup u [] l'
  end.

(** The terminal after receiving [s]; [None] if [s] is not well-formed. *)
Definition receive (u : uniseg) (t : term) (s : str) : option term :=
  option_map (fun l => exec u t (regroup u [] l)) (parse s).
