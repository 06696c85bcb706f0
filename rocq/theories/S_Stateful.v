(** Programs whose Render changes the model, as widgets with a state (lists, inputs) need it. *)
From Verif Require Import Base M_Geom M_Buffer M_Backend M_Cmd M_App S_Terminal S_Session.
From Coq Require Import ZArith List.
Import ListNotations.

Section Stateful.
Context {M : Type}.
Variable update : M -> msg -> option (M * option cmd).
(** What Render leaves of the model when it draws on a frame of the given size: Go passes the model by a pointer, and a list or an input changes its
    offset while it is drawn. *)
Variable redrawn : M -> Z * Z -> M.
Variable view : M -> widget.

(** Between two messages the program draws exactly once, on a frame of the size it was told last. So the effect of that draw on the model can be put off
    until the next message: the model is kept together with the size it is drawn at, and the sizes of the messages still to come, which the runner leaves
    open, are written beside it. Init's own changes are part of the first model. *)
Record live := Live { lv_model : M; lv_size : Z * Z; lv_coming : list (Z * Z) }.
Definition next_size (x : msg) (size : Z * Z) (coming : list (Z * Z)) : (Z * Z) * list (Z * Z) :=
  match x, coming with MSize, z :: r => (z, r) | _, _ => (size, coming) end.
Definition live_update (v : live) (x : msg) : option (live * option cmd) :=
  match update (redrawn (lv_model v) (lv_size v)) x with
  | Some (m, c) => let (size, coming) := next_size x (lv_size v) (lv_coming v) in Some (Live m size coming, c)
  | None => None
  end.
Definition live_view (v : live) : widget := view (lv_model v).

(** The sizes the program was told. *)
Definition resizes (h : list S_Session.event) : list (Z * Z) := flat_map (fun e => match e with EvResize w ht => [(w, ht)] | _ => [] end) h.

(** The model after some messages: drawn, updated, drawn, updated ... The result is the model about to be drawn, and the size. *)
Fixpoint lived (m : M) (size : Z * Z) (xs : list msg) (coming : list (Z * Z)) : option (M * (Z * Z)) :=
  match xs with
  | [] => Some (m, size)
  | x :: xs => match update (redrawn m size) x with
               | Some (m', _) => let (size', coming') := next_size x size coming in lived m' size' xs coming'
               | None => None
               end
  end.
End Stateful.
Arguments live : clear implicits.
Arguments Live {M}. Arguments lv_model {M}. Arguments lv_size {M}. Arguments lv_coming {M}.
