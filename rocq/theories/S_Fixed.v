(** Histories of a program that draws on a fixed part of the terminal (ViewportFixed). *)
From Verif Require Import Base M_Geom S_Geom M_Style M_Uniseg M_Buffer S_Buffer M_Ansi M_Backend S_Terminal S_Ansi S_Display S_Session.
From Coq Require Import ZArith NArith List Bool.
Import ListNotations.
Open Scope Z_scope.

(** What the program does with the terminal it has made. *)
Inductive act :=
| Draw (w : widget)          (* Terminal.Draw *)
| Clear                      (* Terminal.Clear *)
| Resize (area : rect).      (* Terminal.Resize *)

(** One act; [None] if the program panics or emits malformed output. *)
Definition perform (u : uniseg) (te : termenv) (s : terminal * term) (a : act) : option (terminal * term) :=
  let (tm, t) := s in
  match match a with
        | Draw w => terminal_draw u te tm w
        | Clear => terminal_clear tm
        | Resize area => terminal_resize tm area
        end with
  | Ret (tm', cmds) => option_map (fun t' => (tm', t')) (send u te t cmds)
  | Panic => None
  end.

Fixpoint perform_all (u : uniseg) (te : termenv) (s : terminal * term) (l : list act) : option (terminal * term) :=
  match l with
  | [] => Some s
  | a :: l' => match perform u te s a with Some s' => perform_all u te s' l' | None => None end
  end.

(** A terminal made for part [r] of the screen [t]; nothing is sent. *)
Definition start_at (r : rect) (t : term) : option (terminal * term) :=
  match new_terminal (Fixed r) (t_w t) (t_h t) with Ret tm => Some (tm, t) | Panic => None end.

(** The part of the screen the program draws on after a history: the last one it named. *)
Fixpoint last_area (r : rect) (l : list act) : rect :=
  match l with
  | [] => r
  | Resize area :: l' => last_area area l'
  | _ :: l' => last_area r l'
  end.

(** [r] is part of a screen [w] wide and [h] high. *)
Definition part_of (r : rect) (w h : Z) : Prop :=
  0 <= rx r /\ 0 <= rw r /\ rx r + rw r <= w /\ 0 <= ry r /\ 0 <= rh r /\ ry r + rh r <= h.

Definition on (t : term) (p : pos) : Prop := 0 <= px p < t_w t /\ 0 <= py p < t_h t.

(** The part [r] of the screen is blank. *)
Definition blank_at (t : term) (r : rect) : Prop := forall p, inside p r -> t_cells t p = erased default_attr.

(** No glyph shown outside [r] reaches into [r]. *)
Definition no_overhang (u : uniseg) (t : term) (r : rect) : Prop :=
  forall p, on t p -> ~ inside p r -> ry r <= py p < ry r + rh r ->
  exists s a k, t_cells t p = TPart s a k /\ (px p - k + cwidth u s <= rx r \/ rx r + rw r <= px p - k).

(** A widget that draws a showable frame on a blank buffer, whatever part of the screen that is. *)
Definition good_anywhere (u : uniseg) (te : termenv) (w : widget) : Prop :=
  forall r, 0 <= rx r -> 0 <= ry r -> 0 <= rw r -> 0 <= rh r ->
  exists b, w r (blank r) = Ret b /\ barea b = r /\ frame_ok u te b.

Definition good_act (u : uniseg) (te : termenv) (t : term) (a : act) : Prop :=
  match a with
  | Draw w => good_anywhere u te w
  | Clear => True
  | Resize area => part_of area (t_w t) (t_h t)
  end.
