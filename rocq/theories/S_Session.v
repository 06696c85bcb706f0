(** Histories of a program drawing on a terminal. *)
From Verif Require Import Base M_Geom S_Geom M_Style M_Uniseg M_Buffer S_Buffer M_Ansi M_Backend S_Terminal S_Ansi S_Display.
From Coq Require Import ZArith NArith List Bool.
Import ListNotations.
Open Scope Z_scope.

Inductive event :=
| EvDraw (w : widget)                                                    (* the program draws a frame *)
| EvResize (w h : Z)                                                     (* the program handles a resize notification *)
| EvTermSize (w h : Z) (cells : pos -> tglyph) (cursor : option pos).    (* the user resizes the terminal: contents become arbitrary *)

(** The bytes of [cmds] reach the terminal. *)
Definition send (u : uniseg) (te : termenv) (t : term) (cmds : list command) : option term :=
  match write_all te cmds with Ret s => receive u t s | Panic => None end.

(** One event; [None] if the program panics or emits malformed output. *)
Definition run_event (u : uniseg) (te : termenv) (s : terminal * term) (e : event) : option (terminal * term) :=
  let (tm, t) := s in
  match e with
  | EvDraw w => match terminal_draw u te tm w with
                | Ret (tm', cmds) => option_map (fun t' => (tm', t')) (send u te t cmds)
                | Panic => None
                end
  | EvResize w h => match terminal_resize tm (new_rect w h) with
                    | Ret (tm', cmds) => option_map (fun t' => (tm', t')) (send u te t cmds)
                    | Panic => None
                    end
  | EvTermSize w h cells cur => Some (tm, Term w h cells cur (t_attr t) (t_visible t))
  end.

Fixpoint run (u : uniseg) (te : termenv) (s : terminal * term) (l : list event) : option (terminal * term) :=
  match l with
  | [] => Some s
  | e :: l' => match run_event u te s e with Some s' => run u te s' l' | None => None end
  end.

(** Start: the alternate screen is entered on a terminal of size [w] x [h] and the full-screen viewport is created. *)
Definition start (u : uniseg) (te : termenv) (t : term) : option (terminal * term) :=
  match send u te t [EnterAlternateScreen], new_terminal Fullscreen (t_w t) (t_h t) with
  | Some t', Ret tm => Some (tm, t')
  | _, _ => None
  end.

(** Size of the terminal after a history, and whether the program has been told about it since it last changed. *)
Fixpoint final_size (size : Z * Z) (l : list event) : Z * Z :=
  match l with
  | [] => size
  | EvTermSize w h _ _ :: l' => final_size (w, h) l'
  | _ :: l' => final_size size l'
  end.
Fixpoint told (size : Z * Z) (ok : bool) (l : list event) : bool :=
  match l with
  | [] => ok
  | EvTermSize w h _ _ :: l' => told (w, h) false l'
  | EvResize w h :: l' => told size ((w =? fst size) && (h =? snd size)) l'
  | EvDraw _ :: l' => told size ok l'
  end.

Definition blank (area : rect) : buffer := Buf area (repeat empty_cell (Z.to_nat (rect_area area))).

(** A frame that can be shown. *)
Record frame_ok (u : uniseg) (te : termenv) (b : buffer) : Prop := {
  frame_displayable : displayable u te b;
  frame_separate : separate u b;
  frame_plain : forall p c, look b p = Some c -> plain (csym c) }.

(** A widget that renders a showable frame on every blank full-screen buffer. *)
Definition good_widget (u : uniseg) (te : termenv) (w : widget) : Prop :=
  forall width height, 0 <= width -> 0 <= height ->
  exists b, w (new_rect width height) (blank (new_rect width height)) = Ret b /\ barea b = new_rect width height /\ frame_ok u te b.

Definition good_event (u : uniseg) (te : termenv) (e : event) : Prop :=
  match e with
  | EvDraw w => good_widget u te w
  | EvResize w h => 0 <= w /\ 0 <= h
  | EvTermSize w h _ _ => 0 <= w /\ 0 <= h
  end.

(** The environment: sane segmentation library; a blank is one column wide; the colour profile supports colours. *)
Record env_ok (u : uniseg) (te : termenv) : Prop := {
  env_uniseg : uniseg_ok u;
  env_space : clusters u space = [space] /\ cwidth u space = 1;
  env_reset : conv te (Some ColReset) = Some ColReset }.
