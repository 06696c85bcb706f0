(** A program and its terminal together: which of the program's steps reach the screen. *)
From Verif Require Import Base M_Geom M_Buffer M_Backend M_Cmd M_App S_Terminal S_Session.
From Coq Require Import ZArith List.
Import ListNotations.

Section Joint.
Context {M : Type}.
Variable m0 : M.
Variable init_cmd : option cmd.
Variable update : M -> msg -> option (M * option cmd).
Variable inputs : list msg.
(** The model's Render *)
Variable view : M -> widget.

(** The model that is being drawn (app.go:205, 228, 348) *)
Definition drawing (s : state M) : option M := match st_main s with PDraw0 => Some m0 | PDraw m | PFinalDraw m => Some m | _ => None end.
(** What a step of the program does on the terminal. The size in a size message may be any. Steps that fail on the terminal are left out. *)
Inductive effect (s s' : state M) : list S_Session.event -> Prop :=
| e_draw m : drawing s = Some m -> st_log s' = EDraw :: st_log s -> effect s s' [EvDraw (view m)]
| e_size from m w h : st_log s' = EAccepted from MSize :: st_log s -> st_main s' = PUpdate m MSize -> effect s s' [EvResize w h]
| e_none : st_log s' <> EDraw :: st_log s -> (forall from, st_log s' <> EAccepted from MSize :: st_log s) -> effect s s' [].
(** From the first draw on, the program, the goroutines and whoever resizes the terminal take turns in any order. *)
Inductive together : state M -> list S_Session.event -> Prop :=
| t_start s : reachable m0 init_cmd update inputs s -> st_main s = PDraw0 -> together s []
| t_step s s' h es : together s h -> step m0 init_cmd update inputs s s' -> effect s s' es -> together s' (h ++ es)
| t_term s h w ht cells cur : together s h -> together s (h ++ [EvTermSize w ht cells cur]).
End Joint.
