(** C94: running an App a second time. *)
From Verif Require Import Base M_Cmd M_App P_App P_AppIds P_AppLog P_AppRun P_AppEnd T_App T_AppRuns.
From Coq Require Import List Bool Arith Lia.
Import ListNotations.

(** The state in which Run begins when the context of the App is done already (app.go:102-112, 114-118 and 132-135: every Run of an App uses the one context that NewApp or WithContext made). *)
Definition begin_cancelled {M} : state M := State (PSetup setup_ops) [] true plain_modes 0 [].

Section Claims.
Context {M : Type}.
Variable m0 : M.
Variable init_cmd : option cmd.
Variable update : M -> msg -> option (M * option cmd).
Variable inputs : list msg.
Notation step := (step m0 init_cmd update inputs).
Notation steps := (steps m0 init_cmd update inputs).
Notation reachable := (reachable m0 init_cmd update inputs).

(** Run is past the point where it cancels the context. *)
Definition past (p : main M) : bool := match p with PWait _ | PRestore _ _ | PReturned _ None => true | _ => false end.
Lemma past_step a b : step a b -> (past (st_main a) = true -> st_cancelled a = true) -> past (st_main b) = true -> st_cancelled b = true.
Proof. intros H P E. destruct H; cbn in *; auto; discriminate. Qed.
(** ** C94: when Run has returned without an error, the context of the App is done. *)
Theorem C94_done s r : reachable s -> st_main s = PReturned r None -> st_cancelled s = true.
Proof.
  intros R E. assert (K : past (st_main s) = true -> st_cancelled s = true).
  { eapply (inv_reach m0 init_cmd update inputs (fun s => past (st_main s) = true -> st_cancelled s = true)); [apply past_step|discriminate|exact R]. }
  apply K. now rewrite E.
Qed.
(** With the context done from the start, Run never gets to its last draw. *)
Definition ending (p : main M) : bool := match p with PFinalDraw _ | PCancel (Some _) | PWait (Some _) | PRestore (Some _) _ | PReturned (Some _) None => true | _ => false end.
Definition killed (s : state M) : Prop := st_cancelled s = true /\ ending (st_main s) = false.
Lemma killed_step a b : step a b -> killed a -> killed b.
Proof. unfold killed. intros H [C E]. destruct H; cbn in *; try discriminate; try (split; auto; fail); try (destruct r; split; auto; discriminate). Qed.
(** ** C94: if the context is done when Run begins, Run does not return a model without an error, whatever the program and the schedule. *)
Theorem C94_killed s m : steps begin_cancelled s -> st_main s <> PReturned (Some m) None.
Proof.
  intros H E. assert (K : killed s). { eapply (inv_steps m0 init_cmd update inputs killed); [intros a b; apply killed_step|exact H|split; reflexivity]. }
  destruct K as [_ K]. rewrite E in K. discriminate.
Qed.
End Claims.

(** ** C94 is false: a program that is quit returns its model the first time; a second Run of the same App begins with the context done and cannot. *)
Theorem C94_again_refuted : (exists s, reachable 0 None plain_count [MQuit] s /\ st_main s = PReturned (Some 0) None /\ st_cancelled s = true) /\
  forall s m, steps 0 None plain_count [MQuit] begin_cancelled s -> st_main s <> PReturned (Some m) None.
Proof.
  split; [|intros s m; apply C94_killed]. eexists. split.
  { unfold reachable, initial, setup_ops. do 3 go s_setup. go s_init. go s_draw0. go s_reader. go s_start.
  eapply steps_cons. { eapply (s_loop_quit _ _ _ _ _ 0 (GRead 0) _ _ [GCheck false; GListen; GHandler] []). apply o_input. reflexivity. } cbn [app].
  go s_end. go s_final. go s_shutdown.
  eapply steps_cons. { eapply (s_gor _ _ _ _ _ _ GListen _ _ [GCheck false]). apply g_listen_done. reflexivity. } cbn [app].
  eapply steps_cons. { eapply (s_gor _ _ _ _ _ _ GHandler _ _ [GCheck false]). apply g_handler_done. reflexivity. } cbn [app].
  eapply steps_cons. { eapply s_wait. reflexivity. } unfold restore_ops. do 4 go s_restore. go s_restored. apply steps_refl. }
  split; reflexivity.
Qed.
(** The second Run can do all its work before it notices: it draws, takes a message, updates and draws again, and then returns the error. *)
Example C94_instance : exists s, steps 0 None plain_count [MUser 5] begin_cancelled s /\ st_main s = PReturned (Some 1) (Some EKilled) /\ updates (history s) = [MUser 5].
Proof.
  eexists. split.
  { unfold begin_cancelled, setup_ops. do 3 go s_setup. go s_init. go s_draw0. go s_reader. go s_start.
  eapply steps_cons. { eapply (s_loop_msg _ _ _ _ _ 0 (GRead 0) _ _ _ [GCheck false; GListen; GHandler] []); [apply o_input; reflexivity|discriminate|discriminate]. } cbn [app back_to fst snd spawn_seq returned tag].
  eapply steps_cons. { eapply s_update. reflexivity. } cbn [app fst snd spawn_seq returned tag].
  eapply steps_cons. { eapply (s_send_nil _ _ _ _ _ _ [GCheck false; GListen] [GRead 1]). } go s_draw. go s_loop_done. go s_end_killed. apply steps_refl. }
  split; reflexivity.
Qed.
Print Assumptions C94_done.
Print Assumptions C94_killed.
Print Assumptions C94_again_refuted.
