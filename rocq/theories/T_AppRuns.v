(** Runs of small programs: cases for the theorems of T_App, and the runs that refute the parts of the claims that do not hold. *)
From Verif Require Import Base M_Cmd M_App P_App P_AppIds P_AppLog P_AppRun P_AppEnd T_App.
From Coq Require Import List Bool Arith Lia.
Import ListNotations.

(** A program that counts updates; on the key 5 it runs a command whose message is 7. *)
Definition seven : cmd := Cmd 1 false (MUser 7).
Definition count (m : nat) (y : msg) : option (nat * option cmd) := Some (S m, match y with MUser 5 => Some seven | _ => None end).
Tactic Notation "go" uconstr(c) := eapply steps_cons; [eapply c|cbn [app back_to fst snd spawn_seq returned tag apply_op]].

Lemma count_run : exists s, reachable 0 None count [MUser 5; MQuit] s /\ st_main s = PLoopEnd 2 None /\ st_cancelled s = false /\
  history s = [EDraw; EAccepted (WInput 0) (MUser 5); EUpdate (MUser 5); EReturned 2 seven; EStarted (WCmd 2) seven; EDraw;
               EAccepted (WCmd 2) (MUser 7); EUpdate (MUser 7); EDraw; EAccepted (WInput 1) MQuit; EQuit].
Proof.
  eexists. split.
  - unfold reachable, initial, setup_ops. do 3 go s_setup. go s_init. go s_draw0. go s_reader. go s_start.
    eapply steps_cons. { eapply (s_loop_msg _ _ _ _ _ 0 (GRead 0) _ _ _ [GCheck false; GListen; GHandler] []); [apply o_input; reflexivity|discriminate|discriminate]. } cbn [app back_to fst snd spawn_seq returned tag].
    eapply steps_cons. { eapply s_update. reflexivity. } cbn [app fst snd spawn_seq returned tag].
    eapply steps_cons. { eapply (s_send_cmd _ _ _ _ _ _ _ _ [GCheck false; GListen] [GRead 1]). } go s_draw.
    eapply steps_cons. { eapply (s_gor _ _ _ _ _ _ (GRun 2 seven) _ _ []). apply g_run. reflexivity. } cbn [app].
    eapply steps_cons. { eapply (s_loop_msg _ _ _ _ _ 1 (GSend 2 (c_msg seven)) _ _ _ [] [GCheck false; GListen; GHandler; GRead 1]); [apply o_cmd|discriminate|discriminate]. } cbn [app back_to fst snd spawn_seq returned tag c_msg seven].
    eapply steps_cons. { eapply s_update. reflexivity. } cbn [app fst snd spawn_seq returned tag].
    eapply steps_cons. { eapply (s_send_nil _ _ _ _ _ _ [GCheck false; GListen] [GRead 1]). } go s_draw.
    eapply steps_cons. { eapply (s_loop_quit _ _ _ _ _ 2 (GRead 1) _ _ [GCheck false; GListen; GHandler] []). apply o_input. reflexivity. } cbn [app]. apply steps_refl.
  - repeat split.
Qed.
(** C46, C47, C48, C52: the program ends with the model the two updates made and the terminal as it was. *)
Example C47_instance : exists s, reachable 0 None count [MUser 5; MQuit] s /\ st_main s = PReturned (Some 2) None /\ st_modes s = plain_modes /\ In EQuit (history s).
Proof.
  destruct count_run as (s & R & E & C & H). destruct (C47_can_finish _ _ _ _ s 2 R E C) as (s' & S & E' & P). exists s'. split; [eapply reach_trans; eauto|]. split; [exact E'|]. split; [exact P|].
  apply in_history.
  assert (L : forall s s', steps 0 None count [MUser 5; MQuit] s s' -> In EQuit (st_log s) -> In EQuit (st_log s')).
  { intros a b T. induction T as [|a b c T IH K]; [auto|]. intros I. specialize (IH I). destruct K; cbn [st_log] in *; auto; repeat (apply in_or_app; right); auto; try (now right); try (right; now right). all: right; apply in_or_app; right; auto; now right. }
  apply (L s s' S). apply in_history. rewrite H. cbn. tauto.
Qed.
Example C46_instance : exists s, reachable 0 None count [MUser 5; MQuit] s /\ updates (history s) = [MUser 5; MUser 7] /\ from_reader (history s) = [MUser 5; MQuit] /\ filter for_model (map snd (taken (history s))) = [MUser 5; MUser 7].
Proof. destruct count_run as (s & R & E & C & H). exists s. rewrite H. auto. Qed.

(** C47: the command Quit, returned by Init. *)
Example C47_quit_instance : exists s, reachable 0 (Some (quit_cmd 6)) count [] s /\ In (EStarted (WCmd 0) (quit_cmd 6)) (history s) /\ In (EAccepted (WCmd 0) MQuit) (history s).
Proof.
  eexists. split.
  - unfold reachable, initial, setup_ops. do 3 go s_setup. go s_init. go s_draw0. go s_reader. go s_start.
    eapply steps_cons. { eapply (s_init_cmd' _ _ _ _ _ _ _ _ [GCheck false; GListen] [GRead 0] []). } cbn [app].
    eapply steps_cons. { eapply (s_gor _ _ _ _ _ _ (GRun 0 (quit_cmd 6)) _ _ []). apply g_run. reflexivity. } cbn [app].
    eapply steps_cons. { eapply (s_loop_quit _ _ _ _ _ 0 (GSend 0 MQuit) _ _ []). apply o_cmd. } cbn [app]. apply steps_refl.
  - unfold history. cbn. tauto.
Qed.

(** C49: a sequence of a command and a batch of two. *)
Definition eight : cmd := Cmd 2 false (MUser 8).
Definition nine : cmd := Cmd 3 false (MUser 9).
Definition both : cmd := Cmd 4 false (MBatch [eight; nine]).
Definition in_order : cmd := sequence 5 [Some both; None; Some seven].
Definition plain_count (m : nat) (y : msg) : option (nat * option cmd) := Some (S m, None).
(** A message is taken and handled. *)
Lemma take m g w y gs' l1 l2 r1 r2 md n lg : offers [] g w y gs' -> y <> MNil -> y <> MQuit -> fst (spawn_seq n y) ++ l1 ++ gs' ++ l2 = r1 ++ GHandler :: r2 ->
  steps 0 (Some in_order) plain_count [] (State (PLoop m) (l1 ++ g :: l2) false md n lg)
    (State (PLoop (S m)) (r1 ++ GHandler :: r2) false md (S (S n)) (EDraw :: EUpdate y :: snd (spawn_seq n y) ++ EAccepted w y :: lg)).
Proof.
  intros O N1 N2 E. eapply steps_cons; [eapply s_loop_msg; eauto|]. rewrite E. eapply steps_cons; [eapply s_update; reflexivity|]. cbn [returned tag app]. eapply steps_cons; [eapply s_send_nil|]. eapply steps_cons; [eapply s_draw|]. apply steps_refl.
Qed.
Example C49_instance : exists s, reachable 0 (Some in_order) plain_count [] s /\ st_cancelled s = false /\
  updates (history s) = [MSeq [Some both; None; Some seven]; MUser 9; MUser 8; MUser 7] /\
  In (ESpawned 1 [Some both; None; Some seven]) (history s) /\ exists h1 h2, history s = h1 ++ EStarted (WSeq 1 2 0) seven :: h2.
Proof.
  eexists. split; [|split; [|split; [|split]]].
  - unfold reachable, initial, setup_ops. do 3 go s_setup. go s_init. go s_draw0. go s_reader. go s_start.
    eapply steps_cons. { eapply (s_init_cmd' _ _ _ _ _ _ 0 in_order [GCheck false; GListen] [GRead 0] []). } cbn [app].
    eapply steps_cons. { eapply (s_gor _ _ _ _ _ _ (GRun 0 in_order) _ _ []). apply g_run. reflexivity. } cbn [app c_msg in_order sequence].
    eapply steps_trans. { eapply (take 0 (GSend 0 (MSeq [Some both; None; Some seven])) _ _ _ [] _ [GSeq 1 0 [Some both; None; Some seven]; GCheck false; GListen] [GRead 0]); [apply o_cmd|discriminate|discriminate|reflexivity]. } cbn [app fst snd spawn_seq].
    eapply steps_cons. { eapply (s_gor _ _ _ _ _ _ (GSeq 1 0 [Some both; None; Some seven]) _ _ []). apply g_seq_start. } cbn [app].
    eapply steps_cons. { eapply (s_gor _ _ _ _ _ _ (GSeqRun 1 0 both [None; Some seven]) _ _ []). apply (g_seq_batch _ _ _ _ _ _ [eight; nine]); reflexivity. } cbn [app number starts].
    eapply steps_cons. { eapply (s_gor _ _ _ _ _ _ (GSeqBatch 1 0 [(1, IRun eight); (2, IRun nine)] [None; Some seven]) _ _ []). apply (g_item_run _ _ 1 0 [None; Some seven] 2 nine [(1, IRun eight)] []). reflexivity. } cbn [app c_msg nine].
    eapply steps_trans. { eapply (take 1 (GSeqBatch 1 0 [(1, IRun eight); (2, ISend (MUser 9))] [None; Some seven]) _ _ _ [] _ [GSeqBatch 1 0 [(1, IRun eight)] [None; Some seven]; GCheck false; GListen] [GRead 0]); [apply (o_item _ 1 0 _ 2 (MUser 9) [(1, IRun eight)] [])|discriminate|discriminate|reflexivity]. } cbn [app fst snd spawn_seq].
    eapply steps_cons. { eapply (s_gor _ _ _ _ _ _ (GSeqBatch 1 0 [(1, IRun eight)] [None; Some seven]) _ _ []). apply (g_item_run _ _ 1 0 [None; Some seven] 1 eight [] []). reflexivity. } cbn [app c_msg eight].
    eapply steps_trans. { eapply (take 2 (GSeqBatch 1 0 [(1, ISend (MUser 8))] [None; Some seven]) _ _ _ [] _ [GSeqBatch 1 0 [] [None; Some seven]; GCheck false; GListen] [GRead 0]); [apply (o_item _ 1 0 _ 1 (MUser 8) [] [])|discriminate|discriminate|reflexivity]. } cbn [app fst snd spawn_seq].
    eapply steps_cons. { eapply (s_gor _ _ _ _ _ _ (GSeqBatch 1 0 [] [None; Some seven]) _ _ []). apply g_batch_end. } cbn [app].
    eapply steps_cons. { eapply (s_gor _ _ _ _ _ _ (GSeq 1 1 [None; Some seven]) _ _ []). apply g_seq_nil. } cbn [app].
    eapply steps_cons. { eapply (s_gor _ _ _ _ _ _ (GSeq 1 2 [Some seven]) _ _ []). apply g_seq_start. } cbn [app].
    eapply steps_cons. { eapply (s_gor _ _ _ _ _ _ (GSeqRun 1 2 seven []) _ _ []). apply g_seq_msg; [reflexivity|intros cs Z; discriminate]. } cbn [app c_msg seven].
    eapply (take 3 (GSeqSend 1 2 (MUser 7) []) _ _ _ [] _ [GSeq 1 3 []; GCheck false; GListen] [GRead 0]); [apply o_seq|discriminate|discriminate|reflexivity].
  - reflexivity.
  - reflexivity.
  - unfold history. rewrite <- in_rev. cbn. tauto.
  - unfold history. cbn [st_log rev app snd spawn_seq]. eexists [_; _; _; _; _; _; _; _; _; _; _; _; _; _; _; _], _. reflexivity.
Qed.

(** ** C48: a batch *)
(** The commands of a batch that Init returns are never started: the batch only reaches the model, as a message. *)
Theorem C48_batch_refuted : batch 4 [Some eight; Some nine] = Some both /\
  (exists s m, reachable 0 (Some both) plain_count [] s /\ st_main s = PLoop m /\ In (EUpdate (MBatch [eight; nine])) (history s) /\ st_cancelled s = false) /\
  forall s w c, reachable 0 (Some both) plain_count [] s -> In (EStarted w c) (history s) -> c <> eight /\ c <> nine.
Proof.
  split; [reflexivity|]. split.
  - eexists _, _. split.
    + unfold reachable, initial, setup_ops. do 3 go s_setup. go s_init. go s_draw0. go s_reader. go s_start.
      eapply steps_cons. { eapply (s_init_cmd' _ _ _ _ _ _ 0 both [GCheck false; GListen] [GRead 0] []). } cbn [app].
      eapply steps_cons. { eapply (s_gor _ _ _ _ _ _ (GRun 0 both) _ _ []). apply g_run. reflexivity. } cbn [app c_msg both].
      eapply steps_cons. { eapply (s_loop_msg _ _ _ _ _ 0 (GSend 0 (MBatch [eight; nine])) _ _ _ [] [GCheck false; GListen; GHandler; GRead 0]); [apply o_cmd|discriminate|discriminate]. } cbn [app back_to fst snd spawn_seq returned tag].
      eapply steps_cons. { eapply s_update. reflexivity. } cbn [app fst snd spawn_seq returned tag].
      eapply steps_cons. { eapply (s_send_nil _ _ _ _ _ _ [GCheck false; GListen] [GRead 0]). } go s_draw. apply steps_refl.
    + split; [reflexivity|]. split; [|reflexivity]. unfold history. rewrite <- in_rev. cbn. tauto.
  - intros s w c R I. apply in_history in I. pose proof (reach_log _ _ _ _ _ R) as (_ & _ & _ & A).
    assert (B : forall id c, In (EReturned id c) (st_log s) -> c = both).
    { revert s R c A I. intros s R _ _ _. refine (inv_reach 0 (Some both) plain_count [] (fun s => forall id c, In (EReturned id c) (st_log s) -> c = both) s _ _ R); [|intros id c []].
      assert (G : forall x g gs' evs, gstep [] x g gs' evs -> forall id c, ~ In (EReturned id c) evs).
      { intros x g gs' evs K. destruct K; intros z d; cbn; try tauto; try (intros [Z|Z]; [discriminate|tauto]). clear. generalize 1. induction cs as [|y cs IH]; intros q Z; [destruct Z|]. destruct Z as [Z|Z]; [discriminate|]. eapply IH. exact Z. }
      intros a b K IH id c Z. destruct K; cbn [st_log] in *; try (eapply IH; exact Z); try (destruct Z as [Z|Z]; [discriminate|]; eapply IH; exact Z); try (destruct Z as [Z|[Z|Z]]; try discriminate; eapply IH; exact Z).
      - apply in_app_or in Z. destruct Z as [Z|Z]; [now elim (G _ _ _ _ H id c)|eauto].
      - destruct Z as [Z|Z]; [congruence|eauto].
      - apply in_app_or in Z. destruct Z as [Z|[Z|Z]]; [destruct y; try (destruct Z; fail); destruct Z as [Z|[]]; discriminate|discriminate|eauto].
      - unfold plain_count in H. injection H as <- <-. cbn in Z. destruct Z as [Z|Z]; [discriminate|eauto]. }
    assert (Q : (forall w c, In (EStarted w c) (st_log s) -> c = both) /\ (forall w m, In (EAccepted w m) (st_log s) -> m = MSize \/ m = MBatch [eight; nine]) /\ (forall id cs, ~ In (ESpawned id cs) (st_log s))).
    { clear w c I R. revert A B. generalize (st_log s). induction l as [|e l IH]; intros A B; [repeat split; intros ? ? []|].
      destruct A as [A1 A2]. destruct IH as (I1 & I2 & I3); [exact A2|intros id c Z; apply (B id c); now right|]. repeat split.
      - intros w c [->|Z]; [|eauto]. cbn in A1. destruct w; try contradiction; [destruct A1 as [A1 _]; apply (B id c); now right|]. destruct A1 as ((cs & d & S' & _) & _). now elim (I3 id cs).
      - intros w m [->|Z]; [|eauto]. cbn in A1. destruct w; auto; [destruct k; discriminate| |]; destruct A1 as ((c & S' & ->) & _); rewrite (I1 _ _ S'); now right.
      - intros id cs [->|Z]; [|now apply (I3 id cs)]. cbn in A1. destruct A1 as (_ & w & l' & ->). destruct (I2 w (MSeq cs)) as [Z|Z]; [now left|discriminate|discriminate]. }
    destruct Q as (Q & _). rewrite (Q w c I). split; discriminate.
Qed.

(** ** C51, C52, C54 *)
(** The context is cancelled, the handler leaves, the loop takes one more message: Run is stuck for ever. *)
Theorem C51_cancel_refuted : exists s, reachable 0 None plain_count [MUser 5] s /\ st_cancelled s = true /\ st_main s <> PCrashed /\
  forall s', steps 0 None plain_count [MUser 5] s s' -> forall r e, st_main s' <> PReturned r e.
Proof.
  eexists. split; [|split; [|split]].
  - unfold reachable, initial, setup_ops. do 3 go s_setup. go s_init. go s_draw0. go s_reader. go s_start. go s_cancel.
    eapply steps_cons. { eapply (s_gor _ _ _ _ _ _ GHandler _ _ [GCheck false; GListen]). apply g_handler_done. reflexivity. } cbn [app].
    eapply steps_cons. { eapply (s_loop_msg _ _ _ _ _ 0 (GRead 0) _ _ _ [GCheck false; GListen] []); [apply o_input; reflexivity|discriminate|discriminate]. } cbn [app back_to fst snd spawn_seq returned tag].
    eapply steps_cons. { eapply s_update. reflexivity. } apply steps_refl.
  - reflexivity.
  - discriminate.
  - intros s' S r e. refine (C51_never _ _ _ _ _ s' _ S r e). unfold doomed. cbn. intros Z. repeat (destruct Z as [Z|Z]; [discriminate|]). exact Z.
Qed.
(** The hypotheses of C51_returns_partial are met: cancelled while the loop waits. *)
Example C51_instance : exists s, reachable 0 None plain_count [MUser 5] s /\ st_cancelled s = true /\ st_main s <> PCrashed /\ ~ doomed plain_count s.
Proof.
  eexists. split; [|split; [|split]].
  - unfold reachable, initial, setup_ops. do 3 go s_setup. go s_init. go s_draw0. go s_reader. go s_start. go s_cancel. apply steps_refl.
  - reflexivity.
  - discriminate.
  - intros Z. exact Z.
Qed.

(** Run returns on cancellation, and on an error of the reader, with the terminal in raw mode, on the alternate screen, without a cursor. *)
Theorem C52_cancelled_refuted : exists s, reachable 0 None plain_count [] s /\ st_main s = PReturned (Some 0) (Some EKilled) /\ ~ In EFailed (history s) /\
  md_raw (st_modes s) = true /\ md_alt (st_modes s) = true /\ md_hidden (st_modes s) = true.
Proof.
  eexists. split; [|split; [|split]].
  - unfold reachable, initial, setup_ops. do 3 go s_setup. go s_init. go s_draw0. go s_reader. go s_start. go s_cancel. go s_loop_done. go s_end_killed. apply steps_refl.
  - reflexivity.
  - unfold history. rewrite <- in_rev. cbn. intuition discriminate.
  - repeat split.
Qed.
Theorem C52_read_error_refuted : exists s, reachable 0 None plain_count [] s /\ st_main s = PReturned (Some 0) (Some EReader) /\ ~ In EFailed (history s) /\
  md_raw (st_modes s) = true /\ md_alt (st_modes s) = true /\ md_hidden (st_modes s) = true.
Proof.
  eexists. split; [|split; [|split]].
  - unfold reachable, initial, setup_ops. do 3 go s_setup. go s_init. go s_draw0. go s_reader. go s_start.
    eapply steps_cons. { eapply (s_gor _ _ _ _ _ _ (GRead 0) _ _ [GCheck false; GListen; GHandler] []). apply g_read_err. } cbn [app].
    eapply steps_cons. { eapply (s_loop_err _ _ _ _ _ 0 GReadErr _ _ [GCheck false; GListen; GHandler] []). apply oe_read. } cbn [app].
    go s_end_err. apply steps_refl.
  - reflexivity.
  - unfold history. rewrite <- in_rev. cbn. intuition discriminate.
  - repeat split.
Qed.
(** A panic in a command of a sequence ends the process with the terminal in raw mode. *)
Definition bad : cmd := Cmd 6 true MNil.
Theorem C52_sequence_panic_refuted : exists s, reachable 0 (Some (sequence 5 [Some bad])) plain_count [] s /\ st_main s = PCrashed /\ md_raw (st_modes s) = true /\ md_alt (st_modes s) = true.
Proof.
  eexists. split; [|split; [|split]].
  - unfold reachable, initial, setup_ops. do 3 go s_setup. go s_init. go s_draw0. go s_reader. go s_start.
    eapply steps_cons. { eapply (s_init_cmd' _ _ _ _ _ _ 0 (sequence 5 [Some bad]) [GCheck false; GListen] [GRead 0] []). } cbn [app].
    eapply steps_cons. { eapply (s_gor _ _ _ _ _ _ (GRun 0 (sequence 5 [Some bad])) _ _ []). apply g_run. reflexivity. } cbn [app c_msg sequence].
    eapply steps_cons. { eapply (s_loop_msg _ _ _ _ _ 0 (GSend 0 (MSeq [Some bad])) _ _ _ [] [GCheck false; GListen; GHandler; GRead 0]); [apply o_cmd|discriminate|discriminate]. } cbn [app back_to fst snd spawn_seq returned tag].
    eapply steps_cons. { eapply (s_gor _ _ _ _ _ _ (GSeq 1 0 [Some bad]) _ _ []). apply g_seq_start. } cbn [app].
    eapply steps_cons. { eapply (s_crash_seq _ _ _ _ _ _ 1 0 bad [] []). reflexivity. } apply steps_refl.
  - reflexivity.
  - reflexivity.
  - reflexivity.
Qed.
(** The hypotheses of C52_no_error_partial are met after a panic in a draw, too. *)
Example C52_instance : exists s, reachable 0 None plain_count [] s /\ st_main s = PReturned None None /\ ~ In EFailed (history s).
Proof.
  eexists. split; [|split].
  - unfold reachable, initial, setup_ops. do 3 go s_setup. go s_init. go s_draw0_panic. go s_shutdown.
    eapply steps_cons. { apply s_wait. reflexivity. } do 4 go s_restore. go s_restored. apply steps_refl.
  - reflexivity.
  - unfold history. rewrite <- in_rev. cbn. tauto.
Qed.

(** The first draw fails: Run never returns. *)
Theorem C54_failed_draw_refuted : exists s, reachable 0 None plain_count [] s /\ st_main s = PErrSend /\ forall s' r e, steps 0 None plain_count [] s s' -> st_main s' <> PReturned r e.
Proof.
  eexists. split; [|split].
  - unfold reachable, initial, setup_ops. do 3 go s_setup. go s_init. go s_draw0_err. apply steps_refl.
  - reflexivity.
  - intros s' r e S. refine (C54_failed_draw_hangs _ _ _ _ _ s' r e _ S). reflexivity.
Qed.
Example C54_instance : exists s, reachable 0 None plain_count [] s /\ st_main s = PLoopEnd 0 (Some EReader).
Proof.
  eexists. split.
  - unfold reachable, initial, setup_ops. do 3 go s_setup. go s_init. go s_draw0. go s_reader. go s_start.
    eapply steps_cons. { eapply (s_gor _ _ _ _ _ _ (GRead 0) _ _ [GCheck false; GListen; GHandler] []). apply g_read_err. } cbn [app].
    eapply steps_cons. { eapply (s_loop_err _ _ _ _ _ 0 GReadErr _ _ [GCheck false; GListen; GHandler] []). apply oe_read. } cbn [app]. apply steps_refl.
  - reflexivity.
Qed.
Print Assumptions C48_batch_refuted.
Print Assumptions C51_cancel_refuted.
Print Assumptions C52_cancelled_refuted.
Print Assumptions C52_read_error_refuted.
Print Assumptions C52_sequence_panic_refuted.
Print Assumptions C54_failed_draw_refuted.
