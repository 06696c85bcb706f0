(** C84: what happens after Run has returned. *)
From Verif Require Import Base M_Cmd M_App P_App P_AppIds P_AppLog P_AppRun P_AppEnd T_App T_AppRuns.
From Coq Require Import List Bool Arith Lia.
Import ListNotations.

(** The input messages that are taken from the reader and thrown away. *)
Definition swallowed (h : list event) : nat := length (flat_map (fun e => match e with EDropped (WInput _) => [tt] | _ => [] end) h).
(** The commands that begin to run. *)
Definition started (h : list event) : list cmd := flat_map (fun e => match e with EStarted _ c => [c] | _ => [] end) h.

Definition readers (gs : list gor) : nat := length (filter (fun g => match g with GRead _ => true | _ => false end) gs).
Lemma readers_app a b : readers (a ++ b) = readers a + readers b.
Proof. unfold readers. now rewrite filter_app, app_length. Qed.
Lemma readers_cons g l : readers (g :: l) = (match g with GRead _ => 1 | _ => 0 end) + readers l.
Proof. unfold readers. cbn. now destruct g. Qed.
Ltac count := repeat (rewrite readers_app || rewrite readers_cons); cbn; try lia.
Lemma swallowed_app a b : swallowed (a ++ b) = swallowed a + swallowed b.
Proof. unfold swallowed. now rewrite flat_map_app, app_length. Qed.
(** The operations of a recovery under way are some of those that restore the terminal. *)
Definition restoring (g : gor) : Prop := match g with GRecoverOps ops => incl ops restore_ops | _ => True end.

Section Claims.
Context {M : Type}.
Variable m0 : M.
Variable init_cmd : option cmd.
Variable update : M -> msg -> option (M * option cmd).
Variable inputs : list msg.
Notation step := (step m0 init_cmd update inputs).
Notation steps := (steps m0 init_cmd update inputs).
Notation reachable := (reachable m0 init_cmd update inputs).

Lemma starts_only id i j cs e : In e (starts id i j cs) -> exists w c, e = EStarted w c.
Proof. revert j. induction cs as [|c cs IH]; intros j H; [destruct H|]. destruct H as [<-|H]; eauto. Qed.
Lemma starts_swallow id i j cs : swallowed (starts id i j cs) = 0.
Proof. revert j. induction cs as [|c cs IH]; intros j; [reflexivity|]. exact (IH (S j)). Qed.
Lemma gstep_events x g gs' evs : gstep inputs x g gs' evs -> (forall e, In e evs -> (exists w c, e = EStarted w c) \/ exists w, e = EDropped w) /\ swallowed evs + readers gs' <= readers [g].
Proof.
  intros K. destruct K; try (destruct back); cbn [back_to].
  all: try (split; [intros e Q; cbn [In] in Q; destruct Q as [<-|Q]; [eauto|destruct Q]|cbn; lia]); try (split; [intros e Q; destruct Q; fail|cbn; lia]).
  split; [intros e Q; left; eapply starts_only; eauto|]. rewrite starts_swallow. cbn. lia.
Qed.

Lemma after_step s s' r e : st_main s = PReturned r e \/ st_main s = PCrashed -> step s s' ->
  (st_main s' = st_main s \/ st_main s' = PCrashed) /\ exists new, st_log s' = new ++ st_log s /\ (forall ev, In ev new -> (exists w c, ev = EStarted w c) \/ exists w, ev = EDropped w) /\ swallowed new + readers (st_gs s') <= readers (st_gs s).
Proof.
  intros H K. destruct K; cbn [st_main st_log st_gs] in *; try (destruct H as [H|H]; discriminate).
  all: try (split; [now auto|]; exists []; split; [reflexivity|]; split; [intros ev []|]; count; fail).
  - destruct (gstep_events _ _ _ _ H0) as [A B]. split; [auto|]. exists evs. split; [reflexivity|]. split; [exact A|]. change (g :: l2) with ([g] ++ l2). rewrite !readers_app. lia.
  - split; [auto|]. exists [EStarted (WCmd id) c]. split; [reflexivity|]. split; [intros ev [<-|[]]; eauto|]. count.
  - split; [auto|]. exists [EStarted (WCmd id) c]. split; [reflexivity|]. split; [intros ev [<-|[]]; eauto|]. count.
Qed.

(** ** C84 *)

(** After Run has returned nothing more is done with the model: no message is taken, Update is not called, nothing is drawn, and Run's
    results stay. At most one input message is taken from the reader. *)
Theorem C84_quiet : forall s s' r e, st_main s = PReturned r e -> steps s s' ->
  (st_main s' = PReturned r e \/ st_main s' = PCrashed) /\
  exists later, history s' = history s ++ later /\ taken later = [] /\ updates later = [] /\ drawn later = 0 /\ (forall id c, ~ In (EReturned id c) later) /\ (forall id cs, ~ In (ESpawned id cs) later).
Proof.
  intros s s' r e H T.
  assert (G : (st_main s' = PReturned r e \/ st_main s' = PCrashed) /\ exists new, st_log s' = new ++ st_log s /\ (forall ev, In ev new -> (exists w c, ev = EStarted w c) \/ exists w, ev = EDropped w)).
  { induction T as [|a b c T IH K]; [split; [auto|]; exists []; split; [reflexivity|intros ev []]|]. destruct (IH H) as (A & new & B & C). destruct (after_step b c r e A K) as (A' & new' & B' & C' & _). split.
    - destruct A' as [A'|A']; [rewrite A'; exact A|auto].
    - exists (new' ++ new). rewrite B', B, app_assoc. split; [reflexivity|]. intros ev Q. apply in_app_iff in Q. destruct Q; auto. }
  destruct G as (A & new & B & C). split; [exact A|]. exists (rev new). unfold history. rewrite B, rev_app_distr. split; [reflexivity|].
  assert (C' : forall ev, In ev (rev new) -> (exists w c, ev = EStarted w c) \/ exists w, ev = EDropped w) by (intros ev Q; apply in_rev in Q; auto). revert C'. generalize (rev new). clear. intros l C.
  split; [|split; [|split; [|split]]].
  - induction l as [|x l IH]; [reflexivity|]. cbn. destruct (C x (or_introl eq_refl)) as [(w & c & ->)|(w & ->)]; cbn; apply IH; intros; apply C; now right.
  - induction l as [|x l IH]; [reflexivity|]. cbn. destruct (C x (or_introl eq_refl)) as [(w & c & ->)|(w & ->)]; cbn; apply IH; intros; apply C; now right.
  - unfold drawn. induction l as [|x l IH]; [reflexivity|]. cbn. destruct (C x (or_introl eq_refl)) as [(w & c & ->)|(w & ->)]; cbn; apply IH; intros; apply C; now right.
  - intros id c Q. destruct (C _ Q) as [(w & d & X)|(w & X)]; discriminate.
  - intros id c Q. destruct (C _ Q) as [(w & d & X)|(w & X)]; discriminate.
Qed.

Definition before_reader (p : main M) : bool := match p with PSetup _ | PDraw0 | PReader => true | _ => false end.
Lemma offers_readers g w m gs' : offers inputs g w m gs' -> readers gs' <= readers [g].
Proof. intros K. destruct K; cbn; try lia. destruct back; cbn; lia. Qed.
Lemma offers_err_readers g e gs' : offers_err g e gs' -> readers gs' <= readers [g].
Proof. intros K. destruct K; cbn; try lia. destruct back; cbn; lia. Qed.
Lemma one_reader s : reachable s -> readers (st_gs s) <= 1 /\ (before_reader (st_main s) = true -> readers (st_gs s) = 0).
Proof.
  apply (inv_reach m0 init_cmd update inputs (fun s => readers (st_gs s) <= 1 /\ (before_reader (st_main s) = true -> readers (st_gs s) = 0))); [|cbn; auto]. intros a b K (A & B).
  assert (MID : forall l1 g l2 gs', readers gs' <= readers [g] -> readers (l1 ++ gs' ++ l2) <= readers (l1 ++ g :: l2)) by (intros l1 g l2 gs' L; change (g :: l2) with ([g] ++ l2); rewrite !readers_app; lia).
  destruct K; cbn [st_main st_gs before_reader] in *.
  all: try (split; [revert A; count|intros Q; specialize (B Q); revert B; count]; fail).
  all: try (split; [revert A; count|discriminate]; fail).
  - destruct (gstep_events _ _ _ _ H) as [_ L]. assert (L' : readers gs' <= readers [g]) by lia. specialize (MID l1 g l2 gs' L'). split; [lia|]. intros Q. specialize (B Q). lia.
  - destruct init_cmd; [|auto]. rewrite readers_cons. auto.
  - pose proof (MID l1 g l2 gs' (offers_err_readers _ _ _ H)). split; [lia|discriminate].
  - pose proof (MID l1 g l2 gs' (offers_readers _ _ _ _ H)). split; [lia|discriminate].
  - pose proof (MID l1 g l2 gs' (offers_readers _ _ _ _ H)). split; [lia|discriminate].
  - pose proof (MID l1 g l2 gs' (offers_readers _ _ _ _ H)). split; [lia|discriminate].
  - pose proof (MID l1 g l2 gs' (offers_readers _ _ _ _ H)). split; [|discriminate]. rewrite readers_app. assert (Z : readers (fst (spawn_seq n y)) = 0) by (destruct y; reflexivity). lia.
Qed.
Theorem C84_one_input : forall s s' r e later, reachable s -> st_main s = PReturned r e -> steps s s' -> history s' = history s ++ later -> swallowed later <= 1.
Proof.
  intros s s' r e later R H T E. destruct (one_reader s R) as [A _].
  assert (G : (st_main s' = PReturned r e \/ st_main s' = PCrashed) /\ exists new, st_log s' = new ++ st_log s /\ swallowed new + readers (st_gs s') <= readers (st_gs s)).
  { clear E R A. induction T as [|a b c T IH K]; [split; [auto|]; exists []; split; [reflexivity|cbn; lia]|]. destruct (IH H) as (A & new & B & C). destruct (after_step b c r e A K) as (A' & new' & B' & _ & C'). split.
    - destruct A' as [A'|A']; [rewrite A'; exact A|auto].
    - exists (new' ++ new). rewrite B', B, app_assoc. split; [reflexivity|]. rewrite swallowed_app. lia. }
  destruct G as (_ & new & B & C). unfold history in E. rewrite B, rev_app_distr in E. apply app_inv_head in E. subst later.
  assert (Q : swallowed (rev new) = swallowed new) by (clear; induction new as [|x l IH]; [reflexivity|]; cbn [rev]; rewrite swallowed_app, IH; change (x :: l) with ([x] ++ l); rewrite swallowed_app; lia). lia.
Qed.
End Claims.
Print Assumptions C84_quiet.
Print Assumptions C84_one_input.

(** The keys pressed are quit and 5. Run returns without an error and with the terminal restored; then the reader, which nobody stopped,
    takes the 5 and throws it away. *)
Theorem C84_reader_refuted : exists s s', reachable 0 None plain_count [MQuit; MUser 5] s /\ st_main s = PReturned (Some 0) None /\ st_modes s = plain_modes /\
  steps 0 None plain_count [MQuit; MUser 5] s s' /\ history s' = history s ++ [EDropped (WInput 1)].
Proof.
  eexists. eexists. split; [|split; [|split; [|split]]].
  - unfold reachable, initial, setup_ops. do 3 go s_setup. go s_init. go s_draw0. go s_reader. go s_start.
    eapply steps_cons. { eapply (s_loop_quit _ _ _ _ _ 0 (GRead 0) _ _ [GCheck false; GListen; GHandler] []). apply o_input. reflexivity. } cbn [app].
    go s_end. go s_final. go s_shutdown.
    eapply steps_cons. { eapply (s_gor _ _ _ _ _ _ GListen _ _ [GCheck false]). apply g_listen_done. reflexivity. } cbn [app].
    eapply steps_cons. { eapply (s_gor _ _ _ _ _ _ GHandler _ _ [GCheck false]). apply g_handler_done. reflexivity. } cbn [app].
    eapply steps_cons. { eapply s_wait. reflexivity. } unfold restore_ops. do 4 go s_restore. go s_restored. apply steps_refl.
  - reflexivity.
  - reflexivity.
  - eapply steps_cons. { eapply (s_gor _ _ _ _ _ _ (GRead 1) _ _ [GCheck false] []). eapply g_read_done; reflexivity. } cbn [app]. apply steps_refl.
  - reflexivity.
Qed.
(** A sequence whose first command is Quit: its second command is started when Run has returned. *)
Definition quit_then_seven : cmd := sequence 5 [Some (quit_cmd 6); Some seven].
Theorem C84_commands_refuted : exists s s', reachable 0 (Some quit_then_seven) plain_count [] s /\ st_main s = PReturned (Some 1) None /\ st_modes s = plain_modes /\
  steps 0 (Some quit_then_seven) plain_count [] s s' /\ started (history s) = [quit_then_seven; quit_cmd 6] /\ started (history s') = [quit_then_seven; quit_cmd 6; seven].
Proof.
  eexists. eexists. split; [|split; [|split; [|split; [|split]]]].
  - unfold reachable, initial, setup_ops. do 3 go s_setup. go s_init. go s_draw0. go s_reader. go s_start.
    eapply steps_cons. { eapply (s_init_cmd' _ _ _ _ _ _ 0 quit_then_seven [GCheck false; GListen] [GRead 0] []). } cbn [app].
    eapply steps_cons. { eapply (s_gor _ _ _ _ _ _ (GRun 0 quit_then_seven) _ _ []). apply g_run. reflexivity. } cbn [app c_msg sequence quit_then_seven].
    eapply steps_cons. { eapply (s_loop_msg _ _ _ _ _ 0 (GSend 0 (MSeq [Some (quit_cmd 6); Some seven])) _ _ _ [] [GCheck false; GListen; GHandler; GRead 0]); [apply o_cmd|discriminate|discriminate]. } cbn [app back_to fst snd spawn_seq returned tag].
    eapply steps_cons. { eapply s_update. reflexivity. } cbn [app fst snd spawn_seq returned tag].
    eapply steps_cons. { eapply (s_send_nil _ _ _ _ _ _ [GSeq 1 0 [Some (quit_cmd 6); Some seven]; GCheck false; GListen] [GRead 0]). } go s_draw.
    eapply steps_cons. { eapply (s_gor _ _ _ _ _ _ (GSeq 1 0 [Some (quit_cmd 6); Some seven]) _ _ []). apply g_seq_start. } cbn [app].
    eapply steps_cons. { eapply (s_gor _ _ _ _ _ _ (GSeqRun 1 0 (quit_cmd 6) [Some seven]) _ _ []). apply g_seq_msg; [reflexivity|discriminate]. } cbn [app c_msg quit_cmd].
    eapply steps_cons. { eapply (s_loop_quit _ _ _ _ _ 1 (GSeqSend 1 0 MQuit [Some seven]) _ _ [] [GCheck false; GListen; GHandler; GRead 0]). apply o_seq. } cbn [app].
    go s_end. go s_final. go s_shutdown.
    eapply steps_cons. { eapply (s_gor _ _ _ _ _ _ GListen _ _ [GSeq 1 1 [Some seven]; GCheck false]). apply g_listen_done. reflexivity. } cbn [app].
    eapply steps_cons. { eapply (s_gor _ _ _ _ _ _ GHandler _ _ [GSeq 1 1 [Some seven]; GCheck false]). apply g_handler_done. reflexivity. } cbn [app].
    eapply steps_cons. { eapply s_wait. reflexivity. } unfold restore_ops. do 4 go s_restore. go s_restored. apply steps_refl.
  - reflexivity.
  - reflexivity.
  - eapply steps_cons. { eapply (s_gor _ _ _ _ _ _ (GSeq 1 1 [Some seven]) _ _ []). apply g_seq_start. } cbn [app]. apply steps_refl.
  - reflexivity.
  - reflexivity.
Qed.
Print Assumptions C84_reader_refuted.
Print Assumptions C84_commands_refuted.
(** The hypotheses of C84_quiet and C84_one_input are met, with something happening after Run has returned. *)
Example C84_instance : exists s s' later, reachable 0 None plain_count [MQuit; MUser 5] s /\ st_main s = PReturned (Some 0) None /\ steps 0 None plain_count [MQuit; MUser 5] s s' /\
  history s' = history s ++ later /\ swallowed later = 1.
Proof. destruct C84_reader_refuted as (s & s' & A & B & _ & C & D). exists s, s', [EDropped (WInput 1)]. auto. Qed.
