(** C93: who writes to the terminal of a running program. *)
From Verif Require Import Base M_Cmd M_App P_App P_AppIds P_AppLog P_AppRun P_AppEnd T_App T_AppRuns T_After.
From Coq Require Import List Bool Arith Lia.
Import ListNotations.

(** The goroutine that called Run is in, or may enter without any other goroutine finishing its own writing, a call that writes to the terminal:
    it sets the terminal up, draws, waits for a message (a size message makes it clear the screen) or puts the modes back. *)
Definition run_writes {M} (p : main M) : bool :=
  match p with PSetup (_ :: _) | PDraw0 | PLoop _ | PDraw _ | PFinalDraw _ | PRestore _ (_ :: _) => true | _ => false end.
(** Another goroutine is in such a call. *)
Definition other_writes (g : gor) : bool := match g with GRecoverOps (_ :: _) => true | _ => false end.
Definition writers {M} (s : state M) : nat := (if run_writes (st_main s) then 1 else 0) + length (filter other_writes (st_gs s)).

Section Claims.
Context {M : Type}.
Variable m0 : M.
Variable init_cmd : option cmd.
Variable update : M -> msg -> option (M * option cmd).
Variable inputs : list msg.
Notation step := (step m0 init_cmd update inputs).
Notation steps := (steps m0 init_cmd update inputs).
Notation reachable := (reachable m0 init_cmd update inputs).

Ltac parts := repeat (rewrite Forall_app in * || rewrite Forall_cons_iff in *).
Ltac whole := repeat (rewrite Forall_app || rewrite Forall_cons_iff).

(** * Programs whose commands do not panic *)
Definition calm_g (g : gor) : Prop :=
  match g with GRun _ c | GInit _ c => c_panics c = false | GRecover | GRecoverWait | GRecoverOps _ => False | _ => True end.
Definition calm_main (p : main M) : Prop := match p with PSendCmd _ (Some (_, c)) => c_panics c = false | _ => True end.
Lemma gstep_calm x g gs' evs : gstep inputs x g gs' evs -> calm_g g -> Forall calm_g gs'.
Proof.
  intros H C. destruct H; try (destruct back); cbn [back_to calm_g] in *; repeat constructor. congruence.
Qed.
Lemma offers_calm g w m gs' : offers inputs g w m gs' -> Forall calm_g gs'.
Proof. intros H. destruct H; try (destruct back); repeat constructor. Qed.
Lemma offers_err_calm g e gs' : offers_err g e gs' -> Forall calm_g gs'.
Proof. intros H. destruct H; try (destruct back); repeat constructor. Qed.
Lemma spawn_calm n y : Forall calm_g (fst (spawn_seq n y)).
Proof. destruct y; repeat constructor. Qed.
Definition calm_inv (s : state M) : Prop := Forall calm_g (st_gs s) /\ calm_main (st_main s).
Lemma calm_step (Hi : forall c, init_cmd = Some c -> c_panics c = false) (Hu : forall m y m' c, update m y = Some (m', Some c) -> c_panics c = false) a b :
  step a b -> calm_inv a -> calm_inv b.
Proof.
  unfold calm_inv. intros H [G P]. destruct H; cbn [st_gs st_main] in *; parts; whole; cbn [calm_g calm_main] in *; try tauto; try (split; [apply Forall_nil|exact Logic.I]).
  - pose proof (gstep_calm _ _ _ _ H). tauto.
  - destruct init_cmd as [d|]; parts; cbn [calm_g]; auto.
  - pose proof (offers_err_calm _ _ _ H). tauto.
  - pose proof (offers_calm _ _ _ _ H). tauto.
  - pose proof (offers_calm _ _ _ _ H). tauto.
  - pose proof (offers_calm _ _ _ _ H). tauto.
  - pose proof (offers_calm _ _ _ _ H). pose proof (spawn_calm n y). tauto.
  - split; [exact G|]. destruct c as [c|]; cbn [tag]; [eapply Hu; eauto|exact Logic.I].
Qed.
(** ** C93, without panics in commands: never do two goroutines write to the terminal; it is always the goroutine that called Run that writes. *)
Theorem C93_one_writer_partial s : (forall c, init_cmd = Some c -> c_panics c = false) -> (forall m y m' c, update m y = Some (m', Some c) -> c_panics c = false) ->
  reachable s -> writers s <= 1 /\ forall g, In g (st_gs s) -> other_writes g = false.
Proof.
  intros Hi Hu R. assert (K : calm_inv s). { eapply inv_reach; [|split; [constructor|exact Logic.I]|exact R]. intros a b. now apply calm_step. }
  destruct K as [K _]. rewrite Forall_forall in K. assert (Q : forall g, In g (st_gs s) -> other_writes g = false).
  { intros g Hg. specialize (K g Hg). destruct g; try reflexivity. destruct K. }
  split; [|exact Q]. unfold writers. replace (filter other_writes (st_gs s)) with (@nil gor); [destruct (run_writes (st_main s)); cbn; lia|].
  symmetry. clear K. induction (st_gs s) as [|g l IH]; [reflexivity|]. cbn [filter]. rewrite (Q g (or_introl eq_refl)). apply IH. intros g' I'. apply Q. now right.
Qed.

(** * When a command has panicked *)
Definition early (p : main M) : bool := match p with PSetup _ | PDraw0 | PReader | PStart => true | _ => false end.
Definition early_g (g : gor) : bool := match g with GInit _ _ | GRead _ | GReadErr => true | _ => false end.
Definition early_inv (s : state M) : Prop := early (st_main s) = true -> forallb early_g (st_gs s) = true.
Ltac bparts := repeat (rewrite forallb_app in * || cbn [forallb] in *); rewrite ?andb_true_iff in *.
Ltac opened := repeat match goal with H : _ /\ _ |- _ => destruct H end; try discriminate.
Lemma early_step a b : step a b -> early_inv a -> early_inv b.
Proof.
  unfold early_inv. intros H P. destruct H; cbn [st_gs st_main early] in *; intros E; try discriminate; try (specialize (P E)); try (specialize (P eq_refl)); try (destruct H); bparts; cbn [early_g] in *; opened; try tauto.
  destruct init_cmd; bparts; cbn [early_g]; auto.
Qed.
Lemma early_reach s : reachable s -> early_inv s.
Proof. intros R. eapply inv_reach; [|intros _; reflexivity|exact R]. exact early_step. Qed.
(** The context is done, the goroutines Run waits for are gone, and the program was running. *)
Definition late (s : state M) : Prop := st_cancelled s = true /\ existsb is_handler (st_gs s) = false /\ early (st_main s) = false.
Definition still (p : main M) : nat := match p with PDraw _ | PFinalDraw _ => 1 | _ => 0 end.
Ltac eparts := repeat (rewrite existsb_app in * || cbn [existsb is_handler] in *); rewrite ?orb_false_iff in *.
Lemma gstep_handlers x g gs' evs : gstep inputs x g gs' evs -> is_handler g = false -> existsb is_handler gs' = false.
Proof. intros H E. destruct H; try (destruct back); cbn in *; congruence. Qed.
Lemma offers_handlers g w m gs' : offers inputs g w m gs' -> is_handler g = false -> existsb is_handler gs' = false.
Proof. intros H E. destruct H; try (destruct back); cbn in *; congruence. Qed.
Lemma offers_err_handlers g e gs' : offers_err g e gs' -> is_handler g = false -> existsb is_handler gs' = false.
Proof. intros H E. destruct H; try (destruct back); cbn in *; congruence. Qed.
Lemma spawn_handlers n y : existsb is_handler (fst (spawn_seq n y)) = false.
Proof. destruct y; reflexivity. Qed.
Lemma late_step a b : step a b -> late a -> late b /\ draws (st_log b) + still (st_main b) <= draws (st_log a) + still (st_main a).
Proof.
  unfold late. intros H (C & G & P). destruct H; cbn [st_gs st_main st_cancelled st_log early still] in *; try discriminate; eparts; opened.
  all: try (split; [repeat split; tauto|]; unfold draws; cbn; lia).
  - pose proof (gstep_handlers _ _ _ _ H). rewrite (gstep_draws inputs _ _ _ _ lg H). split; [repeat split; tauto|lia].
  - pose proof (offers_err_handlers _ _ _ H). split; [repeat split; tauto|lia].
  - pose proof (offers_handlers _ _ _ _ H). split; [repeat split; tauto|]. unfold draws; cbn; lia.
  - pose proof (offers_handlers _ _ _ _ H). split; [repeat split; tauto|]. unfold draws; cbn; lia.
  - pose proof (offers_handlers _ _ _ _ H). split; [repeat split; tauto|]. unfold draws; cbn; lia.
  - pose proof (offers_handlers _ _ _ _ H). pose proof (spawn_handlers n y). split; [repeat split; tauto|]. destruct y; unfold draws; cbn; lia.
  - split; [repeat split; tauto|]. destruct c; unfold draws; cbn; lia.
Qed.
Lemma late_steps a b : steps a b -> late a -> late b /\ draws (st_log b) + still (st_main b) <= draws (st_log a) + still (st_main a).
Proof.
  intros H L. induction H as [s|s s' s'' H1 IH H2]; [split; [exact L|lia]|]. destruct (IH L) as [L' D]. destruct (late_step _ _ H2 L') as [L'' D']. split; [exact L''|lia].
Qed.
(** A goroutine that has panicked and has cancelled the context. *)
Definition past_cancel (g : gor) : bool := match g with GRecoverWait | GRecoverOps _ => true | _ => false end.
Definition cancel_inv (s : state M) : Prop := existsb past_cancel (st_gs s) = true -> st_cancelled s = true.
Lemma gstep_past x g gs' evs : gstep inputs x g gs' evs -> existsb past_cancel gs' = false.
Proof. intros H. destruct H; try (destruct back); reflexivity. Qed.
Lemma offers_past g w m gs' : offers inputs g w m gs' -> existsb past_cancel gs' = false.
Proof. intros H. destruct H; try (destruct back); reflexivity. Qed.
Lemma offers_err_past g e gs' : offers_err g e gs' -> existsb past_cancel gs' = false.
Proof. intros H. destruct H; try (destruct back); reflexivity. Qed.
Lemma spawn_past n y : existsb past_cancel (fst (spawn_seq n y)) = false.
Proof. destruct y; reflexivity. Qed.
Ltac ors := repeat (rewrite existsb_app in * || cbn [existsb past_cancel] in *); rewrite ?orb_true_iff in *; cbn [orb] in *.
Lemma cancel_step a b : step a b -> cancel_inv a -> cancel_inv b.
Proof.
  unfold cancel_inv. intros H P. destruct H; cbn [st_gs st_cancelled] in *; ors; try tauto; try discriminate.
  all: try (destruct init_cmd); try (rewrite (gstep_past _ _ _ _ H)); try (rewrite (offers_err_past _ _ _ H)); try (rewrite (offers_past _ _ _ _ H)); rewrite ?spawn_past; ors; intuition discriminate.
Qed.
Lemma cancel_reach s : reachable s -> cancel_inv s.
Proof. intros R. eapply inv_reach; [|intros H; discriminate H|exact R]. exact cancel_step. Qed.
Definition recovering (g : gor) : bool := match g with GRecoverOps _ => true | _ => false end.
Definition late_inv (s : state M) : Prop := existsb recovering (st_gs s) = true -> late s.
Lemma gstep_rec x g gs' evs : gstep inputs x g gs' evs -> existsb recovering gs' = false.
Proof. intros H. destruct H; try (destruct back); reflexivity. Qed.
Lemma offers_rec g w m gs' : offers inputs g w m gs' -> existsb recovering gs' = false.
Proof. intros H. destruct H; try (destruct back); reflexivity. Qed.
Lemma offers_err_rec g e gs' : offers_err g e gs' -> existsb recovering gs' = false.
Proof. intros H. destruct H; try (destruct back); reflexivity. Qed.
Lemma spawn_rec n y : existsb recovering (fst (spawn_seq n y)) = false.
Proof. destruct y; reflexivity. Qed.
Ltac rs := repeat (rewrite existsb_app in * || cbn [existsb recovering orb] in *); rewrite ?orb_false_iff, ?orb_true_iff in *; repeat match goal with H : _ \/ _ |- _ => destruct H | H : _ /\ _ |- _ => destruct H end.
Lemma late_reach s : reachable s -> late_inv s.
Proof.
  intros R. eapply inv_reach'; [|intros H; discriminate H|exact R]. clear s R. intros a b R H P.
  assert (D : existsb recovering (st_gs a) = true -> late_inv b). { intros E _. now apply (late_step a b H), P. }
  destruct (existsb recovering (st_gs a)) eqn:E; [now apply D|]. clear D P. intros F.
  pose proof (early_reach a R) as Ea. pose proof (cancel_reach a R) as Ca. unfold early_inv in Ea. unfold cancel_inv in Ca. clear R.
  destruct H; cbn [st_gs st_main st_cancelled] in *.
  4: { repeat split; cbn [st_cancelled st_gs st_main].
    - apply Ca. rewrite existsb_app. cbn. apply orb_true_r.
    - rewrite existsb_app in *. cbn. exact H.
    - destruct (early p); [|reflexivity]. specialize (Ea eq_refl). rewrite forallb_app in Ea. cbn in Ea. rewrite andb_false_r in Ea. discriminate. }
  all: exfalso; clear Ea Ca; try (destruct init_cmd); rewrite ?existsb_app in *; cbn [existsb recovering orb] in *; try (rewrite (gstep_rec _ _ _ _ H) in F); try (rewrite (offers_err_rec _ _ _ H) in F); try (rewrite (offers_rec _ _ _ _ H) in F);
    try (rewrite spawn_rec in F); rs; congruence.
Qed.
(** ** C93, whatever happens: once another goroutine has begun to put the terminal back, the screen is drawn at most once more. *)
Theorem C93_one_more_draw ops s s' : reachable s -> In (GRecoverOps ops) (st_gs s) -> steps s s' ->
  length (filter (fun e => match e with EDraw => true | _ => false end) (history s')) <= 1 + length (filter (fun e => match e with EDraw => true | _ => false end) (history s)).
Proof.
  intros R H Q. assert (L : late s). { apply (late_reach s R). apply existsb_exists. exists (GRecoverOps ops). split; [exact H|reflexivity]. }
  destruct (late_steps s s' Q L) as [_ D]. assert (W : forall lg, length (filter (fun e => match e with EDraw => true | _ => false end) (rev lg)) = draws lg).
  { intros lg. unfold draws. induction lg as [|e lg IH]; [reflexivity|]. cbn [rev flat_map]. rewrite filter_app, !app_length, IH. destruct e; cbn; lia. }
  unfold history. rewrite !W. assert (still (st_main s) <= 1) by (destruct (st_main s); cbn; lia). lia.
Qed.
End Claims.

(** A first command that panics while the loop is handling a message: the command's goroutine puts the terminal back while the loop draws. *)
Definition bad_cmd : cmd := Cmd 9 true MNil.
Lemma panic_run : reachable 0 (Some bad_cmd) plain_count [MUser 5] (State (PDraw 1) [GRecoverOps restore_ops; GCheck false; GRead 1] true (Modes true true true false) 3
  [EUpdate (MUser 5); EAccepted (WInput 0) (MUser 5); EStarted (WCmd 0) bad_cmd; EDraw; EReturned 0 bad_cmd]).
Proof.
  unfold reachable, initial, setup_ops. do 3 go s_setup. go s_init. go s_draw0. go s_reader. go s_start.
  eapply steps_cons. { eapply (s_init_cmd' _ _ _ _ _ _ 0 bad_cmd [GCheck false; GListen] [GRead 0] []). } cbn [app].
  eapply steps_cons. { eapply (s_loop_msg _ _ _ _ _ 0 (GRead 0) _ _ _ [GRun 0 bad_cmd; GCheck false; GListen; GHandler] []); [apply o_input; reflexivity|discriminate|discriminate]. } cbn [app back_to fst snd spawn_seq returned tag].
  eapply steps_cons. { eapply s_update. reflexivity. } cbn [app fst snd spawn_seq returned tag].
  eapply steps_cons. { eapply (s_send_nil _ _ _ _ _ _ [GRun 0 bad_cmd; GCheck false; GListen] [GRead 1]). }
  eapply steps_cons. { eapply (s_gor _ _ _ _ _ _ (GRun 0 bad_cmd) _ _ []). apply g_run_panic. reflexivity. } cbn [app].
  eapply steps_cons. { eapply (s_recover _ _ _ _ _ _ []). } cbn [app].
  eapply steps_cons. { eapply (s_gor _ _ _ _ _ _ GListen _ _ [GRecoverWait; GCheck false]). apply g_listen_done. reflexivity. } cbn [app].
  eapply steps_cons. { eapply (s_gor _ _ _ _ _ _ GHandler _ _ [GRecoverWait; GCheck false]). apply g_handler_done. reflexivity. } cbn [app].
  eapply steps_cons. { eapply (s_recover_wait _ _ _ _ _ _ []). reflexivity. } cbn [app]. apply steps_refl.
Qed.
Theorem C93_one_writer_refuted : exists s, reachable 0 (Some bad_cmd) plain_count [MUser 5] s /\ writers s = 2.
Proof. eexists. split; [exact panic_run|]. reflexivity. Qed.
(** And the frame can come when the modes are back to the usual ones: it is drawn over what the user had on the screen. *)
Theorem C93_late_draw_refuted : exists s s', reachable 0 (Some bad_cmd) plain_count [MUser 5] s /\ st_modes s = plain_modes /\ st_main s = PDraw 1 /\
  step 0 (Some bad_cmd) plain_count [MUser 5] s s' /\ history s' = history s ++ [EDraw].
Proof.
  eexists. eexists. split; [|split; [|split; [|split]]].
  - eapply reach_trans; [exact panic_run|]. unfold restore_ops.
    do 4 (eapply steps_cons; [eapply (s_recover_op _ _ _ _ _ _ _ _ [])|]; cbn [app apply_op md_raw md_hidden md_alt md_paste]). apply steps_refl.
  - reflexivity.
  - reflexivity.
  - apply s_draw.
  - reflexivity.
Qed.
(** The hypotheses of C93_one_writer_partial are met by a program that runs a command and draws; those of C93_one_more_draw by the run above. *)
Example C93_instance : (forall m y m' c, plain_count m y = Some (m', Some c) -> c_panics c = false) /\
  exists s, reachable 0 (Some seven) plain_count [] s /\ writers s = 1 /\ st_main s = PDraw 1 /\ updates (history s) = [MUser 7].
Proof.
  split; [discriminate|]. eexists. split; [|split; [|split]].
  - unfold reachable, initial, setup_ops. do 3 go s_setup. go s_init. go s_draw0. go s_reader. go s_start.
    eapply steps_cons. { eapply (s_init_cmd' _ _ _ _ _ _ 0 seven [GCheck false; GListen] [GRead 0] []). } cbn [app].
    eapply steps_cons. { eapply (s_gor _ _ _ _ _ _ (GRun 0 seven) _ _ []). apply g_run. reflexivity. } cbn [app c_msg seven].
    eapply steps_cons. { eapply (s_loop_msg _ _ _ _ _ 0 (GSend 0 (MUser 7)) _ _ _ [] [GCheck false; GListen; GHandler; GRead 0]); [apply o_cmd|discriminate|discriminate]. } cbn [app back_to fst snd spawn_seq returned tag].
    eapply steps_cons. { eapply s_update. reflexivity. } cbn [app fst snd spawn_seq returned tag].
    eapply steps_cons. { eapply (s_send_nil _ _ _ _ _ _ [GCheck false; GListen] [GRead 0]). } apply steps_refl.
  - reflexivity.
  - reflexivity.
  - reflexivity.
Qed.
Print Assumptions C93_one_writer_partial.
Print Assumptions C93_one_more_draw.
Print Assumptions C93_one_writer_refuted.
Print Assumptions C93_late_draw_refuted.
