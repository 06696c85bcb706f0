(** C46-C49, C51, C52, C54: running a program. *)
From Verif Require Import Base M_Cmd M_App P_App P_AppIds P_AppLog P_AppRun P_AppEnd.
From Coq Require Import List Bool Arith Lia Permutation.
Import ListNotations.

(** What has happened, oldest first. *)
Definition history {M} (s : state M) : list event := rev (st_log s).
(** The messages the event loop took, with their senders; those given to the model's Update. *)
Definition taken (h : list event) : list (who * msg) := flat_map (fun e => match e with EAccepted w m => [(w, m)] | _ => [] end) h.
Definition updates (h : list event) : list msg := flat_map (fun e => match e with EUpdate m => [m] | _ => [] end) h.
Definition drawn (h : list event) : nat := length (flat_map (fun e => match e with EDraw => [tt] | _ => [] end) h).
(** The messages of the input reader among those taken. *)
Definition from_reader (h : list event) : list msg := flat_map (fun e => match e with EAccepted (WInput _) m => [m] | _ => [] end) h.
(** Messages meant for the model: not nil, not quit. *)
Definition for_model (m : msg) : bool := match m with MNil | MQuit => false | _ => true end.
(** The message of a command of a sequence has been taken; if it is a batch, those of all its commands. *)
Definition delivered (h : list event) (id i : nat) (c : cmd) : Prop :=
  match c_msg c with
  | MBatch bs => forall j, j < length bs -> exists m, In (EAccepted (WSeq id i (S j)) m) h
  | _ => exists m, In (EAccepted (WSeq id i 0) m) h
  end.

Section Claims.
Context {M : Type}.
Variable m0 : M.
Variable init_cmd : option cmd.
Variable update : M -> msg -> option (M * option cmd).
Variable inputs : list msg.
Notation step := (step m0 init_cmd update inputs).
Notation steps := (steps m0 init_cmd update inputs).
Notation reachable := (reachable m0 init_cmd update inputs).

Lemma history_split (s : state M) h1 e h2 : history s = h1 ++ e :: h2 -> st_log s = rev h2 ++ e :: rev h1.
Proof. unfold history. intros H. rewrite <- (rev_involutive (st_log s)), H, rev_app_distr. cbn [rev]. rewrite <- app_assoc. reflexivity. Qed.
Lemma reach_just s h1 e h2 : reachable s -> history s = h1 ++ e :: h2 -> just inputs (rev h1) e.
Proof. intros R H. apply history_split in H. eapply all_just_at; [apply (reach_log _ _ _ _ _ R)|exact H]. Qed.
Lemma in_history (s : state M) e : In e (history s) <-> In e (st_log s).
Proof. unfold history. symmetry. apply in_rev. Qed.

(** ** C46 *)
(** The messages given to Update are those taken that are meant for the model, in the same order, each once; at most the last one
    is not given (yet, or because the terminal could not be resized). *)
Theorem C46_updates : forall s, reachable s -> exists rest,
  filter for_model (map snd (taken (history s))) = updates (history s) ++ rest /\ length rest <= 1.
Proof.
  change for_model with to_model.
  intros s R. pose proof (reach_upd _ _ _ _ _ R) as U. unfold upd_inv in U. cbv zeta in U.
  assert (E1 : taken (history s) = rev (acc (st_log s))) by (apply flat_map_rev; intros []; cbn; lia).
  assert (E2 : updates (history s) = rev (upd (st_log s))) by (apply flat_map_rev; intros []; cbn; lia).
  rewrite E1, E2, map_rev.
  assert (F : forall l : list msg, filter to_model (rev l) = rev (filter to_model l)) by (induction l as [|x l IH]; [reflexivity|]; cbn [rev filter]; rewrite filter_app, IH; cbn [filter]; destruct (to_model x); [reflexivity|apply app_nil_r]).
  rewrite F.
  assert (G : forall (l r : list msg), l = r \/ (exists y, l = y :: r) -> exists rest, rev l = rev r ++ rest /\ length rest <= 1) by (intros l r [->|(y & ->)]; [exists []; rewrite app_nil_r; cbn; auto|exists [y]; cbn; auto]).
  apply G. destruct U as [U|[_ (y & U)]]; [|right; eauto]. destruct (st_main s); auto; right; eauto.
Qed.
(** Every message taken comes from the input reader, the resize listener, or a command that was started before; a command's message
    is taken at most once. *)
Theorem C46_origin : forall s h1 w m h2, reachable s -> history s = h1 ++ EAccepted w m :: h2 ->
  match w with
  | WInput k => nth_error inputs k = Some m
  | WSize => m = MSize
  | _ => (exists c, In (EStarted w c) h1 /\ m = c_msg c) /\ forall m', ~ In (EAccepted w m') h1
  end.
Proof.
  intros s h1 w m h2 R H. pose proof (reach_just _ _ _ _ R H) as J. destruct w; cbn [just] in J; auto.
  - destruct J as [(c & S & E) N]. split; [exists c; split; [now apply in_rev|exact E]|]. intros m' I. apply (N m'). now apply -> in_rev.
  - destruct J as [(c & S & E) [_ N]]. split; [exists c; split; [now apply in_rev|exact E]|]. intros m' I. apply (N m'). now apply -> in_rev.
Qed.

(** The reader's messages are taken in the order it produced them, none left out, none twice. *)
Theorem C46_reader_order : forall s, reachable s -> exists k, from_reader (history s) = firstn k inputs.
Proof.
  intros s R. destruct (reach_reader _ _ _ _ _ R) as (k & K & _).
  assert (J : all_just inputs (st_log s)) by apply (reach_log _ _ _ _ _ R). exists k.
  assert (E : from_reader (history s) = rev (from_reader (st_log s))) by (apply flat_map_rev; intros [| |[]| | | | | |]; cbn; lia). rewrite E.
  clear E R. revert k K. generalize (st_log s) J. clear s J. induction l as [|e l IH]; intros J k K.
  - cbn in K. destruct k; [reflexivity|]. rewrite seq_S, rev_app_distr in K. discriminate.
  - cbn [all_just] in J. destruct J as [J1 J2].
    assert (D : (exists k' m, e = EAccepted (WInput k') m) \/ (input_ks (e :: l) = input_ks l /\ from_reader (e :: l) = from_reader l)) by (destruct e as [| |[]| | | | | |]; eauto).
    destruct D as [(k' & m & ->)|[D1 D2]]; [|rewrite D2; apply IH; [exact J2|congruence]].
    cbn in J1. destruct k as [|k]; [discriminate|]. rewrite seq_S, rev_app_distr in K. cbn in K. injection K as E1 E2. subst k'.
    change (from_reader (EAccepted (WInput k) m :: l)) with (m :: from_reader l). cbn [rev]. rewrite (IH J2 k E2).
    clear -J1. revert k J1. induction inputs as [|y ys IHy]; intros k J1; [destruct k; discriminate|]. destruct k; cbn in *; [congruence|]. f_equal. auto.
Qed.

(** ** C47 *)
(** After a quit message nothing is taken and nothing given to the model; the screen is drawn at most once more. *)
Theorem C47_quit_stops : forall s h1 h2, reachable s -> history s = h1 ++ EQuit :: h2 -> taken h2 = [] /\ updates h2 = [] /\ drawn h2 <= 1.
Proof.
  intros s h1 h2 R H. apply history_split in H. destruct (reach_quit _ _ _ _ _ R _ _ H) as (_ & N & D & _ & _).
  assert (N' : nothing h2) by (intros e I; apply N; now apply -> in_rev).
  split; [|split].
  - clear -N'. induction h2 as [|e h IH]; [reflexivity|]. assert (Q := N' e (or_introl eq_refl)). unfold taken in *. cbn [flat_map]. rewrite IH; [destruct e; try reflexivity; destruct Q|]. intros x I. apply N'. now right.
  - exact (upd_nothing h2 N').
  - unfold draws in D. rewrite flat_map_rev, rev_length in D; [|intros []; cbn; lia]. unfold drawn. lia.
Qed.
(** The model never sees a quit message. *)
Theorem C47_quit_hidden : forall s, reachable s -> ~ In (EUpdate MQuit) (history s).
Proof.
  intros s R I. destruct (C46_updates s R) as (rest & E & _).
  assert (J : In MQuit (updates (history s) ++ rest)). { apply in_or_app. left. unfold updates. apply in_flat_map. exists (EUpdate MQuit). split; [exact I|now left]. }
  rewrite <- E in J. apply filter_In in J. destruct J as [_ J]. discriminate.
Qed.
(** If Run returns after a quit message, then with the model as the last update left it, no error and the terminal restored; or
    the context was cancelled; or putting back a terminal mode failed. (No model is returned if drawing panicked.) *)
Theorem C47_result_partial : forall s r e, reachable s -> In EQuit (history s) -> st_main s = PReturned r e ->
  (forall m, r = Some m -> model_after update m0 (updates (history s)) = Some m) /\
  (e = None /\ (In EFailed (history s) \/ st_modes s = plain_modes) \/ e = Some EKilled /\ st_cancelled s = true \/ e = Some EShutdown /\ In EFailed (history s)).
Proof.
  intros s r e R I E. split.
  - intros m ->. pose proof (reach_model _ _ _ _ _ R m) as K. unfold cur in K. rewrite E in K. unfold updates, history. rewrite flat_map_rev by (intros []; cbn; lia). now apply K.
  - rewrite !in_history in *. pose proof I as I'. apply in_split in I'. destruct I' as (a & b & S). destruct (reach_quit _ _ _ _ _ R a b S) as (_ & _ & _ & Q & _).
    destruct (Q r e E) as [Q1|[(Q1 & Q2)|Q1]]; auto.
    + right. right. split; [exact Q1|]. rewrite S. apply in_or_app. now left.
    + left. split; [exact Q1|]. subst e. destruct (reach_mode _ _ _ _ _ R) as (_ & _ & K). rewrite E in K. exact K.
Qed.
(** Having handled a quit message, and the context not cancelled, Run can return so: nothing it waits for can hold it up. *)
Theorem C47_can_finish : forall s m, reachable s -> st_main s = PLoopEnd m None -> st_cancelled s = false ->
  exists s', steps s s' /\ st_main s' = PReturned (Some m) None /\ st_modes s' = plain_modes.
Proof.
  intros s m R E C. destruct (reach_mode _ _ _ _ _ R) as (P & _). destruct s as [p gs x md n lg]. cbn [st_main st_cancelled st_modes] in *. subst.
  destruct (shutdown_ends m0 init_cmd update inputs (Some m) gs false md n (EDraw :: lg)) as (s' & S & E & Q). exists s'. split; [|auto].
  eapply steps_cons; [apply s_end|]. eapply steps_cons; [apply s_final|]. exact S.
Qed.

(** Running the command Quit stops the program: the message taken from it is a quit message, and the loop has handled it. *)
Lemma quit_step s' s'' : step s' s'' -> (forall w, In (EAccepted w MQuit) (st_log s') -> In EQuit (st_log s')) -> forall w, In (EAccepted w MQuit) (st_log s'') -> In EQuit (st_log s'').
Proof.
  intros St IH. assert (G : forall p gs x md n lg evs, s'' = State p gs x md n (evs ++ lg) -> st_log s' = lg -> (forall w, In (EAccepted w MQuit) evs -> In EQuit evs) -> forall w, In (EAccepted w MQuit) (st_log s'') -> In EQuit (st_log s'')).
  { intros p gs x md n lg evs -> <- H w I. cbn in *. rewrite in_app_iff in *. destruct I as [I|I]; eauto. }
  destruct St; try (eapply (G _ _ _ _ _ _ []); [reflexivity|reflexivity|contradiction]); try (eapply (G _ _ _ _ _ _ [_]); [reflexivity|reflexivity|intros w1 [E|[]]; discriminate]).
  - eapply (G _ _ _ _ _ _ evs); [reflexivity|reflexivity|]. intros w I. exfalso. clear -H I. destruct H; cbn in I; try contradiction; try (destruct I as [I|[]]; discriminate). revert I. clear H0. generalize 1. induction cs as [|c1 cs IH]; intros k I; [exact I|]. cbn in I. destruct I as [I|I]; [discriminate|]. eapply IH. exact I.
  - eapply (G _ _ _ _ _ _ (returned n init_cmd)); [reflexivity|reflexivity|]. intros w I. destruct init_cmd; cbn in I; [destruct I as [I|[]]; discriminate|contradiction].
  - intros v _. now left.
  - intros v. cbn [st_log]. rewrite !in_app_iff. intros [I|[E|I]]; [destruct y; cbn in I; try contradiction; destruct I as [I|[]]; discriminate|injection E as _ E; contradiction|]. right. right. eapply IH. exact I.
  - intros v. cbn [st_log]. rewrite !in_app_iff. intros [I|[E|I]]; [destruct c; cbn in I; [destruct I as [I|[]]; discriminate|contradiction]|discriminate|]. right. right. eapply IH. exact I.
Qed.
Lemma quit_taken s : reachable s -> forall w, In (EAccepted w MQuit) (st_log s) -> In EQuit (st_log s).
Proof. apply (inv_reach m0 init_cmd update inputs (fun s => forall w, In (EAccepted w MQuit) (st_log s) -> In EQuit (st_log s))); [intros; eapply quit_step; eauto|intros w []]. Qed.
Theorem C47_quit_command : forall s w k m, reachable s -> In (EStarted w (quit_cmd k)) (history s) -> In (EAccepted w m) (history s) -> m = MQuit /\ In EQuit (history s).
Proof.
  intros s w k m R St Ac. assert (E : m = MQuit).
  { apply in_split in Ac. destruct Ac as (h1 & h2 & H). pose proof (reach_just _ _ _ _ R H) as J. assert (U : forall c, In (EStarted w c) (history s) -> c = quit_cmd k).
    { assert (One : forall h1 c h2 c' h3, history s = h1 ++ EStarted w c :: h2 ++ EStarted w c' :: h3 -> False).
      { intros a c b c' d Eh. assert (Eh' : history s = (a ++ EStarted w c :: b) ++ EStarted w c' :: d) by (rewrite <- app_assoc; exact Eh). pose proof (reach_just _ _ _ _ R Eh') as K. assert (I : In (EStarted w c) (rev (a ++ EStarted w c :: b))) by (apply -> in_rev; apply in_elt). destruct w; cbn [just] in K; try contradiction; [destruct K as [_ K]|destruct K as (_ & _ & K)]; eapply K; exact I. }
      intros c I. apply in_split in St. destruct St as (a & b & Es). rewrite Es in I. apply in_app_iff in I. destruct I as [I|[I|I]]; [|now injection I as <-|].
      - apply in_split in I. destruct I as (a1 & a2 & ->). rewrite <- app_assoc in Es. cbn in Es. destruct (One _ _ _ _ _ Es).
      - apply in_split in I. destruct I as (b1 & b2 & ->). destruct (One _ _ _ _ _ Es). }
    assert (Si : forall c, In (EStarted w c) (rev h1) -> In (EStarted w c) (history s)) by (intros c I; rewrite H; apply in_app_iff; left; now apply in_rev).
    apply in_split in St. destruct St as (a & b & Es). pose proof (reach_just _ _ _ _ R Es) as K. destruct w; cbn [just] in J, K; try contradiction; destruct J as [(c & I & ->) _]; rewrite (U c (Si c I)); reflexivity. }
  subst m. split; [reflexivity|]. rewrite in_history in *. eapply quit_taken; eauto.
Qed.

(** ** C48 *)
(** A command starts at most once, and only if Init or Update returned it or it belongs to a sequence (or a batch in a sequence). *)
Theorem C48_at_most_once : forall s h1 w c h2, reachable s -> history s = h1 ++ EStarted w c :: h2 -> (forall c', ~ In (EStarted w c') h1) /\
  match w with
  | WCmd id => In (EReturned id c) h1
  | WSeq id i j => exists cs d, In (ESpawned id cs) h1 /\ nth_error cs i = Some (Some d) /\ (j = 0 /\ c = d \/ exists bs j', j = S j' /\ c_msg d = MBatch bs /\ nth_error bs j' = Some c)
  | _ => False
  end.
Proof.
  intros s h1 w c h2 R H. pose proof (reach_just _ _ _ _ R H) as J. destruct w; cbn [just] in J; try contradiction.
  - destruct J as [J N]. split; [intros c' I; apply (N c'); now apply -> in_rev|now apply in_rev].
  - destruct J as ((cs & d & S & E & D) & _ & N). split; [intros c' I; apply (N c'); now apply -> in_rev|]. exists cs, d. split; [now apply in_rev|]. split; [exact E|].
    destruct D as [D|(P & bs & B & C)]; [now left|right]. exists bs, (j - 1). split; [lia|]. auto.
Qed.
(** Every command that Init or Update returned has started, or is being handed over, unless the context is cancelled or the
    process is gone; and while it is being handed over the command handler is ready to take it. *)
Theorem C48_returned_partial : forall s id c, reachable s -> In (EReturned id c) (history s) -> st_cancelled s = false -> st_main s <> PCrashed ->
  In (EStarted (WCmd id) c) (history s) \/ In (GInit id c) (st_gs s) \/ exists m, st_main s = PSendCmd m (Some (id, c)) /\ In GHandler (st_gs s).
Proof.
  intros s id c R I C NC. rewrite !in_history in *. destruct (reach_cmd _ _ _ _ _ R id c I) as [Q|[Q|[(m & Q)|[Q|Q]]]]; auto; try congruence.
  right. right. exists m. split; [exact Q|]. apply (reach_handler _ _ _ _ _ R C). now rewrite Q.
Qed.
(** Every command of a sequence has started or the sequence is still on its way to it. *)
Theorem C48_sequence_partial : forall s id cs i c, reachable s -> In (ESpawned id cs) (history s) -> st_main s <> PCrashed -> nth_error cs i = Some (Some c) ->
  In (EStarted (WSeq id i 0) c) (history s) \/ exists g p, In g (st_gs s) /\ p <= i /\ seq_view g = Some (id, p, skipn p cs).
Proof.
  intros s id cs i c R I NC E. rewrite !in_history in *. destruct (reach_seq _ _ _ _ _ R id cs I) as [Q|(p & l & S & D & T)]; [congruence|].
  destruct (Nat.lt_ge_cases i p) as [L|L]; [left; eauto|]. destruct T as [T|(g & G & V)].
  - exfalso. assert (N : length cs <= p) by (pose proof (skipn_length p cs) as Z; rewrite S, T in Z; cbn in Z; lia). assert (Z : nth_error cs i <> None) by congruence. apply nth_error_Some in Z. lia.
  - right. exists g, p. subst l. auto.
Qed.

(** ** C49 *)
Lemma spawned_once lg id cs cs' : all_just inputs lg -> In (ESpawned id cs) lg -> In (ESpawned id cs') lg -> cs = cs'.
Proof.
  induction lg as [|e lg IH]; intros J I I'; [destruct I|]. cbn [all_just] in J. destruct J as [J1 J2]. destruct I as [->|I], I' as [E|I'].
  - congruence.
  - cbn in J1. now elim (proj1 J1 cs').
  - subst. cbn in J1. now elim (proj1 J1 cs).
  - auto.
Qed.
Lemma settled_delivered s h id i c : reachable s -> st_cancelled s = false -> (forall e, In e h -> In e (history s)) -> settled_cmd h id i c -> delivered h id i c.
Proof.
  intros R C Sub K. assert (D : forall w, settled h w -> exists m, In (EAccepted w m) h).
  { intros w [Q|Q]; [exact Q|]. apply Sub in Q. apply in_history in Q. apply (reach_drop _ _ _ _ _ R) in Q. congruence. }
  unfold settled_cmd, delivered in *. destruct (c_msg c); auto.
Qed.
Lemma settled_rev h id i c : settled_cmd (rev h) id i c -> settled_cmd h id i c.
Proof.
  assert (D : forall w, settled (rev h) w -> settled h w) by (intros w [(m & Q)|Q]; [left; exists m|right]; now apply in_rev).
  unfold settled_cmd. destruct (c_msg c); auto.
Qed.
Lemma order s h1 e h2 id cs i k d : reachable s -> history s = h1 ++ e :: h2 -> (match e with EStarted (WSeq id' i' _) _ | EAccepted (WSeq id' i' _) _ => id' = id /\ i' = i | _ => False end) ->
  In (ESpawned id cs) (history s) -> k < i -> nth_error cs k = Some (Some d) -> settled_cmd h1 id k d.
Proof.
  intros R H E I L N. pose proof (reach_just _ _ _ _ R H) as J. pose proof (reach_log _ _ _ _ _ R) as (_ & _ & _ & A).
  assert (D : done_before (rev h1) id i). { destruct e as [|[] ?|[] ?| | | | | |]; try contradiction; destruct E as [-> ->]; cbn in J; tauto. }
  destruct D as (cs' & S & D). apply settled_rev. apply D; [exact L|]. rewrite <- N. f_equal. apply (spawned_once (st_log s) id); [exact A| |now apply in_history].
  apply in_history. rewrite H. apply in_or_app. left. now apply in_rev.
Qed.
(** While the context is not cancelled: before a command of a sequence starts, the messages of all commands before it in the
    sequence have been taken; and they are taken before the messages of this one. *)
Theorem C49_start_order : forall s h1 id i j c h2 cs k d, reachable s -> st_cancelled s = false -> history s = h1 ++ EStarted (WSeq id i j) c :: h2 ->
  In (ESpawned id cs) (history s) -> k < i -> nth_error cs k = Some (Some d) -> delivered h1 id k d.
Proof.
  intros s h1 id i j c h2 cs k d R C H I L N. apply (settled_delivered s); auto; [intros e Q; rewrite H; apply in_or_app; now left|]. eapply order; eauto. cbn. auto.
Qed.
Theorem C49_message_order : forall s h1 id i j m h2 cs k d, reachable s -> st_cancelled s = false -> history s = h1 ++ EAccepted (WSeq id i j) m :: h2 ->
  In (ESpawned id cs) (history s) -> k < i -> nth_error cs k = Some (Some d) -> delivered h1 id k d.
Proof.
  intros s h1 id i j c h2 cs k d R C H I L N. apply (settled_delivered s); auto; [intros e Q; rewrite H; apply in_or_app; now left|]. eapply order; eauto. cbn. auto.
Qed.
(** A sequence starts when its message is taken; its commands are those of that message. *)
Theorem C49_spawned : forall s h1 id cs h2, reachable s -> history s = h1 ++ ESpawned id cs :: h2 -> exists h w, h1 = h ++ [EAccepted w (MSeq cs)].
Proof.
  intros s h1 id cs h2 R H. pose proof (reach_just _ _ _ _ R H) as J. cbn in J. destruct J as [_ (w & l & E)]. exists (rev l), w. rewrite <- (rev_involutive h1), E. reflexivity.
Qed.

(** ** C51 *)
(** After the context is cancelled Run can still return, except in two situations: a draw failed, or there is a command (or nil) to
    hand over and the command handler has gone. *)
Theorem C51_returns_partial : forall s, reachable s -> st_cancelled s = true -> st_main s <> PCrashed -> ~ doomed update s -> exists s' r e, steps s s' /\ st_main s' = PReturned r e.
Proof.
  intros [p gs x md n lg] R C NC D. cbn [st_cancelled st_main] in *. subst x.
  assert (LP : forall m gs md n lg, exists s' r e, steps (State (PLoop m) gs true md n lg) s' /\ st_main s' = PReturned r e).
  { intros. eexists _, (Some m), (Some EKilled). split; [eapply steps_cons; [apply s_loop_done|]; eapply steps_cons; [apply s_end_killed|]; apply steps_refl|reflexivity]. }
  assert (ST : forall gs md n lg, exists s' r e, steps (State PStart gs true md n lg) s' /\ st_main s' = PReturned r e).
  { intros. destruct (LP m0 (GCheck false :: GListen :: GHandler :: gs0) md0 n0 lg0) as (s' & r & e & S & E). exists s', r, e. split; [|exact E]. eapply steps_cons; [apply s_start|exact S]. }
  assert (SH : forall (q : option M) gs md n lg, exists s' r e, steps (State (PCancel q) gs true md n lg) s' /\ st_main s' = PReturned r e).
  { intros. destruct (shutdown_ends m0 init_cmd update inputs q gs0 true md0 n0 lg0) as (s' & S & E & _). exists s', q, None. auto. }
  assert (SE : forall m c gs md n lg, In GHandler gs -> exists s' r e, steps (State (PSendCmd m c) gs true md n lg) s' /\ st_main s' = PReturned r e).
  { intros m c gs0 md0 n0 lg0 I. apply in_split in I. destruct I as (l1 & l2 & ->). destruct c as [[id c]|].
    - destruct (LP m (GRun id c :: l1 ++ GHandler :: l2) md0 n0 (EDraw :: EStarted (WCmd id) c :: lg0)) as (s' & r & e & S & E). exists s', r, e. split; [|exact E]. eapply steps_cons; [apply s_send_cmd|]. eapply steps_cons; [apply s_draw|exact S].
    - destruct (LP m (l1 ++ GHandler :: l2) md0 n0 (EDraw :: lg0)) as (s' & r & e & S & E). exists s', r, e. split; [|exact E]. eapply steps_cons; [apply s_send_nil|]. eapply steps_cons; [apply s_draw|exact S]. }
  assert (HD : In GHandler gs \/ ~ In GHandler gs). { destruct (existsb (fun g => match g with GHandler => true | _ => false end) gs) eqn:X; [left; apply existsb_exists in X; destruct X as ([] & I & E); try discriminate; exact I|right; intros I; assert (Y : existsb (fun g => match g with GHandler => true | _ => false end) gs = true) by (apply existsb_exists; exists GHandler; auto); congruence]. }
  destruct p; unfold doomed in D; cbn [st_main st_gs] in D; try congruence.
  - eexists _, _, _. split; [eapply steps_cons; [apply s_setup_err|]; apply steps_refl|reflexivity].
  - destruct (ST (GRead 0 :: gs) md n (EDraw :: lg)) as (s' & r & e & S & E). exists s', r, e. split; [|exact E]. eapply steps_cons; [apply s_draw0|]. eapply steps_cons; [apply s_reader|exact S].
  - destruct (ST (GRead 0 :: gs) md n lg) as (s' & r & e & S & E). exists s', r, e. split; [|exact E]. eapply steps_cons; [apply s_reader|exact S].
  - apply ST.
  - apply LP.
  - destruct (update m x) as [[m' c]|] eqn:U.
    + destruct HD as [HD|HD]; [|elim D; split; [exact HD|congruence]]. destruct (SE m' (tag n c) gs md (S n) (returned n c ++ EUpdate x :: lg) HD) as (s' & r & e & S & E). exists s', r, e. split; [|exact E]. eapply steps_cons; [apply s_update; exact U|exact S].
    + destruct (SH None gs md n (EUpdate x :: lg)) as (s' & r & e & S & E). exists s', r, e. split; [|exact E]. eapply steps_cons; [apply s_update_panic; exact U|exact S].
  - destruct HD as [HD|HD]; [now apply SE|contradiction].
  - destruct (LP m gs md n (EDraw :: lg)) as (s' & r & e & S & E). exists s', r, e. split; [|exact E]. eapply steps_cons; [apply s_draw|exact S].
  - now elim D.
  - destruct e as [e|]; eexists _, _, _; (split; [eapply steps_cons; [first [apply s_end_err|apply s_end_killed]|]; apply steps_refl|reflexivity]).
  - destruct (SH (Some m) gs md n (EDraw :: lg)) as (s' & r & e & S & E). exists s', r, e. split; [|exact E]. eapply steps_cons; [apply s_final|exact S].
  - apply SH.
  - destruct (handlers_end m0 init_cmd update inputs (PWait r) md n gs [] lg eq_refl) as (gs' & lg' & N & S). eexists _, r, None. split; [eapply steps_trans; [exact S|]; eapply steps_cons; [apply s_wait; exact N|];
    do 4 (eapply steps_cons; [apply s_restore|]); eapply steps_cons; [apply s_restored|]; apply steps_refl|reflexivity].
  - assert (Q : forall ops md, exists s', steps (State (PRestore r ops) gs true md n lg) s' /\ st_main s' = PReturned r None).
    { clear. induction ops as [|o ops IH]; intros md; [eexists; split; [eapply steps_cons; [apply s_restored|apply steps_refl]|reflexivity]|]. destruct (IH (apply_op o md)) as (s' & S & E). exists s'. split; [|exact E]. eapply steps_cons; [apply s_restore|exact S]. }
    destruct (Q ops md) as (s' & S & E). exists s', r, None. auto.
  - eexists _, r, e. split; [apply steps_refl|reflexivity].
Qed.
(** In those two situations Run never returns, whatever happens. *)
Theorem C51_never : forall s s', doomed update s -> steps s s' -> forall r e, st_main s' <> PReturned r e.
Proof. intros s s' D S r e E. destruct (doomed_steps _ _ _ _ _ _ S D) as [Q|Q]; [|congruence]. unfold doomed in Q. rewrite E in Q. exact Q. Qed.

(** ** C52 *)
(** When Run returns without an error - after a quit message, or having recovered from a panic - the terminal is restored, unless
    putting back a mode failed. *)
Theorem C52_no_error_partial : forall s r, reachable s -> st_main s = PReturned r None -> ~ In EFailed (history s) -> st_modes s = plain_modes.
Proof. intros s r R E N. destruct (reach_mode _ _ _ _ _ R) as (_ & _ & K). rewrite E in K. destruct K as [K|K]; [|exact K]. elim N. now apply in_history. Qed.

(** ** C54 *)
(** A failed draw is never reported: Run does not return. *)
Theorem C54_failed_draw_hangs : forall s s' r e, st_main s = PErrSend -> steps s s' -> st_main s' <> PReturned r e.
Proof. intros s s' r e E S. apply (C51_never s); [|exact S]. unfold doomed. now rewrite E. Qed.
(** Errors of the reader and of asking for the size are reported: once the loop has taken one, Run returns it and nothing else. *)
Theorem C54_other_errors_partial : forall s s' m e, st_main s = PLoopEnd m (Some e) -> steps s s' ->
  st_main s' = PLoopEnd m (Some e) \/ st_main s' = PReturned (Some m) (Some e) \/ st_main s' = PCrashed.
Proof.
  intros s s' m e E S. induction S as [|s s' s'' S IH H]; [now left|]. specialize (IH E). clear E S. destruct H; cbn [st_main] in *; auto; destruct IH as [IH|[IH|IH]]; try discriminate; auto; injection IH as -> ->; auto.
Qed.
End Claims.
Print Assumptions C46_updates.
Print Assumptions C46_origin.
Print Assumptions C46_reader_order.
Print Assumptions C47_quit_stops.
Print Assumptions C47_quit_hidden.
Print Assumptions C47_result_partial.
Print Assumptions C47_can_finish.
Print Assumptions C47_quit_command.
Print Assumptions C48_at_most_once.
Print Assumptions C48_returned_partial.
Print Assumptions C48_sequence_partial.
Print Assumptions C49_start_order.
Print Assumptions C49_message_order.
Print Assumptions C49_spawned.
Print Assumptions C51_returns_partial.
Print Assumptions C51_never.
Print Assumptions C52_no_error_partial.
Print Assumptions C54_failed_draw_hangs.
Print Assumptions C54_other_errors_partial.
