(** Further invariants of the program runner: updates, quitting, commands, terminal modes, deadlocks. *)
From Verif Require Import Base M_Cmd M_App P_App P_AppIds P_AppLog.
From Coq Require Import List Bool Arith Lia Permutation.
Import ListNotations.

Definition upd (lg : list event) : list msg := flat_map (fun e => match e with EUpdate m => [m] | _ => [] end) lg.
Definition acc (lg : list event) : list (who * msg) := flat_map (fun e => match e with EAccepted w m => [(w, m)] | _ => [] end) lg.
Definition draws (lg : list event) : nat := length (flat_map (fun e => match e with EDraw => [tt] | _ => [] end) lg).
Definition to_model (m : msg) : bool := match m with MNil | MQuit => false | _ => true end.
Definition input_ks (lg : list event) : list nat := flat_map (fun e => match e with EAccepted (WInput k) _ => [k] | _ => [] end) lg.

Lemma flat_map_rev {A B} (f : A -> list B) l : (forall x, length (f x) <= 1) -> flat_map f (rev l) = rev (flat_map f l).
Proof.
  intros H. induction l as [|x l IH]; [reflexivity|]. cbn [rev flat_map]. rewrite flat_map_app, rev_app_distr, IH. cbn [flat_map]. rewrite app_nil_r. f_equal.
  specialize (H x). destruct (f x) as [|y [|z r]]; cbn in *; try reflexivity. lia.
Qed.

Section Inv.
Context {M : Type}.
Variable m0 : M.
Variable init_cmd : option cmd.
Variable update : M -> msg -> option (M * option cmd).
Variable inputs : list msg.
Notation step := (step m0 init_cmd update inputs).
Notation steps := (steps m0 init_cmd update inputs).
Notation reachable := (reachable m0 init_cmd update inputs).

Lemma steps_trans s s' s'' : steps s s' -> steps s' s'' -> steps s s''.
Proof. intros A B. revert A. induction B; intros A; [exact A|]. eapply steps_step; [now apply IHB|assumption]. Qed.
Lemma steps_cons s s' s'' : step s s' -> steps s' s'' -> steps s s''.
Proof. intros A B. eapply steps_trans; [eapply steps_step; [apply steps_refl|exact A]|exact B]. Qed.
Lemma reach_trans s s' : reachable s -> steps s s' -> reachable s'.
Proof. apply steps_trans. Qed.
Lemma inv_steps (I : state M -> Prop) s s' : (forall a b, step a b -> I a -> I b) -> steps s s' -> I s -> I s'.
Proof. intros H S K. induction S; eauto. Qed.
Lemma inv_reach (I : state M -> Prop) s : (forall a b, step a b -> I a -> I b) -> I initial -> reachable s -> I s.
Proof. intros H K R. eapply inv_steps; eauto. Qed.
(** With what is already known of reachable states. *)
Lemma inv_reach' (I : state M -> Prop) s : (forall a b, reachable a -> step a b -> I a -> I b) -> I initial -> reachable s -> I s.
Proof. intros H K R. unfold M_App.reachable in R. remember initial as i. induction R; [exact K|]. subst. eapply H; eauto. Qed.

(** What the goroutines besides Run's do not do. *)
Definition quiet (e : event) : bool := match e with EStarted _ _ | EDropped _ => true | _ => false end.
Lemma gstep_quiet x g gs' evs : gstep inputs x g gs' evs -> forall e, In e evs -> quiet e = true.
Proof. intros H e I. destruct H; cbn [In] in I; try contradiction; try (destruct I as [<-|[]]; reflexivity). apply starts_only in I. destruct I as (k & d & -> & _). reflexivity. Qed.
Lemma quiet_flat {A} (f : event -> list A) evs lg : (forall e, In e evs -> quiet e = true) -> (forall e, quiet e = true -> f e = []) -> flat_map f (evs ++ lg) = flat_map f lg.
Proof. intros H Q. rewrite flat_map_app. induction evs as [|e evs IH]; [reflexivity|]. cbn [flat_map]. rewrite (Q e); [|apply H; now left]. apply IH. intros. apply H. now right. Qed.
Lemma gstep_upd x g gs' evs lg : gstep inputs x g gs' evs -> upd (evs ++ lg) = upd lg.
Proof. intros H. apply quiet_flat; [now apply (gstep_quiet x g gs')|]. intros []; cbn; congruence. Qed.
Lemma gstep_acc x g gs' evs lg : gstep inputs x g gs' evs -> acc (evs ++ lg) = acc lg.
Proof. intros H. apply quiet_flat; [now apply (gstep_quiet x g gs')|]. intros []; cbn; congruence. Qed.
Lemma gstep_draws x g gs' evs lg : gstep inputs x g gs' evs -> draws (evs ++ lg) = draws lg.
Proof. intros H. unfold draws. f_equal. apply quiet_flat; [now apply (gstep_quiet x g gs')|]. intros []; cbn; congruence. Qed.
Lemma gstep_inputs x g gs' evs lg : gstep inputs x g gs' evs -> input_ks (evs ++ lg) = input_ks lg.
Proof. intros H. apply quiet_flat; [now apply (gstep_quiet x g gs')|]. intros []; cbn; congruence. Qed.

(** * Updates *)
Definition over (p : main M) : Prop := match p with PLoopEnd _ (Some _) | PReturned _ (Some _) | PCrashed => True | _ => False end.
Definition upd_inv (s : state M) : Prop :=
  let passed := filter to_model (map snd (acc (st_log s))) in
  (match st_main s with PUpdate _ y => passed = y :: upd (st_log s) | _ => passed = upd (st_log s) end) \/
  over (st_main s) /\ exists y, passed = y :: upd (st_log s).
Lemma upd_step a b : step a b -> upd_inv a -> upd_inv b.
Proof.
  intros H [K|[O (y0 & K)]]; unfold upd_inv in *; destruct H; cbn [st_log st_main over] in *; try contradiction;
    try (left; exact K); try (right; split; [exact I|exists y0; exact K]); try (right; split; [exact O|exists y0; exact K]);
    try (rewrite (gstep_upd _ _ _ _ _ H), (gstep_acc _ _ _ _ _ H); first [left; exact K|right; split; [exact O|exists y0; exact K]]).
  - destruct p; cbn [st_main]; try (left; exact K). right. split; [exact I|]. eauto.
  - destruct p; cbn [st_main]; try (left; exact K). right. split; [exact I|]. eauto.
  - left. destruct init_cmd; cbn; exact K.
  - right. split; [exact I|]. exists MSize. cbn. f_equal. exact K.
  - left. replace (acc (snd (spawn_seq n y) ++ EAccepted w y :: lg)) with ((w, y) :: acc lg) by (destruct y; reflexivity).
    replace (upd (snd (spawn_seq n y) ++ EAccepted w y :: lg)) with (upd lg) by (destruct y; reflexivity).
    cbn [map snd filter]. replace (to_model y) with true by (destruct y; first [reflexivity|congruence]). f_equal. exact K.
  - left. replace (acc (returned n c ++ EUpdate y :: lg)) with (acc lg) by (destruct c; reflexivity). replace (upd (returned n c ++ EUpdate y :: lg)) with (y :: upd lg) by (destruct c; reflexivity). exact K.
Qed.
Lemma reach_upd s : reachable s -> upd_inv s.
Proof. apply inv_reach; [apply upd_step|]. now left. Qed.

(** The model as it stands after some messages; None: an update panicked. *)
Fixpoint model_after (m : M) (l : list msg) : option M :=
  match l with
  | [] => Some m
  | y :: r => match update m y with Some (m', _) => model_after m' r | None => None end
  end.
Lemma model_after_app l1 l2 m : model_after m (l1 ++ l2) = match model_after m l1 with Some m' => model_after m' l2 | None => None end.
Proof. revert m. induction l1 as [|y l1 IH]; intros m; [reflexivity|]. cbn [app model_after]. destruct (update m y) as [[m' c]|]; auto. Qed.
Definition cur (p : main M) : option M :=
  match p with
  | PSetup _ | PDraw0 | PReader | PStart => Some m0
  | PLoop m | PUpdate m _ | PSendCmd m _ | PDraw m | PLoopEnd m _ | PFinalDraw m => Some m
  | PCancel r | PWait r | PRestore r _ | PReturned r _ => r
  | PErrSend | PCrashed => None
  end.
Definition model_inv (s : state M) : Prop := forall m, cur (st_main s) = Some m -> model_after m0 (rev (upd (st_log s))) = Some m.
Lemma model_step a b : step a b -> model_inv a -> model_inv b.
Proof.
  intros H K. unfold model_inv in *. destruct H; cbn [st_log st_main cur] in *; auto; try discriminate; try (rewrite (gstep_upd _ _ _ _ _ H); exact K).
  - intros m [= <-]. destruct init_cmd; cbn; now apply K.
  - intros m' [= <-]. replace (upd (snd (spawn_seq n y) ++ EAccepted w y :: lg)) with (upd lg) by (destruct y; reflexivity). now apply K.
  - intros m'' [= <-]. replace (upd (returned n c ++ EUpdate y :: lg)) with (y :: upd lg) by (destruct c; reflexivity). cbn [rev]. rewrite model_after_app, (K m eq_refl). cbn. now rewrite H.
Qed.
Lemma reach_model s : reachable s -> model_inv s.
Proof. apply inv_reach; [apply model_step|]. now intros m [= <-]. Qed.

(** * The reader *)
Definition is_reader (g : gor) : bool := match g with GRead _ => true | _ => false end.
Definition no_reader_yet (p : main M) : nat := match p with PSetup _ | PDraw0 | PReader => 1 | _ => 0 end.
Definition reader_inv (s : state M) : Prop :=
  exists k, input_ks (st_log s) = rev (seq 0 k) /\ (forall k', In (GRead k') (st_gs s) -> k' = k) /\
    length (filter is_reader (st_gs s)) + no_reader_yet (st_main s) <= 1 /\ (no_reader_yet (st_main s) = 1 -> k = 0).
Lemma filter_mid l1 g l2 : length (filter is_reader (l1 ++ g :: l2)) = length (filter is_reader [g]) + length (filter is_reader (l1 ++ l2)).
Proof. rewrite !filter_app, !app_length. cbn [filter]. destruct (is_reader g); cbn [length]; lia. Qed.
Lemma filter_mid' l1 gs l2 : length (filter is_reader (l1 ++ gs ++ l2)) = length (filter is_reader gs) + length (filter is_reader (l1 ++ l2)).
Proof. rewrite !filter_app, !app_length. lia. Qed.
Lemma no_reader l k : length (filter is_reader l) = 0 -> ~ In (GRead k) l.
Proof. intros H I. assert (J : In (GRead k) (filter is_reader l)) by (apply filter_In; auto). destruct (filter is_reader l); [exact J|discriminate]. Qed.

Lemma reader_keep (p p' : main M) l1 g l2 gs' lg lg' n x md n' x' md' : no_reader_yet p' = no_reader_yet p -> input_ks lg' = input_ks lg ->
  length (filter is_reader gs') <= length (filter is_reader [g]) -> (forall k, In (GRead k) gs' -> g = GRead k) ->
  reader_inv (State p (l1 ++ g :: l2) x md n lg) -> reader_inv (State p' (l1 ++ gs' ++ l2) x' md' n' lg').
Proof.
  intros EP EL L S (k & K1 & K2 & K3 & K4). unfold reader_inv in *. cbn [st_log st_main st_gs] in *. rewrite EP, EL. exists k. split; [exact K1|]. split; [|split; [|exact K4]].
  - intros k' I. apply K2. rewrite !in_app_iff in *. cbn [In]. destruct I as [I|[I|I]]; [now left|right; left; now apply S|right; now right].
  - rewrite filter_mid in K3. rewrite filter_mid'. lia.
Qed.

Lemma offers_reader m p' g w y gs' l1 l2 x md n lg x' md' n' lg' : offers inputs g w y gs' -> no_reader_yet p' = 0 -> input_ks lg' = input_ks (EAccepted w y :: lg) ->
  reader_inv (State (PLoop m) (l1 ++ g :: l2) x md n lg) -> reader_inv (State p' (l1 ++ gs' ++ l2) x' md' n' lg').
Proof.
  intros O EP EL R. destruct O;
    try (eapply reader_keep; [| | | |exact R]; [exact EP|exact EL|unfold back_to; try destruct back; cbn; lia|intros q; unfold back_to; try destruct back; cbn; intuition discriminate]; fail).
  destruct R as (k0 & K1 & K2 & K3 & K4). unfold reader_inv in *. cbn [st_log st_main st_gs] in *. rewrite EP, EL. rewrite filter_mid in K3. cbn [filter is_reader length no_reader_yet] in K3.
  assert (k = k0) by (apply K2; apply in_or_app; right; now left). subst k0. assert (Z : length (filter is_reader (l1 ++ l2)) = 0) by lia.
  exists (S k). split; [|split; [|split]].
  - rewrite seq_S, rev_app_distr. cbn. f_equal. exact K1.
  - intros k' I. apply in_app_or in I. cbn [app In] in I. destruct I as [I|[I|I]]; [elim (no_reader _ k' Z); apply in_or_app; now left|congruence|elim (no_reader _ k' Z); apply in_or_app; now right].
  - rewrite filter_mid'. cbn. lia.
  - discriminate.
Qed.

Lemma reader_step a b : step a b -> reader_inv a -> reader_inv b.
Proof.
  intros H K. destruct H;
    try (exact K);
    try (eapply (reader_keep p p l1 _ l2 [_]); [| | | |exact K]; [reflexivity|reflexivity|cbn; lia|cbn; intuition discriminate]; fail);
    try (destruct K as (k & K1 & K2 & K3 & K4); exists k; cbn [st_log st_main st_gs no_reader_yet] in *; repeat split; auto; try discriminate; try lia; fail).
  - eapply reader_keep; [| | | |exact K]; [reflexivity|now apply (gstep_inputs _ _ _ _ _ H)| |].
    + destruct H; unfold back_to; try destruct back; cbn; try lia.
    + intros k I. destruct H; unfold back_to in I; try destruct back; cbn in I; intuition discriminate.
  - eapply (reader_keep p p l1 _ l2 []); [| | | |exact K]; [reflexivity|reflexivity|cbn; lia|contradiction].
  - destruct K as (k & K1 & K2 & K3 & K4); exists k; cbn [st_log st_main st_gs no_reader_yet] in *. repeat split; auto; try contradiction; cbn; try lia; try discriminate.
  - destruct K as (k & K1 & K2 & K3 & K4); exists k; cbn [st_log st_main st_gs no_reader_yet] in *. repeat split; auto; try contradiction; cbn; try lia; try discriminate.
  - destruct K as (k & K1 & K2 & K3 & K4); exists k; cbn [st_log st_main st_gs no_reader_yet] in *. destruct init_cmd; cbn; repeat split; auto. intros k' [I|I]; [discriminate|auto].
  - destruct K as (k & K1 & K2 & K3 & K4); exists 0; cbn [st_log st_main st_gs no_reader_yet] in *. rewrite K4 in * by reflexivity. repeat split; auto; try discriminate.
    + intros k' [I|I]; [congruence|auto].
    + cbn [filter is_reader length]. lia.
  - destruct K as (k & K1 & K2 & K3 & K4); exists k; cbn [st_log st_main st_gs no_reader_yet] in *. repeat split; auto. intros k' [I|[I|[I|I]]]; try discriminate. auto.
  - eapply (reader_keep (PLoop m) _ l1 g l2 gs'); [| | | |exact K]; [reflexivity|reflexivity| |].
    + destruct H; unfold back_to; try destruct back; cbn; lia.
    + intros k I. destruct H; unfold back_to in I; try destruct back; cbn in I; intuition discriminate.
  - eapply offers_reader; [exact H| | |exact K]; reflexivity.
  - eapply offers_reader; [exact H| | |exact K]; reflexivity.
  - eapply offers_reader; [exact H| | |exact K]; reflexivity.
  - assert (Q : reader_inv (State (PUpdate m y) (l1 ++ gs' ++ l2) x md (S n) (snd (spawn_seq n y) ++ EAccepted w y :: lg))) by (eapply offers_reader; [exact H| | |exact K]; [reflexivity|destruct y; reflexivity]).
    destruct y; cbn [spawn_seq fst app] in *; try exact Q. destruct Q as (k & K1 & K2 & K3 & K4). exists k. cbn [st_log st_main st_gs no_reader_yet snd app] in *. repeat split; auto. intros k' [I|I]; [discriminate|auto].
  - destruct K as (k & K1 & K2 & K3 & K4); exists k; cbn [st_log st_main st_gs no_reader_yet] in *. destruct c; cbn; repeat split; auto.
  - destruct K as (k & K1 & K2 & K3 & K4); exists k; cbn [st_log st_main st_gs no_reader_yet] in *. repeat split; auto. intros k' [I|I]; [discriminate|auto].
  - destruct K as (k & K1 & K2 & K3 & K4); exists k; cbn [st_log st_main st_gs] in *. repeat split; auto.
    + intros k' [I|I]; [discriminate|]. apply K2. rewrite !in_app_iff in *. cbn [In] in *. rewrite in_app_iff in *. cbn [In] in *. tauto.
    + rewrite filter_mid in K3. cbn [filter is_reader length] in *. lia.
  - destruct K as (k & K1 & K2 & K3 & K4); exists k; cbn [st_log st_main st_gs] in *. repeat split; auto.
    + intros k' [I|I]; [discriminate|]. apply K2. rewrite !in_app_iff in *. cbn [In] in *. rewrite in_app_iff in *. cbn [In] in *. tauto.
    + rewrite filter_mid in K3. cbn [filter is_reader length] in *. rewrite filter_mid. rewrite app_assoc in K3. rewrite filter_mid in K3. cbn [filter is_reader length] in *. rewrite app_assoc. lia.
Qed.
Lemma reach_reader s : reachable s -> reader_inv s.
Proof. apply inv_reach; [apply reader_step|]. exists 0. repeat split; auto. intros k []. Qed.

(** * Quitting *)
Definition ended (p : main M) : bool := match p with PLoopEnd _ _ | PErrSend | PFinalDraw _ | PCancel _ | PWait _ | PRestore _ _ | PReturned _ _ | PCrashed => true | _ => false end.
Definition draw_left (p : main M) : nat := match p with PLoopEnd _ _ | PFinalDraw _ => 1 | _ => 0 end.
Definition nothing (a : list event) : Prop := forall e, In e a -> match e with EUpdate _ | EAccepted _ _ | EQuit => False | _ => True end.
Definition quit_inv (s : state M) : Prop := forall a b, st_log s = a ++ EQuit :: b ->
  ended (st_main s) = true /\ nothing a /\ draws a + draw_left (st_main s) <= 1 /\
  (forall r e, st_main s = PReturned r e -> (e = Some EKilled /\ st_cancelled s = true) \/ e = Some EShutdown /\ In EFailed a \/ e = None) /\
  (forall m e, st_main s = PLoopEnd m e -> e = None).

Lemma split_more {A} (evs lg a b : list A) (q : A) : ~ In q evs -> evs ++ lg = a ++ q :: b -> exists a', a = evs ++ a' /\ lg = a' ++ q :: b.
Proof.
  revert a. induction evs as [|e evs IH]; intros a N E; [exists a; auto|]. destruct a as [|x a]; cbn in E; injection E as E1 E2; [elim N; now left|].
  subst. destruct (IH a) as (a' & -> & ->); [intros I; apply N; now right|exact E2|]. exists a'. split; reflexivity.
Qed.
Lemma upd_nothing a : nothing a -> upd a = [].
Proof.
  intros H. induction a as [|e a IH]; [reflexivity|]. unfold upd in *. cbn [flat_map]. rewrite IH; [|intros x I; apply H; now right].
  specialize (H e (or_introl eq_refl)). destruct e; try reflexivity. destruct H.
Qed.
Definition calm (e : event) : bool := match e with EUpdate _ | EAccepted _ _ | EQuit => false | _ => true end.
Lemma draws_app a b : draws (a ++ b) = draws a + draws b.
Proof. unfold draws. rewrite flat_map_app, app_length. reflexivity. Qed.

(** A step that adds calm events and keeps the end in sight. *)
Lemma quit_keep (p p' : main M) gs gs' x x' md md' n n' lg evs : Forall (fun e => calm e = true) evs -> (x = true -> x' = true) ->
  (ended p = true -> ended p' = true /\ draws evs + draw_left p' <= draw_left p /\
     (forall r e, p' = PReturned r e -> (forall m, p <> PLoopEnd m None) -> p = PReturned r e \/ e = Some EShutdown /\ In EFailed evs \/ e = None \/ exists m e', p = PLoopEnd m (Some e')) /\
     (forall r e m, p' = PReturned r e -> p = PLoopEnd m None -> e = Some EKilled /\ x' = true) /\ (forall m e, p' = PLoopEnd m e -> exists m', p = PLoopEnd m' e)) ->
  quit_inv (State p gs x md n lg) -> quit_inv (State p' gs' x' md' n' (evs ++ lg)).
Proof.
  intros C X HP K a b E. cbn [st_log st_main st_cancelled] in *.
  assert (NQ : ~ In EQuit evs) by (intros I; rewrite Forall_forall in C; apply C in I; discriminate).
  destruct (split_more _ _ _ _ _ NQ E) as (a' & -> & E'). destruct (K a' b E') as (K1 & K2 & K3 & K4 & K5). cbn [st_log st_main st_cancelled] in *.
  destruct (HP K1) as (P1 & P2 & P3 & P4 & P5). split; [exact P1|]. split; [|split; [|split]].
  - intros e I. apply in_app_or in I. destruct I as [I|I]; [|now apply K2]. rewrite Forall_forall in C. apply C in I. destruct e; cbn in *; auto; discriminate.
  - rewrite draws_app. lia.
  - intros r e R. destruct p as [| | | | | | | | |m [e'|]| | | | | |];
      try (destruct (P3 r e R ltac:(discriminate)) as [Q|[(Q & Q')|[Q|(m' & e'' & Q)]]]; [|right; left; split; [exact Q|apply in_or_app; now left]|right; right; exact Q|]; try discriminate).
    + specialize (K5 _ _ eq_refl). discriminate.
    + left. exact (P4 r e m R eq_refl).
    + destruct (K4 r e Q) as [(T & U)|[(T & U)|T]]; [left; auto|right; left; split; [exact T|apply in_or_app; now right]|right; right; exact T].
  - intros m e R. destruct (P5 m e R) as (m' & Q). exact (K5 m' e Q).
Qed.

Lemma quit_none s : quit_inv s -> ended (st_main s) = false -> ~ In EQuit (st_log s).
Proof. intros K E I. apply in_split in I. destruct I as (a & b & I). destruct (K a b I) as [C _]. congruence. Qed.
Lemma quit_fresh s : ~ In EQuit (st_log s) -> quit_inv s.
Proof. intros N a b E. elim N. rewrite E. apply in_or_app. right. now left. Qed.
Ltac quit_side := intros; repeat split; cbn in *; try discriminate; try lia; try congruence; eauto 6.
Lemma quit_step a b : step a b -> quit_inv a -> quit_inv b.
Proof.
  intros H K. destruct H;
    try (eapply (quit_keep _ _ _ _ _ _ _ _ _ _ _ []); [constructor| | |exact K]; [now auto|quit_side]; fail);
    try (eapply (quit_keep _ _ _ _ _ _ _ _ _ _ _ [_]); [repeat constructor| | |exact K]; [now auto|quit_side]; fail).
  - eapply (quit_keep p p); [| | |exact K]; auto.
    + apply Forall_forall. intros e I. apply (gstep_quiet _ _ _ _ H) in I. destruct e; try discriminate; reflexivity.
    + assert (D : draws evs = 0) by (pose proof (gstep_draws _ _ _ _ [] H) as D; rewrite app_nil_r in D; rewrite D; reflexivity).
      intros E. rewrite D. repeat split; auto; intros; subst; try discriminate; eauto.
  - apply quit_fresh. pose proof (quit_none _ K eq_refl) as N. cbn [st_log] in *. destruct init_cmd; cbn; intuition discriminate.
  - apply quit_fresh. pose proof (quit_none _ K eq_refl) as N. cbn [st_log] in *. cbn. intuition discriminate.
  - pose proof (quit_none _ K eq_refl) as N. cbn [st_log] in *. intros a b E. cbn [st_log st_main st_cancelled] in *. destruct a as [|e a]; cbn in E.
    + injection E as <-. repeat split; auto; try discriminate; try (intros e []); try (cbn; lia); try congruence.
    + injection E as E1 E2. destruct a as [|e' a]; cbn in E2; [discriminate|]. injection E2 as E2 E3. elim N. rewrite E3. apply in_or_app. right. now left.
  - apply quit_fresh. pose proof (quit_none _ K eq_refl) as N. cbn [st_log] in *. cbn. intuition discriminate.
  - apply quit_fresh. pose proof (quit_none _ K eq_refl) as N. cbn [st_log] in *. destruct y; cbn; intuition discriminate.
  - apply quit_fresh. pose proof (quit_none _ K eq_refl) as N. cbn [st_log] in *. destruct c; cbn; intuition discriminate.
  - apply quit_fresh. pose proof (quit_none _ K eq_refl) as N. cbn [st_log] in *. cbn. intuition discriminate.
  - eapply (quit_keep _ _ _ _ _ _ _ _ _ _ _ [EFailed]); [repeat constructor| | |exact K]; [auto|]. intros E. repeat split; cbn; try lia; try discriminate.
    intros r' e [= <- <-] _. destruct r; [right; left; auto|right; right; left; reflexivity].
  - eapply (quit_keep _ _ _ _ _ _ _ _ _ _ _ []); [constructor| | |exact K]; [auto|]. intros E. repeat split; cbn; try lia; try discriminate.
    intros r' e [= <- <-] _. right; right; left; reflexivity.
Qed.
Lemma reach_quit s : reachable s -> quit_inv s.
Proof. apply inv_reach; [apply quit_step|]. now apply quit_fresh. Qed.

(** * Messages are given up only when the context is done *)
Lemma drop_step a b : step a b -> (forall w, In (EDropped w) (st_log a) -> st_cancelled a = true) -> (forall w, In (EDropped w) (st_log b) -> st_cancelled b = true).
Proof.
  intros H K w I. destruct H; cbn [st_log st_cancelled] in *; eauto;
    try (destruct I as [I|I]; [discriminate|]; try (destruct I as [I|I]; [discriminate|]); eauto; fail).
  - apply in_app_or in I. destruct I as [I|I]; [|eauto]. destruct H; cbn [In] in I; try contradiction; try assumption; try (destruct I as [I|[]]; discriminate).
    apply starts_only in I. destruct I as (k & d & E & _). discriminate.
  - apply (K w). destruct init_cmd; cbn in I; [destruct I as [I|I]; [discriminate|exact I]|exact I].
  - apply (K w). destruct y; cbn in I; try (destruct I as [I|I]; [discriminate|exact I]). destruct I as [I|[I|I]]; [discriminate|discriminate|exact I].
  - apply (K w). destruct c; cbn in I; [destruct I as [I|[I|I]]; [discriminate|discriminate|exact I]|destruct I as [I|I]; [discriminate|exact I]].
Qed.
Lemma reach_drop s : reachable s -> forall w, In (EDropped w) (st_log s) -> st_cancelled s = true.
Proof. apply (inv_reach (fun s => forall w, In (EDropped w) (st_log s) -> st_cancelled s = true)); [apply drop_step|]. intros w []. Qed.

(** * Commands *)
(** A command that Init or Update returned has been started, or waits for the command handler, or was given up when the context was
    done. *)
Definition cmd_inv (s : state M) : Prop := forall id c, In (EReturned id c) (st_log s) ->
  In (EStarted (WCmd id) c) (st_log s) \/ In (GInit id c) (st_gs s) \/ (exists m, st_main s = PSendCmd m (Some (id, c))) \/ st_cancelled s = true \/ st_main s = PCrashed.
Lemma cmd_step a b : step a b -> cmd_inv a -> cmd_inv b.
Proof.
  intros H K id0 c0 I.
  assert (T : forall p gs x md n lg p' gs' x' md' n' evs, a = State p gs x md n lg -> b = State p' gs' x' md' n' (evs ++ lg) -> (forall i d, In (EReturned i d) evs -> In (GInit i d) gs' \/ exists m, p' = PSendCmd m (Some (i, d))) ->
     (forall i d, In (GInit i d) gs -> In (GInit i d) gs' \/ In (EStarted (WCmd i) d) evs \/ x' = true \/ p' = PCrashed) -> (forall m i d, p = PSendCmd m (Some (i, d)) -> p' = p \/ In (EStarted (WCmd i) d) evs \/ p' = PCrashed) -> (x = true -> x' = true) -> (p = PCrashed -> p' = PCrashed) ->
     In (EStarted (WCmd id0) c0) (st_log b) \/ In (GInit id0 c0) (st_gs b) \/ (exists m, st_main b = PSendCmd m (Some (id0, c0))) \/ st_cancelled b = true \/ st_main b = PCrashed).
  { intros p gs x md n lg p' gs' x' md' n' evs -> -> T1 T2 T3 T4 T5. cbn [st_log st_gs st_main st_cancelled] in *. apply in_app_or in I. destruct I as [I|I].
    - destruct (T1 _ _ I) as [Q|Q]; auto.
    - destruct (K id0 c0 I) as [Q|[Q|[(m & Q)|[Q|Q]]]]; cbn [st_log st_gs st_main st_cancelled] in *; auto 8.
      + left. apply in_or_app. now right.
      + destruct (T2 _ _ Q) as [Z|[Z|[Z|Z]]]; auto 8. left. apply in_or_app. now left.
      + destruct (T3 _ _ _ Q) as [Z|[Z|Z]]; auto 8; [right; right; left; exists m; congruence|]. left. apply in_or_app. now left. }
  assert (MID : forall l1 g l2 gs' i (d : cmd), In (GInit i d) (l1 ++ g :: l2) -> (forall i d, g <> GInit i d) -> In (GInit i d) (l1 ++ gs' ++ l2)).
  { intros l1 g l2 gs' i d J N. rewrite !in_app_iff in *. cbn [In] in J. destruct J as [J|[J|J]]; auto. now elim (N i d). }
  destruct H;
    try (eapply (T _ _ _ _ _ _ _ _ _ _ _ []); [reflexivity|reflexivity| | | | |]; cbn; try contradiction; try discriminate; auto; fail);
    try (eapply (T _ _ _ _ _ _ _ _ _ _ _ [_]); [reflexivity|reflexivity| | | | |]; cbn; try (intros ? ? [?|[]]; discriminate); try discriminate; auto; fail);
    try (eapply (T _ _ _ _ _ _ _ _ _ _ _ []); [reflexivity|reflexivity|contradiction| | | |]; [intros i d J; left; apply (MID _ _ _ [_] _ _ J); discriminate|auto|auto|auto]; fail);
    try (eapply (T _ _ _ _ _ _ _ _ _ _ _ [_]); [reflexivity|reflexivity|intros ? ? [?|[]]; discriminate| | | |]; [intros i d J; left; apply (MID _ _ _ _ _ _ J); intros ? ? ->; inversion H|try discriminate; auto|auto|try discriminate; auto]; fail).
  - eapply (T _ _ _ _ _ _ _ _ _ _ _ evs); [reflexivity|reflexivity| | | | |]; auto.
    + intros i d J. apply (gstep_quiet _ _ _ _ H) in J. discriminate.
    + intros i d J. destruct g; try (left; apply (MID _ _ _ _ _ _ J); discriminate). inversion H; subst. auto.
  - eapply (T _ _ _ _ _ _ _ _ _ _ _ []); [reflexivity|reflexivity|contradiction| | | |]; auto. intros i d J. left. apply (MID _ _ _ [] _ _ J). discriminate.
  - eapply (T _ _ _ _ _ _ _ _ _ _ _ (returned n init_cmd)); [reflexivity|reflexivity| | | | |]; auto; try discriminate.
    + intros i d J. destruct init_cmd; cbn in J; [|contradiction]. destruct J as [J|[]]. injection J as <- <-. left. now left.
    + intros i d J. left. destruct init_cmd; [now right|exact J].
  - eapply (T _ _ _ _ _ _ _ _ _ _ _ []); [reflexivity|reflexivity|contradiction| | | |]; auto; try discriminate. intros i d J. left. apply (MID _ _ _ _ _ _ J). intros ? ? ->. inversion H.
  - eapply (T _ _ _ _ _ _ _ _ _ _ _ [_; _]); [reflexivity|reflexivity|intros ? ? [?|[?|[]]]; discriminate| | | |]; auto; try discriminate. intros i d J. left. apply (MID _ _ _ _ _ _ J). intros ? ? ->. inversion H.
  - eapply (T _ _ _ _ _ _ _ _ _ _ _ (snd (spawn_seq n y) ++ [EAccepted w y])); [reflexivity|rewrite <- app_assoc; reflexivity| | | | |]; auto; try discriminate.
    + intros i d J. destruct y; cbn in J; intuition discriminate.
    + intros i d J. left. apply in_or_app. right. apply (MID _ _ _ _ _ _ J). intros ? ? ->. inversion H.
  - eapply (T _ _ _ _ _ _ _ _ _ _ _ (returned n c ++ [EUpdate y])); [reflexivity|rewrite <- app_assoc; reflexivity| | | | |]; auto; try discriminate.
    intros i d J. destruct c; cbn in J; [destruct J as [J|[J|[]]]|destruct J as [J|[]]]; try discriminate. injection J as <- <-. right. cbn. eauto.
  - eapply (T _ _ _ _ _ _ _ _ _ _ _ [_]); [reflexivity|reflexivity|intros ? ? [?|[]]; discriminate| | | |]; auto; try discriminate.
    + intros i d J. left. now right.
    + intros m' i d [= <- <- <-]. right. left. now left.
  - eapply (T _ _ _ _ _ _ _ _ _ _ _ [_]); [reflexivity|reflexivity|intros ? ? [?|[]]; discriminate| | | |]; auto; try discriminate.
    intros i d J. rewrite in_app_iff in J. cbn [In] in J. destruct J as [J|[J|J]]; [left; right; apply in_or_app; now left|injection J as <- <-; right; left; now left|left; right; apply in_or_app; now right].
  - eapply (T _ _ _ _ _ _ _ _ _ _ _ [_]); [reflexivity|reflexivity|intros ? ? [?|[]]; discriminate| | | |]; auto; try discriminate.
    intros i d J. rewrite in_app_iff in J. cbn [In] in J. rewrite in_app_iff in J. cbn [In] in J. destruct J as [J|[J|[J|[J|J]]]]; [left; right; apply in_or_app; now left|discriminate| |injection J as <- <-; right; left; now left|];
      left; right; apply in_or_app; right; right; apply in_or_app; auto.
Qed.
Lemma reach_cmd s : reachable s -> cmd_inv s.
Proof. apply inv_reach; [apply cmd_step|]. intros id c []. Qed.



(** * Sequences run to their end *)
Definition seq_view (g : gor) : option (nat * nat * list (option cmd)) :=
  match g with
  | GSeq id i l => Some (id, i, l)
  | GSeqRun id i _ l | GSeqSend id i _ l | GSeqBatch id i _ l => Some (id, S i, l)
  | _ => None
  end.
Definition seq_inv (s : state M) : Prop := forall id cs, In (ESpawned id cs) (st_log s) -> st_main s = PCrashed \/
  exists p l, skipn p cs = l /\ (forall i c, i < p -> nth_error cs i = Some (Some c) -> In (EStarted (WSeq id i 0) c) (st_log s)) /\
    (l = [] \/ exists g, In g (st_gs s) /\ seq_view g = Some (id, p, l)).

Lemma gstep_view x g gs' evs id p l : gstep inputs x g gs' evs -> seq_view g = Some (id, p, l) ->
  l = [] \/ (exists g', In g' gs' /\ seq_view g' = Some (id, p, l)) \/
  exists o l', l = o :: l' /\ (exists g', In g' gs' /\ seq_view g' = Some (id, S p, l')) /\ forall c, o = Some c -> In (EStarted (WSeq id p 0) c) evs.
Proof.
  intros H V. destruct H; cbn [seq_view] in V; try discriminate; injection V as -> <- <-;
    try (right; left; eexists; split; [now left|reflexivity]).
  - now left.
  - right. right. exists None, l0. split; [reflexivity|]. split; [eexists; split; [now left|reflexivity]|discriminate].
  - right. right. exists (Some c), l0. split; [reflexivity|]. split; [eexists; split; [now left|reflexivity]|]. intros c' [= <-]. now left.
Qed.
Lemma offers_view g w m gs' id p l : offers inputs g w m gs' -> seq_view g = Some (id, p, l) -> exists g', In g' gs' /\ seq_view g' = Some (id, p, l).
Proof. intros H V. destruct H; cbn [seq_view] in V; try discriminate; injection V as -> <- <-; eexists; (split; [now left|reflexivity]). Qed.

Lemma skipn_cons_next {A} p (cs : list A) o l : skipn p cs = o :: l -> skipn (S p) cs = l /\ nth_error cs p = Some o.
Proof. intros H. apply skipn_step in H. tauto. Qed.

Lemma seq_keep p p' gs gs' x x' md md' n n' lg evs : (p = PCrashed -> p' = PCrashed) ->
  (forall id cs, In (ESpawned id cs) evs -> In (GSeq id 0 cs) gs') ->
  (forall g id q l, In g gs -> seq_view g = Some (id, q, l) -> p' = PCrashed \/ l = [] \/ (exists g', In g' gs' /\ seq_view g' = Some (id, q, l)) \/
     exists o l', l = o :: l' /\ (exists g', In g' gs' /\ seq_view g' = Some (id, S q, l')) /\ forall c, o = Some c -> In (EStarted (WSeq id q 0) c) evs) ->
  seq_inv (State p gs x md n lg) -> seq_inv (State p' gs' x' md' n' (evs ++ lg)).
Proof.
  intros C N V K id cs I. cbn [st_main st_log st_gs] in *. apply in_app_or in I. destruct I as [I|I].
  - right. exists 0, cs. split; [reflexivity|]. split; [lia|]. right. exists (GSeq id 0 cs). auto.
  - destruct (K id cs I) as [Q|(q & l & S & D & [E|(g & G & W)])]; cbn [st_main st_log st_gs] in *.
    + left. auto.
    + right. exists q, l. split; [exact S|]. split; [|now left]. intros i c L E'. apply in_or_app. right. eauto.
    + destruct (V g id q l G W) as [Q|[Q|[Q|(o & l' & E & Q & R)]]]; [now left|right|right|right].
      * exists q, l. split; [exact S|]. split; [|now left]. intros i c L E'. apply in_or_app. right. eauto.
      * exists q, l. split; [exact S|]. split; [|now right]. intros i c L E'. apply in_or_app. right. eauto.
      * subst l. destruct (skipn_cons_next _ _ _ _ E) as [S1 S2]. exists (Datatypes.S q), l'. split; [exact S1|]. split; [|now right].
        intros i c L E'. apply in_or_app. destruct (Nat.eq_dec i q) as [->|NE]; [left; apply R; congruence|right; apply D; [lia|exact E']].
Qed.
Ltac seq_same := intros g' id' q' l' G' V'; right; right; left; exists g'; split; [first [exact G'|apply in_or_app; right; exact G'|repeat right; exact G'|destruct init_cmd; [right|]; exact G']|exact V'].
Lemma mid_view l1 g l2 gs' g0 id q l : (forall id q l, seq_view g = Some (id, q, l) -> exists g', In g' gs' /\ seq_view g' = Some (id, q, l)) ->
  In g0 (l1 ++ g :: l2) -> seq_view g0 = Some (id, q, l) -> exists g', In g' (l1 ++ gs' ++ l2) /\ seq_view g' = Some (id, q, l).
Proof.
  intros H I V. apply in_app_or in I. destruct I as [I|[<-|I]].
  - exists g0. split; [apply in_or_app; now left|exact V].
  - destruct (H _ _ _ V) as (g' & J & W). exists g'. split; [apply in_or_app; right; apply in_or_app; now left|exact W].
  - exists g0. split; [apply in_or_app; right; apply in_or_app; now right|exact V].
Qed.
Lemma seq_step a b : step a b -> seq_inv a -> seq_inv b.
Proof.
  intros H K. destruct H;
    try (eapply (seq_keep _ _ _ _ _ _ _ _ _ _ _ []); [| | |exact K]; [auto; discriminate|intros ? ? []|seq_same]; fail);
    try (eapply (seq_keep _ _ _ _ _ _ _ _ _ _ _ [_]); [| | |exact K]; [auto; discriminate|intros ? ? [?|[]]; discriminate|seq_same]; fail);
    try (eapply (seq_keep _ _ _ _ _ _ _ _ _ _ _ []); [| | |exact K]; [auto|intros ? ? []|intros g' id' q' l' G' V'; right; right; left; refine (mid_view _ _ _ [_] _ _ _ _ _ G' V'); discriminate]; fail);
    try (eapply (seq_keep _ _ _ _ _ _ _ _ _ _ _ [_]); [| | |exact K]; [discriminate|intros ? ? [?|[]]; discriminate|intros g' id' q' l' G' V'; right; right; left; refine (mid_view _ _ _ _ _ _ _ _ _ G' V'); intros; eapply offers_view; eauto]; fail).
  - eapply seq_keep; [| | |exact K]; auto.
    + intros id cs I. apply (gstep_quiet _ _ _ _ H) in I. discriminate.
    + intros g0 id q l G V. right. apply in_app_or in G. destruct G as [G|[<-|G]].
      * right. left. exists g0. split; [apply in_or_app; now left|exact V].
      * destruct (gstep_view _ _ _ _ _ _ _ H V) as [Q|[(g' & Q & W)|(o & l' & E & (g' & Q & W) & R)]]; [now left|right; left|right; right].
        { exists g'. split; [apply in_or_app; right; apply in_or_app; now left|exact W]. }
        exists o, l'. split; [exact E|]. split; [|exact R]. exists g'. split; [apply in_or_app; right; apply in_or_app; now left|exact W].
      * right. left. exists g0. split; [apply in_or_app; right; apply in_or_app; now right|exact V].
  - eapply (seq_keep _ _ _ _ _ _ _ _ _ _ _ []); [| | |exact K]; [auto|intros ? ? []|intros g' id' q' l' G' V'; right; right; left; refine (mid_view _ _ _ [] _ _ _ _ _ G' V'); discriminate].
  - intros id0 cs _. now left.
  - intros id0 cs _. now left.
  - eapply (seq_keep _ _ _ _ _ _ _ _ _ _ _ (returned n init_cmd)); [| | |exact K]; [discriminate|destruct init_cmd; cbn; intuition discriminate|seq_same].
  - eapply (seq_keep _ _ _ _ _ _ _ _ _ _ _ []); [| | |exact K]; [discriminate|intros ? ? []|intros g' id' q' l' G' V'; right; right; left; refine (mid_view _ _ _ _ _ _ _ _ _ G' V'); destruct H; discriminate].
  - eapply (seq_keep _ _ _ _ _ _ _ _ _ _ _ [_; _]); [| | |exact K]; [discriminate|intros ? ? [?|[?|[]]]; discriminate|intros g' id' q' l' G' V'; right; right; left; refine (mid_view _ _ _ _ _ _ _ _ _ G' V'); intros; eapply offers_view; eauto].
  - replace (snd (spawn_seq n y) ++ EAccepted w y :: lg) with ((snd (spawn_seq n y) ++ [EAccepted w y]) ++ lg) by (rewrite <- app_assoc; reflexivity).
    eapply seq_keep; [| | |exact K]; [discriminate| |].
    + intros id cs I. apply in_app_or in I. destruct I as [I|[I|[]]]; [|discriminate]. destruct y; cbn in I; try contradiction. destruct I as [I|[]]. injection I as <- <-. now left.
    + intros g' id' q' l' G' V'. right. right. left. destruct (mid_view l1 g l2 gs' g' id' q' l') as (g2 & G2 & V2); [intros; eapply offers_view; eauto|exact G'|exact V'|]. exists g2. split; [apply in_or_app; now right|exact V2].
  - replace (returned n c ++ EUpdate y :: lg) with ((returned n c ++ [EUpdate y]) ++ lg) by (rewrite <- app_assoc; reflexivity).
    eapply seq_keep; [| | |exact K]; [discriminate|destruct c; cbn; intuition discriminate|seq_same].
  - eapply (seq_keep _ _ _ _ _ _ _ _ _ _ _ [_]); [| | |exact K]; [auto|intros ? ? [?|[]]; discriminate|].
    intros g' id' q' l' G' V'. right. right. left. destruct (mid_view l1 (GInit id c) (l2 ++ GHandler :: l3) [] g' id' q' l') as (g2 & G2 & V2); [discriminate|exact G'|exact V'|]. exists g2. split; [right; exact G2|exact V2].
  - eapply (seq_keep _ _ _ _ _ _ _ _ _ _ _ [_]); [| | |exact K]; [auto|intros ? ? [?|[]]; discriminate|].
    intros g' id' q' l' G' V'. right. right. left. destruct (mid_view (l1 ++ GHandler :: l2) (GInit id c) l3 [] g' id' q' l') as (g2 & G2 & V2); [discriminate|rewrite <- app_assoc; exact G'|exact V'|]. exists g2. split; [right; rewrite <- app_assoc in G2; exact G2|exact V2].
Qed.
Lemma reach_seq s : reachable s -> seq_inv s.
Proof. apply inv_reach; [apply seq_step|]. intros id cs []. Qed.
End Inv.
