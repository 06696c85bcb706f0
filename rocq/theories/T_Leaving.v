(** C103: a program ends when the user asks it to, and not before. *)
From Verif Require Import Base M_Cmd M_App P_App P_AppIds P_AppLog P_AppRun P_AppEnd T_App.
From Coq Require Import List Bool Arith Lia.
Import ListNotations.

Section Leaving.
Context {M : Type}.
Variable m0 : M.
Variable update : M -> msg -> option (M * option cmd).
Variable inputs : list msg.
(** The messages of the reader at which the user asks to leave, by number *)
Variable wants : nat -> Prop.
(** The program's first command, if it has one *)
Variable first : option cmd.
(** A command of the program's own: it brings a message that is none of the reader's. *)
Definition own (c : cmd) : Prop := c_panics c = false /\ exists k, c_msg c = MUser k /\ (length inputs <= k)%nat.
(** The reader's messages are the user's; besides commands of its own the program returns none but quit, and that only at a message at which the user asks for it. *)
Hypothesis Hin : forall k x, nth_error inputs k = Some x -> x = MUser k.
Hypothesis Hwants : forall j, wants j -> (j < length inputs)%nat.
Hypothesis Hfirst : forall c, first = Some c -> own c.
Hypothesis Honly : forall m x m' c, update m x = Some (m', Some c) -> own c \/ c = quit_cmd 0 /\ exists j, x = MUser j /\ wants j.
Notation step := (step m0 first update inputs).
Notation steps := (steps m0 first update inputs).
Notation reachable := (reachable m0 first update inputs).

Definition asked (lg : list event) : Prop := exists j, wants j /\ In (EAccepted (WInput j) (MUser j)) lg.
Lemma asked_more evs lg : asked lg -> asked (evs ++ lg).
Proof. intros (j & W & I). exists j. split; [exact W|apply in_or_app; now right]. Qed.
(** The goroutines there are: none of a sequence, none that panics; commands run only if they were asked for. *)
Definition g_fine (lg : list event) (g : gor) : Prop :=
  match g with
  | GRun _ c => own c \/ c = quit_cmd 0 /\ asked lg
  | GSend _ m => (exists k, m = MUser k /\ (length inputs <= k)%nat) \/ m = MQuit /\ asked lg
  | GInit _ c => own c
  | GSeq _ _ _ | GSeqRun _ _ _ _ | GSeqSend _ _ _ _ | GSeqBatch _ _ _ _ | GRecover | GRecoverWait | GRecoverOps _ => False
  | _ => True
  end.
Definition p_fine (x : bool) (lg : list event) (p : main M) : Prop :=
  match p with
  | PUpdate _ y => y = MSize \/ (exists k, y = MUser k /\ (length inputs <= k)%nat) \/ exists j, y = MUser j /\ In (EAccepted (WInput j) y) lg
  | PSendCmd _ (Some (_, c)) => own c \/ c = quit_cmd 0 /\ asked lg
  | PLoopEnd _ None => x = true \/ asked lg
  | PLoopEnd _ (Some e) => e = EResize \/ e = EReader
  | PFinalDraw _ | PCancel (Some _) | PWait (Some _) | PRestore (Some _) _ | PReturned (Some _) None | PReturned (Some _) (Some EShutdown) => asked lg
  | PReturned _ (Some EKilled) => x = true
  | PCrashed => False
  | _ => True
  end.
Definition fine (s : state M) : Prop := Forall (g_fine (st_log s)) (st_gs s) /\ p_fine (st_cancelled s) (st_log s) (st_main s) /\ (In EQuit (st_log s) -> asked (st_log s)).

Lemma g_more evs lg g : g_fine lg g -> g_fine (evs ++ lg) g.
Proof. destruct g; cbn; auto; intros [?|[? ?]]; auto using asked_more. Qed.
Lemma gs_more evs lg gs : Forall (g_fine lg) gs -> Forall (g_fine (evs ++ lg)) gs.
Proof. intros H. eapply Forall_impl; [|exact H]. intros g. apply g_more. Qed.
Lemma mid_fine lg l1 g l2 : Forall (g_fine lg) (l1 ++ g :: l2) -> Forall (g_fine lg) l1 /\ g_fine lg g /\ Forall (g_fine lg) l2.
Proof. rewrite Forall_app. intros [A B]. inversion B. auto. Qed.
Lemma mid_back lg l1 gs l2 : Forall (g_fine lg) l1 -> Forall (g_fine lg) gs -> Forall (g_fine lg) l2 -> Forall (g_fine lg) (l1 ++ gs ++ l2).
Proof. intros. rewrite !Forall_app. auto. Qed.
Lemma p_more evs lg x x' p : (x = true -> x' = true) -> p_fine x lg p -> p_fine x' (evs ++ lg) p.
Proof.
  intros X. destruct p as [| | | |m|m y|m [[id c]|]|m| |m [e|]|m|[m|]|[m|]|[m|] o|[m|] [[]|]|]; cbn; auto using asked_more.
  - intros [->|[K|(j & -> & I)]]; [now left|now right; left|right; right]. exists j. split; [reflexivity|apply in_or_app; now right].
  - intros [?|[? ?]]; auto using asked_more.
  - intros [?|?]; auto using asked_more.
Qed.
Lemma gstep_fine x g gs' evs lg : gstep inputs x g gs' evs -> g_fine lg g -> Forall (g_fine lg) gs' /\ ~ In EQuit evs.
Proof.
  intros H G. destruct H; cbn [g_fine] in G; try contradiction; (split; [|cbn; clear; intuition discriminate]); try (now constructor);
    try (destruct back; repeat constructor; fail); try (repeat constructor; fail).
  - constructor; [|constructor]. cbn. destruct G as [(_ & k & E & Lk)|[-> G]]; [left; exists k; auto|auto].
  - exfalso. destruct G as [(P & _)|[-> _]]; [congruence|discriminate].
Qed.
Lemma offers_fine g w m gs' lg : offers inputs g w m gs' -> g_fine lg g -> Forall (g_fine lg) gs' /\ (m = MSize /\ w = WSize \/ (exists j, w = WInput j /\ m = MUser j) \/ m = MQuit /\ asked lg \/ exists k, m = MUser k /\ (length inputs <= k)%nat).
Proof.
  intros H G. destruct H; cbn in G; try contradiction.
  - split; [constructor|]. destruct G as [G|[-> G]]; [right; right; right; exact G|right; right; auto].
  - split; [destruct back; repeat constructor|auto].
  - apply Hin in H as ->. split; [repeat constructor|]. right. left. eauto.
Qed.
Lemma fine_keep p p' gs gs' x x' md md' n n' lg evs : ~ In EQuit evs -> (x = true -> x' = true) -> (p_fine x lg p -> p_fine x' (evs ++ lg) p') -> (Forall (g_fine lg) gs -> Forall (g_fine (evs ++ lg)) gs') ->
  fine (State p gs x md n lg) -> fine (State p' gs' x' md' n' (evs ++ lg)).
Proof.
  intros NQ X P G (F1 & F2 & F3). cbn in *. split; [now apply G|]. split; [now apply P|]. cbn. intros I. apply in_app_or in I. destruct I as [I|I]; [contradiction|]. apply asked_more. auto.
Qed.
Lemma fine_step a b : step a b -> fine a -> fine b.
Proof.
  intros H K. destruct H;
    try (exfalso; destruct K as (K & _ & _); cbn [st_gs st_log] in K; apply mid_fine in K; destruct K as (_ & [] & _); fail);
    try (eapply (fine_keep _ _ _ _ _ _ _ _ _ _ _ []); [intros []| | | |exact K]; [now auto|cbn; intuition congruence|cbn [app]; now auto]; fail);
    try (eapply (fine_keep _ _ _ _ _ _ _ _ _ _ _ [_]); [intros [?|[]]; discriminate| | | |exact K]; [now auto|cbn -[asked]; auto using (asked_more [EDraw])|apply gs_more]; fail).
  - destruct K as (K1 & K2 & K3). cbn [st_gs st_log st_main st_cancelled] in *. apply mid_fine in K1. destruct K1 as (A1 & A2 & A3). destruct (gstep_fine _ _ _ _ _ H A2) as [B1 B2].
    split; [cbn; apply mid_back; apply gs_more; assumption|]. split; [cbn; apply (p_more _ _ x); auto|]. cbn. intros I. apply in_app_or in I. destruct I as [I|I]; [contradiction|]. apply asked_more. auto.
  - eapply (fine_keep _ _ _ _ _ _ _ _ _ _ _ []); [intros []| | | |exact K]; [now auto|apply (p_more []); auto|cbn [app]; now auto].
  - eapply (fine_keep _ _ _ _ _ _ _ _ _ _ _ (returned n first)); [destruct first; cbn; intuition discriminate| | | |exact K]; [now auto|intros; exact Logic.I|]. intros G. apply (gs_more (returned n first)) in G. destruct first as [c|]; [constructor; [exact (Hfirst c eq_refl)|exact G]|exact G].
  - eapply (fine_keep _ _ _ _ _ _ _ _ _ _ _ []); [intros []| | | |exact K]; [now auto|auto|cbn [app]; intros; constructor; cbn; auto].
  - eapply (fine_keep _ _ _ _ _ _ _ _ _ _ _ []); [intros []| | | |exact K]; [now auto|auto|cbn [app]; intros; repeat constructor; auto].
  - eapply (fine_keep _ _ _ _ _ _ _ _ _ _ _ []); [intros []| | | |exact K]; [now auto|intros _; cbn; destruct H; auto|cbn [app]]. intros G. apply mid_fine in G. destruct G as (A1 & A2 & A3). apply mid_back; auto. destruct H; [destruct back|]; repeat constructor.
  - eapply (fine_keep _ _ _ _ _ _ _ _ _ _ _ [_]); [intros [?|[]]; discriminate| | | |exact K]; [now auto|auto|]. intros G. apply mid_fine in G. destruct G as (A1 & A2 & A3). apply gs_more. apply mid_back; auto. exact (proj1 (offers_fine _ _ _ _ _ H A2)).
  - destruct K as (K1 & K2 & K3). cbn [st_gs st_log st_main st_cancelled] in *. apply mid_fine in K1. destruct K1 as (A1 & A2 & A3). destruct (offers_fine _ _ _ _ _ H A2) as [B1 [[B _]|[(j & _ & B)|[[_ B]|(k & B & _)]]]]; try discriminate.
    pose proof (asked_more [EQuit; EAccepted w MQuit] lg B) as B'. split; [cbn; apply (gs_more [EQuit; EAccepted w MQuit]); apply mid_back; assumption|]. split; [cbn; right; exact B'|]. intros _. exact B'.
  - eapply (fine_keep _ _ _ _ _ _ _ _ _ _ _ [_]); [intros [?|[]]; discriminate| | | |exact K]; [now auto|cbn; auto|]. intros G. apply mid_fine in G. destruct G as (A1 & A2 & A3). apply gs_more. apply mid_back; auto. exact (proj1 (offers_fine _ _ _ _ _ H A2)).
  - destruct K as (K1 & K2 & K3). cbn [st_gs st_log st_main st_cancelled] in *. apply mid_fine in K1. destruct K1 as (A1 & A2 & A3). destruct (offers_fine _ _ _ _ _ H A2) as [B1 B].
    assert (Sp : spawn_seq n y = ([], [])) by (destruct B as [[-> _]|[(j & _ & ->)|[[-> _]|(k & -> & _)]]]; reflexivity). unfold fine. cbn [st_gs st_log st_main st_cancelled]. rewrite Sp. cbn [fst snd app]. split; [apply (gs_more [EAccepted w y]); apply mid_back; assumption|]. split.
    + cbn. destruct B as [[-> _]|[(j & -> & ->)|[[-> _]|B]]]; [now left| |contradiction|now right; left]. right. right. exists j. auto.
    + intros [I|I]; [discriminate|]. apply (asked_more [EAccepted w y]). auto.
  - destruct K as (K1 & K2 & K3). cbn [st_gs st_log st_main st_cancelled] in *.
    assert (E : returned n c ++ EUpdate y :: lg = (returned n c ++ [EUpdate y]) ++ lg) by (now rewrite <- app_assoc). unfold fine. cbn [st_gs st_log st_main st_cancelled]. rewrite E.
    split; [now apply gs_more|]. split.
    + destruct c as [c|]; cbn [tag p_fine]; [|exact Logic.I]. destruct (Honly _ _ _ _ H) as [O|(-> & j & -> & W)]; [now left|right]. split; [reflexivity|]. apply asked_more. destruct K2 as [Q|[(k & Q & Lk)|(j' & Q & I)]]; [discriminate|injection Q as <-; apply Hwants in W; lia|]. injection Q as <-. exists j. auto.
    + intros I. apply asked_more. apply K3. apply in_app_or in I. destruct I as [I|I]; [|exact I]. destruct c; cbn in I; intuition discriminate.
  - destruct K as (K1 & K2 & K3). cbn [st_gs st_log st_main st_cancelled p_fine] in *. split; [cbn; constructor; [destruct K2 as [K2|[-> K2]]; [now left|right; split; [reflexivity|apply (asked_more [_]); exact K2]]|apply (gs_more [_]); exact K1]|]. split; [exact Logic.I|].
    intros [I|I]; [discriminate|]. apply (asked_more [_]). auto.
  - eapply (fine_keep _ _ _ _ _ _ _ _ _ _ _ [_]); [intros [?|[]]; discriminate| | | |exact K]; [now auto|apply p_more; auto|]. intros G. apply (gs_more [EStarted (WCmd id) c]) in G. apply mid_fine in G. destruct G as (A1 & A2 & A3). apply mid_fine in A3. destruct A3 as (A3 & A4 & A5).
    constructor; [left; exact A2|]. rewrite !Forall_app. auto.
  - eapply (fine_keep _ _ _ _ _ _ _ _ _ _ _ [_]); [intros [?|[]]; discriminate| | | |exact K]; [now auto|apply p_more; auto|]. intros G. apply (gs_more [EStarted (WCmd id) c]) in G. apply mid_fine in G. destruct G as (A1 & A2 & A3). apply mid_fine in A3. destruct A3 as (A3 & A4 & A5).
    constructor; [left; exact A4|]. rewrite !Forall_app. split; [auto|]. constructor; [auto|]. rewrite Forall_app. auto.
  - eapply (fine_keep _ _ _ _ _ _ _ _ _ _ _ []); [intros []| | | |exact K]; [now auto|cbn; intros [-> | ->]; exact Logic.I|auto].
  - eapply (fine_keep _ _ _ _ _ _ _ _ _ _ _ [_]); [intros [?|[]]; discriminate| | | |exact K]; [now auto|cbn [p_fine]; apply asked_more|apply gs_more].
  - eapply (fine_keep _ _ _ _ _ _ _ _ _ _ _ [_]); [intros [?|[]]; discriminate| | | |exact K]; [now auto|destruct r; [apply asked_more|auto]|apply gs_more].
Qed.
Lemma reach_fine s : reachable s -> fine s.
Proof. apply inv_reach; [apply fine_step|]. split; [constructor|]. split; [exact Logic.I|intros []]. Qed.

(** Not before: a quit message is handled, or Run returns a model without an error, only after a message of the reader at which the user asks to leave. *)
Theorem C103_not_before s : reachable s ->
  (In EQuit (history s) -> exists j, wants j /\ In (EAccepted (WInput j) (MUser j)) (history s)) /\
  (forall m, st_main s = PReturned (Some m) None -> exists j, wants j /\ In (EAccepted (WInput j) (MUser j)) (history s)) /\
  st_main s <> PCrashed.
Proof.
  intros R. destruct (reach_fine s R) as (_ & P & Q). assert (H : asked (st_log s) -> exists j, wants j /\ In (EAccepted (WInput j) (MUser j)) (history s)) by (intros (j & W & I); exists j; split; [exact W|now apply in_history]).
  split; [intros I; apply H, Q; now apply in_history in I|]. split; [intros m E; rewrite E in P; exact (H P)|]. intros E. rewrite E in P. exact P.
Qed.

(** And then: *)
Hypothesis Hquits : forall m j, wants j -> exists m', update m (MUser j) = Some (m', Some (quit_cmd 0)).
Definition over (p : main M) : Prop := match p with PErrSend | PLoopEnd _ _ | PFinalDraw _ | PCancel _ | PWait _ | PRestore _ _ | PReturned _ _ | PCrashed => True | _ => False end.
Definition pending (gs : list gor) : Prop := exists id, In (GRun id (quit_cmd 0)) gs \/ In (GSend id MQuit) gs.
Definition handed (p : main M) : Prop := exists m id, p = PSendCmd m (Some (id, quit_cmd 0)).
Definition updated (lg : list event) : Prop := exists j, wants j /\ In (EUpdate (MUser j)) lg.
Definition leaving (s : state M) : Prop := updated (st_log s) -> st_cancelled s = true \/ over (st_main s) \/ pending (st_gs s) \/ handed (st_main s).
Lemma pending_mid l1 g l2 gs' : pending (l1 ++ g :: l2) -> pending (l1 ++ gs' ++ l2) \/ (exists id, g = GRun id (quit_cmd 0)) \/ (exists id, g = GSend id MQuit).
Proof.
  intros (id & [I|I]); apply in_app_or in I; destruct I as [I|[I|I]]; eauto; left; exists id; [left|left|right|right]; rewrite !in_app_iff; auto.
Qed.
Lemma pending_run l1 id l2 gs' : In (GSend id MQuit) gs' -> pending (l1 ++ gs' ++ l2).
Proof. intros I. exists id. right. rewrite !in_app_iff. auto. Qed.
Lemma updated_old evs lg : (forall y, ~ In (EUpdate y) evs) -> updated (evs ++ lg) -> updated lg.
Proof. intros N (j & W & I). exists j. split; [exact W|]. apply in_app_or in I. destruct I as [I|I]; [now apply N in I|exact I]. Qed.
Lemma updated_one e lg : updated (e :: lg) -> match e with EUpdate _ => False | _ => True end -> updated lg.
Proof. intros U N. apply (updated_old [e] lg); [|exact U]. intros y [-> |[]]. exact N. Qed.
Lemma log_grows s s' e : steps s s' -> In e (st_log s) -> In e (st_log s').
Proof. intros T. induction T as [|a b c T IH K]; [auto|]. intros I. specialize (IH I). destruct K; cbn [st_log] in *; auto; repeat (apply in_or_app; right); auto; try (now right); try (right; now right). Qed.
Lemma gstep_quiet x g gs' evs : gstep inputs x g gs' evs -> forall y, ~ In (EUpdate y) evs.
Proof. intros H y I. destruct H; cbn in I; try contradiction; try (destruct I as [I|[]]; discriminate). clear H0. revert I. generalize 1. induction cs as [|c' cs IH]; intros k I; cbn in I; [contradiction|]. destruct I as [I|I]; [discriminate|]; eauto. Qed.
Lemma keep_one g h (l1 l2 : list gor) : h <> g -> In g (l1 ++ h :: l2) -> In g (l1 ++ l2).
Proof. intros Q I. apply in_app_or in I. apply in_or_app. destruct I as [I|[I|I]]; auto. contradiction. Qed.
Lemma keep_pending e h (l1 l2 : list gor) : (forall id c, h <> GRun id c) -> (forall id m, h <> GSend id m) -> pending (l1 ++ h :: l2) -> pending (e :: l1 ++ l2).
Proof. intros A B (id & [I|I]); exists id; [left|right]; right; apply (keep_one _ h); auto. Qed.
Lemma leaving_step a b : step a b -> fine a -> leaving a -> leaving b.
Proof.
  intros H F L U. destruct H; cbn [st_log st_cancelled st_main st_gs] in *; auto;
   try (right; left; exact Logic.I);
   try (exfalso; destruct F as (F & _ & _); cbn [st_gs st_log] in F; apply mid_fine in F; destruct F as (_ & [] & _); fail);
   try (destruct (L U) as [|[[]|[|(? & ? & ?)]]]; [now auto|now auto|discriminate]).
  - destruct (L (updated_old _ _ (gstep_quiet _ _ _ _ H) U)) as [|[|[P|]]]; [now auto|now auto| |now auto].
    destruct (pending_mid _ _ _ gs' P) as [P'|[(id & ->)|(id & ->)]]; [now auto| |].
    + inversion H; subst; [|match goal with K : c_panics _ = true |- _ => vm_compute in K; discriminate K end]. right. right. left. apply (pending_run _ id). now left.
    + inversion H; subst. now left.
  - assert (O : updated lg) by (apply (updated_old (returned n first) lg); [intros y J; destruct first; cbn in J; intuition discriminate|exact U]).
    destruct (L O) as [|[[]|[(id & P)|(? & ? & ?)]]]; [now auto| |discriminate]. right. right. left. exists id. destruct first; cbn; tauto.
  - destruct (L (updated_one _ _ U Logic.I)) as [|[[]|[|(? & ? & ?)]]]; [now auto|now auto|discriminate].
  - destruct (L U) as [|[[]|[(id & P)|(? & ? & ?)]]]; [now auto| |discriminate]. right. right. left. exists id. cbn. tauto.
  - destruct (L U) as [|[[]|[(id & P)|(? & ? & ?)]]]; [now auto| |discriminate]. right. right. left. exists id. cbn. tauto.
  - destruct (L (updated_one _ _ U Logic.I)) as [|[[]|[P|(? & ? & ?)]]]; [now auto| |discriminate].
    destruct (pending_mid _ _ _ gs' P) as [P'|[(id & ->)|(id & ->)]]; [now auto|inversion H|inversion H].
  - assert (Q : spawn_seq n y = ([], [])).
    { destruct F as (F & _ & _). cbn [st_gs st_log] in F. apply mid_fine in F. destruct F as (_ & F & _). destruct (offers_fine _ _ _ _ _ H F) as [_ [[-> _]|[(j & _ & ->)|[[-> _]|(k & -> & _)]]]]; reflexivity. }
    rewrite Q in *. cbn [fst snd app] in *.
    destruct (L (updated_one _ _ U Logic.I)) as [|[[]|[P|(? & ? & ?)]]]; [now auto| |discriminate].
    destruct (pending_mid _ _ _ gs' P) as [P'|[(id & ->)|(id & ->)]]; [now auto|inversion H|]. inversion H; subst. contradiction.
  - destruct U as (j & W & I). apply in_app_or in I. destruct I as [I|[I|I]].
    + destruct c; cbn in I; intuition discriminate.
    + injection I as ->. destruct (Hquits m j W) as [m'' E]. rewrite E in H. injection H as <- <-. right. right. right. exists m'', n. reflexivity.
    + destruct (L (ex_intro _ j (conj W I))) as [|[[]|[P|(? & ? & ?)]]]; [now auto|now auto|discriminate].
  - destruct (L (updated_one _ _ U Logic.I)) as [|[[]|[(i & P)|(m1 & i & E)]]]; [now auto| |].
    + right. right. left. exists i. cbn. tauto.
    + injection E as <- <- ->. right. right. left. exists id. left. now left.
  - destruct (L (updated_one _ _ U Logic.I)) as [|[|[P|]]]; [now auto|now auto| |now auto]. right. right. left. revert P. now apply keep_pending.
  - destruct (L (updated_one _ _ U Logic.I)) as [|[|[P|]]]; [now auto|now auto| |now auto]. right. right. left.
    replace (l1 ++ GHandler :: l2 ++ GInit id c :: l3) with ((l1 ++ GHandler :: l2) ++ GInit id c :: l3) in P by (now rewrite <- app_assoc). replace (l1 ++ GHandler :: l2 ++ l3) with ((l1 ++ GHandler :: l2) ++ l3) by (now rewrite <- app_assoc). revert P. now apply keep_pending.
  - destruct (L (updated_one _ _ U Logic.I)) as [|[[]|[P|(? & ? & ?)]]]; [now auto|now auto|discriminate].
Qed.
Lemma reach_leaving s : reachable s -> leaving s.
Proof.
  intros R. assert (K : fine s /\ leaving s); [|tauto]. revert R. apply (inv_reach m0 first update inputs (fun s => fine s /\ leaving s) s).
  - intros a b St [F L]. split; [now apply (fine_step a)|now apply (leaving_step a)].
  - split; [split; [constructor|split; [exact Logic.I|intros []]]|intros (j & _ & [])].
Qed.
Lemma leave_now m gs md n lg : reachable (State (PLoop m) gs false md n lg) -> pending gs ->
  exists s', steps (State (PLoop m) gs false md n lg) s' /\ st_main s' = PReturned (Some m) None /\ st_modes s' = plain_modes /\ In EQuit (history s').
Proof.
  intros R (id & P). assert (G : exists l1 l2 lg', steps (State (PLoop m) gs false md n lg) (State (PLoop m) (l1 ++ GSend id MQuit :: l2) false md n lg')).
  { destruct P as [P|P]; apply in_split in P; destruct P as (l1 & l2 & ->); exists l1, l2.
    - eexists. eapply steps_step; [apply steps_refl|]. exact (s_gor _ m0 first update inputs (PLoop m) (GRun id (quit_cmd 0)) [GSend id MQuit] [] l1 l2 false md n lg (g_run inputs false id (quit_cmd 0) eq_refl)).
    - exists lg. apply steps_refl. }
  destruct G as (l1 & l2 & lg' & G). pose proof (s_loop_quit _ m0 first update inputs m _ _ _ l1 l2 false md n lg' (o_cmd inputs id MQuit)) as Q.
  pose proof (steps_step _ _ _ _ _ _ _ _ G Q) as G2. pose proof (steps_trans _ _ _ _ _ _ _ R G2) as R2.
  destruct (C47_can_finish m0 first update inputs _ m R2 eq_refl eq_refl) as (s' & S1 & E1 & E2). exists s'. split; [exact (steps_trans _ _ _ _ _ _ _ G2 S1)|]. split; [exact E1|]. split; [exact E2|].
  apply in_history. eapply log_grows; [exact S1|]. now left.
Qed.
(** The user has asked, the program has handled it and is back at its loop: then Run can return the model it has now, without an error, the terminal as it was. *)
Theorem C103_once_handled s m j : reachable s -> wants j -> In (EUpdate (MUser j)) (history s) -> st_main s = PLoop m -> st_cancelled s = false ->
  exists s', steps s s' /\ st_main s' = PReturned (Some m) None /\ st_modes s' = plain_modes /\ In EQuit (history s').
Proof.
  intros R W I E C. apply in_history in I. pose proof (reach_leaving s R) as L. destruct s as [p gs x md n lg]. cbn [st_main st_cancelled st_log st_gs] in *. subst.
  destruct (L (ex_intro _ j (conj W I))) as [Q|[[]|[P|(? & ? & ?)]]]; try discriminate. now apply leave_now.
Qed.
(** The program waits at its loop, and the next message of the reader is one at which the user asks to leave: then the program can handle it, and Run return the model it then has, without an error, the terminal as it was. *)
Theorem C103_can_leave s m j : reachable s -> wants j -> st_main s = PLoop m -> st_cancelled s = false -> In (GRead j) (st_gs s) -> nth_error inputs j = Some (MUser j) ->
  exists m' s', update m (MUser j) = Some (m', Some (quit_cmd 0)) /\ steps s s' /\ st_main s' = PReturned (Some m') None /\ st_modes s' = plain_modes /\ In EQuit (history s').
Proof.
  intros R W E C I Nj. destruct (Hquits m j W) as [m' U]. exists m'. destruct s as [p gs x md n lg]. cbn [st_main st_cancelled st_gs] in *. subst. apply in_split in I. destruct I as (l1 & l2 & ->).
  pose proof (steps_step _ _ _ _ _ _ _ _ (steps_refl _ _ _ _ _ _) (s_loop_msg _ m0 first update inputs m _ _ _ _ l1 l2 false md n lg (o_input inputs j _ Nj) ltac:(discriminate) ltac:(discriminate))) as S1. cbn [spawn_seq fst snd app] in S1.
  pose proof (steps_step _ _ _ _ _ _ _ _ S1 (s_update _ m0 first update inputs m _ _ _ _ false md (S n) _ U)) as S2. cbn [tag returned app] in S2.
  pose proof (reach_handler _ _ _ _ _ (steps_trans _ _ _ _ _ _ _ R S2) eq_refl eq_refl) as I. cbn [st_gs] in I. apply in_split in I. destruct I as (k1 & k2 & I). cbn [app] in I. rewrite I in S2.
  pose proof (steps_step _ _ _ _ _ _ _ _ S2 (s_send_cmd _ m0 first update inputs m' (S n) (quit_cmd 0) k1 k2 false md (S (S n)) _)) as S3.
  pose proof (steps_step _ _ _ _ _ _ _ _ S3 (s_draw _ m0 first update inputs m' _ false md _ _)) as S4.
  destruct (leave_now m' _ md _ _ (steps_trans _ _ _ _ _ _ _ R S4) (ex_intro _ (S n) (or_introl (or_introl eq_refl)))) as (s' & S5 & K). exists s'. split; [exact U|]. split; [exact (steps_trans _ _ _ _ _ _ _ S4 S5)|exact K].
Qed.
End Leaving.
Print Assumptions C103_not_before.
Print Assumptions C103_once_handled.
Print Assumptions C103_can_leave.
