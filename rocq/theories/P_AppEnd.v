(** The end of a run: terminal modes, shutting down, waiting for ever. *)
From Verif Require Import Base M_Cmd M_App P_App P_AppIds P_AppLog P_AppRun.
From Coq Require Import List Bool Arith Lia Permutation.
Import ListNotations.

Definition put_back (o : mode_op) : bool := match o with OpRaw b | OpHide b | OpAlt b | OpPaste b => negb b end.
Definition apply_all (ops : list mode_op) (md : modes) : modes := fold_left (fun m o => apply_op o m) ops md.
Definition touches (o : mode_op) (md : modes) : bool := match o with OpRaw _ => md_raw md | OpHide _ => md_hidden md | OpAlt _ => md_alt md | OpPaste _ => md_paste md end.
Lemma apply_comm ops : forall md o, forallb put_back ops = true -> put_back o = true -> apply_all ops md = plain_modes -> apply_all ops (apply_op o md) = plain_modes.
Proof.
  induction ops as [|q ops IH]; intros md o F P H; cbn [apply_all fold_left] in *.
  - subst md. destruct o as [[]|[]|[]|[]]; try discriminate; reflexivity.
  - cbn [forallb] in F. apply andb_prop in F. destruct F as [F1 F2].
    assert (E : apply_op q (apply_op o md) = apply_op o (apply_op q md)) by (destruct q as [[]|[]|[]|[]], o as [[]|[]|[]|[]]; try discriminate; reflexivity).
    unfold apply_all in IH. rewrite E. now apply IH.
Qed.

Section Inv.
Context {M : Type}.
Variable m0 : M.
Variable init_cmd : option cmd.
Variable update : M -> msg -> option (M * option cmd).
Variable inputs : list msg.
Notation step := (step m0 init_cmd update inputs).
Notation steps := (steps m0 init_cmd update inputs).
Notation reachable := (reachable m0 init_cmd update inputs).

(** * Modes *)
Definition mode_inv (s : state M) : Prop := md_paste (st_modes s) = false /\ (forall ops, In (GRecoverOps ops) (st_gs s) -> forallb put_back ops = true) /\
  match st_main s with
  | PSetup ops => incl ops setup_ops
  | PRestore _ ops => forallb put_back ops = true /\ (apply_all ops (st_modes s) = plain_modes)
  | PReturned r None => In EFailed (st_log s) \/ st_modes s = plain_modes
  | _ => True
  end.
Lemma gstep_recover x g gs' evs ops : gstep inputs x g gs' evs -> ~ In (GRecoverOps ops) gs'.
Proof. intros H I. destruct H; unfold back_to in I; try destruct back; cbn in I; intuition discriminate. Qed.
Lemma offers_recover g w m gs' ops : offers inputs g w m gs' -> ~ In (GRecoverOps ops) gs'.
Proof. intros H I. destruct H; unfold back_to in I; try destruct back; cbn in I; intuition discriminate. Qed.
Lemma mode_step a b : step a b -> mode_inv a -> mode_inv b.
Proof.
  intros H (K1 & K2 & K3). unfold mode_inv.
  assert (MID : forall l1 g l2 gs' ops, In (GRecoverOps ops) (l1 ++ gs' ++ l2) -> (forall ops', In (GRecoverOps ops') gs' -> forallb put_back ops' = true) -> (forall ops', In (GRecoverOps ops') (l1 ++ g :: l2) -> forallb put_back ops' = true) -> forallb put_back ops = true).
  { intros l1 g l2 gs' ops I N P. rewrite !in_app_iff in I. destruct I as [I|[I|I]]; [apply P; apply in_or_app; now left|auto|apply P; apply in_or_app; right; now right]. }
  destruct H; cbn [st_main st_gs st_modes st_log] in *; (split; [|split]); auto;
    try (intros ops0 I0; refine (MID l1 _ l2 _ ops0 I0 _ K2); intros ops1 I1; first [exact (False_ind _ (gstep_recover _ _ _ _ _ H I1))|exact (False_ind _ (offers_recover _ _ _ _ _ H I1))|destruct H; unfold back_to in I1; try destruct back; cbn in I1; intuition discriminate]; fail);
    try (intros ops0 I0; refine (MID l1 _ l2 [_] ops0 I0 _ K2); intros ops1 [I1|[]]; try discriminate; injection I1 as <-; try reflexivity; specialize (K2 (o :: ops)); cbn [forallb] in K2; rewrite andb_true_iff in K2; apply K2; apply in_or_app; right; now left);
    try (intros ops0 []; fail).
  - destruct p as [| | | | | | | | | | | | | |? [|]|]; try exact K3; try exact I. destruct K3 as [K3|K3]; [|now right]. left. apply in_or_app. now right.
  - specialize (K2 (o :: ops)). cbn [forallb] in K2. rewrite andb_true_iff in K2. destruct K2 as [K2 _]; [apply in_or_app; right; now left|]. destruct o as [[]|[]|[]|[]]; try discriminate; exact K1 || reflexivity.
  - assert (P : put_back o = true). { specialize (K2 (o :: ops)). cbn [forallb] in K2. rewrite andb_true_iff in K2. apply K2. apply in_or_app; right; now left. }
    destruct p as [| | | | | | | | | | | | |? ?|? [|]|]; try exact K3; try exact I.
    + destruct K3 as [K3 K4]. split; [exact K3|]. now apply apply_comm.
    + destruct K3 as [K3|K3]; [now left|right]. rewrite K3. destruct o as [[]|[]|[]|[]]; try discriminate; reflexivity.
  - intros ops0 I0. refine (MID l1 _ l2 [] ops0 I0 _ K2). intros ops1 [].
  - assert (I : In o setup_ops) by (apply K3; now left). cbn in I. destruct I as [<-|[<-|[<-|[]]]]; exact K1.
  - intros q I. apply K3. now right.
  - destruct init_cmd; [|exact K2]. intros ops [I|I]; [discriminate|auto].
  - intros ops [I|I]; [discriminate|auto].
  - intros ops [I|[I|[I|I]]]; try discriminate. auto.
  - intros ops I. apply in_app_or in I. destruct I as [I|I]; [destruct y; cbn in I; try contradiction; destruct I as [I|[]]; discriminate|].
    apply (MID l1 g l2 _ ops I); [|exact K2]. intros ops1 I1. exact (False_ind _ (offers_recover _ _ _ _ _ H I1)).
  - intros ops [I|I]; [discriminate|]. auto.
  - intros ops [I|I]; [discriminate|]. apply K2. rewrite in_app_iff in *. cbn [In]. tauto.
  - destruct p as [| | | | | | | | | | | | | |? [|]|]; try exact K3; try exact I. destruct K3 as [K3|K3]; [|now right]. left. now right.
  - intros ops [I|I]; [discriminate|]. apply K2. rewrite in_app_iff in *. cbn [In] in *. rewrite in_app_iff in *. cbn [In]. tauto.
  - destruct p as [| | | | | | | | | | | | | |? [|]|]; try exact K3; try exact I. destruct K3 as [K3|K3]; [|now right]. left. now right.
  - destruct K3 as [K3 K4]. cbn [forallb] in K3. apply andb_prop in K3. destruct o as [[]|[]|[]|[]]; try (destruct K3; discriminate); exact K1 || reflexivity.
  - destruct K3 as [K3 K4]. cbn [forallb] in K3. apply andb_prop in K3. split; [apply K3|exact K4].
  - destruct r; auto. left. now left.
  - right. apply K3.
Qed.
Lemma reach_mode s : reachable s -> mode_inv s.
Proof. apply inv_reach; [apply mode_step|]. split; [reflexivity|]. split; [intros ops []|]. intros o I. exact I. Qed.

(** * The command handler *)
Definition looping (p : main M) : bool := match p with PLoop _ | PUpdate _ _ | PSendCmd _ _ | PDraw _ => true | _ => false end.
Lemma gstep_handler x g gs' evs : gstep inputs x g gs' evs -> (g = GHandler -> x = true) /\ ~ In GHandler gs'.
Proof. intros H. split; [intros ->; inversion H; auto|]. intros I. destruct H; unfold back_to in I; try destruct back; cbn in I; intuition discriminate. Qed.
Lemma in_keep {A} (a : A) l1 g l2 gs' : In a (l1 ++ g :: l2) -> a <> g -> In a (l1 ++ gs' ++ l2).
Proof. rewrite !in_app_iff. cbn. intuition congruence. Qed.
Lemma handler_step a b : step a b -> (st_cancelled a = false -> looping (st_main a) = true -> In GHandler (st_gs a)) -> (st_cancelled b = false -> looping (st_main b) = true -> In GHandler (st_gs b)).
Proof.
  intros H K C L. destruct H; cbn [st_cancelled st_main st_gs looping] in *; try discriminate; auto;
    try (refine (in_keep _ _ _ _ [_] (K C L) _); discriminate);
    try (refine (in_keep _ _ _ _ _ (K C eq_refl) _); intros <-; inversion H; fail).
  - refine (in_keep _ _ _ _ _ (K C L) _). intros <-. apply gstep_handler in H. destruct H as [H _]. rewrite C in H. discriminate (H eq_refl).
  - refine (in_keep _ _ _ _ [] (K C L) _). discriminate.
  - cbn. auto.
  - apply in_or_app. right. refine (in_keep _ _ _ _ _ (K C eq_refl) _). intros <-. inversion H.
  - right. auto.
  - right. apply in_or_app. right. apply in_or_app. right. now left.
  - right. apply in_or_app. right. now left.
Qed.
Lemma reach_handler s : reachable s -> st_cancelled s = false -> looping (st_main s) = true -> In GHandler (st_gs s).
Proof. apply (inv_reach m0 init_cmd update inputs (fun s => st_cancelled s = false -> looping (st_main s) = true -> In GHandler (st_gs s))); [apply handler_step|]. discriminate. Qed.

(** Once gone, the command handler does not come back; without it a command cannot be handed over. *)
Definition past_start (p : main M) : bool := match p with PSetup _ | PDraw0 | PReader | PStart => false | _ => true end.
Lemma gone_step a b : step a b -> ~ In GHandler (st_gs a) -> past_start (st_main a) = true -> ~ In GHandler (st_gs b) /\ past_start (st_main b) = true.
Proof.
  intros H N P. destruct H; cbn [st_gs st_main past_start] in *; try discriminate; (split; [|auto]); auto;
    try (intros I; apply N; rewrite !in_app_iff in *; cbn [In] in *; intuition discriminate).
  - intros I. apply N. rewrite !in_app_iff in *. cbn [In]. destruct I as [I|[I|I]]; auto. destruct (gstep_handler _ _ _ _ H) as [_ Q]. contradiction.
  - intros I. apply N. rewrite !in_app_iff in *. cbn [In]. destruct I as [I|[I|I]]; auto. destruct H; unfold back_to in I; try destruct back; cbn in I; intuition discriminate.
  - intros I. apply N. rewrite !in_app_iff in *. cbn [In]. destruct I as [I|[I|I]]; auto. destruct H; unfold back_to in I; try destruct back; cbn in I; intuition discriminate.
  - intros I. apply N. rewrite !in_app_iff in *. cbn [In]. destruct I as [I|[I|I]]; auto. destruct H; unfold back_to in I; try destruct back; cbn in I; intuition discriminate.
  - intros I. apply N. rewrite !in_app_iff in *. cbn [In]. destruct I as [I|[I|I]]; auto. destruct H; unfold back_to in I; try destruct back; cbn in I; intuition discriminate.
  - intros I. apply N. rewrite !in_app_iff in *. cbn [In]. destruct I as [I|[I|[I|I]]]; auto; [destruct y; cbn in I; intuition discriminate|]. destruct H; unfold back_to in I; try destruct back; cbn in I; intuition discriminate.
  - elim N. apply in_or_app. right. right. apply in_or_app. right. now left.
Qed.

(** Run waits for ever: it has an error to report and nobody to take it, or a command to hand over and nobody to take it. *)
Definition doomed (s : state M) : Prop :=
  match st_main s with
  | PErrSend => True
  | PSendCmd _ _ => ~ In GHandler (st_gs s)
  | PUpdate m y => ~ In GHandler (st_gs s) /\ update m y <> None
  | _ => False
  end.
Lemma doomed_step a b : step a b -> doomed a -> doomed b \/ st_main b = PCrashed.
Proof.
  intros H D.
  assert (G : forall p gs x md n lg gs' x' md' n' lg', a = State p gs x md n lg -> b = State p gs' x' md' n' lg' -> doomed b \/ st_main b = PCrashed).
  { intros p gs x md n lg gs' x' md' n' lg' -> ->. left. unfold doomed in *. cbn [st_main st_gs] in *. destruct p; try contradiction; auto.
    - destruct D as [D1 D2]. split; [|exact D2]. destruct (gone_step _ _ H) as [Q _]; auto.
    - destruct (gone_step _ _ H) as [Q _]; auto. }
  destruct H; try (eapply G; reflexivity); unfold doomed in *; cbn [st_main st_gs] in *; try contradiction; auto.
  - left. tauto.
  - destruct D as [_ D]. contradiction.
  - elim D. apply in_or_app. right. now left.
  - elim D. apply in_or_app. right. now left.
Qed.
Lemma doomed_steps s s' : steps s s' -> doomed s -> doomed s' \/ st_main s' = PCrashed.
Proof.
  intros S D. induction S; [now left|]. destruct (IHS D) as [Q|Q]; [now apply (doomed_step s')|]. right.
  clear - Q H. destruct H; cbn in *; congruence.
Qed.

(** * Shutting down *)
(** With the context done, the goroutines Run waits for can all end by themselves. *)
Lemma handlers_end p md n : forall gs2 gs1 lg, existsb is_handler gs1 = false -> exists gs' lg', existsb is_handler gs' = false /\ steps (State p (gs1 ++ gs2) true md n lg) (State p gs' true md n lg').
Proof.
  induction gs2 as [|g gs2 IH]; intros gs1 lg N; [exists gs1, lg; rewrite app_nil_r; split; [exact N|apply steps_refl]|].
  destruct (is_handler g) eqn:E.
  - assert (L : forall lg, exists lg', steps (State p (gs1 ++ g :: gs2) true md n lg) (State p (gs1 ++ gs2) true md n lg')).
    { assert (B : forall lg, exists lg', steps (State p (gs1 ++ GListen :: gs2) true md n lg) (State p (gs1 ++ gs2) true md n lg')).
      { intros lg0. exists lg0. eapply steps_cons; [apply (s_gor _ _ _ _ _ p _ [] []); now constructor|]. apply steps_refl. }
      intros lg0. destruct g; cbn in E; try discriminate; subst.
      - exists lg0. eapply steps_cons; [apply (s_gor _ _ _ _ _ p _ [] []); now constructor|]. apply steps_refl.
      - exists lg0. eapply steps_cons; [apply (s_gor _ _ _ _ _ p _ [] []); now constructor|]. apply steps_refl.
      - apply B.
      - destruct (B lg0) as (lg' & S). exists lg'. eapply steps_cons; [apply (s_gor _ _ _ _ _ p (GCheck true) [GListen] []); apply (g_size_unknown _ _ true)|]. exact S.
      - destruct (B (EDropped WSize :: lg0)) as (lg' & S). exists lg'. eapply steps_cons; [apply (s_gor _ _ _ _ _ p (GSize true) [GListen] [EDropped WSize]); now apply (g_size_drop _ _ true)|]. exact S.
      - destruct (B lg0) as (lg' & S). exists lg'. eapply steps_cons; [apply (s_gor _ _ _ _ _ p (GSizeErr true) [GListen] []); now apply (g_size_err_drop _ _ true)|]. exact S. }
    destruct (L lg) as (lg1 & S1). destruct (IH gs1 lg1 N) as (gs' & lg' & N' & S2). exists gs', lg'. split; [exact N'|]. eapply steps_trans; eassumption.
  - destruct (IH (gs1 ++ [g]) lg) as (gs' & lg' & N' & S); [rewrite existsb_app, N; cbn; now rewrite E|]. exists gs', lg'. split; [exact N'|]. rewrite <- app_assoc in S. exact S.
Qed.

Lemma shutdown_ends r gs x md n lg : exists s', steps (State (PCancel r) gs x md n lg) s' /\ st_main s' = PReturned r None /\ (md_paste md = false -> st_modes s' = plain_modes).
Proof.
  destruct (handlers_end (PWait r) md n gs [] lg eq_refl) as (gs' & lg' & N & S). cbn [app] in S.
  exists (State (PReturned r None) gs' true (apply_all restore_ops md) n lg'). split; [|split; [reflexivity|]].
  - eapply steps_cons; [apply s_shutdown|]. eapply steps_trans; [exact S|]. eapply steps_cons; [apply s_wait; exact N|].
    do 4 (eapply steps_cons; [apply s_restore|]). eapply steps_cons; [apply s_restored|]. apply steps_refl.
  - intros _. destruct md as [[] [] [] []]; reflexivity.
Qed.
End Inv.
