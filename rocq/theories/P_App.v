(** Invariants of the program runner. *)
From Verif Require Import Base M_Cmd M_App.
From Coq Require Import List Bool Arith Lia.
Import ListNotations.

(** * Sequences *)
Definition settled (lg : list event) (w : who) : Prop := (exists m, In (EAccepted w m) lg) \/ In (EDropped w) lg.
(** The message of a command of a sequence, or of each command of the batch it returned, has been accepted or given up. *)
Definition settled_cmd (lg : list event) (id i : nat) (c : cmd) : Prop :=
  match c_msg c with
  | MBatch bs => forall j, j < length bs -> settled lg (WSeq id i (S j))
  | _ => settled lg (WSeq id i 0)
  end.
Definition seq_at (lg : list event) (id i : nat) (l : list (option cmd)) : Prop :=
  exists cs, In (ESpawned id cs) lg /\ skipn i cs = l /\ forall k c, k < i -> nth_error cs k = Some (Some c) -> settled_cmd lg id k c.
Definition is_batch (m : msg) : bool := match m with MBatch _ => true | _ => false end.

Definition g_ok (lg : list event) (g : gor) : Prop :=
  match g with
  | GInit id c => In (EReturned id c) lg
  | GRun id c => In (EStarted (WCmd id) c) lg
  | GSend id m => exists c, In (EStarted (WCmd id) c) lg /\ m = c_msg c
  | GSeq id i l => seq_at lg id i l
  | GSeqRun id i c l => seq_at lg id i (Some c :: l) /\ In (EStarted (WSeq id i 0) c) lg
  | GSeqSend id i m l => exists c, seq_at lg id i (Some c :: l) /\ m = c_msg c /\ is_batch m = false /\ In (EStarted (WSeq id i 0) c) lg
  | GSeqBatch id i items l => exists c bs, seq_at lg id i (Some c :: l) /\ c_msg c = MBatch bs /\
      (forall j, j < length bs -> settled lg (WSeq id i (S j)) \/ exists it, In (S j, it) items) /\
      (forall j it, In (j, it) items -> 0 < j /\ exists d, nth_error bs (j - 1) = Some d /\ In (EStarted (WSeq id i j) d) lg /\ match it with IRun c' => c' = d | ISend m => m = c_msg d end)
  | _ => True
  end.

Lemma settled_more a lg w : settled lg w -> settled (a ++ lg) w.
Proof. intros [(m & H)|H]; [left; exists m|right]; apply in_or_app; now right. Qed.
Lemma settled_cmd_more a lg id i c : settled_cmd lg id i c -> settled_cmd (a ++ lg) id i c.
Proof. unfold settled_cmd. destruct (c_msg c); intros H; try (now apply settled_more). intros j J. apply settled_more. auto. Qed.
Lemma seq_at_more a lg id i l : seq_at lg id i l -> seq_at (a ++ lg) id i l.
Proof. intros (cs & S & K & H). exists cs. split; [apply in_or_app; now right|]. split; [exact K|]. intros k c L N. apply settled_cmd_more. eauto. Qed.
Lemma in_more {A} (a lg : list A) x : In x lg -> In x (a ++ lg).
Proof. intros. apply in_or_app. now right. Qed.
Lemma g_ok_more a lg g : g_ok lg g -> g_ok (a ++ lg) g.
Proof.
  destruct g; cbn [g_ok]; auto using in_more, seq_at_more.
  - intros (c & S & E). exists c. auto using in_more.
  - intros (S & E). auto using in_more, seq_at_more.
  - intros (c & S & E & B & K). exists c. auto 6 using in_more, seq_at_more.
  - intros (c & bs & S & E & D & R). exists c, bs. split; [now apply seq_at_more|]. split; [exact E|]. split.
    + intros j J. destruct (D j J) as [K|K]; [left; now apply settled_more|now right].
    + intros j it I. destruct (R j it I) as (P & d & Nd & K & Q). split; [exact P|]. exists d. split; [exact Nd|]. split; [now apply in_more|exact Q].
Qed.
Lemma all_more a lg gs : Forall (g_ok lg) gs -> Forall (g_ok (a ++ lg)) gs.
Proof. apply Forall_impl. intros g. apply g_ok_more. Qed.

Lemma skipn_step {A} i (cs : list A) x l : skipn i cs = x :: l -> nth_error cs i = Some x /\ skipn (S i) cs = l.
Proof.
  revert cs. induction i as [|i IH]; intros cs H.
  - destruct cs; cbn in *; [discriminate|]. injection H as -> ->. split; reflexivity.
  - destruct cs; [discriminate|]. cbn [skipn nth_error] in *. apply IH in H. exact H.
Qed.

(** Going on after the command at position i. *)
Lemma seq_next lg id i x l : seq_at lg id i (x :: l) -> (forall c, x = Some c -> settled_cmd lg id i c) -> seq_at lg id (S i) l.
Proof.
  intros (cs & S & K & H) N. apply skipn_step in K. destruct K as [K1 K2]. exists cs. split; [exact S|]. split; [exact K2|].
  intros k c L E. destruct (Nat.eq_dec k i) as [->|D]; [|apply H; [lia|exact E]]. apply N. congruence.
Qed.

Lemma number_spec cs : forall j k it, In (k, it) (number j cs) -> j <= k /\ exists d, nth_error cs (k - j) = Some d /\ it = IRun d.
Proof.
  induction cs as [|c cs IH]; intros j k it I; [destruct I|]. cbn [number] in I. destruct I as [I|I].
  - injection I as <- <-. split; [lia|]. exists c. rewrite Nat.sub_diag. split; reflexivity.
  - apply IH in I. destruct I as (L & d & N & E). split; [lia|]. exists d. split; [|exact E]. replace (k - j) with (S (k - S j)) by lia. exact N.
Qed.
Lemma number_all cs : forall j k, k < length cs -> exists it, In (j + k, it) (number j cs).
Proof.
  induction cs as [|c cs IH]; intros j k L; cbn [length] in L; [lia|]. cbn [number]. destruct k as [|k]; [exists (IRun c); left; f_equal; lia|].
  destruct (IH (S j) k ltac:(lia)) as (it & I). exists it. right. replace (j + S k) with (S j + k) by lia. exact I.
Qed.
Lemma starts_in id i cs : forall j k d, nth_error cs k = Some d -> In (EStarted (WSeq id i (j + k)) d) (starts id i j cs).
Proof.
  induction cs as [|c cs IH]; intros j k d N; [destruct k; discriminate|]. cbn [starts]. destruct k as [|k]; cbn [nth_error] in N.
  - left. f_equal; [f_equal; lia|congruence].
  - right. replace (j + S k) with (S j + k) by lia. now apply IH.
Qed.
Lemma starts_only id i cs : forall j e, In e (starts id i j cs) -> exists k d, e = EStarted (WSeq id i k) d /\ j <= k.
Proof. induction cs as [|c cs IH]; intros j e I; [destruct I|]. destruct I as [<-|I]; [exists j, c; split; [reflexivity|lia]|]. destruct (IH _ _ I) as (k & d & E & L). exists k, d. split; [exact E|lia]. Qed.

Lemma in_mid {A} (a b : list A) x y : In x (a ++ b) -> In x (a ++ y :: b).
Proof. rewrite !in_app_iff. cbn. tauto. Qed.

Section Inv.
Context {M : Type}.
Variable m0 : M.
Variable init_cmd : option cmd.
Variable update : M -> msg -> option (M * option cmd).
Variable inputs : list msg.
Notation step := (step m0 init_cmd update inputs).
Notation steps := (steps m0 init_cmd update inputs).
Notation reachable := (reachable m0 init_cmd update inputs).

Lemma gstep_ok x g gs' evs lg : gstep inputs x g gs' evs -> g_ok lg g -> Forall (g_ok (evs ++ lg)) gs'.
Proof.
  intros H K. destruct H; cbn [app]; try (constructor; fail); try (unfold back_to; destruct back; repeat constructor; fail); try (constructor; [|constructor]); cbn [g_ok] in *; auto.
  - exists c. auto.
  - eapply seq_next; [exact K|discriminate].
  - split; [apply (seq_at_more [_]); exact K|now left].
  - destruct K as [K1 K2]. exists c. split; [exact K1|]. split; [reflexivity|]. split; [|exact K2]. destruct (c_msg c) eqn:E; try reflexivity. now elim (H0 cs).
  - destruct K as [K1 K2]. exists c, cs. split; [now apply seq_at_more|]. split; [exact H0|]. split.
    + intros j J. right. exact (number_all cs 1 j J).
    + intros j it I. apply number_spec in I. destruct I as (L & d & N & ->). split; [lia|]. exists d. split; [exact N|]. split; [|reflexivity]. apply in_or_app. left. replace j with (1 + (j - 1)) at 1 by lia. now apply starts_in.
  - destruct K as (c & K1 & E & B & K2). eapply seq_next; [apply (seq_at_more [_]); exact K1|]. intros c' [= <-]. unfold settled_cmd. rewrite <- E. destruct m; try discriminate; right; now left.
  - destruct K as (c0 & bs & K1 & E & D & R). exists c0, bs. split; [exact K1|]. split; [exact E|]. split.
    + intros k L. destruct (D k L) as [S|(it & I)]; [now left|right]. apply in_app_or in I. destruct I as [I|[I|I]]; [exists it; apply in_or_app; now left|injection I as -> ?; eexists; apply in_or_app; right; now left|exists it; apply in_or_app; right; now right].
    + intros k it I. apply in_app_or in I. destruct I as [I|[I|I]]; [apply R; apply in_or_app; now left| |apply R; apply in_or_app; right; now right].
      injection I as <- <-. destruct (R j (IRun c)) as (P & d & Nd & S & Q); [apply in_or_app; right; now left|]. split; [exact P|]. exists d. split; [exact Nd|]. split; [exact S|]. now rewrite Q.
  - destruct K as (c0 & bs & K1 & E & D & R). exists c0, bs. split; [apply (seq_at_more [_]); exact K1|]. split; [exact E|]. split.
    + intros k L. destruct (D k L) as [S|(it & I)]; [left; now apply (settled_more [_])|]. apply in_app_or in I. destruct I as [I|[I|I]]; [right; exists it; apply in_or_app; now left| |right; exists it; apply in_or_app; now right].
      injection I as -> ?. left. right. now left.
    + intros k it I. apply (in_mid _ _ _ (j, ISend m)) in I. destruct (R k it I) as (P & d & Nd & S & Q). split; [exact P|]. exists d. split; [exact Nd|]. split; [now right|exact Q].
  - destruct K as (c & bs & K1 & E & D & R). eapply seq_next; [exact K1|]. intros c' [= <-]. unfold settled_cmd. rewrite E. intros j J. destruct (D j J) as [S|(it & [])]. exact S.
Qed.

Lemma offers_ok g w m gs' lg : offers inputs g w m gs' -> g_ok lg g -> Forall (g_ok (EAccepted w m :: lg)) gs'.
Proof.
  intros H K. destruct H; try (constructor; fail); try (unfold back_to; destruct back; repeat constructor; fail); try (constructor; [|constructor]); cbn [g_ok] in *; auto.
  - destruct K as (c & K1 & E & B & K2). eapply seq_next; [apply (seq_at_more [_]); exact K1|]. intros c' [= <-]. unfold settled_cmd. rewrite <- E. destruct m; try discriminate; left; eexists; now left.
  - destruct K as (c0 & bs & K1 & E & D & R). exists c0, bs. split; [apply (seq_at_more [_]); exact K1|]. split; [exact E|]. split.
    + intros k L. destruct (D k L) as [S|(it & I)]; [left; now apply (settled_more [_])|]. apply in_app_or in I. destruct I as [I|[I|I]]; [right; exists it; apply in_or_app; now left| |right; exists it; apply in_or_app; now right].
      injection I as -> ?. left. left. eexists. now left.
    + intros k it I. apply (in_mid _ _ _ (j, ISend m)) in I. destruct (R k it I) as (P & d & Nd & S & Q). split; [exact P|]. exists d. split; [exact Nd|]. split; [now right|exact Q].
Qed.

(** Replacing one goroutine. *)
Lemma all_replace lg l1 g l2 gs' a : Forall (g_ok lg) (l1 ++ g :: l2) -> Forall (g_ok (a ++ lg)) gs' -> Forall (g_ok (a ++ lg)) (l1 ++ gs' ++ l2).
Proof. rewrite !Forall_app, Forall_cons_iff. intros (A & B & C) D. repeat split; auto using all_more. Qed.
Lemma all_one lg l1 g l2 : Forall (g_ok lg) (l1 ++ g :: l2) -> g_ok lg g.
Proof. rewrite Forall_app, Forall_cons_iff. tauto. Qed.

Lemma step_ok s s' : step s s' -> Forall (g_ok (st_log s)) (st_gs s) -> Forall (g_ok (st_log s')) (st_gs s').
Proof.
  intros H K. destruct H; cbn [st_log st_gs] in *; auto; try (eapply (all_replace _ _ _ _ [_] []); [exact K|repeat constructor]; fail); try (eapply (all_more [_]); exact K); try constructor.
  - eapply all_replace; [exact K|]. eapply gstep_ok; [eassumption|eapply all_one; exact K].
  - eapply (all_replace _ _ _ _ [] []); [exact K|constructor].
  - destruct init_cmd; [constructor; [now left|]|]; now apply all_more.
  - exact I.
  - exact K.
  - exact I.
  - constructor; [exact I|]. constructor; [exact I|]. exact K.
  - eapply (all_replace _ _ _ _ _ []); [exact K|]. destruct H; unfold back_to; try destruct back; repeat constructor.
  - apply (all_replace _ _ _ _ _ [_] K). eapply offers_ok; [eassumption|eapply all_one; exact K].
  - apply (all_replace _ _ _ _ _ [_; _] K). apply (all_more [_]). eapply offers_ok; [eassumption|eapply all_one; exact K].
  - apply (all_replace _ _ _ _ _ [_] K). eapply offers_ok; [eassumption|eapply all_one; exact K].
  - apply Forall_app. split.
    + destruct y; cbn [spawn_seq fst snd app]; repeat constructor. cbn [g_ok]. exists cs. split; [now left|]. split; [reflexivity|]. lia.
    + change (snd (spawn_seq n y) ++ EAccepted w y :: lg) with (snd (spawn_seq n y) ++ [EAccepted w y] ++ lg). rewrite app_assoc. apply (all_replace _ _ _ _ _ _ K). rewrite <- app_assoc. apply all_more. eapply offers_ok; [eassumption|eapply all_one; exact K].
  - change (returned n c ++ EUpdate y :: lg) with (returned n c ++ [EUpdate y] ++ lg). rewrite app_assoc. now apply all_more.
  - now left.
  - now apply (all_more [_]).
  - now left.
  - apply (all_more [_]). rewrite !Forall_app, !Forall_cons_iff in *. rewrite Forall_app, Forall_cons_iff in K. tauto.
  - now left.
  - apply (all_more [_]). rewrite !Forall_app, !Forall_cons_iff in *. rewrite Forall_app, Forall_cons_iff in K. rewrite Forall_app. tauto.
Qed.

Lemma reach_ok s : reachable s -> Forall (g_ok (st_log s)) (st_gs s).
Proof. unfold M_App.reachable. remember initial as i. induction 1; [subst; constructor|]. eapply step_ok; eauto. Qed.
End Inv.
