(** Every event has its reason in the events before it. *)
From Verif Require Import Base M_Cmd M_App P_App P_AppIds.
From Coq Require Import List Bool Arith Lia Permutation.
Import ListNotations.

(** The commands before position i of a sequence are done. *)
Definition done_before (lg : list event) (id i : nat) : Prop :=
  exists cs, In (ESpawned id cs) lg /\ forall k d, k < i -> nth_error cs k = Some (Some d) -> settled_cmd lg id k d.
(** The command of a sequence that has place (i, j). *)
Definition place (lg : list event) (id i j : nat) (c : cmd) : Prop :=
  exists cs d, In (ESpawned id cs) lg /\ nth_error cs i = Some (Some d) /\
    (j = 0 /\ c = d \/ 0 < j /\ exists bs, c_msg d = MBatch bs /\ nth_error bs (j - 1) = Some c).

Definition just (inputs : list msg) (lg : list event) (e : event) : Prop :=
  match e with
  | EReturned id _ => (forall c', ~ In (EReturned id c') lg) /\ (lg = [] \/ exists y l, lg = EUpdate y :: l)
  | EStarted (WCmd id) c => In (EReturned id c) lg /\ forall c', ~ In (EStarted (WCmd id) c') lg
  | EStarted (WSeq id i j) c => place lg id i j c /\ done_before lg id i /\ forall c', ~ In (EStarted (WSeq id i j) c') lg
  | EStarted _ _ => False
  | EAccepted (WInput k) m => nth_error inputs k = Some m
  | EAccepted WSize m => m = MSize
  | EAccepted (WCmd id) m => (exists c, In (EStarted (WCmd id) c) lg /\ m = c_msg c) /\ forall m', ~ In (EAccepted (WCmd id) m') lg
  | EAccepted (WSeq id i j) m => (exists c, In (EStarted (WSeq id i j) c) lg /\ m = c_msg c) /\ done_before lg id i /\ forall m', ~ In (EAccepted (WSeq id i j) m') lg
  | ESpawned id cs => (forall cs', ~ In (ESpawned id cs') lg) /\ exists w l, lg = EAccepted w (MSeq cs) :: l
  | _ => True
  end.
Fixpoint all_just (inputs : list msg) (lg : list event) : Prop := match lg with [] => True | e :: l => just inputs l e /\ all_just inputs l end.
Lemma all_just_at inputs lg a e b : all_just inputs lg -> lg = a ++ e :: b -> just inputs b e.
Proof. revert lg. induction a as [|x a IH]; intros lg H ->; cbn in H; [tauto|]. eapply IH; [apply H|reflexivity]. Qed.

Section Inv.
Context {M : Type}.
Variable m0 : M.
Variable init_cmd : option cmd.
Variable update : M -> msg -> option (M * option cmd).
Variable inputs : list msg.
Notation step := (step m0 init_cmd update inputs).
Notation steps := (steps m0 init_cmd update inputs).
Notation reachable := (reachable m0 init_cmd update inputs).

Lemma seq_at_done lg id i l : seq_at lg id i l -> done_before lg id i.
Proof. intros (cs & S & _ & H). exists cs. auto. Qed.
Lemma seq_at_place lg id i c l : seq_at lg id i (Some c :: l) -> place lg id i 0 c.
Proof. intros (cs & S & K & _). exists cs, c. split; [exact S|]. split; [now apply skipn_step in K|]. left. auto. Qed.
Lemma done_more a lg id i : done_before lg id i -> done_before (a ++ lg) id i.
Proof. intros (cs & S & H). exists cs. split; [now apply in_more|]. intros k d L N. apply settled_cmd_more. eauto. Qed.

Lemma gstep_just x g gs' evs lg : gstep inputs x g gs' evs -> g_ok lg g -> g_fresh lg g -> all_just inputs lg -> all_just inputs (evs ++ lg).
Proof.
  intros H K F A. destruct H; cbn [app all_just just]; auto; cbn [g_ok g_fresh] in *.
  - split; [|exact A]. split; [eapply seq_at_place; exact K|]. split; [eapply seq_at_done; exact K|]. intros c' I. apply (proj1 F) in I. lia.
  - destruct K as [K K'].
    assert (N : forall rest j, (forall k d, nth_error rest k = Some d -> nth_error cs (j + k) = Some d) -> all_just inputs (starts id i (S j) rest ++ lg)).
    { induction rest as [|d rest IH]; intros j Q; [exact A|]. cbn [starts app all_just]. split; [|apply (IH (S j)); intros k e E; specialize (Q (S k) e E); now replace (S j + k) with (j + S k) by lia].
      cbn [just]. split; [|split].
      - destruct K as (cs0 & Sp & P & _). apply skipn_step in P. destruct P as [P _]. exists cs0, c. split; [now apply in_more|]. split; [exact P|]. right. split; [lia|]. exists cs. split; [exact H0|]. replace (S j - 1) with (j + 0) by lia. now apply Q.
      - apply done_more. eapply seq_at_done. exact K.
      - intros c' I. apply in_app_or in I. destruct I as [I|I]; [apply starts_only in I; destruct I as (k & e & E & L); injection E as ? ?; lia|]. apply (proj1 F) in I. lia. }
    apply (N cs 0). auto.
Qed.

Lemma offers_just g w m gs' lg : offers inputs g w m gs' -> g_ok lg g -> g_fresh lg g -> just inputs lg (EAccepted w m).
Proof.
  intros H K F. destruct (offers_fresh inputs _ _ _ _ _ H F) as [_ U]. destruct H; cbn [just g_ok] in *; auto.
  - destruct K as (c & K1 & E & B & K2). split; [exists c; auto|]. split; [eapply seq_at_done; exact K1|]. destruct U as [U|[(k & U)|U]]; try discriminate. exact U.
  - destruct K as (c & bs & K1 & E & D & R). split; [|split].
    + destruct (R j (ISend m)) as (_ & d & _ & S & Q); [apply in_or_app; right; now left|]. exists d. auto.
    + eapply seq_at_done. exact K1.
    + destruct U as [U|[(k & U)|U]]; try discriminate. exact U.
Qed.

Definition main_ok (lg : list event) (p : main M) : Prop := match p with PSendCmd _ (Some (id, c)) => In (EReturned id c) lg | PSetup _ => lg = [] | _ => True end.
Definition log_inv (s : state M) : Prop := (ids_inv s /\ Forall (g_ok (st_log s)) (st_gs s)) /\ main_ok (st_log s) (st_main s) /\ (match st_main s with PSetup _ => st_gs s = [] | _ => True end) /\ all_just inputs (st_log s).

Lemma mid_ok (s : state M) l1 g l2 : ids_inv s /\ Forall (g_ok (st_log s)) (st_gs s) -> st_gs s = l1 ++ g :: l2 -> g_ok (st_log s) g /\ g_fresh (st_log s) g.
Proof. intros [(_ & _ & _ & F & _) K] E. rewrite E in *. rewrite Forall_app, Forall_cons_iff in *. tauto. Qed.
Lemma fresh_id (s : state M) : ids_inv s -> forall e, In e (st_log s) -> ~ In (st_next s) (event_ids e).
Proof. intros (_ & _ & H & _) e I J. rewrite Forall_forall in H. specialize (H e I). rewrite Forall_forall in H. apply H in J. lia. Qed.

Lemma step_log s s' : step s s' -> log_inv s -> log_inv s'.
Proof.
  intros H (I & MO & G & A). split; [split; [eapply step_ids; [exact H|apply I]|eapply step_ok; [exact H|apply I]]|].
  destruct H; cbn [st_log st_main st_gs main_ok all_just just] in *; auto 6; try (destruct l1; discriminate).
  - destruct (mid_ok _ l1 g l2 I eq_refl) as [K F]. split; [|split; [|eapply gstep_just; eauto]].
    + destruct p as [| | | | | |? [[? ?]|]| | | | | | | | |]; cbn [main_ok] in *; auto using in_more. destruct l1; discriminate.
    + destruct p; auto. destruct l1; discriminate.
  - destruct p; auto. destruct l1; discriminate.
  - destruct p; auto. destruct l1; discriminate.
  - destruct p; auto. destruct l1; discriminate.
  - destruct p; auto. destruct l1; discriminate.
  - destruct init_cmd; cbn [returned app all_just just]; auto. subst. repeat split; auto.
  - split; [exact MO|]. split; [exact G|]. split; [|exact A]. destruct (mid_ok _ l1 g l2 I eq_refl) as [K F]. eapply (offers_just _ _ MNil); eauto.
  - repeat split; auto. destruct (mid_ok _ l1 g l2 I eq_refl) as [K F]. eapply (offers_just _ _ MQuit); eauto.
  - repeat split; auto. destruct (mid_ok _ l1 g l2 I eq_refl) as [K F]. eapply (offers_just _ _ MSize); eauto.
  - destruct (mid_ok _ l1 g l2 I eq_refl) as [K F]. pose proof (offers_just _ _ _ _ _ H K F) as J. cbn [st_log] in J. repeat split; auto. destruct y; cbn [spawn_seq snd app all_just just] in *; auto. repeat split; auto.
    + intros cs' [Q|Q]; [discriminate|]. apply (fresh_id _ (proj1 I) _ Q). now left.
    + eauto.
  - destruct c as [c|]; cbn [tag returned app main_ok all_just just]; auto. repeat split; auto; [now left| |eauto].
    intros c' [Q|Q]; [discriminate|]. apply (fresh_id _ (proj1 I) _ Q). now left.
  - repeat split; auto. apply (proj1 (proj2 (proj2 (proj2 (proj2 (proj1 I)))))).
  - assert (K : g_ok lg (GInit id c) /\ g_fresh lg (GInit id c)) by exact (mid_ok _ l1 _ (l2 ++ GHandler :: l3) I eq_refl). destruct K as [K F]. cbn in K, F. repeat split; auto; [|destruct p; auto; destruct l1; discriminate|apply F].
    destruct p as [| | | | | |? [[? ?]|]| | | | | | | | |]; cbn [main_ok] in *; auto using in_more. destruct l1; discriminate. now right.
  - assert (K : g_ok lg (GInit id c) /\ g_fresh lg (GInit id c)). { apply (mid_ok _ (l1 ++ GHandler :: l2) _ l3 I). cbn [st_gs]. rewrite <- app_assoc. reflexivity. } destruct K as [K F]. cbn in K, F. repeat split; auto; [|destruct p; auto; destruct l1; discriminate|apply F].
    destruct p as [| | | | | |? [[? ?]|]| | | | | | | | |]; cbn [main_ok] in *; auto using in_more. destruct l1; discriminate. now right.
Qed.
Lemma reach_log s : reachable s -> log_inv s.
Proof. unfold M_App.reachable. remember initial as i. induction 1; [subst; repeat constructor|]. eapply step_log; eauto. Qed.
End Inv.
