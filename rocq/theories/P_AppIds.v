(** The numbers given to commands and sequences identify them. *)
From Verif Require Import Base M_Cmd M_App P_App.
From Coq Require Import List Bool Arith Lia Permutation.
Import ListNotations.

Definition gid (g : gor) : list nat :=
  match g with
  | GInit id _ | GRun id _ | GSend id _ | GSeq id _ _ | GSeqRun id _ _ _ | GSeqSend id _ _ _ | GSeqBatch id _ _ _ => [id]
  | _ => []
  end.
Definition who_id (w : who) : list nat := match w with WCmd id | WSeq id _ _ => [id] | _ => [] end.
Definition event_ids (e : event) : list nat :=
  match e with EReturned id _ | ESpawned id _ => [id] | EStarted w _ | EAccepted w _ | EDropped w => who_id w | _ => [] end.
Definition pend {M} (p : main M) : list nat := match p with PSendCmd _ (Some (id, _)) => [id] | _ => [] end.
Definition own {M} (s : state M) : list nat := pend (st_main s) ++ flat_map gid (st_gs s).

(** What has not happened yet, for a goroutine. *)
Definition g_fresh (lg : list event) (g : gor) : Prop :=
  match g with
  | GInit id _ => (forall c, ~ In (EStarted (WCmd id) c) lg) /\ (forall m, ~ In (EAccepted (WCmd id) m) lg)
  | GRun id _ | GSend id _ => forall m, ~ In (EAccepted (WCmd id) m) lg
  | GSeq id p _ => (forall i j c, In (EStarted (WSeq id i j) c) lg -> i < p) /\ (forall i j m, In (EAccepted (WSeq id i j) m) lg -> i < p)
  | GSeqRun id p _ _ | GSeqSend id p _ _ =>
      (forall i j c, In (EStarted (WSeq id i j) c) lg -> i < p \/ i = p /\ j = 0) /\ (forall i j m, In (EAccepted (WSeq id i j) m) lg -> i < p)
  | GSeqBatch id p items _ => NoDup (map fst items) /\ (forall j, In j (map fst items) -> 0 < j) /\
      (forall i j c, In (EStarted (WSeq id i j) c) lg -> i <= p) /\
      (forall i j m, In (EAccepted (WSeq id i j) m) lg -> i < p \/ i = p /\ 0 < j /\ ~ In j (map fst items))
  | _ => True
  end.
Definition main_fresh {M} (lg : list event) (p : main M) : Prop :=
  match p with PSendCmd _ (Some (id, _)) => (forall c, ~ In (EStarted (WCmd id) c) lg) /\ (forall m, ~ In (EAccepted (WCmd id) m) lg) | _ => True end.

(** Events of others do not matter. *)
Lemma fresh_more evs lg g : (forall e n, In e evs -> In n (event_ids e) -> ~ In n (gid g)) -> g_fresh lg g -> g_fresh (evs ++ lg) g.
Proof.
  intros O K.
  assert (A : forall id c, In id (gid g) -> ~ In (EStarted (WCmd id) c) evs) by (intros id c I J; apply (O _ id J); [now left|exact I]).
  assert (B : forall id m, In id (gid g) -> ~ In (EAccepted (WCmd id) m) evs) by (intros id c I J; apply (O _ id J); [now left|exact I]).
  assert (C : forall id i j c, In id (gid g) -> ~ In (EStarted (WSeq id i j) c) evs) by (intros id i j c I J; apply (O _ id J); [now left|exact I]).
  assert (D : forall id i j m, In id (gid g) -> ~ In (EAccepted (WSeq id i j) m) evs) by (intros id i j c I J; apply (O _ id J); [now left|exact I]).
  clear O. destruct g; cbn [g_fresh gid] in *; auto.
  - destruct K as [K1 K2]. split; intros y I; apply in_app_or in I; destruct I as [I|I]; [now elim (A id y (or_introl eq_refl))|now elim (K1 y)|now elim (B id y (or_introl eq_refl))|now elim (K2 y)].
  - intros y I; apply in_app_or in I; destruct I as [I|I]; [now elim (B id y (or_introl eq_refl))|now elim (K y)].
  - intros y I; apply in_app_or in I; destruct I as [I|I]; [now elim (B id y (or_introl eq_refl))|now elim (K y)].
  - destruct K as [K1 K2]. split; intros i' j y I; apply in_app_or in I; destruct I as [I|I]; [now elim (C id i' j y (or_introl eq_refl))|now apply (K1 i' j y)|now elim (D id i' j y (or_introl eq_refl))|now apply (K2 i' j y)].
  - destruct K as [K1 K2]. split; intros i' j y I; apply in_app_or in I; destruct I as [I|I]; [now elim (C id i' j y (or_introl eq_refl))|now apply (K1 i' j y)|now elim (D id i' j y (or_introl eq_refl))|now apply (K2 i' j y)].
  - destruct K as [K1 K2]. split; intros i' j y I; apply in_app_or in I; destruct I as [I|I]; [now elim (C id i' j y (or_introl eq_refl))|now apply (K1 i' j y)|now elim (D id i' j y (or_introl eq_refl))|now apply (K2 i' j y)].
  - destruct K as (K0 & K3 & K1 & K2). split; [exact K0|]. split; [exact K3|]. split; intros i' j y I; apply in_app_or in I; destruct I as [I|I]; [now elim (C id i' j y (or_introl eq_refl))|now apply (K1 i' j y)|now elim (D id i' j y (or_introl eq_refl))|now apply (K2 i' j y)].
Qed.
Lemma all_fresh_more evs lg gs : (forall e n, In e evs -> In n (event_ids e) -> ~ In n (flat_map gid gs)) -> Forall (g_fresh lg) gs -> Forall (g_fresh (evs ++ lg)) gs.
Proof. intros O K. rewrite Forall_forall in *. intros g I. apply fresh_more; [|now apply K]. intros e n E J G. apply (O e n E J). apply in_flat_map. eauto. Qed.
Lemma main_fresh_more {M} evs lg (p : main M) : (forall e n, In e evs -> In n (event_ids e) -> ~ In n (pend p)) -> main_fresh lg p -> main_fresh (evs ++ lg) p.
Proof.
  intros O. destruct p as [| | | | | |m [[id c]|]| | | | | | | | |]; cbn [main_fresh pend] in *; auto. intros [A B]. split; intros y I; apply in_app_or in I; destruct I as [I|I]; [|now elim (A y)| |now elim (B y)];
    apply (O _ id I); now left.
Qed.

Section Inv.
Context {M : Type}.
Variable m0 : M.
Variable init_cmd : option cmd.
Variable update : M -> msg -> option (M * option cmd).
Variable inputs : list msg.
Notation step := (step m0 init_cmd update inputs).
Notation steps := (steps m0 init_cmd update inputs).
Notation reachable := (reachable m0 init_cmd update inputs).

Lemma gstep_ids x g gs' evs : gstep inputs x g gs' evs -> (flat_map gid gs' = gid g \/ flat_map gid gs' = []) /\ forall e n, In e evs -> In n (event_ids e) -> In n (gid g).
Proof.
  intros H. destruct H; unfold back_to; try destruct back; cbn [flat_map gid app]; (split; [auto|]); intros e n I J; cbn [In] in I;
    try contradiction; try (destruct I as [<-|[]]; exact J).
  apply starts_only in I. destruct I as (k & d & -> & _). exact J.
Qed.
Lemma offers_ids g w m gs' : offers inputs g w m gs' -> (flat_map gid gs' = gid g \/ flat_map gid gs' = []) /\ who_id w = gid g.
Proof. intros H. destruct H; unfold back_to; try destruct back; cbn [flat_map gid app who_id]; auto. Qed.

Lemma gstep_fresh x g gs' evs lg : gstep inputs x g gs' evs -> g_fresh lg g -> Forall (g_fresh (evs ++ lg)) gs'.
Proof.
  intros H K. destruct H; cbn [app]; try (constructor; fail); try (unfold back_to; destruct back; repeat constructor; fail); try (constructor; [|constructor]); cbn [g_fresh] in *; auto.
  - destruct K as [K1 K2]. split; intros i' j y I; [apply K1 in I|apply K2 in I]; lia.
  - destruct K as [K1 K2]. split; intros i' j y [I|I]; try discriminate; [injection I as <- <- <-; auto|apply K1 in I; lia|apply K2 in I; lia].
  - destruct K as [K1 K2]. split; [|split; [|split]].
    + clear. generalize 1. induction cs as [|c cs IH]; intros j; cbn [number map fst]; constructor; [|apply IH]. intros I. apply in_map_iff in I. destruct I as ((k & it) & E & I). cbn in E. subst. apply number_spec in I. lia.
    + intros j I. apply in_map_iff in I. destruct I as ((k & it) & E & I). cbn in E. subst. apply number_spec in I. lia.
    + intros i' j y I. apply in_app_or in I. destruct I as [I|I]; [apply starts_only in I; destruct I as (k & d & E & _); injection E as -> -> ->; lia|]. apply K1 in I. lia.
    + intros i' j y I. apply in_app_or in I. destruct I as [I|I]; [apply starts_only in I; destruct I as (k & d & E & _); discriminate|]. left. now apply K2 in I.
  - destruct K as [K1 K2]. split; intros i' j y [I|I]; try discriminate; [apply K1 in I; lia|apply K2 in I; lia].
  - replace (map fst (a ++ (j, ISend (c_msg c)) :: b)) with (map fst (a ++ (j, IRun c) :: b)); [exact K|]. rewrite !map_app. reflexivity.
  - destruct K as (K0 & K3 & K1 & K2). rewrite map_app in K0, K3. cbn [map fst] in K0, K3. pose proof (NoDup_remove_1 _ _ _ K0) as K0'. rewrite map_app. split; [exact K0'|]. split; [|split].
    + intros k I. apply K3. now apply in_mid.
    + intros i' k y [I|I]; [discriminate|eauto].
    + intros i' k y [I|I]; [discriminate|]. apply K2 in I. destruct I as [I|(-> & P & I)]; [now left|right]. split; [reflexivity|]. split; [exact P|]. intros J. apply I. rewrite map_app. now apply in_mid.
  - destruct K as (K0 & K3 & K1 & K2). split; intros i' j y I; [apply K1 in I; lia|]. apply K2 in I. destruct I as [I|(-> & _)]; lia.
Qed.

Lemma offers_fresh g w m gs' lg : offers inputs g w m gs' -> g_fresh lg g -> Forall (g_fresh (EAccepted w m :: lg)) gs' /\ (w = WSize \/ (exists k, w = WInput k) \/ forall m', ~ In (EAccepted w m') lg).
Proof.
  intros H K. destruct H; cbn [g_fresh] in K.
  - split; [constructor|]. right. right. exact K.
  - split; [constructor; [|constructor]|]; cbn [g_fresh].
    + destruct K as [K1 K2]. split; intros i' j y [I|I]; try discriminate; [apply K1 in I; lia|injection I as <- <- <-; lia|apply K2 in I; lia].
    + right. right. intros m' I. apply (proj2 K) in I. lia.
  - destruct K as (K0 & K3 & K1 & K2). rewrite map_app in K0, K3. cbn [map fst] in K0, K3. split; [constructor; [|constructor]; cbn [g_fresh]; rewrite map_app|].
    + split; [exact (NoDup_remove_1 _ _ _ K0)|]. split; [|split].
      * intros k I. apply K3. now apply in_mid.
      * intros i' k y [I|I]; [discriminate|eauto].
      * intros i' k y [I|I]; [injection I as <- <- <-; right; split; [reflexivity|]; split; [|exact (NoDup_remove_2 _ _ _ K0)]|].
        { apply K3. apply in_or_app. right. now left. }
        apply K2 in I. destruct I as [I|(-> & P & I)]; [now left|right]. split; [reflexivity|]. split; [exact P|]. intros J. apply I. rewrite map_app. now apply in_mid.
    + right. right. intros m' I. apply K2 in I. destruct I as [I|(_ & _ & I)]; [lia|]. apply I. rewrite map_app. apply in_or_app. right. now left.
  - split; [|now left]. unfold back_to. destruct back; repeat constructor.
  - split; [|right; left; eauto]. repeat constructor.
Qed.

(** Replacing one goroutine keeps numbers apart. *)
Lemma NoDup_replace (P A X Y B : list nat) : (Y = X \/ Y = []) -> NoDup (P ++ A ++ X ++ B) -> NoDup (P ++ A ++ Y ++ B).
Proof.
  intros [->| ->]; [auto|]. intros H. cbn [app].
  assert (Q : Permutation (P ++ A ++ X ++ B) (X ++ (P ++ A ++ B))). { rewrite !app_assoc. apply Permutation_app_tail. rewrite <- (app_assoc X). apply Permutation_app_comm. }
  apply (Permutation_NoDup Q) in H. clear Q. induction X as [|x X IH]; [exact H|]. inversion H; auto.
Qed.
Lemma NoDup_tail (X B : list nat) : NoDup (X ++ B) -> NoDup B.
Proof. induction X as [|x X IH]; [auto|]. intros H. inversion H; auto. Qed.
Lemma NoDup_apart (P A X B : list nat) n : NoDup (P ++ A ++ X ++ B) -> In n X -> ~ In n P /\ ~ In n (A ++ B).
Proof.
  intros H I. apply in_split in I. destruct I as (X1 & X2 & ->).
  assert (Q : P ++ A ++ (X1 ++ n :: X2) ++ B = (P ++ A ++ X1) ++ n :: (X2 ++ B)) by (rewrite <- !app_assoc; reflexivity).
  rewrite Q in H. apply NoDup_remove_2 in H. rewrite !in_app_iff in H. rewrite in_app_iff. tauto.
Qed.

Definition ids_inv (s : state M) : Prop :=
  NoDup (own s) /\ Forall (fun n => n < st_next s) (own s) /\ Forall (fun e => Forall (fun n => n < st_next s) (event_ids e)) (st_log s) /\
  Forall (g_fresh (st_log s)) (st_gs s) /\ main_fresh (st_log s) (st_main s).

Lemma fm_mid l1 g l2 : flat_map gid (l1 ++ g :: l2) = flat_map gid l1 ++ gid g ++ flat_map gid l2.
Proof. rewrite flat_map_app. reflexivity. Qed.
Lemma fm_mid' l1 gs l2 : flat_map gid (l1 ++ gs ++ l2) = flat_map gid l1 ++ flat_map gid gs ++ flat_map gid l2.
Proof. rewrite !flat_map_app. reflexivity. Qed.
Lemma Forall_incl {A} (P : A -> Prop) l l' : incl l' l -> Forall P l -> Forall P l'.
Proof. intros I F. rewrite Forall_forall in *. auto. Qed.

(** One goroutine changes, with events of its own. *)
Lemma inv_replace p p' l1 g l2 gs' evs x md n lg x' md' n' : pend p' = pend p -> n <= n' -> (forall lg', main_fresh lg' p -> main_fresh lg' p') ->
  (flat_map gid gs' = gid g \/ flat_map gid gs' = []) -> (forall e k, In e evs -> In k (event_ids e) -> In k (gid g)) -> (g_fresh lg g -> Forall (g_fresh (evs ++ lg)) gs') ->
  ids_inv (State p (l1 ++ g :: l2) x md n lg) -> ids_inv (State p' (l1 ++ gs' ++ l2) x' md' n' (evs ++ lg)).
Proof.
  intros EP LN MF ES EE EF (H1 & H2 & H3 & H4 & H5). unfold ids_inv, own in *. cbn [st_main st_gs st_log st_next] in *. rewrite EP. rewrite fm_mid in H1, H2. rewrite fm_mid'.
  assert (LT : forall k, k < n -> k < n') by (intros; lia).
  split; [now apply (NoDup_replace _ _ (gid g))|]. split.
  { apply (Forall_impl _ LT). refine (Forall_incl _ _ _ _ H2). intros k I. rewrite !in_app_iff in *. destruct ES as [E|E]; rewrite E in I; cbn [In] in I; tauto. }
  rewrite Forall_app, Forall_cons_iff in H4. destruct H4 as (H4 & Hg & H4').
  split; [|split].
  - apply Forall_app. split.
    + apply Forall_forall. intros e I. apply Forall_forall. intros k J. apply LT. rewrite Forall_forall in H2. apply H2. rewrite !in_app_iff. right. right. left. eauto.
    + eapply Forall_impl; [|exact H3]. intros e. apply Forall_impl. exact LT.
  - apply Forall_app. split; [|apply Forall_app; split; [now apply EF|]]; apply all_fresh_more; auto; intros e k I J K; apply (EE e k I) in J; destruct (NoDup_apart _ _ _ _ k H1 J) as [_ N]; apply N; rewrite in_app_iff; tauto.
  - apply main_fresh_more; [|now apply MF]. intros e k I J K. apply (EE e k I) in J. rewrite EP in K. now destruct (NoDup_apart _ _ _ _ k H1 J) as [N _].
Qed.

(** The goroutine of Run moves, with events that carry no number. *)
Lemma inv_main p p' gs x md n lg x' md' n' evs : (pend p' = [] \/ pend p' = pend p) -> n <= n' -> (forall lg', main_fresh lg' p -> main_fresh lg' p') ->
  Forall (fun e => event_ids e = []) evs -> ids_inv (State p gs x md n lg) -> ids_inv (State p' gs x' md' n' (evs ++ lg)).
Proof.
  intros EP LN MF EE (H1 & H2 & H3 & H4 & H5). unfold ids_inv, own in *. cbn [st_main st_gs st_log st_next] in *.
  assert (LT : forall k, k < n -> k < n') by (intros; lia). rewrite Forall_forall in EE.
  assert (NE : forall e k, In e evs -> In k (event_ids e) -> False) by (intros e k I J; rewrite (EE e I) in J; destruct J).
  split; [destruct EP as [E|E]; rewrite E; [now apply NoDup_tail in H1|exact H1]|]. split.
  { apply (Forall_impl _ LT). apply (Forall_incl _ (pend p ++ flat_map gid gs)); [|exact H2]. intros k I. rewrite in_app_iff in *. destruct EP as [E|E]; rewrite E in I; cbn [In] in I; tauto. }
  split; [|split].
  - apply Forall_app. split; [apply Forall_forall; intros e I; rewrite (EE e I); constructor|]. eapply Forall_impl; [|exact H3]. intros e. apply Forall_impl. exact LT.
  - apply all_fresh_more; [|exact H4]. intros e k I J. now elim (NE e k).
  - apply main_fresh_more; [|now apply MF]. intros e k I J. now elim (NE e k).
Qed.

(** A new goroutine without number. *)
Lemma inv_spawn p g gs x md n lg : gid g = [] -> g_fresh lg g -> ids_inv (State p gs x md n lg) -> ids_inv (State p (g :: gs) x md n lg).
Proof.
  intros E F (H1 & H2 & H3 & H4 & H5). unfold ids_inv, own in *. cbn [st_main st_gs st_log st_next flat_map] in *. rewrite E. cbn [app]. repeat split; auto.
Qed.
(** A new goroutine with the next number. *)
Lemma inv_new p g gs x md n lg e : gid g = [n] -> event_ids e = [n] -> ((forall e', In e' lg -> ~ In n (event_ids e')) -> g_fresh (e :: lg) g) ->
  ids_inv (State p gs x md n lg) -> ids_inv (State p (g :: gs) x md (S n) (e :: lg)).
Proof.
  intros E E' F (H1 & H2 & H3 & H4 & H5). unfold ids_inv, own in *. cbn [st_main st_gs st_log st_next flat_map] in *. rewrite E.
  assert (NI : ~ In n (pend p ++ flat_map gid gs)) by (intros I; rewrite Forall_forall in H2; apply H2 in I; lia).
  assert (NL : forall e', In e' lg -> ~ In n (event_ids e')) by (intros e0 I J; rewrite Forall_forall in H3; specialize (H3 e0 I); rewrite Forall_forall in H3; apply H3 in J; lia).
  split; [|split; [|split; [|split]]].
  - cbn [app]. apply (Permutation_NoDup (Permutation_middle _ _ _)). now constructor.
  - apply Forall_forall. intros k I. rewrite in_app_iff in I. cbn [app In] in I. rewrite Forall_forall in H2. destruct I as [I|[<-|I]]; [assert (k < n) by (apply H2, in_or_app; now left); lia|lia|assert (k < n) by (apply H2, in_or_app; now right); lia].
  - constructor; [rewrite E'; repeat constructor|]. eapply Forall_impl; [|exact H3]. intros e0. apply Forall_impl. intros. lia.
  - constructor; [now apply F|]. apply (all_fresh_more [e]); [|exact H4]. intros e0 k [<-|[]] J K. rewrite E' in J. destruct J as [<-|[]]. apply NI, in_or_app. now right.
  - apply (main_fresh_more [e]); [|exact H5]. intros e0 k [<-|[]] J K. rewrite E' in J. destruct J as [<-|[]]. apply NI, in_or_app. now left.
Qed.

(** A command changes hands: whoever had it gives it to a new goroutine that runs it. *)
Lemma inv_hand p p' gs gs' id c x md n lg : Permutation (own (State p gs x md n lg)) (id :: pend p' ++ flat_map gid gs') ->
  incl gs' gs -> (forall lg', main_fresh lg' p -> main_fresh lg' p') -> (forall m, ~ In (EAccepted (WCmd id) m) lg) ->
  ids_inv (State p gs x md n lg) -> ids_inv (State p' (GRun id c :: gs') x md n (EStarted (WCmd id) c :: lg)).
Proof.
  intros P I MF A (H1 & H2 & H3 & H4 & H5). unfold ids_inv, own in *. cbn [st_main st_gs st_log st_next flat_map gid app] in *.
  pose proof (Permutation_NoDup P H1) as H1'. pose proof H1' as HN. inversion HN as [|? ? NI _]; subst.
  assert (P' : Permutation (id :: pend p' ++ flat_map gid gs') (pend p' ++ id :: flat_map gid gs')) by apply Permutation_middle.
  assert (L : id < n) by (rewrite Forall_forall in H2; apply H2; apply (Permutation_in id (Permutation_sym P)); now left).
  split; [exact (Permutation_NoDup P' H1')|]. split; [|split; [|split]].
  - apply (Permutation_Forall P'). exact (Permutation_Forall P H2).
  - constructor; [cbn; repeat constructor; exact L|exact H3].
  - constructor; [intros m [J|J]; [discriminate|now elim (A m)]|]. apply (all_fresh_more [_]); [|exact (Forall_incl _ _ _ I H4)]. intros e k [<-|[]] [<-|[]] K. apply NI, in_or_app. now right.
  - apply (main_fresh_more [_]); [|now apply MF]. intros e k [<-|[]] [<-|[]] K. apply NI, in_or_app. now left.
Qed.

Lemma offers_inv m p' g w y gs' l1 l2 x md n lg n' evs : offers inputs g w y gs' -> pend p' = [] -> (forall lg', main_fresh lg' p') -> n <= n' -> Forall (fun e => event_ids e = []) evs ->
  ids_inv (State (PLoop m) (l1 ++ g :: l2) x md n lg) -> ids_inv (State p' (l1 ++ gs' ++ l2) x md n' (evs ++ EAccepted w y :: lg)).
Proof.
  intros O EP MF LN EE H. destruct (offers_ids _ _ _ _ O) as [S W].
  apply (inv_main (PLoop m) p' _ x md n); auto. apply (inv_replace (PLoop m) (PLoop m) l1 g l2 gs' [EAccepted w y] x md n lg); auto.
  - intros e k [<-|[]] J. cbn [event_ids] in J. now rewrite W in J.
  - intros F. now destruct (offers_fresh _ _ _ _ _ O F).
Qed.

Lemma step_ids s s' : step s s' -> ids_inv s -> ids_inv s'.
Proof.
  intros H K. destruct H;
    try (eapply (inv_main _ _ _ _ _ _ _ _ _ _ []); [| | | |exact K]; [now left|lia|intros ? Q; first [exact I|exact Q]|constructor]; fail);
    try (eapply (inv_main _ _ _ _ _ _ _ _ _ _ [_]); [| | | |exact K]; [now left|lia|intros ? Q; first [exact I|exact Q]|repeat constructor]; fail);
    try (eapply (inv_replace p p l1 _ l2 [_] []); [| | | | | |exact K]; [reflexivity|lia|auto|now left|contradiction|repeat constructor]; fail).
  - destruct (gstep_ids _ _ _ _ H) as [S W]. eapply inv_replace; [| | | | | |exact K]; auto. intros F. eapply gstep_fresh; eauto.
  - eapply (inv_main _ _ _ _ _ _ _ _ _ _ []); [| | | |exact K]; auto.
  - eapply (inv_replace p p l1 _ l2 [] []); [| | | | | |exact K]; auto; try (intros e k []).
  - unfold ids_inv, own. cbn [st_main st_gs st_log st_next]. destruct K as (H1 & H2 & H3 & H4 & H5). cbn. repeat split; try constructor. exact H3.
  - unfold ids_inv, own. cbn [st_main st_gs st_log st_next]. destruct K as (H1 & H2 & H3 & H4 & H5). cbn. repeat split; try constructor. exact H3.
  - unfold returned. destruct init_cmd as [c|].
    + cbn [app]. apply inv_new; [reflexivity|reflexivity| |].
      * intros NL. cbn [g_fresh]. split; intros y [J|J]; try discriminate; now apply (NL _ J); left.
      * apply (inv_main (PSetup []) PDraw0 gs x md n lg x md n []); auto.
    + cbn [app]. apply (inv_main (PSetup []) PDraw0 gs x md n lg x md (S n) []); auto.
  - apply inv_spawn; [reflexivity|exact I|]. apply (inv_main PReader PStart gs x md n lg x md n []); auto.
  - do 3 (apply inv_spawn; [reflexivity|exact I|]). apply (inv_main PStart (PLoop m0) gs x md n lg x md n []); auto.
  - apply (inv_replace (PLoop m) (PLoopEnd m (Some e)) l1 g l2 gs' [] x md n lg); auto.
    + destruct H; unfold back_to; try destruct back; auto.
    + intros ? ? [].
    + intros _. destruct H; unfold back_to; try destruct back; repeat constructor.
  - apply (offers_inv m (PLoop m) g w MNil gs' l1 l2 x md n lg n []); auto; intros; exact I.
  - apply (offers_inv m (PLoopEnd m None) g w MQuit gs' l1 l2 x md n lg n [EQuit]); auto; intros; try exact I; repeat constructor.
  - apply (offers_inv m (PLoopEnd m (Some EResize)) g w MSize gs' l1 l2 x md n lg n []); auto; intros; exact I.
  - destruct y; cbn [spawn_seq fst snd app];
      try (apply (offers_inv m (PUpdate m _) g w _ gs' l1 l2 x md n lg (S n) [] H eq_refl ltac:(intros; exact I) ltac:(lia) ltac:(constructor) K)).
    apply inv_new; [reflexivity|reflexivity| |].
    + intros NL. cbn [g_fresh]. split; intros i j y [J|J]; try discriminate; exfalso; apply (NL _ J); now left.
    + apply (offers_inv m (PUpdate m _) g w _ gs' l1 l2 x md n lg n [] H eq_refl ltac:(intros; exact I) ltac:(lia) ltac:(constructor) K).
  - destruct c as [c|]; cbn [tag returned app].
    + destruct K as (H1 & H2 & H3 & H4 & H5). unfold ids_inv, own in *. cbn [st_main st_gs st_log st_next pend app] in *.
      assert (NI : ~ In n (flat_map gid gs)) by (intros J; rewrite Forall_forall in H2; apply H2 in J; lia).
      assert (NL : forall e', In e' lg -> ~ In n (event_ids e')) by (intros e0 J Q; rewrite Forall_forall in H3; specialize (H3 e0 J); rewrite Forall_forall in H3; apply H3 in Q; lia).
      split; [now constructor|]. split; [constructor; [lia|]; eapply Forall_impl; [|exact H2]; intros; cbn in *; lia|]. split; [|split].
      * constructor; [cbn; repeat constructor|]. constructor; [constructor|]. eapply Forall_impl; [|exact H3]. intros e0. apply Forall_impl. intros. cbn in *. lia.
      * apply (all_fresh_more [_; _]); [|exact H4]. intros e k [<-|[<-|[]]] J Q; cbn in J; [destruct J as [<-|[]]; contradiction|destruct J].
      * cbn. split; intros z [J|[J|J]]; try discriminate; apply (NL _ J); now left.
    + apply (inv_main (PUpdate m y) (PSendCmd m' None) gs x md n lg x md (S n) [EUpdate y]); auto.
  - apply (inv_hand (PSendCmd m (Some (id, c))) (PDraw m) (l1 ++ GHandler :: l2) (l1 ++ GHandler :: l2)); [reflexivity|intros z Z; exact Z|intros; exact I| |exact K].
    destruct K as (_ & _ & _ & _ & K). apply K.
  - apply (inv_hand p p (l1 ++ GInit id c :: l2 ++ GHandler :: l3) (l1 ++ l2 ++ GHandler :: l3)); [| |auto| |exact K].
    + unfold own. cbn [st_main st_gs]. rewrite fm_mid, (flat_map_app gid l1 (l2 ++ GHandler :: l3)). cbn [gid app]. rewrite !(app_assoc (pend p)). symmetry. apply Permutation_middle.
    + intros z. rewrite !in_app_iff. cbn [In]. rewrite !in_app_iff. cbn [In]. tauto.
    + destruct K as (_ & _ & _ & K & _). cbn [st_log st_gs] in K. rewrite Forall_app, Forall_cons_iff in K. apply K.
  - apply (inv_hand p p (l1 ++ GHandler :: l2 ++ GInit id c :: l3) (l1 ++ GHandler :: l2 ++ l3)); [| |auto| |exact K].
    + unfold own. cbn [st_main st_gs]. rewrite (flat_map_app gid l1 (GHandler :: l2 ++ GInit id c :: l3)), (flat_map_app gid l1 (GHandler :: l2 ++ l3)). cbn [flat_map gid app]. rewrite fm_mid, (flat_map_app gid l2 l3). cbn [gid app]. rewrite !app_assoc. symmetry. apply Permutation_middle.
    + intros z. rewrite !in_app_iff. cbn [In]. rewrite !in_app_iff. cbn [In]. tauto.
    + destruct K as (_ & _ & _ & K & _). cbn [st_log st_gs] in K. rewrite Forall_app, Forall_cons_iff, Forall_app, Forall_cons_iff in K. apply K.
Qed.

Lemma reach_ids s : reachable s -> ids_inv s.
Proof. unfold M_App.reachable. remember initial as i. induction 1; [subst; repeat constructor|]. eapply step_ids; eauto. Qed.
End Inv.
