(** C87: the program is told the size of its terminal. *)
From Verif Require Import Base M_Resize.
From Coq Require Import ZArith String List Bool Lia.
Import ListNotations.
Local Open Scope nat_scope.

Definition told_last (s : screen) : option size := hd_error (sc_told s).
(** Nothing about the size is under way any more. *)
Definition settled (s : screen) : Prop := sc_signal s = false /\ sc_chan s = false /\ sc_listener s = LWait /\ sc_first s = FGone.
(** The listener is ready and the first question has been dealt with. *)
Definition attentive (s : screen) : Prop := sc_notified s = true /\ sc_first s = FGone.
Definition changes (l : list tick) : list size := flat_map (fun e => match e with Changed s => [s] | Quiet => [] end) l.

Lemma ask_tells a s : check_resize (backend_size true (Some a)) = ATell s -> s = a.
Proof. cbn. now intros [= ->]. Qed.

(** A question that is still to be answered, or an answer that was given last. *)
Definition due (s : screen) : Prop :=
  sc_notified s = true /\ sc_first s = FGone /\
  (sc_signal s = true \/ sc_chan s = true \/ sc_listener s = LCheck \/ sc_listener s = LSend (sc_actual s) \/ (sc_listener s = LWait /\ told_last s = Some (sc_actual s))).
Lemma due_step s e s' : rstep s e s' -> due s -> due s'.
Proof.
  intros R (N & F & D). destruct R; unfold due, told_last in *; cbn in *; subst; try discriminate; (split; [reflexivity|split; [reflexivity|]]);
    repeat match goal with H : ATell _ = ATell _ |- _ => injection H as <- end; try tauto.
  - destruct D as [D|[D|[D|[D|[D _]]]]]; try discriminate; tauto.
  - destruct D as [D|[D|[D|[D|[D _]]]]]; try discriminate; try tauto. right; right; right; right. split; [reflexivity|]. congruence.
Qed.
Lemma attentive_step s e s' : rstep s e s' -> attentive s -> attentive s'.
Proof. intros R (N & F). destruct R; unfold attentive in *; cbn in *; subst; try discriminate; auto. Qed.
Lemma attentive_runs s l s' : runs rstep s l s' -> attentive s -> attentive s'.
Proof. induction 1 as [|? ? ? ? ? R IH S]; intros H; [exact H|]. eapply attentive_step; [exact S|]. auto. Qed.
Lemma due_runs s l s' : runs rstep s l s' -> attentive s -> (changes l <> [] \/ due s) -> attentive s' /\ (changes l <> [] \/ due s -> due s').
Proof.
  induction 1 as [s|s l s' e s'' R IH S]; intros A C.
  - split; [exact A|]. intros [K|K]; [elim K; reflexivity|exact K].
  - unfold changes in *. rewrite flat_map_app in *. cbn [flat_map] in *. rewrite app_nil_r in *.
    assert (D : due s'' \/ (flat_map (fun e => match e with Changed s => [s] | Quiet => [] end) l <> [] \/ due s)).
    { destruct e as [w|]; [left|right].
      - assert (A' : attentive s') by (eapply attentive_runs; eassumption).
        destruct A' as (N & F). inversion S; subst; cbn in *. split; [exact N|]. split; [exact F|]. now left.
      - rewrite app_nil_r in C. exact C. }
    assert (A' : attentive s'') by (eapply attentive_step; [exact S|]; eapply attentive_runs; eassumption).
    split; [exact A'|]. intros _. destruct D as [D|D]; [exact D|]. eapply due_step; [exact S|]. now apply (IH A D).
Qed.
(** A change of the size after the listener is ready and the first question dealt with: when all is quiet the program knows the size. *)
Theorem C87_told_partial w l1 s1 l2 s2 : runs rstep (started w) l1 s1 -> attentive s1 -> runs rstep s1 l2 s2 -> changes l2 <> [] -> settled s2 ->
  told_last s2 = Some (sc_actual s2).
Proof.
  intros _ A R C (S1 & S2 & S3 & S4). destruct (due_runs _ _ _ R A (or_introl C)) as (_ & D). destruct (D (or_introl C)) as (_ & _ & K).
  rewrite S1, S2, S3 in K. destruct K as [K|[K|[K|[K|[_ K]]]]]; try discriminate. exact K.
Qed.
Print Assumptions C87_told_partial.

(** The first question is asked when the size has changed for the last time. *)
Definition heard (s : screen) : Prop := (sc_notified s = true /\ sc_signal s = true) \/ sc_chan s = true.
Definition sane (s : screen) : Prop :=
  (sc_listener s = LStart \/ sc_notified s = true) /\ (sc_chan s = true -> sc_notified s = true) /\
  forall w, sc_listener s = LSend w -> w = sc_actual s \/ heard s.
Lemma sane_step s e s' : rstep s e s' -> sane s -> sane s'.
Proof.
  intros R (N & C & L). destruct R; unfold sane, heard in *; cbn in *;
    repeat match goal with H : ATell _ = ATell _ |- _ => injection H as <- end;
    (split; [|split]); try (destruct N as [N|N]; try discriminate; subst; auto; fail); try (intros; discriminate); auto.
  - intros w E. destruct N as [-> | ->]; [discriminate|]. right. left. auto.
  - destruct N as [-> | ->]; [|auto]. destruct nt; auto.
  - intros w E. destruct (L w E) as [K|[[-> K]|K]]; auto. right. right. rewrite K. now rewrite orb_true_r.
  - intros w E. left. congruence.
Qed.
Lemma sane_runs s l s' : runs rstep s l s' -> sane s -> sane s'.
Proof. induction 1 as [|? ? ? ? ? R IH S]; intros H; [exact H|]. eapply sane_step; [exact S|]. auto. Qed.
Lemma started_sane w : sane (started w).
Proof. unfold sane, started; cbn. split; [auto|]. split; [discriminate|]. intros ? [=]. Qed.
Definition answered (s : screen) : Prop :=
  sane s /\ (sc_first s = FSend (sc_actual s) \/ sc_first s = FGone) /\
  (heard s \/ sc_listener s = LCheck \/ sc_listener s = LSend (sc_actual s) \/ sc_first s = FSend (sc_actual s) \/ told_last s = Some (sc_actual s)).
Lemma answered_step s s' : rstep s Quiet s' -> answered s -> answered s'.
Proof.
  intros R (N & F & A). assert (N' : sane s') by (eapply sane_step; eassumption). unfold answered. split; [exact N'|]. clear N'.
  destruct N as (N & C & L). remember Quiet as q. destruct R; unfold heard, told_last in *; cbn in *; try discriminate;
    repeat match goal with H : ATell _ = ATell _ |- _ => injection H as <- end.
  - split; [exact F|]. destruct A as [[[-> _]| ->]|A]; auto. left. right. apply orb_true_r.
  - split; [exact F|]. destruct A as [[[-> E]|E]|[A|[A|A]]]; try discriminate; auto.
  - split; [exact F|]. auto.
  - split; [exact F|]. auto.
  - split; [exact F|]. destruct (L s eq_refl) as [->|H]; [|tauto]. auto 6.
  - destruct F as [F|F]; discriminate.
  - destruct F as [F|F]; [|discriminate]. injection F as ->. split; [auto|]. auto 6.
Qed.
Lemma answered_runs s l s' : runs rstep s l s' -> changes l = [] -> answered s -> answered s'.
Proof.
  induction 1 as [|s l s' e s'' R IH S]; intros E A; [exact A|]. unfold changes in *. rewrite flat_map_app in E. apply app_eq_nil in E. destruct E as [E1 E2].
  destruct e; [discriminate|]. eapply answered_step; [exact S|]. auto.
Qed.
Theorem C87_first_partial w l1 s1 l2 s2 : runs rstep (started w) l1 s1 -> sc_first s1 = FCheck -> runs rstep s1 l2 s2 -> changes l2 = [] -> settled s2 ->
  told_last s2 = Some (sc_actual s2).
Proof.
  intros R1 F R E (S1 & S2 & S3 & S4).
  assert (K : forall s l s', runs rstep s l s' -> changes l = [] -> sane s -> sc_first s = FCheck -> sc_first s' = FCheck \/ answered s').
  { clear. induction 1 as [|s l s' e s'' R IH S]; intros E N F; [auto|]. unfold changes in *. rewrite flat_map_app in E. apply app_eq_nil in E. destruct E as [E1 E2].
    destruct e; [discriminate|]. destruct (IH E1 N F) as [K|K]; [|right; eapply answered_step; eassumption].
    assert (N' : sane s') by (eapply sane_runs; eassumption). assert (N'' : sane s'') by (eapply sane_step; eassumption).
    remember Quiet as q. destruct S; cbn in K |- *; try discriminate; try (left; assumption); try (left; reflexivity).
    right. apply ask_tells in H. subst s0. unfold answered. cbn. auto 7. }
  destruct (K _ _ _ R E (sane_runs _ _ _ R1 (started_sane w)) F) as [G|G]; [congruence|]. destruct G as (_ & _ & G). unfold heard in G.
  rewrite S1, S2, S3, S4 in G. destruct G as [[[_ G]|G]|[G|[G|[G|G]]]]; try discriminate. exact G.
Qed.
Print Assumptions C87_first_partial.

(** If the size no longer changes and the program goes on taking messages, all is quiet after at most 15 steps of the goroutines. *)
Definition left_over (s : screen) : nat :=
  (if sc_signal s then 7 else 0) + (if sc_chan s then 4 else 0) + match sc_listener s with LStart | LSend _ => 1 | LCheck => 2 | _ => 0 end +
  match sc_first s with FCheck => 2 | FSend _ => 1 | FGone => 0 end.
Lemma left_over_step s s' : rstep s Quiet s' -> left_over s' + 1 <= left_over s.
Proof. intros R. remember Quiet as q. destruct R; unfold left_over; cbn; try discriminate; try lia. destruct nt, ch; cbn; lia. Qed.
Lemma left_over_runs s l s' : runs rstep s l s' -> changes l = [] -> left_over s' + length l <= left_over s.
Proof.
  induction 1 as [|s l s' e s'' R IH S]; intros E; [cbn; lia|]. unfold changes in *. rewrite flat_map_app in E. apply app_eq_nil in E. destruct E as [E1 E2].
  destruct e; [discriminate|]. specialize (IH E1). apply left_over_step in S. rewrite app_length. cbn. lia.
Qed.
Lemma no_gone s e s' : rstep s e s' -> sc_listener s <> LGone -> sc_listener s' <> LGone.
Proof. intros R. destruct R; cbn; congruence. Qed.
Lemma no_gone_runs s l s' : runs rstep s l s' -> sc_listener s <> LGone -> sc_listener s' <> LGone.
Proof. induction 1 as [|? ? ? ? ? R IH S]; intros H; [exact H|]. eapply no_gone; [exact S|]. auto. Qed.
Theorem C87_settles w l1 s1 l2 s2 : runs rstep (started w) l1 s1 -> runs rstep s1 l2 s2 -> changes l2 = [] ->
  length l2 <= 15 /\ ((forall s3, ~ rstep s2 Quiet s3) -> settled s2).
Proof.
  intros R1 R2 E. split.
  - pose proof (left_over_runs _ _ _ R2 E). assert (left_over s1 <= 15); [|lia].
    unfold left_over. destruct (sc_signal s1), (sc_chan s1), (sc_listener s1), (sc_first s1); lia.
  - intros St. assert (G : sc_listener s2 <> LGone) by (eapply no_gone_runs; [exact R2|]; eapply no_gone_runs; [exact R1|]; discriminate).
    destruct s2 as [a sg nt ch l f t]. cbn in G. unfold settled; cbn.
    destruct sg; [elim (St _ (r_deliver _ _ _ _ _ _))|].
    destruct f; [elim (St _ (r_first_ask _ _ _ _ _ _ a eq_refl))|elim (St _ (r_first_tell _ _ _ _ _ _ _))|].
    destruct l; [elim (St _ (r_notify _ _ _ _ _ _))| |elim (St _ (r_ask _ _ _ _ _ _ a eq_refl))|elim (St _ (r_tell _ _ _ _ _ _ _))|now elim G].
    destruct ch; [elim (St _ (r_take _ _ _ _ _))|]. auto.
Qed.
Print Assumptions C87_settles.
(** The program is told only sizes the terminal had, and not more often than it changed, besides the two times at the start. *)
Definition pending (s : screen) : nat :=
  (if sc_signal s then 1 else 0) + (if sc_chan s then 1 else 0) + match sc_listener s with LCheck | LSend _ => 1 | _ => 0 end + match sc_first s with FGone => 0 | _ => 1 end.
Theorem C87_sizes w l s : runs rstep (started w) l s -> (forall z, In z (sc_told s) -> In z (w :: changes l)) /\ length (sc_told s) <= 2 + length (changes l).
Proof.
  intros R. cut ((In (sc_actual s) (w :: changes l) /\ (forall z, sc_listener s = LSend z -> In z (w :: changes l)) /\ (forall z, sc_first s = FSend z -> In z (w :: changes l)) /\
      (forall z, In z (sc_told s) -> In z (w :: changes l))) /\ length (sc_told s) + pending s <= 2 + length (changes l)); [intros ((_ & _ & _ & H) & L); split; [exact H|lia]|].
  remember (started w) as s0. induction R as [s|s l s' e s'' R IH S]; subst.
  - cbn. split; [split; [auto|split; [discriminate|split; [discriminate|]]]|lia]. intros z [<-|[]]. now left.
  - destruct (IH eq_refl) as ((A & L & F & T) & C). clear IH. unfold changes in *. rewrite flat_map_app. cbn [flat_map]. rewrite app_nil_r, app_length.
    assert (G : forall z, In z (w :: flat_map (fun e => match e with Changed s => [s] | Quiet => [] end) l) ->
      In z (w :: flat_map (fun e => match e with Changed s => [s] | Quiet => [] end) l ++ match e with Changed s => [s] | Quiet => [] end)).
    { intros z I. rewrite app_comm_cons. apply in_or_app. now left. }
    set (c := flat_map _ l) in *. clearbody c.
    destruct S; cbn [sc_actual sc_listener sc_first sc_told sc_signal sc_chan length] in *; unfold pending in *; cbn [sc_actual sc_listener sc_first sc_told sc_signal sc_chan length] in *;
      repeat match goal with H : check_resize _ = ATell _ |- _ => apply ask_tells in H; subst end;
      (split; [split; [|split; [|split]]|]); try (intros; discriminate); auto; try (intros z [= <-]; auto); try (intros z [<-|I]; auto); try lia.
    + rewrite app_comm_cons. apply in_or_app. right. now left.
    + destruct nt, ch; cbn; lia.
Qed.
Print Assumptions C87_sizes.

Definition small : size := (80, 24)%Z.
Definition large : size := (100, 30)%Z.
(** A change after the first question and before the listener is ready is lost. *)
Theorem C87_lost_refuted : exists l s, runs rstep (started small) l s /\ settled s /\ told_last s = Some small /\ sc_actual s = large.
Proof.
  eexists; eexists. split.
  - eapply runs_snoc; [eapply runs_snoc; [eapply runs_snoc; [eapply runs_snoc; [eapply runs_snoc; [apply runs_nil|]|]|]|]|].
    + apply (r_first_ask small _ _ _ _ _ small eq_refl).
    + apply r_first_tell.
    + apply r_change with (s := large).
    + apply r_deliver.
    + apply r_notify.
  - cbn. repeat split.
Qed.
Print Assumptions C87_lost_refuted.
(** The answer to the first question may overtake that of the listener: the program ends with an outdated size although it was told the right one. *)
Theorem C87_stale_refuted : exists l s, runs rstep (started small) l s /\ settled s /\ sc_told s = [small; large; small] /\ sc_actual s = large.
Proof.
  eexists; eexists. split.
  - eapply runs_snoc; [eapply runs_snoc; [eapply runs_snoc; [eapply runs_snoc; [eapply runs_snoc; [eapply runs_snoc; [eapply runs_snoc; [eapply runs_snoc; [apply runs_nil|]|]|]|]|]|]|]|].
    + apply r_notify.
    + apply (r_first_ask small _ _ _ _ _ small eq_refl).
    + apply r_change with (s := large).
    + apply r_deliver.
    + apply r_take.
    + apply (r_ask large _ _ _ _ _ large eq_refl).
    + apply r_tell.
    + apply r_first_tell.
  - cbn. repeat split.
Qed.
Print Assumptions C87_stale_refuted.
(** On Windows the program is told the size at most once after it has started: whatever happens later it does not learn of. *)
Lemma windows_once w l s : runs wstep (started w) l s ->
  match sc_first s with FGone => length (sc_told s) = 2 | _ => length (sc_told s) = 1 end.
Proof. intros R. remember (started w) as s0. induction R as [s|s l s' e s'' R IH S]; subst; [reflexivity|]. specialize (IH eq_refl). destruct S; cbn in *; auto. Qed.
Theorem C87_windows_refuted :
  (forall w l s, runs wstep (started w) l s -> sc_first s = FGone -> forall l' s', runs wstep s l' s' -> sc_told s' = sc_told s) /\
  exists l s, runs wstep (started small) l s /\ (forall s', ~ wstep s Quiet s') /\ told_last s = Some small /\ sc_actual s = large.
Proof.
  split.
  - intros w l s _ F l' s' R. revert F. cut (sc_first s = FGone -> sc_first s' = FGone /\ sc_told s' = sc_told s); [tauto|].
    induction R as [|s l' s' e s'' R IH S]; intros F; [auto|]. destruct (IH F) as [F' T]. destruct S; cbn in *; try discriminate; auto.
  - eexists; eexists. split.
    + eapply runs_snoc; [eapply runs_snoc; [eapply runs_snoc; [eapply runs_snoc; [apply runs_nil|]|]|]|].
      * apply (w_first_ask small _ _ _ _ _ small eq_refl).
      * apply w_first_tell.
      * apply w_gone.
      * apply w_change with (s := large).
    + cbn. split; [|auto]. intros s' W. inversion W.
Qed.
Print Assumptions C87_windows_refuted.
(** If the system cannot tell the size, the program is not told either: no error is reported. *)
Theorem C87_error_refuted is_file answer : check_resize (backend_size is_file answer) = match is_file, answer with true, Some s => ATell s | _, _ => ANothing end.
Proof. destruct is_file, answer; reflexivity. Qed.
Print Assumptions C87_error_refuted.
(** On Windows the records of the console are never read: Run passes a value that is no file. *)
Theorem C87_no_records stdin handle prepared : reads_records (new_input_reader terminal_methods stdin handle prepared) = false.
Proof. reflexivity. Qed.
Print Assumptions C87_no_records.

(** A run that meets the hypotheses of C87_told_partial: the size changes twice while the listener is busy. *)
Example C87_instance : exists l1 s1 l2 s2, runs rstep (started small) l1 s1 /\ attentive s1 /\ runs rstep s1 l2 s2 /\ changes l2 = [large; small; large] /\ settled s2 /\
  sc_told s2 = [large; small; small; small].
Proof.
  eexists; eexists; eexists; eexists. split; [|split; [|split; [|split; [|split]]]].
  - eapply runs_snoc; [eapply runs_snoc; [eapply runs_snoc; [apply runs_nil|]|]|].
    + apply r_notify.
    + apply (r_first_ask small _ _ _ _ _ small eq_refl).
    + apply r_first_tell.
  - split; reflexivity.
  - eapply runs_snoc; [eapply runs_snoc; [eapply runs_snoc; [eapply runs_snoc; [eapply runs_snoc; [eapply runs_snoc; [eapply runs_snoc; [eapply runs_snoc; [eapply runs_snoc;
      [eapply runs_snoc; [eapply runs_snoc; [apply runs_nil|]|]|]|]|]|]|]|]|]|]|].
    + apply r_change with (s := large).
    + apply r_deliver.
    + apply r_take.
    + apply r_change with (s := small).
    + apply (r_ask small _ _ _ _ _ small eq_refl).
    + apply r_change with (s := large).
    + apply r_tell.
    + apply r_deliver.
    + apply r_take.
    + apply (r_ask large _ _ _ _ _ large eq_refl).
    + apply r_tell.
  - reflexivity.
  - cbn. repeat split.
  - reflexivity.
Qed.
