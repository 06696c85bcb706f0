(** C32: spinners. *)
From Verif Require Import Base P_Base M_Style M_Throbber.
From Coq Require Import ZArith NArith List Bool Lia Sorted.
Import ListNotations.
Open Scope Z_scope.

(** A spinner receiving an arbitrary sequence of messages: the final state, and for each accepted message its tag and the
    tick it causes. *)
Fixpoint receives (s : throbber_state) (ms : list (option tick_msg)) : throbber_state * list (Z * tick_msg) :=
  match ms with
  | [] => (s, [])
  | m :: ms' =>
      let (s1, cmd) := throbber_try_update s m in
      let (s2, rest) := receives s1 ms' in
      (s2, match m, cmd with Some m, Some c => (tk_tag m, c) :: rest | _, _ => rest end)
  end.

Lemma update_cases s m :
  (snd (throbber_try_update s m) = None /\ fst (throbber_try_update s m) = s) \/
  (exists t, m = Some t /\ (0 < tk_id t -> tk_id t = th_id s) /\ (0 < tk_tag t -> tk_tag t = th_tag s) /\
     throbber_try_update s m = (ThrobberState (th_frame s + 1) (th_id s) (th_tag s + 1), Some (TickMsg (th_tag s + 1) (th_id s)))).
Proof.
  destruct m as [t|]; [|left; auto]. unfold throbber_try_update. rewrite !Z.gtb_ltb.
  destruct (Z.ltb_spec 0 (tk_id t)), (Z.eqb_spec (tk_id t) (th_id s)), (Z.ltb_spec 0 (tk_tag t)), (Z.eqb_spec (tk_tag t) (th_tag s)); cbn [andb negb];
  try (left; split; reflexivity); right; exists t; repeat split; auto; lia.
Qed.

Lemma receives_spec ms : forall s s' acc, receives s ms = (s', acc) ->
  th_id s' = th_id s /\ th_frame s' = th_frame s + zlen acc /\ th_tag s' = th_tag s + zlen acc /\
  (forall i t c, nth_error acc i = Some (t, c) -> c = TickMsg (th_tag s + Z.of_nat i + 1) (th_id s) /\ (0 < t -> t = th_tag s + Z.of_nat i)).
Proof.
  induction ms as [|m ms IH]; intros s s' acc E; cbn in E.
  - injection E as <- <-. change (zlen (@nil (Z * tick_msg))) with 0. repeat split; try lia; destruct i; discriminate.
  - destruct (update_cases s m) as [[E1 E2]|(t & -> & H1 & H2 & Eu)].
    + destruct (throbber_try_update s m) as [s1 cmd]. cbn in E1, E2. subst. destruct (receives s ms) as [s2 rest] eqn:Er.
      replace (match m with Some _ => rest | None => rest end) with rest in E by now destruct m. injection E as <- <-. now apply IH.
    + rewrite Eu in E. set (s1 := ThrobberState (th_frame s + 1) (th_id s) (th_tag s + 1)) in *. destruct (receives s1 ms) as [s2 rest] eqn:Er. injection E as <- <-.
      destruct (IH _ _ _ Er) as (A & B & C & D). cbn [s1 th_id th_frame th_tag] in A, B, C, D. rewrite zlen_cons. repeat split; try lia.
      * destruct i as [|i]; cbn in H.
        -- injection H as <- <-. f_equal; lia.
        -- apply D in H. destruct H as [-> _]. cbn [s1 th_tag th_id]. f_equal; lia.
      * destruct i as [|i]; cbn in H.
        -- injection H as <- <-. intros Ht. specialize (H2 Ht). lia.
        -- apply D in H. destruct H as [_ H]. cbn [s1 th_tag] in H. intros. specialize (H H0). lia.
Qed.

(** Whatever messages arrive, in whatever order and multiplicity: the spinner advances one frame per accepted message, and no
    tick it caused after its start is accepted twice. *)
Theorem C32_accepted_once : forall s ms s' acc, receives s ms = (s', acc) ->
  th_frame s' = th_frame s + zlen acc /\
  forall i j t c d, 0 < t -> nth_error acc i = Some (t, c) -> nth_error acc j = Some (t, d) -> i = j.
Proof.
  intros s ms s' acc E. destruct (receives_spec ms s s' acc E) as (_ & B & _ & D). split; [exact B|].
  intros i j t c d Ht Hi Hj. apply D in Hi. apply D in Hj. destruct Hi as [_ Hi], Hj as [_ Hj]. specialize (Hi Ht). specialize (Hj Ht). lia.
Qed.
Print Assumptions C32_accepted_once.
Example C32_accepted_once_instance :
  receives (ThrobberState 0 7 0) [Some (TickMsg 0 7); Some (TickMsg 1 7); Some (TickMsg 1 7); None; Some (TickMsg 1 8); Some (TickMsg 2 7)] =
    (ThrobberState 3 7 3, [(0, TickMsg 1 7); (1, TickMsg 2 7); (2, TickMsg 3 7)]).
Proof. reflexivity. Qed.

(** At most one chain of ticks is alive: of all the ticks a spinner has caused, only the latest is still accepted. *)
Theorem C32_single_chain : forall s ms s' acc t last before, 0 < th_id s -> 0 <= th_tag s ->
  receives s ms = (s', acc) -> acc = before ++ [(t, last)] ->
  forall t' c, In (t', c) acc -> (snd (throbber_try_update s' (Some c)) <> None <-> c = last).
Proof.
  intros s ms s' acc t last before Hid Htag E Ea t' c Hc. destruct (receives_spec ms s s' acc E) as (A & _ & C & D).
  assert (Hl : nth_error acc (length before) = Some (t, last)) by (rewrite Ea, nth_error_app2, Nat.sub_diag by lia; reflexivity).
  assert (Hn : zlen acc = Z.of_nat (length before) + 1) by (rewrite Ea; unfold zlen; rewrite app_length; cbn; lia).
  apply D in Hl. destruct Hl as [-> _]. apply In_nth_error in Hc. destruct Hc as (i & Hi). pose proof Hi as Hi2. apply D in Hi. destruct Hi as [-> _].
  assert (Hib : (i < length acc)%nat) by (apply nth_error_Some; congruence). unfold zlen in Hn.
  unfold throbber_try_update. cbn [tk_id tk_tag]. rewrite A, C, !Z.gtb_ltb, Z.eqb_refl, andb_false_r.
  destruct (Z.ltb_spec 0 (th_tag s + Z.of_nat i + 1)); [|lia]. cbn [andb]. unfold zlen.
  destruct (Z.eqb_spec (th_tag s + Z.of_nat i + 1) (th_tag s + Z.of_nat (length acc))); cbn [negb snd]; split; intros H0.
  - f_equal; lia.
  - discriminate.
  - congruence.
  - injection H0. lia.
Qed.
Print Assumptions C32_single_chain.
Example C32_single_chain_instance : exists s' acc,
  receives (ThrobberState 0 7 0) [Some (TickMsg 0 7); Some (TickMsg 0 7); Some (TickMsg 2 7)] = (s', acc) /\
  acc = [(0, TickMsg 1 7); (0, TickMsg 2 7)] ++ [(2, TickMsg 3 7)] /\ snd (throbber_try_update s' (Some (TickMsg 1 7))) = None.
Proof. do 2 eexists. split; [reflexivity|]. split; reflexivity. Qed.

(** Spinners made one after the other have different positive identifiers, and no spinner reacts to a tick of another. *)
Fixpoint make_spinners (n : nat) (last_id : Z) : list throbber_state :=
  match n with O => [] | S n' => let (l, s) := new_throbber_state last_id in s :: make_spinners n' l end.
Theorem C32_others_ignored : forall n i j si sj ms s acc, nth_error (make_spinners n 0) i = Some si -> nth_error (make_spinners n 0) j = Some sj -> i <> j ->
  receives si ms = (s, acc) ->
  throbber_try_update sj (Some (throbber_tick si)) = (sj, None) /\
  throbber_try_update sj (Some (throbber_tick s)) = (sj, None) /\
  forall t c, In (t, c) acc -> throbber_try_update sj (Some c) = (sj, None).
Proof.
  assert (G : forall n l i s, 0 <= l -> nth_error (make_spinners n l) i = Some s -> th_id s = l + Z.of_nat i + 1).
  { induction n as [|n IH]; intros l i s Hl E; [destruct i; discriminate|]. cbn in E. destruct i as [|i]; cbn in E.
    - injection E as <-. cbn. lia.
    - apply IH in E; lia. }
  intros n i j si sj ms s acc Ei Ej N Er. apply (G n 0) in Ei; [|lia]. apply (G n 0) in Ej; [|lia].
  destruct (receives_spec ms si s acc Er) as (A & _ & _ & D).
  assert (R : forall m, tk_id m = th_id si -> throbber_try_update sj (Some m) = (sj, None)).
  { intros m Em. unfold throbber_try_update. rewrite Z.gtb_ltb, Em, Ei, Ej. destruct (Z.ltb_spec 0 (0 + Z.of_nat i + 1)); [|lia].
    destruct (Z.eqb_spec (0 + Z.of_nat i + 1) (0 + Z.of_nat j + 1)); [lia|]. reflexivity. }
  split; [apply R; reflexivity|]. split; [apply R; exact A|]. intros t c Hc. apply In_nth_error in Hc. destruct Hc as (k & Hk). apply D in Hk. destruct Hk as [-> _]. apply R. reflexivity.
Qed.
Print Assumptions C32_others_ignored.
Example C32_others_ignored_instance : nth_error (make_spinners 3 0) 1 = Some (ThrobberState 0 2 0) /\ nth_error (make_spinners 3 0) 2 = Some (ThrobberState 0 3 0).
Proof. split; reflexivity. Qed.

(** The frame to show exists, for every kind of spinner and every history. *)
Theorem C32_frame_exists : forall ty ms s acc last_id, receives (snd (new_throbber_state last_id)) ms = (s, acc) ->
  exists f, set_frame (frame_set ty) (th_frame s) = Ret f /\ nth_error (frame_set ty) (Z.to_nat (zlen acc mod zlen (frame_set ty))) = Some f.
Proof.
  intros ty ms s acc last_id E. destruct (receives_spec ms _ s acc E) as (_ & B & _). cbn in B. rewrite B. unfold set_frame.
  pose proof (zlen_nonneg acc). assert (L : 0 < zlen (frame_set ty)) by (destruct ty; reflexivity).
  destruct (Z.eqb_spec (zlen (frame_set ty)) 0); [lia|]. rewrite Z.add_0_l || idtac. rewrite Z.rem_mod_nonneg by lia.
  pose proof (Z.mod_pos_bound (zlen acc) (zlen (frame_set ty)) L) as Hm. unfold index_at.
  destruct (Z.ltb_spec (zlen acc mod zlen (frame_set ty)) 0); [lia|].
  destruct (nth_error (frame_set ty) (Z.to_nat (zlen acc mod zlen (frame_set ty)))) as [f|] eqn:Ef; [eauto|].
  apply nth_error_None in Ef. unfold zlen in *. lia.
Qed.
Print Assumptions C32_frame_exists.
Example C32_frame_exists_instance : set_frame (frame_set TypeParenthesis) 8 = Ret [9117%N].
Proof. reflexivity. Qed.

(** The tick that starts a spinner carries tag 0 and is accepted as often as it is delivered. *)
Theorem C32_first_tick_refuted : forall n, let s := snd (new_throbber_state 0) in
  th_frame (fst (receives s (repeat (Some (throbber_tick s)) n))) = Z.of_nat n.
Proof.
  intros n s. unfold s. change (throbber_tick (snd (new_throbber_state 0))) with (TickMsg 0 1). change (snd (new_throbber_state 0)) with (ThrobberState 0 1 0).
  assert (G : forall n f t, 0 <= t -> th_frame (fst (receives (ThrobberState f 1 t) (repeat (Some (TickMsg 0 1)) n))) = f + Z.of_nat n).
  { clear n. induction n as [|n IH]; intros f t Ht; [cbn; lia|]. cbn [repeat receives]. unfold throbber_try_update. cbn [tk_id tk_tag th_id th_tag th_frame Z.gtb Z.compare Z.eqb Pos.eqb negb andb throbber_tick_cmd].
    specialize (IH (f + 1) (t + 1) ltac:(lia)). destruct (receives (ThrobberState (f + 1) 1 (t + 1)) (repeat (Some (TickMsg 0 1)) n)) as [s2 r]. cbn in *. lia. }
  apply (G n 0 0). lia.
Qed.
Print Assumptions C32_first_tick_refuted.
