(** Lemmas about the word wrapper and the truncator. *)
From Verif Require Import Base M_Geom M_Style M_Uniseg M_Buffer M_Text M_Reflow S_Reflow P_Base.
From Coq Require Import ZArith NArith List Bool Lia.
Import ListNotations.
Open Scope Z_scope.

Lemma ink_app l m : ink (l ++ m) = ink l ++ ink m.
Proof. apply filter_app. Qed.
Lemma ink_clear l : ink (clear_slice l) = [].
Proof. induction l; cbn; auto. Qed.
Lemma gr_width_app l m : gr_width (l ++ m) = gr_width l + gr_width m.
Proof. unfold gr_width. now rewrite map_app, zsum_app. Qed.
Lemma gr_width_cons g l : gr_width (g :: l) = g_width g + gr_width l.
Proof. reflexivity. Qed.
Lemma gr_width_nil : gr_width [] = 0.
Proof. reflexivity. Qed.
Lemma gr_width_clear l : gr_width (clear_slice l) = 0.
Proof. unfold gr_width, clear_slice. rewrite map_map. induction l as [|g l IH]; [reflexivity|]. cbn [map]. rewrite zsum_cons, IH. reflexivity. Qed.
Lemma ink_blank l : Forall (fun g => is_whitespace (g_sym g) = true) l -> ink l = [].
Proof. induction 1 as [|g l H _ IH]; cbn; [reflexivity|]. now rewrite H. Qed.

Lemma drop_space_suffix sp : forall w rem, exists pre, sp = pre ++ fst (drop_space sp w rem) /\ snd (drop_space sp w rem) = w - gr_width pre.
Proof.
  induction sp as [|g sp IH]; intros w rem; cbn [drop_space].
  - exists []. rewrite gr_width_nil. cbn [fst snd app]. split; [auto|lia].
  - destruct (g_width g >? rem).
    + exists []. rewrite gr_width_nil. cbn [fst snd app]. split; [auto|lia].
    + destruct (IH (w - g_width g) (rem - g_width g)) as (pre & E & W). exists (g :: pre). rewrite gr_width_cons. cbn [app]. split; [congruence|lia].
Qed.

Lemma drop_space_all sp : Forall (fun g => 0 <= g_width g) sp -> forall w rem, gr_width sp <= rem -> fst (drop_space sp w rem) = [].
Proof.
  induction 1 as [|g sp H F IH]; intros w rem Hr; cbn; [reflexivity|]. unfold gr_width in Hr. cbn [map] in Hr. rewrite zsum_cons in Hr.
  assert (0 <= zsum (map g_width sp)). { apply zsum_nonneg. intros x Hx. apply in_map_iff in Hx. destruct Hx as (y & <- & Hy). rewrite Forall_forall in F. auto. }
  destruct (Z.gtb_spec (g_width g) rem); [lia|]. apply IH. unfold gr_width. lia.
Qed.

(** *** Conservation *)
Record conserve (done : list gr) (s : wstate) : Prop := {
  cv_ink : ink (concat (ws_out s) ++ ws_line s ++ ws_word s) = ink done;
  cv_space : Forall (fun g => is_whitespace (g_sym g) = true) (ws_space s)
}.

Lemma flush_conserve done trim s : conserve done s -> conserve done (flush trim s).
Proof.
  intros [I S]. split; cbn [flush ws_out ws_line ws_word ws_space]; [|constructor]. rewrite <- I, !ink_app, ink_clear, app_nil_r.
  destruct (_ || _); rewrite ?ink_app, ?(ink_blank _ S), ?app_nil_r; reflexivity.
Qed.

Lemma break_conserve done max s : conserve done s -> conserve done (break_line max s).
Proof.
  intros [I S]. unfold break_line. destruct (drop_space_suffix (ws_space s) (ws_space_w s) (Z.max 0 (max - ws_line_w s))) as (pre & E & _).
  destruct (drop_space _ _ _) as [sp w]. cbn [fst] in E. split; cbn [ws_out ws_line ws_word ws_space].
  - rewrite concat_app. cbn [concat]. rewrite app_nil_r, !ink_app, ink_clear. cbn [app]. rewrite <- app_assoc, <- !ink_app. exact I.
  - rewrite E in S. apply Forall_app in S. tauto.
Qed.

Lemma step_conserve max trim done s g : conserve done s -> conserve (done ++ fitting max [g]) (wrap_step max trim s g).
Proof.
  intros C. unfold wrap_step. cbn [fitting filter]. rewrite Z.leb_antisym.
  destruct (Z.gtb_spec (g_width g) max) as [Hw|Hw].
  { replace (max <? g_width g) with true by (symmetry; apply Z.ltb_lt; lia). cbn. now rewrite app_nil_r. }
  replace (max <? g_width g) with false by (symmetry; apply Z.ltb_ge; lia). cbn [negb].
  match goal with |- context [flush trim s] => idtac end.
  set (s1 := if _ || _ then flush trim s else s).
  assert (C1 : conserve done s1) by (unfold s1; destruct (_ || _); auto using flush_conserve). clearbody s1.
  set (full := (ws_line_w s1 >=? max) || _). clearbody full.
  set (s2 := if full then break_line max s1 else s1).
  assert (C2 : conserve done s2) by (unfold s2; destruct full; auto using break_conserve). clearbody s2.
  destruct C2 as [I2 S2]. destruct (is_whitespace (g_sym g)) eqn:Eg.
  - assert (Ed : ink (done ++ [g]) = ink done) by (rewrite ink_app; cbn; rewrite Eg; cbn; apply app_nil_r).
    rewrite andb_true_r. destruct (full && _); split; cbn [ws_out ws_line ws_word ws_space]; rewrite ?Ed; auto.
    apply Forall_app. auto.
  - rewrite andb_false_r. cbn [andb]. split; cbn [ws_out ws_line ws_word ws_space]; auto.
    rewrite !app_assoc, ink_app, (ink_app done). f_equal. rewrite <- app_assoc. exact I2.
Qed.

Lemma fitting_app max l m : fitting max (l ++ m) = fitting max l ++ fitting max m.
Proof. apply filter_app. Qed.

Lemma steps_conserve max trim gs : forall done s, conserve done s ->
  conserve (done ++ fitting max gs) (fold_left (wrap_step max trim) gs s).
Proof.
  induction gs as [|g gs IH]; intros done s C; cbn [fold_left].
  - cbn. now rewrite app_nil_r.
  - change (g :: gs) with ([g] ++ gs). rewrite fitting_app, app_assoc. apply IH. now apply step_conserve.
Qed.

Lemma zlen_zero {A} (l : list A) : (zlen l =? 0) = true <-> l = [].
Proof. rewrite Z.eqb_eq. destruct l; [split; auto|]. rewrite zlen_cons. pose proof (zlen_nonneg l). split; [lia|discriminate]. Qed.
Lemma zlen_zero_false {A} (l : list A) : (zlen l =? 0) = false <-> l <> [].
Proof. rewrite <- not_true_iff_false, zlen_zero. tauto. Qed.

Lemma end_conserve done trim s : conserve done s -> ink (concat (fst (wrap_end trim s))) = ink done.
Proof.
  intros [I S]. unfold wrap_end. cbn [fst].
  set (line := (if _ || _ then ws_line s ++ ws_space s else ws_line s) ++ ws_word s).
  assert (L : ink line = ink (ws_line s ++ ws_word s)).
  { unfold line. rewrite !ink_app. destruct (_ || _); rewrite ?ink_app, ?(ink_blank _ S), ?app_nil_r; reflexivity. }
  set (out1 := if _ && _ then ws_out s ++ [[]] else ws_out s).
  assert (O : concat out1 = concat (ws_out s)).
  { unfold out1. destruct (_ && _); [|reflexivity]. rewrite concat_app. cbn. now rewrite app_nil_r. }
  clearbody out1. rewrite <- I, ink_app, <- L, <- O. clearbody line.
  assert (N : forall o : list (list gr), concat (if zlen o =? 0 then o ++ [[]] else o) = concat o).
  { intros o. destruct (_ =? 0); [rewrite concat_app; cbn; now rewrite app_nil_r|reflexivity]. }
  rewrite N. destruct (zlen line =? 0) eqn:Z0; cbn [negb].
  - apply zlen_zero in Z0. subst. cbn. now rewrite app_nil_r.
  - rewrite concat_app, ink_app. cbn. now rewrite app_nil_r.
Qed.

Lemma end_nonempty trim s : fst (wrap_end trim s) <> [].
Proof.
  unfold wrap_end. cbn [fst]. match goal with |- (if zlen ?o =? 0 then _ else _) <> [] => destruct (zlen o =? 0) eqn:E end.
  - intros X. apply app_eq_nil in X. destruct X; discriminate.
  - now apply zlen_zero_false in E.
Qed.

(** *** Order: the output is the input with some blanks left out. *)
Lemma marks_app l m : marks (l ++ m) = marks l ++ marks m.
Proof. apply filter_app. Qed.
Lemma marks_clear l : marks (clear_slice l) = [].
Proof. induction l; cbn; auto. Qed.
Lemma marks_all l : Forall (fun g => g_sym g <> []) l -> marks l = l.
Proof. induction 1 as [|g l H _ IH]; cbn; [reflexivity|]. apply zlen_zero_false in H. rewrite H. cbn. now f_equal. Qed.

Lemma subseq_refl {A} (l : list A) : subseq l l.
Proof. induction l; constructor; auto. Qed.
Lemma subseq_app {A} (a b : list A) : subseq a b -> forall c d, subseq c d -> subseq (a ++ c) (b ++ d).
Proof.
  induction 1; intros; cbn; try (constructor; auto; fail). induction m; cbn; [auto|now constructor].
Qed.
Lemma subseq_trans {A} (b c : list A) : subseq b c -> forall a, subseq a b -> subseq a c.
Proof.
  induction 1; intros a' H1.
  - inversion H1; subst; constructor.
  - inversion H1; subst; [constructor|constructor 2; auto|constructor 3; auto].
  - constructor 3. auto.
Qed.
Lemma subseq_drop {A} (a b c : list A) : subseq (a ++ b ++ c) (a ++ b ++ c) -> subseq (a ++ c) (a ++ b ++ c).
Proof. intros _. apply subseq_app; [apply subseq_refl|]. change c with ([] ++ c) at 1. apply subseq_app; [constructor|apply subseq_refl]. Qed.

Record ordered (done : list gr) (s : wstate) : Prop := {
  od_sub : subseq (marks (concat (ws_out s) ++ ws_line s) ++ marks (ws_space s) ++ marks (ws_word s)) done;
  od_word : ws_prev s = false -> marks (ws_word s) = []
}.

Lemma flush_ordered done trim s : ordered done s -> ordered done (flush trim s).
Proof.
  intros [I S]. split; cbn [flush ws_out ws_line ws_word ws_space ws_prev]; [|now rewrite marks_clear].
  rewrite marks_clear. cbn [marks filter app]. rewrite app_nil_r. eapply subseq_trans; [exact I|].
  destruct (_ || _); rewrite !marks_app.
  - rewrite <- !app_assoc. apply subseq_refl.
  - rewrite <- !app_assoc. apply subseq_app; [apply subseq_refl|]. apply subseq_app; [apply subseq_refl|].
    change (marks (ws_word s)) with ([] ++ marks (ws_word s)) at 1. apply subseq_app; [constructor|apply subseq_refl].
Qed.
Lemma break_ordered done max s : ordered done s -> ordered done (break_line max s).
Proof.
  intros [I S]. unfold break_line. destruct (drop_space_suffix (ws_space s) (ws_space_w s) (Z.max 0 (max - ws_line_w s))) as (pre & E & _).
  destruct (drop_space _ _ _) as [sp w]. cbn [fst] in E. split; cbn [ws_out ws_line ws_word ws_space ws_prev]; [|exact S].
  rewrite concat_app. cbn [concat]. rewrite app_nil_r, !marks_app, marks_clear, app_nil_r. eapply subseq_trans; [exact I|].
  rewrite E, !marks_app. apply subseq_app; [apply subseq_refl|]. rewrite <- app_assoc.
  change (marks sp ++ marks (ws_word s)) with ([] ++ marks sp ++ marks (ws_word s)) at 1. apply subseq_app; [constructor|apply subseq_refl].
Qed.
Lemma step_ordered max trim done s g : ordered done s -> ordered (done ++ [g]) (wrap_step max trim s g).
Proof.
  intros C. assert (Weak : forall s, ordered done s -> ordered (done ++ [g]) s).
  { intros s' [I S]. split; [|exact S]. eapply subseq_trans; [|exact I]. rewrite <- (app_nil_r done) at 1. apply subseq_app; [apply subseq_refl|constructor]. }
  unfold wrap_step. destruct (Z.gtb_spec (g_width g) max) as [Hw|Hw]; [now apply Weak|].
  set (s1 := if _ || _ then flush trim s else s).
  assert (C1 : ordered done s1) by (unfold s1; destruct (_ || _); auto using flush_ordered).
  assert (W1 : is_whitespace (g_sym g) = true -> marks (ws_word s1) = []).
  { intros Eg. unfold s1. rewrite Eg. destruct (ws_prev s) eqn:Ep; cbn [andb orb].
    - cbn [flush ws_word]. apply marks_clear.
    - destruct (_ || _); [cbn [flush ws_word]; apply marks_clear|]. now apply C. }
  clearbody s1. set (full := (ws_line_w s1 >=? max) || _). clearbody full.
  set (s2 := if full then break_line max s1 else s1).
  assert (C2 : ordered done s2) by (unfold s2; destruct full; auto using break_ordered).
  assert (W2 : is_whitespace (g_sym g) = true -> marks (ws_word s2) = []).
  { intros Eg. unfold s2. destruct full; [|auto]. unfold break_line. destruct (drop_space _ _ _). cbn [ws_word]. auto. }
  clearbody s2. destruct C2 as [I2 S2].
  assert (Mg : subseq (marks [g]) [g]).
  { cbn. destruct (negb _); [apply subseq_refl|constructor]. }
  destruct (is_whitespace (g_sym g)) eqn:Eg.
  - specialize (W2 eq_refl). rewrite andb_true_r. destruct (full && _); [apply Weak; split; auto|].
    split; cbn [ws_out ws_line ws_word ws_space ws_prev]; [|auto]. rewrite W2 in *. rewrite app_nil_r in *. rewrite (marks_app (ws_space s2)), app_assoc.
    apply subseq_app; auto.
  - rewrite andb_false_r. cbn [andb]. split; cbn [ws_out ws_line ws_word ws_space ws_prev]; [|discriminate].
    rewrite (marks_app (ws_word s2)), !app_assoc. apply subseq_app; auto. rewrite <- app_assoc. exact I2.
Qed.
Lemma steps_ordered max trim gs : forall done s, ordered done s -> ordered (done ++ gs) (fold_left (wrap_step max trim) gs s).
Proof.
  induction gs as [|g gs IH]; intros done s C; cbn [fold_left]; [now rewrite app_nil_r|].
  change (g :: gs) with ([g] ++ gs). rewrite app_assoc. apply IH. now apply step_ordered.
Qed.
Lemma end_ordered done trim s : ordered done s -> subseq (marks (concat (fst (wrap_end trim s)))) done.
Proof.
  intros [I S]. unfold wrap_end. cbn [fst].
  set (line := (if _ || _ then ws_line s ++ ws_space s else ws_line s) ++ ws_word s).
  assert (L : subseq (marks line) (marks (ws_line s) ++ marks (ws_space s) ++ marks (ws_word s))).
  { unfold line. rewrite !marks_app. destruct (_ || _); rewrite ?marks_app, <- ?app_assoc; [apply subseq_refl|]. apply subseq_app; [apply subseq_refl|].
    change (marks (ws_word s)) with ([] ++ marks (ws_word s)) at 1. apply subseq_app; [constructor|apply subseq_refl]. }
  set (out1 := if _ && _ then ws_out s ++ [[]] else ws_out s).
  assert (O : concat out1 = concat (ws_out s)).
  { unfold out1. destruct (_ && _); [|reflexivity]. rewrite concat_app. cbn. now rewrite app_nil_r. }
  clearbody out1. eapply subseq_trans; [exact I|]. rewrite marks_app, <- O, <- app_assoc. clearbody line.
  assert (N : forall o : list (list gr), concat (if zlen o =? 0 then o ++ [[]] else o) = concat o).
  { intros o. destruct (_ =? 0); [rewrite concat_app; cbn; now rewrite app_nil_r|reflexivity]. }
  rewrite N. destruct (zlen line =? 0) eqn:Z0; cbn [negb].
  - rewrite <- (app_nil_r (marks (concat out1))) at 1. apply subseq_app; [apply subseq_refl|constructor].
  - rewrite concat_app, marks_app. cbn [concat]. rewrite app_nil_r. apply subseq_app; [apply subseq_refl|exact L].
Qed.

(** *** Widths *)
Record narrow (max : Z) (done : list gr) (s : wstate) : Prop := {
  nw_out : Forall (fun l => gr_width l <= max) (ws_out s);
  nw_line : ws_line_w s = gr_width (ws_line s);
  nw_word : ws_word_w s = gr_width (ws_word s);
  nw_space : ws_space_w s = gr_width (ws_space s);
  nw_pos : Forall (fun g => 0 <= g_width g) (ws_space s);
  nw_line0 : 0 <= ws_line_w s;
  nw_word0 : 0 <= ws_word_w s;
  nw_total : ws_line_w s + ws_space_w s + ws_word_w s <= max;
  nw_run : exists pre run, done = pre ++ run /\ is_word run /\ ws_word_w s <= gr_width run;
  nw_prev : ws_prev s = false -> ws_word_w s = 0
}.

Lemma gr_width_nonneg l : Forall (fun g => 0 <= g_width g) l -> 0 <= gr_width l.
Proof. intros F. apply zsum_nonneg. intros x Hx. apply in_map_iff in Hx. destruct Hx as (y & <- & Hy). rewrite Forall_forall in F. auto. Qed.

Lemma flush_narrow max done trim s : narrow max done s -> narrow max done (flush trim s).
Proof.
  intros [O L W S P L0 W0 T (pre & run & E & Iw & Wr) Pr]. pose proof (gr_width_nonneg _ P) as S0.
  split; cbn [flush ws_out ws_line ws_line_w ws_word ws_word_w ws_space ws_space_w ws_prev]; auto; try lia.
  - rewrite gr_width_app. destruct (_ || _); rewrite ?gr_width_app; lia.
  - now rewrite gr_width_clear.
  - destruct (_ || _); lia.
  - destruct (_ || _); lia.
  - exists done, []. rewrite app_nil_r. repeat split; [constructor|]. unfold gr_width; cbn; lia.
Qed.

Lemma break_narrow max done s : narrow max done s -> narrow max done (break_line max s) /\ ws_space (break_line max s) = [] /\
  ws_line_w (break_line max s) = 0 /\ ws_word_w (break_line max s) = ws_word_w s.
Proof.
  intros [O L W S P L0 W0 T R Pr]. pose proof (gr_width_nonneg _ P) as S0. unfold break_line.
  destruct (drop_space_suffix (ws_space s) (ws_space_w s) (Z.max 0 (max - ws_line_w s))) as (pre & E & E2).
  pose proof (drop_space_all (ws_space s) P (ws_space_w s) (Z.max 0 (max - ws_line_w s)) ltac:(lia)) as A.
  destruct (drop_space _ _ _) as [sp w]. cbn [fst snd] in *. subst sp. rewrite app_nil_r in E. subst pre. assert (w = 0) by lia. subst w.
  cbn [ws_out ws_line ws_line_w ws_word ws_word_w ws_space ws_space_w ws_prev]. split; [|auto].
  split; cbn [ws_out ws_line ws_line_w ws_word ws_word_w ws_space ws_space_w ws_prev]; auto; try lia.
  - apply Forall_app. split; [auto|]. constructor; [lia|constructor].
  - now rewrite gr_width_clear.
Qed.

Lemma step_narrow max trim done s g post : short_words max (done ++ g :: post) -> 0 <= g_width g <= 1 -> 1 <= max ->
  narrow max done s -> narrow max (done ++ [g]) (wrap_step max trim s g).
Proof.
  intros Hs Hg Hm C. unfold wrap_step. destruct (Z.gtb_spec (g_width g) max) as [Hw|Hw]; [lia|].
  set (s1 := if _ || _ then flush trim s else s).
  assert (C1 : narrow max done s1) by (unfold s1; destruct (_ || _); auto using flush_narrow).
  assert (W1 : is_whitespace (g_sym g) = true -> ws_word_w s1 = 0).
  { intros Eg. unfold s1. rewrite Eg. destruct (ws_prev s) eqn:Ep; cbn [andb orb]; [reflexivity|].
    destruct (_ || _); [reflexivity|]. now apply C. }
  clearbody s1. set (full := (ws_line_w s1 >=? max) || _).
  set (s2 := if full then break_line max s1 else s1).
  assert (C2 : narrow max done s2 /\ ws_word_w s2 = ws_word_w s1 /\
               (full = true -> ws_space s2 = [] /\ ws_line_w s2 = 0 /\ ws_space_w s2 = 0) /\
               (full = false -> ws_line_w s2 + ws_space_w s2 + ws_word_w s2 + g_width g <= max)).
  { unfold s2. destruct full eqn:Ef.
    - destruct (break_narrow max done s1 C1) as (N & A & B & D). split; [auto|]. split; [auto|]. split; [|discriminate]. intros _.
      split; [auto|]. split; [auto|]. rewrite (nw_space _ _ _ N), A. reflexivity.
    - split; [auto|]. split; [auto|]. split; [discriminate|]. intros _. unfold full in Ef. apply orb_false_iff in Ef. destruct Ef as [_ Ef].
      pose proof (nw_total _ _ _ C1). rewrite Z.geb_leb in Ef. destruct (Z.gtb_spec (g_width g) 0); cbn [andb] in Ef; [apply Z.leb_gt in Ef|]; lia. }
  clearbody s2 full. destruct C2 as (C2 & Ww & Hf & Hnf). clear C1. rewrite <- Ww in W1. clear Ww s1 C.
  destruct C2 as [O L W S P L0 W0 T (pre & run & E & Iw & Wr) Pr].
  destruct (is_whitespace (g_sym g)) eqn:Eg.
  - specialize (W1 eq_refl). rewrite andb_true_r. assert (R' : exists pre run, done ++ [g] = pre ++ run /\ is_word run /\ ws_word_w s2 <= gr_width run).
    { exists (done ++ [g]), []. rewrite app_nil_r. repeat split; [constructor|]. unfold gr_width; cbn; lia. }
    destruct full; cbn [andb].
    + destruct (Hf eq_refl) as (A & _). rewrite A. cbn [zlen length Z.of_nat Z.eqb].
      split; auto.
    + specialize (Hnf eq_refl). split; cbn [ws_out ws_line ws_line_w ws_word ws_word_w ws_space ws_space_w ws_prev]; auto; try lia.
      * rewrite gr_width_app. unfold gr_width at 2; cbn. lia.
      * apply Forall_app. split; [auto|]. constructor; [lia|constructor].
  - rewrite andb_false_r. cbn [andb].
    assert (R' : exists pre' run', done ++ [g] = pre' ++ run' /\ is_word run' /\ ws_word_w s2 + g_width g <= gr_width run').
    { exists pre, (run ++ [g]). rewrite E, app_assoc. split; [auto|]. split; [apply Forall_app; split; [auto|repeat constructor; auto]|].
      rewrite gr_width_app. unfold gr_width at 2; cbn. lia. }
    assert (Fit : ws_line_w s2 + ws_space_w s2 + ws_word_w s2 + g_width g <= max).
    { destruct full; [|auto]. destruct (Hf eq_refl) as (_ & A & B). destruct R' as (pre' & run' & E' & I' & W').
      assert (gr_width run' <= max). { apply (Hs pre' run' post); [|auto]. rewrite app_assoc, <- E', <- app_assoc. reflexivity. } lia. }
    split; cbn [ws_out ws_line ws_line_w ws_word ws_word_w ws_space ws_space_w ws_prev]; auto; try lia.
    + rewrite gr_width_app. unfold gr_width at 2; cbn. lia.
Qed.

Lemma steps_narrow max trim gs : forall done s, short_words max (done ++ gs) -> Forall (fun g => 0 <= g_width g <= 1) gs -> 1 <= max ->
  narrow max done s -> narrow max (done ++ gs) (fold_left (wrap_step max trim) gs s).
Proof.
  induction gs as [|g gs IH]; intros done s Hs Hg Hm C; cbn [fold_left]; [now rewrite app_nil_r|]. inversion Hg; subst.
  change (g :: gs) with ([g] ++ gs) in *. rewrite app_assoc in *. apply IH; auto. apply (step_narrow max trim done s g gs); auto.
  now rewrite <- app_assoc in Hs.
Qed.

Lemma end_narrow max done trim s : 0 <= max -> narrow max done s -> Forall (fun l => gr_width l <= max) (fst (wrap_end trim s)).
Proof.
  intros Hm [O L W S P L0 W0 T R Pr]. pose proof (gr_width_nonneg _ P) as S0. unfold wrap_end. cbn [fst].
  set (line := (if _ || _ then ws_line s ++ ws_space s else ws_line s) ++ ws_word s).
  assert (Ll : gr_width line <= max). { unfold line. rewrite gr_width_app. destruct (_ || _); rewrite ?gr_width_app; lia. }
  clearbody line. set (out1 := if _ && _ then ws_out s ++ [[]] else ws_out s).
  assert (E0 : forall o, Forall (fun l => gr_width l <= max) o -> Forall (fun l => gr_width l <= max) (o ++ [[]])).
  { intros o Ho. apply Forall_app. split; [auto|]. constructor; [unfold gr_width; cbn; lia|constructor]. }
  assert (O1 : Forall (fun l => gr_width l <= max) out1) by (unfold out1; destruct (_ && _); auto). clearbody out1.
  assert (O2 : Forall (fun l => gr_width l <= max) (if negb (zlen line =? 0) then out1 ++ [line] else out1)).
  { destruct (negb _); [|auto]. apply Forall_app. auto. }
  match goal with |- Forall _ (if ?c then _ else _) => destruct c end; auto.
Qed.

(** *** Reading a wrapper to the end *)
Definition produced (max : Z) (trim : bool) (line word gs : list gr) : list (list gr) :=
  fst (wrap_end trim (fold_left (wrap_step max trim) gs (WState (clear_slice line) 0 (clear_slice word) 0 [] 0 false []))).

Definition as_line (al : alignment) (l : list gr) : wrapped_line := WrappedLine l (gr_width l) al.

Lemma yields_same {S} (next : S -> option (wrapped_line * S)) a b ls : next a = next b -> yields next b ls -> yields next a ls.
Proof. intros E Y. inversion Y; subst; [constructor|econstructor]; eauto; congruence. Qed.

Lemma yields_fun {S} (next : S -> option (wrapped_line * S)) a ls : yields next a ls -> forall ms, yields next a ms -> ls = ms.
Proof.
  induction 1 as [st E|st l st' ls E _ IH]; intros ms Y; inversion Y; subst; try congruence.
  rewrite E in H. injection H as <- <-. f_equal. auto.
Qed.

Lemma process_wrapped ww gs is al : ww_wrapped ww = [] ->
  let p := process_input ww gs is al in
  ww_input p = is /\ ww_max p = ww_max ww /\ ww_trim p = ww_trim ww /\ ww_align p = al /\
  exists line word, ww_wrapped p = produced (ww_max ww) (ww_trim ww) line word gs.
Proof.
  intros E. unfold process_input. cbv zeta. destruct (match rev (ww_pool ww) with [] => _ | l :: r => _ end) as [line pool].
  rewrite E. unfold produced.
  match goal with |- context [wrap_end (ww_trim ww) ?s] => remember (wrap_end (ww_trim ww) s) as we eqn:Ew end. destruct we as [out word]. cbn [ww_input ww_max ww_trim ww_align ww_wrapped].
  repeat split. exists line, (ww_word ww). rewrite <- Ew. reflexivity.
Qed.

Lemma wrapper_yields inputs : forall ww, ww_input ww = inputs -> ww_max ww <> 0 ->
  exists groups, yields wrapper_next ww (map (as_line (ww_align ww)) (ww_wrapped ww) ++ concat groups) /\
    Forall2 (fun i g => exists line word, g = map (as_line (il_align i)) (produced (ww_max ww) (ww_trim ww) line word (il_graphemes i))) inputs groups.
Proof.
  induction inputs as [|i is IH].
  - enough (G : forall out ww, ww_wrapped ww = out -> ww_input ww = [] -> ww_max ww <> 0 -> yields wrapper_next ww (map (as_line (ww_align ww)) out)).
    { intros ww Ei Em. exists []. split; [|constructor]. cbn. rewrite app_nil_r. now apply G. }
    induction out as [|l out IHo]; intros ww Ew Ei Em; cbn [map].
    + constructor. unfold wrapper_next. rewrite Ei. cbn. rewrite Ew. now destruct (_ =? 0).
    + econstructor; [|apply (IHo (replace_current ww l out)); auto].
      unfold wrapper_next. rewrite Ei. cbn. rewrite Ew. apply Z.eqb_neq in Em. now rewrite Em.
  - enough (G : forall out ww, ww_wrapped ww = out -> ww_input ww = i :: is -> ww_max ww <> 0 ->
      exists groups, yields wrapper_next ww (map (as_line (ww_align ww)) out ++ concat groups) /\
        Forall2 (fun i g => exists line word, g = map (as_line (il_align i)) (produced (ww_max ww) (ww_trim ww) line word (il_graphemes i))) (i :: is) groups).
    { intros ww Ei Em. now apply G. }
    induction out as [|l out IHo]; intros ww Ew Ei Em; cbn [map app].
    + destruct (process_wrapped ww (il_graphemes i) is (il_align i) Ew) as (Pi & Pm & Pt & Pa & line & word & Pw).
      destruct (IH (process_input ww (il_graphemes i) is (il_align i)) Pi ltac:(congruence)) as (groups & Y & F).
      rewrite Pa, Pw in Y. rewrite Pm, Pt in F. eexists (_ :: groups). cbn [concat]. split.
      * eapply yields_same; [|exact Y]. unfold wrapper_next. rewrite Pm, Pi, Ei. cbn [wrap_next]. now rewrite Ew.
      * constructor; [eauto|exact F].
    + destruct (IHo (replace_current ww l out)) as (groups & Y & F); auto.
      exists groups. split; [|exact F]. econstructor; [|exact Y].
      unfold wrapper_next. rewrite Ei. cbn [wrap_next]. rewrite Ew. apply Z.eqb_neq in Em. now rewrite Em.
Qed.

Lemma start_conserve line word : conserve [] (WState (clear_slice line) 0 (clear_slice word) 0 [] 0 false []).
Proof. split; cbn; [|constructor]. rewrite ink_app, !ink_clear. reflexivity. Qed.
Lemma produced_ink max trim line word gs : ink (concat (produced max trim line word gs)) = ink (fitting max gs).
Proof. apply end_conserve. apply (steps_conserve max trim gs []). apply start_conserve. Qed.
Lemma produced_ordered max trim line word gs : subseq (marks (concat (produced max trim line word gs))) gs.
Proof. apply end_ordered. apply (steps_ordered max trim gs []). split; cbn; rewrite ?marks_clear; [constructor|reflexivity]. Qed.
Lemma produced_narrow max trim line word gs : 1 <= max -> Forall (fun g => 0 <= g_width g <= 1) gs -> short_words max gs ->
  Forall (fun l => gr_width l <= max) (produced max trim line word gs).
Proof.
  intros Hm Hg Hs. unfold produced. eapply end_narrow; [lia|]. apply (steps_narrow max trim gs []); auto.
  split; cbn [ws_out ws_line ws_line_w ws_word ws_word_w ws_space ws_space_w ws_prev]; rewrite ?gr_width_clear; auto; try lia; try constructor.
  exists [], []. repeat split; [constructor|]. rewrite gr_width_nil. lia.
Qed.
Lemma produced_nonempty max trim line word gs : produced max trim line word gs <> [].
Proof. apply end_nonempty. Qed.

(** *** Computing with composers, for the examples *)
Fixpoint read {S} (next : S -> option (wrapped_line * S)) (n : nat) (st : S) : option (list wrapped_line) :=
  match n with
  | O => None
  | Datatypes.S n' => match next st with None => Some [] | Some (l, st') => option_map (cons l) (read next n' st') end
  end.
Lemma read_yields {S} (next : S -> option (wrapped_line * S)) n : forall st ls, read next n st = Some ls -> yields next st ls.
Proof.
  induction n as [|n IH]; intros st ls E; [discriminate|]. cbn in E. destruct (next st) as [[l st']|] eqn:En.
  - destruct (read next n st') as [ls'|] eqn:Er; [|discriminate]. injection E as <-. econstructor; eauto.
  - injection E as <-. now constructor.
Qed.

(** The widest word is at most [max]; [cur] is the width of the word being read. *)
Fixpoint words_ok (max cur : Z) (l : list gr) : bool :=
  (cur <=? max) && match l with [] => true | g :: l' => words_ok max (if is_whitespace (g_sym g) then 0 else cur + g_width g) l' end.
Lemma words_ok_short max l : Forall (fun g => 0 <= g_width g) l -> words_ok max 0 l = true -> short_words max l.
Proof.
  intros F E pre word post. 
  assert (Mono : forall l c c', c' <= c -> words_ok max c l = true -> words_ok max c' l = true).
  { clear. induction l as [|g l IH]; intros c c' Hc E; cbn in *; rewrite andb_true_iff, Z.leb_le in *; (split; [lia|]); [auto|].
    destruct E as [_ E]. destruct (is_whitespace _); [exact E|]. eapply IH; [|exact E]. lia. }
  assert (Run : forall word cur post, 0 <= cur -> is_word word -> Forall (fun g => 0 <= g_width g) word -> words_ok max cur (word ++ post) = true -> cur + gr_width word <= max).
  { clear. induction word as [|g w IH]; intros cur post Hc Hw F E; cbn [app words_ok] in E.
    - rewrite gr_width_nil. destruct post; cbn in E; apply andb_true_iff in E; destruct E as [E _]; apply Z.leb_le in E; lia.
    - inversion Hw; subst. inversion F; subst. rewrite gr_width_cons. apply andb_true_iff in E. destruct E as [_ E]. rewrite H1 in E.
      assert (X := IH (cur + g_width g) post ltac:(lia) H2 H4 E). lia. }
  intros -> Hw. apply Forall_app in F. destruct F as [F1 F]. apply Forall_app in F. destruct F as [F2 F3].
  enough (H : words_ok max 0 (word ++ post) = true) by (specialize (Run word 0 post ltac:(lia) Hw F2 H); lia).
  assert (G : forall pre cur, 0 <= cur -> Forall (fun g => 0 <= g_width g) pre -> words_ok max cur (pre ++ word ++ post) = true -> words_ok max 0 (word ++ post) = true).
  { clear - Mono. induction pre as [|g pre IH]; intros cur Hc F E; [eapply Mono; eauto|]. inversion F; subst. cbn [app words_ok] in E.
    apply andb_true_iff in E. destruct E as [_ E]. eapply (IH (if is_whitespace (g_sym g) then 0 else cur + g_width g)); auto. destruct (is_whitespace _); lia. }
  eapply (G pre 0); auto. lia.
Qed.

(** *** The truncator *)
Lemma trunc_line_width u max al gs : forall cur w off, Forall (proper u) gs -> (forall c, 0 <= cwidth u c) -> (clusters u [] = []) -> 0 <= off ->
  w = gr_width cur -> w <= max ->
  let '(cur', w', off') := trunc_line u max al gs cur w off in w' = gr_width cur' /\ w' <= max /\ 0 <= off'.
Proof.
  induction gs as [|g gs IH]; intros cur w off Hp Hu H0 Ho Hw Hm; cbn [trunc_line]; [auto|].
  inversion Hp as [|? ? (P1 & P2 & P3) Hp']; subst x l.
  destruct (g_width g >? max) eqn:E1; [apply IH; auto|]. destruct (Z.gtb_spec (w + g_width g) max) as [E2|E2]; [auto|].
  assert (Sg : string_width u (g_sym g) = g_width g) by (unfold string_width; rewrite P1; cbn; lia).
  assert (Sn : string_width u [] = 0) by (unfold string_width; now rewrite H0).
  assert (Wn : forall s st, gr_width (cur ++ [new_gr u s st]) = gr_width cur + string_width u s).
  { intros. rewrite gr_width_app, gr_width_cons, gr_width_nil. cbn. lia. }
  pose proof (Hu (g_sym g)).
  destruct ((off =? 0) || _); [apply IH; auto; rewrite ?Wn; lia|]. destruct (Z.gtb_spec (g_width g) off) as [E3|E3].
  - assert (Et : trim_offset u (g_sym g) off = g_sym g).
    { unfold trim_offset. rewrite P1. cbn. destruct (Z.gtb_spec (cwidth u (g_sym g)) off); [|lia]. now rewrite app_nil_r. }
    rewrite Et. apply IH; auto; rewrite ?Wn; lia.
  - apply IH; auto; rewrite ?Wn; lia.
Qed.

Lemma trunc_lines_width u max lines : forall al cur w off, Forall (fun i => Forall (proper u) (il_graphemes i)) lines -> (forall c, 0 <= cwidth u c) ->
  clusters u [] = [] -> 0 <= off -> w = gr_width cur -> w <= max ->
  let '(cur', w', al') := trunc_lines u max lines al cur w off in w' = gr_width cur' /\ w' <= max.
Proof.
  induction lines as [|i lines IH]; intros al cur w off Hp Hu H0 Ho Hw Hm; cbn [trunc_lines]; [auto|]. inversion Hp; subst x l.
  pose proof (trunc_line_width u max (il_align i) (il_graphemes i) cur w off) as T. destruct (trunc_line _ _ _ _ _ _ _) as [[c' w'] off'].
  destruct T as (A & B & C); auto. apply IH; auto.
Qed.

(** Without offset (or with another alignment than left) a line gives its longest prefix that fits, ignoring too wide graphemes. *)
Lemma trunc_line_prefix u max al gs : forall cur w off, Forall (proper u) gs -> off = 0 \/ al <> AlignLeft ->
  exists row rest, fitting max gs = row ++ rest /\ trunc_line u max al gs cur w off = (cur ++ row, w + gr_width row, off) /\
    (forall g r, rest = g :: r -> max < w + gr_width row + g_width g).
Proof.
  induction gs as [|g gs IH]; intros cur w off Hp Ho; cbn [trunc_line].
  { exists [], []. rewrite gr_width_nil, !app_nil_r, Z.add_0_r. split; [reflexivity|]. split; [reflexivity|]. intros g r X. discriminate X. }
  inversion Hp as [|? ? (P1 & P2 & P3) Hp']; subst x l. cbn [fitting filter]. fold (fitting max gs).
  destruct (Z.gtb_spec (g_width g) max) as [E1|E1].
  { replace (g_width g <=? max) with false by (symmetry; apply Z.leb_gt; lia). apply IH; auto. }
  replace (g_width g <=? max) with true by (symmetry; apply Z.leb_le; lia).
  destruct (Z.gtb_spec (w + g_width g) max) as [E2|E2].
  { exists [], (g :: fitting max gs). rewrite gr_width_nil, !app_nil_r, Z.add_0_r. split; [reflexivity|]. split; [reflexivity|]. intros g' r X. injection X as <- _. lia. }
  replace ((off =? 0) || negb match al with AlignLeft => true | _ => false end) with true.
  2: { symmetry. destruct Ho as [->|Ho]; [reflexivity|]. apply orb_true_iff. right. now destruct al. }
  assert (Sg : string_width u (g_sym g) = g_width g) by (unfold string_width; rewrite P1; cbn; lia).
  assert (Eg : new_gr u (g_sym g) (g_style g) = g) by (unfold new_gr; rewrite Sg; now destruct g).
  rewrite Eg, Sg. destruct (IH (cur ++ [g]) (w + g_width g) off Hp' Ho) as (row & rest & A & B & D).
  exists (g :: row), rest. rewrite A, B, gr_width_cons, <- app_assoc. split; [reflexivity|]. split; [f_equal; f_equal; cbn; lia|].
  intros g' r X. specialize (D g' r X). lia.
Qed.

(** With an offset, left-aligned: the first graphemes disappear until the offset is used up. *)
Lemma trunc_line_scrolled u max gs : forall cur w off, Forall (proper u) gs -> (forall c, 0 <= cwidth u c) -> clusters u [] = [] -> 0 <= off -> w <= max ->
  marks cur = [] -> w = 0 ->
  exists gone row rest cur' w' off', fitting max gs = gone ++ row ++ rest /\
    trunc_line u max AlignLeft gs cur w off = (cur', w', off') /\ marks cur' = row /\ w' = gr_width row /\
    gr_width gone <= off /\ (forall g r, row ++ rest = g :: r -> gr_width gone = off \/ off < gr_width gone + g_width g) /\
    (forall g r, rest = g :: r -> max < gr_width row + g_width g).
Proof.
  induction gs as [|g gs IH]; intros cur w off Hp Hu H0 Ho Hm Hc Hw.
  { exists [], [], [], cur, w, off. cbn [trunc_line fitting filter app]. rewrite gr_width_nil. split; [auto|]. split; [auto|]. split; [auto|]. split; [auto|]. split; [auto|]. split; intros g r X; discriminate X. }
  destruct (Z.eq_dec off 0) as [Hz|Hz].
  { destruct (trunc_line_prefix u max AlignLeft (g :: gs) cur w off Hp (or_introl Hz)) as (row & rest & A & B & D).
    exists [], row, rest, (cur ++ row), (w + gr_width row), off. rewrite gr_width_nil. split; [exact A|]. split; [exact B|]. split.
    { rewrite marks_app, Hc. cbn. apply marks_all. apply Forall_forall. intros x Hx.
      assert (In x (g :: gs)). { assert (In x (fitting max (g :: gs))) by (rewrite A; apply in_app_iff; auto). unfold fitting in H. apply filter_In in H. tauto. }
      rewrite Forall_forall in Hp. apply (Hp x H). }
    split; [lia|]. split; [lia|]. split; [intros; left; lia|]. intros g' r X. specialize (D g' r X). lia. }
  cbn [trunc_line]. inversion Hp as [|? ? (P1 & P2 & P3) Hp']; subst x l. cbn [fitting filter]. fold (fitting max gs). pose proof (Hu (g_sym g)) as Hg.
  destruct (Z.gtb_spec (g_width g) max) as [E1|E1].
  { replace (g_width g <=? max) with false by (symmetry; apply Z.leb_gt; lia). apply IH; auto. }
  replace (g_width g <=? max) with true by (symmetry; apply Z.leb_le; lia).
  destruct (Z.gtb_spec (w + g_width g) max) as [E2|E2]; [lia|].
  replace (off =? 0) with false by (symmetry; now apply Z.eqb_neq). cbn [orb negb].
  assert (Sg : string_width u (g_sym g) = g_width g) by (unfold string_width; rewrite P1; cbn; lia).
  assert (Eg : new_gr u (g_sym g) (g_style g) = g) by (unfold new_gr; rewrite Sg; now destruct g).
  assert (Mg : marks [g] = [g]) by (apply marks_all; constructor; auto).
  destruct (Z.gtb_spec (g_width g) off) as [E3|E3].
  - assert (Et : trim_offset u (g_sym g) off = g_sym g).
    { unfold trim_offset. rewrite P1. cbn. destruct (Z.gtb_spec (cwidth u (g_sym g)) off); [|lia]. now rewrite app_nil_r. }
    rewrite Et, Eg, Sg. destruct (trunc_line_prefix u max AlignLeft gs (cur ++ [g]) (w + g_width g) 0 Hp' (or_introl eq_refl)) as (row & rest & A & B & D).
    exists [], (g :: row), rest, ((cur ++ [g]) ++ row), (w + g_width g + gr_width row), 0. rewrite gr_width_nil, gr_width_cons. split; [now rewrite A|]. split; [exact B|]. split.
    { rewrite !marks_app, Hc, Mg. cbn [app]. f_equal. apply marks_all. apply Forall_forall. intros x Hx.
      assert (In x gs). { assert (In x (fitting max gs)) by (rewrite A; apply in_app_iff; auto). unfold fitting in H. apply filter_In in H. tauto. }
      rewrite Forall_forall in Hp'. apply (Hp' x H). }
    split; [lia|]. split; [lia|]. split; [intros g' r X; injection X as <- _; right; lia|]. intros g' r X. specialize (D g' r X). lia.
  - assert (Sn : string_width u [] = 0) by (unfold string_width; now rewrite H0).
    destruct (IH (cur ++ [new_gr u [] (g_style g)]) (w + string_width u []) (off - g_width g)) as (gone & row & rest & cur' & w' & off' & A & B & C & D & F & G & H); auto; try lia.
    { rewrite marks_app, Hc. reflexivity. }
    exists (g :: gone), row, rest, cur', w', off'. rewrite gr_width_cons. split; [now rewrite A|]. split; [exact B|]. split; [exact C|]. split; [exact D|].
    split; [lia|]. split; [|exact H]. intros g' r X. specialize (G g' r X). lia.
Qed.

(** *** Every grapheme in a row is one of the line or a cleared one. *)
Section Elements.
  Variable P : gr -> Prop.
  Hypothesis P0 : P zero_gr.
  Record all_p (s : wstate) : Prop := {
    ap_out : Forall P (concat (ws_out s)); ap_line : Forall P (ws_line s); ap_word : Forall P (ws_word s); ap_space : Forall P (ws_space s) }.
  Lemma clear_p l : Forall P (clear_slice l).
  Proof. apply Forall_forall. intros g Hg. apply in_map_iff in Hg. destruct Hg as (x & <- & _). exact P0. Qed.
  Lemma flush_p trim s : all_p s -> all_p (flush trim s).
  Proof.
    intros [A B C D]. split; cbn [flush ws_out ws_line ws_word ws_space]; auto using clear_p.
    apply Forall_app. split; [|auto]. destruct (_ || _); [apply Forall_app|]; auto.
  Qed.
  Lemma break_p max s : all_p s -> all_p (break_line max s).
  Proof.
    intros [A B C D]. unfold break_line. destruct (drop_space_suffix (ws_space s) (ws_space_w s) (Z.max 0 (max - ws_line_w s))) as (pre & E & _).
    destruct (drop_space _ _ _) as [sp w]. cbn [fst] in E. rewrite E in D. apply Forall_app in D. destruct D as [_ D].
    split; cbn [ws_out ws_line ws_word ws_space]; auto using clear_p. rewrite concat_app. cbn. rewrite app_nil_r. apply Forall_app. auto.
  Qed.
  Lemma step_p max trim s g : P g -> all_p s -> all_p (wrap_step max trim s g).
  Proof.
    intros Pg C. unfold wrap_step. destruct (_ >? _); [auto|].
    set (s1 := if _ || _ then flush trim s else s). assert (C1 : all_p s1) by (unfold s1; destruct (_ || _); auto using flush_p). clearbody s1.
    set (full := (ws_line_w s1 >=? max) || _). clearbody full. set (s2 := if full then break_line max s1 else s1).
    assert (C2 : all_p s2) by (unfold s2; destruct full; auto using break_p). clearbody s2. clear C C1. destruct (full && _ && _); [auto|].
    destruct C2 as [A B C D]. destruct (is_whitespace _); split; cbn [ws_out ws_line ws_word ws_space]; auto; apply Forall_app; auto.
  Qed.
  Lemma steps_p max trim gs : Forall P gs -> forall s, all_p s -> all_p (fold_left (wrap_step max trim) gs s).
  Proof. induction 1; intros s C; cbn [fold_left]; auto using step_p. Qed.
  Lemma produced_p max trim line word gs : Forall P gs -> Forall P (concat (produced max trim line word gs)).
  Proof.
    intros F. unfold produced.
    assert (S : all_p (fold_left (wrap_step max trim) gs (WState (clear_slice line) 0 (clear_slice word) 0 [] 0 false []))).
    { apply steps_p; auto. split; cbn; auto using clear_p. }
    revert S. generalize (fold_left (wrap_step max trim) gs (WState (clear_slice line) 0 (clear_slice word) 0 [] 0 false [])). intros s [A B C D].
    unfold wrap_end. cbn [fst].
    set (l := (if _ || _ then ws_line s ++ ws_space s else ws_line s) ++ ws_word s).
    assert (L : Forall P l). { apply Forall_app. split; [|auto]. destruct (_ || _); [apply Forall_app|]; auto. } clearbody l.
    set (out1 := if _ && _ then ws_out s ++ [[]] else ws_out s).
    assert (O : Forall P (concat out1)). { unfold out1. destruct (_ && _); [|auto]. rewrite concat_app. cbn. now rewrite app_nil_r. }
    clearbody out1.
    assert (O2 : Forall P (concat (if negb (zlen l =? 0) then out1 ++ [l] else out1))).
    { destruct (negb _); [|auto]. rewrite concat_app. cbn. rewrite app_nil_r. apply Forall_app. auto. }
    match goal with |- context [if ?c then _ else _] => destruct c end; [|auto]. rewrite concat_app. cbn. now rewrite app_nil_r.
  Qed.
End Elements.

Lemma trunc_line_p u max al gs : (forall s, 0 <= string_width u s) -> forall cur w off, Forall (fun g => 0 <= g_width g) cur -> Forall (fun g => 0 <= g_width g) (fst (fst (trunc_line u max al gs cur w off))).
Proof.
  intros Hu. induction gs as [|g gs IH]; intros cur w off F; cbn [trunc_line]; [auto|]. destruct (_ >? _); [auto|]. destruct (_ >? _); [auto|].
  destruct (if (off =? 0) || _ then _ else _) as [sym off']. apply IH. apply Forall_app. split; [auto|]. constructor; [apply Hu|constructor].
Qed.
Lemma trunc_lines_p u max lines : (forall s, 0 <= string_width u s) -> forall al cur w off, Forall (fun g => 0 <= g_width g) cur -> Forall (fun g => 0 <= g_width g) (fst (fst (trunc_lines u max lines al cur w off))).
Proof.
  intros Hu. induction lines as [|i lines IH]; intros al cur w off F; cbn [trunc_lines]; [auto|].
  pose proof (trunc_line_p u max (il_align i) (il_graphemes i) Hu cur w off F) as T. destruct (trunc_line _ _ _ _ _ _ _) as [[c' w'] o']. now apply IH.
Qed.
Lemma trunc_lines_align u max lines : forall al cur w off, al <> AlignNone -> Forall (fun i => il_align i <> AlignNone) lines -> snd (trunc_lines u max lines al cur w off) <> AlignNone.
Proof.
  induction lines as [|i lines IH]; intros al cur w off H F; cbn [trunc_lines]; [auto|]. inversion F; subst.
  destruct (trunc_line _ _ _ _ _ _ _) as [[c' w'] o']. now apply IH.
Qed.
