(** Lemmas about fixed viewports. *)
From Verif Require Import Base M_Geom S_Geom M_Style M_Uniseg M_Buffer S_Buffer M_Ansi M_Backend S_Terminal S_Ansi S_Display S_Command S_Session S_Fixed
  P_Base T_Geom P_Buffer P_Ansi P_Attr P_Draw P_Diff P_Session.
From Coq Require Import ZArith NArith List Bool Lia.
Import ListNotations.
Open Scope Z_scope.

Lemma fits_inside u te b p c : displayable u te b -> look b p = Some c ->
  rx (barea b) <= px p /\ px p + cwidth u (csym c) <= rx (barea b) + rw (barea b) /\ ry (barea b) <= py p < ry (barea b) + rh (barea b).
Proof.
  intros Db Hl. pose proof (look_Some_inside _ _ _ Hl) as [Hx Hy]. pose proof (disp_cell _ _ _ Db _ _ Hl) as Hc.
  destruct (ok_width _ _ _ Hc) as [W1|W2]; [lia|].
  destruct (disp_wide _ _ _ Db _ _ Hl W2) as (c' & Hl' & _). apply look_Some_inside in Hl'. destruct Hl' as [Hx' _]. cbn in Hx'. lia.
Qed.

Lemma put_outside u te b : displayable u te b -> forall ups cells q,
  (forall p c, In (p, c) ups -> look b p = Some c) -> ~ inside q (barea b) ->
  (ry (barea b) <= py q < ry (barea b) + rh (barea b) ->
     exists s a k, cells q = TPart s a k /\ (px q - k + cwidth u s <= rx (barea b) \/ rx (barea b) + rw (barea b) <= px q - k)) ->
  fold_left (put u te) ups cells q = cells q.
Proof.
  intros Db. induction ups as [|[p c] ups IH]; intros cells q Hups Hq Ho; [reflexivity|]. cbn [fold_left].
  assert (E : put u te cells (p, c) q = cells q).
  { unfold put, place. cbn [fst snd]. destruct (fits_inside u te b p c Db (Hups p c (or_introl eq_refl))) as (H1 & H2 & H3).
    destruct (Z.eqb_spec (py q) (py p)) as [Ey|]; [|reflexivity]. destruct Ho as (s & a & k & Ec & Hk); [lia|].
    destruct ((px p <=? px q) && (px q <? px p + cwidth u (csym c))) eqn:Eq.
    - exfalso. apply Hq. apply andb_prop in Eq. destruct Eq as [A B]. apply Z.leb_le in A. apply Z.ltb_lt in B.
      unfold inside. lia.
    - rewrite Ec. cbn [glyph_cols]. destruct ((px q - k <? px p + cwidth u (csym c)) && (px p <? px q - k + cwidth u s)) eqn:Ek; [|reflexivity].
      exfalso. apply andb_prop in Ek. destruct Ek as [A B]. apply Z.ltb_lt in A, B. lia. }
  rewrite IH; [exact E| |assumption|].
  - intros p' c' H. apply Hups. now right.
  - now rewrite E.
Qed.

(** The invariant: as long as the terminal keeps its size, what the program believes of its part of the screen holds. *)
Record fixed_inv (u : uniseg) (te : termenv) (tm : terminal) (t : term) (w h : Z) : Prop := {
  fi_view : exists r, tm_viewport tm = Fixed r;
  fi_size : t_w t = w /\ t_h t = h;
  fi_part : part_of (tm_area tm) w h;
  fi_current : current_buffer tm = blank (tm_area tm);
  fi_prev : displayable u te (previous_buffer tm) /\ barea (previous_buffer tm) = tm_area tm;
  fi_attr : t_attr t = default_attr;
  fi_shows : shows u te (t_cells t) (previous_buffer tm);
  fi_over : no_overhang u t (tm_area tm) }.

Lemma part_sized r w h : part_of r w h -> sized r.
Proof. intros (A & B & C & D & E & F). split; assumption. Qed.

Lemma exec_size u l : forall t, t_w (exec u t l) = t_w t /\ t_h (exec u t l) = t_h t.
Proof.
  induction l as [|k l IH]; intros t; [auto|]. change (exec u t (k :: l)) with (exec u (exec_token u t k) l).
  destruct (IH (exec_token u t k)) as [-> ->].
  clear. destruct k as [s|[|] ps f]; cbn [exec_token].
  - unfold print_glyph. destruct (_ =? _); [auto|]. destruct (t_cur t); [|auto]. destruct (_ && _); auto.
  - repeat match goal with |- context [match ?x with _ => _ end] => destruct x; auto end.
  - unfold erase_below. repeat (match goal with |- context [match ?x with _ => _ end] => destruct x; auto end).
Qed.

Lemma fixed_draw u te tm t W H w : env_ok u te -> fixed_inv u te tm t W H -> good_anywhere u te w ->
  exists tm' t' b, perform u te (tm, t) (Draw w) = Some (tm', t') /\
    w (tm_area tm) (blank (tm_area tm)) = Ret b /\ previous_buffer tm' = b /\ tm_area tm' = tm_area tm /\ t_visible t' = false /\
    (forall q, on t q -> ~ inside q (tm_area tm) -> t_cells t' q = t_cells t q) /\
    fixed_inv u te tm' t' W H.
Proof.
  intros He HI Hw. pose proof (fi_part _ _ _ _ _ _ HI) as HP. destruct HP as (P1x & P2x & P3x & P4x & P5x & P6x).
  destruct (Hw (tm_area tm) P1x P4x P2x P5x) as (b & Eb & Ab & Fb).
  destruct (fi_prev _ _ _ _ _ _ HI) as [Dp Ap]. destruct (fi_size _ _ _ _ _ _ HI) as [TW TH].
  cbn [perform]. unfold terminal_draw. rewrite (fi_current _ _ _ _ _ _ HI), Eb. cbn [bind].
  set (tm1 := set_current tm b).
  assert (P1 : previous_buffer tm1 = previous_buffer tm) by (unfold tm1, set_current, previous_buffer; destruct (tm_current tm) eqn:E; cbn; now rewrite ?E).
  assert (C1 : current_buffer tm1 = b) by (unfold tm1, set_current, current_buffer; destruct (tm_current tm) eqn:E; cbn; now rewrite ?E).
  rewrite P1, C1.
  pose proof (frame_displayable _ _ _ Fb) as Db.
  destruct (diff_shows u (previous_buffer tm) b (disp_wf _ _ _ Dp) (disp_wf _ _ _ Db) ltac:(congruence) te Dp Db (t_cells t)
      (fi_shows _ _ _ _ _ _ HI)) as (ups & Eu & Hups & Hch & Hsh).
  rewrite Eu. cbn [bind].
  rewrite (send_draw u te t b ups); auto.
  2: apply (env_uniseg _ _ He).
  2,3: rewrite Ab; assumption.
  2: intros p c Hpc; now apply Hups.
  cbn [option_map].
  match goal with |- context [Some (?X, exec _ _ _)] => set (tm2 := X) end.
  assert (S1 : tm_current tm1 = tm_current tm) by (unfold tm1, set_current; now destruct (tm_current tm)).
  assert (A1 : tm_area tm1 = tm_area tm) by (unfold tm1, set_current; now destruct (tm_current tm)).
  assert (V1 : tm_viewport tm1 = tm_viewport tm) by (unfold tm1, set_current; now destruct (tm_current tm)).
  assert (P2 : previous_buffer tm2 = b).
  { rewrite <- C1. unfold tm2, swap_buffers, set_previous, previous_buffer, current_buffer. destruct (tm_current tm1) eqn:E; cbn; rewrite ?E; reflexivity. }
  assert (C2 : current_buffer tm2 = buffer_reset (previous_buffer tm)).
  { rewrite <- P1. unfold tm2, swap_buffers, set_previous, previous_buffer, current_buffer. destruct (tm_current tm1) eqn:E; cbn; rewrite ?E; reflexivity. }
  assert (A2 : tm_area tm2 = tm_area tm).
  { rewrite <- A1. unfold tm2, swap_buffers, set_previous. destruct (tm_current tm1); reflexivity. }
  assert (V2 : tm_viewport tm2 = tm_viewport tm).
  { rewrite <- V1. unfold tm2, swap_buffers, set_previous. destruct (tm_current tm1); reflexivity. }
  rewrite commands_tokens_app, exec_app.
  set (t1 := exec u t (commands_tokens u te (backend_draw te ups))).
  assert (Ehc : exec u t1 (commands_tokens u te [HideCursor]) = set_visible false t1) by reflexivity.
  rewrite Ehc.
  destruct (draw_exec u te t ups) as (cur & Ed).
  { apply (env_reset _ _ He). }
  { apply (fi_attr _ _ _ _ _ _ HI). }
  { intros p c Hpc. destruct (Hups p c Hpc) as [_ Hl].
    pose proof (disp_cell _ _ _ Db _ _ Hl) as Hc. split; [exact Hc|].
    destruct (fits_inside u te b p c Db Hl) as (F1 & F2 & F3). rewrite Ab in F1, F2, F3. unfold fits; cbn [fst snd]. lia. }
  { apply chain_pairs. intros p0 c0 p c [E|H0] H1 Er; [discriminate|]. now apply (Hch p0 c0 p c). }
  assert (Et1 : t1 = Term (t_w t) (t_h t) (fold_left (put u te) ups (t_cells t)) cur default_attr (t_visible t)) by exact Ed.
  clearbody t1. subst t1.
  assert (Hout : forall q, on t q -> ~ inside q (tm_area tm) -> fold_left (put u te) ups (t_cells t) q = t_cells t q).
  { intros q Hon Hq. apply (put_outside u te b Db ups (t_cells t) q).
    - intros p c Hpc. now apply Hups.
    - now rewrite Ab.
    - rewrite Ab. intros Hy. apply (fi_over _ _ _ _ _ _ HI q Hon Hq Hy). }
  exists tm2. eexists. exists b. split; [reflexivity|]. split; [reflexivity|]. split; [assumption|]. split; [assumption|].
  split; [reflexivity|]. split; [exact Hout|].
  constructor.
  - rewrite V2. apply (fi_view _ _ _ _ _ _ HI).
  - split; assumption.
  - rewrite A2. apply (fi_part _ _ _ _ _ _ HI).
  - rewrite C2, A2, reset_blank by apply Dp. now rewrite Ap.
  - rewrite P2, A2. split; [exact Db|congruence].
  - reflexivity.
  - rewrite P2. exact Hsh.
  - rewrite A2. intros q Hon Hq Hy. cbn [set_visible t_cells]. rewrite (Hout q Hon Hq). apply (fi_over _ _ _ _ _ _ HI q Hon Hq Hy).
Qed.

(** *** Clearing *)
Definition wipe (ys : list Z) : list command := flat_map (fun y => [MoveTo 0 y; ClearAfterCursor]) ys.

Lemma wipe_exec u te ys : forall t, t_attr t = default_attr -> 0 < t_w t -> (forall y, In y ys -> 0 <= y < t_h t) ->
  let t' := exec u t (commands_tokens u te (wipe ys)) in
  t_attr t' = default_attr /\
  (forall q, 0 <= px q -> (exists y, In y ys /\ y <= py q) -> t_cells t' q = erased default_attr) /\
  (forall q, (forall y, In y ys -> py q < y) -> t_cells t' q = t_cells t q).
Proof.
  induction ys as [|y ys IH]; intros t Ha Hw Hys; cbv zeta.
  - split; [exact Ha|]. split; [intros q _ (y & [] & _)|reflexivity].
  - unfold wipe. cbn [flat_map]. fold (wipe ys). rewrite commands_tokens_app, exec_app.
    set (t1 := exec u t (commands_tokens u te [MoveTo 0 y; ClearAfterCursor])).
    pose proof (Hys y (or_introl eq_refl)) as Hy.
    assert (E : t1 = erase_below (move_to t (Pos 0 y))).
    { unfold t1, commands_tokens. cbn [flat_map command_tokens command_ptoks app exec fold_left exec_token].
      unfold num1. cbn [nth pnum]. rewrite !Z2N.id by lia. rewrite !Z.max_r by lia. replace (0 + 1 - 1) with 0 by lia. now replace (y + 1 - 1) with y by lia. }
    assert (Em : move_to t (Pos 0 y) = Term (t_w t) (t_h t) (t_cells t) (Some (Pos 0 y)) (t_attr t) (t_visible t)).
    { unfold move_to, on_screen; cbn [px py]. replace ((0 <=? 0) && (0 <? t_w t) && (0 <=? y) && (y <? t_h t)) with true; [reflexivity|].
      symmetry. rewrite !andb_true_iff, !Z.leb_le, !Z.ltb_lt. lia. }
    rewrite Em in E. unfold erase_below, with_cells in E. cbn [t_cur t_w t_h t_cells t_attr t_visible px py] in E. rewrite Ha in E.
    destruct (IH t1) as (A & B & C).
    { rewrite E. reflexivity. }
    { rewrite E. exact Hw. }
    { intros y' Hy'. rewrite E. apply (Hys y'). now right. }
    split; [exact A|]. split.
    + intros q Hq (y' & [<-|Hin] & Hle).
      * destruct (in_dec Z.eq_dec y ys) as [Hi|Hn]; [apply B; eauto|].
        destruct (existsb (fun y' => y' <=? py q) ys) eqn:Ex.
        -- apply existsb_exists in Ex. destruct Ex as (y' & Hi & Hl). apply Z.leb_le in Hl. apply B; eauto.
        -- rewrite C.
           ++ rewrite E. cbn [t_cells]. replace ((y <? py q) || (y =? py q) && (0 <=? px q)) with true; [reflexivity|].
              symmetry. apply orb_true_iff. rewrite andb_true_iff, Z.ltb_lt, Z.eqb_eq, Z.leb_le. lia.
           ++ intros y' Hi. destruct (Z.ltb_spec (py q) y'); [assumption|]. exfalso.
              enough (existsb (fun y' => y' <=? py q) ys = true) by congruence. apply existsb_exists. exists y'. split; [assumption|]. now apply Z.leb_le.
      * apply B; eauto.
    + intros q Hq. rewrite C by (intros; apply Hq; now right). rewrite E. cbn [t_cells]. specialize (Hq y (or_introl eq_refl)).
      replace (y <? py q) with false by (symmetry; apply Z.ltb_ge; lia). replace (y =? py q) with false by (symmetry; apply Z.eqb_neq; lia).
      reflexivity.
Qed.

Lemma wipe_send u te t ys : uniseg_ok u -> (forall y, In y ys -> 0 <= y) ->
  send u te t (wipe ys) = Some (exec u t (commands_tokens u te (wipe ys))).
Proof.
  intros Hu Hy. apply send_no_print; [assumption| |].
  - intros s H. unfold wipe in H. apply in_flat_map in H. destruct H as (y & _ & [H|[H|[]]]); discriminate.
  - intros c H. unfold wipe in H. apply in_flat_map in H. destruct H as (y & Hin & [<-|[<-|[]]]); [cbn; specialize (Hy y Hin); lia|exact Logic.I].
Qed.

Lemma erased_part u te : env_ok u te -> forall q lo hi, px q < lo \/ hi <= px q ->
  exists s a k, erased default_attr = TPart s a k /\ (px q - k + cwidth u s <= lo \/ hi <= px q - k).
Proof.
  intros He q lo hi H. exists space. do 2 eexists. split; [reflexivity|]. destruct (env_space _ _ He) as [_ ->]. lia.
Qed.

(** Clearing a terminal whose buffers are already the size of its area. *)
Lemma fixed_wipe u te tm t W H r : env_ok u te -> tm_viewport tm = Fixed r -> t_w t = W -> t_h t = H -> 0 < W ->
  part_of (tm_area tm) W H -> current_buffer tm = blank (tm_area tm) ->
  wf_buffer (previous_buffer tm) -> barea (previous_buffer tm) = tm_area tm -> t_attr t = default_attr ->
  exists tm' t', perform u te (tm, t) Clear = Some (tm', t') /\ tm_area tm' = tm_area tm /\ previous_buffer tm' = blank (tm_area tm) /\
    (forall q, on t q -> 0 < rh (tm_area tm) -> ry (tm_area tm) <= py q -> t_cells t' q = erased default_attr) /\
    (forall q, py q < ry (tm_area tm) -> t_cells t' q = t_cells t q) /\
    fixed_inv u te tm' t' W H.
Proof.
  intros He Hv HW HH Wpos HP Hc Wp Ap Ha. cbn [perform]. unfold terminal_clear. rewrite Hv.
  fold (wipe (zrange (rtop (tm_area tm)) (rbottom (tm_area tm)))).
  set (ys := zrange (rtop (tm_area tm)) (rbottom (tm_area tm))).
  pose proof HP as (Q1 & Q2 & Q3 & Q4 & Q5 & Q6).
  assert (Hys : forall y, In y ys <-> ry (tm_area tm) <= y < ry (tm_area tm) + rh (tm_area tm)).
  { intros y. unfold ys, rtop, rbottom. now rewrite zrange_In. }
  rewrite wipe_send; [|apply (env_uniseg _ _ He)|intros y Hy; apply Hys in Hy; lia].
  cbn [option_map].
  destruct (wipe_exec u te ys t Ha ltac:(lia)) as (A & B & C); [intros y Hy; apply Hys in Hy; lia|].
  destruct (exec_size u (commands_tokens u te (wipe ys)) t) as [S1 S2].
  set (t' := exec u t (commands_tokens u te (wipe ys))) in *. clearbody t'.
  rewrite reset_blank by assumption. rewrite Ap.
  set (tm3 := set_previous tm (blank (tm_area tm))).
  assert (C3 : current_buffer tm3 = blank (tm_area tm)).
  { rewrite <- Hc. unfold tm3, set_previous, current_buffer. destruct (tm_current tm) eqn:E; cbn; rewrite ?E; reflexivity. }
  assert (P3 : previous_buffer tm3 = blank (tm_area tm)).
  { unfold tm3, set_previous, previous_buffer. destruct (tm_current tm) eqn:E; cbn; rewrite ?E; reflexivity. }
  assert (A3 : tm_area tm3 = tm_area tm) by (unfold tm3, set_previous; destruct (tm_current tm); reflexivity).
  assert (V3 : tm_viewport tm3 = Fixed r) by (rewrite <- Hv; unfold tm3, set_previous; destruct (tm_current tm); reflexivity).
  assert (Hwiped : forall q, on t q -> 0 < rh (tm_area tm) -> ry (tm_area tm) <= py q -> t_cells t' q = erased default_attr).
  { intros q [[Hq _] _] Hr Hy. apply B; [assumption|]. exists (ry (tm_area tm)). rewrite Hys. lia. }
  assert (Hkept : forall q, py q < ry (tm_area tm) -> t_cells t' q = t_cells t q).
  { intros q Hq. apply C. intros y Hy. apply Hys in Hy. lia. }
  exists tm3, t'. split; [reflexivity|]. split; [assumption|]. split; [assumption|].
  split; [exact Hwiped|]. split; [exact Hkept|].
  assert (Hs : sized (tm_area tm)) by (eapply part_sized; eassumption).
  constructor.
  - eauto.
  - split; congruence.
  - now rewrite A3.
  - now rewrite A3.
  - rewrite P3, A3. split; [now apply blank_displayable|reflexivity].
  - exact A.
  - rewrite P3. intros p Hp. cbn in Hp. pose proof Hp as [Hx Hy]. rewrite (blank_expected u te (tm_area tm) p He Hs Hp). apply Hwiped; [|lia|lia].
    unfold on. lia.
  - rewrite A3. intros q Hon Hq Hy. destruct Hon as [Hon1 Hon2]. rewrite S1 in Hon1. rewrite S2 in Hon2.
    rewrite Hwiped; [|split; assumption|lia|lia]. apply (erased_part u te He).
    destruct (Z.lt_ge_cases (px q) (rx (tm_area tm))) as [|G1]; [now left|].
    destruct (Z.lt_ge_cases (px q) (rx (tm_area tm) + rw (tm_area tm))) as [G2|]; [|now right]. exfalso. apply Hq. unfold inside. lia.
Qed.

Lemma fixed_clear u te tm t W H : env_ok u te -> 0 < W -> fixed_inv u te tm t W H ->
  exists tm' t', perform u te (tm, t) Clear = Some (tm', t') /\ tm_area tm' = tm_area tm /\ previous_buffer tm' = blank (tm_area tm) /\
    (forall q, on t q -> 0 < rh (tm_area tm) -> ry (tm_area tm) <= py q -> t_cells t' q = erased default_attr) /\
    (forall q, py q < ry (tm_area tm) -> t_cells t' q = t_cells t q) /\
    fixed_inv u te tm' t' W H.
Proof.
  intros He Wp HI. destruct (fi_view _ _ _ _ _ _ HI) as [r Hv]. destruct (fi_size _ _ _ _ _ _ HI) as [TW TH]. destruct (fi_prev _ _ _ _ _ _ HI) as [Dp Ap].
  apply (fixed_wipe u te tm t W H r He Hv TW TH Wp); try assumption; try apply HI; try apply Dp.
Qed.

Lemma fixed_resize u te tm t W H area : env_ok u te -> 0 < W -> fixed_inv u te tm t W H -> part_of area W H ->
  exists tm' t', perform u te (tm, t) (Resize area) = Some (tm', t') /\ tm_area tm' = area /\ previous_buffer tm' = blank area /\
    (forall q, on t q -> 0 < rh area -> ry area <= py q -> t_cells t' q = erased default_attr) /\
    (forall q, py q < ry area -> t_cells t' q = t_cells t q) /\
    fixed_inv u te tm' t' W H.
Proof.
  intros He Wp HI HP. destruct (fi_view _ _ _ _ _ _ HI) as [r Hv]. destruct (fi_size _ _ _ _ _ _ HI) as [TW TH].
  destruct (fi_prev _ _ _ _ _ _ HI) as [Dp Ap].
  assert (Hs : sized (tm_area tm)) by (eapply part_sized; apply HI). assert (Hsa : sized area) by (eapply part_sized; eassumption).
  cbn [perform]. unfold terminal_resize. rewrite Hv. rewrite (fi_current _ _ _ _ _ _ HI), (resize_blank _ area Hs Hsa). cbn [bind].
  set (tm1 := set_current tm (blank area)).
  assert (P1 : previous_buffer tm1 = previous_buffer tm) by (unfold tm1, set_current, previous_buffer; destruct (tm_current tm) eqn:E; cbn; now rewrite ?E).
  rewrite P1. destruct (resize_wf (previous_buffer tm) area (disp_wf _ _ _ Dp) Hsa) as (b' & Eb' & Wb' & Ab'). rewrite Eb'. cbn [bind].
  set (tm2 := Terminal _ _ _ _ _ _).
  assert (C2 : current_buffer tm2 = blank area).
  { unfold tm2, tm1, set_previous, set_current, current_buffer. destruct (tm_current tm) eqn:E; cbn; rewrite ?E; reflexivity. }
  assert (P2 : previous_buffer tm2 = b').
  { unfold tm2, tm1, set_previous, set_current, previous_buffer. destruct (tm_current tm) eqn:E; cbn; rewrite ?E; reflexivity. }
  assert (A2 : tm_area tm2 = area) by reflexivity.
  assert (V2 : tm_viewport tm2 = Fixed r).
  { rewrite <- Hv. unfold tm2, tm1, set_previous, set_current. destruct (tm_current tm) eqn:E; cbn; rewrite ?E; reflexivity. }
  clearbody tm2.
  destruct (fixed_wipe u te tm2 t W H r He V2 TW TH Wp) as (tm' & t' & E & A & P & X & Y & Z); rewrite ?A2; try assumption.
  - congruence.
  - congruence.
  - apply HI.
  - rewrite A2 in A, P, X, Y. exists tm', t'. split; [exact E|]. split; [assumption|]. split; [assumption|].
    split; [assumption|]. split; assumption.
Qed.

Lemma fixed_run u te l : env_ok u te -> forall tm t W H, 0 < W -> fixed_inv u te tm t W H ->
  (forall a, In a l -> match a with Draw w => good_anywhere u te w | Clear => True | Resize r => part_of r W H end) ->
  exists tm' t', perform_all u te (tm, t) l = Some (tm', t') /\ tm_area tm' = last_area (tm_area tm) l /\ fixed_inv u te tm' t' W H.
Proof.
  intros He. induction l as [|a l IH]; intros tm t W H Wp HI Hg; cbn [perform_all last_area].
  - eauto.
  - pose proof (Hg a (or_introl eq_refl)) as Ha. assert (Hg' : forall a, In a l -> match a with Draw w => good_anywhere u te w | Clear => True | Resize r => part_of r W H end) by (intros; apply Hg; now right).
    destruct a as [w| |r].
    + destruct (fixed_draw u te tm t W H w He HI Ha) as (tm' & t' & b & E & _ & _ & A & _ & _ & HI'). rewrite E.
      destruct (IH tm' t' W H Wp HI' Hg') as (tm2 & t2 & E2 & A2 & I2). rewrite E2. rewrite A in A2. eauto.
    + destruct (fixed_clear u te tm t W H He Wp HI) as (tm' & t' & E & A & _ & _ & _ & HI'). rewrite E.
      destruct (IH tm' t' W H Wp HI' Hg') as (tm2 & t2 & E2 & A2 & I2). rewrite E2. rewrite A in A2. eauto.
    + destruct (fixed_resize u te tm t W H r He Wp HI Ha) as (tm' & t' & E & A & _ & _ & _ & HI'). rewrite E.
      destruct (IH tm' t' W H Wp HI' Hg') as (tm2 & t2 & E2 & A2 & I2). rewrite E2. rewrite A in A2. eauto.
Qed.

Lemma fixed_start u te r t : env_ok u te -> t_attr t = default_attr -> part_of r (t_w t) (t_h t) -> blank_at t r -> no_overhang u t r ->
  exists tm, start_at r t = Some (tm, t) /\ tm_area tm = r /\ fixed_inv u te tm t (t_w t) (t_h t).
Proof.
  intros He Ha HP Hb Ho. pose proof (part_sized _ _ _ HP) as Hs. unfold start_at, new_terminal. rewrite (new_buffer_blank r Hs). cbn [bind].
  eexists. split; [reflexivity|]. split; [reflexivity|].
  constructor; cbn; auto.
  - eauto.
  - split; [now apply blank_displayable|reflexivity].
  - intros p Hp. rewrite (blank_expected u te r p He Hs Hp). now apply Hb.
Qed.
