(** Printing lines of characters of any visible width. *)
From Verif Require Import Base P_Base M_Geom S_Geom T_Geom M_Style M_Uniseg M_Buffer S_Buffer S_Text P_Buffer P_SetString T_Buffer M_Text P_Text T_Text P_Redraw P_Print S_Wide.
From Coq Require Import ZArith NArith List Bool Lia.
Import ListNotations.
Open Scope Z_scope.
Local Arguments zlen : simpl never.

(** What the columns of a character show: the character, then nothing. *)
Definition cols (u : uniseg) (st : style) (c : str) : list (cell -> cell) := show st c :: repeat (fun _ => empty_cell) (Z.to_nat (cwidth u c) - 1).
Definition span_cols (u : uniseg) (st : style) (s : span) : list (cell -> cell) := flat_map (cols u st) (clusters u (sp_content s)).
Definition line_cols (u : uniseg) (l : line) : list (cell -> cell) := flat_map (fun s => span_cols u (patched (ln_style l) (sp_style s)) s) (ln_spans l).
Definition line_clusters (u : uniseg) (l : line) : list str := flat_map (fun s => clusters u (sp_content s)) (ln_spans l).
Definition visible (u : uniseg) (l : list str) : Prop := forall c, In c l -> 1 <= cwidth u c.

Lemma visible_app u a b : visible u (a ++ b) <-> visible u a /\ visible u b.
Proof. unfold visible. split; [intros H; split; intros c I; apply H, in_or_app; auto|intros [H1 H2] c I; apply in_app_or in I; destruct I; auto]. Qed.
Lemma widths_app u a b : widths u (a ++ b) = widths u a + widths u b.
Proof. unfold widths. rewrite map_app. unfold zsum. induction (map (cwidth u) a) as [|z l IH]; cbn [app fold_right]; lia. Qed.
Lemma widths_nonneg u a : visible u a -> 0 <= widths u a.
Proof. intros V. unfold widths. apply zsum_nonneg. intros z Hz. apply in_map_iff in Hz. destruct Hz as (c & <- & I). specialize (V c I). lia. Qed.
Lemma cols_length u st l : visible u l -> zlen (flat_map (cols u st) l) = widths u l.
Proof.
  induction l as [|c l IH]; intros V; [reflexivity|]. cbn [flat_map]. unfold zlen. rewrite app_length. unfold zlen in IH. rewrite Nat2Z.inj_add, IH by (intros d I; apply V; now right).
  unfold widths. cbn [map]. rewrite zsum_cons. unfold cols. cbn [length]. rewrite repeat_length. specialize (V c (or_introl eq_refl)). lia.
Qed.
Lemma line_cols_length u l : visible u (line_clusters u l) -> zlen (line_cols u l) = widths u (line_clusters u l).
Proof.
  unfold line_cols, line_clusters. induction (ln_spans l) as [|s r IH]; intros V; [reflexivity|]. cbn [flat_map] in *. apply visible_app in V. destruct V as [V1 V2].
  unfold zlen in *. rewrite app_length, Nat2Z.inj_add, IH by exact V2. rewrite widths_app. f_equal. unfold span_cols. fold (zlen (flat_map (cols u (patched (ln_style l) (sp_style s))) (clusters u (sp_content s)))). now apply cols_length.
Qed.
Lemma glyph_cols u st l : visible u l -> forall o, 0 <= o -> nth_error (flat_map (cols u st) l) (Z.to_nat o) =
  option_map (fun g => match g with Head c => show st c | Tail => fun _ => empty_cell end) (glyph_at (cwidth u) l o).
Proof.
  induction l as [|c l IH]; intros V o Ho; cbn [glyph_at flat_map]; [now destruct (Z.to_nat o)|].
  destruct (Z.ltb_spec o 0); [lia|]. destruct (Z.eqb_spec o 0) as [->|]; [reflexivity|].
  assert (Hc : 1 <= cwidth u c) by (apply V; now left).
  assert (Lc : length (cols u st c) = Z.to_nat (cwidth u c)) by (unfold cols; cbn [length]; rewrite repeat_length; lia).
  destruct (Z.ltb_spec o (cwidth u c)).
  - rewrite nth_error_app1 by lia. unfold cols. replace (Z.to_nat o) with (S (Z.to_nat (o - 1))) by lia. cbn [nth_error].
    rewrite nth_error_nth' with (d := fun _ => empty_cell) by (rewrite repeat_length; lia). cbn [option_map]. f_equal.
    apply (repeat_spec (Z.to_nat (cwidth u c) - 1)%nat). apply nth_In. rewrite repeat_length. lia.
  - rewrite nth_error_app2 by lia. rewrite Lc. replace (Z.to_nat o - Z.to_nat (cwidth u c))%nat with (Z.to_nat (o - cwidth u c)) by lia.
    apply IH; [intros d I; apply V; now right|lia].
Qed.

(** No character lies across column [n]. *)
Lemma firstn_cols_len u st l n : visible u l -> 0 <= n -> zlen (firstn (Z.to_nat n) (flat_map (cols u st) l)) = Z.min n (widths u l).
Proof. intros V Hn. rewrite <- (cols_length u st l V). unfold zlen. rewrite firstn_length. lia. Qed.
Lemma cut_narrow u l n : (forall c, In c l -> cwidth u c = 1) -> 0 <= n -> clean_cut u l n.
Proof.
  intros H Hn. exists (firstn (Z.to_nat n) l), (skipn (Z.to_nat n) l). split; [symmetry; apply firstn_skipn|].
  assert (W : widths u (firstn (Z.to_nat n) l) = zlen (firstn (Z.to_nat n) l)).
  { apply widths_narrow. intros c I. apply H. rewrite <- (firstn_skipn (Z.to_nat n)). apply in_or_app. now left. }
  rewrite W. unfold zlen. rewrite firstn_length. split; [lia|]. destruct (Nat.le_gt_cases (length l) (Z.to_nat n)); [left; now apply skipn_all2|right; lia].
Qed.
Lemma cut_all u l n : widths u l <= n -> clean_cut u l n.
Proof. intros H. exists l, []. rewrite app_nil_r. auto. Qed.
Lemma cut_app u a b n : visible u (a ++ b) -> 0 <= n -> clean_cut u (a ++ b) n -> clean_cut u a n /\ clean_cut u b (n - Z.min n (widths u a)).
Proof.
  intros V Hn (p & q & E & L & O). apply visible_app in V. destruct V as [Va Vb].
  assert (K : (exists l, a = p ++ l /\ q = l ++ b) \/ (exists l, p = a ++ l /\ b = l ++ q)).
  { clear - E. revert p q E. induction a as [|x a IH]; intros p q E; [right; exists p; auto|]. destruct p as [|y p]; [left; exists (x :: a); auto|].
    cbn in E. injection E as <- E. destruct (IH p q E) as [(l & -> & ->)|(l & -> & ->)]; [left|right]; exists l; auto. }
  destruct K as [(l & -> & ->)|(l & -> & ->)].
  - apply visible_app in Va. destruct Va as [Vp Vl]. pose proof (widths_nonneg u l Vl). rewrite widths_app. destruct O as [O|O].
    + apply app_eq_nil in O. destruct O as [-> ->]. split; [exists p, []; auto|]. exists [], []. split; [reflexivity|]. split; [|auto]. unfold widths at 1. cbn. lia.
    + split; [exists p, l; auto|]. rewrite Z.min_l by lia. exists [], b. split; [reflexivity|]. unfold widths. cbn. split; [lia|right; lia].
  - apply visible_app in Vb. destruct Vb as [Vl Vq]. pose proof (widths_nonneg u l Vl). rewrite widths_app in *. pose proof (widths_nonneg u a Va).
    split; [exists a, []; rewrite app_nil_r; split; [reflexivity|]; split; [lia|auto]|].
    rewrite Z.min_r by lia. exists l, q. split; [reflexivity|]. split; [lia|]. destruct O; [auto|right; lia].
Qed.

Lemma set_string_wide u b x y s n st : wf_buffer b -> inside (Pos x y) (barea b) -> 0 < n -> x + n <= rx (barea b) + rw (barea b) ->
  visible u (clusters u s) -> clean_cut u (clusters u s) n ->
  let fs := firstn (Z.to_nat n) (flat_map (cols u st) (clusters u s)) in
  exists b', set_string_n u b x y s n st = Ret (b', (x + zlen fs, y)) /\ redrawn (typed x y fs) b b'.
Proof.
  intros W I Hn Hx V (pre & post & Es & Hle & Hor) fs.
  assert (Vp : visible u pre) by (rewrite Es in V; now apply visible_app in V).
  destruct (C11_set_string_n_partial u b x y s n st pre post W I Es Vp ltac:(lia) ltac:(destruct Hor; [auto|right; lia])) as (b' & E & A & W' & L1 & L3 & L2).
  assert (Ef : fs = flat_map (cols u st) pre).
  { unfold fs. rewrite Es, flat_map_app, firstn_app. pose proof (cols_length u st pre Vp) as Lp. unfold zlen in Lp.
    rewrite firstn_all2 by lia. destruct Hor as [-> | Hor]; [cbn [flat_map]; now rewrite firstn_nil, app_nil_r|].
    replace (Z.to_nat n - _)%nat with 0%nat by lia. cbn [firstn]. apply app_nil_r. }
  rewrite Ef, cols_length by exact Vp. exists b'. split; [exact E|]. split; [exact A|]. split; [exact W'|]. intros [a r]. unfold typed. cbn [px py].
  destruct (Z.eqb_spec r y) as [->|]; cbn [andb]; [|rewrite L2; [now destruct (look b (Pos a r))|cbn [px py]; lia]].
  destruct (Z.leb_spec x a); [|rewrite L2; [now destruct (look b (Pos a y))|cbn [px py]; lia]].
  rewrite glyph_cols by (auto; lia). destruct (glyph_at (cwidth u) pre (a - x)) as [[c|]|] eqn:G; cbn [option_map].
  - assert (Hin : 0 <= a - x < widths u pre).
    { destruct (Z_lt_dec (a - x) (widths u pre)); [lia|]. rewrite (proj2 (glyph_at_none (cwidth u) pre (a - x) Vp)) in G; [discriminate|]. fold (widths u pre). lia. }
    destruct (look_inside b (Pos a y) W) as (c0 & E0); [unfold inside in *; cbn [px py] in *; lia|]. rewrite E0. cbn [option_map].
    specialize (L1 (a - x) c0 c ltac:(lia)). replace (x + (a - x)) with a in L1 by lia. now apply L1.
  - assert (Hin : 0 <= a - x < widths u pre).
    { destruct (Z_lt_dec (a - x) (widths u pre)); [lia|]. rewrite (proj2 (glyph_at_none (cwidth u) pre (a - x) Vp)) in G; [discriminate|]. fold (widths u pre). lia. }
    destruct (look_inside b (Pos a y) W) as (c0 & E0); [unfold inside in *; cbn [px py] in *; lia|]. rewrite E0. cbn [option_map].
    specialize (L3 (a - x) G). now replace (x + (a - x)) with a in L3 by lia.
  - rewrite L2; [now destruct (look b (Pos a y))|]. cbn [px py]. apply (glyph_at_none (cwidth u) pre (a - x) Vp) in G. fold (widths u pre) in G. lia.
Qed.

Lemma line_print_wide u y right l : forall spans b x n, wf_buffer b -> right <= rx (barea b) + rw (barea b) ->
  rx (barea b) <= x -> ry (barea b) <= y < ry (barea b) + rh (barea b) -> 0 <= n -> x + n <= right ->
  visible u (flat_map (fun s => clusters u (sp_content s)) spans) -> clean_cut u (flat_map (fun s => clusters u (sp_content s)) spans) n ->
  let fs := firstn (Z.to_nat n) (flat_map (fun s => span_cols u (patched l (sp_style s)) s) spans) in
  exists b', line_print_loop u l spans b x y n = Ret (b', (x + zlen fs, y)) /\ redrawn (typed x y fs) b b'.
Proof.
  induction spans as [|s spans IH]; intros b x n W Hr Hx Hy Hn Hxn V F fs.
  - exists b. cbn [line_print_loop flat_map] in *. unfold fs. cbn [flat_map]. rewrite firstn_nil. change (zlen (@nil (cell -> cell))) with 0. rewrite Z.add_0_r. split; [reflexivity|].
    eapply redrawn_ext; [|apply redrawn_refl; exact W]. intros. now rewrite typed_nil.
  - cbn [line_print_loop]. destruct (Z.eqb_spec n 0) as [->|Hn0].
    + exists b. unfold fs. cbn [Z.to_nat firstn]. change (zlen (@nil (cell -> cell))) with 0. rewrite Z.add_0_r. split; [reflexivity|].
      eapply redrawn_ext; [|apply redrawn_refl; exact W]. intros. now rewrite typed_nil.
    + assert (I : inside (Pos x y) (barea b)) by (unfold inside; cbn [px py]; lia).
      cbn [flat_map] in V, F. destruct (cut_app u _ _ n V Hn F) as [F1 F2]. apply visible_app in V. destruct V as [V1 V2].
      destruct (set_string_wide u b x y (sp_content s) n (patched l (sp_style s)) W I ltac:(lia) ltac:(lia) V1 F1) as (b1 & E1 & R1).
      rewrite E1. cbn [bind]. pose proof (firstn_cols_len u (patched l (sp_style s)) (clusters u (sp_content s)) n V1 Hn) as Lf.
      set (f1 := firstn (Z.to_nat n) (flat_map (cols u (patched l (sp_style s))) (clusters u (sp_content s)))) in *.
      pose proof (zlen_nonneg f1). assert (Hf1 : zlen f1 <= n) by lia. rewrite <- Lf in F2.
      replace (Z.max 0 (n - Z.max 0 (x + zlen f1 - x))) with (n - zlen f1) by lia.
      destruct (IH b1 (x + zlen f1) (n - zlen f1) (redrawn_wf _ _ _ R1)) as (b2 & E2 & R2); try rewrite (redrawn_area _ _ _ R1); try lia; auto.
      set (f2 := firstn (Z.to_nat (n - zlen f1)) (flat_map (fun s => span_cols u (patched l (sp_style s)) s) spans)) in *.
      assert (Ef : fs = f1 ++ f2).
      { unfold fs, f2, f1. cbn [flat_map]. unfold span_cols at 1. rewrite firstn_app. f_equal. f_equal.
        unfold zlen. rewrite firstn_length. set (m := length (flat_map _ _)). lia. }
      exists b2. rewrite E2, Ef. unfold zlen. rewrite app_length. split; [do 3 f_equal; lia|].
      eapply redrawn_ext; [|exact (redrawn_trans _ _ _ _ _ R1 R2)]. intros p c _. cbn beta. apply typed_app.
Qed.
