(** Theorems about text: C17-C20. *)
From Verif Require Import Base M_Geom S_Geom M_Style M_Uniseg M_Buffer S_Buffer S_Text M_Text S_Line P_Base T_Geom P_Buffer P_SetString P_Text.
From Coq Require Import ZArith NArith List Bool Lia.
Import ListNotations.
Open Scope Z_scope.

Lemma stable_any (P : cell -> Prop) sym : (forall c, P c) -> stable P sym.
Proof. intros H. split; intros; apply H. Qed.

(** ** C17 *)
Theorem C17_span_stays_inside u s area b : uniseg_ok u -> wf_buffer b ->
  exists b', span_render u s area b = Ret b' /\ changed_only (fun p => inside p area /\ inside p (barea b)) b b'.
Proof.
  intros Hu W. destruct (span_render_ok u s (fun _ => True) area b (cwidth_nonneg _ Hu)) as (b' & E & K); auto.
  - intros; now apply stable_any.
  - exists b'. split; [exact E|apply K].
Qed.
Theorem C17_line_stays_inside u l area b al : uniseg_ok u -> wf_buffer b ->
  exists b', line_render_with u l area b al = Ret b' /\ changed_only (fun p => inside p area /\ inside p (barea b)) b b'.
Proof.
  intros Hu W. destruct (line_render_ok u l (fun _ => True) area b al Hu) as (b' & E & K); auto.
  - intros; now apply stable_any.
  - exists b'. split; [exact E|apply K].
Qed.
Theorem C17_text_stays_inside u t area b : uniseg_ok u -> wf_buffer b ->
  exists b', text_render u t area b = Ret b' /\ changed_only (fun p => inside p area /\ inside p (barea b)) b b'.
Proof.
  intros Hu W. destruct (text_render_ok u t (fun _ => True) area b Hu) as (b' & E & K); auto.
  - intros; now apply stable_any.
  - exists b'. split; [exact E|apply K].
Qed.
Print Assumptions C17_span_stays_inside.
Print Assumptions C17_line_stays_inside.
Print Assumptions C17_text_stays_inside.

Definition demo_buffer (w h : Z) : buffer := Buf (Rect 0 0 w h) (repeat empty_cell (Z.to_nat (w * h))).
Definition symbols (b : buffer) : list str := map csym (bcells b).
Definition rendered (m : outcome buffer) : list str := match m with Ret b => symbols b | Panic => [] end.

(** An area half outside the buffer, a wide cluster that does not fit, a zero-width one. *)
Example C17_instance : uniseg_ok simple_uniseg /\ wf_buffer (demo_buffer 4 1) /\
  rendered (text_render simple_uniseg (new_text [new_line [new_span [97; 8203; 19990; 19990]%N]]) (Rect 0 0 9 9) (demo_buffer 4 1))
  = [[97; 8203]%N; [19990]%N; space; space].
Proof. split; [apply simple_uniseg_ok|]. split; [split; [split; cbn; lia|reflexivity]|]. vm_compute. reflexivity. Qed.

(** ** C18 *)
Lemma visible_of u spans : uniseg_ok u -> visible_line u spans -> visible u (line_cells u spans).
Proof.
  intros Hu H c st Hc. unfold line_cells in Hc. apply in_flat_map in Hc. destruct Hc as (s & Hs & Hc). unfold span_cells in Hc.
  apply in_map_iff in Hc. destruct Hc as (c' & E & Hc). injection E as <- <-. destruct (H s c' Hs Hc) as [H1 H2]. split; [auto|]. split; [auto|].
  apply in_split in Hc. destruct Hc as (l1 & l2 & E). pose proof (clusters_sub _ Hu (sp_content s) l1 [c'] l2 E) as X. cbn in X. rewrite app_nil_r in X.
  unfold string_width. rewrite X. cbn. lia.
Qed.

Lemma line_cells_width u l : cells_width u (line_cells u (ln_spans l)) = line_width u l.
Proof.
  unfold line_width. induction (ln_spans l) as [|s spans IH]; [reflexivity|]. cbn [map line_cells flat_map].
  rewrite cells_width_app, span_cells_width. unfold line_cells in IH. rewrite IH. reflexivity.
Qed.

(** The complete description of what rendering a line does: [A] is the visible part of the area. The cells of its first row
    show the line, placed at [start_column] and cut at the edges; every other cell is unchanged. *)
Theorem C18_line_placement u l area b al : uniseg_ok u -> wf_buffer b -> visible_line u (ln_spans l) ->
  let A := intersection area (barea b) in
  let lw := line_width u l in
  0 < rw A -> 0 < rh A -> 0 < lw ->
  exists b', line_render_with u l area b al = Ret b' /\ barea b' = barea b /\
    (forall p, py p = ry A -> rx A <= px p < rx A + rw A ->
       look b' p = option_map (fun c => paint (seen (cwidth u) (line_cells u (ln_spans l)) (rw A) (start_column (effective (ln_align l) al) (rw A) lw) (px p - rx A))
                                              (if px p - rx A <? Z.min (rw A) lw then cell_set_style (ln_style l) c else c)) (look b p)) /\
    (forall p, ~ (py p = ry A /\ rx A <= px p < rx A + rw A) -> look b' p = look b p).
Proof.
  intros Hu W Hv A lw Hw Hh Hlw. pose proof (visible_of u _ Hu Hv) as V. unfold line_render_with. fold A. cbv zeta.
  replace (rect_is_empty A) with false by (symmetry; unfold rect_is_empty; apply orb_false_iff; rewrite !Z.eqb_neq; lia).
  fold lw. replace (lw =? 0) with false by (symmetry; apply Z.eqb_neq; lia).
  pose proof (within_intersection area (barea b) Hw Hh) as Hin. fold A in Hin. clearbody A lw.
  set (A1 := Rect (rx A) (ry A) (rw A) 1). change (rw A1) with (rw A).
  destruct (set_style_spec b (with_width A1 (Z.min (rw A) lw)) (ln_style l) W) as (b1 & E1 & (Ar1 & W1 & C1 & D1)).
  rewrite E1. cbn [bind]. assert (Hin1 : within A1 (barea b1)) by (rewrite Ar1; unfold within, A1 in *; cbn; lia).
  assert (S1 : forall p, py p = ry A -> rx A <= px p < rx A + rw A ->
     look b1 p = option_map (fun c => if px p - rx A <? Z.min (rw A) lw then cell_set_style (ln_style l) c else c) (look b p)).
  { intros p Hy Hx. destruct (Z.ltb_spec (px p - rx A) (Z.min (rw A) lw)) as [Hlt|Hge].
    - rewrite C1; [reflexivity|]. unfold within, inside, with_width, A1 in *; cbn. lia.
    - rewrite D1; [destruct (look b p); reflexivity|]. unfold inside, with_width, A1; cbn. lia. }
  assert (S2 : forall p, ~ (py p = ry A /\ rx A <= px p < rx A + rw A) -> look b1 p = look b p).
  { intros p Hp. apply D1. unfold inside, with_width, A1; cbn. lia. }
  assert (Fin : forall off b2, (forall p, look b2 p = if (py p =? ry A) && ((rx A <=? px p) && (px p <? rx A + rw A))
                then option_map (paint (seen (cwidth u) (line_cells u (ln_spans l)) (rw A) off (px p - rx A))) (look b1 p) else look b1 p) ->
     (forall p, py p = ry A -> rx A <= px p < rx A + rw A ->
       look b2 p = option_map (fun c => paint (seen (cwidth u) (line_cells u (ln_spans l)) (rw A) off (px p - rx A))
                                              (if px p - rx A <? Z.min (rw A) lw then cell_set_style (ln_style l) c else c)) (look b p)) /\
    (forall p, ~ (py p = ry A /\ rx A <= px p < rx A + rw A) -> look b2 p = look b p)).
  { intros off b2 L. split; intros p.
    - intros Hy Hx. rewrite L. replace (py p =? ry A) with true by (symmetry; now apply Z.eqb_eq).
      replace (rx A <=? px p) with true by (symmetry; apply Z.leb_le; lia). replace (px p <? rx A + rw A) with true by (symmetry; apply Z.ltb_lt; lia). cbn [andb].
      rewrite S1 by auto. destruct (look b p); reflexivity.
    - intros Hp. rewrite L. rewrite <- S2 by auto. destruct (_ && _) eqn:Eb; [|reflexivity]. exfalso. apply Hp.
      rewrite !andb_true_iff, Z.eqb_eq, Z.leb_le, Z.ltb_lt in Eb. lia. }
  change (match ln_align l with AlignNone => al | AlignLeft => AlignLeft | AlignCenter => AlignCenter | AlignRight => AlignRight end) with (match ln_align l with AlignNone => al | a => a end).
  replace (match ln_align l with AlignNone => al | a => a end) with (effective (ln_align l) al) by (destruct (ln_align l); reflexivity).
  set (e := effective (ln_align l) al).
  destruct (Z.leb_spec lw (rw A)) as [Hfit|Hcut].
  - match goal with |- context [indent_x A1 ?i] => set (ind := i); assert (Ei : ind = start_column e (rw A) lw) end.
    { unfold ind, start_column. replace (lw <=? rw A) with true by (symmetry; apply Z.leb_le; lia). destruct e; try lia.
      rewrite Z.max_r by lia. rewrite Z.quot_div_nonneg by lia. reflexivity. }
    assert (Hi : 0 <= ind <= rw A - lw).
    { rewrite Ei. unfold start_column. destruct e; try lia. replace (lw <=? rw A) with true by (symmetry; apply Z.leb_le; lia).
      split; [apply Z.div_pos; lia|]. apply Z.div_le_upper_bound; lia. }
    destruct (render_spans_seen u (ln_spans l) (indent_x A1 ind) b1 0 Hu V) as (b2 & E2 & Ar2 & W2 & L2); auto; try lia.
    { unfold A1, indent_x; cbn; lia. } { unfold A1, indent_x; cbn; lia. } { unfold within, A1, indent_x in *; cbn in *; lia. }
    exists b2. split; [exact E2|]. split; [congruence|]. rewrite <- Ei. apply Fin. intros p. rewrite L2. unfold indent_x, rright, A1; cbn [rx ry rw rh].
    rewrite Z.max_r by lia. replace (rx A + ind + (rw A - ind)) with (rx A + rw A) by lia.
    destruct (Z.eqb_spec (py p) (ry A)); cbn [andb]; [|reflexivity]. destruct (Z.ltb_spec (px p) (rx A + rw A)); [|rewrite !andb_false_r; reflexivity].
    rewrite !andb_true_r.
    rewrite <- (seen_shift (cwidth u) (line_cells u (ln_spans l)) (rw A - ind) ind (- 0)); try lia.
    2: { intros c st H'. now apply (V c st). }
    replace (rw A - ind + ind) with (rw A) by lia. replace (px p - (rx A + ind) + ind) with (px p - rx A) by lia. replace (-0 + ind) with ind by lia.
    destruct (Z.leb_spec (rx A + ind) (px p)).
    + replace (rx A <=? px p) with true by (symmetry; apply Z.leb_le; lia). reflexivity.
    + rewrite seen_out; [|intros c st H'; now apply (V c st)|lia]. destruct (rx A <=? px p); [|reflexivity]. destruct (look b1 p); reflexivity.
  - match goal with |- context [render_spans u _ A1 b1 ?i] => set (sk := i); assert (Ei : - sk = start_column e (rw A) lw) end.
    { unfold sk, start_column. replace (lw <=? rw A) with false by (symmetry; apply Z.leb_gt; lia). destruct e; try lia.
      rewrite Z.max_r by lia. rewrite Z.quot_div_nonneg by lia. reflexivity. }
    assert (Hi : 0 <= sk). { unfold sk. destruct e; try lia. apply Z.quot_pos; lia. }
    destruct (render_spans_seen u (ln_spans l) A1 b1 sk Hu V) as (b2 & E2 & Ar2 & W2 & L2); auto; try (unfold A1; cbn; lia).
    exists b2. split; [exact E2|]. split; [congruence|]. rewrite <- Ei. apply Fin. intros p. rewrite L2. reflexivity.
Qed.
Print Assumptions C18_line_placement.

(** Reading the description: the cluster [c] of a line [l1 ++ (c, st) :: l2] is shown where it should be if it fits the window. *)
Lemma seen_here u l1 c st l2 W off : visible u (l1 ++ (c, st) :: l2) ->
  0 <= off + cells_width u l1 -> off + cells_width u l1 + cwidth u c <= W ->
  seen (cwidth u) (l1 ++ (c, st) :: l2) W off (off + cells_width u l1) = Some (HeadOf c st).
Proof.
  intros V H1 H2. apply visible_app in V. destruct V as [V1 V2]. rewrite seen_skip by (auto; lia). cbn [seen].
  destruct (V2 c st (or_introl eq_refl)) as (Hc & _).
  rewrite Z.leb_refl. replace (_ <? _) with true by (symmetry; apply Z.ltb_lt; lia). cbn [andb].
  replace (0 <=? _) with true by (symmetry; apply Z.leb_le; lia). replace (_ <=? W) with true by (symmetry; apply Z.leb_le; lia). cbn [andb].
  now rewrite Z.eqb_refl.
Qed.

(** A line that fits is drawn completely, indented as its alignment asks; a longer one shows exactly the clusters inside the window. *)
Theorem C18_clusters_shown u l area b al l1 c st l2 : uniseg_ok u -> wf_buffer b -> visible_line u (ln_spans l) ->
  let A := intersection area (barea b) in
  let lw := line_width u l in
  let start := start_column (effective (ln_align l) al) (rw A) lw + cells_width u l1 in
  0 < rw A -> 0 < rh A -> line_cells u (ln_spans l) = l1 ++ (c, st) :: l2 ->
  (* inside the window: always so when the whole line fits *)
  (lw <= rw A \/ (0 <= start /\ start + cwidth u c <= rw A)) ->
  exists b' cell, line_render_with u l area b al = Ret b' /\ look b' (Pos (rx A + start) (ry A)) = Some cell /\ csym cell = c /\
    0 <= start /\ start + cwidth u c <= rw A.
Proof.
  intros Hu W Hv A lw start Hw Hh El Hin. pose proof (visible_of u _ Hu Hv) as V.
  assert (Hlw : cells_width u (l1 ++ (c, st) :: l2) = lw) by (rewrite <- El; apply line_cells_width).
  rewrite El in V. pose proof V as V'. apply visible_app in V'. destruct V' as [V1 V2].
  pose proof (cells_width_nonneg u l1 V1) as N1. rewrite cells_width_app in Hlw.
  assert (V3 : visible u l2) by (intros x y H; apply (V2 x y); now right). pose proof (cells_width_nonneg u l2 V3) as N2.
  assert (Ec : cells_width u ((c, st) :: l2) = cwidth u c + cells_width u l2) by reflexivity. rewrite Ec in Hlw.
  destruct (V2 c st (or_introl eq_refl)) as (Hc & _).
  assert (Hok : 0 <= start /\ start + cwidth u c <= rw A).
  { destruct Hin as [Hf|Hf]; [|exact Hf]. unfold start, start_column. destruct (effective _ _); try lia.
    replace (lw <=? rw A) with true by (symmetry; apply Z.leb_le; lia).
    pose proof (Z.div_pos (rw A - lw) 2 ltac:(lia) ltac:(lia)). pose proof (Z.div_le_upper_bound (rw A - lw) 2 (rw A - lw) ltac:(lia) ltac:(lia)). lia. }
  destruct (C18_line_placement u l area b al Hu W Hv) as (b' & E & Ar & L & _); fold A; fold lw; auto; try lia. fold A in L. fold lw in L.
  assert (Ib : inside (Pos (rx A + start) (ry A)) (barea b)).
  { pose proof (within_intersection area (barea b) Hw Hh) as X. fold A in X. unfold within, inside in *; cbn [px py]. lia. }
  destruct (look_inside b _ W Ib) as [c0 Hc0].
  specialize (L (Pos (rx A + start) (ry A)) eq_refl). cbn [px py] in L. rewrite Hc0 in L. cbn [option_map] in L.
  eexists b', _. split; [exact E|]. split; [apply L; lia|]. split; [|exact Hok].
  replace (rx A + start - rx A) with start by lia. rewrite El. unfold start. rewrite seen_here; auto; try (unfold start in Hok; lia).
Qed.
Print Assumptions C18_clusters_shown.

(** The line's style covers the drawn text of lines that start at the left edge. *)
Theorem C18_left_style u l area b al l1 c st l2 : uniseg_ok u -> wf_buffer b -> visible_line u (ln_spans l) ->
  let A := intersection area (barea b) in
  effective (ln_align l) al = AlignNone \/ effective (ln_align l) al = AlignLeft ->
  0 < rw A -> 0 < rh A -> line_cells u (ln_spans l) = l1 ++ (c, st) :: l2 -> cells_width u l1 + cwidth u c <= rw A ->
  exists b' before, line_render_with u l area b al = Ret b' /\
    look b (Pos (rx A + cells_width u l1) (ry A)) = Some before /\
    look b' (Pos (rx A + cells_width u l1) (ry A)) = Some (cell_set_style st (cell_set_symbol c (cell_set_style (ln_style l) before))).
Proof.
  intros Hu W Hv A Hal Hw Hh El Hfit. pose proof (visible_of u _ Hu Hv) as V.
  assert (Hlw : cells_width u (l1 ++ (c, st) :: l2) = line_width u l) by (rewrite <- El; apply line_cells_width).
  rewrite El in V. pose proof V as V'. apply visible_app in V'. destruct V' as [V1 V2].
  pose proof (cells_width_nonneg u l1 V1) as N1. rewrite cells_width_app in Hlw.
  assert (V3 : visible u l2) by (intros x y H; apply (V2 x y); now right). pose proof (cells_width_nonneg u l2 V3) as N2.
  assert (Ec : cells_width u ((c, st) :: l2) = cwidth u c + cells_width u l2) by reflexivity. rewrite Ec in Hlw.
  destruct (V2 c st (or_introl eq_refl)) as (Hc & _).
  destruct (C18_line_placement u l area b al Hu W Hv) as (b' & E & Ar & L & _); fold A; auto; try lia. fold A in L.
  assert (Ib : inside (Pos (rx A + cells_width u l1) (ry A)) (barea b)).
  { pose proof (within_intersection area (barea b) Hw Hh) as X. fold A in X. unfold within, inside in *; cbn [px py]. lia. }
  destruct (look_inside b _ W Ib) as [c0 Hc0]. exists b', c0. split; [exact E|]. split; [exact Hc0|].
  specialize (L (Pos (rx A + cells_width u l1) (ry A)) eq_refl). cbn [px py] in L. rewrite Hc0 in L. cbn [option_map] in L. rewrite L by lia.
  replace (rx A + cells_width u l1 - rx A) with (cells_width u l1) by lia.
  replace (cells_width u l1 <? Z.min (rw A) (line_width u l)) with true by (symmetry; apply Z.ltb_lt; lia).
  replace (start_column _ _ _) with 0 by (unfold start_column; destruct Hal as [-> | ->]; reflexivity).
  rewrite El. pose proof (seen_here u l1 c st l2 (rw A) 0 V) as X. cbn [Z.add] in X. rewrite X by lia. reflexivity.
Qed.
Print Assumptions C18_left_style.

(** For right-aligned and centred lines it does not: the style is applied to the leftmost cells instead. *)
Definition bg_line := Line (with_background new_style (Some (ColAnsi 4%N))) [new_span [97%N]] AlignRight.
Theorem C18_line_style_refuted : exists b', line_render_with simple_uniseg bg_line (Rect 0 0 3 1) (demo_buffer 3 1) AlignNone = Ret b' /\
  map csym (bcells b') = [space; space; [97%N]] /\
  map cbg (bcells b') = [Some (ColAnsi 4%N); Some ColReset; Some ColReset].
Proof. eexists. split; [vm_compute; reflexivity|]. split; reflexivity. Qed.

(** A zero-width cluster at the start of a span that is cut on the left makes the whole span disappear. *)
Theorem C18_zero_width_refuted : 
  rendered (line_render_with simple_uniseg (Line new_style [new_span [8203; 97; 98; 99]%N] AlignRight) (Rect 0 0 2 1) (demo_buffer 2 1) AlignNone) = [space; space] /\
  rendered (line_render_with simple_uniseg (Line new_style [new_span [97; 98; 99]%N] AlignRight) (Rect 0 0 2 1) (demo_buffer 2 1) AlignNone) = [[98%N]; [99%N]].
Proof. split; vm_compute; reflexivity. Qed.
Print Assumptions C18_line_style_refuted.

Definition demo_line := Line new_style [new_span [97; 98]%N; new_span [19990; 99]%N] AlignCenter.
Example C18_instance : uniseg_ok simple_uniseg /\ visible_line simple_uniseg (ln_spans demo_line) /\ line_width simple_uniseg demo_line = 5 /\
  rendered (line_render simple_uniseg demo_line (Rect 0 0 8 1) (demo_buffer 8 1)) = [space; [97%N]; [98%N]; [19990%N]; space; [99%N]; space; space] /\
  rendered (line_render simple_uniseg demo_line (Rect 0 0 3 1) (demo_buffer 3 1)) = [[98%N]; [19990%N]; space].
Proof.
  split; [apply simple_uniseg_ok|]. split.
  { intros s c [<-|[<-|[]]] H; cbn in H; repeat (destruct H as [<-|H]; [split; [vm_compute; congruence|reflexivity]|]); destruct H. }
  split; [reflexivity|]. split; vm_compute; reflexivity.
Qed.

(** ** C19 *)
(** No C0 control, DEL or C1 control. *)
Definition no_control (s : str) : Prop := forall r, In r s -> (32 <= r < 127 \/ 160 <= r)%N.

Lemma is_control_spec r : is_control r = false <-> (32 <= r < 127 \/ 160 <= r)%N.
Proof.
  unfold is_control. destruct (N.ltb_spec r 32), (N.leb_spec 127 r), (N.ltb_spec r 160); cbn; split; try discriminate; try reflexivity; lia.
Qed.
Lemma no_control_spec s : existsb is_control s = false <-> no_control s.
Proof.
  unfold no_control. induction s as [|r s IH]; cbn [existsb]; [split; [intros _ r []|reflexivity]|]. rewrite orb_false_iff, IH, is_control_spec. split.
  - intros [H1 H2] x [<-|Hx]; auto.
  - intros H. split; [apply H; now left|]. intros x Hx. apply H. now right.
Qed.

Lemma stable_no_control sym : existsb is_control sym = false -> stable (fun c => no_control (csym c)) sym.
Proof.
  intros H. apply no_control_spec in H. split; intros st c Hc; cbn; auto. intros r Hr. apply in_app_iff in Hr. destruct Hr; auto.
Qed.
Lemma reset_no_control c : no_control (csym (cell_reset c)).
Proof. intros r [<-|[]]. left. lia. Qed.

Theorem C19_text_widgets_filter_controls u b area : uniseg_ok u -> wf_buffer b ->
  (forall p c, look b p = Some c -> no_control (csym c)) ->
  (forall s, exists b', span_render u s area b = Ret b' /\ forall p c, look b' p = Some c -> no_control (csym c)) /\
  (forall l al, exists b', line_render_with u l area b al = Ret b' /\ forall p c, look b' p = Some c -> no_control (csym c)) /\
  (forall t, exists b', text_render u t area b = Ret b' /\ forall p c, look b' p = Some c -> no_control (csym c)).
Proof.
  intros Hu W H0. split; [|split].
  - intros s. destruct (span_render_ok u s (fun c => no_control (csym c)) area b (cwidth_nonneg _ Hu)) as (b' & E & [_ K]); auto using reset_no_control.
    + intros; now apply stable_no_control.
    + exists b'. split; [exact E|exact (K H0)].
  - intros l al. destruct (line_render_ok u l (fun c => no_control (csym c)) area b al Hu) as (b' & E & [_ K]); auto using reset_no_control.
    + intros; now apply stable_no_control.
    + exists b'. split; [exact E|exact (K H0)].
  - intros t. destruct (text_render_ok u t (fun c => no_control (csym c)) area b Hu) as (b' & E & [_ K]); auto using reset_no_control.
    + intros; now apply stable_no_control.
    + exists b'. split; [exact E|exact (K H0)].
Qed.
Print Assumptions C19_text_widgets_filter_controls.

(** SetString does not filter: an escape character reaches the cell, and from there the terminal. *)
Theorem C19_set_string_refuted : exists b', set_string simple_uniseg (demo_buffer 2 1) 0 0 [27; 97]%N new_style = Ret b' /\
  look b' (Pos 0 0) = Some (new_cell [27%N]).
Proof. eexists. split; vm_compute; reflexivity. Qed.

(** It writes nothing the text does not contain, so texts without control characters are safe. *)
Theorem C19_set_string_plain u b x y s n st b' end_ : uniseg_ok u -> wf_buffer b -> no_control s ->
  (forall p c, look b p = Some c -> no_control (csym c)) ->
  set_string_n u b x y s n st = Ret (b', end_) -> forall p c, look b' p = Some c -> no_control (csym c).
Proof.
  intros Hu W Hs H0 E. unfold set_string_n in E.
  assert (Hcl : forall c, In c (clusters u s) -> no_control c).
  { intros c Hc r Hr. apply Hs. rewrite <- (clusters_concat _ Hu s). apply in_concat. eauto. }
  destruct (set_clusters u b x y _ (clusters u s) st) as [[b1 x1]|] eqn:Ec; [|discriminate]. cbn in E. injection E as <- _.
  revert Ec. generalize (Z.min n (Z.max 0 (rright (barea b) - x))). revert b x W H0 Hcl. generalize (clusters u s).
  induction l as [|c l IH]; intros b x W H0 Hcl rem Ec; cbn [set_clusters] in Ec.
  - injection Ec as <- _. exact H0.
  - destruct (rem >? 0); [|injection Ec as <- _; exact H0]. cbv zeta in Ec.
    destruct (upd_cell b (Pos x y) _) as [b2|] eqn:E1; [|discriminate]. cbn [bind] in Ec.
    destruct (ofold _ _ b2) as [b3|] eqn:E2; [|discriminate]. cbn [bind] in Ec.
    assert (W2 : wf_buffer b2) by (apply upd_cell_Ret in E1; auto; destruct E1 as [_ (_ & X & _)]; exact X).
    assert (H2 : all_cells (fun c => no_control (csym c)) b2).
    { eapply (upd_all _ b); [exact W|exact E1| |exact H0]. intros c0 _. cbn. apply Hcl. now left. }
    assert (H3 : wf_buffer b3 /\ all_cells (fun c => no_control (csym c)) b3).
    { refine (ofold_inv' _ (fun s => wf_buffer s /\ all_cells (fun c => no_control (csym c)) s) _ b2 b3 _ _ E2); auto.
      intros s0 a s' _ [Ws Hs'] Eu. split.
      - apply upd_cell_Ret in Eu; auto. destruct Eu as [_ (_ & X & _)]; exact X.
      - eapply (upd_all _ s0); [exact Ws|exact Eu| |exact Hs']. intros; apply reset_no_control. }
    destruct H3 as [W3 H3]. eapply (IH b3); eauto. intros c' Hc'. apply Hcl. now right.
Qed.
Print Assumptions C19_set_string_plain.

Example C19_instance : (forall p c, look (demo_buffer 3 1) p = Some c -> no_control (csym c)) /\
  rendered (span_render simple_uniseg (new_span [97; 27; 98]%N) (Rect 0 0 3 1) (demo_buffer 3 1)) = [[97%N]; [98%N]; space].
Proof.
  split; [|vm_compute; reflexivity]. intros p c Hl. pose proof (look_Some_inside _ _ _ Hl) as Hi. rewrite look_inside_eq in Hl by auto.
  apply nth_error_In in Hl. apply repeat_spec in Hl. subst c. intros r [<-|[]]. left. lia.
Qed.

(** ** C20 *)
Definition newline : N := 10%N.
Definition cr : N := 13%N.

(** Every stretch without newline is shorter than 64 KiB. *)
Definition short_stretches (s : str) : Prop := forall pre mid post, s = pre ++ mid ++ post -> ~ In newline mid -> byte_len mid < 65536.

Lemma raw_lines_nonempty s : forall acc, (s <> [] \/ acc <> []) -> raw_lines s acc <> [].
Proof.
  induction s as [|r s IH]; intros acc H; cbn.
  - destruct acc; [destruct H; congruence|discriminate].
  - destruct (r =? 10)%N; [discriminate|]. apply IH. right. discriminate.
Qed.

Lemma join_cons sep a l : l <> [] -> join sep (a :: l) = a ++ sep ++ join sep l.
Proof. destruct l; [congruence|reflexivity]. Qed.

Lemma raw_lines_join s : forall acc, (s <> [] -> last s 0%N <> newline) -> join [newline] (raw_lines s acc) = rev acc ++ s.
Proof.
  induction s as [|r s IH]; intros acc H; cbn [raw_lines].
  - rewrite app_nil_r. destruct acc; reflexivity.
  - destruct (N.eqb_spec r 10) as [->|N].
    + assert (Hs : s <> []). { intros ->. now apply (H ltac:(discriminate)). }
      rewrite join_cons by (apply raw_lines_nonempty; auto). rewrite IH; [reflexivity|].
      intros _. specialize (H ltac:(discriminate)). destruct s; [congruence|exact H].
    + rewrite IH; [cbn [rev]; now rewrite <- app_assoc|]. intros Hs. specialize (H ltac:(discriminate)). destruct s; [congruence|exact H].
Qed.

Lemma raw_lines_no_newline s : forall acc p, In p (raw_lines s acc) -> ~ In newline acc -> ~ In newline p.
Proof.
  induction s as [|r s IH]; intros acc p Hp Ha; cbn [raw_lines] in Hp.
  - destruct acc; [destruct Hp|]. destruct Hp as [<-|[]]. now rewrite <- in_rev.
  - destruct (N.eqb_spec r 10) as [->|N].
    + destruct Hp as [<-|Hp]; [now rewrite <- in_rev|]. eapply IH; [exact Hp|intros []].
    + eapply IH; [exact Hp|]. intros [X|X]; [|auto]. now apply N.
Qed.

Lemma raw_lines_infix s : forall acc p, In p (raw_lines s acc) -> exists pre post, rev acc ++ s = pre ++ p ++ post.
Proof.
  induction s as [|r s IH]; intros acc p Hp; cbn [raw_lines] in Hp.
  - destruct acc; [destruct Hp|]. destruct Hp as [<-|[]]. exists [], []. reflexivity.
  - destruct (r =? 10)%N.
    + destruct Hp as [<-|Hp]; [exists [], (r :: s); reflexivity|]. destruct (IH [] p Hp) as (pre & post & E). cbn in E.
      exists (rev acc ++ r :: pre), post. rewrite E, <- app_assoc. reflexivity.
    + destruct (IH (r :: acc) p Hp) as (pre & post & E). exists pre, post. rewrite <- E. cbn [rev]. now rewrite <- app_assoc.
Qed.

Lemma drop_cr_id s : ~ In cr s -> drop_cr s = s.
Proof.
  unfold drop_cr. intros H. destruct (rev s) as [|r t] eqn:E; [reflexivity|].
  assert (r <> 13%N). { intros ->. apply H. rewrite <- (rev_involutive s), E. cbn. apply in_app_iff. right. now left. }
  destruct r as [|p]; [reflexivity|]. do 4 (destruct p as [p|p|]; try reflexivity). now destruct H0.
Qed.

Lemma short_lines_id l : (forall p, In p l -> byte_len p < 65536) -> short_lines l = l.
Proof.
  induction l as [|p l IH]; intros H; cbn; [reflexivity|]. unfold max_token.
  replace (byte_len p <? 65536) with true by (symmetry; apply Z.ltb_lt; apply H; now left). f_equal. apply IH. intros; apply H; now right.
Qed.

Lemma scan_clean s : ~ In cr s -> short_stretches s -> scan_lines s = raw_lines s [].
Proof.
  intros Hc Hs. unfold scan_lines. rewrite short_lines_id.
  - rewrite (map_ext_in drop_cr (fun x => x)); [apply map_id|]. intros p Hp. apply drop_cr_id. intros X.
    destruct (raw_lines_infix s [] p Hp) as (pre & post & E). cbn in E. apply Hc. rewrite E. rewrite !in_app_iff. auto.
  - intros p Hp. destruct (raw_lines_infix s [] p Hp) as (pre & post & E). cbn in E. apply (Hs pre p post E).
    apply (raw_lines_no_newline s [] p Hp). intros [].
Qed.

Lemma raw_single p : ~ In newline p -> forall acc, raw_lines p acc = match rev acc ++ p with [] => [] | q => [q] end.
Proof.
  induction p as [|r p IH]; intros H acc; cbn [raw_lines].
  - rewrite app_nil_r. destruct acc as [|a acc]; [reflexivity|]. destruct (rev (a :: acc)) eqn:E; [|reflexivity].
    cbn in E. now destruct (rev acc).
  - destruct (N.eqb_spec r 10) as [->|N]; [destruct H; now left|]. rewrite IH by (intros X; apply H; now right). cbn [rev]. now rewrite <- app_assoc.
Qed.

Lemma line_round p : ~ In newline p -> ~ In cr p -> byte_len p < 65536 -> line_string (new_line_str p) = p.
Proof.
  intros Hn Hc Hb. unfold new_line_str, line_string, new_line. cbn [ln_spans]. unfold scan_lines. rewrite raw_single by auto. cbn [rev app].
  destruct p as [|r p]; [reflexivity|]. cbn [short_lines]. unfold max_token. replace (_ <? _) with true by (symmetry; apply Z.ltb_lt; exact Hb).
  cbn [map]. rewrite drop_cr_id by auto. cbn. now rewrite app_nil_r.
Qed.

Theorem C20_round_trip_partial s : ~ In cr s -> short_stretches s -> (s <> [] -> last s 0%N <> newline) ->
  text_string (new_text_str s) = s.
Proof.
  intros Hc Hs Hl. unfold text_string, new_text_str, new_text, new_lines_str. cbn [tx_lines join].
  destruct s as [|r s]; [reflexivity|]. unfold lines_string. rewrite map_map, scan_clean by auto.
  rewrite (map_ext_in _ (fun x => x)).
  - rewrite map_id. apply (raw_lines_join (r :: s) [] Hl).
  - intros p Hp. destruct (raw_lines_infix _ [] p Hp) as (pre & post & E). cbn [rev app] in E.
    apply line_round.
    + apply (raw_lines_no_newline _ [] p Hp). intros [].
    + intros X. apply Hc. rewrite E, !in_app_iff. auto.
    + apply (Hs pre p post E). apply (raw_lines_no_newline _ [] p Hp). intros [].
Qed.
Print Assumptions C20_round_trip_partial.

Lemma drop_cr_sub s r : In r (drop_cr s) -> In r s.
Proof.
  unfold drop_cr. destruct (rev s) as [|x t] eqn:E; [auto|].
  assert (G : In r (rev t) -> In r s). { intros H. rewrite <- (rev_involutive s), E. cbn. apply in_app_iff. auto. }
  destruct x as [|p]; [auto|]. repeat (destruct p as [p|p|]; auto).
Qed.
Lemma short_lines_sub l p : In p (short_lines l) -> In p l.
Proof. induction l as [|a l IH]; cbn; [auto|]. destruct (_ <? _); [|intros []]. intros [<-|H]; auto. Qed.
Lemma scan_no_newline s p : In p (scan_lines s) -> ~ In newline p.
Proof.
  unfold scan_lines. intros H X. apply in_map_iff in H. destruct H as (q & <- & Hq). apply drop_cr_sub in X.
  apply short_lines_sub in Hq. apply (raw_lines_no_newline s [] q Hq); auto.
Qed.

(** No line of any text built from a string contains a newline. *)
Theorem C20_lines_have_no_newline s l : In l (tx_lines (new_text_str s)) -> ~ In newline (line_string l).
Proof.
  assert (G : forall p, ~ In newline (line_string (new_line_str p))).
  { intros p X. unfold line_string, new_line_str, new_line in X. cbn [ln_spans] in X. rewrite map_map in X. apply in_concat in X.
    destruct X as (q & Hq & X). apply in_map_iff in Hq. destruct Hq as (q' & <- & Hq). cbn in X. exact (scan_no_newline p q' Hq X). }
  unfold new_text_str, new_text, new_lines_str. cbn [tx_lines join]. destruct s as [|r s].
  - intros [<-|[]]. apply G.
  - intros H. apply in_map_iff in H. destruct H as (p & <- & _). apply G.
Qed.
Print Assumptions C20_lines_have_no_newline.

(** One line per newline, plus one. *)
Theorem C20_line_count s : ~ In cr s -> short_stretches s -> s <> [] -> last s 0%N <> newline ->
  length (tx_lines (new_text_str s)) = S (count_occ N.eq_dec s newline).
Proof.
  intros Hc Hs Hne Hl. unfold new_text_str, new_text, new_lines_str. cbn [tx_lines join]. destruct s as [|r s]; [congruence|].
  rewrite map_length, scan_clean by auto. revert Hne Hl. clear. generalize (r :: s). clear.
  enough (G : forall l acc, (l <> [] \/ acc <> []) -> (l <> [] -> last l 0%N <> newline) -> length (raw_lines l acc) = S (count_occ N.eq_dec l newline)).
  { intros l Hne Hl. apply G; auto. }
  induction l as [|a l IH]; intros acc H Hl; cbn [raw_lines count_occ].
  - destruct acc; [destruct H; congruence|reflexivity].
  - assert (Hl' : l <> [] -> last l 0%N <> newline). { intros N. specialize (Hl ltac:(discriminate)). destruct l; [congruence|exact Hl]. }
    destruct (N.eqb_spec a 10) as [->|N].
    + destruct (N.eq_dec 10 newline) as [_|X]; [|now destruct X]. cbn [length]. f_equal. apply IH; auto. left. intros ->. now apply (Hl ltac:(discriminate)).
    + destruct (N.eq_dec a newline) as [X|_]; [now destruct N|]. apply IH; auto. right. discriminate.
Qed.

(** What is lost: a final newline, carriage returns before newlines, and everything from a line of 64 KiB on. *)
Theorem C20_round_trip_refuted :
  text_string (new_text_str [97; 10]%N) = [97]%N /\
  text_string (new_text_str [97; 13; 10; 98]%N) = [97; 10; 98]%N /\
  (forall s, ~ In newline s -> 65536 <= byte_len s -> text_string (new_text_str s) = []).
Proof.
  split; [reflexivity|]. split; [reflexivity|]. intros s Hn Hb. unfold text_string, new_text_str, new_text, new_lines_str. cbn [tx_lines join].
  destruct s as [|r s]; [reflexivity|]. unfold scan_lines. rewrite raw_single by auto. cbn [rev app short_lines]. unfold max_token.
  replace (_ <? _) with false by (symmetry; apply Z.ltb_ge; lia). reflexivity.
Qed.
Print Assumptions C20_round_trip_refuted.

Lemma byte_len_bound s : byte_len s <= 4 * zlen s.
Proof.
  unfold byte_len. induction s as [|r s IH]; cbn [map]; [cbn; lia|]. rewrite zsum_cons, zlen_cons.
  assert (utf8_len r <= 4) by (unfold utf8_len; destruct (r <? 128)%N, (r <? 2048)%N, (r <? 65536)%N; lia). lia.
Qed.
Example C20_instance : let s := [104; 105; 10; 10; 19990]%N in ~ In cr s /\ short_stretches s /\ (s <> [] -> last s 0%N <> newline) /\
  map line_string (tx_lines (new_text_str s)) = [[104; 105]; []; [19990]]%N.
Proof.
  cbv zeta. split; [intros H; cbn in H; repeat destruct H as [H|H]; try discriminate; destruct H|]. split.
  { intros pre mid post E _. pose proof (byte_len_bound mid). assert (zlen (pre ++ mid ++ post) = 5) by now rewrite <- E. rewrite !zlen_app in *.
    pose proof (zlen_nonneg pre). pose proof (zlen_nonneg post). lia. }
  split; [intros _; vm_compute; discriminate|]. vm_compute. reflexivity.
Qed.
