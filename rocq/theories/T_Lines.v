(** C78: the buffer made of some lines. *)
From Verif Require Import Base P_Base M_Geom S_Geom T_Geom M_Style M_Uniseg M_Solver M_Layout M_Popup M_Input M_Throbber M_View M_Buffer S_Buffer P_Buffer P_SetString T_Buffer M_Text S_Text S_Line P_Text T_Text M_Lines.
From Coq Require Import ZArith NArith List Bool Lia.
Import ListNotations.
Open Scope Z_scope.
Local Arguments zlen : simpl never.

(** ** What the row of a line should show: its characters from the left edge on, each in the style of its span over that of the line; the rest is
    blank. *)
Definition styled_cells (u : uniseg) (l : line) : list (str * style) :=
  flat_map (fun s => map (fun c => (c, patched (ln_style l) (sp_style s))) (clusters u (sp_content s))) (ln_spans l).
Definition row_shows (u : uniseg) (l : line) (width o : Z) : cell := paint (seen (cwidth u) (styled_cells u l) width 0 o) empty_cell.
(** Every character takes at least one column. *)
Definition has_width (u : uniseg) (l : line) : Prop := forall s c, In s (ln_spans l) -> In c (clusters u (sp_content s)) -> 1 <= cwidth u c.

Lemma seen_split w l m W : (forall c st, In (c, st) l -> 1 <= w c) -> (forall c st, In (c, st) m -> 1 <= w c) -> forall off o,
  seen w (l ++ m) W off o = if o <? off + zsum (map (fun cs => w (fst cs)) l) then seen w l W off o else seen w m W (off + zsum (map (fun cs => w (fst cs)) l)) o.
Proof.
  induction l as [|[c st] l IH]; intros Hl Hm off o; cbn [app map fst].
  - cbn [seen zsum fold_right]. rewrite Z.add_0_r. destruct (Z.ltb_spec o off); [now apply seen_out|reflexivity].
  - rewrite zsum_cons. cbn [seen]. pose proof (Hl c st (or_introl eq_refl)) as Hc.
    assert (N : 0 <= zsum (map (fun cs => w (fst cs)) l)). { apply zsum_nonneg. intros z Hz. apply in_map_iff in Hz. destruct Hz as ([c' s'] & <- & I). specialize (Hl c' s' (or_intror I)). cbn. lia. }
    rewrite IH; [|intros c' s' I; apply (Hl c' s'); now right|exact Hm]. replace (off + (w c + zsum (map (fun cs => w (fst cs)) l))) with (off + w c + zsum (map (fun cs => w (fst cs)) l)) by lia.
    destruct (Z.leb_spec off o); cbn [andb].
    + destruct (Z.ltb_spec o (off + w c)); [|reflexivity]. destruct (Z.ltb_spec o (off + w c + zsum (map (fun cs => w (fst cs)) l))); [reflexivity|lia].
    + reflexivity.
Qed.
Lemma span_seen w cs st W : (forall c, In c cs -> 1 <= w c) -> forall off o, 0 <= off -> off + zsum (map w cs) <= W ->
  seen w (map (fun c => (c, st)) cs) W off o = match glyph_at w cs (o - off) with Some (Head c) => Some (HeadOf c st) | Some Tail => Some TailOf | None => None end.
Proof.
  induction cs as [|c cs IH]; intros Hw off o H0 H; cbn [map seen glyph_at]; [reflexivity|]. cbn [map] in H. rewrite zsum_cons in H. pose proof (Hw c (or_introl eq_refl)) as Hc.
  assert (N : 0 <= zsum (map w cs)) by (apply zsum_nonneg; intros z Hz; apply in_map_iff in Hz; destruct Hz as (c' & <- & I); specialize (Hw c' (or_intror I)); lia).
  destruct (Z.leb_spec off o); cbn [andb].
  - destruct (Z.ltb_spec (o - off) 0); [lia|]. destruct (Z.ltb_spec o (off + w c)).
    + destruct (Z.leb_spec 0 off); [|lia]. destruct (Z.leb_spec (off + w c) W); [|lia]. cbn [andb]. destruct (Z.eqb_spec o off), (Z.eqb_spec (o - off) 0); try lia; [reflexivity|]. destruct (Z.ltb_spec (o - off) (w c)); [reflexivity|lia].
    + destruct (Z.eqb_spec (o - off) 0); [lia|]. destruct (Z.ltb_spec (o - off) (w c)); [lia|]. rewrite IH; [|intros c' I; apply Hw; now right|lia|lia]. now replace (o - (off + w c)) with (o - off - w c) by lia.
  - destruct (Z.ltb_spec (o - off) 0); [|lia]. apply seen_out; [|lia]. intros c' s' I. apply in_map_iff in I. destruct I as (c0 & E & I). injection E as <- <-. apply Hw. now right.
Qed.

Section Row.
Variable u : uniseg.
Hypothesis Hu : uniseg_ok u.
Let cells (st : style) (spans : list span) : list (str * style) := flat_map (fun s => map (fun c => (c, patched st (sp_style s))) (clusters u (sp_content s))) spans.
Let total (spans : list span) : Z := zsum (map (span_width u) spans).
Lemma span_total s : zsum (map (cwidth u) (clusters u (sp_content s))) = span_width u s.
Proof. reflexivity. Qed.
Lemma row_spans st y W : 0 < W -> forall spans b x, (forall s c, In s spans -> In c (clusters u (sp_content s)) -> 1 <= cwidth u c) -> wf_buffer b -> rx (barea b) = 0 -> rw (barea b) = W -> ry (barea b) <= y < ry (barea b) + rh (barea b) ->
  0 <= x -> x + total spans <= W ->
  exists b', set_line_spans u st spans x y b W = Ret (b', (x + total spans, y)) /\ barea b' = barea b /\ wf_buffer b' /\
    forall p, look b' p = if (py p =? y) && (x <=? px p) then option_map (paint (seen (cwidth u) (cells st spans) W x (px p))) (look b p) else look b p.
Proof.
  intros HW. induction spans as [|s spans IH]; intros b x Hw Wf X0 XW Hy Hx Ht.
  { exists b. cbn [set_line_spans]. unfold total. cbn [map zsum fold_right]. rewrite Z.add_0_r. split; [reflexivity|]. split; [reflexivity|]. split; [exact Wf|]. intros p. unfold cells. cbn [flat_map seen paint]. destruct (_ && _); [|reflexivity]. now destruct (look b p). }
  assert (Et : total (s :: spans) = span_width u s + total spans) by (unfold total; cbn [map]; now rewrite zsum_cons). rewrite Et in *.
  set (cs := clusters u (sp_content s)). assert (Ew : span_width u s = widths u cs) by (unfold cs; symmetry; apply span_total).
  assert (N1 : 0 <= widths u cs). { apply zsum_nonneg. intros z Hz. apply in_map_iff in Hz. destruct Hz as (c & <- & I). specialize (Hw s c (or_introl eq_refl) I). lia. }
  assert (N2 : 0 <= total spans). { apply zsum_nonneg. intros z Hz. apply in_map_iff in Hz. destruct Hz as (s' & <- & I). rewrite <- span_total. apply zsum_nonneg. intros z Hz. apply in_map_iff in Hz. destruct Hz as (c & <- & I'). specialize (Hw s' c (or_intror I) I'). lia. }
  assert (S : exists b1, set_string_n u b x y (sp_content s) W (patched st (sp_style s)) = Ret (b1, (x + widths u cs, y)) /\ barea b1 = barea b /\ wf_buffer b1 /\
     forall p, look b1 p = if (py p =? y) then option_map (paint (seen (cwidth u) (map (fun c => (c, patched st (sp_style s))) cs) W x (px p))) (look b p) else look b p).
  { destruct cs as [|c0 cs0] eqn:Ecs.
    - exists b. unfold set_string_n. fold cs. rewrite Ecs. cbn [set_clusters bind]. unfold widths. cbn [map zsum fold_right]. rewrite Z.add_0_r. split; [reflexivity|]. split; [reflexivity|]. split; [exact Wf|].
      intros p. cbn [map seen paint]. destruct (_ =? _); [|reflexivity]. now destruct (look b p).
    - rewrite <- Ecs in *. assert (P1 : 1 <= widths u cs). { rewrite Ecs. unfold widths. cbn [map]. rewrite zsum_cons. pose proof (Hw s c0 (or_introl eq_refl)) as Hc. fold cs in Hc. rewrite Ecs in Hc. specialize (Hc (or_introl eq_refl)).
        assert (0 <= zsum (map (cwidth u) cs0)); [|lia]. apply zsum_nonneg. intros z Hz. apply in_map_iff in Hz. destruct Hz as (c & <- & I). pose proof (Hw s c (or_introl eq_refl)) as H. fold cs in H. rewrite Ecs in H. specialize (H (or_intror I)). lia. }
      destruct (C11_set_string_n_partial u b x y (sp_content s) W (patched st (sp_style s)) cs [] Wf) as (b1 & E1 & A1 & W1 & H1 & T1 & O1).
      { unfold inside. cbn [px py]. rewrite X0, XW. lia. } { now rewrite app_nil_r. } { intros c I. exact (Hw s c (or_introl eq_refl) I). } { rewrite X0, XW. lia. } { now left. }
      exists b1. split; [exact E1|]. split; [exact A1|]. split; [exact W1|]. intros p. destruct (Z.eqb_spec (py p) y) as [Ey|Ey]; [|apply O1; lia].
      rewrite span_seen; [|intros c I; exact (Hw s c (or_introl eq_refl) I)|lia|fold (widths u cs); lia].
      destruct p as [px0 py0]. cbn [px py] in *. subst py0. replace (Pos px0 y) with (Pos (x + (px0 - x)) y) by (f_equal; lia).
      destruct (glyph_at (cwidth u) cs (px0 - x)) as [[c|]|] eqn:Eg; cbn [paint].
      + assert (0 <= px0 - x). { rewrite Ecs in Eg. cbn [glyph_at] in Eg. destruct (Z.ltb_spec (px0 - x) 0); [discriminate|lia]. }
        destruct (look b (Pos (x + (px0 - x)) y)) as [c1|] eqn:E; [now apply H1|]. cbn [option_map].
        destruct (look b1 (Pos (x + (px0 - x)) y)) eqn:E'; [|reflexivity]. apply look_Some_inside in E'. rewrite A1 in E'. destruct (look_inside b _ Wf E') as (c2 & E2). congruence.
      + rewrite (T1 _ Eg). assert (I := T1 _ Eg). apply look_Some_inside in I. rewrite A1 in I. destruct (look_inside b _ Wf I) as (c2 & E2). now rewrite E2.
      + rewrite O1; [now destruct (look b _)|]. cbn [px py]. intros (_ & R). assert (X : glyph_at (cwidth u) cs (px0 - x) <> None); [|contradiction].
        assert (R' : 0 <= px0 - x < widths u cs) by lia. clear - R'. revert R'. generalize (px0 - x). induction cs as [|c l IH]; intros o R; [unfold widths in R; cbn in R; lia|]. cbn [glyph_at]. destruct (Z.ltb_spec o 0); [lia|]. destruct (Z.eqb_spec o 0); [discriminate|]. destruct (Z.ltb_spec o (cwidth u c)); [discriminate|]. apply IH. unfold widths in R. cbn [map] in R. rewrite zsum_cons in R. unfold widths. lia. }
  destruct S as (b1 & E1 & A1 & W1 & L1). cbn [set_line_spans]. destruct (Z.eqb_spec W 0); [lia|]. rewrite E1. cbn [bind].
  replace (Z.max 0 (Z.max W (Z.max 0 (x + widths u cs - x)))) with W by lia. rewrite Ew in *.
  destruct (IH b1 (x + widths u cs)) as (b2 & E2 & A2 & W2 & L2); try (rewrite ?A1; assumption); try lia; [intros s' c I; apply Hw; now right|].
  exists b2. split; [rewrite E2; do 3 f_equal; lia|]. split; [congruence|]. split; [exact W2|]. intros p. rewrite L2, L1.
  change (cells st (s :: spans)) with (map (fun c => (c, patched st (sp_style s))) cs ++ cells st spans).
  assert (V1 : forall c st', In (c, st') (map (fun c => (c, patched st (sp_style s))) cs) -> 1 <= cwidth u c). { intros c st' I. apply in_map_iff in I. destruct I as (c' & E & I). injection E as <- <-. exact (Hw s c' (or_introl eq_refl) I). }
  assert (V2 : forall c st', In (c, st') (cells st spans) -> 1 <= cwidth u c). { intros c st' I. unfold cells in I. apply in_flat_map in I. destruct I as (s' & Is & I). apply in_map_iff in I. destruct I as (c' & E & I). injection E as <- <-. exact (Hw s' c' (or_intror Is) I). }
  rewrite (seen_split (cwidth u) _ _ W V1 V2). rewrite map_map. cbn [fst]. replace (zsum (map (fun c => cwidth u c) cs)) with (widths u cs) by reflexivity.
  destruct (Z.eqb_spec (py p) y) as [Ey|Ey]; cbn [andb]; [|reflexivity].
  destruct (Z.leb_spec (x + widths u cs) (px p)), (Z.leb_spec x (px p)), (Z.ltb_spec (px p) (x + widths u cs)); try lia; try reflexivity.
  - replace (seen (cwidth u) (map (fun c => (c, patched st (sp_style s))) cs) W x (px p)) with (@None shown_at).
    + now destruct (look b p).
    + symmetry. rewrite span_seen; [|intros c I; exact (Hw s c (or_introl eq_refl) I)|lia|fold (widths u cs); lia].
      replace (glyph_at (cwidth u) cs (px p - x)) with (@None glyph); [reflexivity|]. symmetry. assert (R : widths u cs <= px p - x) by lia.
      assert (HW' : forall c, In c cs -> 1 <= cwidth u c) by (intros c I; exact (Hw s c (or_introl eq_refl) I)). clear - R HW'. revert R. generalize (px p - x). induction cs as [|c l IH]; intros o R; [reflexivity|]. pose proof (HW' c (or_introl eq_refl)). unfold widths in R. cbn [map] in R. rewrite zsum_cons in R.
      assert (0 <= zsum (map (cwidth u) l)) by (apply zsum_nonneg; intros z Hz; apply in_map_iff in Hz; destruct Hz as (c' & <- & I); specialize (HW' c' (or_intror I)); lia).
      cbn [glyph_at]. destruct (Z.ltb_spec o 0); [lia|]. destruct (Z.eqb_spec o 0); [lia|]. destruct (Z.ltb_spec o (cwidth u c)); [lia|]. apply IH; [|unfold widths; lia]. intros c' I. apply HW'. now right.
  - rewrite seen_out; [now destruct (look b p)| |lia]. exact V1.
Qed.
End Row.

Lemma widest u lines : 0 <= lines_width u lines /\ (forall l, In l lines -> line_width u l <= lines_width u lines) /\ (lines_width u lines = 0 \/ exists l, In l lines /\ line_width u l = lines_width u lines).
Proof.
  unfold lines_width. assert (G : forall w0, w0 <= fold_left (fun width x => Z.max width (line_width u x)) lines w0 /\ (forall l, In l lines -> line_width u l <= fold_left (fun width x => Z.max width (line_width u x)) lines w0) /\
    (fold_left (fun width x => Z.max width (line_width u x)) lines w0 = w0 \/ exists l, In l lines /\ line_width u l = fold_left (fun width x => Z.max width (line_width u x)) lines w0)).
  { induction lines as [|l lines IH]; intros w0; cbn [fold_left]; [split; [lia|]; split; [now intros l []|now left]|]. destruct (IH (Z.max w0 (line_width u l))) as (A & B & C).
    split; [lia|]. split; [intros l' [<-|I]; [lia|auto]|]. destruct C as [C|(l' & I & C)]; [|right; exists l'; split; [now right|exact C]].
    destruct (Z.max_spec w0 (line_width u l)) as [[_ E]|[_ E]]; [right; exists l; split; [now left|lia]|left; lia]. }
  destruct (G 0) as (A & B & C). split; [lia|]. split; [exact B|exact C].
Qed.
Lemma rows_lines u W : 0 < W -> forall lines b y, (forall l, In l lines -> has_width u l /\ line_width u l <= W) -> wf_buffer b -> rx (barea b) = 0 -> rw (barea b) = W -> ry (barea b) <= y -> y + zlen lines <= ry (barea b) + rh (barea b) ->
  exists b', set_lines u y lines W b = Ret b' /\ barea b' = barea b /\ wf_buffer b' /\
    forall p, 0 <= px p -> look b' p = if y <=? py p then match nth_error lines (Z.to_nat (py p - y)) with Some l => option_map (paint (seen (cwidth u) (styled_cells u l) W 0 (px p))) (look b p) | None => look b p end else look b p.
Proof.
  intros HW. induction lines as [|l lines IH]; intros b y Hl Wf X0 XW Hy Hh.
  { exists b. cbn [set_lines]. split; [reflexivity|]. split; [reflexivity|]. split; [exact Wf|]. intros p _. destruct (y <=? py p); [|reflexivity]. destruct (Z.to_nat (py p - y)); reflexivity. }
  rewrite zlen_cons in Hh. pose proof (zlen_nonneg lines) as Z0. destruct (Hl l (or_introl eq_refl)) as [Hw Hf].
  destruct (row_spans u (ln_style l) y W HW (ln_spans l) b 0 Hw Wf X0 XW) as (b1 & E1 & A1 & W1 & L1); [lia|lia|exact Hf|].
  destruct (IH b1 (y + 1)) as (b2 & E2 & A2 & W2 & L2); try (rewrite ?A1; assumption); try (rewrite ?A1; lia); [intros l' I; apply Hl; now right|].
  exists b2. cbn [set_lines]. unfold set_line. rewrite E1. cbn [bind]. split; [exact E2|]. split; [congruence|]. split; [exact W2|]. intros p Hp. rewrite (L2 p Hp), (L1 p).
  change (flat_map (fun s => map (fun c => (c, patched (ln_style l) (sp_style s))) (clusters u (sp_content s))) (ln_spans l)) with (styled_cells u l).
  destruct (Z.leb_spec 0 (px p)); [|lia]. rewrite andb_true_r. destruct (Z.leb_spec (y + 1) (py p)), (Z.leb_spec y (py p)), (Z.eqb_spec (py p) y); try lia; try reflexivity.
  - replace (Z.to_nat (py p - y)) with (S (Z.to_nat (py p - (y + 1)))) by lia. reflexivity.
  - replace (Z.to_nat (py p - y)) with 0%nat by lia. reflexivity.
Qed.

(** ** C78: the buffer is exactly as high as there are lines and as wide as the widest of them; row [k] shows line [k] from the left edge on, and is
    blank behind it. *)
Theorem C78_new_buffer : forall u lines, uniseg_ok u -> (forall l, In l lines -> has_width u l) ->
  exists b, lines_new_buffer u lines = Ret b /\ wf_buffer b /\ rx (barea b) = 0 /\ ry (barea b) = 0 /\ rh (barea b) = Z.of_nat (length lines) /\
    (forall l, In l lines -> line_width u l <= rw (barea b)) /\ (rw (barea b) = 0 \/ exists l, In l lines /\ line_width u l = rw (barea b)) /\
    forall k l o, nth_error lines k = Some l -> 0 <= o < rw (barea b) -> look b (Pos o (Z.of_nat k)) = Some (row_shows u l (rw (barea b)) o).
Proof.
  intros u lines Hu Hw. destruct (widest u lines) as (W0 & Wm & Wx). set (W := lines_width u lines) in *. pose proof (zlen_nonneg lines) as Hn.
  destruct (new_buffer_filled_spec (Rect 0 0 W (zlen lines)) empty_cell) as (b & Eb & Wf & Ab & Lb). { split; cbn; lia. }
  unfold lines_new_buffer, new_buffer_empty, lines_height. fold W. rewrite Eb. cbn [bind]. clearbody W.
  destruct (Z.eq_dec W 0) as [Ez|Nz].
  - subst W. exists b. split.
    { clear - b. generalize 0 at 1. induction lines as [|l lines IH]; intros y; [reflexivity|]. cbn [set_lines]. unfold set_line. replace (set_line_spans u (ln_style l) (ln_spans l) 0 y b 0) with (Ret (b, (0, y))); [cbn [bind]; apply IH|]. destruct (ln_spans l); reflexivity. }
    split; [exact Wf|]. rewrite Ab. cbn [rx ry rw rh]. split; [reflexivity|]. split; [reflexivity|]. split; [reflexivity|]. split; [exact Wm|]. split; [now left|]. intros k l o _ Ho. lia.
  - destruct (rows_lines u W ltac:(lia) lines b 0) as (b2 & E2 & A2 & W2 & L2); rewrite ?Ab; cbn [rx ry rw rh]; try lia; try assumption; try reflexivity. { intros l I. split; auto. }
    exists b2. split; [exact E2|]. split; [exact W2|]. rewrite A2, Ab. cbn [rx ry rw rh]. split; [reflexivity|]. split; [reflexivity|]. split; [reflexivity|]. split; [exact Wm|]. split; [exact Wx|].
    intros k l o Ek Ho. rewrite L2 by (cbn [px]; lia). cbn [px py]. destruct (Z.leb_spec 0 (Z.of_nat k)); [|lia]. rewrite Z.sub_0_r, Nat2Z.id, Ek. rewrite Lb.
    assert (In0 : contains (Rect 0 0 W (zlen lines)) (Pos o (Z.of_nat k)) = true). { apply contains_inside. unfold inside. cbn [px py rx ry rw rh]. assert (k < length lines)%nat by (apply nth_error_Some; congruence). unfold zlen. lia. }
    rewrite In0. reflexivity.
Qed.
Print Assumptions C78_new_buffer.

(** A character without width is given a cell that the width of the line does not count: the text behind it then leaves the buffer, and the call
    panics or loses it. *)
Theorem C78_zero_width_refuted : exists u lines lost, uniseg_ok u /\ lines_new_buffer u lines = Panic /\
  exists b, lines_new_buffer u lost = Ret b /\ flat_map line_string lost = [8203; 97]%N /\ symbols b = [[8203]%N].
Proof.
  exists simple_uniseg, [new_line [new_span [8203; 97]%N]], [new_line [new_span [8203]%N; new_span [97]%N]]. split; [apply simple_uniseg_ok|]. split; [reflexivity|].
  eexists. split; [vm_compute; reflexivity|]. split; reflexivity.
Qed.
Print Assumptions C78_zero_width_refuted.
(** The alignment of a line is not looked at: the row of a line aligned to the right starts at the left edge all the same, unlike the row the line
    itself draws. *)
Theorem C78_alignment_refuted : exists u lines l b drawn, uniseg_ok u /\ (forall l, In l lines -> has_width u l) /\ lines_new_buffer u lines = Ret b /\ nth_error lines 1 = Some l /\ ln_align l = AlignRight /\
  line_render u l (Rect 0 1 3 1) (demo_buffer 3 2) = Ret drawn /\ symbols drawn = [space; space; space; space; space; [97]%N] /\ symbols b = [[98]%N; [98]%N; [98]%N; [97]%N; space; space].
Proof.
  exists simple_uniseg, [new_line [new_span [98; 98; 98]%N]; Line new_style [new_span [97]%N] AlignRight], (Line new_style [new_span [97]%N] AlignRight). eexists. eexists.
  split; [apply simple_uniseg_ok|]. split.
  { intros l [<-|[<-|[]]] s c [<-|[]] H; cbn in H; repeat (destruct H as [<-|H]; [vm_compute; congruence|]); destruct H. }
  split; [vm_compute; reflexivity|]. split; [reflexivity|]. split; [reflexivity|]. split; [vm_compute; reflexivity|]. split; reflexivity.
Qed.
Print Assumptions C78_alignment_refuted.

Example C78_instance : let lines := [new_line [new_span [97; 19990]%N]; Line (with_foreground new_style (Some (ColAnsi 1))) [new_span [98]%N; Span (with_foreground new_style (Some (ColAnsi 2))) [99; 100]%N; new_span [101]%N] AlignLeft] in
  uniseg_ok simple_uniseg /\ (forall l, In l lines -> has_width simple_uniseg l) /\ (exists b, lines_new_buffer simple_uniseg lines = Ret b /\ barea b = Rect 0 0 4 2 /\
  symbols b = [[97]%N; [19990]%N; space; space; [98]%N; [99]%N; [100]%N; [101]%N] /\ map cfg (bcells b) = map Some [ColReset; ColReset; ColReset; ColReset; ColAnsi 1; ColAnsi 2; ColAnsi 2; ColAnsi 1]).
Proof.
  cbv zeta. split; [apply simple_uniseg_ok|]. split.
  { intros l [<-|[<-|[]]] s c H H'; cbn in H; repeat (destruct H as [<-|H]; [cbn in H'; repeat (destruct H' as [<-|H']; [vm_compute; congruence|]); destruct H'|]); destruct H. }
  eexists. split; [vm_compute; reflexivity|]. split; [reflexivity|]. split; reflexivity.
Qed.
