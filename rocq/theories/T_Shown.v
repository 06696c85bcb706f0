(** C98: what a paragraph shows. *)
From Verif Require Import Base M_Geom S_Geom M_Style M_Uniseg M_Buffer S_Buffer M_Text M_Reflow S_Reflow S_Paragraph P_Base T_Geom P_Buffer P_SetString P_Text P_Redraw P_Reflow P_Paragraph T_Reflow T_Paragraph.
From Coq Require Import ZArith NArith List Bool Lia.
Import ListNotations.
Open Scope Z_scope.

Fixpoint gr_at (l : list gr) (o : Z) : option gr :=
  match l with [] => None | g :: l' => if g_width g =? 0 then gr_at l' o else if o =? 0 then Some g else gr_at l' (o - g_width g) end.
Lemma gr_at_neg l : Forall (fun g => 0 <= g_width g) l -> forall o, o < 0 -> gr_at l o = None.
Proof. induction 1 as [|g l H _ IH]; intros o Ho; cbn; [reflexivity|]. destruct (Z.eqb_spec (g_width g) 0); [auto|]. destruct (Z.eqb_spec o 0); [lia|]. apply IH. lia. Qed.
Lemma gr_at_far l : Forall (fun g => 0 <= g_width g) l -> forall o, gr_width l <= o -> gr_at l o = None.
Proof.
  induction 1 as [|g l H F IH]; intros o Ho; cbn; [reflexivity|]. rewrite gr_width_cons in Ho. pose proof (gr_width_nonneg _ F).
  destruct (Z.eqb_spec (g_width g) 0); [apply IH; lia|]. destruct (Z.eqb_spec o 0); [lia|]. apply IH. lia.
Qed.

Definition opt_drawn (o : option gr) (c : cell) : cell := match o with Some g => drawn g c | None => c end.

Lemma draw_graphemes_redrawn gs : forall x y b, wf_buffer b -> Forall (fun g => 0 <= g_width g) gs ->
  rx (barea b) <= x -> x + gr_width gs <= rx (barea b) + rw (barea b) -> ry (barea b) <= y < ry (barea b) + rh (barea b) ->
  exists b', draw_graphemes gs x y b = Ret b' /\ redrawn (fun p c => if py p =? y then opt_drawn (gr_at gs (px p - x)) c else c) b b'.
Proof.
  induction gs as [|g gs IH]; intros x y b W F Hx Hw Hy; cbn [draw_graphemes gr_at].
  - exists b. split; [reflexivity|]. eapply redrawn_ext; [|apply redrawn_refl, W]. intros p c _. cbv beta. now destruct (py p =? y).
  - inversion F as [|? ? Hg F']; subst. pose proof (gr_width_nonneg _ F') as N. rewrite gr_width_cons in *.
    destruct (Z.eqb_spec (g_width g) 0) as [Ez|Ez]; [apply IH; auto; lia|].
    assert (Ip : inside (Pos x y) (barea b)) by (unfold inside; cbn; lia). cbv zeta.
    match goal with |- context [upd_cell b (Pos x y) ?f] => change f with (drawn g) end.
    destruct (upd_redrawn b (Pos x y) (drawn g) W Ip) as (b1 & E1 & R1). rewrite E1. cbn [bind]. pose proof (redrawn_area _ _ _ R1) as A1.
    destruct (IH (x + g_width g) y b1 (redrawn_wf _ _ _ R1) F') as (b' & E & R); try (rewrite A1; lia).
    exists b'. split; [exact E|]. eapply redrawn_ext; [|exact (redrawn_trans _ _ _ _ _ R1 R)]. intros p c _. cbv beta.
    destruct (pos_eqb_spec p (Pos x y)) as [->|Np]; cbn [px py].
    + rewrite Z.eqb_refl, Z.sub_diag. cbn. rewrite gr_at_neg by (auto; lia). reflexivity.
    + destruct (Z.eqb_spec (py p) y) as [Ey|Ny]; [|reflexivity]. destruct (Z.eqb_spec (px p - x) 0) as [Ex|Nx].
      * exfalso. apply Np. destruct p as [a d]. cbn in *. f_equal; lia.
      * replace (px p - x - g_width g) with (px p - (x + g_width g)) by lia. reflexivity.
Qed.

Definition row_drawn (W : Z) (l : wrapped_line) (x : Z) (c : cell) : cell := opt_drawn (gr_at (wl_line l) (x - begins (wl_align l) W (wl_width l))) c.

Lemma offset_begins W l : drawable W l -> line_offset (wl_width l) W (wl_align l) = Ret (begins (wl_align l) W (wl_width l)) /\ 0 <= begins (wl_align l) W (wl_width l) /\ begins (wl_align l) W (wl_width l) + wl_width l <= W.
Proof.
  intros (E & H & N & F). pose proof (gr_width_nonneg _ F). unfold line_offset, begins. destruct (wl_align l); try congruence.
  - split; [reflexivity|lia].
  - rewrite !Z.quot_div_nonneg by lia. pose proof (Z.div_mod W 2 ltac:(lia)). pose proof (Z.div_mod (wl_width l) 2 ltac:(lia)).
    pose proof (Z.mod_pos_bound W 2 ltac:(lia)). pose proof (Z.mod_pos_bound (wl_width l) 2 ltac:(lia)). split; [f_equal; lia|lia].
  - split; [f_equal; lia|lia].
Qed.

Lemma render_text_redrawn {S} (next : S -> option (wrapped_line * S)) area scroll fuel : 0 < rw area -> 0 < rh area -> 0 <= scroll ->
  forall st ls, yields next st ls -> Forall (drawable (rw area)) ls -> forall y b, wf_buffer b -> within area (barea b) -> 0 <= y < rh area + scroll ->
  rh area + scroll - y <= Z.of_nat fuel ->
  exists b', render_text next fuel st area scroll y b = Ret b' /\
    redrawn (fun p c => if contains area p && (y <=? py p - ry area + scroll) then match nth_error ls (Z.to_nat (py p - ry area + scroll - y)) with Some l => row_drawn (rw area) l (px p - rx area) c | None => c end else c) b b'.
Proof.
  intros Hw Hh Hs. induction fuel as [|fuel IH]; intros st ls Y D y b W In Hy Hf; [lia|]. cbn [render_text].
  inversion Y as [st0 E|st0 l st' ls' E Y']; subst; rewrite E.
  { exists b. split; [reflexivity|]. eapply redrawn_ext; [|apply redrawn_refl, W]. intros p c _. cbv beta. destruct (_ && _); [|reflexivity]. now destruct (Z.to_nat _). }
  inversion D as [|? ? Dl D']; subst. destruct (offset_begins (rw area) l Dl) as (Eo & O1 & O2).
  assert (Row : exists b1, (if y >=? scroll then let! x := line_offset (wl_width l) (rw area) (wl_align l) in draw_graphemes (wl_line l) (rx area + x) (ry area + y - scroll) b else Ret b) = Ret b1 /\
    redrawn (fun p c => if contains area p && (py p - ry area + scroll =? y) then row_drawn (rw area) l (px p - rx area) c else c) b b1).
  { rewrite Z.geb_leb. destruct (Z.leb_spec scroll y) as [Hsy|Hsy].
    - rewrite Eo. cbn [bind]. destruct Dl as (D1 & D2 & D3 & D4). unfold within in In.
      destruct (draw_graphemes_redrawn (wl_line l) (rx area + begins (wl_align l) (rw area) (wl_width l)) (ry area + y - scroll) b W D4) as (b1 & E1 & R1); try lia.
      exists b1. split; [exact E1|]. eapply redrawn_ext; [|exact R1]. intros p c _. cbv beta. unfold row_drawn.
      replace (px p - (rx area + begins (wl_align l) (rw area) (wl_width l))) with (px p - rx area - begins (wl_align l) (rw area) (wl_width l)) by lia.
      destruct (Z.eqb_spec (py p) (ry area + y - scroll)) as [Ey|Ny]; destruct (Z.eqb_spec (py p - ry area + scroll) y) as [Ey2|Ny2]; try lia; [|now rewrite andb_false_r].
      rewrite andb_true_r. destruct (contains area p) eqn:Ec; [reflexivity|]. apply contains_false in Ec. unfold opt_drawn.
      destruct (Z_lt_ge_dec (px p - rx area - begins (wl_align l) (rw area) (wl_width l)) 0); [now rewrite gr_at_neg by (auto; lia)|].
      rewrite gr_at_far; [reflexivity|exact D4|]. unfold inside in Ec. lia.
    - exists b. split; [reflexivity|]. eapply redrawn_ext; [|apply redrawn_refl, W]. intros p c _. cbv beta. destruct (contains area p) eqn:Ec; [|reflexivity].
      apply contains_inside in Ec. replace (_ =? y) with false; [reflexivity|]. symmetry. apply Z.eqb_neq. unfold inside in Ec. lia. }
  destruct Row as (b1 & -> & R1). cbn [bind].
  assert (Join : forall p c, (if contains area p && (y + 1 <=? py p - ry area + scroll) then match nth_error ls' (Z.to_nat (py p - ry area + scroll - (y + 1))) with Some l => row_drawn (rw area) l (px p - rx area) c | None => c end else if contains area p && (py p - ry area + scroll =? y) then row_drawn (rw area) l (px p - rx area) c else c) =
    (if contains area p && (y <=? py p - ry area + scroll) then match nth_error (l :: ls') (Z.to_nat (py p - ry area + scroll - y)) with Some l => row_drawn (rw area) l (px p - rx area) c | None => c end else c)).
  { intros p c. destruct (contains area p); cbn [andb]; [|reflexivity]. destruct (Z.leb_spec (y + 1) (py p - ry area + scroll)); destruct (Z.leb_spec y (py p - ry area + scroll)); destruct (Z.eqb_spec (py p - ry area + scroll) y); try lia; try reflexivity.
    - replace (Z.to_nat (py p - ry area + scroll - y)) with (Datatypes.S (Z.to_nat (py p - ry area + scroll - (y + 1)))) by lia. reflexivity.
    - replace (Z.to_nat (py p - ry area + scroll - y)) with O by lia. reflexivity. }
  rewrite Z.geb_leb. destruct (Z.leb_spec (rh area + scroll) (y + 1)) as [Hl|Hl].
  - exists b1. split; [reflexivity|]. eapply redrawn_ext; [|exact R1]. intros p c _. cbv beta. rewrite <- Join.
    destruct (contains area p) eqn:Ec; cbn [andb]; [|reflexivity]. apply contains_inside in Ec. replace (y + 1 <=? _) with false; [reflexivity|]. symmetry. apply Z.leb_gt. unfold inside in Ec. lia.
  - destruct (IH st' ls' Y' D' (y + 1) b1 (redrawn_wf _ _ _ R1)) as (b' & E' & R'); try lia; [now rewrite (redrawn_area _ _ _ R1)|].
    exists b'. split; [exact E'|]. eapply redrawn_ext; [|exact (redrawn_trans _ _ _ _ _ R1 R')]. intros p c _. cbv beta. rewrite <- Join.
    destruct (contains area p); cbn [andb]; [|reflexivity]. destruct (Z.leb_spec (y + 1) (py p - ry area + scroll)); [|reflexivity]. replace (_ =? y) with false; [reflexivity|]. symmetry. apply Z.eqb_neq. lia.
Qed.

Section Rows.
Variable u : uniseg.
Hypothesis Hu : uniseg_ok u.
Definition pr (g : gr) : str * style := (g_sym g, g_style g).
Definition fine (g : gr) : Prop := (g_sym g = [] /\ g_width g = 0) \/ proper u g.

Lemma pr_lines t ln : map pr (line_graphemes u (tx_style t) ln) = text_of u t ln.
Proof.
  unfold line_graphemes, text_of, styled_graphemes. induction (ln_spans ln) as [|s l IH]; [reflexivity|]. cbn [flat_map]. rewrite map_app, IH. f_equal. rewrite !map_map. cbn [fst snd].
  assert (Ef : filter (fun c => negb (existsb is_control c)) (clusters u (sp_content s)) = filter printable (clusters u (sp_content s))).
  { apply filter_ext. intros c. unfold printable. induction c as [|r c IHc]; [reflexivity|]. cbn [existsb forallb]. rewrite negb_orb, IHc. f_equal. unfold is_control.
    destruct (N.ltb_spec r 32), (N.leb_spec 32 r), (N.leb_spec 127 r), (N.ltb_spec r 127), (N.ltb_spec r 160), (N.leb_spec 160 r); try reflexivity; lia. }
  rewrite Ef. reflexivity.
Qed.
Lemma proper_fine l : Forall (proper u) l -> Forall fine l. Proof. apply Forall_impl. now right. Qed.
Lemma columns_cons c l : columns_of u (c :: l) = cwidth u (fst c) + columns_of u l. Proof. unfold columns_of. cbn [map]. apply zsum_cons. Qed.
Lemma row_columns l : Forall fine l -> columns_of u (map pr (marks l)) = gr_width l.
Proof.
  induction 1 as [|g l H _ IH]; [reflexivity|]. rewrite gr_width_cons. cbn [marks filter]. fold (marks l). destruct H as [[Es Ew]|(_ & Ew & Ns)].
  - rewrite Es. cbn. rewrite Ew. exact IH.
  - rewrite (proj2 (zlen_zero_false _) Ns). cbn [negb map]. rewrite columns_cons, IH. cbn [pr fst]. lia.
Qed.
Lemma row_starts l : Forall fine l -> forall o c, opt_drawn (gr_at l o) c = match starts_at u (map pr (marks l)) o with Some (s, st) => cell_set_style st (cell_set_symbol s c) | None => c end.
Proof.
  induction 1 as [|g l H _ IH]; intros o c; [reflexivity|]. cbn [gr_at marks filter]. fold (marks l). destruct H as [[Es Ew]|(_ & Ew & Ns)].
  - rewrite Es, Ew. cbn. apply IH.
  - rewrite (proj2 (zlen_zero_false _) Ns). cbn [negb map starts_at pr fst]. rewrite <- Ew. destruct (g_width g =? 0); [apply IH|]. destruct (o =? 0); [|apply IH]. cbn [opt_drawn]. unfold drawn, pr. destruct (g_sym g); [congruence|reflexivity].
Qed.
Definition row_of (l : wrapped_line) : alignment * list (str * style) := (wl_align l, map pr (marks (wl_line l))).

(** A composer whose rows can be drawn: the area shows them. *)
Lemma shown_rows {S} (next : S -> option (wrapped_line * S)) st ls p area b : wf_buffer b -> within area (barea b) -> 0 < rw area -> 0 < rh area -> 0 <= pg_scroll_y p ->
  yields next st ls -> Forall (drawable (rw area)) ls -> Forall (fun l => Forall fine (wl_line l)) ls ->
  exists b', (let! b1 := buffer_set_style b area (pg_style p) in render_text next (render_fuel area (pg_scroll_y p)) st area (pg_scroll_y p) 0 b1) = Ret b' /\
    shows u p area (map row_of ls) b b'.
Proof.
  intros W In Hw Hh Hs Y D Fi. destruct (set_style_redrawn b area (pg_style p) W) as (b1 & -> & R1). cbn [bind].
  destruct (render_text_redrawn next area (pg_scroll_y p) (render_fuel area (pg_scroll_y p)) Hw Hh Hs st ls Y D 0 b1 (redrawn_wf _ _ _ R1)) as (b' & E & R); try lia.
  { now rewrite (redrawn_area _ _ _ R1). } { unfold render_fuel. lia. }
  exists b'. split; [exact E|]. pose proof (redrawn_trans _ _ _ _ _ R1 R) as (A & _ & L). split; [exact A|]. intros q. rewrite L. cbv beta.
  destruct (contains area q) eqn:Ec; cbn [andb]; [|now destruct (look b q)]. apply contains_inside in Ec. destruct (look b q) as [c|]; [|reflexivity]. cbn [option_map]. f_equal. cbv zeta.
  replace (0 <=? _) with true by (symmetry; apply Z.leb_le; unfold inside in Ec; lia). rewrite Z.sub_0_r. rewrite nth_error_map.
  destruct (nth_error ls _) as [l|] eqn:En; [|reflexivity]. cbn [option_map row_of]. unfold row_drawn. apply nth_error_In in En. rewrite Forall_forall in Fi, D. specialize (Fi l En). destruct (D l En) as (Dw & _).
  rewrite row_columns by exact Fi. rewrite <- Dw. apply row_starts, Fi.
Qed.

Lemma subseq_map {A B} (f : A -> B) l m : subseq l m -> subseq (map f l) (map f m).
Proof. induction 1; cbn; constructor; auto. Qed.
Lemma marks_concat ls : marks (concat ls) = concat (map marks ls).
Proof. induction ls as [|l ls IH]; [reflexivity|]. cbn. rewrite <- IH. apply filter_app. Qed.
Lemma printed_marks l : printed (map pr (marks l)) = map pr (ink l).
Proof.
  unfold printed, ink, marks. induction l as [|g l IH]; [reflexivity|]. cbn [filter]. destruct (g_sym g) eqn:Es.
  - cbn. exact IH.
  - change (zlen (n :: s) =? 0) with false. cbn [negb map filter pr fst]. rewrite Es. destruct (negb _); cbn [map]; [f_equal|]; exact IH.
Qed.
End Rows.

(** ** C98 *)

(** With word wrapping, for graphemes of at most one column and words that fit: the area shows rows that hold, line after line of the text and in order,
    exactly the non-blank graphemes of each line, each once, in its style, aligned as the line asks; blanks may be left out at the line breaks, nothing is
    added, and no row is wider than the area. *)
Theorem C98_wrapped_partial : forall u p area b trim, uniseg_ok u -> wf_buffer b -> 0 < rw area -> 0 < rh area -> within area (barea b) -> paragraph_ok p -> pg_wrap p = Some trim ->
  (forall ln c, In ln (tx_lines (pg_text p)) -> In c (text_of u (pg_text p) ln) -> cwidth u (fst c) <= 1) ->
  (forall ln, In ln (tx_lines (pg_text p)) -> words_within u (rw area) (text_of u (pg_text p) ln)) ->
  exists b' groups, paragraph_render_text u p area b = Ret b' /\ shows u p area (concat groups) b b' /\
    Forall2 (fun ln rows => rows <> [] /\ (forall r, In r rows -> fst r = alignment_of p ln /\ columns_of u (snd r) <= rw area) /\
      printed (concat (map snd rows)) = printed (text_of u (pg_text p) ln) /\ subseq (concat (map snd rows)) (text_of u (pg_text p) ln)) (tx_lines (pg_text p)) groups.
Proof.
  intros u p area b trim Hu W P1 P2 In_ (Ha & Hx & Hy) Hwrap Hone Hwords.
  destruct (wrapper_yields (paragraph_input u p) (new_word_wrapper (paragraph_input u p) (rw area) trim) eq_refl) as (g & Y & F); [cbn; lia|].
  cbn [new_word_wrapper ww_wrapped map app ww_max ww_trim] in *.
  assert (Zero : fine u zero_gr) by (left; split; reflexivity).
  assert (G : Forall2 (fun ln rows => Forall (drawable (rw area)) rows /\ Forall (fun l => Forall (fine u) (wl_line l)) rows /\ rows <> [] /\
     (forall r, In r (map row_of rows) -> fst r = alignment_of p ln /\ columns_of u (snd r) <= rw area) /\
      printed (concat (map snd (map row_of rows))) = printed (text_of u (pg_text p) ln) /\ subseq (concat (map snd (map row_of rows))) (text_of u (pg_text p) ln)) (tx_lines (pg_text p)) g).
  { clear Y. unfold paragraph_input in F. revert g F Hone Hwords. induction (tx_lines (pg_text p)) as [|ln lns IH]; intros g F Hone Hwords; inversion F as [|i rows is gs (line & word & E) F']; subst; constructor; [|apply IH; auto; intros; [eapply Hone; [right|]; eauto|apply Hwords; now right]].
    clear F IH F'. cbn [il_graphemes il_align]. set (L := line_graphemes u (tx_style (pg_text p)) ln). pose proof (line_graphemes_proper u (tx_style (pg_text p)) ln Hu) as Pr. fold L in Pr.
    assert (EL : map pr L = text_of u (pg_text p) ln) by apply (pr_lines u).
    assert (Wd : Forall (fun g => 0 <= g_width g <= 1) L).
    { apply Forall_forall. intros x I. rewrite Forall_forall in Pr. destruct (Pr x I) as (_ & -> & _). split; [apply (cwidth_nonneg _ Hu)|]. apply (Hone ln (pr x)); [now left|]. rewrite <- EL. now apply in_map. }
    assert (Sw : short_words (rw area) L).
    { intros pre w post E Iw. pose proof (Hwords ln (or_introl eq_refl) (map pr pre) (map pr w) (map pr post)) as Q. rewrite <- !map_app, <- E, EL in Q. specialize (Q eq_refl).
      assert (Fw : Forall (proper u) w) by (rewrite E in Pr; apply Forall_app in Pr; destruct Pr as [_ Pr]; apply Forall_app in Pr; tauto).
      rewrite <- (row_columns u w (proper_fine u w Fw)). rewrite marks_all by (eapply Forall_impl; [|exact Fw]; intros x (_ & _ & X); exact X). apply Q.
      intros c I. apply in_map_iff in I. destruct I as (x & <- & I). cbn [pr fst]. unfold is_word in Iw. rewrite Forall_forall in Iw. auto. }
    pose proof (produced_narrow (rw area) trim line word L ltac:(lia) Wd Sw) as Nr. rewrite Forall_forall in Nr.
    pose proof (produced_p (fine u) Zero (rw area) trim line word L (proper_fine u L Pr)) as Qf.
    assert (Rf : forall l, In l (produced (rw area) trim line word L) -> Forall (fine u) l).
    { intros l I. apply Forall_forall. intros x Ix. rewrite Forall_forall in Qf. apply Qf. apply in_concat. eauto. }
    assert (Fp : forall l, Forall (fine u) l -> Forall (fun g => 0 <= g_width g) l).
    { intros l. apply Forall_impl. intros x [[_ ->]|(_ & -> & _)]; [lia|apply (cwidth_nonneg _ Hu)]. }
    assert (Al : match ln_align ln with AlignNone => pg_align p | a => a end = alignment_of p ln) by reflexivity. rewrite Al.
    split; [|split; [|split; [|split; [|split]]]].
    - apply Forall_forall. intros r Ir. apply in_map_iff in Ir. destruct Ir as (l & <- & Ir). split; [reflexivity|]. split; [exact (Nr l Ir)|]. split; [cbn; unfold alignment_of; destruct (ln_align ln); congruence|]. apply Fp, Rf, Ir.
    - apply Forall_forall. intros r Ir. apply in_map_iff in Ir. destruct Ir as (l & <- & Ir). apply Rf, Ir.
    - intros X. apply map_eq_nil in X. now apply produced_nonempty in X.
    - intros r Ir. apply in_map_iff in Ir. destruct Ir as (wl & <- & Ir). apply in_map_iff in Ir. destruct Ir as (l & <- & Ir). split; [reflexivity|]. cbn [row_of as_line wl_line snd]. rewrite row_columns by (apply Rf, Ir). exact (Nr l Ir).
    - rewrite !map_map. cbn [row_of as_line wl_line snd]. rewrite <- EL. rewrite <- (map_map marks (map pr)), <- concat_map, <- marks_concat, printed_marks, produced_ink.
      assert (Ff : fitting (rw area) L = L). { unfold fitting. clear - Wd P1. induction Wd as [|x l H _ IHl]; [reflexivity|]. cbn. replace (g_width x <=? rw area) with true by (symmetry; apply Z.leb_le; lia). now f_equal. }
      rewrite Ff. rewrite <- printed_marks. rewrite marks_all; [reflexivity|]. eapply Forall_impl; [|exact Pr]. intros x (_ & _ & X); exact X.
    - rewrite !map_map. cbn [row_of as_line wl_line snd]. rewrite <- EL. rewrite <- (map_map marks (map pr)), <- concat_map, <- marks_concat. apply subseq_map, produced_ordered. }
  assert (D : Forall (drawable (rw area)) (concat g) /\ Forall (fun l => Forall (fine u) (wl_line l)) (concat g)).
  { clear - G. induction G as [|ln rows lns gs (H1 & H2 & _) _ IH]; [split; constructor|]. cbn [concat]. split; apply Forall_app; tauto. }
  destruct (shown_rows u wrapper_next _ _ p area b W In_ P1 P2 Hy Y (proj1 D) (proj2 D)) as (b' & E & Sh).
  exists b', (map (map row_of) g). split.
  { unfold paragraph_render_text. rewrite Hwrap. replace (rect_is_empty area) with false; [exact E|]. symmetry. unfold rect_is_empty. apply orb_false_iff. rewrite !Z.eqb_neq. lia. }
  split; [rewrite <- concat_map; exact Sh|].
  clear - G. induction G as [|ln rows lns gs (_ & _ & H3 & H4 & H5 & H6) _ IH]; constructor; [|exact IH]. split; [intros X; apply map_eq_nil in X; contradiction|]. auto.
Qed.
Print Assumptions C98_wrapped_partial.

Section Truncated.
Variable u : uniseg.
Hypothesis Hu : uniseg_ok u.
Lemma new_gr_proper g : proper u g -> new_gr u (g_sym g) (g_style g) = g.
Proof. intros (E & W & _). unfold new_gr, string_width. rewrite E. cbn [map]. rewrite zsum_cons. destruct g as [s w st]. cbn in *. f_equal. rewrite W. change (zsum []) with 0. lia. Qed.
Lemma trunc_line_fine max al gs : Forall (proper u) gs -> forall cur w off, Forall (fine u) cur -> Forall (fine u) (fst (fst (trunc_line u max al gs cur w off))).
Proof.
  induction 1 as [|g gs Pg _ IH]; intros cur w off Fc; cbn [trunc_line fst]; [exact Fc|]. destruct (g_width g >? max); [apply IH, Fc|]. destruct (w + g_width g >? max); [exact Fc|].
  destruct ((off =? 0) || _); [|destruct (Z.gtb_spec (g_width g) off) as [Ho|Ho]].
  - apply IH. apply Forall_app. split; [exact Fc|]. constructor; [|constructor]. rewrite new_gr_proper by exact Pg. now right.
  - assert (Et : trim_offset u (g_sym g) off = g_sym g).
    { destruct Pg as (E & W & _). unfold trim_offset. rewrite E. cbn [trim_offset_loop]. rewrite <- W. replace (g_width g >? off) with true by (symmetry; apply Z.gtb_lt; lia). cbn. apply app_nil_r. }
    rewrite Et. apply IH. apply Forall_app. split; [exact Fc|]. constructor; [|constructor]. rewrite new_gr_proper by exact Pg. now right.
  - apply IH. apply Forall_app. split; [exact Fc|]. constructor; [|constructor]. left. split; [reflexivity|]. cbn. unfold string_width. now rewrite (clusters_nil u Hu).
Qed.
Lemma trunc_lines_fine max lines : Forall (fun i => Forall (proper u) (il_graphemes i)) lines -> forall al cur w off, Forall (fine u) cur -> Forall (fine u) (fst (fst (trunc_lines u max lines al cur w off))).
Proof.
  induction 1 as [|i lines Pi _ IH]; intros al cur w off Fc; cbn [trunc_lines fst]; [exact Fc|].
  pose proof (trunc_line_fine max (il_align i) (il_graphemes i) Pi cur w off Fc) as F. destruct (trunc_line _ _ _ _ _ _ _) as [[cur' w'] off']. apply IH. exact F.
Qed.

Lemma unwrapped_row p area b l : wf_buffer b -> 0 < rw area -> 0 < rh area -> within area (barea b) -> paragraph_ok p -> pg_wrap p = None ->
  yields (truncator_next u) (Truncator (paragraph_input u p) (rw area) [] (pg_scroll_x p)) [l] -> wl_align l <> AlignNone ->
  exists b', paragraph_render_text u p area b = Ret b' /\ shows u p area [row_of l] b b'.
Proof.
  intros W P1 P2 In_ (Ha & Hx & Hy) Hwrap Y Nal.
  assert (Fl : Forall (fine u) (wl_line l)).
  { inversion Y as [|? ? ? ? E _]; subst. unfold truncator_next in E. cbn [lt_max lt_input lt_current lt_offset] in E. destruct (rw area =? 0); [discriminate|].
    pose proof (trunc_lines_fine (rw area) _ (input_proper u p Hu) AlignLeft (clear_slice []) 0 (pg_scroll_x p) (Forall_nil _)) as F. destruct (trunc_lines _ _ _ _ _ _ _) as [[cur w] al].
    destruct (paragraph_input u p); [discriminate|]. injection E as <- _. exact F. }
  assert (D : drawable (rw area) l).
  { assert (P0 : 0 <= rw area) by lia. pose proof (C22_rows_fit u _ _ _ _ Hu P0 Hx (input_proper u p Hu) Y) as F. inversion F as [|? ? [F1 F2] _]; subst. split; [exact F1|]. split; [exact F2|]. split; [exact Nal|].
    eapply Forall_impl; [|exact Fl]. intros x [[_ ->]|(_ & -> & _)]; [lia|apply (cwidth_nonneg _ Hu)]. }
  destruct (shown_rows u (truncator_next u) _ [l] p area b W In_ P1 P2 Hy Y ltac:(constructor; [exact D|constructor]) ltac:(constructor; [exact Fl|constructor])) as (b' & E & Sh).
  exists b'. split; [|exact Sh]. unfold paragraph_render_text. rewrite Hwrap. replace (rect_is_empty area) with false; [exact E|]. symmetry. unfold rect_is_empty. apply orb_false_iff. rewrite !Z.eqb_neq. lia.
Qed.
Lemma pr_fitting W l : Forall (proper u) l -> map pr (fitting W l) = that_fit u W (map pr l).
Proof. induction 1 as [|g l (_ & E & _) _ IH]; [reflexivity|]. cbn. rewrite <- E. destruct (g_width g <=? W); cbn [map]; [f_equal|]; exact IH. Qed.
Lemma pr_columns l : Forall (proper u) l -> columns_of u (map pr l) = gr_width l.
Proof. intros H. rewrite <- (row_columns u l (proper_fine u l H)). rewrite marks_all; [reflexivity|]. eapply Forall_impl; [|exact H]. intros x (_ & _ & X). exact X. Qed.
End Truncated.

(** Without wrapping, a text of one line: the row shows, in the styles and with the alignment of the line, the longest run of graphemes that fits, after those
    the paragraph is scrolled past; only left-aligned lines scroll. *)
Theorem C98_unwrapped_partial : forall u p area b ln, uniseg_ok u -> wf_buffer b -> 0 < rw area -> 0 < rh area -> within area (barea b) -> paragraph_ok p -> pg_wrap p = None ->
  tx_lines (pg_text p) = [ln] ->
  exists b' gone row rest, paragraph_render_text u p area b = Ret b' /\ shows u p area [(alignment_of p ln, row)] b b' /\
    that_fit u (rw area) (text_of u (pg_text p) ln) = gone ++ row ++ rest /\ (alignment_of p ln <> AlignLeft -> gone = []) /\ columns_of u gone <= pg_scroll_x p /\
    (alignment_of p ln = AlignLeft -> forall c r, row ++ rest = c :: r -> columns_of u gone = pg_scroll_x p \/ pg_scroll_x p < columns_of u gone + cwidth u (fst c)) /\
    (forall c r, rest = c :: r -> rw area < columns_of u row + cwidth u (fst c)).
Proof.
  intros u p area b ln Hu W P1 P2 In_ Hp Hwrap Eln. assert (Hp' := Hp). destruct Hp' as (Ha & Hx & Hy).
  set (L := line_graphemes u (tx_style (pg_text p)) ln). pose proof (line_graphemes_proper u (tx_style (pg_text p)) ln Hu) as Pr. fold L in Pr.
  assert (EL : map pr L = text_of u (pg_text p) ln) by apply (pr_lines u).
  assert (Ei : paragraph_input u p = [InputLine L (alignment_of p ln)]) by (unfold paragraph_input; rewrite Eln; reflexivity).
  destruct (C22_single_line_partial u (InputLine L (alignment_of p ln)) (rw area) (pg_scroll_x p) Hu ltac:(lia) Hx Pr) as (l & gone & row & rest & Y & Al & Mk & Wd & Fit & G1 & G2 & G3 & G4).
  cbn [il_graphemes il_align] in *. rewrite <- Ei in Y.
  destruct (unwrapped_row u Hu p area b l W P1 P2 In_ Hp Hwrap Y) as (b' & E & Sh); [rewrite Al; unfold alignment_of; destruct (ln_align ln); congruence|].
  assert (PF : Forall (proper u) (gone ++ row ++ rest)).
  { rewrite <- Fit. apply Forall_forall. intros x I. unfold fitting in I. apply filter_In in I. rewrite Forall_forall in Pr. apply Pr. tauto. }
  assert (P3 := PF). apply Forall_app in P3. destruct P3 as [Pg P3]. apply Forall_app in P3. destruct P3 as [Prow Prest].
  exists b', (map pr gone), (map pr row), (map pr rest). split; [exact E|]. split; [unfold row_of in Sh; rewrite Al, Mk in Sh; exact Sh|].
  split; [rewrite <- EL, <- (pr_fitting u _ _ Pr), Fit, !map_app; reflexivity|]. split; [intros N; rewrite (G1 N); reflexivity|]. rewrite !(pr_columns u) by assumption. split; [exact G2|]. split.
  - intros Ll c r Ec. rewrite <- map_app in Ec. destruct (row ++ rest) as [|g rs] eqn:Er; [discriminate|]. injection Ec as <- _. specialize (G3 Ll g rs eq_refl).
    assert (Pgr : proper u g). { apply Forall_app in PF. destruct PF as [_ PF]. now inversion PF. } destruct Pgr as (_ & Eg & _). cbn [pr fst]. rewrite <- Eg. exact G3.
  - intros c r Ec. destruct rest as [|g rs]; [discriminate|]. injection Ec as <- _. inversion Prest as [|? ? (_ & Eg & _) _]; subst. cbn [pr fst]. rewrite <- Eg. apply (G4 g rs eq_refl).
Qed.
Print Assumptions C98_unwrapped_partial.

(** Without wrapping, a text of several lines of one-column graphemes: the lines are not shown in rows of their own, but joined into one row, which is aligned
    as the last line and shows as many graphemes as fit. *)
Theorem C98_lines_joined_refuted : forall u p area b, uniseg_ok u -> wf_buffer b -> 0 < rw area -> 0 < rh area -> within area (barea b) -> paragraph_ok p -> pg_wrap p = None ->
  pg_scroll_x p = 0 -> tx_lines (pg_text p) <> [] ->
  (forall ln c, In ln (tx_lines (pg_text p)) -> In c (text_of u (pg_text p) ln) -> cwidth u (fst c) = 1) ->
  exists b', paragraph_render_text u p area b = Ret b' /\
    shows u p area [(alignment_of p (last (tx_lines (pg_text p)) (new_line [])), firstn (Z.to_nat (rw area)) (concat (map (text_of u (pg_text p)) (tx_lines (pg_text p)))))] b b'.
Proof.
  intros u p area b Hu W P1 P2 In_ Hp Hwrap Hx Hne Hone.
  set (W0 := rw area) in *.
  assert (Line : forall gs al cur w, Forall (proper u) gs -> (forall g, In g gs -> g_width g = 1) -> w = zlen cur -> w <= W0 ->
    trunc_line u W0 al gs cur w 0 = (firstn (Z.to_nat W0) (cur ++ gs), Z.min W0 (w + zlen gs), 0)).
  { induction gs as [|g gs IH]; intros al cur w Pg G1 Ew Hw; cbn [trunc_line].
    - rewrite (app_nil_r cur). change (zlen (@nil gr)) with 0. rewrite firstn_all2 by (unfold zlen in *; lia). f_equal. f_equal. lia.
    - inversion Pg as [|? ? Pg1 Pg2]; subst. assert (E1 : g_width g = 1) by (apply G1; now left). rewrite E1. replace (1 >? W0) with false by (symmetry; rewrite Z.gtb_ltb; apply Z.ltb_ge; lia).
      rewrite zlen_cons. pose proof (zlen_nonneg gs). destruct (Z.gtb_spec (zlen cur + 1) W0) as [Hf|Hf].
      + f_equal. f_equal; [|lia]. rewrite firstn_app. replace (Z.to_nat W0 - length cur)%nat with O by (unfold zlen in *; lia). cbn [firstn]. rewrite app_nil_r. now rewrite firstn_all2 by (unfold zlen in *; lia).
      + cbn [orb Z.eqb]. rewrite (new_gr_proper u g Pg1). rewrite IH; [|exact Pg2|intros; apply G1; now right| |].
        * rewrite <- app_assoc. cbn [app]. f_equal. f_equal. assert (string_width u (g_sym g) = 1) by (destruct Pg1 as (Ec & Eg & _); unfold string_width; rewrite Ec; cbn [map]; rewrite zsum_cons; change (zsum []) with 0; lia). lia.
        * rewrite zlen_app, zlen_cons, zlen_nil. destruct Pg1 as (Ec & Eg & _); unfold string_width; rewrite Ec; cbn [map]; rewrite zsum_cons; change (zsum []) with 0. lia.
        * destruct Pg1 as (Ec & Eg & _); unfold string_width; rewrite Ec; cbn [map]; rewrite zsum_cons; change (zsum []) with 0. lia. }
  set (G := fun ln => line_graphemes u (tx_style (pg_text p)) ln).
  assert (Pr : forall ln, Forall (proper u) (G ln)) by (intros; apply line_graphemes_proper; exact Hu).
  assert (EL : forall ln, map pr (G ln) = text_of u (pg_text p) ln) by (intros; apply (pr_lines u)).
  assert (G1 : forall ln g, In ln (tx_lines (pg_text p)) -> In g (G ln) -> g_width g = 1).
  { intros ln g I J. pose proof (Pr ln) as Q. rewrite Forall_forall in Q. destruct (Q g J) as (_ & -> & _). apply (Hone ln (pr g) I). rewrite <- EL. now apply in_map. }
  assert (Lines : forall lns al cur w, (forall ln, In ln lns -> In ln (tx_lines (pg_text p))) -> w = zlen cur -> w <= W0 ->
    exists w', trunc_lines u W0 (map (fun l => InputLine (G l) (alignment_of p l)) lns) al cur w 0 = (firstn (Z.to_nat W0) (cur ++ concat (map G lns)), w', match lns with [] => al | _ => alignment_of p (last lns (new_line [])) end)).
  { induction lns as [|ln lns IH]; intros al cur w I Ew Hw; cbn [map trunc_lines concat].
    - exists w. rewrite app_nil_r. rewrite firstn_all2 by (unfold zlen in *; lia). reflexivity.
    - cbn [il_align il_graphemes]. rewrite (Line (G ln) (alignment_of p ln) cur w (Pr ln) ltac:(intros; apply (G1 ln); [apply I; now left|assumption]) Ew Hw).
      destruct (IH (alignment_of p ln) (firstn (Z.to_nat W0) (cur ++ G ln)) (Z.min W0 (w + zlen (G ln)))) as (w' & E).
      + intros; apply I; now right.
      + unfold zlen in *. rewrite firstn_length, app_length. lia.
      + lia.
      + exists w'. rewrite E. f_equal; [f_equal|].
        * rewrite app_assoc. set (A := cur ++ G ln). set (B := concat (map G lns)). rewrite !firstn_app. rewrite firstn_firstn, Nat.min_id. rewrite firstn_length.
          destruct (Nat.le_gt_cases (length A) (Z.to_nat W0)); [rewrite Nat.min_r by lia; reflexivity|]. rewrite Nat.min_l by lia. f_equal. f_equal. lia.
        * destruct lns; reflexivity. }
  assert (Ei : paragraph_input u p = map (fun l => InputLine (G l) (alignment_of p l)) (tx_lines (pg_text p))) by reflexivity.
  destruct (Lines (tx_lines (pg_text p)) AlignLeft [] 0 (fun _ H => H) eq_refl ltac:(lia)) as (w' & E). cbn [app] in E.
  set (R := firstn (Z.to_nat W0) (concat (map G (tx_lines (pg_text p))))) in *.
  assert (Al : match tx_lines (pg_text p) with [] => AlignLeft | _ => alignment_of p (last (tx_lines (pg_text p)) (new_line [])) end = alignment_of p (last (tx_lines (pg_text p)) (new_line []))) by (destruct (tx_lines (pg_text p)); [congruence|reflexivity]).
  rewrite Al in E.
  assert (Y : yields (truncator_next u) (Truncator (paragraph_input u p) W0 [] (pg_scroll_x p)) [WrappedLine R w' (alignment_of p (last (tx_lines (pg_text p)) (new_line [])))]).
  { econstructor.
    - unfold truncator_next. cbn [lt_max lt_input lt_current lt_offset]. replace (W0 =? 0) with false by (symmetry; apply Z.eqb_neq; lia). rewrite Hx, Ei. cbn [clear_slice map]. rewrite E. destruct (tx_lines (pg_text p)); [congruence|]. reflexivity.
    - constructor. unfold truncator_next. cbn. now destruct (W0 =? 0). }
  destruct (unwrapped_row u Hu p area b _ W P1 P2 In_ Hp Hwrap Y) as (b' & Eb & Sh).
  { cbn. destruct Hp as (Ha & _). unfold alignment_of. destruct (ln_align _); congruence. }
  exists b'. split; [exact Eb|]. unfold row_of in Sh. cbn [wl_align wl_line] in Sh.
  assert (ER : map pr (marks R) = firstn (Z.to_nat W0) (concat (map (text_of u (pg_text p)) (tx_lines (pg_text p))))).
  { assert (PR : Forall (proper u) (concat (map G (tx_lines (pg_text p))))) by (apply Forall_forall; intros x I; apply in_concat in I; destruct I as (l & I & J); apply in_map_iff in I; destruct I as (ln & <- & _); pose proof (Pr ln) as Q; rewrite Forall_forall in Q; auto).
    rewrite marks_all.
    - unfold R. rewrite <- firstn_map, concat_map, map_map. f_equal. f_equal. apply map_ext. exact EL.
    - apply Forall_forall. intros x I. rewrite Forall_forall in PR. apply (PR x). rewrite <- (firstn_skipn (Z.to_nat W0)). apply in_or_app. now left. }
  rewrite ER in Sh. exact Sh.
Qed.
Print Assumptions C98_lines_joined_refuted.

Lemma words_from_short u t ln W : uniseg_ok u -> short_words W (line_graphemes u (tx_style t) ln) -> words_within u W (text_of u t ln).
Proof.
  intros Hu H pre word post E Iw. rewrite <- (pr_lines u) in E. symmetry in E. symmetry in E. apply map_eq_app in E.
  destruct E as (l1 & l2 & E & E1 & E2). apply map_eq_app in E2. destruct E2 as (l3 & l4 & E2 & E3 & E4). subst.
  assert (Pr : Forall (proper u) l3). { pose proof (line_graphemes_proper u (tx_style t) ln Hu) as Q. rewrite E in Q. apply Forall_app in Q. destruct Q as [_ Q]. apply Forall_app in Q. tauto. }
  rewrite (pr_columns u) by exact Pr. apply (H l1 l3 l4 E). apply Forall_forall. intros g I. apply (Iw (pr g)). now apply in_map.
Qed.

(** "ab cde f" in bold on a reversed paragraph, the second word underlined, centred in four columns. *)
Definition styled_par (w : option bool) : paragraph :=
  Paragraph (reversed new_style) w (Text (bold new_style) [Line new_style [new_span [97; 98; 32]%N; Span (underlined new_style) [99; 100; 101]%N; new_span [32; 102]%N] AlignCenter] AlignNone) 0 0 AlignLeft.
Example C98_instance : paragraph_ok (styled_par (Some true)) /\
  (forall ln c, In ln (tx_lines (pg_text (styled_par (Some true)))) -> In c (text_of simple_uniseg (pg_text (styled_par (Some true))) ln) -> cwidth simple_uniseg (fst c) <= 1) /\
  (forall ln, In ln (tx_lines (pg_text (styled_par (Some true)))) -> words_within simple_uniseg 4 (text_of simple_uniseg (pg_text (styled_par (Some true))) ln)) /\
  omap (fun b => (map csym (bcells b), map cmod (bcells b))) (paragraph_render_text simple_uniseg (styled_par (Some true)) (Rect 0 0 4 2) (blank_buffer 4 2)) =
    Ret ([[32]; [97]; [98]; [32]; [32]; [99]; [100]; [101]]%N, [64; 65; 65; 64; 64; 73; 73; 73]%N).
Proof.
  split; [split; [discriminate|cbn; lia]|]. split; [|split; [|vm_compute; reflexivity]].
  - intros ln c [<-|[]] I. cbn in I. repeat (destruct I as [<-|I]; [vm_compute; discriminate|]). destruct I.
  - intros ln [<-|[]]. apply words_from_short; [apply simple_uniseg_ok|]. apply words_ok_short; [cbn; repeat constructor; cbn; lia|vm_compute; reflexivity].
Qed.
(** Without wrapping the row is cut, and two lines are joined. *)
Example C98_unwrapped_instance : omap (fun b => map csym (bcells b)) (paragraph_render_text simple_uniseg (styled_par None) (Rect 0 0 4 2) (blank_buffer 4 2)) =
    Ret [[97]; [98]; [32]; [99]; [32]; [32]; [32]; [32]]%N /\
  omap (fun b => map csym (bcells b)) (paragraph_render_text simple_uniseg (Paragraph new_style None (new_text [new_line_str [97%N]; new_line_str [98%N]]) 0 0 AlignRight) (Rect 0 0 4 2) (blank_buffer 4 2)) =
    Ret [[32]; [32]; [97]; [98]; [32]; [32]; [32]; [32]]%N.
Proof. split; vm_compute; reflexivity. Qed.
