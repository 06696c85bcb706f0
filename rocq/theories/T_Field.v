(** C99: what a text input shows. *)
From Verif Require Import Base P_Base M_Geom S_Geom T_Geom M_Style M_Uniseg M_Buffer S_Buffer S_Text P_Buffer P_SetString T_Buffer M_Text S_Line P_Text T_Text P_Redraw M_Block S_Block P_Block T_Block M_Slice M_List P_List T_List M_Reflow M_Input S_Input P_Input P_InputView T_Input S_Field T_View.
From Coq Require Import ZArith NArith List Bool Lia.
Import ListNotations.
Open Scope Z_scope.
Local Arguments zlen : simpl never.

(** The line drawn, with or without a shown cursor. *)
Lemma line_of_bounds u i width s f l : uniseg_ok u -> is_text s <> [] -> clusters u (is_string s) = is_text s ->
  let max_w := width - string_width u (ip_prompt i) - 1 in get_bounds (map (string_width u) (is_text s)) (is_cursor s) (is_offset s) max_w = Ret (f, l) ->
  0 <= f <= is_cursor s -> is_cursor s <= l <= zlen (is_text s) -> f < l -> clusters u [32%N] = [[32%N]] ->
  exists ln, input_line_of u i width s = Ret (ln, IState (is_cursor s) (is_show s) (is_text s) f) /\ ln_style ln = new_style /\ ln_align ln = ip_align i /\
    line_cells u (ln_spans ln) = field_cells u i (is_text s) (is_cursor s) (is_show s) f l.
Proof.
  intros Hu Hne Hst max_w E F1 F2 F3 Hsp.
  assert (Hcs : forall c, In c (is_text s) -> c <> []) by (intros c Hc; rewrite <- Hst in Hc; now apply (clusters_nonempty u Hu) in Hc).
  unfold input_line_of. fold max_w. rewrite E. cbn [bind is_text is_offset is_cursor is_show].
  set (t := is_text s) in *. set (c := is_cursor s) in *.
  assert (Et : (let! rest := skip t f in take rest (l - f)) = Ret (slice t f l)).
  { unfold skip. rewrite Z.geb_leb. replace (zlen t <=? f) with false by (symmetry; apply Z.leb_gt; lia).
    replace (f <? 0) with false by (symmetry; apply Z.ltb_ge; lia). cbn [bind]. unfold take, slice.
    assert (El : zlen (skipn (Z.to_nat f) t) = zlen t - f) by (unfold zlen in *; rewrite skipn_length; lia).
    rewrite El. rewrite Z.min_l by lia. replace (l - f <? 0) with false by (symmetry; apply Z.ltb_ge; lia). reflexivity. }
  destruct (skip t f) as [rest|]; [|discriminate]. cbn [bind] in Et |- *. rewrite Et. cbn [bind].
  unfold input_split. assert (Ee : is_is_empty (IState (c - f) false (slice t f l) f) = false).
  { unfold is_is_empty. cbn [is_text]. destruct (slice_cons t f l ltac:(lia) ltac:(lia)) as (x & Ex & ->). cbn [forallb].
    apply nth_error_In in Ex. apply Hcs in Ex. now destruct x. }
  rewrite Ee. clear Ee.
  rewrite (split_represents _ (Editor (rev (slice t f c)) (slice t c l))).
  2: { unfold represents, ed_clusters. cbn [is_text is_cursor ed_before ed_after]. rewrite rev_involutive, slice_app, zlen_rev, slice_len by lia. auto. }
  cbn [ed_before ed_after bind].
  assert (Eb : exists (b : list str) (u0 : str), match rev (slice t f c) with [] => ([], [], slice t c l) | c1 :: b => (rev b, c1, slice t c l) end = (b, u0, slice t c l) /\ concat (b ++ [u0]) = concat (slice t f c)).
  { destruct (rev (slice t f c)) as [|x r] eqn:Er.
    - exists [], []. split; [reflexivity|]. apply (f_equal (@rev _)) in Er. rewrite rev_involutive in Er. rewrite Er. reflexivity.
    - exists (rev r), x. split; [reflexivity|]. apply (f_equal (@rev _)) in Er. rewrite rev_involutive in Er. rewrite Er. reflexivity. }
  destruct Eb as (b & u0 & -> & Eb). cbn [bind]. cbv zeta. rewrite Eb.
  assert (Pr : span_cells u (if is_empty_str (ip_prompt i) then Span new_style [] else Span (ip_prompt_style i) (ip_prompt i)) = map (fun g => (g, ip_prompt_style i)) (clusters u (ip_prompt i))).
  { unfold span_cells. destruct (ip_prompt i) eqn:Ep; cbn [is_empty_str sp_content sp_style]; [|reflexivity].
    assert (Z0 : clusters u [] = []) by (apply (clusters_nil u Hu)). now rewrite Z0. }
  assert (E1 : clusters u (concat (slice t f c)) = slice t f c) by (now apply slice_clusters).
  assert (E2 : clusters u (concat (slice t (c + 1) l)) = slice t (c + 1) l) by (now apply slice_clusters).
  assert (Z0 : clusters u [] = []) by (apply (clusters_nil u Hu)).
  assert (Fld : field_cells u i t c (is_show s) f l = map (fun g => (g, ip_prompt_style i)) (clusters u (ip_prompt i)) ++ map (fun g => (g, new_style)) (slice t f c) ++
         (if c <? l then [(nth (Z.to_nat c) t [], under_cursor i (is_show s) new_style)] else cursor_behind i (is_show s)) ++ map (fun g => (g, new_style)) (slice t (c + 1) l)).
  { unfold field_cells. destruct t; [congruence|reflexivity]. }
  rewrite Fld. clear Fld. destruct (Z.ltb_spec c l) as [Hcl|Hcl].
  - destruct (slice_cons t c l ltac:(lia) ltac:(lia)) as (x & Ex & ->). cbn [bind sp_content sp_style new_span].
    rewrite (nth_error_nth _ _ _ Ex). apply nth_error_In in Ex. pose proof (Hcs _ Ex) as Hx.
    assert (Xc : clusters u x = [x]).
    { destruct (in_split _ _ Ex) as (l1 & l2 & El). pose proof (clusters_sub u Hu (is_string s) l1 [x] l2) as X. rewrite Hst in X. specialize (X El). cbn [concat] in X. now rewrite app_nil_r in X. }
    eexists. split; [reflexivity|]. split; [reflexivity|]. split; [reflexivity|].
    unfold line_cells. cbn [ln_spans flat_map]. rewrite Pr. unfold span_cells at 1. cbn [sp_content sp_style new_span]. rewrite E1, app_nil_r. f_equal. f_equal.
    unfold span_cells at 2. cbn [sp_content sp_style new_span]. rewrite E2. unfold under_cursor. destruct (is_show s); [destruct x; [congruence|]|]; cbn [is_empty_str]; unfold span_cells; cbn [sp_content sp_style new_span]; rewrite Xc; reflexivity.
  - assert (c = l) by lia. assert (En : forall a, l <= a -> slice t a l = []) by (intros a Ha; unfold slice; replace (Z.to_nat (l - a)) with O by lia; reflexivity).
    rewrite (En c), (En (c + 1)) by lia. eexists. split; [reflexivity|]. split; [reflexivity|]. split; [reflexivity|].
    unfold line_cells. cbn [ln_spans flat_map]. rewrite Pr. unfold span_cells at 1. cbn [sp_content sp_style new_span]. rewrite E1, app_nil_r. f_equal. f_equal.
    unfold cursor_behind, under_cursor. unfold span_cells. cbn [sp_content sp_style new_span concat]. rewrite Z0. destruct (is_show s); cbn [is_empty_str sp_content sp_style new_span]; rewrite ?Hsp, ?Z0; reflexivity.
Qed.
Lemma line_of_field u i width s : uniseg_ok u -> is_text s <> [] -> clusters u (is_string s) = is_text s ->
  let max_w := width - string_width u (ip_prompt i) - 1 in view_found u s max_w -> clusters u [32%N] = [[32%N]] ->
  exists f l ln, 0 <= f <= is_cursor s /\ is_cursor s <= l <= zlen (is_text s) /\ f < l /\ zsum (map (string_width u) (slice (is_text s) f l)) <= max_w /\
    input_line_of u i width s = Ret (ln, IState (is_cursor s) (is_show s) (is_text s) f) /\ ln_style ln = new_style /\ ln_align ln = ip_align i /\
    line_cells u (ln_spans ln) = field_cells u i (is_text s) (is_cursor s) (is_show s) f l.
Proof.
  intros Hu Hne Hst max_w (f & l & E & F1 & F2 & F3 & F4) Hsp. destruct (line_of_bounds u i width s f l Hu Hne Hst E F1 F2 F3 Hsp) as (ln & L). exists f, l, ln. auto.
Qed.

Lemma line_of_placeholder u i width s : uniseg_ok u -> is_text s = [] -> is_cursor s = 0 -> clusters u (concat (ip_placeholder i)) = ip_placeholder i -> clusters u [32%N] = [[32%N]] ->
  exists ln, input_line_of u i width s = Ret (ln, IState 0 (is_show s) [] 0) /\ ln_style ln = new_style /\ ln_align ln = ip_align i /\
    line_cells u (ln_spans ln) = field_cells u i [] 0 (is_show s) 0 0.
Proof.
  intros Hu Et Ec Hp Hsp. unfold input_line_of, get_bounds. rewrite Et, Ec. cbn [map bind is_text is_cursor is_offset is_show].
  change (zlen (@nil Z) =? 0) with true. cbn [bind skip is_text is_cursor is_offset is_show]. change (skip (@nil str) 0) with (Ret (@nil str)). cbn [bind].
  change (take (@nil str) (0 - 0)) with (Ret (@nil str)). cbn [bind].
  assert (Z0 : clusters u [] = []) by (apply (clusters_nil u Hu)).
  assert (Pr : span_cells u (if is_empty_str (ip_prompt i) then Span new_style [] else Span (ip_prompt_style i) (ip_prompt i)) = map (fun g => (g, ip_prompt_style i)) (clusters u (ip_prompt i))).
  { unfold span_cells. destruct (ip_prompt i) eqn:Ep; cbn [is_empty_str sp_content sp_style]; [|reflexivity]. now rewrite Z0. }
  unfold input_split, is_is_empty, field_cells. cbn [is_text forallb]. destruct (ip_placeholder i) as [|g rest] eqn:Epl; cbn [bind].
  - eexists. split; [reflexivity|]. split; [reflexivity|]. split; [reflexivity|]. unfold line_cells. cbn [ln_spans flat_map]. rewrite Pr. f_equal.
    unfold cursor_behind, under_cursor, span_cells. cbn [sp_content sp_style new_span]. rewrite Z0. destruct (is_show s); cbn [is_empty_str sp_content sp_style new_span]; rewrite ?Hsp, ?Z0; reflexivity.
  - eexists. split; [reflexivity|]. split; [reflexivity|]. split; [reflexivity|]. unfold line_cells. cbn [ln_spans flat_map]. rewrite Pr. f_equal.
    assert (Hg : clusters u g = [g]). { pose proof (clusters_sub u Hu (concat (g :: rest)) [] [g] rest) as X. rewrite Hp in X. specialize (X eq_refl). cbn [concat] in X. now rewrite app_nil_r in X. }
    assert (Hr : clusters u (concat rest) = rest). { pose proof (clusters_sub u Hu (concat (g :: rest)) [g] rest []) as X. rewrite Hp, app_nil_r in X. now apply X. }
    assert (Ng : g <> []). { assert (I : In g (clusters u (concat (g :: rest)))) by (rewrite Hp; now left). now apply (clusters_nonempty u Hu) in I. }
    unfold span_cells. cbn [sp_content sp_style new_span]. rewrite Z0. unfold under_cursor. destruct (is_show s); [destruct g; [congruence|]|]; cbn [is_empty_str sp_content sp_style new_span]; rewrite Hg, Hr, app_nil_r; reflexivity.
Qed.


(** A line of visible graphemes, drawn in a row: the first row of its area *)
Lemma line_in_row u ln row b : uniseg_ok u -> wf_buffer b -> visible_line u (ln_spans ln) -> ln_style ln = new_style -> 0 < rw row -> 1 <= rh row -> (forall p, inside p row -> inside p (barea b)) ->
  exists b', line_render u ln row b = Ret b' /\ barea b' = barea b /\
    (forall p, py p = ry row -> rx row <= px p < rx row + rw row -> look b' p = option_map (field_cell u (ln_align ln) (line_cells u (ln_spans ln)) (rw row) (px p - rx row)) (look b p)) /\
    (forall p, ~ (py p = ry row /\ rx row <= px p < rx row + rw row) -> look b' p = look b p).
Proof.
  intros Hu W Hv Hst Hw Hh Hin. assert (Hwi : within row (barea b)) by (apply within_of; auto; lia).
  assert (Ei : intersection row (barea b) = row) by (apply intersection_within; [exact Hwi|unfold sized; lia]).
  assert (Vl := visible_of u _ Hu Hv). pose proof (cells_width_nonneg u _ Vl) as N0. pose proof (line_cells_width u ln) as Wl.
  unfold line_render. destruct (Z.eq_dec (line_width u ln) 0) as [E0|E0].
  - unfold line_render_with. rewrite Ei, E0. cbv zeta. cbn [Z.eqb]. exists b. split; [destruct (rect_is_empty row); reflexivity|]. split; [reflexivity|]. split; [|auto].
    assert (En : line_cells u (ln_spans ln) = []).
    { destruct (line_cells u (ln_spans ln)) as [|[g st] r] eqn:El; [reflexivity|]. exfalso. unfold cells_width in Wl. cbn [map fst] in Wl. rewrite zsum_cons in Wl.
      destruct (Vl g st ltac:(now left)) as (G & _). assert (0 <= cells_width u r) by (apply cells_width_nonneg; intros x y I; apply (Vl x y); now right). unfold cells_width in *. lia. }
    intros p _ _. unfold field_cell. rewrite En. cbn. now destruct (look b p).
  - destruct (C18_line_placement u ln row b AlignNone Hu) as (b3 & E3 & Ar & L & L2); rewrite ?Ei; try lia; auto.
    rewrite Ei in L, L2. exists b3. split; [exact E3|]. split; [exact Ar|]. split; [|exact L2]. intros p Py Px. rewrite (L p Py Px). rewrite Hst.
    destruct (look b p) as [c|]; [|reflexivity]. cbn [option_map]. f_equal. unfold field_cell. rewrite Wl. replace (effective (ln_align ln) AlignNone) with (ln_align ln) by (now destruct (ln_align ln)).
    rewrite set_no_style. now destruct (_ <? _).
Qed.

Lemma field_drawn u row_of i area b s ln s' : uniseg_ok u -> wf_buffer b -> sized area -> 0 <= rx area -> opt_padded (ip_block i) -> (forall p, inside p area -> inside p (barea b)) ->
  let row := row_of (opt_block_inner (ip_block i) area) in
  (forall p, inside p row -> inside p (opt_block_inner (ip_block i) area)) -> 1 <= rh row -> 0 < rw row ->
  input_line_of u i (rw row) s = Ret (ln, s') -> ln_style ln = new_style -> ln_align ln = ip_align i -> visible_line u (ln_spans ln) ->
  exists b0 b', (let! b1 := buffer_set_style b area (ip_style i) in opt_block_render u (ip_block i) area b1) = Ret b0 /\
    input_render u row_of i area b s = Ret (b', s') /\
    (forall p, py p = ry row -> rx row <= px p < rx row + rw row ->
       look b' p = option_map (field_cell u (ip_align i) (line_cells u (ln_spans ln)) (rw row) (px p - rx row)) (look b0 p)) /\
    (forall p, ~ (py p = ry row /\ rx row <= px p < rx row + rw row) -> look b' p = look b0 p).
Proof.
  intros Hu W Hs Hx Hk Hin row Hrow Hrh Hrw El Hst Hal Hv. unfold input_render.
  destruct (set_style_redrawn b area (ip_style i) W) as (b1 & -> & R1). cbn [bind].
  assert (C1 : changed_only (fun p => inside p area) b b1).
  { eapply redrawn_only; [|exact R1]. intros p c Hp. cbn. apply contains_false in Hp. now rewrite Hp. }
  assert (A1 := redrawn_area _ _ _ R1).
  destruct (opt_block_ok u (ip_block i) area b1 Hu (redrawn_wf _ _ _ R1) Hs Hx Hk ltac:(now rewrite A1)) as (b2 & -> & C2 & HA & SA). cbn [bind].
  pose proof (changed_only_trans _ _ _ _ C1 C2) as C. clear C1 C2 R1 A1 b1. fold row.
  assert (A2 : barea b2 = barea b) by apply C. rewrite El. cbn [bind].
  destruct (line_in_row u ln row b2 Hu) as (b3 & -> & _ & L1 & L2); auto; [apply C|rewrite A2; auto|].
  cbn [bind]. exists b2, b3. split; [reflexivity|]. split; [reflexivity|]. rewrite Hal in L1. auto.
Qed.

Lemma field_visible u i t c show f l spans : line_cells u spans = field_cells u i t c show f l ->
  (forall g st, In (g, st) (field_cells u i t c show f l) -> 1 <= cwidth u g /\ existsb is_control g = false) -> visible_line u spans.
Proof. intros E H s g Hs Hg. apply (H g (sp_style s)). rewrite <- E. unfold line_cells. apply in_flat_map. exists s. split; [exact Hs|]. unfold span_cells. apply in_map_iff. now exists g. Qed.

Lemma fit_all : forall ws max_w h o, (forall w, In w ws -> 0 <= w) -> h + zsum ws <= max_w -> fit_loop ws max_w h o = (h + zsum ws, o + zlen ws).
Proof.
  induction ws as [|w ws IH]; intros max_w h o Hw H; [cbn; unfold zlen; cbn; f_equal; lia|]. rewrite zsum_cons in H |- *. rewrite zlen_cons. cbn [fit_loop].
  assert (0 <= zsum ws). { clear - Hw. induction ws as [|x ws IH]; [cbn; lia|]. rewrite zsum_cons. pose proof (Hw x ltac:(right; now left)). assert (0 <= zsum ws) by (apply IH; intros y [->|I]; apply Hw; [now left|right; now right]). lia. }
  rewrite Z.gtb_ltb. replace (max_w <? h + w) with false by (symmetry; apply Z.ltb_ge; lia). rewrite IH; [f_equal; lia|intros x I; apply Hw; now right|lia].
Qed.
(** A view that has not moved and a text that fits: all of it is seen. *)
Lemma bounds_fit u s max_w : uniseg_ok u -> is_text s <> [] -> is_offset s = 0 -> 0 <= is_cursor s <= zlen (is_text s) -> zsum (map (string_width u) (is_text s)) <= max_w ->
  get_bounds (map (string_width u) (is_text s)) (is_cursor s) (is_offset s) max_w = Ret (0, zlen (is_text s)).
Proof.
  intros Hu Hne Ho Hc Hf. set (ws := map (string_width u) (is_text s)) in *. assert (El : zlen ws = zlen (is_text s)) by (unfold ws, zlen; now rewrite map_length).
  assert (HN : 0 < zlen ws) by (rewrite El; destruct (is_text s); [congruence|rewrite zlen_cons; pose proof (zlen_nonneg l); lia]).
  unfold get_bounds. replace (zlen ws =? 0) with false by (symmetry; apply Z.eqb_neq; lia). rewrite Ho. replace (Z.min 0 (Z.max 0 (zlen ws - 1))) with 0 by lia.
  unfold skip. rewrite Z.geb_leb. replace (zlen ws <=? 0) with false by (symmetry; apply Z.leb_gt; lia). cbn [Z.ltb Z.compare bind]. change (Z.to_nat 0) with O. cbn [skipn].
  rewrite fit_all by (try lia; intros w I; unfold ws in I; apply in_map_iff in I; destruct I as (g & <- & _); apply (sw_nonneg u g Hu)). rewrite !Z.add_0_l, El.
  set (c := is_cursor s) in *. set (n := zlen (is_text s)) in *.
  set (idx := if negb (c =? 0) then Z.min (c - 1) n else 0). assert (Hi : 0 <= idx < n) by (unfold idx; destruct (Z.eqb_spec c 0); cbn [negb]; lia).
  replace (zrange n (idx + 1)) with (@nil Z) by (unfold zrange; replace (Z.to_nat (idx + 1 - n)) with O by lia; reflexivity). cbn [ofold bind].
  replace (zrange idx 0) with (@nil Z) by (unfold zrange; replace (Z.to_nat (0 - idx)) with O by lia; reflexivity). cbn [rev ofold bind].
  replace (Z.max n (idx + 1)) with n by lia. replace (Z.min 0 idx) with 0 by lia. rewrite Z.geb_leb. destruct (Z.leb_spec n (c - 0)); [|reflexivity]. repeat f_equal; lia.
Qed.

Section Shown.
Variables (u : uniseg) (row_of : rect -> rect) (i : input) (area : rect) (b : buffer) (s : input_state).
Hypothesis Hu : uniseg_ok u.
Hypothesis W : wf_buffer b.
Hypothesis Hs : sized area.
Hypothesis Hx : 0 <= rx area.
Hypothesis Hk : opt_padded (ip_block i).
Hypothesis Hin : forall p, inside p area -> inside p (barea b).
Let content := opt_block_inner (ip_block i) area.
Let row := row_of content.
Hypothesis Hrow : forall p, inside p row -> inside p content.
Hypothesis Hrh : 1 <= rh row.
(** the prompt is visible; a blank is one grapheme of one column *)
Hypothesis Hpr : forall g, In g (clusters u (ip_prompt i)) -> 1 <= cwidth u g /\ existsb is_control g = false.
Hypothesis Hsp1 : clusters u [32%N] = [[32%N]].
Hypothesis Hsp2 : cwidth u [32%N] = 1.
Let max_w := rw row - string_width u (ip_prompt i) - 1.

Lemma shown_bounds f l : 0 <= max_w -> get_bounds (map (string_width u) (is_text s)) (is_cursor s) (is_offset s) max_w = Ret (f, l) ->
  0 <= f <= is_cursor s -> is_cursor s <= l <= zlen (is_text s) -> f < l -> zsum (map (string_width u) (slice (is_text s) f l)) <= max_w -> is_text s <> [] -> clusters u (is_string s) = is_text s ->
  (forall g, In g (is_text s) -> 1 <= cwidth u g <= max_w /\ existsb is_control g = false) ->
  exists b0 b', (let! b1 := buffer_set_style b area (ip_style i) in opt_block_render u (ip_block i) area b1) = Ret b0 /\
    input_render u row_of i area b s = Ret (b', IState (is_cursor s) (is_show s) (is_text s) f) /\
    let cells := field_cells u i (is_text s) (is_cursor s) (is_show s) f l in
    cells_width u cells <= rw row /\
    (forall p, py p = ry row -> rx row <= px p < rx row + rw row -> look b' p = option_map (field_cell u (ip_align i) cells (rw row) (px p - rx row)) (look b0 p)) /\
    (forall p, ~ (py p = ry row /\ rx row <= px p < rx row + rw row) -> look b' p = look b0 p).
Proof.
  intros Hm Eb F1 F2 F3 F4 Hne Hst Hvis. destruct (line_of_bounds u i (rw row) s f l Hu Hne Hst Eb F1 F2 F3 Hsp1) as (ln & E & E1 & E2 & E3). clear Eb.
  assert (Hsw : forall g, In g (is_text s) -> string_width u g = cwidth u g) by (apply text_widths; auto).
  set (t := is_text s) in *. set (c := is_cursor s) in *.
  assert (Vis : forall g st, In (g, st) (field_cells u i t c (is_show s) f l) -> 1 <= cwidth u g /\ existsb is_control g = false).
  { intros g st I. unfold field_cells in I. apply in_app_or in I. destruct I as [I|I].
    - apply in_map_iff in I. destruct I as (g' & Eq & I). injection Eq as <- <-. auto.
    - assert (Ht : forall g, In g t -> 1 <= cwidth u g /\ existsb is_control g = false) by (intros g' I'; split; apply Hvis; exact I').
      assert (Hp : forall f' l' st', In (g, st') (map (fun g => (g, new_style)) (part t f' l')) -> 1 <= cwidth u g /\ existsb is_control g = false).
      { intros f' l' st' I'. apply in_map_iff in I'. destruct I' as (g' & Eq & I'). injection Eq as <- <-. apply Ht. exact (slice_in t f' l' g' I'). }
      destruct t as [|t0 tr] eqn:Et; [congruence|]. rewrite <- Et in *. clear Et. apply in_app_or in I. destruct I as [I|I]; [eapply Hp; eassumption|]. apply in_app_or in I. destruct I as [I|I]; [|eapply Hp; eassumption].
      destruct (Z.ltb_spec c l).
      + destruct I as [I|[]]. injection I as <- <-. apply Ht, nth_In. unfold zlen in F2. lia.
      + unfold cursor_behind in I. destruct (is_show s); [|destruct I]. destruct I as [I|[]]. injection I as <- <-. split; [lia|reflexivity]. }
  assert (Rw : 0 < rw row) by (pose proof (sw_nonneg u (ip_prompt i) Hu); unfold max_w in Hm; lia).
  destruct (field_drawn u row_of i area b s ln _ Hu W Hs Hx Hk Hin Hrow Hrh Rw E E1 E2 (field_visible u i _ _ _ _ _ _ E3 Vis)) as (b0 & b' & D1 & D2 & D3 & D4).
  rewrite E3 in D3. exists b0, b'. split; [exact D1|]. split; [exact D2|]. cbv zeta. split; [|auto].
  assert (Wv : widths u (slice t f l) = zsum (map (string_width u) (slice t f l))).
  { unfold widths. f_equal. apply map_ext_in. intros x Hx'. symmetry. apply Hsw. now apply slice_in in Hx'. }
  assert (Cw : forall st' (gs : list str), cells_width u (map (fun g => (g, st')) gs) = widths u gs) by (intros st' gs; unfold cells_width, widths; rewrite map_map; reflexivity).
  unfold field_cells. destruct t as [|t0 tr] eqn:Et; [congruence|]. rewrite <- Et in *. clear Et. rewrite !cells_width_app, !Cw. change (widths u (clusters u (ip_prompt i))) with (string_width u (ip_prompt i)).
  change (@part str) with (@slice str). rewrite <- (slice_app t f c l) in Wv, F4 by lia. unfold widths in Wv. rewrite map_app, zsum_app in Wv. fold (widths u (slice t f c)) in Wv.
  destruct (Z.ltb_spec c l).
  - destruct (slice_cons t c l ltac:(lia) ltac:(lia)) as (x & Ex & Es). rewrite Es in Wv at 1. cbn [map] in Wv. rewrite zsum_cons in Wv. fold (widths u (slice t (c + 1) l)) in Wv. rewrite (nth_error_nth _ _ _ Ex).
    unfold cells_width at 1. cbn [map fst]. rewrite zsum_cons. change (zsum []) with 0. unfold max_w in F4. lia.
  - assert (En : forall a, l <= a -> slice t a l = []) by (intros a Ha; unfold slice; replace (Z.to_nat (l - a)) with O by lia; reflexivity).
    rewrite !En in * by lia. cbn [map] in Wv. change (zsum []) with 0 in Wv. change (widths u []) with 0. unfold max_w in F4.
    assert (cells_width u (cursor_behind i (is_show s)) <= 1). { unfold cursor_behind. destruct (is_show s); unfold cells_width; cbn [map fst]; rewrite ?zsum_cons; change (zsum []) with 0; lia. } lia.
Qed.
Lemma shown_text : 0 <= max_w -> view_found u s max_w -> is_text s <> [] -> clusters u (is_string s) = is_text s ->
  (forall g, In g (is_text s) -> 1 <= cwidth u g <= max_w /\ existsb is_control g = false) ->
  exists b0 b' f l, (let! b1 := buffer_set_style b area (ip_style i) in opt_block_render u (ip_block i) area b1) = Ret b0 /\
    input_render u row_of i area b s = Ret (b', IState (is_cursor s) (is_show s) (is_text s) f) /\
    0 <= f <= is_cursor s /\ is_cursor s <= l <= zlen (is_text s) /\ f < l /\
    let cells := field_cells u i (is_text s) (is_cursor s) (is_show s) f l in
    cells_width u cells <= rw row /\
    (forall p, py p = ry row -> rx row <= px p < rx row + rw row -> look b' p = option_map (field_cell u (ip_align i) cells (rw row) (px p - rx row)) (look b0 p)) /\
    (forall p, ~ (py p = ry row /\ rx row <= px p < rx row + rw row) -> look b' p = look b0 p).
Proof.
  intros Hm (f & l & E & F1 & F2 & F3 & F4) Hne Hst Hvis. destruct (shown_bounds f l Hm E F1 F2 F3 F4 Hne Hst Hvis) as (b0 & b' & D1 & D2 & D3). exists b0, b', f, l. split; [exact D1|]. split; [exact D2|]. auto.
Qed.

(** ** C99: an input with text shows its prompt in the prompt style and then, without a style of its own, a stretch of the text that contains the cursor;
    the grapheme at the cursor - a blank at the end of the text - has the cursor style when the cursor is shown. The row is aligned as a whole. *)
Theorem C99_text : 0 <= max_w -> view_near u s max_w -> is_text s <> [] -> clusters u (is_string s) = is_text s ->
  (forall g, In g (is_text s) -> 1 <= cwidth u g <= max_w /\ existsb is_control g = false) ->
  exists b0 b' f l, (let! b1 := buffer_set_style b area (ip_style i) in opt_block_render u (ip_block i) area b1) = Ret b0 /\
    input_render u row_of i area b s = Ret (b', IState (is_cursor s) (is_show s) (is_text s) f) /\
    0 <= f <= is_cursor s /\ is_cursor s <= l <= zlen (is_text s) /\ f < l /\
    let cells := field_cells u i (is_text s) (is_cursor s) (is_show s) f l in
    cells_width u cells <= rw row /\
    (forall p, py p = ry row -> rx row <= px p < rx row + rw row -> look b' p = option_map (field_cell u (ip_align i) cells (rw row) (px p - rx row)) (look b0 p)) /\
    (forall p, ~ (py p = ry row /\ rx row <= px p < rx row + rw row) -> look b' p = look b0 p).
Proof.
  intros Hm V Hne Hst Hvis. apply shown_text; auto.
  destruct (bounds_near u s max_w Hu Hm Hne V) as (f & l & E & F1 & F2 & F3 & F4 & _); [|now exists f, l].
  intros c Hc. rewrite (text_widths u s Hu Hst c Hc). apply Hvis, Hc.
Qed.
(** The same for an input whose view has not been moved yet, whatever text of one-column graphemes has been pasted and wherever the cursor is. *)
Theorem C99_first_view : 1 <= max_w -> is_offset s = 0 -> 0 <= is_cursor s <= zlen (is_text s) -> is_text s <> [] -> clusters u (is_string s) = is_text s ->
  (forall g, In g (is_text s) -> cwidth u g = 1 /\ existsb is_control g = false) ->
  exists b0 b' f l, (let! b1 := buffer_set_style b area (ip_style i) in opt_block_render u (ip_block i) area b1) = Ret b0 /\
    input_render u row_of i area b s = Ret (b', IState (is_cursor s) (is_show s) (is_text s) f) /\
    0 <= f <= is_cursor s /\ is_cursor s <= l <= zlen (is_text s) /\ f < l /\
    let cells := field_cells u i (is_text s) (is_cursor s) (is_show s) f l in
    cells_width u cells <= rw row /\
    (forall p, py p = ry row -> rx row <= px p < rx row + rw row -> look b' p = option_map (field_cell u (ip_align i) cells (rw row) (px p - rx row)) (look b0 p)) /\
    (forall p, ~ (py p = ry row /\ rx row <= px p < rx row + rw row) -> look b' p = look b0 p).
Proof.
  intros Hm Ho Hc Hne Hst Hvis. apply shown_text; auto; [lia| |intros g I; destruct (Hvis g I) as [Q1 Q2]; split; [lia|exact Q2]].
  assert (N1 : 0 < zlen (is_text s)) by (destruct (is_text s) as [|x r]; [congruence|rewrite zlen_cons; pose proof (zlen_nonneg r); lia]).
  apply narrow_found; auto; try lia.
  intros g I. rewrite (text_widths u s Hu Hst g I). apply Hvis, I.
Qed.
(** A text that fits into the row next to the prompt is shown in full, wherever the cursor is, as long as the view has not been moved. *)
Theorem C99_fits : is_offset s = 0 -> 0 <= is_cursor s <= zlen (is_text s) -> is_text s <> [] -> clusters u (is_string s) = is_text s ->
  (forall g, In g (is_text s) -> 1 <= cwidth u g /\ existsb is_control g = false) -> widths u (is_text s) <= max_w ->
  exists b0 b', (let! b1 := buffer_set_style b area (ip_style i) in opt_block_render u (ip_block i) area b1) = Ret b0 /\
    input_render u row_of i area b s = Ret (b', s) /\
    let cells := field_cells u i (is_text s) (is_cursor s) (is_show s) 0 (zlen (is_text s)) in
    cells_width u cells <= rw row /\
    (forall p, py p = ry row -> rx row <= px p < rx row + rw row -> look b' p = option_map (field_cell u (ip_align i) cells (rw row) (px p - rx row)) (look b0 p)) /\
    (forall p, ~ (py p = ry row /\ rx row <= px p < rx row + rw row) -> look b' p = look b0 p).
Proof.
  intros Ho Hc Hne Hst Hvis Hf.
  assert (Hsw : forall g, In g (is_text s) -> string_width u g = cwidth u g) by (apply text_widths; auto).
  assert (Es : zsum (map (string_width u) (is_text s)) = widths u (is_text s)) by (unfold widths; f_equal; apply map_ext_in; auto).
  assert (HN : 0 < zlen (is_text s)) by (destruct (is_text s) as [|g r]; [congruence|rewrite zlen_cons; pose proof (zlen_nonneg r); lia]).
  assert (Hw1 : forall g, In g (is_text s) -> cwidth u g <= widths u (is_text s)).
  { intros g I. apply in_split in I. destruct I as (l1 & l2 & E). assert (Z : forall l : list str, 0 <= widths u l) by (intros l; unfold widths; induction l as [|x l IH]; [cbn; lia|]; cbn [map]; rewrite zsum_cons; pose proof (cwidth_nonneg u Hu x); lia).
    rewrite E. unfold widths. rewrite map_app, zsum_app. cbn [map]. rewrite zsum_cons. pose proof (Z l1). pose proof (Z l2). unfold widths in *. lia. }
  destruct (shown_bounds 0 (zlen (is_text s))) as (b0 & b' & D1 & D2 & D3); auto; try lia.
  - destruct (is_text s) as [|g r]; [congruence|]. destruct (Hvis g (or_introl eq_refl)). pose proof (Hw1 g (or_introl eq_refl)). lia.
  - apply bounds_fit; auto. lia.
  - unfold slice. change (Z.to_nat 0) with O. cbn [skipn]. rewrite firstn_all2 by (unfold zlen; lia). rewrite Es. exact Hf.
  - intros g I. destruct (Hvis g I). pose proof (Hw1 g I). split; [lia|assumption].
  - exists b0, b'. split; [exact D1|]. split; [|exact D3]. rewrite D2, <- Ho at 1. destruct s; reflexivity.
Qed.
(** Without text it shows the placeholder in its style, the cursor on the first grapheme; the placeholder may be too long for the row. *)
Theorem C99_placeholder : 0 < rw row -> is_text s = [] -> is_cursor s = 0 -> clusters u (concat (ip_placeholder i)) = ip_placeholder i ->
  (forall g, In g (ip_placeholder i) -> 1 <= cwidth u g /\ existsb is_control g = false) ->
  exists b0 b', (let! b1 := buffer_set_style b area (ip_style i) in opt_block_render u (ip_block i) area b1) = Ret b0 /\
    input_render u row_of i area b s = Ret (b', IState 0 (is_show s) [] 0) /\
    let cells := field_cells u i [] 0 (is_show s) 0 0 in
    (forall p, py p = ry row -> rx row <= px p < rx row + rw row -> look b' p = option_map (field_cell u (ip_align i) cells (rw row) (px p - rx row)) (look b0 p)) /\
    (forall p, ~ (py p = ry row /\ rx row <= px p < rx row + rw row) -> look b' p = look b0 p).
Proof.
  intros Rw Et Ec Hp Hvis. destruct (line_of_placeholder u i (rw row) s Hu Et Ec Hp Hsp1) as (ln & E & E1 & E2 & E3).
  assert (Vis : forall g st, In (g, st) (field_cells u i [] 0 (is_show s) 0 0) -> 1 <= cwidth u g /\ existsb is_control g = false).
  { intros g st I. unfold field_cells in I. apply in_app_or in I. destruct I as [I|I].
    - apply in_map_iff in I. destruct I as (g' & Eq & I). injection Eq as <- <-. auto.
    - destruct (ip_placeholder i) as [|g0 rest].
      + unfold cursor_behind in I. destruct (is_show s); [|destruct I]. destruct I as [I|[]]. injection I as <- <-. split; [lia|reflexivity].
      + destruct I as [I|I]; [injection I as <- <-; apply Hvis; now left|]. apply in_map_iff in I. destruct I as (g' & Eq & I). injection Eq as <- <-. apply Hvis. now right. }
  destruct (field_drawn u row_of i area b s ln _ Hu W Hs Hx Hk Hin Hrow Hrh Rw E E1 E2 (field_visible u i _ _ _ _ _ _ E3 Vis)) as (b0 & b' & D1 & D2 & D3 & D4).
  rewrite E3 in D3. exists b0, b'. split; [exact D1|]. split; [exact D2|]. cbv zeta. auto.
Qed.
End Shown.
Print Assumptions C99_text.
Print Assumptions C99_first_view.
Print Assumptions C99_fits.
Print Assumptions C99_placeholder.

(** A prompt and a coloured placeholder; then a text of three letters with the cursor on the second, right-aligned. *)
Definition demo_field := Input None new_style AlignRight [[104%N]; [105%N]] (underlined new_style) (reversed new_style) [62%N] new_style.
Example C99_instance : let s := IState 1 true [[97%N]; [98%N]; [99%N]] 0 in let e := IState 0 true [] 0 in let row := Rect 0 0 6 1 in
  uniseg_ok simple_uniseg /\ view_near simple_uniseg s 4 /\ clusters simple_uniseg (is_string s) = is_text s /\
  clusters simple_uniseg (concat (ip_placeholder demo_field)) = ip_placeholder demo_field /\
  omap (fun r => symbols (fst r)) (input_render simple_uniseg (fun r => r) demo_field row (demo_buffer 6 1) s) = Ret [space; space; [62%N]; [97%N]; [98%N]; [99%N]] /\
  omap (fun r => map cmod (bcells (fst r))) (input_render simple_uniseg (fun r => r) demo_field row (demo_buffer 6 1) s) = Ret [0; 0; 0; 0; ModifierReversed; 0]%N /\
  omap (fun r => symbols (fst r)) (input_render simple_uniseg (fun r => r) demo_field row (demo_buffer 6 1) e) = Ret [space; space; space; [62%N]; [104%N]; [105%N]].
Proof.
  cbv zeta. split; [apply simple_uniseg_ok|]. split; [repeat split; vm_compute; congruence|]. repeat (split; [vm_compute; reflexivity|]). vm_compute. reflexivity.
Qed.
(** The three characters of the same state fit: they are all there, in the cells of the spec, and the state stays. *)
Example C99_fits_instance : let s := IState 1 true [[97%N]; [98%N]; [99%N]] 0 in let row := Rect 0 0 6 1 in
  exists b', input_render simple_uniseg (fun r => r) demo_field row (demo_buffer 6 1) s = Ret (b', s) /\ option_map csym (look b' (Pos 2 0)) = Some [62%N] /\ option_map csym (look b' (Pos 5 0)) = Some [99%N].
Proof.
  cbv zeta. pose proof (C99_fits simple_uniseg (fun r => r) demo_field (Rect 0 0 6 1) (demo_buffer 6 1) (IState 1 true [[97%N]; [98%N]; [99%N]] 0) simple_uniseg_ok) as G.
  assert (Wb : wf_buffer (demo_buffer 6 1)) by (vm_compute; repeat split; discriminate).
  specialize (G Wb ltac:(split; vm_compute; discriminate) ltac:(vm_compute; discriminate) Logic.I (fun p H => H) (fun p H => H) ltac:(vm_compute; discriminate)).
  specialize (G ltac:(intros g I; vm_compute in I; destruct I as [<-|[]]; (split; [vm_compute; discriminate|reflexivity])) eq_refl eq_refl eq_refl ltac:(split; vm_compute; discriminate) ltac:(discriminate) eq_refl).
  specialize (G ltac:(intros g I; vm_compute in I; destruct I as [<-|[<-|[<-|[]]]]; (split; [vm_compute; discriminate|reflexivity])) ltac:(vm_compute; discriminate)).
  destruct G as (b0 & b' & E0 & E & _ & D & _). vm_compute in E0. injection E0 as <-. exists b'. split; [exact E|]. split; rewrite D by (cbn; lia); vm_compute; reflexivity.
Qed.
