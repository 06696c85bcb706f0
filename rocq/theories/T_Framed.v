(** C76: what a widget draws never covers the decoration of its block. *)
From Verif Require Import Base M_Geom S_Geom M_Style M_Uniseg M_Buffer S_Buffer M_Text M_Block M_Reflow M_List M_Float M_Gauge M_Tabs M_Input M_Slice M_Widget S_Reflow S_Framed P_Base T_Geom S_Text S_Line P_Buffer P_SetString T_Buffer P_Redraw P_Print P_Text P_Reflow P_Paragraph P_List P_Block T_Text T_Block T_Reflow T_Paragraph T_List T_Gauge T_Tabs S_Wide P_Wide.
From Coq Require Import ZArith NArith List Bool Lia.
Import ListNotations.
Open Scope Z_scope.

(** The background and the block, then something that stays in the content area. *)
Lemma block_first u s k area b : uniseg_ok u -> wf_buffer b -> sized area -> 0 <= rx area -> padded k -> (forall p, inside p area -> inside p (barea b)) ->
  exists b0 b1, buffer_set_style b area s = Ret b0 /\ block_render u k area b0 = Ret b1 /\ wf_buffer b1 /\ barea b1 = barea b /\
    (forall p, inside p (block_inner k area) -> inside p area) /\ sized (block_inner k area).
Proof.
  intros Hu W Hs Hx Hk Hin. destruct (set_style_redrawn b area s W) as (b0 & E0 & R0). assert (A0 := redrawn_area _ _ _ R0). assert (W0 := redrawn_wf _ _ _ R0).
  destruct (opt_block_ok u (Some k) area b0 Hu W0 Hs Hx Hk ltac:(now rewrite A0)) as (b1 & E1 & (A1 & W1 & _) & HA & SA). exists b0, b1. cbn [opt_block_render opt_block_inner] in *. split; [exact E0|]. split; [exact E1|]. split; [exact W1|]. split; [congruence|]. now split.
Qed.
Lemma then_inside u s k area b b0 b1 b' : buffer_set_style b area s = Ret b0 -> block_render u k area b0 = Ret b1 -> barea b1 = barea b ->
  changed_only (fun p => inside p (block_inner k area)) b1 b' -> keeps_block u s k area b b'.
Proof. intros E0 E1 A (A' & _ & C). exists b0, b1. split; [exact E0|]. split; [exact E1|]. split; [congruence|exact C]. Qed.

Lemma within_of area r : (forall p, inside p area -> inside p r) -> 0 < rw area -> 0 < rh area -> within area r.
Proof. intros H Hw Hh. pose proof (H (Pos (rx area) (ry area))) as A. pose proof (H (Pos (rx area + rw area - 1) (ry area + rh area - 1))) as B. unfold within, inside in *. cbn [px py] in *. lia. Qed.
Lemma style_nothing b area : wf_buffer b -> buffer_set_style b area new_style = Ret b.
Proof.
  intros W. destruct (set_style_redrawn b area new_style W) as (b' & E & R). rewrite E. f_equal. apply buffer_ext; [exact (redrawn_wf _ _ _ R)|exact W|exact (redrawn_area _ _ _ R)|].
  intros p. destruct R as (_ & _ & L). rewrite L. destruct (look b p) as [c|]; [|reflexivity]. cbn [option_map]. f_equal. destruct (contains area p); [|reflexivity]. destruct c. unfold cell_set_style, new_style. cbn. f_equal. unfold bit_difference, bit_union. now rewrite N.lor_0_r, N.ldiff_0_r.
Qed.

(** ** C76: the block around a widget is drawn as it is without the widget's content, whatever the content.
    Paragraphs that are not wrapped: every text. *)
Theorem C76_paragraph u p k area b : uniseg_ok u -> wf_buffer b -> sized area -> 0 <= rx area -> padded k -> (forall q, inside q area -> inside q (barea b)) -> paragraph_ok p -> pg_wrap p = None ->
  exists b', paragraph_render u (Some k) p area b = Ret b' /\ keeps_block u (pg_style p) k area b b'.
Proof.
  intros Hu W Hs Hx Hk Hin Hp Hw. destruct (block_first u (pg_style p) k area b Hu W Hs Hx Hk Hin) as (b0 & b1 & E0 & E1 & W1 & A1 & HA & SA).
  unfold paragraph_render. rewrite E0. cbn [bind opt_block_render opt_block_inner]. rewrite E1. cbn [bind]. destruct (rect_is_empty (block_inner k area)) eqn:Em.
  - exists b1. unfold paragraph_render_text. rewrite Em. split; [reflexivity|]. apply (then_inside _ _ _ _ _ _ _ _ E0 E1 A1). now apply changed_only_refl.
  - destruct (area_pos _ SA Em) as [P1 P2]. destruct (C57_unwrapped_paragraph u p (block_inner k area) b1 Hu W1 SA) as (b' & ls & E & C & _); [apply within_of; try assumption; intros q Hq; rewrite A1; auto|exact Hp|exact Hw|].
    exists b'. split; [exact E|]. exact (then_inside _ _ _ _ _ _ _ _ E0 E1 A1 C).
Qed.
(** Wrapped ones, when the graphemes are narrow and the words fit the content area. *)
Theorem C76_wrapped_partial u p k area b trim : uniseg_ok u -> wf_buffer b -> sized area -> 0 <= rx area -> padded k -> (forall q, inside q area -> inside q (barea b)) -> paragraph_ok p -> pg_wrap p = Some trim ->
  Forall (fun i => Forall (fun g => g_width g <= 1) (il_graphemes i) /\ short_words (rw (block_inner k area)) (il_graphemes i)) (paragraph_input u p) ->
  exists b', paragraph_render u (Some k) p area b = Ret b' /\ keeps_block u (pg_style p) k area b b'.
Proof.
  intros Hu W Hs Hx Hk Hin Hp Hw Hf. destruct (block_first u (pg_style p) k area b Hu W Hs Hx Hk Hin) as (b0 & b1 & E0 & E1 & W1 & A1 & HA & SA).
  unfold paragraph_render. rewrite E0. cbn [bind opt_block_render opt_block_inner]. rewrite E1. cbn [bind]. destruct (rect_is_empty (block_inner k area)) eqn:Em.
  - exists b1. unfold paragraph_render_text. rewrite Em. split; [reflexivity|]. apply (then_inside _ _ _ _ _ _ _ _ E0 E1 A1). now apply changed_only_refl.
  - destruct (area_pos _ SA Em) as [P1 P2]. destruct (C57_wrapped_paragraph_partial u p (block_inner k area) b1 trim Hu W1 SA) as (b' & ls & E & C & _); [apply within_of; try assumption; intros q Hq; rewrite A1; auto|exact Hp|exact Hw|exact Hf|].
    exists b'. split; [exact E|]. exact (then_inside _ _ _ _ _ _ _ _ E0 E1 A1 C).
Qed.
(** Tabs of one-column characters. *)
Theorem C76_tabs u t k area b : uniseg_ok u -> wf_buffer b -> sized area -> 0 <= rx area -> padded k -> (forall q, inside q area -> inside q (barea b)) -> tb_block t = Some k ->
  narrow_line u (tb_left t) -> narrow_line u (tb_right t) -> narrow_span u (tb_divider t) -> (forall l, In l (tb_titles t) -> narrow_line u l) ->
  exists b', tabs_render u t area b = Ret b' /\ keeps_block u (tb_style t) k area b b'.
Proof.
  intros Hu W Hs Hx Hk Hin Eb NL NR ND NT. destruct (block_first u (tb_style t) k area b Hu W Hs Hx Hk Hin) as (b0 & b1 & E0 & E1 & W1 & A1 & HA & SA).
  unfold tabs_render. rewrite Eb, E0. cbn [bind opt_block_render opt_block_inner]. rewrite E1. cbn [bind]. unfold tabs_render_inner. destruct (rect_is_empty (block_inner k area)) eqn:Em.
  - exists b1. split; [reflexivity|]. apply (then_inside _ _ _ _ _ _ _ _ E0 E1 A1). now apply changed_only_refl.
  - destruct (area_pos _ SA Em) as [P1 P2]. set (A := block_inner k area) in *.
    assert (Wi : within A (barea b1)) by (apply within_of; try assumption; intros q Hq; rewrite A1; auto). unfold within in Wi.
    destruct (tabs_loop_ok u t A ltac:(lia) NL NR ND (tb_titles t) (zlen (tb_titles t)) 0 b1 (rleft A) W1 NT ltac:(lia)) as (b3 & E3 & R3); unfold rright, rleft, rtop in *; try lia.
    rewrite E3. exists b3. split; [reflexivity|]. apply (then_inside _ _ _ _ _ _ _ _ E0 E1 A1). eapply redrawn_only; [|exact R3]. intros p c Hp. cbn beta. unfold typed.
    destruct (Z.eqb_spec (py p) (ry A)); cbn [andb]; [|reflexivity]. destruct (Z.leb_spec (rx A) (px p)); cbn [andb]; [|reflexivity].
    destruct (nth_error (firstn _ (tab_cells u t 0 (tb_titles t))) (Z.to_nat (px p - rx A))) as [f|] eqn:Ef; [|reflexivity]. exfalso.
    assert (Hl : (Z.to_nat (px p - rx A) < length (firstn (Z.to_nat (rx A + rw A - rx A)) (tab_cells u t 0 (tb_titles t))))%nat) by (apply nth_error_Some; congruence).
    rewrite firstn_length in Hl. apply Hp. fold A. unfold inside. lia.
Qed.
(** Tabs of characters of any visible width of which none lies across the right edge of the content area. *)
Theorem C76_tabs_columns u t k area b : uniseg_ok u -> wf_buffer b -> sized area -> 0 <= rx area -> padded k -> (forall q, inside q area -> inside q (barea b)) -> tb_block t = Some k ->
  visible u (tab_text u t (tb_titles t)) -> clean_cut u (tab_text u t (tb_titles t)) (rw (block_inner k area)) ->
  exists b', tabs_render u t area b = Ret b' /\ keeps_block u (tb_style t) k area b b'.
Proof.
  intros Hu W Hs Hx Hk Hin Eb V F. destruct (block_first u (tb_style t) k area b Hu W Hs Hx Hk Hin) as (b0 & b1 & E0 & E1 & W1 & A1 & HA & SA).
  unfold tabs_render. rewrite Eb, E0. cbn [bind opt_block_render opt_block_inner]. rewrite E1. cbn [bind]. unfold tabs_render_inner. destruct (rect_is_empty (block_inner k area)) eqn:Em.
  - exists b1. split; [reflexivity|]. apply (then_inside _ _ _ _ _ _ _ _ E0 E1 A1). now apply changed_only_refl.
  - destruct (area_pos _ SA Em) as [P1 P2]. set (A := block_inner k area) in *.
    assert (Wi : within A (barea b1)) by (apply within_of; try assumption; intros q Hq; rewrite A1; auto). unfold within in Wi.
    destruct (tabs_loop_wide u t A ltac:(lia) (tb_titles t) (zlen (tb_titles t)) 0 b1 (rleft A) W1 V ltac:(unfold rright, rleft; replace (rx A + rw A - rx A) with (rw A) by lia; exact F) ltac:(lia)) as (b3 & E3 & R3); unfold rright, rleft, rtop in *; try lia.
    rewrite E3. exists b3. split; [reflexivity|]. apply (then_inside _ _ _ _ _ _ _ _ E0 E1 A1). eapply redrawn_only; [|exact R3]. intros p c Hp. cbn beta. unfold typed.
    destruct (Z.eqb_spec (py p) (ry A)); cbn [andb]; [|reflexivity]. destruct (Z.leb_spec (rx A) (px p)); cbn [andb]; [|reflexivity].
    destruct (nth_error (firstn _ (tab_cols u t 0 (tb_titles t))) (Z.to_nat (px p - rx A))) as [f|] eqn:Ef; [|reflexivity]. exfalso.
    assert (Hl : (Z.to_nat (px p - rx A) < length (firstn (Z.to_nat (rx A + rw A - rx A)) (tab_cols u t 0 (tb_titles t))))%nat) by (apply nth_error_Some; congruence).
    rewrite firstn_length in Hl. apply Hp. fold A. unfold inside. lia.
Qed.
(** Gauges whose ratio is between 0 and 1.  Not a claim: no method gives a gauge a block (C77_gauge), so no program meets [gg_block g = Some k]. *)
Lemma gauge_keeps_block u g k area b : uniseg_ok u -> wf_buffer b -> sized area -> 0 <= rx area -> rw area < 2 ^ 52 -> padded k -> (forall q, inside q area -> inside q (barea b)) -> gg_block g = Some k ->
  unit_ratio (gg_ratio g) -> 0 <= span_width u (gauge_label g) -> drawable_in u (sp_content (gauge_label g)) (rw (label_cells u g (block_inner k area))) ->
  exists b', gauge_render u g area b = Ret b' /\ keeps_block u (gg_style g) k area b b'.
Proof.
  intros Hu W Hs Hx Hw Hk Hin Eb Hr Hlw Hd. destruct (block_first u (gg_style g) k area b Hu W Hs Hx Hk Hin) as (b0 & b1 & E0 & E1 & W1 & A1 & HA & SA).
  unfold gauge_render. rewrite Eb, E0. cbn [bind opt_block_render opt_block_inner]. rewrite E1. cbn [bind]. set (A := block_inner k area) in *.
  destruct (rect_is_empty A) eqn:Em.
  - exists b1. unfold gauge_render_inner. rewrite Em. split; [reflexivity|]. apply (then_inside _ _ _ _ _ _ _ _ E0 E1 A1). now apply changed_only_refl.
  - destruct (area_pos _ SA Em) as [P1 P2]. assert (Wi : within A area) by (apply within_of; assumption). unfold within in Wi.
    set (g' := Gauge None (gg_ratio g) (gg_label g) (gg_unicode g) new_style (gg_gauge_style g)).
    destruct (C30_render u g' A b1 Hu W1 SA ltac:(lia) ltac:(lia) Logic.I) as (b' & E & C & _); [intros q Hq; rewrite A1; auto|exact Hr|exact Hlw|exact Hd|].
    exists b'. split; [|exact (then_inside _ _ _ _ _ _ _ _ E0 E1 A1 C)]. unfold gauge_render, g' in E. cbn [gg_style gg_block opt_block_render opt_block_inner] in E. rewrite (style_nothing b1 A W1) in E. cbn [bind] in E. rewrite <- E. reflexivity.
Qed.
(** Text inputs, whatever their state: when drawing returns (C26), nothing was drawn outside the row that the layout gives them (C70). *)
Theorem C76_input u row_of i k area b s b' s' : uniseg_ok u -> wf_buffer b -> sized area -> 0 <= rx area -> padded k -> (forall q, inside q area -> inside q (barea b)) -> ip_block i = Some k ->
  (forall q, inside q (row_of (block_inner k area)) -> inside q (block_inner k area)) -> input_render u row_of i area b s = Ret (b', s') -> keeps_block u (ip_style i) k area b b'.
Proof.
  intros Hu W Hs Hx Hk Hin Eb Hrow E. destruct (block_first u (ip_style i) k area b Hu W Hs Hx Hk Hin) as (b0 & b1 & E0 & E1 & W1 & A1 & HA & SA).
  unfold input_render in E. rewrite Eb, E0 in E. cbn [bind opt_block_render opt_block_inner] in E. rewrite E1 in E. cbn [bind] in E. destruct (input_line_of u i _ s) as [[l s1]|]; [|discriminate]. cbn [bind] in E.
  unfold line_render in E. destruct (C17_line_stays_inside u l (row_of (block_inner k area)) b1 AlignNone Hu W1) as (b2 & E2 & C2). rewrite E2 in E. cbn [bind] in E. injection E as <- _.
  apply (then_inside _ _ _ _ _ _ _ _ E0 E1 A1). eapply changed_only_weaken; [|exact C2]. cbn beta. intros p [I _]. auto.
Qed.
(** Lists, in the states that C23 allows. *)
Theorem C76_list u l k area b s : uniseg_ok u -> wf_buffer b -> sized area -> 0 <= rx area -> padded k -> (forall q, inside q area -> inside q (barea b)) -> ls_block l = Some k ->
  0 <= ls_padding l -> 0 <= st_offset s -> (forall i, st_selected s = Some i -> 0 <= i) ->
  let A := block_inner k area in drawable_in u (ls_hl_symbol l) (rw A) -> drawable_in u (spaces (string_width u (ls_hl_symbol l))) (rw A) ->
  exists b' s', list_render u l area b s = Ret (b', s') /\ keeps_block u (ls_style l) k area b b'.
Proof.
  intros Hu W Hs Hx Hk Hin Eb Hpad Hoff Hsel A Hd1 Hd2. destruct (block_first u (ls_style l) k area b Hu W Hs Hx Hk Hin) as (b0 & b1 & E0 & E1 & W1 & A1 & HA & SA).
  destruct (C23_list_render u l area b s Hu W Hs Hx) as (b' & s' & E & _); try assumption; [now rewrite Eb|now rewrite Eb|now rewrite Eb|].
  exists b', s'. split; [exact E|]. unfold list_render in E. rewrite Eb, E0 in E. cbn [bind opt_block_render opt_block_inner] in E. rewrite E1 in E. cbn [bind] in E. fold A in HA, SA, E.
  destruct (rect_is_empty A || (zlen (ls_items l) =? 0)) eqn:Ee.
  { injection E as <- _. apply (then_inside _ _ _ _ _ _ _ _ E0 E1 A1). now apply changed_only_refl. }
  apply orb_false_iff in Ee. destruct Ee as [Ee En]. apply not_empty_pos in Ee; [|exact SA]. destruct Ee as [Hw Hh]. apply Z.eqb_neq in En.
  set (s1 := match st_selected s with Some i => _ | None => s end) in E.
  destruct (C23_window_shows_selection (map text_height (ls_items l)) (ls_padding l) (st_selected s1) (st_offset s1) (rh A)) as (f & n & W2 & F1 & F2 & F3 & F4).
  { intros X. apply map_eq_nil in X. rewrite X in En. now apply En. }
  { intros h Hh'. apply in_map_iff in Hh'. destruct Hh' as (t & <- & _). apply zlen_nonneg. }
  { lia. } { unfold s1. destruct (st_selected s) as [i|]; [|exact Hoff]. destruct (i >=? _); exact Hoff. } { lia. }
  { rewrite zlen_map. pose proof (zlen_nonneg (ls_items l)). intros i Ei. unfold s1 in Ei. destruct (st_selected s) as [i0|] eqn:Es; [|congruence]. specialize (Hsel i0 eq_refl). rewrite Z.geb_leb in Ei. destruct (Z.leb_spec (zlen (ls_items l)) i0); cbn [st_select st_selected] in Ei; [|rewrite Es in Ei]; injection Ei as <-; lia. }
  rewrite W2 in E. cbn [bind st_selected] in E. rewrite zlen_map in F2.
  destruct (skip (ls_items l) f) as [rest|] eqn:Er; [|discriminate]. cbn [bind] in E. destruct (take rest (n - f)) as [shown|] eqn:Et; [|discriminate]. cbn [bind] in E.
  assert (Sh : shown = slice (ls_items l) f n).
  { unfold skip in Er. rewrite Z.geb_leb in Er. destruct (Z.leb_spec (zlen (ls_items l)) f) as [Hf|Hf].
    - injection Er as <-. unfold take in Et. rewrite zlen_nil in Et. replace (Z.min (n - f) 0) with 0 in Et by lia. cbn in Et. injection Et as <-. unfold slice. replace (Z.to_nat (n - f)) with O by lia. reflexivity.
    - destruct (Z.ltb_spec f 0); [lia|]. injection Er as <-. unfold take in Et. assert (El : zlen (skipn (Z.to_nat f) (ls_items l)) = zlen (ls_items l) - f) by (unfold zlen in *; rewrite skipn_length; lia).
      rewrite El, Z.min_l in Et by lia. destruct (Z.ltb_spec (n - f) 0); [lia|]. injection Et as <-. reflexivity. }
  assert (Esum : zsum (map text_height shown) <= rh A). { rewrite Sh. unfold slice in *. rewrite skipn_map, firstn_map in F3. exact F3. }
  assert (Wi : within A (barea b1)) by (apply within_of; try assumption; intros q Hq; rewrite A1; auto). unfold within in Wi.
  destruct (draw_items_ok u l A (st_selected s1) shown Hu Hw Hd1 Hd2 f 0 b1 W1) as (cur & b3 & E3 & C3 & _); [lia|lia|intros q Hq; rewrite A1; auto|lia|].
  rewrite E3 in E. cbn [bind] in E. injection E as <- _. apply (then_inside _ _ _ _ _ _ _ _ E0 E1 A1). eapply changed_only_weaken; [|exact C3]. cbn beta. intros p Hp.
  assert (0 <= zsum (map text_height shown)) by (apply zsum_nonneg; intros z Hz; apply in_map_iff in Hz; destruct Hz as (t & <- & _); apply zlen_nonneg).
  fold A. revert Hp. unfold item_row, inside. destruct (ls_dir l); cbn [rx ry rw rh]; lia.
Qed.
(** A list drawn without a state is the list drawn with a new one. *)
Theorem C76_list_plain u l k area b : uniseg_ok u -> wf_buffer b -> sized area -> 0 <= rx area -> padded k -> (forall q, inside q area -> inside q (barea b)) -> ls_block l = Some k ->
  0 <= ls_padding l -> let A := block_inner k area in drawable_in u (ls_hl_symbol l) (rw A) -> drawable_in u (spaces (string_width u (ls_hl_symbol l))) (rw A) ->
  exists b', list_render_plain u l area b = Ret b' /\ keeps_block u (ls_style l) k area b b'.
Proof.
  intros Hu W Hs Hx Hk Hin Eb Hpad A Hd1 Hd2. destruct (C76_list u l k area b (ListState 0 None) Hu W Hs Hx Hk Hin Eb Hpad ltac:(cbn; lia) ltac:(discriminate) Hd1 Hd2) as (b' & s' & E & K).
  exists b'. unfold list_render_plain. rewrite E. now split.
Qed.

(** ** Examples: the whole picture of each widget in a box. *)
Definition boxed : block := Block [] new_style AlignLeft TitleTop SideAll new_style sharp_set new_style (Padding 0 0 0 0).
Definition picture (b : buffer) : list str := map csym (bcells b).
Definition box_top : list str := [[9484]; [9472]; [9472]; [9472]; [9472]; [9488]]%N.
Definition box_bottom : list str := [[9492]; [9472]; [9472]; [9472]; [9472]; [9496]]%N.
Definition boxed_row (l : str) : list str := [[9474]%N] ++ map (fun r => [r]) l ++ [[9474]%N].

Example C76_paragraph_instance : let p := Paragraph new_style None (new_text [new_line [new_span [97; 98; 99; 100; 101; 102]%N]]) 1 0 AlignRight in
  padded boxed /\ paragraph_ok p /\ omap picture (paragraph_render simple_uniseg (Some boxed) p (Rect 0 0 6 4) (demo_buffer 6 4)) =
    Ret (box_top ++ boxed_row [97; 98; 99; 100]%N ++ boxed_row [32; 32; 32; 32]%N ++ box_bottom).
Proof. cbv zeta. split; [now vm_compute|]. split; [split; [discriminate|cbn; lia]|]. vm_compute. reflexivity. Qed.
Example C76_wrapped_instance :
  Forall (fun i => Forall (fun g => g_width g <= 1) (il_graphemes i) /\ short_words (rw (block_inner boxed (Rect 0 0 6 4))) (il_graphemes i)) (paragraph_input simple_uniseg (demo_par (Some true))) /\
  omap picture (paragraph_render simple_uniseg (Some boxed) (demo_par (Some true)) (Rect 0 0 6 4) (demo_buffer 6 4)) =
    Ret (box_top ++ boxed_row [32; 99; 100; 101]%N ++ boxed_row [32; 32; 32; 102]%N ++ box_bottom).
Proof. split; [exact (proj1 (proj2 C57_instance))|]. vm_compute. reflexivity. Qed.
Example C76_tabs_instance : let t := Tabs (Some boxed) [new_line [new_span [97; 98]%N]; new_line [new_span [99]%N]] (Some 1) new_style (with_modifier new_style ModifierReversed)
             (new_span [124%N]) (new_line []) (new_line []) in
  (forall l, In l (tb_titles t) -> narrow_line simple_uniseg l) /\
  omap picture (tabs_render simple_uniseg t (Rect 0 0 6 3) (demo_buffer 6 3)) = Ret (box_top ++ boxed_row [97; 98; 124; 99]%N ++ box_bottom).
Proof. cbv zeta. split; [intros l [<-|[<-|[]]] s [<-|[]] c; vm_compute; intuition (subst; reflexivity)|]. vm_compute. reflexivity. Qed.
Example C76_tabs_columns_instance : let t := Tabs (Some boxed) [new_line [new_span [20013]%N]; new_line [new_span [99]%N]] (Some 1) new_style (with_modifier new_style ModifierReversed)
             (new_span [124%N]) (new_line []) (new_line []) in
  visible simple_uniseg (tab_text simple_uniseg t (tb_titles t)) /\ clean_cut simple_uniseg (tab_text simple_uniseg t (tb_titles t)) 4 /\
  omap picture (tabs_render simple_uniseg t (Rect 0 0 6 3) (demo_buffer 6 3)) = Ret (box_top ++ boxed_row [20013; 32; 124; 99]%N ++ box_bottom).
Proof.
  cbv zeta. split; [intros c; vm_compute; intuition (subst; discriminate)|]. split; [apply cut_all; vm_compute; discriminate|]. vm_compute. reflexivity.
Qed.
Example gauge_keeps_block_instance : let g := Gauge (Some boxed) (Float 1 2) None false new_style new_style in
  unit_ratio (gg_ratio g) /\ drawable_in simple_uniseg (sp_content (gauge_label g)) (rw (label_cells simple_uniseg g (block_inner boxed (Rect 0 0 6 3)))) /\
  omap picture (gauge_render simple_uniseg g (Rect 0 0 6 3) (demo_buffer 6 3)) = Ret (box_top ++ boxed_row [53; 48; 37; 32]%N ++ box_bottom).
Proof. cbv zeta. split; [unfold unit_ratio, is_float; vm_compute; intuition discriminate|]. split; [left; vm_compute; intuition (subst; reflexivity)|]. vm_compute. reflexivity. Qed.
Example C76_list_instance : let l := Lst (ls_items demo_list) (Some boxed) new_style TopToBottom (reversed new_style) [62%N] false WhenSelected 0 in
  drawable_in simple_uniseg (ls_hl_symbol l) 4 /\ drawable_in simple_uniseg (spaces 1) 4 /\
  omap (fun r => picture (fst r)) (list_render simple_uniseg l (Rect 0 0 6 4) (demo_buffer 6 4) (ListState 0 (Some 2))) =
    Ret (box_top ++ boxed_row [32; 98; 32; 32]%N ++ boxed_row [62; 99; 32; 32]%N ++ box_bottom).
Proof. cbv zeta. split; [left; intros c [<-|[]]; reflexivity|]. split; [left; intros c [<-|[]]; reflexivity|]. vm_compute. reflexivity. Qed.
Example C76_input_instance : let i := Input (Some boxed) new_style AlignLeft [] new_style new_style [] new_style in
  omap (fun r => picture (fst r)) (input_render simple_uniseg (fun r => r) i (Rect 0 0 6 3) (demo_buffer 6 3) (IState 6 true [[97]; [98]; [99]; [100]; [101]; [102]]%N 0)) =
    Ret (box_top ++ boxed_row [100; 101; 102; 32]%N ++ box_bottom).
Proof. vm_compute. reflexivity. Qed.

(** Words longer than twice the content area of a wrapped paragraph, and wide characters in the titles of tabs, are drawn over the border. *)
Theorem C76_content_inside_refuted :
  (exists p b', paragraph_render simple_uniseg (Some boxed) p (Rect 0 0 6 8) (demo_buffer 8 8) = Ret b' /\ ~ keeps_block simple_uniseg (pg_style p) boxed (Rect 0 0 6 8) (demo_buffer 8 8) b') /\
  (exists t b', tb_block t = Some boxed /\ tabs_render simple_uniseg t (Rect 0 0 6 3) (demo_buffer 6 3) = Ret b' /\ ~ keeps_block simple_uniseg (tb_style t) boxed (Rect 0 0 6 3) (demo_buffer 6 3) b').
Proof.
  split.
  - exists (Paragraph new_style (Some false) (new_text [new_line [new_span (repeat 97%N 10)]]) 0 0 AlignLeft). eexists. split; [vm_compute; reflexivity|].
    intros (b0 & b1 & E0 & E1 & _ & H). vm_compute in E0. injection E0 as <-. vm_compute in E1. injection E1 as <-.
    specialize (H (Pos 5 4)). assert (X : ~ inside (Pos 5 4) (block_inner boxed (Rect 0 0 6 8))) by (unfold inside; cbn; lia). specialize (H X). vm_compute in H. discriminate H.
  - exists (Tabs (Some boxed) [new_line [new_span [97; 97; 97; 20013]%N]] None new_style new_style (new_span [124%N]) (new_line []) (new_line [])). eexists. split; [reflexivity|]. split; [vm_compute; reflexivity|].
    intros (b0 & b1 & E0 & E1 & _ & H). vm_compute in E0. injection E0 as <-. vm_compute in E1. injection E1 as <-.
    specialize (H (Pos 5 1)). assert (X : ~ inside (Pos 5 1) (block_inner boxed (Rect 0 0 6 3))) by (unfold inside; cbn; lia). specialize (H X). vm_compute in H. discriminate H.
Qed.
Print Assumptions C76_paragraph.
Print Assumptions C76_wrapped_partial.
Print Assumptions C76_tabs.
Print Assumptions C76_tabs_columns.
Print Assumptions C76_input.
Print Assumptions C76_list.
Print Assumptions C76_list_plain.
Print Assumptions C76_content_inside_refuted.
