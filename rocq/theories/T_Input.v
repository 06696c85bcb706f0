(** C25, C26: the text input. *)
From Verif Require Import Base P_Base M_Geom S_Geom T_Geom M_Style M_Uniseg M_Buffer S_Buffer S_Text P_Buffer P_SetString T_Buffer M_Text S_Line P_Text T_Text P_Redraw M_Block S_Block P_Block T_Block M_Slice M_List P_List T_List M_Reflow M_Input S_Input P_Input P_InputView.
From Coq Require Import ZArith NArith List Bool Lia.
Import ListNotations.
Open Scope Z_scope.
Local Arguments zlen : simpl never.

(** ** C25 *)

(** Any history of editing calls and keys returns and leaves the text and the cursor of the plain editor (S_Input), provided
    no word erasure reaches the very start of the text. *)
Theorem C25_behaves_as_editor : forall u ops, uniseg_ok u ->
  words_inside ed_empty (flat_map (meaning u) ops) ->
  exists s, ofold (is_do u) ops new_input_state = Ret s /\
    let e := ed_run ed_empty (flat_map (meaning u) ops) in
    is_string s = ed_text e /\ is_text s = ed_clusters e /\ is_cursor s = zlen (ed_before e).
Proof.
  intros u ops Hu W. destruct (ops_ok u ops new_input_state ed_empty) as (s & E & R); [split; reflexivity|].
  exists s. split; [exact E|]. rewrite plain_run in R; [|intros c []| |exact W].
  - destruct R as [R1 R2]. cbv zeta. unfold is_string, ed_text. rewrite R1. auto.
  - intros cs Hc c Hin. apply in_flat_map in Hc. destruct Hc as (o & _ & Hc). apply (clusters_nonempty u Hu) with (s := match o with OpAppend t | OpKey (IKRunes t) | OpKey (IKSpace t) => t | _ => [] end).
    destruct o as [| | | |t| | | |v|[]]; cbn in Hc; try tauto; destruct Hc as [Hc|[]]; try discriminate Hc; injection Hc as <-; exact Hin.
Qed.
Print Assumptions C25_behaves_as_editor.

(** Without the proviso: every history still returns, the cursor stays inside the text, and the state is that of an editor
    whose word erasure leaves an empty cluster behind when it reaches the start of the text. *)
Theorem C25_any_history : forall u ops,
  exists s, ofold (is_do u) ops new_input_state = Ret s /\ 0 <= is_cursor s <= zlen (is_text s) /\
    let e := fold_left marked_step (flat_map (meaning u) ops) ed_empty in
    is_text s = ed_clusters e /\ is_cursor s = zlen (ed_before e).
Proof.
  intros u ops. destruct (ops_ok u ops new_input_state ed_empty) as (s & E & R1 & R2); [split; reflexivity|].
  exists s. split; [exact E|]. split; [|auto]. rewrite R1, R2. unfold ed_clusters. rewrite zlen_app, zlen_rev.
  pose proof (zlen_nonneg (ed_before (fold_left marked_step (flat_map (meaning u) ops) ed_empty))).
  pose proof (zlen_nonneg (ed_after (fold_left marked_step (flat_map (meaning u) ops) ed_empty))). lia.
Qed.
Print Assumptions C25_any_history.

Example C25_example : (* "ab cd", left, erase word, "x", home, "y" *)
  let ops := [OpAppend [97; 98; 32; 99; 100]%N; OpLeft; OpDeleteWord; OpKey (IKRunes [120%N]); OpKey IKCtrlA; OpAppend [121%N]] in
  words_inside ed_empty (flat_map (meaning simple_uniseg) ops) /\
  ofold (is_do simple_uniseg) ops new_input_state = Ret (IState 1 true [[121]; [97]; [98]; [32]; [120]; [100]]%N 0).
Proof. split; [|vm_compute; reflexivity]. repeat split; try (intros ? ?; vm_compute; discriminate); discriminate. Qed.

(** Word erasure at the start of the text: "ab" typed, erased with Ctrl+W, then "cd" typed, Home, Right, "x". The plain
    editor has "cxd"; the input has "xcd", because an invisible empty cluster was left in front. *)
Theorem C25_erase_word_at_start_refuted :
  let ops := [OpAppend [97; 98]%N; OpDeleteWord; OpAppend [99; 100]%N; OpBegin; OpRight; OpAppend [120%N]] in
  ed_text (ed_run ed_empty (flat_map (meaning simple_uniseg) ops)) = [99; 120; 100]%N /\
  exists s, ofold (is_do simple_uniseg) ops new_input_state = Ret s /\ is_string s = [120; 99; 100]%N.
Proof. split; [reflexivity|]. eexists. split; [vm_compute; reflexivity|]. reflexivity. Qed.
Print Assumptions C25_erase_word_at_start_refuted.
(** Shift+Left and Shift+Right, which are to move by a word, are reported as handled but never move the cursor; a plain editor with "ab cd" and the cursor at
    the end would go to column 3. *)
Theorem C25_word_keys_refuted :
  (forall u s k, k = IKShiftLeft \/ k = IKShiftRight -> is_update u s k = Ret (s, true)) /\
  exists s, ofold (is_do simple_uniseg) [OpAppend [97; 98; 32; 99; 100]%N] new_input_state = Ret s /\ is_cursor s = 5 /\
    exists s', is_update simple_uniseg s IKShiftLeft = Ret (s', true) /\ is_cursor s' <> 3.
Proof.
  split; [intros u s k [-> | ->]; reflexivity|]. eexists. split; [vm_compute; reflexivity|]. split; [reflexivity|]. eexists. split; [reflexivity|]. cbn. discriminate.
Qed.
Print Assumptions C25_word_keys_refuted.

(** ** C26 *)

Lemma skipn_add {A} (l : list A) n m : skipn n (skipn m l) = skipn (m + n) l.
Proof. revert l. induction m as [|m IH]; intros [|a l]; cbn [plus skipn]; auto. now rewrite skipn_nil. Qed.
Lemma slice_app {A} (t : list A) f c l : 0 <= f <= c -> c <= l -> slice t f c ++ slice t c l = slice t f l.
Proof.
  intros H1 H2. unfold slice.
  assert (E : skipn (Z.to_nat c) t = skipn (Z.to_nat (c - f)) (skipn (Z.to_nat f) t)) by (rewrite skipn_add; f_equal; lia).
  rewrite E. set (m := skipn (Z.to_nat f) t). replace (Z.to_nat (l - f)) with (Z.to_nat (c - f) + Z.to_nat (l - c))%nat by lia.
  generalize (Z.to_nat (c - f)), (Z.to_nat (l - c)). clearbody m. clear. intros n k. revert m. induction n as [|n IH]; intros m; [reflexivity|].
  destruct m as [|x m]; [now rewrite skipn_nil, !firstn_nil|]. cbn. f_equal. apply IH.
Qed.
Lemma slice_len {A} (t : list A) f l : 0 <= f <= l -> l <= zlen t -> zlen (slice t f l) = l - f.
Proof. intros. unfold slice, zlen in *. rewrite firstn_length, skipn_length. lia. Qed.
Lemma slice_in {A} (t : list A) f l x : In x (slice t f l) -> In x t.
Proof. unfold slice. intros H. rewrite <- (firstn_skipn (Z.to_nat f) t). apply in_or_app. right. rewrite <- (firstn_skipn (Z.to_nat (l - f))). apply in_or_app. now left. Qed.
Lemma slice_cons {A} (t : list A) f l : 0 <= f < l -> l <= zlen t -> exists x, nth_error t (Z.to_nat f) = Some x /\ slice t f l = x :: slice t (f + 1) l.
Proof.
  intros H1 H2. unfold zlen in H2. destruct (nth_error t (Z.to_nat f)) as [x|] eqn:E; [|apply nth_error_None in E; lia].
  exists x. split; [reflexivity|]. unfold slice. destruct (nth_error_split _ _ E) as (l1 & l2 & -> & El).
  rewrite <- El, skipn_app, skipn_all, Nat.sub_diag. cbn [skipn app].
  replace (Z.to_nat (l - f)) with (S (Z.to_nat (l - (f + 1)))) by lia. cbn [firstn]. f_equal. f_equal.
  replace (Z.to_nat (f + 1)) with (length (l1 ++ [x])) by (rewrite app_length; cbn; lia).
  replace (l1 ++ x :: l2) with ((l1 ++ [x]) ++ l2) by (rewrite <- app_assoc; reflexivity). rewrite skipn_app, skipn_all, Nat.sub_diag. reflexivity.
Qed.
Lemma slice_clusters u t f l : uniseg_ok u -> clusters u (concat t) = t -> clusters u (concat (slice t f l)) = slice t f l.
Proof.
  intros Hu E. apply (clusters_sub u Hu (concat t) (firstn (Z.to_nat f) t) (slice t f l) (skipn (Z.to_nat (l - f)) (skipn (Z.to_nat f) t))).
  rewrite E. unfold slice. rewrite firstn_skipn, firstn_skipn. reflexivity.
Qed.

(** What is drawn at the cursor when the visible text is [slice t f l]. *)
Definition at_cursor (t : list str) (cursor l : Z) : str :=
  if cursor <? l then nth (Z.to_nat cursor) t [] else [32%N].

(** The old view is near the cursor: the text from the remembered offset to just before the last cluster left of the cursor fits. *)
Definition view_near (u : uniseg) (s : input_state) (max_w : Z) : Prop :=
  0 <= is_offset s /\ 0 <= is_cursor s <= zlen (is_text s) /\ (is_cursor s = 0 -> is_offset s = 0) /\
  zsum (map (string_width u) (slice (is_text s) (Z.min (is_offset s) (zlen (is_text s) - 1)) (is_cursor s - 1))) <= max_w.

Lemma psum_slice f (t : list str) a b : 0 <= a <= b -> psum (map f t) b - psum (map f t) a = zsum (map f (slice t a b)).
Proof. intros H. rewrite <- psum_range by lia. unfold slice. now rewrite skipn_map, firstn_map. Qed.

Lemma sw_nonneg u s : uniseg_ok u -> 0 <= string_width u s.
Proof. intros Hu. apply zsum_nonneg. intros z Hz. apply in_map_iff in Hz. destruct Hz as (c & <- & _). apply (cwidth_nonneg u Hu). Qed.

Lemma bounds_near u s max_w : uniseg_ok u -> 0 <= max_w -> is_text s <> [] -> view_near u s max_w ->
  (forall c, In c (is_text s) -> string_width u c <= max_w) ->
  exists f l, get_bounds (map (string_width u) (is_text s)) (is_cursor s) (is_offset s) max_w = Ret (f, l) /\
    0 <= f <= is_cursor s /\ is_cursor s <= l <= zlen (is_text s) /\ f < l /\ zsum (map (string_width u) (slice (is_text s) f l)) <= max_w /\
    (0 < is_cursor s -> f < is_cursor s).
Proof.
  intros Hu Hm Hne (V1 & V2 & V3 & V4) Hw.
  assert (HN : 0 < zlen (is_text s)) by (destruct (is_text s); [congruence|rewrite zlen_cons; pose proof (zlen_nonneg l); lia]).
  destruct (view_ok (map (string_width u) (is_text s)) max_w) with (cursor := is_cursor s) (offset := is_offset s) as (f & l & E & ? & ? & ? & ? & ?); rewrite ?zlen_map; auto; try lia.
  - intros x Hx. apply in_map_iff in Hx. destruct Hx as (c & <- & _). now apply sw_nonneg.
  - intros Hlt. rewrite psum_slice by lia. exact V4.
  - intros x Hx. apply in_map_iff in Hx. destruct Hx as (c & <- & Hc). auto.
  - rewrite zlen_map in *. exists f, l. split; [exact E|]. repeat split; try lia; try (rewrite <- psum_slice by lia; lia).
Qed.

(** The line drawn: the prompt, the visible text before the cursor, the cursor's cell, the visible text after it. *)
Definition view_found (u : uniseg) (s : input_state) (max_w : Z) : Prop :=
  exists f l, get_bounds (map (string_width u) (is_text s)) (is_cursor s) (is_offset s) max_w = Ret (f, l) /\
    0 <= f <= is_cursor s /\ is_cursor s <= l <= zlen (is_text s) /\ f < l /\ zsum (map (string_width u) (slice (is_text s) f l)) <= max_w.
Lemma line_of_view u i width s : is_text s <> [] -> (forall c, In c (is_text s) -> c <> []) ->
  let max_w := width - string_width u (ip_prompt i) - 1 in view_found u s max_w -> is_show s = true ->
  exists f l, 0 <= f <= is_cursor s /\ is_cursor s <= l <= zlen (is_text s) /\ zsum (map (string_width u) (slice (is_text s) f l)) <= max_w /\
    input_line_of u i width s =
      Ret (Line new_style [if is_empty_str (ip_prompt i) then Span new_style [] else Span (ip_prompt_style i) (ip_prompt i);
                           new_span (concat (slice (is_text s) f (is_cursor s)));
                           Span (patched new_style (ip_cursor_style i)) (at_cursor (is_text s) (is_cursor s) l);
                           new_span (concat (slice (is_text s) (is_cursor s + 1) l))] (ip_align i),
           IState (is_cursor s) true (is_text s) f).
Proof.
  intros Hne Hcs max_w (f & l & E & F1 & F2 & F3 & F4) Hs.
  exists f, l. split; [exact F1|]. split; [exact F2|]. split; [exact F4|]. unfold input_line_of. fold max_w. rewrite E. cbn [bind is_text is_offset is_cursor is_show].
  set (t := is_text s) in *. set (c := is_cursor s) in *.
  assert (Et : (let! rest := skip t f in take rest (l - f)) = Ret (slice t f l)).
  { unfold skip. rewrite Z.geb_leb. replace (zlen t <=? f) with false by (symmetry; apply Z.leb_gt; lia).
    replace (f <? 0) with false by (symmetry; apply Z.ltb_ge; lia). cbn [bind]. unfold take, slice.
    assert (El : zlen (skipn (Z.to_nat f) t) = zlen t - f) by (unfold zlen in *; rewrite skipn_length; lia).
    rewrite El. rewrite Z.min_l by lia. replace (l - f <? 0) with false by (symmetry; apply Z.ltb_ge; lia). reflexivity. }
  destruct (skip t f) as [rest|]; [|discriminate]. cbn [bind] in Et |- *. rewrite Et. cbn [bind]. rewrite Hs.
  unfold input_split. assert (Ee : is_is_empty (IState (c - f) false (slice t f l) f) = false).
  { unfold is_is_empty. cbn [is_text]. destruct (slice_cons t f l ltac:(lia) ltac:(lia)) as (x & Ex & ->). cbn [forallb].
    apply nth_error_In in Ex. apply Hcs in Ex. now destruct x. }
  rewrite Ee. clear Ee.
  rewrite (split_represents _ (Editor (rev (slice t f c)) (slice t c l))).
  2: { unfold represents, ed_clusters. cbn [is_text is_cursor ed_before ed_after]. rewrite rev_involutive, slice_app, zlen_rev, slice_len by lia. auto. }
  cbn [ed_before ed_after bind].
  assert (Eb : exists (b : list str) (u0 : str), match rev (slice t f c) with [] => ([], [], slice t c l) | c1 :: b => (rev b, c1, slice t c l) end = (b, u0, slice t c l) /\ concat (b ++ [u0]) = concat (slice t f c)).
  { destruct (rev (slice t f c)) as [|x r] eqn:Er.
    - exists [], []. split; [reflexivity|]. apply (f_equal (@rev _)) in Er. rewrite rev_involutive in Er. rewrite Er. reflexivity.
    - exists (rev r), x. split; [reflexivity|]. apply (f_equal (@rev _)) in Er. rewrite rev_involutive in Er. rewrite Er. reflexivity. }
  destruct Eb as (b & u0 & -> & Eb). cbn [bind]. cbv zeta. rewrite Eb. unfold at_cursor.
  destruct (Z.ltb_spec c l).
  - destruct (slice_cons t c l ltac:(lia) ltac:(lia)) as (x & Ex & ->). cbn [bind sp_content sp_style new_span].
    rewrite (nth_error_nth _ _ _ Ex). apply nth_error_In in Ex. apply Hcs in Ex. destruct x; [congruence|]. reflexivity.
  - assert (c = l) by lia. assert (En : forall a, l <= a -> slice t a l = []) by (intros a Ha; unfold slice; replace (Z.to_nat (l - a)) with O by lia; reflexivity).
    rewrite !En by lia. reflexivity.
Qed.

Lemma within_of (a r : rect) : 0 < rw a -> 0 < rh a -> (forall p, inside p a -> inside p r) -> within a r.
Proof.
  intros Hw Hh H. pose proof (H (Pos (rx a) (ry a))) as H1. pose proof (H (Pos (rx a + rw a - 1) (ry a + rh a - 1))) as H2. unfold inside, within in *. cbn [px py] in *. lia.
Qed.

Lemma start_bounds al W lw : 0 <= lw <= W -> 0 <= start_column al W lw <= W - lw.
Proof.
  intros H. unfold start_column. destruct al; try lia. replace (lw <=? W) with true by (symmetry; apply Z.leb_le; lia).
  split; [apply Z.div_pos; lia|apply Z.div_le_upper_bound; lia].
Qed.

Lemma text_widths u s : uniseg_ok u -> clusters u (is_string s) = is_text s -> forall c, In c (is_text s) -> string_width u c = cwidth u c.
Proof.
  intros Hu Hst c Hc. destruct (in_split _ _ Hc) as (l1 & l2 & El). unfold string_width.
  pose proof (clusters_sub u Hu (is_string s) l1 [c] l2) as X. rewrite Hst, El in X. cbn [concat] in X. rewrite app_nil_r in X. rewrite X by reflexivity. cbn. lia.
Qed.
Lemma render_shows : forall u row_of i area b s,
  uniseg_ok u -> wf_buffer b -> sized area -> 0 <= rx area -> opt_padded (ip_block i) -> (forall p, inside p area -> inside p (barea b)) ->
  let content := opt_block_inner (ip_block i) area in
  let row := row_of content in
  (forall p, inside p row -> inside p content) -> 1 <= rh row ->
  let max_w := rw row - string_width u (ip_prompt i) - 1 in
  0 <= max_w -> view_found u s max_w -> is_show s = true ->
  (* the text: not empty, segmented as uniseg segments it, made of visible clusters that fit *)
  is_text s <> [] -> clusters u (is_string s) = is_text s ->
  (forall c, In c (is_text s) -> 1 <= cwidth u c <= max_w /\ existsb is_control c = false) ->
  (forall c, In c (clusters u (ip_prompt i)) -> 1 <= cwidth u c /\ existsb is_control c = false) ->
  clusters u [32%N] = [[32%N]] -> cwidth u [32%N] = 1 ->
  exists b' f l before, input_render u row_of i area b s = Ret (b', IState (is_cursor s) true (is_text s) f) /\
    changed_only (fun p => inside p area) b b' /\
    0 <= f <= is_cursor s /\ is_cursor s <= l <= zlen (is_text s) /\
    let lw := string_width u (ip_prompt i) + widths u (slice (is_text s) f l) + (if is_cursor s <? l then 0 else 1) in
    lw <= rw row /\
    let at_ := Pos (rx row + start_column (ip_align i) (rw row) lw + string_width u (ip_prompt i) + widths u (slice (is_text s) f (is_cursor s))) (ry row) in
    inside at_ row /\
    look b' at_ = Some (cell_set_style (patched new_style (ip_cursor_style i)) (cell_set_symbol (at_cursor (is_text s) (is_cursor s) l) before)).
Proof.
  intros u row_of i area b s Hu W Hs Hx Hk Hin content row Hrow Hrh max_w Hm V Hshow Hne Hst Hvis Hpr Hsp1 Hsp2.
  assert (Hsw : forall c, In c (is_text s) -> string_width u c = cwidth u c).
  { intros c Hc. destruct (in_split _ _ Hc) as (l1 & l2 & El). unfold string_width.
    pose proof (clusters_sub u Hu (is_string s) l1 [c] l2) as X. rewrite Hst, El in X. cbn [concat] in X. rewrite app_nil_r in X. rewrite X by reflexivity. cbn. lia. }
  assert (Hcs : forall c, In c (is_text s) -> c <> []) by (intros c Hc; rewrite <- Hst in Hc; now apply (clusters_nonempty u Hu) in Hc).
  unfold input_render.
  destruct (set_style_redrawn b area (ip_style i) W) as (b1 & -> & R1). cbn [bind].
  assert (C1 : changed_only (fun p => inside p area) b b1).
  { eapply redrawn_only; [|exact R1]. intros p c Hp. cbn. apply contains_false in Hp. now rewrite Hp. }
  assert (A1 := redrawn_area _ _ _ R1).
  destruct (opt_block_ok u (ip_block i) area b1 Hu (redrawn_wf _ _ _ R1) Hs Hx Hk ltac:(now rewrite A1)) as (b2 & -> & C2 & HA & SA). cbn [bind].
  pose proof (changed_only_trans _ _ _ _ C1 C2) as C. clear C1 C2 R1 A1 b1. fold content. fold row.
  assert (A2 : barea b2 = barea b) by apply C.
  destruct (line_of_view u i (rw row) s Hne Hcs V Hshow) as (f & l & F1 & F2 & F3 & ->).
  cbn [bind]. set (t := is_text s) in *. set (c := is_cursor s) in *.
  set (cur := at_cursor t c l).
  set (ln := Line new_style _ (ip_align i)).
  assert (Hrw : 0 < rw row) by (pose proof (sw_nonneg u (ip_prompt i) Hu); unfold max_w in Hm; lia).
  (* the cells of the line *)
  assert (Ecur : clusters u cur = [cur] /\ 1 <= cwidth u cur /\ existsb is_control cur = false).
  { unfold cur, at_cursor. destruct (Z.ltb_spec c l).
    - destruct (slice_cons t c l ltac:(lia) ltac:(lia)) as (x & Ex & _). rewrite (nth_error_nth _ _ _ Ex). apply nth_error_In in Ex.
      split; [|split; apply Hvis; exact Ex]. destruct (in_split _ _ Ex) as (l1 & l2 & El).
      pose proof (clusters_sub u Hu (is_string s) l1 [x] l2) as X. rewrite Hst, El in X. cbn [concat] in X. rewrite app_nil_r in X. now apply X.
    - split; [exact Hsp1|]. split; [lia|reflexivity]. }
  destruct Ecur as (Ec1 & Ec2 & Ec3).
  set (pspan := if is_empty_str (ip_prompt i) then Span new_style [] else Span (ip_prompt_style i) (ip_prompt i)) in *.
  assert (Ep : sp_content pspan = ip_prompt i) by (unfold pspan; destruct (ip_prompt i); reflexivity).
  assert (Eb : clusters u (concat (slice t f c)) = slice t f c) by (now apply slice_clusters).
  assert (Ea : clusters u (concat (slice t (c + 1) l)) = slice t (c + 1) l) by (now apply slice_clusters).
  assert (Hvl : visible_line u (ln_spans ln)).
  { intros sp x Hsp Hx'. unfold ln in Hsp. cbn [ln_spans In] in Hsp. destruct Hsp as [<-|[<-|[<-|[<-|[]]]]].
    - rewrite Ep in Hx'. auto.
    - cbn [sp_content new_span] in Hx'. rewrite Eb in Hx'. apply slice_in in Hx'. split; apply Hvis; exact Hx'.
    - cbn [sp_content] in Hx'. rewrite Ec1 in Hx'. destruct Hx' as [<-|[]]. auto.
    - cbn [sp_content new_span] in Hx'. rewrite Ea in Hx'. apply slice_in in Hx'. split; apply Hvis; exact Hx'. }
  set (l1 := map (fun x => (x, sp_style pspan)) (clusters u (ip_prompt i)) ++ map (fun x => (x, new_style)) (slice t f c)).
  set (l2 := map (fun x => (x, new_style)) (slice t (c + 1) l)).
  assert (El : line_cells u (ln_spans ln) = l1 ++ (cur, patched new_style (ip_cursor_style i)) :: l2).
  { unfold ln, line_cells. cbn [ln_spans flat_map]. unfold span_cells. cbn [sp_content sp_style new_span]. rewrite Ep, Eb, Ec1, Ea. unfold l1, l2. cbn [map app]. rewrite app_nil_r, <- app_assoc. reflexivity. }
  assert (W1 : cells_width u l1 = string_width u (ip_prompt i) + widths u (slice t f c)).
  { unfold l1, cells_width, string_width, widths. rewrite map_app, !map_map. cbn [fst]. rewrite zsum_app. reflexivity. }
  set (lw := string_width u (ip_prompt i) + widths u (slice t f l) + (if c <? l then 0 else 1)).
  assert (Wl : line_width u ln = lw).
  { rewrite <- line_cells_width, El. rewrite cells_width_app, W1.
    assert (E2 : cells_width u ((cur, patched new_style (ip_cursor_style i)) :: l2) = cwidth u cur + widths u (slice t (c + 1) l)).
    { unfold cells_width, l2, widths. cbn [map fst]. rewrite zsum_cons, map_map. reflexivity. }
    rewrite E2. unfold lw, cur, at_cursor. rewrite <- (slice_app t f c l) by lia. unfold widths. rewrite map_app, zsum_app. destruct (Z.ltb_spec c l).
    - destruct (slice_cons t c l ltac:(lia) ltac:(lia)) as (x & Ex & ->). cbn [map]. rewrite zsum_cons. rewrite (nth_error_nth _ _ _ Ex). lia.
    - assert (En : forall a, l <= a -> slice t a l = []) by (intros a Ha; unfold slice; replace (Z.to_nat (l - a)) with O by lia; reflexivity).
      rewrite !En by lia. cbn [map zsum fold_right]. rewrite Hsp2. lia. }
  assert (Hlw : 0 < lw <= rw row).
  { assert (Wv : widths u (slice t f l) = zsum (map (string_width u) (slice t f l))).
    { unfold widths. f_equal. apply map_ext_in. intros x Hx'. symmetry. apply Hsw. now apply slice_in in Hx'. }
    rewrite <- Wl. rewrite <- line_cells_width, El, cells_width_app.
    assert (Vl := visible_of u _ Hu Hvl). rewrite El in Vl. apply visible_app in Vl. destruct Vl as [V1 V2].
    pose proof (cells_width_nonneg u l1 V1).
    assert (V3 : visible u l2) by (intros x y H'; apply (V2 x y); now right). pose proof (cells_width_nonneg u l2 V3).
    assert (E2 : cells_width u ((cur, patched new_style (ip_cursor_style i)) :: l2) = cwidth u cur + cells_width u l2) by reflexivity.
    split; [lia|]. rewrite <- cells_width_app, <- El, line_cells_width, Wl. unfold lw. rewrite Wv. unfold max_w in F3. destruct (c <? l); lia. }
  assert (Hwi : within row (barea b2)) by (apply within_of; [lia|lia|]; rewrite A2; auto).
  assert (Ei : intersection row (barea b2) = row) by (apply intersection_within; [exact Hwi|unfold sized; lia]).
  destruct (C18_line_placement u ln row b2 AlignNone Hu) as (b3 & E3 & Ar & L & _); rewrite ?Ei, ?Wl; try lia; [apply C|exact Hvl|].
  rewrite Ei, Wl in L.
  destruct (C17_line_stays_inside u ln row b2 AlignNone Hu) as (b3' & E3' & C3); [apply C|].
  rewrite E3 in E3'. injection E3' as <-. unfold line_render. rewrite E3. cbn [bind].
  assert (Hal : effective (ln_align ln) AlignNone = ip_align i) by (unfold ln; cbn; destruct (ip_align i); reflexivity).
  rewrite Hal in L.
  pose proof (start_bounds (ip_align i) (rw row) lw ltac:(lia)) as SB.
  assert (Vl := visible_of u _ Hu Hvl). rewrite El in Vl.
  assert (Hbnd : cells_width u l1 + cwidth u cur <= lw /\ 0 <= cells_width u l1).
  { rewrite <- Wl, <- line_cells_width, El, cells_width_app. pose proof Vl as Vl'. apply visible_app in Vl'. destruct Vl' as [V1 V2]. split; [|now apply cells_width_nonneg].
    assert (V3 : visible u l2) by (intros x y H'; apply (V2 x y); now right). pose proof (cells_width_nonneg u l2 V3).
    assert (E2 : cells_width u ((cur, patched new_style (ip_cursor_style i)) :: l2) = cwidth u cur + cells_width u l2) by reflexivity. lia. }
  set (st := start_column (ip_align i) (rw row) lw) in *.
  assert (Hat : inside (Pos (rx row + st + string_width u (ip_prompt i) + widths u (slice t f c)) (ry row)) row) by (unfold inside; cbn [px py]; lia).
  destruct (look_inside b2 (Pos (rx row + st + string_width u (ip_prompt i) + widths u (slice t f c)) (ry row))) as [c0 Hc0]; [apply C|rewrite A2; auto|].
  specialize (L (Pos (rx row + st + string_width u (ip_prompt i) + widths u (slice t f c)) (ry row)) eq_refl). cbn [px py] in L. rewrite Hc0 in L. cbn [option_map] in L.
  exists b3, f, l. eexists. split; [reflexivity|]. split.
  { eapply changed_only_trans; [exact C|]. eapply changed_only_weaken; [|exact C3]. cbn beta. intros p [Hp _]. auto. }
  split; [exact F1|]. split; [exact F2|]. cbv zeta. split; [fold lw; lia|]. split; [exact Hat|].
  fold lw. fold st. rewrite L by (unfold inside in Hat; cbn [px py] in Hat; lia).
  replace (rx row + st + string_width u (ip_prompt i) + widths u (slice t f c) - rx row) with (st + cells_width u l1) by lia.
  rewrite El, seen_here by (auto; lia). unfold paint. reflexivity.
Qed.

(** Rendering a non-empty input whose old view is near the cursor returns, draws only in its area, keeps the text and the
    cursor, and shows the cursor - with the cursor style, right after the prompt and the visible text before it - inside
    the input's row, for every alignment. *)
Theorem C26_render_shows_cursor : forall u row_of i area b s,
  uniseg_ok u -> wf_buffer b -> sized area -> 0 <= rx area -> opt_padded (ip_block i) -> (forall p, inside p area -> inside p (barea b)) ->
  let content := opt_block_inner (ip_block i) area in
  let row := row_of content in
  (forall p, inside p row -> inside p content) -> 1 <= rh row ->
  let max_w := rw row - string_width u (ip_prompt i) - 1 in
  0 <= max_w -> view_near u s max_w -> is_show s = true ->
  (* the text: not empty, segmented as uniseg segments it, made of visible clusters that fit *)
  is_text s <> [] -> clusters u (is_string s) = is_text s ->
  (forall c, In c (is_text s) -> 1 <= cwidth u c <= max_w /\ existsb is_control c = false) ->
  (forall c, In c (clusters u (ip_prompt i)) -> 1 <= cwidth u c /\ existsb is_control c = false) ->
  clusters u [32%N] = [[32%N]] -> cwidth u [32%N] = 1 ->
  exists b' f l before, input_render u row_of i area b s = Ret (b', IState (is_cursor s) true (is_text s) f) /\
    changed_only (fun p => inside p area) b b' /\
    0 <= f <= is_cursor s /\ is_cursor s <= l <= zlen (is_text s) /\
    let lw := string_width u (ip_prompt i) + widths u (slice (is_text s) f l) + (if is_cursor s <? l then 0 else 1) in
    lw <= rw row /\
    let at_ := Pos (rx row + start_column (ip_align i) (rw row) lw + string_width u (ip_prompt i) + widths u (slice (is_text s) f (is_cursor s))) (ry row) in
    inside at_ row /\
    look b' at_ = Some (cell_set_style (patched new_style (ip_cursor_style i)) (cell_set_symbol (at_cursor (is_text s) (is_cursor s) l) before)).
Proof.
  intros u row_of i area b s Hu W Hs Hx Hk Hin content row Hrow Hrh max_w Hm V Hshow Hne Hst Hvis Hpr Hsp1 Hsp2.
  apply (render_shows u row_of i area b s Hu W Hs Hx Hk Hin Hrow Hrh Hm); auto.
  destruct (bounds_near u s max_w Hu Hm Hne V) as (f & l & E & F1 & F2 & F3 & F4 & _); [|now exists f, l].
  intros c Hc. rewrite (text_widths u s Hu Hst c Hc). apply Hvis, Hc.
Qed.
Print Assumptions C26_render_shows_cursor.

Lemma index_at_out {A} (l : list A) k : zlen l <= k -> index_at l k = Panic.
Proof. intros H. unfold index_at. destruct (k <? 0); [reflexivity|]. unfold zlen in H. replace (nth_error l (Z.to_nat k)) with (@None A); [reflexivity|]. symmetry. apply nth_error_None. lia. Qed.

(** *** Jumps: a paste, or the cursor sent to the end *)

(** Text of one-column clusters. *)
Definition narrow (u : uniseg) (s : input_state) : Prop := forall c, In c (is_text s) -> string_width u c = 1.

Lemma narrow_view u s max_w : narrow u s -> is_text s <> [] -> 1 <= max_w -> 0 <= is_offset s -> is_cursor s <= zlen (is_text s) ->
  let o := Z.min (is_offset s) (zlen (is_text s) - 1) in o + max_w + 1 < is_cursor s ->
  get_bounds (map (string_width u) (is_text s)) (is_cursor s) (is_offset s) max_w =
    Ret (if 2 * o + max_w + 2 <=? is_cursor s then (is_cursor s - max_w, is_cursor s) else (o + 1, o + max_w + 1)).
Proof.
  intros Hn Hne Hm Ho Hc o Hfar.
  assert (HN : 0 < zlen (is_text s)) by (destruct (is_text s); [congruence|rewrite zlen_cons; pose proof (zlen_nonneg l); lia]).
  pose proof (view_jump (map (string_width u) (is_text s)) max_w) as V. rewrite zlen_map in V. apply V; auto.
  intros x Hx. apply in_map_iff in Hx. destruct Hx as (c & <- & Hx). now apply Hn.
Qed.

Lemma narrow_sum u s f l : narrow u s -> 0 <= f <= l -> l <= zlen (is_text s) -> zsum (map (string_width u) (slice (is_text s) f l)) = l - f.
Proof.
  intros Hn H1 H2. rewrite <- (slice_len (is_text s) f l H1 H2).
  assert (H : forall c, In c (slice (is_text s) f l) -> string_width u c = 1) by (intros c Hc; apply Hn; eapply slice_in; eassumption).
  revert H. generalize (slice (is_text s) f l). clear. induction l as [|c l IH]; intros H; [reflexivity|]. cbn [map]. rewrite zsum_cons, zlen_cons, IH by (intros; apply H; now right).
  rewrite (H c) by now left. lia.
Qed.

Lemma narrow_found u s max_w : uniseg_ok u -> narrow u s -> is_text s <> [] -> 1 <= max_w -> 0 <= is_offset s -> 0 <= is_cursor s <= zlen (is_text s) -> (is_cursor s = 0 -> is_offset s = 0) ->
  let o := Z.min (is_offset s) (zlen (is_text s) - 1) in is_cursor s <= o + max_w + 1 \/ 2 * o + max_w + 2 <= is_cursor s ->
  view_found u s max_w.
Proof.
  intros Hu Hn Hne Hm Ho Hc H0 o Hor. assert (HN : 0 < zlen (is_text s)) by (destruct (is_text s); [congruence|rewrite zlen_cons; pose proof (zlen_nonneg l); lia]).
  destruct (Z.le_gt_cases (is_cursor s) (o + max_w + 1)) as [Hle|Hgt].
  - destruct (bounds_near u s max_w Hu ltac:(lia) Hne) as (f & l & E & F1 & F2 & F3 & F4 & _); [|intros c I; rewrite (Hn c I); lia|now exists f, l].
    split; [exact Ho|]. split; [exact Hc|]. split; [exact H0|]. fold o. destruct (Z.le_gt_cases o (is_cursor s - 1)).
    + rewrite (narrow_sum u s) by (auto; unfold o in *; lia). lia.
    + unfold slice. replace (Z.to_nat (is_cursor s - 1 - o)) with O by lia. cbn. lia.
  - unfold view_found. rewrite narrow_view by (auto; lia). fold o. replace (2 * o + max_w + 2 <=? is_cursor s) with true by (symmetry; apply Z.leb_le; lia).
    exists (is_cursor s - max_w), (is_cursor s). split; [reflexivity|]. assert (0 <= o) by (unfold o; lia). split; [lia|]. split; [lia|]. split; [lia|]. rewrite (narrow_sum u s) by (auto; lia). lia.
Qed.

(** An input whose view has not been moved yet (a new input, or one sent to its beginning) shows its cursor at the first rendering, whatever text of
    one-column clusters has been typed or pasted into it and wherever the cursor is. *)
Theorem C26_paste_shows_cursor : forall u row_of i area b s,
  uniseg_ok u -> wf_buffer b -> sized area -> 0 <= rx area -> opt_padded (ip_block i) -> (forall p, inside p area -> inside p (barea b)) ->
  let content := opt_block_inner (ip_block i) area in
  let row := row_of content in
  (forall p, inside p row -> inside p content) -> 1 <= rh row ->
  let max_w := rw row - string_width u (ip_prompt i) - 1 in
  1 <= max_w -> is_offset s = 0 -> 0 <= is_cursor s <= zlen (is_text s) -> is_show s = true ->
  is_text s <> [] -> clusters u (is_string s) = is_text s ->
  (forall c, In c (is_text s) -> cwidth u c = 1 /\ existsb is_control c = false) ->
  (forall c, In c (clusters u (ip_prompt i)) -> 1 <= cwidth u c /\ existsb is_control c = false) ->
  clusters u [32%N] = [[32%N]] -> cwidth u [32%N] = 1 ->
  exists b' f l before, input_render u row_of i area b s = Ret (b', IState (is_cursor s) true (is_text s) f) /\
    changed_only (fun p => inside p area) b b' /\
    0 <= f <= is_cursor s /\ is_cursor s <= l <= zlen (is_text s) /\
    let lw := string_width u (ip_prompt i) + widths u (slice (is_text s) f l) + (if is_cursor s <? l then 0 else 1) in
    lw <= rw row /\
    let at_ := Pos (rx row + start_column (ip_align i) (rw row) lw + string_width u (ip_prompt i) + widths u (slice (is_text s) f (is_cursor s))) (ry row) in
    inside at_ row /\
    look b' at_ = Some (cell_set_style (patched new_style (ip_cursor_style i)) (cell_set_symbol (at_cursor (is_text s) (is_cursor s) l) before)).
Proof.
  intros u row_of i area b s Hu W Hs Hx Hk Hin content row Hrow Hrh max_w Hm Ho Hc Hshow Hne Hst Hvis Hpr Hsp1 Hsp2.
  assert (HN : 0 < zlen (is_text s)) by (destruct (is_text s); [congruence|rewrite zlen_cons; pose proof (zlen_nonneg l); lia]).
  apply (render_shows u row_of i area b s Hu W Hs Hx Hk Hin Hrow Hrh); fold content; fold row; fold max_w; auto; try lia.
  - apply narrow_found; rewrite ?Ho; auto; try lia. intros c I. rewrite (text_widths u s Hu Hst c I). now apply Hvis.
  - intros c I. destruct (Hvis c I). split; [lia|assumption].
Qed.
Print Assumptions C26_paste_shows_cursor.

(** Exactly which cursor positions break a moved view, for one-column text: those more than one column past the view, but nearer than
    the old offset once more. *)
Theorem C26_jump_exact : forall u i width s, uniseg_ok u ->
  let max_w := width - string_width u (ip_prompt i) - 1 in let o := Z.min (is_offset s) (zlen (is_text s) - 1) in
  1 <= max_w -> narrow u s -> is_text s <> [] -> (forall c, In c (is_text s) -> c <> []) -> is_show s = true ->
  0 <= is_offset s -> 0 <= is_cursor s <= zlen (is_text s) -> (is_cursor s = 0 -> is_offset s = 0) ->
  (input_line_of u i width s = Panic <-> o + max_w + 1 < is_cursor s < 2 * o + max_w + 2).
Proof.
  intros u i width s Hu max_w o Hm Hn Hne Hcs Hshow Ho Hc H0. split.
  - intros E. destruct (Z.le_gt_cases (is_cursor s) (o + max_w + 1)) as [A|A]; [|destruct (Z.le_gt_cases (2 * o + max_w + 2) (is_cursor s)) as [B|B]; [|lia]];
    (assert (V : view_found u s max_w) by (apply narrow_found; auto; fold o; lia); destruct (line_of_view u i width s Hne Hcs V Hshow) as (f & l & _ & _ & _ & E'); congruence).
  - intros [A B]. assert (HN : 0 < zlen (is_text s)) by (destruct (is_text s); [congruence|rewrite zlen_cons; pose proof (zlen_nonneg l); lia]). assert (Ho' : 0 <= o) by (unfold o; lia).
    unfold input_line_of. fold max_w. rewrite narrow_view by (auto; fold o; lia). fold o. replace (2 * o + max_w + 2 <=? is_cursor s) with false by (symmetry; apply Z.leb_gt; lia).
    cbn [bind is_text is_offset is_cursor is_show].
    assert (Et : (let! rest := skip (is_text s) (o + 1) in take rest (o + max_w + 1 - (o + 1))) = Ret (slice (is_text s) (o + 1) (o + max_w + 1))).
    { unfold skip. rewrite Z.geb_leb. replace (zlen (is_text s) <=? o + 1) with false by (symmetry; apply Z.leb_gt; lia).
      replace (o + 1 <? 0) with false by (symmetry; apply Z.ltb_ge; lia). cbn [bind]. unfold take, slice.
      assert (El : zlen (skipn (Z.to_nat (o + 1)) (is_text s)) = zlen (is_text s) - (o + 1)) by (unfold zlen in *; rewrite skipn_length; lia).
      rewrite El. rewrite Z.min_l by lia. replace (o + max_w + 1 - (o + 1) <? 0) with false by (symmetry; apply Z.ltb_ge; lia). reflexivity. }
    destruct (skip (is_text s) (o + 1)) as [rest|]; [|reflexivity]. cbn [bind] in Et |- *. rewrite Et. cbn [bind]. 
    destruct (slice_cons (is_text s) (o + 1) (o + max_w + 1) ltac:(lia) ltac:(lia)) as (x & Ex & Es).
    pose proof (slice_len (is_text s) (o + 1) (o + max_w + 1) ltac:(lia) ltac:(lia)) as Len.
    unfold input_split, is_is_empty. cbn [is_text]. assert (Ee : forallb is_empty_str (slice (is_text s) (o + 1) (o + max_w + 1)) = false).
    { rewrite Es. cbn [forallb]. apply nth_error_In in Ex. apply Hcs in Ex. now destruct x. }
    rewrite Ee. unfold split_at_cursor. cbn [is_text is_cursor]. rewrite Len.
    replace (o + max_w + 1 - (o + 1) =? 0) with false by (symmetry; apply Z.eqb_neq; lia). replace (is_cursor s - (o + 1) =? 0) with false by (symmetry; apply Z.eqb_neq; lia).
    cbn [orb]. rewrite index_at_out by (rewrite Len; lia). reflexivity.
Qed.
Print Assumptions C26_jump_exact.
(** A pasted text of eight letters in a row of five columns: a new input shows the last four; an input whose view starts at the third letter cannot be drawn. *)
Example C26_jump_instance :
  let t := map (fun c => [c]) [97; 98; 99; 100; 101; 102; 103; 104]%N in
  let i := Input None new_style AlignNone [] new_style new_style [] new_style in
  narrow simple_uniseg (IState 8 true t 0) /\ (exists l, input_line_of simple_uniseg i 5 (IState 8 true t 0) = Ret (l, IState 8 true t 4)) /\
  (2 + 4 + 1 < 8 < 2 * 2 + 4 + 2) /\ input_line_of simple_uniseg i 5 (IState 8 true t 2) = Panic.
Proof.
  cbv zeta. split; [intros c Hc; cbn in Hc; repeat (destruct Hc as [<-|Hc]; [reflexivity|]); destruct Hc|].
  split; [eexists; vm_compute; reflexivity|]. split; [lia|]. vm_compute. reflexivity.
Qed.

(** Whatever the state, if rendering returns it has drawn only in the input's area and kept the text and the cursor. *)
Theorem C26_draws_inside : forall u row_of i area b s,
  uniseg_ok u -> wf_buffer b -> sized area -> 0 <= rx area -> opt_padded (ip_block i) -> (forall p, inside p area -> inside p (barea b)) ->
  (forall p, inside p (row_of (opt_block_inner (ip_block i) area)) -> inside p (opt_block_inner (ip_block i) area)) ->
  input_render u row_of i area b s = Panic \/
  exists b' s', input_render u row_of i area b s = Ret (b', s') /\ changed_only (fun p => inside p area) b b' /\
    is_text s' = is_text s /\ is_cursor s' = is_cursor s /\ is_show s' = is_show s.
Proof.
  intros u row_of i area b s Hu W Hs Hx Hk Hin Hrow. unfold input_render.
  destruct (set_style_redrawn b area (ip_style i) W) as (b1 & -> & R1). cbn [bind].
  assert (C1 : changed_only (fun p => inside p area) b b1).
  { eapply redrawn_only; [|exact R1]. intros p c Hp. cbn. apply contains_false in Hp. now rewrite Hp. }
  assert (A1 := redrawn_area _ _ _ R1).
  destruct (opt_block_ok u (ip_block i) area b1 Hu (redrawn_wf _ _ _ R1) Hs Hx Hk ltac:(now rewrite A1)) as (b2 & -> & C2 & HA & SA). cbn [bind].
  pose proof (changed_only_trans _ _ _ _ C1 C2) as C. clear C1 C2 R1 A1 b1.
  set (row := row_of _) in *.
  destruct (input_line_of u i (rw row) s) as [[ln s']|] eqn:El; [|now left]. right. cbn [bind].
  destruct (C17_line_stays_inside u ln row b2 AlignNone Hu) as (b3 & E3 & C3); [apply C|]. unfold line_render. rewrite E3. cbn [bind].
  exists b3, s'. split; [reflexivity|]. split.
  { eapply changed_only_trans; [exact C|]. eapply changed_only_weaken; [|exact C3]. cbn beta. intros p [Hp _]. auto. }
  unfold input_line_of in El. destruct (get_bounds _ _ _ _) as [[f l]|]; [|discriminate]. cbn [bind is_text] in El.
  destruct (skip _ _); [|discriminate]. cbn [bind] in El. destruct (take _ _); [|discriminate]. cbn [bind] in El.
  destruct (input_split _ _) as [[[? ?] ?]|]; [|discriminate]. cbn [bind] in El. injection El as _ <-. auto.
Qed.
Print Assumptions C26_draws_inside.

(** An input without text (placeholder or nothing) is drawn in any width, whatever the offset left over. *)
Theorem C26_empty_text : forall u i width s, is_text s = [] -> is_cursor s = 0 ->
  exists l, input_line_of u i width s = Ret (l, IState 0 (is_show s) [] 0).
Proof.
  intros u i width s Et Ec. unfold input_line_of, get_bounds. rewrite Et, Ec. cbn [map bind is_text is_cursor is_offset is_show].
  change (zlen (@nil Z) =? 0) with true. cbn [bind skip is_text is_cursor is_offset is_show]. change (skip (@nil str) 0) with (Ret (@nil str)). cbn [bind].
  change (take (@nil str) (0 - 0)) with (Ret (@nil str)). cbn [bind].
  unfold input_split, is_is_empty. cbn [is_text forallb]. destruct (ip_placeholder i); cbn [bind]; eexists; reflexivity.
Qed.
Print Assumptions C26_empty_text.

(** *** Step by step: one operation, one rendering *)

(** Operations after which the widget is rendered again: anything but the jump to the end; at most one cluster typed, not
    wider than the view. *)
Definition gentle (u : uniseg) (max_w : Z) (o : input_op) : Prop :=
  match o with
  | OpEnd | OpKey IKCtrlE => False
  | OpAppend t | OpKey (IKRunes t) | OpKey (IKSpace t) => (length (clusters u t) <= 1)%nat /\ forall c, In c (clusters u t) -> string_width u c <= max_w
  | _ => True
  end.

(** The states seen by a program that renders the input after every operation. *)
Inductive viewed (u : uniseg) (i : input) (width : Z) : input_state -> Prop :=
| V_new : viewed u i width new_input_state
| V_step s o s1 l s2 : viewed u i width s -> gentle u (width - string_width u (ip_prompt i) - 1) o ->
    is_do u s o = Ret s1 -> input_line_of u i width s1 = Ret (l, s2) -> viewed u i width s2.

Lemma is_do_offset u s e o s1 : represents s e -> is_do u s o = Ret s1 -> is_offset s1 = is_offset s \/ (is_offset s1 = 0 /\ is_cursor s1 = 0).
Proof.
  intros R.
  assert (A : forall t s1, is_append u s t = Ret s1 -> is_offset s1 = is_offset s).
  { intros t s0 E. destruct (append_ok u t s e R) as (s' & E' & _ & ? & _). congruence. }
  assert (D : forall s1, is_delete_under s = Ret s1 -> is_offset s1 = is_offset s).
  { intros s0 E. destruct (delete_under_ok s e R) as (s' & E' & _ & ? & _). congruence. }
  assert (Wd : forall s1, is_delete_word s = Ret s1 -> is_offset s1 = is_offset s).
  { intros s0 E. destruct (delete_word_ok s e R) as (s' & E' & _ & ? & _). congruence. }
  assert (B : is_offset (is_begin s) = 0 /\ is_cursor (is_begin s) = 0).
  { split; [reflexivity|]. destruct (begin_ok s e R) as [_ Hc]. exact Hc. }
  destruct o as [| | | |t| | | |v|k]; cbn [is_do]; intros E; try (injection E as <-; auto); eauto.
  destruct k; cbn [is_update bind] in E; try (injection E as <-; auto).
  - destruct (is_delete_under s); [|discriminate]. cbn in E. injection E as <-. auto.
  - destruct (is_delete_under s); [|discriminate]. cbn in E. injection E as <-. auto.
  - destruct (is_delete_word s); [|discriminate]. cbn in E. injection E as <-. auto.
  - destruct (is_append u s s0) eqn:E'; [|discriminate]. cbn in E. injection E as <-. left. eapply A; eauto.
  - destruct (is_append u s s0) eqn:E'; [|discriminate]. cbn in E. injection E as <-. left. eapply A; eauto.
Qed.

(** How far an operation moves what is left of the cursor. *)
Definition suffix {A} (b l : list A) : Prop := exists p, l = p ++ b.
Lemma suffix_refl {A} (l : list A) : suffix l l. Proof. now exists []. Qed.
Lemma suffix_tail {A} (x : A) b l : suffix (x :: b) l -> suffix b l.
Proof. intros [p ->]. exists (p ++ [x]). rewrite <- app_assoc. reflexivity. Qed.
Lemma suffix_trans {A} (a b c : list A) : suffix a b -> suffix b c -> suffix a c.
Proof. intros [p ->] [q ->]. exists (q ++ p). now rewrite app_assoc. Qed.
Lemma drop_while_suffix {A} (f : A -> bool) l : suffix (drop_while f l) l.
Proof. destruct (drop_while_app f l) as [p E]. now exists p. Qed.

Lemma erase_suffix b : b <> [] -> exists x r, erase_word_marked b = x :: r /\ suffix r b.
Proof.
  intros Hb. destruct b as [|c b]; [congruence|]. unfold erase_word_marked. destruct (is_empty_str c); [exists c, b; split; [reflexivity|now exists [c]]|].
  set (b1 := if is_whitespace c then marked (drop_while is_whitespace (c :: b)) else c :: b).
  assert (H1 : suffix b1 (c :: b) \/ b1 = [[]]).
  { unfold b1. destruct (is_whitespace c); [|left; apply suffix_refl]. pose proof (drop_while_suffix is_whitespace (c :: b)). unfold marked. destruct (drop_while _ _); auto. }
  clearbody b1. set (f := fun g : str => negb (is_empty_str g) && negb (is_whitespace g)). pose proof (drop_while_suffix f b1) as H2. unfold marked. destruct (drop_while f b1) as [|x r] eqn:E.
  - exists [], []. split; [reflexivity|]. exists (c :: b). now rewrite app_nil_r.
  - exists x, r. split; [reflexivity|]. destruct H1 as [H1|H1].
    + apply suffix_tail in H2. eapply suffix_trans; eauto.
    + subst b1. apply suffix_tail in H2. assert (r = []) as ->; [|exists (c :: b); now rewrite app_nil_r].
      change (drop_while f [[]]) with [@nil N] in E. now injection E as _ <-.
Qed.

Definition view_inv (u : uniseg) (max_w : Z) (s : input_state) (e : editor) : Prop :=
  represents s e /\ (forall c, In c (is_text s) -> string_width u c <= max_w) /\
  ((is_cursor s = 0 /\ is_offset s = 0) \/
   (0 <= is_offset s < is_cursor s /\ zsum (map (string_width u) (slice (is_text s) (is_offset s) (is_cursor s))) <= max_w)).

Lemma psum_prefix (f : str -> Z) l m k : 0 <= k <= zlen l -> psum (map f (l ++ m)) k = psum (map f l) k.
Proof. intros H. unfold psum. rewrite map_app, firstn_app, map_length. replace (Z.to_nat k - length l)%nat with O by (unfold zlen in H; lia). cbn. now rewrite app_nil_r. Qed.

Lemma step_near u max_w s e o s1 : uniseg_ok u -> 0 <= max_w -> view_inv u max_w s e -> gentle u max_w o -> is_do u s o = Ret s1 ->
  represents s1 (fold_left marked_step (meaning u o) e) /\ (forall c, In c (is_text s1) -> string_width u c <= max_w) /\ (is_text s1 = [] \/ view_near u s1 max_w).
Proof.
  intros Hu Hm (R & Hw & Hv) G E.
  destruct (op_ok u s e o R) as (s1' & E' & R1). rewrite E in E'. injection E' as <-. split; [exact R1|].
  assert (Hs0 : string_width u [] <= max_w).
  { unfold string_width. assert (H0 : clusters u [] = []); [|rewrite H0; cbn; lia]. destruct (clusters u []) eqn:Ec; [reflexivity|exfalso].
    assert (s0 <> []) by (apply (clusters_nonempty u Hu []); rewrite Ec; now left). pose proof (clusters_concat u Hu []) as H1. rewrite Ec in H1. cbn in H1. destruct s0; [congruence|discriminate]. }
  set (e1 := fold_left marked_step (meaning u o) e) in *.
  (* what is left of the cursor *)
  assert (Hstep : (forall c, In c (ed_clusters e1) -> In c (ed_clusters e) \/ c = [] \/ (exists t, gentle u max_w (OpAppend t) /\ In c (clusters u t))) /\
    (ed_before e1 = [] -> (ed_before e = [] \/ exists x, ed_before e = [x]) \/ is_offset s1 = 0 \/ ed_clusters e1 = []) /\
    (ed_before e1 <> [] -> exists x r, ed_before e1 = x :: r /\ suffix r (ed_before e))).
  { assert (Base : (forall c, In c (ed_clusters e) -> In c (ed_clusters e) \/ c = [] \/ (exists t, gentle u max_w (OpAppend t) /\ In c (clusters u t))) /\
      (ed_before e = [] -> (ed_before e = [] \/ exists x, ed_before e = [x]) \/ is_offset s1 = 0 \/ ed_clusters e = []) /\
      (ed_before e <> [] -> exists x r, ed_before e = x :: r /\ suffix r (ed_before e))).
    { split; [auto|]. split; [auto|]. intros H. destruct (ed_before e) as [|x r]; [congruence|]. exists x, r. split; [reflexivity|now exists [x]]. }
    assert (Cases : forall k, e1 = marked_step e k -> (k = Home -> is_offset s1 = 0) -> k <> End_ ->
       (forall cs, k = Type_ cs -> exists t, gentle u max_w (OpAppend t) /\ cs = clusters u t) ->
       (forall c, In c (ed_clusters (marked_step e k)) -> In c (ed_clusters e) \/ c = [] \/ (exists t, gentle u max_w (OpAppend t) /\ In c (clusters u t))) /\
       (ed_before (marked_step e k) = [] -> (ed_before e = [] \/ exists x, ed_before e = [x]) \/ is_offset s1 = 0 \/ ed_clusters (marked_step e k) = []) /\
       (ed_before (marked_step e k) <> [] -> exists x r, ed_before (marked_step e k) = x :: r /\ suffix r (ed_before e))).
    { clear E R R1 Hv. clearbody e1. intros k _ HHome HEnd HType. destruct e as [b a]. destruct k as [ | | | |cs| | | ].
      - destruct b as [|x b]; [exact Base|]. cbn [marked_step ed_step]. split; [|split].
        + intros c Hc. left. unfold ed_clusters in *. cbn [ed_before ed_after rev] in *. rewrite <- app_assoc. exact Hc.
        + cbn [ed_before]. intros ->. left. right. now exists x.
        + cbn [ed_before]. intros Hb. destruct b as [|y b]; [congruence|]. exists y, b. split; [reflexivity|now exists [x; y]].
      - destruct a as [|x a]; [exact Base|]. cbn [marked_step ed_step]. split; [|split].
        + intros c Hc. left. unfold ed_clusters in *. cbn [ed_before ed_after rev] in *. rewrite <- app_assoc in Hc. exact Hc.
        + discriminate.
        + intros _. exists x, b. split; [reflexivity|apply suffix_refl].
      - split; [intros c Hc; left; exact Hc|]. split; [auto|]. intros H. now destruct H.
      - congruence.
      - destruct (HType cs eq_refl) as (t & Ht & ->). cbn [marked_step ed_step]. split; [|split].
        + intros c Hc. unfold ed_clusters in *. cbn [ed_before ed_after] in *. rewrite rev_app_distr, rev_involutive, <- app_assoc, !in_app_iff in Hc.
          rewrite in_app_iff. destruct Hc as [?|[?|?]]; eauto 6.
        + cbn [ed_before]. intros H. apply app_eq_nil in H. destruct H as [_ ->]. auto.
        + cbn [ed_before]. intros H. destruct Ht as [Ht _]. destruct (clusters u t) as [|x [|y r]]; [|exists x, b; split; [reflexivity|apply suffix_refl]|cbn in Ht; lia].
          cbn [rev app] in *. apply Base. exact H.
      - destruct b as [|x b]; [exact Base|]. cbn [marked_step ed_step]. split; [|split].
        + intros c Hc. left. unfold ed_clusters in *. cbn [ed_before ed_after rev] in *. rewrite <- app_assoc. rewrite in_app_iff in *. cbn. tauto.
        + cbn [ed_before]. intros ->. left. right. now exists x.
        + cbn [ed_before]. intros Hb. destruct b as [|y b]; [congruence|]. exists y, b. split; [reflexivity|now exists [x; y]].
      - cbn [marked_step]. cbn [ed_before ed_after]. destruct b as [|x b]; [exact Base|].
        destruct (erase_suffix (x :: b) ltac:(discriminate)) as (y & r & Ey & Hr). split; [|split].
        + intros c Hc. unfold ed_clusters in *. cbn [ed_before ed_after] in *. rewrite in_app_iff in *. destruct Hc as [Hc|Hc]; [|auto].
          rewrite <- in_rev in Hc. rewrite <- in_rev. revert Hc. unfold erase_word_marked. destruct (is_empty_str x); [auto|].
          assert (M : forall l c, In c (marked l) -> In c l \/ c = []) by (intros l c0; unfold marked; destruct l; cbn; intuition).
          intros Hc. apply M in Hc. destruct Hc as [Hc|Hc]; [|auto]. apply drop_while_in in Hc. destruct (is_whitespace x); [|auto].
          apply M in Hc. destruct Hc as [Hc|Hc]; [|auto]. apply drop_while_in in Hc. auto.
        + rewrite Ey. discriminate.
        + intros _. exists y, r. auto.
      - cbn [marked_step ed_step]. unfold ed_empty, ed_clusters. cbn. split; [intros c []|]. split; [auto|]. intros H; now destruct H. }
    destruct o as [| | | |t| | | |v|k]; cbn [meaning fold_left gentle] in *; try (now destruct G); try exact Base.
    all: try (apply Cases; try reflexivity; try discriminate).
    - intros _. cbn in E. injection E as <-. reflexivity.
    - intros cs Ecs. injection Ecs as <-. exists t. split; [exact G|reflexivity].
    - destruct k; cbn [meaning fold_left gentle] in *; try (now destruct G); try exact Base; apply Cases; try reflexivity; try discriminate.
      + intros _. cbn in E. injection E as <-. reflexivity.
      + intros cs Ecs. injection Ecs as <-. exists s0. split; [exact G|reflexivity].
      + intros cs Ecs. injection Ecs as <-. exists s0. split; [exact G|reflexivity]. }
  destruct Hstep as (S1 & S2 & S3).
  assert (Hw1 : forall c, In c (is_text s1) -> string_width u c <= max_w).
  { intros c Hc. destruct R1 as [T1 _]. rewrite T1 in Hc. destruct (S1 c Hc) as [H|[->|(t & G' & H)]]; [|exact Hs0|now apply G'].
    apply Hw. destruct R as [T _]. now rewrite T. }
  split; [exact Hw1|].
  destruct (is_text s1) as [|y0 t0] eqn:Et1; [now left|right].
  assert (HN : 0 < zlen (is_text s1)) by (rewrite Et1, zlen_cons; pose proof (zlen_nonneg t0); lia).
  assert (Hoff := is_do_offset u s e o s1 R E).
  destruct R as [T C]. destruct R1 as [T1 C1].
  assert (Hc1 : 0 <= is_cursor s1 <= zlen (is_text s1)).
  { rewrite C1, T1. unfold ed_clusters. rewrite zlen_app, zlen_rev. pose proof (zlen_nonneg (ed_before e1)). pose proof (zlen_nonneg (ed_after e1)). lia. }
  unfold view_near. split; [destruct Hoff as [->|[-> _]]; [destruct Hv as [[_ ->]|[Hv _]]|]; lia|]. split; [exact Hc1|]. split.
  - intros H0. assert (Hb1 : ed_before e1 = []) by (destruct (ed_before e1); [reflexivity|rewrite zlen_cons in C1; pose proof (zlen_nonneg l); lia]).
    destruct (S2 Hb1) as [Hb|[Hb|Hb]]; [|exact Hb|exfalso; rewrite Hb in T1; congruence].
    destruct Hoff as [->|[-> _]]; [|reflexivity]. destruct Hv as [[_ ->]|[Hv _]]; [reflexivity|].
    destruct Hb as [Hb|[x Hb]]; rewrite Hb in C; rewrite ?zlen_cons, ?zlen_nil in C; change (zlen (@nil str)) with 0 in C; lia.
  - destruct (ed_before e1) as [|x r] eqn:Eb1.
    { change (zlen (@nil str)) with 0 in C1. unfold slice. replace (Z.to_nat (is_cursor s1 - 1 - Z.min (is_offset s1) (zlen (is_text s1) - 1))) with O; [cbn; lia|].
      destruct Hoff as [->|[-> _]]; [destruct Hv as [[_ ->]|[Hv _]]|]; lia. }
    destruct (S3 ltac:(discriminate)) as (x' & r' & Ex & Hr). injection Ex as <- <-. rewrite zlen_cons in C1. pose proof (zlen_nonneg r) as Hr0.
    destruct (Z.le_gt_cases (is_cursor s1 - 1) (Z.min (is_offset s1) (zlen (is_text s1) - 1))) as [Hle|Hgt].
    { unfold slice. replace (Z.to_nat (is_cursor s1 - 1 - Z.min (is_offset s1) (zlen (is_text s1) - 1))) with O by lia. cbn. lia. }
    rewrite Z.min_l in * by lia.
    assert (O1 : is_offset s1 = is_offset s) by (destruct Hoff as [->|[_ H0]]; [reflexivity|lia]). rewrite O1 in *.
    destruct Hr as [p Ep]. destruct Hv as [[Hv0 Hv0']|[Hv1 Hv2]].
    { rewrite Ep, zlen_app in C. pose proof (zlen_nonneg p). assert (zlen r = 0) by lia. lia. }
    rewrite <- psum_slice in Hv2 |- * by lia.
    assert (Hlr : zlen r <= is_cursor s) by (rewrite C, Ep, zlen_app; pose proof (zlen_nonneg p); lia).
    assert (Pe : forall k, 0 <= k <= zlen r -> psum (map (string_width u) (is_text s1)) k = psum (map (string_width u) (is_text s)) k).
    { intros k Hk. rewrite T1, T. unfold ed_clusters. rewrite Eb1, Ep. cbn [rev]. rewrite rev_app_distr, <- !app_assoc.
      rewrite !psum_prefix by (rewrite zlen_rev; lia). reflexivity. }
    rewrite !Pe by lia.
    assert (psum (map (string_width u) (is_text s)) (is_cursor s1 - 1) <= psum (map (string_width u) (is_text s)) (is_cursor s)); [|lia].
    apply psum_mono; [|lia]. intros z Hz. apply in_map_iff in Hz. destruct Hz as (c & <- & _). now apply sw_nonneg.
Qed.

Lemma line_of_returns u i width s : uniseg_ok u ->
  let max_w := width - string_width u (ip_prompt i) - 1 in 0 <= max_w -> is_text s <> [] -> view_near u s max_w ->
  (forall c, In c (is_text s) -> string_width u c <= max_w) ->
  exists l f, input_line_of u i width s = Ret (l, IState (is_cursor s) (is_show s) (is_text s) f) /\ 0 <= f <= is_cursor s /\ (0 < is_cursor s -> f < is_cursor s) /\ zsum (map (string_width u) (slice (is_text s) f (is_cursor s))) <= max_w.
Proof.
  intros Hu max_w Hm Hne V Hw. destruct (bounds_near u s max_w Hu Hm Hne V Hw) as (f & l & E & F1 & F2 & F3 & F4 & F5).
  unfold input_line_of. fold max_w. rewrite E. cbn [bind is_text is_offset is_cursor is_show].
  set (t := is_text s) in *. set (c := is_cursor s) in *.
  assert (Et : (let! rest := skip t f in take rest (l - f)) = Ret (slice t f l)).
  { unfold skip. rewrite Z.geb_leb. replace (zlen t <=? f) with false by (symmetry; apply Z.leb_gt; lia).
    replace (f <? 0) with false by (symmetry; apply Z.ltb_ge; lia). cbn [bind]. unfold take, slice.
    assert (El : zlen (skipn (Z.to_nat f) t) = zlen t - f) by (unfold zlen in *; rewrite skipn_length; lia).
    rewrite El. rewrite Z.min_l by lia. replace (l - f <? 0) with false by (symmetry; apply Z.ltb_ge; lia). reflexivity. }
  destruct (skip t f) as [rest|]; [|discriminate]. cbn [bind] in Et |- *. rewrite Et. cbn [bind].
  assert (Es : exists x, input_split i (IState (c - f) false (slice t f l) f) = Ret x).
  { unfold input_split. destruct (is_is_empty _); [destruct (ip_placeholder i); eauto|].
    rewrite (split_represents _ (Editor (rev (slice t f c)) (slice t c l))).
    2: { unfold represents, ed_clusters. cbn [is_text is_cursor ed_before ed_after]. rewrite rev_involutive, slice_app, zlen_rev, slice_len by lia. auto. }
    cbn [ed_before ed_after bind]. destruct (rev (slice t f c)), (slice t c l); eauto. }
  destruct Es as ([[x y] z] & ->). cbn [bind]. eexists _, f. split; [reflexivity|]. split; [exact F1|]. split; [exact F5|].
  assert (zsum (map (string_width u) (slice t f l)) = zsum (map (string_width u) (slice t f c)) + zsum (map (string_width u) (slice t c l))).
  { rewrite <- (slice_app t f c l) by lia. now rewrite map_app, zsum_app. }
  assert (0 <= zsum (map (string_width u) (slice t c l))) by (apply zsum_nonneg; intros z' Hz; apply in_map_iff in Hz; destruct Hz as (q & <- & _); now apply sw_nonneg). lia.
Qed.

Lemma step_inv u i width s e o : uniseg_ok u -> let max_w := width - string_width u (ip_prompt i) - 1 in 0 <= max_w ->
  view_inv u max_w s e -> gentle u max_w o ->
  exists s1 l s2 e2, is_do u s o = Ret s1 /\ input_line_of u i width s1 = Ret (l, s2) /\ view_inv u max_w s2 e2 /\ is_text s2 = is_text s1 /\ is_cursor s2 = is_cursor s1.
Proof.
  intros Hu max_w Hm I G. destruct (op_ok u s e o (proj1 I)) as (s1 & E1 & _).
  destruct (step_near u max_w s e o s1 Hu Hm I G E1) as (R1 & Hw1 & Hn). set (e1 := fold_left marked_step (meaning u o) e) in *.
  destruct (list_eq_dec (list_eq_dec N.eq_dec) (is_text s1) []) as [Et|Et].
  - assert (Ec : is_cursor s1 = 0).
    { destruct R1 as [T1 C1]. rewrite C1. rewrite Et in T1. unfold ed_clusters in T1. symmetry in T1. apply app_eq_nil in T1. destruct T1 as [T1 _].
      apply (f_equal (@rev _)) in T1. rewrite rev_involutive in T1. rewrite T1. reflexivity. }
    destruct (C26_empty_text u i width s1 Et Ec) as (l & El). eexists s1, l, _, e1. split; [exact E1|]. split; [exact El|].
    cbn [is_text is_cursor]. rewrite Et, Ec. split; [|auto]. split; [|split; [intros c []|left; auto]]. destruct R1 as [T1 C1]. split; cbn [is_text is_cursor]; [rewrite <- T1; symmetry; exact Et|rewrite <- C1; symmetry; exact Ec].
  - destruct Hn as [Hn|Hn]; [now destruct (Et Hn)|].
    destruct (line_of_returns u i width s1 Hu Hm Et Hn Hw1) as (l & f & El & F1 & F2 & F3).
    eexists s1, l, _, e1. split; [exact E1|]. split; [exact El|]. cbn [is_text is_cursor]. split; [|auto].
    split; [exact R1|]. split; [exact Hw1|]. cbn [is_text is_cursor is_offset]. destruct (Z.eq_dec (is_cursor s1) 0); [left; lia|right; lia].
Qed.

(** Under a constant width, however long the history: the next operation and the next rendering both return, and the text
    from the remembered offset to the cursor fits the view. *)
Theorem C26_step_by_step : forall u i width s o, uniseg_ok u ->
  let max_w := width - string_width u (ip_prompt i) - 1 in 0 <= max_w ->
  viewed u i width s -> gentle u max_w o ->
  exists s1 l s2, is_do u s o = Ret s1 /\ input_line_of u i width s1 = Ret (l, s2) /\ viewed u i width s2 /\ is_text s2 = is_text s1 /\ is_cursor s2 = is_cursor s1 /\ 0 <= is_offset s2 <= is_cursor s2 /\ is_cursor s2 <= zlen (is_text s2) /\ zsum (map (string_width u) (slice (is_text s2) (is_offset s2) (is_cursor s2))) <= max_w.
Proof.
  intros u i width s o Hu max_w Hm Hv G.
  assert (I : exists e, view_inv u max_w s e).
  { clear G o. induction Hv as [|s o s1 l s2 Hv IH G E1 E2].
    - exists ed_empty. split; [split; reflexivity|]. split; [intros c []|left; split; reflexivity].
    - destruct IH as [e I]. destruct (step_inv u i width s e o Hu Hm I G) as (s1' & l' & s2' & e2 & E1' & E2' & I2 & _).
      rewrite E1 in E1'. injection E1' as <-. rewrite E2 in E2'. injection E2' as _ <-. now exists e2. }
  destruct I as [e I]. destruct (step_inv u i width s e o Hu Hm I G) as (s1 & l & s2 & e2 & E1 & E2 & I2 & Ht & Hc).
  exists s1, l, s2. split; [exact E1|]. split; [exact E2|]. split; [eapply V_step; eauto|]. split; [exact Ht|]. split; [exact Hc|].
  destruct I2 as ([T2 C2] & Hw2 & Hv2). 
  assert (is_cursor s2 <= zlen (is_text s2)) by (rewrite C2, T2; unfold ed_clusters; rewrite zlen_app, zlen_rev; pose proof (zlen_nonneg (ed_after e2)); lia).
  destruct Hv2 as [[H1 H2]|[H1 H2]].
  - rewrite H1, H2. split; [lia|]. split; [lia|]. cbn. lia.
  - split; [lia|]. split; [lia|exact H2].
Qed.
Print Assumptions C26_step_by_step.

Definition plain_input : input := Input None new_style AlignLeft [] new_style new_style [] new_style.

Example C26_example :
  viewed simple_uniseg plain_input 3 (IState 2 true [[97]; [98]]%N 0) /\
  view_near simple_uniseg (IState 3 true [[97]; [98]; [99]]%N 0) 2 /\
  omap (fun bs => (map csym (bcells (fst bs)), snd bs))
    (input_render simple_uniseg (fun r => r) plain_input (Rect 0 0 3 1) (demo_buffer 3 1) (IState 3 true [[97]; [98]; [99]]%N 0)) =
  Ret ([[98%N]; [99%N]; [32%N]], IState 3 true [[97]; [98]; [99]]%N 1).
Proof.
  split.
  { eapply (V_step _ _ _ (IState 1 true [[97%N]] 0) (OpAppend [98%N])); [|split; [cbn; lia|intros c [<-|[]]; cbn; lia]|vm_compute; reflexivity|vm_compute; reflexivity].
    eapply (V_step _ _ _ new_input_state (OpKey (IKRunes [97%N]))); [apply V_new|split; [cbn; lia|intros c [<-|[]]; cbn; lia]|vm_compute; reflexivity|vm_compute; reflexivity]. }
  split; [|vm_compute; reflexivity]. unfold view_near. cbn. repeat split; try lia; try discriminate.
Qed.

(** A history of operations and renderings (at the given widths). *)
Inductive input_event := Do (o : input_op) | Draw (width : Z).
Definition input_history (u : uniseg) (i : input) (es : list input_event) (s : input_state) : outcome input_state :=
  ofold (fun s e => match e with Do o => is_do u s o | Draw w => let! (_, s) := input_line_of u i w s in Ret s end) es s.
Definition typed_one_by_one (n : nat) (width : Z) : list input_event :=
  flat_map (fun _ => [Do (OpKey (IKRunes [97%N])); Draw width]) (seq 0 n).

(** Pasting four characters into a scrolled six-column input panics in the next rendering. *)
Theorem C26_paste_panics_refuted :
  (exists s, input_history simple_uniseg plain_input (typed_one_by_one 10 6) new_input_state = Ret s) /\
  input_history simple_uniseg plain_input (typed_one_by_one 10 6 ++ [Do (OpKey (IKRunes [97; 97; 97; 97]%N)); Draw 6]) new_input_state = Panic.
Proof. split; [eexists|]; vm_compute; reflexivity. Qed.
Print Assumptions C26_paste_panics_refuted.

(** Pressing the End key panics: fourteen characters typed, back to the start, ten steps right, End. *)
Theorem C26_end_key_panics_refuted :
  let back := typed_one_by_one 14 6 ++ [Do OpBegin; Draw 6] ++ flat_map (fun _ => [Do OpRight; Draw 6]) (seq 0 10) in
  (exists s, input_history simple_uniseg plain_input back new_input_state = Ret s) /\
  input_history simple_uniseg plain_input (back ++ [Do (OpKey IKCtrlE); Draw 6]) new_input_state = Panic.
Proof. split; [eexists|]; vm_compute; reflexivity. Qed.
Print Assumptions C26_end_key_panics_refuted.

(** Making the window narrower panics: fifteen characters in eleven columns, then six columns. *)
Theorem C26_resize_panics_refuted :
  (exists s, input_history simple_uniseg plain_input (typed_one_by_one 15 11) new_input_state = Ret s) /\
  input_history simple_uniseg plain_input (typed_one_by_one 15 11 ++ [Do OpLeft; Draw 11; Draw 6]) new_input_state = Panic.
Proof. split; [eexists|]; vm_compute; reflexivity. Qed.
Print Assumptions C26_resize_panics_refuted.

(** Two steps left between two renderings panic when the first visible character is the second one. *)
Theorem C26_two_lefts_panic_refuted :
  let back := typed_one_by_one 4 3 ++ [Do OpLeft; Draw 3; Do OpLeft; Draw 3] in
  (exists s, input_history simple_uniseg plain_input back new_input_state = Ret s) /\
  input_history simple_uniseg plain_input (back ++ [Do OpLeft; Do OpLeft; Draw 3]) new_input_state = Panic.
Proof. split; [eexists|]; vm_compute; reflexivity. Qed.
Print Assumptions C26_two_lefts_panic_refuted.

(** An input with text cannot be drawn at all when the row is not wider than the prompt. *)
Theorem C26_narrow_area_refuted : forall u i width s, uniseg_ok u -> is_text s <> [] -> 0 <= is_offset s -> 0 <= is_cursor s <= zlen (is_text s) ->
  width <= string_width u (ip_prompt i) -> input_line_of u i width s = Panic.
Proof.
  intros u i width s Hu Hne Ho Hc Hw. unfold input_line_of. rewrite view_neg; [reflexivity| | |lia|exact Ho|now rewrite zlen_map].
  - intros x Hx. apply in_map_iff in Hx. destruct Hx as (c & <- & _). now apply sw_nonneg.
  - rewrite zlen_map. destruct (is_text s); [congruence|rewrite zlen_cons; pose proof (zlen_nonneg l); lia].
Qed.
Print Assumptions C26_narrow_area_refuted.
