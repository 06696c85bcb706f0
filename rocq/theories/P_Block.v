From Verif Require Import Base P_Base M_Geom S_Geom T_Geom M_Style M_Uniseg M_Buffer S_Buffer P_Buffer M_Text P_Text T_Text P_Redraw M_Block S_Block.
From Coq Require Import ZArith NArith List Bool Lia.
Import ListNotations.
Open Scope Z_scope.

(** Single sides are bits. *)
Lemma land_pow2 b n : N.land b (2 ^ n) = if N.testbit b n then (2 ^ n)%N else 0%N.
Proof.
  apply N.bits_inj. intros i. rewrite N.land_spec, N.pow2_bits_eqb.
  destruct (N.eqb_spec n i) as [<-|Hn].
  - rewrite andb_true_r. destruct (N.testbit b n); [now rewrite N.pow2_bits_true|now rewrite N.bits_0].
  - rewrite andb_false_r. destruct (N.testbit b n); [|now rewrite N.bits_0]. symmetry. rewrite N.pow2_bits_eqb. now apply N.eqb_neq.
Qed.
Lemma pow2_nz n : (2 ^ n)%N <> 0%N.
Proof. apply N.pow_nonzero. lia. Qed.
Lemma contains_bit b n : bit_contains b (2 ^ n)%N = N.testbit b n.
Proof.
  unfold bit_contains. rewrite land_pow2. destruct (N.testbit b n); [apply N.eqb_refl|].
  apply N.eqb_neq. intros H. symmetry in H. now apply pow2_nz in H.
Qed.
Lemma intersects_bit b n : bit_intersects b (2 ^ n)%N = N.testbit b n.
Proof.
  unfold bit_intersects. rewrite land_pow2. destruct (N.testbit b n); [|reflexivity].
  apply negb_true_iff, N.eqb_neq, pow2_nz.
Qed.
Lemma contains_union b x y : bit_contains b (bit_union x y) = bit_contains b x && bit_contains b y.
Proof.
  unfold bit_contains, bit_union. apply eq_true_iff_eq. rewrite andb_true_iff, !N.eqb_eq. split.
  - intros H. split; apply N.bits_inj; intros i; rewrite N.land_spec; assert (Hi := f_equal (fun n => N.testbit n i) H); cbn in Hi;
      rewrite N.land_spec, N.lor_spec in Hi; destruct (N.testbit b i), (N.testbit x i), (N.testbit y i); cbn in *; congruence.
  - intros [Hx Hy]. rewrite N.land_lor_distr_r. now rewrite Hx, Hy.
Qed.

Definition has_top (k : block) : bool := N.testbit (bk_borders k) 0.
Definition has_right (k : block) : bool := N.testbit (bk_borders k) 1.
Definition has_bottom (k : block) : bool := N.testbit (bk_borders k) 2.
Definition has_left (k : block) : bool := N.testbit (bk_borders k) 3.

Lemma c_top k : side_contains (bk_borders k) SideTop = has_top k. Proof. exact (contains_bit _ 0). Qed.
Lemma c_right k : side_contains (bk_borders k) SideRight = has_right k. Proof. exact (contains_bit _ 1). Qed.
Lemma c_bottom k : side_contains (bk_borders k) SideBottom = has_bottom k. Proof. exact (contains_bit _ 2). Qed.
Lemma c_left k : side_contains (bk_borders k) SideLeft = has_left k. Proof. exact (contains_bit _ 3). Qed.
Lemma i_top k : side_intersects (bk_borders k) SideTop = has_top k. Proof. exact (intersects_bit _ 0). Qed.
Lemma i_right k : side_intersects (bk_borders k) SideRight = has_right k. Proof. exact (intersects_bit _ 1). Qed.
Lemma i_bottom k : side_intersects (bk_borders k) SideBottom = has_bottom k. Proof. exact (intersects_bit _ 2). Qed.
Lemma i_left k : side_intersects (bk_borders k) SideLeft = has_left k. Proof. exact (intersects_bit _ 3). Qed.
Lemma c_union k x y : side_contains (bk_borders k) (bit_union x y) = side_contains (bk_borders k) x && side_contains (bk_borders k) y.
Proof. apply contains_union. Qed.

Lemma put_put s st s' c : put s st (put s' st c) = put s st c.
Proof. unfold put. rewrite !set_style_symbol, set_style_twice. reflexivity. Qed.

Lemma if_redrawn (cond : bool) (m : buffer -> outcome buffer) g b : wf_buffer b ->
  (exists b', m b = Ret b' /\ redrawn g b b') ->
  exists b', (if cond then m b else Ret b) = Ret b' /\ redrawn (fun p c => if cond then g p c else c) b b'.
Proof. intros W (b' & E & R). destruct cond; [eauto|]. exists b. split; [reflexivity|now apply redrawn_refl]. Qed.

(** The overlay drawn by one side or corner: [put] on a boolean set of positions. *)
Definition overlay (k : block) (on : pos -> bool) (s : str) (p : pos) (c : cell) : cell :=
  if on p then put s (bk_border_style k) c else c.

Lemma step_overlay k (o1 : pos -> option str) on s b b1 b2 :
  redrawn (fun p c => framed (o1 p) (bk_border_style k) c) b b1 ->
  redrawn (overlay k on s) b1 b2 ->
  redrawn (fun p c => framed (if on p then Some s else o1 p) (bk_border_style k) c) b b2.
Proof.
  intros R1 R2. eapply redrawn_ext; [|exact (redrawn_trans _ _ _ _ _ R1 R2)]. intros p c _. cbn. unfold overlay.
  destruct (on p); [|reflexivity]. destruct (o1 p); cbn [framed]; [|reflexivity]. apply (put_put s).
Qed.

Definition the_frame (s : border_set) : frame :=
  Frame (bs_top_left s) (bs_top_right s) (bs_bottom_left s) (bs_bottom_right s) (bs_left s) (bs_right s) (bs_top s) (bs_bottom s).

Definition block_frame (k : block) (area : rect) (p : pos) : option str :=
  frame_at (has_left k) (has_top k) (has_right k) (has_bottom k) (the_frame (bk_set k)) area p.

Lemma render_borders_ok k area b : wf_buffer b -> 0 < rw area -> 0 < rh area -> (forall p, inside p area -> inside p (barea b)) ->
  exists b', render_borders k area b = Ret b' /\ redrawn (fun p c => framed (block_frame k area p) (bk_border_style k) c) b b'.
Proof.
  intros W Hw Hh Hin. unfold render_borders.
  unfold render_left_side, render_top_side, render_right_side, render_bottom_side, render_bottom_right, render_top_right, render_bottom_left, render_top_left.
  rewrite !c_union, c_left, c_top, c_right, c_bottom.
  assert (Hi : forall q, inside q area -> forall b', barea b' = barea b -> inside q (barea b')) by (intros q Hq b' ->; auto).
  assert (R0 : redrawn (fun p c => framed None (bk_border_style k) c) b b) by now apply redrawn_refl.
  assert (Side : forall (cond : bool) (m : buffer -> outcome buffer) (on : pos -> bool) s b1,
    wf_buffer b1 -> barea b1 = barea b ->
    (exists b', m b1 = Ret b' /\ redrawn (fun q c => if on q then put s (bk_border_style k) c else c) b1 b') ->
    exists b', (if cond then m b1 else Ret b1) = Ret b' /\ redrawn (overlay k (fun q => cond && on q) s) b1 b').
  { intros cond m on s b1 W1 A1 (b' & E & R). unfold overlay. destruct cond; [eauto|]. exists b1. split; [reflexivity|now apply redrawn_refl]. }
  assert (D : forall p, inside p area \/ ~ inside p area) by (intros p; unfold inside; lia).
  (* left *)
  destruct (Side (has_left k) _ _ (bs_left (bk_set k)) b W eq_refl (col_redrawn (rleft area) (put (bs_left (bk_set k)) (bk_border_style k)) (rtop area) (rbottom area) b W
    ltac:(intros y Hy; apply Hi; auto; unfold inside, rleft, rtop, rbottom in *; cbn; lia))) as (b1 & -> & R1). cbn [bind].
  assert (A1 := redrawn_area _ _ _ R1). assert (W1 := redrawn_wf _ _ _ R1).
  pose proof (step_overlay _ _ _ _ _ _ _ R0 R1) as F1.
  (* top *)
  destruct (Side (has_top k) _ _ (bs_top (bk_set k)) b1 W1 A1 (row_redrawn (rtop area) (put (bs_top (bk_set k)) (bk_border_style k)) (rleft area) (rright area) b1 W1
    ltac:(intros y Hy; apply Hi; auto; unfold inside, rleft, rright, rtop, rbottom in *; cbn; lia))) as (b2 & -> & R2). cbn [bind].
  assert (A2 := redrawn_area _ _ _ R2). assert (W2 := redrawn_wf _ _ _ R2). rewrite A1 in A2.
  pose proof (step_overlay _ _ _ _ _ _ _ F1 R2) as F2.
  (* right *)
  destruct (Side (has_right k) _ _ (bs_right (bk_set k)) b2 W2 A2 (col_redrawn (rright area - 1) (put (bs_right (bk_set k)) (bk_border_style k)) (rtop area) (rbottom area) b2 W2
    ltac:(intros y Hy; apply Hi; auto; unfold inside, rleft, rright, rtop, rbottom in *; cbn; lia))) as (b3 & -> & R3). cbn [bind].
  assert (A3 := redrawn_area _ _ _ R3). assert (W3 := redrawn_wf _ _ _ R3). rewrite A2 in A3.
  pose proof (step_overlay _ _ _ _ _ _ _ F2 R3) as F3.
  (* bottom *)
  destruct (Side (has_bottom k) _ _ (bs_bottom (bk_set k)) b3 W3 A3 (row_redrawn (rbottom area - 1) (put (bs_bottom (bk_set k)) (bk_border_style k)) (rleft area) (rright area) b3 W3
    ltac:(intros y Hy; apply Hi; auto; unfold inside, rleft, rright, rtop, rbottom in *; cbn; lia))) as (b4 & -> & R4). cbn [bind].
  assert (A4 := redrawn_area _ _ _ R4). assert (W4 := redrawn_wf _ _ _ R4). rewrite A3 in A4.
  pose proof (step_overlay _ _ _ _ _ _ _ F3 R4) as F4.
  (* corners *)
  destruct (Side (has_right k && has_bottom k) (fun b => upd_cell b (Pos (rright area - 1) (rbottom area - 1)) (put (bs_bottom_right (bk_set k)) (bk_border_style k))) _ (bs_bottom_right (bk_set k)) b4 W4 A4
    (upd_redrawn b4 (Pos (rright area - 1) (rbottom area - 1)) (put (bs_bottom_right (bk_set k)) (bk_border_style k)) W4
    ltac:(apply Hi; auto; unfold inside, rleft, rright, rtop, rbottom in *; cbn; lia))) as (b5 & -> & R5). cbn [bind].
  assert (A5 := redrawn_area _ _ _ R5). assert (W5 := redrawn_wf _ _ _ R5). rewrite A4 in A5.
  pose proof (step_overlay _ _ _ _ _ _ _ F4 R5) as F5.
  destruct (Side (has_right k && has_top k) (fun b => upd_cell b (Pos (rright area - 1) (rtop area)) (put (bs_top_right (bk_set k)) (bk_border_style k))) _ (bs_top_right (bk_set k)) b5 W5 A5
    (upd_redrawn b5 (Pos (rright area - 1) (rtop area)) (put (bs_top_right (bk_set k)) (bk_border_style k)) W5
    ltac:(apply Hi; auto; unfold inside, rleft, rright, rtop, rbottom in *; cbn; lia))) as (b6 & -> & R6). cbn [bind].
  assert (A6 := redrawn_area _ _ _ R6). assert (W6 := redrawn_wf _ _ _ R6). rewrite A5 in A6.
  pose proof (step_overlay _ _ _ _ _ _ _ F5 R6) as F6.
  destruct (Side (has_left k && has_bottom k) (fun b => upd_cell b (Pos (rleft area) (rbottom area - 1)) (put (bs_bottom_left (bk_set k)) (bk_border_style k))) _ (bs_bottom_left (bk_set k)) b6 W6 A6
    (upd_redrawn b6 (Pos (rleft area) (rbottom area - 1)) (put (bs_bottom_left (bk_set k)) (bk_border_style k)) W6
    ltac:(apply Hi; auto; unfold inside, rleft, rright, rtop, rbottom in *; cbn; lia))) as (b7 & -> & R7). cbn [bind].
  assert (A7 := redrawn_area _ _ _ R7). assert (W7 := redrawn_wf _ _ _ R7). rewrite A6 in A7.
  pose proof (step_overlay _ _ _ _ _ _ _ F6 R7) as F7.
  destruct (Side (has_left k && has_top k) (fun b => upd_cell b (Pos (rleft area) (rtop area)) (put (bs_top_left (bk_set k)) (bk_border_style k))) _ (bs_top_left (bk_set k)) b7 W7 A7
    (upd_redrawn b7 (Pos (rleft area) (rtop area)) (put (bs_top_left (bk_set k)) (bk_border_style k)) W7
    ltac:(apply Hi; auto; unfold inside, rleft, rright, rtop, rbottom in *; cbn; lia))) as (b8 & E8 & R8). cbn [bind].
  pose proof (step_overlay _ _ _ _ _ _ _ F7 R8) as F8.
  exists b8. split; [exact E8|]. eapply redrawn_ext; [|exact F8]. clear - Hw Hh. intros [x y] c _. cbn beta. f_equal.
  unfold block_frame, frame_at, the_frame, pos_eqb, rleft, rright, rtop, rbottom. cbn [px py f_tl f_tr f_bl f_br f_l f_r f_t f_b].
  destruct (has_left k), (has_top k), (has_right k), (has_bottom k); cbn [andb];
  destruct (Z.eqb_spec x (rx area)), (Z.eqb_spec x (rx area + rw area - 1)), (Z.eqb_spec y (ry area)), (Z.eqb_spec y (ry area + rh area - 1)); cbn [andb];
  destruct (Z.leb_spec (rx area) x), (Z.ltb_spec x (rx area + rw area)), (Z.leb_spec (ry area) y), (Z.ltb_spec y (ry area + rh area)); cbn [andb negb]; try reflexivity; lia.
Qed.

(** ** Titles *)

Lemma draw_title_ok u k t ta b : uniseg_ok u -> wf_buffer b ->
  exists b', draw_title u k t ta b = Ret b' /\ changed_only (fun p => inside p ta) b b'.
Proof.
  intros Hu W. unfold draw_title. destruct (set_style_redrawn b ta (bk_titles_style k) W) as (b1 & -> & R1). cbn [bind].
  assert (C1 : changed_only (fun p => inside p ta) b b1).
  { eapply redrawn_only; [|exact R1]. intros p c Hp. cbn. apply contains_false in Hp. now rewrite Hp. }
  destruct (C17_line_stays_inside u (ti_line t) ta b1 AlignNone Hu (redrawn_wf _ _ _ R1)) as (b2 & E & C2).
  exists b2. split; [exact E|]. eapply changed_only_trans; [exact C1|]. eapply changed_only_weaken; [|exact C2]. cbn. tauto.
Qed.

Lemma line_width_nonneg u l : uniseg_ok u -> 0 <= line_width u l.
Proof.
  intros Hu. unfold line_width. apply zsum_nonneg. intros z Hz. apply in_map_iff in Hz. destruct Hz as (s & <- & _).
  apply string_width_nonneg. apply (cwidth_nonneg _ Hu).
Qed.

Lemma right_titles_ok u k ts : uniseg_ok u -> forall ta b, wf_buffer b -> 0 <= rx ta -> 0 <= rw ta ->
  exists b', right_titles u k ts ta b = Ret b' /\ changed_only (fun p => inside p ta /\ ts <> []) b b'.
Proof.
  intros Hu. induction ts as [|t ts IH]; intros ta b W Hx Hw; cbn [right_titles].
  - exists b. split; [reflexivity|now apply changed_only_refl].
  - destruct (rect_is_empty ta); [exists b; split; [reflexivity|now apply changed_only_refl]|].
    pose proof (line_width_nonneg u (ti_line t) Hu) as Hl. set (w := line_width u (ti_line t)) in *.
    destruct (draw_title_ok u k t (Rect (Z.max 0 (Z.max (rleft ta) (rright ta - w))) (ry ta) (Z.min (rw ta) w) (rh ta)) b Hu W) as (b1 & -> & C1). cbn [bind].
    destruct (IH (with_width ta (Z.max 0 (rw ta - w - 1))) b1) as (b2 & E & C2); [apply C1|exact Hx|cbn; lia|].
    exists b2. split; [exact E|]. eapply changed_only_trans.
    + eapply changed_only_weaken; [|exact C1]. intros p Hp. split; [|discriminate]. unfold inside, rleft, rright in *; cbn in *. lia.
    + eapply changed_only_weaken; [|exact C2]. intros p [Hp _]. split; [|discriminate]. unfold inside, with_width in *; cbn in *. lia.
Qed.

(** Width taken by titles side by side, one column between two of them. *)
Definition total_width (u : uniseg) (ts : list title) : Z :=
  Z.max 0 (zsum (map (fun t => line_width u (ti_line t) + 1) ts) - 1).

Lemma total_width_cons u t ts : uniseg_ok u -> line_width u (ti_line t) <= total_width u (t :: ts) /\
  (ts <> [] -> total_width u (t :: ts) = line_width u (ti_line t) + 1 + total_width u ts).
Proof.
  intros Hu. unfold total_width. cbn [map]. rewrite zsum_cons. pose proof (line_width_nonneg u (ti_line t) Hu).
  assert (Hs : forall l, 0 <= zsum (map (fun t => line_width u (ti_line t) + 1) l)).
  { intros l. apply zsum_nonneg. intros z Hz. apply in_map_iff in Hz. destruct Hz as (t' & <- & _). pose proof (line_width_nonneg u (ti_line t') Hu). lia. }
  split; [specialize (Hs ts); lia|]. destruct ts as [|t' ts]; [congruence|]. intros _. cbn [map]. rewrite zsum_cons.
  pose proof (line_width_nonneg u (ti_line t') Hu). specialize (Hs ts). lia.
Qed.

Lemma left_titles_ok u k ts : uniseg_ok u -> forall ta b, wf_buffer b -> 0 <= rw ta ->
  exists b', left_titles u k ts ta b = Ret b' /\
    changed_only (fun p => inside p (with_width ta (Z.min (rw ta) (total_width u ts))) /\ ts <> []) b b'.
Proof.
  intros Hu. induction ts as [|t ts IH]; intros ta b W Hw; cbn [left_titles].
  - exists b. split; [reflexivity|now apply changed_only_refl].
  - destruct (rect_is_empty ta); [exists b; split; [reflexivity|now apply changed_only_refl]|].
    pose proof (line_width_nonneg u (ti_line t) Hu) as Hl. destruct (total_width_cons u t ts Hu) as [T1 T2]. set (w := line_width u (ti_line t)) in *.
    destruct (draw_title_ok u k t (Rect (rx ta) (ry ta) (Z.min w (rw ta)) (rh ta)) b Hu W) as (b1 & -> & C1). cbn [bind].
    destruct (IH (Rect (rx ta + (w + 1)) (ry ta) (Z.max 0 (rw ta - w - 1)) (rh ta)) b1) as (b2 & E & C2); [apply C1|cbn; lia|].
    exists b2. split; [exact E|]. eapply changed_only_trans.
    + eapply changed_only_weaken; [|exact C1]. intros p Hp. split; [|discriminate]. unfold inside, with_width in *; cbn in *. lia.
    + eapply changed_only_weaken; [|exact C2]. intros p [Hp N]. split; [|discriminate]. specialize (T2 N). unfold inside, with_width in *; cbn in *. lia.
Qed.

Lemma titles_area_in k area p q : sized area -> 0 < rh area -> inside q (titles_area k area p) -> inside q area.
Proof.
  unfold sized, titles_area, inside, rleft, rtop, rbottom; cbn. intros.
  destruct (side_contains _ SideLeft), (side_contains _ SideRight), p; lia.
Qed.

Lemma filter_titles_nil k p a : filter_titles k p a <> [] -> has_title_at k p = true.
Proof.
  unfold filter_titles, has_title_at. intros H. apply existsb_exists. induction (bk_titles k) as [|t ts IH]; [now elim H|]. cbn in H.
  destruct (title_position_eqb (title_pos k t) p) eqn:E; [exists t; split; [now left|auto]|]. destruct (IH H) as (t' & ? & ?). exists t'. split; [now right|auto].
Qed.

Lemma render_title_position_ok u k p area b : uniseg_ok u -> wf_buffer b -> sized area -> 0 <= rx area ->
  exists b', render_title_position u k p area b = Ret b' /\
    changed_only (fun q => inside q (titles_area k area p) /\ has_title_at k p = true) b b'.
Proof.
  intros Hu W [Sw Sh] Hx. unfold render_title_position.
  assert (TW : 0 <= rw (titles_area k area p)) by (unfold titles_area; cbn; lia).
  assert (TX : 0 <= rx (titles_area k area p)) by (unfold titles_area, rleft; cbn; destruct (side_contains _ SideLeft); lia).
  set (TA := titles_area k area p) in *.
  destruct (right_titles_ok u k (rev (filter_titles k p AlignRight)) Hu TA b W TX TW) as (b1 & E1 & C1).
  unfold render_right_titles. fold TA. rewrite E1. cbn [bind].
  unfold render_center_titles. fold TA. cbv zeta. 
  set (tc := filter_titles k p AlignCenter). fold (total_width u tc).
  destruct (left_titles_ok u k tc Hu (Rect (rleft TA + Z.quot (Z.max 0 (rw TA - total_width u tc)) 2) (ry TA) (rw TA) (rh TA)) b1 (proj1 (proj2 C1))) as (b2 & E2 & C2); [exact TW|].
  rewrite E2. cbn [bind]. unfold render_left_titles. fold TA.
  destruct (left_titles_ok u k (filter_titles k p AlignLeft) Hu TA b2 (proj1 (proj2 C2)) TW) as (b3 & E3 & C3).
  exists b3. split; [exact E3|].
  eapply changed_only_trans; [|eapply changed_only_trans].
  - eapply changed_only_weaken; [|exact C1]. intros q [Hq N]. split; [exact Hq|]. apply (filter_titles_nil k p AlignRight).
    intros E. apply N. now rewrite E.
  - eapply changed_only_weaken; [|exact C2]. intros q [Hq N]. split; [|now apply (filter_titles_nil k p AlignCenter)].
    unfold inside, with_width, rleft in *. cbn [rx ry rw rh] in *. destruct Hq as [Hq1 Hq2]. split; [|exact Hq2].
    assert (0 <= total_width u tc) by (unfold total_width; lia).
    pose proof (Z.quot_pos (Z.max 0 (rw TA - total_width u tc)) 2 ltac:(lia) ltac:(lia)).
    assert (Z.quot (Z.max 0 (rw TA - total_width u tc)) 2 <= Z.max 0 (rw TA - total_width u tc)) by (apply Z.quot_le_upper_bound; lia).
    lia.
  - eapply changed_only_weaken; [|exact C3]. intros q [Hq N]. split; [|now apply (filter_titles_nil k p AlignLeft)].
    unfold inside, with_width in *; cbn [rx ry rw rh] in *. lia.
Qed.

(** The strip of a title row that titles may use. *)
Definition in_title_strip (k : block) (area : rect) (q : pos) : Prop :=
  (has_title_at k TitleTop = true /\ inside q (titles_area k area TitleTop)) \/
  (has_title_at k TitleBottom = true /\ inside q (titles_area k area TitleBottom)).

Lemma render_titles_ok u k area b : uniseg_ok u -> wf_buffer b -> sized area -> 0 <= rx area ->
  exists b', render_titles u k area b = Ret b' /\ changed_only (in_title_strip k area) b b'.
Proof.
  intros Hu W Hs Hx. unfold render_titles.
  destruct (render_title_position_ok u k TitleTop area b Hu W Hs Hx) as (b1 & -> & C1). cbn [bind].
  destruct (render_title_position_ok u k TitleBottom area b1 Hu (proj1 (proj2 C1)) Hs Hx) as (b2 & E & C2).
  exists b2. split; [exact E|]. eapply changed_only_trans; (eapply changed_only_weaken; [|eassumption]); unfold in_title_strip; cbn; tauto.
Qed.

Lemma block_render_ok u k area b : uniseg_ok u -> wf_buffer b -> sized area -> 0 <= rx area ->
  (forall p, inside p area -> inside p (barea b)) ->
  exists b', block_render u k area b = Ret b' /\ changed_only (fun p => inside p area) b b' /\
    forall p, inside p area -> ~ in_title_strip k area p ->
      look b' p = option_map (fun c => framed (block_frame k area p) (bk_border_style k) (cell_set_style (bk_style k) c)) (look b p).
Proof.
  intros Hu W Hs Hx Hin. unfold block_render.
  assert (EI : intersection area area = area) by (apply intersection_within; [unfold within; lia|auto]). rewrite EI.
  destruct (rect_is_empty area) eqn:Ee.
  { exists b. split; [reflexivity|]. split; [now apply changed_only_refl|]. intros p Hp. exfalso.
    unfold rect_is_empty in Ee. apply orb_true_iff in Ee. rewrite !Z.eqb_eq in Ee. unfold inside in Hp. lia. }
  apply not_empty_pos in Ee; [|auto]. destruct Ee as [Hw Hh].
  destruct (set_style_redrawn b area (bk_style k) W) as (b1 & -> & R1). cbn [bind].
  assert (A1 := redrawn_area _ _ _ R1).
  destruct (render_borders_ok k area b1 (redrawn_wf _ _ _ R1) Hw Hh) as (b2 & -> & R2); [now rewrite A1|]. cbn [bind].
  pose proof (redrawn_trans _ _ _ _ _ R1 R2) as R.
  destruct (render_titles_ok u k area b2 Hu (redrawn_wf _ _ _ R2) Hs Hx) as (b3 & E & C3).
  exists b3. split; [exact E|]. split.
  - eapply changed_only_trans.
    + eapply redrawn_only; [|exact R]. intros p c Hp. cbn beta. assert (Hc := Hp). apply contains_false in Hc. rewrite Hc.
      unfold block_frame, frame_at. replace (negb _) with true; [reflexivity|]. symmetry. apply negb_true_iff.
      destruct (_ && _) eqn:Ea; [|reflexivity]. exfalso. apply Hp. rewrite !andb_true_iff, !Z.leb_le, !Z.ltb_lt in Ea. unfold inside. lia.
    + eapply changed_only_weaken; [|exact C3]. unfold in_title_strip. intros p [[_ Hp]|[_ Hp]]; eapply titles_area_in; eauto.
  - intros p Hp Hn. destruct C3 as (_ & _ & C3). rewrite C3 by auto. destruct R as (_ & _ & R). rewrite R. apply contains_inside in Hp. now rewrite Hp.
Qed.

Lemma block_inner_in k area p : sized area -> 0 <= ptop (bk_padding k) -> 0 <= pright (bk_padding k) -> 0 <= pbottom (bk_padding k) -> 0 <= pleft (bk_padding k) ->
  inside p (block_inner k area) -> inside p area /\
  (has_left k = true -> px p <> rx area) /\ (has_right k = true -> px p <> rx area + rw area - 1) /\
  (has_top k || has_title_at k TitleTop = true -> py p <> ry area) /\
  (has_bottom k || has_title_at k TitleBottom = true -> py p <> ry area + rh area - 1).
Proof.
  unfold sized, block_inner. rewrite i_left, i_top, i_right, i_bottom. intros [? ?] ? ? ? ?.
  destruct (has_left k), (has_right k), (has_top k || _), (has_bottom k || _); unfold inside, with_width, with_height, rright, rbottom; cbn [rx ry rw rh]; intros;
  repeat apply conj; first [lia | intros HH; first [discriminate HH | clear HH; lia]].
Qed.

Lemma block_inner_sized k area : sized (block_inner k area).
Proof. unfold sized, block_inner; cbn [rw rh]. split; apply Z.le_max_l. Qed.
