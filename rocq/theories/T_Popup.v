(** C65-C67: popups. *)
From Verif Require Import Base P_Base M_Geom M_Solver M_Layout S_Solver S_Layout S_Place P_Row P_Layout P_Sum P_Place P_Placed T_Solver T_Layout T_Place T_Exact T_Apart.
From Verif Require Import S_Geom T_Geom M_Style M_Uniseg M_Buffer S_Buffer P_Buffer P_SetString T_Buffer M_Text P_Text M_Block S_Block P_Block T_Block M_Popup.
From Coq Require Import ZArith NArith QArith Qround Qabs List Bool Lia Lqa Setoid Permutation.
Import ListNotations.
Open Scope Z_scope.

(** What may happen in a run of the solver: any order of its maps, and enough different variables. No number is taken for zero that is not. *)
Section Tolerance.
Context {tolr : tolerance}.
Definition proper_run (r : run) (l : layout) (area : rect) : Prop :=
  any_order (run_order r) /\ vars_ok (run_vars r) l /\ regular (run_order r) (run_fuel r) (run_vars r) l area.
(** Both runs of a popup *)
Definition proper (r r' : run) (p : popup) (area : rect) : Prop :=
  proper_run r (popup_rows p) area /\ forall rows, split_one r (popup_rows p) area = At rows -> proper_run r' (popup_columns p) rows.

Lemma inner_in area d : sized area -> nonneg_padding d -> sized (inner area d) /\ subrect (inner area d) area /\ (0 <= rx area -> 0 <= rx (inner area d)).
Proof.
  intros [W H] (P1 & P2 & P3 & P4). unfold inner. destruct ((rw area <? pright d + pleft d) || (rh area <? ptop d + pbottom d)) eqn:E.
  - unfold sized, subrect, inside. repeat split; intros; cbn in *; lia.
  - apply orb_false_iff in E. destruct E as [E1 E2]. apply Z.ltb_ge in E1, E2. unfold sized, subrect, inside. repeat split; intros; cbn in *; lia.
Qed.
Lemma split_one_piece r l area seg : proper_run r l area -> split_one r l area = At seg -> piece (l_direction l) (inner area (l_padding l)) seg.
Proof.
  intros (Oo & V & R) E. unfold split_one in E. destruct (M_Layout.split (run_order r) (run_fuel r) (run_vars r) l area) as [segs sps| |] eqn:S0; try discriminate. destruct segs as [|s segs]; [discriminate|]. injection E as ->.
  destruct (C34_pieces_partial _ _ _ l area _ sps Oo V R S0) as (_ & _ & P & _). apply P. now left.
Qed.
Lemma split_one_safe r l area : l_constraints l <> [] -> proper_run r l area -> split_one r l area <> PlacePanics.
Proof.
  intros N (Oo & V & R). unfold split_one. pose proof (C35_no_panic_partial _ _ _ l area Oo V R) as Np. destruct (M_Layout.split (run_order r) (run_fuel r) (run_vars r) l area) as [segs sps| |] eqn:S0; try congruence.
  destruct (C34_pieces_partial _ _ _ l area _ sps Oo V R S0) as (L & _). destruct segs; [|congruence]. destruct (l_constraints l); [congruence|discriminate].
Qed.
Lemma piece_in d a r : sized a -> piece d a r -> sized r /\ subrect r a /\ (0 <= rx a -> 0 <= rx r).
Proof. intros [W H] (P1 & P2 & P3 & P4). unfold sized, subrect, inside. destruct d; cbn in *; injection P4 as P4 P5; repeat split; intros; cbn in *; lia. Qed.
Lemma popup_area_in r r' p area at_ : sized area -> nonneg_padding (pp_padding p) -> proper r r' p area -> popup_area r r' p area = At at_ ->
  sized at_ /\ subrect at_ area /\ (0 <= rx area -> 0 <= rx at_).
Proof.
  intros Sz Pd [R1 R2] E. unfold popup_area in E. destruct (split_one r (popup_rows p) area) as [rows| |] eqn:E1; try discriminate. specialize (R2 rows eq_refl).
  apply (split_one_piece _ _ _ _ R1) in E1. apply (split_one_piece _ _ _ _ R2) in E. cbn [popup_rows popup_columns l_direction l_padding] in E1, E.
  destruct (inner_in area _ Sz Pd) as (A1 & A2 & A3). destruct (piece_in _ _ _ A1 E1) as (B1 & B2 & B3). destruct (inner_in rows _ B1 Pd) as (C1 & C2 & C3). destruct (piece_in _ _ _ C1 E) as (D1 & D2 & D3).
  split; [exact D1|]. split; [intros q I; auto|auto].
Qed.

(** ** C65: a popup never panics; its rectangle is in the area; it draws only there; its inside is in the rectangle and is blank, with
    the style of the popup and of its block. *)
Theorem C65_render_partial u r r' p area b : uniseg_ok u -> wf_buffer b -> sized area -> 0 <= rx area -> subrect area (barea b) ->
  nonneg_padding (pp_padding p) -> (forall k, pp_block p = Some k -> padded k) -> proper r r' p area ->
  popup_area r r' p area <> PlacePanics /\
  forall at_, popup_area r r' p area = At at_ ->
    sized at_ /\ subrect at_ area /\ popup_inner r r' p area = Some (Ret (popup_inner_at p at_)) /\ subrect (popup_inner_at p at_) at_ /\
    exists b', popup_render u r r' p area b = Some (Ret b') /\ changed_only (fun q => inside q at_) b b' /\
      forall q, inside q (popup_inner_at p at_) ->
        look b' q = Some (match pp_block p with Some k => cell_set_style (bk_style k) (cell_set_style (pp_style p) empty_cell) | None => cell_set_style (pp_style p) empty_cell end).
Proof.
  intros Hu W Sz Rx Sb Pd Pk Pr. split.
  { destruct Pr as [R1 R2]. unfold popup_area. assert (N1 := split_one_safe r (popup_rows p) area ltac:(discriminate) R1). destruct (split_one r (popup_rows p) area) as [rows| |] eqn:E1; try congruence. apply split_one_safe; [discriminate|now apply R2]. }
  intros at_ E. destruct (popup_area_in r r' p area at_ Sz Pd Pr E) as (Sa & Sub & Rx'). specialize (Rx' Rx). split; [exact Sa|]. split; [exact Sub|]. split; [unfold popup_inner; now rewrite E|].
  assert (In_block : subrect (popup_inner_at p at_) at_). { unfold popup_inner_at, opt_block_inner. destruct (pp_block p) as [k|] eqn:K; [|intros q I; exact I]. intros q I. now apply (C31_inner_excludes_decoration k at_ q Sa (Pk k eq_refl)) in I. }
  split; [exact In_block|]. unfold popup_render. rewrite E. unfold popup_render_at.
  assert (Sub' : subrect at_ (barea b)) by (intros q I; auto).
  destruct (C10_clear_exact b at_ W Sub') as (b1 & E1 & A1 & W1 & C1 & D1). rewrite E1. cbn [bind].
  destruct (C07_set_style_exact b1 at_ (pp_style p) W1) as (b2 & E2 & (A2 & W2 & C2 & D2) & _). rewrite E2. cbn [bind].
  assert (Sub2 : forall q, inside q at_ -> inside q (barea b2)) by (intros q I; rewrite A2, A1; auto).
  assert (Look : forall q, inside q at_ -> look b2 q = Some (cell_set_style (pp_style p) empty_cell)).
  { intros q I. rewrite C2 by (split; [exact I|rewrite A1; auto]). rewrite C1 by exact I. destruct (look b q) as [c|] eqn:L; [reflexivity|]. exfalso. destruct (look_inside b q W (Sub' q I)) as [c L']. congruence. }
  assert (Keep : forall q, ~ inside q at_ -> look b2 q = look b q) by (intros q I; rewrite D2 by tauto; now apply D1).
  unfold opt_block_render, popup_inner_at, opt_block_inner. destruct (pp_block p) as [k|] eqn:K.
  - destruct (C31_render_stays_inside u k at_ b2 Hu W2 Sa Rx' (Pk k eq_refl) Sub2) as (b3 & E3 & (A3 & W3 & C3) & In3). exists b3. rewrite E3. split; [reflexivity|]. split; [split; [congruence|split; [exact W3|]]|].
    + intros q I. rewrite C3 by exact I. now apply Keep.
    + intros q I. rewrite (In3 q I), Look; [reflexivity|]. now apply (C31_inner_excludes_decoration k at_ q Sa (Pk k eq_refl)) in I.
  - exists b2. split; [reflexivity|]. split; [split; [congruence|split; [exact W2|exact Keep]]|]. exact Look.
Qed.

(** ** Where a popup is *)
Lemma one_run r l area c seg : proper_run r l area -> l_constraints l = [c] -> split_one r l area = At seg ->
  let d := l_direction l in let a := inner area (l_padding l) in let total := high d a - low d a in let ds := [demand_of (l_flex l) total c] in
  fits (l_flex l) total (cells_between l) ds ->
  seg = slab d a (to_cells (inject_Z (low d a) * 100 + before (l_flex l) total (cells_between l) ds * 100)%Q)
                 (to_cells (inject_Z (low d a) * 100 + (before (l_flex l) total (cells_between l) ds + share total (cells_between l) ds (demand_of (l_flex l) total c)) * 100)%Q).
Proof.
  intros (Oo & V & R) C E d a total ds Fit. unfold split_one in E. destruct (M_Layout.split (run_order r) (run_fuel r) (run_vars r) l area) as [segs sps| |] eqn:S0; try discriminate.
  pose proof (placed_rects _ _ _ l area segs sps Oo V R S0) as P. cbv zeta in P. rewrite (bounds_eq l area) in P. cbn [fst snd] in P. fold d a in P. fold total in P. rewrite C in P. cbn [map length seq] in P. fold ds in P. destruct (P Fit) as [Es _]. clear P. rewrite Es in E. injection E as <-.
  assert (L1 : (0 < length (l_constraints l))%nat) by (rewrite C; cbn; lia). pose proof (intended_start l area 0 L1) as A. pose proof (intended_end l area 0 L1) as B. rewrite (bounds_eq l area) in A, B. cbn [fst snd] in A, B. fold d a in A, B. fold total in A, B.
  assert (Dk : dem (l_flex l) total (l_constraints l) 0 = demand_of (l_flex l) total c) by (unfold dem, con; rewrite C; reflexivity). rewrite Dk in B. rewrite C in A, B. cbn [map] in A, B. fold ds in A, B.
  change (2 * 0 + 1)%nat with 1%nat in A. change (2 * 0 + 2)%nat with 2%nat in B. cbn [Nat.mul Nat.add].
  f_equal; apply cells_eq; [rewrite A|rewrite B]; unfold offset; cbn [firstn sum_of]; ring.
Qed.
Lemma slab_eq d a : low d a <= high d a -> slab d a (low d a) (high d a) = a.
Proof. destruct d, a as [x y w h]; cbn; intros H; f_equal; lia. Qed.
(** A constraint that fills covers the area of its layout. *)
Lemma one_fill r l area w seg : proper_run r l area -> l_constraints l = [LFill w] -> 1 <= w -> sized (inner area (l_padding l)) -> split_one r l area = At seg -> seg = inner area (l_padding l).
Proof.
  intros Pr C Hw [Sw Sh] E. pose proof (one_run r l area (LFill w) seg Pr C E) as O. cbv zeta in O. set (d := l_direction l) in *. set (a := inner area (l_padding l)) in *.
  assert (Lh : low d a <= high d a) by (destruct d; cbn; lia). set (total := high d a - low d a) in *. assert (T0 : (0 <= inject_Z total)%Q) by (change 0%Q with (inject_Z 0); rewrite <- Zle_Qle; unfold total; lia).
  assert (Wq : (0 < inject_Z w)%Q) by (change 0%Q with (inject_Z 0); rewrite <- Zlt_Qlt; lia).
  assert (Room : (room total (cells_between l) [Grow w 0] == inject_Z total)%Q) by (unfold room; cbn [sum_of fixed_size length]; change (Z.of_nat 1 - 1) with 0; change (inject_Z 0) with 0%Q; ring).
  assert (Sr : (share total (cells_between l) [Grow w 0] (Grow w 0) == inject_Z total)%Q) by (cbn [share sum_of weight]; rewrite Room; field; intros Q; rewrite Q in Wq; discriminate).
  assert (Bf : (before (l_flex l) total (cells_between l) [Grow w 0] == 0)%Q) by reflexivity.
  cbn [demand_of] in O. rewrite O.
  - transitivity (slab d a (low d a) (high d a)); [|now apply slab_eq]. f_equal; apply cells_int; rewrite ?Bf, ?Sr; unfold multiplier, total; rewrite ?inject_minus; ring.
  - split.
    + discriminate.
    + intros w' m [I|[]]. injection I as <- <-. split; [exact Hw|]. rewrite Sr. exact T0.
    + intros dm [<-|[]]. rewrite Sr. exact T0.
    + intros [|[|k]] dm K; try discriminate. injection K as <-. rewrite Sr. unfold offset. rewrite Bf. cbn [firstn sum_of]. split; [apply Qle_refl|]. setoid_replace (0 + 0 + inject_Z total)%Q with (inject_Z total) by ring. apply Qle_refl.
    + discriminate.
Qed.
Lemma cells_half lo m q : 0 <= lo -> 0 <= m -> (q == inject_Z lo * 100 + inject_Z m * 50)%Q -> to_cells q = lo + (m + 1) / 2.
Proof.
  intros L M E. assert (E1 : (q == inject_Z (lo * 100 + m * 50))%Q) by (rewrite E, inject_Z_plus, !inject_Z_mult; reflexivity). rewrite (cells_eq _ _ E1). rewrite cells_is. rewrite round_int. set (h := (m + 1) / 2). assert (H : 2 * h <= m + 1 < 2 * h + 2) by (unfold h; pose proof (Z.div_mod (m + 1) 2); pose proof (Z.mod_pos_bound (m + 1) 2); lia). clearbody h.
  assert (Ld : (inject_Z (lo * 100 + m * 50) / multiplier == inject_Z lo + inject_Z m * (1 # 2))%Q) by (rewrite inject_Z_plus, !inject_Z_mult; unfold multiplier; field). rewrite (round_eq _ _ Ld). unfold round_q.
  assert (Lq : (0 <= inject_Z lo)%Q) by (change 0%Q with (inject_Z 0); now rewrite <- Zle_Qle). assert (Mq : (0 <= inject_Z m)%Q) by (change 0%Q with (inject_Z 0); now rewrite <- Zle_Qle).
  destruct (qltb (inject_Z lo + inject_Z m * (1 # 2)) 0) eqn:Q; [apply qltb_ok in Q; lra|]. destruct H as [H1 H2]. rewrite Zle_Qle in H1. rewrite Zlt_Qlt in H2. rewrite !inject_Z_plus in H2; rewrite !inject_Z_plus in H1; rewrite !inject_Z_mult in H1; rewrite !inject_Z_mult in H2. change (inject_Z 1) with 1%Q in *. change (inject_Z 2) with 2%Q in *.
  apply floor_is; rewrite ?inject_Z_plus; change (inject_Z 1) with 1%Q; lra.
Qed.
(** A fixed size: where the flex puts it. *)
Definition flexed (f : flex) (lo total n : Z) : Z := match f with FlexEnd => lo + total - n | FlexCenter => lo + (total - n + 1) / 2 | _ => lo end.
Lemma one_len r l area n seg : proper_run r l area -> l_constraints l = [LLen n] -> l_flex l = FlexStart \/ l_flex l = FlexCenter \/ l_flex l = FlexEnd ->
  let d := l_direction l in let a := inner area (l_padding l) in let total := high d a - low d a in
  0 <= n <= total -> 0 <= low d a -> split_one r l area = At seg ->
  low d seg = flexed (l_flex l) (low d a) total n /\ high d seg = low d seg + n /\ across d seg = across d a.
Proof.
  intros Pr C Hf d a total Hn L0 E. pose proof (one_run r l area (LLen n) seg Pr C E) as O. cbv zeta in O. fold d a in O. fold total in O. cbn [demand_of] in O.
  assert (Nq : (0 <= inject_Z n)%Q) by (change 0%Q with (inject_Z 0); rewrite <- Zle_Qle; lia). assert (Mq : (inject_Z n <= inject_Z total)%Q) by (rewrite <- Zle_Qle; lia).
  assert (Room : (room total (cells_between l) [Exactly (inject_Z n)] == inject_Z (total - n))%Q) by (unfold room; cbn [sum_of fixed_size length]; change (Z.of_nat 1 - 1) with 0; change (inject_Z 0) with 0%Q; rewrite inject_minus; ring).
  assert (Bf : (before (l_flex l) total (cells_between l) [Exactly (inject_Z n)] == match l_flex l with FlexEnd => inject_Z (total - n) | FlexCenter => inject_Z (total - n) / 2 | _ => 0 end)%Q) by (unfold before; cbn [someone_grows existsb grows orb]; destruct (l_flex l); rewrite ?Room; reflexivity).
  assert (Tq : (0 <= inject_Z (total - n))%Q) by (change 0%Q with (inject_Z 0); rewrite <- Zle_Qle; lia). assert (Te : (inject_Z (total - n) == inject_Z total - inject_Z n)%Q) by apply inject_minus.
  assert (Half : (0 <= inject_Z (total - n) / 2)%Q /\ (inject_Z (total - n) / 2 <= inject_Z (total - n))%Q) by (setoid_replace (inject_Z (total - n) / 2)%Q with (inject_Z (total - n) * (1 # 2))%Q by field; lra).
  assert (Bb : (0 <= before (l_flex l) total (cells_between l) [Exactly (inject_Z n)])%Q /\ (before (l_flex l) total (cells_between l) [Exactly (inject_Z n)] <= inject_Z (total - n))%Q) by (rewrite Bf; destruct (l_flex l); lra).
  assert (Fit : fits (l_flex l) total (cells_between l) [Exactly (inject_Z n)]).
  { split.
    - discriminate.
    - intros w m [I|[]]. discriminate.
    - intros dm [<-|[]]. cbn [share]. exact Nq.
    - intros [|[|k]] dm K; try discriminate. injection K as <-. unfold offset. cbn [firstn sum_of share]. split; [lra|]. lra.
    - intros _. destruct Hf as [H|[H|H]]; rewrite H; trivial. }
  specialize (O Fit). cbn [share] in O. set (bf := before (l_flex l) total (cells_between l) [Exactly (inject_Z n)]) in *. clearbody bf.
  assert (A : to_cells (inject_Z (low d a) * 100 + bf * 100)%Q = flexed (l_flex l) (low d a) total n /\ to_cells (inject_Z (low d a) * 100 + (bf + inject_Z n) * 100)%Q = flexed (l_flex l) (low d a) total n + n).
  { destruct Hf as [H|[H|H]]; rewrite H in Bf |- *; cbn [flexed].
    - split; apply cells_int; unfold multiplier; rewrite Bf, ?inject_Z_plus; ring.
    - split; [apply (cells_half (low d a) (total - n)); [exact L0|lia|rewrite Bf; field]|]. rewrite (cells_half (low d a + n) (total - n)); [lia|lia|lia|]. rewrite Bf, inject_Z_plus. field.
    - split; apply cells_int; unfold multiplier; rewrite Bf; unfold Z.sub; rewrite ?inject_Z_plus, ?inject_Z_opp; ring. }
  destruct A as [A1 A2]. rewrite O, A1, A2. rewrite slab_low, slab_high by lia. split; [reflexivity|]. split; [reflexivity|]. unfold slab. destruct d; reflexivity.
Qed.
(** A popup of fixed width and height that fit has that size, at the place that Top, Middle, Bottom, Left, Center and Right name. *)
Theorem C65_placed_partial r r' p area at_ w h : sized area -> 0 <= rx area -> 0 <= ry area -> pp_padding p = Padding 0 0 0 0 -> pp_width p = LLen w -> pp_height p = LLen h -> 0 <= w <= rw area -> 0 <= h <= rh area ->
  pp_horizontal p = FlexStart \/ pp_horizontal p = FlexCenter \/ pp_horizontal p = FlexEnd -> pp_vertical p = FlexStart \/ pp_vertical p = FlexCenter \/ pp_vertical p = FlexEnd ->
  proper r r' p area -> popup_area r r' p area = At at_ ->
  rw at_ = w /\ rh at_ = h /\
  rx at_ = match pp_horizontal p with FlexEnd => rx area + rw area - w | FlexCenter => rx area + (rw area - w + 1) / 2 | _ => rx area end /\
  ry at_ = match pp_vertical p with FlexEnd => ry area + rh area - h | FlexCenter => ry area + (rh area - h + 1) / 2 | _ => ry area end.
Proof.
  intros [Sw Sh] Rx Ry Pd Pw Ph Hw Hh Fh Fv [R1 R2] E. unfold popup_area in E. destruct (split_one r (popup_rows p) area) as [rows| |] eqn:E1; try discriminate. specialize (R2 rows eq_refl).
  assert (Inn : forall a, 0 <= rw a -> 0 <= rh a -> inner a (Padding 0 0 0 0) = a) by (intros [x y aw ah] A B; unfold inner; cbn in *; destruct (Z.ltb_spec aw 0); [lia|]; destruct (Z.ltb_spec ah 0); [lia|]; cbn; f_equal; lia).
  pose proof (one_len r (popup_rows p) area h rows R1) as O1. cbn [popup_rows l_constraints l_flex l_direction l_padding] in O1. rewrite Ph, Pd, Inn in O1 by assumption. cbn [low high across] in O1. destruct (O1 eq_refl Fv ltac:(lia) Ry E1) as (A1 & A2 & A3). injection A3 as A3 A4.
  pose proof (one_len r' (popup_columns p) rows w at_ R2) as O2. cbn [popup_columns l_constraints l_flex l_direction l_padding] in O2. rewrite Pw, Pd, Inn in O2 by lia. cbn [low high across] in O2. destruct (O2 eq_refl Fh ltac:(lia) ltac:(lia) E) as (B1 & B2 & B3). injection B3 as B3 B4.
  replace (rx rows + rw rows - rx rows) with (rw area) in B1 by lia. replace (ry area + rh area - ry area) with (rh area) in A1 by lia. rewrite A3 in B1. split; [lia|]. split; [lia|]. rewrite B3, A1, B1. unfold flexed. split; [destruct (pp_horizontal p); reflexivity|destruct (pp_vertical p); reflexivity].
Qed.

(** The same by the calls that make a popup: the last one for each side decides, WithWidth and WithHeight give its size, and nothing else of it changes. *)
Theorem C65_builders_partial r r' p area at_ w h left_right top_bottom x y : sized area -> 0 <= rx area -> 0 <= ry area -> pp_padding p = Padding 0 0 0 0 -> 0 <= w <= rw area -> 0 <= h <= rh area ->
  In (left_right, x) [(popup_left, rx area); (popup_center, rx area + (rw area - w + 1) / 2); (popup_right, rx area + rw area - w)] ->
  In (top_bottom, y) [(popup_top, ry area); (popup_middle, ry area + (rh area - h + 1) / 2); (popup_bottom, ry area + rh area - h)] ->
  let q := popup_with_height (popup_with_width (top_bottom (left_right p)) (LLen w)) (LLen h) in
  pp_block q = pp_block p /\ pp_style q = pp_style p /\
  (proper r r' q area -> popup_area r r' q area = At at_ -> at_ = Rect x y w h).
Proof.
  intros Sz Rx Ry Pd Hw Hh X Y q. assert (Q : pp_block q = pp_block p /\ pp_style q = pp_style p /\ pp_padding q = pp_padding p /\ pp_width q = LLen w /\ pp_height q = LLen h).
  { unfold q. destruct X as [X|[X|[X|[]]]]; injection X as <- _; destruct Y as [Y|[Y|[Y|[]]]]; injection Y as <- _; repeat split. }
  destruct Q as (Q1 & Q2 & Q3 & Q4 & Q5). split; [exact Q1|]. split; [exact Q2|]. intros Pr E.
  pose proof (C65_placed_partial r r' q area at_ w h Sz Rx Ry ltac:(congruence) Q4 Q5 Hw Hh) as P. clear Q1 Q2 Q3 Q4 Q5. unfold q in *. clear q.
  destruct X as [X|[X|[X|[]]]]; injection X as <- <-; destruct Y as [Y|[Y|[Y|[]]]]; injection Y as <- <-; cbn [pp_horizontal pp_vertical popup_with_height popup_with_width popup_left popup_center popup_right popup_top popup_middle popup_bottom popup_vertically popup_horizontally] in P; destruct (P ltac:(tauto) ltac:(tauto) Pr E) as (A & B & C & D); destruct at_; cbn in *; now subst.
Qed.

(** ** C66: the Content of a popup is never drawn: whatever it is, Render does the same. *)
Lemma popup_ignores u r r' p area b w : popup_render u r r' (popup_set_content p w) area b = popup_render u r r' p area b.
Proof. reflexivity. Qed.

(** ** C67: the padding of a popup counts twice: one that fills its area is the area without the padding without the padding. *)
Theorem C67_padding_refuted r r' p area at_ w h : sized area -> nonneg_padding (pp_padding p) -> pp_width p = LFill w -> pp_height p = LFill h -> 1 <= w -> 1 <= h ->
  proper r r' p area -> popup_area r r' p area = At at_ -> at_ = inner (inner area (pp_padding p)) (pp_padding p).
Proof.
  intros Sz Pd Pw Ph Hw Hh [R1 R2] E. unfold popup_area in E. destruct (split_one r (popup_rows p) area) as [rows| |] eqn:E1; try discriminate. specialize (R2 rows eq_refl).
  destruct (inner_in area _ Sz Pd) as (S1 & _). apply (one_fill r (popup_rows p) area h rows R1) in E1; [|cbn; now rewrite Ph|exact Hh|exact S1]. cbn [popup_rows l_padding] in E1. subst rows.
  destruct (inner_in _ _ S1 Pd) as (S2 & _). apply (one_fill r' (popup_columns p) _ w at_ R2) in E; [exact E|cbn; now rewrite Pw|exact Hw|exact S2].
Qed.
End Tolerance.

(** ** With exact arithmetic, both runs of a popup are proper: they have one constraint each. *)
Section Few.
#[local] Existing Instance no_tolerance.
Definition any_run (r : run) (l : layout) : Prop := any_order (run_order r) /\ vars_ok (run_vars r) l.
Lemma any_proper r r' p area : any_run r (popup_rows p) -> any_run r' (popup_columns p) -> proper r r' p area.
Proof.
  intros [O V] [O' V']. split; [|intros rows _]; (split; [assumption|]; split; [assumption|]); apply few_regular; try assumption; apply C38_counts; left; cbn; lia.
Qed.
Theorem C65_exact_partial u r r' p area b : uniseg_ok u -> wf_buffer b -> sized area -> 0 <= rx area -> subrect area (barea b) ->
  nonneg_padding (pp_padding p) -> (forall k, pp_block p = Some k -> padded k) -> any_run r (popup_rows p) -> any_run r' (popup_columns p) ->
  popup_area r r' p area <> PlacePanics /\
  forall at_, popup_area r r' p area = At at_ ->
    sized at_ /\ subrect at_ area /\ popup_inner r r' p area = Some (Ret (popup_inner_at p at_)) /\ subrect (popup_inner_at p at_) at_ /\
    exists b', popup_render u r r' p area b = Some (Ret b') /\ changed_only (fun q => inside q at_) b b' /\
      forall q, inside q (popup_inner_at p at_) ->
        look b' q = Some (match pp_block p with Some k => cell_set_style (bk_style k) (cell_set_style (pp_style p) empty_cell) | None => cell_set_style (pp_style p) empty_cell end).
Proof. intros U W Sz X Sb Pd Pk R R'. exact (C65_render_partial u r r' p area b U W Sz X Sb Pd Pk (any_proper r r' p area R R')). Qed.
End Few.

#[local] Existing Instance code_tolerance.
(** *** Instances *)
Definition a_run (c : lconstraint) : run := Run keep_order 1000 (vars_for [c]).
Definition a_popup : popup := popup_with_height (popup_with_width (popup_bottom (popup_center new_popup)) (LLen 5)) (LLen 3).
Lemma keep_any : any_order keep_order.
Proof. intros i l. apply Permutation_refl. Qed.
Lemma a_run_proper l area c : l_constraints l = [c] -> regular_run keep_order 1000 (vars_for [c]) l area = true -> proper_run (a_run c) l area.
Proof.
  intros C R. unfold proper_run, a_run. cbn [run_order run_fuel run_vars]. split; [exact keep_any|]. split; [|exact (regular_run_ok _ _ _ _ _ R)]. pose proof (vars_for_ok l) as V. rewrite C in V. exact V.
Qed.
Lemma proper_check h w p area rows : pp_height p = h -> pp_width p = w -> regular_run keep_order 1000 (vars_for [h]) (popup_rows p) area = true -> split_one (a_run h) (popup_rows p) area = At rows -> regular_run keep_order 1000 (vars_for [w]) (popup_columns p) rows = true ->
  proper (a_run h) (a_run w) p area.
Proof.
  intros Hh Hw R1 E R2. split; [apply a_run_proper; [cbn [popup_rows l_constraints]; now rewrite Hh|exact R1]|]. intros rows' E'. rewrite E in E'. injection E' as <-. apply a_run_proper; [cbn [popup_columns l_constraints]; now rewrite Hw|exact R2].
Qed.
Example C65_instance : proper (a_run (LLen 3)) (a_run (LLen 5)) a_popup (Rect 2 1 20 8) /\ popup_area (a_run (LLen 3)) (a_run (LLen 5)) a_popup (Rect 2 1 20 8) = At (Rect 10 6 5 3).
Proof. split; [apply (proper_check _ _ _ _ (Rect 2 6 20 3)); vm_compute; reflexivity|vm_compute; reflexivity]. Qed.
(** The default popup: 60% by 20%, in the middle *)
Example C65_default : proper (a_run (LPercentage 20)) (a_run (LPercentage 60)) new_popup (Rect 0 0 80 25) /\ popup_area (a_run (LPercentage 20)) (a_run (LPercentage 60)) new_popup (Rect 0 0 80 25) = At (Rect 16 10 48 5).
Proof. split; [apply (proper_check _ _ _ _ (Rect 0 10 80 5)); vm_compute; reflexivity|vm_compute; reflexivity]. Qed.
Definition full_popup (d : padding) : popup := popup_with_padding (popup_with_height (popup_with_width new_popup (LFill 1)) (LFill 1)) d.
Example C67_instance : proper (a_run (LFill 1)) (a_run (LFill 1)) (full_popup (Padding 1 2 1 2)) (Rect 0 0 20 10) /\ popup_area (a_run (LFill 1)) (a_run (LFill 1)) (full_popup (Padding 1 2 1 2)) (Rect 0 0 20 10) = At (Rect 4 2 12 6).
Proof. split; [apply (proper_check _ _ _ _ (Rect 2 1 16 8)); vm_compute; reflexivity|vm_compute; reflexivity]. Qed.
(** C66: a content that would make the background red: Render draws nothing of it, in whatever popup, although it would change the screen. *)
Definition red_back : widget := fun area b => buffer_set_style b area (with_background new_style (Some (ColAnsi 1))).
Theorem C66_content_refuted : (forall u r r' p area b w, popup_render u r r' (popup_set_content p w) area b = popup_render u r r' p area b) /\
  exists r r' b b' b'' at_, proper r r' (popup_set_content new_popup red_back) (barea b) /\ wf_buffer b /\
    (forall u, popup_render u r r' (popup_set_content new_popup red_back) (barea b) b = Some (Ret b')) /\ popup_inner r r' (popup_set_content new_popup red_back) (barea b) = Some (Ret at_) /\
    red_back at_ b' = Ret b'' /\ b'' <> b'.
Proof.
  split; [intros; apply popup_ignores|].
  exists (a_run (LPercentage 20)), (a_run (LPercentage 60)), (Buf (Rect 0 0 5 5) (repeat empty_cell 25)). do 3 eexists.
  split; [apply (proper_check _ _ _ _ (Rect 0 2 5 1)); vm_compute; reflexivity|]. split; [|split; [intros u; vm_compute; reflexivity|split; [vm_compute; reflexivity|split; [vm_compute; reflexivity|discriminate]]]].
  split; [split; cbn; lia|vm_compute; reflexivity].
Qed.
Print Assumptions C65_render_partial.
Print Assumptions C65_placed_partial.
Print Assumptions C65_builders_partial.
Print Assumptions C65_exact_partial.
Print Assumptions C66_content_refuted.
Print Assumptions C67_padding_refuted.
