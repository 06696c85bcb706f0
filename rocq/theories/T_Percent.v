(** C65: where a popup lies whose width or height is a percentage. *)
From Verif Require Import Base P_Base M_Geom M_Solver M_Layout S_Solver S_Layout S_Place P_Row P_Layout P_Sum P_Place P_Placed T_Solver T_Layout T_Place T_Exact T_Apart T_Tile T_Ends.
From Verif Require Import S_Geom T_Geom M_Style M_Uniseg M_Buffer M_Text M_Block M_Popup T_Popup T_View.
From Coq Require Import ZArith NArith QArith Qround List Bool Lia Lqa Permutation.
Import ListNotations.
Open Scope Z_scope.

(** A position of [n] two-hundredths of a cell, in cells. The code rounds to hundredths first, and then to cells: 99 two-hundredths, which is less than one half, become one cell. *)
Definition cell_of (n : Z) : Z := (n + 101) / 200.
(** From where to where a segment of [p] percent reaches in [total] cells from [lo] on. *)
Definition percent_low (f : flex) (lo total p : Z) : Z := match f with FlexEnd => lo + cell_of (2 * total * (100 - p)) | FlexCenter => lo + cell_of (total * (100 - p)) | _ => lo end.
Definition percent_high (f : flex) (lo total p : Z) : Z := match f with FlexEnd => lo + total | FlexCenter => lo + cell_of (total * (100 + p)) | _ => lo + cell_of (2 * total * p) end.

Lemma cells_two lo n q : 0 <= lo -> 0 <= n -> (q == inject_Z lo * 100 + inject_Z n * (1 # 2))%Q -> to_cells q = lo + cell_of n.
Proof.
  intros L M E. unfold cell_of. rewrite (cells_eq _ _ E). rewrite cells_is.
  assert (Lq : (0 <= inject_Z lo)%Q) by (change 0%Q with (inject_Z 0); now rewrite <- Zle_Qle). assert (Nq : (0 <= inject_Z n)%Q) by (change 0%Q with (inject_Z 0); now rewrite <- Zle_Qle).
  assert (R1 : round_q (inject_Z lo * 100 + inject_Z n * (1 # 2)) = lo * 100 + (n + 1) / 2).
  { unfold round_q. destruct (qltb (inject_Z lo * 100 + inject_Z n * (1 # 2)) 0) eqn:Q; [apply qltb_ok in Q; lra|]. set (h := (n + 1) / 2). assert (H : 2 * h <= n + 1 < 2 * h + 2) by (unfold h; pose proof (Z.div_mod (n + 1) 2); pose proof (Z.mod_pos_bound (n + 1) 2); lia). clearbody h.
    destruct H as [H1 H2]. rewrite Zle_Qle in H1. rewrite Zlt_Qlt in H2. rewrite !inject_Z_plus in H2; rewrite !inject_Z_plus in H1; rewrite !inject_Z_mult in H1; rewrite !inject_Z_mult in H2. change (inject_Z 1) with 1%Q in *. change (inject_Z 2) with 2%Q in *.
    apply floor_is; rewrite ?inject_Z_plus, ?inject_Z_mult; change (inject_Z 1) with 1%Q; change (inject_Z 100) with 100%Q; lra. }
  rewrite R1. set (m := (n + 1) / 2). assert (Hm : 2 * m <= n + 1 < 2 * m + 2) by (unfold m; pose proof (Z.div_mod (n + 1) 2); pose proof (Z.mod_pos_bound (n + 1) 2); lia). clearbody m. assert (M0 : 0 <= m) by lia.
  replace ((n + 101) / 200) with ((m + 50) / 100). 2: { pose proof (Z.div_mod (m + 50) 100 ltac:(lia)); pose proof (Z.mod_pos_bound (m + 50) 100 ltac:(lia)). apply (Z.div_unique (n + 101) 200 _ (n + 101 - 200 * ((m + 50) / 100))); lia. }
  set (h := (m + 50) / 100). assert (H : 100 * h <= m + 50 < 100 * h + 100) by (unfold h; pose proof (Z.div_mod (m + 50) 100 ltac:(lia)); pose proof (Z.mod_pos_bound (m + 50) 100 ltac:(lia)); lia). clearbody h. clear R1 E.
  assert (Ld : (inject_Z (lo * 100 + m) / multiplier == inject_Z lo + inject_Z m * (1 # 100))%Q) by (rewrite inject_Z_plus, !inject_Z_mult; unfold multiplier; field). rewrite (round_eq _ _ Ld). unfold round_q.
  assert (Mq : (0 <= inject_Z m)%Q) by (change 0%Q with (inject_Z 0); now rewrite <- Zle_Qle).
  destruct (qltb (inject_Z lo + inject_Z m * (1 # 100)) 0) eqn:Q; [apply qltb_ok in Q; lra|]. destruct H as [H1 H2]. rewrite Zle_Qle in H1. rewrite Zlt_Qlt in H2. rewrite !inject_Z_plus in H2; rewrite !inject_Z_plus in H1; rewrite !inject_Z_mult in H1; rewrite !inject_Z_mult in H2. change (inject_Z 100) with 100%Q in *. change (inject_Z 50) with 50%Q in *.
  apply floor_is; rewrite ?inject_Z_plus; change (inject_Z 1) with 1%Q; lra.
Qed.

Section Tolerance.
Context {tolr : tolerance}.
Lemma one_percent r l area p seg : proper_run r l area -> l_constraints l = [LPercentage p] -> l_flex l = FlexStart \/ l_flex l = FlexCenter \/ l_flex l = FlexEnd ->
  let d := l_direction l in let a := inner area (l_padding l) in let total := high d a - low d a in
  0 <= p <= 100 -> 0 <= total -> 0 <= low d a -> split_one r l area = At seg ->
  low d seg = percent_low (l_flex l) (low d a) total p /\ high d seg = percent_high (l_flex l) (low d a) total p /\ across d seg = across d a.
Proof.
  intros Pr C Hf d a total Hp Ht L0 E. pose proof (one_run r l area (LPercentage p) seg Pr C E) as O. cbv zeta in O. fold d a in O. fold total in O. cbn [demand_of] in O.
  assert (Tq : (0 <= inject_Z total)%Q) by (change 0%Q with (inject_Z 0); now rewrite <- Zle_Qle).
  assert (Pq : (0 <= inject_Z p)%Q) by (change 0%Q with (inject_Z 0); rewrite <- Zle_Qle; lia). assert (Pq' : (inject_Z p <= 100)%Q) by (change 100%Q with (inject_Z 100); rewrite <- Zle_Qle; lia).
  set (n := (inject_Z p * inject_Z total / 100)%Q) in *.
  assert (Nq : (0 <= n)%Q /\ (n <= inject_Z total)%Q).
  { unfold n. setoid_replace (inject_Z p * inject_Z total / 100)%Q with (inject_Z (p * total) * (1 # 100))%Q by (rewrite inject_Z_mult; field). assert (B : 0 <= p * total <= 100 * total) by nia. destruct B as [B1 B2]. rewrite Zle_Qle in B1, B2. rewrite (inject_Z_mult 100) in B2. change (inject_Z 100) with 100%Q in B2. change (inject_Z 0) with 0%Q in B1. lra. }
  destruct Nq as [Nq Mq].
  assert (Room : (room total (cells_between l) [Exactly n] == inject_Z total - n)%Q) by (unfold room; cbn [sum_of fixed_size length]; change (Z.of_nat 1 - 1) with 0; change (inject_Z 0) with 0%Q; ring).
  assert (Bf : (before (l_flex l) total (cells_between l) [Exactly n] == match l_flex l with FlexEnd => inject_Z total - n | FlexCenter => (inject_Z total - n) / 2 | _ => 0 end)%Q) by (unfold before; cbn [someone_grows existsb grows orb]; destruct (l_flex l); rewrite ?Room; reflexivity).
  assert (Half : (0 <= (inject_Z total - n) / 2)%Q /\ ((inject_Z total - n) / 2 <= inject_Z total - n)%Q) by (setoid_replace ((inject_Z total - n) / 2)%Q with ((inject_Z total - n) * (1 # 2))%Q by field; lra).
  assert (Bb : (0 <= before (l_flex l) total (cells_between l) [Exactly n])%Q /\ (before (l_flex l) total (cells_between l) [Exactly n] <= inject_Z total - n)%Q) by (rewrite Bf; destruct (l_flex l); lra).
  assert (Fit : fits (l_flex l) total (cells_between l) [Exactly n]).
  { split.
    - discriminate.
    - intros w m [I|[]]. discriminate.
    - intros dm [<-|[]]. cbn [share]. exact Nq.
    - intros [|[|k]] dm K; try discriminate. injection K as <-. unfold offset. cbn [firstn sum_of share]. split; [lra|]. lra.
    - intros _. destruct Hf as [H|[H|H]]; rewrite H; trivial. }
  specialize (O Fit). cbn [share] in O. set (bf := before (l_flex l) total (cells_between l) [Exactly n]) in *. clearbody bf.
  assert (A : to_cells (inject_Z (low d a) * 100 + bf * 100)%Q = percent_low (l_flex l) (low d a) total p /\ to_cells (inject_Z (low d a) * 100 + (bf + n) * 100)%Q = percent_high (l_flex l) (low d a) total p).
  { assert (B1 : 0 <= 2 * total * p) by nia. assert (B2 : 0 <= total * (100 - p)) by nia. assert (B3 : 0 <= total * (100 + p)) by nia.
    destruct Hf as [H|[H|H]]; rewrite H in Bf |- *; cbn [percent_low percent_high]; split.
    - apply cells_int. unfold multiplier. rewrite Bf. ring.
    - apply cells_two; [exact L0|lia|]. rewrite Bf. unfold n. rewrite !inject_Z_mult. change (inject_Z 2) with 2%Q. field.
    - apply cells_two; [exact L0|lia|]. rewrite Bf. unfold n. rewrite !inject_Z_mult, inject_minus. change (inject_Z 100) with 100%Q. field.
    - apply cells_two; [exact L0|lia|]. rewrite Bf. unfold n. rewrite !inject_Z_mult, inject_Z_plus. change (inject_Z 100) with 100%Q. field.
    - apply cells_two; [exact L0|lia|]. rewrite Bf. unfold n. rewrite !inject_Z_mult, inject_minus. change (inject_Z 100) with 100%Q. change (inject_Z 2) with 2%Q. field.
    - apply cells_int. unfold multiplier. rewrite Bf, inject_Z_plus. field. }
  destruct A as [A1 A2]. rewrite O, A1, A2.
  assert (Le : percent_low (l_flex l) (low d a) total p <= percent_high (l_flex l) (low d a) total p).
  { unfold percent_low, percent_high, cell_of. destruct (l_flex l); try (apply Z.add_le_mono_l, Z.div_le_mono; nia); try (assert (0 <= (2 * total * p + 101) / 200) by (apply Z.div_pos; nia); lia).
    assert ((2 * total * (100 - p) + 101) / 200 <= total) by (apply Z.lt_succ_r, Z.div_lt_upper_bound; nia). lia. }
  rewrite slab_low, slab_high by lia. split; [reflexivity|]. split; [reflexivity|]. unfold slab. destruct d; reflexivity.
Qed.

(** From where to where a popup of that width (or height) reaches in [total] cells from [lo] on. *)
Definition extent (f : flex) (lo total : Z) (c : lconstraint) : option (Z * Z) :=
  match c with
  | LLen n => if (0 <=? n) && (n <=? total) then Some (match f with FlexEnd => lo + total - n | FlexCenter => lo + (total - n + 1) / 2 | _ => lo end, n) else None
  | LPercentage p => if (0 <=? p) && (p <=? 100) then Some (percent_low f lo total p, percent_high f lo total p - percent_low f lo total p) else None
  | _ => None
  end.
Lemma one_extent r l area c seg x n : proper_run r l area -> l_constraints l = [c] -> l_flex l = FlexStart \/ l_flex l = FlexCenter \/ l_flex l = FlexEnd ->
  let d := l_direction l in let a := inner area (l_padding l) in let total := high d a - low d a in
  0 <= total -> 0 <= low d a -> extent (l_flex l) (low d a) total c = Some (x, n) -> split_one r l area = At seg ->
  low d seg = x /\ high d seg = x + n /\ across d seg = across d a.
Proof.
  intros Pr C Hf d a total Ht L0 X E. destruct c as [m|m|m|m|m m2|m]; try discriminate; cbn [extent] in X; destruct ((0 <=? _) && (_ <=? _)) eqn:B; try discriminate; apply andb_true_iff in B; rewrite !Z.leb_le in B; injection X as <- <-.
  - destruct (one_len r l area m seg Pr C Hf B L0 E) as (A1 & A2 & A3). fold d a in A1, A2, A3. fold total in A1. unfold flexed in A1. repeat split; auto. lia.
  - destruct (one_percent r l area m seg Pr C Hf B Ht L0 E) as (A1 & A2 & A3). fold d a in A1, A2, A3. fold total in A1, A2. repeat split; auto. lia.
Qed.

(** With exact numbers: a popup whose width and height are numbers of cells or percentages, without padding, is where Left, Center, Right, Top, Middle and Bottom put it. *)
Theorem C65_percent_partial r r' p area at_ x y w h : sized area -> 0 <= rx area -> 0 <= ry area -> pp_padding p = Padding 0 0 0 0 ->
  pp_horizontal p = FlexStart \/ pp_horizontal p = FlexCenter \/ pp_horizontal p = FlexEnd -> pp_vertical p = FlexStart \/ pp_vertical p = FlexCenter \/ pp_vertical p = FlexEnd ->
  extent (pp_horizontal p) (rx area) (rw area) (pp_width p) = Some (x, w) -> extent (pp_vertical p) (ry area) (rh area) (pp_height p) = Some (y, h) ->
  proper r r' p area -> popup_area r r' p area = At at_ -> at_ = Rect x y w h.
Proof.
  intros [Sw Sh] Rx Ry Pd Fh Fv Ew Eh [R1 R2] E. unfold popup_area in E. destruct (split_one r (popup_rows p) area) as [rows| |] eqn:E1; try discriminate. specialize (R2 rows eq_refl).
  pose proof (one_extent r (popup_rows p) area (pp_height p) rows y h R1 eq_refl) as O1. cbn [popup_rows l_constraints l_flex l_direction l_padding] in O1. rewrite Pd, inner_none in O1 by (split; assumption). cbn [low high across] in O1. replace (ry area + rh area - ry area) with (rh area) in O1 by lia. destruct (O1 Fv Sh Ry Eh E1) as (A1 & A2 & A3). injection A3 as A3 A4.
  pose proof (split_one_piece r (popup_rows p) area rows R1 E1) as P. change (l_direction (popup_rows p)) with DirVertical in P. change (l_padding (popup_rows p)) with (pp_padding p) in P. rewrite Pd, inner_none in P by (split; assumption). destruct (piece_in _ _ _ (conj Sw Sh) P) as (Sr & _). clear P.
  pose proof (one_extent r' (popup_columns p) rows (pp_width p) at_ x w R2 eq_refl) as O2. cbn [popup_columns l_constraints l_flex l_direction l_padding] in O2. rewrite Pd, inner_none in O2 by exact Sr. cbn [low high across] in O2. replace (rx rows + rw rows - rx rows) with (rw rows) in O2 by lia. rewrite A3, A4 in O2. destruct (O2 Fh Sw Rx Ew E) as (B1 & B2 & B3). injection B3 as B3 B4.
  destruct at_ as [ax ay aw ah]; cbn [rx ry rw rh] in *. f_equal; lia.
Qed.
End Tolerance.
Print Assumptions C65_percent_partial.
(** Whatever the order in which the solver walks its maps, if it takes no number for zero that is not. *)
Section Exact.
#[local] Existing Instance no_tolerance.
Theorem C65_percent_exact_partial r r' p area at_ x y w h : sized area -> 0 <= rx area -> 0 <= ry area -> pp_padding p = Padding 0 0 0 0 ->
  pp_horizontal p = FlexStart \/ pp_horizontal p = FlexCenter \/ pp_horizontal p = FlexEnd -> pp_vertical p = FlexStart \/ pp_vertical p = FlexCenter \/ pp_vertical p = FlexEnd ->
  extent (pp_horizontal p) (rx area) (rw area) (pp_width p) = Some (x, w) -> extent (pp_vertical p) (ry area) (rh area) (pp_height p) = Some (y, h) ->
  any_run r (popup_rows p) -> any_run r' (popup_columns p) -> popup_area r r' p area = At at_ -> at_ = Rect x y w h.
Proof. intros Sz Rx Ry Pd Fh Fv Ew Eh A A' E. now apply (C65_percent_partial r r' p area at_ x y w h); auto using any_proper. Qed.
End Exact.
Print Assumptions C65_percent_exact_partial.
#[local] Existing Instance code_tolerance.
(** The popup as New makes it, on a terminal of 80 columns and 25 lines and on one of 33 by 7. *)
Example C65_percent_instance : proper (a_run (LPercentage 20)) (a_run (LPercentage 60)) new_popup (Rect 0 0 80 25) /\ proper (a_run (LPercentage 20)) (a_run (LPercentage 60)) new_popup (Rect 0 0 33 7) /\
  extent FlexCenter 0 80 (LPercentage 60) = Some (16, 48) /\ extent FlexCenter 0 25 (LPercentage 20) = Some (10, 5) /\ popup_area (a_run (LPercentage 20)) (a_run (LPercentage 60)) new_popup (Rect 0 0 80 25) = At (Rect 16 10 48 5) /\
  extent FlexCenter 0 33 (LPercentage 60) = Some (7, 19) /\ extent FlexCenter 0 7 (LPercentage 20) = Some (3, 1) /\ popup_area (a_run (LPercentage 20)) (a_run (LPercentage 60)) new_popup (Rect 0 0 33 7) = At (Rect 7 3 19 1).
Proof.
  split; [apply (proper_check _ _ _ _ (Rect 0 10 80 5)); try reflexivity; vm_compute; reflexivity|]. split; [apply (proper_check _ _ _ _ (Rect 0 3 33 1)); try reflexivity; vm_compute; reflexivity|].
  repeat apply conj; vm_compute; reflexivity.
Qed.
