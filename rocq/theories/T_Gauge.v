(** C30: the gauge. *)
From Verif Require Import Base P_Base M_Geom S_Geom T_Geom M_Style M_Uniseg M_Buffer S_Buffer S_Text P_Buffer P_SetString T_Buffer M_Text P_Text T_Text P_Redraw M_Ansi M_Block P_Block T_Block M_List P_List T_List M_Float P_Float M_Gauge.
From Coq Require Import ZArith NArith List Bool Lia.
Import ListNotations.
Open Scope Z_scope.

(** A value that float64 can hold, between 0 and 1. *)
Definition is_float (r : float) : Prop :=
  0 < fden r /\ let f := fround (fnum r) (fden r) in fnum f * fden r = fnum r * fden f.
Definition unit_ratio (r : float) : Prop := is_float r /\ 0 <= fnum r <= fden r.

(** float64 has no value strictly between 1 - 2^-53 and 1. *)
Lemma float_gap r : unit_ratio r -> fnum r < fden r -> fnum r * 2 ^ 53 <= fden r * (2 ^ 53 - 1).
Proof.
  intros [[Hd He] [H0 H1]] Hlt. destruct (Z.eq_dec (fnum r) 0) as [->|Hn]; [lia|].
  cbv zeta in He. rewrite fround_pos in He by lia.
  pose proof (scale_spec (fnum r) (fden r) ltac:(lia) Hd) as [S1 S2].
  set (n := fnum r) in *. set (d := fden r) in *. set (s := scale n d) in *.
  assert (Hs : 53 <= s).
  { destruct (Z.le_gt_cases 53 s); [auto|]. exfalso.
    destruct (Z.le_gt_cases 0 s) as [Hs0|Hs0].
    - rewrite (Z.max_l 0 (- s)), (Z.max_r 0 s) in S1 by lia. change (2 ^ 0) with 1 in S1.
      assert (2 ^ s <= 2 ^ 52) by (apply Z.pow_le_mono_r; lia). set (P := 2 ^ 52) in *. assert (0 < 2 ^ s) by (apply Z.pow_pos_nonneg; lia). nia.
    - rewrite (Z.max_l 0 s) in S1 by lia. change (2 ^ 0) with 1 in S1. pose proof (pow2_pos (- s)). set (P := 2 ^ 52) in *. assert (0 < P) by (unfold P; lia). nia. }
  rewrite (Z.max_l 0 (- s)), (Z.max_r 0 s) in S1, S2 by lia. change (2 ^ 0) with 1 in S1, S2. rewrite Z.mul_1_r in S1, S2.
  unfold round_pos in He. fold s in He. cbn [fnum fden] in He.
  rewrite (Z.max_l 0 (- s)), (Z.max_r 0 s) in He by lia. change (2 ^ 0) with 1 in He. rewrite !Z.mul_1_r in He.
  set (m := nearest_even (n * 2 ^ s) d) in *.
  assert (HP : 0 < 2 ^ s) by (apply Z.pow_pos_nonneg; lia).
  destruct (Z.eq_dec s 53) as [E|Hne].
  - rewrite E in *. assert (m <= 2 ^ 53 - 1) by nia. nia.
  - assert (E : 2 ^ s = 2 ^ (s - 54) * 2 ^ 54) by (rewrite <- Z.pow_add_r by lia; f_equal; lia).
    assert (0 < 2 ^ (s - 54)) by (apply Z.pow_pos_nonneg; lia). rewrite E in *.
    change (2 ^ 54) with (2 * 2 ^ 53) in *. set (P := 2 ^ 53) in *. assert (0 < P) by (unfold P; lia).
    assert (n * (2 * P) < d * P) by nia. nia.
Qed.

(** The number of cells a gauge fills: the product as Go computes it, rounded to the nearest integer. *)
Definition filled_cells (width : Z) (ratio : float) : Z := math_round (fmul (of_int width) ratio).

Lemma fmul_of_int w r : 0 <= w < 2 ^ 52 -> unit_ratio r ->
  exists n d, fmul (of_int w) r = fround n d /\ 0 <= n /\ 0 < d /\ n * fden r = w * fnum r * d.
Proof.
  intros Hw [[Hd _] [H0 H1]]. destruct (of_int_exact w Hw) as [E E2]. unfold fmul. eexists. eexists. split; [reflexivity|].
  rewrite E. split; [nia|]. split; [nia|]. ring.
Qed.

Lemma filled_bounds w r : 0 <= w < 2 ^ 52 -> unit_ratio r -> 0 <= filled_cells w r <= w.
Proof.
  intros Hw Hr. destruct (fmul_of_int w r Hw Hr) as (n & d & E & Hn & Hd & Hq). unfold filled_cells. rewrite E.
  apply math_round_bound; try lia. destruct Hr as [[Hr _] [H0 H1]]. nia.
Qed.
Lemma floor_bounds w r : 0 < w < 2 ^ 52 -> unit_ratio r ->
  0 <= math_floor (fmul (of_int w) r) <= w /\ (fnum r < fden r -> math_floor (fmul (of_int w) r) < w).
Proof.
  intros Hw Hr. destruct (fmul_of_int w r ltac:(lia) Hr) as (n & d & E & Hn & Hd & Hq). rewrite E.
  assert (G := fun H => float_gap r Hr H). destruct Hr as [[Hr Hf] [H0 H1]]. split.
  - apply math_floor_bound; try lia. nia.
  - intros Hlt. specialize (G Hlt). apply math_floor_below; try lia. set (P := 2 ^ 53) in *. clearbody P.
    assert (n * P * fden r <= w * d * (P - 1) * fden r); [|nia].
    replace (n * P * fden r) with (w * d * (fnum r * P)) by (replace (n * P * fden r) with (n * fden r * P) by ring; rewrite Hq; ring).
    replace (w * d * (P - 1) * fden r) with (w * d * (fden r * (P - 1))) by ring. apply Z.mul_le_mono_nonneg_l; nia.
Qed.

(** An empty gauge fills nothing, a full one everything, and in between the number is within half a cell (up to the relative
    error 2^-53 of the multiplication) of ratio * width. *)
Theorem C30_filled_count : forall w r, 0 <= w < 2 ^ 52 -> unit_ratio r ->
  0 <= filled_cells w r <= w /\ (fnum r = 0 -> filled_cells w r = 0) /\ (fnum r = fden r -> filled_cells w r = w) /\
  2 ^ 53 * Z.abs (2 * (filled_cells w r * fden r - w * fnum r)) <= 2 ^ 53 * fden r + 2 * (w * fnum r).
Proof.
  intros w r Hw Hr. split; [now apply filled_bounds|]. unfold filled_cells.
  destruct (fmul_of_int w r Hw Hr) as (n & d & E & Hn & Hd & Hq). rewrite E. destruct Hr as [[Hr _] [H0 H1]].
  split; [|split].
  - intros Hz. rewrite Hz in Hq. assert (n = 0) by nia. subst n. rewrite fround_zero. reflexivity.
  - intros Hz. rewrite Hz in Hq. assert (n = w * d) by nia. subst n.
    rewrite (math_round_fround _ _ w 1) by lia. symmetry. apply Z.div_unique with (r := 1); lia.
  - destruct (Z.eq_dec n 0) as [->|Hn0].
    { rewrite fround_zero. change (math_round (Float 0 1)) with 0. assert (w * fnum r = 0) by nia. lia. }
    rewrite fround_pos by lia.
    destruct (round_pos_small n d ltac:(lia) Hd) as (S & _ & HS & -> & HP).
    { assert (n * fden r <= w * d * fden r) by (rewrite Hq; replace (w * d * fden r) with (w * d * fden r) by ring; replace (w * fnum r * d) with (w * d * fnum r) by ring; apply Z.mul_le_mono_nonneg_l; nia).
      assert (n <= w * d) by nia. set (P := 2 ^ 52) in *. nia. }
    unfold math_round. cbn [fnum fden]. set (m := nearest_even (n * (2 * S)) d).
    assert (M0 : 0 <= m) by (apply nearest_even_ge; nia). destruct (Z.ltb_spec m 0); [lia|].
    assert (M : 2 * Z.abs (m * d - n * (2 * S)) <= d).
    { unfold m, nearest_even. pose proof (Z.div_mod (n * (2 * S)) d ltac:(lia)). pose proof (Z.mod_pos_bound (n * (2 * S)) d ltac:(lia)).
      destruct (Z.compare_spec (2 * ((n * (2 * S)) mod d)) d); [destruct (Z.even _)| |]; lia. }
    set (F := (2 * m + 2 * S) / (2 * (2 * S))).
    assert (F1 : 2 * (2 * S) * F <= 2 * m + 2 * S) by (apply Z.mul_div_le; lia).
    assert (F2 : 2 * m + 2 * S < 2 * (2 * S) * (F + 1)) by (unfold F; pose proof (Z.mul_succ_div_gt (2 * m + 2 * S) (2 * (2 * S)) ltac:(lia)); lia).
    assert (G : Z.abs (2 * S * F - m) <= S) by lia.
    (* combine: |2 S F d - n 2 S| <= S d + d/2, and d * 2^52 <= n * 2 S *)
    assert (G2 : Z.abs (2 * S * (F * d - n)) * 2 <= 2 * S * d + d).
    { replace (2 * S * (F * d - n)) with ((2 * S * F - m) * d + (m * d - n * (2 * S))) by ring.
      assert (Z.abs ((2 * S * F - m) * d) <= S * d) by (rewrite Z.abs_mul, (Z.abs_eq d) by lia; apply Z.mul_le_mono_nonneg_r; lia). lia. }
    set (k := F * fden r - w * fnum r).
    assert (K : k * d = (F * d - n) * fden r) by (unfold k; nia).
    assert (K2 : Z.abs k * d = Z.abs (F * d - n) * fden r) by (rewrite <- (Z.abs_eq d) at 1 by lia; rewrite <- Z.abs_mul, K, Z.abs_mul, (Z.abs_eq (fden r)) by lia; reflexivity).
    rewrite Z.abs_mul in G2. rewrite (Z.abs_eq (2 * S)) in G2 by lia. set (A := Z.abs (F * d - n)) in *. assert (0 <= A) by apply Z.abs_nonneg.
    rewrite Z.abs_mul. change (Z.abs 2) with 2. set (B := Z.abs k) in *. assert (0 <= B) by apply Z.abs_nonneg.
    change (2 ^ 53) with (2 * 2 ^ 52). set (P := 2 ^ 52) in *. assert (0 < P) by (unfold P; lia). clearbody P A B.
    (* 2 S A 2 <= 2 S d + d ; d P <= n 2 S ; goal (2P) (2 B) <= 2 P fd + 2 w fn *)
    assert (Q : (2 * P) * (2 * A) <= 2 * P * d + 2 * n).
    { assert ((2 * S) * ((2 * P) * (2 * A)) <= (2 * S) * (2 * P * d + 2 * n)); [|nia].
      assert (2 * P * (2 * S * A * 2) <= 2 * P * (2 * S * d + d)) by (apply Z.mul_le_mono_nonneg_l; lia). lia. }
    assert ((2 * P * (2 * B)) * d <= (2 * P * fden r + 2 * (w * fnum r)) * d); [|nia].
    replace ((2 * P * (2 * B)) * d) with ((2 * P) * (2 * A) * fden r) by (replace ((2 * P * (2 * B)) * d) with (4 * P * (B * d)) by ring; rewrite K2; ring).
    replace ((2 * P * fden r + 2 * (w * fnum r)) * d) with ((2 * P * d + 2 * n) * fden r) by (replace ((2 * P * fden r + 2 * (w * fnum r)) * d) with (2 * P * fden r * d + 2 * (w * fnum r * d)) by ring; rewrite <- Hq; ring).
    apply Z.mul_le_mono_nonneg_r; lia.
Qed.
Print Assumptions C30_filled_count.
Example C30_filled_count_instance : unit_ratio (Float 3 8) /\ filled_cells 10 (Float 3 8) = 4 /\ filled_cells 40 (Float 1 1) = 40.
Proof. split; [unfold unit_ratio, is_float; vm_compute; intuition discriminate|]. vm_compute. auto. Qed.

(** ** Rendering *)

Lemma rows_redrawn (step : buffer -> Z -> outcome buffer) (g : pos -> cell -> cell) lo hi b : wf_buffer b ->
  (forall y b0, lo <= y < hi -> wf_buffer b0 -> barea b0 = barea b ->
     exists b', step b0 y = Ret b' /\ redrawn (fun p c => if py p =? y then g p c else c) b0 b') ->
  exists b', ofold step (zrange lo hi) b = Ret b' /\ redrawn (fun p c => if (lo <=? py p) && (py p <? hi) then g p c else c) b b'.
Proof.
  intros W Hs.
  assert (G : forall ys b0, NoDup ys -> (forall y, In y ys -> lo <= y < hi) -> wf_buffer b0 -> barea b0 = barea b ->
    exists b', ofold step ys b0 = Ret b' /\ redrawn (fun p c => if existsb (Z.eqb (py p)) ys then g p c else c) b0 b').
  { induction ys as [|y ys IH]; intros b0 ND Hy W0 A0.
    - exists b0. split; [reflexivity|]. apply redrawn_refl; auto.
    - inversion ND as [|? ? Hn ND']; subst. destruct (Hs y b0 (Hy y (or_introl eq_refl)) W0 A0) as (b1 & E1 & R1).
      cbn [ofold]. rewrite E1. cbn [bind]. destruct (IH b1 ND' (fun z Hz => Hy z (or_intror Hz)) (redrawn_wf _ _ _ R1)) as (b2 & E2 & R2).
      { rewrite (redrawn_area _ _ _ R1). exact A0. }
      exists b2. split; [exact E2|]. eapply redrawn_ext; [|exact (redrawn_trans _ _ _ _ _ R1 R2)].
      intros p c _. cbn beta. cbn [existsb]. destruct (Z.eqb_spec (py p) y) as [Ey|Ny]; cbn [orb].
      + replace (existsb (Z.eqb (py p)) ys) with false; [reflexivity|]. symmetry. apply not_true_is_false. intros Hx. apply existsb_exists in Hx.
        destruct Hx as (z & Hz & Ez). apply Z.eqb_eq in Ez. congruence.
      + reflexivity. }
  destruct (G (zrange lo hi) b (zrange_NoDup lo hi)) as (b' & E & R); auto.
  { intros y Hy. now apply zrange_In. }
  exists b'. split; [exact E|]. eapply redrawn_ext; [|exact R]. intros p c _. cbn beta.
  replace (existsb (Z.eqb (py p)) (zrange lo hi)) with ((lo <=? py p) && (py p <? hi)); [reflexivity|].
  apply eq_true_iff_eq. rewrite andb_true_iff, Z.leb_le, Z.ltb_lt, existsb_exists. split.
  - intros. exists (py p). rewrite zrange_In, Z.eqb_eq. auto.
  - intros (z & Hz & Ez). apply Z.eqb_eq in Ez. apply zrange_In in Hz. lia.
Qed.

Lemma row_redrawn_at y (f : pos -> cell -> cell) lo hi b : wf_buffer b -> (forall x, lo <= x < hi -> inside (Pos x y) (barea b)) ->
  exists b', ofold (fun b x => upd_cell b (Pos x y) (f (Pos x y))) (zrange lo hi) b = Ret b' /\
    redrawn (fun q c => if (py q =? y) && (lo <=? px q) && (px q <? hi) then f q c else c) b b'.
Proof.
  intros W Hin.
  assert (Hinj : forall i j, Pos i y = Pos j y -> i = j) by (intros i j E; now injection E).
  destruct (ofold_upd_spec f (map (fun x => Pos x y) (zrange lo hi)) (FinFun.Injective_map_NoDup Hinj (zrange_NoDup lo hi)) b W) as (b' & E & (A & W' & C & D)).
  { intros p Hp. apply in_map_iff in Hp. destruct Hp as (i & <- & Hi). apply zrange_In in Hi. auto. }
  rewrite ofold_map in E. exists b'. split; [exact E|]. split; [exact A|]. split; [exact W'|]. intros p.
  destruct ((py p =? y) && (lo <=? px p) && (px p <? hi)) eqn:Es.
  - rewrite !andb_true_iff, Z.eqb_eq, Z.leb_le, Z.ltb_lt in Es. apply C. apply in_map_iff. exists (px p). split; [destruct p; cbn in *; f_equal; lia|]. apply zrange_In. lia.
  - rewrite D; [now destruct (look b p)|]. intros Hp. apply in_map_iff in Hp. destruct Hp as (i & <- & Hi). apply zrange_In in Hi. cbn [px py] in Es.
    rewrite Z.eqb_refl in Es. destruct (Z.leb_spec lo i), (Z.ltb_spec i hi); try discriminate; lia.
Qed.

(** The columns filled completely: rounded in plain mode; in unicode mode the whole cells, with the next cell showing eighths. *)
Definition whole_cells (g : gauge) (width : Z) : Z :=
  if gg_unicode g then math_floor (fmul (of_int width) (gg_ratio g)) else filled_cells width (gg_ratio g).
(** The cells kept for the label: centred in the middle row. *)
Definition label_cells (u : uniseg) (g : gauge) (A : rect) : rect :=
  let n := Z.min (rw A) (span_width u (gauge_label g)) in Rect (rx A + (rw A - n) / 2) (ry A + rh A / 2) n 1.
Definition block_restyles (k : option block) (c : cell) : cell := match k with None => c | Some k => cell_set_style (bk_style k) c end.

Theorem C30_render : forall u g area b, uniseg_ok u -> wf_buffer b -> sized area -> 0 <= rx area -> rw area < 2 ^ 52 ->
  opt_padded (gg_block g) -> (forall p, inside p area -> inside p (barea b)) -> unit_ratio (gg_ratio g) ->
  let A := opt_block_inner (gg_block g) area in
  let L := label_cells u g A in
  0 <= span_width u (gauge_label g) -> drawable_in u (sp_content (gauge_label g)) (rw L) ->
  exists b', gauge_render u g area b = Ret b' /\ changed_only (fun p => inside p area) b b' /\
    (forall p, inside p A -> inside p area) /\
    (* the label, if it fits *)
    (0 < rw A -> 0 < rh A -> (forall c, In c (clusters u (sp_content (gauge_label g))) -> 1 <= cwidth u c) -> widths u (clusters u (sp_content (gauge_label g))) <= rw A ->
      forall o s, glyph_at (cwidth u) (clusters u (sp_content (gauge_label g))) o = Some (Head s) ->
      exists c, look b' (Pos (rx L + o) (ry L)) = Some (cell_set_style (sp_style (gauge_label g)) (cell_set_symbol s c))) /\
    (* the bar *)
    forall p, inside p A -> ~ inside p L -> exists c0 c, look b p = Some c0 /\ look b' p = Some c /\
      (px p - rx A < whole_cells g (rw A) ->
         csym c = block_full /\ cfg c = Some (match sfg (gg_gauge_style g) with Some f => f | None => ColReset end) /\
         cbg c = Some (match sbg (gg_gauge_style g) with Some f => f | None => ColReset end)) /\
      (whole_cells g (rw A) <= px p - rx A ->
         let styled := cell_set_style (gg_gauge_style g) (block_restyles (gg_block g) (cell_set_style (gg_style g) c0)) in
         c = if gg_unicode g && (px p - rx A =? whole_cells g (rw A)) && (fnum (gg_ratio g) <? fden (gg_ratio g))
             then cell_set_symbol (unicode_block (math_mod1 (fmul (of_int (rw A)) (gg_ratio g)))) styled
             else styled).
Proof.
  intros u g area b Hu W Hs Hx Hw Hk Hin Hr A L Hlw Hd. unfold gauge_render.
  destruct (set_style_redrawn b area (gg_style g) W) as (b1 & E1 & R1). rewrite E1. cbn [bind].
  assert (A1 : barea b1 = barea b) by apply R1. assert (W1 : wf_buffer b1) by apply R1.
  assert (E2 : exists b2, opt_block_render u (gg_block g) area b1 = Ret b2 /\ changed_only (fun p => inside p area) b1 b2 /\
    (forall p, inside p A -> inside p area) /\ sized A /\ forall p, inside p A -> look b2 p = option_map (block_restyles (gg_block g)) (look b1 p)).
  { destruct (opt_block_ok u (gg_block g) area b1 Hu W1 Hs Hx Hk ltac:(now rewrite A1)) as (b2 & E2 & C2 & HA & SA). exists b2. repeat (split; [assumption|]).
    unfold A in *. destruct (gg_block g) as [k|]; cbn [opt_block_render opt_block_inner block_restyles opt_padded] in *.
    - destruct (C31_render_stays_inside u k area b1 Hu W1 Hs Hx Hk ltac:(now rewrite A1)) as (b2' & E2' & _ & L2). rewrite E2 in E2'. injection E2' as <-. exact L2.
    - injection E2 as <-. intros p _. now destruct (look b1 p). }
  destruct E2 as (b2 & E2 & C2 & HA & SA & L2). rewrite E2. cbn [bind].
  assert (A2 : barea b2 = barea b) by (destruct C2 as [X _]; congruence). assert (W2 : wf_buffer b2) by apply C2.
  assert (C02 : changed_only (fun p => inside p area) b b2).
  { eapply changed_only_trans; [|exact C2]. eapply redrawn_only; [|exact R1]. intros p c Hp. cbn beta. apply contains_false in Hp. now rewrite Hp. }
  fold A. unfold gauge_render_inner.
  destruct (rect_is_empty A) eqn:Ee.
  { exists b2. split; [reflexivity|]. split; [exact C02|]. split; [exact HA|]. unfold rect_is_empty in Ee.
    rewrite orb_true_iff, !Z.eqb_eq in Ee. split; [intros; lia|]. intros p Hp. exfalso. unfold inside in Hp. lia. }
  apply not_empty_pos in Ee; [|exact SA]. destruct Ee as [HW HH].
  destruct (set_style_redrawn b2 A (gg_gauge_style g) W2) as (b3 & E3 & R3). rewrite E3. cbn [bind].
  assert (A3 : barea b3 = barea b) by (rewrite (redrawn_area _ _ _ R3); exact A2). assert (W3 : wf_buffer b3) by apply R3.
  cbv zeta. set (lw := Z.min (rw A) (span_width u (gauge_label g))) in *.
  assert (Hwa : rw A <= rw area).
  { assert (I1 : inside (Pos (rx A) (ry A)) area) by (apply HA; unfold inside; cbn [px py]; lia).
    assert (I2 : inside (Pos (rx A + rw A - 1) (ry A)) area) by (apply HA; unfold inside; cbn [px py]; lia). unfold inside in I1, I2. cbn [px py] in I1, I2. lia. }
  assert (HwA : 0 < rw A < 2 ^ 52) by lia.
  set (fl := fmul (of_int (rw A)) (gg_ratio g)).
  assert (Hend : (if gg_unicode g then rleft A + math_floor fl else rleft A + math_round fl) = rx A + whole_cells g (rw A)).
  { unfold whole_cells, filled_cells, rleft. fold fl. now destruct (gg_unicode g). }
  rewrite Hend. set (F := whole_cells g (rw A)).
  assert (HF : 0 <= F <= rw A /\ (gg_unicode g = true -> fnum (gg_ratio g) < fden (gg_ratio g) -> F < rw A)).
  { unfold F, whole_cells. destruct (gg_unicode g).
    - destruct (floor_bounds (rw A) (gg_ratio g) HwA Hr) as [B1 B2]. split; [exact B1|]. intros _. exact B2.
    - split; [apply filled_bounds; [lia|exact Hr]|discriminate]. }
  destruct HF as [HF HF2].
  set (lcol := rleft A + (rw A - lw) / 2). set (lrow := rtop A + rh A / 2).
  set (fg := or_reset (sfg (gg_gauge_style g))). set (bg := or_reset (sbg (gg_gauge_style g))).
  set (paint := fun (p : pos) (c : cell) => cell_set_bg bg (cell_set_fg fg (cell_set_symbol
            (if (px p <? lcol) || (px p >=? lcol + lw) || negb (py p =? lrow) then block_full else [32%N]) c))).
  set (partial := gg_unicode g && flt (gg_ratio g) float_one).
  assert (Hpartial : partial = gg_unicode g && (fnum (gg_ratio g) <? fden (gg_ratio g))).
  { unfold partial, flt, float_one. cbn [fnum fden]. now rewrite Z.mul_1_r, Z.mul_1_l. }
  set (gcell := fun p c => (let c1 := if (rx A <=? px p) && (px p <? rx A + F) then paint p c else c in
                 if partial && (px p =? rx A + F) then cell_set_symbol (unicode_block (math_mod1 fl)) c1 else c1)).
  assert (HAb : forall x y, rx A <= x < rx A + rw A -> ry A <= y < ry A + rh A -> inside (Pos x y) (barea b)).
  { intros x y H1 H2. apply Hin, HA. unfold inside. cbn [px py]. lia. }
  match goal with |- context [ofold ?s (zrange (rtop A) (rbottom A)) b3] => set (step := s) end.
  destruct (rows_redrawn step gcell (rtop A) (rbottom A) b3 W3) as (b4 & E4 & R4).
  { intros y b0 Hy W0 A0. unfold rtop, rbottom in Hy. unfold step.
    destruct (row_redrawn_at y paint (rleft A) (rx A + F) b0 W0) as (b0' & E0 & R0).
    { intros x Hx0. rewrite A0, A3. apply HAb; unfold rleft in Hx0; lia. }
    change (ofold (fun b x => upd_cell b (Pos x y) (paint (Pos x y))) (zrange (rleft A) (rx A + F)) b0 = Ret b0') in E0.
    match goal with |- context [bind ?m _] => change m with (ofold (fun b x => upd_cell b (Pos x y) (paint (Pos x y))) (zrange (rleft A) (rx A + F)) b0) end.
    rewrite E0. cbn [bind].
    destruct partial eqn:Ep.
    - assert (Hlt : F < rw A). { symmetry in Hpartial. apply andb_true_iff in Hpartial. destruct Hpartial as [P1 P2]. apply Z.ltb_lt in P2. auto. }
      destruct (upd_redrawn b0' (Pos (rx A + F) y) (cell_set_symbol (unicode_block (math_mod1 fl))) (redrawn_wf _ _ _ R0)) as (b0'' & E0'' & R0'').
      { rewrite (redrawn_area _ _ _ R0), A0, A3. apply HAb; lia. }
      exists b0''. split; [exact E0''|]. eapply redrawn_ext; [|exact (redrawn_trans _ _ _ _ _ R0 R0'')].
      intros [x y'] c _. cbn beta. unfold gcell, pos_eqb. cbn [px py andb]. cbv zeta. unfold rleft.
      destruct (Z.eqb_spec y' y) as [->|]; cbn [andb]; [|now rewrite andb_false_r]. now rewrite andb_true_r.
    - exists b0'. split; [reflexivity|]. eapply redrawn_ext; [|exact R0]. intros [x y'] c _. cbn beta. unfold gcell. cbn [px py andb]. cbv zeta. unfold rleft.
      destruct (Z.eqb_spec y' y) as [->|]; reflexivity. }
  rewrite E4. cbn [bind].
  assert (A4 : barea b4 = barea b) by (rewrite (redrawn_area _ _ _ R4); exact A3).
  assert (Hl1 : 0 <= lw <= rw A) by (unfold lw; lia).
  assert (Hl2 : 0 <= (rw A - lw) / 2 /\ (rw A - lw) / 2 + lw <= rw A).
  { split; [apply Z.div_pos; lia|]. pose proof (Z.mul_div_le (rw A - lw) 2 ltac:(lia)). lia. }
  assert (Hl3 : 0 <= rh A / 2 < rh A) by (split; [apply Z.div_pos; lia|apply Z.div_lt; lia]).
  assert (HL : L = Rect lcol lrow lw 1) by reflexivity.
  assert (Hl4 : (rw A - lw) / 2 < rw A) by (apply Z.div_lt_upper_bound; lia).
  assert (Hi : inside (Pos lcol lrow) (barea b4)) by (rewrite A4; apply HAb; unfold lcol, lrow, rleft, rtop; lia).
  assert (Hright : rx A + rw A <= rx (barea b4) + rw (barea b4)).
  { rewrite A4. assert (I : inside (Pos (rx A + rw A - 1) (ry A)) (barea b)) by (apply HAb; lia). unfold inside in I. cbn [px py] in I. lia. }
  destruct (set_string_drawable u b4 lcol lrow (sp_content (gauge_label g)) lw (sp_style (gauge_label g)) Hu (redrawn_wf _ _ _ R4) Hi (proj1 Hl1)) as (b5 & x5 & E5 & C5).
  { unfold lcol, rleft in *. lia. }
  { rewrite HL in Hd. exact Hd. }
  rewrite E5. cbn [bind]. exists b5. split; [reflexivity|].
  assert (C34 : changed_only (fun p => inside p area) b2 b4).
  { eapply (changed_only_trans _ b2 b3 b4).
    - eapply redrawn_only; [|exact R3]. intros p c Hp. cbn beta. destruct (contains A p) eqn:Ec; [|reflexivity]. apply contains_inside in Ec. exfalso. auto.
    - eapply redrawn_only; [|exact R4]. intros p c Hp. cbn beta. destruct ((rtop A <=? py p) && (py p <? rbottom A)) eqn:Ey; [|reflexivity].
      rewrite andb_true_iff, Z.leb_le, Z.ltb_lt in Ey. unfold rtop, rbottom in Ey. unfold gcell. cbv zeta.
      assert (Hn : forall x, rx A <= x < rx A + rw A -> px p <> x). { intros x Hx' Ex. apply Hp, HA. unfold inside. lia. }
      destruct (Z.leb_spec (rx A) (px p)); cbn [andb].
      + destruct (Z.ltb_spec (px p) (rx A + F)); cbn [andb]; [exfalso; apply (Hn (px p)); lia|].
        destruct partial eqn:Ep; cbn [andb]; [|reflexivity]. destruct (Z.eqb_spec (px p) (rx A + F)) as [E|]; [|reflexivity].
        symmetry in Hpartial. apply andb_true_iff in Hpartial. destruct Hpartial as [P1 P2]. apply Z.ltb_lt in P2. specialize (HF2 P1 P2). exfalso. apply (Hn (px p)); lia.
      + destruct partial; cbn [andb]; [|reflexivity]. destruct (Z.eqb_spec (px p) (rx A + F)); [lia|reflexivity]. }
  assert (C45 : changed_only (fun p => inside p area) b4 b5).
  { eapply changed_only_weaken; [|exact C5]. intros p [Hp1 Hp2]. apply HA. unfold inside, lcol, lrow, rleft, rtop in *. lia. }
  split; [eapply changed_only_trans; [exact C02|]; eapply changed_only_trans; [exact C34|exact C45]|]. split; [exact HA|]. split.
  { intros _ _ Hv Hfit o s Hg. assert (Ew : span_width u (gauge_label g) = widths u (clusters u (sp_content (gauge_label g)))) by reflexivity.
    assert (Elw : lw = widths u (clusters u (sp_content (gauge_label g)))) by (unfold lw; lia).
    destruct (C11_set_string_n_partial u b4 lcol lrow (sp_content (gauge_label g)) lw (sp_style (gauge_label g)) (clusters u (sp_content (gauge_label g))) []) as (b5' & E5' & _ & _ & Hh & _); auto; try (now rewrite app_nil_r).
    { apply R4. } { unfold lcol, rleft in *. lia. }
    rewrite E5 in E5'. injection E5' as <- _. rewrite HL. cbn [rx ry].
    assert (Ho : 0 <= o) by (destruct (Z.lt_ge_cases o 0); [rewrite glyph_at_neg in Hg by lia; discriminate|lia]).
    assert (Ho2 : o < lw). { destruct (Z.lt_ge_cases o lw) as [|G]; [assumption|]. rewrite (proj2 (glyph_at_none (cwidth u) _ o Hv)) in Hg; [discriminate|]. unfold widths in Elw. lia. }
    destruct (look_inside b4 (Pos (lcol + o) lrow)) as [c0 Hc0]; [apply R4|rewrite A4; apply HAb; unfold lcol, lrow, rleft, rtop; lia|].
    exists c0. now apply Hh. }
  intros p Hp HnL. assert (Hpb : inside p (barea b)) by auto.
  destruct (look_inside b p W Hpb) as (c0 & E0). exists c0.
  assert (Ip : contains A p = true) by now apply contains_inside.
  assert (Iarea : contains area p = true) by (apply contains_inside; auto).
  assert (L4 : look b5 p = look b4 p).
  { apply C5. intros [Q1 Q2]. apply HnL. rewrite HL. unfold inside. cbn [rx ry rw rh]. lia. }
  destruct R1 as (_ & _ & R1). destruct R3 as (_ & _ & R3). destruct R4 as (_ & _ & R4).
  rewrite L4, R4, R3, L2, R1, E0 by exact Hp. cbn [option_map]. rewrite Ip, Iarea.
  replace ((rtop A <=? py p) && (py p <? rbottom A)) with true by (symmetry; rewrite andb_true_iff, Z.leb_le, Z.ltb_lt; unfold rtop, rbottom, inside in *; lia).
  eexists. split; [reflexivity|]. split; [reflexivity|].
  set (styled := cell_set_style (gg_gauge_style g) _). fold F. unfold gcell. cbv zeta. unfold inside in Hp.
  replace (rx A <=? px p) with true by (symmetry; apply Z.leb_le; lia). cbn [andb].
  split.
  - intros Ho. destruct (Z.ltb_spec (px p) (rx A + F)); [|lia]. destruct (Z.eqb_spec (px p) (rx A + F)); [lia|]. rewrite andb_false_r.
    unfold paint. replace ((px p <? lcol) || (px p >=? lcol + lw) || negb (py p =? lrow)) with true.
    + cbn. unfold fg, bg, or_reset. destruct (sfg (gg_gauge_style g)), (sbg (gg_gauge_style g)); auto.
    + symmetry. rewrite HL in HnL. unfold inside in HnL. cbn [rx ry rw rh] in HnL. rewrite Z.geb_leb.
      destruct (Z.ltb_spec (px p) lcol); [reflexivity|]. destruct (Z.leb_spec (lcol + lw) (px p)); [reflexivity|]. destruct (Z.eqb_spec (py p) lrow); [lia|reflexivity].
  - intros Ho. destruct (Z.ltb_spec (px p) (rx A + F)); [lia|]. rewrite Hpartial.
    replace (px p - rx A =? F) with (px p =? rx A + F) by (apply eq_true_iff_eq; rewrite !Z.eqb_eq; lia).
    destruct (gg_unicode g), (px p =? rx A + F), (fnum (gg_ratio g) <? fden (gg_ratio g)); reflexivity.
Qed.
Print Assumptions C30_render.

Example C30_render_instance :
  let g := Gauge None (Float 1 2) None false new_style new_style in
  let area := Rect 1 1 8 1 in
  unit_ratio (gg_ratio g) /\ span_width simple_uniseg (gauge_label g) = 3 /\
  drawable_in simple_uniseg (sp_content (gauge_label g)) (rw (label_cells simple_uniseg g area)) /\
  exists b', gauge_render simple_uniseg g area (demo_buffer 10 3) = Ret b' /\
    map (fun x => option_map csym (look b' (Pos x 1))) [0; 1; 2; 3; 4; 5; 6; 7; 8; 9] =
      map (fun n => Some [n]) [32; 9608; 9608; 53; 48; 37; 32; 32; 32; 32]%N.
Proof.
  cbv zeta. split; [unfold unit_ratio, is_float; vm_compute; intuition discriminate|]. split; [vm_compute; reflexivity|].
  split; [left; vm_compute; intuition (subst; reflexivity)|]. eexists. split; vm_compute; reflexivity.
Qed.

(** A percentage is accepted exactly between 0 and 100 and gives a ratio between 0 and 1. *)
Theorem C30_percent : forall g percent,
  (0 <= percent <= 100 -> exists g', gauge_with_percent g percent = Ret g' /\ unit_ratio (gg_ratio g')) /\
  (~ 0 <= percent <= 100 -> gauge_with_percent g percent = Panic).
Proof.
  intros g percent. unfold gauge_with_percent. rewrite Z.gtb_ltb. split; intros H.
  - destruct (Z.ltb_spec percent 0); [lia|]. destruct (Z.ltb_spec 100 percent); [lia|]. cbn [orb]. eexists. split; [reflexivity|]. cbn [gg_ratio].
    assert (G : forallb (fun z => let r := fdiv (of_int z) (of_int 100) in let f := fround (fnum r) (fden r) in
       (0 <? fden r) && (fnum f * fden r =? fnum r * fden f) && (0 <=? fnum r) && (fnum r <=? fden r)) (zrange 0 101) = true) by (vm_compute; reflexivity).
    rewrite forallb_forall in G. specialize (G percent ltac:(apply zrange_In; lia)). cbv zeta in G.
    rewrite !andb_true_iff, Z.ltb_lt, Z.eqb_eq, !Z.leb_le in G. unfold unit_ratio, is_float. tauto.
  - destruct (Z.ltb_spec percent 0); [reflexivity|]. destruct (Z.ltb_spec 100 percent); [reflexivity|lia].
Qed.
Print Assumptions C30_percent.
Example C30_percent_instance : exists g, gauge_with_percent new_gauge 29 = Ret g /\ filled_cells 100 (gg_ratio g) = 29.
Proof.
  exists (Gauge None (fdiv (of_int 29) (of_int 100)) None false new_style new_style). split; vm_compute; reflexivity.
Qed.

(** No ratio is ever rejected, and with a ratio above 1 the gauge draws outside its area. *)
Theorem C30_ratio_not_checked_refuted :
  (forall g r, 0 < fden r -> exists g', gauge_with_ratio g r = Ret g' /\ gg_ratio g' = r) /\
  exists u g area b b' p, uniseg_ok u /\ wf_buffer b /\ gauge_with_ratio new_gauge (Float 2 1) = Ret g /\
    (forall q, inside q area -> inside q (barea b)) /\ gauge_render u g area b = Ret b' /\ ~ inside p area /\ look b' p <> look b p.
Proof.
  split.
  - intros g r Hr. unfold gauge_with_ratio, flt, float_zero, float_one. cbn [fnum fden]. eexists.
    replace ((fnum r * 1 <? 0 * fden r) && (1 * fden r <? fnum r * 1)) with false; [split; reflexivity|].
    symmetry. apply andb_false_iff. destruct (Z.ltb_spec (fnum r * 1) (0 * fden r)); [right; apply Z.ltb_ge; lia|auto].
  - exists simple_uniseg, (Gauge None (Float 2 1) None false new_style new_style), (Rect 0 0 4 1), (Buf (Rect 0 0 10 1) (repeat empty_cell 10)). eexists. exists (Pos 6 0).
    split; [apply simple_uniseg_ok|]. split; [unfold wf_buffer, sized; cbn; lia|]. split; [reflexivity|].
    split; [intros [x y]; unfold inside; cbn; lia|]. split; [vm_compute; reflexivity|]. split; [unfold inside; cbn; lia|]. vm_compute. discriminate.
Qed.
Print Assumptions C30_ratio_not_checked_refuted.

(** Without a label of its own the gauge shows the percentage: a whole number from 0 to 100 nearest to a hundred times the ratio (up to one
    float64 rounding), followed by a percent sign. *)
Theorem C30_label : forall g, gg_label g = None -> unit_ratio (gg_ratio g) ->
  exists p, 0 <= p <= 100 /\ sp_content (gauge_label g) = itoa p ++ [37%N] /\
    2 ^ 53 * Z.abs (2 * (p * fden (gg_ratio g) - 100 * fnum (gg_ratio g))) <= 2 ^ 53 * fden (gg_ratio g) + 2 * (100 * fnum (gg_ratio g)).
Proof.
  intros g Hn Hr. unfold gauge_label. rewrite Hn. exists (filled_cells 100 (gg_ratio g)).
  destruct (C30_filled_count 100 (gg_ratio g) ltac:(lia) Hr) as (B & _ & _ & D). split; [exact B|]. split; [|exact D].
  cbn [sp_content]. unfold filled_cells, fmul. now rewrite (Z.mul_comm (fnum (gg_ratio g))), (Z.mul_comm (fden (gg_ratio g))).
Qed.
Print Assumptions C30_label.
Example C30_label_instance : exists g, gauge_with_percent new_gauge 29 = Ret g /\ sp_content (gauge_label g) = [50; 57; 37]%N.
Proof. exists (Gauge None (fdiv (of_int 29) (of_int 100)) None false new_style new_style). split; vm_compute; reflexivity. Qed.

(** The left blocks of Unicode: [k] eighths of a cell, from U+2588 (eight) to U+258F (one), and a space for none. *)
Definition eighths (k : Z) : str := if k =? 0 then [32%N] else [Z.to_N (9616 - k)].
(** In unicode mode the cell after the full ones shows the number of eighths nearest to the rest. *)
Theorem C30_eighths : forall f, 0 < fden f -> 0 <= fnum f < fden f ->
  exists k, 0 <= k <= 8 /\ (2 * k - 1) * fden f <= 2 * (8 * fnum f) < (2 * k + 1) * fden f /\ unicode_block f = eighths k.
Proof.
  intros f Hd [H0 H1]. unfold unicode_block, math_round. cbn [fnum fden]. destruct (Z.ltb_spec (fnum f * 8) 0); [lia|].
  set (n := fnum f) in *. set (d := fden f) in *. pose proof (Z.mul_div_le (2 * (n * 8) + d) (2 * d) ltac:(lia)) as Q1.
  pose proof (Z.mul_succ_div_gt (2 * (n * 8) + d) (2 * d) ltac:(lia)) as Q2. set (k := (2 * (n * 8) + d) / (2 * d)) in *. clearbody k.
  assert (0 <= k <= 8) by nia. exists k. split; [assumption|]. split; [nia|].
  assert (k = 0 \/ k = 1 \/ k = 2 \/ k = 3 \/ k = 4 \/ k = 5 \/ k = 6 \/ k = 7 \/ k = 8) as [->|[->|[->|[->|[->|[->|[->|[->| ->]]]]]]]] by lia; reflexivity.
Qed.
Print Assumptions C30_eighths.
(** The rest is what the full cells leave of the exact product (up to one float64 rounding of it). *)
Theorem C30_rest : forall w r, 0 <= w < 2 ^ 52 -> unit_ratio r -> let f := fmul (of_int w) r in
  exists k, 0 <= k <= 8 /\ (2 * k - 1) * fden f <= 2 * (8 * (fnum f - math_floor f * fden f)) < (2 * k + 1) * fden f /\ unicode_block (math_mod1 f) = eighths k.
Proof.
  intros w r Hw Hr f. assert (P : 0 < fden f /\ 0 <= fnum f).
  { destruct (fmul_of_int w r Hw Hr) as (n & d & E & Hn & Hd & _). unfold f. rewrite E. split; [now apply fround_den|now apply fround_nonneg]. }
  destruct P as [Pd Pn]. assert (E : math_mod1 f = Float (fnum f - math_floor f * fden f) (fden f)).
  { unfold math_mod1, math_floor. rewrite Z.rem_mod_nonneg by lia. rewrite Z.mod_eq by lia. f_equal. ring. }
  rewrite E. pose proof (Z.mod_pos_bound (fnum f) (fden f) Pd) as B. rewrite Z.mod_eq in B by lia.
  destruct (C30_eighths (Float (fnum f - math_floor f * fden f) (fden f)) Pd) as (k & K1 & K2 & K3); [cbn [fnum fden]; unfold math_floor; lia|].
  exists k. cbn [fnum fden] in K2. auto.
Qed.
Print Assumptions C30_rest.
Example C30_rest_instance : unicode_block (math_mod1 (fmul (of_int 10) (fdiv (of_int 1) (of_int 3)))) = eighths 3 /\ math_floor (fmul (of_int 10) (fdiv (of_int 1) (of_int 3))) = 3.
Proof. vm_compute. auto. Qed.
Example C30_eighths_instance : unicode_block (Float 1 3) = eighths 3 /\ eighths 3 = [9613%N].
Proof. vm_compute. auto. Qed.
