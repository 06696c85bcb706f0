(** Property theorems C01-C04: rectangles and padding. *)
From Verif Require Import Base M_Geom S_Geom P_Base.
From Coq Require Import ZArith List Bool Lia.
Import ListNotations.
Open Scope Z_scope.

Lemma contains_inside r p : contains r p = true <-> inside p r.
Proof.
  unfold contains, inside, rright, rbottom. rewrite !andb_true_iff, !Z.ltb_lt, !Z.geb_le. lia.
Qed.

Lemma contains_false r p : contains r p = false <-> ~ inside p r.
Proof. rewrite <- contains_inside. destruct (contains r p); split; congruence. Qed.

(** C01 *)
Theorem C01_intersection_is_set_intersection : forall a b p,
  (inside p (intersection a b) <-> inside p a /\ inside p b) /\
  (contains (intersection a b) p = contains a p && contains b p).
Proof.
  intros a b p.
  assert (H : inside p (intersection a b) <-> inside p a /\ inside p b).
  { unfold inside, intersection, rright, rbottom; cbn. lia. }
  split; [exact H|].
  apply eq_true_iff_eq. rewrite andb_true_iff, !contains_inside. exact H.
Qed.
Print Assumptions C01_intersection_is_set_intersection.

Theorem C01_intersection_sized : forall a b, sized (intersection a b).
Proof. intros; unfold sized, intersection; cbn; lia. Qed.
Print Assumptions C01_intersection_sized.

(** Empty exactly when no position is shared. *)
Theorem C01_intersection_empty : forall a b,
  rect_is_empty (intersection a b) = true <-> (forall p, ~ (inside p a /\ inside p b)).
Proof.
  intros a b. unfold rect_is_empty. rewrite orb_true_iff, !Z.eqb_eq. split.
  - intros H p. unfold inside, intersection, rright, rbottom in *; cbn in *. lia.
  - intros H. destruct (Z.eq_dec (rw (intersection a b)) 0); [now left|].
    destruct (Z.eq_dec (rh (intersection a b)) 0); [now right|]. exfalso.
    apply (H (Pos (rx (intersection a b)) (ry (intersection a b)))).
    apply C01_intersection_is_set_intersection.
    pose proof (C01_intersection_sized a b) as [? ?]. unfold inside; cbn [px py]. lia.
Qed.
Print Assumptions C01_intersection_empty.

(** Beyond the set of cells: the result itself (origin and size). For overlapping rectangles it is the unique
    rectangle with that set of cells. *)
Theorem C01_intersection_unique : forall a b r,
  (exists p, inside p a /\ inside p b) -> (forall p, inside p r <-> inside p a /\ inside p b) ->
  intersection a b = r.
Proof.
  intros a b r [q [Qa Qb]] H.
  assert (Hq : inside q r) by (apply H; auto).
  unfold inside in Hq, Qa, Qb.
  assert (H1 : inside (Pos (rx r) (py q)) a /\ inside (Pos (rx r) (py q)) b) by (apply H; unfold inside; cbn; lia).
  assert (H2 : inside (Pos (rx r + rw r - 1) (py q)) a /\ inside (Pos (rx r + rw r - 1) (py q)) b)
    by (apply H; unfold inside; cbn; lia).
  assert (H3 : inside (Pos (px q) (ry r)) a /\ inside (Pos (px q) (ry r)) b) by (apply H; unfold inside; cbn; lia).
  assert (H4 : inside (Pos (px q) (ry r + rh r - 1)) a /\ inside (Pos (px q) (ry r + rh r - 1)) b)
    by (apply H; unfold inside; cbn; lia).
  assert (G1 : inside (Pos (Z.max (rx a) (rx b)) (py q)) r) by (apply H; unfold inside; cbn; lia).
  assert (G2 : inside (Pos (Z.min (rx a + rw a) (rx b + rw b) - 1) (py q)) r) by (apply H; unfold inside; cbn; lia).
  assert (G3 : inside (Pos (px q) (Z.max (ry a) (ry b))) r) by (apply H; unfold inside; cbn; lia).
  assert (G4 : inside (Pos (px q) (Z.min (ry a + rh a) (ry b + rh b) - 1)) r) by (apply H; unfold inside; cbn; lia).
  clear H. unfold inside in H1, H2, H3, H4, G1, G2, G3, G4; cbn [px py] in H1, H2, H3, H4, G1, G2, G3, G4.
  unfold intersection, rright, rbottom. destruct r as [x y w h]; cbn [rx ry rw rh] in *.
  assert (E1 : Z.max (rx a) (rx b) = x) by lia. assert (E2 : Z.max (ry a) (ry b) = y) by lia.
  rewrite E1, E2. f_equal; lia.
Qed.
Print Assumptions C01_intersection_unique.

Example C01_example : intersection (Rect (-2) 1 5 4) (Rect 1 (-3) 9 6) = Rect 1 1 2 2.
Proof. reflexivity. Qed.
Example C01_example_meets : exists p, inside p (Rect (-2) 1 5 4) /\ inside p (Rect 1 (-3) 9 6).
Proof. exists (Pos 1 2). unfold inside; cbn; lia. Qed.

(** C02: rows and columns. The k-th row is the full-width line at height [ry r + k]. *)
Theorem C02_rows_list : forall r, 0 <= rh r ->
  zlen (rows r) = rh r /\
  forall k, 0 <= k < rh r -> nth_error (rows r) (Z.to_nat k) = Some (Rect (rx r) (ry r + k) (rw r) 1).
Proof.
  intros r H. unfold rows, rbottom. split.
  - rewrite zlen_map. unfold zlen. rewrite zrange_length. lia.
  - intros k Hk. erewrite map_nth_error; [|apply zrange_nth_error; lia]. cbn. f_equal. f_equal. lia.
Qed.
Print Assumptions C02_rows_list.

Theorem C02_rows_partition : forall r p, sized r ->
  (inside p r <-> exists row, In row (rows r) /\ inside p row) /\
  (forall i j ri rj, nth_error (rows r) i = Some ri -> nth_error (rows r) j = Some rj ->
     inside p ri -> inside p rj -> i = j).
Proof.
  intros r p [Hw Hh]. split.
  - split.
    + intros Hp. exists (Rect (rx r) (py p) (rw r) 1). split.
      * unfold rows, rbottom. apply in_map_iff. exists (py p). split; auto. apply zrange_In. unfold inside in Hp. lia.
      * unfold inside in *; cbn; lia.
    + intros [row [Hin Hp]]. unfold rows in Hin. apply in_map_iff in Hin. destruct Hin as [y [<- Hy]].
      apply zrange_In in Hy. unfold inside, rbottom in *; cbn in *; lia.
  - intros i j ri rj Hi Hj Ii Ij.
    assert (A : forall n rn, nth_error (rows r) n = Some rn -> ry rn = ry r + Z.of_nat n /\ rh rn = 1).
    { intros n rn E. pose proof (C02_rows_list r Hh) as [L N].
      assert (n < length (rows r))%nat by (apply nth_error_Some; congruence).
      unfold zlen in L. specialize (N (Z.of_nat n)). rewrite Nat2Z.id in N. rewrite N in E by lia.
      injection E as <-. cbn. lia. }
    apply A in Hi, Hj. unfold inside in *. lia.
Qed.
Print Assumptions C02_rows_partition.

Theorem C02_columns_list : forall r, 0 <= rw r ->
  zlen (columns r) = rw r /\
  forall k, 0 <= k < rw r -> nth_error (columns r) (Z.to_nat k) = Some (Rect (rx r + k) (ry r) 1 (rh r)).
Proof.
  intros r H. unfold columns, rright. split.
  - rewrite zlen_map. unfold zlen. rewrite zrange_length. lia.
  - intros k Hk. erewrite map_nth_error; [|apply zrange_nth_error; lia]. cbn. unfold positioned; cbn. f_equal. f_equal. lia.
Qed.
Print Assumptions C02_columns_list.

Theorem C02_columns_partition : forall r p, sized r ->
  (inside p r <-> exists c, In c (columns r) /\ inside p c) /\
  (forall i j ci cj, nth_error (columns r) i = Some ci -> nth_error (columns r) j = Some cj ->
     inside p ci -> inside p cj -> i = j).
Proof.
  intros r p [Hw Hh]. split.
  - split.
    + intros Hp. exists (Rect (px p) (ry r) 1 (rh r)). split.
      * unfold columns, rright. apply in_map_iff. exists (px p). split; auto. apply zrange_In. unfold inside in Hp. lia.
      * unfold inside in *; cbn; lia.
    + intros [c [Hin Hp]]. unfold columns in Hin. apply in_map_iff in Hin. destruct Hin as [y [<- Hy]].
      apply zrange_In in Hy. unfold inside, rright, positioned in *; cbn in *; lia.
  - intros i j ri rj Hi Hj Ii Ij.
    assert (A : forall n rn, nth_error (columns r) n = Some rn -> rx rn = rx r + Z.of_nat n /\ rw rn = 1).
    { intros n rn E. pose proof (C02_columns_list r Hw) as [L N].
      assert (n < length (columns r))%nat by (apply nth_error_Some; congruence).
      unfold zlen in L. specialize (N (Z.of_nat n)). rewrite Nat2Z.id in N. rewrite N in E by lia.
      injection E as <-. cbn. lia. }
    apply A in Hi, Hj. unfold inside in *. lia.
Qed.
Print Assumptions C02_columns_partition.

Example C02_example : sized (Rect 3 (-1) 2 2) /\ rows (Rect 3 (-1) 2 2) = [Rect 3 (-1) 2 1; Rect 3 0 2 1]
  /\ columns (Rect 3 (-1) 2 2) = [Rect 3 (-1) 1 2; Rect 4 (-1) 1 2].
Proof. split; [unfold sized; cbn; lia | split; reflexivity]. Qed.

(** C03: positions of [inner] are those far enough from each edge. *)
Theorem C03_inner_positions : forall r p q, sized r -> nonneg_padding p ->
  (inside q (inner r p) <->
     rx r + pleft p <= px q < rx r + rw r - pright p /\ ry r + ptop p <= py q < ry r + rh r - pbottom p).
Proof.
  intros r p q [? ?] (? & ? & ? & ?). unfold inner.
  destruct (rw r <? pright p + pleft p) eqn:E1; [apply Z.ltb_lt in E1|apply Z.ltb_ge in E1]; cbn [orb].
  - unfold inside; cbn. lia.
  - destruct (rh r <? ptop p + pbottom p) eqn:E2; [apply Z.ltb_lt in E2|apply Z.ltb_ge in E2];
    unfold inside; cbn; lia.
Qed.
Print Assumptions C03_inner_positions.

Theorem C03_inner_contained : forall r p, sized r -> nonneg_padding p ->
  subrect (inner r p) r /\ sized (inner r p).
Proof.
  intros r p Hr Hp. split.
  - intros q Hq. apply C03_inner_positions in Hq; auto. unfold nonneg_padding in Hp. unfold inside. lia.
  - unfold inner. destruct (_ || _); unfold sized; cbn; lia.
Qed.
Print Assumptions C03_inner_contained.

(** When the padding fits, the exact rectangle; otherwise the zero rectangle. *)
Theorem C03_inner_exact : forall r p,
  (pleft p + pright p <= rw r /\ ptop p + pbottom p <= rh r ->
     inner r p = Rect (rx r + pleft p) (ry r + ptop p) (rw r - pleft p - pright p) (rh r - ptop p - pbottom p)) /\
  (~ (pleft p + pright p <= rw r /\ ptop p + pbottom p <= rh r) -> inner r p = Rect 0 0 0 0).
Proof.
  intros r p. unfold inner. split; intros H.
  - replace (rw r <? pright p + pleft p) with false by (symmetry; apply Z.ltb_ge; lia).
    replace (rh r <? ptop p + pbottom p) with false by (symmetry; apply Z.ltb_ge; lia).
    cbn. f_equal; lia.
  - destruct (rw r <? pright p + pleft p) eqn:E1; [reflexivity|apply Z.ltb_ge in E1].
    destruct (rh r <? ptop p + pbottom p) eqn:E2; [reflexivity|apply Z.ltb_ge in E2]. lia.
Qed.
Print Assumptions C03_inner_exact.

Theorem C03_indent_positions : forall r k q, 0 <= k ->
  inside q (indent_x r k) <-> inside q r /\ rx r + k <= px q.
Proof. intros. unfold inside, indent_x; cbn. lia. Qed.
Print Assumptions C03_indent_positions.

Example C03_example : sized (Rect 2 3 10 6) /\ nonneg_padding (Padding 1 2 3 4) /\
  inner (Rect 2 3 10 6) (Padding 1 2 3 4) = Rect 6 4 4 2 /\ inner (Rect 2 3 5 6) (Padding 1 2 3 4) = Rect 0 0 0 0.
Proof. unfold sized, nonneg_padding; cbn. repeat split; lia. Qed.

(** C04: each builder sets its own side only. *)
Theorem C04_padding_builders_partial : forall p s,
  pad_with_top p s = Padding s (pright p) (pbottom p) (pleft p) /\
  pad_with_right p s = Padding (ptop p) s (pbottom p) (pleft p) /\
  pad_with_bottom p s = Padding (ptop p) (pright p) s (pleft p).
Proof. intros; repeat split; reflexivity. Qed.
Print Assumptions C04_padding_builders_partial.

(** WithLeft does not set the left side, and overwrites the bottom side. *)
Theorem C04_with_left_refuted :
  ~ (forall p s, pad_with_left p s = Padding (ptop p) (pright p) (pbottom p) s) /\
  (forall p s, pleft (pad_with_left p s) = pleft p /\ pbottom (pad_with_left p s) = s).
Proof.
  split; [|intros; split; reflexivity].
  intros H. specialize (H (Padding 0 0 0 0) 1). discriminate.
Qed.
Print Assumptions C04_with_left_refuted.

Theorem C04_new_padding : forall a b c d,
  new_padding [] = Ret (Padding 0 0 0 0) /\
  new_padding [a] = Ret (Padding a a a a) /\
  new_padding [a; b] = Ret (Padding a b a b) /\
  new_padding [a; b; c; d] = Ret (Padding a b c d) /\
  (forall sides, new_padding sides = Panic <-> (length sides = 3 \/ length sides > 4)%nat).
Proof.
  intros; repeat split; try reflexivity.
  - destruct sides as [|? [|? [|? [|? [|? ?]]]]]; cbn; intros H; try discriminate; lia.
  - destruct sides as [|? [|? [|? [|? [|? ?]]]]]; cbn; intros H; try reflexivity; lia.
Qed.
Print Assumptions C04_new_padding.
