(** C105: the grid of examples/throbber, with comparisons exact. *)
From Verif Require Import Base P_Base M_Geom M_Style M_Uniseg M_Buffer M_Text M_Block M_Options M_Solver M_Layout M_Popup M_Throbber M_View M_ThrobberGrid.
From Verif Require Import S_Geom S_Solver S_Layout S_Place P_Layout T_Solver T_Layout T_Place T_Exact T_Apart T_Tile T_Popup T_View.
From Coq Require Import ZArith NArith QArith Qabs List Bool Lia Lqa Setoid.
Import ListNotations.
Open Scope Z_scope.
#[local] Existing Instance no_tolerance.

(** ** A layout of equal shares *)
Definition equal (d : direction) (k : nat) : layout := Layout d (repeat (LFill 1) k) (Padding 0 0 0 0) FlexLegacy (SpSpace 0).
Lemma equal_names d k : names_for (equal d k) = (2 * k + 2 + 2 * (2 + (4 * k + 4) + k) + (2 * (k - 1) + 4) + 2 * k + k * (k - 1) + 0)%nat.
Proof.
  unfold names_for, equal. cbn [l_constraints l_flex gap_names]. rewrite repeat_length. f_equal. f_equal; [f_equal|].
  - induction k as [|k IH]; [reflexivity|]. cbn [repeat fold_right size_names]. rewrite IH. lia.
  - assert (H : length (filter (stretches FlexLegacy) (repeat (LFill 1) k)) = k) by (induction k as [|k IH]; [reflexivity|]; cbn [repeat filter stretches length]; now rewrite IH). now rewrite H.
Qed.
Lemma equal_few d k : (k <= 9)%nat -> few_names (equal d k).
Proof. intros H. unfold few_names. rewrite equal_names. do 10 (destruct k as [|k]; [cbn; lia|]). lia. Qed.
Lemma equal_demands d k total : map (demand_of FlexLegacy total) (l_constraints (equal d k)) = repeat (Grow 1 0) k.
Proof. cbn. induction k as [|k IH]; [reflexivity|]. cbn [repeat map demand_of]. now rewrite IH. Qed.
Lemma sum_repeat (f : demand -> Q) x k : (sum_of f (repeat x k) == inject_Z (Z.of_nat k) * f x)%Q.
Proof. induction k as [|k IH]; [cbn; unfold inject_Z; lra|]. cbn [repeat sum_of]. rewrite IH, Nat2Z.inj_succ. unfold Z.succ. rewrite inject_Z_plus. change (inject_Z 1) with 1%Q. lra. Qed.
Lemma firstn_repeat {A} (x : A) i k : (i <= k)%nat -> firstn i (repeat x k) = repeat x i.
Proof. revert k; induction i as [|i IH]; intros [|k] H; try reflexivity; [lia|]. cbn. now rewrite IH by lia. Qed.
Section Equal.
Variables (total : Z) (k : nat).
Hypotheses (Tot : 0 <= total) (K : (1 <= k)%nat).
Let ds := repeat (Grow 1 0) k.
Local Open Scope Q_scope.
Let n : Q := inject_Z (Z.of_nat k).
Lemma n_pos : 1 <= n. Proof. unfold n. change 1 with (inject_Z 1). rewrite <- Zle_Qle. lia. Qed.
Lemma equal_share : share total 0 ds (Grow 1 0) == inject_Z total / n.
Proof.
  unfold share, room. unfold ds. rewrite !sum_repeat. cbn [fixed_size weight]. fold n. change (inject_Z 0) with 0. change (inject_Z 1) with 1. pose proof n_pos. field. lra.
Qed.
Lemma someone : someone_grows ds = true. Proof. unfold ds, someone_grows. destruct k; [lia|reflexivity]. Qed.
Lemma equal_offset i : (i <= k)%nat -> offset FlexLegacy total 0 ds i == inject_Z (Z.of_nat i) * (inject_Z total / n).
Proof.
  intros H. unfold offset, before, gap. rewrite someone. unfold ds at 2. rewrite firstn_repeat by exact H. rewrite sum_repeat. fold ds. rewrite equal_share. change (inject_Z 0) with 0. lra.
Qed.
Lemma share_pos : 0 <= inject_Z total / n.
Proof. pose proof n_pos. apply Qle_shift_div_l; [lra|]. assert (0 <= inject_Z total) by (change 0 with (inject_Z 0); rewrite <- Zle_Qle; exact Tot). lra. Qed.
Lemma equal_fits : fits FlexLegacy total 0 ds.
Proof.
  pose proof n_pos as Np. pose proof share_pos as Sp. split.
  - unfold ds. destruct k; [lia|discriminate].
  - intros w m I. apply repeat_spec in I. injection I as -> ->. split; [lia|]. rewrite equal_share. exact Sp.
  - intros d I. apply repeat_spec in I. subst d. now rewrite equal_share.
  - intros i d I. assert (Li : (i < k)%nat) by (unfold ds in I; rewrite <- (repeat_length (Grow 1 0) k); apply nth_error_Some; congruence). apply nth_error_In, repeat_spec in I. subst d. rewrite equal_offset, equal_share by lia.
    assert (E : inject_Z (Z.of_nat i) * (inject_Z total / n) + inject_Z total / n == inject_Z (Z.of_nat (S i)) * (inject_Z total / n)) by (rewrite Nat2Z.inj_succ; unfold Z.succ; rewrite inject_Z_plus; change (inject_Z 1) with 1; lra).
    assert (T : n * (inject_Z total / n) == inject_Z total) by (field; lra). rewrite E. clear E. set (q := inject_Z total / n) in *. clearbody q. split.
    + apply Qmult_le_0_compat; [|exact Sp]. change 0 with (inject_Z 0). rewrite <- Zle_Qle. lia.
    + apply Qle_trans with (n * q); [|rewrite T; apply Qle_refl]. apply Qmult_le_compat_r; [|exact Sp]. unfold n. rewrite <- Zle_Qle. lia.
  - rewrite someone. discriminate.
Qed.
End Equal.

(** The part i of k equal parts of [total] cells that begin at [from] starts at this place, between two cells perhaps. *)
Definition part_start (from total : Z) (k i : nat) : Q := (inject_Z from + inject_Z (Z.of_nat i) * (inject_Z total / inject_Z (Z.of_nat k)))%Q.
Lemma equal_split r d k area segs sps : any_run r (equal d k) -> (1 <= k <= 9)%nat -> sized area -> M_Layout.split (run_order r) (run_fuel r) (run_vars r) (equal d k) area = Splits segs sps ->
  length segs = k /\ (forall seg, In seg segs -> piece d area seg) /\
  (forall i seg, nth_error segs i = Some seg -> stands_for (low d seg) (part_start (low d area) (high d area - low d area) k i) /\ stands_for (high d seg) (part_start (low d area) (high d area - low d area) k (S i))) /\
  (forall i j seg seg' p, i <> j -> nth_error segs i = Some seg -> nth_error segs j = Some seg' -> inside p seg -> inside p seg' -> False) /\
  (forall p, inside p area -> exists i seg, nth_error segs i = Some seg /\ inside p seg).
Proof.
  intros [Oo V] K Sz E. pose proof (equal_few d k ltac:(lia)) as Fn.
  pose proof (C34_few_partial _ _ _ _ _ _ _ Oo V Fn E) as P. cbv zeta in P. cbn [equal l_padding l_direction] in P. rewrite (inner_none area Sz) in P. destruct P as (Ls & _ & Pc & _). unfold equal in Ls. cbn [l_constraints] in Ls. rewrite repeat_length in Ls.
  pose proof (C60_few_partial _ _ _ _ _ _ _ Oo V Fn E) as Q. cbv zeta in Q. change (l_padding (equal d k)) with (Padding 0 0 0 0) in Q. rewrite (inner_none area Sz) in Q. change (l_direction (equal d k)) with d in Q. change (l_flex (equal d k)) with FlexLegacy in Q. change (cells_between (equal d k)) with 0 in Q.
  rewrite equal_demands in Q. set (total := high d area - low d area) in *. assert (Tot : 0 <= total) by (unfold total; destruct Sz; destruct d; cbn [low high]; lia). specialize (Q (equal_fits total k Tot ltac:(lia))). destruct Q as [_ Q].
  split; [exact Ls|]. split; [exact Pc|]. split; [|split].
  - intros i seg I. assert (Li : (i < k)%nat) by (rewrite <- Ls; apply nth_error_Some; congruence). assert (Id : nth_error (repeat (Grow 1 0) k) i = Some (Grow 1 0)) by (rewrite (nth_error_nth' _ (Grow 1 0)) by (rewrite repeat_length; exact Li); now rewrite nth_repeat).
    destruct (Q i seg _ I Id) as [A B]. split; [refine (stands_eq _ _ _ _ A)|refine (stands_eq _ _ _ _ B)]; unfold part_start; rewrite (equal_offset total k ltac:(lia) i ltac:(lia)).
    + lra.
    + rewrite (equal_share total k ltac:(lia)). rewrite Nat2Z.inj_succ. unfold Z.succ. rewrite inject_Z_plus. change (inject_Z 1) with 1%Q. lra.
  - intros i j seg seg' p. apply (C64_few_partial _ _ _ _ _ _ _ Oo V Fn E). cbn. lia.
  - intros p I. destruct (C68_few_partial _ _ _ _ _ _ _ Oo V Fn E eq_refl eq_refl) with (p := p) as (i & seg & A & B & _).
    + unfold equal. cbn [l_constraints]. destruct k; [lia|discriminate].
    + change (l_padding (equal d k)) with (Padding 0 0 0 0). now rewrite (inner_none area Sz).
    + now exists i, seg.
Qed.
(** A third of a number of cells, rounded to the nearest: thirds have no ties. *)
Definition third (from total : Z) (i : nat) : Z := from + (Z.of_nat i * total + 1) / 3.
Lemma third_is z from total i : stands_for z (part_start from total 3 i) -> z = third from total i.
Proof.
  unfold stands_for, part_start, third. change (inject_Z (Z.of_nat 3)) with 3%Q. intros H. apply Qabs_Qle_condition in H. destruct H as [H1 H2].
  assert (E : (inject_Z (Z.of_nat i) * (inject_Z total / 3) == inject_Z (Z.of_nat i * total) / 3)%Q) by (rewrite inject_Z_mult; field). rewrite E in H1, H2. clear E. set (t := Z.of_nat i * total) in *. clearbody t.
  assert (E : (inject_Z t / 3 == (1 # 3) * inject_Z t)%Q) by field. rewrite E in H1, H2. clear E.
  assert (A : (inject_Z (3 * (z - from) - t) < inject_Z 2)%Q). { unfold Z.sub. rewrite inject_Z_plus, inject_Z_mult, inject_Z_plus, !inject_Z_opp. change (inject_Z 3) with 3%Q. change (inject_Z 2) with 2%Q. lra. }
  assert (B : (inject_Z (-2) < inject_Z (3 * (z - from) - t))%Q). { unfold Z.sub. rewrite inject_Z_plus, inject_Z_mult, inject_Z_plus, !inject_Z_opp. change (inject_Z 3) with 3%Q. change (inject_Z (-2)) with (-(2))%Q. lra. }
  rewrite <- Zlt_Qlt in A, B. rewrite <- (Z.div_unique (t + 1) 3 (z - from) (t + 1 - 3 * (z - from))); lia.
Qed.
Lemma third_zero from total : third from total 0 = from. Proof. unfold third. cbn. lia. Qed.
Lemma third_all from total : third from total 3 = from + total. Proof. unfold third. change (Z.of_nat 3) with 3. rewrite <- (Z.div_unique (3 * total + 1) 3 total 1); lia. Qed.
Lemma third_mono from total i j : 0 <= total -> (i <= j)%nat -> third from total i <= third from total j.
Proof. intros T H. unfold third. apply Zplus_le_compat_l, Z.div_le_mono; [lia|]. nia. Qed.

(** ** The grid *)
(** The cell of a row: its third of the columns, all of its lines. *)
Definition box_of (row : rect) (j : nat) : rect := Rect (third (rx row) (rw row) j) (ry row) (third (rx row) (rw row) (S j) - third (rx row) (rw row) j) (rh row).
Lemma columns_split r row segs sps : any_run r columns_layout -> sized row -> M_Layout.split (run_order r) (run_fuel r) (run_vars r) columns_layout row = Splits segs sps -> segs = [box_of row 0; box_of row 1; box_of row 2].
Proof.
  intros R Sz E. destruct (equal_split r DirHorizontal 3 row segs sps R ltac:(lia) Sz E) as (L & Pc & St & _). cbn [low high] in St. replace (rx row + rw row - rx row) with (rw row) in St by lia.
  assert (B : forall j seg, nth_error segs j = Some seg -> seg = box_of row j).
  { intros j seg I. destruct (St j seg I) as [A B]. apply third_is in A, B. destruct (Pc seg (nth_error_In _ _ I)) as (_ & _ & _ & C). cbn [across] in C. injection C as C1 C2. destruct seg as [x y w h]. cbn in A, B, C1, C2. unfold box_of. f_equal; lia. }
  destruct segs as [|a [|b [|c [|]]]]; try discriminate. now rewrite (B 0%nat a eq_refl), (B 1%nat b eq_refl), (B 2%nat c eq_refl).
Qed.
Lemma rows_areas_is rs : (forall i, any_run (rs i) columns_layout) -> forall rows i o, (forall row, In row rows -> sized row) -> rows_areas rs i rows = Some o -> o = Ret (flat_map (fun row => [box_of row 0; box_of row 1; box_of row 2]) rows).
Proof.
  intros R. induction rows as [|row rows IH]; intros i o Sz E; cbn [rows_areas flat_map] in *; [now injection E as <-|].
  destruct (M_Layout.split (run_order (rs i)) (run_fuel (rs i)) (run_vars (rs i)) columns_layout row) as [segs sps| |] eqn:Es; [|exfalso|discriminate].
  - apply columns_split in Es; [|apply R|apply Sz; now left]. subst segs. destruct (rows_areas rs (S i) rows) as [o'|] eqn:Er; [|discriminate]. apply IH in Er; [|intros x I; apply Sz; now right]. subst o'. now injection E as <-.
  - destruct (R i) as [Oo V]. exact (C35_few_partial _ _ _ _ _ Oo V (equal_few DirHorizontal 3 ltac:(lia)) Es).
Qed.
Lemma boxes_nth rows k j : (j < 3)%nat -> nth_error (flat_map (fun row => [box_of row 0; box_of row 1; box_of row 2]) rows) (3 * k + j) = option_map (fun row => box_of row j) (nth_error rows k).
Proof.
  intros J. revert k. induction rows as [|row rows IH]; intros k.
  - cbn [flat_map]. now destruct (3 * k + j)%nat, k.
  - destruct k as [|k]; [destruct j as [|[|[|]]]; [reflexivity..|lia]|]. replace (3 * S k + j)%nat with (S (S (S (3 * k + j)))) by lia. cbn [flat_map app nth_error option_map]. apply IH.
Qed.
Lemma boxes_length rows : length (flat_map (fun row => [box_of row 0; box_of row 1; box_of row 2]) rows) = (3 * length rows)%nat.
Proof. induction rows as [|row rows IH]; [reflexivity|]. cbn [flat_map app length]. rewrite IH. lia. Qed.
Lemma box_inside row j p : (j < 3)%nat -> sized row -> inside p (box_of row j) -> inside p row /\ third (rx row) (rw row) j <= px p < third (rx row) (rw row) (S j).
Proof.
  intros J [Sw Sh] I. unfold inside, box_of in *. cbn [rx ry rw rh] in I. pose proof (third_mono (rx row) (rw row) 0 j Sw ltac:(lia)) as A. pose proof (third_mono (rx row) (rw row) (S j) 3 Sw ltac:(lia)) as B. rewrite third_zero in A. rewrite third_all in B. lia.
Qed.
(** Any run of the solver for the rows, and any run for the columns of each row. *)
Definition grid_runs (items : Z) (r : run) (rs : nat -> run) : Prop := any_run r (rows_layout items) /\ forall i, any_run (rs i) columns_layout.
Lemma rows_enough items : 0 < items -> 1 <= grid_rows items /\ items <= 3 * grid_rows items.
Proof. intros H. unfold grid_rows, grid_columns. rewrite Z.quot_div_nonneg, Z.rem_mod_nonneg by lia. pose proof (Z.div_mod items 3 ltac:(lia)). pose proof (Z.mod_pos_bound items 3 ltac:(lia)). lia. Qed.
(** ** C105: the grid has a box for every item, no cell of the screen is in two of them and every cell is in one. Item [3 i + j] is in row i and column j. *)
Theorem C105_grid_partial r rs area items o : 0 < items -> grid_rows items <= 9 -> sized area -> grid_runs items r rs -> get_grid r rs area items = Some o ->
  exists g, o = Ret g /\ zlen g = 3 * grid_rows items /\ items <= zlen g /\
  (forall a, In a g -> sized a /\ subrect a area) /\
  (forall i j a b p, i <> j -> nth_error g i = Some a -> nth_error g j = Some b -> inside p a -> inside p b -> False) /\
  (forall p, inside p area -> exists i a, nth_error g i = Some a /\ inside p a) /\
  (forall i j a, (j < 3)%nat -> nth_error g (3 * i + j) = Some a ->
    rx a = third (rx area) (rw area) j /\ rx a + rw a = third (rx area) (rw area) (S j) /\
    stands_for (ry a) (part_start (ry area) (rh area) (Z.to_nat (grid_rows items)) i) /\ stands_for (ry a + rh a) (part_start (ry area) (rh area) (Z.to_nat (grid_rows items)) (S i))).
Proof.
  intros Hi H9 Sz [R Rs] E. destruct (rows_enough items Hi) as [G1 G2]. set (k := Z.to_nat (grid_rows items)) in *. assert (K : (1 <= k <= 9)%nat) by lia. change (rows_layout items) with (equal DirVertical k) in R. unfold get_grid in E. change (rows_layout items) with (equal DirVertical k) in E.
  destruct (M_Layout.split (run_order r) (run_fuel r) (run_vars r) (equal DirVertical k) area) as [rows sps| |] eqn:Es; [|exfalso|discriminate].
  2: { destruct R as [Oo V]. exact (C35_few_partial _ _ _ _ _ Oo V (equal_few DirVertical k ltac:(lia)) Es). }
  destruct (equal_split r DirVertical k area rows sps R K Sz Es) as (L & Pc & St & Dj & Cv). cbn [low high] in St. replace (ry area + rh area - ry area) with (rh area) in St by lia.
  assert (Rp : forall row, In row rows -> sized row /\ rx row = rx area /\ rw row = rw area /\ ry area <= ry row /\ ry row + rh row <= ry area + rh area).
  { intros row I. destruct (Pc row I) as (A & B & C & D). cbn [low high across] in *. injection D as D1 D2. destruct Sz. unfold sized. rewrite D2. lia. }
  apply rows_areas_is in E; [|exact Rs|intros row I; apply (Rp row I)]. subst o. set (g := flat_map _ rows).
  assert (Nth : forall i a, nth_error g i = Some a -> exists k0 j row, (j < 3)%nat /\ i = (3 * k0 + j)%nat /\ nth_error rows k0 = Some row /\ a = box_of row j).
  { intros i a I. pose proof (Nat.div_mod i 3 ltac:(lia)) as D. pose proof (Nat.mod_upper_bound i 3 ltac:(lia)) as M. exists (i / 3)%nat, (i mod 3)%nat. rewrite D in I. unfold g in I. rewrite boxes_nth in I by exact M. destruct (nth_error rows (i / 3)) as [row|] eqn:Q; [|discriminate]. injection I as <-. exists row. auto. }
  assert (Len : zlen g = 3 * grid_rows items) by (unfold zlen, g; rewrite boxes_length, L; unfold k; lia).
  exists g. split; [reflexivity|]. split; [exact Len|]. split; [lia|]. split; [|split; [|split]].
  - intros a I. apply In_nth_error in I. destruct I as [i I]. destruct (Nth i a I) as (k0 & j & row & J & _ & Q & ->). destruct (Rp row (nth_error_In _ _ Q)) as (Sr & X & W & Y & Hh). split.
    + destruct Sr as [Sw Sh]. split; cbn [box_of rw rh]; [|exact Sh]. pose proof (third_mono (rx row) (rw row) j (S j) Sw ltac:(lia)). lia.
    + intros p P. destruct (box_inside row j p J Sr P) as [I' _]. unfold inside in *. lia.
  - intros i i' a b p Ne I I' Pa Pb. destruct (Nth i a I) as (k0 & j & row & J & -> & Q & ->). destruct (Nth i' b I') as (k1 & j' & row' & J' & -> & Q' & ->).
    destruct (Rp row (nth_error_In _ _ Q)) as (Sr & _). destruct (Rp row' (nth_error_In _ _ Q')) as (Sr' & _). destruct (box_inside row j p J Sr Pa) as [Ia Xa]. destruct (box_inside row' j' p J' Sr' Pb) as [Ib Xb].
    destruct (Nat.eq_dec k0 k1) as [<-|Nk]; [|exact (Dj k0 k1 row row' p Nk Q Q' Ia Ib)]. assert (row' = row) by congruence. subst row'. destruct Sr as [Sw _]. assert (Nj : j <> j') by congruence.
    destruct (Nat.lt_total j j') as [Lt|[Eq|Lt]]; [|contradiction|]; [pose proof (third_mono (rx row) (rw row) (S j) j' Sw Lt)|pose proof (third_mono (rx row) (rw row) (S j') j Sw Lt)]; lia.
  - intros p P. destruct (Cv p P) as (k0 & row & Q & I). destruct (Rp row (nth_error_In _ _ Q)) as (Sr & X & W & _). pose proof (third_zero (rx row) (rw row)) as T0. pose proof (third_all (rx row) (rw row)) as T3.
    assert (Jx : exists j, (j < 3)%nat /\ third (rx row) (rw row) j <= px p < third (rx row) (rw row) (S j)).
    { unfold inside in I. destruct (Z.lt_ge_cases (px p) (third (rx row) (rw row) 1)); [exists 0%nat; split; [|rewrite T0]; lia|]. destruct (Z.lt_ge_cases (px p) (third (rx row) (rw row) 2)); [exists 1%nat; lia|]. exists 2%nat. rewrite T3. lia. }
    destruct Jx as (j & J & Jx). exists (3 * k0 + j)%nat, (box_of row j). split; [unfold g; rewrite boxes_nth by exact J; now rewrite Q|]. unfold inside, box_of in *. cbn [rx ry rw rh]. lia.
  - intros i j a J I. unfold g in I. rewrite boxes_nth in I by exact J. destruct (nth_error rows i) as [row|] eqn:Q; [|discriminate]. injection I as <-. destruct (Rp row (nth_error_In _ _ Q)) as (_ & X & W & _). destruct (St i row Q) as [A B]. cbn [box_of rx ry rw rh]. rewrite X, W. split; [reflexivity|]. split; [lia|]. split; assumption.
Qed.
(** The program shows nine throbbers: three rows of three. *)
Theorem C105_nine_partial r rs area o : sized area -> grid_runs (zlen shown_types) r rs -> get_grid r rs area (zlen shown_types) = Some o ->
  o = Ret (flat_map (fun i => map (fun j => Rect (third (rx area) (rw area) j) (third (ry area) (rh area) i) (third (rx area) (rw area) (S j) - third (rx area) (rw area) j) (third (ry area) (rh area) (S i) - third (ry area) (rh area) i)) [0; 1; 2]%nat) [0; 1; 2]%nat).
Proof.
  intros Sz R E. destruct (C105_grid_partial r rs area (zlen shown_types) o ltac:(reflexivity) ltac:(vm_compute; discriminate) Sz R E) as (g & -> & L & _ & _ & _ & _ & P). f_equal. change (3 * grid_rows (zlen shown_types)) with 9 in L. change (Z.to_nat (grid_rows (zlen shown_types))) with 3%nat in P.
  assert (B : forall i j a, (j < 3)%nat -> nth_error g (3 * i + j) = Some a -> a = Rect (third (rx area) (rw area) j) (third (ry area) (rh area) i) (third (rx area) (rw area) (S j) - third (rx area) (rw area) j) (third (ry area) (rh area) (S i) - third (ry area) (rh area) i)).
  { intros i j a J I. destruct (P i j a J I) as (A & A' & S1 & S2). apply third_is in S1, S2. destruct a as [x y w h]. cbn [rx ry rw rh] in *. f_equal; lia. }
  unfold zlen in L. destruct g as [|a0 g]; [exfalso; cbn in L; lia|]. destruct g as [|a1 g]; [exfalso; cbn in L; lia|]. destruct g as [|a2 g]; [exfalso; cbn in L; lia|]. destruct g as [|a3 g]; [exfalso; cbn in L; lia|]. destruct g as [|a4 g]; [exfalso; cbn in L; lia|]. destruct g as [|a5 g]; [exfalso; cbn in L; lia|]. destruct g as [|a6 g]; [exfalso; cbn in L; lia|]. destruct g as [|a7 g]; [exfalso; cbn in L; lia|]. destruct g as [|a8 g]; [exfalso; cbn in L; lia|]. destruct g as [|? g]; [|exfalso; cbn [length] in L; lia]. cbn [flat_map map app].
  rewrite (B 0%nat 0%nat a0 ltac:(lia) eq_refl), (B 0%nat 1%nat a1 ltac:(lia) eq_refl), (B 0%nat 2%nat a2 ltac:(lia) eq_refl), (B 1%nat 0%nat a3 ltac:(lia) eq_refl), (B 1%nat 1%nat a4 ltac:(lia) eq_refl), (B 1%nat 2%nat a5 ltac:(lia) eq_refl), (B 2%nat 0%nat a6 ltac:(lia) eq_refl), (B 2%nat 1%nat a7 ltac:(lia) eq_refl), (B 2%nat 2%nat a8 ltac:(lia) eq_refl). reflexivity.
Qed.
Print Assumptions C105_grid_partial.
Print Assumptions C105_nine_partial.
