(** C106: examples/lazygitlike on a high screen, and its two columns: rows and columns that share the room, with arithmetic and comparisons exact. *)
From Verif Require Import Base P_Base M_Geom M_Solver M_Layout M_Popup S_Solver S_Layout S_Place S_Geom T_Solver T_Layout T_Place T_Exact T_Apart T_Popup T_View T_ThrobberGrid T_ThrobberBoxes M_ExampleGit.
From Coq Require Import ZArith NArith QArith Qabs List Bool Lia Lqa.
Import ListNotations.
Open Scope Z_scope.
#[local] Existing Instance no_tolerance.

Lemma int_minus a b : (inject_Z (a - b) == inject_Z a - inject_Z b)%Q.
Proof. unfold Z.sub. rewrite inject_Z_plus, inject_Z_opp. lra. Qed.
Lemma third_near z from total i q : stands_for z q -> (q == inject_Z from + inject_Z (Z.of_nat i) * inject_Z total / 3)%Q -> z = from + (Z.of_nat i * total + 1) / 3.
Proof.
  intros H E. apply third_is. unfold stands_for, part_start in *. change (inject_Z (Z.of_nat 3)) with 3%Q. rewrite E in H. assert (K : (inject_Z (Z.of_nat i) * (inject_Z total / 3) == inject_Z (Z.of_nat i) * inject_Z total / 3)%Q) by field. rewrite K. exact H.
Qed.

(** More than 30 rows: Status and Stash have three rows; Files, Branches and Commits a third each of the rest, each border at the row next to where it belongs. *)
Theorem C106_high_partial r height p area segs sps : any_run r (sidebar_layout height p) -> 30 < height -> sized area -> 6 <= rh area ->
  M_Layout.split (run_order r) (run_fuel r) (run_vars r) (sidebar_layout height p) area = Splits segs sps ->
  let border i := ry area + 3 + (i * (rh area - 6) + 1) / 3 in
  segs = [Rect (rx area) (ry area) (rw area) 3; Rect (rx area) (ry area + 3) (rw area) (border 1 - (ry area + 3)); Rect (rx area) (border 1) (rw area) (border 2 - border 1);
          Rect (rx area) (border 2) (rw area) (ry area + rh area - 3 - border 2); Rect (rx area) (ry area + rh area - 3) (rw area) 3].
Proof.
  intros [Oo V] Hh Sz Hr E border.
  assert (El : sidebar_layout height p = new_layout [LLen 3; LFill 1; LFill 1; LFill 1; LLen 3]).
  { unfold sidebar_layout, status_constraint, list_constraint, stash_constraint, HeightMedium. destruct (Z.ltb_spec 30 height); [reflexivity|lia]. }
  rewrite El in *. set (l := new_layout [LLen 3; LFill 1; LFill 1; LFill 1; LLen 3]) in *. assert (Fn : few_names l) by (unfold few_names; vm_compute; lia).
  pose proof (C34_few_partial _ _ _ _ _ _ _ Oo V Fn E) as P. cbv zeta in P. change (l_padding l) with (Padding 0 0 0 0) in P. rewrite (inner_none area Sz) in P. destruct P as (Ls & _ & Pc & _). change (length (l_constraints l)) with 5%nat in Ls. change (l_direction l) with DirVertical in Pc.
  pose proof (C60_few_partial _ _ _ _ _ _ _ Oo V Fn E) as Q. cbv zeta in Q. change (l_padding l) with (Padding 0 0 0 0) in Q. rewrite (inner_none area Sz) in Q. change (l_direction l) with DirVertical in Q. change (l_flex l) with FlexLegacy in Q. change (cells_between l) with 0 in Q. cbn [low high] in Q.
  replace (ry area + rh area - ry area) with (rh area) in Q by lia. change (map (demand_of FlexLegacy (rh area)) (l_constraints l)) with [Exactly 3; Grow 1 0; Grow 1 0; Grow 1 0; Exactly 3] in Q. set (ds := [Exactly 3; Grow 1 0; Grow 1 0; Grow 1 0; Exactly 3]) in Q.
  assert (Hq : (6 <= inject_Z (rh area))%Q) by (change 6%Q with (inject_Z 6); rewrite <- Zle_Qle; exact Hr). set (H := inject_Z (rh area)) in *.
  assert (Rm : (room (rh area) 0 ds == H - 6)%Q) by (unfold room, ds; cbn [sum_of fixed_size length]; change (inject_Z 0) with 0%Q; fold H; lra).
  assert (TE : exists T, (T == (H - 6) / 3)%Q /\ (3 * T == H - 6)%Q) by (exists ((H - 6) / 3)%Q; split; [reflexivity|field]). destruct TE as (T & TE & TK).
  assert (Sm : (share (rh area) 0 ds (Grow 1 0) == T)%Q) by (rewrite TE; unfold share; rewrite Rm; unfold ds; cbn [sum_of weight]; change (inject_Z 1) with 1%Q; field).
  assert (S3 : (share (rh area) 0 ds (Exactly 3) == 3)%Q) by reflexivity.
  assert (Of : (offset FlexLegacy (rh area) 0 ds 0 == 0 /\ offset FlexLegacy (rh area) 0 ds 1 == 3 /\ offset FlexLegacy (rh area) 0 ds 2 == 3 + T /\ offset FlexLegacy (rh area) 0 ds 3 == 3 + 2 * T /\ offset FlexLegacy (rh area) 0 ds 4 == H - 3)%Q).
  { unfold offset, before, gap. change (someone_grows ds) with true. cbv iota. change (inject_Z 0) with 0%Q. change (firstn 0 ds) with (@nil demand). change (firstn 1 ds) with [Exactly 3]. change (firstn 2 ds) with [Exactly 3; Grow 1 0]. change (firstn 3 ds) with [Exactly 3; Grow 1 0; Grow 1 0]. change (firstn 4 ds) with [Exactly 3; Grow 1 0; Grow 1 0; Grow 1 0].
    cbn [sum_of]. rewrite Sm, S3. split; [lra|]. split; [lra|]. split; [lra|]. split; lra. }
  destruct Of as (O0 & O1 & O2 & O3 & O4). destruct Q as [_ Q].
  { split.
    - discriminate.
    - intros w m I. assert (w = 1 /\ m = 0) as [-> ->] by (unfold ds in I; cbn in I; destruct I as [I|[I|[I|[I|[I|[]]]]]]; try discriminate; injection I as <- <-; auto). split; [lia|]. rewrite Sm. change (inject_Z 0) with 0%Q. lra.
    - intros d I. unfold ds in I. cbn in I. destruct I as [<-|[<-|[<-|[<-|[<-|[]]]]]]; rewrite ?Sm, ?S3; lra.
    - intros [|[|[|[|[|k]]]]] d I; cbn in I; try (injection I as <-); [rewrite O0, S3|rewrite O1, Sm|rewrite O2, Sm|rewrite O3, Sm|rewrite O4, S3|destruct k; discriminate]; fold H; lra.
    - discriminate. }
  destruct segs as [|s0 [|s1 [|s2 [|s3 [|s4 [|]]]]]]; try discriminate.
  assert (G : forall s lo hi, In s [s0; s1; s2; s3; s4] -> ry s = lo -> ry s + rh s = hi -> s = Rect (rx area) lo (rw area) (hi - lo)).
  { intros s lo hi I A B. destruct (Pc s I) as (_ & _ & _ & C). cbn [across] in C. injection C as C1 C2. destruct s as [x y w h]. cbn in *. f_equal; lia. }
  destruct (Q 0%nat s0 _ eq_refl eq_refl) as [A0 B0]. destruct (Q 1%nat s1 _ eq_refl eq_refl) as [A1 B1]. destruct (Q 2%nat s2 _ eq_refl eq_refl) as [A2 B2]. destruct (Q 3%nat s3 _ eq_refl eq_refl) as [A3 B3]. destruct (Q 4%nat s4 _ eq_refl eq_refl) as [A4 B4].
  assert (T6 : (inject_Z (rh area - 6) == H - 6)%Q) by (rewrite int_minus; reflexivity).
  assert (N3 : (inject_Z (ry area + 3) == inject_Z (ry area) + 3)%Q) by (rewrite inject_Z_plus; reflexivity).
  assert (Ne : (inject_Z (ry area + rh area - 3) == inject_Z (ry area) + H - 3)%Q) by (rewrite int_minus, inject_Z_plus; reflexivity).
  apply (stands_int _ (ry area)) in A0; [|rewrite O0; lra]. apply (stands_int _ (ry area + 3)) in B0; [|rewrite O0, S3, N3; lra]. apply (stands_int _ (ry area + 3)) in A1; [|rewrite O1, N3; lra].
  apply (third_near _ (ry area + 3) (rh area - 6) 1) in B1; [|rewrite O1, Sm, N3, T6, ?TE; change (inject_Z (Z.of_nat 1)) with 1%Q; field]. apply (third_near _ (ry area + 3) (rh area - 6) 1) in A2; [|rewrite O2, N3, T6, ?TE; change (inject_Z (Z.of_nat 1)) with 1%Q; field].
  apply (third_near _ (ry area + 3) (rh area - 6) 2) in B2; [|rewrite O2, Sm, N3, T6, ?TE; change (inject_Z (Z.of_nat 2)) with 2%Q; field]. apply (third_near _ (ry area + 3) (rh area - 6) 2) in A3; [|rewrite O3, N3, T6, ?TE; change (inject_Z (Z.of_nat 2)) with 2%Q; field].
  apply (stands_int _ (ry area + rh area - 3)) in B3; [|rewrite O3, Sm, Ne; lra]. apply (stands_int _ (ry area + rh area - 3)) in A4; [|rewrite O4, Ne; lra]. apply (stands_int _ (ry area + rh area)) in B4; [|rewrite O4, S3, inject_Z_plus; fold H; lra].
  change (Z.of_nat 1) with 1 in *. change (Z.of_nat 2) with 2 in *. fold (border 1) in B1, A2. fold (border 2) in B2, A3.
  rewrite (G s0 _ _ ltac:(cbn; auto) A0 B0), (G s1 _ _ ltac:(cbn; auto) A1 B1), (G s2 _ _ ltac:(cbn; auto) A2 B2), (G s3 _ _ ltac:(cbn; auto 6) A3 B3), (G s4 _ _ ltac:(cbn; auto 7) A4 B4).
  replace (ry area + 3 - ry area) with 3 by lia. replace (ry area + rh area - (ry area + rh area - 3)) with 3 by lia. reflexivity.
Qed.
Print Assumptions C106_high_partial.

(** The sidebar has a third of the columns, rounded to the nearest, and the right side the rest. *)
Theorem C106_columns_partial r area segs sps : any_run r git_columns -> sized area ->
  M_Layout.split (run_order r) (run_fuel r) (run_vars r) git_columns area = Splits segs sps ->
  let side := (rw area + 1) / 3 in segs = [Rect (rx area) (ry area) side (rh area); Rect (rx area + side) (ry area) (rw area - side) (rh area)].
Proof.
  intros [Oo V] Sz E side. assert (Fn : few_names git_columns) by (unfold few_names; vm_compute; lia).
  pose proof (C34_few_partial _ _ _ _ _ _ _ Oo V Fn E) as P. cbv zeta in P. change (l_padding git_columns) with (Padding 0 0 0 0) in P. rewrite (inner_none area Sz) in P. destruct P as (Ls & _ & Pc & _). change (length (l_constraints git_columns)) with 2%nat in Ls. change (l_direction git_columns) with DirHorizontal in Pc.
  pose proof (C60_few_partial _ _ _ _ _ _ _ Oo V Fn E) as Q. cbv zeta in Q. change (l_padding git_columns) with (Padding 0 0 0 0) in Q. rewrite (inner_none area Sz) in Q. change (l_direction git_columns) with DirHorizontal in Q. change (l_flex git_columns) with FlexLegacy in Q. change (cells_between git_columns) with 0 in Q. cbn [low high] in Q.
  replace (rx area + rw area - rx area) with (rw area) in Q by lia. change (map (demand_of FlexLegacy (rw area)) (l_constraints git_columns)) with [Grow 1 0; Grow 2 0] in Q. set (ds := [Grow 1 0; Grow 2 0]) in Q.
  assert (Hq : (0 <= inject_Z (rw area))%Q) by (change 0%Q with (inject_Z 0); rewrite <- Zle_Qle; apply Sz). set (H := inject_Z (rw area)) in *.
  assert (Rm : (room (rw area) 0 ds == H)%Q) by (unfold room, ds; cbn [sum_of fixed_size length]; change (inject_Z 0) with 0%Q; fold H; lra).
  assert (TE : exists T, (T == H / 3)%Q /\ (3 * T == H)%Q) by (exists (H / 3)%Q; split; [reflexivity|field]). destruct TE as (T & TE & TK).
  assert (S1 : (share (rw area) 0 ds (Grow 1 0) == T)%Q) by (rewrite TE; unfold share; rewrite Rm; unfold ds; cbn [sum_of weight]; change (inject_Z 1) with 1%Q; change (inject_Z 2) with 2%Q; field).
  assert (S2 : (share (rw area) 0 ds (Grow 2 0) == 2 * T)%Q) by (rewrite TE; unfold share; rewrite Rm; unfold ds; cbn [sum_of weight]; change (inject_Z 1) with 1%Q; change (inject_Z 2) with 2%Q; field).
  assert (Of : (offset FlexLegacy (rw area) 0 ds 0 == 0 /\ offset FlexLegacy (rw area) 0 ds 1 == T)%Q).
  { unfold offset, before, gap. change (someone_grows ds) with true. cbv iota. change (inject_Z 0) with 0%Q. change (firstn 0 ds) with (@nil demand). change (firstn 1 ds) with [Grow 1 0]. cbn [sum_of]. rewrite S1. split; lra. }
  destruct Of as (O0 & O1). destruct Q as [_ Q].
  { split.
    - discriminate.
    - intros w m [I|[I|[]]]; injection I as <- <-; (split; [lia|]); rewrite ?S1, ?S2; change (inject_Z 0) with 0%Q; lra.
    - intros d [<-|[<-|[]]]; rewrite ?S1, ?S2; lra.
    - intros [|[|k]] d I; cbn in I; try (injection I as <-); [rewrite O0, S1|rewrite O1, S2|destruct k; discriminate]; fold H; lra.
    - discriminate. }
  destruct segs as [|s0 [|s1 [|]]]; try discriminate.
  assert (G : forall s lo hi, In s [s0; s1] -> rx s = lo -> rx s + rw s = hi -> s = Rect lo (ry area) (hi - lo) (rh area)).
  { intros s lo hi I A B. destruct (Pc s I) as (_ & _ & _ & C). cbn [across] in C. injection C as C1 C2. destruct s as [x y w h]. cbn in *. f_equal; lia. }
  destruct (Q 0%nat s0 _ eq_refl eq_refl) as [A0 B0]. destruct (Q 1%nat s1 _ eq_refl eq_refl) as [A1 B1].
  apply (stands_int _ (rx area)) in A0; [|rewrite O0; lra]. apply (third_near _ (rx area) (rw area) 1) in B0; [|rewrite O0, S1; change (inject_Z (Z.of_nat 1)) with 1%Q; fold H; rewrite ?TE; field]. apply (third_near _ (rx area) (rw area) 1) in A1; [|rewrite O1; change (inject_Z (Z.of_nat 1)) with 1%Q; fold H; rewrite ?TE; field].
  apply (stands_int _ (rx area + rw area)) in B1; [|rewrite O1, S2, inject_Z_plus; fold H; lra].
  change (Z.of_nat 1) with 1 in *. rewrite Z.mul_1_l in B0, A1. fold side in B0, A1. rewrite (G s0 _ _ ltac:(cbn; auto) A0 B0), (G s1 _ _ ltac:(cbn; auto) A1 B1).
  replace (rx area + side - rx area) with side by lia. replace (rx area + rw area - (rx area + side)) with (rw area - side) by lia. reflexivity.
Qed.
Print Assumptions C106_columns_partial.

(** *** Instances: 45 rows for the panels, and 80 columns. *)
Example C106_high_instance : any_run (some_run (sidebar_layout 46 1)) (sidebar_layout 46 1) /\ any_run (some_run git_columns) git_columns /\
  (exists sps, M_Layout.split (run_order (some_run (sidebar_layout 46 1))) (run_fuel (some_run (sidebar_layout 46 1))) (run_vars (some_run (sidebar_layout 46 1))) (sidebar_layout 46 1) (Rect 0 0 27 45) = Splits [Rect 0 0 27 3; Rect 0 3 27 13; Rect 0 16 27 13; Rect 0 29 27 13; Rect 0 42 27 3] sps) /\
  (exists sps, M_Layout.split (run_order (some_run git_columns)) (run_fuel (some_run git_columns)) (run_vars (some_run git_columns)) git_columns (Rect 0 0 80 45) = Splits [Rect 0 0 27 45; Rect 27 0 53 45] sps).
Proof.
  split; [apply some_run_any|]. split; [apply some_run_any|]. split; eexists; vm_compute; reflexivity.
Qed.
