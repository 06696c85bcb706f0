(** C56: tabs. *)
From Verif Require Import Base P_Base M_Geom S_Geom T_Geom M_Style M_Uniseg M_Buffer S_Buffer S_Text P_Buffer P_SetString T_Buffer M_Text P_Text T_Text P_Redraw P_Print S_Wide P_Wide M_Block P_Block T_Block M_List P_List T_List M_Tabs.
From Coq Require Import ZArith NArith List Bool Lia.
Import ListNotations.
Open Scope Z_scope.
Local Arguments zlen : simpl never.

(** What the row of tabs shows: for each title the left padding, the title (in the highlight style if selected) and the right
    padding, with the divider between consecutive titles. *)
Fixpoint tab_cells (u : uniseg) (t : tabs) (i : Z) (titles : list line) : list (cell -> cell) :=
  match titles with
  | [] => []
  | title :: rest =>
      let selected := match tb_selected t with Some k => k =? i | None => false end in
      line_cells u (tb_left t)
      ++ map (fun f c => if selected then cell_set_style (tb_hl_style t) (f c) else f c) (line_cells u title)
      ++ line_cells u (tb_right t)
      ++ match rest with [] => [] | _ => span_cells u (sp_style (tb_divider t)) (tb_divider t) ++ tab_cells u t (i + 1) rest end
  end.

Lemma tabs_loop_ok u t area : 0 <= rh area -> narrow_line u (tb_left t) -> narrow_line u (tb_right t) -> narrow_span u (tb_divider t) ->
  forall titles n i b x, wf_buffer b -> (forall l, In l titles -> narrow_line u l) -> n = i + zlen titles ->
  rright area <= rx (barea b) + rw (barea b) -> rx (barea b) <= x -> x <= rright area -> ry (barea b) <= rtop area < ry (barea b) + rh (barea b) ->
  exists b', tabs_loop u t area n i titles b x = Ret b' /\ redrawn (typed x (rtop area) (firstn (Z.to_nat (rright area - x)) (tab_cells u t i titles))) b b'.
Proof.
  intros Hh NL NR ND. induction titles as [|title rest IH]; intros n i b x W HT Hn Hr Hx0 Hx Hy; cbn [tabs_loop].
  - exists b. split; [reflexivity|]. cbn [tab_cells]. rewrite firstn_nil. eapply redrawn_ext; [|apply redrawn_refl; exact W]. intros. now rewrite typed_nil.
  - rewrite zlen_cons in Hn. pose proof (zlen_nonneg rest) as Hrest.
    set (R := rright area) in *. set (y := rtop area) in *.
    assert (Stop : forall b0 x0 fs, wf_buffer b0 -> R - x0 = 0 -> redrawn (typed x0 y (firstn (Z.to_nat (R - x0)) fs)) b0 b0).
    { intros b0 x0 fs W0 H0. rewrite H0. cbn [Z.to_nat firstn]. eapply redrawn_ext; [|apply redrawn_refl; exact W0]. intros. now rewrite typed_nil. }
    destruct (Z.eqb_spec (Z.max 0 (R - x)) 0) as [E0|N0]; [exists b; split; [reflexivity|]; apply Stop; [exact W|lia]|].
    rewrite Z.max_r by lia.
    destruct (line_print_narrow u y R (ln_style (tb_left t)) (ln_spans (tb_left t)) b x (R - x) W Hr Hx0 Hy ltac:(lia) ltac:(lia) NL) as (b1 & E1 & R1).
    unfold line_print at 1. rewrite E1. cbn [bind]. cbn [tab_cells]. fold (line_cells u (tb_left t)) in R1 |- *.
    set (f1 := firstn (Z.to_nat (R - x)) (line_cells u (tb_left t))) in *. pose proof (zlen_nonneg f1).
    assert (Hf1 : zlen f1 <= R - x) by (unfold f1, zlen; rewrite firstn_length; lia).
    assert (W1 : wf_buffer b1) by apply R1. assert (A1 : barea b1 = barea b) by apply R1.
    (* the rest, from column x + zlen f1 *)
    set (x1 := x + zlen f1) in *.
    set (sel := match tb_selected t with Some k => k =? i | None => false end).
    set (tail1 := map (fun f c => if sel then cell_set_style (tb_hl_style t) (f c) else f c) (line_cells u title) ++ line_cells u (tb_right t)
      ++ match rest with [] => [] | _ => span_cells u (sp_style (tb_divider t)) (tb_divider t) ++ tab_cells u t (i + 1) rest end).
    match goal with |- exists b', ?e = Ret b' /\ _ => cut (exists b', e = Ret b' /\ redrawn (typed x1 y (firstn (Z.to_nat (R - x1)) tail1)) b1 b') end.
    { intros (b' & E & R'). exists b'. split; [exact E|]. eapply redrawn_ext; [|exact (redrawn_trans _ _ _ _ _ R1 R')]. intros p c _. cbn beta.
      replace (R - x1) with (R - x - zlen f1) by (unfold x1; lia). apply typed_step. }
    destruct (Z.eqb_spec (Z.max 0 (R - x1)) 0) as [E0|N1]; [exists b1; split; [reflexivity|]; apply Stop; [exact W1|unfold x1 in *; lia]|].
    rewrite Z.max_r by lia. assert (HT1 : narrow_line u title) by (apply HT; now left).
    destruct (line_print_narrow u y R (ln_style title) (ln_spans title) b1 x1 (R - x1) W1) as (b2 & E2 & R2); try rewrite A1; try (unfold x1 in *; lia); [exact HT1|].
    unfold line_print at 1. rewrite E2. cbn [bind]. fold (line_cells u title) in R2 |- *.
    set (f2 := firstn (Z.to_nat (R - x1)) (line_cells u title)) in *. pose proof (zlen_nonneg f2).
    assert (Hf2 : zlen f2 <= R - x1) by (unfold f2, zlen; rewrite firstn_length; lia).
    set (x2 := x1 + zlen f2) in *. set (hl := fun (f : cell -> cell) c => if sel then cell_set_style (tb_hl_style t) (f c) else f c) in *.
    assert (E3 : exists b3, (match tb_selected t with
                 | Some k => if k =? i then buffer_set_style b2 (Rect x1 y (Z.max 0 (x2 - x1)) 1) (tb_hl_style t) else Ret b2
                 | None => Ret b2 end) = Ret b3 /\ redrawn (typed x1 y (map hl f2)) b1 b3).
    { assert (P : sel = false -> redrawn (typed x1 y (map hl f2)) b1 b2).
      { intros Es. unfold hl. rewrite Es. rewrite map_ext with (g := fun f : cell -> cell => f) by reflexivity. rewrite map_id. exact R2. }
      unfold sel in P. destruct (tb_selected t) as [k|] eqn:Es; [|exists b2; split; [reflexivity|now apply P]].
      destruct (k =? i) eqn:Ek; [|exists b2; split; [reflexivity|now apply P]].
      destruct (highlight_typed b1 b2 x1 y f2 (tb_hl_style t) (Z.max 0 (x2 - x1)) R2) as (b3 & E3 & R3); auto; [unfold x2; lia|]. exists b3. split; [exact E3|].
      exact R3. }
    destruct E3 as (b3 & E3 & R3). rewrite E3. cbn [bind]. clear E2 R2 E3 b2.
    assert (W3 : wf_buffer b3) by apply R3. assert (A3 : barea b3 = barea b) by (rewrite (redrawn_area _ _ _ R3); exact A1).
    unfold tail1. fold hl. set (tail2 := line_cells u (tb_right t) ++ match rest with [] => [] | _ => span_cells u (sp_style (tb_divider t)) (tb_divider t) ++ tab_cells u t (i + 1) rest end).
    assert (Ef2 : map hl f2 = firstn (Z.to_nat (R - x1)) (map hl (line_cells u title))) by (unfold f2; symmetry; apply firstn_map).
    assert (Zf2 : zlen (map hl f2) = zlen f2) by (unfold zlen; now rewrite map_length).
    match goal with |- exists b', ?e = Ret b' /\ _ => cut (exists b', e = Ret b' /\ redrawn (typed x2 y (firstn (Z.to_nat (R - x2)) tail2)) b3 b') end.
    { intros (b' & E & R'). exists b'. split; [exact E|]. eapply redrawn_ext; [|exact (redrawn_trans _ _ _ _ _ R3 R')]. intros p c _. cbn beta.
      pose proof (typed_step x1 y (R - x1) (map hl (line_cells u title)) tail2 p c) as S. cbv zeta in S. rewrite <- Ef2, Zf2 in S.
      replace (R - x2) with (R - x1 - zlen f2) by (unfold x2; lia). exact S. }
    destruct (Z.eqb_spec (Z.max 0 (R - x2)) 0) as [E0|N2]; [exists b3; split; [reflexivity|]; apply Stop; [exact W3|unfold x2 in *; lia]|].
    rewrite Z.max_r by lia.
    destruct (line_print_narrow u y R (ln_style (tb_right t)) (ln_spans (tb_right t)) b3 x2 (R - x2) W3) as (b4 & E4 & R4); try rewrite A3; try (unfold x2, x1 in *; lia); [exact NR|].
    unfold line_print at 1. rewrite E4. cbn [bind]. fold (line_cells u (tb_right t)) in R4 |- *.
    set (f4 := firstn (Z.to_nat (R - x2)) (line_cells u (tb_right t))) in *. pose proof (zlen_nonneg f4).
    assert (Hf4 : zlen f4 <= R - x2) by (unfold f4, zlen; rewrite firstn_length; lia).
    assert (W4 : wf_buffer b4) by apply R4. assert (A4 : barea b4 = barea b) by (rewrite (redrawn_area _ _ _ R4); exact A3).
    set (x4 := x2 + zlen f4) in *. unfold tail2.
    set (tail3 := match rest with [] => [] | _ => span_cells u (sp_style (tb_divider t)) (tb_divider t) ++ tab_cells u t (i + 1) rest end).
    match goal with |- exists b', ?e = Ret b' /\ _ => cut (exists b', e = Ret b' /\ redrawn (typed x4 y (firstn (Z.to_nat (R - x4)) tail3)) b4 b') end.
    { intros (b' & E & R'). exists b'. split; [exact E|]. eapply redrawn_ext; [|exact (redrawn_trans _ _ _ _ _ R4 R')]. intros p c _. cbn beta.
      replace (R - x4) with (R - x2 - zlen f4) by (unfold x4; lia). apply typed_step. }
    destruct (Z.eqb_spec (Z.max 0 (R - x4)) 0) as [E0|N4]; cbn [orb]; [exists b4; split; [reflexivity|]; apply Stop; [exact W4|unfold x4 in *; lia]|].
    destruct (Z.eqb_spec i (n - 1)) as [Ei|Ni].
    { exists b4. split; [reflexivity|]. assert (rest = []) by (destruct rest as [|a l]; [reflexivity|]; rewrite zlen_cons in *; pose proof (zlen_nonneg l); lia). subst rest. unfold tail3.
      rewrite firstn_nil. eapply redrawn_ext; [|apply redrawn_refl; exact W4]. intros. now rewrite typed_nil. }
    rewrite Z.max_r by lia.
    assert (I4 : inside (Pos x4 y) (barea b4)) by (rewrite A4; unfold inside; cbn [px py]; unfold x4, x2, x1 in *; lia).
    destruct (set_string_narrow u b4 x4 y (sp_content (tb_divider t)) (R - x4) (sp_style (tb_divider t)) W4 I4) as (b5 & E5 & R5); try rewrite A4; try lia; [exact ND|].
    unfold span_print. rewrite E5. cbn [bind].
    set (f5 := firstn (Z.to_nat (R - x4)) (map (show (sp_style (tb_divider t))) (clusters u (sp_content (tb_divider t))))) in *. pose proof (zlen_nonneg f5).
    assert (Hf5 : zlen f5 <= R - x4) by (unfold f5, zlen; rewrite firstn_length; lia).
    destruct (IH n (i + 1) b5 (x4 + zlen f5)) as (b6 & E6 & R6); try rewrite (redrawn_area _ _ _ R5), A4; try (unfold x4, x2, x1 in *; lia); [apply R5|intros l Hl; apply HT; now right|].
    exists b6. split; [exact E6|]. eapply redrawn_ext; [|exact (redrawn_trans _ _ _ _ _ R5 R6)]. intros p c _. cbn beta. fold R y.
    replace (R - (x4 + zlen f5)) with (R - x4 - zlen f5) by lia. unfold tail3. destruct rest as [|r0 rest']; [change (zlen (@nil line)) with 0 in *; lia|].
    apply typed_step.
Qed.

(** The same for characters of any visible width, column by column; and the characters alone. *)
Fixpoint tab_cols (u : uniseg) (t : tabs) (i : Z) (titles : list line) : list (cell -> cell) :=
  match titles with
  | [] => []
  | title :: rest =>
      let selected := match tb_selected t with Some k => k =? i | None => false end in
      line_cols u (tb_left t)
      ++ map (fun f c => if selected then cell_set_style (tb_hl_style t) (f c) else f c) (line_cols u title)
      ++ line_cols u (tb_right t)
      ++ match rest with [] => [] | _ => span_cols u (sp_style (tb_divider t)) (tb_divider t) ++ tab_cols u t (i + 1) rest end
  end.

Definition divided (u : uniseg) (t : tabs) (rest : list line) (text : list str) : list str := match rest with [] => [] | _ => clusters u (sp_content (tb_divider t)) ++ text end.
Fixpoint tab_text (u : uniseg) (t : tabs) (titles : list line) : list str :=
  match titles with
  | [] => []
  | title :: rest => line_clusters u (tb_left t) ++ line_clusters u title ++ line_clusters u (tb_right t) ++ divided u t rest (tab_text u t rest)
  end.

Lemma tabs_loop_wide u t area : 0 <= rh area ->
  forall titles n i b x, wf_buffer b -> visible u (tab_text u t titles) -> clean_cut u (tab_text u t titles) (rright area - x) -> n = i + zlen titles ->
  rright area <= rx (barea b) + rw (barea b) -> rx (barea b) <= x -> x <= rright area -> ry (barea b) <= rtop area < ry (barea b) + rh (barea b) ->
  exists b', tabs_loop u t area n i titles b x = Ret b' /\ redrawn (typed x (rtop area) (firstn (Z.to_nat (rright area - x)) (tab_cols u t i titles))) b b'.
Proof.
  intros Hh. induction titles as [|title rest IH]; intros n i b x W V F Hn Hr Hx0 Hx Hy; cbn [tabs_loop].
  - exists b. split; [reflexivity|]. cbn [tab_cols]. rewrite firstn_nil. eapply redrawn_ext; [|apply redrawn_refl; exact W]. intros. now rewrite typed_nil.
  - rewrite zlen_cons in Hn. pose proof (zlen_nonneg rest) as Hrest.
    set (R := rright area) in *. set (y := rtop area) in *.
    assert (Stop : forall b0 x0 fs, wf_buffer b0 -> R - x0 = 0 -> redrawn (typed x0 y (firstn (Z.to_nat (R - x0)) fs)) b0 b0).
    { intros b0 x0 fs W0 H0. rewrite H0. cbn [Z.to_nat firstn]. eapply redrawn_ext; [|apply redrawn_refl; exact W0]. intros. now rewrite typed_nil. }
    destruct (Z.eqb_spec (Z.max 0 (R - x)) 0) as [E0|N0]; [exists b; split; [reflexivity|]; apply Stop; [exact W|lia]|].
    rewrite Z.max_r by lia.
    cbn [tab_text] in V, F. destruct (cut_app u _ _ (R - x) V ltac:(lia) F) as [F1 F2]. apply visible_app in V. destruct V as [V1 V2].
    destruct (line_print_wide u y R (ln_style (tb_left t)) (ln_spans (tb_left t)) b x (R - x) W Hr Hx0 Hy ltac:(lia) ltac:(lia) V1 F1) as (b1 & E1 & R1).
    unfold line_print at 1. rewrite E1. cbn [bind]. cbn [tab_cols]. fold (line_cols u (tb_left t)) in R1 |- *.
    set (f1 := firstn (Z.to_nat (R - x)) (line_cols u (tb_left t))) in *. pose proof (zlen_nonneg f1).
    assert (Hf1 : zlen f1 <= R - x) by (unfold f1, zlen; rewrite firstn_length; lia).
    assert (W1 : wf_buffer b1) by apply R1. assert (A1 : barea b1 = barea b) by apply R1.
    (* the rest, from column x + zlen f1 *)
    set (x1 := x + zlen f1) in *.
    replace (R - x - Z.min (R - x) (widths u (line_clusters u (tb_left t)))) with (R - x1) in F2 by (rewrite <- line_cols_length by exact V1; unfold x1, f1, zlen; rewrite firstn_length; lia).
    set (sel := match tb_selected t with Some k => k =? i | None => false end).
    set (tail1 := map (fun f c => if sel then cell_set_style (tb_hl_style t) (f c) else f c) (line_cols u title) ++ line_cols u (tb_right t)
      ++ match rest with [] => [] | _ => span_cols u (sp_style (tb_divider t)) (tb_divider t) ++ tab_cols u t (i + 1) rest end).
    match goal with |- exists b', ?e = Ret b' /\ _ => cut (exists b', e = Ret b' /\ redrawn (typed x1 y (firstn (Z.to_nat (R - x1)) tail1)) b1 b') end.
    { intros (b' & E & R'). exists b'. split; [exact E|]. eapply redrawn_ext; [|exact (redrawn_trans _ _ _ _ _ R1 R')]. intros p c _. cbn beta.
      replace (R - x1) with (R - x - zlen f1) by (unfold x1; lia). apply typed_step. }
    destruct (Z.eqb_spec (Z.max 0 (R - x1)) 0) as [E0|N1]; [exists b1; split; [reflexivity|]; apply Stop; [exact W1|unfold x1 in *; lia]|].
    rewrite Z.max_r by lia. destruct (cut_app u _ _ (R - x1) V2 ltac:(lia) F2) as [F3 F4]. apply visible_app in V2. destruct V2 as [V3 V4].
    destruct (line_print_wide u y R (ln_style title) (ln_spans title) b1 x1 (R - x1) W1) as (b2 & E2 & R2); try rewrite A1; try (unfold x1 in *; lia); [exact V3|exact F3|].
    unfold line_print at 1. rewrite E2. cbn [bind]. fold (line_cols u title) in R2 |- *.
    set (f2 := firstn (Z.to_nat (R - x1)) (line_cols u title)) in *. pose proof (zlen_nonneg f2).
    assert (Hf2 : zlen f2 <= R - x1) by (unfold f2, zlen; rewrite firstn_length; lia).
    set (x2 := x1 + zlen f2) in *.
    replace (R - x1 - Z.min (R - x1) (widths u (line_clusters u title))) with (R - x2) in F4 by (rewrite <- line_cols_length by exact V3; unfold x2, f2, zlen; rewrite firstn_length; lia).
    set (hl := fun (f : cell -> cell) c => if sel then cell_set_style (tb_hl_style t) (f c) else f c) in *.
    assert (E3 : exists b3, (match tb_selected t with
                 | Some k => if k =? i then buffer_set_style b2 (Rect x1 y (Z.max 0 (x2 - x1)) 1) (tb_hl_style t) else Ret b2
                 | None => Ret b2 end) = Ret b3 /\ redrawn (typed x1 y (map hl f2)) b1 b3).
    { assert (P : sel = false -> redrawn (typed x1 y (map hl f2)) b1 b2).
      { intros Es. unfold hl. rewrite Es. rewrite map_ext with (g := fun f : cell -> cell => f) by reflexivity. rewrite map_id. exact R2. }
      unfold sel in P. destruct (tb_selected t) as [k|] eqn:Es; [|exists b2; split; [reflexivity|now apply P]].
      destruct (k =? i) eqn:Ek; [|exists b2; split; [reflexivity|now apply P]].
      destruct (highlight_typed b1 b2 x1 y f2 (tb_hl_style t) (Z.max 0 (x2 - x1)) R2) as (b3 & E3 & R3); auto; [unfold x2; lia|]. exists b3. split; [exact E3|].
      exact R3. }
    destruct E3 as (b3 & E3 & R3). rewrite E3. cbn [bind]. clear E2 R2 E3 b2.
    assert (W3 : wf_buffer b3) by apply R3. assert (A3 : barea b3 = barea b) by (rewrite (redrawn_area _ _ _ R3); exact A1).
    unfold tail1. fold hl. set (tail2 := line_cols u (tb_right t) ++ match rest with [] => [] | _ => span_cols u (sp_style (tb_divider t)) (tb_divider t) ++ tab_cols u t (i + 1) rest end).
    assert (Ef2 : map hl f2 = firstn (Z.to_nat (R - x1)) (map hl (line_cols u title))) by (unfold f2; symmetry; apply firstn_map).
    assert (Zf2 : zlen (map hl f2) = zlen f2) by (unfold zlen; now rewrite map_length).
    match goal with |- exists b', ?e = Ret b' /\ _ => cut (exists b', e = Ret b' /\ redrawn (typed x2 y (firstn (Z.to_nat (R - x2)) tail2)) b3 b') end.
    { intros (b' & E & R'). exists b'. split; [exact E|]. eapply redrawn_ext; [|exact (redrawn_trans _ _ _ _ _ R3 R')]. intros p c _. cbn beta.
      pose proof (typed_step x1 y (R - x1) (map hl (line_cols u title)) tail2 p c) as S. cbv zeta in S. rewrite <- Ef2, Zf2 in S.
      replace (R - x2) with (R - x1 - zlen f2) by (unfold x2; lia). exact S. }
    destruct (Z.eqb_spec (Z.max 0 (R - x2)) 0) as [E0|N2]; [exists b3; split; [reflexivity|]; apply Stop; [exact W3|unfold x2 in *; lia]|].
    rewrite Z.max_r by lia.
    destruct (cut_app u _ _ (R - x2) V4 ltac:(lia) F4) as [F5 F6]. apply visible_app in V4. destruct V4 as [V5 V6].
    destruct (line_print_wide u y R (ln_style (tb_right t)) (ln_spans (tb_right t)) b3 x2 (R - x2) W3) as (b4 & E4 & R4); try rewrite A3; try (unfold x2, x1 in *; lia); [exact V5|exact F5|].
    unfold line_print at 1. rewrite E4. cbn [bind]. fold (line_cols u (tb_right t)) in R4 |- *.
    set (f4 := firstn (Z.to_nat (R - x2)) (line_cols u (tb_right t))) in *. pose proof (zlen_nonneg f4).
    assert (Hf4 : zlen f4 <= R - x2) by (unfold f4, zlen; rewrite firstn_length; lia).
    assert (W4 : wf_buffer b4) by apply R4. assert (A4 : barea b4 = barea b) by (rewrite (redrawn_area _ _ _ R4); exact A3).
    set (x4 := x2 + zlen f4) in *.
    replace (R - x2 - Z.min (R - x2) (widths u (line_clusters u (tb_right t)))) with (R - x4) in F6 by (rewrite <- line_cols_length by exact V5; unfold x4, f4, zlen; rewrite firstn_length; lia).
    unfold tail2.
    set (tail3 := match rest with [] => [] | _ => span_cols u (sp_style (tb_divider t)) (tb_divider t) ++ tab_cols u t (i + 1) rest end).
    match goal with |- exists b', ?e = Ret b' /\ _ => cut (exists b', e = Ret b' /\ redrawn (typed x4 y (firstn (Z.to_nat (R - x4)) tail3)) b4 b') end.
    { intros (b' & E & R'). exists b'. split; [exact E|]. eapply redrawn_ext; [|exact (redrawn_trans _ _ _ _ _ R4 R')]. intros p c _. cbn beta.
      replace (R - x4) with (R - x2 - zlen f4) by (unfold x4; lia). apply typed_step. }
    destruct (Z.eqb_spec (Z.max 0 (R - x4)) 0) as [E0|N4]; cbn [orb]; [exists b4; split; [reflexivity|]; apply Stop; [exact W4|unfold x4 in *; lia]|].
    destruct (Z.eqb_spec i (n - 1)) as [Ei|Ni].
    { exists b4. split; [reflexivity|]. assert (rest = []) by (destruct rest as [|a l]; [reflexivity|]; rewrite zlen_cons in *; pose proof (zlen_nonneg l); lia). subst rest. unfold tail3.
      rewrite firstn_nil. eapply redrawn_ext; [|apply redrawn_refl; exact W4]. intros. now rewrite typed_nil. }
    rewrite Z.max_r by lia.
    assert (I4 : inside (Pos x4 y) (barea b4)) by (rewrite A4; unfold inside; cbn [px py]; unfold x4, x2, x1 in *; lia).
    unfold divided in V6, F6. destruct rest as [|r0 rest'] eqn:Er; [change (zlen (@nil line)) with 0 in *; lia|]. rewrite <- Er in *.
    destruct (cut_app u _ _ (R - x4) V6 ltac:(lia) F6) as [F7 F8]. apply visible_app in V6. destruct V6 as [V7 V8].
    destruct (set_string_wide u b4 x4 y (sp_content (tb_divider t)) (R - x4) (sp_style (tb_divider t)) W4 I4) as (b5 & E5 & R5); try rewrite A4; try lia; [exact V7|exact F7|].
    unfold span_print. rewrite E5. cbn [bind].
    set (f5 := firstn (Z.to_nat (R - x4)) (flat_map (cols u (sp_style (tb_divider t))) (clusters u (sp_content (tb_divider t))))) in *. pose proof (zlen_nonneg f5).
    assert (Hf5 : zlen f5 <= R - x4) by (unfold f5, zlen; rewrite firstn_length; lia).
    replace (R - x4 - Z.min (R - x4) (widths u (clusters u (sp_content (tb_divider t))))) with (R - (x4 + zlen f5)) in F8
      by (rewrite <- (cols_length u (sp_style (tb_divider t))) by exact V7; unfold f5, zlen; rewrite firstn_length; lia).
    destruct (IH n (i + 1) b5 (x4 + zlen f5)) as (b6 & E6 & R6); try rewrite (redrawn_area _ _ _ R5), A4; try (unfold x4, x2, x1 in *; lia); [apply R5|exact V8|exact F8|].
    exists b6. split; [exact E6|]. eapply redrawn_ext; [|exact (redrawn_trans _ _ _ _ _ R5 R6)]. intros p c _. cbn beta. fold R y.
    replace (R - (x4 + zlen f5)) with (R - x4 - zlen f5) by lia. unfold tail3. rewrite Er at 1. rewrite <- Er. apply typed_step.
Qed.

(** Rendering tabs inside a buffer returns; in the first row of the content area, column by column, it shows exactly the
    sequence of paddings, titles and dividers above, cut at the right edge; only the selected title gets the highlight; every
    other cell keeps its content (cells of the area get the style of the tabs). *)
Theorem C56_row_partial : forall u t area b, uniseg_ok u -> wf_buffer b -> sized area -> 0 <= rx area -> opt_padded (tb_block t) ->
  (forall p, inside p area -> inside p (barea b)) ->
  narrow_line u (tb_left t) -> narrow_line u (tb_right t) -> narrow_span u (tb_divider t) -> (forall l, In l (tb_titles t) -> narrow_line u l) ->
  let A := opt_block_inner (tb_block t) area in
  exists b', tabs_render u t area b = Ret b' /\ changed_only (fun p => inside p area) b b' /\ (forall p, inside p A -> inside p area) /\
    forall p c0, inside p A -> look b p = Some c0 ->
      let styled := match tb_block t with None => cell_set_style (tb_style t) c0 | Some k => cell_set_style (bk_style k) (cell_set_style (tb_style t) c0) end in
      look b' p = Some (if py p =? ry A
                        then match nth_error (tab_cells u t 0 (tb_titles t)) (Z.to_nat (px p - rx A)) with Some f => f styled | None => styled end
                        else styled).
Proof.
  intros u t area b Hu W Hs Hx Hk Hin NL NR ND NT A. unfold tabs_render.
  destruct (set_style_redrawn b area (tb_style t) W) as (b1 & E1 & R1). rewrite E1. cbn [bind].
  assert (A1 : barea b1 = barea b) by apply R1. assert (W1 : wf_buffer b1) by apply R1.
  assert (E2 : exists b2, opt_block_render u (tb_block t) area b1 = Ret b2 /\ changed_only (fun p => inside p area) b1 b2 /\
    (forall p, inside p A -> inside p area) /\ sized A /\
    forall p, inside p A -> look b2 p = option_map (fun c => match tb_block t with None => c | Some k => cell_set_style (bk_style k) c end) (look b1 p)).
  { destruct (opt_block_ok u (tb_block t) area b1 Hu W1 Hs Hx Hk ltac:(now rewrite A1)) as (b2 & E2 & C2 & HA & SA). exists b2. repeat (split; [assumption|]).
    unfold A in *. destruct (tb_block t) as [k|]; cbn [opt_block_render opt_block_inner opt_padded] in *.
    - destruct (C31_render_stays_inside u k area b1 Hu W1 Hs Hx Hk ltac:(now rewrite A1)) as (b2' & E2' & _ & L2). rewrite E2 in E2'. injection E2' as <-. exact L2.
    - injection E2 as <-. intros p _. now destruct (look b1 p). }
  destruct E2 as (b2 & E2 & C2 & HA & SA & L2). rewrite E2. cbn [bind].
  assert (A2 : barea b2 = barea b) by (destruct C2 as [X _]; congruence). assert (W2 : wf_buffer b2) by apply C2.
  assert (C02 : changed_only (fun p => inside p area) b b2).
  { eapply changed_only_trans; [|exact C2]. eapply redrawn_only; [|exact R1]. intros p c Hp. cbn beta. apply contains_false in Hp. now rewrite Hp. }
  fold A. unfold tabs_render_inner.
  destruct (rect_is_empty A) eqn:Ee.
  { exists b2. split; [reflexivity|]. split; [exact C02|]. split; [exact HA|]. intros p c0 Hp. exfalso. unfold rect_is_empty in Ee.
    rewrite orb_true_iff, !Z.eqb_eq in Ee. unfold inside in Hp. lia. }
  apply not_empty_pos in Ee; [|exact SA]. destruct Ee as [HW HH].
  assert (HAb : forall x y, rx A <= x < rx A + rw A -> ry A <= y < ry A + rh A -> inside (Pos x y) (barea b)).
  { intros x y H1 H2. apply Hin, HA. unfold inside. cbn [px py]. lia. }
  assert (I1 := HAb (rx A) (ry A) ltac:(lia) ltac:(lia)). assert (I2 := HAb (rx A + rw A - 1) (ry A) ltac:(lia) ltac:(lia)). unfold inside in I1, I2. cbn [px py] in I1, I2.
  destruct (tabs_loop_ok u t A ltac:(lia) NL NR ND (tb_titles t) (zlen (tb_titles t)) 0 b2 (rleft A) W2 NT ltac:(lia)) as (b3 & E3 & R3);
    try rewrite A2; unfold rright, rleft, rtop; try lia.
  unfold rright, rleft, rtop in E3. rewrite E3. exists b3. split; [reflexivity|]. unfold rright, rleft, rtop in R3. replace (rx A + rw A - rx A) with (rw A) in R3 by lia. split; [|split; [exact HA|]].
  - eapply changed_only_trans; [exact C02|]. eapply redrawn_only; [|exact R3]. intros p c Hp. cbn beta. unfold typed.
    destruct (Z.eqb_spec (py p) (ry A)); cbn [andb]; [|reflexivity]. destruct (Z.leb_spec (rx A) (px p)); cbn [andb]; [|reflexivity].
    destruct (nth_error (firstn (Z.to_nat (rw A)) (tab_cells u t 0 (tb_titles t))) (Z.to_nat (px p - rx A))) as [f|] eqn:Ef; [|reflexivity]. exfalso.
    assert (Hl : (Z.to_nat (px p - rx A) < length (firstn (Z.to_nat (rw A)) (tab_cells u t 0 (tb_titles t))))%nat) by (apply nth_error_Some; congruence).
    rewrite firstn_length in Hl. apply Hp, HA. unfold inside. lia.
  - intros p c0 Hp E0. destruct R3 as (_ & _ & L3). destruct R1 as (_ & _ & L1). rewrite L3, L2, L1, E0 by exact Hp. cbn [option_map].
    assert (Ia : contains area p = true) by (apply contains_inside; auto). rewrite Ia. unfold typed. unfold inside in Hp.
    destruct (Z.leb_spec (rx A) (px p)); [|lia]. rewrite andb_true_r.
    assert (Hnth : forall (l : list (cell -> cell)), nth_error (firstn (Z.to_nat (rw A)) l) (Z.to_nat (px p - rx A)) = nth_error l (Z.to_nat (px p - rx A))).
    { intros l. rewrite <- (firstn_skipn (Z.to_nat (rw A)) l) at 2. destruct (Nat.lt_ge_cases (Z.to_nat (px p - rx A)) (length (firstn (Z.to_nat (rw A)) l))) as [Hlt|Hge].
      - now rewrite nth_error_app1.
      - rewrite nth_error_app2 by exact Hge. rewrite firstn_length in Hge. rewrite skipn_all2 by lia. rewrite (proj2 (nth_error_None _ _)) by (rewrite firstn_length; lia). now destruct (_ - _)%nat. }
    rewrite Hnth. destruct (tb_block t), (py p =? ry A), (nth_error (tab_cells u t 0 (tb_titles t)) (Z.to_nat (px p - rx A))); reflexivity.
Qed.
Print Assumptions C56_row_partial.

Example C56_instance :
  let t := Tabs None [new_line [new_span [97; 98]%N]; new_line [new_span [99]%N]] (Some 1) new_style (with_modifier new_style ModifierReversed)
             (new_span [124%N]) (new_line [new_span [32%N]]) (new_line [new_span [32%N]]) in
  (forall l, In l (tb_titles t) -> narrow_line simple_uniseg l) /\
  exists b', tabs_render simple_uniseg t (Rect 1 0 7 1) (demo_buffer 10 1) = Ret b' /\
    map (fun x => option_map (fun c => (csym c, cmod c)) (look b' (Pos x 0))) [0; 1; 2; 3; 4; 5; 6; 7; 8; 9] =
      map (fun n => Some (n, 0%N)) [[32]; [32]; [97]; [98]; [32]; [124]; [32]]%N ++ [Some ([99]%N, ModifierReversed)] ++ [Some ([32]%N, 0%N); Some ([32]%N, 0%N)].
Proof.
  cbv zeta. split.
  - intros l [<-|[<-|[]]] s [<-|[]] c; vm_compute; intuition (subst; reflexivity).
  - eexists. split; vm_compute; reflexivity.
Qed.

(** The same for characters of any visible width, if none of them lies across the right edge of the content area. Rendering returns; in the first row of the content area, column by column, it shows exactly the
    sequence of paddings, titles and dividers above, cut at the right edge; only the selected title gets the highlight; every
    other cell keeps its content (cells of the area get the style of the tabs). *)
Theorem C56_columns_partial : forall u t area b, uniseg_ok u -> wf_buffer b -> sized area -> 0 <= rx area -> opt_padded (tb_block t) ->
  (forall p, inside p area -> inside p (barea b)) ->
  let A := opt_block_inner (tb_block t) area in
  visible u (tab_text u t (tb_titles t)) -> clean_cut u (tab_text u t (tb_titles t)) (rw A) ->
  exists b', tabs_render u t area b = Ret b' /\ changed_only (fun p => inside p area) b b' /\ (forall p, inside p A -> inside p area) /\
    forall p c0, inside p A -> look b p = Some c0 ->
      let styled := match tb_block t with None => cell_set_style (tb_style t) c0 | Some k => cell_set_style (bk_style k) (cell_set_style (tb_style t) c0) end in
      look b' p = Some (if py p =? ry A
                        then match nth_error (tab_cols u t 0 (tb_titles t)) (Z.to_nat (px p - rx A)) with Some f => f styled | None => styled end
                        else styled).
Proof.
  intros u t area b Hu W Hs Hx Hk Hin A V F. unfold tabs_render.
  destruct (set_style_redrawn b area (tb_style t) W) as (b1 & E1 & R1). rewrite E1. cbn [bind].
  assert (A1 : barea b1 = barea b) by apply R1. assert (W1 : wf_buffer b1) by apply R1.
  assert (E2 : exists b2, opt_block_render u (tb_block t) area b1 = Ret b2 /\ changed_only (fun p => inside p area) b1 b2 /\
    (forall p, inside p A -> inside p area) /\ sized A /\
    forall p, inside p A -> look b2 p = option_map (fun c => match tb_block t with None => c | Some k => cell_set_style (bk_style k) c end) (look b1 p)).
  { destruct (opt_block_ok u (tb_block t) area b1 Hu W1 Hs Hx Hk ltac:(now rewrite A1)) as (b2 & E2 & C2 & HA & SA). exists b2. repeat (split; [assumption|]).
    unfold A in *. destruct (tb_block t) as [k|]; cbn [opt_block_render opt_block_inner opt_padded] in *.
    - destruct (C31_render_stays_inside u k area b1 Hu W1 Hs Hx Hk ltac:(now rewrite A1)) as (b2' & E2' & _ & L2). rewrite E2 in E2'. injection E2' as <-. exact L2.
    - injection E2 as <-. intros p _. now destruct (look b1 p). }
  destruct E2 as (b2 & E2 & C2 & HA & SA & L2). rewrite E2. cbn [bind].
  assert (A2 : barea b2 = barea b) by (destruct C2 as [X _]; congruence). assert (W2 : wf_buffer b2) by apply C2.
  assert (C02 : changed_only (fun p => inside p area) b b2).
  { eapply changed_only_trans; [|exact C2]. eapply redrawn_only; [|exact R1]. intros p c Hp. cbn beta. apply contains_false in Hp. now rewrite Hp. }
  fold A. unfold tabs_render_inner.
  destruct (rect_is_empty A) eqn:Ee.
  { exists b2. split; [reflexivity|]. split; [exact C02|]. split; [exact HA|]. intros p c0 Hp. exfalso. unfold rect_is_empty in Ee.
    rewrite orb_true_iff, !Z.eqb_eq in Ee. unfold inside in Hp. lia. }
  apply not_empty_pos in Ee; [|exact SA]. destruct Ee as [HW HH].
  assert (HAb : forall x y, rx A <= x < rx A + rw A -> ry A <= y < ry A + rh A -> inside (Pos x y) (barea b)).
  { intros x y H1 H2. apply Hin, HA. unfold inside. cbn [px py]. lia. }
  assert (I1 := HAb (rx A) (ry A) ltac:(lia) ltac:(lia)). assert (I2 := HAb (rx A + rw A - 1) (ry A) ltac:(lia) ltac:(lia)). unfold inside in I1, I2. cbn [px py] in I1, I2.
  destruct (tabs_loop_wide u t A ltac:(lia) (tb_titles t) (zlen (tb_titles t)) 0 b2 (rleft A) W2 V ltac:(unfold rright, rleft; replace (rx A + rw A - rx A) with (rw A) by lia; exact F) ltac:(lia)) as (b3 & E3 & R3);
    try rewrite A2; unfold rright, rleft, rtop; try lia.
  unfold rright, rleft, rtop in E3. rewrite E3. exists b3. split; [reflexivity|]. unfold rright, rleft, rtop in R3. replace (rx A + rw A - rx A) with (rw A) in R3 by lia. split; [|split; [exact HA|]].
  - eapply changed_only_trans; [exact C02|]. eapply redrawn_only; [|exact R3]. intros p c Hp. cbn beta. unfold typed.
    destruct (Z.eqb_spec (py p) (ry A)); cbn [andb]; [|reflexivity]. destruct (Z.leb_spec (rx A) (px p)); cbn [andb]; [|reflexivity].
    destruct (nth_error (firstn (Z.to_nat (rw A)) (tab_cols u t 0 (tb_titles t))) (Z.to_nat (px p - rx A))) as [f|] eqn:Ef; [|reflexivity]. exfalso.
    assert (Hl : (Z.to_nat (px p - rx A) < length (firstn (Z.to_nat (rw A)) (tab_cols u t 0 (tb_titles t))))%nat) by (apply nth_error_Some; congruence).
    rewrite firstn_length in Hl. apply Hp, HA. unfold inside. lia.
  - intros p c0 Hp E0. destruct R3 as (_ & _ & L3). destruct R1 as (_ & _ & L1). rewrite L3, L2, L1, E0 by exact Hp. cbn [option_map].
    assert (Ia : contains area p = true) by (apply contains_inside; auto). rewrite Ia. unfold typed. unfold inside in Hp.
    destruct (Z.leb_spec (rx A) (px p)); [|lia]. rewrite andb_true_r.
    assert (Hnth : forall (l : list (cell -> cell)), nth_error (firstn (Z.to_nat (rw A)) l) (Z.to_nat (px p - rx A)) = nth_error l (Z.to_nat (px p - rx A))).
    { intros l. rewrite <- (firstn_skipn (Z.to_nat (rw A)) l) at 2. destruct (Nat.lt_ge_cases (Z.to_nat (px p - rx A)) (length (firstn (Z.to_nat (rw A)) l))) as [Hlt|Hge].
      - now rewrite nth_error_app1.
      - rewrite nth_error_app2 by exact Hge. rewrite firstn_length in Hge. rewrite skipn_all2 by lia. rewrite (proj2 (nth_error_None _ _)) by (rewrite firstn_length; lia). now destruct (_ - _)%nat. }
    rewrite Hnth. destruct (tb_block t), (py p =? ry A), (nth_error (tab_cols u t 0 (tb_titles t)) (Z.to_nat (px p - rx A))); reflexivity.
Qed.
Print Assumptions C56_columns_partial.

(** Two titles with a wide character each in a row that ends between two characters. *)
Example C56_columns_instance :
  let t := Tabs None [new_line [new_span [20013; 98]%N]; new_line [new_span [99; 20013]%N]] (Some 0) new_style (with_modifier new_style ModifierReversed)
             (new_span [124%N]) (new_line [new_span [32%N]]) (new_line [new_span [32%N]]) in
  visible simple_uniseg (tab_text simple_uniseg t (tb_titles t)) /\ clean_cut simple_uniseg (tab_text simple_uniseg t (tb_titles t)) 8 /\
  exists b', tabs_render simple_uniseg t (Rect 1 0 8 1) (demo_buffer 10 1) = Ret b' /\
    map (fun x => option_map csym (look b' (Pos x 0))) [0; 1; 2; 3; 4; 5; 6; 7; 8; 9] = map Some [[32]; [32]; [20013]; [32]; [98]; [32]; [124]; [32]; [99]; [32]]%N.
Proof.
  cbv zeta. split; [|split].
  - intros c. vm_compute. intuition (subst; discriminate).
  - eexists (firstn 7 _), (skipn 7 _). split; [symmetry; apply firstn_skipn|]. vm_compute. split; [discriminate|right; reflexivity].
  - eexists. split; vm_compute; reflexivity.
Qed.

(** A wide character in a title is drawn across the right edge of the area, or makes the call panic at the edge of the buffer. *)
Theorem C56_wide_title_refuted : exists u t area b b' p, uniseg_ok u /\ wf_buffer b /\ (forall q, inside q area -> inside q (barea b)) /\
  tabs_render u t area b = Ret b' /\ ~ inside p area /\ look b' p <> look b p /\
  exists area' b0, wf_buffer b0 /\ (forall q, inside q area' -> inside q (barea b0)) /\ tabs_render u t area' b0 = Panic.
Proof.
  exists simple_uniseg, (new_tabs [new_line [new_span [20013%N]]]), (Rect 0 0 2 1), (Buf (Rect 0 0 3 1) [empty_cell; empty_cell; new_cell [65%N]]). eexists. exists (Pos 2 0).
  split; [apply simple_uniseg_ok|]. split; [now vm_compute|]. split; [intros [x y]; unfold inside; cbn; lia|].
  split; [vm_compute; reflexivity|]. split; [unfold inside; cbn; lia|]. split; [vm_compute; discriminate|].
  exists (Rect 0 0 2 1), (Buf (Rect 0 0 2 1) [empty_cell; empty_cell]). split; [now vm_compute|]. split; [intros [x y]; unfold inside; cbn; lia|]. vm_compute. reflexivity.
Qed.
Print Assumptions C56_wide_title_refuted.
