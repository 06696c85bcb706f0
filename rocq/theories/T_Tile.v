(** C68: where the first segment starts, where the last one ends and how far apart neighbours are, whether there is room or not. *)
From Verif Require Import Base P_Base M_Geom M_Combin M_Solver M_Layout S_Geom S_Solver S_Layout S_Place P_Row P_Layout P_Sum P_Place P_Placed P_Apart P_Tile T_Solver T_Layout T_Place T_NoRoom T_Exact T_Apart.
From Coq Require Import ZArith NArith QArith Qround Qabs Qminmax List Bool Lia Lqa Setoid Permutation.
Import ListNotations.
Open Scope Q_scope.

Lemma round_shift q k : 0 <= q -> (0 <= k)%Z -> round_q (q + inject_Z k) = (round_q q + k)%Z.
Proof.
  intros Q0 K. assert (Kq : 0 <= inject_Z k) by (change 0 with (inject_Z 0); now rewrite <- Zle_Qle). unfold round_q, qltb. assert (A : Qle_bool 0 q = true) by now apply Qle_bool_iff. assert (B : Qle_bool 0 (q + inject_Z k) = true) by (apply Qle_bool_iff; lra). rewrite A, B. cbn [negb].
  pose proof (Qfloor_le (q + inject_Z k + (1 # 2))) as A1. pose proof (Qlt_floor (q + inject_Z k + (1 # 2))) as A2. pose proof (Qfloor_le (q + (1 # 2))) as A3. pose proof (Qlt_floor (q + (1 # 2))) as A4. set (u := Qfloor (q + inject_Z k + (1 # 2))) in *. set (v := Qfloor (q + (1 # 2))) in *. clearbody u v. rewrite inject_Z_plus in A2, A4. change (inject_Z 1) with 1 in *.
  assert (H1 : (u < v + k + 1)%Z) by (rewrite Zlt_Qlt, !inject_Z_plus; change (inject_Z 1) with 1; lra). assert (H2 : (v + k < u + 1)%Z) by (rewrite Zlt_Qlt, !inject_Z_plus; change (inject_Z 1) with 1; lra). lia.
Qed.
Lemma cells_shift p q k : 0 <= p -> (0 <= k)%Z -> q == p + inject_Z k * 100 -> to_cells q = (to_cells p + k)%Z.
Proof.
  intros P K H. rewrite (cells_eq _ _ H). rewrite !cells_is. unfold multiplier. assert (E1 : p + inject_Z k * 100 == p + inject_Z (k * 100)) by (rewrite inject_Z_mult; reflexivity). rewrite (round_eq _ _ E1), round_shift by (try exact P; lia).
  assert (E2 : inject_Z (round_q p + k * 100) / 100 == inject_Z (round_q p) / 100 + inject_Z k) by (rewrite inject_Z_plus, inject_Z_mult; change (inject_Z 100) with 100; field). rewrite (round_eq _ _ E2). apply round_shift; [|exact K].
  assert (R0 : (0 <= round_q p)%Z) by (change 0%Z with (round_q (inject_Z 0)); apply round_mono; exact P). rewrite Zle_Qle in R0. unfold Qdiv. apply Qmult_le_0_compat; [exact R0|discriminate].
Qed.

(** Flexes under which the space between two neighbours is the spacing; under which the first segment starts with the area; under
    which the last one ends with it; under which the spaces between neighbours are equal. *)
Definition fixed_gaps (fl : flex) : bool := match fl with FlexLegacy | FlexStart | FlexCenter | FlexEnd => true | _ => false end.
Definition from_start (fl : flex) (n : nat) : bool := match fl with FlexLegacy | FlexStart | FlexSpaceBetween => true | FlexSpaceAround => (2 <=? n)%nat | _ => false end.
Definition to_end (fl : flex) (n : nat) : bool := match fl with FlexLegacy | FlexEnd | FlexSpaceBetween => true | FlexSpaceAround => (2 <=? n)%nat | _ => false end.
Section Tolerance.
Context {tolr : tolerance}.
(** ** C68: for every layout whose spacing is not negative and whose spaces fit in the area *)
Theorem C68_edges_partial order fuel vs l area segs sps : any_order order -> vars_ok vs l -> regular order fuel vs l area -> M_Layout.split order fuel vs l area = Splits segs sps ->
  let d := l_direction l in let a := inner area (l_padding l) in let total := (high d a - low d a)%Z in let space := cells_between l in let n := length (l_constraints l) in
  (0 <= space)%Z -> ((Z.of_nat n - 1) * space <= total)%Z ->
  (* the first segment starts where the area starts *)
  (from_start (l_flex l) n = true -> forall seg, nth_error segs 0 = Some seg -> low d seg = low d a) /\
  (* the last one ends where the area ends *)
  (to_end (l_flex l) n = true -> forall seg, nth_error segs (n - 1) = Some seg -> high d seg = high d a) /\
  (* every next segment starts exactly the spacing after the one before it ends *)
  (fixed_gaps (l_flex l) = true -> (0 <= low d a \/ space = 0)%Z -> forall i seg seg', nth_error segs i = Some seg -> nth_error segs (S i) = Some seg' -> low d seg' = (high d seg + space)%Z) /\
  (* centred segments have as much before the first as after the last, but for the rounding *)
  (l_flex l = FlexCenter -> forall seg seg', nth_error segs 0 = Some seg -> nth_error segs (n - 1) = Some seg' -> (Z.abs ((low d seg - low d a) - (high d a - high d seg')) <= 1)%Z) /\
  (* spaces between are equal, but for the rounding *)
  (l_flex l = FlexSpaceBetween \/ l_flex l = FlexSpaceAround -> forall i j s1 s2 t1 t2, nth_error segs i = Some s1 -> nth_error segs (S i) = Some s2 -> nth_error segs j = Some t1 -> nth_error segs (S j) = Some t2 ->
    (Z.abs ((low d s2 - high d s1) - (low d t2 - high d t1)) <= 2)%Z).
Proof.
  intros Oo V R E d a total space n Sp Le. destruct (split_solution order fuel vs l area segs sps Oo V R E) as (cs & x & Ep & Fe & Op & Es & _).
  destruct (Nat.eq_dec n 0) as [Z0|Nz].
  { assert (Ls : segs = []). { rewrite Es. destruct V as [_ Lv]. fold n in Lv. rewrite Z0 in Lv. destruct vs as [|v1 [|v2 [|]]]; cbn in Lv; try lia. reflexivity. } rewrite Ls, Z0. repeat split; intros; cbn in *; try discriminate; destruct i; discriminate. }
  assert (Nn : (1 <= n)%nat) by lia.
  assert (Bd : fst (bounds l area) = low d a /\ snd (bounds l area) = high d a) by (unfold d, bounds, a; destruct (l_direction l); split; reflexivity). destruct Bd as [Bl Bh].
  assert (Fits : sum_of (fun _ : nat => inject_Z (cells_between l) * 100) (mids n) <= inject_Z (snd (bounds l area) - fst (bounds l area)) * 100).
  { rewrite sum_const. replace (length (mids n)) with (n - 1)%nat by (unfold mids; now rewrite seq_length). rewrite Bl, Bh. fold total. fold space. assert (En : inject_Z (Z.of_nat (n - 1)) * (inject_Z space * 100) == inject_Z ((Z.of_nat n - 1) * space) * 100) by (rewrite inject_Z_mult; replace (Z.of_nat (n - 1)) with (Z.of_nat n - 1)%Z by lia; ring). rewrite En. rewrite Zle_Qle in Le. lra. }
  pose proof (edge_values vs l area cs x V Ep Fe Nn) as Ev. fold n in Ev. rewrite Bl, Bh in Ev. destruct Ev as (X0 & Xn & Xr).
  pose proof (start_exact vs l area cs x V Ep Fe Op Nn Sp Fits) as HS. pose proof (end_exact vs l area cs x V Ep Fe Op Nn Sp Fits) as HE. pose proof (center_exact vs l area cs x V Ep Fe Op Nn Sp Fits) as HC. pose proof (between_exact vs l area cs x V Ep Fe Op Nn Sp Fits) as HB. pose proof (legacy_exact vs l area cs x V Ep Fe Op Nn Sp Fits) as HL. fold n in HS, HE, HC, HB, HL. fold space in HS, HE, HC, HB, HL.
  pose proof (exchange vs l area cs x V Ep Fe Op Nn) as (_ & _ & _ & _ & Rx & _). destruct Rx as [_ Sx _ _ _]. fold n in Sx.
  destruct V as [_ Lv]. fold n in Lv. rewrite (segs_eq vs n Lv) in Es by exact Nn. rewrite map_map in Es.
  assert (Sg : forall k seg, nth_error segs k = Some seg -> (k < n)%nat /\ low d seg = to_cells (x (var_at vs (2 * k + 1))) /\ high d seg = to_cells (x (var_at vs (2 * k + 2)))).
  { intros k seg K. assert (Hk : (k < n)%nat) by (rewrite Es in K; assert (Hs : nth_error (map (fun i => edges (l_direction l) (inner area (l_padding l)) x (seg_el vs i)) (seq 0 n)) k <> None) by congruence; apply nth_error_Some in Hs; now rewrite map_length, seq_length in Hs). split; [exact Hk|].
    rewrite Es, nth_error_map, (nth_error_nth' _ 0%nat) in K by now rewrite seq_length. rewrite seq_nth in K by exact Hk. rewrite Nat.add_0_l in K. cbn [option_map] in K. apply (f_equal (fun o => match o with Some r => r | None => seg end)) in K. cbn beta iota in K. subst seg.
    assert (M : (to_cells (x (var_at vs (2 * k + 1))) <= to_cells (x (var_at vs (2 * k + 2))))%Z) by (apply cells_mono; destruct (Sx k Hk) as [A _]; unfold size in A; cbn [seg_el el_start el_end] in A; lra).
    unfold edges. cbn [seg_el el_start el_end]. unfold d. destruct (l_direction l); cbn [low high rx ry rw rh]; split; try reflexivity; rewrite Z.max_r by lia; lia. }
  assert (S0 : size x (sp_el vs 0) == x (var_at vs 1) - inject_Z (low d a) * 100) by (unfold size; cbn [sp_el el_start el_end]; change (2 * 0)%nat with 0%nat; change (0 + 1)%nat with 1%nat; lra).
  assert (Sn : size x (sp_el vs n) == inject_Z (high d a) * 100 - x (var_at vs (2 * n))) by (unfold size; cbn [sp_el el_start el_end]; lra).
  assert (Near : forall q, inject_Z (to_cells q) * 100 <= q + (101 # 2) /\ q - (101 # 2) <= inject_Z (to_cells q) * 100).
  { intros q. assert (Eq : q == q / 100 * 100) by field. pose proof (cells_near (q / 100)) as H. rewrite <- (cells_eq _ _ Eq) in H. unfold stands_for in H. apply Qabs_Qle_condition in H. set (t := q / 100) in *. clearbody t. lra. }
  split; [|split; [|split; [|split]]].
  - intros F seg I. destruct (Sg 0%nat seg I) as (_ & -> & _). change (2 * 0 + 1)%nat with 1%nat. apply cells_int. unfold multiplier.
    assert (Z : size x (sp_el vs 0) == 0); [|lra]. destruct (l_flex l) eqn:Fl; try discriminate; cbn [from_start] in F.
    + apply HL. now left. + apply HS. reflexivity. + destruct (Nat.eq_dec n 1) as [N1|N1]; [apply HL; right; now split|apply HB; [now left|lia]]. + apply Nat.leb_le in F. apply HB; [now right|exact F].
  - intros F seg I. destruct (Sg (n - 1)%nat seg I) as (_ & _ & ->). replace (2 * (n - 1) + 2)%nat with (2 * n)%nat by lia. apply cells_int. unfold multiplier.
    assert (Z : size x (sp_el vs n) == 0); [|lra]. destruct (l_flex l) eqn:Fl; try discriminate; cbn [to_end] in F.
    + apply HL. now left. + apply HE. reflexivity. + destruct (Nat.eq_dec n 1) as [N1|N1]; [apply HL; right; now split|apply HB; [now left|lia]]. + apply Nat.leb_le in F. apply HB; [now right|exact F].
  - intros F Nonneg i seg seg' I J. destruct (Sg i seg I) as (Hi & _ & ->). destruct (Sg (S i) seg' J) as (Hj & -> & _).
    assert (M : In (S i) (mids n)) by (unfold mids; apply in_seq; lia). assert (Z : size x (sp_el vs (S i)) == inject_Z space * 100).
    { destruct (l_flex l) eqn:Fl; try discriminate; [apply HL; [now left|exact M]|apply HS; [reflexivity|exact M]|apply HE; [reflexivity|exact M]|apply HC; [reflexivity|exact M]]. }
    unfold size in Z. cbn [sp_el el_start el_end] in Z. replace (2 * S i)%nat with (2 * i + 2)%nat in * by lia. destruct Nonneg as [Nonneg|Zs].
    + apply cells_shift; [|exact Sp|lra]. apply Qle_trans with (inject_Z (low d a) * 100); [|apply Xr; lia]. change 0 with (inject_Z 0) in *. rewrite Zle_Qle in Nonneg. change (inject_Z 0) with 0 in *. lra.
    + rewrite Zs in *. rewrite Z.add_0_r. apply cells_eq. change (inject_Z 0) with 0 in Z. lra.
  - intros Fl seg seg' I J. destruct (Sg 0%nat seg I) as (_ & -> & _). destruct (Sg (n - 1)%nat seg' J) as (_ & _ & ->). change (2 * 0 + 1)%nat with 1%nat. replace (2 * (n - 1) + 2)%nat with (2 * n)%nat by lia. destruct (HC Fl) as [H _].
    pose proof (Near (x (var_at vs 1))) as [A1 A2]. pose proof (Near (x (var_at vs (2 * n)))) as [B1 B2]. set (u := to_cells (x (var_at vs 1))) in *. set (v := to_cells (x (var_at vs (2 * n)))) in *. clearbody u v.
    assert (H1 : (u - low d a - (high d a - v) < 2)%Z) by (rewrite Zlt_Qlt, !inject_minus; change (inject_Z 2) with 2; lra). assert (H2 : (-2 < u - low d a - (high d a - v))%Z) by (rewrite Zlt_Qlt, !inject_minus; change (inject_Z (-2)) with (-(2)); lra). lia.
  - intros Fl i j s1 s2 t1 t2 I1 I2 J1 J2. destruct (Sg i s1 I1) as (Hi & _ & ->). destruct (Sg (S i) s2 I2) as (Hi' & -> & _). destruct (Sg j t1 J1) as (Hj & _ & ->). destruct (Sg (S j) t2 J2) as (Hj' & -> & _).
    destruct (HB Fl ltac:(lia)) as (_ & _ & H). specialize (H (S i) (S j) ltac:(unfold mids; apply in_seq; lia) ltac:(unfold mids; apply in_seq; lia)). unfold size in H. cbn [sp_el el_start el_end] in H. replace (2 * S i)%nat with (2 * i + 2)%nat in * by lia. replace (2 * S j)%nat with (2 * j + 2)%nat in * by lia.
    pose proof (Near (x (var_at vs (2 * i + 2 + 1)))) as [A1 A2]. pose proof (Near (x (var_at vs (2 * i + 2)))) as [B1 B2]. pose proof (Near (x (var_at vs (2 * j + 2 + 1)))) as [C1 C2]. pose proof (Near (x (var_at vs (2 * j + 2)))) as [D1 D2].
    set (u := to_cells (x (var_at vs (2 * i + 2 + 1)))) in *. set (v := to_cells (x (var_at vs (2 * i + 2)))) in *. set (w := to_cells (x (var_at vs (2 * j + 2 + 1)))) in *. set (y := to_cells (x (var_at vs (2 * j + 2)))) in *. clearbody u v w y.
    assert (H1 : (u - v - (w - y) < 3)%Z) by (rewrite Zlt_Qlt, !inject_minus; change (inject_Z 3) with 3; lra). assert (H2 : (-3 < u - v - (w - y))%Z) by (rewrite Zlt_Qlt, !inject_minus; change (inject_Z (-3)) with (-(3)); lra). lia.
Qed.
(** ** C68: without spacing, a layout with the flex that layouts have by default covers its area: every cell of the area is in exactly
    one segment, whether or not the sizes asked for fit in it. *)
Theorem C68_tiles_partial order fuel vs l area segs sps : any_order order -> vars_ok vs l -> regular order fuel vs l area -> M_Layout.split order fuel vs l area = Splits segs sps ->
  l_flex l = FlexLegacy -> cells_between l = 0%Z -> l_constraints l <> [] ->
  forall p, inside p (inner area (l_padding l)) -> exists i seg, nth_error segs i = Some seg /\ inside p seg /\ (forall j seg', nth_error segs j = Some seg' -> inside p seg' -> j = i).
Proof.
  intros Oo V R E Fl Sp Ne p I. pose proof (C68_edges_partial order fuel vs l area segs sps Oo V R E) as H. pose proof (C34_pieces_partial order fuel vs l area segs sps Oo V R E) as Pc. pose proof (C64_disjoint_partial order fuel vs l area segs sps Oo V R E ltac:(lia)) as Dj.
  cbv zeta in H, Pc. rewrite Sp, Fl in H. set (d := l_direction l) in *. set (a := inner area (l_padding l)) in *. set (n := length (l_constraints l)) in *. assert (Nn : (1 <= n)%nat) by (unfold n; destruct (l_constraints l); [now elim Ne|cbn; lia]).
  assert (Le : (low d a <= high d a)%Z) by (unfold inside in I; destruct d; cbn [low high]; lia).
  destruct (H ltac:(lia) ltac:(lia)) as (H1 & H2 & H3 & _). specialize (H1 eq_refl). specialize (H2 eq_refl). specialize (H3 eq_refl (or_intror eq_refl)). clear H. destruct Pc as (Ls & _ & Pc & _). fold n in Ls.
  assert (Get : forall k, (k < n)%nat -> exists seg, nth_error segs k = Some seg) by (intros k K; destruct (nth_error segs k) as [seg|] eqn:Q; [now exists seg|apply nth_error_None in Q; lia]).
  set (c := match d with DirHorizontal => px p | DirVertical => py p end).
  assert (Cv : forall k, (k < n)%nat -> forall seg, nth_error segs k = Some seg -> (c < high d seg)%Z -> exists i seg', nth_error segs i = Some seg' /\ (low d seg' <= c < high d seg')%Z).
  { assert (La : (low d a <= c)%Z) by (unfold inside in I; unfold c; destruct d; cbn [low]; lia). induction k as [|k IH]; intros K seg Q Hc.
    - exists 0%nat, seg. split; [exact Q|]. rewrite (H1 seg Q). lia.
    - destruct (Get k ltac:(lia)) as (prev & Qp). destruct (Z.lt_ge_cases c (high d prev)) as [Lt|Ge]; [exact (IH ltac:(lia) prev Qp Lt)|]. exists (S k), seg. split; [exact Q|]. rewrite (H3 k prev seg Qp Q). lia. }
  destruct (Get (n - 1)%nat ltac:(lia)) as (lst & Ql). destruct (Cv (n - 1)%nat ltac:(lia) lst Ql) as (i & seg & Qi & Hi). { rewrite (H2 lst Ql). unfold inside in I. unfold c. destruct d; cbn [high]; lia. }
  assert (Is : inside p seg). { destruct (Pc seg (nth_error_In _ _ Qi)) as (_ & _ & _ & Ac). unfold inside in *. unfold c in Hi. destruct d; cbn [low high across] in *; injection Ac as A1 A2; rewrite ?A1, ?A2; lia. }
  exists i, seg. split; [exact Qi|]. split; [exact Is|]. intros j seg' Qj Ij. destruct (Nat.eq_dec j i) as [->|Nj]; [reflexivity|]. exfalso. exact (Dj j i seg' seg p Nj Qj Qi Ij Is).
Qed.
End Tolerance.

(** Layouts that need few names, with the solver that takes only zero for zero: nothing is assumed of the run. *)
Section Few.
#[local] Existing Instance no_tolerance.
Theorem C68_few_partial order fuel vs l area segs sps : any_order order -> vars_ok vs l -> few_names l -> M_Layout.split order fuel vs l area = Splits segs sps ->
  l_flex l = FlexLegacy -> cells_between l = 0%Z -> l_constraints l <> [] ->
  forall p, inside p (inner area (l_padding l)) -> exists i seg, nth_error segs i = Some seg /\ inside p seg /\ (forall j seg', nth_error segs j = Some seg' -> inside p seg' -> j = i).
Proof. intros Oo V N E. exact (C68_tiles_partial order fuel vs l area segs sps Oo V (few_regular order fuel vs l area Oo V N) E). Qed.
End Few.

#[local] Existing Instance code_tolerance.
(** *** Instances: a default layout that asks for too much and one that asks for too little; centred segments; space between. *)
Definition greedy : layout := Layout DirHorizontal [LLen 7; LMin 6; LPercentage 50] (Padding 0 0 0 0) FlexLegacy (SpSpace 0).
Definition modest : layout := Layout DirVertical [LLen 2; LMax 3] (Padding 1 0 1 0) FlexLegacy (SpSpace 1).
Definition three (fl : flex) : layout := Layout DirHorizontal [LLen 2; LMax 3; LLen 2] (Padding 0 0 0 0) fl (SpSpace 1).
Example C68_instance :
  regular keep_order 1000 (vars_for (l_constraints greedy)) greedy (Rect 3 0 10 1) /\
  (exists sps, M_Layout.split keep_order 1000 (vars_for (l_constraints greedy)) greedy (Rect 3 0 10 1) = Splits [Rect 3 0 4 1; Rect 7 0 6 1; Rect 13 0 0 1] sps) /\
  regular keep_order 1000 (vars_for (l_constraints modest)) modest (Rect 0 2 4 12) /\
  (exists s1 s2 sps, M_Layout.split keep_order 1000 (vars_for (l_constraints modest)) modest (Rect 0 2 4 12) = Splits [s1; s2] sps /\ (ry s1, ry s2 + rh s2, ry s2 - (ry s1 + rh s1))%Z = (3, 13, 1)%Z) /\
  regular keep_order 1000 (vars_for (l_constraints (three FlexCenter))) (three FlexCenter) (Rect 0 0 14 1) /\
  (exists sps, M_Layout.split keep_order 1000 (vars_for (l_constraints (three FlexCenter))) (three FlexCenter) (Rect 0 0 14 1) = Splits [Rect 3 0 2 1; Rect 6 0 3 1; Rect 10 0 2 1] sps) /\
  regular keep_order 1000 (vars_for (l_constraints (three FlexSpaceBetween))) (three FlexSpaceBetween) (Rect 0 0 14 1) /\
  (exists sps, M_Layout.split keep_order 1000 (vars_for (l_constraints (three FlexSpaceBetween))) (three FlexSpaceBetween) (Rect 0 0 14 1) = Splits [Rect 0 0 2 1; Rect 6 0 3 1; Rect 12 0 2 1] sps).
Proof.
  split; [apply regular_run_ok; vm_compute; reflexivity|]. split; [eexists; vm_compute; reflexivity|]. split; [apply regular_run_ok; vm_compute; reflexivity|]. split; [eexists _, _, _; vm_compute; split; reflexivity|].
  split; [apply regular_run_ok; vm_compute; reflexivity|]. split; [eexists; vm_compute; reflexivity|]. split; [apply regular_run_ok; vm_compute; reflexivity|]. eexists; vm_compute; reflexivity.
Qed.
Print Assumptions C68_edges_partial.
Print Assumptions C68_tiles_partial.
Print Assumptions C68_few_partial.
