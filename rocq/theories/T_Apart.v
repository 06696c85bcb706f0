(** C64: the segments of a layout do not overlap, and the space that was asked for is between them, whether there is room or not. *)
From Verif Require Import Base P_Base M_Geom M_Combin M_Solver M_Layout S_Geom S_Solver S_Layout S_Place P_Row P_Layout P_Sum P_Place P_Placed P_Apart T_Solver T_Layout T_Place T_NoRoom T_Exact.
From Coq Require Import ZArith NArith QArith Qround Qabs Qminmax List Bool Lia Lqa Setoid Permutation.
Import ListNotations.
Open Scope Q_scope.

Lemma round_plus q k : (0 <= k)%Z -> (round_q q + k <= round_q (q + inject_Z k))%Z.
Proof.
  intros K. assert (Kq : 0 <= inject_Z k) by (change 0 with (inject_Z 0); now rewrite <- Zle_Qle). unfold round_q, qltb. destruct (Qle_bool 0 q) eqn:A; cbn [negb].
  - apply Qle_bool_iff in A. assert (B : Qle_bool 0 (q + inject_Z k) = true) by (apply Qle_bool_iff; lra). rewrite B. cbn [negb]. apply Z.lt_succ_r. rewrite Zlt_Qlt. unfold Z.succ. rewrite !inject_Z_plus. change (inject_Z 1) with 1. pose proof (Qfloor_le (q + (1 # 2))). pose proof (Qlt_floor (q + inject_Z k + (1 # 2))) as L. rewrite inject_Z_plus in L. change (inject_Z 1) with 1 in L. lra.
  - destruct (Qle_bool 0 (q + inject_Z k)) eqn:B; cbn [negb].
    + assert (Q0 : ~ 0 <= q) by (intros Q; apply Qle_bool_iff in Q; congruence). apply Z.lt_succ_r. rewrite Zlt_Qlt. unfold Z.succ. rewrite !inject_Z_plus, inject_Z_opp. change (inject_Z 1) with 1. pose proof (Qlt_floor (- q + (1 # 2))) as L1. pose proof (Qlt_floor (q + inject_Z k + (1 # 2))) as L. rewrite inject_Z_plus in L, L1. change (inject_Z 1) with 1 in *.
      (* q is negative: its rounding is at most q + 1/2 *)
      pose proof (Qfloor_le (- q + (1 # 2))). assert (H1 : (- Qfloor (- q + (1 # 2)) + k <= Qfloor (q + inject_Z k + (1 # 2)))%Z); [|rewrite Zle_Qle, inject_Z_plus, inject_Z_opp in H1; lra].
      assert (H2 : (- Qfloor (- q + (1 # 2)) - 1 < Qfloor (q + inject_Z k + (1 # 2)) - k + 1)%Z) by (rewrite Zlt_Qlt, !inject_Z_plus; unfold Z.sub; rewrite !inject_Z_plus, !inject_Z_opp; change (inject_Z 1) with 1; lra).
      destruct (Z.eq_dec (- Qfloor (- q + (1 # 2)) + k) (Qfloor (q + inject_Z k + (1 # 2)) + 1)) as [E|E]; [exfalso|lia].
      assert (Eq : inject_Z (- Qfloor (- q + (1 # 2)) + k) == inject_Z (Qfloor (q + inject_Z k + (1 # 2)) + 1)) by now rewrite E. rewrite !inject_Z_plus, inject_Z_opp in Eq. change (inject_Z 1) with 1 in Eq. lra.
    + assert (Eq : (- Qfloor (- (q + inject_Z k) + (1 # 2)) = - Qfloor (- q + (1 # 2)) + k)%Z).
      { assert (H : Qfloor (- (q + inject_Z k) + (1 # 2)) = (Qfloor (- q + (1 # 2)) - k)%Z); [|lia]. pose proof (Qfloor_le (- (q + inject_Z k) + (1 # 2))) as A1. pose proof (Qlt_floor (- (q + inject_Z k) + (1 # 2))) as A2. pose proof (Qfloor_le (- q + (1 # 2))) as A3. pose proof (Qlt_floor (- q + (1 # 2))) as A4. set (u := Qfloor (- (q + inject_Z k) + (1 # 2))) in *. set (v := Qfloor (- q + (1 # 2))) in *. clearbody u v. rewrite inject_Z_plus in A2, A4. change (inject_Z 1) with 1 in *.
        assert (H1 : (u < v - k + 1)%Z) by (rewrite Zlt_Qlt; unfold Z.sub; rewrite !inject_Z_plus, inject_Z_opp; change (inject_Z 1) with 1; lra). assert (H2 : (v - k < u + 1)%Z) by (rewrite Zlt_Qlt; unfold Z.sub; rewrite !inject_Z_plus, inject_Z_opp; change (inject_Z 1) with 1; lra). lia. }
      rewrite Eq. apply Z.le_refl.
Qed.
Lemma cells_plus p q k : (0 <= k)%Z -> p + inject_Z k * 100 <= q -> (to_cells p + k <= to_cells q)%Z.
Proof.
  intros K H. apply Z.le_trans with (to_cells (p + inject_Z k * 100)); [|now apply cells_mono]. rewrite !cells_is. unfold multiplier.
  assert (E1 : p + inject_Z k * 100 == p + inject_Z (k * 100)) by (rewrite inject_Z_mult; reflexivity). rewrite (round_eq _ _ E1).
  assert (E2 : inject_Z (round_q p + k * 100) / 100 == inject_Z (round_q p) / 100 + inject_Z k) by (rewrite inject_Z_plus, inject_Z_mult; change (inject_Z 100) with 100; field).
  apply Z.le_trans with (round_q (inject_Z (round_q p) / 100 + inject_Z k)); [now apply round_plus|]. rewrite <- (round_eq _ _ E2). apply round_mono. unfold Qdiv. apply Qmult_le_compat_r; [|discriminate]. rewrite <- Zle_Qle. apply round_plus. lia.
Qed.

Section Tolerance.
Context {tolr : tolerance}.
(** ** C64: for every layout with a spacing that is not negative: if the spaces fit in the area, every segment starts at least the
    spaces between them after an earlier one ends; if not even the spaces fit, every segment is empty. *)
Theorem C64_apart_partial order fuel vs l area segs sps : any_order order -> vars_ok vs l -> regular order fuel vs l area -> M_Layout.split order fuel vs l area = Splits segs sps ->
  let d := l_direction l in let a := inner area (l_padding l) in let total := (high d a - low d a)%Z in let space := cells_between l in
  (0 <= space)%Z ->
  ((Z.of_nat (length (l_constraints l)) - 1) * space <= total ->
    forall i j seg seg', (i < j)%nat -> nth_error segs i = Some seg -> nth_error segs j = Some seg' -> high d seg + Z.of_nat (j - i) * space <= low d seg')%Z /\
  (total < (Z.of_nat (length (l_constraints l)) - 1) * space -> forall seg, In seg segs -> low d seg = high d seg)%Z.
Proof.
  intros Oo V R E d a total space Sp. destruct (split_solution order fuel vs l area segs sps Oo V R E) as (cs & x & Ep & Fe & Op & Es & _).
  set (n := length (l_constraints l)). destruct (Nat.eq_dec n 0) as [Z0|Nz].
  { assert (Ls : segs = []). { rewrite Es. destruct V as [_ Lv]. fold n in Lv. rewrite Z0 in Lv. destruct vs as [|v1 [|v2 [|]]]; cbn in Lv; try lia. reflexivity. } rewrite Ls. split; [intros _ i j seg seg' _ H; destruct i; discriminate|intros _ seg []]. }
  assert (Nn : (1 <= n)%nat) by lia. pose proof (apart vs l area cs x V Ep Fe Op Nn Sp) as Ap. fold n in Ap.
  pose proof (exchange vs l area cs x V Ep Fe Op Nn) as (_ & _ & _ & _ & Rx & _). destruct Rx as [_ Sx _ _ _]. fold n in Sx.
  rewrite (sum_const (inject_Z (cells_between l) * 100)) in Ap. replace (length (mids n)) with (n - 1)%nat in Ap by (unfold mids; now rewrite seq_length).
  assert (Et : (snd (bounds l area) - fst (bounds l area))%Z = total) by (rewrite (bounds_eq l area); reflexivity). rewrite Et in *. fold space in Ap.
  assert (En : inject_Z (Z.of_nat (n - 1)) * (inject_Z space * 100) == inject_Z ((Z.of_nat n - 1) * space) * 100) by (rewrite inject_Z_mult; replace (Z.of_nat (n - 1)) with (Z.of_nat n - 1)%Z by lia; ring). rewrite En in Ap.
  destruct V as [_ Lv]. fold n in Lv. rewrite (segs_eq vs n Lv) in Es by exact Nn. rewrite map_map in Es.
  assert (Sg : forall k seg, nth_error segs k = Some seg -> (k < n)%nat /\ low d seg = to_cells (x (var_at vs (2 * k + 1))) /\ high d seg = to_cells (x (var_at vs (2 * k + 2)))).
  { intros k seg K. assert (Hk : (k < n)%nat) by (rewrite Es in K; assert (Hs : nth_error (map (fun i => edges (l_direction l) (inner area (l_padding l)) x (seg_el vs i)) (seq 0 n)) k <> None) by congruence; apply nth_error_Some in Hs; now rewrite map_length, seq_length in Hs). split; [exact Hk|].
    rewrite Es, nth_error_map, (nth_error_nth' _ 0%nat) in K by now rewrite seq_length. rewrite seq_nth in K by exact Hk. rewrite Nat.add_0_l in K. cbn [option_map] in K. apply (f_equal (fun o => match o with Some r => r | None => seg end)) in K. cbn beta iota in K. subst seg.
    assert (M : (to_cells (x (var_at vs (2 * k + 1))) <= to_cells (x (var_at vs (2 * k + 2))))%Z) by (apply cells_mono; destruct (Sx k Hk) as [A _]; unfold size in A; cbn [seg_el el_start el_end] in A; lra).
    unfold edges. cbn [seg_el el_start el_end]. unfold d. destruct (l_direction l); cbn [low high rx ry rw rh]; split; try reflexivity; rewrite Z.max_r by lia; lia. }
  destruct Ap as [Ap1 Ap2]. split.
  - intros Le. assert (Lq : inject_Z ((Z.of_nat n - 1) * space) * 100 <= inject_Z total * 100) by (rewrite Zle_Qle in Le; lra). specialize (Ap1 Lq). clear Ap2.
    assert (Next : forall i seg seg', nth_error segs i = Some seg -> nth_error segs (S i) = Some seg' -> (high d seg + space <= low d seg')%Z).
    { intros i seg seg' I J. destruct (Sg i seg I) as (Hi & _ & ->). destruct (Sg (S i) seg' J) as (Hj & -> & _). apply cells_plus; [exact Sp|]. specialize (Ap1 (S i) ltac:(unfold mids; apply in_seq; lia)). unfold size in Ap1. cbn [sp_el el_start el_end] in Ap1. replace (2 * S i)%nat with (2 * i + 2)%nat in * by lia. lra. }
    assert (Ord : forall i seg, nth_error segs i = Some seg -> (low d seg <= high d seg)%Z). { intros i seg I. destruct (Sg i seg I) as (Hi & -> & ->). apply cells_mono. destruct (Sx i Hi) as [A _]. unfold size in A. cbn [seg_el el_start el_end] in A. lra. }
    intros i j seg seg' H. revert seg'. induction H as [|j H IH]; intros seg' I J.
    + replace (S i - i)%nat with 1%nat by lia. pose proof (Next i seg seg' I J). lia.
    + destruct (nth_error segs j) as [mid|] eqn:M; [|exfalso; apply nth_error_None in M; assert (Hs : nth_error segs (S j) <> None) by congruence; apply nth_error_Some in Hs; lia].
      specialize (IH mid I eq_refl). pose proof (Next j mid seg' M J). pose proof (Ord j mid M). replace (S j - i)%nat with (S (j - i)) by lia. nia.
  - intros Lt. assert (Lq : inject_Z total * 100 < inject_Z ((Z.of_nat n - 1) * space) * 100) by (rewrite Zlt_Qlt in Lt; lra). specialize (Ap2 Lq). intros seg I. apply In_nth_error in I. destruct I as (k & I). destruct (Sg k seg I) as (Hk & -> & ->). apply cells_eq. specialize (Ap2 k Hk). unfold size in Ap2. cbn [seg_el el_start el_end] in Ap2. lra.
Qed.
(** No cell is in two segments. *)
Theorem C64_disjoint_partial order fuel vs l area segs sps : any_order order -> vars_ok vs l -> regular order fuel vs l area -> M_Layout.split order fuel vs l area = Splits segs sps ->
  (0 <= cells_between l)%Z -> forall i j seg seg' p, i <> j -> nth_error segs i = Some seg -> nth_error segs j = Some seg' -> inside p seg -> inside p seg' -> False.
Proof.
  intros Oo V R E Sp. destruct (C64_apart_partial order fuel vs l area segs sps Oo V R E Sp) as [A B].
  assert (W : forall i j seg seg' p, (i < j)%nat -> nth_error segs i = Some seg -> nth_error segs j = Some seg' -> inside p seg -> inside p seg' -> False).
  { intros i j seg seg' p H I J P P'. destruct (Z.le_gt_cases ((Z.of_nat (length (l_constraints l)) - 1) * cells_between l) (high (l_direction l) (inner area (l_padding l)) - low (l_direction l) (inner area (l_padding l)))) as [L|L].
    - specialize (A L i j seg seg' H I J). assert (0 <= Z.of_nat (j - i) * cells_between l)%Z by nia. unfold inside in *. destruct (l_direction l); cbn [low high] in A; lia.
    - specialize (B L seg (nth_error_In _ _ I)). unfold inside in *. destruct (l_direction l); cbn [low high] in B; lia. }
  intros i j seg seg' p H I J P P'. destruct (Nat.lt_total i j) as [Q|[Q|Q]]; [exact (W i j seg seg' p Q I J P P')|contradiction|exact (W j i seg' seg p Q J I P' P)].
Qed.
End Tolerance.

(** Layouts that need few names, with the solver that takes only zero for zero: nothing is assumed of the run. *)
Section Few.
#[local] Existing Instance no_tolerance.
Theorem C64_few_partial order fuel vs l area segs sps : any_order order -> vars_ok vs l -> few_names l -> M_Layout.split order fuel vs l area = Splits segs sps ->
  (0 <= cells_between l)%Z -> forall i j seg seg' p, i <> j -> nth_error segs i = Some seg -> nth_error segs j = Some seg' -> inside p seg -> inside p seg' -> False.
Proof. intros Oo V N E. exact (C64_disjoint_partial order fuel vs l area segs sps Oo V (few_regular order fuel vs l area Oo V N) E). Qed.
End Few.

#[local] Existing Instance code_tolerance.
(** *** Instances: no room for the segments, and no room for the spaces. *)
Definition narrow (space : Z) : layout := Layout DirHorizontal [LMin 7; LFill 1; LMin 8; LPercentage 70] (Padding 0 0 0 0) FlexCenter (SpSpace space).
Example C64_instance : regular keep_order 1000 (vars_for (l_constraints (narrow 2))) (narrow 2) (Rect 0 0 10 1) /\
  exists sps, M_Layout.split keep_order 1000 (vars_for (l_constraints (narrow 2))) (narrow 2) (Rect 0 0 10 1) = Splits [Rect 0 0 2 1; Rect 4 0 0 1; Rect 6 0 2 1; Rect 10 0 0 1] sps.
Proof. split; [apply regular_run_ok; vm_compute; reflexivity|]. eexists. vm_compute. reflexivity. Qed.
Print Assumptions C64_apart_partial.
Print Assumptions C64_disjoint_partial.
Print Assumptions C64_few_partial.
