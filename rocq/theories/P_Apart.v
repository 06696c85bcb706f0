(** In a best solution the spaces between neighbours have at least the size that was asked for, or nothing else has any size. *)
From Verif Require Import Base P_Base M_Geom M_Combin M_Solver M_Layout S_Solver S_Layout S_Place P_Row P_System P_Step P_Noted P_Layout P_Sum P_Place P_Placed T_Solver T_Layout.
From Coq Require Import ZArith NArith QArith Qround Qabs Qminmax List Bool Lia Lqa Setoid Permutation.
Import ListNotations.
Open Scope Q_scope.

(** Positions from sizes: spacers and segments in turn. *)
Fixpoint position (start : Q) (p g : nat -> Q) (j : nat) : Q :=
  match j with O => start | S j => position start p g j + (if Nat.even j then p (Nat.div2 j) else g (Nat.div2 j)) end.
Lemma position_spacer start p g i : position start p g (2 * i + 1) == position start p g (2 * i) + p i.
Proof. replace (2 * i + 1)%nat with (S (2 * i)) by lia. cbn [position]. rewrite Nat.div2_double. replace (Nat.even (2 * i)) with true by (symmetry; apply Nat.even_spec; now exists i). reflexivity. Qed.
Lemma position_segment start p g i : position start p g (2 * i + 2) == position start p g (2 * i + 1) + g i.
Proof.
  replace (2 * i + 2)%nat with (S (S (2 * i))) by lia. replace (2 * i + 1)%nat with (S (2 * i)) by lia. set (j := S (2 * i)). change (position start p g (S j)) with (position start p g j + (if Nat.even j then p (Nat.div2 j) else g (Nat.div2 j))). unfold j at 2 3 4. rewrite Nat.div2_succ_double.
  replace (Nat.even (S (2 * i))) with false; [reflexivity|]. rewrite Nat.even_succ, <- Nat.negb_even. replace (Nat.even (2 * i)) with true; [reflexivity|]. symmetry. apply Nat.even_spec. now exists i.
Qed.
Lemma position_last start p g m : position start p g (2 * m + 1) == start + (sum_of g (seq 0 m) + sum_of p (seq 0 (S m))).
Proof.
  induction m as [|m IH]; [rewrite position_spacer; cbn; ring|]. replace (2 * S m + 1)%nat with (2 * (S m) + 1)%nat by lia. rewrite position_spacer. replace (2 * S m)%nat with (2 * m + 2)%nat by lia. rewrite position_segment, IH, (seq_S (S m) 0), (seq_S m 0), !sum_app. cbn [sum_of Nat.add]. ring.
Qed.
Lemma position_mono start p g m : (forall i, (i <= m)%nat -> 0 <= p i) -> (forall i, (i < m)%nat -> 0 <= g i) -> forall j k, (j <= k)%nat -> (k <= 2 * m + 1)%nat -> position start p g j <= position start p g k.
Proof.
  intros P G j k H. induction H as [|k H IH]; intros K; [apply Qle_refl|]. apply Qle_trans with (position start p g k); [apply IH; lia|]. destruct (Nat.Even_or_Odd k) as [[i Hi]|[i Hi]]; subst k.
  - replace (S (2 * i)) with (2 * i + 1)%nat by lia. rewrite position_spacer. specialize (P i ltac:(lia)). lra.
  - replace (S (2 * i + 1)) with (2 * i + 2)%nat by lia. rewrite position_segment. specialize (G i ltac:(lia)). lra.
Qed.

(** ** A best solution costs no more than any other row of sizes *)
Section Exchange.
Variables (vs : list variable) (l : layout) (area : rect) (cs : list constr) (x : variable -> Q).
Hypotheses (V : vars_ok vs l) (Ep : problem vs l area = Ret cs) (Fe : feasible cs x) (Op : forall z, feasible cs z -> penalty cs x <= penalty cs z).
Let lo := fst (bounds l area).
Let total := (snd (bounds l area) - fst (bounds l area))%Z.
Let n := length (l_constraints l).
Hypothesis Nn : (1 <= n)%nat.
Let T := inject_Z total * 100.
Record row (z : variable -> Q) : Prop := {
  row_area : size z (area_el vs) == T;
  row_seg : forall i, (i < n)%nat -> 0 <= size z (seg_el vs i) /\ size z (seg_el vs i) <= T;
  row_sp : forall i, (i <= n)%nat -> size z (sp_el vs i) <= T;
  row_first : 0 <= size z (sp_el vs 0);
  row_last : 0 <= size z (sp_el vs n)
}.
Definition all_cost (fx fi : list constr) (z : variable -> Q) : Q :=
  cost z fx + cost z (size_constraints (area_el vs) (map (seg_el vs) (seq 0 n)) (l_constraints l) (l_flex l)) + cost z fi + cost z (match l_flex l with FlexLegacy => [] | _ => neighbours (map (seg_el vs) (seq 0 n)) end).
Lemma exchange : exists fx fi,
  flex_constraints (area_el vs) (map (sp_el vs) (seq 0 (S n))) (l_flex l) (cells_between l) = Ret fx /\
  fill_constraints (map (seg_el vs) (seq 0 n)) (l_constraints l) (l_flex l) = Ret fi /\ row x /\
  forall p g, (forall i, (i <= n)%nat -> 0 <= p i) -> (forall i, (i < n)%nat -> 0 <= g i) -> sum_of g (seq 0 n) + sum_of p (seq 0 (S n)) == T ->
    exists y, row y /\ (forall i, (i < n)%nat -> size y (seg_el vs i) == g i) /\ (forall i, (i <= n)%nat -> size y (sp_el vs i) == p i) /\ all_cost fx fi x <= all_cost fx fi y.
Proof.
  destruct V as [Nd Lv]. fold n in Lv. pose proof Ep as E. unfold problem, layout_constraints in E.
  rewrite (spacers_eq vs n Lv), (segs_eq vs n Lv) in E by exact Nn. fold (area_el vs) in E. fold (cells_between l) in E.
  destruct (flex_constraints (area_el vs) (map (sp_el vs) (seq 0 (S n))) (l_flex l) (cells_between l)) as [fx|] eqn:Ef; [|discriminate]. cbn [bind] in E.
  destruct (fill_constraints (map (seg_el vs) (seq 0 n)) (l_constraints l) (l_flex l)) as [fi|] eqn:Ei; [|discriminate]. cbn [bind] in E. apply Ret_inj in E.
  destruct (problem_ok vs l area V) as (rest0 & E0 & Sf & _). rewrite Ep in E0. apply Ret_inj in E0. set (H := hard _ _ vs) in E0.
  set (rest := fx ++ size_constraints (area_el vs) (map (seg_el vs) (seq 0 n)) (l_constraints l) (l_flex l) ++ fi ++ match l_flex l with FlexLegacy => [] | _ => neighbours (map (seg_el vs) (seq 0 n)) end).
  assert (Er : cs = H ++ rest). { rewrite <- E. unfold H, rest, hard. cbv zeta. fold (area_el vs). now rewrite <- !app_assoc. }
  assert (rest0 = rest) by (rewrite Er in E0; apply app_inv_head in E0; congruence). subst rest0. clear E E0.
  assert (Hm : forall c, In c H -> mandatory c) by (intros c I; apply hard_strength in I; destruct I as [I _]; unfold mandatory; rewrite I; apply Qle_refl).
  assert (Ar : area_el vs = Element (var_at vs 0) (var_at vs (2 * n + 1))) by now apply area_eq. assert (Ah : hd 0%Z vs = var_at vs 0) by (exact (f_equal el_start Ar)). assert (Al : last vs 0%Z = var_at vs (2 * n + 1)) by (exact (f_equal el_end Ar)).
  assert (In_var : forall v, In v vs -> exists j, (j < 2 * n + 2)%nat /\ v = var_at vs j). { intros v I. apply (In_nth _ _ (0%Z : variable)) in I. destruct I as (j & Hj & <-). rewrite Lv in Hj. exists j. split; [exact Hj|reflexivity]. }
  assert (In_v : forall j, (j < 2 * n + 2)%nat -> In (var_at vs j) vs) by (intros j Hj; apply nth_In; rewrite Lv; exact Hj).
  assert (Tt : inject_Z (snd (bounds l area)) * 100 == inject_Z lo * 100 + T) by (unfold lo, T, total; rewrite inject_minus; ring).
  assert (Sat : forall z, (forall c, In c H -> satisfies z c) -> row z).
  { intros z Hz. apply hard_sat in Hz. rewrite !qmul_ok in Hz. fold lo in Hz. destruct Hz as (X1 & X2 & X3 & X4). rewrite (segs_eq vs n Lv) in X4 by exact Nn. rewrite Ah in X1, X3. rewrite Al in X2, X3. unfold multiplier in *.
    assert (Xr : forall j, (j < 2 * n + 2)%nat -> inject_Z lo * 100 <= z (var_at vs j) /\ z (var_at vs j) <= inject_Z lo * 100 + T) by (intros j Hj; destruct (X3 _ (In_v j Hj)) as [A B]; lra).
    split.
    - rewrite Ar. unfold size. cbn [el_start el_end]. lra.
    - intros i Hi. assert (S1 := X4 (seg_el vs i) ltac:(apply in_map, in_seq; lia)). cbn [seg_el el_start el_end] in S1. unfold size. cbn [seg_el el_start el_end]. pose proof (Xr (2 * i + 1)%nat ltac:(lia)). pose proof (Xr (2 * i + 2)%nat ltac:(lia)). split; lra.
    - intros i Hi. unfold size. cbn [sp_el el_start el_end]. pose proof (Xr (2 * i + 1)%nat ltac:(lia)). pose proof (Xr (2 * i)%nat ltac:(lia)). lra.
    - unfold size. cbn [sp_el el_start el_end]. change (2 * 0)%nat with 0%nat. change (0 + 1)%nat with 1%nat. pose proof (Xr 1%nat ltac:(lia)). lra.
    - unfold size. cbn [sp_el el_start el_end]. pose proof (Xr (2 * n)%nat ltac:(lia)). lra. }
  assert (Hx : forall c, In c H -> satisfies x c) by (intros c I; apply Fe; [rewrite Er; apply in_app_iff; now left|now apply Hm]).
  assert (Tot : forall z, cost z rest == all_cost fx fi z) by (intros z; unfold rest, all_cost; rewrite !cost_app; ring).
  exists fx, fi. split; [reflexivity|]. split; [reflexivity|]. split; [now apply Sat|]. intros p g P0 G0 Sm.
  destruct (assign (position (inject_Z lo * 100) p g) vs Nd) as (y & Hy). assert (Yv : forall j, (j < 2 * n + 2)%nat -> y (var_at vs j) = position (inject_Z lo * 100) p g j) by (intros j Hj; apply Hy; rewrite Lv; exact Hj). clear Hy.
  assert (Lst : position (inject_Z lo * 100) p g (2 * n + 1) == inject_Z lo * 100 + T) by (rewrite position_last; lra).
  assert (Hy : forall c, In c H -> satisfies y c).
  { apply hard_sat. rewrite !qmul_ok. fold lo. rewrite (segs_eq vs n Lv) by exact Nn. rewrite Ah, Al, !Yv by lia. unfold multiplier. split; [reflexivity|]. split; [rewrite Lst, Tt; reflexivity|]. split.
    - intros v I. apply In_var in I. destruct I as (j & Hj & ->). rewrite Yv by exact Hj. split; apply (position_mono _ _ _ n P0 G0); lia.
    - intros e I. apply in_map_iff in I. destruct I as (k & <- & I). apply in_seq in I. cbn [seg_el el_start el_end]. rewrite !Yv by lia. apply (position_mono _ _ _ n P0 G0); lia. }
  exists y. split; [now apply Sat|]. split; [|split].
  - intros i Hi. unfold size. cbn [seg_el el_start el_end]. rewrite !Yv by lia. rewrite position_segment. ring.
  - intros i Hi. unfold size. cbn [sp_el el_start el_end]. rewrite !Yv by lia. rewrite position_spacer. ring.
  - assert (Fy : feasible cs y). { intros c I M. rewrite Er in I. apply in_app_iff in I. destruct I as [I|I]; [now apply Hy|]. apply Sf in I. destruct I as (_ & I & _). unfold mandatory in M. lra. }
    pose proof (Op y Fy) as P. rewrite Er in P. rewrite !(penalty_cost _ H rest vs Hm Sf) in P. now rewrite !Tot in P.
Qed.
End Exchange.

(** ** What shrinking every segment by the same factor costs *)
Lemma shrink_abs a b c : 0 <= c -> c <= 1 -> b == c * a -> Qabs b <= Qabs a.
Proof. intros H0 H1 ->. rewrite Qabs_Qmult, (Qabs_pos c H0). pose proof (Qabs_nonneg a). nra. Qed.
Lemma abs_move a b k : b <= a -> Qabs (b - k) <= Qabs (a - k) + (a - b).
Proof. intros H. apply Qabs_case; intros; apply Qabs_case; intros; lra. Qed.
Lemma vio_min_eq z e k s : violation z (has_min_size e k s) == Qmax 0 (inject_Z k * 100 - size z e).
Proof. unfold violation, has_min_size, rel_const. cbn [c_op c_expr]. assert (E : - eval (e_sub_const (el_size e) (qmul (inject_Z k) multiplier)) z == inject_Z k * 100 - size z e) by (rewrite eval_sub_const, eval_size, qmul_ok; unfold multiplier; ring). now rewrite E. Qed.
Lemma vio_max_eq z e k s : violation z (has_max_size e k s) == Qmax 0 (size z e - inject_Z k * 100).
Proof. unfold violation, has_max_size, rel_const. cbn [c_op c_expr]. assert (E : eval (e_sub_const (el_size e) (qmul (inject_Z k) multiplier)) z == size z e - inject_Z k * 100) by (rewrite eval_sub_const, eval_size, qmul_ok; unfold multiplier; ring). now rewrite E. Qed.
Lemma max0_le a b : a <= b -> Qmax 0 a <= Qmax 0 b.
Proof. intros H. apply Q.max_le_compat_l. exact H. Qed.
Lemma max0_move a b d : 0 <= d -> a <= b + d -> Qmax 0 a <= Qmax 0 b + d.
Proof. intros Hd H. apply Q.max_lub; [pose proof (Q.le_max_l 0 b); lra|pose proof (Q.le_max_r 0 b); lra]. Qed.

Section Shrink.
Variables (vs : list variable) (n : nat) (fl : flex) (lcs : list lconstraint) (x y : variable -> Q) (c : Q).
Hypotheses (Lv : length vs = (2 * n + 2)%nat) (Nn : (1 <= n)%nat) (Lc : length lcs = n) (C0 : 0 <= c) (C1 : c <= 1).
Hypothesis Area : size y (area_el vs) == size x (area_el vs).
Hypothesis Nonneg : forall i, (i < n)%nat -> 0 <= size x (seg_el vs i).
Hypothesis Seg : forall i, (i < n)%nat -> size y (seg_el vs i) == c * size x (seg_el vs i).
Lemma segment_shrinks lc e : 0 <= size x e -> size y e == c * size x e ->
  cost y (segment_constraints (area_el vs) fl lc e) <= cost x (segment_constraints (area_el vs) fl lc e) + 100010000 * ((1 - c) * size x e).
Proof.
  intros P0 E. set (s := size x e) in *. set (s' := size y e) in *. assert (D : s' <= s) by nra. assert (D0 : 0 <= s - s') by lra. assert (Dd : (1 - c) * s == s - s') by (rewrite E; ring). rewrite Dd. clear Dd.
  assert (Int : forall k z, violation y (has_int_size e k z) <= violation x (has_int_size e k z) + (s - s')) by (intros k z; rewrite !vio_int; now apply abs_move).
  assert (Frac : forall f z, eval f y == eval f x -> violation y (has_size e f z) <= violation x (has_size e f z) + (s - s')) by (intros f z Hf; rewrite !vio_size, Hf; now apply abs_move).
  assert (Min : forall k z, violation y (has_min_size e k z) <= violation x (has_min_size e k z) + (s - s')) by (intros k z; rewrite !vio_min_eq; apply max0_move; fold s s'; lra).
  assert (Max : forall k z, violation y (has_max_size e k z) <= violation x (has_max_size e k z)) by (intros k z; rewrite !vio_max_eq; apply max0_le; fold s s'; lra).
  assert (Ea : eval (el_size (area_el vs)) y == eval (el_size (area_el vs)) x) by (rewrite !eval_size; exact Area).
  unfold cost. destruct lc as [k|k|k|k|a b|k]; cbn [segment_constraints].
  - pose proof (Min k min_size_gte). destruct fl; cbn [sum_of].
    1:{ pose proof (Int k min_size_eq). change (c_strength (has_min_size e k min_size_gte)) with 100000000. change (c_strength (has_int_size e k min_size_eq)) with 10000. lra. }
    all: pose proof (Frac (el_size (area_el vs)) fill_grow Ea); change (c_strength (has_min_size e k min_size_gte)) with 100000000; change (c_strength (has_size e (el_size (area_el vs)) fill_grow)) with 1000; lra.
  - cbn [sum_of]. pose proof (Max k max_size_lte). pose proof (Int k max_size_eq). change (c_strength (has_max_size e k max_size_lte)) with 100000000. change (c_strength (has_int_size e k max_size_eq)) with 10000. lra.
  - cbn [sum_of]. pose proof (Int k length_size_eq). change (c_strength (has_int_size e k length_size_eq)) with 10000000. lra.
  - cbn [sum_of]. set (f := e_div _ _). assert (Ef : eval f y == eval f x) by (unfold f; rewrite !eval_div by discriminate; rewrite !eval_mul, Ea; reflexivity). pose proof (Frac f percentage_size_eq Ef). change (c_strength (has_size e f percentage_size_eq)) with 1000000. lra.
  - cbn [sum_of]. assert (Nz : ~ inject_Z (Z.max 1 b) == 0) by (intros Y; unfold Qeq in Y; cbn in Y; lia). set (f := e_div _ _). assert (Ef : eval f y == eval f x) by (unfold f; rewrite !eval_div by exact Nz; rewrite !eval_mul, Ea; reflexivity). pose proof (Frac f ratio_size_eq Ef). change (c_strength (has_size e f ratio_size_eq)) with 100000. lra.
  - cbn [sum_of]. pose proof (Frac (el_size (area_el vs)) fill_grow Ea). change (c_strength (has_size e (el_size (area_el vs)) fill_grow)) with 1000. lra.
Qed.
Lemma sizes_shrink : cost y (size_constraints (area_el vs) (map (seg_el vs) (seq 0 n)) lcs fl) <= cost x (size_constraints (area_el vs) (map (seg_el vs) (seq 0 n)) lcs fl) + 100010000 * ((1 - c) * sum_of (fun i => size x (seg_el vs i)) (seq 0 n)).
Proof.
  unfold size_constraints. rewrite (combine_eq vs n Lv Nn lcs Lc). unfold cost. rewrite !sum_flat_map, !sum_map. cbn [fst snd]. rewrite <- !sum_scale, <- sum_plus. apply sum_le. intros i I. apply in_seq in I. apply segment_shrinks; [apply Nonneg; lia|apply Seg; lia].
Qed.
Lemma fill_shrinks fi : fill_constraints (map (seg_el vs) (seq 0 n)) lcs fl = Ret fi -> cost y fi <= cost x fi.
Proof.
  unfold fill_constraints. set (valid := filter _ _). intros E. destruct (Nat.ltb_spec (length valid) 2) as [H|H]; [injection E as <-; apply Qle_refl|].
  destruct (pairs_perm valid H) as (ps & Ep & Pm). rewrite Ep in E. cbn [bind] in E. apply (f_equal (fun o => match o with Ret a => a | Panic => [] end)) in E. cbn beta iota in E. subst fi. unfold cost. rewrite !sum_map. apply sum_le. intros [[lc ls] [rc rs]] I.
  assert (Va : forall q, In q valid -> size y (snd q) == c * size x (snd q)). { intros q J. apply filter_In in J. destruct J as [J _]. rewrite (combine_eq vs n Lv Nn lcs Lc) in J. apply in_map_iff in J. destruct J as (i & <- & J). apply in_seq in J. cbn [snd]. apply Seg. lia. }
  apply (Permutation_in _ Pm) in I. apply all_pairs_in in I. cbn [fst snd] in I. destruct I as [I J]. apply Va in I. apply Va in J. cbn [snd] in I, J.
  cbn [c_strength rel_expr]. apply Qmult_le_l; [reflexivity|]. unfold violation. cbn [c_op c_expr rel_expr]. apply (shrink_abs _ _ c C0 C1). rewrite !eval_sub, !eval_mul, !eval_size, I, J. ring.
Qed.
Lemma neighbours_shrink : cost y (neighbours (map (seg_el vs) (seq 0 n))) <= cost x (neighbours (map (seg_el vs) (seq 0 n))).
Proof.
  assert (Va : forall e, In e (map (seg_el vs) (seq 0 n)) -> size y e == c * size x e) by (intros e J; apply in_map_iff in J; destruct J as (i & <- & J); apply in_seq in J; apply Seg; lia).
  revert Va. generalize (map (seg_el vs) (seq 0 n)) as es. induction es as [|a es IH]; intros Va; [apply Qle_refl|]. destruct es as [|b es]; [apply Qle_refl|].
  change (neighbours (a :: b :: es)) with (has_size a (el_size b) all_segment_grow :: neighbours (b :: es)). specialize (IH ltac:(intros e J; apply Va; now right)). set (N := neighbours (b :: es)) in *. clearbody N. unfold cost in *. cbn [sum_of]. rewrite !vio_size, !eval_size. change (c_strength (has_size a (el_size b) all_segment_grow)) with 1.
  assert (A : Qabs (size y a - size y b) <= Qabs (size x a - size x b)) by (apply (shrink_abs _ _ c C0 C1); rewrite (Va a), (Va b) by (cbn; tauto); ring). lra.
Qed.
End Shrink.

(** ** Spaces *)
Section Apart.
Variables (vs : list variable) (l : layout) (area : rect) (cs : list constr) (x : variable -> Q).
Hypotheses (V : vars_ok vs l) (Ep : problem vs l area = Ret cs) (Fe : feasible cs x) (Op : forall z, feasible cs z -> penalty cs x <= penalty cs z).
Let total := (snd (bounds l area) - fst (bounds l area))%Z.
Let n := length (l_constraints l).
Hypotheses (Nn : (1 <= n)%nat) (Space : (0 <= cells_between l)%Z).
Let T := inject_Z total * 100.
Let want := inject_Z (cells_between l) * 100.
Let seg i := size x (seg_el vs i).
Let sp i := size x (sp_el vs i).
Let missing := sum_of (fun i => Qmax 0 (want - sp i)) (mids n).
Let surplus := sum_of (fun i => Qmax 0 (sp i - want)) (mids n).
Let others := surplus + (sp 0%nat + sp n) + sum_of seg (seq 0 n).
(** A row whose segments and ends are all shrunk by one factor, and whose spaces are nearer to what is asked, is cheaper. *)
Lemma cheaper fx fi y c : flex_constraints (area_el vs) (map (sp_el vs) (seq 0 (S n))) (l_flex l) (cells_between l) = Ret fx ->
  fill_constraints (map (seg_el vs) (seq 0 n)) (l_constraints l) (l_flex l) = Ret fi -> row vs l area x -> row vs l area y -> 0 <= c -> c <= 1 ->
  (forall i, (i < n)%nat -> size y (seg_el vs i) == c * seg i) -> size y (sp_el vs 0) == c * sp 0%nat -> size y (sp_el vs n) == c * sp n ->
  sum_of (fun i => Qabs (size y (sp_el vs i) - want)) (mids n) <= sum_of (fun i => Qabs (sp i - want)) (mids n) - (1 - c) * others ->
  sum_of (fun q => Qabs (size y (sp_el vs (fst q)) - size y (sp_el vs (snd q)))) (all_pairs (mids n)) <= sum_of (fun q => Qabs (sp (fst q) - sp (snd q))) (all_pairs (mids n)) ->
  sum_of (fun i => Qmax 0 (want - size y (sp_el vs i))) (mids n) <= missing - (1 - c) * others ->
  sum_of sp (mids n) - sum_of (fun i => size y (sp_el vs i)) (mids n) <= (1 - c) * surplus ->
  all_cost vs l fx fi y <= all_cost vs l fx fi x - 90000 * ((1 - c) * others).
Proof.
  intros Ef Ei Rx Ry C0 C1 Hs H0 Hn Ha Hp Hm Hg. destruct V as [_ Lv]. fold n in Lv. destruct Rx as [Ax Sx Px F0 Fn]. destruct Ry as [Ay Sy Py G0 Gn]. fold total T n in Ax, Sx, Px, Fn, Ay, Sy, Py, Gn.
  assert (Area : size y (area_el vs) == size x (area_el vs)) by (rewrite Ax, Ay; reflexivity).
  assert (Nonneg : forall i, (i < n)%nat -> 0 <= size x (seg_el vs i)) by (intros i Hi; apply Sx; exact Hi).
  pose proof (sizes_shrink vs n (l_flex l) (l_constraints l) x y c Lv Nn eq_refl C1 Area Nonneg Hs) as A1.
  pose proof (fill_shrinks vs n (l_flex l) (l_constraints l) x y c Lv Nn eq_refl C0 C1 Hs fi Ei) as A2.
  pose proof (neighbours_shrink vs n (l_constraints l) x y c Lv Nn eq_refl C0 C1 Hs) as A3.
  assert (A4 : cost y (match l_flex l with FlexLegacy => [] | _ => neighbours (map (seg_el vs) (seq 0 n)) end) <= cost x (match l_flex l with FlexLegacy => [] | _ => neighbours (map (seg_el vs) (seq 0 n)) end)) by (destruct (l_flex l); [apply Qle_refl|exact A3..]). clear A3.
  pose proof (flex_cost vs n Lv Nn (l_flex l) (cells_between l) fx x T Ef Ax Px) as Cx. pose proof (flex_cost vs n Lv Nn (l_flex l) (cells_between l) fx y T Ef Ay Py) as Cy. cbv zeta in Cx, Cy.
  assert (Gr : forall z, sum_of (fun i => 100100100 * violation z (has_min_size (sp_el vs i) (cells_between l) spacer_size_eq) + 10 * (T - size z (sp_el vs i))) (mids n) == 100100100 * sum_of (fun i => Qmax 0 (want - size z (sp_el vs i))) (mids n) + 10 * (sum_of (fun _ => T) (mids n) - sum_of (fun i => size z (sp_el vs i)) (mids n))).
  { intros z. rewrite <- sum_minus, <- !sum_scale, <- sum_plus. apply sum_ext. intros i _. rewrite vio_min_eq. fold want. reflexivity. }
  pose proof (Gr x) as Gx. pose proof (Gr y) as Gy. clear Gr. fold want in Cx, Cy.
  set (gx_ := sum_of (fun i => 100100100 * violation x _ + _) (mids n)) in *. set (gy_ := sum_of (fun i => 100100100 * violation y _ + _) (mids n)) in *. clearbody gx_ gy_.
  unfold others in *. unfold missing, surplus in *. unfold sp, seg in *. clear sp seg.
  set (s0 := size x (sp_el vs 0)) in *. set (sn := size x (sp_el vs n)) in *. set (sg := sum_of (fun i => size x (seg_el vs i)) (seq 0 n)) in *. set (sur := sum_of (fun i => Qmax 0 (size x (sp_el vs i) - want)) (mids n)) in *. set (mis := sum_of (fun i => Qmax 0 (want - size x (sp_el vs i))) (mids n)) in *.
  set (fx_ := sum_of (fun i => Qabs (size x (sp_el vs i) - want)) (mids n)) in *. set (fy_ := sum_of (fun i => Qabs (size y (sp_el vs i) - want)) (mids n)) in *.
  set (px_ := sum_of (fun q => Qabs (size x (sp_el vs (fst q)) - size x (sp_el vs (snd q)))) (all_pairs (mids n))) in *. set (py_ := sum_of (fun q => Qabs (size y (sp_el vs (fst q)) - size y (sp_el vs (snd q)))) (all_pairs (mids n))) in *.
  set (my_ := sum_of (fun i => Qmax 0 (want - size y (sp_el vs i))) (mids n)) in *. set (sx_ := sum_of (fun i => size x (sp_el vs i)) (mids n)) in *. set (sy_ := sum_of (fun i => size y (sp_el vs i)) (mids n)) in *. set (t_ := sum_of (fun _ => T) (mids n)) in *.
  assert (Su : 0 <= sur) by (apply sum_pos; intros i _; apply Q.le_max_l). assert (Sg : 0 <= sg) by (apply sum_pos; intros i I; apply in_seq in I; apply Nonneg; lia).
  assert (E0 : Qabs (size y (sp_el vs 0)) <= Qabs (s0)) by (apply (shrink_abs _ _ c C0 C1); exact H0). assert (En : Qabs (size y (sp_el vs n)) <= Qabs (sn)) by (apply (shrink_abs _ _ c C0 C1); exact Hn).
  assert (Ed : Qabs (size y (sp_el vs 0) - size y (sp_el vs n)) <= Qabs (s0 - sn)) by (apply (shrink_abs _ _ c C0 C1); rewrite H0, Hn; ring).
  assert (Eo : (1 - c) * (sur + (s0 + sn) + sg) == (1 - c) * sur + ((1 - c) * s0 + (1 - c) * sn) + (1 - c) * sg) by ring. rewrite Eo in *. clear Eo.
  assert (U0 : (1 - c) * s0 == s0 - size y (sp_el vs 0)) by (rewrite H0; ring). assert (Un : (1 - c) * sn == sn - size y (sp_el vs n)) by (rewrite Hn; ring).
  assert (P0 : 0 <= (1 - c) * s0) by nra. assert (Pn : 0 <= (1 - c) * sn) by nra. assert (Ps : 0 <= (1 - c) * sur) by nra. assert (Pg : 0 <= (1 - c) * sg) by nra.
  unfold all_cost. fold n. rewrite Cx, Cy.
  set (q1 := (1 - c) * s0) in *. set (q2 := (1 - c) * sn) in *. set (q3 := (1 - c) * sur) in *. set (q4 := (1 - c) * sg) in *.
  clearbody q1 q2 q3 q4 s0 sn sg sur mis fx_ fy_ px_ py_ my_ sx_ sy_ t_. destruct (l_flex l); lra.
Qed.
Let asked := sum_of (fun _ : nat => want) (mids n).
Lemma parts a w : a == w + Qmax 0 (a - w) - Qmax 0 (w - a).
Proof. destruct (Qlt_le_dec a w) as [H|H]; [rewrite (Q.max_l 0 (a - w)), (Q.max_r 0 (w - a)) by lra; ring|rewrite (Q.max_r 0 (a - w)), (Q.max_l 0 (w - a)) by lra; ring]. Qed.
Lemma parts_abs a w : Qabs (a - w) == Qmax 0 (a - w) + Qmax 0 (w - a).
Proof. destruct (Qlt_le_dec a w) as [H|H]; [rewrite (Q.max_l 0 (a - w)), (Q.max_r 0 (w - a)), Qabs_neg by lra; ring|rewrite (Q.max_r 0 (a - w)), (Q.max_l 0 (w - a)), Qabs_pos by lra; ring]. Qed.
Lemma max0_diff a b c w : 0 <= c -> c <= 1 -> Qabs (c * Qmax 0 (a - w) - c * Qmax 0 (b - w)) <= Qabs (a - b).
Proof.
  intros C0 C1. setoid_replace (c * Qmax 0 (a - w) - c * Qmax 0 (b - w)) with (c * (Qmax 0 (a - w) - Qmax 0 (b - w))) by ring. rewrite Qabs_Qmult, (Qabs_pos c C0). apply Qle_trans with (Qabs (Qmax 0 (a - w) - Qmax 0 (b - w))); [pose proof (Qabs_nonneg (Qmax 0 (a - w) - Qmax 0 (b - w))); nra|].
  destruct (Qlt_le_dec a w) as [A|A], (Qlt_le_dec b w) as [B|B]; rewrite ?(Q.max_l 0 (a - w)), ?(Q.max_r 0 (a - w)), ?(Q.max_l 0 (b - w)), ?(Q.max_r 0 (b - w)) by lra; repeat (apply Qabs_case; intros); lra.
Qed.
Lemma sum_zero_all {A} (f : A -> Q) (m : list A) : (forall a, In a m -> 0 <= f a) -> sum_of f m <= 0 -> forall a, In a m -> f a == 0.
Proof. intros P S0. apply sum_abs_zero. apply Qle_trans with (sum_of f m); [|exact S0]. apply sum_le. intros a I. rewrite Qabs_pos by now apply P. apply Qle_refl. Qed.
Lemma apart : (asked <= T -> forall i, In i (mids n) -> want <= sp i) /\ (T < asked -> forall i, (i < n)%nat -> seg i == 0).
Proof.
  destruct (exchange vs l area cs x V Ep Fe Op Nn) as (fx & fi & Ef & Ei & Rx & Ex). fold n in Ef, Ei, Ex. fold total in Ex. fold T in Ex. destruct V as [_ Lv]. fold n in Lv.
  pose proof (spacer_indices vs n Lv Nn (l_constraints l) eq_refl) as Si. pose proof (sizes_sum vs n Lv Nn x) as Ss. pose proof Rx as [Ax Sx Px F0 Fn]. fold total T n in Ax, Sx, Px, Fn. rewrite Ax, Si in Ss. cbn [sum_of] in Ss. rewrite sum_app in Ss. cbn [sum_of] in Ss. fold (sp 0%nat) (sp n) seg sp in Ss.
  assert (Mi : forall i, In i (mids n) -> (1 <= i)%nat /\ (i < n)%nat) by (intros i I; apply in_seq in I; lia).
  assert (Dsum : sum_of sp (mids n) == asked + surplus - missing) by (unfold asked, surplus, missing; rewrite <- sum_plus, <- sum_minus; apply sum_ext; intros i _; apply parts).
  assert (Dabs : sum_of (fun i => Qabs (sp i - want)) (mids n) == surplus + missing) by (unfold surplus, missing; rewrite <- sum_plus; apply sum_ext; intros i _; apply parts_abs).
  assert (Su : 0 <= surplus) by (apply sum_pos; intros i _; apply Q.le_max_l). assert (Mn : 0 <= missing) by (apply sum_pos; intros i _; apply Q.le_max_l).
  assert (Sg : 0 <= sum_of seg (seq 0 n)) by (apply sum_pos; intros i I; apply in_seq in I; apply Sx; lia).
  assert (Wn : 0 <= want) by (unfold want; assert (0 <= inject_Z (cells_between l)) by (change 0 with (inject_Z 0); now rewrite <- Zle_Qle); lra).
  assert (Tn : 0 <= T) by (destruct (Sx 0%nat ltac:(lia)); lra).
  change (size x (sp_el vs 0)) with (sp 0%nat) in *. change (size x (sp_el vs n)) with (sp n) in *.
  assert (Eo : others == T - asked + missing) by (unfold others; change (sum_of (fun i => size x (seg_el vs i)) (seq 0 n)) with (sum_of seg (seq 0 n)) in Ss; change (sum_of (fun i => size x (sp_el vs i)) (mids n)) with (sum_of sp (mids n)) in Ss; lra).
  split.
  - intros At. destruct (Qlt_le_dec 0 missing) as [Mp|Mz]; [exfalso|intros i I; pose proof (sum_zero_all (fun i => Qmax 0 (want - sp i)) (mids n) ltac:(intros; apply Q.le_max_l) Mz i I) as Z; cbn beta in Z; pose proof (Q.le_max_r 0 (want - sp i)); lra].
    assert (Op0 : 0 < others) by lra. set (c := (others - missing) / others). assert (Cw : (1 - c) * others == missing) by (unfold c; field; intros Q; rewrite Q in Op0; discriminate).
    assert (C0 : 0 <= c) by (unfold c; apply Qle_shift_div_l; lra). assert (C1 : c <= 1) by (unfold c; apply Qle_shift_div_r; lra). clearbody c.
    destruct (Ex (fun i => if (i =? 0)%nat || (i =? n)%nat then c * sp i else want + c * Qmax 0 (sp i - want)) (fun i => c * seg i)) as (y & Ry & Y1 & Y2 & Le).
    + intros i Hi. destruct (Nat.eqb_spec i 0) as [->|]; [cbn [orb]; nra|]. destruct (Nat.eqb_spec i n) as [->|]; cbn [orb]; [nra|]. pose proof (Q.le_max_l 0 (sp i - want)). nra.
    + intros i Hi. destruct (Sx i Hi). fold (seg i) in *. nra.
    + rewrite Si. cbn [sum_of]. rewrite sum_app. cbn [sum_of]. rewrite (sum_scale c seg). rewrite (Nat.eqb_refl n), orb_true_r. cbn [Nat.eqb orb].
      assert (Em : sum_of (fun i => if (i =? 0)%nat || (i =? n)%nat then c * sp i else want + c * Qmax 0 (sp i - want)) (mids n) == asked + c * surplus).
      { unfold asked, surplus. rewrite <- sum_scale, <- sum_plus. apply sum_ext. intros i I. apply Mi in I. destruct (Nat.eqb_spec i 0); [lia|]. destruct (Nat.eqb_spec i n); [lia|]. reflexivity. }
      rewrite Em. assert (c * others == T - asked) by lra. unfold others in *. lra.
    + assert (Ym : forall i, In i (mids n) -> size y (sp_el vs i) == want + c * Qmax 0 (sp i - want)). { intros i I. apply Mi in I. rewrite Y2 by lia. destruct (Nat.eqb_spec i 0); [lia|]. destruct (Nat.eqb_spec i n); [lia|]. reflexivity. }
      pose proof (cheaper fx fi y c Ef Ei Rx Ry C0 C1 Y1) as Ch. rewrite (Y2 0%nat ltac:(lia)), (Y2 n ltac:(lia)) in Ch. rewrite (Nat.eqb_refl n), orb_true_r in Ch. cbn [Nat.eqb orb] in Ch. specialize (Ch (Qeq_refl _) (Qeq_refl _)).
      assert (all_cost vs l fx fi y <= all_cost vs l fx fi x - 90000 * ((1 - c) * others)); [|lra]. apply Ch; clear Ch; rewrite ?Cw.
      * rewrite Dabs. setoid_replace (sum_of (fun i => Qabs (size y (sp_el vs i) - want)) (mids n)) with (c * surplus); [nra|]. unfold surplus. rewrite <- sum_scale. apply sum_ext. intros i I. rewrite (Ym i I). pose proof (Q.le_max_l 0 (sp i - want)). rewrite Qabs_pos by nra. ring.
      * apply sum_le. intros [i j] I. apply all_pairs_in in I. cbn [fst snd] in *. destruct I as [I J]. rewrite (Ym i I), (Ym j J). setoid_replace (want + c * Qmax 0 (sp i - want) - (want + c * Qmax 0 (sp j - want))) with (c * Qmax 0 (sp i - want) - c * Qmax 0 (sp j - want)) by ring. now apply max0_diff.
      * setoid_replace (sum_of (fun i => Qmax 0 (want - size y (sp_el vs i))) (mids n)) with 0; [lra|]. apply sum_zero. intros i I. rewrite (Ym i I). pose proof (Q.le_max_l 0 (sp i - want)). apply Q.max_l. nra.
      * setoid_replace (sum_of (fun i => size y (sp_el vs i)) (mids n)) with (asked + c * surplus); [rewrite Dsum; lra|]. unfold asked, surplus. rewrite <- sum_scale, <- sum_plus. apply sum_ext. intros i I. apply (Ym i I).
  - intros At. destruct (Qlt_le_dec 0 others) as [Op0|Oz].
    2:{ assert (Zs : sum_of seg (seq 0 n) <= 0) by (unfold others in Oz; lra). intros i Hi. apply (sum_zero_all seg (seq 0 n)); [intros j J; apply in_seq in J; apply Sx; lia|exact Zs|apply in_seq; lia]. }
    exfalso. set (k := inject_Z (Z.of_nat (length (mids n)))). assert (Ea : asked == k * want) by (unfold asked, k; apply (sum_const want)). assert (Kn : 0 <= k) by (unfold k; change 0 with (inject_Z 0); rewrite <- Zle_Qle; lia). assert (Kp : 0 < k) by (destruct (Qlt_le_dec 0 k) as [K|K]; [exact K|assert (k == 0) by lra; exfalso; rewrite H in Ea; lra]).
    set (t := T / k). assert (Et : k * t == T) by (unfold t; field; intros Q; rewrite Q in Kp; discriminate). assert (T0 : 0 <= t) by (unfold t; apply Qle_shift_div_l; lra). assert (Tw : t <= want) by (unfold t; apply Qle_shift_div_r; [exact Kp|lra]). clearbody t.
    destruct (Ex (fun i => if (i =? 0)%nat || (i =? n)%nat then 0 else t) (fun i => 0)) as (y & Ry & Y1 & Y2 & Le).
    + intros i Hi. destruct ((i =? 0)%nat || (i =? n)%nat); lra.
    + intros i Hi. lra.
    + rewrite Si. cbn [sum_of]. rewrite sum_app. cbn [sum_of]. rewrite (Nat.eqb_refl n), orb_true_r. cbn [Nat.eqb orb]. rewrite (sum_zero (fun _ => 0) (seq 0 n)) by reflexivity.
      assert (Em : sum_of (fun i => if (i =? 0)%nat || (i =? n)%nat then 0 else t) (mids n) == k * t). { unfold k. rewrite <- sum_const. apply sum_ext. intros i I. apply Mi in I. destruct (Nat.eqb_spec i 0); [lia|]. destruct (Nat.eqb_spec i n); [lia|]. reflexivity. }
      rewrite Em. lra.
    + assert (Ym : forall i, In i (mids n) -> size y (sp_el vs i) == t). { intros i I. apply Mi in I. rewrite Y2 by lia. destruct (Nat.eqb_spec i 0); [lia|]. destruct (Nat.eqb_spec i n); [lia|]. reflexivity. }
      assert (C0 : 0 <= 0) by lra. assert (C1 : 0 <= 1) by lra. assert (Y1' : forall i, (i < n)%nat -> size y (seg_el vs i) == 0 * seg i) by (intros i Hi; rewrite (Y1 i Hi); ring).
      pose proof (cheaper fx fi y 0 Ef Ei Rx Ry C0 C1 Y1') as Ch. rewrite (Y2 0%nat ltac:(lia)), (Y2 n ltac:(lia)) in Ch. rewrite (Nat.eqb_refl n), orb_true_r in Ch. cbn [Nat.eqb orb] in Ch. specialize (Ch ltac:(ring) ltac:(ring)).
      assert (all_cost vs l fx fi y <= all_cost vs l fx fi x - 90000 * ((1 - 0) * others)); [|lra].
      assert (Km : sum_of (fun _ : nat => want - t) (mids n) == asked - T) by (rewrite sum_const; fold k; lra).
      apply Ch; clear Ch.
      * rewrite Dabs. setoid_replace (sum_of (fun i => Qabs (size y (sp_el vs i) - want)) (mids n)) with (asked - T); [lra|]. rewrite <- Km. apply sum_ext. intros i I. rewrite (Ym i I). rewrite Qabs_neg by lra. ring.
      * setoid_replace (sum_of (fun q => Qabs (size y (sp_el vs (fst q)) - size y (sp_el vs (snd q)))) (all_pairs (mids n))) with 0; [apply sum_pos; intros; apply Qabs_nonneg|]. apply sum_zero. intros [i j] I. apply all_pairs_in in I. cbn [fst snd] in *. destruct I as [I J]. rewrite (Ym i I), (Ym j J). setoid_replace (t - t) with 0 by ring. reflexivity.
      * setoid_replace (sum_of (fun i => Qmax 0 (want - size y (sp_el vs i))) (mids n)) with (asked - T); [lra|]. rewrite <- Km. apply sum_ext. intros i I. rewrite (Ym i I). apply Q.max_r. lra.
      * setoid_replace (sum_of (fun i => size y (sp_el vs i)) (mids n)) with T; [rewrite Dsum; unfold others in Eo; lra|]. rewrite <- Et. unfold k. rewrite <- sum_const. apply sum_ext. intros i I. apply (Ym i I).
Qed.
End Apart.
