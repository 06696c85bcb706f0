(** In a best solution a segment is shorter than it asks to be only where every other has no more than its rank entitles it to, and
    longer only where no other would mind less. *)
From Verif Require Import Base P_Base M_Geom M_Combin M_Solver M_Layout S_Solver S_Layout S_Place S_Priority P_Row P_System P_Step P_Noted P_Layout P_Sum P_Place P_Placed P_Apart P_Tile T_Solver T_Layout.
From Coq Require Import ZArith NArith QArith Qround Qabs Qminmax List Bool Lia Lqa Setoid Permutation.
Import ListNotations.
Open Scope Q_scope.

(** ** Sums over pairs *)
Lemma all_pairs_le {A} (h : A -> A -> Q) (l : list A) : (forall a b, In a l -> In b l -> 0 <= h a b) ->
  sum_of (fun p => h (fst p) (snd p) + h (snd p) (fst p)) (all_pairs l) <= sum_of (fun a => sum_of (h a) l) l.
Proof.
  induction l as [|a l IH]; intros H; [apply Qle_refl|]. cbn [all_pairs]. rewrite sum_app, sum_map. cbn [fst snd sum_of]. specialize (IH ltac:(intros; apply H; now right)). pose proof (H a a (or_introl eq_refl) (or_introl eq_refl)).
  rewrite (sum_plus (fun b => h a b) (fun b => h b a)), (sum_plus (fun b => h b a) (fun b => sum_of (h b) l)). change (sum_of (fun b => h a b) l) with (sum_of (h a) l). lra.
Qed.
(** Neighbours compared. *)
Fixpoint alike (g : nat -> Q) (l : list nat) : Q := match l with a :: (b :: _) as r => Qabs (g a - g b) + alike g r | _ => 0 end.
Lemma alike_cost z f l : cost z (neighbours (map f l)) == alike (fun i => size z (f i)) l.
Proof.
  induction l as [|a [|b l] IH]; [reflexivity|reflexivity|]. change (neighbours (map f (a :: b :: l))) with (has_size (f a) (el_size (f b)) all_segment_grow :: neighbours (map f (b :: l))).
  change (alike (fun i => size z (f i)) (a :: b :: l)) with (Qabs (size z (f a) - size z (f b)) + alike (fun i => size z (f i)) (b :: l)). rewrite <- IH. unfold cost. cbn [sum_of]. rewrite vio_size, eval_size. change (c_strength (has_size (f a) (el_size (f b)) all_segment_grow)) with 1. ring.
Qed.
Lemma alike_move g h l : alike h l <= alike g l + 2 * sum_of (fun i => Qabs (h i - g i)) l.
Proof.
  assert (G : forall l a, alike h (a :: l) <= alike g (a :: l) + 2 * sum_of (fun i => Qabs (h i - g i)) (a :: l) - Qabs (h a - g a)).
  { clear l. induction l as [|b l IH]; intros a.
    - cbn [alike sum_of]. pose proof (Qabs_nonneg (h a - g a)). lra.
    - specialize (IH b). change (alike h (a :: b :: l)) with (Qabs (h a - h b) + alike h (b :: l)). change (alike g (a :: b :: l)) with (Qabs (g a - g b) + alike g (b :: l)). set (U := alike h (b :: l)) in *. set (W := alike g (b :: l)) in *. clearbody U W. cbn [sum_of] in *.
      assert (T : Qabs (h a - h b) <= Qabs (g a - g b) + Qabs (h a - g a) + Qabs (h b - g b)).
      { setoid_replace (h a - h b) with ((g a - g b) + ((h a - g a) + - (h b - g b))) by ring. pose proof (Qabs_triangle (g a - g b) ((h a - g a) + - (h b - g b))). pose proof (Qabs_triangle (h a - g a) (- (h b - g b))). rewrite Qabs_opp in *. lra. }
      lra. }
  destruct l as [|a l]; [cbn; lra|]. specialize (G l a). pose proof (Qabs_nonneg (h a - g a)). lra.
Qed.
Lemma alike_ext g h l : (forall i, In i l -> g i == h i) -> alike g l == alike h l.
Proof.
  induction l as [|a [|b l] IH]; intros H; [reflexivity|reflexivity|]. change (alike g (a :: b :: l)) with (Qabs (g a - g b) + alike g (b :: l)). change (alike h (a :: b :: l)) with (Qabs (h a - h b) + alike h (b :: l)). rewrite (IH ltac:(intros; apply H; now right)), (H a), (H b) by (cbn; tauto). reflexivity.
Qed.

(** ** What one segment costs *)
Definition asked_of (T : Q) (c : lconstraint) : Q :=
  match c with
  | LMin n | LMax n | LLen n => inject_Z n * 100
  | LPercentage p => T * inject_Z p / 100
  | LRatio a b => T * inject_Z a / inject_Z (Z.max 1 b)
  | LFill _ => 0
  end.
Definition seg_cost (fl : flex) (T : Q) (c : lconstraint) (s : Q) : Q :=
  match c with
  | LMin n => 100000000 * Qmax 0 (inject_Z n * 100 - s) + match fl with FlexLegacy => 10000 * Qabs (s - inject_Z n * 100) | _ => 1000 * Qabs (s - T) end
  | LMax n => 100000000 * Qmax 0 (s - inject_Z n * 100) + 10000 * Qabs (s - inject_Z n * 100)
  | LLen n => 10000000 * Qabs (s - inject_Z n * 100)
  | LPercentage p => 1000000 * Qabs (s - T * inject_Z p / 100)
  | LRatio a b => 100000 * Qabs (s - T * inject_Z a / inject_Z (Z.max 1 b))
  | LFill _ => 1000 * Qabs (s - T)
  end.
Lemma seg_cost_ok fl T c z ar e : size z ar == T -> cost z (segment_constraints ar fl c e) == seg_cost fl T c (size z e).
Proof.
  intros A. assert (Ea : eval (el_size ar) z == T) by (rewrite eval_size; exact A). unfold cost. destruct c as [k|k|k|k|a b|k]; cbn [segment_constraints seg_cost].
  - destruct fl; cbn [sum_of]; rewrite vio_min_eq; change (c_strength (has_min_size e k min_size_gte)) with 100000000.
    1:{ rewrite vio_int. change (c_strength (has_int_size e k min_size_eq)) with 10000. ring. }
    all: rewrite vio_size, Ea; change (c_strength (has_size e (el_size ar) fill_grow)) with 1000; ring.
  - cbn [sum_of]. rewrite vio_max_eq, vio_int. change (c_strength (has_max_size e k max_size_lte)) with 100000000. change (c_strength (has_int_size e k max_size_eq)) with 10000. ring.
  - cbn [sum_of]. rewrite vio_int. change (c_strength (has_int_size e k length_size_eq)) with 10000000. ring.
  - cbn [sum_of]. set (f := e_div _ _). assert (Ef : eval f z == T * inject_Z k / 100) by (unfold f; rewrite !eval_div by discriminate; rewrite !eval_mul, Ea; reflexivity). rewrite vio_size, Ef. change (c_strength (has_size e f percentage_size_eq)) with 1000000. ring.
  - cbn [sum_of]. assert (Nz : ~ inject_Z (Z.max 1 b) == 0) by (intros Y; unfold Qeq in Y; cbn in Y; lia). set (f := e_div _ _). assert (Ef : eval f z == T * inject_Z a / inject_Z (Z.max 1 b)) by (unfold f; rewrite !eval_div by exact Nz; rewrite !eval_mul, Ea; reflexivity). rewrite vio_size, Ef. change (c_strength (has_size e f ratio_size_eq)) with 100000. ring.
  - cbn [sum_of]. rewrite vio_size, Ea. change (c_strength (has_size e (el_size ar) fill_grow)) with 1000. ring.
Qed.
Lemma seg_cost_ext fl T c s t : s == t -> seg_cost fl T c s == seg_cost fl T c t.
Proof. intros E. destruct c; cbn [seg_cost]; try destruct fl; now rewrite ?E. Qed.
(** How much a missing cell of a rank costs. *)
Definition rank_cost (r : nat) : Q := match r with 6%nat => 100000000 | 5%nat => 10000000 | 4%nat => 1000000 | 3%nat => 100000 | 2%nat => 10000 | _ => 1000 end.
(** A segment that is too short becomes longer. *)
Lemma seg_up fl T c s d : (2 <= rank c)%nat -> 0 <= d -> s + d <= asked_of T c -> s + d <= T -> seg_cost fl T c (s + d) <= seg_cost fl T c s - rank_cost (rank c) * d.
Proof.
  intros R D Le Lt. destruct c as [k|k|k|k|a b|k]; cbn [seg_cost rank rank_cost asked_of] in *; [| | | | |lia].
  - rewrite !Q.max_r by lra. destruct fl; rewrite !Qabs_neg by lra; lra.
  - rewrite !Q.max_l by lra. rewrite !Qabs_neg by lra. lra.
  - rewrite !Qabs_neg by lra. lra.
  - set (w := T * _ / _) in *. rewrite !Qabs_neg by lra. lra.
  - set (w := T * _ / _) in *. rewrite !Qabs_neg by lra. lra.
Qed.
(** One that has more than it is entitled to, or asks for less, becomes shorter. *)
Lemma abs_down s d k : 0 <= d -> Qabs (s - d - k) <= Qabs (s - k) + d.
Proof. intros H. apply Qabs_case; intros; apply Qabs_case; intros; lra. Qed.
Lemma seg_down fl T c s d r : (2 <= r <= 6)%nat -> 0 <= d -> (if (r <=? rank c)%nat then asked_of T c <= s - d else True) -> s <= T ->
  seg_cost fl T c (s - d) <= seg_cost fl T c s + rank_cost r / 10 * d.
Proof.
  intros R D Le St. assert (Rr : 1000 <= rank_cost r / 10) by (do 7 (destruct r as [|r]; [try lia; vm_compute; discriminate|]); lia).
  destruct (Nat.leb_spec r (rank c)) as [H|H].
  - assert (G : seg_cost fl T c (s - d) <= seg_cost fl T c s + 1000 * d).
    { destruct c as [k|k|k|k|a b|k]; cbn [seg_cost rank asked_of] in *; [| | | | |lia].
      - rewrite !Q.max_l by lra. destruct fl; try (rewrite !Qabs_pos by lra; lra); rewrite !Qabs_neg by lra; lra.
      - rewrite !Q.max_r, !Qabs_pos by lra. lra.
      - rewrite !Qabs_pos by lra. lra.
      - set (w := T * _ / _) in *. rewrite !Qabs_pos by lra. lra.
      - set (w := T * _ / _) in *. rewrite !Qabs_pos by lra. lra. }
    apply Qle_trans with (1 := G). nra.
  - assert (G : seg_cost fl T c (s - d) <= seg_cost fl T c s + rank_cost (rank c) * d).
    { destruct c as [k|k|k|k|a b|k]; cbn [seg_cost rank rank_cost] in *.
      - lia.
      - pose proof (abs_down s d (inject_Z k * 100) D). pose proof (max0_le (s - d - inject_Z k * 100) (s - inject_Z k * 100) ltac:(lra)). lra.
      - pose proof (abs_down s d (inject_Z k * 100) D). lra.
      - pose proof (abs_down s d (T * inject_Z k / 100) D). lra.
      - pose proof (abs_down s d (T * inject_Z a / inject_Z (Z.max 1 b)) D). lra.
      - pose proof (abs_down s d T D). lra. }
    assert (Q0 : rank_cost (rank c) <= rank_cost r / 10) by (destruct c; cbn [rank] in *; do 7 (destruct r as [|r]; [try lia; vm_compute; discriminate|]); lia).
    apply Qle_trans with (1 := G). nra.
Qed.

(** ** The filling segments *)
Section Fill.
Variables (n : nat) (fl : flex) (lcs : list lconstraint).
Definition growing : list nat := filter (fun i => fills fl (con lcs i)) (seq 0 n).
Definition sc (i : nat) : Q := scaling (con lcs i).
Definition fillc (g : nat -> Q) : Q := 100 * sum_of (fun p => Qabs (sc (snd p) * g (fst p) - sc (fst p) * g (snd p))) (all_pairs growing).
Lemma fillc_cost vs fi z : length vs = (2 * n + 2)%nat -> (1 <= n)%nat -> length lcs = n -> fill_constraints (map (seg_el vs) (seq 0 n)) lcs fl = Ret fi ->
  cost z fi == fillc (fun i => size z (seg_el vs i)).
Proof.
  intros Lv Nn Lc E. unfold fill_constraints in E. assert (Va : filter (fun p => fills fl (fst p)) (combine lcs (map (seg_el vs) (seq 0 n))) = map (fun i => (con lcs i, seg_el vs i)) growing).
  { clear E. rewrite (combine_eq vs n Lv Nn lcs Lc). unfold growing. induction (seq 0 n) as [|i l IH]; cbn [map filter fst]; [reflexivity|]. destruct (fills fl (con lcs i)); cbn [map]; now rewrite IH. }
  rewrite Va in E. unfold fillc. destruct (Nat.ltb_spec (length (map (fun i => (con lcs i, seg_el vs i)) growing)) 2) as [H|H].
  - injection E as <-. rewrite map_length in H. unfold cost. cbn [sum_of]. destruct growing as [|a [|b m]]; cbn in *; try lia; ring.
  - destruct (pairs_perm _ H) as (ps & Ep & Pm). rewrite Ep in E. cbn [bind] in E. apply (f_equal (fun o => match o with Ret a => a | Panic => [] end)) in E. cbn beta iota in E. subst fi.
    unfold cost. rewrite sum_map, (sum_perm _ _ _ Pm), all_pairs_map, sum_map, <- sum_scale. apply sum_ext. intros [i j] I. cbn [fst snd].
    unfold violation. cbn [c_op c_expr c_strength rel_expr]. rewrite eval_sub, !eval_mul, !eval_size. change grow with 100. unfold sc. rewrite (Qmult_comm (size z (seg_el vs i))), (Qmult_comm (size z (seg_el vs j))). reflexivity.
Qed.
Lemma fillc_ext g h : (forall i, (i < n)%nat -> g i == h i) -> fillc g == fillc h.
Proof.
  intros H. unfold fillc. apply Qmult_comp; [reflexivity|]. apply sum_ext. intros [i j] I. apply all_pairs_in in I. cbn [fst snd] in *. destruct I as [I J]. apply filter_In in I. apply filter_In in J. rewrite in_seq in I, J. rewrite (H i), (H j) by lia. reflexivity.
Qed.
Lemma sc_pos i : 0 < sc i \/ sc i == 0.
Proof. unfold sc, scaling. destruct (con lcs i); [left; reflexivity|right; reflexivity..|]. left. unfold qltb. destruct (Qle_bool (inject_Z n0) (1 # 1000000)) eqn:E; cbn [negb]; [reflexivity|]. assert (~ inject_Z n0 <= 1 # 1000000) by (intros Y; apply Qle_bool_iff in Y; congruence). apply Qnot_le_lt in H. apply Qlt_trans with (2 := H). reflexivity. Qed.
Lemma sc_nonneg i : 0 <= sc i.
Proof. destruct (sc_pos i); lra. Qed.
(** A change of the sizes, when the change for every pair is bounded. *)
Lemma fillc_move g h u e : (forall a, In a growing -> 0 <= u a) -> (forall a b, In a growing -> In b growing -> 0 <= e a b) ->
  (forall a b, In a growing -> In b growing -> Qabs (sc b * h a - sc a * h b) <= Qabs (sc b * g a - sc a * g b) + (u a * e a b + u b * e b a)) ->
  fillc h <= fillc g + 100 * sum_of (fun a => u a * sum_of (e a) growing) growing.
Proof.
  intros U E H. unfold fillc. assert (A : sum_of (fun p => Qabs (sc (snd p) * h (fst p) - sc (fst p) * h (snd p))) (all_pairs growing) <= sum_of (fun p => Qabs (sc (snd p) * g (fst p) - sc (fst p) * g (snd p)) + (u (fst p) * e (fst p) (snd p) + u (snd p) * e (snd p) (fst p))) (all_pairs growing)).
  { apply sum_le. intros [a b] I. apply all_pairs_in in I. cbn [fst snd] in *. now apply H. }
  rewrite (sum_plus (fun p => Qabs (sc (snd p) * g (fst p) - sc (fst p) * g (snd p))) (fun p => u (fst p) * e (fst p) (snd p) + u (snd p) * e (snd p) (fst p))) in A.
  pose proof (all_pairs_le (fun a b => u a * e a b) growing ltac:(intros a b I J; apply Qmult_le_0_compat; [exact (U a I)|exact (E a b I J)])) as B.
  assert (C : sum_of (fun a => sum_of (fun b => u a * e a b) growing) growing == sum_of (fun a => u a * sum_of (e a) growing) growing) by (apply sum_ext; intros a _; apply (sum_scale (u a) (e a))). rewrite C in B. cbn beta in B. lra.
Qed.
Definition is_fill (i : nat) : bool := match con lcs i with LFill _ => true | _ => false end.
Lemma min_sc i : In i growing -> is_fill i = false -> sc i == 1.
Proof. intros I. apply filter_In in I. destruct I as [_ I]. unfold is_fill, sc. unfold fills in I. destruct (con lcs i); try discriminate; intros _; reflexivity. Qed.
End Fill.

Lemma con_map lcs : map (con lcs) (seq 0 (length lcs)) = lcs.
Proof. induction lcs as [|c m IH]; [reflexivity|]. cbn [length seq map]. change (con (c :: m) 0) with c. f_equal. rewrite <- seq_shift, map_map. exact IH. Qed.

(** ** What is best *)
Section Best.
Variables (vs : list variable) (l : layout) (area : rect) (cs : list constr) (x : variable -> Q).
Hypotheses (V : vars_ok vs l) (Ep : problem vs l area = Ret cs) (Fe : feasible cs x) (Op : forall z, feasible cs z -> penalty cs x <= penalty cs z).
Let total := (snd (bounds l area) - fst (bounds l area))%Z.
Let n := length (l_constraints l).
Hypotheses (Nn : (1 <= n)%nat) (Space : (0 <= cells_between l)%Z).
Let T := inject_Z total * 100.
Let want := inject_Z (cells_between l) * 100.
Let seg i := size x (seg_el vs i).
Let sp i := size x (sp_el vs i).
Let asked := sum_of (fun _ : nat => want) (mids n).
Hypothesis Fits : asked <= T.
Let fl := l_flex l.
Let lcs := l_constraints l.
Let C i := con lcs i.
Definition nbc (g : nat -> Q) : Q := match fl with FlexLegacy => 0 | _ => alike g (seq 0 n) end.
Definition whole (p g : nat -> Q) : Q := spaces_cost fl T want n p + sum_of (fun i => seg_cost fl T (C i) (g i)) (seq 0 n) + fillc n fl lcs g + nbc g.
Lemma nbc_move g h : nbc h <= nbc g + 2 * sum_of (fun i => Qabs (h i - g i)) (seq 0 n).
Proof. unfold nbc. pose proof (alike_move g h (seq 0 n)). assert (0 <= sum_of (fun i => Qabs (h i - g i)) (seq 0 n)) by (apply sum_pos; intros; apply Qabs_nonneg). destruct fl; lra. Qed.
Lemma whole_ext p q g h : (forall i, (i <= n)%nat -> p i == q i) -> (forall i, (i < n)%nat -> g i == h i) -> whole p g == whole q h.
Proof.
  intros P G. unfold whole. rewrite (spaces_ext fl T want n p q P), (fillc_ext n fl lcs g h G). assert (A : sum_of (fun i => seg_cost fl T (C i) (g i)) (seq 0 n) == sum_of (fun i => seg_cost fl T (C i) (h i)) (seq 0 n)) by (apply sum_ext; intros i I; apply in_seq in I; apply seg_cost_ext, G; lia).
  assert (B : nbc g == nbc h) by (unfold nbc; destruct fl; try reflexivity; apply alike_ext; intros i I; apply in_seq in I; apply G; lia). rewrite A, B. reflexivity.
Qed.
Lemma whole_cost fx fi z : flex_constraints (area_el vs) (map (sp_el vs) (seq 0 (S n))) (l_flex l) (cells_between l) = Ret fx -> fill_constraints (map (seg_el vs) (seq 0 n)) (l_constraints l) (l_flex l) = Ret fi -> row vs l area z ->
  all_cost vs l fx fi z == whole (fun i => size z (sp_el vs i)) (fun i => size z (seg_el vs i)).
Proof.
  intros Ef Ei R. pose proof V as [_ Lv]. fold n in Lv. pose proof (flex_spaces vs l area V Nn fx z Ef R) as A. fold total T want n in A. pose proof (fillc_cost n fl lcs vs fi z Lv Nn eq_refl Ei) as B. destruct R as [Az _ _ _ _]. fold total T in Az.
  unfold all_cost. fold n. fold fl lcs. unfold whole. fold fl in A. rewrite A, B.
  assert (S1 : cost z (size_constraints (area_el vs) (map (seg_el vs) (seq 0 n)) lcs fl) == sum_of (fun i => seg_cost fl T (C i) (size z (seg_el vs i))) (seq 0 n)).
  { unfold size_constraints. rewrite (combine_eq vs n Lv Nn lcs eq_refl). unfold cost. rewrite sum_flat_map, sum_map. cbn [fst snd]. apply sum_ext. intros i _. apply seg_cost_ok. exact Az. }
  assert (S2 : cost z (match fl with FlexLegacy => [] | _ => neighbours (map (seg_el vs) (seq 0 n)) end) == nbc (fun i => size z (seg_el vs i))) by (unfold nbc; destruct fl; try reflexivity; apply alike_cost).
  rewrite S1, S2. reflexivity.
Qed.
Lemma seg_range i : (i < n)%nat -> 0 <= seg i /\ seg i <= T.
Proof. intros H. destruct (exchange vs l area cs x V Ep Fe Op Nn) as (fx & fi & _ & _ & [_ Sx _ _ _] & _). fold total T n in Sx. exact (Sx i H). Qed.
Lemma sp_pos i : (i <= n)%nat -> 0 <= sp i.
Proof.
  intros H. destruct (ends_pos vs l area cs x V Ep Fe Op Nn) as [A B]. fold n in B. destruct (Nat.eq_dec i 0) as [->|N0]; [exact A|]. destruct (Nat.eq_dec i n) as [->|Nn']; [exact B|].
  apply Qle_trans with want; [|apply (wanted vs l area cs x V Ep Fe Op Nn Space Fits i); apply in_seq; fold n; lia]. unfold want. assert (0 <= inject_Z (cells_between l)) by (change 0 with (inject_Z 0); now rewrite <- Zle_Qle). lra.
Qed.
Lemma all_sizes : sum_of seg (seq 0 n) + sum_of sp (seq 0 (S n)) == T.
Proof. pose proof V as [_ Lv]. fold n in Lv. pose proof (sizes_sum vs n Lv Nn x) as Ss. destruct (exchange vs l area cs x V Ep Fe Op Nn) as (fx & fi & _ & _ & [Ax _ _ _ _] & _). fold total T in Ax. rewrite Ax in Ss. exact Ss. Qed.
Lemma best p g : (forall i, (i <= n)%nat -> 0 <= p i) -> (forall i, (i < n)%nat -> 0 <= g i) -> sum_of g (seq 0 n) + sum_of p (seq 0 (S n)) == T -> whole sp seg <= whole p g.
Proof.
  intros P0 G0 Sm. destruct (exchange vs l area cs x V Ep Fe Op Nn) as (fx & fi & Ef & Ei & Rx & Ex). fold n in Ef, Ei, Ex. fold total in Ex. fold T in Ex.
  destruct (Ex p g P0 G0 Sm) as (y & Ry & Y1 & Y2 & Le). rewrite (whole_cost fx fi x Ef Ei Rx), (whole_cost fx fi y Ef Ei Ry) in Le. rewrite (whole_ext _ p _ g Y2 Y1) in Le. exact Le.
Qed.

(** *** Moving some of the size from one place to another cannot be better *)
Lemma moved p up dn a b f : (forall i, (i <= n)%nat -> 0 <= p i) -> (forall i, (i < n)%nat -> 0 <= up i /\ 0 <= dn i /\ dn i <= seg i + up i) ->
  sum_of up (seq 0 n) + sum_of p (seq 0 (S n)) == sum_of dn (seq 0 n) + sum_of sp (seq 0 (S n)) ->
  spaces_cost fl T want n p <= spaces_cost fl T want n sp + a ->
  sum_of (fun i => seg_cost fl T (C i) (seg i + up i - dn i)) (seq 0 n) <= sum_of (fun i => seg_cost fl T (C i) (seg i)) (seq 0 n) + b ->
  fillc n fl lcs (fun i => seg i + up i - dn i) <= fillc n fl lcs seg + f ->
  0 <= a + b + f + 2 * (sum_of up (seq 0 n) + sum_of dn (seq 0 n)).
Proof.
  intros P0 U Sm A B F. set (g := fun i => seg i + up i - dn i) in *.
  assert (Sg : sum_of g (seq 0 n) == sum_of seg (seq 0 n) + sum_of up (seq 0 n) - sum_of dn (seq 0 n)) by (unfold g; rewrite (sum_minus (fun i => seg i + up i) dn), (sum_plus seg up); reflexivity).
  pose proof all_sizes as Al. pose proof (best p g P0 ltac:(intros i Hi; destruct (U i Hi) as (U1 & U2 & U3); unfold g; lra) ltac:(rewrite Sg; lra)) as Bs. unfold whole in Bs.
  pose proof (nbc_move seg g) as Nb. assert (Ab : sum_of (fun i => Qabs (g i - seg i)) (seq 0 n) <= sum_of up (seq 0 n) + sum_of dn (seq 0 n)).
  { rewrite <- (sum_plus up dn). apply sum_le. intros i I. apply in_seq in I. destruct (U i ltac:(lia)) as (U1 & U2 & _). unfold g. apply Qabs_case; intros; lra. }
  change (fun i => seg_cost fl T (C i) (seg i + up i - dn i)) with (fun i => seg_cost fl T (C i) (g i)) in B. lra.
Qed.
Definition single (k : nat) (d : Q) (i : nat) : Q := if (i =? k)%nat then d else 0.
Lemma single_sum k d m : NoDup m -> sum_of (single k d) m == if existsb (Nat.eqb k) m then d else 0.
Proof.
  induction m as [|a m IH]; intros Nd; [reflexivity|]. apply NoDup_cons_iff in Nd. destruct Nd as [Na Nd]. cbn [sum_of existsb]. rewrite (IH Nd). unfold single. rewrite (Nat.eqb_sym k a). destruct (Nat.eqb_spec a k) as [->|E]; cbn [orb]; [|ring].
  destruct (existsb (Nat.eqb k) m) eqn:Q; [|ring]. apply existsb_exists in Q. destruct Q as (b & I & Q). apply Nat.eqb_eq in Q. subst b. contradiction.
Qed.
Lemma single_all k d : (k < n)%nat -> sum_of (single k d) (seq 0 n) == d.
Proof. intros H. rewrite single_sum by apply seq_NoDup. replace (existsb (Nat.eqb k) (seq 0 n)) with true; [reflexivity|]. symmetry. apply existsb_exists. exists k. split; [apply in_seq; lia|apply Nat.eqb_refl]. Qed.
Let G := growing n fl lcs.
Let gr i := fills fl (C i).
Lemma G_in i : In i G <-> (i < n)%nat /\ gr i = true.
Proof. unfold G, growing. rewrite filter_In, in_seq. fold (C i). fold (gr i). intuition lia. Qed.
Lemma single_G k d : (k < n)%nat -> sum_of (single k d) G == if gr k then d else 0.
Proof.
  intros H. rewrite single_sum by (apply NoDup_filter, seq_NoDup). replace (existsb (Nat.eqb k) G) with (gr k); [reflexivity|]. destruct (gr k) eqn:E; symmetry.
  - apply existsb_exists. exists k. split; [apply G_in; tauto|apply Nat.eqb_refl].
  - apply not_true_iff_false. intros Q. apply existsb_exists in Q. destruct Q as (b & I & Q). apply Nat.eqb_eq in Q. subst b. apply G_in in I. destruct I. congruence.
Qed.
Let M := sum_of (fun i => if is_fill lcs i then 0 else 1) G.
Let S_ := sum_of (sc lcs) G.
Hypothesis Mod : moderate l.
Lemma con_sum (f : lconstraint -> Q) : sum_of f lcs == sum_of (fun i => f (C i)) (seq 0 n).
Proof.
  pose proof (con_map lcs) as E. symmetry in E.
  rewrite E at 1. rewrite sum_map. reflexivity.
Qed.
Lemma filter_le (f : nat -> Q) q m : (forall i, In i m -> 0 <= f i) -> sum_of f (filter q m) <= sum_of f m.
Proof. intros H. rewrite (sum_filter f q m). pose proof (sum_pos f (filter (fun a => negb (q a)) m) ltac:(intros i I; apply filter_In in I; apply H; tauto)). lra. Qed.
Lemma n_few : inject_Z (Z.of_nat n) <= 80.
Proof. destruct Mod as [A _]. fold lcs n in A. change 80 with (inject_Z 80). rewrite <- Zle_Qle. unfold n, lcs in *. lia. Qed.
Lemma M_few : 0 <= M /\ M <= 80.
Proof.
  split; [apply sum_pos; intros; destruct (is_fill lcs a); discriminate|]. apply Qle_trans with (2 := n_few). apply Qle_trans with (sum_of (fun _ : nat => 1) G); [apply sum_le; intros; destruct (is_fill lcs a); discriminate|].
  unfold G, growing. apply Qle_trans with (sum_of (fun _ : nat => 1) (seq 0 n)); [apply filter_le; intros; discriminate|]. rewrite sum_const, seq_length. lra.
Qed.
Lemma S_few : 0 <= S_ /\ S_ <= 100080.
Proof.
  split; [apply sum_pos; intros; apply sc_nonneg|]. apply Qle_trans with (sum_of (sc lcs) (seq 0 n)); [apply filter_le; intros; apply sc_nonneg|].
  apply Qle_trans with (sum_of (fun i => (fun c => inject_Z (fill_weight c) + 1) (C i)) (seq 0 n)).
  - apply sum_le. intros i _. unfold sc, scaling. fold (C i). destruct (C i) as [k|k|k|k|a b|k]; cbn [fill_weight]; try (vm_compute; discriminate). unfold qltb. assert (H : inject_Z k <= inject_Z (Z.max 1 k)) by (rewrite <- Zle_Qle; lia). assert (H1 : 1 <= inject_Z (Z.max 1 k)) by (change 1 with (inject_Z 1); rewrite <- Zle_Qle; lia). destruct (negb _); lra.
  - rewrite <- (con_sum (fun c => inject_Z (fill_weight c) + 1)). rewrite (sum_plus (fun c => inject_Z (fill_weight c)) (fun _ => 1)), sum_const. fold n. change (length lcs) with n. pose proof n_few. destruct Mod as [_ B]. fold lcs in B.
    assert (E : forall m, sum_of (fun c => inject_Z (fill_weight c)) m == inject_Z (fold_right (fun c z => fill_weight c + z)%Z 0%Z m)) by (induction m as [|c m IH]; [reflexivity|cbn [sum_of fold_right]; rewrite IH, inject_Z_plus; reflexivity]). rewrite E. rewrite Zle_Qle in B. change (inject_Z 100000) with 100000 in B. lra.
Qed.
(** *** A segment that is too short *)
Section Short.
Variable i : nat.
Hypotheses (Hi : (i < n)%nat) (Rk : (2 <= rank (C i))%nat) (Sh : seg i < asked_of T (C i)).
Let W := rank_cost (rank (C i)).
Lemma W_big : 10000 <= W /\ (gr i = true -> W == 100000000).
Proof. unfold W, gr. destruct (C i) as [k|k|k|k|a b|k]; cbn [rank rank_cost fills] in *; try lia; (split; [discriminate|]); intros Y; try discriminate Y; reflexivity. Qed.
Lemma rank_le : (rank (C i) <= 6)%nat.
Proof. destruct (C i); cbn; lia. Qed.
Lemma member_le (f : nat -> Q) m a : (forall b, In b m -> 0 <= f b) -> In a m -> f a <= sum_of f m.
Proof. induction m as [|b m IH]; intros H I; [destruct I|]. cbn [sum_of]. destruct I as [->|I]; [pose proof (sum_pos f m ltac:(intros; apply H; now right)); lra|]. pose proof (H b (or_introl eq_refl)). specialize (IH ltac:(intros; apply H; now right) I). lra. Qed.
Lemma short_move p dn d : 0 < d -> d <= asked_of T (C i) - seg i -> (forall k, (k <= n)%nat -> 0 <= p k) -> (forall k, (k < n)%nat -> 0 <= dn k /\ dn k <= seg k) -> dn i == 0 ->
  d + sum_of p (seq 0 (S n)) == sum_of dn (seq 0 n) + sum_of sp (seq 0 (S n)) -> sum_of dn (seq 0 n) <= d ->
  spaces_cost fl T want n p <= spaces_cost fl T want n sp + 100 * (d - sum_of dn (seq 0 n)) ->
  (forall k, (k < n)%nat -> k <> i -> seg_cost fl T (C k) (seg k - dn k) <= seg_cost fl T (C k) (seg k) + W / 10 * dn k) ->
  fillc n fl lcs (fun k => seg k + single i d k - dn k) <= fillc n fl lcs seg + 100 * ((M + (if gr i then S_ else 0)) * d) -> False.
Proof.
  intros D Le P0 Dn Di Sm Sd A B F. pose proof W_big as [Wb Wg]. pose proof M_few as [M0 M1]. pose proof S_few as [S0 S1].
  assert (Si : forall k, 0 <= single i d k) by (intros k; unfold single; destruct (k =? i)%nat; lra).
  assert (Gk : forall k, (k < n)%nat -> 0 <= seg k + single i d k - dn k) by (intros k Hk; destruct (Dn k Hk); specialize (Si k); lra).
  assert (Top : seg i + d <= T).
  { pose proof (member_le (fun k => seg k + single i d k - dn k) (seq 0 n) i ltac:(intros k I; apply in_seq in I; apply Gk; lia) ltac:(apply in_seq; lia)) as Me. cbn beta in Me. unfold single in Me at 1. rewrite Nat.eqb_refl in Me.
    rewrite (sum_minus (fun k => seg k + single i d k) dn), (sum_plus seg (single i d)), (single_all i d Hi) in Me. pose proof all_sizes. pose proof (sum_pos p (seq 0 (S n)) ltac:(intros k I; apply in_seq in I; apply P0; lia)). lra. }
  assert (Bs : sum_of (fun k => seg_cost fl T (C k) (seg k + single i d k - dn k)) (seq 0 n) <= sum_of (fun k => seg_cost fl T (C k) (seg k)) (seq 0 n) + (W / 10 * sum_of dn (seq 0 n) - W * d)).
  { assert (E : W / 10 * sum_of dn (seq 0 n) - W * d == sum_of (fun k => W / 10 * dn k + single i (- (W * d)) k) (seq 0 n)) by (rewrite (sum_plus (fun k => W / 10 * dn k) (single i (- (W * d)))), sum_scale, (single_all i _ Hi); ring). rewrite E. rewrite <- (sum_plus (fun k => seg_cost fl T (C k) (seg k)) (fun k => W / 10 * dn k + single i (- (W * d)) k)). apply sum_le. intros k I. apply in_seq in I. destruct (Nat.eq_dec k i) as [->|Nk].
    - unfold single. rewrite Nat.eqb_refl. rewrite (seg_cost_ext fl T (C i) (seg i + d - dn i) (seg i + d)) by lra. pose proof (seg_up fl T (C i) (seg i) d Rk ltac:(lra) ltac:(lra) Top) as U. fold W in U. assert (W / 10 * dn i == 0) by (rewrite Di; ring). lra.
    - unfold single. destruct (Nat.eqb_spec k i) as [Q|_]; [contradiction|]. rewrite (seg_cost_ext fl T (C k) (seg k + 0 - dn k) (seg k - dn k)) by lra. specialize (B k ltac:(lia) Nk). lra. }
  pose proof (moved p (single i d) dn _ _ _ P0 ltac:(intros k Hk; destruct (Dn k Hk); specialize (Si k); repeat split; lra) ltac:(rewrite (single_all i d Hi); exact Sm) A Bs F) as Mv. rewrite (single_all i d Hi) in Mv.
  pose proof (sum_pos dn (seq 0 n) ltac:(intros k I; apply in_seq in I; apply Dn; lia)) as Dp.
  assert (W10 : W / 10 == W * (1 # 10)) by (unfold Qdiv; reflexivity). rewrite W10 in Mv. set (sd := sum_of dn (seq 0 n)) in *. clearbody sd.
  assert (WW : 100 * (d - sd) + W * (1 # 10) * sd <= W * (1 # 10) * d) by nra.
  destruct (gr i).
  - specialize (Wg eq_refl). assert (E1 : W * (1 # 10) * d == 10000000 * d) by (rewrite Wg; ring). assert (E2 : W * d == 100000000 * d) by (rewrite Wg; ring). assert (E3 : (M + S_) * d <= 100160 * d) by nra. lra.
  - assert (E3 : (M + 0) * d <= 80 * d) by nra. assert (E4 : 10000 * d <= W * d) by nra. lra.
Qed.

(** Nobody who grows gives. *)
Lemma fill_plain d dn : 0 <= d -> (forall k, In k G -> dn k == 0) -> fillc n fl lcs (fun k => seg k + single i d k - dn k) <= fillc n fl lcs seg + 100 * ((M + (if gr i then S_ else 0)) * d).
Proof.
  intros D Z0. assert (Si : forall k, 0 <= single i d k) by (intros k; unfold single; destruct (k =? i)%nat; lra). pose proof M_few as [M0 _].
  pose proof (fillc_move n fl lcs seg (fun k => seg k + single i d k - dn k) (single i d) (fun _ b => sc lcs b) ltac:(intros; apply Si) ltac:(intros; apply sc_nonneg)) as Mv. fold G in Mv. fold S_ in Mv.
  assert (H : fillc n fl lcs (fun k => seg k + single i d k - dn k) <= fillc n fl lcs seg + 100 * sum_of (fun a => single i d a * sum_of (fun b => sc lcs b) G) G).
  { apply Mv. intros a b Ia Ib. rewrite (Z0 a Ia), (Z0 b Ib). pose proof (sc_nonneg lcs a) as Pa. pose proof (sc_nonneg lcs b) as Pb. pose proof (Si a) as Ua. pose proof (Si b) as Ub.
    setoid_replace (sc lcs b * (seg a + single i d a - 0) - sc lcs a * (seg b + single i d b - 0)) with ((sc lcs b * seg a - sc lcs a * seg b) + (sc lcs b * single i d a + - (sc lcs a * single i d b))) by ring.
    apply Qle_trans with (1 := Qabs_triangle _ _). apply Qplus_le_r. apply Qle_trans with (1 := Qabs_triangle _ _). rewrite Qabs_opp, !Qabs_pos by now apply Qmult_le_0_compat. lra. }
  clear Mv. apply Qle_trans with (1 := H). change (sum_of (fun b => sc lcs b) G) with S_.
  assert (E : sum_of (fun a => single i d a * S_) G == (if gr i then d else 0) * S_) by (rewrite <- (single_G i d Hi), Qmult_comm, <- sum_scale; apply sum_ext; intros; ring). rewrite E. destruct (gr i); nra.
Qed.
(** *** The free space gives *)
Let base k := if (k =? 0)%nat then 0 else if (k =? n)%nat then 0 else want.
Let free := sum_of sp (seq 0 (S n)) - asked.
Let less t k := sp k - t * (sp k - base k).
Lemma base_mid k : In k (mids n) -> base k = want.
Proof. intros I. apply in_seq in I. unfold base. destruct (Nat.eqb_spec k 0); [lia|]. destruct (Nat.eqb_spec k n); [lia|reflexivity]. Qed.
Lemma base_end : base 0%nat = 0 /\ base n = 0.
Proof. unfold base. cbn [Nat.eqb]. split; [reflexivity|]. rewrite Nat.eqb_refl. now destruct (n =? 0)%nat. Qed.
Lemma wide k : In k (mids n) -> want <= sp k.
Proof. exact (wanted vs l area cs x V Ep Fe Op Nn Space Fits k). Qed.
Lemma want_nonneg : 0 <= want.
Proof. unfold want. assert (0 <= inject_Z (cells_between l)) by (change 0 with (inject_Z 0); now rewrite <- Zle_Qle). lra. Qed.
Lemma free_parts : free == sp 0%nat + sum_of (fun k => sp k - want) (mids n) + sp n.
Proof. unfold free. pose proof (ends_sum l area Nn Fits sp) as E. fold n in E. rewrite E. unfold asked. rewrite (sum_minus sp (fun _ => want)). ring. Qed.
Lemma over_pos : 0 <= sum_of (fun k => sp k - want) (mids n).
Proof. apply sum_pos. intros k I. pose proof (wide k I). lra. Qed.
Lemma less_cost t : 0 <= t -> t <= 1 -> spaces_cost fl T want n (less t) <= spaces_cost fl T want n sp + 100 * (t * free).
Proof.
  intros T0 T1. pose proof (sp_pos 0 ltac:(lia)) as E0. pose proof (sp_pos n ltac:(lia)) as En. destruct base_end as [B0 Bn]. rewrite free_parts. pose proof over_pos as Ov.
  assert (L0 : less t 0%nat == (1 - t) * sp 0%nat) by (unfold less; rewrite B0; ring). assert (Ln : less t n == (1 - t) * sp n) by (unfold less; rewrite Bn; ring).
  assert (Lm : forall k, In k (mids n) -> less t k - want == (1 - t) * (sp k - want)) by (intros k I; unfold less; rewrite (base_mid k I); ring).
  assert (F : sum_of (fun k => Qabs (less t k - want)) (mids n) <= sum_of (fun k => Qabs (sp k - want)) (mids n)) by (apply sum_le; intros k I; apply (shrink_abs _ _ (1 - t)); [lra|lra|now apply Lm]).
  assert (P : sum_of (fun q => Qabs (less t (fst q) - less t (snd q))) (all_pairs (mids n)) <= sum_of (fun q => Qabs (sp (fst q) - sp (snd q))) (all_pairs (mids n))).
  { apply sum_le. intros [a b] I. apply all_pairs_in in I. cbn [fst snd] in *. destruct I as [I J]. apply (shrink_abs _ _ (1 - t)); [lra|lra|]. pose proof (Lm a I). pose proof (Lm b J). lra. }
  assert (Gw : sum_of (fun k => 100100100 * Qmax 0 (want - less t k) + 10 * (T - less t k)) (mids n) <= sum_of (fun k => 100100100 * Qmax 0 (want - sp k) + 10 * (T - sp k)) (mids n) + 10 * (t * sum_of (fun k => sp k - want) (mids n))).
  { rewrite <- (sum_scale t), <- (sum_scale 10), <- sum_plus. apply sum_le. intros k I. pose proof (wide k I) as Wd. pose proof (Lm k I) as Lk. assert (Nn' : 0 <= (1 - t) * (sp k - want)) by (apply Qmult_le_0_compat; lra). rewrite !Q.max_l by lra. cbn beta. lra. }
  assert (A0 : Qabs (less t 0%nat) <= Qabs (sp 0%nat)) by (apply (shrink_abs _ _ (1 - t)); [lra|lra|exact L0]). assert (An : Qabs (less t n) <= Qabs (sp n)) by (apply (shrink_abs _ _ (1 - t)); [lra|lra|exact Ln]).
  assert (Ac : Qabs (less t 0%nat - less t n) <= Qabs (sp 0%nat - sp n)) by (apply (shrink_abs _ _ (1 - t)); [lra|lra|rewrite L0, Ln; ring]).
  assert (Q1 : 0 <= t * sp 0%nat) by now apply Qmult_le_0_compat. assert (Q2 : 0 <= t * sp n) by now apply Qmult_le_0_compat. assert (Q3 : 0 <= t * sum_of (fun k => sp k - want) (mids n)) by now apply Qmult_le_0_compat.
  unfold spaces_cost. cbv zeta. set (s1 := sum_of (fun k => sp k - want) (mids n)) in *. clearbody s1. destruct fl; lra.
Qed.
Lemma less_pos t : 0 <= t -> t <= 1 -> forall k, (k <= n)%nat -> 0 <= less t k.
Proof. intros T0 T1 k Hk. pose proof (sp_pos k Hk) as P. unfold less. assert (B : 0 <= base k) by (pose proof want_nonneg; unfold base; destruct (k =? 0)%nat, (k =? n)%nat; lra). assert (0 <= (1 - t) * sp k) by (apply Qmult_le_0_compat; lra). assert (0 <= t * base k) by (apply Qmult_le_0_compat; lra). lra. Qed.
Lemma less_sum t : sum_of (less t) (seq 0 (S n)) == sum_of sp (seq 0 (S n)) - t * free.
Proof.
  unfold less. rewrite (sum_minus sp (fun k => t * (sp k - base k))), sum_scale. apply Qplus_comp; [reflexivity|]. apply Qopp_comp, Qmult_comp; [reflexivity|]. rewrite free_parts. pose proof (ends_sum l area Nn Fits (fun k => sp k - base k)) as E. fold n in E. rewrite E. destruct base_end as [-> ->].
  rewrite (sum_ext (fun k => sp k - base k) (fun k => sp k - want)) by (intros k I; now rewrite (base_mid k I)). ring.
Qed.
Lemma free_nonneg : 0 <= free.
Proof. rewrite free_parts. pose proof over_pos. pose proof (sp_pos 0 ltac:(lia)). pose proof (sp_pos n ltac:(lia)). lra. Qed.
Lemma short_no_free : free == 0.
Proof.
  destruct (Qlt_le_dec 0 free) as [F|F]; [|pose proof free_nonneg; lra]. exfalso. set (gap_ := asked_of T (C i) - seg i). assert (Gp : 0 < gap_) by (unfold gap_; lra).
  set (d := Qmin free gap_). assert (D0 : 0 < d) by (unfold d; apply Q.min_case_strong; [intros a b E; now rewrite E|intros; exact F|intros; exact Gp]). assert (D1 : d <= free) by apply Q.le_min_l. assert (D2 : d <= gap_) by apply Q.le_min_r. clearbody d.
  set (t := d / free). assert (Et : t * free == d) by (unfold t; field; intros Y; lra). assert (T0 : 0 <= t) by (unfold t; apply Qle_shift_div_l; lra). assert (T1 : t <= 1) by (unfold t; apply Qle_shift_div_r; lra).
  assert (Zs : sum_of (fun _ : nat => 0) (seq 0 n) == 0) by (apply sum_zero; reflexivity).
  apply (short_move (less t) (fun _ => 0) d D0 D2 (less_pos t T0 T1)).
  - intros k Hk. pose proof (seg_range k Hk). lra.
  - reflexivity.
  - rewrite less_sum, Et, Zs. ring.
  - rewrite Zs. lra.
  - rewrite Zs. pose proof (less_cost t T0 T1) as L. rewrite Et in L. lra.
  - intros k Hk Nk. rewrite (seg_cost_ext fl T (C k) (seg k - 0) (seg k)) by lra. lra.
  - apply fill_plain; [lra|reflexivity].
Qed.
(** *** The filling segments give *)
Lemma short_no_fill k : (k < n)%nat -> is_fill lcs k = true -> seg k == 0.
Proof.
  assert (Fi : is_fill lcs i = false) by (unfold is_fill; fold (C i); destruct (C i); cbn in Rk; try reflexivity; lia).
  set (fs k := if is_fill lcs k then seg k else 0). set (tot := sum_of fs (seq 0 n)).
  assert (Fp : forall k, (k < n)%nat -> 0 <= fs k) by (intros j Hj; unfold fs; pose proof (seg_range j Hj); destruct (is_fill lcs j); lra).
  destruct (Qlt_le_dec 0 tot) as [F|F]; cycle 1.
  { intros Hk Ff. pose proof (member_le fs (seq 0 n) k ltac:(intros j I; apply in_seq in I; apply Fp; lia) ltac:(apply in_seq; lia)) as Me. fold tot in Me. unfold fs in Me at 1. rewrite Ff in Me. pose proof (seg_range k Hk). lra. }
  exfalso. set (gap_ := asked_of T (C i) - seg i). assert (Gp : 0 < gap_) by (unfold gap_; lra).
  set (d := Qmin tot gap_). assert (D0 : 0 < d) by (unfold d; apply Q.min_case_strong; [intros a b E; now rewrite E|intros; exact F|intros; exact Gp]). assert (D1 : d <= tot) by apply Q.le_min_l. assert (D2 : d <= gap_) by apply Q.le_min_r. clearbody d.
  set (t := d / tot). assert (Et : t * tot == d) by (unfold t; field; intros Y; lra). assert (T0 : 0 <= t) by (unfold t; apply Qle_shift_div_l; lra). assert (T1 : t <= 1) by (unfold t; apply Qle_shift_div_r; lra). clearbody t.
  set (dn k := t * fs k). assert (Sd : sum_of dn (seq 0 n) == d) by (unfold dn; rewrite sum_scale; fold tot; exact Et).
  assert (Dn : forall k, (k < n)%nat -> 0 <= dn k /\ dn k <= fs k) by (intros j Hj; specialize (Fp j Hj); unfold dn; split; [now apply Qmult_le_0_compat|nra]).
  assert (Fs : forall k, (k < n)%nat -> fs k <= seg k) by (intros j Hj; unfold fs; pose proof (seg_range j Hj); destruct (is_fill lcs j); lra).
  assert (Di : dn i == 0) by (unfold dn, fs; rewrite Fi; ring).
  apply (short_move sp dn d D0 D2 sp_pos).
  - intros j Hj. destruct (Dn j Hj). specialize (Fs j Hj). lra.
  - exact Di.
  - rewrite Sd. ring.
  - rewrite Sd. lra.
  - rewrite Sd. lra.
  - intros j Hj Nj. unfold dn, fs. destruct (is_fill lcs j) eqn:Fj.
    + assert (Rj : rank (C j) = 1%nat) by (unfold is_fill in Fj; fold (C j) in Fj; destruct (C j); try discriminate; reflexivity). pose proof (seg_down fl T (C j) (seg j) (t * seg j) (rank (C i)) ltac:(split; [exact Rk|apply rank_le]) ltac:(pose proof (seg_range j Hj); apply Qmult_le_0_compat; lra)) as H. rewrite Rj in H. destruct (Nat.leb_spec (rank (C i)) 1) as [Y|_]; [lia|]. exact (H Logic.I (proj2 (seg_range j Hj))).
    + rewrite (seg_cost_ext fl T (C j) (seg j - t * 0) (seg j)) by lra. lra.
  - set (u k := single i d k + dn k). set (e a b := if is_fill lcs a then (if is_fill lcs b then 0 else 1) else sc lcs b).
    assert (Si : forall k, 0 <= single i d k) by (intros j; unfold single; destruct (j =? i)%nat; lra).
    assert (Sf : forall k, is_fill lcs k = true -> single i d k == 0) by (intros j Fj; unfold single; destruct (Nat.eqb_spec j i) as [->|_]; [congruence|reflexivity]).
    assert (Nf : forall k, is_fill lcs k = false -> dn k == 0) by (intros j Fj; unfold dn, fs; rewrite Fj; ring).
    assert (Lt : forall k, In k G -> (k < n)%nat) by (intros j I; apply G_in in I; tauto).
    assert (Tri : forall p q r, Qabs (p + (q + - r)) <= Qabs p + (Qabs q + Qabs r)) by (intros p q r; pose proof (Qabs_triangle p (q + - r)); pose proof (Qabs_triangle q (- r)); rewrite Qabs_opp in *; lra).
    pose proof (fillc_move n fl lcs seg (fun k => seg k + single i d k - dn k) u e) as Mv. fold G in Mv.
    assert (Up : forall a, In a G -> 0 <= u a) by (intros a I; unfold u; pose proof (Si a); destruct (Dn a (Lt a I)); lra).
    assert (Epos : forall a b, In a G -> In b G -> 0 <= e a b) by (intros a b _ _; unfold e; pose proof (sc_nonneg lcs b); destruct (is_fill lcs a), (is_fill lcs b); lra).
    assert (Pairs : forall a b, In a G -> In b G -> Qabs (sc lcs b * (seg a + single i d a - dn a) - sc lcs a * (seg b + single i d b - dn b)) <= Qabs (sc lcs b * seg a - sc lcs a * seg b) + (u a * e a b + u b * e b a)).
    { intros a b Ia Ib. pose proof (sc_nonneg lcs a) as Pa. pose proof (sc_nonneg lcs b) as Pb. unfold u, e. destruct (is_fill lcs a) eqn:Fa, (is_fill lcs b) eqn:Fb.
      - apply Qle_trans with (Qabs (sc lcs b * seg a - sc lcs a * seg b)); [|ring_simplify; apply Qle_refl]. apply (shrink_abs _ _ (1 - t)); [lra|lra|]. rewrite (Sf a Fa), (Sf b Fb). unfold dn, fs. rewrite Fa, Fb. ring.
      - rewrite (Sf a Fa), (Nf b Fb). rewrite (min_sc n fl lcs b Ib Fb). setoid_replace (1 * (seg a + 0 - dn a) - sc lcs a * (seg b + single i d b - 0)) with ((1 * seg a - sc lcs a * seg b) + (- dn a + - (sc lcs a * single i d b))) by ring. apply Qle_trans with (1 := Tri _ _ _). rewrite Qabs_opp. rewrite (Qabs_pos (dn a)) by (apply Dn, Lt; exact Ia). rewrite (Qabs_pos (sc lcs a * single i d b)) by (apply Qmult_le_0_compat; [exact Pa|apply Si]). lra.
      - rewrite (Sf b Fb), (Nf a Fa). rewrite (min_sc n fl lcs a Ia Fa). setoid_replace (sc lcs b * (seg a + single i d a - 0) - 1 * (seg b + 0 - dn b)) with ((sc lcs b * seg a - 1 * seg b) + (sc lcs b * single i d a + - (- dn b))) by ring. apply Qle_trans with (1 := Tri _ _ _). rewrite Qabs_opp. rewrite (Qabs_pos (dn b)) by (apply Dn, Lt; exact Ib). rewrite (Qabs_pos (sc lcs b * single i d a)) by (apply Qmult_le_0_compat; [exact Pb|apply Si]). lra.
      - rewrite (Nf a Fa), (Nf b Fb). setoid_replace (sc lcs b * (seg a + single i d a - 0) - sc lcs a * (seg b + single i d b - 0)) with ((sc lcs b * seg a - sc lcs a * seg b) + (sc lcs b * single i d a + - (sc lcs a * single i d b))) by ring. apply Qle_trans with (1 := Tri _ _ _). rewrite (Qabs_pos (sc lcs a * single i d b)) by (apply Qmult_le_0_compat; [exact Pa|apply Si]). rewrite (Qabs_pos (sc lcs b * single i d a)) by (apply Qmult_le_0_compat; [exact Pb|apply Si]). lra. }
    specialize (Mv Up Epos Pairs). apply Qle_trans with (1 := Mv). apply Qplus_le_r. apply Qmult_le_l; [reflexivity|].
    apply Qle_trans with (sum_of (fun a => single i d a * S_ + dn a * M) G).
    + apply sum_le. intros a Ia. unfold u, e. destruct (is_fill lcs a) eqn:Fa; [rewrite (Sf a Fa)|rewrite (Nf a Fa)]; [|change (sum_of (fun b => sc lcs b) G) with S_; lra]. change (sum_of (fun b => if is_fill lcs b then 0 else 1) G) with M. lra.
    + assert (E : sum_of (fun a => single i d a * S_ + dn a * M) G == S_ * (if gr i then d else 0) + M * sum_of dn G) by (rewrite (sum_plus (fun a => single i d a * S_) (fun a => dn a * M)), <- (single_G i d Hi), <- !sum_scale; apply Qplus_comp; apply sum_ext; intros; ring). rewrite E.
      assert (Dg : sum_of dn G <= d) by (rewrite <- Sd; apply filter_le; intros j I; apply in_seq in I; apply Dn; lia). pose proof M_few as [M0 _]. pose proof S_few as [S0 _]. assert (M * sum_of dn G <= M * d) by nra. destruct (gr i); lra.
Qed.
(** *** Another segment gives *)
Let ent k := if (rank (C i) <=? rank (C k))%nat then Qmax 0 (asked_of T (C k)) else 0.
Lemma short_others j : (j < n)%nat -> j <> i -> seg j <= ent j.
Proof.
  intros Hj Nj. destruct (Qlt_le_dec (ent j) (seg j)) as [F|F]; [|exact F]. exfalso. destruct (is_fill lcs j) eqn:Fj.
  { rewrite (short_no_fill j Hj Fj) in F. revert F. unfold ent. destruct (_ <=? _)%nat; [intros F|intros F; lra]. pose proof (Q.le_max_l 0 (asked_of T (C j))). lra. }
  assert (E0 : 0 <= ent j) by (unfold ent; destruct (_ <=? _)%nat; [apply Q.le_max_l|apply Qle_refl]).
  assert (Fi : is_fill lcs i = false) by (unfold is_fill; fold (C i); destruct (C i); cbn in Rk; try reflexivity; lia).
  set (gap_ := asked_of T (C i) - seg i). assert (Gp : 0 < gap_) by (unfold gap_; lra). set (ov := seg j - ent j). assert (Ov : 0 < ov) by (unfold ov; lra).
  set (d := Qmin ov gap_). assert (D0 : 0 < d) by (unfold d; apply Q.min_case_strong; [intros a b E; now rewrite E|intros; exact Ov|intros; exact Gp]). assert (D1 : d <= ov) by apply Q.le_min_l. assert (D2 : d <= gap_) by apply Q.le_min_r. clearbody d.
  assert (Sj : forall k, 0 <= single j d k) by (intros k; unfold single; destruct (k =? j)%nat; lra). assert (Si : forall k, 0 <= single i d k) by (intros k; unfold single; destruct (k =? i)%nat; lra).
  assert (Sji : single j d i == 0) by (unfold single; destruct (Nat.eqb_spec i j) as [Q|_]; [now elim Nj|reflexivity]). assert (Sij : single i d j == 0) by (unfold single; destruct (Nat.eqb_spec j i) as [Q|_]; [now elim Nj|reflexivity]). assert (Sjj : single j d j == d) by (unfold single; now rewrite Nat.eqb_refl).
  assert (Sjk : forall k, k <> j -> single j d k == 0) by (intros k Nk; unfold single; destruct (Nat.eqb_spec k j) as [Q|_]; [contradiction|reflexivity]).
  apply (short_move sp (single j d) d D0 D2 sp_pos).
  - intros k Hk. split; [apply Sj|]. unfold single. destruct (Nat.eqb_spec k j) as [->|_]; [unfold ov in D1; lra|apply seg_range; exact Hk].
  - exact Sji.
  - rewrite (single_all j d Hj). ring.
  - rewrite (single_all j d Hj). lra.
  - rewrite (single_all j d Hj). lra.
  - intros k Hk Nk. unfold single. destruct (Nat.eqb_spec k j) as [->|_]; cycle 1.
    { rewrite (seg_cost_ext fl T (C k) (seg k - 0) (seg k)) by lra. lra. }
    apply (seg_down fl T (C j) (seg j) d (rank (C i))); [split; [exact Rk|apply rank_le]|lra| |apply seg_range; exact Hj].
    unfold ov, ent in D1. destruct (_ <=? _)%nat; [|exact Logic.I]. pose proof (Q.le_max_r 0 (asked_of T (C j))). lra.
  - destruct (gr j) eqn:Gj; cycle 1.
    { apply fill_plain; [lra|]. intros k I. apply Sjk. intros ->. apply G_in in I. destruct I. congruence. }
    assert (Jg : In j G) by (apply G_in; tauto). pose proof (min_sc n fl lcs j Jg Fj) as Sc1.
    set (u k := single i d k + single j d k). set (e a b := if (a =? j)%nat then (if is_fill lcs b then 0 else 1) else sc lcs b).
    assert (Tri : forall p q r, Qabs (p + (q + - r)) <= Qabs p + (Qabs q + Qabs r)) by (intros p q r; pose proof (Qabs_triangle p (q + - r)); pose proof (Qabs_triangle q (- r)); rewrite Qabs_opp in *; lra).
    assert (Lt : forall k, In k G -> (k < n)%nat) by (intros k I; apply G_in in I; tauto).
    assert (Sfi : forall k, is_fill lcs k = true -> single i d k == 0) by (intros k Fk; unfold single; destruct (Nat.eqb_spec k i) as [->|_]; [congruence|reflexivity]).
    pose proof (seg_range j Hj) as Rj. assert (Dj : d <= seg j) by (unfold ov in D1; lra).
    (* the pairs that j is in *)
    assert (Pj : forall b, In b G -> b <> j -> Qabs (sc lcs b * (seg j - d) - sc lcs j * (seg b + single i d b)) <= Qabs (sc lcs b * seg j - sc lcs j * seg b) + (d * (if is_fill lcs b then 0 else 1) + single i d b * sc lcs j)).
    { intros b Ib Nb. pose proof (sc_nonneg lcs b) as Pb. rewrite Sc1. destruct (is_fill lcs b) eqn:Fb.
      - rewrite (Sfi b Fb), (short_no_fill b (Lt b Ib) Fb). setoid_replace (sc lcs b * (seg j - d) - 1 * (0 + 0)) with (sc lcs b * (seg j - d)) by ring. setoid_replace (sc lcs b * seg j - 1 * 0) with (sc lcs b * seg j) by ring. rewrite !Qabs_pos by (apply Qmult_le_0_compat; lra). nra.
      - rewrite (min_sc n fl lcs b Ib Fb). setoid_replace (1 * (seg j - d) - 1 * (seg b + single i d b)) with ((1 * seg j - 1 * seg b) + (- d + - (single i d b))) by ring. apply Qle_trans with (1 := Tri _ _ _). rewrite Qabs_opp, (Qabs_pos d), (Qabs_pos (single i d b)) by (try lra; apply Si). lra. }
    pose proof (fillc_move n fl lcs seg (fun k => seg k + single i d k - single j d k) u e) as Mv. fold G in Mv.
    assert (Up : forall a, In a G -> 0 <= u a) by (intros a I; unfold u; pose proof (Si a); pose proof (Sj a); lra).
    assert (Epos : forall a b, In a G -> In b G -> 0 <= e a b) by (intros a b _ _; unfold e; pose proof (sc_nonneg lcs b); destruct (a =? j)%nat, (is_fill lcs b); lra).
    assert (Pairs : forall a b, In a G -> In b G -> Qabs (sc lcs b * (seg a + single i d a - single j d a) - sc lcs a * (seg b + single i d b - single j d b)) <= Qabs (sc lcs b * seg a - sc lcs a * seg b) + (u a * e a b + u b * e b a)).
    { intros a b Ia Ib. pose proof (sc_nonneg lcs a) as Pa. pose proof (sc_nonneg lcs b) as Pb. unfold u, e. destruct (Nat.eqb_spec a j) as [->|Na], (Nat.eqb_spec b j) as [->|Nb].
      - rewrite Fj. setoid_replace (sc lcs j * (seg j + single i d j - single j d j) - sc lcs j * (seg j + single i d j - single j d j)) with 0 by ring. setoid_replace (sc lcs j * seg j - sc lcs j * seg j) with 0 by ring. rewrite Sij, Sjj. change (Qabs 0) with 0. lra.
      - rewrite (Sjk b Nb), Sij, Sjj. setoid_replace (sc lcs b * (seg j + 0 - d) - sc lcs j * (seg b + single i d b - 0)) with (sc lcs b * (seg j - d) - sc lcs j * (seg b + single i d b)) by ring. apply Qle_trans with (1 := Pj b Ib Nb). lra.
      - rewrite (Sjk a Na), Sij, Sjj. setoid_replace (sc lcs j * (seg a + single i d a - 0) - sc lcs a * (seg j + 0 - d)) with (- (sc lcs a * (seg j - d) - sc lcs j * (seg a + single i d a))) by ring. setoid_replace (sc lcs j * seg a - sc lcs a * seg j) with (- (sc lcs a * seg j - sc lcs j * seg a)) by ring. rewrite !Qabs_opp. apply Qle_trans with (1 := Pj a Ia Na). lra.
      - rewrite (Sjk a Na), (Sjk b Nb). setoid_replace (sc lcs b * (seg a + single i d a - 0) - sc lcs a * (seg b + single i d b - 0)) with ((sc lcs b * seg a - sc lcs a * seg b) + (sc lcs b * single i d a + - (sc lcs a * single i d b))) by ring. apply Qle_trans with (1 := Tri _ _ _). rewrite (Qabs_pos (sc lcs a * single i d b)) by (apply Qmult_le_0_compat; [exact Pa|apply Si]). rewrite (Qabs_pos (sc lcs b * single i d a)) by (apply Qmult_le_0_compat; [exact Pb|apply Si]). lra. }
    specialize (Mv Up Epos Pairs). apply Qle_trans with (1 := Mv). apply Qplus_le_r. apply Qmult_le_l; [reflexivity|].
    apply Qle_trans with (sum_of (fun a => single i d a * S_ + single j d a * M) G).
    + apply sum_le. intros a Ia. unfold u, e. destruct (Nat.eqb_spec a j) as [->|Na]; [rewrite Sij|rewrite (Sjk a Na)]; [|change (sum_of (fun b => sc lcs b) G) with S_; lra]. change (sum_of (fun b => if is_fill lcs b then 0 else 1) G) with M. lra.
    + assert (E : sum_of (fun a => single i d a * S_ + single j d a * M) G == S_ * (if gr i then d else 0) + M * (if gr j then d else 0)) by (rewrite (sum_plus (fun a => single i d a * S_) (fun a => single j d a * M)), <- (single_G i d Hi), <- (single_G j d Hj), <- !sum_scale; apply Qplus_comp; apply sum_ext; intros; ring). rewrite E, Gj. destruct (gr i); lra.
Qed.
End Short.
(** *** A segment that is too long *)
Definition over_cost (c : lconstraint) : Q := match c with LMax _ => 100010000 | LLen _ => 10000000 | LPercentage _ => 1000000 | LRatio _ _ => 100000 | LMin _ => 10000 | LFill _ => -(1000) end.
Lemma seg_relief c s d : fills fl c = false -> 0 <= d -> asked_of T c <= s - d -> seg_cost fl T c (s - d) <= seg_cost fl T c s - over_cost c * d.
Proof.
  intros F D Le. destruct c as [k|k|k|k|a b|k]; cbn [seg_cost over_cost asked_of fills] in *; [| | | | |discriminate].
  - rewrite !Q.max_l by lra. destruct fl; try discriminate. rewrite !Qabs_pos by lra. lra.
  - rewrite !Q.max_r, !Qabs_pos by lra. lra.
  - rewrite !Qabs_pos by lra. lra.
  - set (w := T * _ / _) in *. rewrite !Qabs_pos by lra. lra.
  - set (w := T * _ / _) in *. rewrite !Qabs_pos by lra. lra.
Qed.
Lemma seg_load c s d : (fills fl c = true -> is_true (match c with LFill _ => true | _ => false end)) -> 0 <= d -> s + d <= T -> seg_cost fl T c (s + d) <= seg_cost fl T c s + over_cost c * d.
Proof.
  intros F D Le. assert (Ab : forall k, Qabs (s + d - k) <= Qabs (s - k) + d) by (intros k; apply Qabs_case; intros; apply Qabs_case; intros; lra). destruct c as [k|k|k|k|a b|k]; cbn [seg_cost over_cost fills] in *.
  - pose proof (max0_le (inject_Z k * 100 - (s + d)) (inject_Z k * 100 - s) ltac:(lra)). destruct fl; try (discriminate (F eq_refl)). pose proof (Ab (inject_Z k * 100)). lra.
  - pose proof (max0_move (s + d - inject_Z k * 100) (s - inject_Z k * 100) d D ltac:(lra)). pose proof (Ab (inject_Z k * 100)). lra.
  - pose proof (Ab (inject_Z k * 100)). lra.
  - pose proof (Ab (T * inject_Z k / 100)). lra.
  - pose proof (Ab (T * inject_Z a / inject_Z (Z.max 1 b))). lra.
  - rewrite !Qabs_neg by lra. lra.
Qed.
Section Long.
Variable j : nat.
Hypotheses (Hj : (j < n)%nat) (Gj : gr j = false) (Lg : Qmax 0 (asked_of T (C j)) < seg j).
Let O := over_cost (C j).
Lemma O_big : 10000 <= O.
Proof. unfold O. unfold gr in Gj. destruct (C j); cbn [over_cost fills] in *; try discriminate. Qed.
Lemma long_move p up d B f : 0 < d -> d <= seg j - Qmax 0 (asked_of T (C j)) -> (forall k, (k <= n)%nat -> 0 <= p k) -> (forall k, (k < n)%nat -> 0 <= up k) -> up j == 0 ->
  sum_of up (seq 0 n) + sum_of p (seq 0 (S n)) == d + sum_of sp (seq 0 (S n)) -> sum_of up (seq 0 n) <= d ->
  spaces_cost fl T want n p <= spaces_cost fl T want n sp ->
  (forall k, (k < n)%nat -> k <> j -> seg k + up k <= T -> seg_cost fl T (C k) (seg k + up k) <= seg_cost fl T (C k) (seg k) + B k) -> 0 <= B j ->
  fillc n fl lcs (fun k => seg k + up k - single j d k) <= fillc n fl lcs seg + f -> O * d <= sum_of B (seq 0 n) + f + 4 * d.
Proof.
  intros D Le P0 Up Uj Sm Su A Bk Bj F. pose proof (Q.le_max_l 0 (asked_of T (C j))) as M0. pose proof (Q.le_max_r 0 (asked_of T (C j))) as M1.
  assert (Sj : forall k, 0 <= single j d k) by (intros k; unfold single; destruct (k =? j)%nat; lra).
  assert (Dn : forall k, (k < n)%nat -> single j d k <= seg k + up k) by (intros k Hk; unfold single; pose proof (seg_range k Hk); specialize (Up k Hk); destruct (Nat.eqb_spec k j) as [->|_]; lra).
  assert (Top : forall k, (k < n)%nat -> k <> j -> seg k + up k <= T).
  { intros k Hk Nk. pose proof (member_le (fun k => seg k + up k - single j d k) (seq 0 n) k ltac:(intros a I; apply in_seq in I; specialize (Dn a ltac:(lia)); cbn beta; lra) ltac:(apply in_seq; lia)) as Me. cbn beta in Me.
    rewrite (sum_minus (fun k => seg k + up k) (single j d)), (sum_plus seg up), (single_all j d Hj) in Me. unfold single in Me. destruct (Nat.eqb_spec k j) as [Q|_]; [contradiction|]. pose proof all_sizes. pose proof (sum_pos p (seq 0 (S n)) ltac:(intros a I; apply in_seq in I; apply P0; lia)). lra. }
  assert (Bs : sum_of (fun k => seg_cost fl T (C k) (seg k + up k - single j d k)) (seq 0 n) <= sum_of (fun k => seg_cost fl T (C k) (seg k)) (seq 0 n) + (sum_of B (seq 0 n) - O * d)).
  { assert (E : sum_of B (seq 0 n) - O * d == sum_of (fun k => B k + single j (- (O * d)) k) (seq 0 n)) by (rewrite (sum_plus B (single j (- (O * d)))), (single_all j _ Hj); ring). rewrite E, <- (sum_plus (fun k => seg_cost fl T (C k) (seg k)) (fun k => B k + single j (- (O * d)) k)). apply sum_le. intros k I. apply in_seq in I. unfold single. destruct (Nat.eqb_spec k j) as [->|Nk].
    - rewrite (seg_cost_ext fl T (C j) (seg j + up j - d) (seg j - d)) by lra. pose proof (seg_relief (C j) (seg j) d Gj ltac:(lra) ltac:(lra)) as R. fold O in R. lra.
    - rewrite (seg_cost_ext fl T (C k) (seg k + up k - 0) (seg k + up k)) by lra. specialize (Bk k ltac:(lia) Nk (Top k ltac:(lia) Nk)). lra. }
  pose proof (moved p up (single j d) 0 _ _ P0 ltac:(intros k Hk; repeat split; [now apply Up|apply Sj|now apply Dn]) ltac:(rewrite (single_all j d Hj); exact Sm) ltac:(lra) Bs F) as Mv. rewrite (single_all j d Hj) in Mv. lra.
Qed.
Lemma no_fill_change up d : (forall a b, In a G -> In b G -> up a * sc lcs b == up b * sc lcs a) -> fillc n fl lcs (fun k => seg k + up k - single j d k) <= fillc n fl lcs seg + 0.
Proof.
  intros Pr. pose proof (fillc_move n fl lcs seg (fun k => seg k + up k - single j d k) (fun _ => 0) (fun _ _ => 0) ltac:(intros; discriminate) ltac:(intros; discriminate)) as Mv. fold G in Mv.
  assert (Z0 : forall a, In a G -> single j d a == 0) by (intros a Ia; unfold single; destruct (Nat.eqb_spec a j) as [->|_]; [apply G_in in Ia; destruct Ia; congruence|reflexivity]).
  assert (H : fillc n fl lcs (fun k => seg k + up k - single j d k) <= fillc n fl lcs seg + 100 * sum_of (fun a => 0 * sum_of (fun _ => 0) G) G).
  { apply Mv. intros a b Ia Ib. rewrite (Z0 a Ia), (Z0 b Ib). assert (E : sc lcs b * (seg a + up a - 0) - sc lcs a * (seg b + up b - 0) == sc lcs b * seg a - sc lcs a * seg b) by (pose proof (Pr a b Ia Ib); lra). rewrite E. lra. }
  rewrite (sum_zero (fun a => 0 * sum_of (fun _ => 0) G) G) in H by (intros; ring). lra.
Qed.
Let d0 := seg j - Qmax 0 (asked_of T (C j)).
Lemma d0_pos : 0 < d0.
Proof. unfold d0. lra. Qed.
(** The spaces take what is too much. *)
Lemma long_spaces p : (forall k, (k <= n)%nat -> 0 <= p k) -> sum_of p (seq 0 (S n)) == d0 + sum_of sp (seq 0 (S n)) -> spaces_cost fl T want n p <= spaces_cost fl T want n sp -> False.
Proof.
  intros P0 Sm A. pose proof O_big as Ob. pose proof d0_pos as D. assert (Zs : sum_of (fun _ : nat => 0) (seq 0 n) == 0) by (apply sum_zero; reflexivity).
  pose proof (long_move p (fun _ => 0) d0 (fun _ => 0) 0 D (Qle_refl _) P0 ltac:(intros; apply Qle_refl) (Qeq_refl _) ltac:(rewrite Zs, Sm; ring) ltac:(rewrite Zs; lra) A ltac:(intros k Hk Nk _; rewrite (seg_cost_ext fl T (C k) (seg k + 0) (seg k)) by lra; lra) (Qle_refl _) ltac:(apply no_fill_change; intros; ring)) as H. rewrite Zs in H. nra.
Qed.
Lemma long_flex : fl = FlexLegacy \/ (fl = FlexSpaceBetween /\ n = 1%nat).
Proof.
  pose proof d0_pos as D. pose proof (fun f => ends_sum l area Nn Fits f) as Es. fold n in Es.
  assert (Mz : forall a b k, In k (mids n) -> (if (k =? 0)%nat then a else if (k =? n)%nat then b else 0) = 0) by (intros a b k I; apply in_seq in I; destruct (Nat.eqb_spec k 0); [lia|]; destruct (Nat.eqb_spec k n); [lia|reflexivity]).
  assert (N0 : (n =? 0)%nat = false) by (apply Nat.eqb_neq; lia).
  (* the ends take a and b *)
  assert (Ends : forall a b, 0 <= a -> 0 <= b -> a + b == d0 -> (forall q, (forall k, In k (mids n) -> q k == sp k) -> q 0%nat == sp 0%nat + a -> q n == sp n + b -> spaces_cost fl T want n q <= spaces_cost fl T want n sp) -> False).
  { intros a b A0 B0 Ab Cs. set (q k := sp k + (if (k =? 0)%nat then a else if (k =? n)%nat then b else 0)).
    assert (Qm : forall k, In k (mids n) -> q k == sp k) by (intros k I; unfold q; rewrite (Mz a b k I); ring). assert (Q0 : q 0%nat == sp 0%nat + a) by (unfold q; cbn; ring). assert (Qn : q n == sp n + b) by (unfold q; rewrite N0, Nat.eqb_refl; ring).
    apply (long_spaces q).
    - intros k Hk. pose proof (sp_pos k Hk). unfold q. destruct (k =? 0)%nat; [lra|]. destruct (k =? n)%nat; lra.
    - rewrite (Es q), (Es sp), Q0, Qn, (sum_ext q sp (mids n) Qm). lra.
    - now apply Cs. }
  assert (Same : forall q, (forall k, In k (mids n) -> q k == sp k) -> sum_of (fun k => Qabs (q k - want)) (mids n) == sum_of (fun k => Qabs (sp k - want)) (mids n)) by (intros q Q; apply sum_ext; intros k I; now rewrite (Q k I)).
  assert (Mid : (2 <= n)%nat -> (fl = FlexSpaceBetween \/ fl = FlexSpaceAround) -> False).
  { intros N2 Fl. set (h := d0 / inject_Z (Z.of_nat (n - 1))). assert (Np : 0 < inject_Z (Z.of_nat (n - 1))) by (change 0 with (inject_Z 0); rewrite <- Zlt_Qlt; lia). assert (Hp : 0 <= h) by (unfold h; apply Qle_shift_div_l; lra). assert (Eh : inject_Z (Z.of_nat (n - 1)) * h == d0) by (unfold h; field; intros Y; lra). clearbody h.
    set (q k := sp k + (if (k =? 0)%nat then 0 else if (k =? n)%nat then 0 else h)).
    assert (Qm : forall k, In k (mids n) -> q k == sp k + h) by (intros k I; unfold q; apply in_seq in I; destruct (Nat.eqb_spec k 0); [lia|]; destruct (Nat.eqb_spec k n); [lia|reflexivity]). assert (Q0 : q 0%nat == sp 0%nat) by (unfold q; cbn; ring). assert (Qn : q n == sp n) by (unfold q; rewrite N0, Nat.eqb_refl; ring).
    apply (long_spaces q).
    - intros k Hk. pose proof (sp_pos k Hk). unfold q. destruct (k =? 0)%nat; [lra|]. destruct (k =? n)%nat; lra.
    - rewrite (Es q), (Es sp), Q0, Qn, (sum_ext q (fun k => sp k + h) (mids n) Qm), (sum_plus sp (fun _ => h)), sum_const. replace (length (mids n)) with (n - 1)%nat by (unfold mids; now rewrite seq_length). lra.
    - assert (P1 : sum_of (fun c => Qabs (q (fst c) - q (snd c))) (all_pairs (mids n)) == sum_of (fun c => Qabs (sp (fst c) - sp (snd c))) (all_pairs (mids n))) by (apply sum_ext; intros [a b] I; apply all_pairs_in in I; cbn [fst snd] in *; destruct I as [I J]; rewrite (Qm a I), (Qm b J); setoid_replace (sp a + h - (sp b + h)) with (sp a - sp b) by ring; reflexivity).
      assert (P2 : sum_of (fun k => 100100100 * Qmax 0 (want - q k) + 10 * (T - q k)) (mids n) <= sum_of (fun k => 100100100 * Qmax 0 (want - sp k) + 10 * (T - sp k)) (mids n)) by (apply sum_le; intros k I; pose proof (Qm k I); pose proof (max0_le (want - q k) (want - sp k) ltac:(lra)); lra).
      unfold spaces_cost. cbv zeta. assert (A0 : Qabs (q 0%nat) == Qabs (sp 0%nat)) by now rewrite Q0. assert (An : Qabs (q n) == Qabs (sp n)) by now rewrite Qn. destruct Fl as [-> | ->]; lra. }
  pose proof (sp_pos 0 ltac:(lia)) as S0. pose proof (sp_pos n ltac:(lia)) as Sn.
  destruct (Nat.eq_dec n 1) as [N1|N1].
  - destruct fl eqn:Fl; [now left| | | |now right|]; exfalso.
    + apply (Ends 0 d0); try lra. intros q Q Q0 Qn. unfold spaces_cost. cbv zeta. rewrite (Same q Q). assert (A0 : Qabs (q 0%nat) == Qabs (sp 0%nat)) by (rewrite Q0; apply Qabs_wd; ring). lra.
    + apply (Ends d0 0); try lra. intros q Q Q0 Qn. unfold spaces_cost. cbv zeta. rewrite (Same q Q). assert (A0 : Qabs (q n) == Qabs (sp n)) by (rewrite Qn; apply Qabs_wd; ring). lra.
    + apply (Ends (d0 * (1 # 2)) (d0 * (1 # 2))); try lra. intros q Q Q0 Qn. unfold spaces_cost. cbv zeta. rewrite (Same q Q). assert (A0 : Qabs (q 0%nat - q n) == Qabs (sp 0%nat - sp n)) by (rewrite Q0, Qn; apply Qabs_wd; ring). lra.
    + apply (Ends d0 0); try lra. intros q Q Q0 Qn. unfold spaces_cost. cbv zeta. rewrite N1. cbn. lra.
  - assert (N2 : (2 <= n)%nat) by lia. destruct fl eqn:Fl; [now left| | | |exfalso; apply (Mid N2); now left|exfalso; apply (Mid N2); now right]; exfalso.
    + apply (Ends 0 d0); try lra. intros q Q Q0 Qn. unfold spaces_cost. cbv zeta. rewrite (Same q Q). assert (A0 : Qabs (q 0%nat) == Qabs (sp 0%nat)) by (rewrite Q0; apply Qabs_wd; ring). lra.
    + apply (Ends d0 0); try lra. intros q Q Q0 Qn. unfold spaces_cost. cbv zeta. rewrite (Same q Q). assert (A0 : Qabs (q n) == Qabs (sp n)) by (rewrite Qn; apply Qabs_wd; ring). lra.
    + apply (Ends (d0 * (1 # 2)) (d0 * (1 # 2))); try lra. intros q Q Q0 Qn. unfold spaces_cost. cbv zeta. rewrite (Same q Q). assert (A0 : Qabs (q 0%nat - q n) == Qabs (sp 0%nat - sp n)) by (rewrite Q0, Qn; apply Qabs_wd; ring). lra.
Qed.
Lemma long_others k : (k < n)%nat -> k <> j -> (minds (C j) <= minds (C k))%nat.
Proof.
  intros Hk Nk. destruct long_flex as [Fl|[_ N1]]; [|lia]. destruct (le_lt_dec (minds (C j)) (minds (C k))) as [H|H]; [exact H|exfalso]. pose proof O_big as Ob. pose proof d0_pos as D.
  destruct (gr k) eqn:Gk.
  - (* all that fill take it *)
    assert (Fa : forall a, gr a = true -> exists w, C a = LFill w) by (intros a Q; unfold gr in Q; rewrite Fl in Q; destruct (C a); cbn in Q; try discriminate; now eexists).
    assert (Sp : forall a, gr a = true -> 0 < sc lcs a) by (intros a Q; destruct (Fa a Q) as (w & E); unfold sc; change (con lcs a) with (C a); rewrite E; destruct (sc_pos lcs a) as [P|P]; unfold sc in P; change (con lcs a) with (C a) in P; rewrite E in P; [exact P|]; cbn [scaling] in P |- *; unfold qltb in *; destruct (Qle_bool (inject_Z w) (1 # 1000000)) eqn:Y; cbn [negb] in *; [reflexivity|]; assert (~ inject_Z w <= 1 # 1000000) by (intros Y'; apply Qle_bool_iff in Y'; congruence); lra).
    assert (S0 : 0 < S_) by (apply Qlt_le_trans with (1 := Sp k Gk); apply (member_le (sc lcs) G k); [intros; apply sc_nonneg|apply G_in; tauto]).
    set (r := d0 / S_). assert (Er : r * S_ == d0) by (unfold r; field; intros Y; lra). assert (R0 : 0 <= r) by (unfold r; apply Qle_shift_div_l; lra). clearbody r.
    set (up a := if gr a then r * sc lcs a else 0).
    assert (U0 : forall a, 0 <= up a) by (intros a; unfold up; destruct (gr a); [apply Qmult_le_0_compat; [exact R0|apply sc_nonneg]|lra]).
    assert (Su : sum_of up (seq 0 n) == d0).
    { rewrite (sum_filter up gr (seq 0 n)). rewrite (sum_zero up (filter (fun a => negb (gr a)) (seq 0 n))) by (intros a I; apply filter_In in I; destruct I as [_ I]; unfold up; destruct (gr a); [discriminate|reflexivity]). change (filter gr (seq 0 n)) with G. rewrite (sum_ext up (fun a => r * sc lcs a) G) by (intros a I; apply G_in in I; destruct I as [_ I]; unfold up; now rewrite I). rewrite sum_scale. fold S_. lra. }
    pose proof (long_move sp up d0 (fun a => - (1000 * up a)) 0 D (Qle_refl _) sp_pos ltac:(intros a _; apply U0) ltac:(unfold up; now rewrite Gj) ltac:(rewrite Su; ring) ltac:(rewrite Su; lra) (Qle_refl _)) as H1.
    assert (H2 : O * d0 <= sum_of (fun a => - (1000 * up a)) (seq 0 n) + 0 + 4 * d0).
    { apply H1; clear H1.
      - intros a Ha Na Top. unfold up in *. destruct (gr a) eqn:Ga; [|rewrite (seg_cost_ext fl T (C a) (seg a + 0) (seg a)) by lra; lra]. destruct (Fa a Ga) as (w & E). rewrite E in *. pose proof (seg_load (LFill w) (seg a) (r * sc lcs a) ltac:(intros; reflexivity) ltac:(apply Qmult_le_0_compat; [exact R0|apply sc_nonneg]) Top) as Ld. cbn [over_cost] in Ld. lra.
      - unfold up. rewrite Gj. lra.
      - apply no_fill_change. intros a b Ia Ib. apply G_in in Ia. apply G_in in Ib. unfold up. destruct Ia as [_ ->], Ib as [_ ->]. ring. }
    assert (E : sum_of (fun a => - (1000 * up a)) (seq 0 n) == -(1000) * d0) by (rewrite <- Su, <- sum_scale; apply sum_ext; intros; ring). rewrite E in H2. nra.
  - (* the other takes it *)
    assert (Sk : forall a, 0 <= single k d0 a) by (intros a; unfold single; destruct (a =? k)%nat; lra). assert (Skj : single k d0 j == 0) by (unfold single; destruct (Nat.eqb_spec j k) as [Q|_]; [now elim Nk|reflexivity]).
    pose proof (long_move sp (single k d0) d0 (single k (over_cost (C k) * d0)) 0 D (Qle_refl _) sp_pos ltac:(intros; apply Sk) Skj ltac:(rewrite (single_all k d0 Hk); ring) ltac:(rewrite (single_all k d0 Hk); lra) (Qle_refl _)) as H1.
    assert (H2 : O * d0 <= sum_of (single k (over_cost (C k) * d0)) (seq 0 n) + 0 + 4 * d0).
    { apply H1; clear H1.
      - intros a Ha Na Top. unfold single in *. destruct (Nat.eqb_spec a k) as [->|_]; [|rewrite (seg_cost_ext fl T (C a) (seg a + 0) (seg a)) by lra; lra]. apply (seg_load (C k) (seg k) d0); [intros Y; unfold gr in Gk; congruence|lra|exact Top].
      - unfold single. destruct (Nat.eqb_spec j k) as [Q|_]; [now elim Nk|lra].
      - apply no_fill_change. intros a b Ia Ib. assert (Zk : forall c, In c G -> single k d0 c == 0) by (intros c Ic; unfold single; destruct (Nat.eqb_spec c k) as [->|_]; [apply G_in in Ic; destruct Ic; congruence|reflexivity]). rewrite (Zk a Ia), (Zk b Ib). ring. }
    rewrite (single_all k _ Hk) in H2. assert (Ov : over_cost (C k) + 5 <= O).
    { unfold O. unfold gr in Gk, Gj. destruct (C k), (C j); cbn [minds over_cost fills] in *; try lia; try discriminate; vm_compute; discriminate. }
    nra.
Qed.
End Long.
End Best.
