(** In a best solution the spaces between neighbours and at the edges are what the flex says, whether or not there is room for what
    the constraints ask. *)
From Verif Require Import Base P_Base M_Geom M_Combin M_Solver M_Layout S_Solver S_Layout S_Place P_Row P_System P_Step P_Noted P_Layout P_Sum P_Place P_Placed P_Apart T_Solver T_Layout.
From Coq Require Import ZArith NArith QArith Qround Qabs Qminmax List Bool Lia Lqa Setoid Permutation.
Import ListNotations.
Open Scope Q_scope.

(** What spacers of given sizes cost. *)
Definition spaces_cost (fl : flex) (T want : Q) (n : nat) (p : nat -> Q) : Q :=
  let fixed := 100100100 * sum_of (fun i => Qabs (p i - want)) (mids n) in
  let growing := 100100100 * sum_of (fun q => Qabs (p (fst q) - p (snd q))) (all_pairs (mids n)) +
    sum_of (fun i => 100100100 * Qmax 0 (want - p i) + 10 * (T - p i)) (mids n) in
  match fl with
  | FlexLegacy => fixed + (1001000999 * Qabs (p 0%nat) + 1001000999 * Qabs (p n))
  | FlexSpaceAround => growing
  | FlexSpaceBetween => growing + (1001000999 * Qabs (p 0%nat) + 1001000999 * Qabs (p n))
  | FlexStart => fixed + (1001000999 * Qabs (p 0%nat) + 100 * (T - p n))
  | FlexCenter => fixed + (100 * (T - p 0%nat) + 100 * (T - p n) + 100100100 * Qabs (p 0%nat - p n))
  | FlexEnd => fixed + (1001000999 * Qabs (p n) + 100 * (T - p 0%nat))
  end.
Lemma spaces_ext fl T want n p q : (forall i, (i <= n)%nat -> p i == q i) -> spaces_cost fl T want n p == spaces_cost fl T want n q.
Proof.
  intros H. assert (M : forall i, In i (mids n) -> p i == q i) by (intros i I; apply in_seq in I; apply H; lia). unfold spaces_cost. cbv zeta.
  assert (F : sum_of (fun i => Qabs (p i - want)) (mids n) == sum_of (fun i => Qabs (q i - want)) (mids n)) by (apply sum_ext; intros i I; now rewrite (M i I)).
  assert (P : sum_of (fun c => Qabs (p (fst c) - p (snd c))) (all_pairs (mids n)) == sum_of (fun c => Qabs (q (fst c) - q (snd c))) (all_pairs (mids n))) by (apply sum_ext; intros [i j] I; apply all_pairs_in in I; cbn [fst snd] in *; destruct I as [I J]; now rewrite (M i I), (M j J)).
  assert (G : sum_of (fun i => 100100100 * Qmax 0 (want - p i) + 10 * (T - p i)) (mids n) == sum_of (fun i => 100100100 * Qmax 0 (want - q i) + 10 * (T - q i)) (mids n)) by (apply sum_ext; intros i I; now rewrite (M i I)).
  assert (E0 : p 0%nat == q 0%nat) by (apply H; lia). assert (En : p n == q n) by (apply H; lia). destruct fl; now rewrite ?F, ?P, ?G, ?E0, ?En.
Qed.

(** ** What enlarging segments costs *)
Section Enlarge.
Variables (vs : list variable) (n : nat) (fl : flex) (lcs : list lconstraint) (x y : variable -> Q) (T : Q) (d : nat -> Q).
Hypotheses (Lv : length vs = (2 * n + 2)%nat) (Nn : (1 <= n)%nat) (Lc : length lcs = n).
Hypotheses (AreaX : size x (area_el vs) == T) (AreaY : size y (area_el vs) == T).
Hypothesis D0 : forall i, (i < n)%nat -> 0 <= d i.
Hypothesis Seg : forall i, (i < n)%nat -> size y (seg_el vs i) == size x (seg_el vs i) + d i.
Hypothesis Small : forall i, (i < n)%nat -> size y (seg_el vs i) <= T.
Lemma abs_up a b k : a <= b -> Qabs (b - k) <= Qabs (a - k) + (b - a).
Proof. intros H. apply Qabs_case; intros; apply Qabs_case; intros; lra. Qed.
Lemma segment_grows lc i : (i < n)%nat ->
  cost y (segment_constraints (area_el vs) fl lc (seg_el vs i)) <= cost x (segment_constraints (area_el vs) fl lc (seg_el vs i)) + 100010000 * d i.
Proof.
  intros Hi. pose proof (D0 i Hi) as P0. pose proof (Seg i Hi) as E. pose proof (Small i Hi) as Sm. set (e := seg_el vs i) in *. set (s := size x e) in *. set (s' := size y e) in *. assert (Dd : d i == s' - s) by lra. assert (Le : s <= s') by lra. rewrite Dd.
  assert (Int : forall k z, violation y (has_int_size e k z) <= violation x (has_int_size e k z) + (s' - s)) by (intros k z; rewrite !vio_int; now apply abs_up).
  assert (Frac : forall f z, eval f y == eval f x -> violation y (has_size e f z) <= violation x (has_size e f z) + (s' - s)) by (intros f z Hf; rewrite !vio_size, Hf; now apply abs_up).
  assert (Min : forall k z, violation y (has_min_size e k z) <= violation x (has_min_size e k z)) by (intros k z; rewrite !vio_min_eq; apply max0_le; fold s s'; lra).
  assert (Max : forall k z, violation y (has_max_size e k z) <= violation x (has_max_size e k z) + (s' - s)) by (intros k z; rewrite !vio_max_eq; apply max0_move; fold s s'; lra).
  assert (Ea : eval (el_size (area_el vs)) y == eval (el_size (area_el vs)) x) by (rewrite !eval_size, AreaX, AreaY; reflexivity).
  unfold cost. destruct lc as [k|k|k|k|a b|k]; cbn [segment_constraints].
  - pose proof (Min k min_size_gte). destruct fl; cbn [sum_of].
    1:{ pose proof (Int k min_size_eq). change (c_strength (has_min_size e k min_size_gte)) with 100000000. change (c_strength (has_int_size e k min_size_eq)) with 10000. lra. }
    all: pose proof (Frac (el_size (area_el vs)) fill_grow Ea); change (c_strength (has_min_size e k min_size_gte)) with 100000000; change (c_strength (has_size e (el_size (area_el vs)) fill_grow)) with 1000; lra.
  - cbn [sum_of]. pose proof (Max k max_size_lte). pose proof (Int k max_size_eq). change (c_strength (has_max_size e k max_size_lte)) with 100000000. change (c_strength (has_int_size e k max_size_eq)) with 10000. lra.
  - cbn [sum_of]. pose proof (Int k length_size_eq). change (c_strength (has_int_size e k length_size_eq)) with 10000000. lra.
  - cbn [sum_of]. set (f := e_div _ _). assert (Ef : eval f y == eval f x) by (unfold f; rewrite !eval_div by discriminate; rewrite !eval_mul, Ea; reflexivity). pose proof (Frac f percentage_size_eq Ef). change (c_strength (has_size e f percentage_size_eq)) with 1000000. lra.
  - cbn [sum_of]. assert (Nz : ~ inject_Z (Z.max 1 b) == 0) by (intros Y; unfold Qeq in Y; cbn in Y; lia). set (f := e_div _ _). assert (Ef : eval f y == eval f x) by (unfold f; rewrite !eval_div by exact Nz; rewrite !eval_mul, Ea; reflexivity). pose proof (Frac f ratio_size_eq Ef). change (c_strength (has_size e f ratio_size_eq)) with 100000. lra.
  - cbn [sum_of]. pose proof (Frac (el_size (area_el vs)) fill_grow Ea). change (c_strength (has_size e (el_size (area_el vs)) fill_grow)) with 1000. lra.
Qed.
Lemma sizes_grow : cost y (size_constraints (area_el vs) (map (seg_el vs) (seq 0 n)) lcs fl) <= cost x (size_constraints (area_el vs) (map (seg_el vs) (seq 0 n)) lcs fl) + 100010000 * sum_of d (seq 0 n).
Proof.
  unfold size_constraints. rewrite (combine_eq vs n Lv Nn lcs Lc). unfold cost. rewrite !sum_flat_map, !sum_map. cbn [fst snd]. rewrite <- !sum_scale, <- sum_plus. apply sum_le. intros i I. apply in_seq in I. apply segment_grows. lia.
Qed.
(** Growing in proportion to the weights does not change what the filling constraints cost. *)
Hypothesis Prop_ : forall i j, (i < n)%nat -> (j < n)%nat -> fills fl (con lcs i) = true -> fills fl (con lcs j) = true -> d i * scaling (con lcs j) == d j * scaling (con lcs i).
Lemma fill_grows fi : fill_constraints (map (seg_el vs) (seq 0 n)) lcs fl = Ret fi -> cost y fi <= cost x fi.
Proof.
  unfold fill_constraints. set (valid := filter _ _). intros E. destruct (Nat.ltb_spec (length valid) 2) as [H|H]; [injection E as <-; apply Qle_refl|].
  destruct (pairs_perm valid H) as (ps & Ep & Pm). rewrite Ep in E. cbn [bind] in E. apply (f_equal (fun o => match o with Ret a => a | Panic => [] end)) in E. cbn beta iota in E. subst fi. unfold cost. rewrite !sum_map. apply sum_le. intros [[lc ls] [rc rs]] I.
  assert (Va : forall q, In q valid -> exists i, (i < n)%nat /\ q = (con lcs i, seg_el vs i) /\ fills fl (con lcs i) = true).
  { intros q J. apply filter_In in J. destruct J as [J F]. rewrite (combine_eq vs n Lv Nn lcs Lc) in J. apply in_map_iff in J. destruct J as (i & <- & J). apply in_seq in J. exists i. split; [lia|]. split; [reflexivity|exact F]. }
  apply (Permutation_in _ Pm) in I. apply all_pairs_in in I. cbn [fst snd] in I. destruct I as [I J]. apply Va in I. apply Va in J. destruct I as (i & Hi & Ei & Fi). destruct J as (j & Hj & Ej & Fj). injection Ei as -> ->. injection Ej as -> ->. specialize (Prop_ i j Hi Hj Fi Fj). pose proof (Seg i Hi) as Si. pose proof (Seg j Hj) as Sj.
  cbn [c_strength rel_expr]. apply Qmult_le_l; [reflexivity|]. unfold violation. cbn [c_op c_expr rel_expr].
  assert (Eq : eval (e_sub (e_mul (el_size (seg_el vs i)) (scaling (con lcs j))) (e_mul (el_size (seg_el vs j)) (scaling (con lcs i)))) y == eval (e_sub (e_mul (el_size (seg_el vs i)) (scaling (con lcs j))) (e_mul (el_size (seg_el vs j)) (scaling (con lcs i)))) x) by (rewrite !eval_sub, !eval_mul, !eval_size, Si, Sj; lra). rewrite Eq. apply Qle_refl.
Qed.
End Enlarge.

Section Tile.
Variables (vs : list variable) (l : layout) (area : rect) (cs : list constr) (x : variable -> Q).
Hypotheses (V : vars_ok vs l) (Ep : problem vs l area = Ret cs) (Fe : feasible cs x) (Op : forall z, feasible cs z -> penalty cs x <= penalty cs z).
Let total := (snd (bounds l area) - fst (bounds l area))%Z.
Let n := length (l_constraints l).
Hypotheses (Nn : (1 <= n)%nat) (Space : (0 <= cells_between l)%Z).
Let T := inject_Z total * 100.
Let want := inject_Z (cells_between l) * 100.
Let seg i := size x (seg_el vs i).
Let sp i := size x (sp_el vs i).
Let asked := sum_of (fun _ : nat => want) (mids n).
Hypothesis Fits : asked <= T.
Lemma wanted i : In i (mids n) -> want <= sp i.
Proof. intros I. destruct (apart vs l area cs x V Ep Fe Op Nn Space) as [A _]. fold n total in A. apply A; [exact Fits|exact I]. Qed.
Lemma flex_spaces fx z : flex_constraints (area_el vs) (map (sp_el vs) (seq 0 (S n))) (l_flex l) (cells_between l) = Ret fx -> row vs l area z ->
  cost z fx == spaces_cost (l_flex l) T want n (fun i => size z (sp_el vs i)).
Proof.
  intros Ef [Az _ Pz _ _]. fold total T n in Az, Pz. destruct V as [_ Lv]. fold n in Lv. rewrite (flex_cost vs n Lv Nn (l_flex l) (cells_between l) fx z T Ef Az Pz). unfold spaces_cost. cbv zeta.
  assert (G : sum_of (fun i => 100100100 * violation z (has_min_size (sp_el vs i) (cells_between l) spacer_size_eq) + 10 * (T - size z (sp_el vs i))) (mids n) == sum_of (fun i => 100100100 * Qmax 0 (want - size z (sp_el vs i)) + 10 * (T - size z (sp_el vs i))) (mids n)) by (apply sum_ext; intros i _; now rewrite vio_min_eq).
  destruct (l_flex l); rewrite ?G; reflexivity.
Qed.
(** Only the spacers change. *)
Lemma spaces_best p : (forall i, (i <= n)%nat -> 0 <= p i) -> sum_of p (seq 0 (S n)) == sum_of sp (seq 0 (S n)) -> spaces_cost (l_flex l) T want n sp <= spaces_cost (l_flex l) T want n p.
Proof.
  intros P0 Sm. destruct (exchange vs l area cs x V Ep Fe Op Nn) as (fx & fi & Ef & Ei & Rx & Ex). fold n in Ef, Ei, Ex. fold total in Ex. fold T in Ex. pose proof V as [_ Lv]. fold n in Lv.
  pose proof (sizes_sum vs n Lv Nn x) as Ss. pose proof Rx as [Ax Sx Px F0 Fn]. fold total T n in Ax, Sx, Px, Fn. rewrite Ax in Ss.
  destruct (Ex p seg P0 ltac:(intros i Hi; apply Sx; exact Hi) ltac:(rewrite Sm; exact Ss)) as (y & Ry & Y1 & Y2 & Le). pose proof Ry as [Ay _ _ _ _]. fold total T in Ay.
  assert (Area : size y (area_el vs) == size x (area_el vs)) by (rewrite Ax, Ay; reflexivity). assert (Nonneg : forall i, (i < n)%nat -> 0 <= size x (seg_el vs i)) by (intros i Hi; apply Sx; exact Hi).
  assert (Hs : forall i, (i < n)%nat -> size y (seg_el vs i) == 1 * size x (seg_el vs i)) by (intros i Hi; rewrite (Y1 i Hi); unfold seg; ring). assert (C0 : 0 <= 1) by discriminate. assert (C1 : 1 <= 1) by discriminate.
  pose proof (sizes_shrink vs n (l_flex l) (l_constraints l) x y 1 Lv Nn eq_refl C1 Area Nonneg Hs) as A1.
  pose proof (fill_shrinks vs n (l_flex l) (l_constraints l) x y 1 Lv Nn eq_refl C0 C1 Hs fi Ei) as A2.
  pose proof (neighbours_shrink vs n (l_constraints l) x y 1 Lv Nn eq_refl C0 C1 Hs) as A3.
  assert (A4 : cost y (match l_flex l with FlexLegacy => [] | _ => neighbours (map (seg_el vs) (seq 0 n)) end) <= cost x (match l_flex l with FlexLegacy => [] | _ => neighbours (map (seg_el vs) (seq 0 n)) end)) by (destruct (l_flex l); [apply Qle_refl|exact A3..]).
  pose proof (flex_spaces fx x Ef Rx) as Cx. pose proof (flex_spaces fx y Ef Ry) as Cy. rewrite (spaces_ext _ _ _ _ _ p Y2) in Cy. unfold all_cost in Le. fold n in Le. fold sp in Cx. lra.
Qed.
(** The segments grow as well: only where neighbours are not compared. *)
Lemma segments_grow p d : (l_flex l = FlexLegacy \/ n = 1%nat) -> (forall i, (i <= n)%nat -> 0 <= p i) -> (forall i, (i < n)%nat -> 0 <= d i) -> sum_of d (seq 0 n) + sum_of p (seq 0 (S n)) == sum_of sp (seq 0 (S n)) ->
  (forall i j, (i < n)%nat -> (j < n)%nat -> fills (l_flex l) (con (l_constraints l) i) = true -> fills (l_flex l) (con (l_constraints l) j) = true -> d i * scaling (con (l_constraints l) j) == d j * scaling (con (l_constraints l) i)) ->
  spaces_cost (l_flex l) T want n sp <= spaces_cost (l_flex l) T want n p + 100010000 * sum_of d (seq 0 n).
Proof.
  intros Fl P0 D0 Sm Pr. destruct (exchange vs l area cs x V Ep Fe Op Nn) as (fx & fi & Ef & Ei & Rx & Ex). fold n in Ef, Ei, Ex. fold total in Ex. fold T in Ex. pose proof V as [_ Lv]. fold n in Lv.
  pose proof (sizes_sum vs n Lv Nn x) as Ss. pose proof Rx as [Ax Sx Px F0 Fn]. fold total T n in Ax, Sx, Px, Fn. rewrite Ax in Ss. change (fun i => size x (seg_el vs i)) with seg in Ss. change (fun i => size x (sp_el vs i)) with sp in Ss.
  destruct (Ex p (fun i => seg i + d i) P0 ltac:(intros i Hi; pose proof (D0 i Hi); pose proof (proj1 (Sx i Hi)); unfold seg; cbv beta; lra) ltac:(rewrite (sum_plus seg d); lra)) as (y & Ry & Y1 & Y2 & Le). pose proof Ry as [Ay Sy _ _ _]. fold total T n in Ay, Sy.
  assert (Sm' : forall i, (i < n)%nat -> size y (seg_el vs i) <= T) by (intros i Hi; apply Sy; exact Hi).
  pose proof (sizes_grow vs n (l_flex l) (l_constraints l) x y T d Lv Nn eq_refl Ax Ay D0 Y1 Sm') as A1.
  pose proof (fill_grows vs n (l_flex l) (l_constraints l) x y d Lv Nn eq_refl Y1 Pr fi Ei) as A2.
  assert (A4 : cost y (match l_flex l with FlexLegacy => [] | _ => neighbours (map (seg_el vs) (seq 0 n)) end) <= cost x (match l_flex l with FlexLegacy => [] | _ => neighbours (map (seg_el vs) (seq 0 n)) end)) by (destruct Fl as [->| ->]; [apply Qle_refl|destruct (l_flex l); apply Qle_refl]).
  pose proof (flex_spaces fx x Ef Rx) as Cx. pose proof (flex_spaces fx y Ef Ry) as Cy. rewrite (spaces_ext _ _ _ _ _ p Y2) in Cy. unfold all_cost in Le. fold n in Le. fold sp in Cx. lra.
Qed.
Lemma ends_sum (f : nat -> Q) : sum_of f (seq 0 (S n)) == f 0%nat + sum_of f (mids n) + f n.
Proof.
  unfold mids. destruct n as [|m] eqn:En; [lia|]. replace (S m - 1)%nat with m by lia. change (seq 0 (S (S m))) with (0%nat :: seq 1 (S m)). rewrite (seq_S m 1). cbn [sum_of]. rewrite sum_app. cbn [sum_of]. replace (1 + m)%nat with (S m) by lia. ring.
Qed.
Lemma ends_pos : 0 <= sp 0%nat /\ 0 <= sp n.
Proof. destruct (exchange vs l area cs x V Ep Fe Op Nn) as (_ & _ & _ & _ & [_ _ _ F0 Fn] & _). split; [exact F0|exact Fn]. Qed.
Lemma want_pos : 0 <= want.
Proof. unfold want. assert (0 <= inject_Z (cells_between l)) by (change 0 with (inject_Z 0); now rewrite <- Zle_Qle). lra. Qed.
(** What the middle spacers have beyond what was asked for. *)
Let extra := sum_of (fun i => sp i - want) (mids n).
Lemma extra_sum : sum_of sp (mids n) == asked + extra.
Proof. unfold asked, extra. rewrite <- sum_plus. apply sum_ext. intros. ring. Qed.
Lemma extra_abs : sum_of (fun i => Qabs (sp i - want)) (mids n) == extra.
Proof. unfold extra. apply sum_ext. intros i I. apply Qabs_pos. pose proof (wanted i I). lra. Qed.
Lemma extra_pos : 0 <= extra.
Proof. unfold extra. apply sum_pos. intros i I. pose proof (wanted i I). lra. Qed.
Lemma extra_zero : extra <= 0 -> forall i, In i (mids n) -> sp i == want.
Proof. intros H i I. pose proof (sum_zero_all (fun i => sp i - want) (mids n) ltac:(intros j J; pose proof (wanted j J); cbv beta; lra) H i I) as Z. cbv beta in Z. pose proof (wanted i I). lra. Qed.
(** Spacers that are exact, but for those at the edges. *)
Definition exactly (first last : Q) (i : nat) : Q := if (i =? 0)%nat then first else if (i =? n)%nat then last else want.
Lemma exactly_mid a b i : In i (mids n) -> exactly a b i == want.
Proof. intros I. apply in_seq in I. unfold exactly. destruct (Nat.eqb_spec i 0); [lia|]. destruct (Nat.eqb_spec i n); [lia|]. reflexivity. Qed.
Lemma exactly_ends a b : exactly a b 0%nat = a /\ exactly a b n = b.
Proof. unfold exactly. split; [reflexivity|]. destruct (Nat.eqb_spec n 0); [lia|]. now rewrite Nat.eqb_refl. Qed.
Lemma exactly_pos a b : 0 <= a -> 0 <= b -> forall i, (i <= n)%nat -> 0 <= exactly a b i.
Proof. intros A B i _. unfold exactly. destruct (i =? 0)%nat; [exact A|]. destruct (i =? n)%nat; [exact B|apply want_pos]. Qed.
Lemma exactly_sum a b : sum_of (exactly a b) (seq 0 (S n)) == a + asked + b.
Proof. rewrite ends_sum. destruct (exactly_ends a b) as [-> ->]. rewrite (sum_ext (exactly a b) (fun _ => want) (mids n)) by (intros i I; now apply exactly_mid). reflexivity. Qed.
Lemma exactly_abs a b : sum_of (fun i => Qabs (exactly a b i - want)) (mids n) == 0.
Proof. apply sum_zero. intros i I. rewrite (exactly_mid a b i I). setoid_replace (want - want) with 0 by ring. reflexivity. Qed.

Lemma start_exact : l_flex l = FlexStart -> sp 0%nat == 0 /\ forall i, In i (mids n) -> sp i == want.
Proof.
  intros Fl. pose proof ends_pos as [P0 Pn]. pose proof extra_pos as Px. set (b := sp n + sp 0%nat + extra).
  pose proof (spaces_best (exactly 0 b) ltac:(apply exactly_pos; [discriminate|unfold b; lra]) ltac:(rewrite exactly_sum, ends_sum, extra_sum; unfold b; ring)) as B.
  unfold spaces_cost in B. rewrite Fl in B. cbv zeta in B. rewrite extra_abs, exactly_abs in B. destruct (exactly_ends 0 b) as [E0 En]. rewrite E0, En in B. change (Qabs 0) with 0 in B. rewrite (Qabs_pos (sp 0%nat) P0) in B. unfold b in B. split; [lra|]. apply extra_zero. lra.
Qed.
Lemma end_exact : l_flex l = FlexEnd -> sp n == 0 /\ forall i, In i (mids n) -> sp i == want.
Proof.
  intros Fl. pose proof ends_pos as [P0 Pn]. pose proof extra_pos as Px. set (b := sp n + sp 0%nat + extra).
  pose proof (spaces_best (exactly b 0) ltac:(apply exactly_pos; [unfold b; lra|discriminate]) ltac:(rewrite exactly_sum, ends_sum, extra_sum; unfold b; ring)) as B.
  unfold spaces_cost in B. rewrite Fl in B. cbv zeta in B. rewrite extra_abs, exactly_abs in B. destruct (exactly_ends b 0) as [E0 En]. rewrite E0, En in B. change (Qabs 0) with 0 in B. rewrite (Qabs_pos (sp n) Pn) in B. unfold b in B. split; [lra|]. apply extra_zero. lra.
Qed.
Lemma center_exact : l_flex l = FlexCenter -> sp 0%nat == sp n /\ forall i, In i (mids n) -> sp i == want.
Proof.
  intros Fl. pose proof ends_pos as [P0 Pn]. pose proof extra_pos as Px. set (b := (sp n + sp 0%nat + extra) * (1 # 2)).
  pose proof (spaces_best (exactly b b) ltac:(apply exactly_pos; unfold b; lra) ltac:(rewrite exactly_sum, ends_sum, extra_sum; unfold b; ring)) as B.
  unfold spaces_cost in B. rewrite Fl in B. cbv zeta in B. rewrite extra_abs, exactly_abs in B. destruct (exactly_ends b b) as [E0 En]. rewrite E0, En in B. assert (Z0 : Qabs (b - b) == 0) by (setoid_replace (b - b) with 0 by ring; reflexivity). rewrite Z0 in B. pose proof (Qabs_nonneg (sp 0%nat - sp n)) as Ab. unfold b in B.
  assert (Zq : Qabs (sp 0%nat - sp n) <= 0) by lra. apply Qabs_Qle_condition in Zq. split; [lra|]. apply extra_zero. lra.
Qed.
(** Spaces between (and around) at least two segments share what is left equally. *)
Lemma between_exact : l_flex l = FlexSpaceBetween \/ l_flex l = FlexSpaceAround -> (2 <= n)%nat -> sp 0%nat == 0 /\ sp n == 0 /\ forall i j, In i (mids n) -> In j (mids n) -> sp i == sp j.
Proof.
  intros Fl N2. pose proof ends_pos as [P0 Pn]. pose proof extra_pos as Px. set (k := inject_Z (Z.of_nat (length (mids n)))). assert (Lm : length (mids n) = (n - 1)%nat) by (unfold mids; apply seq_length).
  assert (K1 : 1 <= k) by (unfold k; change 1 with (inject_Z 1); rewrite <- Zle_Qle, Lm; lia). assert (Kz : ~ k == 0) by lra. set (all := sum_of sp (seq 0 (S n))). set (t := all / k).
  assert (Ea : all == sp 0%nat + (asked + extra) + sp n) by (unfold all; now rewrite ends_sum, extra_sum). assert (Ek : asked == k * want) by (unfold asked, k; apply (sum_const want)). assert (Et : k * t == all) by (unfold t; field; exact Kz). assert (Tw : want <= t) by nra. pose proof want_pos as W0.
  set (p := fun i => if (i =? 0)%nat then 0 else if (i =? n)%nat then 0 else t).
  assert (Pm : forall i, In i (mids n) -> p i == t) by (intros i I; apply in_seq in I; unfold p; destruct (Nat.eqb_spec i 0); [lia|]; destruct (Nat.eqb_spec i n); [lia|]; reflexivity).
  assert (Pe : p 0%nat = 0 /\ p n = 0) by (unfold p; split; [reflexivity|]; destruct (Nat.eqb_spec n 0); [lia|]; now rewrite Nat.eqb_refl).
  assert (Sm : sum_of p (mids n) == all) by (rewrite (sum_ext p (fun _ => t) _ Pm), sum_const; exact Et).
  pose proof (spaces_best p ltac:(intros i _; unfold p; destruct (i =? 0)%nat; [discriminate|]; destruct (i =? n)%nat; [discriminate|lra]) ltac:(rewrite ends_sum, (proj1 Pe), (proj2 Pe), Sm; unfold all; ring)) as B.
  assert (Pr : sum_of (fun q => Qabs (p (fst q) - p (snd q))) (all_pairs (mids n)) == 0) by (apply sum_zero; intros [i j] I; apply all_pairs_in in I; destruct I as [I J]; cbn [fst snd] in *; rewrite (Pm i I), (Pm j J); setoid_replace (t - t) with 0 by ring; reflexivity).
  assert (Gp : sum_of (fun i => 100100100 * Qmax 0 (want - p i) + 10 * (T - p i)) (mids n) == 10 * (k * T - all)).
  { rewrite (sum_ext _ (fun _ => 10 * (T - t)) _) by (intros i I; rewrite (Pm i I); rewrite Q.max_l by lra; ring). rewrite sum_const. fold k. rewrite <- Et. ring. }
  assert (Gx : sum_of (fun i => 100100100 * Qmax 0 (want - sp i) + 10 * (T - sp i)) (mids n) == 10 * (k * T - (asked + extra))).
  { rewrite (sum_ext _ (fun i => 10 * T - 10 * sp i) _) by (intros i I; pose proof (wanted i I); rewrite Q.max_l by lra; ring). rewrite sum_minus, sum_const, sum_scale, extra_sum. fold k. ring. }
  set (px := sum_of (fun q => Qabs (sp (fst q) - sp (snd q))) (all_pairs (mids n))) in *. assert (Pp : 0 <= px) by (apply sum_pos; intros; apply Qabs_nonneg).
  assert (Main : 100100100 * px + 10 * (sp 0%nat + sp n) <= 0).
  { unfold spaces_cost in B. destruct Fl as [Fl|Fl]; rewrite Fl in B; cbv zeta in B; fold px in B; rewrite Pr, Gp, Gx in B; rewrite ?(proj1 Pe), ?(proj2 Pe) in B; change (Qabs 0) with 0 in B; rewrite ?(Qabs_pos (sp 0%nat) P0), ?(Qabs_pos (sp n) Pn) in B; lra. }
  split; [lra|]. split; [lra|]. intros i j I J. assert (Pz : px <= 0) by lra.
  assert (Sd : sum_of (fun a => sum_of (fun b => Qabs (sp a - sp b)) (mids n)) (mids n) <= 0).
  { pose proof (all_pairs_sum (fun a b => Qabs (sp a - sp b)) (mids n) ltac:(intros a b; cbv beta; rewrite Qabs_Qminus; reflexivity) ltac:(intros a; setoid_replace (sp a - sp a) with 0 by ring; reflexivity)) as A. cbv beta in A. unfold px in Pz. lra. }
  assert (N0 : forall a b, 0 <= Qabs (sp a - sp b)) by (intros; apply Qabs_nonneg).
  pose proof (sum_zero_all (fun a => sum_of (fun b => Qabs (sp a - sp b)) (mids n)) (mids n) ltac:(intros; apply sum_pos; intros; apply N0) Sd i I) as Zi. cbv beta in Zi.
  pose proof (sum_zero_all (fun b => Qabs (sp i - sp b)) (mids n) ltac:(intros; apply N0) ltac:(lra) j J) as Zj. cbv beta in Zj. assert (Zq : Qabs (sp i - sp j) <= 0) by lra. apply Qabs_Qle_condition in Zq. lra.
Qed.
(** Legacy layouts, and a single segment with space between: the segments take everything. *)
Lemma legacy_exact : l_flex l = FlexLegacy \/ (l_flex l = FlexSpaceBetween /\ n = 1%nat) -> sp 0%nat == 0 /\ sp n == 0 /\ forall i, In i (mids n) -> sp i == want.
Proof.
  intros Fl. pose proof ends_pos as [P0 Pn]. pose proof extra_pos as Px. set (more := sp 0%nat + extra + sp n).
  assert (Share : exists d, (forall i, (i < n)%nat -> 0 <= d i) /\ sum_of d (seq 0 n) == more /\
    forall i j, (i < n)%nat -> (j < n)%nat -> fills (l_flex l) (con (l_constraints l) i) = true -> fills (l_flex l) (con (l_constraints l) j) = true -> d i * scaling (con (l_constraints l) j) == d j * scaling (con (l_constraints l) i)).
  { assert (M0 : 0 <= more) by (unfold more; lra). destruct (existsb (fun i => negb (fills (l_flex l) (con (l_constraints l) i))) (seq 0 n)) eqn:Ex.
    - apply existsb_exists in Ex. destruct Ex as (k & Ik & Fk). apply in_seq in Ik. exists (fun i => if (i =? k)%nat then more else 0). split; [intros i _; destruct (i =? k)%nat; [exact M0|discriminate]|]. split.
      + replace n with (k + S (n - S k))%nat by lia. rewrite seq_app. cbn [seq]. rewrite sum_app. cbn [sum_of]. rewrite Nat.add_0_l, Nat.eqb_refl. rewrite (sum_zero _ (seq 0 k)), (sum_zero _ (seq (S k) _)); [ring| |]; intros i I; apply in_seq in I; destruct (Nat.eqb_spec i k); try lia; reflexivity.
      + intros i j Hi Hj Fi Fj. destruct (Nat.eqb_spec i k) as [->|Ni]; [rewrite Fi in Fk; discriminate|]. destruct (Nat.eqb_spec j k) as [->|Nj]; [rewrite Fj in Fk; discriminate|]. ring.
    - set (w := fun i => scaling (con (l_constraints l) i)). assert (Wp : forall i, (i < n)%nat -> 0 < w i).
      { intros i Hi. assert (Fi : fills (l_flex l) (con (l_constraints l) i) = true) by (destruct (fills _ _) eqn:F; [reflexivity|]; exfalso; assert (Y : existsb (fun i => negb (fills (l_flex l) (con (l_constraints l) i))) (seq 0 n) = true) by (apply existsb_exists; exists i; rewrite F; split; [apply in_seq; lia|reflexivity]); congruence).
        unfold w. destruct (con (l_constraints l) i); try discriminate; cbn [scaling]; try reflexivity. destruct (qltb (1 # 1000000) _) eqn:Q; [|reflexivity]. apply qltb_ok in Q. lra. }
      set (W := sum_of w (seq 0 n)). assert (Wq : 0 < W). { unfold W. destruct n as [|m] eqn:En; [lia|]. cbn [seq sum_of]. pose proof (Wp 0%nat ltac:(lia)). assert (0 <= sum_of w (seq 1 m)) by (apply sum_pos; intros i I; apply in_seq in I; apply Qlt_le_weak, Wp; lia). lra. }
      exists (fun i => more / W * w i). assert (R0 : 0 <= more / W) by (unfold Qdiv; apply Qmult_le_0_compat; [exact M0|apply Qlt_le_weak, Qinv_lt_0_compat, Wq]).
      split; [intros i Hi; apply Qmult_le_0_compat; [exact R0|apply Qlt_le_weak, Wp, Hi]|]. split; [rewrite sum_scale; fold W; field; lra|]. intros i j _ _ _ _. fold (w i) (w j). ring. }
  destruct Share as (d & D0 & Sd & Pr). 
  pose proof (segments_grow (exactly 0 0) d ltac:(tauto) ltac:(apply exactly_pos; discriminate) D0 ltac:(rewrite exactly_sum, ends_sum, extra_sum, Sd; unfold more; ring) Pr) as B. rewrite Sd in B. unfold more in B.
  destruct (exactly_ends 0 0) as [E0 En]. unfold spaces_cost in B. destruct Fl as [Fl|[Fl N1]]; rewrite Fl in B; cbv zeta in B; rewrite E0, En in B; change (Qabs 0) with 0 in B; rewrite (Qabs_pos (sp 0%nat) P0), (Qabs_pos (sp n) Pn) in B.
  - rewrite extra_abs, exactly_abs in B. split; [lra|]. split; [lra|]. apply extra_zero. lra.
  - assert (Mz : mids n = []) by (unfold mids; now rewrite N1). assert (Ez : extra == 0) by (unfold extra; now rewrite Mz). rewrite Mz in B. cbn [all_pairs sum_of] in B. split; [lra|]. split; [lra|]. apply extra_zero. lra.
Qed.
Lemma edge_values : x (var_at vs 0) == inject_Z (fst (bounds l area)) * 100 /\ x (var_at vs (2 * n + 1)) == inject_Z (snd (bounds l area)) * 100 /\
  forall j, (j < 2 * n + 2)%nat -> inject_Z (fst (bounds l area)) * 100 <= x (var_at vs j).
Proof.
  pose proof V as [_ Lv]. fold n in Lv. destruct (problem_ok vs l area V) as (rest & E0 & _). rewrite Ep in E0. apply Ret_inj in E0.
  assert (Hx : forall c, In c (hard (qmul (inject_Z (fst (bounds l area))) multiplier) (qmul (inject_Z (snd (bounds l area))) multiplier) vs) -> satisfies x c) by (intros c I; apply Fe; [rewrite E0; apply in_app_iff; now left|apply hard_strength in I; destruct I as [I _]; unfold mandatory; rewrite I; apply Qle_refl]).
  assert (Ar : area_el vs = Element (var_at vs 0) (var_at vs (2 * n + 1))) by now apply area_eq. apply hard_sat in Hx. rewrite !qmul_ok in Hx. destruct Hx as (X1 & X2 & X3 & _). unfold multiplier in *.
  assert (Ah : hd 0%Z vs = var_at vs 0) by (exact (f_equal el_start Ar)). assert (Al : last vs 0%Z = var_at vs (2 * n + 1)) by (exact (f_equal el_end Ar)). rewrite Ah in X1, X3. rewrite Al in X2. split; [exact X1|]. split; [exact X2|]. intros j Hj. destruct (X3 (var_at vs j) ltac:(apply nth_In; rewrite Lv; exact Hj)) as [A _]. lra.
Qed.
End Tile.
