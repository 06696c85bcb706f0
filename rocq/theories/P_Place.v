(** Layouts with room for every segment: what every part of the problem costs, compared with the intended positions. *)
From Verif Require Import Base P_Base M_Geom M_Combin M_Solver M_Layout S_Solver S_Place P_Row P_Layout P_Sum.
From Coq Require Import ZArith NArith QArith Qabs Qminmax List Bool Lia Lqa Setoid Permutation.
Import ListNotations.
Open Scope Q_scope.

(** ** Expressions and violations *)
Definition size (x : variable -> Q) (e : element) : Q := x (el_end e) - x (el_start e).
Lemma eval_size e x : eval (el_size e) x == size x e.
Proof. unfold eval, size. cbn. ring. Qed.
Lemma eval_terms (l : list (variable * Q)) g k x : (forall q, g q == q * k) -> fold_right (fun t acc => snd t * x (fst t) + acc) 0 (map (fun t => (fst t, g (snd t))) l) == fold_right (fun t acc => snd t * x (fst t) + acc) 0 l * k.
Proof. intros G. induction l as [|t l IH]; cbn [map fold_right fst snd]; [ring|]. rewrite IH, G. ring. Qed.
Lemma eval_mul e k x : eval (e_mul e k) x == eval e x * k.
Proof. unfold eval, e_mul. cbn [e_const e_terms]. rewrite (eval_terms _ (fun q => qmul q k) k) by (intros; apply qmul_ok). rewrite qmul_ok. ring. Qed.
Lemma eval_div e k x : ~ k == 0 -> eval (e_div e k) x == eval e x / k.
Proof. intros H. unfold eval, e_div. cbn [e_const e_terms]. rewrite (eval_terms _ (fun q => qdiv q k) (/ k)) by (intros; rewrite qdiv_ok; field; exact H). rewrite qdiv_ok. field. exact H. Qed.
Lemma eval_sub e f x : eval (e_sub e f) x == eval e x - eval f x.
Proof.
  unfold eval, e_sub, e_negate. cbn [e_const e_terms]. rewrite fold_right_app. rewrite qadd_ok, qopp_ok.
  assert (T : fold_right (fun t acc => snd t * x (fst t) + acc) 0 (map (fun t => (fst t, qopp (snd t))) (e_terms f)) == fold_right (fun t acc => snd t * x (fst t) + acc) 0 (e_terms f) * -(1)) by (apply eval_terms; intros; rewrite qopp_ok; ring).
  assert (F : forall l a, fold_right (fun t acc => snd t * x (fst t) + acc) a l == fold_right (fun t acc => snd t * x (fst t) + acc) 0 l + a) by (induction l as [|t l IH]; intros a; cbn [fold_right]; [ring|]; rewrite IH; ring).
  rewrite F, T. ring.
Qed.
Lemma eval_sub_const e k x : eval (e_sub_const e k) x == eval e x - k.
Proof. unfold eval, e_sub_const. cbn [e_const e_terms]. rewrite qadd_ok, qopp_ok. ring. Qed.
Lemma vio_size x e f k : violation x (has_size e f k) == Qabs (size x e - eval f x).
Proof. unfold violation, has_size, rel_expr. cbn [c_op c_expr]. rewrite eval_sub, eval_size. reflexivity. Qed.
Lemma vio_int x e n k : violation x (has_int_size e n k) == Qabs (size x e - inject_Z n * 100).
Proof. unfold violation, has_int_size, rel_const. cbn [c_op c_expr]. rewrite eval_sub_const, eval_size, qmul_ok. reflexivity. Qed.
Lemma vio_empty x e : violation x (is_empty e) == Qabs (size x e).
Proof. unfold violation, is_empty, rel_const. cbn [c_op c_expr]. rewrite eval_sub_const, eval_size. apply Qabs_wd. ring. Qed.
Lemma vio_min x e n k : 0 <= violation x (has_min_size e n k) /\ (inject_Z n * 100 <= size x e -> violation x (has_min_size e n k) == 0) /\ inject_Z n * 100 - size x e <= violation x (has_min_size e n k).
Proof.
  unfold violation, has_min_size, rel_const. cbn [c_op c_expr]. assert (E : - eval (e_sub_const (el_size e) (qmul (inject_Z n) multiplier)) x == inject_Z n * 100 - size x e) by (rewrite eval_sub_const, eval_size, qmul_ok; unfold multiplier; ring).
  split; [apply Q.le_max_l|]. split; [|rewrite <- E; apply Q.le_max_r]. intros H. apply Q.max_l. rewrite E. lra.
Qed.
Lemma vio_max x e n k : 0 <= violation x (has_max_size e n k) /\ (size x e <= inject_Z n * 100 -> violation x (has_max_size e n k) == 0).
Proof.
  unfold violation, has_max_size, rel_const. cbn [c_op c_expr]. assert (E : eval (e_sub_const (el_size e) (qmul (inject_Z n) multiplier)) x == size x e - inject_Z n * 100) by (rewrite eval_sub_const, eval_size, qmul_ok; unfold multiplier; ring).
  split; [apply Q.le_max_l|]. intros H. apply Q.max_l. rewrite E. lra.
Qed.

(** ** The cost of optional constraints *)
Definition cost (x : variable -> Q) (cs : list constr) : Q := sum_of (fun c => c_strength c * violation x c) cs.
Lemma cost_app x a b : cost x (a ++ b) == cost x a + cost x b.
Proof. apply sum_app. Qed.
Lemma penalty_cost x h rest vs : (forall c, In c h -> mandatory c) -> (forall c, In c rest -> soft vs c) -> penalty (h ++ rest) x == cost x rest.
Proof.
  intros Hh Hr. unfold penalty. rewrite fold_right_app. induction h as [|c h IH]; cbn [fold_right].
  - unfold cost. clear Hh. induction rest as [|c rest IH]; cbn [fold_right sum_of]; [reflexivity|]. rewrite IH by (intros d I; apply Hr; now right). destruct (Hr c (or_introl eq_refl)) as (_ & L & _). destruct (Qle_bool required (c_strength c)) eqn:R; [apply Qle_bool_iff in R; lra|]. reflexivity.
  - rewrite IH by (intros d I; apply Hh; now right). assert (M : mandatory c) by (apply Hh; now left). apply Qle_bool_iff in M. rewrite M. ring.
Qed.

(** Sizes of neighbours are compared only weakly. *)
Lemma neighbours_gain x y l : - (2 * sum_of (fun e => Qabs (size x e - size y e)) l) <= cost x (neighbours l) - cost y (neighbours l).
Proof.
  assert (G : forall l a, Qabs (size x a - size y a) - 2 * sum_of (fun e => Qabs (size x e - size y e)) (a :: l) <= cost x (neighbours (a :: l)) - cost y (neighbours (a :: l))).
  { clear l. induction l as [|b l IH]; intros a.
    - cbn [neighbours sum_of cost]. unfold cost. cbn [sum_of]. pose proof (Qabs_nonneg (size x a - size y a)). lra.
    - specialize (IH b). change (neighbours (a :: b :: l)) with (has_size a (el_size b) all_segment_grow :: neighbours (b :: l)). set (N := neighbours (b :: l)) in *. clearbody N. unfold cost in *. cbn [sum_of] in *. rewrite !vio_size, !eval_size. change (c_strength (has_size a (el_size b) all_segment_grow)) with 1.
      assert (T : Qabs (size y a - size y b) <= Qabs (size x a - size x b) + Qabs (size x a - size y a) + Qabs (size x b - size y b)).
      { setoid_replace (size y a - size y b) with ((size x a - size x b) + (-(size x a - size y a) + (size x b - size y b))) by ring. pose proof (Qabs_triangle (size x a - size x b) (-(size x a - size y a) + (size x b - size y b))). pose proof (Qabs_triangle (-(size x a - size y a)) (size x b - size y b)). rewrite Qabs_opp in *. lra. }
      lra. }
  destruct l as [|a l]; [unfold cost; cbn; lra|]. specialize (G l a). pose proof (Qabs_nonneg (size x a - size y a)). lra.
Qed.

(** ** One segment *)
Section Segment.
Variables (fl : flex) (total : Z) (area : element).
(** [x] is any position, [y] the intended one. *)
Lemma segment_gain c e x y : size x area == inject_Z total * 100 -> size y area == inject_Z total * 100 -> size x e <= inject_Z total * 100 -> size y e <= inject_Z total * 100 ->
  match demand_of fl total c with
  | Exactly q => size y e == q * 100 -> cost y (segment_constraints area fl c e) == 0 /\ 10000 * Qabs (size x e - size y e) <= cost x (segment_constraints area fl c e)
  | Grow w m => inject_Z m * 100 <= size y e -> - (1000 * (size x e - size y e)) <= cost x (segment_constraints area fl c e) - cost y (segment_constraints area fl c e)
  end.
Proof.
  intros Ax Ay Lx Ly.
  assert (Int : forall n k, size y e == inject_Z n * 100 -> c_strength (has_int_size e n k) * violation y (has_int_size e n k) == 0 /\ c_strength (has_int_size e n k) * violation x (has_int_size e n k) == k * Qabs (size x e - size y e)).
  { intros n k H. rewrite !vio_int. rewrite H. setoid_replace (inject_Z n * 100 - inject_Z n * 100) with 0 by ring. cbn [c_strength has_int_size rel_const]. split; [change (Qabs 0) with 0; ring|reflexivity]. }
  assert (Pos : 0 <= Qabs (size x e - size y e)) by apply Qabs_nonneg.
  assert (Fill : c_strength (has_size e (el_size area) fill_grow) * violation x (has_size e (el_size area) fill_grow) == 1000 * (inject_Z total * 100 - size x e) /\ c_strength (has_size e (el_size area) fill_grow) * violation y (has_size e (el_size area) fill_grow) == 1000 * (inject_Z total * 100 - size y e)).
  { rewrite !vio_size, !eval_size, Ax, Ay. change (c_strength (has_size e (el_size area) fill_grow)) with 1000. rewrite !Qabs_neg by lra. split; ring. }
  assert (Frac : forall f q k, (forall z, size z area == inject_Z total * 100 -> eval f z == q * 100) -> size y e == q * 100 -> c_strength (has_size e f k) * violation y (has_size e f k) == 0 /\ c_strength (has_size e f k) * violation x (has_size e f k) == k * Qabs (size x e - size y e)).
  { intros f q k Ef H. rewrite !vio_size, (Ef x Ax), (Ef y Ay), H. setoid_replace (q * 100 - q * 100) with 0 by ring. cbn [c_strength has_size rel_expr]. split; [change (Qabs 0) with 0; ring|reflexivity]. }
  assert (Min : forall n k, 0 <= k -> inject_Z n * 100 <= size y e -> c_strength (has_min_size e n k) * violation y (has_min_size e n k) == 0 /\ 0 <= c_strength (has_min_size e n k) * violation x (has_min_size e n k)).
  { intros n k K H. destruct (vio_min y e n k) as (_ & E & _). destruct (vio_min x e n k) as (P & _). rewrite (E H). cbn [c_strength has_min_size rel_const]. split; [ring|now apply Qmult_le_0_compat]. }
  unfold cost. destruct c as [n|n|n|n|a b|n]; cbn [demand_of segment_constraints].
  - destruct fl; cbn [sum_of].
    1:{ intros H. destruct (Min n min_size_gte) as [M1 M2]; [discriminate|lra|]. destruct (Int n min_size_eq H) as [I1 I2]. rewrite M1, I1, I2. unfold min_size_eq. setoid_replace (qmul medium 10) with 10000 by reflexivity. split; [ring|lra]. }
    all: intros H; destruct (Min n min_size_gte) as [M1 M2]; [discriminate|exact H|]; destruct Fill as [F1 F2]; rewrite M1, F1, F2; lra.
  - cbn [sum_of]. intros H. destruct (vio_max y e n max_size_lte) as (_ & E). destruct (vio_max x e n max_size_lte) as (P & _). rewrite E by lra. destruct (Int n max_size_eq H) as [I1 I2]. rewrite I1, I2. change (c_strength (has_max_size e n max_size_lte)) with 100000000. unfold max_size_eq. setoid_replace (qmul medium 10) with 10000 by reflexivity. split; [ring|lra].
  - cbn [sum_of]. intros H. destruct (Int n length_size_eq H) as [I1 I2]. rewrite I1, I2. unfold length_size_eq. setoid_replace (qmul strong 10) with 10000000 by reflexivity. split; [ring|lra].
  - cbn [sum_of]. intros H. destruct (Frac (e_div (e_mul (el_size area) (inject_Z n)) 100) (inject_Z n * inject_Z total / 100) percentage_size_eq) as [I1 I2]; [|exact H|].
    { intros z Hz. rewrite eval_div by discriminate. rewrite eval_mul, eval_size, Hz. field. }
    rewrite I1, I2. unfold percentage_size_eq. setoid_replace strong with 1000000 by reflexivity. split; [ring|lra].
  - cbn [sum_of]. intros H. assert (Nz : ~ inject_Z (Z.max 1 b) == 0) by (intros Y; unfold Qeq in Y; cbn in Y; lia).
    destruct (Frac (e_div (e_mul (el_size area) (inject_Z a)) (inject_Z (Z.max 1 b))) (inject_Z a * inject_Z total / inject_Z (Z.max 1 b)) ratio_size_eq) as [I1 I2]; [|exact H|].
    { intros z Hz. rewrite eval_div by exact Nz. rewrite eval_mul, eval_size, Hz. field. exact Nz. }
    rewrite I1, I2. unfold ratio_size_eq. setoid_replace (qdiv strong 10) with 100000 by reflexivity. split; [ring|lra].
  - cbn [sum_of]. intros _. destruct Fill as [F1 F2]. rewrite F1, F2. lra.
Qed.
End Segment.

(** ** The row of elements *)
Section Elements.
Variables (vs : list variable) (n : nat).
Hypotheses (Lv : length vs = (2 * n + 2)%nat) (Nn : (1 <= n)%nat).
Definition var_at (j : nat) : variable := nth j vs 0%Z.
Definition sp_el (i : nat) : element := Element (var_at (2 * i)) (var_at (2 * i + 1)).
Definition seg_el (i : nat) : element := Element (var_at (2 * i + 1)) (var_at (2 * i + 2)).
Definition area_el : element := Element (hd 0%Z vs) (last vs 0%Z).
Lemma var_nth j : (j < 2 * n + 2)%nat -> nth_error vs j = Some (var_at j).
Proof. intros H. apply nth_error_nth'. lia. Qed.
Lemma nth_ext_map {A} (l : list A) (f : nat -> A) m : length l = m -> (forall k a, nth_error l k = Some a -> a = f k) -> l = map f (seq 0 m).
Proof.
  revert f m. induction l as [|a l IH]; intros f m E H; cbn in E; subst m; [reflexivity|]. cbn [length seq map]. f_equal; [apply (H 0%nat); reflexivity|]. rewrite <- seq_shift, map_map. apply IH; [reflexivity|]. intros k b K. apply (H (S k) b K).
Qed.
Lemma spacers_eq : new_elements vs = map sp_el (seq 0 (S n)).
Proof.
  apply nth_ext_map; [rewrite elements_length, Lv; replace (2 * n + 2)%nat with (2 * (S n))%nat by lia; apply Nat.div2_double|]. intros k e H. assert (K : (k < S n)%nat). { assert (Q : nth_error (new_elements vs) k <> None) by congruence. apply nth_error_Some in Q. rewrite elements_length, Lv in Q. replace (2 * n + 2)%nat with (2 * (S n))%nat in Q by lia. now rewrite Nat.div2_double in Q. }
  apply elements_nth in H. rewrite !var_nth in H by lia. destruct H as [H1 H2]. injection H1 as H1. injection H2 as H2. destruct e. unfold sp_el. cbn in *. congruence.
Qed.
Lemma segs_eq : new_elements (tl vs) = map seg_el (seq 0 n).
Proof.
  assert (Lt : length (tl vs) = S (2 * n)) by (destruct vs; cbn in *; lia). assert (Tl : forall j, nth_error (tl vs) j = nth_error vs (S j)) by (intros j; destruct vs; [cbn in Lv; lia|reflexivity]).
  apply nth_ext_map; [rewrite elements_length, Lt; apply Nat.div2_succ_double|]. intros k e H. assert (K : (k < n)%nat). { assert (Q : nth_error (new_elements (tl vs)) k <> None) by congruence. apply nth_error_Some in Q. rewrite elements_length, Lt, Nat.div2_succ_double in Q. exact Q. }
  apply elements_nth in H. rewrite !Tl, !var_nth in H by lia. destruct H as [H1 H2]. injection H1 as H1. injection H2 as H2. destruct e. unfold seg_el. cbn in *. f_equal; [rewrite <- H1|rewrite <- H2]; f_equal; lia.
Qed.
Lemma area_eq : area_el = Element (var_at 0) (var_at (2 * n + 1)).
Proof.
  unfold area_el, var_at. f_equal; [destruct vs; reflexivity|]. replace (2 * n + 1)%nat with (length vs - 1)%nat by lia. clear. induction vs as [|a l IH]; [reflexivity|]. destruct l as [|b l]; [reflexivity|]. cbn [last length nth] in *. rewrite IH. cbn. now rewrite Nat.sub_0_r.
Qed.
(** The sizes of the spacers and the segments add up to that of the area. *)
Lemma sizes_sum x : sum_of (fun i => size x (seg_el i)) (seq 0 n) + sum_of (fun i => size x (sp_el i)) (seq 0 (S n)) == size x area_el.
Proof.
  rewrite area_eq. unfold size at 3. cbn [el_start el_end]. clear.
  assert (G : forall m, sum_of (fun i => size x (seg_el i)) (seq 0 m) + sum_of (fun i => size x (sp_el i)) (seq 0 (S m)) == x (var_at (2 * m + 1)) - x (var_at 0)); [|apply G].
  induction m as [|m IH]; [cbn [seq sum_of]; unfold size, sp_el; cbn [el_start el_end Nat.mul Nat.add]; ring|].
  rewrite (seq_S (S m) 0), (seq_S m 0), !sum_app. cbn [sum_of]. rewrite (seq_S m 0), sum_app in IH. cbn [sum_of] in IH.
  assert (E1 : size x (seg_el (0 + m)) == x (var_at (2 * S m)) - x (var_at (2 * m + 1))) by (unfold size, seg_el; cbn [el_start el_end Nat.add]; replace (2 * S m)%nat with (2 * m + 2)%nat by lia; reflexivity).
  assert (E2 : size x (sp_el (0 + S m)) == x (var_at (2 * S m + 1)) - x (var_at (2 * S m))) by (unfold size, sp_el; cbn [el_start el_end Nat.add]; reflexivity).
  rewrite E1, E2. lra.
Qed.

Definition mids : list nat := seq 1 (n - 1).
Lemma middle_eq : middle (map sp_el (seq 0 (S n))) = map sp_el mids.
Proof.
  unfold middle, mids. rewrite map_length, seq_length. destruct (Nat.ltb_spec 2 (S n)).
  - change (map sp_el (seq 0 (S n))) with (sp_el 0 :: map sp_el (seq 1 n)). cbn [tl]. replace (seq 1 n) with (seq 1 (n - 1) ++ [n]); [rewrite map_app; apply removelast_last|].
    replace n with (S (n - 1)) at 3 by lia. rewrite seq_S. do 2 f_equal. lia.
  - replace (n - 1)%nat with 0%nat by lia. reflexivity.
Qed.
Lemma ends_eq f : ends (map sp_el (seq 0 (S n))) f = f (sp_el 0) (sp_el n).
Proof.
  unfold ends. change (map sp_el (seq 0 (S n))) with (sp_el 0 :: map sp_el (seq 1 n)). replace (seq 1 n) with (seq 1 (n - 1) ++ [n]) by (replace n with (S (n - 1)) at 3 by lia; rewrite seq_S; do 2 f_equal; lia).
  rewrite map_app. cbn [map]. destruct (map sp_el (seq 1 (n - 1)) ++ [sp_el n]) eqn:E; [apply app_eq_nil in E; destruct E; discriminate|]. rewrite <- E. f_equal. rewrite app_comm_cons. apply last_last.
Qed.

(** ** Spacers *)
Lemma flex_cost fl space fx x T : flex_constraints area_el (map sp_el (seq 0 (S n))) fl space = Ret fx ->
  size x area_el == T -> (forall i, (i <= n)%nat -> size x (sp_el i) <= T) ->
  let p i := size x (sp_el i) in
  let fixed := 100100100 * sum_of (fun i => Qabs (p i - inject_Z space * 100)) mids in
  let growing := 100100100 * sum_of (fun q => Qabs (p (fst q) - p (snd q))) (all_pairs mids) +
    sum_of (fun i => 100100100 * violation x (has_min_size (sp_el i) space spacer_size_eq) + 10 * (T - p i)) mids in
  cost x fx == match fl with
  | FlexLegacy => fixed + (1001000999 * Qabs (p 0%nat) + 1001000999 * Qabs (p n))
  | FlexSpaceAround => growing
  | FlexSpaceBetween => growing + (1001000999 * Qabs (p 0%nat) + 1001000999 * Qabs (p n))
  | FlexStart => fixed + (1001000999 * Qabs (p 0%nat) + 100 * (T - p n))
  | FlexCenter => fixed + (100 * (T - p 0%nat) + 100 * (T - p n) + 100100100 * Qabs (p 0%nat - p n))
  | FlexEnd => fixed + (1001000999 * Qabs (p n) + 100 * (T - p 0%nat))
  end.
Proof.
  intros E Ax Lx p fixed growing. unfold flex_constraints in E. rewrite middle_eq in E. rewrite !ends_eq in E. cbv zeta in E.
  assert (Gr : forall i k, (i <= n)%nat -> violation x (has_size (sp_el i) (el_size area_el) k) == T - p i) by (intros i k Hi; rewrite vio_size, eval_size, Ax; rewrite Qabs_neg by (specialize (Lx i Hi); lra); unfold p; ring).
  assert (Im : forall i, In i mids -> (i <= n)%nat) by (intros i I; apply in_seq in I; lia).
  assert (Cf : cost x (map (fun s => has_size s (Expr [] (qmul (inject_Z space) multiplier)) spacer_size_eq) (map sp_el mids)) == fixed).
  { unfold cost, fixed. rewrite !sum_map, <- sum_scale. apply sum_ext. intros i _. rewrite vio_size. change (c_strength (has_size (sp_el i) (Expr [] (qmul (inject_Z space) multiplier)) spacer_size_eq)) with 100100100. unfold eval. cbn [e_const e_terms fold_right]. rewrite qmul_ok. setoid_replace (inject_Z space * multiplier + 0) with (inject_Z space * 100) by (unfold multiplier; ring). reflexivity. }
  assert (Ce : cost x [is_empty (sp_el 0); is_empty (sp_el n)] == 1001000999 * Qabs (p 0%nat) + 1001000999 * Qabs (p n)).
  { unfold cost. cbn [sum_of]. rewrite !vio_empty. change (c_strength (is_empty (sp_el 0))) with 1001000999. change (c_strength (is_empty (sp_el n))) with 1001000999. unfold p. ring. }
  assert (Cg : cost x (flat_map (fun s => [has_min_size s space spacer_size_eq; has_size s (el_size area_el) space_grow]) (map sp_el mids)) == sum_of (fun i => 100100100 * violation x (has_min_size (sp_el i) space spacer_size_eq) + 10 * (T - p i)) mids).
  { unfold cost. rewrite sum_flat_map, sum_map. apply sum_ext. intros i I. cbn [sum_of]. rewrite Gr by now apply Im. change (c_strength (has_min_size (sp_el i) space spacer_size_eq)) with 100100100. change (c_strength (has_size (sp_el i) (el_size area_el) space_grow)) with 10. ring. }
  assert (Cq : exists eq, (if (2 <=? length (map sp_el mids))%nat then let! ps := pairs (map sp_el mids) in Ret (map (fun p => has_size (fst p) (el_size (snd p)) spacer_size_eq) ps) else Ret []) = Ret eq /\ cost x eq == 100100100 * sum_of (fun q => Qabs (p (fst q) - p (snd q))) (all_pairs mids)).
  { destruct (Nat.leb_spec 2 (length (map sp_el mids))) as [H|H].
    - destruct (pairs_perm (map sp_el mids) H) as (ps & Ep & Pm). rewrite Ep. cbn [bind]. eexists. split; [reflexivity|]. unfold cost. rewrite sum_map, (sum_perm _ _ _ Pm), all_pairs_map, sum_map, <- sum_scale. apply sum_ext. intros [i j] _. cbn [fst snd]. rewrite vio_size, eval_size. reflexivity.
    - exists []. split; [reflexivity|]. unfold cost. cbn [sum_of]. rewrite map_length in H. destruct mids as [|a [|b m]]; cbn in *; try lia; ring. }
  destruct Cq as (eq & Eq & Cq). rewrite Eq in E.
  destruct fl; cbn [bind] in E; apply (f_equal (fun o => match o with Ret a => a | Panic => [] end)) in E; cbn beta iota in E; subst fx; rewrite ?cost_app, ?Cf, ?Cq, ?Cg, ?Ce; try (unfold growing; ring).
  - unfold cost. cbn [sum_of]. rewrite vio_empty, Gr by lia. change (c_strength (is_empty (sp_el 0))) with 1001000999. change (c_strength (has_size (sp_el n) (el_size area_el) grow)) with 100. unfold p. ring.
  - unfold cost. cbn [sum_of]. rewrite vio_empty, Gr by lia. change (c_strength (is_empty (sp_el n))) with 1001000999. change (c_strength (has_size (sp_el 0) (el_size area_el) grow)) with 100. unfold p. ring.
  - unfold cost. cbn [sum_of]. rewrite !Gr by lia. rewrite vio_size, eval_size. change (c_strength (has_size (sp_el 0) (el_size (sp_el n)) spacer_size_eq)) with 100100100. change (c_strength (has_size (sp_el 0) (el_size area_el) grow)) with 100. change (c_strength (has_size (sp_el n) (el_size area_el) grow)) with 100. unfold p. ring.
Qed.

(** ** Segments *)
Variables (fl : flex) (total space : Z) (cs : list lconstraint).
Hypothesis Lc : length cs = n.
Definition con (i : nat) : lconstraint := nth i cs (LFill 0).
Definition dem (i : nat) : demand := demand_of fl total (con i).
Definition growers : list nat := filter (fun i => grows (dem i)) (seq 0 n).
Definition others : list nat := filter (fun i => negb (grows (dem i))) (seq 0 n).
Lemma combine_gen {A} (f : nat -> A) l s : combine l (map f (seq s (length l))) = map (fun i => (nth (i - s) l (LFill 0), f i)) (seq s (length l)).
Proof. revert s. induction l as [|c l IH]; intros s; [reflexivity|]. cbn [length seq map combine]. rewrite Nat.sub_diag. cbn [nth]. f_equal. rewrite IH. apply map_ext_in. intros i I. apply in_seq in I. replace (i - s)%nat with (S (i - S s)) by lia. reflexivity. Qed.
Lemma combine_eq : combine cs (map seg_el (seq 0 n)) = map (fun i => (con i, seg_el i)) (seq 0 n).
Proof. rewrite <- Lc, combine_gen. apply map_ext. intros i. now rewrite Nat.sub_0_r. Qed.
Lemma fills_grows c : fills fl c = grows (demand_of fl total c).
Proof. destruct c; cbn; try reflexivity. now destruct fl. Qed.
Lemma valid_eq : filter (fun p => fills fl (fst p)) (combine cs (map seg_el (seq 0 n))) = map (fun i => (con i, seg_el i)) growers.
Proof. rewrite combine_eq. unfold growers, dem. induction (seq 0 n) as [|i l IH]; cbn [map filter fst]; [reflexivity|]. rewrite fills_grows. destruct (grows (demand_of fl total (con i))); cbn [map]; now rewrite IH. Qed.
Lemma scaling_weight c : grows (demand_of fl total c) = true -> 1 <= weight (demand_of fl total c) -> scaling c == weight (demand_of fl total c).
Proof.
  destruct c as [m|m|m|m|a b|m]; cbn; try discriminate; [destruct fl; cbn; try discriminate; reflexivity|]. intros _ H. unfold qltb. destruct (Qle_bool (inject_Z m) (1 # 1000000)) eqn:E; cbn [negb]; [|reflexivity]. apply Qle_bool_iff in E. lra.
Qed.
Lemma fill_cost fi x : fill_constraints (map seg_el (seq 0 n)) cs fl = Ret fi -> (forall i, In i growers -> 1 <= weight (dem i)) ->
  cost x fi == 100 * sum_of (fun p => Qabs (weight (dem (snd p)) * size x (seg_el (fst p)) - weight (dem (fst p)) * size x (seg_el (snd p)))) (all_pairs growers).
Proof.
  intros E W. unfold fill_constraints in E. rewrite valid_eq in E. destruct (Nat.ltb_spec (length (map (fun i => (con i, seg_el i)) growers)) 2) as [H|H].
  - injection E as <-. rewrite map_length in H. unfold cost. cbn [sum_of]. destruct growers as [|a [|b m]]; cbn in *; try lia; ring.
  - destruct (pairs_perm _ H) as (ps & Ep & Pm). rewrite Ep in E. cbn [bind] in E. apply (f_equal (fun o => match o with Ret a => a | Panic => [] end)) in E. cbn beta iota in E. subst fi.
    unfold cost. rewrite sum_map, (sum_perm _ _ _ Pm), all_pairs_map, sum_map, <- sum_scale. apply sum_ext. intros [i j] I. cbn [fst snd]. apply all_pairs_in in I. cbn [fst snd] in I. destruct I as [I J].
    assert (Si : scaling (con i) == weight (dem i)) by (apply scaling_weight; [apply filter_In in I; tauto|now apply W]). assert (Sj : scaling (con j) == weight (dem j)) by (apply scaling_weight; [apply filter_In in J; tauto|now apply W]).
    unfold violation. cbn [c_op c_expr c_strength rel_expr]. rewrite eval_sub, !eval_mul, !eval_size, Si, Sj. change grow with 100. rewrite (Qmult_comm (size x (seg_el i))), (Qmult_comm (size x (seg_el j))). reflexivity.
Qed.
Lemma sizes_gain x y : size x area_el == inject_Z total * 100 -> size y area_el == inject_Z total * 100 ->
  (forall i, (i < n)%nat -> size x (seg_el i) <= inject_Z total * 100) -> (forall i, (i < n)%nat -> size y (seg_el i) <= inject_Z total * 100) ->
  (forall i, (i < n)%nat -> match dem i with Exactly q => size y (seg_el i) == q * 100 | Grow _ m => inject_Z m * 100 <= size y (seg_el i) end) ->
  10000 * sum_of (fun i => Qabs (size x (seg_el i) - size y (seg_el i))) others - 1000 * sum_of (fun i => size x (seg_el i) - size y (seg_el i)) growers <=
  cost x (size_constraints area_el (map seg_el (seq 0 n)) cs fl) - cost y (size_constraints area_el (map seg_el (seq 0 n)) cs fl).
Proof.
  intros Ax Ay Lx Ly Ty. unfold size_constraints. rewrite combine_eq. unfold cost. rewrite !sum_flat_map, !sum_map. cbn [fst snd]. rewrite <- sum_minus.
  rewrite (sum_filter (fun i => _ - _) (fun i => grows (dem i)) (seq 0 n)). fold growers others. rewrite <- sum_scale. setoid_replace (1000 * sum_of (fun i => size x (seg_el i) - size y (seg_el i)) growers) with (- sum_of (fun i => - (1000 * (size x (seg_el i) - size y (seg_el i)))) growers).
  2:{ rewrite <- sum_scale. setoid_replace (sum_of (fun i => - (1000 * (size x (seg_el i) - size y (seg_el i)))) growers) with (-(1) * sum_of (fun i => 1000 * (size x (seg_el i) - size y (seg_el i))) growers); [ring|]. rewrite <- sum_scale. apply sum_ext. intros. ring. }
  match goal with |- ?A - - ?B <= ?C + ?D => assert (A <= D); [|assert (B <= C); [|lra]] end.
  - apply sum_le. intros i I. apply filter_In in I. destruct I as [I G]. apply in_seq in I. assert (Hi : (i < n)%nat) by lia. pose proof (segment_gain fl total area_el (con i) (seg_el i) x y Ax Ay (Lx i Hi) (Ly i Hi)) as S. specialize (Ty i Hi). fold (dem i) in S. destruct (dem i); [|discriminate]. destruct (S Ty) as [S1 S2]. unfold cost in S1, S2. rewrite S1. lra.
  - apply sum_le. intros i I. apply filter_In in I. destruct I as [I G]. apply in_seq in I. assert (Hi : (i < n)%nat) by lia. pose proof (segment_gain fl total area_el (con i) (seg_el i) x y Ax Ay (Lx i Hi) (Ly i Hi)) as S. specialize (Ty i Hi). fold (dem i) in S. destruct (dem i); [discriminate|]. exact (S Ty).
Qed.

(** ** The intended positions are the only best ones *)
Definition demands : list demand := map (demand_of fl total) cs.
Lemma demands_eq : demands = map dem (seq 0 n).
Proof. unfold demands, dem, con. rewrite <- Lc. rewrite <- (map_map (fun i => nth i cs (LFill 0)) (demand_of fl total)). f_equal. clear. induction cs as [|c l IH]; [reflexivity|]. cbn [length seq map nth]. f_equal. rewrite <- seq_shift, map_map. exact IH. Qed.
Lemma demands_sum f : sum_of f demands == sum_of (fun i => f (dem i)) (seq 0 n).
Proof. rewrite demands_eq, sum_map. reflexivity. Qed.
Lemma demands_length : length demands = n.
Proof. unfold demands. now rewrite map_length. Qed.
Lemma dem_in i : (i < n)%nat -> In (dem i) demands.
Proof. intros H. rewrite demands_eq. apply in_map. apply in_seq. lia. Qed.
Lemma growers_some : someone_grows demands = negb (match growers with [] => true | _ => false end).
Proof.
  unfold someone_grows, growers. rewrite demands_eq. induction (seq 0 n) as [|i l IH]; cbn [map existsb filter]; [reflexivity|]. destruct (grows (dem i)); cbn; [reflexivity|exact IH].
Qed.
Lemma spacer_indices : seq 0 (S n) = 0%nat :: mids ++ [n].
Proof. unfold mids. cbn [seq]. f_equal. replace n with (S (n - 1)) at 1 by lia. rewrite seq_S. do 2 f_equal. lia. Qed.
Lemma mids_length : inject_Z (Z.of_nat (length mids)) == inject_Z (Z.of_nat (length demands) - 1).
Proof. unfold mids. rewrite seq_length, demands_length. rewrite Nat2Z.inj_sub by lia. reflexivity. Qed.

Variables x y : variable -> Q.
Hypotheses (Fit : fits fl total space demands)
  (Ax : size x area_el == inject_Z total * 100) (Ay : size y area_el == inject_Z total * 100)
  (Lx : forall i, (i < n)%nat -> size x (seg_el i) <= inject_Z total * 100) (Ly : forall i, (i < n)%nat -> size y (seg_el i) <= inject_Z total * 100)
  (Px : forall i, (i <= n)%nat -> size x (sp_el i) <= inject_Z total * 100) (Py : forall i, (i <= n)%nat -> size y (sp_el i) <= inject_Z total * 100)
  (Fx : 0 <= size x (sp_el 0)) (Bx : 0 <= size x (sp_el n))
  (Y1 : forall i, (i < n)%nat -> size y (seg_el i) == share total space demands (dem i) * 100)
  (Y2 : size y (sp_el 0) == before fl total space demands * 100) (Y3 : forall i, In i mids -> size y (sp_el i) == gap fl total space demands * 100).

Lemma weights i : In i growers -> 1 <= weight (dem i).
Proof.
  intros I. apply filter_In in I. destruct I as [I G]. apply in_seq in I. assert (J : In (dem i) demands) by (apply dem_in; lia). destruct (dem i) as [q|w m]; [discriminate|]. cbn. destruct (fits_weights _ _ _ _ Fit w m J) as [W _]. change 1 with (inject_Z 1). rewrite <- Zle_Qle. exact W.
Qed.
Lemma shares_sum : sum_of (fun i => share total space demands (dem i)) (seq 0 n) == sum_of fixed_size demands + (if someone_grows demands then room total space demands else 0).
Proof.
  rewrite demands_sum. rewrite !(sum_filter _ (fun i => grows (dem i)) (seq 0 n)). fold growers others.
  assert (E1 : sum_of (fun i => share total space demands (dem i)) others == sum_of (fun i => fixed_size (dem i)) others) by (apply sum_ext; intros i I; apply filter_In in I; destruct I as [_ I]; destruct (dem i); [reflexivity|discriminate]).
  assert (E2 : sum_of (fun i => fixed_size (dem i)) growers == 0) by (apply sum_zero; intros i I; apply filter_In in I; destruct I as [_ I]; destruct (dem i); [discriminate|reflexivity]).
  assert (E3 : sum_of weight demands == sum_of (fun i => weight (dem i)) growers). { rewrite demands_sum, (sum_filter _ (fun i => grows (dem i)) (seq 0 n)). fold growers others. rewrite (sum_zero _ others); [ring|]. intros i I. apply filter_In in I. destruct I as [_ I]. destruct (dem i); [reflexivity|discriminate]. }
  assert (E4 : sum_of (fun i => share total space demands (dem i)) growers == room total space demands / sum_of weight demands * sum_of (fun i => weight (dem i)) growers). { rewrite <- sum_scale. apply sum_ext. intros i I. apply filter_In in I. destruct I as [_ I]. destruct (dem i); [discriminate|]. cbn. ring. }
  rewrite E1, E2, E4, E3. rewrite growers_some. pose proof weights as W. destruct growers as [|a g]; cbn [negb]; [cbn [sum_of]; ring|]. assert (K : ~ sum_of (fun i => weight (dem i)) (a :: g) == 0). { cbn [sum_of]. assert (1 <= weight (dem a)) by (apply W; now left). assert (0 <= sum_of (fun i => weight (dem i)) g) by (apply sum_pos; intros i I; specialize (W i (or_intror I)); lra). lra. }
  set (k := sum_of _ (a :: g)) in *. field. exact K.
Qed.
(** The space behind the last segment. *)
Lemma y_after : size y (sp_el n) == (inject_Z total - before fl total space demands - inject_Z (Z.of_nat (length demands) - 1) * gap fl total space demands - (sum_of fixed_size demands + (if someone_grows demands then room total space demands else 0))) * 100.
Proof.
  pose proof (sizes_sum y) as Sm. rewrite Ay in Sm. rewrite spacer_indices in Sm. cbn [sum_of] in Sm. rewrite sum_app in Sm. cbn [sum_of] in Sm. rewrite Y2 in Sm.
  rewrite (sum_ext _ (fun i => 100 * share total space demands (dem i))) in Sm by (intros i I; apply in_seq in I; rewrite Y1 by lia; ring). rewrite sum_scale, shares_sum in Sm.
  rewrite (sum_ext (fun i => size y (sp_el i)) (fun _ => gap fl total space demands * 100)) in Sm by exact Y3. rewrite sum_const, mids_length in Sm. lra.
Qed.

Let e i := size x (seg_el i) - size y (seg_el i).
Let q i := size x (sp_el i) - size y (sp_el i).
Lemma place_unique fx fi : flex_constraints area_el (map sp_el (seq 0 (S n))) fl space = Ret fx -> fill_constraints (map seg_el (seq 0 n)) cs fl = Ret fi ->
  let nb := match fl with FlexLegacy => [] | _ => neighbours (map seg_el (seq 0 n)) end in
  let rest := fx ++ size_constraints area_el (map seg_el (seq 0 n)) cs fl ++ fi ++ nb in
  cost x rest <= cost y rest -> (forall i, (i < n)%nat -> size x (seg_el i) == size y (seg_el i)) /\ (forall i, (i <= n)%nat -> size x (sp_el i) == size y (sp_el i)).
Proof.
  intros Efx Efi nb rest C. unfold rest in C. rewrite !cost_app in C.
  (* the parts *)
  pose proof (sizes_gain x y Ax Ay Lx Ly) as SG. assert (Ty : forall i, (i < n)%nat -> match dem i with Exactly q => size y (seg_el i) == q * 100 | Grow _ m => inject_Z m * 100 <= size y (seg_el i) end).
  { intros i Hi. pose proof (Y1 i Hi) as H. pose proof (dem_in i Hi) as J. destruct (dem i) as [r|w m]; [exact H|]. destruct (fits_weights _ _ _ _ Fit w m J) as [_ Hm]. rewrite H. lra. }
  specialize (SG Ty). change (fun i => Qabs (size x (seg_el i) - size y (seg_el i))) with (fun i => Qabs (e i)) in SG. change (fun i => size x (seg_el i) - size y (seg_el i)) with e in SG.
  assert (NB : - (2 * sum_of (fun i => Qabs (e i)) (seq 0 n)) <= cost x nb - cost y nb).
  { unfold nb. pose proof (neighbours_gain x y (map seg_el (seq 0 n))) as H. rewrite sum_map in H. assert (0 <= sum_of (fun i => Qabs (e i)) (seq 0 n)) by (apply sum_pos; intros; apply Qabs_nonneg). destruct fl; try exact H. unfold cost. cbn [sum_of]. lra. }
  rewrite (sum_filter _ (fun i => grows (dem i)) (seq 0 n)) in NB. fold growers others in NB.
  pose proof (fill_cost fi x Efi weights) as CX. pose proof (fill_cost fi y Efi weights) as CY.
  assert (GY : forall i, In i growers -> size y (seg_el i) == weight (dem i) * (room total space demands / sum_of weight demands * 100)). { intros i I. apply filter_In in I. destruct I as [I G]. apply in_seq in I. rewrite Y1 by lia. destruct (dem i); [discriminate|]. cbn. ring. }
  assert (CY0 : cost y fi == 0). { rewrite CY. rewrite (sum_zero _ (all_pairs growers)); [ring|]. intros [i j] I. apply all_pairs_in in I. cbn [fst snd] in *. destruct I as [I J]. rewrite (GY i I), (GY j J). match goal with |- Qabs ?t == 0 => setoid_replace t with 0 by ring end. reflexivity. }
  assert (CXe : cost x fi == 100 * sum_of (fun p => Qabs (weight (dem (snd p)) * e (fst p) - weight (dem (fst p)) * e (snd p))) (all_pairs growers)).
  { rewrite CX. apply Qmult_comp; [reflexivity|]. apply sum_ext. intros [i j] I. apply all_pairs_in in I. cbn [fst snd] in *. destruct I as [I J]. apply Qabs_wd. unfold e. rewrite (GY i I), (GY j J). ring. }
  pose proof (proportional (fun i => weight (dem i)) e growers weights) as PR. cbv beta in PR.
  assert (FI : 50 * (sum_of (fun i => Qabs (e i)) growers - Qabs (sum_of e growers)) <= cost x fi) by lra. clear CX CY GY CXe PR.
  pose proof (flex_cost fl space fx x _ Efx Ax Px) as FX. pose proof (flex_cost fl space fx y _ Efx Ay Py) as FY. cbv zeta in FX, FY.
  pose proof y_after as YA.
  (* everything adds up *)
  assert (Sum : sum_of e others + sum_of e growers + (q 0%nat + sum_of q mids + q n) == 0).
  { pose proof (sizes_sum x) as Sx. pose proof (sizes_sum y) as Sy. rewrite Ax in Sx. rewrite Ay in Sy. rewrite spacer_indices in Sx, Sy. cbn [sum_of] in Sx, Sy. rewrite sum_app in Sx, Sy. cbn [sum_of] in Sx, Sy.
    assert (E : sum_of e (seq 0 n) == sum_of (fun i => size x (seg_el i)) (seq 0 n) - sum_of (fun i => size y (seg_el i)) (seq 0 n)) by apply sum_minus. rewrite (sum_filter _ (fun i => grows (dem i)) (seq 0 n)) in E. fold growers others in E.
    assert (E' : sum_of q mids == sum_of (fun i => size x (sp_el i)) mids - sum_of (fun i => size y (sp_el i)) mids) by apply sum_minus. assert (E0 : q 0%nat == size x (sp_el 0) - size y (sp_el 0)) by reflexivity. assert (En : q n == size x (sp_el n) - size y (sp_el n)) by reflexivity. lra. }
  set (EN := sum_of (fun i => Qabs (e i)) others) in *. set (EG := sum_of (fun i => Qabs (e i)) growers) in *. set (QM := sum_of (fun i => Qabs (q i)) mids).
  set (sN := sum_of e others) in *. set (sG := sum_of e growers) in *. set (sM := sum_of q mids) in *.
  assert (EN0 : 0 <= EN) by (apply sum_pos; intros; apply Qabs_nonneg). assert (EG0 : 0 <= EG) by (apply sum_pos; intros; apply Qabs_nonneg). assert (QM0 : 0 <= QM) by (apply sum_pos; intros; apply Qabs_nonneg).
  assert (AN : Qabs sN <= EN) by apply sum_abs. assert (AM : Qabs sM <= QM) by apply sum_abs.
  pose proof (Qle_Qabs sN) as AN1. pose proof (Qle_Qabs (- sN)) as AN2. rewrite Qabs_opp in AN2. pose proof (Qle_Qabs sM) as AM1. pose proof (Qle_Qabs (- sM)) as AM2. rewrite Qabs_opp in AM2.
  pose proof (Qle_Qabs (q 0%nat)) as Q01. pose proof (Qle_Qabs (- q 0%nat)) as Q02. rewrite Qabs_opp in Q02. pose proof (Qle_Qabs (q n)) as Qn1. pose proof (Qle_Qabs (- q n)) as Qn2. rewrite Qabs_opp in Qn2.
  assert (AG : Qabs sG <= EN + Qabs (q 0%nat) + QM + Qabs (q n)) by (apply Qabs_Qle_condition; split; lra).
  pose proof (Qle_Qabs sG) as AG1. pose proof (Qle_Qabs (- sG)) as AG2. rewrite Qabs_opp in AG2. assert (AM3 : Qabs sM <= EN + Qabs (q 0%nat) + Qabs (q n) + Qabs sG) by (apply Qabs_Qle_condition; split; lra).
  assert (Done : EN <= 0 /\ EG <= 0 /\ QM <= 0 /\ q 0%nat == 0 /\ q n == 0).
  2:{ destruct Done as (D1 & D2 & D3 & D4 & D5). split.
      - intros i Hi. enough (e i == 0) by (unfold e in *; lra). destruct (grows (dem i)) eqn:G; [apply (sum_abs_zero e growers D2)|apply (sum_abs_zero e others D1)]; apply filter_In; (split; [apply in_seq; lia|]); [exact G|now rewrite G].
      - intros i Hi. enough (q i == 0) by (unfold q in *; lra). assert (I : In i (seq 0 (S n))) by (apply in_seq; lia). rewrite spacer_indices in I. destruct I as [<-|I]; [exact D4|]. apply in_app_iff in I. destruct I as [I|[<-|[]]]; [apply (sum_abs_zero q mids D3); exact I|exact D5]. }
  (* the middle spacers *)
  assert (MX : forall c, (forall i, In i mids -> size y (sp_el i) == c) -> sum_of (fun i => Qabs (size x (sp_el i) - c)) mids == QM /\ sum_of (fun i => Qabs (size y (sp_el i) - c)) mids == 0 /\
     sum_of (fun p => Qabs (size y (sp_el (fst p)) - size y (sp_el (snd p)))) (all_pairs mids) == 0 /\ QM - Qabs sM <= 2 * sum_of (fun p => Qabs (size x (sp_el (fst p)) - size x (sp_el (snd p)))) (all_pairs mids)).
  { intros c Hc. split; [|split; [|split]].
    - apply sum_ext. intros i I. apply Qabs_wd. unfold q. rewrite (Hc i I). reflexivity.
    - apply sum_zero. intros i I. rewrite (Hc i I). setoid_replace (c - c) with 0 by ring. reflexivity.
    - apply sum_zero. intros [i j] I. apply all_pairs_in in I. cbn [fst snd] in *. rewrite (Hc i), (Hc j) by tauto. setoid_replace (c - c) with 0 by ring. reflexivity.
    - pose proof (proportional (fun _ : nat => 1) q mids ltac:(intros; apply Qle_refl)) as PR. cbv beta in PR. fold sM QM in PR. rewrite (sum_ext _ (fun p => Qabs (size x (sp_el (fst p)) - size x (sp_el (snd p))))) in PR; [exact PR|]. intros [i j] I. apply all_pairs_in in I. cbn [fst snd] in *. apply Qabs_wd. unfold q. rewrite (Hc i), (Hc j) by tauto. ring. }
  destruct (MX _ Y3) as (M1 & M2 & M3 & M4). clear MX.
  assert (PX : 0 <= sum_of (fun p => Qabs (size x (sp_el (fst p)) - size x (sp_el (snd p)))) (all_pairs mids)) by (apply sum_pos; intros; apply Qabs_nonneg).
  set (VX := sum_of (fun i => 100100100 * violation x (has_min_size (sp_el i) space spacer_size_eq) + 10 * (inject_Z total * 100 - size x (sp_el i))) mids) in *.
  set (VY := sum_of (fun i => 100100100 * violation y (has_min_size (sp_el i) space spacer_size_eq) + 10 * (inject_Z total * 100 - size y (sp_el i))) mids) in *.
  assert (GX : inject_Z space <= gap fl total space demands -> VY - 10 * sM <= VX).
  { intros Hs. setoid_replace (VY - 10 * sM) with (sum_of (fun i => (100100100 * violation y (has_min_size (sp_el i) space spacer_size_eq) + 10 * (inject_Z total * 100 - size y (sp_el i))) + -(10) * q i) mids) by (rewrite sum_plus, sum_scale; unfold VY, sM; ring).
    apply sum_le. intros i I. destruct (vio_min x (sp_el i) space spacer_size_eq) as (P & _). destruct (vio_min y (sp_el i) space spacer_size_eq) as (_ & P' & _). rewrite P' by (rewrite (Y3 i I); lra). unfold q. lra. }
  assert (GZ : inject_Z space == gap fl total space demands -> VY + 940 * QM - 1000 * sM <= VX).
  { intros Hs. setoid_replace (VY + 940 * QM - 1000 * sM) with (sum_of (fun i => (100100100 * violation y (has_min_size (sp_el i) space spacer_size_eq) + 10 * (inject_Z total * 100 - size y (sp_el i))) + (940 * Qabs (q i) + -(1000) * q i)) mids) by (rewrite sum_plus, (sum_plus (fun i => 940 * Qabs (q i)) (fun i => -(1000) * q i)), (sum_scale 940), (sum_scale (-(1000))); unfold VY, sM, QM; ring).
    apply sum_le. intros i I. destruct (vio_min x (sp_el i) space spacer_size_eq) as (P & _ & P2). destruct (vio_min y (sp_el i) space spacer_size_eq) as (_ & P' & _). rewrite P' by (rewrite (Y3 i I); lra). pose proof (Y3 i I) as Yi. unfold q. apply (Qabs_case (size x (sp_el i) - size y (sp_el i)) (fun a => _ + (940 * a + _) <= _)); intros; lra. }
  pose proof (fits_flex _ _ _ _ Fit) as FF. unfold before, gap, room in *. rewrite growers_some in *. 
  set (len := inject_Z (Z.of_nat (length demands) - 1)) in *. set (F := sum_of fixed_size demands) in *. set (T := inject_Z total) in *. set (sp := inject_Z space) in *.
  assert (QD : Qabs (size x (sp_el 0) - size x (sp_el n)) == Qabs (q 0%nat - q n + (size y (sp_el 0) - size y (sp_el n)))) by (apply Qabs_wd; unfold q; ring).
  pose proof (Qle_Qabs (size x (sp_el 0) - size x (sp_el n))) as D1. pose proof (Qle_Qabs (- (size x (sp_el 0) - size x (sp_el n)))) as D2. rewrite Qabs_opp in D2.
  assert (H0 : size x (sp_el 0) == q 0%nat + size y (sp_el 0)) by (unfold q; ring). assert (Hn : size x (sp_el n) == q n + size y (sp_el n)) by (unfold q; ring).
  destruct growers as [|g gs] eqn:G; cbn [negb] in *.
  - assert (ZG : EG == 0) by reflexivity. assert (Zs : sG == 0) by reflexivity. assert (Zb : Qabs sG == 0) by (rewrite Zs; reflexivity). specialize (FF eq_refl).
    assert (A0 : forall a, a == 0 -> Qabs a == 0) by (intros a Ha; rewrite Ha; reflexivity).
    assert (X0 : Qabs (size x (sp_el 0)) == size x (sp_el 0)) by now apply Qabs_pos. assert (Xn : Qabs (size x (sp_el n)) == size x (sp_el n)) by now apply Qabs_pos.
    assert (q0 : q 0%nat == size x (sp_el 0) - size y (sp_el 0)) by reflexivity. assert (qn : q n == size x (sp_el n) - size y (sp_el n)) by reflexivity.
    assert (Zq : forall a, Qabs a == a \/ Qabs a == - a) by (intros a; apply (Qabs_case a (fun b => b == a \/ b == - a)); intros; [now left|now right]). pose proof (Zq (q 0%nat)) as Zq0. pose proof (Zq (q n)) as Zqn. clear Zq.
    clearbody EG sG EN sN QM sM VX VY q. clear Fit Y1 Ly Lx Ty Efx Efi e.
    destruct fl; cbv beta iota in *.
    + rewrite M1 in FX. rewrite M2 in FY. rewrite (A0 (size y (sp_el 0))) in FY by lra. rewrite (A0 (size y (sp_el n))) in FY by lra. repeat split; lra.
    + rewrite M1 in FX. rewrite M2 in FY. rewrite (A0 (size y (sp_el 0))) in FY by lra. repeat split; lra.
    + rewrite M1 in FX. rewrite M2 in FY. rewrite (A0 (size y (sp_el n))) in FY by lra. repeat split; lra.
    + rewrite M1 in FX. rewrite M2 in FY. assert (Zy : size y (sp_el 0) - size y (sp_el n) == 0).
      { setoid_replace ((T - F - len * sp) / 2) with ((1 # 2) * (T - F - len * sp)) in Y2 by field. setoid_replace ((T - F - len * sp) / 2) with ((1 # 2) * (T - F - len * sp)) in YA by field. lra. }
      assert (Z : Qabs (size y (sp_el 0) - size y (sp_el n)) == 0) by now apply A0. repeat split; lra.
    + destruct FF as [N2 Hs]. specialize (GX Hs). assert (Nl : len * ((T - F) / len) == T - F) by (field; unfold len; intros Z; unfold Qeq in Z; cbn in Z; lia).
      rewrite Nl in YA. rewrite (A0 (size y (sp_el 0))) in FY by lra. rewrite (A0 (size y (sp_el n))) in FY by lra. rewrite M3 in FY. destruct Zq0, Zqn; repeat split; lra.
    + destruct FF as [N2 Hs]. specialize (GX Hs). assert (Nl : len * ((T - F) / len) == T - F) by (field; unfold len; intros Z; unfold Qeq in Z; cbn in Z; lia).
      rewrite Nl in YA. rewrite M3 in FY. destruct Zq0, Zqn; repeat split; lra.
  - clear FF. assert (A0 : forall a, a == 0 -> Qabs a == 0) by (intros a Ha; rewrite Ha; reflexivity).
    assert (X0 : Qabs (size x (sp_el 0)) == size x (sp_el 0)) by now apply Qabs_pos. assert (Xn : Qabs (size x (sp_el n)) == size x (sp_el n)) by now apply Qabs_pos.
    assert (Zn : size y (sp_el n) == 0) by lra. assert (Z0 : size y (sp_el 0) == 0) by lra. specialize (GZ (Qeq_refl _)). clear GX.
    assert (q0 : q 0%nat == size x (sp_el 0)) by (unfold q; lra). assert (qn : q n == size x (sp_el n)) by (unfold q; lra).
    assert (Q0 : Qabs (q 0%nat) == size x (sp_el 0)) by (rewrite q0; exact X0). assert (Qn : Qabs (q n) == size x (sp_el n)) by (rewrite qn; exact Xn).
    pose proof (A0 _ Z0) as Z0a. pose proof (A0 _ Zn) as Zna. assert (Zd : Qabs (size y (sp_el 0) - size y (sp_el n)) == 0) by (apply A0; lra).
    pose proof (Qabs_nonneg (size x (sp_el 0) - size x (sp_el n))) as D0.
    clearbody EG sG EN sN QM sM VX VY q. clear Fit Y1 Ly Lx Ty Efx Efi e YA Y2 Y3 A0.
    destruct fl; cbv beta iota in *; try rewrite M1 in FX; try rewrite M2 in FY; try rewrite M3 in FY; repeat split; lra.
Qed.
End Elements.
