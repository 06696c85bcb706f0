(** Arithmetic that agrees with that of fractions where the results are multiples of 1/4 up to 2^51, as that of float64 does. *)
From Verif Require Import Base M_Solver P_Row P_Tableau P_Simplex P_System P_Network.
From Coq Require Import ZArith NArith QArith Qabs List Bool Lia Lqa Setoid Morphisms.
Import ListNotations.
Open Scope Q_scope.
#[local] Existing Instance no_tolerance.

(** The multiples of 1/4, of 1/2 and of 1. *)
Definition quart (b : Z) (q : Q) : Prop := intq (4 * q) /\ Qabs q <= inject_Z b.
Definition small (b : Z) (q : Q) : Prop := intq (2 * q) /\ Qabs q <= inject_Z b.
Definition whole (b : Z) (q : Q) : Prop := intq q /\ Qabs q <= inject_Z b.
Definition okq : Q -> Prop := quart 2251799813685248.
Definition K38 : Z := 274877906944.
Record floats := Floats {
  fl_ar : arith;
  fl_tol : tolerance;
  fl_add : forall a b, okq (a + b) -> @qadd fl_ar a b = @qadd exact_arith a b;
  fl_mul : forall a b, okq (a * b) -> @qmul fl_ar a b = @qmul exact_arith a b;
  fl_opp : forall a, okq a -> @qopp fl_ar a = @qopp exact_arith a;
  fl_div : forall a b, okq (a / b) -> @qdiv fl_ar a b = @qdiv exact_arith a b;
  fl_near : forall a, okq a -> @near_zero fl_tol a = is_zero a
}.

(** ** Small numbers *)
Lemma K38_pos : 0 <= inject_Z K38.
Proof. discriminate. Qed.
Lemma abs_add a b c p q : Qabs p <= inject_Z a -> Qabs q <= inject_Z b -> (a + b <= c)%Z -> Qabs (p + q) <= inject_Z c.
Proof. intros A1 A2 H. eapply Qle_trans; [apply Qabs_triangle|]. apply (Qle_trans _ (inject_Z a + inject_Z b)); [lra|]. rewrite <- inject_Z_plus. now rewrite <- Zle_Qle. Qed.
Lemma abs_mul a b c p q : Qabs p <= inject_Z a -> Qabs q <= inject_Z b -> (a * b <= c)%Z -> Qabs (p * q) <= inject_Z c.
Proof.
  intros A1 A2 H. rewrite Qabs_Qmult. apply (Qle_trans _ (inject_Z a * inject_Z b)); [|rewrite <- inject_Z_mult; now rewrite <- Zle_Qle].
  pose proof (Qabs_nonneg p) as P. pose proof (Qabs_nonneg q) as P2. apply (Qle_trans _ (Qabs p * inject_Z b)).
  - rewrite !(Qmult_comm (Qabs p)). apply Qmult_le_compat_r; assumption.
  - apply Qmult_le_compat_r; [assumption|lra].
Qed.
Lemma abs_le a b q : (a <= b)%Z -> Qabs q <= inject_Z a -> Qabs q <= inject_Z b.
Proof. intros H A. apply (Qle_trans _ _ _ A). now rewrite <- Zle_Qle. Qed.
Lemma quart_eq b p q : p == q -> quart b p -> quart b q.
Proof. intros E [I A]. split; [apply (int_eq (4 * p)); [now rewrite E|exact I]|]. now rewrite <- E. Qed.
Lemma quart_le a b q : (a <= b)%Z -> quart a q -> quart b q.
Proof. intros H [I A]. split; [exact I|now apply (abs_le a)]. Qed.
Lemma quart_add a b c p q : quart a p -> quart b q -> (a + b <= c)%Z -> quart c (p + q).
Proof. intros [I1 A1] [I2 A2] H. split; [|now apply (abs_add a b)]. apply (int_eq (4 * p + 4 * q)); [ring|]. now apply int_plus. Qed.
Lemma quart_mul a b c p q : small a p -> small b q -> (a * b <= c)%Z -> quart c (p * q).
Proof. intros [I1 A1] [I2 A2] H. split; [|now apply (abs_mul a b)]. apply (int_eq (2 * p * (2 * q))); [ring|]. now apply int_mult. Qed.
Lemma small_quart b q : small b q -> quart b q.
Proof. intros [I A]. split; [|exact A]. apply (int_eq (2 * (2 * q))); [ring|]. now apply int_twice. Qed.
Lemma small_okq b q : (b <= 2251799813685248)%Z -> small b q -> okq q.
Proof. intros H S0. apply (quart_le b); [exact H|now apply small_quart]. Qed.
Lemma whole_small b q : whole b q -> small b q.
Proof. intros [I A]. split; [now apply int_twice|exact A]. Qed.
Lemma whole_okq b q : (b <= 2251799813685248)%Z -> whole b q -> okq q.
Proof. intros H S0. apply (small_okq b); [exact H|now apply whole_small]. Qed.
Lemma small_eq b p q : p == q -> small b p -> small b q.
Proof. intros E [I A]. split; [apply (int_eq (2 * p)); [now rewrite E|exact I]|]. now rewrite <- E. Qed.
Lemma small_le a b q : (a <= b)%Z -> small a q -> small b q.
Proof. intros H [I A]. split; [exact I|now apply (abs_le a)]. Qed.
Lemma small_add a b c p q : small a p -> small b q -> (a + b <= c)%Z -> small c (p + q).
Proof. intros [I1 A1] [I2 A2] H. split; [|now apply (abs_add a b)]. apply (int_eq (2 * p + 2 * q)); [ring|]. now apply int_plus. Qed.
Lemma small_mul a b c p q : small a p -> whole b q -> (a * b <= c)%Z -> small c (p * q).
Proof. intros [I1 A1] [I2 A2] H. split; [|now apply (abs_mul a b)]. apply (int_eq (2 * p * q)); [ring|]. now apply int_mult. Qed.
Lemma small_opp a p : small a p -> small a (- p).
Proof. intros [I A]. split; [apply (int_eq (- (2 * p))); [ring|now apply int_opp]|]. now rewrite Qabs_opp. Qed.
Lemma whole_eq b p q : p == q -> whole b p -> whole b q.
Proof. intros E [I A]. split; [exact (int_eq _ _ E I)|]. now rewrite <- E. Qed.
Lemma whole_le a b q : (a <= b)%Z -> whole a q -> whole b q.
Proof. intros H [I A]. split; [exact I|now apply (abs_le a)]. Qed.
Lemma whole_opp a p : whole a p -> whole a (- p).
Proof. intros [I A]. split; [now apply int_opp|]. now rewrite Qabs_opp. Qed.
Lemma whole_unit q : unit_q q -> whole 1 q.
Proof. intros H. split; [now apply int_unit|]. apply abs_sgn. now right. Qed.
Lemma whole_z a z : (Z.abs z <= a)%Z -> whole a (inject_Z z).
Proof. intros H. split; [apply int_z|]. change (Qabs (inject_Z z)) with (inject_Z (Z.abs z)). now rewrite <- Zle_Qle. Qed.
Lemma whole_zero b : (0 <= b)%Z -> whole b 0.
Proof. intros H. apply (whole_z b 0). cbn. lia. Qed.
Lemma small_sgn q : sgn_q q -> small 1 q.
Proof. intros H. apply whole_small. split; [now apply int_sgn|]. now apply abs_sgn. Qed.
Lemma small_unit q : unit_q q -> small 1 q.
Proof. intros H. apply small_sgn. now right. Qed.
Lemma small_simple q : simple q -> small 2 q.
Proof. intros H. split; [now apply int_simple|now apply abs_simple]. Qed.
Lemma small_z a z : (Z.abs z <= a)%Z -> small a (inject_Z z).
Proof. intros H. apply whole_small. now apply whole_z. Qed.
Lemma small_zero b : (0 <= b)%Z -> small b 0.
Proof. intros H. apply (small_z b 0). cbn. lia. Qed.
Lemma simple_div q : simple q -> ~ q == 0 -> simple (-(1) / q).
Proof.
  intros [[H|[H|H]]|[[H|H]|[H|H]]] N; [contradiction| | | | | |]; (apply (simple_eq (-(1) / q)); [reflexivity|]).
  - left; right; right. rewrite H. reflexivity.
  - left; right; left. rewrite H. reflexivity.
  - right; right; right. rewrite H. reflexivity.
  - right; right; left. rewrite H. reflexivity.
  - right; left; right. rewrite H. reflexivity.
  - right; left; left. rewrite H. reflexivity.
Qed.
#[global] Instance okq_proper : Proper (Qeq ==> iff) okq.
Proof. intros a b E. split; apply quart_eq; [exact E|now symmetry]. Qed.

(** ** Coefficients after an insertion *)
Lemma look_drop {A} k (l : list (symbol * A)) y : look y (drop_key k l) = if sym_eqb y k then None else look y l.
Proof.
  induction l as [|[z a] l IH]; [cbn; now destruct (sym_eqb y k)|]. change (drop_key k ((z, a) :: l)) with (if negb (sym_eqb k z) then (z, a) :: drop_key k l else drop_key k l). destruct (sym_eqb k z) eqn:E; cbn [negb look].
  - apply sym_eqb_ok in E. subst z. rewrite IH. destruct (sym_eqb y k) eqn:F; reflexivity.
  - rewrite IH. destruct (sym_eqb y z) eqn:F; [|reflexivity]. apply sym_eqb_ok in F. subst z. destruct (sym_eqb y k) eqn:G; [|reflexivity]. apply sym_eqb_ok in G. subst. rewrite sym_eqb_refl in E. discriminate.
Qed.
Lemma look_put' {A} k (a : A) l x : look x (put_at k a l) = if sym_eqb x k then Some a else look x l.
Proof.
  induction l as [|[z b] l IH]; cbn; [reflexivity|]. destruct (sym_eqb k z) eqn:E; cbn.
  - apply sym_eqb_ok in E. subst z. now destruct (sym_eqb x k).
  - rewrite IH. destruct (sym_eqb x z) eqn:F; [|reflexivity]. apply sym_eqb_ok in F. subst z. destruct (sym_eqb x k) eqn:G; [|reflexivity]. apply sym_eqb_ok in G. subst. rewrite sym_eqb_refl in E. discriminate.
Qed.
Lemma insert_look r x k y : y <> x -> look y (r_cells (insert_symbol r x k)) = look y (r_cells r).
Proof.
  intros N. apply sym_eqb_no in N. unfold insert_symbol. destruct (look x (r_cells r)) as [v|].
  - cbv zeta. destruct (near_zero (qadd v k)); cbn [r_cells]; [rewrite look_drop|rewrite look_put']; now rewrite N.
  - destruct (near_zero k); cbn [r_cells]; [reflexivity|]. now rewrite look_put', N.
Qed.
Lemma insert_cf' r x k y : cf (r_cells (insert_symbol r x k)) y == cf (r_cells r) y + (if sym_eqb y x then k else 0).
Proof.
  destruct (sym_eqb y x) eqn:E; [apply sym_eqb_ok in E; subst y|apply sym_eqb_no in E; unfold cf; rewrite insert_look by exact E; lra].
  unfold cf, insert_symbol. destruct (look x (r_cells r)) as [v|] eqn:L.
  - cbv zeta. destruct (near_zero (qadd v k)) eqn:Z; cbn [r_cells]; [rewrite look_drop|rewrite look_put']; rewrite sym_eqb_refl; [|apply qadd_ok].
    cbn in Z. apply is_zero_ok in Z. rewrite qadd_ok in Z. lra.
  - destruct (near_zero k) eqn:Z; cbn [r_cells]; [rewrite L; cbn in Z; apply is_zero_ok in Z; lra|]. rewrite look_put', sym_eqb_refl. lra.
Qed.
Lemma fold_cf l k : NoDup (dom l) -> forall r y, cf (r_cells (fold_left (fun r p => insert_symbol r (fst p) (qmul (snd p) k)) l r)) y == cf (r_cells r) y + cf l y * k.
Proof.
  induction l as [|[x a] l IH]; intros ND r y; cbn [fold_left fst snd]; [unfold cf at 3; cbn; lra|].
  change (NoDup (x :: dom l)) in ND. apply NoDup_cons_iff in ND. destruct ND as [N ND]. rewrite (IH ND), insert_cf'. unfold cf at 4. cbn [look]. fold (cf l y).
  destruct (sym_eqb y x) eqn:E; [|fold (cf l y); lra]. apply sym_eqb_ok in E. subst y. rewrite (cf_none l x N), qmul_ok. lra.
Qed.
Lemma insert_row_cf r o k y : NoDup (dom (r_cells o)) -> cf (r_cells (fst (insert_row r o k))) y == cf (r_cells r) y + cf (r_cells o) y * k.
Proof. intros ND. unfold insert_row. cbn [fst]. rewrite (fold_cf _ _ ND). reflexivity. Qed.
Lemma fold_const l k : forall r, r_const (fold_left (fun r p => insert_symbol r (fst p) (qmul (snd p) k)) l r) = r_const r.
Proof. induction l as [|p l IH]; intros r; cbn [fold_left]; [reflexivity|]. now rewrite IH, insert_const. Qed.
Lemma insert_row_const r o k : r_const (fst (insert_row r o k)) == r_const r + r_const o * k.
Proof. unfold insert_row. cbn [fst]. rewrite fold_const. cbn [r_const]. now rewrite qadd_ok, qmul_ok. Qed.

(** The row with another constant. *)
Definition recon (r : row) (k : Q) : row := Row (r_cells r) k (r_exact r).
Lemma recon_same r : recon r (r_const r) = r.
Proof. now destruct r. Qed.
Lemma insert_recon (a : arith) (t : tolerance) r x k k0 : @insert_symbol a t (recon r k0) x k = recon (@insert_symbol a t r x k) k0.
Proof. unfold insert_symbol, recon. cbn [r_cells r_const r_exact]. destruct (look x (r_cells r)) as [v|]; cbv zeta; [destruct (near_zero (qadd v k))|destruct (near_zero k)]; reflexivity. Qed.
Lemma fold_recon (a : arith) (t : tolerance) l k k0 : forall r, fold_left (fun r p => @insert_symbol a t r (fst p) (@qmul a (snd p) k)) l (recon r k0) = recon (fold_left (fun r p => @insert_symbol a t r (fst p) (@qmul a (snd p) k)) l r) k0.
Proof. induction l as [|p l IH]; intros r; cbn [fold_left]; [reflexivity|]. now rewrite insert_recon, IH. Qed.

Section Floats.
Variable F : floats.
Local Notation ar' := (fl_ar F).
Local Notation tol' := (fl_tol F).

Lemma insert_same r x k : okq k -> okq (cf (r_cells r) x + k) -> @insert_symbol ar' tol' r x k = insert_symbol r x k.
Proof.
  intros H1 H2. unfold insert_symbol, cf in *. destruct (look x (r_cells r)) as [v|].
  - rewrite (fl_add F) by exact H2. cbv zeta. rewrite (fl_near F) by (rewrite qadd_ok; exact H2). reflexivity.
  - rewrite (fl_near F) by exact H1. reflexivity.
Qed.
Lemma fold_same l k : NoDup (dom l) -> forall r, (forall y, In y (dom l) -> okq (cf l y * k) /\ okq (cf (r_cells r) y + cf l y * k)) ->
  fold_left (fun r p => @insert_symbol ar' tol' r (fst p) (@qmul ar' (snd p) k)) l r = fold_left (fun r p => insert_symbol r (fst p) (qmul (snd p) k)) l r.
Proof.
  induction l as [|[x a] l IH]; intros ND r H; cbn [fold_left fst snd]; [reflexivity|].
  change (NoDup (x :: dom l)) in ND. apply NoDup_cons_iff in ND. destruct ND as [N ND].
  assert (Ca : cf ((x, a) :: l) x = a) by (unfold cf; cbn [look]; now rewrite sym_eqb_refl).
  assert (Co : forall y, In y (dom l) -> y <> x /\ cf ((x, a) :: l) y = cf l y). { intros y J. assert (y <> x) by congruence. split; [assumption|]. unfold cf. cbn [look]. apply sym_eqb_no in H0. now rewrite H0. }
  destruct (H x (or_introl eq_refl)) as [H1 H2]. rewrite Ca in H1, H2. rewrite (fl_mul F) by exact H1. rewrite insert_same by (rewrite qmul_ok; assumption).
  apply IH; [exact ND|]. intros y J. destruct (Co y J) as [Ny Cy]. destruct (H y (or_intror J)) as [G1 G2]. rewrite Cy in G1, G2. split; [exact G1|]. unfold cf at 1. rewrite insert_look by exact Ny. exact G2.
Qed.
Lemma insert_row_same r o k : NoDup (dom (r_cells o)) -> okq (r_const o * k) -> okq (r_const r + r_const o * k) ->
  (forall y, In y (dom (r_cells o)) -> okq (cf (r_cells o) y * k) /\ okq (cf (r_cells r) y + cf (r_cells o) y * k)) -> @insert_row ar' tol' r o k = insert_row r o k.
Proof.
  intros ND H1 H2 H3. unfold insert_row. cbv zeta. rewrite (fl_mul F) by exact H1. rewrite (fl_add F) by (rewrite qmul_ok; exact H2). f_equal. apply fold_same; [exact ND|exact H3].
Qed.
Lemma insert_row_recon r k0 o k : NoDup (dom (r_cells o)) -> (forall y, In y (dom (r_cells o)) -> okq (cf (r_cells o) y * k) /\ okq (cf (r_cells r) y + cf (r_cells o) y * k)) ->
  exists k1, fst (@insert_row ar' tol' (recon r k0) o k) = recon (fst (insert_row r o k)) k1.
Proof.
  intros ND H3. exists (@qadd ar' k0 (@qmul ar' (r_const o) k)). unfold insert_row. cbv zeta. cbn [fst]. set (q := @qadd ar' _ _).
  change (Row (r_cells (recon r k0)) q (r_exact (recon r k0) && r_exact o)) with (recon (Row (r_cells r) (qadd (r_const r) (qmul (r_const o) k)) (r_exact r && r_exact o)) q).
  rewrite fold_recon. f_equal. apply fold_same; [exact ND|exact H3].
Qed.

(** ** Rows whose coefficients are small
    A row that stands for one symbol. *)
Record tight (r : row) : Prop := Tight {
  ti_wf : wf r;
  ti_simple : forall y, sy_type y <> TDummy -> simple (cf (r_cells r) y);
  ti_all : forall y, small 1524 (cf (r_cells r) y);
  ti_const : small (1905 * K38) (r_const r)
}.
Record mild (r : row) : Prop := Mild {
  mi_wf : wf r;
  mi_some : forall y, sy_type y <> TDummy -> small (2 * K38) (cf (r_cells r) y);
  mi_all : forall y, small (1524 * K38) (cf (r_cells r) y)
}.
Lemma drop_cf x r y : cf (drop_key x (r_cells r)) y == if sym_eqb y x then 0 else cf (r_cells r) y.
Proof. unfold cf. rewrite look_drop. destruct (sym_eqb y x); reflexivity. Qed.
Lemma subst_same r x o : tight r -> tight o -> (occurs x r -> sy_type x <> TDummy) -> ~ occurs x o -> @substitute_row ar' tol' r x o = substitute_row r x o.
Proof.
  intros R O Dx Nx. unfold substitute_row. destruct (look x (r_cells r)) as [k|] eqn:L; [|reflexivity].
  assert (Ox : occurs x r) by (apply look_in in L; apply in_dom in L; exact L). assert (K : small 2 k) by (apply small_simple; pose proof (ti_simple _ R x (Dx Ox)) as S0; unfold cf in S0; now rewrite L in S0).
  assert (C1 : quart (3810 * K38) (r_const o * k)) by (apply (quart_mul (1905 * K38) 2); [apply O|exact K|unfold K38; lia]).
  apply insert_row_same.
  - apply O.
  - apply (quart_le (3810 * K38)); [unfold K38; lia|exact C1].
  - apply (quart_add (1905 * K38) (3810 * K38)); [apply small_quart, R|exact C1|unfold K38; lia].
  - intros y J. assert (Ny : y <> x) by (intros ->; now apply Nx). assert (C2 : quart 3048 (cf (r_cells o) y * k)) by (apply (quart_mul 1524 2); [apply O|exact K|lia]).
    split; [apply (quart_le 3048); [lia|exact C2]|]. apply (quart_add 1524 3048); [|exact C2|lia]. cbn [remove_symbol r_cells]. eapply quart_eq; [symmetry; apply drop_cf|]. apply sym_eqb_no in Ny. rewrite Ny. apply small_quart, R.
Qed.
Lemma subst_recon r k0 x o : mild r -> tight o -> (occurs x r -> sy_type x <> TDummy) -> ~ occurs x o -> exists k1, fst (@substitute_row ar' tol' (recon r k0) x o) = recon (fst (substitute_row r x o)) k1.
Proof.
  intros R O Dx Nx. unfold substitute_row. cbn [recon r_cells]. destruct (look x (r_cells r)) as [k|] eqn:L; [|exists k0; reflexivity].
  assert (Ox : occurs x r) by (apply look_in in L; apply in_dom in L; exact L). assert (K : small (2 * K38) k) by (pose proof (mi_some _ R x (Dx Ox)) as S0; unfold cf in S0; now rewrite L in S0).
  apply (insert_row_recon (remove_symbol r x) k0 o k).
  - apply O.
  - intros y J. assert (Ny : y <> x) by (intros ->; now apply Nx). assert (C2 : quart (3048 * K38) (cf (r_cells o) y * k)) by (apply (quart_mul 1524 (2 * K38)); [apply O|exact K|unfold K38; lia]).
    split; [apply (quart_le (3048 * K38)); [unfold K38; lia|exact C2]|]. apply (quart_add (1524 * K38) (3048 * K38)); [|exact C2|unfold K38; lia]. cbn [remove_symbol r_cells]. eapply quart_eq; [symmetry; apply drop_cf|]. apply sym_eqb_no in Ny. rewrite Ny. apply small_quart, R.
Qed.
Lemma scale_map (l : list (symbol * Q)) k : (forall p, In p l -> okq (snd p * k)) -> map (fun p => (fst p, @qmul ar' (snd p) k)) l = map (fun p => (fst p, qmul (snd p) k)) l.
Proof. intros H. apply map_ext_in. intros p J. now rewrite (fl_mul F) by (now apply H). Qed.
Lemma cf_in l (p : symbol * Q) : NoDup (dom l) -> In p l -> cf l (fst p) = snd p.
Proof. intros ND J. destruct p as [x a]. unfold cf. cbn [fst]. now rewrite (in_look _ _ _ ND J). Qed.
Lemma look_map {A B} (f : A -> B) (l : list (symbol * A)) y : look y (map (fun p => (fst p, f (snd p))) l) = option_map f (look y l).
Proof. induction l as [|[z a] l IH]; cbn; [reflexivity|]. destruct (sym_eqb y z); [reflexivity|exact IH]. Qed.
Lemma solve_cf r x y : cf (r_cells (solve_for_symbol r x)) y == if sym_eqb y x then 0 else cf (r_cells r) y * (-(1) / cf (r_cells r) x).
Proof.
  unfold solve_for_symbol. cbn [r_cells]. unfold cf at 1. rewrite (look_map (fun q => qmul q _)), look_drop. destruct (sym_eqb y x); [reflexivity|]. unfold cf at 1.
  destruct (look y (r_cells r)) as [v|]; cbn [option_map]; [|lra]. rewrite qmul_ok, qdiv_ok, cf_is. reflexivity.
Qed.
(** Solving a row gives the same row if the result of the solver with fractions stands for one symbol. *)
Lemma solve_same r x : wf r -> simple (cf (r_cells r) x) -> ~ cf (r_cells r) x == 0 -> tight (solve_for_symbol r x) -> @solve_for_symbol ar' r x = solve_for_symbol r x.
Proof.
  intros R U Nz Ti. set (k := -(1) / cf (r_cells r) x). assert (Uk : simple k) by (now apply simple_div). assert (Ok : okq k) by (apply (small_okq 2); [lia|now apply small_simple]).
  assert (Rw : @qdiv ar' (-(1)) (coefficient_for r x) = qdiv (-(1)) (coefficient_for r x)) by (apply (fl_div F); rewrite cf_is; exact Ok).
  assert (Kq : qdiv (-(1)) (coefficient_for r x) == k) by (rewrite qdiv_ok, cf_is; reflexivity).
  assert (Co : r_const (solve_for_symbol r x) == r_const r * k) by (unfold solve_for_symbol; cbn [r_const]; rewrite qmul_ok, Kq; reflexivity).
  unfold solve_for_symbol. rewrite Rw. f_equal.
  - apply scale_map. intros p J. apply drop_in in J. destruct J as [J Np]. rewrite <- (cf_in _ _ (proj1 R) J). rewrite Kq.
    pose proof (solve_cf r x (fst p)) as E. fold k in E. apply sym_eqb_no in Np. rewrite Np in E. apply (quart_eq _ (cf (r_cells (solve_for_symbol r x)) (fst p))); [exact E|]. apply (small_okq 1524); [lia|apply Ti].
  - apply (fl_mul F). rewrite Kq. apply (quart_eq _ (r_const (solve_for_symbol r x))); [exact Co|]. apply (small_okq (1905 * K38)); [unfold K38; lia|apply Ti].
Qed.
Lemma solves_same r y x : wf r -> simple (cf (r_cells r) x) -> ~ cf (r_cells r) x == 0 -> ~ occurs y r -> x <> y -> tight (solve_for_symbols r y x) -> @solve_for_symbols ar' tol' r y x = solve_for_symbols r y x.
Proof.
  intros R U Nz Ny Nxy Ti. unfold solve_for_symbols in *. assert (C0 : cf (r_cells r) y = 0) by (now apply cf_none).
  assert (Im : okq (-(1))) by (apply (small_okq 1); [lia|]; apply small_unit; right; reflexivity).
  rewrite insert_same; [|exact Im|rewrite C0; apply (quart_eq _ (-(1))); [lra|exact Im]].
  pose proof (insert_cf' r y (-(1)) x) as E. apply sym_eqb_no in Nxy. rewrite Nxy in E. apply solve_same; [now apply insert_wf| | |exact Ti].
  - apply (simple_eq (cf (r_cells r) x)); [lra|exact U].
  - lra.
Qed.
Lemma reverse_same r : (forall y, okq (cf (r_cells r) y)) -> wf r -> okq (r_const r) -> @reverse_sign ar' r = reverse_sign r.
Proof.
  intros H W Hc. unfold reverse_sign. rewrite (fl_opp F) by exact Hc. f_equal. apply map_ext_in. intros p J. rewrite (fl_opp F); [reflexivity|]. rewrite <- (cf_in _ _ (proj1 W) J). apply H.
Qed.

(** ** Solvers that differ only in the constant of the objective *)
Definition oc (s : solver) (k : Q) : solver := with_objective s (recon (s_objective s) k).
Lemma oc_id s : oc s (r_const (s_objective s)) = s.
Proof. unfold oc. rewrite recon_same. now destruct s. Qed.
Record calm (s : solver) : Prop := Calm {
  cl_rows : forall p, In p (s_rows s) -> tight (snd p);
  cl_obj : mild (s_objective s);
  cl_art : forall a, s_artificial s = Some a -> tight a
}.
Lemma changed_oc l : forall s k, fold_left (fun s (p : symbol * row) => var_changed s (var_for s (fst p))) l (oc s k) = oc (fold_left (fun s (p : symbol * row) => var_changed s (var_for s (fst p))) l s) k.
Proof. induction l as [|p l IH]; intros s k; cbn [fold_left]; [reflexivity|]. rewrite <- IH. reflexivity. Qed.
Lemma substitute_same s k x r : calm s -> tight r -> ~ occurs x r -> (sy_type x <> TDummy \/ ((forall p, In p (s_rows s) -> ~ occurs x (snd p)) /\ ~ occurs x (s_objective s) /\ s_artificial s = None)) ->
  exists k', @substitute ar' tol' (oc s k) x r = oc (substitute s x r) k'.
Proof.
  intros K R Nx H. assert (Hr : forall p, In p (s_rows s) -> occurs x (snd p) -> sy_type x <> TDummy) by (intros p J O; destruct H as [H|(H & _)]; [exact H|destruct (H p J O)]).
  assert (Ho : occurs x (s_objective s) -> sy_type x <> TDummy) by (intros O; destruct H as [H|(_ & H & _)]; [exact H|contradiction]).
  assert (Ha : forall a, s_artificial s = Some a -> sy_type x <> TDummy) by (intros a E; destruct H as [H|(_ & _ & H)]; [exact H|congruence]).
  destruct (subst_recon (s_objective s) k x r (cl_obj _ K) R Ho Nx) as (k1 & Eo). exists k1.
  assert (Er : forall p, In p (s_rows s) -> @substitute_row ar' tol' (snd p) x r = substitute_row (snd p) x r) by (intros p J; apply subst_same; [now apply (cl_rows _ K)|exact R|now apply Hr|exact Nx]).
  unfold substitute. change (s_rows (oc s k)) with (s_rows s).
  rewrite (filter_ext_in (fun p => is_external (fst p) && snd (@substitute_row ar' tol' (snd p) x r)) (fun p => is_external (fst p) && snd (substitute_row (snd p) x r))) by (intros p J; now rewrite Er).
  rewrite changed_oc. set (s1 := fold_left _ _ s).
  destruct (changed_fold (fun s p => var_for s (fst p)) (filter (fun p => is_external (fst p) && snd (substitute_row (snd p) x r)) (s_rows s)) s) as (_ & R1 & O1 & A1 & _). fold s1 in R1, O1, A1.
  change (s_rows (oc s1 k)) with (s_rows s1). rewrite R1.
  rewrite (map_ext_in (fun p => (fst p, fst (@substitute_row ar' tol' (snd p) x r))) (fun p => (fst p, fst (substitute_row (snd p) x r)))) by (intros p J; now rewrite Er).
  cbn [oc with_objective with_rows s_objective s_artificial]. rewrite O1, A1, Eo. destruct (s_artificial s) as [a|] eqn:Ea; [|reflexivity]. rewrite subst_same; [reflexivity| | | |exact Nx].
  - now apply (cl_art _ K).
  - exact R.
  - intros _. now apply (Ha a).
Qed.
Section Order.
Variable order : nat -> list symbol -> list symbol.
Lemma leaving_same s k x : calm s -> sy_type x <> TDummy -> @get_leaving_row ar' order (oc s k) x = (fst (get_leaving_row order s x), oc (snd (get_leaving_row order s x)) k).
Proof.
  intros K Tx. unfold get_leaving_row. change (s_rows (oc s k)) with (s_rows s). change (keys order (oc s k) (s_rows s)) with (keys order s (s_rows s)).
  match goal with |- context [fold_left ?f (keys order s (s_rows s)) None] => set (g := f) end.
  match goal with |- context [fold_left ?f (keys order s (s_rows s)) None] => lazymatch f with g => fail | _ => set (h := f) end end.
  assert (E : forall l b, fold_left g l b = fold_left h l b).
  { induction l as [|z l IH]; intros b; cbn [fold_left]; [reflexivity|]. rewrite IH. f_equal. unfold g, h. destruct (look z (s_rows s)) as [r|] eqn:L; [|reflexivity]. destruct (negb (is_external z)); [|reflexivity].
    rewrite cf_is. destruct (qltb (cf (r_cells r) x) 0) eqn:Q; [|reflexivity]. apply qltb_ok in Q. assert (N := cl_rows _ K _ (look_in _ _ _ L)). cbn [snd] in N.
    assert (Si := ti_simple _ N x Tx).
    rewrite (fl_opp F) by (apply (small_okq (1905 * K38)); [unfold K38; lia|apply N]). rewrite (fl_div F); [reflexivity|].
    assert (Nz : ~ cf (r_cells r) x == 0) by lra. apply (quart_eq _ (r_const r * (-(1) / cf (r_cells r) x))); [rewrite qopp_ok; field; exact Nz|].
    apply (quart_mul (1905 * K38) 2); [apply N|apply small_simple; now apply simple_div|unfold K38; lia]. }
  rewrite E. destruct (fold_left h (keys order s (s_rows s)) None) as [[[y r] q]|]; reflexivity.
Qed.
End Order.
End Floats.
