(** The solver makes the same steps whether its results are rounded or not, when the tableau is that of a system of differences. *)
From Verif Require Import Base M_Solver S_Solver P_Row P_Tableau P_Simplex P_Add P_Art P_Create P_System P_Step P_Exact P_Bland P_Network P_Alike P_Netted.
From Coq Require Import ZArith NArith QArith Qabs List Bool Lia Lqa Setoid Morphisms Permutation.
Import ListNotations.
Open Scope Q_scope.
#[local] Existing Instance no_tolerance.

Section Order.
Variable order : nat -> list symbol -> list symbol.
Hypothesis order_ok : forall n l, Permutation (order n l) l.
Lemma near_exact : forall q, near_zero q = true -> is_zero q = true.
Proof. auto. Qed.

(** The state after one exchange. *)
Definition after (s : solver) (x y : symbol) (r : row) : solver :=
  let r' := solve_for_symbols r y x in
  let s2 := substitute (with_rows (use (use s)) (drop_key y (s_rows s))) x r' in
  let s3 := if is_external x && negb (is_zero (r_const r')) then var_changed s2 (var_for s2 x) else s2 in
  with_rows s3 (put_at x r' (s_rows s3)).
Lemma after_ready art s x y r s1 : ready art s -> get_entering_symbol order s (goal art s) = (Some x, use s) -> get_leaving_row order (use s) x = (Some (y, r), s1) ->
  s1 = with_rows (use (use s)) (drop_key y (s_rows s)) /\ ready art (after s x y r) /\ same s (after s x y r) /\ In (y, r) (s_rows s) /\ (sy_type x = TSlack \/ sy_type x = TError) /\ cf (r_cells r) x < 0 /\ sy_type y <> TExternal.
Proof.
  intros (Hi & Ex & Ha) En Lv. unfold get_entering_symbol in En. injection En as Fd. assert (Fd' := Fd). apply find_some in Fd'. destruct Fd' as [J P]. apply keys_in in J; [|exact order_ok]. apply andb_prop in P. destruct P as [P1 P2]. apply negb_true_iff in P1.
  assert (Nd : sy_type x <> TDummy) by (intros Z; rewrite Z in P1; discriminate).
  assert (Ob := goal_obj art s Hi Ha). assert (O : occurs x (goal art s)) by exact J.
  assert (Tx : sy_type x = TSlack \/ sy_type x = TError) by (pose proof (ob_ext _ _ Ob x O); destruct (sy_type x); tauto).
  pose proof (leaving_ok order order_ok (use s) x) as L. rewrite Lv in L. cbn [s_rows use] in L. destruct L as (L1 & L2 & L3 & L4 & ->). apply look_in in L1.
  split; [reflexivity|].
  assert (Or : occurs x r) by (apply cf_occurs; lra).
  assert (Pr : 0 <= - r_const r / cf (r_cells r) x). { pose proof (tb_pos _ (proj1 Hi) _ L1 L2) as Z. cbn [snd] in Z. setoid_replace (- r_const r / cf (r_cells r) x) with (r_const r / - cf (r_cells r) x) by (field; lra). apply Qle_shift_div_l; lra. }
  unfold after. cbv zeta. set (r' := solve_for_symbols r y x). set (s0 := with_rows (use (use s)) (drop_key y (s_rows s))). set (s2 := substitute s0 x r').
  set (s3 := if is_external x && negb (is_zero (r_const r')) then var_changed s2 (var_for s2 x) else s2).
  assert (F3 : frame s2 s3 /\ s_rows s3 = s_rows s2 /\ s_objective s3 = s_objective s2 /\ s_artificial s3 = s_artificial s2 /\ s_exact s3 = s_exact s2) by (unfold s3; destruct (is_external x && _); repeat split).
  destruct (substitute_fields s0 x r') as (_ & G1 & _ & G3 & _). fold s2 in G1, G3. change (s_rows s0) with (drop_key y (s_rows s)) in G1. change (s_artificial s0) with (s_artificial s) in G3.
  assert (Xr : r_exact r = true) by exact (exact_in _ _ (rows_of_exact s Ex) L1).
  assert (X2 : exact s2 = true).
  { apply substitute_keeps; [exact near_exact| |apply solves_keeps; [exact near_exact|exact Xr]]. apply with_rows_keeps; [exact Ex|]. apply drop_keeps. now apply rows_of_exact. }
  destruct F3 as (F3 & F4 & F5 & F6 & F7).
  assert (X3 : exact s3 = true) by (unfold s3; destruct (_ && _); exact X2). clearbody s3.
  destruct (pivot_step s y r x s0 Hi L1 L2 Tx Or Pr) with (s2 := with_rows s3 (put_at x r' (s_rows s3))) as (S1 & S2 & S3 & S4).
  - intros [p q] I NE Tp. cbn [fst snd] in *. pose proof (tb_pos _ (proj1 Hi) _ I Tp) as Z. cbn [snd] in Z. destruct (Qlt_le_dec (cf (r_cells q) x) 0) as [Cx|Cx].
    + assert (K := L4 p q (in_look _ _ _ (tb_nodup _ (proj1 Hi)) I) Tp Cx). unfold ratio_of in K. set (k := - r_const r / cf (r_cells r) x) in *.
      assert (M : r_const q + cf (r_cells q) x * (- r_const q / cf (r_cells q) x) == 0) by (field; lra). set (m := - r_const q / cf (r_cells q) x) in *. nra.
    + nra.
  - repeat split.
  - reflexivity.
  - reflexivity.
  - reflexivity.
  - reflexivity.
  - fold r' s2. destruct F3 as (? & ? & ?). repeat split; assumption.
  - cbn [with_rows s_rows]. fold r' s2. now rewrite F4.
  - fold r' s2. exact F5.
  - fold r' s2. exact F6.
  - fold r' s2. exact F7.
  - set (s4 := with_rows s3 (put_at x r' (s_rows s3))) in *.
    assert (X4 : exact s4 = true) by (apply with_rows_keeps; [exact X3|]; apply put_keeps; [now apply rows_of_exact|apply solves_keeps; [exact near_exact|exact Xr]]).
    split; [|split; [now apply S4|split; [exact L1|split; [exact Tx|split; [exact L3|exact L2]]]]].
    split; [exact S1|]. split; [exact X4|]. intros Z1 Z2. change (s_artificial s4) with (s_artificial s3) in Z2. rewrite F6, G3 in Z2. apply (Ha Z1). destruct (s_artificial s); [discriminate|reflexivity].
Qed.

Section Floats.
Variable F : floats.
Local Notation ar' := (fl_ar F).
Local Notation tol' := (fl_tol F).

Definition like (r' r : result solver) : Prop :=
  match r with Done s => exists k, r' = Done (oc s k) | Fail e s => exists k, r' = Fail e (oc s k) | NoFuel => r' = NoFuel end.
Lemma goal_cells art s k : r_cells (goal art (oc s k)) = r_cells (goal art s).
Proof. now destruct art. Qed.
Lemma entering_same art s k : get_entering_symbol order (oc s k) (goal art (oc s k)) = (fst (get_entering_symbol order s (goal art s)), oc (use s) k).
Proof. unfold get_entering_symbol. cbn [fst]. f_equal. unfold keys, coefficient_for. rewrite goal_cells. reflexivity. Qed.
Lemma optimize_same art md gs es costs : forall fuel s k, ready art s -> netted s md gs es costs -> like (@optimize ar' tol' order fuel art (oc s k)) (optimize order fuel art s).
Proof.
  induction fuel as [|fuel IH]; intros s k R N; [reflexivity|]. cbn [optimize]. rewrite entering_same. 
  destruct (get_entering_symbol order s (goal art s)) as [[x|] s1] eqn:En; cbn [fst]; [|injection En as _ <-; exists k; reflexivity].
  assert (s1 = use s) by (injection En as _ <-; reflexivity). subst s1.
  assert (Cm : calm s) by (apply (netted_calm s md gs es costs); [apply R|exact N]). assert (Cu : calm (use s)) by (split; apply Cm).
  assert (Tx : sy_type x <> TDummy). { unfold get_entering_symbol in En. injection En as Fd. apply find_some in Fd. destruct Fd as [_ P]. apply andb_prop in P. destruct P as [P1 _]. intros Z. rewrite Z in P1. discriminate. }
  change (oc (use s) k) with (use (oc s k)). change (use (oc s k)) with (oc (use s) k).
  rewrite (leaving_same F order (use s) k x Cu Tx). destruct (get_leaving_row order (use s) x) as [[[y r]|] s1] eqn:Lv; cbn [fst snd]; [|exists k; reflexivity].
  destruct (after_ready art s x y r s1 R En Lv) as (-> & R' & S' & J & Tx' & Cx & Ty).
  assert (T := proj1 (proj1 R)). assert (Nx : ~ In x (dom (s_rows s))) by (apply (tb_basic _ T _ x J); cbn [snd]; apply cf_occurs; lra).
  assert (Nr : tight r) by exact (cl_rows _ Cm _ J).
  assert (U : simple (cf (r_cells r) x)) by exact (ti_simple _ Nr x Tx).
  assert (Ny : ~ occurs y r) by (intros O; apply (tb_basic _ T _ y J O); now apply in_dom in J).
  assert (Nxy : x <> y) by (intros ->; apply Nx; now apply in_dom in J).
  assert (Na := netted_same _ _ _ _ _ _ N S').
  assert (N1 : tight (solve_for_symbols r y x)).
  { apply (netted_rows (after s x y r) md gs es costs (proj1 R') Na (x, solve_for_symbols r y x)). unfold after. cbv zeta. cbn [with_rows s_rows]. apply look_in. rewrite look_put', sym_eqb_refl. reflexivity. }
  rewrite (solves_same F r y x (ti_wf _ Nr) U ltac:(lra) Ny Nxy N1).
  assert (Nx' : ~ occurs x (solve_for_symbols r y x)). { destruct (pivot_row_props r y x (ti_wf _ Nr)) as (_ & _ & _ & Oc & _); [apply cf_occurs; lra|exact Ny|congruence|]. intros O. apply Oc in O. destruct O as [O|[_ O]]; congruence. }
  set (s0 := with_rows (use (use s)) (drop_key y (s_rows s))).
  assert (C0 : calm s0). { split; [|apply Cm|apply Cm]. intros p Jp. cbn in Jp. apply drop_in in Jp. apply (cl_rows _ Cm). tauto. }
  destruct (substitute_same F s0 k x (solve_for_symbols r y x) C0 N1 Nx' (or_introl Tx)) as (k' & Es). rewrite Es.
  specialize (IH (after s x y r) k' R' Na). unfold after in IH. cbv zeta in IH. fold s0 in IH.
  destruct (is_external x && negb (is_zero (r_const (solve_for_symbols r y x)))); exact IH.
Qed.

(** ** The row for a new constraint *)
Record bounded (n : Z) (r : row) : Prop := Bounded {
  bo_wf : wf r;
  bo_all : forall y, small (n * 1524) (cf (r_cells r) y);
  bo_const : small (K38 + Z.min n 4 * (1905 * K38)) (r_const r)
}.
Lemma bounded_insert n r x k : bounded n r -> unit_q k -> bounded (n + 1) (insert_symbol r x k).
Proof.
  intros [B1 B2 B3] U. split.
  - now apply insert_wf.
  - intros y. eapply small_eq; [symmetry; apply insert_cf'|]. apply (small_add (n * 1524) 1); [apply B2| |lia]. destruct (sym_eqb y x); [now apply small_unit|apply small_zero; lia].
  - rewrite insert_const. apply (small_le (K38 + Z.min n 4 * (1905 * K38))); [unfold K38; lia|exact B3].
Qed.
Lemma insert_bounded n r x k : (0 <= n <= 1000)%Z -> bounded n r -> unit_q k -> @insert_symbol ar' tol' r x k = insert_symbol r x k.
Proof.
  intros Hn B U. apply insert_same; [apply (small_okq 1); [lia|now apply small_unit]|]. apply (quart_add (n * 1524) 1); [apply small_quart, B|now apply small_quart, small_unit|lia].
Qed.
Lemma unit_far q : unit_q q -> is_zero q = false.
Proof. intros U. apply is_zero_no. unfold unit_q in U. lra. Qed.
Lemma terms_same ts : forall n r s k, (forall p, In p (s_rows s) -> tight (snd p)) -> (forall t, In t ts -> unit_q (snd t)) -> (0 <= n)%Z -> (Z.of_nat (length ts) + n <= 4)%Z -> bounded n r ->
  fold_left (@add_term ar' tol') ts (r, oc s k) = (fst (fold_left add_term ts (r, s)), oc (snd (fold_left add_term ts (r, s))) k) /\ bounded (n + Z.of_nat (length ts)) (fst (fold_left add_term ts (r, s))).
Proof.
  induction ts as [|[v q] ts IH]; intros n r s k Tr U Hn Hl B; [cbn [fold_left fst snd length]; split; [reflexivity|now rewrite Z.add_0_r]|]. cbn [fold_left].
  assert (Uq : unit_q q) by exact (U (v, q) (or_introl eq_refl)). assert (Oq : okq q) by (apply (small_okq 1); [lia|now apply small_unit]). cbn [length] in Hl |- *.
  assert (Q : exists r1 s1, add_term (r, s) (v, q) = (r1, s1) /\ @add_term ar' tol' (r, oc s k) (v, q) = (r1, oc s1 k) /\ bounded (n + 1) r1 /\ s_rows s1 = s_rows s).
  { unfold add_term. cbn [fst snd]. rewrite (fl_near F) by exact Oq. change (@near_zero no_tolerance q) with (is_zero q). rewrite (unit_far q Uq).
    assert (Gv : exists x s1, get_var_symbol s v = (x, s1) /\ get_var_symbol (oc s k) v = (x, oc s1 k) /\ s_rows s1 = s_rows s).
    { unfold get_var_symbol. change (s_vars (oc s k)) with (s_vars s). destruct (find_var v (s_vars s)) as [x|]; [exists x, s; split; [|split]; reflexivity|]. cbn [fresh]. eexists. eexists. split; [reflexivity|]. split; reflexivity. }
    destruct Gv as (x & s1 & -> & -> & R1). change (s_rows (oc s1 k)) with (s_rows s1). rewrite R1. destruct (look x (s_rows s)) as [o|] eqn:L.
    - assert (To := Tr _ (look_in _ _ _ L)). cbn [snd] in To. assert (Sq := whole_unit q Uq).
      assert (Pc : small (1905 * K38) (r_const o * q)) by (apply (small_mul (1905 * K38) 1); [apply To|exact Sq|lia]).
      assert (Pa : forall y, small 1524 (cf (r_cells o) y * q)) by (intros y; apply (small_mul 1524 1); [apply To|exact Sq|lia]).
      rewrite insert_row_same.
      + eexists. eexists. split; [reflexivity|]. split; [reflexivity|]. split; [|exact R1]. split.
        * apply insert_row_props; [apply B|apply To].
        * intros y. eapply small_eq; [symmetry; apply insert_row_cf; apply To|]. apply (small_add (n * 1524) 1524); [apply B|apply Pa|lia].
        * eapply small_eq; [symmetry; apply insert_row_const|]. apply (small_add (K38 + Z.min n 4 * (1905 * K38)) (1905 * K38)); [apply B|exact Pc|unfold K38; lia].
      + apply To.
      + apply (small_okq (1905 * K38)); [unfold K38; lia|exact Pc].
      + apply (quart_add (K38 + Z.min n 4 * (1905 * K38)) (1905 * K38)); [apply small_quart, B|now apply small_quart|unfold K38; lia].
      + intros y _. split; [apply (small_okq 1524); [lia|apply Pa]|]. apply (quart_add (n * 1524) 1524); [apply small_quart, B|apply small_quart, Pa|lia].
    - rewrite (insert_bounded n) by (try assumption; lia). eexists. eexists. split; [reflexivity|]. split; [reflexivity|]. split; [now apply bounded_insert|exact R1]. }
  destruct Q as (r1 & s1 & -> & -> & B1 & R1). destruct (IH (n + 1)%Z r1 s1 k) as [I1 I2]; [now rewrite R1|intros t J; apply U; now right|lia|lia|exact B1|]. split; [exact I1|]. replace (n + Z.of_nat (S (length ts)))%Z with (n + 1 + Z.of_nat (length ts))%Z by lia. exact I2.
Qed.
(** The constraints whose numbers are small. *)
Record plain (c : constr) : Prop := Plain {
  pl_terms : forall t, In t (e_terms (c_expr c)) -> unit_q (snd t);
  pl_four : (length (e_terms (c_expr c)) <= 4)%nat;
  pl_const : whole K38 (e_const (c_expr c));
  pl_strength : intq (c_strength c) /\ 0 <= c_strength c <= required
}.
Lemma strength_small c : plain c -> whole 1001001000 (c_strength c).
Proof. intros P. destruct (pl_strength _ P) as (I0 & P1 & P2). split; [exact I0|]. rewrite Qabs_pos by exact P1. exact P2. Qed.
Lemma obj_insert_same o x c : (forall y, small (1524 * K38 + 1001001000) (cf (r_cells o) y)) -> plain c -> @insert_symbol ar' tol' o x (c_strength c) = insert_symbol o x (c_strength c).
Proof. intros H P. assert (S0 := strength_small c P). apply insert_same; [apply (whole_okq 1001001000); [lia|exact S0]|]. apply (quart_add (1524 * K38 + 1001001000) 1001001000); [apply small_quart, H|now apply small_quart, whole_small|unfold K38; lia]. Qed.
Lemma flip_same n r : (0 <= n <= 10)%Z -> bounded n r -> (if qltb (r_const r) 0 then @reverse_sign ar' r else r) = (if qltb (r_const r) 0 then reverse_sign r else r).
Proof.
  intros Hn B. destruct (qltb (r_const r) 0); [|reflexivity]. apply reverse_same; [|apply B|].
  - intros y. apply (small_okq (n * 1524)); [lia|apply B].
  - apply (small_okq (K38 + Z.min n 4 * (1905 * K38))); [unfold K38; lia|apply B].
Qed.
Lemma create_same s k c : (forall p, In p (s_rows s) -> tight (snd p)) -> (forall y, small (1524 * K38) (cf (r_cells (s_objective s)) y)) -> plain c ->
  @create_row ar' tol' (oc s k) c = (fst (create_row s c), oc (snd (create_row s c)) k).
Proof.
  intros Tr Ob P. unfold create_row.
  assert (B0 : bounded 0 (new_row (e_const (c_expr c)))). { split; [split; constructor|intros y; apply small_zero; lia|]. cbn [new_row r_const]. apply (small_le K38); [unfold K38; lia|apply whole_small, P]. }
  assert (L4 := pl_four _ P). destruct (terms_same (e_terms (c_expr c)) 0 _ s k Tr (pl_terms _ P) ltac:(lia) ltac:(lia) B0) as [E B]. rewrite E. clear E.
  pose proof (terms_ok (e_terms (c_expr c)) (new_row (e_const (c_expr c))) s) as Tk. destruct (fold_left add_term (e_terms (c_expr c)) (new_row (e_const (c_expr c)), s)) as [r s1]. cbn [fst snd] in *. destruct Tk as (_ & O1 & _).
  apply (fun H => conj H B) in B0. clear B0. assert (B4 : bounded 4 r). { destruct B as [B1 B2 B3]. split; [exact B1|intros y; eapply small_le; [|apply B2]; lia|eapply small_le; [|exact B3]; unfold K38; lia]. }
  clear B. assert (Ob1 : forall y, small (1524 * K38 + 1001001000) (cf (r_cells (s_objective s1)) y)) by (intros y; rewrite O1; apply (small_le (1524 * K38)); [lia|apply Ob]).
  assert (U1 : unit_q 1) by (left; reflexivity). assert (Um : unit_q (-(1))) by (right; reflexivity).
  assert (Op : forall q, unit_q q -> @qopp ar' q = qopp q) by (intros q U; apply (fl_opp F); apply (small_okq 1); [lia|now apply small_unit]).
  assert (Uo : forall q, unit_q q -> unit_q (qopp q)) by (intros q U; unfold unit_q in *; rewrite qopp_ok; lra).
  assert (Ins : forall x q, unit_q q -> @insert_symbol ar' tol' r x q = insert_symbol r x q /\ bounded 5 (insert_symbol r x q)) by (intros x q U; split; [apply (insert_bounded 4); [lia|exact B4|exact U]|now apply (bounded_insert 4)]).
  assert (Ins2 : forall x q y p, unit_q q -> unit_q p -> @insert_symbol ar' tol' (insert_symbol r x q) y p = insert_symbol (insert_symbol r x q) y p /\ bounded 6 (insert_symbol (insert_symbol r x q) y p)) by (intros x q y p U V; destruct (Ins x q U) as [_ B5]; split; [apply (insert_bounded 5); [lia|exact B5|exact V]|now apply (bounded_insert 5)]).
  assert (Two : (c_op c = RGe \/ c_op c = RLe) -> forall kk, unit_q kk ->
    (let '(r0, t, s0) := (let '(slack, s0) := fresh (oc s1 k) TSlack in let r0 := @insert_symbol ar' tol' r slack kk in if qltb (c_strength c) required then let '(err, s2) := fresh s0 TError in (@insert_symbol ar' tol' r0 err (@qopp ar' kk), Tag slack (Some err), with_objective s2 (@insert_symbol ar' tol' (s_objective s2) err (c_strength c))) else (r0, Tag slack None, s0)) in (if qltb (r_const r0) 0 then @reverse_sign ar' r0 else r0, t, s0)) =
    (let q := (let '(r0, t, s0) := (let '(slack, s0) := fresh s1 TSlack in let r0 := insert_symbol r slack kk in if qltb (c_strength c) required then let '(err, s2) := fresh s0 TError in (insert_symbol r0 err (qopp kk), Tag slack (Some err), with_objective s2 (insert_symbol (s_objective s2) err (c_strength c))) else (r0, Tag slack None, s0)) in (if qltb (r_const r0) 0 then reverse_sign r0 else r0, t, s0)) in (fst q, oc (snd q) k))).
  { intros _ kk Uk. cbn [fresh]. cbv zeta. cbn [oc with_objective s_vars s_var_for s_changed s_rows s_objective s_artificial s_tick s_uses s_exact]. rewrite (proj1 (Ins _ kk Uk)). rewrite (Op kk Uk).
    destruct (qltb (c_strength c) required).
    - rewrite (proj1 (Ins2 _ kk _ _ Uk (Uo kk Uk))). rewrite insert_recon, (obj_insert_same _ _ c Ob1 P). rewrite (flip_same 6); [|lia|apply Ins2; [exact Uk|now apply Uo]]. reflexivity.
    - rewrite (flip_same 5); [|lia|now apply Ins]. reflexivity. }
  destruct (c_op c) eqn:Eo.
  - exact (Two (or_intror eq_refl) 1 U1).
  - clear Two. cbn [fresh]. cbv zeta. cbn [oc with_objective s_vars s_var_for s_changed s_rows s_objective s_artificial s_tick s_uses s_exact]. destruct (qltb (c_strength c) required).
    + rewrite (proj1 (Ins _ (-(1)) Um)). rewrite (proj1 (Ins2 _ (-(1)) _ 1 Um U1)). rewrite insert_recon, (obj_insert_same _ _ c Ob1 P). rewrite insert_recon.
      rewrite (insert_same F (insert_symbol (s_objective s1) _ _)).
      * rewrite (flip_same 6); [|lia|apply Ins2; [exact Um|exact U1]]. reflexivity.
      * apply (whole_okq 1001001000); [lia|now apply strength_small].
      * apply small_okq with (b := (1524 * K38 + 3003003000)%Z); [unfold K38; lia|]. assert (Sc : small 1001001000 (c_strength c)) by now apply whole_small, strength_small. eapply small_eq; [symmetry; rewrite insert_cf'; reflexivity|]. apply (small_add (1524 * K38 + 2002002000) 1001001000); [|exact Sc|unfold K38; lia]. apply (small_add (1524 * K38 + 1001001000) 1001001000); [apply Ob1| |lia]. destruct (sym_eqb _ _); [exact Sc|apply small_zero; lia].
    + rewrite (proj1 (Ins _ 1 U1)). rewrite (flip_same 5); [|lia|now apply Ins]. reflexivity.
  - exact (Two (or_introl eq_refl) (-(1)) Um).
Qed.
End Floats.
End Order.
