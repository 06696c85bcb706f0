(** The steps of the solver: pivoting and optimising. *)
From Verif Require Import Base M_Solver P_Row P_Tableau.
From Coq Require Import ZArith NArith QArith Qround List Bool Lia Lqa Setoid Morphisms Permutation.
Import ListNotations.
Open Scope Q_scope.
Section Tolerance.
Context {tolr : tolerance}.

(** What a step leaves alone: everything but the rows, the objectives, the changed variables and the use count. *)
Definition frame (s s' : solver) : Prop :=
  s_vars s' = s_vars s /\ s_var_for s' = s_var_for s /\ s_tick s' = s_tick s.
Lemma frame_refl s : frame s s. Proof. repeat split. Qed.
Lemma frame_trans a b c : frame a b -> frame b c -> frame a c.
Proof. intros (A1 & A2 & A3) (B1 & B2 & B3). repeat split; congruence. Qed.

Lemma changed_fold (f : solver -> symbol * row -> variable) l : forall s, let s' := fold_left (fun s p => var_changed s (f s p)) l s in
  frame s s' /\ s_rows s' = s_rows s /\ s_objective s' = s_objective s /\ s_artificial s' = s_artificial s /\ s_uses s' = s_uses s /\ s_exact s' = s_exact s.
Proof. induction l as [|p l IH]; intros s; [cbn; repeat split|]. cbn [fold_left]. destruct (IH (var_changed s (f s p))) as ((A1 & A2 & A3) & B1 & B2 & B3 & B4 & B5). repeat split; assumption. Qed.
Lemma substitute_fields s x r : let s' := substitute s x r in
  frame s s' /\ s_rows s' = subst_rows x r (s_rows s) /\ s_objective s' = fst (substitute_row (s_objective s) x r) /\
  s_artificial s' = option_map (fun a => fst (substitute_row a x r)) (s_artificial s) /\ s_uses s' = s_uses s /\ s_exact s' = s_exact s.
Proof.
  unfold substitute. set (l := filter _ _). destruct (changed_fold (fun s p => var_for s (fst p)) l s) as ((A1 & A2 & A3) & B1 & B2 & B3 & B4 & B5).
  set (s1 := fold_left _ l s) in *. clearbody s1. cbn. rewrite B3. destruct (s_artificial s) as [a|] eqn:E; cbn; rewrite ?B1, ?B2, ?B3; repeat split; assumption.
Qed.

(** The invariant of the tableau in a solver. *)
Definition inv (s : solver) : Prop :=
  tab (s_rows s) /\ objective (s_rows s) (s_objective s) /\ (forall a, s_artificial s = Some a -> objective (s_rows s) a).
(** The second solver has the same solutions, and its objectives agree on them. *)
Definition same (s s' : solver) : Prop :=
  (forall v, hold (s_rows s') v <-> hold (s_rows s) v) /\
  (forall v, hold (s_rows s) v -> ev (s_objective s') v == ev (s_objective s) v) /\
  match s_artificial s, s_artificial s' with Some a, Some a' => forall v, hold (s_rows s) v -> ev a' v == ev a v | None, None => True | _, _ => False end.
Lemma same_refl s : same s s.
Proof. split; [reflexivity|]. split; [reflexivity|]. destruct (s_artificial s); [reflexivity|exact I]. Qed.
Lemma same_trans a b c : same a b -> same b c -> same a c.
Proof.
  intros (A1 & A2 & A3) (B1 & B2 & B3). split; [|split].
  - intros v. now rewrite B1.
  - intros v H. rewrite B2, A2; [reflexivity|exact H|]. now apply A1.
  - destruct (s_artificial a), (s_artificial b), (s_artificial c); try contradiction; [|exact I]. intros v H. rewrite B3, A3; [reflexivity|exact H|]. now apply A1.
Qed.
Lemma exact_parts s : exact s = true <-> s_exact s = true /\ rows_exact (s_rows s) = true /\ r_exact (s_objective s) = true /\ (forall a, s_artificial s = Some a -> r_exact a = true).
Proof.
  unfold exact. fold (rows_exact (s_rows s)). rewrite !andb_true_iff. destruct (s_artificial s) as [a|].
  - split; [intros (((A & B) & C) & D); repeat split; auto; intros a' E; injection E as <-; exact D|intros (A & B & C & D); repeat split; auto].
  - split; [intros (((A & B) & C) & D); repeat split; auto; discriminate|intros (A & B & C & D); repeat split; auto].
Qed.

(** ** One exchange, in the solver *)
Lemma pivot_step s y r x s0 : inv s -> In (y, r) (s_rows s) -> sy_type y <> TExternal -> sy_type x = TSlack \/ sy_type x = TError -> occurs x r ->
  0 <= - r_const r / cf (r_cells r) x ->
  (forall p, In p (s_rows s) -> fst p <> y -> sy_type (fst p) <> TExternal -> 0 <= r_const (snd p) + cf (r_cells (snd p)) x * (- r_const r / cf (r_cells r) x)) ->
  frame s s0 -> s_rows s0 = drop_key y (s_rows s) -> s_objective s0 = s_objective s -> s_artificial s0 = s_artificial s -> s_exact s0 = s_exact s ->
  forall s2, frame (substitute s0 x (solve_for_symbols r y x)) s2 -> s_rows s2 = put_at x (solve_for_symbols r y x) (s_rows (substitute s0 x (solve_for_symbols r y x))) ->
  s_objective s2 = s_objective (substitute s0 x (solve_for_symbols r y x)) -> s_artificial s2 = s_artificial (substitute s0 x (solve_for_symbols r y x)) ->
  s_exact s2 = s_exact (substitute s0 x (solve_for_symbols r y x)) ->
  inv s2 /\ frame s s2 /\ s_exact s2 = s_exact s /\ (exact s2 = true -> exact s = true /\ same s s2).
Proof.
  intros (T & Ob & Ar) I Ty Tx O Pos PosAll Fr R1 R2 R3 R4 s2 Fr2 Q1 Q2 Q3 Q4. set (r' := solve_for_symbols r y x) in *.
  destruct (substitute_fields s0 x r') as (F0 & S1 & S2 & S3 & _ & S5). rewrite R1 in S1. rewrite R2 in S2. rewrite R3 in S3. rewrite R4 in S5. rewrite S1 in Q1. rewrite S2 in Q2. rewrite S3 in Q3. rewrite S5 in Q4.
  assert (T2 := pivot_tab _ y r x T I Ty Tx O Pos PosAll). fold r' in T2.
  pose proof (pivot_facts _ y r x T I Tx O) as (P1 & P2 & _ & _ & _ & P6 & _). fold r' in P1, P2.
  assert (ND : NoDup (dom (subst_rows x r' (drop_key y (s_rows s))))) by (rewrite subst_dom; apply drop_nodup; apply T).
  assert (Nx : ~ In x (dom (subst_rows x r' (drop_key y (s_rows s))))) by (rewrite subst_dom, drop_dom; tauto).
  split; [|split; [exact (frame_trans _ _ _ (frame_trans _ _ _ Fr F0) Fr2)|split; [exact Q4|]]].
  - unfold inv. rewrite Q1, Q2. split; [exact T2|]. split; [apply (pivot_obj _ y r x T I Ty Tx O); exact Ob|]. intros a E. rewrite Q3 in E. destruct (s_artificial s) as [b|]; [|discriminate]. injection E as <-.
    apply (pivot_obj _ y r x T I Ty Tx O). now apply Ar.
  - intros Ex. apply exact_parts in Ex. destruct Ex as (E1 & E2 & E3 & E4). rewrite Q1 in E2. rewrite Q2 in E3. apply exact_put in E2; [|exact ND]. destruct E2 as [E2 E2']. rewrite drop_none in E2' by exact Nx.
    assert (WD : forall p, In p (drop_key y (s_rows s)) -> wf (snd p)) by (intros p J; apply drop_in in J; apply (tb_wf _ T); tauto).
    split.
    + apply exact_parts. split; [congruence|]. split; [|split].
      * pose proof (exact_subst x r' _ WD P1 E2') as K. apply forallb_forall. intros p J. destruct (sym_dec (fst p) y) as [D|D].
        -- assert (Z : p = (y, r)). { destruct p as [k q]. cbn in D. subst k. assert (A := in_look _ _ _ (tb_nodup _ T) J). assert (B := in_look _ _ _ (tb_nodup _ T) I). congruence. } rewrite Z. cbn. congruence.
        -- apply (exact_in _ p K). apply drop_in. auto.
      * destruct (subst_props (s_objective s) x r' (ob_wf _ _ Ob) P1) as (_ & _ & K & _). auto.
      * intros a E. rewrite E in Q3. cbn in Q3. pose proof (E4 _ Q3) as K. destruct (subst_props a x r' (ob_wf _ _ (Ar a E)) P1) as (_ & _ & K2 & _). auto.
    + assert (H := fun v => pivot_hold _ y r x T I Tx O v E2'). fold r' in H. split; [|split].
      * intros v. rewrite Q1. apply H.
      * intros v Hv. rewrite Q2. apply subst_obj_ev; [apply Ob|exact P1|exact E3|]. now apply H.
      * rewrite Q3. destruct (s_artificial s) as [a|] eqn:E; cbn; [|exact Logic.I]. intros v Hv. apply subst_obj_ev; [apply (Ar a eq_refl)|exact P1|exact (E4 _ Q3)|]. now apply H.
Qed.

Section Order.
Variable order : nat -> list symbol -> list symbol.
Hypothesis order_ok : forall n l, Permutation (order n l) l.

Lemma keys_in {A} s (l : list (symbol * A)) x : In x (keys order s l) <-> In x (dom l).
Proof. split; apply Permutation_in; [apply order_ok|symmetry; apply order_ok]. Qed.

(** ** The row that leaves *)
Definition ratio_of (r : row) (x : symbol) : Q := - r_const r / cf (r_cells r) x.
Lemma leaving_ok s x : let '(res, s') := get_leaving_row order s x in
  match res with
  | Some (y, r) => look y (s_rows s) = Some r /\ sy_type y <> TExternal /\ cf (r_cells r) x < 0 /\
      (forall p q, look p (s_rows s) = Some q -> sy_type p <> TExternal -> cf (r_cells q) x < 0 -> ratio_of r x <= ratio_of q x) /\
      s' = with_rows (use s) (drop_key y (s_rows s))
  | None => (forall p q, look p (s_rows s) = Some q -> sy_type p <> TExternal -> ~ cf (r_cells q) x < 0) /\ s' = use s
  end.
Proof.
  unfold get_leaving_row. set (f := fun best x0 => _).
  assert (K : forall l seen best, (match best with
     | Some (y, r, k) => look y (s_rows s) = Some r /\ sy_type y <> TExternal /\ cf (r_cells r) x < 0 /\ k == ratio_of r x /\
         (forall p q, In p seen -> look p (s_rows s) = Some q -> sy_type p <> TExternal -> cf (r_cells q) x < 0 -> ratio_of r x <= ratio_of q x)
     | None => forall p q, In p seen -> look p (s_rows s) = Some q -> sy_type p <> TExternal -> ~ cf (r_cells q) x < 0 end) ->
    match fold_left f l best with
     | Some (y, r, k) => look y (s_rows s) = Some r /\ sy_type y <> TExternal /\ cf (r_cells r) x < 0 /\ k == ratio_of r x /\
         (forall p q, In p (seen ++ l) -> look p (s_rows s) = Some q -> sy_type p <> TExternal -> cf (r_cells q) x < 0 -> ratio_of r x <= ratio_of q x)
     | None => forall p q, In p (seen ++ l) -> look p (s_rows s) = Some q -> sy_type p <> TExternal -> ~ cf (r_cells q) x < 0 end).
  { induction l as [|z l IH]; intros seen best H; cbn [fold_left]; [rewrite app_nil_r; exact H|].
    replace (seen ++ z :: l) with ((seen ++ [z]) ++ l) by (rewrite <- app_assoc; reflexivity). apply IH. unfold f.
    destruct (look z (s_rows s)) as [rz|] eqn:Lz.
    2:{ destruct best as [[[y r] k]|].
        - destruct H as (H1 & H2 & H3 & H4 & H5). split; [exact H1|]. split; [exact H2|]. split; [exact H3|]. split; [exact H4|]. intros p q J L. apply in_app_iff in J. destruct J as [J|[->|[]]]; [apply H5; assumption|congruence].
        - intros p q J L. apply in_app_iff in J. destruct J as [J|[->|[]]]; [apply (H p q); assumption|congruence]. }
    destruct (is_external z) eqn:Ez; cbn [negb].
    1:{ apply is_external_ok in Ez. destruct best as [[[y r] k]|].
        - destruct H as (H1 & H2 & H3 & H4 & H5). split; [exact H1|]. split; [exact H2|]. split; [exact H3|]. split; [exact H4|]. intros p q J L. apply in_app_iff in J. destruct J as [J|[->|[]]]; [apply H5; assumption|congruence].
        - intros p q J L. apply in_app_iff in J. destruct J as [J|[->|[]]]; [apply (H p q); assumption|congruence]. }
    apply is_external_no in Ez. rewrite cf_is. destruct (qltb (cf (r_cells rz) x) 0) eqn:Cz.
    2:{ apply qltb_no in Cz. destruct best as [[[y r] k]|].
        - destruct H as (H1 & H2 & H3 & H4 & H5). split; [exact H1|]. split; [exact H2|]. split; [exact H3|]. split; [exact H4|]. intros p q J L. apply in_app_iff in J. destruct J as [J|[->|[]]]; [apply H5; assumption|]. intros _ Z. assert (q = rz) by congruence. subst. lra.
        - intros p q J L. apply in_app_iff in J. destruct J as [J|[->|[]]]; [apply (H p q); assumption|]. intros _ Z. assert (q = rz) by congruence. subst. lra. }
    apply qltb_ok in Cz. assert (Rz : qdiv (qopp (r_const rz)) (cf (r_cells rz) x) == ratio_of rz x) by (unfold ratio_of; now rewrite qdiv_ok, qopp_ok).
    destruct best as [[[y r] k]|].
    - destruct H as (H1 & H2 & H3 & H4 & H5). destruct (qltb (qdiv (qopp (r_const rz)) (cf (r_cells rz) x)) k) eqn:Lt.
      + apply qltb_ok in Lt. rewrite Rz, H4 in Lt. split; [exact Lz|]. split; [exact Ez|]. split; [exact Cz|]. split; [exact Rz|]. intros p q J L Tp Cp. apply in_app_iff in J. destruct J as [J|[->|[]]]; [pose proof (H5 p q J L Tp Cp); lra|]. assert (q = rz) by congruence. subst. lra.
      + apply qltb_no in Lt. rewrite Rz, H4 in Lt. split; [exact H1|]. split; [exact H2|]. split; [exact H3|]. split; [exact H4|]. intros p q J L Tp Cp. apply in_app_iff in J. destruct J as [J|[->|[]]]; [exact (H5 p q J L Tp Cp)|]. assert (q = rz) by congruence. subst. exact Lt.
    - split; [exact Lz|]. split; [exact Ez|]. split; [exact Cz|]. split; [exact Rz|]. intros p q J L Tp Cp. apply in_app_iff in J. destruct J as [J|[->|[]]]; [elim (H p q J L Tp Cp)|]. assert (q = rz) by congruence. subst. lra. }
  specialize (K (keys order s (s_rows s)) [] None). cbn [app] in K. specialize (K (fun p q F => False_ind _ F)).
  assert (All : forall p q, look p (s_rows s) = Some q -> In p (keys order s (s_rows s))) by (intros p q L; apply keys_in; apply look_in in L; now apply in_dom in L).
  destruct (fold_left f (keys order s (s_rows s)) None) as [[[y r] k]|].
  - destruct K as (K1 & K2 & K3 & K4 & K5). split; [exact K1|]. split; [exact K2|]. split; [exact K3|]. split; [|reflexivity]. intros p q L. apply (K5 p q); [now apply (All p q)|exact L].
  - split; [|reflexivity]. intros p q L. apply (K p q); [now apply (All p q)|exact L].
Qed.

(** ** Optimising *)
Lemma goal_obj art s : inv s -> (art = true -> s_artificial s <> None) -> objective (s_rows s) (goal art s).
Proof. intros (T & Ob & Ar) H. unfold goal. destruct art; [|exact Ob]. destruct (s_artificial s) as [a|]; [now apply Ar|]. now elim (H eq_refl). Qed.
Lemma goal_same art s s' v : same s s' -> hold (s_rows s) v -> ev (goal art s') v == ev (goal art s) v.
Proof. intros (A & B & C) H. unfold goal. destruct art; [|now apply B]. destruct (s_artificial s), (s_artificial s'); try contradiction; [now apply C|reflexivity]. Qed.
Lemma optimize_ok art : forall fuel s, inv s -> (art = true -> s_artificial s <> None) ->
  match optimize order fuel art s with
  | Done s' => inv s' /\ frame s s' /\ s_exact s' = s_exact s /\ (s_artificial s' = None <-> s_artificial s = None) /\ (exact s' = true -> exact s = true /\ same s s') /\
      (forall x, occurs x (goal art s') -> sy_type x <> TDummy -> 0 <= cf (r_cells (goal art s')) x)
  | Fail _ s' => frame s s' /\ s_exact s' = s_exact s /\ (exact s' = true -> exact s = true /\ ~ (forall v, hold (s_rows s) v -> proper v -> 0 <= ev (goal art s) v))
  | NoFuel => True
  end.
Proof.
  induction fuel as [|fuel IH]; intros s Hi Ha; [exact Logic.I|]. cbn [optimize]. unfold get_entering_symbol.
  destruct (find _ (keys order s (r_cells (goal art s)))) as [x|] eqn:Fd.
  2:{ split; [exact Hi|]. split; [repeat split|]. split; [reflexivity|]. split; [reflexivity|]. split; [intros E; split; [exact E|exact (same_refl s)]|].
      intros x O N. assert (In x (keys order s (r_cells (goal art s)))) as J by (apply keys_in; exact O). pose proof (find_none _ _ Fd x J) as Z. cbn in Z. rewrite cf_is in Z.
      destruct (stype_eqb (sy_type x) TDummy) eqn:D; [apply stype_eqb_ok in D; congruence|]. cbn in Z. apply qltb_no in Z. exact Z. }
  apply find_some in Fd. destruct Fd as [J P]. apply keys_in in J. apply andb_prop in P. destruct P as [P1 P2]. apply negb_true_iff in P1. apply qltb_ok in P2. rewrite cf_is in P2.
  assert (Nd : sy_type x <> TDummy) by (intros Z; rewrite Z in P1; discriminate).
  assert (Ob := goal_obj art s Hi Ha). assert (O : occurs x (goal art s)) by exact J.
  assert (Tx : sy_type x = TSlack \/ sy_type x = TError) by (pose proof (ob_ext _ _ Ob x O); destruct (sy_type x); tauto).
  pose proof (leaving_ok (use s) x) as L. destruct (get_leaving_row order (use s) x) as [[[y r]|] s1]; cbn [s_rows use] in L.
  2:{ destruct L as [L ->]. split; [repeat split|]. split; [reflexivity|]. intros E. split; [exact E|]. intros B. refine (bounded_has_leaving (s_rows s) (goal art s) x (proj1 Hi) Ob O Nd P2 B _).
      intros [p q] I Tp. cbn [fst snd] in *. apply Qnot_lt_le. apply (L p q); [apply in_look; [apply Hi|exact I]|exact Tp]. }
  destruct L as (L1 & L2 & L3 & L4 & ->). apply look_in in L1.
  assert (Or : occurs x r) by (apply cf_occurs; lra).
  assert (Pr : 0 <= - r_const r / cf (r_cells r) x). { pose proof (tb_pos _ (proj1 Hi) _ L1 L2) as Z. cbn [snd] in Z. setoid_replace (- r_const r / cf (r_cells r) x) with (r_const r / - cf (r_cells r) x) by (field; lra). apply Qle_shift_div_l; lra. }
  set (r' := solve_for_symbols r y x). set (s0 := with_rows (use (use s)) (drop_key y (s_rows s))). set (s2 := substitute s0 x r').
  set (s3 := if is_external x && negb (is_zero (r_const r')) then var_changed s2 (var_for s2 x) else s2).
  assert (F3 : frame s2 s3 /\ s_rows s3 = s_rows s2 /\ s_objective s3 = s_objective s2 /\ s_artificial s3 = s_artificial s2 /\ s_exact s3 = s_exact s2) by (unfold s3; destruct (is_external x && _); repeat split).
  destruct F3 as (F3 & F4 & F5 & F6 & F7). clearbody s3.
  destruct (pivot_step s y r x s0 Hi L1 L2 Tx Or Pr) with (s2 := with_rows s3 (put_at x r' (s_rows s3))) as (S1 & S2 & S3 & S4).
  - intros [p q] I NE Tp. cbn [fst snd] in *. pose proof (tb_pos _ (proj1 Hi) _ I Tp) as Z. cbn [snd] in Z. destruct (Qlt_le_dec (cf (r_cells q) x) 0) as [C|C].
    + assert (K := L4 p q (in_look _ _ _ (tb_nodup _ (proj1 Hi)) I) Tp C). unfold ratio_of in K. set (k := - r_const r / cf (r_cells r) x) in *.
      assert (M : r_const q + cf (r_cells q) x * (- r_const q / cf (r_cells q) x) == 0) by (field; lra). set (m := - r_const q / cf (r_cells q) x) in *. nra.
    + nra.
  - repeat split.
  - reflexivity.
  - reflexivity.
  - reflexivity.
  - reflexivity.
  - fold r' s2. destruct F3 as (? & ? & ?). repeat split; assumption.
  - cbn [with_rows s_rows]. fold r' s2. now rewrite F4.
  - fold r' s2. exact F5.
  - fold r' s2. exact F6.
  - fold r' s2. exact F7.
  - set (s4 := with_rows s3 (put_at x r' (s_rows s3))) in *.
    assert (A4 : s_artificial s4 = None <-> s_artificial s = None).
    { change (s_artificial s4) with (s_artificial s3). rewrite F6. unfold s2. destruct (substitute_fields s0 x r') as (_ & _ & _ & Z & _). rewrite Z. change (s_artificial s0) with (s_artificial s). destruct (s_artificial s); cbn; split; congruence. }
    assert (Ha4 : art = true -> s_artificial s4 <> None) by (intros Z1 Z2; apply A4 in Z2; now apply (Ha Z1)).
    specialize (IH s4 S1 Ha4). destruct (optimize order fuel art s4) as [s'|e s'|]; [| |exact Logic.I].
    + destruct IH as (I1 & I2 & I3 & I4 & I5 & I6). split; [exact I1|]. split; [exact (frame_trans _ _ _ S2 I2)|]. split; [congruence|]. split; [rewrite I4; exact A4|]. split; [|exact I6].
      intros E. destruct (I5 E) as [E2 Sm]. destruct (S4 E2) as [E3 Sm2]. split; [exact E3|exact (same_trans _ _ _ Sm2 Sm)].
    + destruct IH as (I2 & I3 & I5). split; [exact (frame_trans _ _ _ S2 I2)|]. split; [congruence|]. intros E. destruct (I5 E) as [E2 Sm]. destruct (S4 E2) as [E3 Sm2]. split; [exact E3|].
      intros B. apply Sm. intros v H Pv. apply Sm2 in H. rewrite (goal_same art s s4 v Sm2 H). now apply B.
Qed.
End Order.
End Tolerance.
