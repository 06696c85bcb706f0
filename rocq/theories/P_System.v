(** The tableau of a solver and the constraints that were added to it. *)
From Verif Require Import Base M_Solver S_Solver P_Row P_Tableau P_Simplex P_Add P_Art P_Create.
From Coq Require Import ZArith NArith QArith Qround Qabs Qminmax List Bool Lia Lqa Setoid Morphisms Permutation.
Import ListNotations.
Open Scope Q_scope.
Section Tolerance.
Context {tolr : tolerance}.

(** The constraints with their marks. *)
Definition ledger := list (constr * marks).
Definition sys (s : solver) (L : ledger) (v : symbol -> Q) : Prop := forall c mk, In (c, mk) L -> balance s c mk v == 0.
Definition total (L : ledger) (v : symbol -> Q) : Q := fold_right (fun p acc => c_strength (fst p) * errors (snd p) v + acc) 0 L.
Definition mark_syms (L : ledger) : list symbol := flat_map (fun p => dom (snd p)) L.
Record good (s : solver) (L : ledger) : Prop := Good {
  g_inv : inv s;
  g_art : s_artificial s = None;
  g_syms : syms (below s) s;
  g_vars : vinv s;
  g_ok : forall c mk, In (c, mk) L -> mark_ok c mk;
  g_nodup : NoDup (mark_syms L);
  g_below : forall x, In x (mark_syms L) -> below s x;
  g_sem : exact s = true -> (forall c mk, In (c, mk) L -> known s (e_terms (c_expr c))) /\ (forall v, hold (s_rows s) v <-> sys s L v) /\ (forall v, hold (s_rows s) v -> ev (s_objective s) v == total L v)
}.
Lemma good_new : good new_solver [].
Proof.
  constructor; try (intros; contradiction); try reflexivity.
  - split; [|split; [|discriminate]]; constructor; cbn; try constructor; try (intros; contradiction); constructor.
  - split; [|split]; cbn; intros; try contradiction. discriminate.
  - constructor; cbn; try constructor; intros; contradiction.
  - constructor.
  - intros _. split; [intros; contradiction|]. split; [|reflexivity]. intros v. split; [intros _ c mk []|intros _ p []].
Qed.

(** ** Values for the marks from values of the variables *)
Definition upd (v : symbol -> Q) (a : symbol) (q : Q) (x : symbol) : Q := if sym_eqb x a then q else v x.
Lemma upd_same v a q : upd v a q a = q. Proof. unfold upd. now rewrite sym_eqb_refl. Qed.
Lemma upd_other v a q x : x <> a -> upd v a q x = v x. Proof. intros H. unfold upd. apply sym_eqb_no in H. now rewrite H. Qed.
Lemma nodup_app {A} (a b : list A) : NoDup (a ++ b) <-> NoDup a /\ NoDup b /\ (forall x, In x a -> ~ In x b).
Proof.
  induction a as [|h a IH]; cbn.
  - split; [intros N; repeat split; [constructor|exact N|intros x []]|tauto].
  - split.
    + intros N. inversion N; subst. apply IH in H2. destruct H2 as (X & Y & Z). rewrite in_app_iff in H1. repeat split; [constructor; tauto|exact Y|]. intros x [<-|I]; [tauto|now apply Z].
    + intros (X & Y & Z). inversion X; subst. constructor.
      * rewrite in_app_iff. intros [J|J]; [contradiction|]. apply (Z h); auto.
      * apply IH. repeat split; auto.
Qed.
Lemma mark_types c mk x : mark_ok c mk -> In x (dom mk) -> sy_type x <> TExternal.
Proof.
  unfold mark_ok. destruct (c_op c), (qltb (c_strength c) required).
  all: first [intros (a & b & -> & A & B); cbn; intros [<-|[<-|[]]]; congruence | intros (a & -> & A); cbn; intros [<-|[]]; congruence].
Qed.
Lemma vals_upd s v a q x : vinv s -> sy_type a <> TExternal -> vals s (upd v a q) x = vals s v x.
Proof. intros V T. unfold vals. destruct (find_var x (s_vars s)) as [y|] eqn:E; [|reflexivity]. apply find_var_in in E. apply (vi_types _ V) in E. apply upd_other. destruct E. congruence. Qed.
Lemma term_sum_cong ts x y : (forall t, In t ts -> snd t * x (fst t) == snd t * y (fst t)) -> term_sum ts x == term_sum ts y.
Proof. induction ts as [|t ts IH]; intros H; [reflexivity|]. cbn. rewrite (H t) by now left. rewrite IH by (intros u I; apply H; now right). reflexivity. Qed.
Lemma eval_cong e x y : (forall t, In t (e_terms e) -> snd t * x (fst t) == snd t * y (fst t)) -> eval e x == eval e y.
Proof. intros H. rewrite !eval_sum. now rewrite (term_sum_cong _ _ _ H). Qed.
Lemma errors_cong mk v w : (forall x, In x (dom mk) -> v x == w x) -> errors mk v == errors mk w.
Proof. induction mk as [|p mk IH]; intros H; [reflexivity|]. cbn. rewrite IH by (intros x I; apply H; now right). destruct (stype_eqb (sy_type (fst p)) TError); [|reflexivity]. rewrite (H (fst p)) by (now left). reflexivity. Qed.
Definition due (x : variable -> Q) (c : constr) : Q := if Qle_bool required (c_strength c) then 0 else violation x c.
Lemma Qmax0 e : (0 <= e /\ Qmax 0 e == e /\ Qmax 0 (- e) == 0 /\ Qabs e == e) \/ (e <= 0 /\ Qmax 0 e == 0 /\ Qmax 0 (- e) == - e /\ Qabs e == - e).
Proof.
  destruct (Qlt_le_dec e 0) as [H|H]; [right|left].
  - split; [lra|]. split; [apply Q.max_l; lra|]. split; [apply Q.max_r; lra|]. apply Qabs_neg. lra.
  - split; [exact H|]. split; [apply Q.max_r; exact H|]. split; [apply Q.max_l; lra|]. now apply Qabs_pos.
Qed.
(** Values for the marks of one constraint. *)
Lemma mark_values c mk e (v : symbol -> Q) : mark_ok c mk -> NoDup (dom mk) -> proper v -> 
  (required <= c_strength c -> match c_op c with RLe => e <= 0 | REq => e == 0 | RGe => 0 <= e end) ->
  exists w, (forall x, ~ In x (dom mk) -> w x = v x) /\ proper w /\ e + ev_cells mk w == 0 /\
    errors mk w == (if Qle_bool required (c_strength c) then 0 else match c_op c with RLe => Qmax 0 e | REq => Qabs e | RGe => Qmax 0 (- e) end).
Proof.
  intros M N [P1 P2] S.
  assert (Two : forall a b qa qb, mk = [a; b] -> 0 <= qa -> 0 <= qb -> sy_type (fst a) <> TDummy -> sy_type (fst b) <> TDummy -> exists w, (forall x, ~ In x (dom mk) -> w x = v x) /\ proper w /\ w (fst a) = qa /\ w (fst b) = qb).
  { intros a b qa qb E Ha Hb Ta Tb. exists (upd (upd v (fst a) qa) (fst b) qb). rewrite E in N. inversion N as [|? ? N1 N2]; subst. assert (NE : fst a <> fst b) by (intros Z; apply N1; now left). split; [|split; [split|split]].
    - intros x H. cbn in H. rewrite !upd_other by (intros ->; tauto). reflexivity.
    - intros x H. unfold upd. destruct (sym_eqb x (fst b)); [exact Hb|]. destruct (sym_eqb x (fst a)); [exact Ha|]. now apply P1.
    - intros x H. rewrite !upd_other by (intros ->; contradiction). now apply P2.
    - rewrite upd_other by exact NE. apply upd_same.
    - apply upd_same. }
  assert (One : forall a qa, mk = [a] -> 0 <= qa -> sy_type (fst a) = TSlack -> exists w, (forall x, ~ In x (dom mk) -> w x = v x) /\ proper w /\ w (fst a) = qa).
  { intros a qa E Ha Ta. exists (upd v (fst a) qa). rewrite E. split; [|split; [split|]].
    - intros x H. cbn in H. rewrite !upd_other by (intros ->; tauto). reflexivity.
    - intros x H. unfold upd. destruct (sym_eqb x (fst a)); [exact Ha|]. now apply P1.
    - intros x H. rewrite !upd_other by (intros ->; congruence). now apply P2.
    - apply upd_same. }
  assert (Rq : qltb (c_strength c) required = negb (Qle_bool required (c_strength c))) by reflexivity.
  unfold mark_ok in M. destruct (Qle_bool required (c_strength c)) eqn:St; cbn in Rq; rewrite Rq in M.
  - apply Qle_bool_iff in St. specialize (S St). destruct (c_op c).
    + destruct M as (a & -> & Ta). destruct (One (a, 1) (- e) eq_refl ltac:(lra) Ta) as (w & W1 & W2 & W3). exists w. split; [exact W1|]. split; [exact W2|]. cbn [fst] in W3. cbn. rewrite W3, Ta. cbn. split; lra.
    + destruct M as (a & -> & Ta). exists v. split; [reflexivity|]. split; [split; assumption|]. pose proof (P2 a Ta) as Z. unfold errors. cbn [ev_cells fold_right fst snd]. rewrite Ta. cbn [stype_eqb]. split; lra.
    + destruct M as (a & -> & Ta). destruct (One (a, -(1)) e eq_refl ltac:(lra) Ta) as (w & W1 & W2 & W3). exists w. split; [exact W1|]. split; [exact W2|]. cbn [fst] in W3. cbn. rewrite W3, Ta. cbn. split; lra.
  - clear S. assert (M0 : 0 <= Qmax 0 e) by apply Q.le_max_l. assert (M1 : 0 <= Qmax 0 (- e)) by apply Q.le_max_l. pose proof (Qmax0 e) as Me.
    destruct (c_op c).
    + destruct M as (a & b & -> & Ta & Tb). destruct (Two (a, 1) (b, -(1)) (Qmax 0 (- e)) (Qmax 0 e) eq_refl M1 M0) as (w & W1 & W2 & W3 & W4); [cbn; congruence|cbn; congruence|].
      exists w. split; [exact W1|]. split; [exact W2|]. cbn [fst] in W3, W4. cbn. rewrite W3, W4, Ta, Tb. cbn. split; [|lra]. destruct Me as [(_ & E1 & E2 & _)|(_ & E1 & E2 & _)]; rewrite E1, E2; lra.
    + destruct M as (a & b & -> & Ta & Tb). destruct (Two (a, -(1)) (b, 1) (Qmax 0 e) (Qmax 0 (- e)) eq_refl M0 M1) as (w & W1 & W2 & W3 & W4); [cbn; congruence|cbn; congruence|].
      exists w. split; [exact W1|]. split; [exact W2|]. cbn [fst] in W3, W4. cbn. rewrite W3, W4, Ta, Tb. cbn. destruct Me as [(_ & E1 & E2 & E3)|(_ & E1 & E2 & E3)]; rewrite E1, E2, E3; split; lra.
    + destruct M as (a & b & -> & Ta & Tb). destruct (Two (a, -(1)) (b, 1) (Qmax 0 e) (Qmax 0 (- e)) eq_refl M0 M1) as (w & W1 & W2 & W3 & W4); [cbn; congruence|cbn; congruence|].
      exists w. split; [exact W1|]. split; [exact W2|]. cbn [fst] in W3, W4. cbn. rewrite W3, W4, Ta, Tb. cbn. split; [|lra]. destruct Me as [(_ & E1 & E2 & _)|(_ & E1 & E2 & _)]; rewrite E1, E2; lra.
Qed.
Lemma extension s L x : vinv s -> (forall c mk, In (c, mk) L -> mark_ok c mk) -> NoDup (mark_syms L) -> (forall c mk, In (c, mk) L -> known s (e_terms (c_expr c))) ->
  feasible (map fst L) x -> exists v, proper v /\ (forall y k, In (y, k) (s_vars s) -> v k == x y) /\ sys s L v /\ total L v == penalty (map fst L) x.
Proof.
  intros V. induction L as [|[c mk] L IH]; intros Mo Nd Kn Fe.
  - exists (fun k => if is_external k then match look k (s_var_for s) with Some y => x y | None => 0 end else 0). split; [split|split; [|split]].
    + intros k T. apply is_external_no in T. rewrite T. lra.
    + intros k T. unfold is_external. rewrite T. reflexivity.
    + intros y k I. rewrite (vi_back _ V y k I). apply (vi_types _ V) in I. destruct I as [I _]. unfold is_external. rewrite I. reflexivity.
    + intros c mk [].
    + reflexivity.
  - destruct IH as (v & P & A & Sy & To).
    + intros c' mk' I. apply Mo. now right.
    + cbn in Nd. apply nodup_app in Nd; tauto.
    + intros c' mk' I. apply (Kn c' mk'). now right.
    + intros c' I. apply Fe. now right.
    + pose proof (Mo c mk (or_introl eq_refl)) as Mc. assert (Nm : NoDup (dom mk)) by (cbn in Nd; apply nodup_app in Nd; tauto).
      destruct (mark_values c mk (eval (c_expr c) x) v Mc Nm P) as (w & W1 & W2 & W3 & W4).
      { intros R. specialize (Fe c (or_introl eq_refl) R). exact Fe. }
      assert (Ex : forall y k, In (y, k) (s_vars s) -> w k == x y).
      { intros y k I. rewrite W1; [now apply A|]. intros J. apply (mark_types c mk k Mc) in J. apply (vi_types _ V) in I. tauto. }
      assert (Ev : forall c' mk', In (c', mk') ((c, mk) :: L) -> eval (c_expr c') (vals s w) == eval (c_expr c') x).
      { intros c' mk' I. apply eval_cong. intros t J. destruct (Qeq_dec (snd t) 0) as [Z|Z]; [rewrite Z; ring|]. pose proof (Kn c' mk' I t J Z) as K. unfold vals. destruct (find_var (fst t) (s_vars s)) as [k|] eqn:E; [|congruence]. apply find_var_in in E. rewrite (Ex _ _ E). reflexivity. }
      assert (Oth : forall c' mk', In (c', mk') L -> forall k, In k (dom mk') -> w k = v k).
      { intros c' mk' I k J. apply W1. intros Z. cbn in Nd. assert (J' : In k (mark_syms L)) by (apply in_flat_map; exists (c', mk'); auto). apply nodup_app in Nd. destruct Nd as (_ & _ & Nd). exact (Nd k Z J'). }
      exists w. split; [exact W2|]. split; [exact Ex|]. split.
      * intros c' mk' [I|I].
        -- injection I as <- <-. unfold balance. rewrite (Ev c mk (or_introl eq_refl)). exact W3.
        -- unfold balance. rewrite (Ev c' mk' (or_intror I)). pose proof (Sy c' mk' I) as B. unfold balance in B.
           assert (E2 : eval (c_expr c') (vals s v) == eval (c_expr c') x).
           { apply eval_cong. intros t J. destruct (Qeq_dec (snd t) 0) as [Z|Z]; [rewrite Z; ring|]. pose proof (Kn c' mk' (or_intror I) t J Z) as K. unfold vals. destruct (find_var (fst t) (s_vars s)) as [k|] eqn:E; [|congruence]. apply find_var_in in E. rewrite (A _ _ E). reflexivity. }
           rewrite E2 in B. rewrite (ev_cells_ext mk' w v); [exact B|]. intros k J. rewrite (Oth c' mk' I k J). reflexivity.
      * cbn [map fst total fold_right penalty snd]. fold (total L w). fold (penalty (map fst L) x).
        assert (TL : total L w == total L v).
        { clear - Oth. induction L as [|[c' mk'] L IHL]; [reflexivity|]. cbn. rewrite IHL by (intros c2 mk2 I; apply (Oth c2 mk2); now right). rewrite (errors_cong mk' w v); [reflexivity|]. intros k J. rewrite (Oth c' mk' (or_introl eq_refl) k J). reflexivity. }
        rewrite TL, To, W4. unfold violation. destruct (Qle_bool required (c_strength c)); ring.
Qed.

(** From values of the symbols back to the constraints. *)
Lemma errors_pos mk v : proper v -> 0 <= errors mk v.
Proof.
  intros [P _]. induction mk as [|p mk IH]; cbn [errors fold_right]; [lra|]. fold (errors mk v). destruct (stype_eqb (sy_type (fst p)) TError) eqn:E; [|lra]. apply stype_eqb_ok in E. assert (0 <= v (fst p)) by (apply P; congruence). lra.
Qed.
Lemma total_pos L v : proper v -> (forall c, In c (map fst L) -> 0 <= c_strength c) -> 0 <= total L v.
Proof.
  intros P. induction L as [|p L IH]; intros H; cbn [total fold_right]; [lra|]. fold (total L v). assert (0 <= total L v) by (apply IH; intros c I; apply H; now right). assert (0 <= c_strength (fst p)) by (apply H; now left).
  pose proof (errors_pos (snd p) v P). assert (0 <= c_strength (fst p) * errors (snd p) v) by (apply Qmult_le_0_compat; assumption). lra.
Qed.
Lemma balance_satisfies s c mk v : mark_ok c mk -> proper v -> balance s c mk v == 0 ->
  (required <= c_strength c -> satisfies (vals s v) c) /\ (~ required <= c_strength c -> violation (vals s v) c <= errors mk v).
Proof.
  intros M [P1 P2] B. unfold balance in B. unfold satisfies, violation. set (e := eval (c_expr c) (vals s v)) in *. clearbody e.
  assert (Rq : qltb (c_strength c) required = negb (Qle_bool required (c_strength c))) by reflexivity.
  unfold mark_ok in M. destruct (Qle_bool required (c_strength c)) eqn:St; cbn in Rq; rewrite Rq in M.
  - apply Qle_bool_iff in St. split; [intros _|tauto]. destruct (c_op c); destruct M as (a & -> & Ta); cbn in B.
    + assert (0 <= v a) by (apply P1; congruence). lra.
    + rewrite (P2 a Ta) in B. lra.
    + assert (0 <= v a) by (apply P1; congruence). lra.
  - assert (N : ~ required <= c_strength c) by (intros Z; apply Qle_bool_iff in Z; congruence). split; [tauto|intros _].
    destruct (c_op c); destruct M as (a & b & -> & Ta & Tb); cbn in B |- *; rewrite Ta, Tb; cbn; assert (0 <= v a) by (apply P1; congruence); assert (0 <= v b) by (apply P1; congruence);
      destruct (Qmax0 e) as [(? & E1 & E2 & E3)|(? & E1 & E2 & E3)]; rewrite ?E1, ?E2, ?E3; lra.
Qed.
Lemma sys_penalty s L v : (forall c mk, In (c, mk) L -> mark_ok c mk) -> (forall c, In c (map fst L) -> 0 <= c_strength c) -> proper v -> sys s L v ->
  feasible (map fst L) (vals s v) /\ penalty (map fst L) (vals s v) <= total L v.
Proof.
  intros Mo St P Sy. induction L as [|[c mk] L IH].
  - split; [intros c []|cbn; lra].
  - destruct IH as [I1 I2]; [intros c' mk' I; apply Mo; now right|intros c' I; apply St; now right|intros c' mk' I; apply Sy; now right|].
    destruct (balance_satisfies s c mk v (Mo c mk (or_introl eq_refl)) P (Sy c mk (or_introl eq_refl))) as [B1 B2]. split.
    + intros c' [<-|I] R; [now apply B1|now apply I1].
    + cbn [map fst total fold_right penalty snd]. fold (total L v). fold (penalty (map fst L) (vals s v)). pose proof (St c (or_introl eq_refl)) as Sc. destruct (Qle_bool required (c_strength c)) eqn:E.
      * pose proof (errors_pos mk v P). nra.
      * assert (N : ~ required <= c_strength c) by (intros Z; apply Qle_bool_iff in Z; congruence). specialize (B2 N). nra.
Qed.
End Tolerance.
