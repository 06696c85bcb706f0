(** Solvers whose tableau is that of a system of differences, or of a system in two variables: all numbers in it are small, and multiples of 1/2. *)
From Verif Require Import Base M_Solver P_Row P_Tableau P_Simplex P_System P_Network P_Alike.
From Coq Require Import ZArith NArith QArith Qabs List Bool Lia Lqa Setoid Morphisms.
Import ListNotations.
Open Scope Q_scope.
#[local] Existing Instance no_tolerance.

Lemma sum_eqs_bound f b es : (forall e, In e es -> f e <= b) -> sum_eqs f es <= inject_Z (Z.of_nat (length es)) * b.
Proof.
  induction es as [|e es IH]; intros H; [change (0 <= 0 * b); rewrite Qmult_0_l; apply Qle_refl|]. change (sum_eqs f (e :: es)) with (f e + sum_eqs f es). assert (A := H e (or_introl eq_refl)). assert (B := IH (fun e' J => H e' (or_intror J))).
  cbn [length]. rewrite Nat2Z.inj_succ. unfold Z.succ. rewrite inject_Z_plus. change (inject_Z 1) with 1. lra.
Qed.
Lemma sum_eqs_most f b es n : (forall e, In e es -> f e <= b) -> 0 <= b -> (length es <= n)%nat -> sum_eqs f es <= inject_Z (Z.of_nat n) * b.
Proof. intros H B L. eapply Qle_trans; [exact (sum_eqs_bound f b es H)|]. apply Qmult_le_compat_r; [|exact B]. rewrite <- Zle_Qle. lia. Qed.

Definition sum_costs (l : list (symbol * Q)) : Q := fold_right (fun p acc => snd p + acc) 0 l.
Lemma cost_small l (v : symbol -> Q) b : (forall p, In p l -> intq (snd p) /\ 0 <= snd p /\ small b (v (fst p))) -> intq (2 * ev_cells l v) /\ Qabs (ev_cells l v) <= sum_costs l * inject_Z b.
Proof.
  intros H. split.
  { apply (int_eq (ev_cells l (fun x => 2 * v x))); [clear H; induction l as [|p l IH]; cbn [ev_cells]; [ring|rewrite IH; ring]|]. apply int_cells. intros p J. destruct (H p J) as (A & _ & B). split; [exact A|apply B]. }
  induction l as [|p l IH]; [cbn; rewrite Qmult_0_l; apply Qle_refl|]. cbn [ev_cells]. change (sum_costs (p :: l)) with (snd p + sum_costs l). eapply Qle_trans; [apply Qabs_triangle|].
  specialize (IH (fun q J => H q (or_intror J))). destruct (H p (or_introl eq_refl)) as (_ & P & _ & B). rewrite Qabs_Qmult, (Qabs_pos _ P).
  assert (snd p * Qabs (v (fst p)) <= snd p * inject_Z b) by (rewrite !(Qmult_comm (snd p)); apply Qmult_le_compat_r; assumption). lra.
Qed.

Section Tab.
Variables (rows : list (symbol * row)) (md : netmode) (gs : list symbol) (es : list eqn).
Hypothesis T : tab0 rows.
Hypothesis Nn : net md gs es.
Hypothesis Hh : forall v, hold rows v <-> eqs_hold es v.
Hypothesis Ht : forall e t, In e es -> In t (q_terms e) -> unit_q (snd t).
Hypothesis H4 : forall e, In e es -> (length (q_terms e) <= 4)%nat.
Hypothesis Hl : (length es <= 127)%nat.
Hypothesis Hc : forall e, In e es -> whole K38 (q_const e).

Lemma ground_value w k A : In A gs -> (forall e, In e es -> lin e w + k e == 0) -> exists e d, In e es /\ sy_type d = TDummy /\ w A == - k e - w d.
Proof.
  intros J H. destruct (n_ground _ _ _ Nn A J) as (e & d & Je & Te & Me & _ & Td). exists e, d. split; [exact Je|]. split; [exact Td|]. specialize (H e Je). unfold lin in H. rewrite Te, Me in H. cbn in H. lra.
Qed.
Lemma dummy_column y A : In A gs -> sgn_q (col rows y A).
Proof.
  intros J. destruct (ground_value (col rows y) (fun _ => 0) A J) as (e & d & Je & Td & E). { intros e Je. pose proof (hom_col rows es T Hh y e Je). lra. }
  rewrite (col_nonbasic rows y d (dummy_nonbasic rows md gs es T Nn Hh d Td)) in E. unfold sgn_q. destruct (sym_eqb d y); lra.
Qed.
Lemma dummy_col y x : sy_type y = TDummy -> sy_type x <> TDummy -> small 1524 (col rows y x).
Proof.
  intros Ty Tx. destruct (in_dec sym_dec x gs) as [J|J]; [apply (small_le 1); [lia|]; apply small_sgn; now apply dummy_column|].
  destruct (values rows md gs es T Nn Hh (col rows y) (fun _ => 0) 1) with (x := x) as [V1 V2]; auto.
  - intros e Je _. pose proof (hom_col rows es T Hh y e Je). lra.
  - intros e Je. exists 0%Z. reflexivity.
  - intros A JA. pose proof (dummy_column y A JA) as Sg. split; [now apply int_sgn|now apply abs_sgn].
  - lra.
  - intros z Nz Tz. rewrite (col_other rows y z Nz); [reflexivity|congruence].
  - split; [exact V1|]. eapply Qle_trans; [exact V2|]. unfold bound. pose proof (sum_eqs_most (fun _ => Qabs 0 + 4 * 1) 4 es 127 ltac:(intros; cbn; lra) ltac:(lra) Hl) as B. change (inject_Z (Z.of_nat 127)) with 127 in B. change (inject_Z 1524) with 1524. lra.
Qed.
Lemma sol_nonbasic x : ~ In x (dom rows) -> sol rows x = 0.
Proof. intros H. unfold sol. apply look_none in H. now rewrite H. Qed.
Lemma sol_ground A : In A gs -> whole K38 (sol rows A).
Proof.
  intros J. destruct (ground_value (sol rows) q_const A J) as (e & d & Je & Td & E). { intros e Je. exact (proj1 (Hh _) (hold_sol0 rows T) e Je). }
  rewrite (sol_nonbasic d (dummy_nonbasic rows md gs es T Nn Hh d Td)) in E. apply (whole_eq _ (- q_const e)); [lra|]. apply whole_opp. now apply Hc.
Qed.
Lemma sol_small x : small (1905 * K38) (sol rows x).
Proof.
  destruct (in_dec sym_dec x gs) as [J|J]; [apply (small_le K38); [unfold K38; lia|]; apply whole_small; now apply sol_ground|].
  assert (Tx : sy_type x = TDummy \/ sy_type x <> TDummy) by (destruct (sy_type x); (left; reflexivity) || (right; discriminate)). destruct Tx as [Tx|Tx].
  { rewrite (sol_nonbasic x (dummy_nonbasic rows md gs es T Nn Hh x Tx)). apply (small_z _ 0). unfold K38. lia. }
  destruct (values rows md gs es T Nn Hh (sol rows) q_const (inject_Z K38)) with (x := x) as [V1 V2]; auto.
  - intros e Je _. exact (proj1 (Hh _) (hold_sol0 rows T) e Je).
  - intros e Je. apply (Hc e Je).
  - intros A JA. exact (sol_ground A JA).
  - exact K38_pos.
  - intros z Nz _. now rewrite (sol_nonbasic z Nz).
  - split; [exact V1|]. eapply Qle_trans; [exact V2|]. unfold bound.
    pose proof (sum_eqs_most (fun e => Qabs (q_const e) + 4 * inject_Z K38) (5 * inject_Z K38) es 127 ltac:(intros e Je; cbv beta; pose proof (proj2 (Hc e Je)); lra) ltac:(pose proof K38_pos; lra) Hl) as B.
    change (inject_Z (Z.of_nat 127)) with 127 in B. rewrite inject_Z_mult. change (inject_Z 1905) with 1905. lra.
Qed.
(** The coefficients of a row from the values that it gives. *)
Lemma row_cf o l c0 y : wf o -> (forall x, occurs x o -> ~ In x (dom rows)) -> (forall v, hold rows v -> ev o v == c0 + ev_cells l v) -> cf (r_cells o) y == if in_dec sym_dec y (dom rows) then 0 else ev_cells l (col rows y).
Proof.
  intros W Nb E. destruct (in_dec sym_dec y (dom rows)) as [J|J]; [rewrite cf_none; [reflexivity|intros O; now apply (Nb y O)]|].
  rewrite (cf_delta o y W). set (dl := fun z => if sym_eqb z y then 1 else 0).
  assert (E1 : ev o dl == c0 + ev_cells l (full rows dl)) by (rewrite <- (full_ev rows dl o Nb); apply E; now apply hold_full0).
  assert (E0 : r_const o == c0 + ev_cells l (sol rows)). { rewrite <- E by (now apply hold_sol0). symmetry. rewrite ev_zero; [reflexivity|]. intros x O. now rewrite (sol_nonbasic x (Nb x O)). }
  assert (E2 : ev_cells l (full rows dl) == ev_cells l (fun x => sol rows x + col rows y x)) by (apply ev_cells_ext; intros x _; apply (col_full rows T)). rewrite ev_plus in E2. rewrite E1, E0, E2. lra.
Qed.
Lemma row_const o l c0 : (forall x, occurs x o -> ~ In x (dom rows)) -> (forall v, hold rows v -> ev o v == c0 + ev_cells l v) -> r_const o == c0 + ev_cells l (sol rows).
Proof. intros Nb E. rewrite <- E by (now apply hold_sol0). symmetry. rewrite ev_zero; [reflexivity|]. intros x O. now rewrite (sol_nonbasic x (Nb x O)). Qed.
Lemma col_any y x : ~ In y (dom rows) -> sy_type x <> TDummy -> small 1524 (col rows y x).
Proof.
  intros Ny Tx. assert (Ty : sy_type y = TDummy \/ sy_type y <> TDummy) by (destruct (sy_type y); (left; reflexivity) || (right; discriminate)). destruct Ty as [Ty|Ty]; [now apply dummy_col|].
  apply (small_le 2); [lia|]. apply small_simple. now apply (column_simple rows md gs es T Nn Hh).
Qed.
Lemma one_tight o z : wf o -> (forall x, occurs x o -> ~ In x (dom rows)) -> sy_type z <> TDummy -> (forall v, hold rows v -> ev o v == v z) -> tight o.
Proof.
  intros W Nb Tz E. assert (E' : forall v, hold rows v -> ev o v == 0 + ev_cells [(z, 1)] v) by (intros v H; rewrite (E v H); cbn; lra).
  assert (Cf : forall y, cf (r_cells o) y == if in_dec sym_dec y (dom rows) then 0 else col rows y z). { intros y. rewrite (row_cf o _ _ y W Nb E'). destruct (in_dec sym_dec y (dom rows)); cbn; lra. }
  split; [exact W| | |].
  - intros y Ty. specialize (Cf y). destruct (in_dec sym_dec y (dom rows)) as [J|J]; [left; left; exact Cf|]. apply (simple_eq (col rows y z)); [now rewrite Cf|]. now apply (column_simple rows md gs es T Nn Hh).
  - intros y. apply (small_eq _ _ _ (Qeq_sym _ _ (Cf y))). destruct (in_dec sym_dec y (dom rows)) as [J|J]; [apply small_zero; lia|now apply col_any].
  - assert (E0 : r_const o == sol rows z) by (rewrite (row_const o _ _ Nb E'); cbn; lra). apply (small_eq _ _ _ (Qeq_sym _ _ E0)). apply sol_small.
Qed.
Lemma rows_tight p : In p rows -> tight (snd p).
Proof.
  intros J. apply (one_tight (snd p) (fst p)).
  - exact (t0_wf _ T p J).
  - intros x O. exact (t0_basic _ T p x J O).
  - intros Td. apply (dummy_nonbasic rows md gs es T Nn Hh (fst p) Td). now apply in_dom.
  - intros v H. symmetry. now apply H.
Qed.
Lemma costs_mild o costs : wf o -> (forall x, occurs x o -> ~ In x (dom rows)) -> (forall p, In p costs -> intq (snd p) /\ 0 <= snd p /\ sy_type (fst p) <> TDummy) -> sum_costs costs <= inject_Z K38 -> (forall v, hold rows v -> ev o v == ev_cells costs v) ->
  (forall y, sy_type y <> TDummy -> small (2 * K38) (cf (r_cells o) y)) /\ (forall y, small (1524 * K38) (cf (r_cells o) y)).
Proof.
  intros W Nb Hp Hs E. assert (E' : forall v, hold rows v -> ev o v == 0 + ev_cells costs v) by (intros v H; rewrite (E v H); lra).
  assert (P0 : 0 <= sum_costs costs). { clear - Hp. induction costs as [|p l IH]; [cbn; lra|]. change (sum_costs (p :: l)) with (snd p + sum_costs l). specialize (IH (fun q J => Hp q (or_intror J))). destruct (Hp p (or_introl eq_refl)) as (_ & P & _). lra. }
  split.
  - intros y Ty. apply (small_eq _ _ _ (Qeq_sym _ _ (row_cf o _ _ y W Nb E'))). destruct (in_dec sym_dec y (dom rows)) as [J|J]; [apply small_zero; unfold K38; lia|].
    destruct (cost_small costs (col rows y) 2) as [V1 V2]. { intros p Jp. destruct (Hp p Jp) as (A & B & _). split; [exact A|]. split; [exact B|]. apply small_simple. now apply (column_simple rows md gs es T Nn Hh). }
    split; [exact V1|]. rewrite inject_Z_mult. change (inject_Z 2) with 2 in *. lra.
  - intros y. apply (small_eq _ _ _ (Qeq_sym _ _ (row_cf o _ _ y W Nb E'))). destruct (in_dec sym_dec y (dom rows)) as [J|J]; [apply small_zero; unfold K38; lia|].
    destruct (cost_small costs (col rows y) 1524) as [V1 V2]. { intros p Jp. destruct (Hp p Jp) as (A & B & C0). split; [exact A|]. split; [exact B|]. now apply col_any. }
    split; [exact V1|]. rewrite inject_Z_mult. change (inject_Z 1524) with 1524 in *. lra.
Qed.
End Tab.

Record netted (s : solver) (md : netmode) (gs : list symbol) (es : list eqn) (costs : list (symbol * Q)) : Prop := Netted {
  nt_net : net md gs es;
  nt_terms : forall e t, In e es -> In t (q_terms e) -> unit_q (snd t);
  nt_four : forall e, In e es -> (length (q_terms e) <= 4)%nat;
  nt_len : (length es <= 127)%nat;
  nt_const : forall e, In e es -> whole K38 (q_const e);
  nt_hold : forall v, hold (s_rows s) v <-> eqs_hold es v;
  nt_cost : forall p, In p costs -> intq (snd p) /\ 0 <= snd p /\ sy_type (fst p) <> TDummy;
  nt_sum : sum_costs costs <= inject_Z K38;
  nt_obj : forall v, hold (s_rows s) v -> ev (s_objective s) v == ev_cells costs v;
  nt_art : forall a, s_artificial s = Some a -> exists z, sy_type z <> TDummy /\ forall v, hold (s_rows s) v -> ev a v == v z
}.
Lemma netted_same s s' md gs es costs : netted s md gs es costs -> same s s' -> netted s' md gs es costs.
Proof.
  intros [N1 N2 N3 N4 N5 N6 N7 N8 N9 N10] (S1 & S2 & S3). split; try assumption.
  - intros v. now rewrite S1.
  - intros v H. apply S1 in H. now rewrite (S2 v H), (N9 v H).
  - intros a' E'. rewrite E' in S3. destruct (s_artificial s) as [a|] eqn:E; [|destruct S3]. destruct (N10 a eq_refl) as (z & Tz & Ez). exists z. split; [exact Tz|]. intros v H. apply S1 in H. now rewrite (S3 v H), (Ez v H).
Qed.
Section Netted.
Variables (s : solver) (md : netmode) (gs : list symbol) (es : list eqn) (costs : list (symbol * Q)).
Hypothesis Hi : inv s.
Hypothesis N : netted s md gs es costs.
Lemma netted_rows p : In p (s_rows s) -> tight (snd p).
Proof. intros J. apply (rows_tight (s_rows s) md gs es); try apply N; [apply tab_tab0, Hi|exact J]. Qed.
Lemma netted_art a : s_artificial s = Some a -> tight a.
Proof. intros E. destruct (nt_art _ _ _ _ _ N a E) as (z & Tz & Ez). destruct Hi as (T & _ & Oa). apply tab_tab0 in T. apply (one_tight (s_rows s) md gs es) with (z := z); try apply N; try assumption; apply (Oa a E). Qed.
Lemma netted_obj : (forall y, sy_type y <> TDummy -> small (2 * K38) (cf (r_cells (s_objective s)) y)) /\ (forall y, small (1524 * K38) (cf (r_cells (s_objective s)) y)).
Proof. destruct Hi as (T & O & _). apply tab_tab0 in T. apply (costs_mild (s_rows s) md gs es) with (costs := costs); try apply N; try assumption; apply O. Qed.
Lemma netted_calm : calm s.
Proof.
  split.
  - exact netted_rows.
  - destruct netted_obj as [A B]. split; [exact (ob_wf _ _ (proj1 (proj2 Hi)))|exact A|exact B].
  - exact netted_art.
Qed.
End Netted.
