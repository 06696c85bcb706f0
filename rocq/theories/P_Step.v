(** Adding constraints. *)
From Verif Require Import Base M_Solver S_Solver P_Row P_Tableau P_Simplex P_Add P_Art P_Create P_System.
From Coq Require Import ZArith NArith QArith Qround Qabs Qminmax List Bool Lia Lqa Setoid Morphisms Permutation.
Import ListNotations.
Open Scope Q_scope.
Section Tolerance.
Context {tolr : tolerance}.

Section Order.
Variable order : nat -> list symbol -> list symbol.
Hypothesis order_ok : forall n l, Permutation (order n l) l.

Lemma subject_cases s r t x s' : choose_subject order s r t = (Some x, s') -> s' = use s /\
  ((occurs x r /\ sy_type x = TExternal) \/ (occurs x r /\ (forall y, occurs y r -> sy_type y <> TExternal) /\ cf (r_cells r) x < 0 /\ (sy_type x = TSlack \/ sy_type x = TError) /\ (x = t_marker t \/ t_other t = Some x))).
Proof.
  unfold choose_subject. intros E. injection E as E <-. split; [reflexivity|].
  destruct (find is_external (keys order s (r_cells r))) as [y|] eqn:F.
  - injection E as ->. apply find_some in F. destruct F as [I T]. apply (keys_in order order_ok) in I. apply is_external_ok in T. left. split; [exact I|exact T].
  - right. assert (Ne : forall y, occurs y r -> sy_type y <> TExternal).
    { intros y O. apply is_external_no. apply (find_none _ _ F). apply (keys_in order order_ok). exact O. }
    assert (U : forall y, match sy_type y with TSlack | TError => qltb (coefficient_for r y) 0 | _ => false end = true -> occurs y r /\ cf (r_cells r) y < 0 /\ (sy_type y = TSlack \/ sy_type y = TError)).
    { intros y Z. assert (C : cf (r_cells r) y < 0) by (apply qltb_ok; rewrite <- cf_is; destruct (sy_type y); try discriminate; exact Z). split; [apply cf_occurs; lra|]. split; [exact C|]. destruct (sy_type y); try discriminate; auto. }
    destruct (match sy_type (t_marker t) with TSlack | TError => qltb (coefficient_for r (t_marker t)) 0 | _ => false end) eqn:Um.
    + injection E as <-. apply U in Um. tauto.
    + destruct (t_other t) as [o|] eqn:To; [|discriminate]. destruct (match sy_type o with TSlack | TError => qltb (coefficient_for r o) 0 | _ => false end) eqn:Uo; [|discriminate]. injection E as <-. apply U in Uo. tauto.
Qed.
Lemma subject_none s r t s' : choose_subject order s r t = (None, s') -> s' = use s /\ forall y, occurs y r -> sy_type y <> TExternal.
Proof.
  unfold choose_subject. intros E. injection E as E <-. split; [reflexivity|]. destruct (find is_external (keys order s (r_cells r))) as [y|] eqn:F; [discriminate|].
  intros y O. apply is_external_no. apply (find_none _ _ F). apply (keys_in order order_ok). exact O.
Qed.

(** What the steps leave alone or only increase, whatever the tableau is. *)
Definition later (s s' : solver) : Prop := (s_tick s <= s_tick s')%N /\ (s_exact s' = true -> s_exact s = true).
Lemma later_refl s : later s s. Proof. split; [lia|auto]. Qed.
Lemma later_trans a b c : later a b -> later b c -> later a c. Proof. intros [A1 A2] [B1 B2]. split; [lia|auto]. Qed.
Lemma add_later fuel s c s' : (add_constraint order fuel s c = Done s' \/ exists e, add_constraint order fuel s c = Fail e s') -> later s s'.
Proof.
  unfold add_constraint. pose proof (create_row_ok s c) as Cr. destruct (create_row s c) as [[r t] s1]. destruct Cr as [K _].
  assert (L1 : later s s1) by (destruct K as (_ & _ & K1 & _ & K2); split; [exact K2|congruence]). clear K.
  destruct (choose_subject order s1 r t) as [subj s2] eqn:Cs. assert (L2 : later s s2) by (unfold choose_subject in Cs; injection Cs as _ <-; exact L1). clear Cs L1 s1.
  set (ns := match subj with None => true | Some _ => false end).
  destruct (ns && all_dummies r && negb (near_zero (r_const r))).
  { intros [E|[e E]]; [discriminate|]. injection E as _ <-. apply (later_trans _ _ _ L2). split; [cbn; lia|]. cbn. intros Z. apply andb_prop in Z. tauto. }
  set (s3 := if ns && all_dummies r then _ else s2). assert (L3 : later s s3) by (unfold s3; destruct (ns && all_dummies r); [apply (later_trans _ _ _ L2); split; [cbn; lia|cbn; intros Z; apply andb_prop in Z; tauto]|exact L2]).
  clearbody s3. clear L2 s2. set (sub := if ns && all_dummies r then Some (t_marker t) else subj). clearbody sub. clear ns.
  assert (Op : forall q, later s q -> (optimize order fuel false q = Done s' \/ exists e, optimize order fuel false q = Fail e s') -> later s s').
  { intros q Lq E. apply (optimize_flags order order_ok) in E. destruct E as ((_ & _ & F3) & F4 & _). apply (later_trans _ _ _ Lq). split; [lia|congruence]. }
  destruct sub as [x|]; cbn [rbind].
  - apply Op. destruct (substitute_fields s3 x (solve_for_symbol r x)) as ((_ & _ & F3) & _ & _ & _ & _ & F5). apply (later_trans _ _ _ L3).
    destruct (is_external x && _); split; cbn; rewrite ?F3, ?F5; auto; lia.
  - destruct (add_with_artificial_variable order fuel s3 r) as [[b q]|e q|] eqn:Ea; cbn [rbind].
    + assert (La : later s q).
      { destruct (art_flags order order_ok (fun _ => True) fuel s3 r) with (s2 := q) as (_ & _ & F3 & F4 & _); auto; [repeat split|left; eauto|]. apply (later_trans _ _ _ L3). split; [lia|exact F4]. }
      cbn [fst snd]. destruct b; cbn [rbind]; [now apply Op|]. intros [E|[e E]]; [discriminate|]. injection E as _ <-. exact La.
    + intros [E|[e' E]]; [discriminate|]. injection E as _ <-. destruct (art_flags order order_ok (fun _ => True) fuel s3 r) with (s2 := q) as (_ & _ & F3 & F4 & _); auto; [repeat split|right; eauto|]. apply (later_trans _ _ _ L3). split; [lia|exact F4].
    + intros [E|[e' E]]; discriminate.
Qed.

Lemma all_dummies_ok r : all_dummies r = true <-> forall x, occurs x r -> sy_type x = TDummy.
Proof.
  unfold all_dummies. rewrite forallb_forall. split.
  - intros H x O. apply in_map_iff in O. destruct O as (p & <- & I). apply H in I. now apply stype_eqb_ok.
  - intros H p I. apply stype_eqb_ok. apply H. now apply in_dom.
Qed.
Lemma not_dummies r : all_dummies r = false -> exists z, occurs z r /\ sy_type z <> TDummy.
Proof.
  unfold all_dummies, occurs, dom. induction (r_cells r) as [|p l IH]; [discriminate|]. cbn. destruct (stype_eqb (sy_type (fst p)) TDummy) eqn:E; cbn.
  - intros H. destruct (IH H) as (z & I & T). exists z. auto.
  - intros _. exists (fst p). split; [auto|]. intros Z. rewrite Z in E. discriminate.
Qed.

Section Step.
Variables (s : solver) (L : ledger) (c : constr).
Hypothesis G : good s L.
(** After the row is in. *)
Record added (s2 : solver) (mk : marks) : Prop := Added {
  ad_inv : inv s2;
  ad_art : s_artificial s2 = None;
  ad_syms : syms (below s2) s2;
  ad_vars : vinv s2;
  ad_mark : mark_ok c mk /\ NoDup (dom mk) /\ forall x, In x (dom mk) -> (s_tick s <= sy_value x)%N /\ below s2 x;
  ad_ext : extends s s2;
  ad_tick : (s_tick s <= s_tick s2)%N;
  ad_sem : exact s2 = true -> exact s = true /\ known s2 (e_terms (c_expr c)) /\ (forall v, hold (s_rows s2) v <-> hold (s_rows s) v /\ balance s2 c mk v == 0) /\
     (forall v, hold (s_rows s2) v -> ev (s_objective s2) v == ev (s_objective s) v + c_strength c * errors mk v)
}.
Lemma mark_syms_app L1 L2 : mark_syms (L1 ++ L2) = mark_syms L1 ++ mark_syms L2. Proof. apply flat_map_app. Qed.
Lemma total_app L1 L2 v : total (L1 ++ L2) v == total L1 v + total L2 v.
Proof.
  unfold total. induction L1 as [|p l IH].
  - change (total L2 v == 0 + total L2 v). ring.
  - change (c_strength (fst p) * errors (snd p) v + total (l ++ L2) v == (c_strength (fst p) * errors (snd p) v + total l v) + total L2 v). unfold total. rewrite IH. ring.
Qed.
Lemma balance_ext s1 s2 c' mk v : extends s1 s2 -> known s1 (e_terms (c_expr c')) -> balance s2 c' mk v == balance s1 c' mk v.
Proof. intros X K. unfold balance. rewrite !eval_sum. rewrite (term_sum_ext s1 s2 _ v X K). reflexivity. Qed.
Lemma added_good s2 mk : added s2 mk -> good s2 (L ++ [(c, mk)]) /\ (exact s2 = true -> exact s = true).
Proof.
  intros A. destruct A as [A1 A2 A3 A4 (A5 & A6 & A7) A8 A9 A10]. split; [|intros E; now apply A10]. constructor; try assumption.
  - intros c' mk' I. apply in_app_iff in I. destruct I as [I|[I|[]]]; [now apply (g_ok _ _ G)|]. injection I as <- <-. exact A5.
  - rewrite mark_syms_app. apply nodup_app. split; [apply G|]. cbn. rewrite app_nil_r. split; [exact A6|]. intros x I J. apply (g_below _ _ G) in I. apply A7 in J. unfold below in *. lia.
  - rewrite mark_syms_app. intros x I. apply in_app_iff in I. cbn in I. rewrite app_nil_r in I. destruct I as [I|I]; [apply (g_below _ _ G) in I; unfold below in *; lia|now apply A7].
  - intros E. destruct (A10 E) as (E0 & K & H & O). destruct (g_sem _ _ G E0) as (G1 & G2 & G3). split; [|split].
    + intros c' mk' I. apply in_app_iff in I. destruct I as [I|[I|[]]]; [apply (known_ext s s2); [exact A8|now apply (G1 c' mk')]|]. injection I as <- <-. exact K.
    + intros v. rewrite H, G2. split.
      * intros [Sy B] c' mk' I. apply in_app_iff in I. destruct I as [I|[I|[]]]; [|injection I as <- <-; exact B]. rewrite (balance_ext s s2); [now apply Sy|exact A8|now apply (G1 c' mk')].
      * intros Sy. split.
        -- intros c' mk' I. rewrite <- (balance_ext s s2); [apply Sy; apply in_app_iff; now left|exact A8|now apply (G1 c' mk')].
        -- apply Sy. apply in_app_iff. right. now left.
    + intros v Hv. rewrite (O v Hv). apply H in Hv. rewrite (G3 v) by tauto. rewrite total_app. change (total [(c, mk)] v) with (c_strength c * errors mk v + 0). ring.
Qed.
(** The outcome of the addition up to the last optimisation. *)
Definition put_row (fuel : nat) : result solver :=
  let '(r, t, s) := create_row s c in
  let '(subject, s) := choose_subject order s r t in
  let no_subject := match subject with None => true | Some _ => false end in
  if no_subject && all_dummies r && negb (near_zero (r_const r)) then Fail EUnsatisfiable (with_exact s (r_exact r))
  else
    let s := if no_subject && all_dummies r then with_exact s (is_zero (r_const r)) else s in
    let subject := if no_subject && all_dummies r then Some (t_marker t) else subject in
    match subject with
       | None => rbind (add_with_artificial_variable order fuel s r) (fun p => if fst p then Done (snd p) else Fail EUnsatisfiable (snd p))
       | Some x =>
           let r := solve_for_symbol r x in
           let s := substitute s x r in
           let s := if is_external x && negb (is_zero (r_const r)) then var_changed s (var_for s x) else s in
           Done (with_rows s (put_at x r (s_rows s)))
       end.
Lemma add_put_row fuel : add_constraint order fuel s c = rbind (put_row fuel) (optimize order fuel false).
Proof.
  unfold add_constraint, put_row. destruct (create_row s c) as [[r t] s1]. destruct (choose_subject order s1 r t) as [subj s2].
  destruct (_ && _ && _); [reflexivity|]. destruct (_ && _); [reflexivity|]. destruct subj; [reflexivity|]. reflexivity.
Qed.
Lemma put_row_ok fuel : match put_row fuel with
  | Done s2 => (s_tick s2 <= 256)%N -> s_exact s2 = true -> exists mk, added s2 mk
  | Fail _ s2 => (s_tick s2 <= 256)%N -> exact s2 = true -> exact s = true /\ ~ exists x, feasible (map fst L ++ [c]) x
  | NoFuel => True
  end.
Proof.
  unfold put_row. pose proof (create_row_ok s c) as Cr. destruct (create_row s c) as [[r t] s1]. destruct Cr as [K Cr].
  assert (R1 : s_rows s1 = s_rows s) by apply K. assert (T1 : (s_tick s <= s_tick s1)%N) by apply K. assert (Ar1 : s_artificial s1 = None) by (rewrite <- (g_art _ _ G); apply K). assert (Xs : s_exact s1 = s_exact s) by apply K.
  assert (Cm : (s_tick s1 <= 256)%N -> exists mk, created s c r t s1 mk).
  { intros H. apply Cr; [exact H|exact (proj1 (g_inv _ _ G))|exact (proj1 (proj2 (g_inv _ _ G)))|exact (proj1 (g_syms _ _ G))|exact (proj1 (proj2 (g_syms _ _ G)))|apply G]. }
  clear Cr.
  (* facts about the state with the row made, for any mark list *)
  assert (Inv1 : forall mk, created s c r t s1 mk -> inv s1).
  { intros mk C. split; [rewrite R1; apply G|]. split; [rewrite R1; exact (cr_obj _ _ _ _ _ _ C)|]. rewrite Ar1. discriminate. }
  assert (Sy1 : forall mk, created s c r t s1 mk -> syms (below s1) s1).
  { intros mk C. split; [|split].
    - intros p I. rewrite R1 in I. destruct (proj1 (g_syms _ _ G) p I) as [B1 B2]. unfold below in *. split; [lia|]. intros x O. specialize (B2 x O). lia.
    - apply (cr_obj_below _ _ _ _ _ _ C). apply (g_syms _ _ G).
    - rewrite Ar1. discriminate. }
  assert (Fresh : forall mk x, created s c r t s1 mk -> In x (dom mk) -> ~ In x (dom (s_rows s1)) /\ (forall p, In p (s_rows s1) -> ~ occurs x (snd p))).
  { intros mk x C I. apply (cr_fresh _ _ _ _ _ _ C) in I. destruct I as [I _]. rewrite R1. split.
    - intros J. apply in_map_iff in J. destruct J as (p & <- & J). destruct (proj1 (g_syms _ _ G) p J) as [B _]. unfold below in B. lia.
    - intros p J O. destruct (proj1 (g_syms _ _ G) p J) as [_ B]. specialize (B x O). unfold below in B. lia. }
  (* from the row to the constraint *)
  assert (Bal : forall mk, created s c r t s1 mk -> exact s1 = true -> r_exact r = true -> exact s = true /\ known s1 (e_terms (c_expr c)) /\ (forall v, hold (s_rows s) v -> (ev r v == 0 <-> balance s1 c mk v == 0)) /\
      (forall v, ev (s_objective s1) v == ev (s_objective s) v + c_strength c * errors mk v)).
  { intros mk C E Er. apply exact_parts in E. destruct E as (E1 & E2 & E3 & _). destruct (cr_obj_exact _ _ _ _ _ _ C E3) as [O1 O2]. destruct (cr_exact _ _ _ _ _ _ C Er) as (Kn & k & Hk & Hv). split; [|split; [exact Kn|split; [|exact O2]]].
    - apply exact_parts. split; [congruence|]. split; [rewrite <- R1; exact E2|]. split; [exact O1|]. rewrite (g_art _ _ G). discriminate.
    - intros v H. rewrite (Hv v H). destruct Hk as [Hk|Hk]; rewrite Hk; split; intros Z; lra. }
  (* no values of the variables can do *)
  assert (Unsat : forall mk, created s c r t s1 mk -> exact s1 = true -> r_exact r = true -> ~ (exists v, hold (s_rows s) v /\ proper v /\ ev r v == 0) -> ~ exists x, feasible (map fst L ++ [c]) x).
  { intros mk C E Er N (x & Fx). destruct (Bal mk C E Er) as (E0 & Kn & Hb & _). destruct (g_sem _ _ G E0) as (G1 & G2 & _). pose proof (cr_ext _ _ _ _ _ _ C) as X.
    assert (Kn' : forall c' mk', In (c', mk') (L ++ [(c, mk)]) -> known s1 (e_terms (c_expr c'))).
    { intros c' mk' I. apply in_app_iff in I. destruct I as [I|[I|[]]]; [apply (known_ext s s1); [exact X|now apply (G1 c' mk')]|]. injection I as <- <-. exact Kn. }
    destruct (extension s1 (L ++ [(c, mk)]) x) as (v & P & _ & Sy & _).
    - apply C.
    - intros c' mk' I. apply in_app_iff in I. destruct I as [I|[I|[]]]; [now apply (g_ok _ _ G)|]. injection I as <- <-. apply C.
    - rewrite mark_syms_app. apply nodup_app. split; [apply G|]. cbn. rewrite app_nil_r. split; [apply C|]. intros y I J. apply (g_below _ _ G) in I. apply (cr_fresh _ _ _ _ _ _ C) in J. unfold below in *. lia.
    - exact Kn'.
    - rewrite map_app. exact Fx.
    - apply N. assert (Hs : hold (s_rows s) v).
      { apply G2. intros c' mk' I. rewrite <- (balance_ext s s1); [apply Sy; apply in_app_iff; now left|exact X|now apply (G1 c' mk')]. }
      exists v. split; [exact Hs|]. split; [exact P|]. apply (Hb v Hs). apply Sy. apply in_app_iff. right. now left. }
  destruct (choose_subject order s1 r t) as [subj s2] eqn:Cs.
  assert (Us : s2 = use s1) by (unfold choose_subject in Cs; injection Cs as _ <-; reflexivity).
  set (ns := match subj with None => true | Some _ => false end).
  (* a common end for the cases with a subject *)
  assert (Subject : forall s3 x, frame s1 s3 -> s_rows s3 = s_rows s1 -> s_objective s3 = s_objective s1 -> s_artificial s3 = s_artificial s1 -> (s_exact s3 = true -> s_exact s1 = true) ->
     occurs x r -> (s_exact s3 = true -> forall mk, created s c r t s1 mk ->
       (forall p, In p (s_rows s1) -> sy_type (fst p) <> TExternal -> ~ occurs x (snd p)) /\
       (sy_type x <> TExternal -> (forall y, occurs y r -> sy_type y <> TExternal) /\ 0 <= - r_const r / cf (r_cells r) x) /\
       (sy_type x = TDummy -> r_const r == 0 /\ forall y, occurs y r -> sy_type y = TDummy)) ->
     forall s4, s4 = (let r := solve_for_symbol r x in let s := substitute s3 x r in let s := if is_external x && negb (is_zero (r_const r)) then var_changed s (var_for s x) else s in with_rows s (put_at x r (s_rows s))) ->
     (s_tick s4 <= 256)%N -> s_exact s4 = true -> exists mk, added s4 mk).
  { intros s3 x Fr Q1 Q2 Q3 Q4 Ox Cond s4 E4 H4 X4. cbv zeta in E4. set (r' := solve_for_symbol r x) in *. set (q := substitute s3 x r') in *. set (q2 := if is_external x && negb (is_zero (r_const r')) then var_changed q (var_for q x) else q) in *.
    assert (F3 : frame q q2 /\ s_rows q2 = s_rows q /\ s_objective q2 = s_objective q /\ s_artificial q2 = s_artificial q /\ s_exact q2 = s_exact q) by (unfold q2; destruct (is_external x && _); repeat split).
    destruct F3 as (F3 & F4 & F5 & F6 & F7). clearbody q2.
    destruct (substitute_fields s3 x r') as ((U1 & U2 & U3) & U4 & U5 & U6 & _ & U7). fold q in U1, U2, U3, U4, U5, U6, U7.
    assert (Tk : s_tick s4 = s_tick s1) by (rewrite E4; cbn; destruct F3 as (_ & _ & F3), Fr as (_ & _ & Fr); congruence).
    assert (X3 : s_exact s3 = true) by (rewrite E4 in X4; cbn in X4; congruence).
    destruct (Cm ltac:(lia)) as (mk & C). destruct (Cond X3 mk C) as (C1 & C2 & C3).
    assert (I3 : inv s3) by (destruct (Inv1 mk C) as (I1 & I2 & _); split; [rewrite Q1; exact I1|]; split; [rewrite Q1, Q2; exact I2|]; rewrite Q3, Ar1; discriminate).
    destruct (cr_fits _ _ _ _ _ _ C) as [W Fi].
    destruct (subject_step s3 r x I3) with (s2 := s4) as (Ad & Fr4); try assumption.
    - rewrite Q3. exact Ar1.
    - apply C.
    - intros y O. rewrite Q1. now apply Fi.
    - rewrite Q1. exact C1.
    - fold r' q. rewrite E4. destruct F3 as (? & ? & ?). repeat split; assumption.
    - fold r' q. rewrite E4. cbn. now rewrite F4.
    - fold r' q. rewrite E4. exact F5.
    - fold r' q. rewrite E4. exact F6.
    - fold r' q. rewrite E4. exact F7.
    - exists mk. destruct Ad as (D1 & D2 & D3). assert (Vs : s_vars s4 = s_vars s1) by (destruct Fr4 as (Z & _ & _), Fr as (Z2 & _ & _); congruence).
      assert (Vf : s_var_for s4 = s_var_for s1) by (destruct Fr4 as (_ & Z & _), Fr as (_ & Z2 & _); congruence).
      constructor.
      + now apply D2.
      + exact D1.
      + assert (P4 : forall z, below s4 z <-> below s1 z) by (intros z; unfold below; rewrite Tk; tauto).
        assert (Sq : syms (below s4) q).
        { apply syms_substitute; [|intros y O; apply solve_occurs in O; apply P4; now apply Fi]. destruct (Sy1 mk C) as (B1 & B2 & B3). split; [|split].
          - intros p I. rewrite Q1 in I. destruct (B1 p I) as [Z1 Z2]. split; [now apply P4|]. intros y O. apply P4. now apply Z2.
          - intros y O. rewrite Q2 in O. apply P4. now apply B2.
          - rewrite Q3, Ar1. discriminate. }
        rewrite E4. split; [|split].
        * intros p I. cbn in I. rewrite F4 in I. apply put_in' in I. rewrite <- E4. destruct I as [->|I]; [|now apply Sq]. split; [apply P4; now apply Fi|]. intros y O. apply solve_occurs in O. apply P4. now apply Fi.
        * cbn. rewrite F5, <- E4. apply Sq.
        * cbn. rewrite F6, <- E4. apply Sq.
      + apply (vinv_kept s1); [exact Vs|exact Vf|lia|apply C].
      + split; [apply C|]. split; [apply C|]. intros y I. apply (cr_fresh _ _ _ _ _ _ C) in I. unfold below in *. rewrite Tk. exact I.
      + intros v y E. rewrite Vs. now apply (cr_ext _ _ _ _ _ _ C).
      + lia.
      + intros E. destruct (D3 E) as (E3 & Er & Hh & Ho). assert (Ex1 : exact s1 = true).
        { apply exact_parts in E3. destruct E3 as (Y1 & Y2 & Y3 & _). apply exact_parts. split; [now apply Q4|]. split; [rewrite <- Q1; exact Y2|]. split; [rewrite <- Q2; exact Y3|]. rewrite Ar1. discriminate. }
        destruct (Bal mk C Ex1 Er) as (B1 & B2 & B3 & B4). split; [exact B1|]. split; [intros u I N; rewrite Vs; now apply B2|].
        assert (Bq : forall v, balance s4 c mk v == balance s1 c mk v) by (intros v; unfold balance, vals; rewrite Vs; reflexivity). split.
        * intros v. rewrite Hh, Q1, R1, Bq. split; intros [Z1 Z2]; (split; [exact Z1|]); now apply (B3 v Z1).
        * intros v Hv. rewrite (Ho v Hv), Q2. apply B4. }
  destruct (ns && all_dummies r && negb (near_zero (r_const r))) eqn:Bad.
  { intros H E. apply andb_prop in Bad. destruct Bad as [Bad1 Nz]. apply andb_prop in Bad1. destruct Bad1 as [_ Ad]. apply negb_true_iff in Nz. apply near_zero_no in Nz. rewrite all_dummies_ok in Ad.
    assert (H1 : (s_tick s1 <= 256)%N) by (rewrite Us in H; exact H). destruct (Cm H1) as (mk & C).
    apply exact_parts in E. destruct E as (E1 & E2 & E3 & E4). cbn [with_exact s_exact] in E1. apply andb_prop in E1. destruct E1 as [E1 Er].
    assert (Ex1 : exact s1 = true) by (apply exact_parts; rewrite Us in *; repeat split; assumption).
    split; [now apply (Bal mk C Ex1 Er)|]. apply (Unsat mk C Ex1 Er). intros (v & Hv & [_ Pd] & Z). apply Nz. rewrite <- Z. symmetry. apply ev_zero. intros x O. apply Pd. now apply Ad. }
  destruct (ns && all_dummies r) eqn:Nd.
  { apply andb_prop in Nd. destruct Nd as [_ Ad]. rewrite all_dummies_ok in Ad. intros H X.
    set (s3 := with_exact s2 (is_zero (r_const r))) in *. refine (Subject s3 (t_marker t) _ _ _ _ _ _ _ _ eq_refl H X).
    - subst s2. repeat split.
    - now subst s2.
    - now subst s2.
    - now subst s2.
    - subst s2. cbn. intros Z. apply andb_prop in Z. tauto.
    - destruct (substitute_fields s3 (t_marker t) (solve_for_symbol r (t_marker t))) as ((_ & _ & U3) & _). assert (H1 : (s_tick s1 <= 256)%N).
      { revert H. cbv zeta. destruct (is_external (t_marker t) && _); cbn [with_rows var_changed s_tick]; rewrite U3; subst s2; exact (fun z => z). }
      destruct (Cm H1) as (mk & C). apply C.
    - intros X3 mk C. pose proof (proj2 (cr_marker _ _ _ _ _ _ C)) as Om. pose proof (Ad _ Om) as Tm. split; [|split].
      + intros p I _. now apply (Fresh mk (t_marker t) C (proj1 (cr_marker _ _ _ _ _ _ C))).
      + intros _. assert (c0 : r_const r == 0) by (apply is_zero_ok; cbn in X3; apply andb_prop in X3; tauto). split; [intros y O; rewrite (Ad y O); discriminate|]. rewrite c0. setoid_replace (- 0 / cf (r_cells r) (t_marker t)) with 0 by (unfold Qdiv; ring). lra.
      + intros _. split; [apply is_zero_ok; cbn in X3; apply andb_prop in X3; tauto|exact Ad]. }
  destruct subj as [x|].
  - intros H X. destruct (subject_cases _ _ _ _ _ Cs) as [_ Sc]. assert (Ox : occurs x r) by tauto. refine (Subject s2 x _ _ _ _ _ Ox _ _ eq_refl H X).
    + subst s2. repeat split.
    + now subst s2.
    + now subst s2.
    + now subst s2.
    + subst s2. auto.
    + intros _ mk C. destruct Sc as [[_ Tx]|(_ & Ne & Cx & Tx & Mx)].
      * split; [|split; [congruence|congruence]]. intros p I Tp O. rewrite R1 in I. apply (tb_ext _ (proj1 (g_inv _ _ G)) p x I Tp) in O. contradiction.
      * assert (Im : In x (dom mk)) by (destruct Mx as [->|Mx]; [apply C|now apply (cr_other _ _ _ _ _ _ C)]). split; [|split].
        -- intros p I _. now apply (Fresh mk x C Im).
        -- intros _. split; [exact Ne|]. pose proof (cr_pos _ _ _ _ _ _ C) as Pc. setoid_replace (- r_const r / cf (r_cells r) x) with (r_const r / - cf (r_cells r) x) by (field; lra). apply Qle_shift_div_l; lra.
        -- intros Z. destruct Tx; congruence.
  - destruct (subject_none _ _ _ _ Cs) as [_ Ne]. assert (Ad : all_dummies r = false) by (unfold ns in Nd; exact Nd). destruct (not_dummies r Ad) as (z & Oz & Tz).
    assert (Art : forall mk, created s c r t s1 mk -> (s_tick s1 + 1 <= 256)%N -> match add_with_artificial_variable order fuel s2 r with
       | Done (true, s4) => adds s2 r s4 /\ s_vars s4 = s_vars s2 /\ s_var_for s4 = s_var_for s2 /\ s_tick s4 = (s_tick s2 + 1)%N
       | Done (false, s4) => exact s4 = true -> exact s2 = true /\ r_exact r = true /\ ~ exists v, hold (s_rows s2) v /\ proper v /\ ev r v == 0
       | Fail _ s4 => exact s4 = false
       | NoFuel => True end).
    { intros mk C H. destruct (cr_fits _ _ _ _ _ _ C) as [W Fi]. destruct (Sy1 mk C) as (B1 & B2 & _). subst s2.
      assert (Va : sy_value (Sym (s_tick (use s1) mod 256) TSlack) = s_tick s1) by (cbn; apply N.mod_small; lia).
      apply (art_add order order_ok (use s1) r (Inv1 mk C) Ar1 W (cr_pos _ _ _ _ _ _ C)) with (z := z); try assumption.
      - intros y O. now apply Fi.
      - intros I. apply in_map_iff in I. destruct I as (p & E & I). apply B1 in I. destruct I as [I _]. rewrite E in I. unfold below in I. rewrite Va in I. lia.
      - intros p I O. apply B1 in I. destruct I as [_ I]. apply I in O. unfold below in O. rewrite Va in O. lia.
      - intros O. apply Fi in O. destruct O as [_ O]. unfold below in O. rewrite Va in O. lia.
      - intros O. apply B2 in O. unfold below in O. rewrite Va in O. lia. }
    assert (Fl : forall P s4, ((exists b, add_with_artificial_variable order fuel s2 r = Done (b, s4)) \/ (exists e, add_with_artificial_variable order fuel s2 r = Fail e s4)) -> syms P s2 -> (forall x, occurs x r -> P x) -> P (Sym (s_tick s2 mod 256) TSlack) -> s_tick s4 = (s_tick s2 + 1)%N /\ syms P s4).
    { intros P s4 E S1 S2 S3. destruct (art_flags order order_ok P fuel s2 r S1 S2 S3 s4 E) as (_ & _ & Z1 & _ & Z2). split; assumption. }
    assert (Tk2 : s_tick s2 = s_tick s1) by (now subst s2).
    destruct (add_with_artificial_variable order fuel s2 r) as [[[|] s4]|e s4|] eqn:Ea; cbn [rbind fst snd].
    + intros H X. assert (Tk : s_tick s4 = (s_tick s1 + 1)%N).
      { rewrite <- Tk2. apply (Fl (fun _ => True) s4); [left; eauto| |auto|exact Logic.I]. repeat split. }
      assert (H1 : (s_tick s1 + 1 <= 256)%N) by lia. destruct (Cm ltac:(lia)) as (mk & C). destruct (Art mk C H1) as ((D1 & D2 & D3) & Vs & Vf & _). destruct (cr_fits _ _ _ _ _ _ C) as [W Fi].
      assert (Vs1 : s_vars s4 = s_vars s1) by (subst s2; exact Vs). assert (Vf1 : s_var_for s4 = s_var_for s1) by (subst s2; exact Vf).
      exists mk. constructor.
      * now apply D2.
      * exact D1.
      * apply (Fl (below s4)); [left; eauto| | |].
        -- subst s2. destruct (Sy1 mk C) as (B1 & B2 & B3). unfold below in *. rewrite Tk. split; [|split].
           ++ intros p I. destruct (B1 p I) as [Z1 Z2]. split; [lia|]. intros y O. specialize (Z2 y O). lia.
           ++ intros y O. specialize (B2 y O). lia.
           ++ intros a y E O. specialize (B3 a y E O). lia.
        -- intros y O. apply Fi in O. destruct O as [_ O]. unfold below in *. lia.
        -- unfold below. rewrite Tk, Tk2. cbn. rewrite N.mod_small by lia. lia.
      * apply (vinv_kept s1); [exact Vs1|exact Vf1|lia|apply C].
      * split; [apply C|]. split; [apply C|]. intros y I. apply (cr_fresh _ _ _ _ _ _ C) in I. unfold below in *. lia.
      * intros v y E. rewrite Vs1. now apply (cr_ext _ _ _ _ _ _ C).
      * lia.
      * intros E. destruct (D3 E) as (E3 & Er & Hh & Ho). assert (Ex1 : exact s1 = true) by (subst s2; exact E3). assert (R2 : s_rows s2 = s_rows s) by (subst s2; exact R1). assert (O2 : s_objective s2 = s_objective s1) by (now subst s2).
        destruct (Bal mk C Ex1 Er) as (B1 & B2 & B3 & B4). split; [exact B1|]. split; [intros u I N; rewrite Vs1; now apply B2|].
        assert (Bq : forall v, balance s4 c mk v == balance s1 c mk v) by (intros v; unfold balance, vals; rewrite Vs1; reflexivity). split.
        -- intros v. rewrite Hh, R2, Bq. split; intros [Z1 Z2]; (split; [exact Z1|]); now apply (B3 v Z1).
        -- intros v Hv. rewrite (Ho v Hv), O2. apply B4.
    + intros H E. assert (Tk : s_tick s4 = (s_tick s1 + 1)%N).
      { rewrite <- Tk2. apply (Fl (fun _ => True) s4); [left; eauto| |auto|exact Logic.I]. repeat split. }
      assert (H1 : (s_tick s1 + 1 <= 256)%N) by lia. destruct (Cm ltac:(lia)) as (mk & C). destruct (Art mk C H1 E) as (E2 & Er & N).
      assert (Ex1 : exact s1 = true) by (subst s2; exact E2). assert (R2 : s_rows s2 = s_rows s) by (subst s2; exact R1). rewrite R2 in N. split; [now apply (Bal mk C Ex1 Er)|]. exact (Unsat mk C Ex1 Er N).
    + intros H E. assert (Tk : s_tick s4 = (s_tick s1 + 1)%N).
      { rewrite <- Tk2. apply (Fl (fun _ => True) s4); [right; eauto| |auto|exact Logic.I]. repeat split. }
      assert (H1 : (s_tick s1 + 1 <= 256)%N) by lia. destruct (Cm ltac:(lia)) as (mk & C). pose proof (Art mk C H1). congruence.
    + exact Logic.I.
Qed.
Lemma add_ok fuel : (forall c', In c' (map fst L ++ [c]) -> 0 <= c_strength c') ->
  match add_constraint order fuel s c with
  | Done s' => (s_tick s' <= 256)%N -> s_exact s' = true -> exists mk, good s' (L ++ [(c, mk)]) /\ (exact s' = true -> exact s = true) /\
      (forall x, occurs x (s_objective s') -> sy_type x <> TDummy -> 0 <= cf (r_cells (s_objective s')) x)
  | Fail _ s' => (s_tick s' <= 256)%N -> exact s' = true -> exact s = true /\ ~ exists x, feasible (map fst L ++ [c]) x
  | NoFuel => True
  end.
Proof.
  intros St. rewrite add_put_row. pose proof (put_row_ok fuel) as P. destruct (put_row fuel) as [s2|e s2|]; cbn [rbind]; [|exact P|exact Logic.I].
  pose proof (optimize_ok order order_ok false fuel s2) as O. pose proof (optimize_syms order order_ok (below s2) false fuel s2) as Sy. pose proof (optimize_flags order order_ok false fuel s2) as Fg.
  destruct (optimize order fuel false s2) as [s'|e s'|]; [| |exact Logic.I].
  - intros H X. specialize (Fg s' (or_introl eq_refl)). destruct Fg as ((F1 & F2 & F3) & F4 & F5). destruct (P ltac:(lia) ltac:(congruence)) as (mk & A). destruct (added_good s2 mk A) as [[A1 A2 A3 A4 A5 A6 A7 A8] A9].
    destruct (O A1 ltac:(discriminate)) as (O1 & O2 & O3 & O4 & O5 & O6). assert (Bl : forall x, below s' x <-> below s2 x) by (intros x; unfold below; rewrite F3; tauto).
    exists mk. split; [|split].
    + constructor.
      * exact O1.
      * now apply O4.
      * specialize (Sy s' A3 (or_introl eq_refl)). destruct Sy as (Y1 & Y2 & Y3). split; [|split].
        -- intros p I. destruct (Y1 p I) as [Z1 Z2]. split; [now apply Bl|]. intros y Oy. apply Bl. now apply Z2.
        -- intros y Oy. apply Bl. now apply Y2.
        -- intros a y E Oy. apply Bl. now apply (Y3 a).
      * apply (vinv_kept s2); [exact F1|exact F2|lia|exact A4].
      * exact A5.
      * exact A6.
      * intros x I. apply Bl. now apply A7.
      * intros E. destruct (O5 E) as [E2 (S1 & S2 & _)]. destruct (A8 E2) as (B1 & B2 & B3). split; [|split].
        -- intros c' mk' I u J N. rewrite F1. now apply (B1 c' mk' I).
        -- intros v. rewrite S1, B2. unfold sys, balance, vals. rewrite F1. reflexivity.
        -- intros v Hv. apply S1 in Hv. rewrite (S2 v Hv). now apply B3.
    + intros E. apply A9. now apply O5.
    + exact O6.
  - intros H X. specialize (Fg s' (or_intror (ex_intro _ e eq_refl))). destruct Fg as ((F1 & F2 & F3) & F4 & F5). assert (Xs : s_exact s' = true) by (apply exact_parts in X; tauto).
    destruct (P ltac:(lia) ltac:(congruence)) as (mk & A). destruct (added_good s2 mk A) as [[A1 A2 A3 A4 A5 A6 A7 A8] A9].
    destruct (O A1 ltac:(discriminate)) as (_ & _ & O5). destruct (O5 X) as [E2 N]. elim N. destruct (A8 E2) as (B1 & B2 & B3). intros v Hv Pv. unfold goal. rewrite (B3 v Hv). apply total_pos; [exact Pv|]. rewrite map_app. exact St.
Qed.
End Step.

Lemma adds_later fuel : forall cs s s', add_constraints order fuel s cs = Done s' -> later s s'.
Proof.
  induction cs as [|c cs IH]; intros s s' E; cbn in E; [injection E as <-; apply later_refl|]. destruct (add_constraint order fuel s c) as [s1|e s1|] eqn:E1; try discriminate. cbn in E. apply (later_trans _ s1); [apply (add_later fuel s c); now left|now apply IH].
Qed.
Lemma adds_later_fail fuel : forall cs s e s', add_constraints order fuel s cs = Fail e s' -> later s s'.
Proof.
  induction cs as [|c cs IH]; intros s e s' E; cbn in E; [discriminate|]. destruct (add_constraint order fuel s c) as [s1|e1 s1|] eqn:E1; try discriminate; cbn in E.
  - apply (later_trans _ s1); [apply (add_later fuel s c); now left|now apply (IH _ e)].
  - injection E as _ <-. apply (add_later fuel s c). right. eauto.
Qed.
Definition optimal (s : solver) : Prop := forall x, occurs x (s_objective s) -> sy_type x <> TDummy -> 0 <= cf (r_cells (s_objective s)) x.
Lemma adds_ok fuel : forall cs s L, good s L -> optimal s -> (forall c', In c' (map fst L ++ cs) -> 0 <= c_strength c') ->
  match add_constraints order fuel s cs with
  | Done s' => (s_tick s' <= 256)%N -> s_exact s' = true -> exists L', map fst L' = map fst L ++ cs /\ good s' L' /\ optimal s'
  | Fail _ s' => (s_tick s' <= 256)%N -> exact s' = true -> ~ exists x, feasible (map fst L ++ cs) x
  | NoFuel => True
  end.
Proof.
  induction cs as [|c cs IH]; intros s L G Op St; cbn [add_constraints].
  - intros _ _. exists L. split; [now rewrite app_nil_r|auto].
  - assert (St1 : forall c', In c' (map fst L ++ [c]) -> 0 <= c_strength c') by (intros c' I; apply St; apply in_app_iff; apply in_app_iff in I; cbn in *; tauto).
    pose proof (add_ok s L c G fuel St1) as A. pose proof (add_later fuel s c) as La. destruct (add_constraint order fuel s c) as [s1|e s1|]; cbn [rbind]; [| |exact Logic.I].
    + specialize (La s1 (or_introl eq_refl)).
      assert (Next : (s_tick s1 <= 256)%N -> s_exact s1 = true -> exists L1, map fst L1 = map fst L ++ [c] /\ good s1 L1 /\ optimal s1).
      { intros H X. destruct (A H X) as (mk & G1 & _ & O1). exists (L ++ [(c, mk)]). split; [now rewrite map_app|]. split; assumption. }
      destruct (add_constraints order fuel s1 cs) as [s'|e s'|] eqn:E; [| |exact Logic.I].
      * intros H X. pose proof (adds_later fuel cs s1 s' E) as [L1 L2]. destruct (Next ltac:(lia) ltac:(auto)) as (L1' & M1 & G1 & O1). specialize (IH s1 L1' G1 O1). rewrite E, M1, <- app_assoc in IH. apply IH; assumption.
      * intros H X. pose proof (adds_later_fail fuel cs s1 e s' E) as [L1 L2]. assert (Xs : s_exact s' = true) by (apply exact_parts in X; tauto). destruct (Next ltac:(lia) ltac:(auto)) as (L1' & M1 & G1 & O1). specialize (IH s1 L1' G1 O1). rewrite E, M1, <- app_assoc in IH. apply IH; assumption.
    + intros H X. destruct (A H X) as [_ N]. intros (x & Fx). apply N. exists x. intros c' I. apply Fx. apply in_app_iff. apply in_app_iff in I. cbn in *. tauto.
Qed.
End Order.
End Tolerance.
