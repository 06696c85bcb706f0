(** Adding constraints between differences, whether results are rounded or not. *)
From Verif Require Import Base M_Solver S_Solver P_Row P_Tableau P_Simplex P_Add P_Art P_Create P_System P_Step P_Exact P_Count P_Bland P_Ends P_Network P_Alike P_Netted P_Same P_Ledger.
From Coq Require Import ZArith NArith QArith Qabs List Bool Lia Lqa Setoid Morphisms Permutation.
Import ListNotations.
Open Scope Q_scope.
#[local] Existing Instance no_tolerance.

(** A symbol more that belongs to the last equation. *)
Lemma net_extend md gs es ts k mk a u : net md gs (es ++ [Eqn ts k mk]) -> fit_terms md gs ts -> own_marks mk -> ~ In a (all_marks (es ++ [Eqn ts k mk])) -> ~ ext a -> sy_type a <> TDummy -> unit_q u -> net md gs (es ++ [Eqn ts k (mk ++ [(a, u)])]).
Proof.
  intros [N0 N1 N2 N3 N4] Dt Ow Na Xa Da U. assert (Am : forall m, all_marks (es ++ [Eqn ts k m]) = all_marks es ++ dom m) by (intros m; unfold all_marks; rewrite flat_map_app; cbn [flat_map q_marks]; now rewrite app_nil_r).
  assert (Ng : forall A d, ~ ground_eq (Eqn ts k mk) A d). { intros A d (_ & G2 & _ & G3). cbn [q_marks] in G2. subst mk. destruct Ow as [_ Ow]. destruct (Ow (d, 1) (or_introl eq_refl)) as (_ & _ & Z). now apply Z. }
  assert (Ng' : forall A d, ~ ground_eq (Eqn ts k (mk ++ [(a, u)])) A d). { intros A d (_ & G2 & _ & G3). cbn [q_marks] in G2. destruct Ow as [Ne _]. destruct mk as [|m mk]; [now apply Ne|]. destruct mk; discriminate. }
  split; [exact N0| | | |].
  - intros e J. apply in_app_iff in J. destruct J as [J|[<-|[]]]; [apply N1; apply in_app_iff; now left|]. right. cbn [q_terms q_marks]. split; [exact Dt|]. split; [destruct mk; discriminate|]. intros m J. apply in_app_iff in J. destruct J as [J|[<-|[]]]; [now apply Ow|]. cbn [fst snd]. auto.
  - intros A J. destruct (N2 A J) as (e & d & Je & Ge). apply in_app_iff in Je. destruct Je as [Je|[<-|[]]]; [|elim (Ng A d Ge)]. exists e, d. split; [apply in_app_iff; now left|exact Ge].
  - intros e e' A d d' J J' Ge Ge'. apply in_app_iff in J, J'. destruct J as [J|[<-|[]]]; [|elim (Ng' A d Ge)]. destruct J' as [J'|[<-|[]]]; [|elim (Ng' A d' Ge')]. apply (N3 e e' A d d'); try assumption; apply in_app_iff; now left.
  - rewrite Am in *. unfold dom. rewrite map_app. fold (dom mk). cbn [map fst]. rewrite app_assoc. apply nodup_app. split; [exact N4|]. split; [constructor; [intros []|constructor]|]. intros x J [<-|[]]. now apply Na.
Qed.
Lemma in_put {A} k (a : A) l : In (k, a) (put_at k a l).
Proof. induction l as [|[x b] l IH]; cbn [put_at]; [now left|]. destruct (sym_eqb k x) eqn:E; [|now right]. apply sym_eqb_ok in E. subst x. now left. Qed.
(** What exchanging leaves, whatever the constants are. *)
Lemma pivot_tab0 rows y r x : tab rows -> In (y, r) rows -> sy_type x = TSlack \/ sy_type x = TError -> occurs x r -> let r' := solve_for_symbols r y x in tab0 (put_at x r' (subst_rows x r' (drop_key y rows))).
Proof.
  intros T I Tx O r'. destruct (pivot_facts rows y r x T I Tx O) as (F1 & F2 & F3 & F4 & F5 & F6 & F7 & F8 & F9). fold r' in F1, F2, F3, F4, F5.
  assert (ND : NoDup (dom (drop_key y rows))) by (apply drop_nodup; apply T).
  assert (N : NoDup (dom (subst_rows x r' (drop_key y rows)))) by (rewrite subst_dom; exact ND).
  assert (C : forall p, In p (put_at x r' (subst_rows x r' (drop_key y rows))) -> p = (x, r') \/ exists q, In q rows /\ fst q <> y /\ fst p = fst q /\ snd p = fst (substitute_row (snd q) x r')).
  { intros p J. apply put_in in J; [|exact N]. destruct J as [->|[J _]]; [now left|right]. apply subst_in in J. destruct J as (q & J & E). apply drop_in in J. exists q. tauto. }
  assert (Nr : forall z, occurs z r' -> ~ In z (dom (drop_key y rows)) /\ z <> x).
  { intros z Z. apply F4 in Z. rewrite drop_dom. destruct Z as [->|[Z NE]]; [tauto|]. apply (tb_basic _ T _ z I) in Z. tauto. }
  constructor.
  - apply put_nodup. exact N.
  - intros p J. apply C in J. destruct J as [->|(q & J & _ & E1 & E2)]; [exact F1|]. rewrite E2. apply (subst_props (snd q) x r' (tb_wf _ T q J) F1).
  - intros p z J Oz Z. apply put_dom in Z. rewrite subst_dom in Z. apply C in J. destruct J as [->|(q & J & _ & E1 & E2)].
    + apply Nr in Oz. tauto.
    + rewrite E2 in Oz. destruct (subst_props (snd q) x r' (tb_wf _ T q J) F1) as (_ & _ & _ & K & _). apply K in Oz. destruct Oz as [Oz|[Oz NE]]; [apply Nr in Oz; tauto|].
      apply (tb_basic _ T q z J) in Oz. rewrite drop_dom in Z. tauto.
  - intros p J H z Oz. apply C in J. destruct J as [->|(q & J & NQ & E1 & E2)]; [cbn in H; destruct Tx; congruence|]. rewrite E1 in H.
    destruct (tb_dummy _ T q J H) as [D1 D2]. destruct (subst_props (snd q) x r' (tb_wf _ T q J) F1) as (_ & _ & _ & _ & _ & _ & K). rewrite E2, K in Oz; [now apply D2|].
    intros Z. apply D2 in Z. destruct Tx; congruence.
Qed.
Lemma pivot_tight s md gs es costs y r x : inv s -> exact s = true -> netted s md gs es costs -> In (y, r) (s_rows s) -> sy_type x = TSlack \/ sy_type x = TError -> occurs x r -> tight (solve_for_symbols r y x).
Proof.
  intros Hi Ex N I Tx O. set (r' := solve_for_symbols r y x).
  assert (Xr : r_exact r' = true) by (apply solves_keeps; [exact near_exact|exact (exact_in _ _ (rows_of_exact s Ex) I)]).
  assert (Xs : rows_exact (subst_rows x r' (drop_key y (s_rows s))) = true).
  { set (s0 := with_rows s (drop_key y (s_rows s))). assert (X0 : exact s0 = true) by (apply with_rows_keeps; [exact Ex|]; apply drop_keeps; now apply rows_of_exact).
    destruct (substitute_fields s0 x r') as (_ & S1 & _). change (s_rows s0) with (drop_key y (s_rows s)) in S1. rewrite <- S1. apply rows_of_exact. apply substitute_keeps; [exact near_exact|exact X0|exact Xr]. }
  assert (J : In (x, r') (put_at x r' (subst_rows x r' (drop_key y (s_rows s))))) by (apply in_put).
  apply (rows_tight (put_at x r' (subst_rows x r' (drop_key y (s_rows s)))) md gs es) with (p := (x, r')); try apply N; [apply (pivot_tab0 (s_rows s) y r x); try assumption; apply Hi| |exact J].
  intros v. destruct (pivot_hold (s_rows s) y r x (proj1 Hi) I Tx O v Xs) as [Ph _]. fold r' in Ph. pose proof (nt_hold _ _ _ _ _ N v). tauto.
Qed.
Section Order.
Variable order : nat -> list symbol -> list symbol.
Hypothesis order_ok : forall n l, Permutation (order n l) l.
Section Floats.
Variable F : floats.
Local Notation ar' := (fl_ar F).
Local Notation tol' := (fl_tol F).

(** ** By way of an artificial variable *)
Definition like2 (r' r : result (bool * solver)) : Prop :=
  match r with Done (b, s) => exists k, r' = Done (b, oc s k) | Fail e s => exists k, r' = Fail e (oc s k) | NoFuel => r' = NoFuel end.
Lemma art_same fuel s r k md gs es costs : let sa := with_artificial (with_rows (snd (fresh s TSlack)) (put_at (fst (fresh s TSlack)) r (s_rows s))) (Some r) in
  ready true sa -> netted sa md gs es costs -> like2 (@add_with_artificial_variable ar' tol' order fuel (oc s k) r) (add_with_artificial_variable order fuel s r).
Proof.
  intros sa R N. unfold add_with_artificial_variable. cbn [fresh]. set (art := Sym (s_tick s mod 256) TSlack) in *. change (Sym (s_tick (oc s k) mod 256) TSlack) with art.
  match goal with |- like2 (rbind (optimize _ _ _ ?q) _) _ => change q with (oc sa k) end.
  match goal with |- like2 _ (rbind (optimize _ _ _ ?q) _) => change q with sa end.
  pose proof (optimize_same order order_ok F true md gs es costs fuel sa k R N) as Lk. pose proof (optimize_ok order order_ok true fuel sa (proj1 R) (proj2 (proj2 R))) as Ok. pose proof (optimize_keeps near_exact order fuel true sa (proj1 (proj2 R))) as Kp. clearbody sa.
  destruct (optimize order fuel true sa) as [s'|e s'|]; cbn [like] in Lk; [|destruct Lk as (k' & ->); exists k'; reflexivity|rewrite Lk; reflexivity].
  destruct Lk as (k' & ->). cbn [rbind]. destruct Ok as (I' & _ & _ & _ & Kx & _). assert (Sm := proj2 (Kx Kp)). assert (N' := netted_same _ _ _ _ _ _ N Sm). assert (Cm := netted_calm _ _ _ _ _ I' N').
  change (goal true (oc s' k')) with (goal true s').
  assert (Oa : okq (r_const (goal true s'))). { unfold goal. destruct (s_artificial s') as [a|] eqn:Ea; [apply (small_okq (1905 * K38)); [vm_compute; discriminate|apply (ti_const _ (cl_art _ Cm a Ea))]|apply (small_okq 0); [lia|apply small_zero; lia]]. }
  rewrite (fl_near F) by exact Oa. change (@near_zero no_tolerance) with is_zero. 
  set (ok := is_zero (r_const (goal true s'))). set (sx := with_artificial (with_exact s' (r_exact (goal true s') && (negb ok || ok))) None).
  change (with_artificial (with_exact (oc s' k') (r_exact (goal true s') && (negb ok || ok))) None) with (oc sx k').
  change (s_rows (oc sx k')) with (s_rows s'). change (s_rows sx) with (s_rows s').
  destruct (look art (s_rows s')) as [ra|] eqn:La; [|exists k'; reflexivity].
  set (b := r_exact ra && (negb ok || is_zero (r_const ra))). set (sd := with_rows (with_exact sx b) (drop_key art (s_rows s'))).
  change (with_rows (with_exact (oc sx k') b) (drop_key art (s_rows (with_exact (oc sx k') b)))) with (oc sd k'). change (with_rows (with_exact sx b) (drop_key art (s_rows (with_exact sx b)))) with sd.
  assert (T := proj1 I'). assert (Ja := look_in _ _ _ La). assert (Nr := cl_rows _ Cm _ Ja). cbn [snd] in Nr.
  destruct (r_cells ra) as [|c0 cs] eqn:Rc; [exists k'; reflexivity|]. clear Rc c0 cs.
  unfold any_pivotable_symbol. change (keys order (oc sd k') (r_cells ra)) with (keys order sd (r_cells ra)). destruct (find _ (keys order sd (r_cells ra))) as [x|] eqn:Fd; [|exists k'; reflexivity].
  apply find_some in Fd. destruct Fd as [Jx Tx]. apply keys_in in Jx; [|exact order_ok]. assert (Ox : occurs x ra) by exact Jx. assert (Td : sy_type x <> TDummy) by (intros Z; rewrite Z in Tx; discriminate).
  assert (Tt : sy_type x = TSlack \/ sy_type x = TError) by (destruct (sy_type x); try discriminate; auto).
  assert (Na : ~ occurs art ra) by (intros O; apply (tb_basic _ T _ art Ja O); now apply in_dom in Ja).
  assert (Nxa : x <> art) by (intros ->; now apply Na).
  assert (N1 := pivot_tight s' md gs es costs art ra x I' Kp N' Ja Tt Ox). rewrite (solves_same F ra art x (ti_wf _ Nr) (ti_simple _ Nr x Td) (cf_wf _ _ (ti_wf _ Nr) Ox) Na Nxa N1).
  assert (Nx' : ~ occurs x (solve_for_symbols ra art x)). { destruct (pivot_row_props ra art x (ti_wf _ Nr) Ox Na) as (_ & _ & _ & Oc & _); [congruence|]. intros O. apply Oc in O. destruct O as [O|[_ O]]; congruence. }
  assert (Cd : calm (use sd)). { split; [|apply Cm|discriminate]. intros p Jp. cbn in Jp. apply drop_in in Jp. apply (cl_rows _ Cm). tauto. }
  change (use (oc sd k')) with (oc (use sd) k'). destruct (substitute_same F (use sd) k' x (solve_for_symbols ra art x) Cd N1 Nx' (or_introl Td)) as (k2 & Es). rewrite Es. exists k2. reflexivity.
Qed.

(** ** One constraint *)
Definition put_row_of (ar : arith) (tol : tolerance) (s : solver) (c : constr) (fuel : nat) : result solver :=
  let '(r, t, s) := @create_row ar tol s c in
  let '(subject, s) := choose_subject order s r t in
  let no_subject := match subject with None => true | Some _ => false end in
  if no_subject && all_dummies r && negb (@near_zero tol (r_const r)) then Fail EUnsatisfiable (with_exact s (r_exact r))
  else
    let s := if no_subject && all_dummies r then with_exact s (is_zero (r_const r)) else s in
    let subject := if no_subject && all_dummies r then Some (t_marker t) else subject in
    match subject with
       | None => rbind (@add_with_artificial_variable ar tol order fuel s r) (fun p => if fst p then Done (snd p) else Fail EUnsatisfiable (snd p))
       | Some x =>
           let r := @solve_for_symbol ar r x in
           let s := @substitute ar tol s x r in
           let s := if is_external x && negb (is_zero (r_const r)) then var_changed s (var_for s x) else s in
           Done (with_rows s (put_at x r (s_rows s)))
       end.
Lemma add_row_of ar tol fuel s c : @add_constraint ar tol order fuel s c = rbind (put_row_of ar tol s c fuel) (@optimize ar tol order fuel false).
Proof.
  unfold add_constraint, put_row_of. destruct (create_row s c) as [[r t] s1]. destruct (choose_subject order s1 r t) as [subj s2].
  destruct (_ && _ && _); [reflexivity|]. destruct (_ && _); [reflexivity|]. destruct subj; [reflexivity|]. reflexivity.
Qed.
Lemma put_row_is s c fuel : put_row_of exact_arith no_tolerance s c fuel = put_row order s c fuel.
Proof. reflexivity. Qed.
(** The first constraint about a variable is made a row for it. *)
Lemma border_row s A c r t s1 : border_c A c -> find_var A (s_vars s) = None -> (s_tick s1 <= 256)%N -> syms (below s) s -> plain c -> create_row s c = (r, t, s1) -> (wf r /\ forall y, sy_type y <> TDummy -> simple (cf (r_cells r) y)) /\ exists x, occurs x r /\ ext x.
Proof.
  intros (Et & Eo & Es) Fn Hs Ab Pl Cr. unfold create_row in Cr. rewrite Et, Eo in Cr. cbn [fold_left] in Cr. unfold add_term in Cr. cbn [fst snd] in Cr. change (near_zero 1) with false in Cr. cbn iota in Cr.
  unfold get_var_symbol in Cr. rewrite Fn in Cr. cbn [fresh] in Cr. cbn iota beta in Cr. cbn [s_rows] in Cr. rewrite Es in Cr. set (x := Sym (s_tick s mod 256) TExternal) in *.
  assert (Hx : (s_tick s <= 255)%N). { destruct (look x (s_rows s)); cbn [fresh s_vars s_var_for s_changed s_rows s_objective s_artificial s_tick s_uses s_exact] in Cr; injection Cr as _ _ <-; cbn [s_tick] in Hs; lia. }
  assert (Lx : look x (s_rows s) = None). { apply look_none. intros J. apply in_map_iff in J. destruct J as (p & Ep & J). apply (proj1 Ab) in J. destruct J as [J _]. rewrite Ep in J. unfold below, x in J. cbn [sy_value] in J. rewrite N.mod_small in J by lia. lia. }
  rewrite Lx in Cr. cbn [fresh s_vars s_var_for s_changed s_rows s_objective s_artificial s_tick s_uses s_exact] in Cr.
  set (d := Sym ((s_tick s + 1) mod 256) TDummy) in *. assert (Ne : x <> d) by discriminate.
  injection Cr as <- _ _. set (r0 := insert_symbol (new_row (e_const (c_expr c))) x 1). set (r1 := insert_symbol r0 d 1).
  assert (W0 : wf r0) by (apply insert_wf; split; constructor). assert (W1 : wf r1) by (now apply insert_wf).
  assert (C1 : forall y, cf (r_cells r1) y == (if sym_eqb y x then 1 else 0) + (if sym_eqb y d then 1 else 0)).
  { intros y. unfold r1. rewrite (insert_cf' r0 d 1 y). unfold r0. rewrite (insert_cf' (new_row (e_const (c_expr c))) x 1 y). unfold cf at 1. cbn [look new_row r_cells]. lra. }
  assert (K1 : r_const r1 = e_const (c_expr c)) by (unfold r1, r0; rewrite !insert_const; reflexivity). 
  assert (N1 : wf r1 /\ forall y, sy_type y <> TDummy -> simple (cf (r_cells r1) y)).
  { split; [exact W1|]. intros y Ty. left. unfold sgn_q. rewrite (C1 y). destruct (sym_eqb y d) eqn:Yd; [apply sym_eqb_ok in Yd; subst y; now elim Ty|]. destruct (sym_eqb y x); lra. }
  assert (O1 : occurs x r1). { apply cf_occurs. rewrite (C1 x), sym_eqb_refl. apply sym_eqb_no in Ne. rewrite Ne. lra. }
  clearbody r1. destruct (qltb (r_const r1) 0); [|split; [exact N1|exists x; split; [exact O1|reflexivity]]].
  destruct (reverse_props r1 W1) as (V1 & V2 & _ & V4 & _). split; [|exists x; split; [now apply V4|reflexivity]].
  assert (Cv : forall y, cf (r_cells (reverse_sign r1)) y == - cf (r_cells r1) y). { intros y. unfold reverse_sign. cbn [r_cells]. unfold cf. clear. induction (r_cells r1) as [|[z q] l IH]; cbn [map look fst snd]; [lra|]. destruct (sym_eqb y z); [apply qopp_ok|exact IH]. }
  destruct N1 as [_ M2]. split; [exact V1|]. intros y Ty. specialize (M2 y Ty). unfold simple, sgn_q, half_q in *. rewrite (Cv y). lra.
Qed.

Section Put.
Variables (s : solver) (vm : vmode) (As As' : list variable) (L : ledger) (c : constr).
Hypothesis G : good s L.
Hypothesis E : exact s = true.
Hypothesis Nw : network vm As L.
Hypothesis Hl : (length L < 127)%nat.
Hypothesis P : plain c.
Hypothesis Tk : (s_tick (snd (create_row s c)) + 1 <= 256)%N.
Hypothesis Jn : diff_c vm As c \/ exists A, border_c A c /\ find_var A (s_vars s) = None.
Hypothesis Nw2 : forall mk, network vm As' (L ++ [(c, mk)]).

Lemma art_netted r t s1 mk : create_row s c = (r, t, s1) -> diff_c vm As c -> created s c r t s1 mk -> s_rows s1 = s_rows s -> s_artificial s1 = None -> r_exact r = true -> exact s1 = true -> (s_tick s1 + 1 <= 256)%N -> inv s1 -> (forall y, occurs y r -> sy_type y <> TExternal) ->
  let sa := with_artificial (with_rows (snd (fresh (use s1) TSlack)) (put_at (fst (fresh (use s1) TSlack)) r (s_rows (use s1)))) (Some r) in
  exists md gs es costs, ready true sa /\ netted sa md gs es costs.
Proof using G E Nw Hl P.
  clear Tk Jn Nw2. intros Ec Dc Cr R1 Ar1 Xr E1 Tk1 I1 Ne sa. destruct (cr_fits _ _ _ _ _ _ Cr) as [W Fi].
  assert (Sy1 : syms (below s1) s1).
  { split; [|split].
    - intros p I0. rewrite R1 in I0. destruct (proj1 (g_syms _ _ G) p I0) as [B1 B2]. pose proof (create_row_ok s c) as K. rewrite Ec in K. destruct K as [(_ & _ & _ & _ & K) _]. unfold below in *. split; [lia|]. intros x O. specialize (B2 x O). lia.
    - apply (cr_obj_below _ _ _ _ _ _ Cr). apply (g_syms _ _ G).
    - rewrite Ar1. discriminate. }
  cbn [fresh fst snd] in sa. set (art := Sym (s_tick (use s1) mod 256) TSlack) in *.
  assert (Va : sy_value art = s_tick s1) by (unfold art; cbn; apply N.mod_small; lia).
  assert (Nba : forall y, below s1 y -> y <> art) by (intros y B ->; unfold below in B; rewrite Va in B; lia).
  assert (A1 : ~ In art (dom (s_rows (use s1)))). { intros J. apply in_map_iff in J. destruct J as (p & Q & J). apply (proj1 Sy1) in J. destruct J as [J _]. rewrite Q in J. now apply Nba in J. }
  assert (A2 : forall p, In p (s_rows (use s1)) -> ~ occurs art (snd p)) by (intros p J O; apply (proj1 Sy1) in J; destruct J as [_ J]; apply J in O; now apply Nba in O).
  assert (A3 : ~ occurs art r) by (intros O; apply Fi in O; destruct O as [_ O]; now apply Nba in O).
  assert (A4 : ~ occurs art (s_objective (use s1))) by (intros O; apply (proj1 (proj2 Sy1)) in O; now apply Nba in O).
  assert (Ia : inv sa). { apply (art_inv (use s1) r I1 W (cr_pos _ _ _ _ _ _ Cr)); [intros y O; now apply Fi|exact Ne|exact A2|exact A3|exact A4]. }
  assert (Ea : exact sa = true). { apply exact_parts in E1. destruct E1 as (B1 & B2 & B3 & _). apply exact_parts. split; [exact B1|]. split; [now apply put_keeps|]. split; [exact B3|]. intros a Z. injection Z as <-. exact Xr. }
  destruct (g_sem _ _ G E) as (G1 & G2 & G3). assert (X := cr_ext _ _ _ _ _ _ Cr). destruct (cr_exact _ _ _ _ _ _ Cr Xr) as (Kn & k & Uk & Er).
  assert (Xo : r_exact (s_objective s1) = true) by (apply exact_parts in E1; exact (proj1 (proj2 (proj2 E1)))). destruct (cr_obj_exact _ _ _ _ _ _ Cr Xo) as [_ Ob].
  set (L' := L ++ [(c, mk)]).
  assert (Nw' : network vm As L').
  { destruct Nw as [Q0 Q1 (B & R & EL & Hb & Hd) Q3]. split; [exact Q0|exact Q1| |].
    - exists B, (R ++ [(c, mk)]). split; [unfold L'; rewrite EL, app_assoc; reflexivity|]. split; [exact Hb|]. apply Forall_app. split; [exact Hd|]. constructor; [exact Dc|constructor].
    - intros c' mk' J. apply in_app_iff in J. destruct J as [J|[J|[]]]; [exact (Q3 _ _ J)|]. injection J as <- <-. exact P. }
  assert (Ok' : forall c' mk', In (c', mk') L' -> mark_ok c' mk'). { intros c' mk' J. apply in_app_iff in J. destruct J as [J|[J|[]]]; [exact (g_ok _ _ G _ _ J)|]. injection J as <- <-. apply Cr. }
  assert (Nd' : NoDup (mark_syms L')). { unfold L'. rewrite mark_syms_app. apply nodup_app. split; [apply G|]. cbn. rewrite app_nil_r. split; [apply Cr|]. intros y J K. apply (g_below _ _ G) in J. apply (cr_fresh _ _ _ _ _ _ Cr) in K. unfold below in *. lia. }
  assert (Kn' : forall c' mk', In (c', mk') L' -> known s1 (e_terms (c_expr c'))). { intros c' mk' J. apply in_app_iff in J. destruct J as [J|[J|[]]]; [apply (known_ext s s1 _ X); exact (G1 _ _ J)|]. injection J as <- <-. exact Kn. }
  assert (Vs := cr_vars _ _ _ _ _ _ Cr).
  assert (Nt := net_of s1 vm As L' Vs Nw' Ok' Nd' Kn'). unfold L' in Nt. rewrite map_app in Nt. cbn [map] in Nt.
  assert (Ow : own_marks mk) by (apply (diff_own c mk); [apply Cr|apply Dc]).
  assert (Nt' : net (smode s1 vm) (map (symof s1) As) (map (eqn_of s1) L ++ [Eqn (terms_of s1 c) (e_const (c_expr c)) (mk ++ [(art, - k)])])).
  { apply net_extend; [exact Nt|exact (diff_diff s1 vm As c Dc Vs Kn)|exact Ow| |discriminate|discriminate|unfold unit_q in *; lra].
    intros J. change [Eqn (terms_of s1 c) (e_const (c_expr c)) mk] with (map (eqn_of s1) [(c, mk)]) in J. rewrite <- map_app in J. fold L' in J. rewrite (marks_all s1 vm As L' Nw' Ok' Nd' Kn') in J. unfold L' in J. rewrite mark_syms_app in J. apply in_app_iff in J. cbn [mark_syms flat_map] in J. rewrite app_nil_r in J.
    pose proof (create_row_ok s c) as K. rewrite Ec in K. destruct K as [(_ & _ & _ & _ & K) _]. destruct J as [J|J]; [apply (g_below _ _ G) in J|apply (cr_fresh _ _ _ _ _ _ Cr) in J; destruct J as [_ J]]; unfold below in J; rewrite Va in J; lia. }
  exists (smode s1 vm), (map (symof s1) As), (map (eqn_of s1) L ++ [Eqn (terms_of s1 c) (e_const (c_expr c)) (mk ++ [(art, - k)])]), (costs_of L').
  split; [split; [exact Ia|split; [exact Ea|discriminate]]|].
  assert (In' : forall e, In e (map (eqn_of s1) L ++ [Eqn (terms_of s1 c) (e_const (c_expr c)) (mk ++ [(art, - k)])]) -> exists c', plain c' /\ q_terms e = terms_of s1 c' /\ q_const e = e_const (c_expr c')).
  { intros e J. apply in_app_iff in J. destruct J as [J|[<-|[]]]; [|exists c; split; [exact P|split; reflexivity]]. apply in_map_iff in J. destruct J as ([c' mk'] & <- & J). exists c'. split; [exact (nw_plain _ _ _ Nw _ _ J)|]. split; reflexivity. }
  assert (Ho : forall v, hold (s_rows sa) v <-> v art == ev r v /\ hold (s_rows s) v). { intros v. rewrite <- R1. exact (art_hold (use s1) r I1 A1 v). }
  assert (Hs : forall v, hold (s_rows s) v <-> forall c' mk', In (c', mk') L -> lin (eqn_of s1 (c', mk')) v + q_const (eqn_of s1 (c', mk')) == 0).
  { intros v. rewrite G2. split.
    - intros H c' mk' J. rewrite eqn_balance by (apply (known_ext s s1 _ X); exact (G1 _ _ J)). rewrite (balance_ext s s1 c' mk' v X (G1 _ _ J)). now apply H.
    - intros H c' mk' J. rewrite <- (balance_ext s s1 c' mk' v X (G1 _ _ J)), <- eqn_balance by (apply (known_ext s s1 _ X); exact (G1 _ _ J)). now apply H. }
  split.
  - exact Nt'.
  - intros e t0 J Jt. destruct (In' e J) as (c' & P' & Q & _). rewrite Q in Jt. unfold terms_of in Jt. apply in_map_iff in Jt. destruct Jt as (u & <- & Ju). exact (pl_terms _ P' u Ju).
  - intros e J. destruct (In' e J) as (c' & P' & Q & _). rewrite Q. unfold terms_of. rewrite map_length. apply P'.
  - rewrite app_length, map_length. cbn [length]. lia.
  - intros e J. destruct (In' e J) as (c' & P' & _ & Q). rewrite Q. apply P'.
  - intros v. rewrite Ho.
    assert (Lq : lin (Eqn (terms_of s1 c) (e_const (c_expr c)) (mk ++ [(art, - k)])) v + e_const (c_expr c) == balance s1 c mk v - k * v art). { rewrite <- (eqn_balance s1 c mk v Kn). unfold lin. cbn [eqn_of q_terms q_marks q_const fst snd]. rewrite ev_app. cbn [ev_cells fst snd]. lra. }
    split.
    + intros [H1 H2] e J. apply in_app_iff in J. destruct J as [J|[<-|[]]].
      * apply in_map_iff in J. destruct J as ([c' mk'] & <- & J). now apply (proj1 (Hs v) H2).
      * cbn [q_const]. rewrite Lq. rewrite (Er v H2) in H1. destruct Uk as [Uk|Uk]; rewrite Uk in *; lra.
    + intros H. assert (H2 : hold (s_rows s) v). { apply Hs. intros c' mk' J. apply H. apply in_app_iff. left. now apply in_map. }
      split; [|exact H2]. rewrite (Er v H2). specialize (H _ ltac:(apply in_app_iff; right; left; reflexivity)). cbn [q_const] in H. rewrite Lq in H. destruct Uk as [Uk|Uk]; rewrite Uk in *; lra.
  - intros p J. apply costs_in in J. destruct J as (Tp & c' & mk' & J & ->). destruct (pl_strength _ (nw_plain _ _ _ Nw' _ _ J)) as (I0 & P1 & _). split; [exact I0|]. split; [exact P1|congruence].
  - eapply Qle_trans; [apply costs_sum|].
    + intros c' mk' J. split; [exact (Ok' _ _ J)|exact (nw_plain _ _ _ Nw' _ _ J)].
    + apply (Qle_trans _ (127 * 2002002000)); [|discriminate]. apply Qmult_le_compat_r; [|discriminate]. change 127 with (inject_Z 127). rewrite <- Zle_Qle. unfold L'. rewrite app_length. cbn [length]. lia.
  - intros v H. apply Ho in H. destruct H as [_ H]. change (s_objective sa) with (s_objective s1). rewrite (Ob v), (G3 v H), costs_total. unfold L'. rewrite total_app. cbn [total fold_right fst snd]. lra.
  - intros a Z. injection Z as <-. exists art. split; [discriminate|]. intros v H. apply Ho in H. destruct H as [H _]. symmetry. exact H.
Qed.

Lemma put_tight fuel s2 : put_row order s c fuel = Done s2 -> forall p, In p (s_rows s2) -> tight (snd p).
Proof using order_ok G E Nw2 Hl Tk.
  clear Nw P Jn. intros Z.
  pose proof (put_row_tick order order_ok fuel s c) as T2. pose proof (put_row_keeps near_exact order order_ok fuel s L c G E) as Kp. pose proof (put_row_ok order order_ok s L c G fuel) as Ok. rewrite Z in *.
  specialize (T2 s2 (or_introl eq_refl)). assert (E2 : exact s2 = true) by (apply Kp; lia). destruct (Ok ltac:(lia)) as (mk & A); [apply exact_parts in E2; tauto|]. destruct (added_good s L c G s2 mk A) as [G2 _].
  assert (Hl2 : (length (L ++ [(c, mk)]) <= 127)%nat) by (rewrite app_length; cbn [length]; lia).
  intros p J. exact (netted_rows _ _ _ _ _ (g_inv _ _ G2) (netted_of s2 vm As' (L ++ [(c, mk)]) G2 E2 (Nw2 mk) Hl2) p J).
Qed.
Lemma put_row_same k fuel : like (put_row_of ar' tol' (oc s k) c fuel) (put_row order s c fuel).
Proof.
  pose proof (put_tight fuel) as Pt. rewrite <- put_row_is in Pt. unfold put_row_of in Pt. rewrite <- put_row_is. unfold put_row_of. assert (Nt := netted_of s vm As L G E Nw ltac:(lia)). assert (Hi := g_inv _ _ G). assert (Ob := netted_obj _ _ _ _ _ Hi Nt).
  rewrite (create_same F s k c (netted_rows _ _ _ _ _ Hi Nt) (proj2 Ob) P). pose proof (create_row_ok s c) as Cr. pose proof (create_keeps near_exact s c) as Ck. destruct (create_row s c) as [[r t] s1] eqn:Ec. cbn [fst snd] in *. destruct (Ck r t s1 E eq_refl) as [Xr E1]. clear Ck. destruct Cr as [K Cr].
  assert (R1 : s_rows s1 = s_rows s) by apply K. assert (T1 : (s_tick s <= s_tick s1)%N) by apply K. assert (Ar1 : s_artificial s1 = None) by (rewrite <- (g_art _ _ G); apply K). clear K.
  destruct (Cr ltac:(lia) (proj1 (g_inv _ _ G)) (proj1 (proj2 (g_inv _ _ G))) (proj1 (g_syms _ _ G)) (proj1 (proj2 (g_syms _ _ G))) (g_vars _ _ G)) as (mk & C0). clear Cr.
  assert (I1 : inv s1). { split; [rewrite R1; apply G|]. split; [rewrite R1; exact (cr_obj _ _ _ _ _ _ C0)|]. rewrite Ar1. discriminate. }
  assert (X := cr_ext _ _ _ _ _ _ C0).
  assert (Nr : wf r /\ forall y, sy_type y <> TDummy -> simple (cf (r_cells r) y)). { destruct Jn as [Dc|(A & Bc & Fa)]; [|exact (proj1 (border_row s A c r t s1 Bc Fa ltac:(lia) (g_syms _ _ G) P Ec))].
    split; [apply (cr_fits _ _ _ _ _ _ C0)|]. apply (created_simple s vm As L c r t s1 mk G E Nw ltac:(lia) C0 R1 Xr). exact (diff_diff s1 vm As c Dc (cr_vars _ _ _ _ _ _ C0) (proj1 (cr_exact _ _ _ _ _ _ C0 Xr))). }
  assert (Cm : calm s1).
  { apply (netted_calm s1 (smode s vm) (map (symof s) As) (map (eqn_of s) L) (costs_of (L ++ [(c, mk)])) I1). destruct Nt as [M1 M2 M3 M4 M5 M6 M7 M8 M9 M10].
    assert (In' : forall c' mk', In (c', mk') (L ++ [(c, mk)]) -> mark_ok c' mk' /\ plain c'). { intros c' mk' J. apply in_app_iff in J. destruct J as [J|[J|[]]]; [split; [exact (g_ok _ _ G _ _ J)|exact (nw_plain _ _ _ Nw _ _ J)]|]. injection J as <- <-. split; [apply C0|exact P]. }
    assert (Xo : r_exact (s_objective s1) = true) by (apply exact_parts in E1; exact (proj1 (proj2 (proj2 E1)))). destruct (cr_obj_exact _ _ _ _ _ _ C0 Xo) as [_ Oe].
    split; try assumption.
    - intros v. rewrite R1. apply M6.
    - intros p J. apply costs_in in J. destruct J as (Tp & c' & mk' & J & ->). destruct (pl_strength _ (proj2 (In' _ _ J))) as (I0 & P1 & _). split; [exact I0|]. split; [exact P1|congruence].
    - eapply Qle_trans; [apply costs_sum; exact In'|]. apply (Qle_trans _ (127 * 2002002000)); [|discriminate]. apply Qmult_le_compat_r; [|discriminate]. change 127 with (inject_Z 127). rewrite <- Zle_Qle. rewrite app_length. cbn [length]. lia.
    - intros v H. rewrite R1 in H. rewrite (Oe v), (M9 v H), !costs_total, total_app. cbn [total fold_right fst snd]. lra.
    - rewrite Ar1. discriminate. }
  destruct (choose_subject order s1 r t) as [subj s2] eqn:Cs. assert (Us : s2 = use s1) by (unfold choose_subject in Cs; injection Cs as _ <-; reflexivity).
  assert (Cs' : choose_subject order (oc s1 k) r t = (subj, oc s2 k)). { unfold choose_subject in *. change (keys order (oc s1 k) (r_cells r)) with (keys order s1 (r_cells r)). injection Cs as <- <-. reflexivity. }
  rewrite Cs'. clear Cs'. cbn beta iota zeta. subst s2.
  assert (Nd : all_dummies r = false).
  { destruct (all_dummies r) eqn:Ad; [|reflexivity]. rewrite all_dummies_ok in Ad. destruct Jn as [Dc|(A & Bc & Fa)].
    - destruct (cr_marker _ _ _ _ _ _ C0) as [J O]. destruct (diff_own c mk (cr_marks _ _ _ _ _ _ C0) (proj1 Dc)) as [_ Ow]. apply in_map_iff in J. destruct J as (m & Em & J). destruct (Ow m J) as (_ & _ & Z). rewrite Em in Z. now apply Ad in O.
    - destruct (proj2 (border_row s A c r t s1 Bc Fa ltac:(lia) (g_syms _ _ G) P Ec)) as (x & O & Z). apply Ad in O. unfold ext in Z. congruence. }
  rewrite Nd, !andb_false_r. cbn [andb]. destruct subj as [x|].
  - destruct (subject_cases order order_ok _ _ _ _ _ Cs) as [_ Sc]. assert (Ox : occurs x r) by tauto. assert (Td : sy_type x <> TDummy) by (destruct Sc as [[_ Z]|(_ & _ & _ & [Z|Z] & _)]; rewrite Z; discriminate).
    assert (Ns : tight (solve_for_symbol r x)). { cbn [andb] in Pt. refine (Pt _ eq_refl (x, solve_for_symbol r x) _). cbn [with_rows s_rows]. apply in_put. }
    rewrite (solve_same F r x (proj1 Nr) (proj2 Nr x Td) (cf_wf _ _ (proj1 Nr) Ox) Ns). destruct (solve_props r x (proj1 Nr) Ox) as (_ & _ & _ & Oc & _).
    assert (Nx : ~ occurs x (solve_for_symbol r x)) by (intros O; apply Oc in O; tauto).
    destruct (substitute_same F (use s1) k x (solve_for_symbol r x)) as (k' & Eq); [destruct Cm as [Z1 Z2 Z3]; split; assumption|exact Ns|exact Nx|now left|]. rewrite Eq.
    exists k'. destruct (is_external x && _); reflexivity.
  - destruct (subject_none order order_ok _ _ _ _ Cs) as [_ Ne]. destruct Jn as [Dc|(A & Bc & Fa)].
    + destruct (art_netted r t s1 mk Ec Dc C0 R1 Ar1 Xr E1 Tk I1 Ne) as (md & gs & es & costs & Rd & Na).
      pose proof (art_same fuel (use s1) r k md gs es costs Rd Na) as Lk. change (oc (use s1) k) with (use (oc s1 k)) in *. destruct (add_with_artificial_variable order fuel (use s1) r) as [[b q]|e q|]; cbn [like2] in Lk; [|destruct Lk as (k' & ->); exists k'; reflexivity|rewrite Lk; reflexivity].
      destruct Lk as (k' & ->). cbn [rbind fst snd]. destruct b; exists k'; reflexivity.
    + destruct (proj2 (border_row s A c r t s1 Bc Fa ltac:(lia) (g_syms _ _ G) P Ec)) as (x & O & Z). now apply Ne in O.
Qed.
End Put.
Lemma add_same k fuel s vm As As' L c : good s L -> exact s = true -> network vm As L -> (length L < 127)%nat -> plain c -> (s_tick (snd (create_row s c)) + 1 <= 256)%N ->
  (diff_c vm As c \/ exists A, border_c A c /\ find_var A (s_vars s) = None) -> (forall mk, network vm As' (L ++ [(c, mk)])) ->
  like (@add_constraint ar' tol' order fuel (oc s k) c) (add_constraint order fuel s c).
Proof.
  intros G E Nw Hl P Tk Jn Nw'. rewrite add_row_of, add_put_row. pose proof (put_row_same s vm As As' L c G E Nw Hl P Tk Jn Nw' k fuel) as Lk.
  pose proof (put_row_tick order order_ok fuel s c) as T2. pose proof (put_row_keeps near_exact order order_ok fuel s L c G E) as Kp. pose proof (put_row_ok order order_ok s L c G fuel) as Ok.
  destruct (put_row order s c fuel) as [s2|e s2|]; cbn [like] in Lk; [|destruct Lk as (k' & ->); exists k'; reflexivity|rewrite Lk; reflexivity].
  destruct Lk as (k' & ->). cbn [rbind]. specialize (T2 s2 (or_introl eq_refl)). assert (E2 : exact s2 = true) by (apply Kp; lia). destruct (Ok ltac:(lia)) as (mk & A); [apply exact_parts in E2; tauto|]. destruct (added_good s L c G s2 mk A) as [G2 _].
  assert (Hl2 : (length (L ++ [(c, mk)]) <= 127)%nat) by (rewrite app_length; cbn [length]; lia).
  assert (Rd : ready false s2) by (split; [apply G2|]; split; [exact E2|discriminate]). assert (Nt := netted_of s2 vm As' (L ++ [(c, mk)]) G2 E2 (Nw' mk) Hl2).
  pose proof (optimize_same order order_ok F false _ _ _ _ fuel s2 k' Rd Nt) as Lk. exact Lk.
Qed.
Lemma network_diff vm As L c mk : network vm As L -> diff_c vm As c -> plain c -> network vm As (L ++ [(c, mk)]).
Proof.
  intros [Q0 Q1 (B & R & EL & Hb & Hd) Q3] Dc P. split; [exact Q0|exact Q1| |].
  - exists B, (R ++ [(c, mk)]). split; [rewrite EL, app_assoc; reflexivity|]. split; [exact Hb|]. apply Forall_app. split; [exact Hd|]. constructor; [exact Dc|constructor].
  - intros c' mk' J. apply in_app_iff in J. destruct J as [J|[J|[]]]; [exact (Q3 _ _ J)|]. injection J as <- <-. exact P.
Qed.
Section Counted.
Variable vs : list variable.
Lemma counted_len m q : counted vs m q -> (N.to_nat (s_tick q) <= 1 + length vs + m)%nat.
Proof. intros (C1 & C2 & C3). apply NoDup_incl_length in C2; [|exact C1]. rewrite map_length in C2. lia. Qed.
(** What one constraint leads to. *)
Lemma step_same k fuel s vm As As' L c n : good s L -> exact s = true -> network vm As L -> (length L < 127)%nat -> plain c -> (forall c', In c' (map fst L) -> 0 <= c_strength c') -> incl (map fst (e_terms (c_expr c))) vs -> counted vs n s -> (length vs + n + symbols_of c <= 254)%nat ->
  (diff_c vm As c \/ exists A, border_c A c /\ find_var A (s_vars s) = None) -> (forall mk, network vm As' (L ++ [(c, mk)])) ->
  like (@add_constraint ar' tol' order fuel (oc s k) c) (add_constraint order fuel s c) /\
  forall s2, add_constraint order fuel s c = Done s2 -> exists mk, good s2 (L ++ [(c, mk)]) /\ exact s2 = true /\ counted vs (n + symbols_of c) s2.
Proof.
  intros G E Nw Hl P St Iv C H Jn Nw'. assert (Sy : (2 <= symbols_of c)%nat) by (unfold symbols_of; lia).
  assert (T1 : (s_tick (snd (create_row s c)) + 1 <= 256)%N). { pose proof (create_counted vs n s c Iv C) as Cc. destruct (create_row s c) as [[r t] s1]. cbn [snd]. apply counted_len in Cc. unfold symbols_of in H. destruct (Qle_bool _ _); lia. }
  split; [now apply (add_same k fuel s vm As As' L c)|]. intros s2 Dn.
  assert (C2 := add_counted order order_ok vs n fuel s c s2 (conj (g_vars _ _ G) (fun p J => proj2 (proj1 (g_syms _ _ G) p J))) ltac:(lia) Iv C (or_introl Dn)). assert (T2 := counted_len _ _ C2).
  assert (St1 : forall c', In c' (map fst L ++ [c]) -> 0 <= c_strength c'). { intros c' J. apply in_app_iff in J. destruct J as [J|[<-|[]]]; [now apply St|apply (pl_strength _ P)]. }
  pose proof (add_keeps near_exact order order_ok fuel s L c G E) as A. pose proof (add_ok order order_ok s L c G fuel St1) as B. rewrite Dn in A, B. assert (E2 : exact s2 = true) by (apply A; lia).
  destruct (B ltac:(lia)) as (mk & G2 & _); [apply exact_parts in E2; tauto|]. exists mk. auto.
Qed.
Lemma diffs_same fuel vm As : forall cs k s L n, good s L -> exact s = true -> network vm As L -> (forall c, In c cs -> plain c /\ diff_c vm As c /\ incl (map fst (e_terms (c_expr c))) vs) -> counted vs n s ->
  (length vs + n + fold_right (fun c acc => symbols_of c + acc) 0 cs <= 254)%nat -> (length L + length cs <= 127)%nat ->
  like (@add_constraints ar' tol' order fuel (oc s k) cs) (add_constraints order fuel s cs) /\ forall s', add_constraints order fuel s cs = Done s' -> calm s'.
Proof.
  induction cs as [|c cs IH]; intros k s L n G E Nw Hc C H Hl.
  { split; [exists k; reflexivity|]. intros s' Z. injection Z as <-. cbn [length] in Hl. exact (netted_calm _ _ _ _ _ (g_inv _ _ G) (netted_of s vm As L G E Nw ltac:(lia))). } cbn [add_constraints fold_right length] in *. destruct (Hc c (or_introl eq_refl)) as (P & Dc & Iv).
  assert (St : forall c', In c' (map fst L) -> 0 <= c_strength c'). { intros c' J. apply in_map_iff in J. destruct J as ([c0 mk] & <- & J). apply (pl_strength _ (nw_plain _ _ _ Nw _ _ J)). }
  assert (Nw' := fun mk => network_diff vm As L c mk Nw Dc P).
  destruct (step_same k fuel s vm As As L c n G E Nw ltac:(lia) P St Iv C ltac:(lia) (or_introl Dc) Nw') as [Lk Nx].
  destruct (add_constraint order fuel s c) as [s2|e s2|]; cbn [like] in Lk; [|split; [destruct Lk as (k' & ->); exists k'; reflexivity|discriminate]|split; [rewrite Lk; reflexivity|discriminate]].
  destruct Lk as (k' & ->). cbn [rbind]. destruct (Nx s2 eq_refl) as (mk & G2 & E2 & C2). apply (IH k' s2 (L ++ [(c, mk)]) (n + symbols_of c)%nat G2 E2 (Nw' mk)); [intros c' J; apply Hc; now right|exact C2|lia|rewrite app_length; cbn [length]; lia].
Qed.
End Counted.
(** A system of differences: two values that are given, and differences after them. *)
Record differences (vm : vmode) (cs : list constr) (A1 A2 : variable) (vs : list variable) : Prop := Differences {
  df_split : exists b1 b2 ds, cs = b1 :: b2 :: ds /\ border_c A1 b1 /\ border_c A2 b2 /\ forall c, In c ds -> diff_c vm [A1; A2] c;
  df_apart : A1 <> A2;
  df_mode : match vm with VApart => True | VAround a b => a <> A1 /\ a <> A2 /\ b <> A1 /\ b <> A2 /\ a <> b end;
  df_plain : forall c, In c cs -> plain c;
  df_vars : forall c, In c cs -> incl (map fst (e_terms (c_expr c))) vs;
  df_few : (length vs + fold_right (fun c acc => symbols_of c + acc) 0 cs <= 254)%nat
}.
Lemma adds_same fuel vm cs A1 A2 vs : differences vm cs A1 A2 vs -> like (@add_constraints ar' tol' order fuel new_solver cs) (add_constraints order fuel new_solver cs) /\ forall s', add_constraints order fuel new_solver cs = Done s' -> calm s'.
Proof.
  intros [(b1 & b2 & ds & -> & B1 & B2 & Hd) Ap Mo Pl Iv Few]. assert (T := symbols_two (b1 :: b2 :: ds)). cbn [length] in T. cbn [add_constraints fold_right] in *.
  assert (T1 := B1). destruct T1 as (T1 & _). assert (T2 := B2). destruct T2 as (T2 & _).
  assert (P1 := Pl b1 (or_introl eq_refl)). assert (P2 := Pl b2 (or_intror (or_introl eq_refl))).
  assert (I1 : incl (map fst (e_terms (c_expr b1))) [A1]) by (rewrite T1; apply incl_refl).
  assert (V1 : In A1 vs) by (apply (Iv b1 (or_introl eq_refl)); rewrite T1; now left).
  assert (Lv : (1 <= length vs)%nat) by (destruct vs; [destruct V1|cbn [length]; lia]).
  assert (Em : network vm [] []) by (split; [destruct vm; [exact Logic.I|cbn [In]; tauto]|constructor|exists [], []; repeat split; constructor|intros ? ? []]).
  assert (W1 : forall mk, network vm [A1] ([] ++ [(b1, mk)])).
  { intros mk. split; [destruct vm; [exact Logic.I|cbn [In]; intuition congruence]|constructor; [intros []|constructor]| |intros c' mk' [J|[]]; injection J as <- <-; exact P1]. exists [(b1, mk)], []. split; [reflexivity|]. split; [constructor; [exact B1|constructor]|constructor]. }
  assert (C0 : forall ws, counted ws 0 new_solver) by (intros ws; split; [constructor|]; split; [intros ? []|cbn; lia]).
  rewrite <- (oc_id new_solver) at 1.
  destruct (step_same [A1] (r_const (s_objective new_solver)) fuel new_solver vm [] [A1] [] b1 0 good_new eq_refl Em ltac:(cbn; lia) P1 ltac:(intros ? []) I1 (C0 _) ltac:(cbn [length]; lia) (or_intror (ex_intro _ A1 (conj B1 eq_refl))) W1) as [L1 N1].
  destruct (step_same vs (r_const (s_objective new_solver)) fuel new_solver vm [] [A1] [] b1 0 good_new eq_refl Em ltac:(cbn; lia) P1 ltac:(intros ? []) (Iv b1 (or_introl eq_refl)) (C0 _) ltac:(cbn [length]; lia) (or_intror (ex_intro _ A1 (conj B1 eq_refl))) W1) as [_ N1'].
  destruct (add_constraint order fuel new_solver b1) as [s1|e s1|]; cbn [like] in L1; [|split; [destruct L1 as (k' & ->); exists k'; reflexivity|discriminate]|split; [rewrite L1; reflexivity|discriminate]].
  destruct L1 as (k1 & ->). cbn [rbind]. destruct (N1 s1 eq_refl) as (_ & _ & _ & (_ & C1 & _)). destruct (N1' s1 eq_refl) as (mk1 & G1 & E1 & C1'). clear N1 N1'.
  assert (F2 : find_var A2 (s_vars s1) = None). { destruct (find_var A2 (s_vars s1)) as [y|] eqn:Fv; [|reflexivity]. apply find_var_in in Fv. apply (in_map fst) in Fv. apply C1 in Fv. destruct Fv as [Fv|[]]. cbn [fst] in Fv. congruence. }
  assert (W2 : forall mk, network vm [A1; A2] (([] ++ [(b1, mk1)]) ++ [(b2, mk)])).
  { intros mk. split; [destruct vm; [exact Logic.I|cbn [In]; intuition congruence]|constructor; [intros [J|[]]; congruence|constructor; [intros []|constructor]]| |intros c' mk' [J|[J|[]]]; injection J as <- <-; assumption]. exists [(b1, mk1); (b2, mk)], []. split; [reflexivity|]. split; [constructor; [exact B1|constructor; [exact B2|constructor]]|constructor]. }
  assert (St : forall c', In c' (map fst ([] ++ [(b1, mk1)])) -> 0 <= c_strength c') by (intros c' [<-|[]]; apply (pl_strength _ P1)).
  destruct (step_same vs k1 fuel s1 vm [A1] [A1; A2] ([] ++ [(b1, mk1)]) b2 (0 + symbols_of b1) G1 E1 (W1 mk1) ltac:(cbn; lia) P2 St (Iv b2 (or_intror (or_introl eq_refl))) C1' ltac:(lia) (or_intror (ex_intro _ A2 (conj B2 F2))) W2) as [L2 N2].
  destruct (add_constraint order fuel s1 b2) as [s2|e s2|]; cbn [like] in L2; [|split; [destruct L2 as (k' & ->); exists k'; reflexivity|discriminate]|split; [rewrite L2; reflexivity|discriminate]].
  destruct L2 as (k2 & ->). cbn [rbind]. destruct (N2 s2 eq_refl) as (mk2 & G2 & E2 & C2).
  apply (diffs_same vs fuel vm [A1; A2] ds k2 s2 _ (0 + symbols_of b1 + symbols_of b2) G2 E2 (W2 mk2)); [|exact C2|lia|rewrite app_length; cbn [length app]; lia].
  intros c J. split; [apply Pl; right; now right|]. split; [now apply Hd|]. apply Iv. right. now right.
Qed.
End Floats.
End Order.
