(** When zero alone counts as zero, nothing is lost by dropping coefficients. *)
From Verif Require Import Base M_Solver S_Solver P_Row P_Tableau P_Simplex P_Add P_Art P_Create P_System P_Step.
From Coq Require Import ZArith NArith QArith Qround List Bool Lia Lqa Setoid Morphisms Permutation.
Import ListNotations.
Open Scope Q_scope.
Section Tolerance.
Context {tolr : tolerance}.
Hypothesis near : forall q, near_zero q = true -> is_zero q = true.

Lemma insert_keeps r x k : r_exact r = true -> r_exact (insert_symbol r x k) = true.
Proof. intros E. unfold insert_symbol. destruct (look x (r_cells r)); destruct (near_zero _) eqn:N; cbn; rewrite E; try reflexivity; cbn; now apply near. Qed.
Lemma insert_row_keeps r o k : r_exact r = true -> r_exact o = true -> r_exact (fst (insert_row r o k)) = true.
Proof.
  intros E1 E2. unfold insert_row. cbn [fst]. assert (E : r_exact (Row (r_cells r) (qadd (r_const r) (qmul (r_const o) k)) (r_exact r && r_exact o)) = true) by (cbn; now rewrite E1, E2).
  revert E. generalize (Row (r_cells r) (qadd (r_const r) (qmul (r_const o) k)) (r_exact r && r_exact o)). induction (r_cells o) as [|p l IH]; cbn; intros q E; [exact E|]. apply IH. now apply insert_keeps.
Qed.
Lemma subst_keeps r x o : r_exact r = true -> r_exact o = true -> r_exact (fst (substitute_row r x o)) = true.
Proof. intros E1 E2. unfold substitute_row. destruct (look x (r_cells r)); [|exact E1]. now apply insert_row_keeps. Qed.
Lemma solves_keeps r x y : r_exact r = true -> r_exact (solve_for_symbols r x y) = true.
Proof. intros E. unfold solve_for_symbols, solve_for_symbol. cbn. now apply insert_keeps. Qed.
Lemma put_keeps k r rows : rows_exact rows = true -> r_exact r = true -> rows_exact (put_at k r rows) = true.
Proof.
  unfold rows_exact. induction rows as [|[k' q] l IH]; cbn; intros E1 E2; [now rewrite E2|]. apply andb_prop in E1. destruct E1 as [E0 E1].
  destruct (sym_eqb k k'); cbn; [now rewrite E2, E1|rewrite E0; auto].
Qed.
Lemma drop_keeps k rows : rows_exact rows = true -> rows_exact (drop_key k rows) = true.
Proof. unfold rows_exact. rewrite !forallb_forall. intros H p I. apply drop_in in I. apply H. tauto. Qed.
Lemma substitute_keeps s x r : exact s = true -> r_exact r = true -> exact (substitute s x r) = true.
Proof.
  intros E Er. apply exact_parts in E. destruct E as (E1 & E2 & E3 & E4). destruct (substitute_fields s x r) as (_ & S1 & S2 & S3 & _ & S5). apply exact_parts.
  split; [now rewrite S5|]. split; [|split].
  - rewrite S1. unfold rows_exact, subst_rows in *. rewrite forallb_forall in *. intros p I. apply in_map_iff in I. destruct I as (q & <- & I). cbn [snd]. apply subst_keeps; [now apply E2|exact Er].
  - rewrite S2. now apply subst_keeps.
  - intros a. rewrite S3. destruct (s_artificial s) as [b|]; [|discriminate]. intros Z. injection Z as <-. apply subst_keeps; [now apply E4|exact Er].
Qed.
Lemma with_rows_keeps s rows : exact s = true -> rows_exact rows = true -> exact (with_rows s rows) = true.
Proof. rewrite !exact_parts. cbn. tauto. Qed.
Lemma flag_keeps s : exact s = true -> exact (with_exact s true) = true.
Proof. rewrite !exact_parts. cbn. rewrite andb_true_r. tauto. Qed.
Lemma changed_keeps s v : exact (var_changed s v) = exact s. Proof. reflexivity. Qed.
Lemma use_keeps s : exact (use s) = exact s. Proof. reflexivity. Qed.
Lemma rows_of_exact s : exact s = true -> rows_exact (s_rows s) = true. Proof. rewrite exact_parts. tauto. Qed.

Section Order.
Variable order : nat -> list symbol -> list symbol.
Hypothesis order_ok : forall n l, Permutation (order n l) l.

Lemma leaving_keeps s e p s' : get_leaving_row order s e = (p, s') -> exact s = true -> exact s' = true /\ forall y q, p = Some (y, q) -> r_exact q = true.
Proof.
  unfold get_leaving_row. intros E H. set (f := fun best x => _) in E. set (s0 := s) in f.
  assert (K : forall l b, (forall y q k, b = Some (y, q, k) -> r_exact q = true) -> forall y q k, fold_left f l b = Some (y, q, k) -> r_exact q = true).
  { induction l as [|x l IH]; intros b Hb y q k Z; [now apply (Hb y q k)|]. cbn [fold_left] in Z. apply (IH (f b x)) with (y := y) (k := k); [|exact Z].
    intros y' q' k'. unfold f at 1. destruct (look x (s_rows s0)) as [r|] eqn:Lx; [|apply Hb]. destruct (negb (is_external x)); [|apply Hb]. destruct (qltb _ 0); [|apply Hb].
    assert (Er : r_exact r = true) by (apply look_in in Lx; exact (exact_in _ _ (rows_of_exact s0 H) Lx)).
    destruct b as [[[y0 q0] k0]|]; [destruct (qltb _ k0); [|apply Hb]|]; intros Q; injection Q as <- <- <-; exact Er. }
  specialize (K (keys order s (s_rows s)) None ltac:(discriminate)). destruct (fold_left f (keys order s (s_rows s)) None) as [[[y q] k]|]; injection E as <- <-.
  - split; [apply with_rows_keeps; [exact H|apply drop_keeps; now apply rows_of_exact]|]. intros y' q' Z. injection Z as <- <-. exact (K y q k eq_refl).
  - split; [exact H|discriminate].
Qed.
Lemma optimize_keeps fuel art : forall s, exact s = true -> match optimize order fuel art s with Done s' => exact s' = true | Fail _ s' => exact s' = true | NoFuel => True end.
Proof.
  induction fuel as [|fuel IH]; intros s E; cbn [optimize]; [exact Logic.I|]. unfold get_entering_symbol. destruct (find _ _) as [x|]; [|exact E].
  destruct (get_leaving_row order (use s) x) as [p s1] eqn:Lv. destruct (leaving_keeps _ _ _ _ Lv E) as [E1 Kq]. destruct p as [[y q]|]; [|exact E1].
  apply IH. assert (Er : r_exact (solve_for_symbols q y x) = true) by (apply solves_keeps; exact (Kq y q eq_refl)). assert (E2 := substitute_keeps s1 x _ E1 Er).
  destruct (is_external x && _); (apply with_rows_keeps; [exact E2|apply put_keeps; [exact (rows_of_exact _ E2)|exact Er]]).
Qed.
Lemma term_keeps acc t : r_exact (fst acc) = true -> exact (snd acc) = true -> r_exact (fst (add_term acc t)) = true /\ exact (snd (add_term acc t)) = true.
Proof.
  destruct acc as [r s]. cbn [fst snd]. intros E1 E2. unfold add_term. destruct (near_zero (snd t)) eqn:N; [cbn; rewrite E1; split; [now apply near|exact E2]|].
  assert (Eg : exact (snd (get_var_symbol s (fst t))) = true) by (unfold get_var_symbol; destruct (find_var _ _); [exact E2|exact E2]).
  destruct (get_var_symbol s (fst t)) as [x s1]. cbn [snd] in Eg. destruct (look x (s_rows s1)) as [o|] eqn:Lx; cbn [fst snd]; (split; [|exact Eg]).
  - apply insert_row_keeps; [exact E1|]. apply look_in in Lx. exact (exact_in _ _ (rows_of_exact _ Eg) Lx).
  - now apply insert_keeps.
Qed.
Lemma objective_keeps s r : exact s = true -> r_exact r = true -> exact (with_objective s r) = true.
Proof. rewrite !exact_parts. cbn. tauto. Qed.
Lemma create_keeps s c r t s1 : exact s = true -> create_row s c = (r, t, s1) -> r_exact r = true /\ exact s1 = true.
Proof.
  intros E. unfold create_row.
  assert (K : forall ts acc, r_exact (fst acc) = true -> exact (snd acc) = true -> r_exact (fst (fold_left add_term ts acc)) = true /\ exact (snd (fold_left add_term ts acc)) = true).
  { induction ts as [|u ts IH]; intros acc A B; [auto|]. cbn [fold_left]. destruct (term_keeps acc u A B). now apply IH. }
  specialize (K (e_terms (c_expr c)) (new_row (e_const (c_expr c)), s) eq_refl E). destruct (fold_left add_term _ _) as [r0 s0]. cbn [fst snd] in K. destruct K as [K1 K2].
  assert (Ko : r_exact (s_objective s0) = true) by (apply exact_parts in K2; tauto).
  intros H. assert (Fin : forall rr tt ss, (if qltb (r_const rr) 0 then reverse_sign rr else rr, tt, ss) = (r, t, s1) -> r_exact rr = true -> exact ss = true -> r_exact r = true /\ exact s1 = true).
  { intros rr tt ss Q A B. injection Q as <- _ <-. split; [|exact B]. destruct (qltb _ 0); exact A. }
  unfold fresh in H. cbn [s_objective] in H.
  assert (Kf : forall n, exact (Solver (s_vars s0) (s_var_for s0) (s_changed s0) (s_rows s0) (s_objective s0) (s_artificial s0) n (s_uses s0) (s_exact s0)) = true) by (intros n; exact K2).
  destruct (c_op c); destruct (qltb (c_strength c) required); refine (Fin _ _ _ H _ _); repeat apply insert_keeps; try exact K1; try apply objective_keeps; repeat apply insert_keeps; try exact Ko; first [exact K2|exact (Kf 0%N)].
Qed.

(** The artificial variable: its row is zero when the objective made for it is. *)
Lemma art_keeps fuel s r z : inv s -> s_artificial s = None -> wf r -> 0 <= r_const r -> (forall y, occurs y r -> ~ In y (dom (s_rows s))) -> (forall y, occurs y r -> sy_type y <> TExternal) -> occurs z r -> sy_type z <> TDummy ->
  ~ In (Sym (s_tick s mod 256) TSlack) (dom (s_rows s)) -> (forall p, In p (s_rows s) -> ~ occurs (Sym (s_tick s mod 256) TSlack) (snd p)) -> ~ occurs (Sym (s_tick s mod 256) TSlack) r -> ~ occurs (Sym (s_tick s mod 256) TSlack) (s_objective s) ->
  exact s = true -> r_exact r = true ->
  match add_with_artificial_variable order fuel s r with Done p => exact (snd p) = true | Fail _ s' => exact s' = true | NoFuel => True end.
Proof.
  intros Hi An W Pr Nr Er Oz Tz A1 A2 A3 A4 Es Erx. pose proof (art_inv s r Hi W Pr Nr Er A2 A3 A4) as I1. pose proof (art_goal s r Hi A1) as Gl.
  unfold add_with_artificial_variable. cbn [fresh]. set (art := Sym (s_tick s mod 256) TSlack) in *. cbn [fresh snd] in I1, Gl. fold art in I1, Gl. set (s1 := with_artificial _ (Some r)) in *.
  assert (E1 : exact s1 = true). { apply exact_parts in Es. destruct Es as (B1 & B2 & B3 & _). apply exact_parts. split; [exact B1|]. split; [now apply put_keeps|]. split; [exact B3|]. intros a Z. injection Z as <-. exact Erx. }
  pose proof (optimize_keeps fuel true s1 E1) as Ok. pose proof (optimize_ok order order_ok true fuel s1 I1 ltac:(discriminate)) as O.
  destruct (optimize order fuel true s1) as [s'|e s'|]; cbn [rbind]; [|exact Ok|exact Logic.I]. destruct O as (I' & _ & _ & _ & Kx & _). destruct (Gl s' I' (proj2 (Kx Ok))) as (a & Ea & _ & Ka & _).
  assert (Ga : goal true s' = a) by (unfold goal; now rewrite Ea). rewrite Ga. clear Kx Gl.
  assert (Xa : r_exact a = true) by (apply exact_parts in Ok; now apply Ok).
  set (sx := with_artificial (with_exact s' _) None). assert (Ex : exact sx = true).
  { apply exact_parts in Ok. destruct Ok as (B1 & B2 & B3 & _). apply exact_parts. split; [|split; [exact B2|split; [exact B3|discriminate]]].
    cbn [sx s_exact with_artificial with_exact]. rewrite B1, Xa. cbn. destruct (near_zero (r_const a)) eqn:N; [|reflexivity]. cbn. now apply near. }
  assert (Cl : forall q, exact q = true -> exact (with_objective (with_rows q (map (fun p => (fst p, remove_symbol (snd p) art)) (s_rows q))) (remove_symbol (s_objective q) art)) = true).
  { intros q Eq. apply exact_parts in Eq. destruct Eq as (B1 & B2 & B3 & B4). apply exact_parts. split; [exact B1|]. split; [|split; [exact B3|exact B4]].
    cbn [s_rows with_objective with_rows]. unfold rows_exact in *. rewrite forallb_forall in *. intros p I. apply in_map_iff in I. destruct I as (w & <- & I). exact (B2 w I). }
  change (s_rows sx) with (s_rows s') at 1. destruct (look art (s_rows s')) as [ra|] eqn:Lk; [|exact (Cl sx Ex)].
  assert (Xr : r_exact ra = true) by (exact (exact_in _ _ (rows_of_exact _ Ok) (look_in _ _ _ Lk))).
  unfold sol in Ka. rewrite Lk in Ka.
  assert (Fa : r_exact ra && (negb (near_zero (r_const a)) || is_zero (r_const ra)) = true).
  { rewrite Xr. cbn. destruct (near_zero (r_const a)) eqn:N; [|reflexivity]. cbn. apply near in N. apply is_zero_ok. rewrite <- Ka. now apply is_zero_ok. }
  rewrite Fa. set (sd := with_rows (with_exact sx true) _). assert (Ed : exact sd = true).
  { apply with_rows_keeps; [|apply drop_keeps; exact (rows_of_exact _ Ex)]. now apply flag_keeps. }
  clearbody sd. destruct (r_cells ra) as [|c0 cs] eqn:Rc; rewrite <- ?Rc; [exact Ed|]. unfold any_pivotable_symbol. destruct (find _ _) as [x|]; [|exact Ed]. cbn [snd].
  set (r' := solve_for_symbols ra art x). assert (E5 := substitute_keeps (use sd) x r' Ed (solves_keeps ra art x Xr)).
  assert (E6 : exact (with_rows (substitute (use sd) x r') (put_at x r' (s_rows (substitute (use sd) x r')))) = true) by (apply with_rows_keeps; [exact E5|]; apply put_keeps; [exact (rows_of_exact _ E5)|now apply solves_keeps]).
  exact (Cl _ E6).
Qed.

Lemma put_row_keeps fuel s L c : good s L -> exact s = true -> match put_row order s c fuel with
  | Done s2 => (s_tick s2 <= 256)%N -> exact s2 = true
  | Fail _ s2 => (s_tick s2 <= 256)%N -> exact s2 = true
  | NoFuel => True end.
Proof.
  intros G E. unfold put_row. pose proof (create_row_ok s c) as Cr. pose proof (create_keeps s c) as Ck. destruct (create_row s c) as [[r t] s1]. destruct (Ck r t s1 E eq_refl) as [Xr E1]. clear Ck. destruct Cr as [K Cr].
  assert (R1 : s_rows s1 = s_rows s) by apply K. assert (T1 : (s_tick s <= s_tick s1)%N) by apply K. assert (Ar1 : s_artificial s1 = None) by (rewrite <- (g_art _ _ G); apply K).
  destruct (choose_subject order s1 r t) as [subj s2] eqn:Cs. assert (Us : s2 = use s1) by (unfold choose_subject in Cs; injection Cs as _ <-; reflexivity).
  assert (Xe : forall b, b = true -> exact (with_exact s2 b) = true) by (intros b ->; apply flag_keeps; now subst s2).
  set (ns := match subj with None => true | Some _ => false end).
  destruct (ns && all_dummies r && negb (near_zero (r_const r))) eqn:Bad; [intros _; now apply Xe|].
  set (s3 := if ns && all_dummies r then _ else s2). assert (E3 : exact s3 = true).
  { unfold s3. destruct (ns && all_dummies r); [|now subst s2]. apply Xe. cbn in Bad. apply negb_false_iff in Bad. now apply near. }
  destruct (ns && all_dummies r) eqn:Nd; [|destruct subj as [x|]].
  - intros _. assert (E4 := substitute_keeps s3 (t_marker t) (solve_for_symbol r (t_marker t)) E3 Xr). destruct (is_external (t_marker t) && _); (apply with_rows_keeps; [exact E4|apply put_keeps; [exact (rows_of_exact _ E4)|exact Xr]]).
  - intros _. assert (E4 := substitute_keeps s3 x (solve_for_symbol r x) E3 Xr). destruct (is_external x && _); (apply with_rows_keeps; [exact E4|apply put_keeps; [exact (rows_of_exact _ E4)|exact Xr]]).
  - subst s3. destruct (subject_none order order_ok _ _ _ _ Cs) as [_ Ne]. assert (Ad : all_dummies r = false) by (unfold ns in Nd; exact Nd). destruct (not_dummies r Ad) as (z & Oz & Tz).
    assert (Fl : forall s4, ((exists b, add_with_artificial_variable order fuel s2 r = Done (b, s4)) \/ (exists e, add_with_artificial_variable order fuel s2 r = Fail e s4)) -> s_tick s4 = (s_tick s1 + 1)%N).
    { intros s4 H. destruct (art_flags order order_ok (fun _ => True) fuel s2 r) with (s2 := s4) as (_ & _ & F3 & _); auto; [repeat split|]. subst s2. exact F3. }
    assert (Art : (s_tick s1 + 1 <= 256)%N -> match add_with_artificial_variable order fuel s2 r with Done p => exact (snd p) = true | Fail _ s' => exact s' = true | NoFuel => True end).
    { intros H. destruct (Cr ltac:(lia) (proj1 (g_inv _ _ G)) (proj1 (proj2 (g_inv _ _ G))) (proj1 (g_syms _ _ G)) (proj1 (proj2 (g_syms _ _ G))) (g_vars _ _ G)) as (mk & C).
      assert (I1 : inv s1). { split; [rewrite R1; apply G|]. split; [rewrite R1; exact (cr_obj _ _ _ _ _ _ C)|]. rewrite Ar1. discriminate. }
      destruct (cr_fits _ _ _ _ _ _ C) as [W Fi]. subst s2.
      assert (Va : sy_value (Sym (s_tick (use s1) mod 256) TSlack) = s_tick s1) by (cbn; apply N.mod_small; lia).
      assert (B1 : forall p, In p (s_rows (use s1)) -> below s1 (fst p) /\ forall x, occurs x (snd p) -> below s1 x).
      { intros p I. cbn in I. rewrite R1 in I. destruct (proj1 (g_syms _ _ G) p I) as [Z1 Z2]. unfold below in *. split; [lia|]. intros x O. specialize (Z2 x O). lia. }
      apply (art_keeps fuel (use s1) r z); try assumption.
      - apply C.
      - intros y O. now apply Fi.
      - intros I. apply in_map_iff in I. destruct I as (p & Q & I). apply B1 in I. destruct I as [I _]. rewrite Q in I. unfold below in I. rewrite Va in I. lia.
      - intros p I O. apply B1 in I. destruct I as [_ I]. apply I in O. unfold below in O. rewrite Va in O. lia.
      - intros O. apply Fi in O. destruct O as [_ O]. unfold below in O. rewrite Va in O. lia.
      - intros O. apply (cr_obj_below _ _ _ _ _ _ C) in O; [|apply (g_syms _ _ G)]. unfold below in O. rewrite Va in O. lia. }
    destruct (add_with_artificial_variable order fuel s2 r) as [[b s4]|e s4|]; cbn [rbind fst snd]; [| |exact Logic.I].
    + assert (T4 := Fl s4 (or_introl (ex_intro _ b eq_refl))). destruct b; intros H; apply Art; lia.
    + assert (T4 := Fl s4 (or_intror (ex_intro _ e eq_refl))). intros H. apply Art. lia.
Qed.
Lemma add_keeps fuel s L c : good s L -> exact s = true -> match add_constraint order fuel s c with
  | Done s2 => (s_tick s2 <= 256)%N -> exact s2 = true
  | Fail _ s2 => (s_tick s2 <= 256)%N -> exact s2 = true
  | NoFuel => True end.
Proof.
  intros G E. rewrite add_put_row. pose proof (put_row_keeps fuel s L c G E) as P. destruct (put_row order s c fuel) as [s2|e s2|]; cbn [rbind]; [|exact P|exact Logic.I].
  pose proof (optimize_keeps fuel false s2) as O. pose proof (optimize_flags order order_ok false fuel s2) as Fg. destruct (optimize order fuel false s2) as [s'|e s'|]; [| |exact Logic.I]; intros H.
  - destruct (Fg s' (or_introl eq_refl)) as ((_ & _ & F3) & _). apply O, P. lia.
  - destruct (Fg s' (or_intror (ex_intro _ e eq_refl))) as ((_ & _ & F3) & _). apply O, P. lia.
Qed.
Lemma adds_keeps fuel : forall cs s L, good s L -> exact s = true -> (forall c', In c' (map fst L ++ cs) -> 0 <= c_strength c') ->
  match add_constraints order fuel s cs with
  | Done s2 => (s_tick s2 <= 256)%N -> exact s2 = true
  | Fail _ s2 => (s_tick s2 <= 256)%N -> exact s2 = true
  | NoFuel => True end.
Proof.
  induction cs as [|c cs IH]; intros s L G E St; cbn [add_constraints]; [auto|].
  assert (St1 : forall c', In c' (map fst L ++ [c]) -> 0 <= c_strength c') by (intros c' I; apply St; apply in_app_iff; apply in_app_iff in I; cbn in *; tauto).
  pose proof (add_keeps fuel s L c G E) as A. pose proof (add_ok order order_ok s L c G fuel St1) as B. destruct (add_constraint order fuel s c) as [s1|e s1|]; cbn [rbind]; [|exact A|exact Logic.I].
  assert (Next : (s_tick s1 <= 256)%N -> exists mk, good s1 (L ++ [(c, mk)]) /\ exact s1 = true).
  { intros H. specialize (A H). destruct (B H) as (mk & G1 & _); [apply exact_parts in A; tauto|]. exists mk. auto. }
  assert (St2 : forall mk c', In c' (map fst (L ++ [(c, mk)]) ++ cs) -> 0 <= c_strength c') by (intros mk c' I; apply St; rewrite map_app, <- app_assoc in I; exact I).
  destruct (add_constraints order fuel s1 cs) as [s'|e s'|] eqn:Ea; [| |exact Logic.I]; intros H.
  - pose proof (adds_later order order_ok fuel cs s1 s' Ea) as [L1 _]. destruct (Next ltac:(lia)) as (mk & G1 & E1). specialize (IH s1 _ G1 E1 (St2 mk)). rewrite Ea in IH. auto.
  - pose proof (adds_later_fail order order_ok fuel cs s1 e s' Ea) as [L1 _]. destruct (Next ltac:(lia)) as (mk & G1 & E1). specialize (IH s1 _ G1 E1 (St2 mk)). rewrite Ea in IH. auto.
Qed.
End Order.
End Tolerance.
