(** How many symbols a run makes. *)
From Verif Require Import Base M_Solver S_Solver P_Row P_Tableau P_Simplex P_Add P_Art P_Create P_System P_Step P_Noted.
From Coq Require Import ZArith NArith QArith List Bool Lia Lqa Permutation.
Import ListNotations.
Section Tolerance.
Context {tolr : tolerance}.

Definition counted (vs : list variable) (n : nat) (s : solver) : Prop :=
  NoDup (map fst (s_vars s)) /\ incl (map fst (s_vars s)) vs /\ (N.to_nat (s_tick s) <= 1 + length (s_vars s) + n)%nat.
Lemma counted_frame vs n s s' : frame s s' -> counted vs n s -> counted vs n s'.
Proof. intros (F1 & _ & F3). unfold counted. rewrite F1, F3. auto. Qed.
Lemma terms_counted vs n ts : forall r s, incl (map fst ts) vs -> counted vs n s -> counted vs n (snd (fold_left add_term ts (r, s))).
Proof.
  induction ts as [|t ts IH]; intros r s I C; [exact C|]. cbn [fold_left]. destruct (add_term (r, s) t) as [r1 s1] eqn:E. apply IH; [intros v J; apply I; now right|].
  unfold add_term in E. destruct (near_zero (snd t)); [injection E as _ <-; exact C|]. destruct (get_var_symbol s (fst t)) as [x s2] eqn:G. assert (s1 = s2) by (destruct (look x (s_rows s2)); injection E as _ <-; reflexivity). subst s2. clear E.
  unfold get_var_symbol in G. destruct (find_var (fst t) (s_vars s)) eqn:F; [injection G as _ <-; exact C|]. cbn [fresh] in G. injection G as _ <-. destruct C as (C1 & C2 & C3). unfold counted. cbn. split; [constructor; [now apply find_var_none|exact C1]|]. split; [|lia].
  intros v [<-|J]; [apply I; now left|now apply C2].
Qed.
(** A constraint that is required may need an artificial variable, besides its marker; one that is not never does, as one of its two errors can be solved for. *)
Definition symbols_of (c : constr) : nat := 2%nat.
Lemma qltb_le a b : qltb a b = negb (Qle_bool b a).
Proof. destruct (qltb a b) eqn:E; symmetry; [apply negb_true_iff|apply negb_false_iff]. - destruct (Qle_bool b a) eqn:F; [|reflexivity]. apply Qle_bool_iff in F. apply qltb_ok in E. exfalso. apply (Qlt_not_le _ _ E F). - apply Qle_bool_iff. now apply qltb_no. Qed.
Lemma create_counted vs n s c : incl (map fst (e_terms (c_expr c))) vs -> counted vs n s -> let '(_, s1) := create_row s c in counted vs (n + (if Qle_bool required (c_strength c) then 1 else 2)) s1.
Proof.
  intros I C. unfold create_row. pose proof (terms_counted vs n (e_terms (c_expr c)) (new_row (e_const (c_expr c))) s I C) as T. destruct (fold_left add_term _ _) as [r0 s0]. cbn [snd] in T. rewrite qltb_le. destruct T as (T1 & T2 & T3).
  destruct (c_op c); destruct (Qle_bool required (c_strength c)); cbn; unfold counted; cbn; repeat split; try assumption; lia.
Qed.
Lemma cf_fresh r x k y : ~ occurs x r -> near_zero k = false -> cf (r_cells (insert_symbol r x k)) y = if sym_eqb y x then k else cf (r_cells r) y.
Proof. intros N Z. rewrite insert_fresh by assumption. unfold cf. cbn [r_cells]. rewrite look_put. destruct (sym_eqb y x); reflexivity. Qed.
Lemma cf_reverse r x : cf (r_cells (reverse_sign r)) x == - cf (r_cells r) x.
Proof.
  unfold reverse_sign, cf. cbn [r_cells]. induction (r_cells r) as [|[y k] l IH]; [reflexivity|]. cbn [map look fst snd]. destruct (sym_eqb x y); [apply qopp_ok|exact IH].
Qed.
Definition all_known (s : solver) : Prop := vinv s /\ forall p, In p (s_rows s) -> forall x, occurs x (snd p) -> below s x.
Lemma known_live s : live s -> all_known s.
Proof. intros (V & (B & _) & _). split; [exact V|]. intros p J. now apply B. Qed.
(** One of the two errors of a constraint that is not required comes with a negative sign. *)
Lemma soft_row s c : all_known s -> Qle_bool required (c_strength c) = false -> let '(r, t, s1) := create_row s c in (s_tick s1 <= 256)%N ->
  exists o, t_other t = Some o /\ (sy_type (t_marker t) = TSlack \/ sy_type (t_marker t) = TError) /\ (sy_type o = TSlack \/ sy_type o = TError) /\ (cf (r_cells r) (t_marker t) < 0 \/ cf (r_cells r) o < 0)%Q.
Proof.
  intros [V B] Sf. pose proof (terms_vars (e_terms (c_expr c)) (new_row (e_const (c_expr c))) s) as T. unfold create_row. destruct (fold_left add_term _ _) as [r0 s0]. destruct T as (T1 & _ & _ & T4). rewrite qltb_le, Sf. cbn [negb].
  assert (K : forall a b k k' tya tyb, (k == 1 /\ k' == -(1) \/ k == -(1) /\ k' == 1)%Q -> near_zero k = false -> near_zero k' = false -> a = Sym (s_tick s0 mod 256) tya -> b = Sym ((s_tick s0 + 1) mod 256) tyb -> (s_tick s0 + 1 + 1 <= 256)%N ->
    let r := insert_symbol (insert_symbol r0 a k) b k' in (cf (r_cells (if qltb (r_const r) 0 then reverse_sign r else r)) a < 0 \/ cf (r_cells (if qltb (r_const r) 0 then reverse_sign r else r)) b < 0)%Q).
  { intros a b k k' tya tyb Hk Nk Nk' Ea Eb H. destruct (T4 ltac:(lia) V B) as (_ & O0 & _); [intros x []|]. rewrite N.mod_small in Ea, Eb by lia.
    assert (Na : ~ occurs a r0) by (intros O; apply O0 in O; subst a; unfold below in O; cbn in O; lia). assert (Nb : ~ occurs b r0) by (intros O; apply O0 in O; subst b; unfold below in O; cbn in O; lia).
    assert (Ab : a <> b) by (intros Z; rewrite Ea, Eb in Z; injection Z as Z _; lia).
    assert (Nb' : ~ occurs b (insert_symbol r0 a k)) by (intros O; apply insert_occurs in O; destruct O as [O|O]; [congruence|contradiction]).
    intros r. assert (Ca : cf (r_cells r) a = k). { unfold r. rewrite cf_fresh by assumption. destruct (sym_eqb a b) eqn:Q; [apply sym_eqb_ok in Q; contradiction|]. rewrite cf_fresh by assumption. now rewrite sym_eqb_refl. }
    assert (Cb : cf (r_cells r) b = k') by (unfold r; rewrite cf_fresh by assumption; now rewrite sym_eqb_refl).
    destruct (qltb (r_const r) 0); rewrite ?cf_reverse, ?Ca, ?Cb; destruct Hk as [[H1 H2]|[H1 H2]]; lra. }
  destruct (c_op c); cbn [fresh s_tick]; intros H; eexists; (split; [reflexivity|]); cbn [t_marker sy_type]; (split; [tauto|]); (split; [tauto|]).
  - apply (K _ _ 1 (qopp 1) TSlack TError); try reflexivity; [left; split; [reflexivity|rewrite qopp_ok; reflexivity]|apply one_far|apply one_far|exact H].
  - apply (K _ _ (-(1)) 1 TError TError); try reflexivity; [right; split; reflexivity|apply one_far|apply one_far|exact H].
  - apply (K _ _ (-(1)) (qopp (-(1))) TSlack TError); try reflexivity; [right; split; [reflexivity|rewrite qopp_ok; reflexivity]|apply one_far|apply one_far|exact H].
Qed.
Lemma subject_known order s r t o : t_other t = Some o -> (sy_type (t_marker t) = TSlack \/ sy_type (t_marker t) = TError) -> (sy_type o = TSlack \/ sy_type o = TError) -> (cf (r_cells r) (t_marker t) < 0 \/ cf (r_cells r) o < 0)%Q -> fst (choose_subject order s r t) <> None.
Proof.
  intros Eo Tm To H. unfold choose_subject. cbn [fst]. destruct (find is_external _); [discriminate|].
  destruct (match sy_type (t_marker t) with TSlack | TError => qltb (coefficient_for r (t_marker t)) 0 | _ => false end) eqn:Um; [discriminate|]. rewrite Eo.
  destruct (match sy_type o with TSlack | TError => qltb (coefficient_for r o) 0 | _ => false end) eqn:Uo; [discriminate|]. exfalso.
  rewrite cf_is in Um, Uo. destruct H as [H|H]; apply qltb_ok in H; [destruct Tm as [Tm|Tm]; rewrite Tm in Um|destruct To as [To|To]; rewrite To in Uo]; congruence.
Qed.
Section Order.
Variable order : nat -> list symbol -> list symbol.
Hypothesis order_ok : forall n l, Permutation (order n l) l.
Lemma add_counted vs n fuel s c s' : all_known s -> (length vs + n + symbols_of c <= 255)%nat -> incl (map fst (e_terms (c_expr c))) vs -> counted vs n s -> add_constraint order fuel s c = Done s' \/ (exists e, add_constraint order fuel s c = Fail e s') -> counted vs (n + symbols_of c) s'.
Proof.
  intros Lv Hn I C. unfold add_constraint. pose proof (create_counted vs n s c I C) as Cr. pose proof (soft_row s c Lv) as Sr. destruct (create_row s c) as [[r t] s1].
  unfold symbols_of in *. set (m := if Qle_bool required (c_strength c) then 1%nat else 2%nat) in *.
  assert (Up : forall q, counted vs (n + m) q -> counted vs (n + 2) q) by (intros q (A1 & A2 & A3); repeat split; [exact A1|exact A2|unfold m in A3; destruct (Qle_bool _ _); lia]).
  assert (T1 : (s_tick s1 <= 256)%N). { destruct (Up _ Cr) as (A1 & A2 & A3). apply (NoDup_incl_length A1) in A2. rewrite map_length in A2. lia. }
  assert (Su : m = 1%nat \/ fst (choose_subject order s1 r t) <> None).
  { unfold m. destruct (Qle_bool required (c_strength c)); [now left|right]. destruct (Sr eq_refl T1) as (o & Eo & Tm & To & H). now apply (subject_known order s1 r t o). }
  destruct (choose_subject order s1 r t) as [subj s2] eqn:Cs. cbn [fst] in Su. assert (C2 : counted vs (n + m) s2) by (unfold choose_subject in Cs; injection Cs as _ <-; exact Cr). clear Cs Cr T1 Sr s1.
  set (ns := match subj with None => true | Some _ => false end).
  destruct (ns && all_dummies r && negb (near_zero (r_const r))).
  { intros [E|[e E]]; [discriminate|]. injection E as _ <-. apply Up. exact C2. }
  set (s3 := if ns && all_dummies r then _ else s2). assert (C3 : counted vs (n + m) s3) by (unfold s3; destruct (ns && all_dummies r); exact C2).
  clearbody s3. clear C2 s2. set (sub := if ns && all_dummies r then Some (t_marker t) else subj). assert (Ss : m = 1%nat \/ sub <> None) by (unfold sub; destruct Su as [Su|Su]; [now left|right; destruct (ns && all_dummies r); [discriminate|exact Su]]). clearbody sub. clear ns Su.
  assert (Op : forall q, counted vs (n + 2) q -> (optimize order fuel false q = Done s' \/ exists e, optimize order fuel false q = Fail e s') -> counted vs (n + 2) s').
  { intros q Lq E. apply (optimize_flags order order_ok) in E. destruct E as (F & _). now apply (counted_frame vs _ q). }
  destruct sub as [x|]; cbn [rbind].
  - apply Op. apply Up. destruct (substitute_fields s3 x (solve_for_symbol r x)) as (F & _). refine (counted_frame vs _ s3 _ _ C3). destruct (is_external x && _); exact F.
  - assert (Em : m = 1%nat) by (destruct Ss as [Ss|Ss]; congruence).
    assert (Art : forall q, ((exists b, add_with_artificial_variable order fuel s3 r = Done (b, q)) \/ (exists e, add_with_artificial_variable order fuel s3 r = Fail e q)) -> counted vs (n + 2) q).
    { intros q E. destruct (art_flags order order_ok (fun _ => True) fuel s3 r) with (s2 := q) as (F1 & _ & F3 & _); auto; [repeat split|]. destruct C3 as (A1 & A2 & A3). unfold counted. rewrite F1, F3. repeat split; [exact A1|exact A2|lia]. }
    destruct (add_with_artificial_variable order fuel s3 r) as [[b q]|e q|] eqn:Ea; cbn [rbind].
    + assert (La : counted vs (n + 2) q) by (apply Art; left; eauto).
      cbn [fst snd]. destruct b; cbn [rbind]; [now apply Op|]. intros [E|[e E]]; [discriminate|]. injection E as _ <-. exact La.
    + intros [E|[e' E]]; [discriminate|]. injection E as _ <-. apply Art. right. eauto.
    + intros [E|[e' E]]; discriminate.
Qed.
Lemma counted_ticks vs n s : counted vs n s -> (N.to_nat (s_tick s) <= 1 + length vs + n)%nat.
Proof. intros (A1 & A2 & A3). apply (NoDup_incl_length A1) in A2. rewrite map_length in A2. lia. Qed.
Lemma adds_counted vs fuel : forall cs n s s', live s -> s_artificial s = None -> (forall c, In c cs -> incl (map fst (e_terms (c_expr c))) vs) -> counted vs n s -> (length vs + n + fold_right (fun c acc => symbols_of c + acc) 0 cs <= 255)%nat ->
  add_constraints order fuel s cs = Done s' \/ (exists e, add_constraints order fuel s cs = Fail e s') -> counted vs (n + fold_right (fun c acc => symbols_of c + acc) 0 cs)%nat s'.
Proof.
  induction cs as [|c cs IH]; intros n s s' Lv An I C H E; cbn in E; [destruct E as [E|[e E]]; [|discriminate]; injection E as <-; now rewrite Nat.add_0_r|]. cbn [fold_right] in *.
  pose proof (fun q H' => add_counted vs n fuel s c q (known_live s Lv) ltac:(lia) (I c (or_introl eq_refl)) C H') as A. destruct (add_constraint order fuel s c) as [s1|e1 s1|] eqn:E1; cbn [rbind] in E.
  - specialize (A s1 (or_introl eq_refl)). assert (T := counted_ticks _ _ _ A). destruct (add_live order order_ok fuel s c s1 Lv An E1 ltac:(lia)) as [L1 A1].
    rewrite Nat.add_assoc. apply (IH (n + symbols_of c)%nat s1 s' L1 A1 (fun c' J => I c' (or_intror J)) A ltac:(lia) E).
  - destruct E as [E|[e E]]; [discriminate|]. injection E as _ <-. destruct (A s1 (or_intror (ex_intro _ e1 eq_refl))) as (A1 & A2 & A3). repeat split; [exact A1|exact A2|lia].
  - destruct E as [E|[e E]]; discriminate.
Qed.
End Order.
Lemma small_ticks order fuel cs s' : (forall n l, Permutation (order n l) l) -> (length (variables cs) + fold_right (fun c acc => symbols_of c + acc) 0 cs <= 255)%nat ->
  add_constraints order fuel new_solver cs = Done s' \/ (exists e, add_constraints order fuel new_solver cs = Fail e s') -> (s_tick s' <= 256)%N.
Proof.
  intros Oo H E. assert (A := adds_counted order Oo (variables cs) fuel cs 0 new_solver s' live_new eq_refl). apply (counted_ticks (variables cs)) in A; [lia| |repeat split; [constructor|intros v []|cbn; lia]|lia|exact E].
  intros c I v J. unfold variables. apply nodup_In. apply in_flat_map. eauto.
Qed.
Lemma symbols_two cs : fold_right (fun c acc => symbols_of c + acc)%nat 0%nat cs = (2 * length cs)%nat.
Proof. induction cs as [|c cs IH]; [reflexivity|]. cbn [fold_right length]. rewrite IH. unfold symbols_of. lia. Qed.
End Tolerance.
