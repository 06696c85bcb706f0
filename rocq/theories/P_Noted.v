(** Variables whose value is not zero are noted as changed. *)
From Verif Require Import Base M_Solver S_Solver P_Row P_Tableau P_Simplex P_Add P_Art P_Create P_System P_Step.
From Coq Require Import ZArith NArith QArith List Bool Lia Lqa Setoid Permutation.
Import ListNotations.
Open Scope Q_scope.
Section Tolerance.
Context {tolr : tolerance}.

Definition noted (s : solver) : Prop := forall v x r, In (v, x) (s_vars s) -> In (x, r) (s_rows s) -> ~ r_const r == 0 -> In v (s_changed s).
Definition live (s : solver) : Prop := vinv s /\ syms (below s) s /\ noted s.

Lemma var_changed_in s v w : In w (s_changed (var_changed s v)) <-> w = v \/ In w (s_changed s).
Proof.
  cbn. destruct (existsb (Z.eqb v) (s_changed s)) eqn:E; cbn; [|intuition]. apply existsb_exists in E. destruct E as (y & I & E). apply Z.eqb_eq in E. subst y. intuition. now subst.
Qed.
Lemma changed_fold_in (f : solver -> symbol * row -> variable) l : (forall s s' p, s_var_for s = s_var_for s' -> f s p = f s' p) -> forall s w,
  In w (s_changed (fold_left (fun s p => var_changed s (f s p)) l s)) <-> (exists p, In p l /\ w = f s p) \/ In w (s_changed s).
Proof.
  intros Hf. induction l as [|p l IH]; intros s w; [cbn; split; [auto|intros [(p & [] & _)|H]; exact H]|]. cbn [fold_left]. rewrite IH, var_changed_in. split.
  - intros [(q & I & E)|[E|I]]; [left; exists q; split; [now right|rewrite E; now apply Hf]|left; exists p; split; [now left|exact E]|now right].
  - intros [(q & [<-|I] & E)|I]; [auto|left; exists q; split; [exact I|rewrite E; now apply Hf]|auto].
Qed.
Lemma substitute_changed s x r w : In w (s_changed (substitute s x r)) <->
  (exists p, In p (s_rows s) /\ is_external (fst p) = true /\ snd (substitute_row (snd p) x r) = true /\ w = var_for s (fst p)) \/ In w (s_changed s).
Proof.
  unfold substitute. set (l := filter _ _). set (s1 := fold_left _ l s).
  assert (E : In w (s_changed s1) <-> (exists p, In p l /\ w = var_for s (fst p)) \/ In w (s_changed s)).
  { unfold s1. apply (changed_fold_in (fun s p => var_for s (fst p))). intros a b p E. unfold var_for. now rewrite E. }
  assert (C : forall q, In w (s_changed (match s_artificial q with Some a => with_artificial q (Some (fst (substitute_row a x r))) | None => q end)) <-> In w (s_changed q)) by (intros q; destruct (s_artificial q); reflexivity).
  rewrite C. cbn [with_objective with_rows s_changed]. rewrite E. unfold l. split; (intros [(p & H)|H]; [left; exists p|now right]).
  - destruct H as [H W]. apply filter_In in H. destruct H as [H F]. apply andb_prop in F. tauto.
  - destruct H as (H & F1 & F2 & W). split; [|exact W]. apply filter_In. split; [exact H|]. rewrite F1, F2. reflexivity.
Qed.
Lemma fold_const l k : forall r, r_const (fold_left (fun r p => insert_symbol r (fst p) (qmul (snd p) k)) l r) = r_const r.
Proof. induction l as [|p l IH]; intros r; [reflexivity|]. cbn [fold_left]. rewrite IH. apply insert_const. Qed.
Lemma substitute_row_const r x o : snd (substitute_row r x o) = false -> r_const (fst (substitute_row r x o)) == r_const r.
Proof.
  unfold substitute_row. destruct (look x (r_cells r)) as [k|]; [|reflexivity]. unfold insert_row. cbn [fst snd]. intros H. apply negb_false_iff in H. apply is_zero_ok in H.
  rewrite fold_const. cbn [r_const remove_symbol]. rewrite qadd_ok, H. ring.
Qed.
Lemma noted_sub s s' : s_vars s' = s_vars s -> (forall p, In p (s_rows s') -> exists r, In (fst p, r) (s_rows s) /\ r_const r == r_const (snd p)) -> (forall w, In w (s_changed s) -> In w (s_changed s')) -> noted s -> noted s'.
Proof.
  intros V R C N v x r I J Z. rewrite V in I. destruct (R _ J) as (r0 & J0 & E). cbn [fst snd] in *. apply C. apply (N v x r0 I J0). now rewrite E.
Qed.
(** The leaving row may have been taken out already. *)
Lemma noted_enter s x r : vinv s -> noted s ->
  let q := substitute s x r in let q2 := if is_external x && negb (is_zero (r_const r)) then var_changed q (var_for q x) else q in noted (with_rows q2 (put_at x r (s_rows q2))).
Proof.
  intros V N. cbv zeta. set (q := substitute s x r). destruct (substitute_fields s x r) as ((F1 & F2 & _) & F3 & _). fold q in F1, F2, F3. set (q2 := if is_external x && _ then _ else q).
  assert (V2 : s_vars q2 = s_vars s) by (unfold q2; destruct (is_external x && _); exact F1). assert (R2 : s_rows q2 = s_rows q) by (unfold q2; destruct (is_external x && _); reflexivity).
  assert (C2 : forall w, In w (s_changed q) -> In w (s_changed q2)) by (intros w I; unfold q2; destruct (is_external x && _); [apply var_changed_in; now right|exact I]).
  intros v y r1 I J Z. cbn [with_rows s_vars s_rows s_changed] in *. rewrite V2 in I. destruct (vi_types _ V v y I) as [Ty _]. pose proof (vi_back _ V v y I) as Bk. apply put_in' in J. destruct J as [J|J].
  - injection J as -> ->. unfold q2. apply is_external_ok in Ty. rewrite Ty. apply is_zero_no in Z. rewrite Z. cbn [andb negb]. apply var_changed_in. left. unfold var_for. rewrite F2, Bk. reflexivity.
  - apply C2. rewrite R2, F3 in J. apply subst_in in J. destruct J as (p & J & E1 & E2). cbn [fst snd] in *. subst y r1. unfold q. apply substitute_changed. destruct (snd (substitute_row (snd p) x r)) eqn:Fl.
    + left. exists p. split; [exact J|]. split; [now apply is_external_ok|]. split; [exact Fl|]. unfold var_for. now rewrite Bk.
    + right. apply substitute_row_const in Fl. apply (N v (fst p) (snd p) I). { now destruct p. } now rewrite <- Fl.
Qed.
Lemma vinv_frame s s' : frame s s' -> vinv s -> vinv s'.
Proof. intros (F1 & F2 & F3) V. apply (vinv_kept s); [exact F1|exact F2|lia|exact V]. Qed.

Section Order.
Variable order : nat -> list symbol -> list symbol.
Hypothesis order_ok : forall n l, Permutation (order n l) l.

Lemma optimize_noted art : forall fuel s s', vinv s -> noted s -> optimize order fuel art s = Done s' -> noted s'.
Proof.
  induction fuel as [|fuel IH]; intros s s' V N E; [discriminate|]. cbn [optimize] in E. unfold get_entering_symbol in E.
  destruct (find _ (keys order s (r_cells (goal art s)))) as [x|]; [|injection E as <-; exact N].
  pose proof (leaving_ok order order_ok (use s) x) as L. destruct (get_leaving_row order (use s) x) as [[[y r]|] s1]; [|discriminate]. cbn [s_rows use] in L.
  assert (Es1 : s1 = with_rows (use (use s)) (drop_key y (s_rows s))) by tauto. clear L.
  assert (N1 : noted s1). { apply (noted_sub s); [now subst s1| |now subst s1|exact N]. intros p I. subst s1. cbn in I. apply drop_in in I. exists (snd p). split; [|reflexivity]. destruct I as [I _]. now destruct p. }
  assert (V1 : vinv s1) by (apply (vinv_frame s); [subst s1; repeat split|exact V]).
  set (r' := solve_for_symbols r y x) in *. refine (IH _ _ _ _ E).
  - destruct (substitute_fields s1 x r') as (F & _). refine (vinv_frame s1 _ _ V1). destruct (is_external x && _); exact F.
  - apply (noted_enter s1 x r'); assumption.
Qed.
Lemma art_noted fuel s r s' : vinv s -> noted s -> add_with_artificial_variable order fuel s r = Done (true, s') -> noted s'.
Proof.
  intros V N. unfold add_with_artificial_variable. cbn [fresh]. set (art := Sym (s_tick s mod 256) TSlack). set (s1 := with_artificial _ (Some r)).
  assert (V1 : vinv s1). { unfold s1. apply (vinv_kept s); try reflexivity; [cbn; lia|exact V]. }
  assert (N1 : noted s1). { intros v x r1 I J Z. cbn in I, J. apply put_in' in J. destruct J as [J|J]; [|exact (N v x r1 I J Z)]. injection J as -> ->. apply (vi_types _ V) in I. destruct I as [I _]. discriminate. }
  clearbody s1. destruct (optimize order fuel true s1) as [s2|e s2|] eqn:E; cbn [rbind]; try discriminate.
  pose proof (optimize_noted true fuel s1 s2 V1 N1 E) as N2. assert (V2 : vinv s2) by (apply (vinv_frame s1); [now apply (optimize_flags order order_ok true fuel s1 s2 (or_introl E))|exact V1]).
  clear E N1 V1 s1 N V. set (k := r_const (goal true s2)). set (s3 := with_artificial _ None). assert (A3 : s_artificial s3 = None) by reflexivity. assert (N3 : noted s3) by exact N2. assert (V3 : vinv s3) by (apply (vinv_frame s2); [repeat split|exact V2]). clearbody s3. clear N2 V2.
  assert (Clean : forall q, noted q -> noted (with_objective (with_rows q (map (fun p => (fst p, remove_symbol (snd p) art)) (s_rows q))) (remove_symbol (s_objective q) art))).
  { intros q Nq. apply (noted_sub q); [reflexivity| |auto|exact Nq]. intros p I. cbn in I. apply in_map_iff in I. destruct I as (p0 & <- & I). exists (snd p0). cbn. split; [now destruct p0|reflexivity]. }
  destruct (look art (s_rows s3)) as [ra|].
  - set (s4 := with_rows _ (drop_key art (s_rows _))). assert (N4 : noted s4). { apply (noted_sub s3); [reflexivity| |auto|exact N3]. intros p I. cbn in I. apply drop_in in I. destruct I as [I _]. exists (snd p). split; [now destruct p|reflexivity]. }
    assert (V4 : vinv s4) by (apply (vinv_frame s3); [repeat split|exact V3]). assert (A4 : s_artificial s4 = None) by exact A3. clearbody s4. destruct (r_cells ra) as [|pc lc] eqn:Rc; [intros E; injection E as _ <-; exact N4|].
    unfold any_pivotable_symbol. rewrite Rc. destruct (find _ (keys order s4 (pc :: lc))) as [en|] eqn:Fd; [|discriminate]. apply find_some in Fd. destruct Fd as [_ Ty]. intros E. injection E as _ <-.
    match goal with |- noted (with_objective (with_rows ?q _) _) => apply (Clean q) end. pose proof (noted_enter (use s4) en (solve_for_symbols ra art en)) as Ne. cbv zeta in Ne.
    assert (Ex : is_external en = false) by (unfold is_external; destruct (sy_type en); try discriminate; reflexivity). rewrite Ex in Ne. cbn [andb] in Ne. apply Ne; [apply (vinv_frame s4); [repeat split|exact V4]|exact N4].
  - intros E. injection E as _ <-. now apply Clean.
Qed.
Lemma art_none fuel s r s' : add_with_artificial_variable order fuel s r = Done (true, s') -> s_artificial s' = None.
Proof.
  unfold add_with_artificial_variable. cbn [fresh]. set (art := Sym (s_tick s mod 256) TSlack). set (s1 := with_artificial _ (Some r)).
  destruct (optimize order fuel true s1) as [s2|e s2|] eqn:E; cbn [rbind]; try discriminate. set (k := r_const (goal true s2)). set (s3 := with_artificial _ None). assert (A3 : s_artificial s3 = None) by reflexivity. clearbody s3.
  destruct (look art (s_rows s3)) as [ra|]; [|intros Q; injection Q as _ <-; exact A3]. set (s4 := with_rows _ (drop_key art (s_rows _))). assert (A4 : s_artificial s4 = None) by exact A3. clearbody s4.
  destruct (r_cells ra) as [|pc lc] eqn:Rc; [intros Q; injection Q as _ <-; exact A4|]. unfold any_pivotable_symbol. rewrite Rc. destruct (find _ (keys order s4 (pc :: lc))) as [en|]; [|discriminate]. intros Q. injection Q as _ <-.
  destruct (substitute_fields (use s4) en (solve_for_symbols ra art en)) as (_ & _ & _ & Fa & _). cbn [use s_artificial] in Fa. rewrite A4 in Fa. exact Fa.
Qed.
End Order.

(** ** The row *)
Lemma var_symbol_vars s v : let '(x, s') := get_var_symbol s v in (s_tick s' <= 256)%N -> forall w y, In (w, y) (s_vars s') -> In (w, y) (s_vars s) \/ (s_tick s <= sy_value y)%N.
Proof.
  unfold get_var_symbol. destruct (find_var v (s_vars s)) as [x|]; [auto|]. cbn. intros H w y [E|I]; [|auto]. injection E as <- <-. right. cbn. rewrite N.mod_small by lia. lia.
Qed.
Lemma terms_vars ts : forall r s, let '(r', s') := fold_left add_term ts (r, s) in (s_tick s <= s_tick s')%N /\ s_rows s' = s_rows s /\ s_objective s' = s_objective s /\
  ((s_tick s' <= 256)%N -> vinv s -> (forall p, In p (s_rows s) -> forall x, occurs x (snd p) -> below s x) -> (forall x, occurs x r -> below s x) ->
   vinv s' /\ (forall x, occurs x r' -> below s' x) /\ forall w y, In (w, y) (s_vars s') -> In (w, y) (s_vars s) \/ (s_tick s <= sy_value y)%N).
Proof.
  induction ts as [|t ts IH]; intros r s; [cbn; split; [lia|]; split; [reflexivity|]; split; [reflexivity|]; intros _ V B O; split; [exact V|]; split; [exact O|auto]|]. cbn [fold_left]. destruct (add_term (r, s) t) as [r1 s1] eqn:E1.
  assert (A : (s_tick s <= s_tick s1)%N /\ s_rows s1 = s_rows s /\ s_objective s1 = s_objective s /\ ((s_tick s1 <= 256)%N -> vinv s -> (forall p, In p (s_rows s) -> forall x, occurs x (snd p) -> below s x) -> (forall x, occurs x r -> below s x) ->
     vinv s1 /\ (forall x, occurs x r1 -> below s1 x) /\ forall w y, In (w, y) (s_vars s1) -> In (w, y) (s_vars s) \/ (s_tick s <= sy_value y)%N)).
  { unfold add_term in E1. destruct (near_zero (snd t)).
    - injection E1 as <- <-. split; [lia|]. split; [reflexivity|]. split; [reflexivity|]. intros _ V B O. split; [exact V|]. split; [exact O|auto].
    - pose proof (var_symbol_ok s (fst t)) as K. pose proof (var_symbol_vars s (fst t)) as K'. destruct (get_var_symbol s (fst t)) as [x s2]. destruct K as (K1 & K2 & K3). destruct K1 as (R & _ & _ & _ & L).
      assert (Es : s1 = s2) by (destruct (look x (s_rows s2)); injection E1 as _ <-; reflexivity). subst s2. split; [exact L|]. split; [exact R|]. split; [exact K2|]. intros H V B O. destruct (K3 H V) as (V' & _ & Fv & _). split; [exact V'|]. split; [|now apply K'].
      intros y Oy. destruct (look x (s_rows s1)) as [o|] eqn:Lk; injection E1 as <-.
      + apply insert_row_occurs in Oy. rewrite R in Lk. apply look_in in Lk. destruct Oy as [Oy|Oy]; [specialize (B _ Lk y Oy)|specialize (O y Oy)]; unfold below in *; lia.
      + apply insert_occurs in Oy. destruct Oy as [->|Oy]; [apply find_var_in in Fv; apply (vi_types _ V') in Fv; tauto|specialize (O y Oy); unfold below in *; lia]. }
  destruct A as (A1 & A2 & A2' & A3). specialize (IH r1 s1). destruct (fold_left add_term ts (r1, s1)) as [r2 s2]. destruct IH as (I1 & I2 & I2' & I3). split; [lia|]. split; [congruence|]. split; [congruence|].
  intros H V B O. destruct (A3 ltac:(lia) V B O) as (V1 & O1 & W1). destruct (I3 H V1) as (V2 & O2 & W2); [intros p J x Ox; rewrite A2 in J; specialize (B p J x Ox); unfold below in *; lia|exact O1|].
  split; [exact V2|]. split; [exact O2|]. intros w y J. apply W2 in J. destruct J as [J|J]; [now apply W1|right; lia].
Qed.
Lemma create_live s c : let '(r, t, s1) := create_row s c in (s_tick s1 <= 256)%N -> live s -> s_artificial s = None -> live s1 /\ (forall x, occurs x r -> below s1 x) /\ below s1 (t_marker t).
Proof.
  pose proof (create_row_ok s c) as K0. pose proof (terms_vars (e_terms (c_expr c)) (new_row (e_const (c_expr c))) s) as T. unfold create_row in *. destruct (fold_left add_term _ _) as [r0 s0]. destruct T as (T1 & T2 & T3 & T4).
  assert (Fin : forall r1 t1 s1, kept s s1 -> s_vars s1 = s_vars s0 /\ s_var_for s1 = s_var_for s0 /\ (s_tick s0 <= s_tick s1)%N /\ ((s_tick s1 <= 256)%N -> below s1 (t_marker t1) /\ (forall x, occurs x r1 -> occurs x r0 \/ below s1 x) /\ (forall x, occurs x (s_objective s1) -> occurs x (s_objective s0) \/ below s1 x)) ->
     (s_tick s1 <= 256)%N -> live s -> s_artificial s = None -> live s1 /\ (forall x, occurs x (if qltb (r_const r1) 0 then reverse_sign r1 else r1) -> below s1 x) /\ below s1 (t_marker t1)).
  { intros r1 t1 s1 (R & A & _ & C & L) (M1 & M2 & M3 & M4) H (V & (B1 & B2 & B3) & N) An. destruct (M4 H) as (M5 & M6 & M7).
    destruct (T4 ltac:(lia) V) as (V0 & O0 & W0); [intros p I; now apply B1|intros x []|]. split; [|split; [|exact M5]].
    - split; [|split].
      + apply (vinv_kept s0); [exact M1|exact M2|lia|exact V0].
      + split; [|split].
        * intros p I. rewrite R in I. destruct (B1 p I) as [Z1 Z2]. unfold below in *. split; [lia|]. intros x O. specialize (Z2 x O). lia.
        * intros x O. apply M7 in O. destruct O as [O|O]; [|exact O]. rewrite T3 in O. specialize (B2 x O). unfold below in *. lia.
        * intros a x E. rewrite A, An in E. discriminate.
      + intros v x r I J Z. rewrite M1 in I. rewrite R in J. rewrite C. apply W0 in I. destruct I as [I|I]; [exact (N v x r I J Z)|]. destruct (B1 _ J) as [Z1 _]. unfold below in Z1. cbn in Z1. lia.
    - intros x O. assert (O1 : occurs x r1). { destruct (qltb (r_const r1) 0); [|exact O]. unfold occurs, reverse_sign, dom in *. cbn in O. rewrite map_map in O. exact O. }
      apply M6 in O1. destruct O1 as [O1|O1]; [|exact O1]. apply O0 in O1. unfold below in *. lia. }
  assert (Sm : forall k m ty, (m <= 256)%N -> (k < m)%N -> (sy_value (Sym (k mod 256) ty) < m)%N) by (intros k m ty A B; cbn; rewrite N.mod_small by lia; auto).
  destruct (c_op c); destruct (qltb (c_strength c) required); cbn [fresh] in *; destruct K0 as [K0 _]; refine (Fin _ _ _ K0 _); clear K0 Fin T4; (split; [reflexivity|]); (split; [reflexivity|]); (split; [cbn; lia|]); cbn [s_tick with_objective]; intros H; (split; [|split; [intros x O|intros x O; cbn [s_objective with_objective] in O]]);
      repeat match goal with H : occurs _ (insert_symbol _ _ _) |- _ => apply insert_occurs in H; destruct H as [->|H] end; auto; try right; unfold below; cbn [t_marker s_tick with_objective]; apply Sm; lia.
Qed.

Section Order.
Variable order : nat -> list symbol -> list symbol.
Hypothesis order_ok : forall n l, Permutation (order n l) l.
Lemma live_frame s s' : frame s s' -> syms (below s) s' -> noted s' -> vinv s -> live s'.
Proof. intros F Sy N V. split; [now apply (vinv_frame s)|]. split; [|exact N]. destruct F as (_ & _ & F). unfold syms, below in *. rewrite F. exact Sy. Qed.
Lemma add_live fuel s c s' : live s -> s_artificial s = None -> add_constraint order fuel s c = Done s' -> (s_tick s' <= 256)%N -> live s' /\ s_artificial s' = None.
Proof.
  intros Lv An. unfold add_constraint. pose proof (create_live s c) as Cl. pose proof (create_row_ok s c) as K. destruct (create_row s c) as [[r t] s1]. destruct K as [K _]. assert (A1 : s_artificial s1 = None) by (rewrite <- An; apply K).
  destruct (choose_subject order s1 r t) as [subj s2] eqn:Cs. assert (E2 : s2 = use s1) by (unfold choose_subject in Cs; injection Cs as _ <-; reflexivity).
  assert (Su : forall x, subj = Some x -> occurs x r) by (intros x ->; apply (subject_cases order order_ok) in Cs; tauto).
  set (ns := match subj with None => true | Some _ => false end).
  destruct (ns && all_dummies r && negb (near_zero (r_const r))); [discriminate|].
  set (s3 := if ns && all_dummies r then _ else s2).
  assert (F3 : frame s1 s3 /\ s_rows s3 = s_rows s1 /\ s_objective s3 = s_objective s1 /\ s_artificial s3 = s_artificial s1 /\ s_changed s3 = s_changed s1) by (unfold s3; destruct (ns && all_dummies r); subst s2; repeat split).
  clearbody s3. destruct F3 as (F3 & R3 & O3 & A3 & C3).
  assert (L3 : (s_tick s1 <= 256)%N -> live s3 /\ (forall x, occurs x r -> below s3 x) /\ below s3 (t_marker t)).
  { intros H. destruct (Cl H Lv An) as ((V & Sy & N) & B1 & B2). assert (Tk : s_tick s3 = s_tick s1) by apply F3. split; [|unfold below in *; rewrite Tk; auto]. apply (live_frame s1); [exact F3| | |exact V].
    - unfold syms in *. rewrite R3, O3, A3. exact Sy.
    - unfold noted in *. destruct F3 as (Fv & _). rewrite Fv, R3, C3. exact N. }
  clear Cl Lv K An Cs E2 s2. set (sub := if ns && all_dummies r then Some (t_marker t) else subj).
  assert (Fin : forall q, ((s_tick q <= 256)%N -> live q) -> s_artificial q = None -> optimize order fuel false q = Done s' -> (s_tick s' <= 256)%N -> live s' /\ s_artificial s' = None).
  { intros q Lq Aq E H. destruct (optimize_flags order order_ok false fuel q s' (or_introl E)) as (F & _ & Fa). assert (Tk : s_tick s' = s_tick q) by apply F. destruct (Lq ltac:(lia)) as (Vq & Sq & Nq). split; [|now apply Fa]. apply (live_frame q); [exact F| | |exact Vq].
    - apply (optimize_syms order order_ok (below q) false fuel q s' Sq). now left.
    - exact (optimize_noted order order_ok false fuel q s' Vq Nq E). }
  destruct sub as [x|] eqn:Es; cbn [rbind].
  - apply Fin.
    + destruct (substitute_fields s3 x (solve_for_symbol r x)) as (F & Fr & Fo & Fa & _). intros H.
      assert (Tk : s_tick s3 = s_tick s1) by apply F3. assert (Tq : (s_tick s1 <= 256)%N). { revert H. destruct F as (_ & _ & F). destruct (is_external x && _); cbn; lia. }
      destruct (L3 Tq) as ((V & Sy & N) & B1 & B2). apply (live_frame s3); [destruct (is_external x && _); exact F| |now apply noted_enter|exact V].
      pose proof (syms_substitute (below s3) s3 x (solve_for_symbol r x) Sy) as Ss. specialize (Ss ltac:(intros y O; apply B1; now apply solve_occurs in O)).
      assert (Bx : below s3 x) by (unfold sub in Es; destruct (ns && all_dummies r); [injection Es as <-; exact B2|apply B1; now apply Su]).
      match goal with |- syms _ (with_rows ?q _) => assert (Sq : syms (below s3) q) by (destruct (is_external x && _); exact Ss) end. apply syms_rows; [exact Sq|]. intros p I. apply put_in' in I. destruct I as [->|I]; [split; [exact Bx|intros y O; apply B1; now apply solve_occurs in O]|now apply Sq].
    + destruct (substitute_fields s3 x (solve_for_symbol r x)) as (_ & _ & _ & Fa & _). rewrite A3, A1 in Fa. destruct (is_external x && _); exact Fa.
  - destruct (add_with_artificial_variable order fuel s3 r) as [[b q]|e q|] eqn:Ea; cbn [rbind fst snd]; try discriminate. destruct b; cbn [rbind]; [|discriminate].
    assert (Tk : s_tick s3 = s_tick s1) by apply F3. apply Fin.
    + intros H. assert (Tq : s_tick q = (s_tick s3 + 1)%N) by (apply (art_flags order order_ok (fun _ => True) fuel s3 r); [repeat split|auto|exact Logic.I|left; eauto]).
      destruct (L3 ltac:(lia)) as ((V & Sy & N) & B1 & B2). destruct (art_flags order order_ok (below q) fuel s3 r) with (s2 := q) as (F1 & F2 & _ & _ & Sq).
      * destruct Sy as (S1 & S2 & S3). unfold below in *. rewrite Tq. split; [|split]; [intros p I; destruct (S1 p I) as [Z1 Z2]; split; [lia|intros x O; specialize (Z2 x O); lia]|intros x O; specialize (S2 x O); lia|intros a x E O; specialize (S3 a x E O); lia].
      * intros x O. specialize (B1 x O). unfold below in *. lia.
      * unfold below. cbn. rewrite N.mod_small by lia. lia.
      * left. eauto.
      * split; [apply (vinv_kept s3); [exact F1|exact F2|lia|exact V]|]. split; [exact Sq|]. apply (art_noted order order_ok fuel s3 r q V N Ea).
    + apply (art_none order fuel s3 r q Ea).
Qed.
End Order.

(** Every variable's value can be read from the changes. *)
Lemma adds_live order : (forall n l, Permutation (order n l) l) -> forall fuel cs s s', live s -> s_artificial s = None -> add_constraints order fuel s cs = Done s' -> (s_tick s' <= 256)%N -> live s'.
Proof.
  intros Oo fuel. induction cs as [|c cs IH]; intros s s' Lv An E H; cbn in E; [injection E as <-; exact Lv|]. destruct (add_constraint order fuel s c) as [s1|e s1|] eqn:E1; try discriminate. cbn in E.
  destruct (adds_later order Oo fuel cs s1 s' E) as [T _]. destruct (add_live order Oo fuel s c s1 Lv An E1 ltac:(lia)) as [L1 A1]. exact (IH s1 s' L1 A1 E H).
Qed.
Lemma live_new : live new_solver.
Proof.
  split; [constructor; cbn; try constructor; intros; contradiction|]. split; [|intros v x r []]. split; [intros p []|]. split; [intros x []|discriminate].
Qed.
End Tolerance.
