(** Adding a row to the tableau: with a subject, or by way of an artificial variable. *)
From Verif Require Import Base M_Solver P_Row P_Tableau P_Simplex.
From Coq Require Import ZArith NArith QArith Qround List Bool Lia Lqa Setoid Morphisms Permutation.
Import ListNotations.
Open Scope Q_scope.
Section Tolerance.
Context {tolr : tolerance}.

(** ** Which symbols occur *)
Definition syms (P : symbol -> Prop) (s : solver) : Prop :=
  (forall p, In p (s_rows s) -> P (fst p) /\ forall x, occurs x (snd p) -> P x) /\
  (forall x, occurs x (s_objective s) -> P x) /\ (forall a x, s_artificial s = Some a -> occurs x a -> P x).
Lemma insert_fold_occurs l k : forall r y, occurs y (fold_left (fun r p => insert_symbol r (fst p) (qmul (snd p) k)) l r) -> In y (dom l) \/ occurs y r.
Proof. induction l as [|p l IH]; intros r y; cbn; [auto|]. intros H. apply IH in H. destruct H as [H|H]; [auto|]. apply insert_occurs in H. destruct H as [->|H]; auto. Qed.
Lemma insert_row_occurs r o k y : occurs y (fst (insert_row r o k)) -> occurs y o \/ occurs y r.
Proof. unfold insert_row. cbn [fst]. intros H. apply insert_fold_occurs in H. exact H. Qed.
Lemma subst_occurs r x o y : occurs y (fst (substitute_row r x o)) -> occurs y o \/ occurs y r.
Proof. unfold substitute_row. destruct (look x (r_cells r)); cbn [fst]; [|auto]. intros H. apply insert_row_occurs in H. destruct H as [H|H]; [auto|]. apply remove_occurs in H. tauto. Qed.
Lemma solve_occurs r x y : occurs y (solve_for_symbol r x) -> occurs y r.
Proof. unfold solve_for_symbol, occurs. cbn [r_cells]. rewrite (map_dom (fun p => qmul (snd p) _)). intros H. apply drop_dom in H. tauto. Qed.
Lemma solves_occurs r y x z : occurs z (solve_for_symbols r y x) -> z = y \/ occurs z r.
Proof. intros H. apply solve_occurs in H. now apply insert_occurs in H. Qed.
Lemma subst_rows_in x r rows p : In p (subst_rows x r rows) -> exists q, In q rows /\ fst p = fst q /\ snd p = fst (substitute_row (snd q) x r).
Proof. apply subst_in. Qed.
Lemma put_in' {A} k (a : A) l p : In p (put_at k a l) -> p = (k, a) \/ In p l.
Proof. induction l as [|[k' b] l IH]; cbn; [intros [<-|[]]; auto|]. destruct (sym_eqb k k'); cbn; [intros [<-|H]; auto|intros [<-|H]; auto]. apply IH in H. tauto. Qed.
Lemma syms_substitute P s x r : syms P s -> (forall y, occurs y r -> P y) -> syms P (substitute s x r).
Proof.
  intros (A & B & C) H. destruct (substitute_fields s x r) as (_ & S1 & S2 & S3 & _). unfold syms. rewrite S1, S2, S3. split; [|split].
  - intros p I. apply subst_in in I. destruct I as (q & I & E1 & E2). rewrite E1, E2. destruct (A q I) as [A1 A2]. split; [exact A1|]. intros y O. apply subst_occurs in O. destruct O; auto.
  - intros y O. apply subst_occurs in O. destruct O; auto.
  - intros a y E O. destruct (s_artificial s) as [b|]; [|discriminate]. injection E as <-. apply subst_occurs in O. destruct O; [auto|exact (C b y eq_refl H0)].
Qed.
Lemma syms_rows P s rows : syms P s -> (forall p, In p rows -> P (fst p) /\ forall x, occurs x (snd p) -> P x) -> syms P (with_rows s rows).
Proof. intros (A & B & C) H. split; [exact H|]. split; [exact B|exact C]. Qed.
Lemma syms_changed P s v : syms P s -> syms P (var_changed s v). Proof. auto. Qed.

Section Order.
Variable order : nat -> list symbol -> list symbol.
Hypothesis order_ok : forall n l, Permutation (order n l) l.

Lemma optimize_syms P art : forall fuel s s', syms P s -> (optimize order fuel art s = Done s' \/ (exists e, optimize order fuel art s = Fail e s')) -> syms P s'.
Proof.
  induction fuel as [|fuel IH]; intros s s' H E; [destruct E as [E|[e E]]; discriminate|]. cbn [optimize] in E. unfold get_entering_symbol in E.
  destruct (find _ (keys order s (r_cells (goal art s)))) as [x|] eqn:Fd.
  2:{ destruct E as [E|[e E]]; [|discriminate]. injection E as <-. exact H. }
  apply find_some in Fd. destruct Fd as [J _]. apply (keys_in order order_ok) in J.
  pose proof (leaving_ok order order_ok (use s) x) as L. destruct (get_leaving_row order (use s) x) as [[[y r]|] s1]; cbn [s_rows use] in L.
  2:{ destruct L as [L ->]. destruct E as [E|[e E]]; [discriminate|]. injection E as _ <-. exact H. }
  destruct L as (L1 & L2 & L3 & L4 & ->). apply look_in in L1. destruct H as (A & B & C). destruct (A _ L1) as [Py Pr]. cbn [fst snd] in Py, Pr.
  assert (Px : P x). { unfold goal in J. destruct art; [|now apply B]. destruct (s_artificial s) as [a|]; [exact (C a x eq_refl J)|destruct J]. }
  assert (Pr' : forall z, occurs z (solve_for_symbols r y x) -> P z) by (intros z Z; apply solves_occurs in Z; destruct Z as [->|Z]; auto).
  refine (IH _ s' _ E). clear IH E.
  assert (S2 : syms P (substitute (with_rows (use (use s)) (drop_key y (s_rows s))) x (solve_for_symbols r y x))).
  { apply syms_substitute; [|exact Pr']. split; [|split; assumption]. intros p I. cbn in I. apply drop_in in I. apply A. tauto. }
  set (s2 := substitute _ x _) in *. clearbody s2.
  set (s3 := if _ && _ then _ else s2). assert (S3 : syms P s3) by (unfold s3; destruct (_ && _); [now apply syms_changed|exact S2]). clearbody s3.
  apply syms_rows; [exact S3|]. intros p I. apply put_in' in I. destruct I as [->|I]; [split; [exact Px|exact Pr']|now apply S3].
Qed.
(** What optimising leaves alone, whatever the tableau is. *)
Lemma optimize_flags art : forall fuel s s', (optimize order fuel art s = Done s' \/ (exists e, optimize order fuel art s = Fail e s')) -> frame s s' /\ s_exact s' = s_exact s /\ (s_artificial s' = None <-> s_artificial s = None).
Proof.
  induction fuel as [|fuel IH]; intros s s' E; [destruct E as [E|[e E]]; discriminate|]. cbn [optimize] in E. unfold get_entering_symbol in E.
  destruct (find _ (keys order s (r_cells (goal art s)))) as [x|] eqn:Fd.
  2:{ destruct E as [E|[e E]]; [|discriminate]. injection E as <-. repeat split; auto. }
  pose proof (leaving_ok order order_ok (use s) x) as L. destruct (get_leaving_row order (use s) x) as [[[y r]|] s1]; cbn [s_rows use] in L.
  2:{ destruct L as [L ->]. destruct E as [E|[e E]]; [discriminate|]. injection E as _ <-. repeat split; auto. }
  destruct L as (L1 & L2 & L3 & L4 & ->).
  set (s0 := with_rows (use (use s)) (drop_key y (s_rows s))) in E. set (r' := solve_for_symbols r y x) in E. set (s2 := substitute s0 x r') in E.
  destruct (substitute_fields s0 x r') as (F0 & _ & _ & F3 & _ & F5). fold s2 in F0, F3, F5.
  set (s3 := if _ && _ then _ else s2) in E. assert (F6 : frame s2 s3 /\ s_exact s3 = s_exact s2 /\ s_artificial s3 = s_artificial s2) by (unfold s3; destruct (_ && _); repeat split).
  destruct F6 as (F6 & F7 & F8). clearbody s3 s2. apply IH in E. destruct E as (E1 & E2 & E3). split; [|split].
  - apply (frame_trans _ (with_rows s3 (put_at x r' (s_rows s3)))); [|exact E1]. destruct F6 as (? & ? & ?), F0 as (? & ? & ?). cbn in *. repeat split; cbn; congruence.
  - rewrite E2. cbn. rewrite F7, F5. reflexivity.
  - rewrite E3. cbn. rewrite F8, F3. cbn. destruct (s_artificial s); cbn; split; congruence.
Qed.
End Order.

(** ** A new row with a subject *)
(** The second solver has the solutions of the first at which the row is zero. *)
Definition adds (s : solver) (r : row) (s2 : solver) : Prop :=
  s_artificial s2 = None /\ (s_exact s2 = true -> s_exact s = true /\ inv s2) /\
  (exact s2 = true -> exact s = true /\ r_exact r = true /\ (forall v, hold (s_rows s2) v <-> hold (s_rows s) v /\ ev r v == 0) /\
     (forall v, hold (s_rows s2) v -> ev (s_objective s2) v == ev (s_objective s) v)).
Lemma subject_step s r x : inv s -> s_artificial s = None -> wf r -> 0 <= r_const r -> (forall y, occurs y r -> ~ In y (dom (s_rows s))) -> occurs x r ->
  (forall p, In p (s_rows s) -> sy_type (fst p) <> TExternal -> ~ occurs x (snd p)) ->
  (sy_type x <> TExternal -> (forall y, occurs y r -> sy_type y <> TExternal) /\ 0 <= - r_const r / cf (r_cells r) x) ->
  (sy_type x = TDummy -> r_const r == 0 /\ forall y, occurs y r -> sy_type y = TDummy) ->
  forall s2, frame (substitute s x (solve_for_symbol r x)) s2 -> s_rows s2 = put_at x (solve_for_symbol r x) (s_rows (substitute s x (solve_for_symbol r x))) ->
  s_objective s2 = s_objective (substitute s x (solve_for_symbol r x)) -> s_artificial s2 = s_artificial (substitute s x (solve_for_symbol r x)) ->
  s_exact s2 = s_exact (substitute s x (solve_for_symbol r x)) -> adds s r s2 /\ frame s s2.
Proof.
  intros (T & Ob & Ar) An W Pr Nr O Rx Re Rd s2 Fr Q1 Q2 Q3 Q4. set (r' := solve_for_symbol r x) in *.
  destruct (substitute_fields s x r') as (F0 & S1 & S2 & S3 & _ & S5). rewrite S1 in Q1. rewrite S2 in Q2. rewrite S3, An in Q3. rewrite S5 in Q4.
  destruct (solve_props r x W O) as (P1 & P2 & P3 & P4 & P5). fold r' in P1, P2, P3, P4, P5. pose proof (cf_wf r x W O) as Cx.
  assert (Nx : ~ In x (dom (s_rows s))) by auto.
  assert (Nr' : forall y, occurs y r' -> y <> x /\ ~ In y (dom (s_rows s))) by (intros y Z; apply P4 in Z; destruct Z; auto).
  assert (Re' : sy_type x <> TExternal -> 0 <= r_const r' /\ forall y, occurs y r' -> sy_type y <> TExternal).
  { intros Z. destruct (Re Z) as [Z1 Z2]. split; [rewrite P2; exact Z2|]. intros y Y. apply P4 in Y. apply Z1. tauto. }
  assert (Rd' : sy_type x = TDummy -> r_const r' == 0 /\ forall y, occurs y r' -> sy_type y = TDummy).
  { intros Z. destruct (Rd Z) as [Z1 Z2]. split; [rewrite P2, Z1; field; exact Cx|]. intros y Y. apply P4 in Y. apply Z2. tauto. }
  assert (T2 := enter_tab _ x r' T P1 Nr' Rx Re' Rd').
  assert (I2 : inv s2).
  { unfold inv. rewrite Q1, Q2, Q3. split; [exact T2|]. split; [|discriminate]. apply (enter_obj (s_rows s) x r' P1 Nr' Re' Rd'); [exact Ob|]. intros Z Z2. now apply (ob_ext _ _ Ob) in Z2. }
  split; [|exact (frame_trans _ _ _ F0 Fr)]. split; [exact Q3|]. split; [intros E; split; [congruence|exact I2]|].
  intros Ex. apply exact_parts in Ex. destruct Ex as (E1 & E2 & E3 & _). rewrite Q1 in E2. rewrite Q2 in E3.
  assert (ND : NoDup (dom (subst_rows x r' (s_rows s)))) by (rewrite subst_dom; apply T).
  apply exact_put in E2; [|exact ND]. destruct E2 as [E2 E2']. rewrite drop_none in E2' by (rewrite subst_dom; exact Nx).
  assert (EqZ : forall v, v x == ev r' v <-> ev r v == 0).
  { intros v. rewrite P5. split; intros Z.
    - assert (Q : ev r v / cf (r_cells r) x == 0) by lra. assert (Q' : ev r v / cf (r_cells r) x * cf (r_cells r) x == 0) by (rewrite Q; ring). rewrite Qmult_comm, Qmult_div_r in Q' by exact Cx. exact Q'.
    - rewrite Z. field. exact Cx. }
  assert (H := fun v => enter_hold _ x r' T P1 Nx v E2').
  split; [|split; [congruence|split]].
  - apply exact_parts. split; [congruence|]. split; [exact (exact_subst x r' _ (tb_wf _ T) P1 E2')|]. split; [|intros a Z; congruence].
    destruct (subst_props (s_objective s) x r' (ob_wf _ _ Ob) P1) as (_ & _ & K & _). auto.
  - intros v. rewrite Q1, H, EqZ. tauto.
  - intros v Hv. rewrite Q1 in Hv. apply H in Hv. rewrite Q2. apply subst_obj_ev; [apply Ob|exact P1|exact E3|tauto].
Qed.

(** ** Setting a symbol to zero *)
Definition zero_at (a : symbol) (v : symbol -> Q) (x : symbol) : Q := if sym_eqb x a then 0 else v x.
Definition strip (a : symbol) (rows : list (symbol * row)) : list (symbol * row) := map (fun p => (fst p, remove_symbol (snd p) a)) rows.
Lemma zero_at_other a v x : x <> a -> zero_at a v x = v x.
Proof. intros H. unfold zero_at. apply sym_eqb_no in H. now rewrite H. Qed.
Lemma zero_at_self a v : zero_at a v a = 0. Proof. unfold zero_at. now rewrite sym_eqb_refl. Qed.
Lemma remove_ev_zero a r v : wf r -> ev (remove_symbol r a) v == ev r (zero_at a v).
Proof.
  intros W. rewrite <- (ev_ext (remove_symbol r a) (zero_at a v) v).
  - rewrite remove_ev by exact W. rewrite zero_at_self. ring.
  - intros x O. apply remove_occurs in O. rewrite zero_at_other by tauto. reflexivity.
Qed.
Lemma ev_zero_at a r v : ~ occurs a r -> ev r (zero_at a v) == ev r v.
Proof. intros H. apply ev_ext. intros x O. rewrite zero_at_other by congruence. reflexivity. Qed.
Lemma strip_dom a rows : dom (strip a rows) = dom rows. Proof. apply (map_dom (fun p => remove_symbol (snd p) a)). Qed.
Lemma strip_in a rows p : In p (strip a rows) <-> exists q, In q rows /\ p = (fst q, remove_symbol (snd q) a).
Proof. unfold strip. rewrite in_map_iff. split; intros (q & A & B); exists q; auto. Qed.
Lemma strip_tab a rows : tab rows -> tab (strip a rows).
Proof.
  intros T. constructor.
  - rewrite strip_dom. apply T.
  - intros p I. apply strip_in in I. destruct I as (q & I & ->). apply remove_wf. exact (tb_wf _ T q I).
  - intros p x I O. rewrite strip_dom. apply strip_in in I. destruct I as (q & I & ->). apply remove_occurs in O. apply (tb_basic _ T q x I). tauto.
  - intros p x I H O. apply strip_in in I. destruct I as (q & I & ->). apply remove_occurs in O. apply (tb_ext _ T q x I H). tauto.
  - intros p I H. apply strip_in in I. destruct I as (q & I & ->). exact (tb_pos _ T q I H).
  - intros p I H. apply strip_in in I. destruct I as (q & I & ->). destruct (tb_dummy _ T q I H) as [A B]. split; [exact A|]. intros x O. apply remove_occurs in O. apply B. tauto.
Qed.
Lemma strip_obj a rows o : objective rows o -> objective (strip a rows) (remove_symbol o a).
Proof. intros O. constructor; [apply remove_wf; apply O| |]; intros x Z; apply remove_occurs in Z; [rewrite strip_dom; apply (ob_basic _ _ O)|apply (ob_ext _ _ O)]; tauto. Qed.
Lemma strip_hold a rows v : tab rows -> ~ In a (dom rows) -> (hold (strip a rows) v <-> hold rows (zero_at a v)).
Proof.
  intros T N. split; intros H.
  - intros p I. rewrite zero_at_other by (intros Z; apply N; rewrite <- Z; now apply in_dom). rewrite <- remove_ev_zero by exact (tb_wf _ T p I). apply (H (fst p, remove_symbol (snd p) a)). apply strip_in. eauto.
  - intros p I. apply strip_in in I. destruct I as (q & I & ->). cbn [fst snd]. rewrite remove_ev_zero by exact (tb_wf _ T q I). rewrite <- (H q I). rewrite zero_at_other by (intros Z; apply N; rewrite <- Z; now apply in_dom). reflexivity.
Qed.
Lemma strip_exact a rows : rows_exact (strip a rows) = rows_exact rows.
Proof. unfold rows_exact, strip. induction rows as [|p l IH]; cbn; [reflexivity|]. now rewrite IH. Qed.
Lemma hold_zero_at a rows v : ~ In a (dom rows) -> (forall p, In p rows -> ~ occurs a (snd p)) -> (hold rows (zero_at a v) <-> hold rows v).
Proof.
  intros N O. split; intros H p I.
  - rewrite <- (ev_zero_at a) by auto. rewrite <- (H p I). rewrite zero_at_other by (intros Z; apply N; rewrite <- Z; now apply in_dom). reflexivity.
  - rewrite ev_zero_at by auto. rewrite <- (H p I). rewrite zero_at_other by (intros Z; apply N; rewrite <- Z; now apply in_dom). reflexivity.
Qed.
Lemma drop_tab a rows : tab rows -> tab (drop_key a rows).
Proof.
  intros T. constructor.
  - apply drop_nodup. apply T.
  - intros p I. apply drop_in in I. apply (tb_wf _ T). tauto.
  - intros p x I O. rewrite drop_dom. apply drop_in in I. intros [Z _]. revert Z. apply (tb_basic _ T p); tauto.
  - intros p x I. apply drop_in in I. apply (tb_ext _ T). tauto.
  - intros p I. apply drop_in in I. apply (tb_pos _ T). tauto.
  - intros p I. apply drop_in in I. apply (tb_dummy _ T). tauto.
Qed.
Lemma drop_obj a rows o : objective rows o -> objective (drop_key a rows) o.
Proof. intros O. constructor; [apply O| |apply O]. intros x Z. rewrite drop_dom. apply (ob_basic _ _ O) in Z. tauto. Qed.
Lemma hold_split rows k r v : NoDup (dom rows) -> In (k, r) rows -> (hold rows v <-> v k == ev r v /\ hold (drop_key k rows) v).
Proof.
  intros N I. split.
  - intros Hd. split; [exact (Hd _ I)|]. intros p J. apply drop_in in J. apply Hd. tauto.
  - intros [E Hd] p J. destruct (sym_dec (fst p) k) as [D|D].
    + assert (K : p = (k, r)). { destruct p as [k' q]. cbn in D. subst k'. assert (A := in_look _ _ _ N J). assert (B := in_look _ _ _ N I). congruence. } rewrite K. exact E.
    + apply Hd. apply drop_in. auto.
Qed.
End Tolerance.
