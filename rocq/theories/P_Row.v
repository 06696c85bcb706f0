(** Rows as affine functions of the values of the symbols. *)
From Verif Require Import Base M_Solver.
From Coq Require Import ZArith NArith QArith Qround List Bool Lia Lqa Setoid Morphisms.
Import ListNotations.
Open Scope Q_scope.
Section Tolerance.
Context {tolr : tolerance}.

#[global] Arguments qadd : simpl never. #[global] Arguments qmul : simpl never. #[global] Arguments qopp : simpl never. #[global] Arguments qdiv : simpl never.
Lemma qadd_ok a b : qadd a b == a + b. Proof. apply Qred_correct. Qed.
Lemma qmul_ok a b : qmul a b == a * b. Proof. apply Qred_correct. Qed.
Lemma qopp_ok a : qopp a == - a. Proof. apply Qred_correct. Qed.
Lemma qdiv_ok a b : qdiv a b == a / b. Proof. apply Qred_correct. Qed.
Lemma qltb_ok a b : qltb a b = true <-> a < b.
Proof. unfold qltb. rewrite negb_true_iff. destruct (Qle_bool b a) eqn:E; split; intros H; try discriminate; try reflexivity. - apply Qle_bool_iff in E. lra. - apply Qnot_le_lt. intros Z. apply Qle_bool_iff in Z. congruence. Qed.
Lemma qltb_no a b : qltb a b = false <-> b <= a.
Proof. unfold qltb. rewrite negb_false_iff. apply Qle_bool_iff. Qed.
Lemma is_zero_ok a : is_zero a = true <-> a == 0.
Proof. apply Qeq_bool_iff. Qed.
Lemma is_zero_no a : is_zero a = false <-> ~ a == 0.
Proof. rewrite <- is_zero_ok. destruct (is_zero a); split; congruence. Qed.
Lemma near_zero_no a : near_zero a = false -> ~ a == 0.
Proof. intros H Z. rewrite (zero_near a Z) in H. discriminate. Qed.
Lemma near_zero_zero a : a == 0 -> near_zero a = true.
Proof. apply zero_near. Qed.

Lemma stype_eqb_ok a b : stype_eqb a b = true <-> a = b.
Proof. destruct a, b; cbn; split; congruence. Qed.
Lemma sym_eqb_ok a b : sym_eqb a b = true <-> a = b.
Proof. unfold sym_eqb. rewrite andb_true_iff, N.eqb_eq, stype_eqb_ok. destruct a, b; cbn. split; [intros [-> ->]; reflexivity|intros E; injection E; auto]. Qed.
Lemma sym_eqb_refl a : sym_eqb a a = true. Proof. now apply sym_eqb_ok. Qed.
Lemma sym_eqb_no a b : sym_eqb a b = false <-> a <> b.
Proof. rewrite <- sym_eqb_ok. destruct (sym_eqb a b); split; congruence. Qed.
Lemma sym_dec (a b : symbol) : {a = b} + {a <> b}.
Proof. destruct (sym_eqb a b) eqn:E; [left; now apply sym_eqb_ok|right; now apply sym_eqb_no]. Qed.
Lemma is_external_ok x : is_external x = true <-> sy_type x = TExternal. Proof. apply stype_eqb_ok. Qed.
Lemma is_external_no x : is_external x = false <-> sy_type x <> TExternal. Proof. rewrite <- is_external_ok. destruct (is_external x); split; congruence. Qed.

(** ** Maps *)
Definition dom {A} (l : list (symbol * A)) : list symbol := map fst l.
Lemma look_in {A} k (l : list (symbol * A)) a : look k l = Some a -> In (k, a) l.
Proof. induction l as [|[k' a'] l IH]; [discriminate|]. cbn. destruct (sym_eqb k k') eqn:E; intros H; [apply sym_eqb_ok in E; left; congruence|right; auto]. Qed.
Lemma look_none {A} k (l : list (symbol * A)) : look k l = None <-> ~ In k (dom l).
Proof.
  induction l as [|[k' a'] l IH]; cbn; [tauto|]. destruct (sym_eqb k k') eqn:E.
  - apply sym_eqb_ok in E. split; [discriminate|intros H; elim H; now left].
  - apply sym_eqb_no in E. rewrite IH. split; intros H; [intros [Z|Z]; [congruence|auto]|intros Z; apply H; now right].
Qed.
Lemma look_dom {A} k (l : list (symbol * A)) : In k (dom l) -> exists a, look k l = Some a.
Proof. intros H. destruct (look k l) eqn:E; [eauto|]. apply look_none in E. contradiction. Qed.
Lemma in_look {A} k (l : list (symbol * A)) a : NoDup (dom l) -> In (k, a) l -> look k l = Some a.
Proof.
  induction l as [|[k' a'] l IH]; [intros _ []|]. cbn. intros N [E|I].
  - injection E as -> ->. now rewrite sym_eqb_refl.
  - inversion N; subst. destruct (sym_eqb k k') eqn:E; [apply sym_eqb_ok in E; subst; elim H1; apply (in_map fst) in I; exact I|auto].
Qed.
Lemma in_dom {A} (l : list (symbol * A)) p : In p l -> In (fst p) (dom l). Proof. apply in_map. Qed.
Lemma drop_in {A} k (l : list (symbol * A)) p : In p (drop_key k l) <-> In p l /\ fst p <> k.
Proof. unfold drop_key. rewrite filter_In, negb_true_iff, sym_eqb_no. split; intros [? ?]; split; auto. Qed.
Lemma drop_dom {A} k (l : list (symbol * A)) x : In x (dom (drop_key k l)) <-> In x (dom l) /\ x <> k.
Proof.
  unfold dom. rewrite !in_map_iff. split.
  - intros (p & <- & I). apply drop_in in I. destruct I. split; [exists p; auto|auto].
  - intros [(p & <- & I) N]. exists p. split; [reflexivity|]. apply drop_in. auto.
Qed.
Lemma filter_dom_nodup {A} (f : symbol * A -> bool) l : NoDup (dom l) -> NoDup (dom (filter f l)).
Proof.
  induction l as [|p l IH]; cbn; [auto|]. intros N. inversion N; subst. destruct (f p); cbn; [|auto]. constructor; [|auto].
  intros Z. apply H1. unfold dom in *. apply in_map_iff in Z. destruct Z as (q & E & I). apply filter_In in I. rewrite <- E. apply in_map. tauto.
Qed.
Lemma drop_nodup {A} k (l : list (symbol * A)) : NoDup (dom l) -> NoDup (dom (drop_key k l)). Proof. apply filter_dom_nodup. Qed.
Lemma drop_none {A} k (l : list (symbol * A)) : ~ In k (dom l) -> drop_key k l = l.
Proof.
  unfold drop_key. induction l as [|p l IH]; cbn; [auto|]. intros H. destruct (sym_eqb k (fst p)) eqn:E; [apply sym_eqb_ok in E; elim H; now left|]. cbn. f_equal. apply IH. tauto.
Qed.
Lemma put_new {A} k (a : A) l : ~ In k (dom l) -> put_at k a l = l ++ [(k, a)].
Proof. induction l as [|[k' a'] l IH]; cbn; [auto|]. intros H. destruct (sym_eqb k k') eqn:E; [apply sym_eqb_ok in E; elim H; now left|]. f_equal. apply IH. tauto. Qed.
Lemma put_dom {A} k (a : A) l x : In x (dom (put_at k a l)) <-> x = k \/ In x (dom l).
Proof.
  induction l as [|[k' a'] l IH]; cbn; [split; [intros [->|[]]; auto|intros [->|[]]; auto]|]. destruct (sym_eqb k k') eqn:E; cbn.
  - apply sym_eqb_ok in E. subst. split; [intros [->|I]; auto|intros [->|[->|I]]; auto].
  - rewrite IH. split; [intros [->|[->|I]]; auto|intros [->|[->|I]]; auto].
Qed.
Lemma put_nodup {A} k (a : A) l : NoDup (dom l) -> NoDup (dom (put_at k a l)).
Proof.
  induction l as [|[k' a'] l IH]; cbn; [intros _; constructor; [intros []|constructor]|]. intros N. inversion N; subst. destruct (sym_eqb k k') eqn:E; cbn.
  - apply sym_eqb_ok in E. subst. constructor; auto.
  - constructor; [|auto]. intros Z. apply put_dom in Z. destruct Z as [Z|Z]; [apply sym_eqb_no in E; congruence|auto].
Qed.
Lemma put_in {A} k (a : A) l p : NoDup (dom l) -> (In p (put_at k a l) <-> p = (k, a) \/ (In p l /\ fst p <> k)).
Proof.
  induction l as [|[k' a'] l IH]; cbn; intros N; [split; [intros [<-|[]]; auto|intros [->|[[] _]]; auto]|]. inversion N; subst. destruct (sym_eqb k k') eqn:E; cbn.
  - apply sym_eqb_ok in E. subst k'. split.
    + intros [<-|I]; [auto|right]. split; [auto|]. intros Z. apply H1. rewrite <- Z. now apply in_dom.
    + intros [->|[[<-|I] Z]]; auto. now elim Z.
  - apply sym_eqb_no in E. rewrite (IH H2). split.
    + intros [<-|[->|[I Z]]]; auto.
    + intros [->|[[<-|I] Z]]; auto.
Qed.

(** ** Values *)
Fixpoint ev_cells (l : list (symbol * Q)) (v : symbol -> Q) : Q := match l with [] => 0 | p :: l => snd p * v (fst p) + ev_cells l v end.
Definition ev (r : row) (v : symbol -> Q) : Q := r_const r + ev_cells (r_cells r) v.
Definition cf (l : list (symbol * Q)) (x : symbol) : Q := match look x l with Some k => k | None => 0 end.
Definition wf (r : row) : Prop := NoDup (dom (r_cells r)) /\ Forall (fun p => ~ snd p == 0) (r_cells r).
Definition occurs (x : symbol) (r : row) : Prop := In x (dom (r_cells r)).

Lemma ev_app l1 l2 v : ev_cells (l1 ++ l2) v == ev_cells l1 v + ev_cells l2 v.
Proof. induction l1 as [|p l IH]; cbn; [ring|]. rewrite IH. ring. Qed.
Lemma ev_cells_ext l v w : (forall x, In x (dom l) -> v x == w x) -> ev_cells l v == ev_cells l w.
Proof. induction l as [|p l IH]; cbn; intros H; [reflexivity|]. rewrite (H (fst p)) by auto. rewrite IH by auto. reflexivity. Qed.
Lemma ev_ext r v w : (forall x, occurs x r -> v x == w x) -> ev r v == ev r w.
Proof. intros H. unfold ev. now rewrite (ev_cells_ext _ _ _ H). Qed.
Lemma ev_cells_zero l v : (forall x, In x (dom l) -> v x == 0) -> ev_cells l v == 0.
Proof. induction l as [|p l IH]; cbn; intros H; [reflexivity|]. rewrite (H (fst p)) by auto. rewrite IH by auto. ring. Qed.
Lemma ev_zero r v : (forall x, occurs x r -> v x == 0) -> ev r v == r_const r.
Proof. intros H. unfold ev. rewrite (ev_cells_zero _ _ H). ring. Qed.
Lemma cf_none l x : ~ In x (dom l) -> cf l x = 0.
Proof. intros H. unfold cf. apply look_none in H. now rewrite H. Qed.
Lemma ev_cells_drop l x v : NoDup (dom l) -> ev_cells (drop_key x l) v == ev_cells l v - cf l x * v x.
Proof.
  induction l as [|[k a] l IH]; intros N; [cbn; ring|]. inversion N; subst. unfold cf, drop_key in *. cbn. destruct (sym_eqb x k) eqn:E; cbn.
  - apply sym_eqb_ok in E. subst k. fold (drop_key x l). rewrite (drop_none x l) by assumption. ring.
  - rewrite (IH H2). ring.
Qed.
Lemma ev_cells_put l x a v : NoDup (dom l) -> ev_cells (put_at x a l) v == ev_cells l v + (a - cf l x) * v x.
Proof.
  induction l as [|[k b] l IH]; intros N; [cbn; ring|]. inversion N; subst. unfold cf in *. cbn. destruct (sym_eqb x k) eqn:E; cbn.
  - apply sym_eqb_ok in E. subst k. ring.
  - rewrite (IH H2). ring.
Qed.
Lemma ev_cells_one l x v : NoDup (dom l) -> (forall y, In y (dom l) -> y <> x -> v y == 0) -> ev_cells l v == cf l x * v x.
Proof.
  intros N H. assert (E : ev_cells (drop_key x l) v == 0) by (apply ev_cells_zero; intros y I; apply drop_dom in I; apply H; tauto).
  rewrite ev_cells_drop in E by exact N. lra.
Qed.
Lemma cf_wf r x : wf r -> occurs x r -> ~ cf (r_cells r) x == 0.
Proof. intros [N F] O. destruct (look_dom _ _ O) as (a & E). unfold cf. rewrite E. apply look_in in E. rewrite Forall_forall in F. exact (F _ E). Qed.
Lemma cf_occurs r x : ~ cf (r_cells r) x == 0 -> occurs x r.
Proof. intros H. destruct (in_dec sym_dec x (dom (r_cells r))) as [I|I]; [exact I|]. elim H. now rewrite cf_none. Qed.
Lemma cf_is r x : coefficient_for r x = cf (r_cells r) x. Proof. reflexivity. Qed.

Lemma put_forall (P : symbol * Q -> Prop) k a l : Forall P l -> P (k, a) -> Forall P (put_at k a l).
Proof. induction l as [|[k' b] l IH]; cbn; intros F H; [auto|]. inversion F; subst. destruct (sym_eqb k k'); constructor; auto. Qed.
Lemma filter_forall (P : symbol * Q -> Prop) f l : Forall P l -> Forall P (filter f l).
Proof. intros F. rewrite Forall_forall in *. intros p I. apply filter_In in I. apply F. tauto. Qed.

(** ** Inserting *)
Lemma insert_wf r x k : wf r -> wf (insert_symbol r x k).
Proof.
  intros [N F]. unfold insert_symbol. destruct (look x (r_cells r)) as [a|] eqn:E.
  - destruct (near_zero (qadd a k)) eqn:Z; split; cbn [r_cells]; [now apply drop_nodup|now apply filter_forall|now apply put_nodup|]. apply put_forall; [exact F|]. now apply near_zero_no.
  - destruct (near_zero k) eqn:Z; [split; assumption|]. split; cbn [r_cells]; [now apply put_nodup|]. apply put_forall; [exact F|]. now apply near_zero_no.
Qed.
Lemma insert_const r x k : r_const (insert_symbol r x k) = r_const r.
Proof. unfold insert_symbol. destruct (look x (r_cells r)); [destruct (near_zero (qadd q k))|destruct (near_zero k)]; reflexivity. Qed.
Lemma insert_exact r x k : r_exact (insert_symbol r x k) = true -> r_exact r = true.
Proof. unfold insert_symbol. destruct (look x (r_cells r)); [destruct (near_zero (qadd q k))|destruct (near_zero k)]; cbn; auto; intros H; apply andb_prop in H; tauto. Qed.
Lemma insert_occurs r x k y : occurs y (insert_symbol r x k) -> y = x \/ occurs y r.
Proof.
  unfold insert_symbol, occurs. destruct (look x (r_cells r)) eqn:E; [destruct (near_zero (qadd q k))|destruct (near_zero k)]; cbn [r_cells]; auto; intros H; try (apply put_dom in H; tauto).
  apply drop_dom in H. tauto.
Qed.
Lemma insert_ev r x k v : wf r -> r_exact (insert_symbol r x k) = true -> ev (insert_symbol r x k) v == ev r v + k * v x.
Proof.
  intros [N F]. unfold insert_symbol. destruct (look x (r_cells r)) as [a|] eqn:E.
  - assert (C : cf (r_cells r) x = a) by (unfold cf; now rewrite E). pose proof (qadd_ok a k) as A. destruct (near_zero (qadd a k)) eqn:Z; unfold ev; cbn [r_cells r_const r_exact]; intros H.
    + apply andb_prop in H. destruct H as [_ H]. apply is_zero_ok in H. rewrite ev_cells_drop by exact N. rewrite C. assert (Q : a == - k) by lra. rewrite Q. ring.
    + rewrite ev_cells_put by exact N. rewrite C, A. ring.
  - assert (C : cf (r_cells r) x = 0) by (unfold cf; now rewrite E). destruct (near_zero k) eqn:Z; unfold ev; cbn [r_cells r_const r_exact]; intros H.
    + apply andb_prop in H. destruct H as [_ H]. apply is_zero_ok in H. rewrite H. ring.
    + rewrite ev_cells_put by exact N. rewrite C. ring.
Qed.
(** A symbol that is new to the row gets just the coefficient inserted. *)
Lemma insert_cf r x k y : wf r -> r_exact (insert_symbol r x k) = true -> cf (r_cells (insert_symbol r x k)) y == cf (r_cells r) y + (if sym_eqb y x then k else 0).
Proof.
  intros W H. pose (d := fun z => if sym_eqb y z then 1 else 0). assert (D : forall r, wf r -> ev r d == r_const r + cf (r_cells r) y).
  { intros q [N _]. unfold ev. assert (Z : ev_cells (r_cells q) d == cf (r_cells q) y * d y) by (apply ev_cells_one; [exact N|]; intros z _ Z; unfold d; destruct (sym_eqb y z) eqn:E; [apply sym_eqb_ok in E; congruence|reflexivity]). rewrite Z. unfold d. rewrite sym_eqb_refl. ring. }
  pose proof (insert_ev r x k d W H) as E. rewrite (D _ W), (D _ (insert_wf r x k W)), insert_const in E. unfold d in E. destruct (sym_eqb y x); lra.
Qed.

(** ** Rows *)
Lemma insert_fold_props l k : forall r, wf r -> let r' := fold_left (fun r p => insert_symbol r (fst p) (qmul (snd p) k)) l r in
  wf r' /\ r_const r' = r_const r /\ (r_exact r' = true -> r_exact r = true) /\ (forall y, occurs y r' -> In y (dom l) \/ occurs y r) /\
  (r_exact r' = true -> forall v, ev r' v == ev r v + k * ev_cells l v).
Proof.
  induction l as [|p l IH]; intros r W; cbn [fold_left].
  - repeat split; auto; try apply W. intros _ v. cbn. ring.
  - pose proof (insert_wf r (fst p) (qmul (snd p) k) W) as W'. destruct (IH _ W') as (I1 & I2 & I3 & I4 & I5). repeat split; try apply I1.
    + rewrite I2. apply insert_const.
    + intros H. apply I3 in H. now apply insert_exact in H.
    + intros y O. apply I4 in O. destruct O as [O|O]; [left; cbn; auto|]. apply insert_occurs in O. destruct O as [->|O]; [left; cbn; auto|auto].
    + intros H v. rewrite (I5 H v). rewrite insert_ev by auto. cbn [ev_cells]. rewrite qmul_ok. ring.
Qed.
Lemma insert_row_props r o k : wf r -> wf o -> let r' := fst (insert_row r o k) in
  wf r' /\ r_const r' == r_const r + k * r_const o /\ (r_exact r' = true -> r_exact r = true /\ r_exact o = true) /\ (forall y, occurs y r' -> occurs y o \/ occurs y r) /\
  (r_exact r' = true -> forall v, ev r' v == ev r v + k * ev o v) /\
  (snd (insert_row r o k) = false -> r_const r' == r_const r).
Proof.
  intros W Wo. unfold insert_row. cbn [fst snd].
  set (r0 := Row (r_cells r) (qadd (r_const r) (qmul (r_const o) k)) (r_exact r && r_exact o)).
  assert (W0 : wf r0) by exact W. destruct (insert_fold_props (r_cells o) k r0 W0) as (I1 & I2 & I3 & I4 & I5). cbv zeta.
  split; [exact I1|]. split; [rewrite I2; cbn; rewrite qadd_ok, qmul_ok; ring|]. split; [intros H; apply I3 in H; cbn in H; now apply andb_prop in H|]. split; [exact I4|]. split.
  - intros H v. rewrite (I5 H v). unfold ev. cbn [r0 r_const r_cells]. rewrite qadd_ok, qmul_ok. ring.
  - intros H. apply negb_false_iff in H. apply is_zero_ok in H. rewrite I2. cbn. rewrite qadd_ok, H. ring.
Qed.
Lemma remove_wf r x : wf r -> wf (remove_symbol r x).
Proof. intros [N F]. split; cbn; [now apply drop_nodup|now apply filter_forall]. Qed.
Lemma remove_ev r x v : wf r -> ev (remove_symbol r x) v == ev r v - cf (r_cells r) x * v x.
Proof. intros [N F]. unfold ev. cbn. rewrite ev_cells_drop by exact N. ring. Qed.
Lemma remove_occurs r x y : occurs y (remove_symbol r x) <-> occurs y r /\ y <> x.
Proof. apply drop_dom. Qed.

(** Substituting: the row changes by its coefficient times the difference. *)
Lemma subst_props r x o : wf r -> wf o -> let r' := fst (substitute_row r x o) in
  wf r' /\ r_const r' == r_const r + cf (r_cells r) x * r_const o /\ (r_exact r' = true -> r_exact r = true) /\
  (forall y, occurs y r' -> occurs y o \/ (occurs y r /\ y <> x)) /\
  (r_exact r' = true -> forall v, ev r' v == ev r v + cf (r_cells r) x * (ev o v - v x)) /\
  (snd (substitute_row r x o) = false -> r_const r' == r_const r) /\ (~ occurs x r -> r' = r).
Proof.
  intros W Wo. unfold substitute_row, cf. destruct (look x (r_cells r)) as [k|] eqn:E; cbn [fst snd].
  - destruct (insert_row_props (remove_symbol r x) o k (remove_wf r x W) Wo) as (I1 & I2 & I3 & I4 & I5 & I6). cbv zeta.
    split; [exact I1|]. split; [exact I2|]. split; [intros H; exact (proj1 (I3 H))|]. split; [intros y O; apply I4 in O; rewrite remove_occurs in O; tauto|]. split; [|split; [exact I6|]].
    + intros H v. rewrite (I5 H v). rewrite remove_ev by exact W. unfold cf. rewrite E. ring.
    + intros H. elim H. apply look_in in E. now apply in_dom in E.
  - cbv zeta. split; [exact W|]. split; [ring|]. split; [auto|]. split; [|split; [|split; [intros _; reflexivity|auto]]].
    + intros y O. right. split; [exact O|]. intros ->. apply look_none in E. contradiction.
    + intros _ v. ring.
Qed.

(** Solving: a row that stands for an equation with zero becomes one for the symbol. *)
Lemma map_dom {A} (f : symbol * A -> A) l : dom (map (fun p => (fst p, f p)) l) = dom l.
Proof. unfold dom. rewrite map_map. apply map_ext. reflexivity. Qed.
Lemma ev_cells_scale l k v : ev_cells (map (fun p => (fst p, qmul (snd p) k)) l) v == k * ev_cells l v.
Proof. induction l as [|p l IH]; cbn; [ring|]. rewrite IH, qmul_ok. ring. Qed.
Lemma solve_props r x : wf r -> occurs x r -> let r' := solve_for_symbol r x in
  wf r' /\ r_const r' == - r_const r / cf (r_cells r) x /\ r_exact r' = r_exact r /\ (forall y, occurs y r' <-> occurs y r /\ y <> x) /\
  (forall v, ev r' v == v x - ev r v / cf (r_cells r) x).
Proof.
  intros W O. pose proof (cf_wf r x W O) as C. unfold solve_for_symbol. rewrite cf_is. set (c := cf (r_cells r) x) in *. destruct W as [N F].
  assert (K : qdiv (-(1)) c == - / c) by (rewrite qdiv_ok; field; exact C). cbv zeta.
  assert (D : forall y, occurs y (Row (map (fun p => (fst p, qmul (snd p) (qdiv (- (1)) c))) (drop_key x (r_cells r))) (qmul (r_const r) (qdiv (- (1)) c)) (r_exact r)) <-> occurs y r /\ y <> x).
  { intros y. unfold occurs. cbn [r_cells]. rewrite (map_dom (fun p => qmul (snd p) (qdiv (- (1)) c))). apply drop_dom. }
  split; [split; cbn [r_cells]|split; [|split; [reflexivity|split; [exact D|]]]].
  - rewrite (map_dom (fun p => qmul (snd p) (qdiv (- (1)) c))). now apply drop_nodup.
  - rewrite Forall_forall in *. intros p I. apply in_map_iff in I. destruct I as (q & <- & I). apply drop_in in I. cbn. rewrite qmul_ok, K. intros Z. apply (F q (proj1 I)).
    setoid_replace (snd q) with (- (snd q * - / c) * c) by (field; exact C). rewrite Z. ring.
  - cbn. rewrite qmul_ok, K. field. exact C.
  - intros v. unfold ev. cbn [r_cells r_const]. rewrite ev_cells_scale, ev_cells_drop by exact N. fold c. rewrite qmul_ok, K. field. exact C.
Qed.
Lemma reverse_props r : wf r -> wf (reverse_sign r) /\ r_const (reverse_sign r) == - r_const r /\ r_exact (reverse_sign r) = r_exact r /\ (forall y, occurs y (reverse_sign r) <-> occurs y r) /\
  (forall v, ev (reverse_sign r) v == - ev r v).
Proof.
  intros [N F]. unfold reverse_sign. assert (D : dom (map (fun p => (fst p, qopp (snd p))) (r_cells r)) = dom (r_cells r)) by apply (map_dom (fun p => qopp (snd p))).
  split; [split; cbn [r_cells]|split; [cbn; apply qopp_ok|split; [reflexivity|split]]].
  - now rewrite D.
  - rewrite Forall_forall in *. intros p I. apply in_map_iff in I. destruct I as (q & <- & I). cbn. rewrite qopp_ok. intros Z. apply (F q I). lra.
  - intros y. unfold occurs. cbn [r_cells]. now rewrite D.
  - intros v. unfold ev. cbn [r_cells r_const]. rewrite qopp_ok. assert (E : ev_cells (map (fun p => (fst p, qopp (snd p))) (r_cells r)) v == - ev_cells (r_cells r) v) by (clear; induction (r_cells r) as [|p l IH]; cbn; [ring|]; rewrite IH, qopp_ok; ring). rewrite E. ring.
Qed.
(** The coefficient of a symbol from values. *)
Lemma cf_delta r x : wf r -> cf (r_cells r) x == ev r (fun y => if sym_eqb y x then 1 else 0) - r_const r.
Proof.
  intros [N _]. unfold ev. set (d := fun y => if sym_eqb y x then 1 else 0). assert (Z : ev_cells (r_cells r) d == cf (r_cells r) x * d x) by (apply ev_cells_one; [exact N|]; intros y _ Z; unfold d; destruct (sym_eqb y x) eqn:E; [apply sym_eqb_ok in E; congruence|reflexivity]). rewrite Z. unfold d. rewrite sym_eqb_refl. ring.
Qed.
Lemma cf_eq_of_look l l' x : look x l = look x l' -> cf l x == cf l' x.
Proof. unfold cf. now intros ->. Qed.
Lemma look_app_skip {A} x (l l' : list (symbol * A)) : look x l' = None -> look x (l ++ l') = look x l.
Proof. intros H. induction l as [|[k a] l IH]; cbn; [exact H|]. now rewrite IH. Qed.
(** Pivoting a row: from [y = r] to an equation for [x]. *)
Lemma pivot_row_props r y x : wf r -> occurs x r -> ~ occurs y r -> y <> x -> let r' := solve_for_symbols r y x in
  wf r' /\ r_exact r' = r_exact r /\ r_const r' == - r_const r / cf (r_cells r) x /\ (forall z, occurs z r' -> z = y \/ (occurs z r /\ z <> x)) /\
  (forall v, ev r' v == v x - (ev r v - v y) / cf (r_cells r) x).
Proof.
  intros W O N NE r'. unfold r', solve_for_symbols in *. clear r'. pose proof (insert_wf r y (-(1)) W) as W1.
  assert (I : insert_symbol r y (- (1)) = Row (put_at y (- (1)) (r_cells r)) (r_const r) (r_exact r)) by (unfold insert_symbol; apply look_none in N; now rewrite N, (proj2 one_far)).
  rewrite I in *. assert (C' : cf (put_at y (- (1)) (r_cells r)) x == cf (r_cells r) x).
  { apply cf_eq_of_look. rewrite put_new by exact N. apply look_app_skip. cbn. assert (E : sym_eqb x y = false) by (apply sym_eqb_no; congruence). now rewrite E. }
  pose proof (cf_wf r x W O) as K.
  assert (O1 : occurs x (Row (put_at y (- (1)) (r_cells r)) (r_const r) (r_exact r))) by (apply put_dom; now right).
  destruct (solve_props _ x W1 O1) as (S1 & S2 & S3 & S4 & S5). cbn [r_cells r_const r_exact] in *. split; [exact S1|]. split; [exact S3|]. split; [rewrite S2, C'; reflexivity|]. split.
  - intros z Z. apply S4 in Z. destruct Z as [Z Z2]. apply put_dom in Z. tauto.
  - intros v. rewrite S5, C'. unfold ev. cbn [r_cells r_const]. rewrite ev_cells_put by apply W. rewrite (cf_none _ _ N). field. exact K.
Qed.
End Tolerance.
