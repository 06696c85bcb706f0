(** The rows of the solver as a simplex tableau. *)
From Verif Require Import Base M_Solver P_Row.
From Coq Require Import ZArith NArith QArith Qround List Bool Lia Lqa Setoid Morphisms.
Import ListNotations.
Open Scope Q_scope.
Section Tolerance.
Context {tolr : tolerance}.

Record tab (rows : list (symbol * row)) : Prop := Tab {
  tb_nodup : NoDup (dom rows);
  tb_wf : forall p, In p rows -> wf (snd p);
  tb_basic : forall p x, In p rows -> occurs x (snd p) -> ~ In x (dom rows);
  tb_ext : forall p x, In p rows -> sy_type (fst p) <> TExternal -> occurs x (snd p) -> sy_type x <> TExternal;
  tb_pos : forall p, In p rows -> sy_type (fst p) <> TExternal -> 0 <= r_const (snd p);
  tb_dummy : forall p, In p rows -> sy_type (fst p) = TDummy -> r_const (snd p) == 0 /\ forall x, occurs x (snd p) -> sy_type x = TDummy
}.
Record objective (rows : list (symbol * row)) (o : row) : Prop := Obj {
  ob_wf : wf o;
  ob_basic : forall x, occurs x o -> ~ In x (dom rows);
  ob_ext : forall x, occurs x o -> sy_type x <> TExternal
}.
(** The values satisfy every row; the values of restricted symbols are not negative, those of dummies zero. *)
Definition hold (rows : list (symbol * row)) (v : symbol -> Q) : Prop := forall p, In p rows -> v (fst p) == ev (snd p) v.
Definition proper (v : symbol -> Q) : Prop := (forall x, sy_type x <> TExternal -> 0 <= v x) /\ (forall x, sy_type x = TDummy -> v x == 0).
Definition sol (rows : list (symbol * row)) (x : symbol) : Q := match look x rows with Some r => r_const r | None => 0 end.
(** The values that the rows give when those of the other symbols are [n]. *)
Definition full (rows : list (symbol * row)) (n : symbol -> Q) (x : symbol) : Q := match look x rows with Some r => ev r n | None => n x end.
Definition subst_rows (x : symbol) (r : row) (rows : list (symbol * row)) : list (symbol * row) := map (fun p => (fst p, fst (substitute_row (snd p) x r))) rows.
Definition rows_exact (rows : list (symbol * row)) : bool := forallb (fun p => r_exact (snd p)) rows.

Lemma full_nonbasic rows n x : ~ In x (dom rows) -> full rows n x = n x.
Proof. intros H. unfold full. apply look_none in H. now rewrite H. Qed.
Lemma full_ev rows n r : (forall x, occurs x r -> ~ In x (dom rows)) -> ev r (full rows n) == ev r n.
Proof. intros H. apply ev_ext. intros x O. now rewrite full_nonbasic by auto. Qed.
Lemma full_basic rows n p : NoDup (dom rows) -> In p rows -> full rows n (fst p) = ev (snd p) n.
Proof. intros N I. unfold full. destruct p as [k r]. cbn. now rewrite (in_look k rows r N I). Qed.
Lemma hold_full rows n : tab rows -> hold rows (full rows n).
Proof. intros T p I. rewrite full_basic by (auto; apply T). symmetry. apply full_ev. intros x O. exact (tb_basic _ T p x I O). Qed.
Lemma sol_full rows x : tab rows -> sol rows x == full rows (fun _ => 0) x.
Proof. intros T. unfold sol, full. destruct (look x rows) as [r|]; [|reflexivity]. symmetry. apply ev_zero. intros. reflexivity. Qed.
Lemma hold_ext rows v w : (forall x, v x == w x) -> hold rows v -> hold rows w.
Proof. intros E H p I. rewrite <- E, (H p I). apply ev_ext. intros. apply E. Qed.
Lemma hold_sol rows : tab rows -> hold rows (sol rows).
Proof. intros T. apply (hold_ext rows (full rows (fun _ => 0))); [intros x; symmetry; now apply sol_full|now apply hold_full]. Qed.
Lemma proper_sol rows : tab rows -> proper (sol rows).
Proof.
  intros T. split; intros x H; unfold sol; destruct (look x rows) as [r|] eqn:E; try lra; apply look_in in E.
  - exact (tb_pos _ T _ E H).
  - exact (proj1 (tb_dummy _ T _ E H)).
Qed.
Lemma obj_sol rows o : objective rows o -> ev o (sol rows) == r_const o.
Proof. intros H. apply ev_zero. intros x O. unfold sol. apply (ob_basic _ _ H) in O. apply look_none in O. now rewrite O. Qed.
Lemma ev_cells_pos l v : (forall p, In p l -> 0 <= snd p * v (fst p)) -> 0 <= ev_cells l v.
Proof. induction l as [|p l IH]; cbn; intros H; [lra|]. assert (0 <= ev_cells l v) by auto. assert (0 <= snd p * v (fst p)) by auto. lra. Qed.
(** No negative coefficient: the constant is the least value. *)
Lemma obj_min rows o v : objective rows o -> (forall x, occurs x o -> sy_type x <> TDummy -> 0 <= cf (r_cells o) x) -> proper v -> r_const o <= ev o v.
Proof.
  intros H N [P D]. unfold ev. assert (0 <= ev_cells (r_cells o) v); [|lra]. apply ev_cells_pos. intros [x k] I. cbn.
  assert (O : occurs x o) by (apply in_dom in I; exact I). assert (C : cf (r_cells o) x = k) by (unfold cf; rewrite (in_look _ _ _ (proj1 (ob_wf _ _ H)) I); reflexivity).
  destruct (sy_type x) eqn:T; try (assert (0 <= k) by (rewrite <- C; apply N; [exact O|congruence]); assert (0 <= v x) by (apply P; congruence); nra).
  - now elim (ob_ext _ _ H x O).
  - rewrite (D x T). lra.
Qed.

(** ** Substituting in all rows *)
Lemma subst_dom x r rows : dom (subst_rows x r rows) = dom rows.
Proof. apply (map_dom (fun p => fst (substitute_row (snd p) x r))). Qed.
Lemma subst_in x r rows p : In p (subst_rows x r rows) -> exists q, In q rows /\ fst p = fst q /\ snd p = fst (substitute_row (snd q) x r).
Proof. intros I. apply in_map_iff in I. destruct I as (q & <- & I). exists q. auto. Qed.
Lemma exact_in rows p : rows_exact rows = true -> In p rows -> r_exact (snd p) = true.
Proof. intros H I. unfold rows_exact in H. rewrite forallb_forall in H. exact (H p I). Qed.
Lemma exact_subst x r rows : (forall p, In p rows -> wf (snd p)) -> wf r -> rows_exact (subst_rows x r rows) = true -> rows_exact rows = true.
Proof.
  intros W Wr H. unfold rows_exact. apply forallb_forall. intros p I. assert (J : In (fst p, fst (substitute_row (snd p) x r)) (subst_rows x r rows)) by (apply in_map_iff; exists p; auto).
  apply (exact_in _ _ H) in J. cbn in J. destruct (subst_props (snd p) x r (W p I) Wr) as (_ & _ & E & _). auto.
Qed.
Lemma exact_put rows k r : NoDup (dom rows) -> rows_exact (put_at k r rows) = true -> r_exact r = true /\ rows_exact (drop_key k rows) = true.
Proof.
  intros N H. split.
  - assert (I : In (k, r) (put_at k r rows)) by (apply put_in; auto). exact (exact_in _ _ H I).
  - apply forallb_forall. intros p I. apply drop_in in I. apply (exact_in _ p H). apply put_in; auto.
Qed.
Lemma hold_subst x r rows v : (forall p, In p rows -> wf (snd p)) -> wf r -> rows_exact (subst_rows x r rows) = true -> v x == ev r v -> (hold (subst_rows x r rows) v <-> hold rows v).
Proof.
  intros W Wr H E. assert (K : forall p, In p rows -> ev (fst (substitute_row (snd p) x r)) v == ev (snd p) v).
  { intros p I. destruct (subst_props (snd p) x r (W p I) Wr) as (_ & _ & _ & _ & S & _). rewrite S.
    - rewrite E. ring.
    - assert (J : In (fst p, fst (substitute_row (snd p) x r)) (subst_rows x r rows)) by (apply in_map_iff; exists p; auto). exact (exact_in _ _ H J). }
  split; intros Hd p I.
  - rewrite <- (K p I). apply (Hd (fst p, fst (substitute_row (snd p) x r))). apply in_map_iff. exists p. auto.
  - apply in_map_iff in I. destruct I as (q & <- & I). cbn [fst snd]. rewrite (K q I). exact (Hd q I).
Qed.
Lemma hold_put rows k r v : NoDup (dom rows) -> ~ In k (dom rows) -> (hold (put_at k r rows) v <-> v k == ev r v /\ hold rows v).
Proof.
  intros N F. split.
  - intros H. split; [apply (H (k, r)); apply put_in; auto|]. intros p I. apply H. apply put_in; [auto|]. right. split; [exact I|]. intros Z. apply F. rewrite <- Z. now apply in_dom.
  - intros [E H] p I. apply put_in in I; [|exact N]. destruct I as [->|[I _]]; auto.
Qed.

(** ** A new row *)
Section Enter.
Variables (rows : list (symbol * row)) (x : symbol) (r : row).
Hypothesis T : tab rows.
Hypothesis W : wf r.
Hypothesis Nx : ~ In x (dom rows).
Hypothesis Nr : forall y, occurs y r -> y <> x /\ ~ In y (dom rows).
Hypothesis Rx : forall p, In p rows -> sy_type (fst p) <> TExternal -> ~ occurs x (snd p).
Hypothesis Re : sy_type x <> TExternal -> 0 <= r_const r /\ forall y, occurs y r -> sy_type y <> TExternal.
Hypothesis Rd : sy_type x = TDummy -> r_const r == 0 /\ forall y, occurs y r -> sy_type y = TDummy.

Lemma enter_keep p : In p rows -> sy_type (fst p) <> TExternal -> fst (substitute_row (snd p) x r) = snd p.
Proof. intros I H. destruct (subst_props (snd p) x r (tb_wf _ T p I) W) as (_ & _ & _ & _ & _ & _ & K). apply K. now apply Rx. Qed.
Lemma enter_tab : tab (put_at x r (subst_rows x r rows)).
Proof.
  assert (N : NoDup (dom (subst_rows x r rows))) by (rewrite subst_dom; apply T).
  assert (C : forall p, In p (put_at x r (subst_rows x r rows)) -> p = (x, r) \/ exists q, In q rows /\ fst p = fst q /\ snd p = fst (substitute_row (snd q) x r)).
  { intros p I. apply put_in in I; [|exact N]. destruct I as [->|[I _]]; [now left|right]. now apply subst_in. }
  constructor.
  - apply put_nodup. exact N.
  - intros p I. apply C in I. destruct I as [->|(q & I & E1 & E2)]; [exact W|]. rewrite E2. destruct (subst_props (snd q) x r (tb_wf _ T q I) W) as (K & _). exact K.
  - intros p y I O Z. apply put_dom in Z. rewrite subst_dom in Z. apply C in I. destruct I as [->|(q & I & E1 & E2)].
    + apply Nr in O. tauto.
    + rewrite E2 in O. destruct (subst_props (snd q) x r (tb_wf _ T q I) W) as (_ & _ & _ & K & _). apply K in O. destruct O as [O|[O NE]]; [apply Nr in O; tauto|]. apply (tb_basic _ T q y I) in O. tauto.
  - intros p y I H O. apply C in I. destruct I as [->|(q & I & E1 & E2)]; [exact (proj2 (Re H) y O)|]. rewrite E1 in H. rewrite E2, (enter_keep q I H) in O. exact (tb_ext _ T q y I H O).
  - intros p I H. apply C in I. destruct I as [->|(q & I & E1 & E2)]; [exact (proj1 (Re H))|]. rewrite E1 in H. rewrite E2, (enter_keep q I H). exact (tb_pos _ T q I H).
  - intros p I H. apply C in I. destruct I as [->|(q & I & E1 & E2)]; [exact (Rd H)|]. rewrite E1 in H. rewrite E2, (enter_keep q I); [exact (tb_dummy _ T q I H)|congruence].
Qed.
Lemma enter_hold v : rows_exact (subst_rows x r rows) = true -> (hold (put_at x r (subst_rows x r rows)) v <-> v x == ev r v /\ hold rows v).
Proof.
  intros H. rewrite hold_put by (rewrite subst_dom; auto; apply T). split; intros [E K]; (split; [exact E|]); apply (hold_subst x r rows v (tb_wf _ T) W H E); exact K.
Qed.
Lemma enter_obj o : objective rows o -> (sy_type x = TExternal -> ~ occurs x o) -> objective (put_at x r (subst_rows x r rows)) (fst (substitute_row o x r)).
Proof using W Nr Re Rd.
  intros O Hx. destruct (subst_props o x r (ob_wf _ _ O) W) as (K1 & _ & _ & K4 & _ & _ & K7). constructor.
  - exact K1.
  - intros y Z I. apply put_dom in I. rewrite subst_dom in I. apply K4 in Z. destruct Z as [Z|[Z NE]]; [apply Nr in Z; tauto|]. apply (ob_basic _ _ O) in Z. tauto.
  - intros y Z. destruct (sy_type x) eqn:E; [rewrite K7 in Z by auto; now apply (ob_ext _ _ O)| | |]; (apply K4 in Z; destruct Z as [Z|[Z _]]; [apply Re; [congruence|exact Z]|now apply (ob_ext _ _ O)]).
Qed.
End Enter.
Lemma subst_obj_ev o x r v : wf o -> wf r -> r_exact (fst (substitute_row o x r)) = true -> v x == ev r v -> ev (fst (substitute_row o x r)) v == ev o v.
Proof. intros Wo Wr H E. destruct (subst_props o x r Wo Wr) as (_ & _ & _ & _ & K & _). rewrite (K H v), E. ring. Qed.

(** ** Exchanging *)
Section Pivot.
Variables (rows : list (symbol * row)) (y : symbol) (r : row) (x : symbol).
Hypothesis T : tab rows.
Hypothesis I : In (y, r) rows.
Hypothesis Ty : sy_type y <> TExternal.
Hypothesis Tx : sy_type x = TSlack \/ sy_type x = TError.
Hypothesis O : occurs x r.
Let c := cf (r_cells r) x.
Hypothesis Pos : 0 <= - r_const r / c.
Hypothesis PosAll : forall p, In p rows -> fst p <> y -> sy_type (fst p) <> TExternal -> 0 <= r_const (snd p) + cf (r_cells (snd p)) x * (- r_const r / c).
Let r' := solve_for_symbols r y x.

Lemma pivot_facts : wf r' /\ r_exact r' = r_exact r /\ r_const r' == - r_const r / c /\ (forall z, occurs z r' -> z = y \/ (occurs z r /\ z <> x)) /\
  (forall v, ev r' v == v x - (ev r v - v y) / c) /\ ~ In x (dom rows) /\ ~ c == 0 /\ y <> x /\ sy_type y <> TDummy.
Proof using T I Tx O.
  clear PosAll Pos Ty.
  assert (Nx : ~ In x (dom rows)) by exact (tb_basic _ T _ x I O).
  assert (Ny : ~ occurs y r) by (intros Z; apply (tb_basic _ T _ y I Z); now apply in_dom in I).
  assert (NE : y <> x) by (intros ->; contradiction).
  destruct (pivot_row_props r y x (tb_wf _ T _ I) O Ny NE) as (K1 & K2 & K3 & K4 & K5). split; [exact K1|]. split; [exact K2|]. split; [exact K3|]. split; [exact K4|]. split; [exact K5|]. split; [exact Nx|]. split; [|split; [exact NE|]].
  - apply cf_wf; [exact (tb_wf _ T _ I)|exact O].
  - intros Z. apply (tb_dummy _ T _ I) in Z. destruct Z as [_ Z]. apply Z in O. destruct Tx; congruence.
Qed.
Lemma pivot_tab : tab (put_at x r' (subst_rows x r' (drop_key y rows))).
Proof using T I Ty Tx O Pos PosAll.
  destruct pivot_facts as (F1 & F2 & F3 & F4 & F5 & F6 & F7 & F8 & F9).
  assert (ND : NoDup (dom (drop_key y rows))) by (apply drop_nodup; apply T).
  assert (N : NoDup (dom (subst_rows x r' (drop_key y rows)))) by (rewrite subst_dom; exact ND).
  assert (C : forall p, In p (put_at x r' (subst_rows x r' (drop_key y rows))) -> p = (x, r') \/ exists q, In q rows /\ fst q <> y /\ fst p = fst q /\ snd p = fst (substitute_row (snd q) x r')).
  { intros p J. apply put_in in J; [|exact N]. destruct J as [->|[J _]]; [now left|right]. apply subst_in in J. destruct J as (q & J & E). apply drop_in in J. exists q. tauto. }
  assert (Nr : forall z, occurs z r' -> ~ In z (dom (drop_key y rows)) /\ z <> x).
  { intros z Z. apply F4 in Z. rewrite drop_dom. destruct Z as [->|[Z NE]]; [tauto|]. apply (tb_basic _ T _ z I) in Z. tauto. }
  assert (NoE : forall z, occurs z r' -> sy_type z <> TExternal).
  { intros z Z. apply F4 in Z. destruct Z as [->|[Z _]]; [exact Ty|]. exact (tb_ext _ T _ z I Ty Z). }
  constructor.
  - apply put_nodup. exact N.
  - intros p J. apply C in J. destruct J as [->|(q & J & _ & E1 & E2)]; [exact F1|]. rewrite E2. apply (subst_props (snd q) x r' (tb_wf _ T q J) F1).
  - intros p z J Oz Z. apply put_dom in Z. rewrite subst_dom in Z. apply C in J. destruct J as [->|(q & J & _ & E1 & E2)].
    + apply Nr in Oz. tauto.
    + rewrite E2 in Oz. destruct (subst_props (snd q) x r' (tb_wf _ T q J) F1) as (_ & _ & _ & K & _). apply K in Oz. destruct Oz as [Oz|[Oz NE]]; [apply Nr in Oz; tauto|].
      apply (tb_basic _ T q z J) in Oz. rewrite drop_dom in Z. tauto.
  - intros p z J H Oz. apply C in J. destruct J as [->|(q & J & _ & E1 & E2)]; [now apply NoE|]. rewrite E1 in H. rewrite E2 in Oz.
    destruct (subst_props (snd q) x r' (tb_wf _ T q J) F1) as (_ & _ & _ & K & _). apply K in Oz. destruct Oz as [Oz|[Oz NE]]; [now apply NoE|]. exact (tb_ext _ T q z J H Oz).
  - intros p J H. apply C in J. destruct J as [->|(q & J & NQ & E1 & E2)]; [cbn [snd]; rewrite F3; exact Pos|]. rewrite E1 in H. rewrite E2.
    destruct (subst_props (snd q) x r' (tb_wf _ T q J) F1) as (_ & K & _). rewrite K, F3. apply PosAll; assumption.
  - intros p J H. apply C in J. destruct J as [->|(q & J & NQ & E1 & E2)]; [cbn in H; destruct Tx; congruence|]. rewrite E1 in H.
    destruct (tb_dummy _ T q J H) as [D1 D2]. destruct (subst_props (snd q) x r' (tb_wf _ T q J) F1) as (_ & _ & _ & _ & _ & _ & K). rewrite E2, K; [split; assumption|].
    intros Z. apply D2 in Z. destruct Tx; congruence.
Qed.
Lemma pivot_hold v : rows_exact (subst_rows x r' (drop_key y rows)) = true -> (hold (put_at x r' (subst_rows x r' (drop_key y rows))) v <-> hold rows v) /\ (hold rows v -> v x == ev r' v).
Proof using T I Tx O.
  clear PosAll Pos Ty.
  destruct pivot_facts as (F1 & F2 & F3 & F4 & F5 & F6 & F7 & F8 & F9). intros H.
  assert (ND : NoDup (dom (drop_key y rows))) by (apply drop_nodup; apply T).
  assert (Eq : v x == ev r' v <-> v y == ev r v).
  { rewrite F5. split; intros Z.
    - assert (Q : (ev r v - v y) / c == 0) by lra. assert (Q2 : (ev r v - v y) / c * c == 0) by (rewrite Q; ring). rewrite Qmult_comm, Qmult_div_r in Q2 by exact F7. lra.
    - rewrite Z. field. exact F7. }
  assert (Sp : hold rows v <-> v y == ev r v /\ hold (drop_key y rows) v).
  { split.
    - intros Hd. split; [exact (Hd _ I)|]. intros p J. apply drop_in in J. apply Hd. tauto.
    - intros [E Hd] p J. destruct (sym_dec (fst p) y) as [D|D].
      + assert (K : p = (y, r)). { destruct p as [k q]. cbn in D. subst k. assert (A := in_look _ _ _ (tb_nodup _ T) J). assert (B := in_look _ _ _ (tb_nodup _ T) I). congruence. }
        rewrite K. exact E.
      + apply Hd. apply drop_in. auto. }
  assert (WD : forall p, In p (drop_key y rows) -> wf (snd p)) by (intros p J; apply drop_in in J; apply (tb_wf _ T); tauto).
  split.
  - rewrite hold_put by (rewrite subst_dom; auto; rewrite drop_dom; tauto). rewrite Sp. split; intros [E K].
    + split; [now apply Eq|]. apply (hold_subst x r' (drop_key y rows) v WD F1 H E). exact K.
    + apply Eq in E. split; [exact E|]. apply (hold_subst x r' (drop_key y rows) v WD F1 H E). exact K.
  - intros Hd. apply Eq. apply Sp in Hd. tauto.
Qed.
Lemma pivot_obj o : objective rows o -> objective (put_at x r' (subst_rows x r' (drop_key y rows))) (fst (substitute_row o x r')).
Proof using T I Ty Tx O.
  clear PosAll Pos.
  destruct pivot_facts as (F1 & F2 & F3 & F4 & F5 & F6 & F7 & F8 & F9). intros Ob. destruct (subst_props o x r' (ob_wf _ _ Ob) F1) as (K1 & _ & _ & K4 & _). constructor.
  - exact K1.
  - intros z Z J. apply put_dom in J. rewrite subst_dom, drop_dom in J. apply K4 in Z. destruct Z as [Z|[Z NE]].
    + apply F4 in Z. destruct Z as [->|[Z NE]]; [destruct J as [J|J]; [congruence|tauto]|]. apply (tb_basic _ T _ z I) in Z. tauto.
    + apply (ob_basic _ _ Ob) in Z. tauto.
  - intros z Z. apply K4 in Z. destruct Z as [Z|[Z NE]]; [|now apply (ob_ext _ _ Ob)]. apply F4 in Z. destruct Z as [->|[Z _]]; [exact Ty|]. exact (tb_ext _ T _ z I Ty Z).
Qed.
End Pivot.

(** ** Unboundedness *)
Lemma bounded_has_leaving rows o x : tab rows -> objective rows o -> occurs x o -> sy_type x <> TDummy -> cf (r_cells o) x < 0 ->
  (forall v, hold rows v -> proper v -> 0 <= ev o v) -> ~ (forall p, In p rows -> sy_type (fst p) <> TExternal -> 0 <= cf (r_cells (snd p)) x).
Proof.
  intros T Ob O Tx C B N. pose (k := cf (r_cells o) x). pose (t := (r_const o + 1) / - k).
  pose (d := fun z => if sym_eqb z x then t else 0).
  assert (Nx : ~ In x (dom rows)) by (now apply (ob_basic _ _ Ob)).
  assert (D0 : forall z, z <> x -> d z == 0) by (intros z Z; unfold d; destruct (sym_eqb z x) eqn:E; [apply sym_eqb_ok in E; congruence|reflexivity]).
  assert (Dx : d x = t) by (unfold d; now rewrite sym_eqb_refl).
  assert (EV : forall q, wf q -> ev q d == r_const q + cf (r_cells q) x * t).
  { intros q [Nq _]. unfold ev. rewrite (ev_cells_one _ x d) by (auto; intros z _ Z; now apply D0). rewrite Dx. reflexivity. }
  assert (P0 : 0 <= r_const o). { rewrite <- (obj_sol rows o Ob). apply B; [now apply hold_sol|now apply proper_sol]. }
  assert (Tp : 0 <= t). { unfold t. apply Qle_shift_div_l; [unfold k; lra|lra]. }
  assert (Pr : proper (full rows d)).
  { split; intros z Z; unfold full; destruct (look z rows) as [q|] eqn:E.
    - apply look_in in E. rewrite EV by (apply (tb_wf _ T _ E)). pose proof (tb_pos _ T _ E Z) as P. pose proof (N _ E Z) as M. cbn [snd] in *. nra.
    - destruct (sym_dec z x) as [->|NE]; [rewrite Dx; exact Tp|rewrite (D0 z NE); lra].
    - apply look_in in E. destruct (tb_dummy _ T _ E Z) as [Q1 Q2]. cbn [snd] in *. rewrite ev_zero; [exact Q1|]. intros w Ow. apply D0. intros ->. apply Q2 in Ow. congruence.
    - apply D0. congruence. }
  pose proof (B _ (hold_full rows d T) Pr) as K. rewrite full_ev in K by (apply Ob). rewrite EV in K by (apply Ob). fold k in K.
  assert (Q : k * t == - (r_const o + 1)) by (unfold t; field; unfold k; lra). lra.
Qed.
End Tolerance.
