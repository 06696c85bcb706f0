(** Tableaux of systems of differences: their coefficients are 0, 1 or -1.

    The equations that a layout gives the solver are of two kinds. Two of them fix the borders of the area. In each of the
    others at most two variables occur besides the borders, with the coefficients 1 and -1, and symbols of its own that stand
    for how it is met. Whatever exchanges lead to a tableau with the same solutions, its coefficients are then 0, 1 or -1.

    One segment in the middle of an area gives equations of another kind: there are only two variables besides the borders,
    and each equation has a multiple by 0, 1 or -1 of each. The coefficients are then 0, 1/2, 1 or 2, or the opposite. *)
From Verif Require Import Base M_Solver P_Row P_Tableau P_System.
From Coq Require Import ZArith NArith QArith Qabs List Bool Lia Lqa Setoid Morphisms.
Import ListNotations.
Open Scope Q_scope.

Definition ext (x : symbol) : Prop := sy_type x = TExternal.
Definition unit_q (q : Q) : Prop := q == 1 \/ q == -(1).
Definition sgn_q (q : Q) : Prop := q == 0 \/ q == 1 \/ q == -(1).
Definition half_q (q : Q) : Prop := q == 1 # 2 \/ q == -(1 # 2).
Definition simple (q : Q) : Prop := sgn_q q \/ half_q q \/ q == 2 \/ q == -(2).
Record eqn := Eqn { q_terms : list (symbol * Q); q_const : Q; q_marks : list (symbol * Q) }.
(** The left side without the constant. *)
Definition lin (e : eqn) (v : symbol -> Q) : Q := ev_cells (q_terms e) v + ev_cells (q_marks e) v.
Definition eqs_hold (es : list eqn) (v : symbol -> Q) : Prop := forall e, In e es -> lin e v + q_const e == 0.
Definition all_marks (es : list eqn) : list symbol := flat_map (fun e => dom (q_marks e)) es.
Definition val (v : symbol -> Q) (o : option symbol) : Q := match o with Some x => v x | None => 0 end.

Definition ground_eq (e : eqn) (A d : symbol) : Prop := q_terms e = [(A, 1)] /\ q_marks e = [(d, 1)] /\ ext A /\ sy_type d = TDummy.
(** Which variables the other equations are about: any two at a time, or no more than two in all. *)
Inductive netmode := Apart | Around (a b : option symbol).
Definition form (a b : option symbol) (gs : list symbol) (ts : list (symbol * Q)) (al be : Q) : Prop := forall v, (forall A, In A gs -> v A == 0) -> ev_cells ts v == al * val v a + be * val v b.
Definition fit_terms (md : netmode) (gs : list symbol) (ts : list (symbol * Q)) : Prop :=
  match md with
  | Apart => exists p q, (forall x, p = Some x \/ q = Some x -> ext x) /\ forall v, (forall A, In A gs -> v A == 0) -> ev_cells ts v == val v p - val v q
  | Around a b => exists al be, sgn_q al /\ sgn_q be /\ form a b gs ts al be
  end /\ (forall x, In x (dom ts) -> ext x).
Definition mode_ok (md : netmode) (gs : list symbol) : Prop :=
  match md with Apart => True | Around a b => (forall x, a = Some x \/ b = Some x -> ext x /\ ~ In x gs) /\ forall x, a = Some x -> b <> Some x end.
Definition own_marks (mk : list (symbol * Q)) : Prop := mk <> [] /\ forall m, In m mk -> unit_q (snd m) /\ ~ ext (fst m) /\ sy_type (fst m) <> TDummy.
Record net (md : netmode) (gs : list symbol) (es : list eqn) : Prop := Net {
  n_mode : mode_ok md gs;
  n_each : forall e, In e es -> (exists A d, ground_eq e A d /\ In A gs) \/ (fit_terms md gs (q_terms e) /\ own_marks (q_marks e));
  n_ground : forall A, In A gs -> exists e d, In e es /\ ground_eq e A d;
  n_once : forall e e' A d d', In e es -> In e' es -> ground_eq e A d -> ground_eq e' A d' -> e = e';
  n_marks : NoDup (all_marks es)
}.

(** What of a tableau does not depend on the constants. *)
Record tab0 (rows : list (symbol * row)) : Prop := Tab0 {
  t0_nodup : NoDup (dom rows);
  t0_wf : forall p, In p rows -> wf (snd p);
  t0_basic : forall p x, In p rows -> occurs x (snd p) -> ~ In x (dom rows);
  t0_dummy : forall p, In p rows -> sy_type (fst p) = TDummy -> forall x, occurs x (snd p) -> sy_type x = TDummy
}.
Lemma tab_tab0 rows : tab rows -> tab0 rows.
Proof. intros [H1 H2 H3 _ _ H6]. split; [exact H1|exact H2|exact H3|]. intros p I Td. now apply H6. Qed.
Lemma hold_full0 rows n : tab0 rows -> hold rows (full rows n).
Proof. intros T p I. rewrite (full_basic rows n p (t0_nodup _ T) I). symmetry. apply full_ev. intros x. exact (t0_basic _ T p x I). Qed.
Lemma hold_sol0 rows : tab0 rows -> hold rows (sol rows).
Proof.
  intros T. apply (hold_ext rows (full rows (fun _ => 0))); [|now apply hold_full0]. intros x. unfold sol, full. destruct (look x rows) as [r|]; [|reflexivity]. apply ev_zero. reflexivity.
Qed.

(** ** Linear forms *)
Lemma ev_plus l a b : ev_cells l (fun x => a x + b x) == ev_cells l a + ev_cells l b.
Proof. induction l as [|p l IH]; cbn; [ring|]. rewrite IH. ring. Qed.
Lemma ev_scale l k a : ev_cells l (fun x => k * a x) == k * ev_cells l a.
Proof. induction l as [|p l IH]; cbn; [ring|]. rewrite IH. ring. Qed.
Lemma lin_plus e a b : lin e (fun x => a x + b x) == lin e a + lin e b.
Proof. unfold lin. rewrite !ev_plus. ring. Qed.
Lemma lin_scale e k a : lin e (fun x => k * a x) == k * lin e a.
Proof. unfold lin. rewrite !ev_scale. ring. Qed.
Lemma lin_ext e a b : (forall x, In x (dom (q_terms e)) \/ In x (dom (q_marks e)) -> a x == b x) -> lin e a == lin e b.
Proof. intros H. unfold lin. rewrite (ev_cells_ext _ a b), (ev_cells_ext _ a b); [reflexivity| |]; intros x I; apply H; tauto. Qed.
Lemma ev_upd l v m q : NoDup (dom l) -> ev_cells l (upd v m q) == ev_cells l v + cf l m * (q - v m).
Proof.
  induction l as [|[k a] l IH]; intros N; [cbn; ring|]. inversion N; subst. unfold cf in *. cbn [ev_cells look fst snd]. unfold upd at 1. rewrite (IH H2). destruct (sym_eqb m k) eqn:E.
  - apply sym_eqb_ok in E. subst k. rewrite sym_eqb_refl. destruct (look m l) eqn:Lk; [apply look_in, in_dom in Lk; contradiction|]. ring.
  - assert (E' : sym_eqb k m = false) by (apply sym_eqb_no; apply sym_eqb_no in E; congruence). rewrite E'. ring.
Qed.
Lemma ev_upd_none l v m q : ~ In m (dom l) -> ev_cells l (upd v m q) == ev_cells l v.
Proof. intros H. apply ev_cells_ext. intros x I. rewrite upd_other; [reflexivity|congruence]. Qed.
Lemma in_marks es e x : In e es -> In x (dom (q_marks e)) -> In x (all_marks es).
Proof. intros I J. apply in_flat_map. eauto. Qed.
Lemma nodup_marks es e : NoDup (all_marks es) -> In e es -> NoDup (dom (q_marks e)).
Proof.
  induction es as [|e' es IH]; [intros _ []|]. cbn. intros N [<-|I]; apply nodup_app in N; destruct N as (N1 & N2 & _); auto.
Qed.
Lemma mark_once es e e' x : NoDup (all_marks es) -> In e es -> In e' es -> In x (dom (q_marks e)) -> In x (dom (q_marks e')) -> e = e'.
Proof.
  induction es as [|e0 es IH]; [intros _ []|]. cbn. intros N. apply nodup_app in N. destruct N as (N1 & N2 & N3). intros [<-|I] [<-|J] X Y; auto.
  - elim (N3 x X). now apply (in_marks es e').
  - elim (N3 x Y). now apply (in_marks es e).
Qed.

(** Values for the symbols [P], such that all equations hold that own such a symbol. *)
Lemma absorb (P : symbol -> Prop) v : forall l, NoDup (all_marks l) -> (forall e, In e l -> (forall x, In x (dom (q_marks e)) -> ~ ext x) /\ (forall x, In x (dom (q_terms e)) -> ext x)) ->
  (forall e, In e l -> (exists m c, In (m, c) (q_marks e) /\ unit_q c /\ P m) \/ lin e v == 0) ->
  exists h, (forall x, ext x -> h x = v x) /\ (forall x, ~ P x -> h x = v x) /\ (forall x, ~ In x (all_marks l) -> h x = v x) /\ forall e, In e l -> lin e h == 0.
Proof.
  induction l as [|e l IH]; intros N Ty H; [exists v; repeat split; auto; intros e []|].
  cbn in N. apply nodup_app in N. destruct N as (N1 & N2 & N3). destruct (IH N2) as (h & H1 & H2 & H3 & H4); [intros e' I; apply Ty; now right|intros e' I; apply H; now right|].
  destruct (Ty e (or_introl eq_refl)) as [Tm Tt]. destruct (H e (or_introl eq_refl)) as [(m & c & Im & Uc & Pm)|Z].
  - assert (Dm : In m (dom (q_marks e))) by (apply (in_dom (q_marks e) (m, c)) in Im; exact Im). assert (Xm : ~ ext m) by now apply Tm.
    assert (Cm : cf (q_marks e) m = c) by (unfold cf; now rewrite (in_look m (q_marks e) c N1 Im)).
    exists (upd h m (h m - c * lin e h)). split; [|split; [|split]].
    + intros x X. rewrite upd_other; [now apply H1|congruence].
    + intros x X. rewrite upd_other; [now apply H2|congruence].
    + intros x X. cbn in X. rewrite in_app_iff in X. rewrite upd_other; [apply H3; tauto|intros ->; tauto].
    + intros e' [<-|I].
      * unfold lin at 1. rewrite (ev_upd_none (q_terms e)) by (intros Z; apply Tt in Z; contradiction). rewrite (ev_upd (q_marks e)) by exact N1. rewrite Cm. destruct Uc as [U|U]; rewrite U; unfold lin; ring.
      * rewrite (lin_ext e' _ h); [now apply H4|]. intros x X. rewrite upd_other; [reflexivity|]. intros ->. destruct X as [X|X].
        -- destruct (Ty e' (or_intror I)) as [_ Tt']. apply Tt' in X. contradiction.
        -- apply (N3 m Dm). now apply (in_marks l e').
  - exists h. split; [exact H1|]. split; [exact H2|]. split; [intros x X; apply H3; cbn in X; rewrite in_app_iff in X; tauto|].
    intros e' [<-|I]; [|now apply H4]. rewrite (lin_ext e h v); [exact Z|]. intros x [X|X]; [rewrite H1 by (now apply Tt); reflexivity|]. rewrite H3; [reflexivity|]. now apply N3.
Qed.

(** ** Integers *)
Definition intq (q : Q) : Prop := exists z, q == inject_Z z.
Lemma int_z z : intq (inject_Z z). Proof. exists z. reflexivity. Qed.
Lemma int_eq a b : a == b -> intq a -> intq b. Proof. intros E (z & H). exists z. now rewrite <- E. Qed.
Lemma int_plus a b : intq a -> intq b -> intq (a + b).
Proof. intros (x & X) (y & Y). exists (x + y)%Z. rewrite inject_Z_plus, X, Y. reflexivity. Qed.
Lemma int_mult a b : intq a -> intq b -> intq (a * b).
Proof. intros (x & X) (y & Y). exists (x * y)%Z. rewrite inject_Z_mult, X, Y. reflexivity. Qed.
Lemma int_opp a : intq a -> intq (- a).
Proof. intros (x & X). exists (- x)%Z. rewrite inject_Z_opp, X. reflexivity. Qed.
Lemma int_unit q : unit_q q -> intq q. Proof. intros [E|E]; [exists 1%Z|exists (-1)%Z]; exact E. Qed.
Lemma int_sgn q : sgn_q q -> intq q. Proof. intros [E|[E|E]]; [exists 0%Z|exists 1%Z|exists (-1)%Z]; exact E. Qed.
Lemma int_cells l v : (forall p, In p l -> intq (snd p) /\ intq (v (fst p))) -> intq (ev_cells l v).
Proof. induction l as [|p l IH]; cbn; intros H; [exists 0%Z; reflexivity|]. apply int_plus; [apply int_mult; apply H; now left|apply IH; intros q I; apply H; now right]. Qed.
Lemma abs_sgn q : sgn_q q -> Qabs q <= 1.
Proof. intros H. apply Qabs_Qle_condition. destruct H as [E|[E|E]]; lra. Qed.
Lemma abs_unit q k : unit_q q -> Qabs (q * k) == Qabs k.
Proof. intros [E|E]; rewrite E; [|rewrite Qabs_Qmult]; [rewrite Qmult_1_l; reflexivity|]. change (Qabs (-(1))) with 1. ring. Qed.
Lemma abs_mult_sgn a k : sgn_q a -> Qabs (k * a) <= Qabs k.
Proof. intros H. rewrite Qabs_Qmult. pose proof (abs_sgn a H). pose proof (Qabs_nonneg k). assert (0 <= Qabs k * (1 - Qabs a)) by (apply Qmult_le_0_compat; lra). lra. Qed.
Lemma abs_cells l v b : (forall p, In p l -> unit_q (snd p) /\ Qabs (v (fst p)) <= b) -> Qabs (ev_cells l v) <= inject_Z (Z.of_nat (length l)) * b.
Proof.
  induction l as [|p l IH]; intros H; [change (Qabs (ev_cells [] v)) with 0; change (inject_Z (Z.of_nat (length (@nil (symbol * Q))))) with 0; lra|]. cbn [ev_cells length]. rewrite Nat2Z.inj_succ. unfold Z.succ. rewrite inject_Z_plus. destruct (H p (or_introl eq_refl)) as [U B].
  pose proof (Qabs_triangle (snd p * v (fst p)) (ev_cells l v)) as Tr. rewrite (abs_unit _ _ U) in Tr. specialize (IH ltac:(intros q I; apply H; now right)). change (inject_Z 1) with 1. lra.
Qed.
Lemma int_twice q : intq q -> intq (2 * q). Proof. intros H. apply int_mult; [now exists 2%Z|exact H]. Qed.
Lemma int_simple q : simple q -> intq (2 * q).
Proof. intros [[E|[E|E]]|[[E|E]|[E|E]]]; [exists 0%Z|exists 2%Z|exists (-2)%Z|exists 1%Z|exists (-1)%Z|exists 4%Z|exists (-4)%Z]; rewrite E; reflexivity. Qed.
Lemma abs_simple q : simple q -> Qabs q <= 2.
Proof. intros H. apply Qabs_Qle_condition. destruct H as [[E|[E|E]]|[[E|E]|[E|E]]]; lra. Qed.
Lemma abs_mult_simple a k : simple a -> Qabs (k * a) <= 2 * Qabs k.
Proof. intros H. rewrite Qabs_Qmult. pose proof (abs_simple a H). pose proof (Qabs_nonneg k). assert (0 <= Qabs k * (2 - Qabs a)) by (apply Qmult_le_0_compat; lra). lra. Qed.
Definition sum_eqs (f : eqn -> Q) (es : list eqn) : Q := fold_right (fun e acc => f e + acc) 0 es.
Lemma sum_eqs_abs f g es : (forall e, In e es -> Qabs (f e) <= g e) -> Qabs (sum_eqs f es) <= sum_eqs g es.
Proof.
  induction es as [|e es IH]; intros H; [change (Qabs (sum_eqs f [])) with 0; change (sum_eqs g []) with 0; lra|]. change (sum_eqs f (e :: es)) with (f e + sum_eqs f es). change (sum_eqs g (e :: es)) with (g e + sum_eqs g es). pose proof (Qabs_triangle (f e) (sum_eqs f es)) as Tr. pose proof (H e (or_introl eq_refl)). specialize (IH ltac:(intros q I; apply H; now right)). lra.
Qed.
Lemma sum_eqs_int f es : (forall e, In e es -> intq (f e)) -> intq (sum_eqs f es).
Proof. induction es as [|e es IH]; intros H; [exists 0%Z; reflexivity|]. cbn. apply int_plus; [apply H; now left|apply IH; intros q I; apply H; now right]. Qed.
Lemma sum_eqs_half f es : (forall e, In e es -> intq (2 * f e)) -> intq (2 * sum_eqs f es).
Proof.
  induction es as [|e es IH]; intros H; [exists 0%Z; reflexivity|]. change (sum_eqs f (e :: es)) with (f e + sum_eqs f es). apply (int_eq (2 * f e + 2 * sum_eqs f es)); [ring|]. apply int_plus; [apply H; now left|apply IH; intros q I; apply H; now right].
Qed.
Lemma sum_eqs_scale c f es : sum_eqs (fun e => c * f e) es == c * sum_eqs f es.
Proof. induction es as [|e es IH]; [cbn; ring|]. unfold sum_eqs in *. cbn [fold_right]. rewrite IH. ring. Qed.
Lemma sum_eqs_zero f es : (forall e, In e es -> f e == 0) -> sum_eqs f es == 0.
Proof. induction es as [|e es IH]; intros H; [reflexivity|]. change (sum_eqs f (e :: es)) with (f e + sum_eqs f es). rewrite (H e) by now left. rewrite IH by (intros q I; apply H; now right). ring. Qed.
Lemma sum_eqs_le f es e : (forall e, In e es -> 0 <= f e) -> In e es -> f e <= sum_eqs f es.
Proof.
  induction es as [|e' es IH]; intros H; [intros []|]. assert (Pos : 0 <= sum_eqs f es). { clear - H. induction es as [|a es IH]; [change (sum_eqs f []) with 0; lra|]. change (sum_eqs f (a :: es)) with (f a + sum_eqs f es). pose proof (H a (or_intror (or_introl eq_refl))). assert (0 <= sum_eqs f es) by (apply IH; intros q [<-|I]; apply H; [now left|right; now right]). lra. }
  change (sum_eqs f (e' :: es)) with (f e' + sum_eqs f es). pose proof (H e' (or_introl eq_refl)) as P0. intros [<-|I]; [lra|]. specialize (IH ltac:(intros q J; apply H; now right) I). lra.
Qed.
Lemma lin_sum e (f : eqn -> Q) (g : eqn -> symbol -> Q) es : lin e (fun x => sum_eqs (fun e' => f e' * g e' x) es) == sum_eqs (fun e' => f e' * lin e (g e')) es.
Proof.
  induction es as [|a es IH]; cbn [sum_eqs fold_right].
  - unfold lin. rewrite !ev_cells_zero by reflexivity. ring.
  - fold (sum_eqs (fun e' => f e' * lin e (g e')) es). rewrite <- IH. rewrite <- lin_scale, <- lin_plus. reflexivity.
Qed.

Section Network.
Variables (rows : list (symbol * row)) (md : netmode) (gs : list symbol) (es : list eqn).
Hypothesis T : tab0 rows.
Hypothesis Nn : net md gs es.
Hypothesis Hh : forall v, hold rows v <-> eqs_hold es v.

Lemma net_types e : In e es -> (forall x, In x (dom (q_marks e)) -> ~ ext x) /\ (forall x, In x (dom (q_terms e)) -> ext x).
Proof.
  intros I. destruct (n_each _ _ _ Nn e I) as [(A & d & (E1 & E2 & E3 & E4) & _)|[[_ D] [_ O]]].
  - rewrite E1, E2. cbn. split; intros x [<-|[]]; [unfold ext; congruence|exact E3].
  - split; [|exact D]. intros x X. unfold dom in X. apply in_map_iff in X. destruct X as (m & <- & X). now apply O in X.
Qed.

Definition hom (h : symbol -> Q) : Prop := forall e, In e es -> lin e h == 0.
Lemma sol_eqs : eqs_hold es (sol rows).
Proof. apply Hh. now apply hold_sol0. Qed.
Lemma hom_hold h : hom h <-> hold rows (fun x => sol rows x + h x).
Proof.
  rewrite Hh. pose proof sol_eqs as S. split; intros H e I; specialize (S e I); specialize (H e I); rewrite lin_plus in *; lra.
Qed.
Lemma hom_row h p : hom h -> In p rows -> h (fst p) == ev_cells (r_cells (snd p)) h.
Proof.
  intros H I. apply hom_hold in H. specialize (H p I). cbv beta in H. unfold ev in H. rewrite ev_plus in H. pose proof (hold_sol0 rows T p I) as S. unfold ev in S. lra.
Qed.
Lemma hom_zero h : hom h -> (forall z, ~ In z (dom rows) -> h z == 0) -> forall x, h x == 0.
Proof.
  intros H Z x. destruct (in_dec sym_dec x (dom rows)) as [I|I]; [|now apply Z]. destruct (look_dom _ _ I) as (r & L). apply look_in in L. pose proof (hom_row h (x, r) H L) as E. cbn [fst snd] in E. rewrite E.
  apply ev_cells_zero. intros y Y. apply Z. apply (t0_basic rows T (x, r) y L). exact Y.
Qed.
Lemma hom_eq g h : hom g -> hom h -> (forall z, ~ In z (dom rows) -> g z == h z) -> forall x, g x == h x.
Proof.
  intros G H Z x. assert (D : (fun x => g x + -(1) * h x) x == 0); [|cbv beta in D; lra]. revert x. apply hom_zero.
  - intros e I. rewrite lin_plus, (lin_scale e (-(1)) h). rewrite (G e I), (H e I). ring.
  - intros z I. cbv beta. rewrite (Z z I). ring.
Qed.

(** The column of a symbol. *)
Definition col (y x : symbol) : Q := match look x rows with Some r => cf (r_cells r) y | None => if sym_eqb x y then 1 else 0 end.
Lemma col_full y x : full rows (fun z => if sym_eqb z y then 1 else 0) x == sol rows x + col y x.
Proof.
  unfold full, sol, col. destruct (look x rows) as [r|] eqn:E; [|lra]. rewrite cf_delta by (apply (t0_wf rows T (x, r)); now apply look_in). lra.
Qed.
Lemma hom_col y : hom (col y).
Proof. apply hom_hold. apply (hold_ext rows (full rows (fun z => if sym_eqb z y then 1 else 0))); [intros x; apply col_full|]. now apply hold_full0. Qed.
Lemma col_nonbasic y x : ~ In x (dom rows) -> col y x = if sym_eqb x y then 1 else 0.
Proof. intros H. unfold col. apply look_none in H. now rewrite H. Qed.
Lemma col_same y : ~ In y (dom rows) -> col y y = 1.
Proof. intros H. rewrite col_nonbasic by exact H. now rewrite sym_eqb_refl. Qed.
Lemma col_other y x : ~ In x (dom rows) -> x <> y -> col y x = 0.
Proof. intros H E. rewrite col_nonbasic by exact H. apply sym_eqb_no in E. now rewrite E. Qed.

(** Two symbols of one equation are not both basic, and a basic symbol belongs to an equation if it is not a variable. *)
Lemma basic_once e a b ca cb : In e es -> In (a, ca) (q_marks e) -> In (b, cb) (q_marks e) -> unit_q ca -> unit_q cb -> In a (dom rows) -> In b (dom rows) -> a = b.
Proof.
  intros I Ia Ib Ua Ub Ba Bb. destruct (sym_dec a b) as [E|E]; [exact E|exfalso]. pose proof (nodup_marks es e (n_marks _ _ _ Nn) I) as N.
  set (h := upd (upd (fun _ => 0) a ca) b (- cb)). destruct (net_types e I) as [Tm Tt].
  assert (Xa : ~ ext a) by (apply Tm; apply (in_dom _ _ Ia)). assert (Xb : ~ ext b) by (apply Tm; apply (in_dom _ _ Ib)).
  assert (Ho : hom h).
  { intros e' I'. destruct (net_types e' I') as [Tm' Tt'].
    assert (Zt : ev_cells (q_terms e') h == 0) by (apply ev_cells_zero; intros x X; unfold h; rewrite !upd_other; [reflexivity|intros ->; apply Tt' in X; contradiction|intros ->; apply Tt' in X; contradiction]).
    unfold lin. rewrite Zt. destruct (in_dec sym_dec a (dom (q_marks e'))) as [J|J].
    - assert (e' = e) by (apply (mark_once es e' e a (n_marks _ _ _ Nn)); auto; apply (in_dom _ _ Ia)). subst e'. unfold h. rewrite ev_upd by exact N. rewrite ev_upd by exact N. rewrite (ev_cells_zero _ (fun _ => 0)) by reflexivity.
      rewrite upd_other by congruence. unfold cf. rewrite (in_look _ _ _ N Ia), (in_look _ _ _ N Ib). destruct Ua as [U|U], Ub as [V|V]; rewrite U, V; ring.
    - destruct (in_dec sym_dec b (dom (q_marks e'))) as [K|K].
      + elim J. assert (e' = e) by (apply (mark_once es e' e b (n_marks _ _ _ Nn)); auto; apply (in_dom _ _ Ib)). subst e'. apply (in_dom _ _ Ia).
      + unfold h. rewrite !ev_upd_none by assumption. rewrite (ev_cells_zero _ (fun _ => 0)) by reflexivity. ring. }
  assert (Z : h b == 0). { apply (hom_zero h Ho). intros z Bz. unfold h. rewrite !upd_other by congruence. reflexivity. }
  unfold h in Z. rewrite upd_same in Z. destruct Ub as [U|U]; rewrite U in Z; lra.
Qed.
Lemma basic_mark x : In x (dom rows) -> ~ ext x -> exists e, In e es /\ In x (dom (q_marks e)).
Proof.
  intros B X. destruct (find (fun e => existsb (sym_eqb x) (dom (q_marks e))) es) as [e|] eqn:F.
  - apply find_some in F. destruct F as [I F]. apply existsb_exists in F. destruct F as (y & J & E). apply sym_eqb_ok in E. subst y. eauto.
  - exfalso. set (h := upd (fun _ => 0) x 1).
    assert (Ho : hom h).
    { intros e I. assert (N : ~ In x (dom (q_marks e))) by (intros J; pose proof (find_none _ _ F e I) as Z; cbv beta in Z; assert (existsb (sym_eqb x) (dom (q_marks e)) = true) by (apply existsb_exists; exists x; split; [exact J|apply sym_eqb_refl]); congruence).
      destruct (net_types e I) as [_ Tt]. unfold lin, h. rewrite !ev_upd_none; [|exact N|intros Z; apply Tt in Z; contradiction]. rewrite !(ev_cells_zero _ (fun _ => 0)) by reflexivity. ring. }
    assert (Z : h x == 0) by (apply (hom_zero h Ho); intros z Bz; unfold h; rewrite upd_other by congruence; reflexivity). unfold h in Z. rewrite upd_same in Z. lra.
Qed.

(** Dummies are not basic. *)
Lemma dummy_nonbasic d : sy_type d = TDummy -> ~ In d (dom rows).
Proof.
  intros Td B. assert (Xd : ~ ext d) by (unfold ext; congruence). destruct (basic_mark d B Xd) as (e0 & I0 & J0).
  destruct (n_each _ _ _ Nn e0 I0) as [(A & d' & G0 & Ga)|[_ [_ O]]].
  2:{ unfold dom in J0. apply in_map_iff in J0. destruct J0 as (m & E & J0). apply O in J0. rewrite E in J0. tauto. }
  assert (d' = d) by (destruct G0 as (_ & E & _); rewrite E in J0; cbn in J0; destruct J0 as [E0|[]]; exact E0). subst d'.
  destruct G0 as (G1 & G2 & G3 & G4). set (v := upd (upd (fun _ => 0) A (-(1))) d 1).
  destruct (absorb (fun x => sy_type x <> TDummy) v es (n_marks _ _ _ Nn) net_types) as (h & H1 & H2 & H3 & H4).
  { intros e I. destruct (n_each _ _ _ Nn e I) as [(A' & d' & G' & _)|[_ [Ne O]]].
    - right. destruct G' as (E1 & E2 & E3 & E4). unfold lin. rewrite E1, E2. cbn [ev_cells fst snd].
      destruct (sym_dec d' d) as [->|Nd].
      + assert (e = e0). { apply (mark_once es e e0 d (n_marks _ _ _ Nn)); auto. rewrite E2. now left. } subst e. assert (A' = A) by congruence. subst A'. unfold v. rewrite upd_same, upd_other by (unfold ext in *; congruence). rewrite upd_same. ring.
      + destruct (sym_dec A' A) as [->|Na].
        * elim Nd. assert (e = e0) by (apply (n_once _ _ _ Nn e e0 A d' d I I0); split; auto). subst e. congruence.
        * unfold v. rewrite (upd_other _ d 1 d') by exact Nd. rewrite !upd_other; try congruence; unfold ext in *; try congruence. ring.
    - left. destruct (q_marks e) as [|[m c] l]; [congruence|]. exists m, c. destruct (O (m, c) (or_introl eq_refl)) as (O1 & O2 & O3). split; [now left|]. split; assumption. }
  destruct (look_dom _ _ B) as (r & Lk). apply look_in in Lk. pose proof (hom_row h (d, r) H4 Lk) as E. cbn [fst snd] in E.
  assert (Hd : h d = 1) by (rewrite H2 by tauto; unfold v; apply upd_same). rewrite Hd in E. rewrite ev_cells_zero in E; [lra|].
  intros x O. pose proof (t0_dummy rows T (d, r) Lk Td x O) as Tx. cbn [snd] in *. pose proof (t0_basic rows T (d, r) x Lk O) as Bx.
  rewrite H2 by tauto. unfold v. rewrite !upd_other; [reflexivity|unfold ext in *; congruence|congruence].
Qed.

Lemma col_ground y A : In A gs -> sy_type y <> TDummy -> col y A == 0.
Proof.
  intros Ga Ty. destruct (n_ground _ _ _ Nn A Ga) as (e & d & I & (E1 & E2 & E3 & E4)). pose proof (hom_col y e I) as H. unfold lin in H. rewrite E1, E2 in H. cbn [ev_cells fst snd] in H.
  rewrite (col_other y d) in H; [lra|now apply dummy_nonbasic|congruence].
Qed.

(** The column of a symbol that is not a dummy takes only one value besides zero on the variables. *)
Definition pick (a t z : Q) : Q := if Qeq_bool z a then t else 0.
Lemma pick_ok a t z z' : z == z' -> pick a t z = pick a t z'.
Proof. intros E. unfold pick. destruct (Qeq_bool z a) eqn:X, (Qeq_bool z' a) eqn:Y; auto; [apply Qeq_bool_iff in X; apply Qeq_bool_neq in Y; elim Y; lra|apply Qeq_bool_neq in X; apply Qeq_bool_iff in Y; elim X; lra]. Qed.
Lemma pick_same a t z : z == a -> pick a t z = t.
Proof. intros E. unfold pick. apply Qeq_bool_iff in E. now rewrite E. Qed.
Lemma pick_other a t z : ~ z == a -> pick a t z = 0.
Proof. intros E. unfold pick. destruct (Qeq_bool z a) eqn:X; [apply Qeq_bool_iff in X; contradiction|reflexivity]. Qed.

Definition free (e : eqn) : Prop := forall m, In m (q_marks e) -> ~ In (fst m) (dom rows).
Lemma free_dec e : free e \/ exists m c, In (m, c) (q_marks e) /\ In m (dom rows).
Proof.
  unfold free. induction (q_marks e) as [|[m c] l IH]; [left; intros m []|]. destruct (in_dec sym_dec m (dom rows)) as [I|I]; [right; exists m, c; split; [now left|exact I]|].
  destruct IH as [IH|(m' & c' & J & K)]; [left; intros p [<-|J]; [exact I|now apply IH]|right; exists m', c'; split; [now right|exact K]].
Qed.
(** The values of the own symbols of a free equation in a column. *)
Lemma free_marks y e : In e es -> free e -> ev_cells (q_marks e) (col y) == cf (q_marks e) y.
Proof.
  intros I F. pose proof (nodup_marks es e (n_marks _ _ _ Nn) I) as N. assert (E : ev_cells (q_marks e) (col y) == cf (q_marks e) y * col y y) by (apply ev_cells_one; [exact N|]; intros z Z Ny; unfold dom in Z; apply in_map_iff in Z; destruct Z as (m & <- & Z); rewrite col_other; [reflexivity|now apply F|exact Ny]). rewrite E.
  destruct (in_dec sym_dec y (dom (q_marks e))) as [J|J]; [|rewrite cf_none by exact J; ring]. rewrite col_same; [ring|]. unfold dom in J. apply in_map_iff in J. destruct J as (m & <- & J). now apply F.
Qed.

(** The column with other values of the variables. *)
Definition picked (y : symbol) (a t : Q) (x : symbol) : Q := if stype_eqb (sy_type x) TExternal then pick a t (col y x) else col y x.
Lemma picked_ext y a t x : ext x -> picked y a t x = pick a t (col y x).
Proof. intros X. unfold picked. apply stype_eqb_ok in X. now rewrite X. Qed.
Lemma picked_own y a t x : ~ ext x -> picked y a t x = col y x.
Proof. intros X. unfold picked. destruct (stype_eqb (sy_type x) TExternal) eqn:E; [apply stype_eqb_ok in E; contradiction|reflexivity]. Qed.
(** In a free equation between [p] and [q]. *)
Lemma picked_free y a t e p q : sy_type y <> TDummy -> ~ a == 0 -> In e es -> free e -> (forall x, p = Some x \/ q = Some x -> ext x) -> (forall v, (forall A, In A gs -> v A == 0) -> ev_cells (q_terms e) v == val v p - val v q) ->
  lin e (picked y a t) == pick a t (val (col y) p) - pick a t (val (col y) q) + cf (q_marks e) y /\ val (col y) p - val (col y) q + cf (q_marks e) y == 0.
Proof.
  intros Ty Na I F Xp D. destruct (net_types e I) as [Tm Tt].
  assert (Mk : ev_cells (q_marks e) (picked y a t) == cf (q_marks e) y).
  { rewrite <- (free_marks y e I F). apply ev_cells_ext. intros x J. rewrite picked_own by (now apply Tm). reflexivity. }
  assert (Vl : forall o, (forall x, o = Some x -> ext x) -> val (picked y a t) o = pick a t (val (col y) o)).
  { intros [x|] X; cbn; [apply picked_ext; now apply X|]. symmetry. apply pick_other. intros Z. apply Na. lra. }
  assert (Gx : forall A, In A gs -> ext A) by (intros A Ga; destruct (n_ground _ _ _ Nn A Ga) as (? & ? & _ & (_ & _ & X & _)); exact X).
  split.
  - unfold lin. rewrite Mk, D.
    + rewrite !Vl by (intros x X; apply Xp; auto). reflexivity.
    + intros A Ga. rewrite picked_ext by now apply Gx. rewrite pick_other; [reflexivity|]. rewrite col_ground by assumption. intros Z. apply Na. lra.
  - pose proof (hom_col y e I) as H. unfold lin in H. rewrite (free_marks y e I F) in H. rewrite D in H; [exact H|]. intros A Ga. now apply col_ground.
Qed.
Section Apart_mode.
Hypothesis Md : md = Apart.
Lemma each_apart e : In e es -> (exists A d, ground_eq e A d /\ In A gs) \/
  (((exists p q, (forall x, p = Some x \/ q = Some x -> ext x) /\ forall v, (forall A, In A gs -> v A == 0) -> ev_cells (q_terms e) v == val v p - val v q) /\ (forall x, In x (dom (q_terms e)) -> ext x)) /\ own_marks (q_marks e)).
Proof. intros I. pose proof (n_each _ _ _ Nn e I) as H. rewrite Md in H. exact H. Qed.
Lemma picked_choice y : ~ In y (dom rows) -> sy_type y <> TDummy -> exists a t, sgn_q t /\ (ext y -> pick a t 1 == 1) /\ ~ a == 0 /\ (forall e, In e es -> free e -> lin e (picked y a t) == 0) /\
  (~ ext y -> (forall e, In e es -> In y (dom (q_marks e)) -> ~ free e) -> t == 0).
Proof.
  intros By Ty.
  assert (Gr : forall a t e A d, ~ a == 0 -> In e es -> ground_eq e A d -> In A gs -> lin e (picked y a t) == 0).
  { intros a t e A d Na I (E1 & E2 & E3 & E4) Ga. unfold lin. rewrite E1, E2. cbn [ev_cells fst snd]. rewrite picked_ext by exact E3. rewrite picked_own by (unfold ext; congruence).
    rewrite (col_other y d) by (try (now apply dummy_nonbasic); congruence). rewrite pick_other; [ring|]. rewrite col_ground by assumption. intros Z. apply Na. lra. }
  assert (No : forall a t e, ~ a == 0 -> In e es -> free e -> ~ In y (dom (q_marks e)) -> lin e (picked y a t) == 0).
  { intros a t e Na I F J. destruct (each_apart e I) as [(A & d & G & Ga)|[[(p & q & Xpq & D) Dx] O]]; [now apply (Gr a t e A d)|].
    destruct (picked_free y a t e p q Ty Na I F Xpq D) as [E1 E2]. rewrite E1. rewrite (cf_none _ _ J) in *. rewrite (pick_ok a t (val (col y) p) (val (col y) q)) by lra. ring. }
  destruct (stype_eqb (sy_type y) TExternal) eqn:X.
  - apply stype_eqb_ok in X. exists 1, 1. split; [right; left; reflexivity|]. split; [intros _; rewrite pick_same; lra|]. split; [lra|]. split; [|intros Z; elim Z; exact X].
    intros e I F. apply No; auto; [lra|]. intros J. destruct (net_types e I) as [Tm _]. now apply Tm in J.
  - assert (X' : ~ ext y) by (intros Z; apply stype_eqb_ok in Z; congruence).
    destruct (find (fun e => existsb (sym_eqb y) (dom (q_marks e))) es) as [e0|] eqn:Fd.
    + apply find_some in Fd. destruct Fd as [I0 Fd]. apply existsb_exists in Fd. destruct Fd as (y' & J0 & E). apply sym_eqb_ok in E. subst y'.
      assert (Only : forall e, In e es -> In y (dom (q_marks e)) -> e = e0) by (intros e I J; exact (mark_once es e e0 y (n_marks _ _ _ Nn) I I0 J J0)).
      destruct (free_dec e0) as [F0|(m & c & Im & Bm)].
      * destruct (each_apart e0 I0) as [(A & d & G & _)|[[(p & q & Xpq & D) Dx] O]].
        { exfalso. destruct G as (_ & E & _ & Td). rewrite E in J0. cbn in J0. destruct J0 as [->|[]]. contradiction. }
        set (c := cf (q_marks e0) y). assert (Uc : unit_q c).
        { destruct O as [_ O]. destruct (look_dom _ _ J0) as (c' & Lk). unfold c, cf. rewrite Lk. apply look_in in Lk. now apply O in Lk. }
        set (P := val (col y) p). set (R := val (col y) q).
        assert (K : forall a t, ~ a == 0 -> (P - R + c == 0 -> pick a t P - pick a t R + c == 0) -> forall e, In e es -> free e -> lin e (picked y a t) == 0).
        { intros a t Na H e I F. destruct (in_dec sym_dec y (dom (q_marks e))) as [J|J]; [|now apply No]. rewrite (Only e I J) in *. destruct (picked_free y a t e0 p q Ty Na I0 F0 Xpq D) as [E1 E2]. rewrite E1. now apply H. }
        destruct (Qeq_dec P 0) as [Zp|Zp].
        -- exists R, c. assert (Nr : P - R + c == 0 -> ~ R == 0) by (intros H Z; destruct Uc as [U|U]; lra).
           assert (E2 : P - R + c == 0) by (apply (picked_free y 1 1 e0 p q Ty ltac:(lra) I0 F0 Xpq D)).
           split; [destruct Uc; unfold sgn_q; auto|]. split; [contradiction|]. split; [now apply Nr|]. split; [|intros _ H; elim (H e0 I0 J0 F0)].
           apply K; [now apply Nr|]. intros _. rewrite (pick_same R c R) by reflexivity. rewrite pick_other; [ring|]. specialize (Nr E2). lra.
        -- exists P, (- c). assert (E2 : P - R + c == 0) by (apply (picked_free y 1 1 e0 p q Ty ltac:(lra) I0 F0 Xpq D)).
           split; [unfold sgn_q; destruct Uc as [U|U]; rewrite U; [right; right|right; left]; lra|]. split; [contradiction|]. split; [exact Zp|]. split; [|intros _ H; elim (H e0 I0 J0 F0)].
           apply K; [exact Zp|]. intros _. rewrite (pick_same P (- c) P) by reflexivity. rewrite pick_other; [ring|]. intros Z. destruct Uc as [U|U]; lra.
      * exists 1, 0. split; [now left|]. split; [contradiction|]. split; [lra|]. split; [|reflexivity]. intros e I F. apply No; auto; [lra|]. intros J. rewrite (Only e I J) in F. apply F in Im. contradiction.
    + exists 1, 0. split; [now left|]. split; [contradiction|]. split; [lra|]. split; [|reflexivity]. intros e I F. apply No; auto; [lra|]. intros J. pose proof (find_none _ _ Fd e I) as Z. cbv beta in Z.
      assert (existsb (sym_eqb y) (dom (q_marks e)) = true) by (apply existsb_exists; exists y; split; [exact J|apply sym_eqb_refl]). congruence.
Qed.
Lemma potential y : ~ In y (dom rows) -> sy_type y <> TDummy -> exists t, sgn_q t /\ (forall x, ext x -> col y x == 0 \/ col y x == t) /\
  (~ ext y -> (forall e, In e es -> In y (dom (q_marks e)) -> ~ free e) -> t == 0).
Proof.
  intros By Ty. destruct (picked_choice y By Ty) as (a & t & St & Xt & Na & Fr & Z). exists t. split; [exact St|]. split; [|exact Z].
  destruct (absorb (fun x => In x (dom rows)) (picked y a t) es (n_marks _ _ _ Nn) net_types) as (h & H1 & H2 & H3 & H4).
  { intros e I. destruct (free_dec e) as [F|(m & c & Im & Bm)]; [right; now apply Fr|]. left. exists m, c. split; [exact Im|]. split; [|exact Bm].
    destruct (each_apart e I) as [(A & d & (_ & E & _ & Td) & _)|[_ [_ O]]]; [|now apply O in Im].
    rewrite E in Im. destruct Im as [Im|[]]. injection Im as <- <-. left. reflexivity. }
  assert (E : forall x, h x == col y x).
  { apply (hom_eq h (col y) H4 (hom_col y)). intros z Bz. rewrite H2 by exact Bz. destruct (stype_eqb (sy_type z) TExternal) eqn:Xz.
    - apply stype_eqb_ok in Xz. rewrite picked_ext by exact Xz. destruct (sym_dec z y) as [->|Ny]; [rewrite col_same by exact By; now apply Xt|]. rewrite col_other by assumption. rewrite pick_other; [reflexivity|]. intros Z0. apply Na. lra.
    - rewrite picked_own; [reflexivity|]. intros Z0. apply stype_eqb_ok in Z0. congruence. }
  intros x X. rewrite <- E, H1 by exact X. rewrite picked_ext by exact X. unfold pick. destruct (Qeq_bool (col y x) a); [right|left]; reflexivity.
Qed.
Definition diffs (y : symbol) : Prop := forall p q, (forall x, p = Some x \/ q = Some x -> ext x) -> sgn_q (val (col y) p - val (col y) q).
Lemma potential_diffs y : ~ In y (dom rows) -> sy_type y <> TDummy -> diffs y.
Proof.
  intros By Ty p q X. destruct (potential y By Ty) as (t & St & V & _). assert (W : forall o, (forall x, o = Some x -> ext x) -> val (col y) o == 0 \/ val (col y) o == t) by (intros [x|] O; cbn; [apply V; now apply O|left; reflexivity]).
  destruct (W p ltac:(intros x E; apply X; auto)) as [P|P], (W q ltac:(intros x E; apply X; auto)) as [R|R]; unfold sgn_q in *; destruct St as [S|[S|S]]; lra.
Qed.
End Apart_mode.

(** ** Two variables *)
Lemma simple_sgn q : sgn_q q -> simple q. Proof. now left. Qed.
Lemma simple_eq p q : p == q -> simple p -> simple q.
Proof. unfold simple, sgn_q, half_q. intros E H. rewrite <- E. exact H. Qed.
Definition pair_q (p r : Q) : Prop := (sgn_q p /\ sgn_q r) \/ (half_q p /\ half_q r).
Lemma pair_simple p r : pair_q p r -> simple p /\ simple r.
Proof. unfold pair_q, simple. tauto. Qed.
Lemma pair_form p r al be : pair_q p r -> sgn_q al -> sgn_q be -> simple (al * p + be * r).
Proof.
  intros H Ha Hb. unfold simple, sgn_q, half_q in *. destruct Ha as [A|[A|A]], Hb as [B|[B|B]]; rewrite A, B; destruct H as [[[P|[P|P]] [R|[R|R]]]|[[P|P] [R|R]]]; rewrite P, R; (left + right; left + right; left + right; reflexivity) || (left; left; reflexivity) || (left; right; left; reflexivity) || (left; right; right; reflexivity) || (right; left; left; reflexivity) || (right; left; right; reflexivity) || (right; right; left; reflexivity) || (right; right; right; reflexivity).
Qed.
Lemma pair_sym p r : pair_q p r -> pair_q r p.
Proof. unfold pair_q. tauto. Qed.
(** Two equations with the coefficients 0, 1 and -1, of which one is homogeneous. *)
Lemma two_forms p r a1 b1 a0 b0 c : sgn_q a1 -> sgn_q b1 -> ~ (a1 == 0 /\ b1 == 0) -> sgn_q a0 -> sgn_q b0 -> unit_q c -> a1 * p + b1 * r == 0 -> a0 * p + b0 * r + c == 0 -> pair_q p r.
Proof.
  intros A1 B1 N A0 B0 C E1 E0. assert (H : p == 0 \/ r == 0 \/ r == p \/ r == - p).
  { unfold sgn_q in *. destruct A1 as [A|[A|A]], B1 as [B|[B|B]]; rewrite A, B in E1; try (exfalso; apply N; split; assumption); lra. }
  unfold pair_q, sgn_q, half_q, unit_q in *. clear E1 N A1 B1. destruct H as [H|[H|[H|H]]]; rewrite H in *; destruct A0 as [A|[A|A]], B0 as [B|[B|B]]; rewrite A, B in E0; destruct C as [C|C]; rewrite C in E0; first [exfalso; lra | left; split; lra | right; split; lra].
Qed.
Lemma own_ground e A d : ground_eq e A d -> own_marks (q_marks e) -> False.
Proof. intros (_ & E & _ & Td) [_ O]. rewrite E in O. destruct (O (d, 1) (or_introl eq_refl)) as (_ & _ & N). now apply N. Qed.
Lemma search (P R : eqn -> Prop) : forall l, (forall e, In e l -> P e \/ R e) -> (forall e, In e l -> P e) \/ exists e, In e l /\ R e.
Proof.
  induction l as [|e l IH]; intros H; [left; intros e []|]. destruct (H e (or_introl eq_refl)) as [K|K]; [|right; exists e; split; [now left|exact K]].
  destruct (IH (fun e' J => H e' (or_intror J))) as [Q|(e' & J & Q)]; [left; intros e' [<-|J]; [exact K|now apply Q]|right; exists e'; split; [now right|exact Q]].
Qed.
Lemma val_is h o c : (forall x, o = Some x -> h x == c) -> (o = None -> 0 == c) -> val h o == c.
Proof. destruct o as [x|]; cbn; intros H K; [now apply H|now apply K]. Qed.
Section Around_mode.
Variables a b : option symbol.
Hypothesis Hx : forall x, a = Some x \/ b = Some x -> ext x /\ ~ In x gs.
Hypothesis Hab : forall x, a = Some x -> b <> Some x.
Hypothesis Hf : forall e, In e es -> own_marks (q_marks e) -> exists al be, sgn_q al /\ sgn_q be /\ form a b gs (q_terms e) al be.
Definition off_base (o : option symbol) : Prop := match o with Some x => ~ In x (dom rows) | None => True end.
Lemma off_dec o : off_base o \/ exists x, o = Some x /\ In x (dom rows).
Proof. destruct o as [x|]; [|now left]. destruct (in_dec sym_dec x (dom rows)) as [I|I]; [right; exists x; auto|left; exact I]. Qed.
Definition probe (p r : Q) (x : symbol) : Q := if match a with Some z => sym_eqb x z | None => false end then p else if match b with Some z => sym_eqb x z | None => false end then r else 0.
Lemma probe_a p r x : a = Some x -> probe p r x = p.
Proof. intros E. unfold probe. now rewrite E, sym_eqb_refl. Qed.
Lemma probe_b p r x : b = Some x -> probe p r x = r.
Proof.
  intros E. unfold probe. rewrite E, sym_eqb_refl. destruct a as [z|] eqn:Ea; [|reflexivity]. destruct (sym_eqb x z) eqn:F; [|reflexivity]. apply sym_eqb_ok in F. subst z. now elim (Hab x eq_refl).
Qed.
Lemma probe_other p r x : a <> Some x -> b <> Some x -> probe p r x = 0.
Proof.
  intros Ea Eb. unfold probe. destruct a as [z|]; [assert (Z : sym_eqb x z = false) by (apply sym_eqb_no; congruence); rewrite Z|]; (destruct b as [w|]; [assert (Z' : sym_eqb x w = false) by (apply sym_eqb_no; congruence); rewrite Z'|]); reflexivity.
Qed.
Lemma option_dec (o : option symbol) x : o = Some x \/ o <> Some x.
Proof. destruct o as [z|]; [|right; discriminate]. destruct (sym_dec z x) as [->|N]; [now left|right; congruence]. Qed.
Lemma rigid p r : (forall e, In e es -> free e -> own_marks (q_marks e) -> exists al be, form a b gs (q_terms e) al be /\ al * p + be * r == 0) -> (off_base a -> p == 0) -> (off_base b -> r == 0) -> p == 0 /\ r == 0.
Proof.
  intros H Pa Pb. set (h0 := probe p r).
  assert (Z0 : forall x, ~ ext x \/ In x gs -> h0 x = 0). { intros x K. apply probe_other; intros E; [destruct (Hx x (or_introl E))|destruct (Hx x (or_intror E))]; tauto. }
  assert (Va : val h0 a == p) by (apply val_is; [intros x E; unfold h0; rewrite (probe_a p r x E); reflexivity|intros E; symmetry; apply Pa; rewrite E; exact Logic.I]).
  assert (Vb : val h0 b == r) by (apply val_is; [intros x E; unfold h0; rewrite (probe_b p r x E); reflexivity|intros E; symmetry; apply Pb; rewrite E; exact Logic.I]).
  destruct (absorb (fun x => In x (dom rows)) h0 es (n_marks _ _ _ Nn) net_types) as (h & H1 & H2 & H3 & H4).
  { intros e I. destruct (net_types e I) as [Tm Tt]. destruct (n_each _ _ _ Nn e I) as [(A & d & (E1 & E2 & E3 & E4) & Ga)|[_ O]].
    - right. unfold lin. rewrite E1, E2. cbn [ev_cells fst snd]. rewrite (Z0 A), (Z0 d); [ring| |now right]. left. unfold ext. congruence.
    - destruct (free_dec e) as [F|(m & c & Im & Bm)].
      + right. destruct (H e I F O) as (al & be & Fo & Z). unfold lin. rewrite (Fo h0) by (intros A Ga; rewrite Z0 by (now right); reflexivity). rewrite Va, Vb, Z. rewrite ev_cells_zero; [ring|]. intros x J. rewrite Z0; [reflexivity|]. left. now apply Tm.
      + left. exists m, c. split; [exact Im|]. split; [|exact Bm]. destruct O as [_ O]. now apply O in Im. }
  assert (Hz : forall x, h x == 0). { apply (hom_zero h H4). intros z Bz. rewrite H2 by exact Bz. destruct (option_dec a z) as [E|E]; [unfold h0; rewrite (probe_a p r z E); apply Pa; rewrite E; exact Bz|]. destruct (option_dec b z) as [E'|E']; [unfold h0; rewrite (probe_b p r z E'); apply Pb; rewrite E'; exact Bz|]. unfold h0. now rewrite probe_other. }
  split.
  - rewrite <- Va. apply val_is; [|reflexivity]. intros x E. rewrite <- H1 by (apply Hx; now left). apply Hz.
  - rewrite <- Vb. apply val_is; [|reflexivity]. intros x E. rewrite <- H1 by (apply Hx; now right). apply Hz.
Qed.
Lemma form_col y e al be : sy_type y <> TDummy -> In e es -> free e -> form a b gs (q_terms e) al be -> al * val (col y) a + be * val (col y) b + cf (q_marks e) y == 0.
Proof.
  intros Ty I F Fo. pose proof (hom_col y e I) as H. unfold lin in H. rewrite (free_marks y e I F) in H. rewrite (Fo (col y)) in H; [exact H|]. intros A Ga. now apply col_ground.
Qed.
Lemma off_col y o : off_base o -> o <> Some y -> val (col y) o == 0.
Proof. destruct o as [x|]; cbn; [|reflexivity]. intros B N. rewrite col_other; [reflexivity|exact B|congruence]. Qed.
Lemma own_col y : ~ In y (dom rows) -> sy_type y <> TDummy -> a = Some y -> pair_q (val (col y) a) (val (col y) b).
Proof.
  intros By Ty Ea. destruct (Hx y (or_introl Ea)) as [Xy _]. assert (Nb := Hab y Ea). left. assert (P1 : val (col y) a == 1) by (rewrite Ea; cbn; rewrite col_same by exact By; reflexivity). split; [right; left; exact P1|].
  destruct (off_dec b) as [O|(z & Eb & Bz)]; [left; now apply off_col|].
  assert (Nm : forall e, In e es -> ~ In y (dom (q_marks e))) by (intros e I J; destruct (net_types e I) as [Tm _]; now apply Tm in J).
  destruct (search (fun e => free e -> own_marks (q_marks e) -> exists al be, form a b gs (q_terms e) al be /\ be == 0) (fun e => free e /\ exists al be, sgn_q al /\ sgn_q be /\ form a b gs (q_terms e) al be /\ ~ be == 0) es) as [K|(e & I & F & al & be & Sa & Sb & Fo & Ne)].
  - intros e I. destruct (n_each _ _ _ Nn e I) as [(A & d & G & _)|[_ O]]; [left; intros _ O; elim (own_ground e A d G O)|]. destruct (free_dec e) as [F|(m & c & Im & Bm)]; [|left; intros F; elim (F _ Im Bm)].
    destruct (Hf e I O) as (al & be & Sa & Sb & Fo). destruct (Qeq_dec be 0) as [Z|Z]; [left; intros _ _; eauto|right]. split; [exact F|]. exists al, be. auto.
  - exfalso. destruct (rigid 0 1) as [_ Z]; [| | |lra].
    + intros e I F O. destruct (K e I F O) as (al & be & Fo & Z). exists al, be. split; [exact Fo|]. rewrite Z. ring.
    + reflexivity.
    + rewrite Eb. intros O. contradiction.
  - pose proof (form_col y e al be Ty I F Fo) as E. rewrite (cf_none _ _ (Nm e I)), P1 in E. unfold sgn_q in *. destruct Sb as [B|Sb]; [contradiction|]. destruct Sb as [B|B]; rewrite B in E; lra.
Qed.
End Around_mode.
Section Around_both.
Variables a b : option symbol.
Hypothesis Hx : forall x, a = Some x \/ b = Some x -> ext x /\ ~ In x gs.
Hypothesis Hab : forall x, a = Some x -> b <> Some x.
Hypothesis Hf : forall e, In e es -> own_marks (q_marks e) -> exists al be, sgn_q al /\ sgn_q be /\ form a b gs (q_terms e) al be.
Lemma around_still y : sy_type y <> TDummy -> a <> Some y -> b <> Some y -> (forall e, In e es -> In y (dom (q_marks e)) -> ~ free e) -> val (col y) a == 0 /\ val (col y) b == 0.
Proof.
  intros Ty Na Nb H. refine (rigid a b Hx Hab Hf (val (col y) a) (val (col y) b) _ _ _).
  - intros e I F O. destruct (Hf e I O) as (al & be & _ & _ & Fo). exists al, be. split; [exact Fo|]. pose proof (form_col a b y e al be Ty I F Fo) as E. rewrite cf_none in E; [lra|]. intros J. now apply (H e I J).
  - intros O. now apply off_col.
  - intros O. now apply off_col.
Qed.
Lemma around_col y : ~ In y (dom rows) -> sy_type y <> TDummy -> pair_q (val (col y) a) (val (col y) b).
Proof.
  intros By Ty. destruct (option_dec a y) as [Ea|Na]; [now apply own_col|]. destruct (option_dec b y) as [Eb|Nb].
  { apply pair_sym. apply (own_col b a); [intros x K; apply Hx; tauto|intros x E1 E2; now apply (Hab x)| |exact By|exact Ty|exact Eb]. intros e I O. destruct (Hf e I O) as (al & be & S1 & S2 & Fo). exists be, al. split; [exact S2|]. split; [exact S1|]. intros v Z. rewrite (Fo v Z). ring. }
  destruct (search (fun e => In y (dom (q_marks e)) -> ~ free e) (fun e => In y (dom (q_marks e)) /\ free e) es) as [K|(e0 & I0 & J0 & F0)].
  { intros e I. destruct (in_dec sym_dec y (dom (q_marks e))) as [J|J]; [|left; contradiction]. destruct (free_dec e) as [F|(m & c & Im & Bm)]; [right; split; assumption|left; intros _ F; elim (F _ Im Bm)]. }
  { destruct (around_still y Ty Na Nb K) as [P R]. left. split; left; assumption. }
  destruct (n_each _ _ _ Nn e0 I0) as [(A & d & (_ & E & _ & Td) & _)|[_ O0]]; [exfalso; rewrite E in J0; cbn in J0; destruct J0 as [->|[]]; contradiction|].
  assert (Uc : unit_q (cf (q_marks e0) y)). { destruct O0 as [_ O]. destruct (look_dom _ _ J0) as (c' & Lk). unfold cf. rewrite Lk. apply look_in in Lk. now apply O in Lk. }
  destruct (Hf e0 I0 O0) as (a0 & b0 & Sa0 & Sb0 & Fo0). pose proof (form_col a b y e0 a0 b0 Ty I0 F0 Fo0) as E0.
  assert (Only : forall e, In e es -> In y (dom (q_marks e)) -> e = e0) by (intros e I J; exact (mark_once es e e0 y (n_marks _ _ _ Nn) I I0 J J0)).
  destruct (search (fun e => free e -> own_marks (q_marks e) -> ~ In y (dom (q_marks e)) -> exists al be, form a b gs (q_terms e) al be /\ al == 0 /\ be == 0) (fun e => free e /\ ~ In y (dom (q_marks e)) /\ exists al be, sgn_q al /\ sgn_q be /\ form a b gs (q_terms e) al be /\ ~ (al == 0 /\ be == 0)) es) as [K|(e & I & F & Ny & al & be & Sa & Sb & Fo & Ne)].
  { intros e I. destruct (n_each _ _ _ Nn e I) as [(A & d & G & _)|[_ O]]; [left; intros _ O; elim (own_ground e A d G O)|]. destruct (free_dec e) as [F|(m & c & Im & Bm)]; [|left; intros F; elim (F _ Im Bm)]. destruct (in_dec sym_dec y (dom (q_marks e))) as [J|J]; [left; contradiction|].
    destruct (Hf e I O) as (al & be & Sa & Sb & Fo). destruct (Qeq_dec al 0) as [Z|Z]; [destruct (Qeq_dec be 0) as [Z'|Z']; [left; intros _ _ _; eauto|]|]; right; (split; [exact F|]); (split; [exact J|]); exists al, be; tauto. }
  2:{ pose proof (form_col a b y e al be Ty I F Fo) as E1. rewrite (cf_none _ _ Ny) in E1. apply (two_forms _ _ al be a0 b0 (cf (q_marks e0) y)); try assumption. lra. }
  destruct (off_dec a) as [Oa|(xa & Ea & Ba)].
  { pose proof (off_col y a Oa Na) as P. left. split; [left; exact P|]. rewrite P in E0. unfold sgn_q, unit_q in *. destruct Sb0 as [B|[B|B]]; rewrite B in E0; destruct Uc; lra. }
  destruct (off_dec b) as [Ob|(xb & Eb & Bb)].
  { pose proof (off_col y b Ob Nb) as P. left. split; [|left; exact P]. rewrite P in E0. unfold sgn_q, unit_q in *. destruct Sa0 as [B|[B|B]]; rewrite B in E0; destruct Uc; lra. }
  exfalso. destruct (rigid a b Hx Hab Hf b0 (- a0)) as [Z1 Z2].
  - intros e I F O. destruct (in_dec sym_dec y (dom (q_marks e))) as [J|J].
    + rewrite (Only e I J). exists a0, b0. split; [exact Fo0|ring].
    + destruct (K e I F O J) as (al & be & Fo & Z1 & Z2). exists al, be. split; [exact Fo|]. rewrite Z1, Z2. ring.
  - rewrite Ea. intros O. elim (O Ba).
  - rewrite Eb. intros O. elim (O Bb).
  - assert (Z3 : a0 == 0) by lra. rewrite Z1, Z3 in E0. destruct Uc as [U|U]; lra.
Qed.
Lemma around_other x : ext x -> ~ In x gs -> a <> Some x -> b <> Some x -> ~ In x (dom rows).
Proof.
  intros X Gx Na Nb B. set (h := upd (fun _ => 0) x 1).
  assert (Ho : hom h).
  { intros e I. destruct (net_types e I) as [Tm _]. assert (N : ~ In x (dom (q_marks e))) by (intros J; now apply Tm in J). unfold lin, h. rewrite (ev_upd_none (q_marks e)) by exact N. rewrite (ev_cells_zero (q_marks e)) by reflexivity.
    destruct (n_each _ _ _ Nn e I) as [(A & d & (E1 & E2 & E3 & E4) & Ga)|[_ O]].
    - rewrite E1. cbn [ev_cells fst snd]. rewrite upd_other by (intros ->; contradiction). ring.
    - destruct (Hf e I O) as (al & be & _ & _ & Fo). rewrite (Fo (upd (fun _ => 0) x 1)).
      + assert (V : forall o, o <> Some x -> val (upd (fun _ => 0) x 1) o == 0) by (intros [z|] N'; cbn; [rewrite upd_other by congruence; reflexivity|reflexivity]). rewrite !V by assumption. ring.
      + intros A Ga. rewrite upd_other by (intros ->; contradiction). reflexivity. }
  assert (Z : h x == 0) by (apply (hom_zero h Ho); intros z Bz; unfold h; rewrite upd_other by congruence; reflexivity). unfold h in Z. rewrite upd_same in Z. lra.
Qed.
End Around_both.

(** ** Both kinds *)
Lemma mode_cases : md = Apart \/ exists a b, md = Around a b /\ (forall x, a = Some x \/ b = Some x -> ext x /\ ~ In x gs) /\ (forall x, a = Some x -> b <> Some x) /\
  (forall e, In e es -> own_marks (q_marks e) -> exists al be, sgn_q al /\ sgn_q be /\ form a b gs (q_terms e) al be).
Proof.
  destruct md as [|a b] eqn:E; [now left|right]. exists a, b. split; [reflexivity|]. pose proof (n_mode _ _ _ Nn) as [M1 M2]. split; [exact M1|]. split; [exact M2|].
  intros e I O. destruct (n_each _ _ _ Nn e I) as [(A & d & G & _)|[[D _] _]]; [elim (own_ground e A d G O)|exact D].
Qed.
(** The columns of symbols that are not dummies. *)
Lemma col_fit y ts : ~ In y (dom rows) -> sy_type y <> TDummy -> fit_terms md gs ts -> simple (ev_cells ts (col y)).
Proof.
  intros By Ty [D _]. assert (Z : forall A, In A gs -> col y A == 0) by (intros A Ga; now apply col_ground). destruct mode_cases as [M|(a & b & M & M1 & M2 & M3)]; rewrite M in D.
  - destruct D as (p & q & Xpq & D). apply (simple_eq (val (col y) p - val (col y) q)); [symmetry; now apply D|]. left. now apply (potential_diffs M).
  - destruct D as (al & be & Sa & Sb & Fo). apply (simple_eq (al * val (col y) a + be * val (col y) b)); [symmetry; now apply Fo|]. apply pair_form; try assumption. now apply around_col.
Qed.
Lemma col_ext y x : ~ In y (dom rows) -> sy_type y <> TDummy -> ext x -> simple (col y x).
Proof.
  intros By Ty X. destruct mode_cases as [M|(a & b & M & M1 & M2 & M3)].
  - destruct (potential M y By Ty) as (t & St & V & _). left. unfold sgn_q in *. destruct (V x X) as [E|E]; lra.
  - destruct (in_dec sym_dec x gs) as [G|G]; [left; left; now apply col_ground|]. destruct (pair_simple _ _ (around_col a b M1 M2 M3 y By Ty)) as [S1 S2].
    destruct (option_dec a x) as [E|Na]; [rewrite E in S1; exact S1|]. destruct (option_dec b x) as [E|Nb]; [rewrite E in S2; exact S2|].
    rewrite col_nonbasic by (now apply (around_other a b M3)). left. destruct (sym_eqb x y); [right; left|left]; reflexivity.
Qed.
Lemma col_still y ts : ~ In y (dom rows) -> sy_type y <> TDummy -> ~ ext y -> (forall e, In e es -> In y (dom (q_marks e)) -> ~ free e) -> fit_terms md gs ts -> ev_cells ts (col y) == 0.
Proof.
  intros By Ty Xy H [D _]. assert (Z : forall A, In A gs -> col y A == 0) by (intros A Ga; now apply col_ground). destruct mode_cases as [M|(a & b & M & M1 & M2 & M3)]; rewrite M in D.
  - destruct D as (p & q & Xpq & D). destruct (potential M y By Ty) as (t & _ & V & T0). specialize (T0 Xy H). rewrite (D (col y) Z).
    assert (W : forall o, (forall x, o = Some x -> ext x) -> val (col y) o == 0) by (intros [z|] Oo; cbn; [destruct (V z (Oo z eq_refl)) as [E|E]; lra|reflexivity]).
    rewrite (W p), (W q); [ring| |]; intros z E; apply Xpq; auto.
  - destruct D as (al & be & _ & _ & Fo). rewrite (Fo (col y) Z). destruct (around_still a b M1 M2 M3 y Ty) as [P R]; [intros E; elim Xy; apply M1; auto|intros E; elim Xy; apply M1; auto|exact H|]. rewrite P, R. ring.
Qed.
(** All coefficients are 0, 1/2, 1 or 2, or the opposite. *)
Theorem column_simple y x : ~ In y (dom rows) -> sy_type y <> TDummy -> simple (col y x).
Proof.
  intros By Ty. destruct (stype_eqb (sy_type x) TExternal) eqn:X; [apply stype_eqb_ok in X; now apply col_ext|].
  assert (X' : ~ ext x) by (intros K; apply stype_eqb_ok in K; congruence). destruct (in_dec sym_dec x (dom rows)) as [B|B].
  2:{ rewrite col_nonbasic by exact B. left. destruct (sym_eqb x y); [right; left|left]; reflexivity. }
  destruct (basic_mark x B X') as (e & I & J). destruct (n_each _ _ _ Nn e I) as [(A & d & (_ & E & _ & Td) & _)|[Ft O]].
  { exfalso. rewrite E in J. cbn in J. destruct J as [<-|[]]. now apply (dummy_nonbasic d Td). }
  pose proof (nodup_marks es e (n_marks _ _ _ Nn) I) as N. destruct (look_dom _ _ J) as (c & Lk). pose proof (look_in _ _ _ Lk) as Ic. assert (Uc : unit_q c) by (destruct O as [_ O]; now apply O in Ic).
  (* the other own symbols are not basic *)
  assert (Ot : forall z, In z (dom (q_marks e)) -> z <> x -> ~ In z (dom rows)).
  { intros z Jz Nz Bz. destruct (look_dom _ _ Jz) as (cz & Lz). apply look_in in Lz. apply Nz. destruct O as [_ O]. apply (basic_once e z x cz c); auto. now apply O in Lz. }
  pose proof (hom_col y e I) as H. unfold lin in H.
  pose proof (ev_cells_drop (q_marks e) x (col y) N) as Dr. assert (Cx : cf (q_marks e) x = c) by (unfold cf; now rewrite Lk). rewrite Cx in Dr.
  destruct (in_dec sym_dec y (dom (q_marks e))) as [Jy|Jy].
  - assert (Xy : ~ ext y) by (destruct (net_types e I) as [Tm _]; now apply Tm). assert (Z0 : ev_cells (q_terms e) (col y) == 0).
    { apply col_still; try assumption. intros e' I' J'. rewrite (mark_once es e' e y (n_marks _ _ _ Nn) I' I J' Jy). intros F. apply (F (x, c) Ic). exact B. }
    assert (Ny : y <> x) by congruence. destruct (look_dom _ _ Jy) as (cy & Ly). pose proof (look_in _ _ _ Ly) as Icy. assert (Uy : unit_q cy) by (destruct O as [_ O]; now apply O in Icy).
    assert (E : ev_cells (drop_key x (q_marks e)) (col y) == cf (drop_key x (q_marks e)) y * col y y).
    { apply ev_cells_one; [now apply drop_nodup|]. intros z Jz Nz. apply drop_dom in Jz. destruct Jz as [Jz Nx]. rewrite col_other; [reflexivity|now apply Ot|exact Nz]. }
    rewrite col_same in E by exact By. assert (Cy : cf (drop_key x (q_marks e)) y = cy). { unfold cf. rewrite (in_look y _ cy); [reflexivity|now apply drop_nodup|]. apply drop_in. split; [exact Icy|exact Ny]. }
    rewrite Cy in E. left. unfold sgn_q. destruct Uc as [U|U], Uy as [Y|Y]; rewrite U in *; rewrite Y in *; lra.
  - assert (E : ev_cells (drop_key x (q_marks e)) (col y) == 0).
    { apply ev_cells_zero. intros z Jz. apply drop_dom in Jz. destruct Jz as [Jz Nx]. rewrite col_other; [reflexivity|now apply Ot|intros ->; contradiction]. }
    pose proof (col_fit y (q_terms e) By Ty Ft) as Sd. unfold simple, sgn_q, half_q in *. destruct Uc as [U|U]; rewrite U in *; lra.
Qed.

(** *** Values
    Values [w] that are zero for the symbols that are not basic, where the equations have the constants [k]. *)
Section Values.
Variables (w : symbol -> Q) (k : eqn -> Q) (W : Q).
Hypothesis Wt : forall e t, In e es -> In t (q_terms e) -> unit_q (snd t).
Hypothesis Wl : forall e, In e es -> (length (q_terms e) <= 4)%nat.
Hypothesis We : forall e, In e es -> own_marks (q_marks e) -> lin e w + k e == 0.
Hypothesis Wk : forall e, In e es -> intq (k e).
Hypothesis Wg : forall A, In A gs -> intq (w A) /\ Qabs (w A) <= W.
Hypothesis W0 : 0 <= W.
Hypothesis Wz : forall z, ~ In z (dom rows) -> sy_type z <> TDummy -> w z == 0.

Let inb x := existsb (sym_eqb x) gs.
Lemma inb_ok x : inb x = true <-> In x gs.
Proof. unfold inb. rewrite existsb_exists. split; [intros (y & I & E); apply sym_eqb_ok in E; now subst|intros I; exists x; split; [exact I|apply sym_eqb_refl]]. Qed.
Let base x := if inb x then 0 else if stype_eqb (sy_type x) TDummy then 0 else w x.
Let border x := if inb x then w x else 0.
Let off e := k e + ev_cells (q_terms e) border.
Let first e := match q_marks e with m :: _ => fst m | [] => Sym 0 TExternal end.
Let unit_of e := match q_marks e with m :: _ => snd m | [] => 0 end.
Definition bound : Q := sum_eqs (fun e => Qabs (k e) + 4 * W) es.

Lemma ground_ext A : In A gs -> ext A.
Proof. intros Ga. destruct (n_ground _ _ _ Nn A Ga) as (? & ? & _ & (_ & _ & X & _)). exact X. Qed.
Lemma off_int e : In e es -> intq (off e).
Proof.
  intros I. apply int_plus; [now apply Wk|]. apply int_cells. intros p J. split; [apply int_unit; now apply (Wt e)|]. unfold border. destruct (inb (fst p)) eqn:E; [apply inb_ok in E; now apply Wg|exists 0%Z; reflexivity].
Qed.
Lemma off_abs e : In e es -> Qabs (off e) <= Qabs (k e) + 4 * W.
Proof.
  intros I. unfold off. pose proof (Qabs_triangle (k e) (ev_cells (q_terms e) border)) as Tr. assert (B : Qabs (ev_cells (q_terms e) border) <= inject_Z (Z.of_nat (length (q_terms e))) * W).
  { apply abs_cells. intros p J. split; [now apply (Wt e)|]. unfold border. destruct (inb (fst p)) eqn:E; [apply inb_ok in E; now apply Wg|]. change (Qabs 0) with 0. exact W0. }
  assert (Ln : inject_Z (Z.of_nat (length (q_terms e))) <= 4) by (change 4 with (inject_Z 4); rewrite <- Zle_Qle; specialize (Wl e I); lia). assert (0 <= (4 - inject_Z (Z.of_nat (length (q_terms e)))) * W) by (apply Qmult_le_0_compat; lra). lra.
Qed.
Lemma lin_base e : In e es -> own_marks (q_marks e) -> lin e base == - off e.
Proof.
  intros I O. pose proof (We e I O) as E. unfold off. assert (D : lin e w == lin e base + ev_cells (q_terms e) border); [|lra]. unfold lin.
  assert (M : ev_cells (q_marks e) base == ev_cells (q_marks e) w).
  { apply ev_cells_ext. intros x J. destruct (net_types e I) as [Tm _]. unfold base. destruct (inb x) eqn:B; [apply inb_ok, ground_ext in B; now apply Tm in J|]. unfold dom in J. apply in_map_iff in J. destruct J as (m & <- & J). destruct O as [_ O]. apply O in J.
    destruct (stype_eqb (sy_type (fst m)) TDummy) eqn:Td; [apply stype_eqb_ok in Td; tauto|reflexivity]. }
  rewrite M. assert (Q : ev_cells (q_terms e) w == ev_cells (q_terms e) (fun x => base x + border x)); [|rewrite ev_plus in Q; lra].
  apply ev_cells_ext. intros x J. destruct (net_types e I) as [_ Tt]. unfold base, border. destruct (inb x); [ring|]. apply Tt in J. unfold ext in J. rewrite J. cbn. ring.
Qed.
(** The values moved to where the constants are zero. *)
Lemma moved : exists h, hom h /\ (forall x, ext x -> ~ In x gs -> h x = w x) /\ (forall A, In A gs -> h A = 0) /\ (forall d, sy_type d = TDummy -> h d = 0) /\
  (forall e, In e es -> own_marks (q_marks e) -> h (first e) == w (first e) + unit_of e * off e) /\
  (forall x, ~ ext x -> sy_type x <> TDummy -> (forall e, In e es -> x <> first e) -> h x = w x).
Proof.
  destruct (absorb (fun x => exists e, In e es /\ own_marks (q_marks e) /\ x = first e) base es (n_marks _ _ _ Nn) net_types) as (h & H1 & H2 & H3 & H4).
  { intros e I. destruct (n_each _ _ _ Nn e I) as [(A & d & (E1 & E2 & E3 & E4) & Ga)|[_ O]].
    - right. unfold lin. rewrite E1, E2. cbn [ev_cells fst snd]. unfold base. apply inb_ok in Ga. rewrite Ga. destruct (inb d); [ring|]. rewrite E4. cbn. ring.
    - left. destruct (q_marks e) as [|[m c] l] eqn:Em; [destruct O; congruence|]. exists m, c. split; [now left|]. split; [destruct O as [_ O]; apply (O (m, c)); now left|]. exists e. split; [exact I|]. rewrite Em. split; [exact O|]. unfold first. now rewrite Em. }
  assert (Fo : forall e, In e es -> own_marks (q_marks e) -> ~ ext (first e) /\ sy_type (first e) <> TDummy /\ unit_q (unit_of e) /\ In (first e, unit_of e) (q_marks e)).
  { intros e I O. unfold first, unit_of. destruct (q_marks e) as [|[m c] l] eqn:Em; [destruct O; congruence|]. destruct O as [_ O]. destruct (O (m, c) (or_introl eq_refl)) as (O1 & O2 & O3). cbn [fst snd] in *. split; [exact O2|]. split; [exact O3|]. split; [exact O1|]. now left. }
  exists h. split; [exact H4|]. split; [|split; [|split; [|split]]].
  - intros x X Gx. rewrite H1 by exact X. unfold base. destruct (inb x) eqn:B; [apply inb_ok in B; contradiction|]. unfold ext in X. rewrite X. reflexivity.
  - intros A Ga. rewrite H1 by now apply ground_ext. unfold base. apply inb_ok in Ga. now rewrite Ga.
  - intros d Td. rewrite H2. { unfold base. destruct (inb d); [reflexivity|]. now rewrite Td. } intros (e & I & O & ->). destruct (Fo e I O) as (_ & Nd & _). contradiction.
  - intros e I O. destruct (Fo e I O) as (X1 & X2 & U & Im). pose proof (H4 e I) as Z. pose proof (lin_base e I O) as B. pose proof (nodup_marks es e (n_marks _ _ _ Nn) I) as N. destruct (net_types e I) as [Tm Tt].
    assert (Up : lin e h == lin e (upd base (first e) (h (first e)))).
    { apply lin_ext. intros x [J|J]; [rewrite H1 by (now apply Tt); rewrite upd_other; [reflexivity|]; intros ->; apply Tt in J; contradiction|].
      unfold upd. destruct (sym_eqb x (first e)) eqn:E; [apply sym_eqb_ok in E; now subst|]. apply sym_eqb_no in E. rewrite H2; [reflexivity|]. intros (e' & I' & O' & ->). destruct (Fo e' I' O') as (_ & _ & _ & Im').
      apply in_dom in Im'. rewrite (mark_once es e e' _ (n_marks _ _ _ Nn) I I' J Im') in E. congruence. }
    unfold lin in Up at 2. rewrite ev_upd_none in Up by (intros J; apply Tt in J; contradiction). rewrite ev_upd in Up by exact N. assert (Cf : cf (q_marks e) (first e) = unit_of e) by (unfold cf; now rewrite (in_look _ _ _ N Im)). rewrite Cf in Up.
    assert (Bf : base (first e) = w (first e)).
    { unfold base. destruct (inb (first e)) eqn:E; [apply inb_ok, ground_ext in E; contradiction|]. destruct (stype_eqb (sy_type (first e)) TDummy) eqn:E2; [apply stype_eqb_ok in E2; contradiction|reflexivity]. }
    rewrite Bf in Up. unfold lin in B. destruct U as [U|U]; rewrite U in *; lra.
  - intros x X Nd Nf. rewrite H2 by (intros (e & I & _ & ->); now apply (Nf e I)). unfold base. destruct (inb x) eqn:B; [apply inb_ok, ground_ext in B; contradiction|]. destruct (stype_eqb (sy_type x) TDummy) eqn:E; [apply stype_eqb_ok in E; contradiction|reflexivity].
Qed.
Lemma nodup_first l : NoDup (all_marks l) -> (forall e, In e l -> q_marks e <> []) -> NoDup (map first l).
Proof.
  induction l as [|e l IH]; cbn; intros N H; [constructor|]. apply nodup_app in N. destruct N as (N1 & N2 & N3). constructor; [|apply IH; auto].
  intros J. apply in_map_iff in J. destruct J as (e' & E & J). assert (F : forall e, q_marks e <> [] -> In (first e) (dom (q_marks e))) by (intros e0; unfold first; destruct (q_marks e0); [congruence|intros _; now left]).
  apply (N3 (first e)); [apply F, H; now left|]. rewrite <- E. apply (in_marks l e' _ J). apply F, H. now right.
Qed.
Lemma sum_first (f : symbol -> Q) x l : NoDup (map first l) -> sum_eqs (fun e => f (first e) * (if sym_eqb x (first e) then 1 else 0)) l == if existsb (fun e => sym_eqb x (first e)) l then f x else 0.
Proof.
  induction l as [|e l IH]; cbn; intros N; [reflexivity|]. inversion N; subst. fold (sum_eqs (fun e => f (first e) * (if sym_eqb x (first e) then 1 else 0)) l). rewrite (IH H2). destruct (sym_eqb x (first e)) eqn:E; cbn; [|ring].
  apply sym_eqb_ok in E. subst x. destruct (existsb (fun e0 => sym_eqb (first e) (first e0)) l) eqn:B; [|ring]. exfalso. apply existsb_exists in B. destruct B as (e' & I & E). apply sym_eqb_ok in E. apply H1. rewrite E. now apply in_map.
Qed.
Theorem values x : ~ In x gs -> sy_type x <> TDummy -> intq (2 * w x) /\ Qabs (w x) <= 3 * bound.
Proof.
  intros Gx Nd. destruct moved as (h & Ho & M1 & M2 & M3 & M4 & M5).
  assert (Ne : forall e, In e es -> q_marks e <> []) by (intros e I; destruct (n_each _ _ _ Nn e I) as [(A & d & (_ & E & _) & _)|[_ [E _]]]; [rewrite E; discriminate|exact E]).
  pose proof (nodup_first es (n_marks _ _ _ Nn) Ne) as Nf.
  set (nb := fun e => if existsb (sym_eqb (first e)) (dom rows) then 0 else h (first e)).
  assert (Nb : forall e, (In (first e) (dom rows) /\ nb e = 0) \/ (~ In (first e) (dom rows) /\ nb e = h (first e))).
  { intros e. unfold nb. destruct (existsb (sym_eqb (first e)) (dom rows)) eqn:B.
    - left. split; [|reflexivity]. apply existsb_exists in B. destruct B as (y & I & E). apply sym_eqb_ok in E. now subst.
    - right. split; [|reflexivity]. intros I. assert (existsb (sym_eqb (first e)) (dom rows) = true) by (apply existsb_exists; exists (first e); split; [exact I|apply sym_eqb_refl]). congruence. }
  set (g := fun x => sum_eqs (fun e => nb e * col (first e) x) es).
  assert (Hg : hom g). { intros e I. unfold g. rewrite (lin_sum e nb (fun e' => col (first e')) es). apply sum_eqs_zero. intros e' _. rewrite (hom_col (first e') e I). ring. }
  assert (E : forall x, h x == g x).
  { apply (hom_eq h g Ho Hg). intros z Bz. unfold g.
    assert (Sm : sum_eqs (fun e => nb e * col (first e) z) es == sum_eqs (fun e => h (first e) * (if sym_eqb z (first e) then 1 else 0)) es).
    { clear - Nb Bz. induction es as [|e l IH]; [reflexivity|]. cbn. unfold sum_eqs in *. rewrite IH. rewrite (col_nonbasic (first e) z) by exact Bz. destruct (Nb e) as [[B ->]|[B ->]]; [|reflexivity]. destruct (sym_eqb z (first e)) eqn:E; [apply sym_eqb_ok in E; congruence|ring]. }
    rewrite Sm. rewrite (sum_first h z es Nf). destruct (existsb (fun e => sym_eqb z (first e)) es) eqn:B; [reflexivity|].
    assert (Nz : forall e, In e es -> z <> first e). { intros e I ->. assert (existsb (fun e0 => sym_eqb (first e) (first e0)) es = true) by (apply existsb_exists; exists e; split; [exact I|apply sym_eqb_refl]). congruence. }
    destruct (stype_eqb (sy_type z) TDummy) eqn:Td; [apply stype_eqb_ok in Td; rewrite M3 by exact Td; reflexivity|]. assert (Nd' : sy_type z <> TDummy) by (intros Z; apply stype_eqb_ok in Z; congruence).
    destruct (stype_eqb (sy_type z) TExternal) eqn:Tx.
    - apply stype_eqb_ok in Tx. destruct (inb z) eqn:Gz; [apply inb_ok in Gz; rewrite M2 by exact Gz; reflexivity|]. rewrite M1; [now apply Wz|exact Tx|]. intros Z. apply inb_ok in Z. congruence.
    - rewrite M5; [now apply Wz| |exact Nd'|exact Nz]. intros Z. apply stype_eqb_ok in Z. congruence. }
  (* each term *)
  assert (Term : forall e, In e es -> forall x, intq (2 * (nb e * col (first e) x)) /\ Qabs (nb e * col (first e) x) <= 2 * Qabs (off e)).
  { intros e I z. destruct (Nb e) as [[B ->]|[B ->]].
    - split; [exists 0%Z; ring|]. rewrite Qmult_0_l. change (Qabs 0) with 0. pose proof (Qabs_nonneg (off e)). lra.
    - destruct (n_each _ _ _ Nn e I) as [(A & d & (_ & Em & _ & Td) & _)|[_ O]].
      + assert (F : first e = d) by (unfold first; now rewrite Em). rewrite F, (M3 d Td). split; [exists 0%Z; ring|]. rewrite Qmult_0_l. change (Qabs 0) with 0. pose proof (Qabs_nonneg (off e)). lra.
      + assert (Fo : sy_type (first e) <> TDummy /\ unit_q (unit_of e)). { unfold first, unit_of. destruct (q_marks e) as [|[m c] l] eqn:Em; [destruct O; congruence|]. destruct O as [_ O]. destruct (O (m, c) (or_introl eq_refl)) as (O1 & O2 & O3). split; assumption. }
        destruct Fo as [Fd Fu]. pose proof (column_simple (first e) z B Fd) as Sg. pose proof (M4 e I O) as Hf. rewrite (Wz _ B Fd) in Hf. assert (Hf' : h (first e) == unit_of e * off e) by lra. split.
        * apply (int_eq (h (first e) * (2 * col (first e) z))); [ring|]. apply int_mult; [|now apply int_simple]. apply (int_eq (unit_of e * off e)); [symmetry; exact Hf'|]. apply int_mult; [now apply int_unit|now apply off_int].
        * apply Qle_trans with (2 * Qabs (h (first e))); [now apply abs_mult_simple|]. rewrite Hf', (abs_unit _ _ Fu). lra. }
  assert (Hi : forall x, intq (2 * h x) /\ Qabs (h x) <= 2 * bound).
  { intros z. split; [apply (int_eq (2 * g z)); [rewrite E; reflexivity|]; apply sum_eqs_half; intros e I; now apply Term|]. rewrite E. unfold bound. rewrite <- sum_eqs_scale. apply sum_eqs_abs. intros e I. pose proof (off_abs e I). destruct (Term e I z) as [_ Tz]. lra. }
  assert (Bp : 0 <= bound) by (pose proof (Qabs_nonneg (h x)); destruct (Hi x); lra).
  destruct (stype_eqb (sy_type x) TExternal) eqn:Tx.
  - apply stype_eqb_ok in Tx. destruct (Hi x) as [H1 H2]. rewrite (M1 x Tx Gx) in *. split; [exact H1|lra].
  - assert (Tx' : ~ ext x) by (intros Z; apply stype_eqb_ok in Z; congruence). destruct (existsb (fun e => sym_eqb x (first e)) es) eqn:B.
    + apply existsb_exists in B. destruct B as (e & I & Ex). apply sym_eqb_ok in Ex. subst x. destruct (n_each _ _ _ Nn e I) as [(A & d & (_ & Em & _ & Td) & _)|[_ O]].
      * exfalso. apply Nd. unfold first. now rewrite Em.
      * pose proof (M4 e I O) as Hf. assert (Fu : unit_q (unit_of e)). { unfold unit_of. destruct (q_marks e) as [|[m c] l] eqn:Em; [destruct O; congruence|]. destruct O as [_ O]. now destruct (O (m, c) (or_introl eq_refl)) as (O1 & _). }
        destruct (Hi (first e)) as [H1 H2]. assert (Ew : w (first e) == h (first e) + - (unit_of e * off e)) by lra. split.
        -- apply (int_eq (2 * h (first e) + - (2 * (unit_of e * off e)))); [rewrite Ew; ring|]. apply int_plus; [exact H1|]. apply int_opp, int_twice, int_mult; [now apply int_unit|now apply off_int].
        -- rewrite Ew. pose proof (Qabs_triangle (h (first e)) (- (unit_of e * off e))) as Tr. rewrite Qabs_opp, (abs_unit _ _ Fu) in Tr. pose proof (off_abs e I) as Oa.
           assert (Ol : Qabs (k e) + 4 * W <= bound) by (apply (sum_eqs_le (fun e => Qabs (k e) + 4 * W)); [intros e' _; pose proof (Qabs_nonneg (k e')); lra|exact I]). lra.
    + assert (Fx : h x = w x); [|destruct (Hi x) as [H1 H2]; rewrite Fx in H1, H2; split; [exact H1|lra]]. apply M5; [exact Tx'|exact Nd|]. intros e I ->. assert (existsb (fun e0 => sym_eqb (first e) (first e0)) es = true) by (apply existsb_exists; exists e; split; [exact I|apply sym_eqb_refl]). congruence.
Qed.
End Values.
End Network.
