(** Adding a row by way of an artificial variable. *)
From Verif Require Import Base M_Solver P_Row P_Tableau P_Simplex P_Add.
From Coq Require Import ZArith NArith QArith Qround List Bool Lia Lqa Setoid Morphisms Permutation.
Import ListNotations.
Open Scope Q_scope.
Section Tolerance.
Context {tolr : tolerance}.

Lemma subst_rows_fresh x r rows : (forall p, In p rows -> ~ occurs x (snd p)) -> subst_rows x r rows = rows.
Proof.
  intros H. unfold subst_rows. rewrite <- (map_id rows) at 2. apply map_ext_in. intros [k q] I. cbn. f_equal. unfold substitute_row. specialize (H _ I). apply look_none in H. cbn in H. now rewrite H.
Qed.
(** Flags survive an exchange. *)
Lemma pivot_exact rows y r x : tab rows -> In (y, r) rows -> (sy_type x = TSlack \/ sy_type x = TError) -> occurs x r ->
  rows_exact (put_at x (solve_for_symbols r y x) (subst_rows x (solve_for_symbols r y x) (drop_key y rows))) = true -> rows_exact (drop_key y rows) = true /\ r_exact r = true.
Proof.
  intros T I Tx O H. pose proof (pivot_facts _ y r x T I Tx O) as (P1 & P2 & _ & _ & _ & P6 & _).
  apply exact_put in H; [|rewrite subst_dom; apply drop_nodup; apply T]. destruct H as [E2 E2']. rewrite drop_none in E2' by (rewrite subst_dom, drop_dom; tauto).
  split; [|congruence]. apply (exact_subst x (solve_for_symbols r y x)); [|exact P1|exact E2']. intros p J. apply drop_in in J. apply (tb_wf _ T). tauto.
Qed.
Lemma rows_exact_drop rows y r : NoDup (dom rows) -> In (y, r) rows -> rows_exact (drop_key y rows) = true -> r_exact r = true -> rows_exact rows = true.
Proof.
  intros N I H E. apply forallb_forall. intros p J. destruct (sym_dec (fst p) y) as [D|D].
  - assert (K : p = (y, r)). { destruct p as [k' q]. cbn in D. subst k'. assert (A := in_look _ _ _ N J). assert (B := in_look _ _ _ N I). congruence. } rewrite K. exact E.
  - apply (exact_in _ p H). apply drop_in. auto.
Qed.

Section Order.
Variable order : nat -> list symbol -> list symbol.
Hypothesis order_ok : forall n l, Permutation (order n l) l.

Section Artificial.
Variables (s : solver) (r : row).
Let art := Sym (s_tick s mod 256) TSlack.
Hypothesis Hi : inv s.
Hypothesis An : s_artificial s = None.
Hypothesis W : wf r.
Hypothesis Pr : 0 <= r_const r.
Hypothesis Nr : forall y, occurs y r -> ~ In y (dom (s_rows s)).
Hypothesis Er : forall y, occurs y r -> sy_type y <> TExternal.
Variable z : symbol.
Hypothesis Oz : occurs z r.
Hypothesis Tz : sy_type z <> TDummy.
Hypothesis A1 : ~ In art (dom (s_rows s)).
Hypothesis A2 : forall p, In p (s_rows s) -> ~ occurs art (snd p).
Hypothesis A3 : ~ occurs art r.
Hypothesis A4 : ~ occurs art (s_objective s).

Let s1 := with_artificial (with_rows (snd (fresh s TSlack)) (put_at art r (s_rows s))) (Some r).
Lemma art_inv : inv s1.
Proof.
  destruct Hi as (T & Ob & _).
  assert (Nr' : forall y, occurs y r -> y <> art /\ ~ In y (dom (s_rows s))) by (intros y Y; split; [congruence|auto]).
  assert (Re : sy_type art <> TExternal -> 0 <= r_const r /\ forall y, occurs y r -> sy_type y <> TExternal) by auto.
  assert (Rd : sy_type art = TDummy -> r_const r == 0 /\ forall y, occurs y r -> sy_type y = TDummy) by discriminate.
  assert (T1 := enter_tab _ art r T W Nr' (fun p I _ => A2 p I) Re Rd). rewrite subst_rows_fresh in T1 by exact A2.
  split; [exact T1|]. cbn [s1 s_rows s_objective s_artificial with_artificial with_rows]. split.
  - constructor; [apply Ob| |apply Ob]. intros x O I. apply put_dom in I. destruct I as [->|I]; [contradiction|now apply (ob_basic _ _ Ob) in O].
  - intros a E. injection E as <-. constructor; [exact W| |exact Er]. intros x O I. apply put_dom in I. destruct I as [->|I]; [contradiction|now apply Nr in O].
Qed.
Lemma art_hold v : hold (s_rows s1) v <-> v art == ev r v /\ hold (s_rows s) v.
Proof. cbn [s1 s_rows with_artificial with_rows]. apply hold_put; [apply Hi|exact A1]. Qed.
Lemma art_exact : exact s1 = true -> exact s = true /\ r_exact r = true.
Proof.
  intros E. apply exact_parts in E. destruct E as (E1 & E2 & E3 & E4). cbn [s1 s_exact s_rows s_objective s_artificial with_artificial with_rows fresh snd] in *.
  split; [|exact (E4 r eq_refl)]. apply exact_parts. split; [exact E1|]. split; [|split; [exact E3|intros a Z; congruence]].
  apply exact_put in E2; [|apply Hi]. rewrite drop_none in E2 by exact A1. tauto.
Qed.
(** No solution makes the row zero, or the artificial variable can be made zero. *)
Lemma art_goal s' : inv s' -> same s1 s' -> exists a, s_artificial s' = Some a /\ (forall v, hold (s_rows s') v -> ev a v == v art) /\ r_const a == sol (s_rows s') art /\ 0 <= r_const a.
Proof.
  intros (T & Ob & Ar) (Sm1 & Sm2 & Sm3). cbn [s1 s_artificial with_artificial] in Sm3. destruct (s_artificial s') as [a|]; [|contradiction].
  assert (G : forall v, hold (s_rows s') v -> ev a v == v art). { intros v H. apply Sm1 in H. rewrite (Sm3 v H). apply art_hold in H. destruct H. symmetry. assumption. }
  assert (K : r_const a == sol (s_rows s') art). { rewrite <- (obj_sol _ _ (Ar a eq_refl)). apply G. now apply hold_sol. }
  exists a. split; [reflexivity|]. split; [exact G|]. split; [exact K|]. rewrite K. apply (proper_sol _ T). discriminate.
Qed.

Lemma art_add fuel :
  match add_with_artificial_variable order fuel s r with
  | Done (true, s2) => adds s r s2 /\ s_vars s2 = s_vars s /\ s_var_for s2 = s_var_for s /\ s_tick s2 = (s_tick s + 1)%N
  | Done (false, s2) => exact s2 = true -> exact s = true /\ r_exact r = true /\ ~ exists v, hold (s_rows s) v /\ proper v /\ ev r v == 0
  | Fail _ s2 => exact s2 = false
  | NoFuel => True
  end.
Proof.
  unfold add_with_artificial_variable. cbn [fresh]. fold art.
  change (with_artificial _ (Some r)) with s1.
  pose proof art_inv as I1. assert (Na : true = true -> s_artificial s1 <> None) by discriminate.
  pose proof (optimize_ok order order_ok true fuel s1 I1 Na) as K. destruct (optimize order fuel true s1) as [s'|e s'|]; cbn [rbind]; [| |exact Logic.I].
  2:{ destruct K as (_ & _ & K). destruct (exact s') eqn:E; [|reflexivity]. destruct (K eq_refl) as [_ Z]. elim Z. intros v H P. cbn [goal s1 s_artificial with_artificial]. apply art_hold in H. destruct H as [H _]. rewrite <- H. apply P. discriminate. }
  destruct K as (I' & (Fr1 & Fr2 & Fr3) & Fe & Fa & Kx & Kmin). cbn [s1 s_vars s_var_for s_tick s_exact with_artificial with_rows fresh snd] in Fr1, Fr2, Fr3, Fe.
  destruct (s_artificial s') as [a|] eqn:Ea; [|elim Na; [reflexivity|now apply Fa]]. assert (Gl : goal true s' = a) by (unfold goal; now rewrite Ea). rewrite Gl in *.
  set (k := r_const a) in *.
  (* what follows from exactness after optimising *)
  assert (Fin : exact s' = true -> k == 0 \/ ~ exists v, hold (s_rows s) v /\ proper v /\ ev r v == 0).
  { intros E. destruct (Kx E) as [E1 Sm]. destruct (art_goal s' I' Sm) as (a' & Ea' & G & K0 & K1). assert (a' = a) by congruence. subst a'. fold k in K0, K1.
    destruct (Qeq_dec k 0) as [Z|Z]; [now left|right]. intros (v & H & P & Zr).
    assert (Hv : hold (s_rows s1) (zero_at art v)). { apply art_hold. rewrite zero_at_self, ev_zero_at by exact A3. split; [symmetry; exact Zr|]. now apply hold_zero_at. }
    apply (proj1 Sm) in Hv. assert (Pz : proper (zero_at art v)) by (split; intros x Tx; unfold zero_at; destruct (sym_eqb x art); try lra; now apply P).
    destruct I' as (T' & Ob' & Ar'). pose proof (obj_min (s_rows s') a (zero_at art v) (Ar' a Ea) Kmin Pz) as M. rewrite (G _ Hv), zero_at_self in M. fold k in M. apply Z. lra. }
  set (sx := with_artificial (with_exact s' (r_exact a && (negb (near_zero k) || is_zero k))) None).
  assert (Ix : inv sx) by (destruct I' as (T & Ob & _); split; [exact T|]; split; [exact Ob|discriminate]).
  assert (SxE : s_exact sx = true -> s_exact s' = true /\ r_exact a = true /\ (near_zero k = true -> k == 0)).
  { cbn [sx s_exact with_artificial with_exact]. intros E. apply andb_prop in E. destruct E as [E1 E2]. apply andb_prop in E2. destruct E2 as [E2 E3]. split; [exact E1|]. split; [exact E2|]. intros Z. rewrite Z in E3. cbn in E3. now apply is_zero_ok. }
  assert (ExX : s_exact sx = true -> rows_exact (s_rows s') = true -> r_exact (s_objective s') = true -> exact s' = true).
  { intros E1 E2 E3. apply SxE in E1. apply exact_parts. split; [tauto|]. split; [exact E2|]. split; [exact E3|]. intros b Z. assert (b = a) by congruence. subst. tauto. }
  (* the solutions, once the artificial variable is zero *)
  assert (Sol : exact s' = true -> forall v, (hold (s_rows s') (zero_at art v) <-> hold (s_rows s) v /\ ev r v == 0) /\ (hold (s_rows s') (zero_at art v) -> ev (s_objective s') (zero_at art v) == ev (s_objective s) v)).
  { intros E v. destruct (Kx E) as [E1 (Sm1 & Sm2 & Sm3)]. split.
    - rewrite Sm1, art_hold, zero_at_self, ev_zero_at by exact A3. rewrite hold_zero_at by assumption. split; intros [X Y]; split; auto; symmetry; assumption.
    - intros H. rewrite Sm2 by (now apply Sm1). cbn [s1 s_objective with_artificial with_rows fresh snd]. apply ev_zero_at. exact A4. }
  assert (Exs : exact s' = true -> exact s = true /\ r_exact r = true) by (intros E; apply art_exact; now apply Kx).
  assert (Clean : forall sb, inv sb -> s_artificial sb = None -> ~ In art (dom (s_rows sb)) -> forall sc, sc = with_objective (with_rows sb (strip art (s_rows sb))) (remove_symbol (s_objective sb) art) ->
     inv sc /\ (exact sc = true -> exact sb = true) /\ (forall v, hold (s_rows sc) v <-> hold (s_rows sb) (zero_at art v)) /\ (forall v, ev (s_objective sc) v == ev (s_objective sb) (zero_at art v))).
  { intros sb (T & Ob & Ar) Ab Nb sc ->. cbn [s_rows s_objective with_objective with_rows]. split; [|split; [|split]].
    - split; [now apply strip_tab|]. split; [now apply strip_obj|]. cbn. rewrite Ab. discriminate.
    - intros E. apply exact_parts in E. cbn [s_rows s_objective s_exact s_artificial with_objective with_rows] in E. rewrite strip_exact in E. apply exact_parts. exact E.
    - intros v. now apply strip_hold.
    - intros v. apply remove_ev_zero. apply Ob. }
  fold sx. change (look art (s_rows sx)) with (look art (s_rows s')). destruct (look art (s_rows s')) as [ra|] eqn:Lk.
  - (* the artificial variable is basic *)
    pose proof (look_in _ _ _ Lk) as Ia. destruct I' as (T' & Ob' & Ar').
    set (fa := r_exact ra && (negb (near_zero k) || is_zero (r_const ra))).
    assert (Sxa : s_exact (with_exact sx fa) = true -> s_exact sx = true /\ r_exact ra = true /\ (near_zero k = true -> r_const ra == 0)).
    { cbn [s_exact with_exact]. intros E. apply andb_prop in E. destruct E as [E1 E2]. unfold fa in E2. apply andb_prop in E2. destruct E2 as [E2 E3]. split; [exact E1|]. split; [exact E2|]. intros Z. rewrite Z in E3. cbn in E3. now apply is_zero_ok. }
    clearbody fa.
    assert (Ka : exact s' = true -> r_const ra == k).
    { intros E. destruct (Kx E) as [_ Sm]. destruct (art_goal s' (conj T' (conj Ob' Ar')) Sm) as (a' & Ea' & _ & K0 & _). assert (a' = a) by congruence. subst a'. unfold sol in K0. rewrite Lk in K0. symmetry. exact K0. }
    destruct (r_cells ra) as [|c0 cs] eqn:Rc; rewrite <- ?Rc in *.
    + (* art = constant *)
      set (s2 := with_rows _ _). assert (E2 : exact s2 = true -> exact s' = true).
      { intros E. apply exact_parts in E. destruct E as (B1 & B2 & B3 & _). cbn [s2 s_exact s_rows s_objective with_rows] in B1, B2, B3. change (s_exact (with_exact sx fa) = true) in B1. apply Sxa in B1.
        apply ExX; [tauto| |exact B3]. apply (rows_exact_drop _ art ra); [apply T'|exact Ia|exact B2|tauto]. }
      destruct (near_zero k) eqn:Nz.
      * split; [|repeat split; assumption]. split; [reflexivity|]. split.
        -- intros E. change (s_exact (with_exact sx fa) = true) in E. apply Sxa in E. destruct E as [E _]. apply SxE in E. split; [rewrite <- Fe; tauto|]. split; [now apply drop_tab|]. split; [now apply drop_obj|discriminate].
        -- intros E. pose proof E as E0. apply E2 in E. destruct (Exs E) as [X1 X2]. split; [exact X1|]. split; [exact X2|].
           assert (k0 : k == 0). { apply exact_parts in E0. destruct E0 as (B1 & _). change (s_exact (with_exact sx fa) = true) in B1. apply Sxa in B1. destruct B1 as [B1 _]. apply SxE in B1. apply B1. reflexivity. }
           assert (Hz : forall v, hold (drop_key art (s_rows s')) v <-> hold (s_rows s') (zero_at art v)).
           { intros v. rewrite (hold_split (s_rows s') art ra (zero_at art v)) by (auto; apply T'). rewrite zero_at_self. assert (Q : ev ra (zero_at art v) == 0) by (unfold ev; rewrite Rc; cbn; rewrite (Ka E), k0; ring). rewrite Q.
             rewrite hold_zero_at; [split; [intros X; split; [reflexivity|exact X]|intros [_ X]; exact X]|rewrite drop_dom; tauto|]. intros p J O. apply drop_in in J. apply (tb_basic _ T' p art) in O; [|tauto]. apply O. now apply in_dom in Ia. }
           split.
           ++ intros v. change (s_rows s2) with (drop_key art (s_rows s')). rewrite Hz. apply Sol. exact E.
           ++ intros v H. change (s_rows s2) with (drop_key art (s_rows s')) in H. apply Hz in H. change (s_objective s2) with (s_objective s'). rewrite <- (proj2 (Sol E v) H). symmetry. apply ev_zero_at. intros O. apply (ob_basic _ _ Ob' art O). now apply in_dom in Ia.
      * intros E. apply E2 in E. destruct (Exs E) as [X1 X2]. split; [exact X1|]. split; [exact X2|]. destruct (Fin E) as [Z|Z]; [|exact Z]. apply near_zero_no in Nz. contradiction.
    + unfold any_pivotable_symbol. set (sd := with_rows (with_exact sx fa) (drop_key art (s_rows (with_exact sx fa)))).
      destruct (find _ (keys order sd (r_cells ra))) as [x|] eqn:Fd.
      * apply find_some in Fd. destruct Fd as [J P]. apply (keys_in order order_ok) in J.
        assert (Tx : sy_type x = TSlack \/ sy_type x = TError) by (destruct (sy_type x); auto; discriminate). assert (Ox : occurs x ra) by exact J.
        set (r' := solve_for_symbols ra art x). set (sp := with_rows (substitute (use sd) x r') (put_at x r' (s_rows (substitute (use sd) x r')))).
        set (s2 := with_objective _ _).
        destruct (substitute_fields (use sd) x r') as (F0 & S1 & S2 & S3 & _ & S5).
        assert (Rp : s_rows sp = put_at x r' (subst_rows x r' (drop_key art (s_rows s')))) by (cbn [sp s_rows with_rows]; rewrite S1; reflexivity).
        assert (Op : s_objective sp = fst (substitute_row (s_objective s') x r')) by exact S2.
        assert (Ap : s_artificial sp = None) by (cbn [sp s_artificial with_rows]; rewrite S3; reflexivity).
        assert (Xp : s_exact sp = s_exact (with_exact sx fa)) by exact S5.
        assert (Hs2 : s2 = with_objective (with_rows sp (strip art (s_rows sp))) (remove_symbol (s_objective sp) art)) by reflexivity.
        pose proof (pivot_facts _ art ra x T' Ia Tx Ox) as (P1 & P2 & _ & _ & _ & P6 & P7 & P8 & _). fold r' in P1, P2.
        assert (Np : ~ In art (dom (s_rows sp))) by (rewrite Rp; intros Z; apply put_dom in Z; rewrite subst_dom, drop_dom in Z; destruct Z as [Z|Z]; [congruence|tauto]).
        assert (E2 : exact s2 = true -> exact s' = true).
        { intros E. apply exact_parts in E. destruct E as (B1 & B2 & B3 & _). rewrite Hs2 in B1, B2, B3. cbn [s_exact s_rows s_objective with_rows with_objective] in B1, B2, B3. rewrite strip_exact, Rp in B2. rewrite Op in B3. rewrite Xp in B1. apply Sxa in B1.
          apply (pivot_exact _ art ra x T' Ia Tx Ox) in B2. apply ExX; [tauto| |].
          - apply (rows_exact_drop _ art ra); [apply T'|exact Ia|tauto|tauto].
          - destruct (subst_props (s_objective s') x r' (ob_wf _ _ Ob') P1) as (_ & _ & K & _). apply K. exact B3. }
        destruct (near_zero k) eqn:Nz.
        -- assert (Main : k == 0 -> r_const ra == 0 -> inv s2 /\ (exact s2 = true -> forall v, (hold (s_rows s2) v <-> hold (s_rows s') (zero_at art v)) /\ (hold (s_rows s2) v -> ev (s_objective s2) v == ev (s_objective s') (zero_at art v)))).
           { intros k0 c0z. assert (Q0 : - r_const ra / cf (r_cells ra) x == 0) by (rewrite c0z; field; exact P7).
             destruct (pivot_step (with_exact sx fa) art ra x (use sd) Ix Ia) with (s2 := sp) as (V1 & V2 & V3 & V4); try reflexivity; try assumption.
             - discriminate.
             - rewrite Q0. lra.
             - intros p I _ Tp. rewrite Q0. pose proof (tb_pos _ T' p I Tp). nra.
             - repeat split.
             - repeat split.
             - destruct (Clean sp V1 Ap Np s2 Hs2) as (C1 & C2 & C3 & C4). split; [exact C1|]. intros E v. apply C2 in E. apply V4 in E. destruct E as [_ (M1 & M2 & _)]. split.
               + rewrite C3. apply M1.
               + intros H. rewrite C4. apply C3, M1 in H. apply M2. exact H. }
           split.
           ++ split; [exact Ap|]. split.
              ** intros E. change (s_exact sp = true) in E. rewrite Xp in E. apply Sxa in E. destruct E as (E & _ & E3). apply SxE in E. split; [rewrite <- Fe; tauto|]. apply Main; [now apply E|now apply E3].
              ** intros E. assert (E0 := E2 E). assert (Z : s_exact s2 = true) by (apply exact_parts in E; tauto). change (s_exact sp = true) in Z. rewrite Xp in Z. apply Sxa in Z. destruct Z as (Z & _ & Z3). apply SxE in Z.
                 destruct (Main (proj2 (proj2 Z) eq_refl) (Z3 eq_refl)) as [_ M]. specialize (M E). destruct (Exs E0) as [X1 X2]. split; [exact X1|]. split; [exact X2|]. split.
                 --- intros v. rewrite (proj1 (M v)). apply Sol. exact E0.
                 --- intros v H. rewrite (proj2 (M v) H). apply Sol; [exact E0|]. now apply M.
           ++ destruct F0 as (G1 & G2 & G3). cbn [sp s2 s_vars s_var_for s_tick with_rows with_objective]. rewrite G1, G2, G3. repeat split; assumption.
        -- intros E. apply E2 in E. destruct (Exs E) as [X1 X2]. split; [exact X1|]. split; [exact X2|]. destruct (Fin E) as [Z|Z]; [|exact Z]. apply near_zero_no in Nz. contradiction.
      * (* only dummies are left in its row: it cannot be *)
        intros E. exfalso. assert (E' : exact s' = true).
        { apply exact_parts in E. destruct E as (B1 & B2 & B3 & _). change (s_exact (with_exact sx fa) = true) in B1. change (rows_exact (drop_key art (s_rows s')) = true) in B2. change (r_exact (s_objective s') = true) in B3. apply Sxa in B1.
          apply ExX; [tauto| |exact B3]. apply (rows_exact_drop _ art ra); [apply T'|exact Ia|exact B2|tauto]. }
        destruct (Kx E') as [E1 (Sm1 & _ & _)].
        assert (Dm : forall x, occurs x ra -> sy_type x = TDummy).
        { intros x O. assert (J : In x (keys order sd (r_cells ra))) by (apply (keys_in order order_ok); exact O). pose proof (find_none _ _ Fd x J) as Z. cbn in Z. pose proof (tb_ext _ T' _ x Ia ltac:(discriminate) O). destruct (sy_type x); congruence. }
        pose (d := fun y => if sym_eqb y z then 1 else 0). destruct I1 as (T1 & _ & _).
        assert (V : forall n, (forall x, sy_type x = TDummy -> n x == 0) -> full (s_rows s1) n art == r_const ra).
        { intros n Hn. pose proof (hold_full (s_rows s1) n T1) as H. apply Sm1 in H. rewrite (H _ Ia). cbn [fst snd]. apply ev_zero. intros x O. apply Dm in O. unfold full. destruct (look x (s_rows s1)) as [q|] eqn:Lx; [|now apply Hn].
          apply look_in in Lx. destruct (tb_dummy _ T1 _ Lx O) as [Q1 Q2]. cbn [snd] in Q1, Q2. rewrite ev_zero; [exact Q1|]. intros w Ow. apply Hn. now apply Q2. }
        assert (Fu : forall n, full (s_rows s1) n art == ev r n). { intros n. change art with (fst (art, r)). rewrite (full_basic (s_rows s1) n (art, r)); [reflexivity|apply T1|]. apply put_in; [apply Hi|now left]. }
        assert (N0 : forall x, sy_type x = TDummy -> d x == 0) by (intros x Tx; unfold d; destruct (sym_eqb x z) eqn:Q; [apply sym_eqb_ok in Q; congruence|reflexivity]).
        pose proof (V d N0) as V1. pose proof (V (fun _ => 0) ltac:(intros; reflexivity)) as V2. rewrite Fu in V1, V2.
        assert (C := cf_delta r z W). fold d in C. assert (V3 : ev r (fun _ => 0) == r_const r) by (apply ev_zero; intros; reflexivity). apply (cf_wf r z W Oz). rewrite C. lra.
  - (* it is not basic *)
    apply look_none in Lk. set (s2 := with_objective _ _). destruct (Clean sx Ix eq_refl Lk s2 eq_refl) as (C1 & C2 & C3 & C4).
    assert (E2 : exact s2 = true -> exact s' = true).
    { intros E. apply C2 in E. apply exact_parts in E. destruct E as (B1 & B2 & B3 & _). apply ExX; assumption. }
    destruct (near_zero k) eqn:Nz.
    + split; [|repeat split; assumption]. split; [reflexivity|]. split.
      * intros E. apply SxE in E. split; [rewrite <- Fe; tauto|exact C1].
      * intros E. apply E2 in E. destruct (Exs E) as [X1 X2]. split; [exact X1|]. split; [exact X2|]. split.
        -- intros v. rewrite C3. apply Sol. exact E.
        -- intros v H. rewrite C4. apply Sol; [exact E|]. now apply C3.
    + intros E. apply E2 in E. destruct (Exs E) as [X1 X2]. split; [exact X1|]. split; [exact X2|]. destruct (Fin E) as [Z|Z]; [|exact Z]. apply near_zero_no in Nz. contradiction.
Qed.
End Artificial.

(** What this leaves alone, whatever the tableau is. *)
Lemma art_flags P fuel s r : syms P s -> (forall x, occurs x r -> P x) -> P (Sym (s_tick s mod 256) TSlack) ->
  forall s2, ((exists b, add_with_artificial_variable order fuel s r = Done (b, s2)) \/ (exists e, add_with_artificial_variable order fuel s r = Fail e s2)) ->
  s_vars s2 = s_vars s /\ s_var_for s2 = s_var_for s /\ s_tick s2 = (s_tick s + 1)%N /\ (s_exact s2 = true -> s_exact s = true) /\ syms P s2.
Proof.
  intros Sy Pr Pa s2 E. unfold add_with_artificial_variable in E. cbn [fresh] in E. set (art := Sym (s_tick s mod 256) TSlack) in *. set (s1 := with_artificial _ (Some r)) in E.
  assert (Sy1 : syms P s1). { destruct Sy as (A & B & C). split; [|split; [exact B|]]. - intros p I. apply put_in' in I. destruct I as [->|I]; [split; [exact Pa|exact Pr]|now apply A]. - intros a x Z. injection Z as <-. apply Pr. }
  destruct (optimize order fuel true s1) as [s'|e s'|] eqn:Eo; cbn [rbind] in E.
  2:{ destruct E as [[b E]|[e' E]]; [discriminate|]. injection E as _ <-. pose proof (optimize_syms order order_ok P true fuel s1 s' Sy1 (or_intror (ex_intro _ e Eo))) as K. destruct (optimize_flags order order_ok true fuel s1 s' (or_intror (ex_intro _ e Eo))) as ((F1 & F2 & F3) & F4 & _). split; [exact F1|]. split; [exact F2|]. split; [exact F3|]. split; [intros Z; now rewrite F4 in Z|exact K]. }
  2:{ destruct E as [[b E]|[e' E]]; discriminate. }
  pose proof (optimize_syms order order_ok P true fuel s1 s' Sy1 (or_introl Eo)) as K. destruct (optimize_flags order order_ok true fuel s1 s' (or_introl Eo)) as ((F1 & F2 & F3) & F4 & _).
  change (s_vars s' = s_vars s) in F1. change (s_var_for s' = s_var_for s) in F2. change (s_tick s' = (s_tick s + 1)%N) in F3. change (s_exact s' = s_exact s) in F4.
  set (k := r_const (goal true s')) in E. set (sx := with_artificial (with_exact s' _) None) in E.
  assert (Kx : syms P sx) by (destruct K as (A & B & C); split; [exact A|split; [exact B|discriminate]]).
  assert (Xx : s_exact sx = true -> s_exact s = true) by (cbn [sx s_exact with_artificial with_exact]; intros Z; apply andb_prop in Z; rewrite <- F4; tauto).
  assert (Vx : s_vars sx = s_vars s /\ s_var_for sx = s_var_for s /\ s_tick sx = (s_tick s + 1)%N) by (repeat split; assumption).
  assert (Cl : forall q, syms P q -> syms P (with_objective (with_rows q (map (fun p => (fst p, remove_symbol (snd p) art)) (s_rows q))) (remove_symbol (s_objective q) art))).
  { intros q (A & B & C). split; [|split; [|exact C]].
    - intros p I. cbn in I. apply in_map_iff in I. destruct I as (w & <- & I). destruct (A w I) as [A1 A2]. split; [exact A1|]. intros x O. cbn [snd] in O. apply remove_occurs in O. apply A2. tauto.
    - intros x O. cbn in O. apply remove_occurs in O. apply B. tauto. }
  clearbody sx. destruct (look art (s_rows sx)) as [ra|] eqn:Lk.
  - pose proof (look_in _ _ _ Lk) as Ia. destruct (proj1 Kx _ Ia) as [_ Pra]. cbn [snd] in Pra. set (fa := r_exact ra && _) in E. set (sd := with_rows (with_exact sx fa) _) in E.
    assert (Kd : syms P sd). { destruct Kx as (A & B & C). split; [|split; [exact B|exact C]]. intros p I. cbn in I. apply drop_in in I. apply A. tauto. }
    assert (Xd : s_exact sd = true -> s_exact s = true) by (cbn [sd s_exact with_rows with_exact]; intros Z; apply andb_prop in Z; tauto).
    assert (Vd : s_vars sd = s_vars s /\ s_var_for sd = s_var_for s /\ s_tick sd = (s_tick s + 1)%N) by exact Vx. clearbody sd.
    destruct (r_cells ra) as [|c0 cs] eqn:Rc; rewrite <- ?Rc in *.
    + destruct E as [[b E]|[e' E]]; [|discriminate]. injection E as _ <-. destruct Vd as (? & ? & ?). split; [assumption|]. split; [assumption|]. split; [assumption|]. split; [exact Xd|exact Kd].
    + unfold any_pivotable_symbol in E. destruct (find _ (keys order sd (r_cells ra))) as [x|] eqn:Fd; (destruct E as [[b E]|[e' E]]; [|discriminate]); injection E as _ <-; destruct Vd as (V1 & V2 & V3).
      * apply find_some in Fd. destruct Fd as [J _]. apply (keys_in order order_ok) in J. assert (Px : P x) by (apply Pra; exact J). set (r' := solve_for_symbols ra art x).
        assert (Pr' : forall y, occurs y r' -> P y) by (intros y Y; apply solves_occurs in Y; destruct Y as [->|Y]; auto).
        destruct (substitute_fields (use sd) x r') as ((G1 & G2 & G3) & _ & _ & _ & _ & G4). cbn [use s_vars s_var_for s_tick s_exact] in G1, G2, G3, G4.
        split; [cbn; congruence|]. split; [cbn; congruence|]. split; [cbn; congruence|]. split; [cbn; rewrite G4; exact Xd|]. apply (Cl (with_rows (substitute (use sd) x r') (put_at x r' (s_rows (substitute (use sd) x r'))))). apply syms_rows.
        -- apply syms_substitute; [exact Kd|exact Pr'].
        -- intros p I. apply put_in' in I. destruct I as [->|I]; [split; [exact Px|exact Pr']|]. exact (proj1 (syms_substitute P (use sd) x r' Kd Pr') p I).
      * split; [exact V1|]. split; [exact V2|]. split; [exact V3|]. split; [exact Xd|exact Kd].
  - destruct E as [[b E]|[e' E]]; [|discriminate]. injection E as _ <-. destruct Vx as (? & ? & ?). split; [assumption|]. split; [assumption|]. split; [assumption|]. split; [exact Xx|]. now apply Cl.
Qed.
End Order.
End Tolerance.
