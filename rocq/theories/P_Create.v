(** The row for a new constraint. *)
From Verif Require Import Base M_Solver S_Solver P_Row P_Tableau P_Simplex P_Add.
From Coq Require Import ZArith NArith QArith Qround Qabs Qminmax List Bool Lia Lqa Setoid Morphisms Permutation.
Import ListNotations.
Open Scope Q_scope.
Section Tolerance.
Context {tolr : tolerance}.

(** ** Variables *)
Definition vals (s : solver) (v : symbol -> Q) (x : variable) : Q := match find_var x (s_vars s) with Some y => v y | None => 0 end.
Definition below (s : solver) (x : symbol) : Prop := (sy_value x < s_tick s)%N.
Record vinv (s : solver) : Prop := VInv {
  vi_types : forall v x, In (v, x) (s_vars s) -> sy_type x = TExternal /\ below s x;
  vi_keys : NoDup (map fst (s_vars s));
  vi_syms : NoDup (map snd (s_vars s));
  vi_back : forall v x, In (v, x) (s_vars s) -> look x (s_var_for s) = Some v
}.
Definition extends (s s' : solver) : Prop := forall v x, find_var v (s_vars s) = Some x -> find_var v (s_vars s') = Some x.
Lemma find_var_in v l x : find_var v l = Some x -> In (v, x) l.
Proof. induction l as [|[w y] l IH]; cbn; [discriminate|]. destruct (Z.eqb_spec v w) as [->|N]; [intros E; injection E as ->; auto|auto]. Qed.
Lemma in_find_var v l x : NoDup (map fst l) -> In (v, x) l -> find_var v l = Some x.
Proof.
  induction l as [|[w y] l IH]; cbn; [contradiction|]. intros N. inversion N; subst. intros [E|I].
  - injection E as -> ->. now rewrite Z.eqb_refl.
  - destruct (Z.eqb_spec v w) as [->|_]; [|auto]. elim H1. now apply (in_map fst) in I.
Qed.
Lemma find_var_none v l : find_var v l = None -> ~ In v (map fst l).
Proof. induction l as [|[w y] l IH]; cbn; [tauto|]. destruct (Z.eqb_spec v w) as [->|N]; [discriminate|]. intros E [H|H]; [congruence|now apply IH]. Qed.
Lemma look_put {A} k (a : A) l x : look x (put_at k a l) = if sym_eqb x k then Some a else look x l.
Proof.
  induction l as [|[k' b] l IH]; cbn; [reflexivity|]. destruct (sym_eqb k k') eqn:E; cbn.
  - apply sym_eqb_ok in E. subst. destruct (sym_eqb x k'); reflexivity.
  - destruct (sym_eqb x k') eqn:E2; [|exact IH]. apply sym_eqb_ok in E2. subst. destruct (sym_eqb k' k) eqn:E3; [|reflexivity]. apply sym_eqb_ok in E3. subst. now rewrite sym_eqb_refl in E.
Qed.
Lemma ext_refl s : extends s s. Proof. intros v x E. exact E. Qed.
Lemma ext_trans a b c : extends a b -> extends b c -> extends a c. Proof. intros A B v x E. auto. Qed.

(** What making the row leaves alone. *)
Definition kept (s s' : solver) : Prop :=
  s_rows s' = s_rows s /\ s_artificial s' = s_artificial s /\ s_exact s' = s_exact s /\ s_changed s' = s_changed s /\ (s_tick s <= s_tick s')%N.
Lemma kept_refl s : kept s s. Proof. repeat split. lia. Qed.
Lemma kept_trans a b c : kept a b -> kept b c -> kept a c.
Proof. intros (A1 & A2 & A3 & A4 & A5) (B1 & B2 & B3 & B4 & B5). repeat split; try congruence. lia. Qed.
Lemma fresh_kept s ty : kept s (snd (fresh s ty)). Proof. repeat split. cbn. lia. Qed.
Lemma fresh_sym s ty : (s_tick (snd (fresh s ty)) <= 256)%N -> fst (fresh s ty) = Sym (s_tick s) ty.
Proof. cbn. intros H. rewrite N.mod_small by lia. reflexivity. Qed.

Lemma var_symbol_ok s v : let '(x, s') := get_var_symbol s v in
  kept s s' /\ s_objective s' = s_objective s /\ ((s_tick s' <= 256)%N -> vinv s -> vinv s' /\ extends s s' /\ find_var v (s_vars s') = Some x /\
     (find_var v (s_vars s) = Some x \/ (s_tick s <= sy_value x)%N)).
Proof.
  unfold get_var_symbol. destruct (find_var v (s_vars s)) as [x|] eqn:E.
  - split; [apply kept_refl|]. split; [reflexivity|]. intros _ V. split; [exact V|]. split; [apply ext_refl|]. split; [exact E|now left].
  - cbn [fresh]. split; [repeat split; cbn; lia|]. split; [reflexivity|]. cbn [s_tick]. intros H V. rewrite N.mod_small by lia. set (x := Sym (s_tick s) TExternal).
    assert (Nx : ~ In x (map snd (s_vars s))). { intros I. apply in_map_iff in I. destruct I as ([w y] & E1 & I). cbn in E1. subst y. apply (vi_types _ V) in I. destruct I as [_ I]. unfold below in I. cbn in I. lia. }
    assert (Ex : extends s (Solver ((v, x) :: s_vars s) (put_at x v (s_var_for s)) (s_changed s) (s_rows s) (s_objective s) (s_artificial s) (s_tick s + 1) (s_uses s) (s_exact s))).
    { intros w y F. cbn. destruct (Z.eqb_spec w v) as [->|_]; [congruence|exact F]. }
    split; [|split; [exact Ex|split; [cbn; now rewrite Z.eqb_refl|right; cbn; lia]]].
    constructor; cbn [s_vars s_var_for].
    + intros w y [I|I]; [injection I as <- <-; split; [reflexivity|unfold below; cbn; lia]|]. apply (vi_types _ V) in I. destruct I as [I1 I2]. split; [exact I1|]. unfold below in *. cbn. lia.
    + cbn. constructor; [now apply find_var_none|apply V].
    + cbn. constructor; [exact Nx|apply V].
    + intros w y [I|I]; rewrite look_put; [injection I as <- <-; now rewrite sym_eqb_refl|]. destruct (sym_eqb y x) eqn:Q; [apply sym_eqb_ok in Q; subst y; apply (in_map snd) in I; contradiction|]. exact (vi_back _ V w y I).
Qed.

(** ** Terms *)
Definition term_sum (ts : list (variable * Q)) (x : variable -> Q) : Q := fold_right (fun t acc => snd t * x (fst t) + acc) 0 ts.
Definition known (s : solver) (ts : list (variable * Q)) : Prop := forall t, In t ts -> ~ snd t == 0 -> find_var (fst t) (s_vars s) <> None.
Lemma known_ext s s' ts : extends s s' -> known s ts -> known s' ts.
Proof. intros X K t I N. specialize (K t I N). destruct (find_var (fst t) (s_vars s)) as [x|] eqn:E; [|congruence]. apply X in E. congruence. Qed.
Lemma term_sum_ext s s' ts v : extends s s' -> known s ts -> term_sum ts (vals s' v) == term_sum ts (vals s v).
Proof.
  intros X K. induction ts as [|t ts IH]; [reflexivity|]. cbn. rewrite IH by (intros u I; apply K; now right).
  assert (E : snd t * vals s' v (fst t) == snd t * vals s v (fst t)); [|now rewrite E]. destruct (Qeq_dec (snd t) 0) as [Z|Z]; [rewrite Z; ring|].
  specialize (K t (or_introl eq_refl) Z). unfold vals. destruct (find_var (fst t) (s_vars s)) as [x|] eqn:E; [|congruence]. apply X in E. rewrite E. reflexivity.
Qed.
(** The symbols of a row are not basic, and known. *)
Definition fits (s : solver) (r : row) : Prop := wf r /\ forall x, occurs x r -> ~ In x (dom (s_rows s)) /\ below s x.
Definition all_below (s : solver) : Prop := forall p, In p (s_rows s) -> below s (fst p) /\ forall x, occurs x (snd p) -> below s x.
Lemma kept_below s s' : kept s s' -> all_below s -> all_below s'.
Proof. intros (E & _ & _ & _ & L) H p I. rewrite E in I. apply H in I. destruct I as [A B]. unfold below in *. split; [lia|]. intros x O. specialize (B x O). lia. Qed.
Lemma kept_fits s s' r : kept s s' -> fits s r -> fits s' r.
Proof. intros (E & _ & _ & _ & L) [W H]. split; [exact W|]. intros x O. apply H in O. rewrite E. unfold below in *. split; [tauto|lia]. Qed.
Lemma add_term_ok r s t : let '(r', s') := add_term (r, s) t in
  kept s s' /\ s_objective s' = s_objective s /\
  ((s_tick s' <= 256)%N -> tab (s_rows s) -> all_below s -> vinv s -> fits s r -> vinv s' /\ extends s s' /\ fits s' r' /\
     (r_exact r' = true -> r_exact r = true /\ known s' [t] /\ forall v, hold (s_rows s) v -> ev r' v == ev r v + snd t * vals s' v (fst t))).
Proof.
  unfold add_term. destruct (near_zero (snd t)) eqn:Nz.
  - split; [apply kept_refl|]. split; [reflexivity|]. intros _ T B V F. split; [exact V|]. split; [apply ext_refl|]. split; [exact F|].
    cbn [r_exact]. intros E. apply andb_prop in E. destruct E as [E1 E2]. apply is_zero_ok in E2. split; [exact E1|]. split; [intros u [<-|[]] N; contradiction|].
    intros v _. assert (Q : snd t * vals s v (fst t) == 0) by (rewrite E2; ring). rewrite Q. unfold ev. cbn [r_const r_cells]. ring.
  - pose proof (var_symbol_ok s (fst t)) as K. destruct (get_var_symbol s (fst t)) as [x s']. destruct K as (K1 & K2 & K3).
    destruct (look x (s_rows s')) as [o|] eqn:Lk.
    + split; [exact K1|]. split; [exact K2|]. intros H T B V F. destruct (K3 H V) as (V' & X & Fv & Old). assert (R : s_rows s' = s_rows s) by apply K1. rewrite R in Lk. apply look_in in Lk.
      destruct F as [W F]. destruct (insert_row_props r o (snd t) W (tb_wf _ T _ Lk)) as (P1 & P2 & P3 & P4 & P5 & _).
      split; [exact V'|]. split; [exact X|]. split.
      * split; [exact P1|]. intros y O. apply P4 in O. rewrite R. destruct K1 as (_ & _ & _ & _ & L). destruct O as [O|O].
        -- split; [exact (tb_basic _ T _ y Lk O)|]. apply (B _ Lk) in O. unfold below in *. lia.
        -- apply F in O. unfold below in *. split; [tauto|lia].
      * intros E. destruct (P3 E) as [E1 _]. split; [exact E1|]. split; [intros u [<-|[]] _; congruence|]. intros v Hv. rewrite (P5 E v). unfold vals. rewrite Fv. rewrite (Hv _ Lk). reflexivity.
    + split; [exact K1|]. split; [exact K2|]. intros H T B V F. destruct (K3 H V) as (V' & X & Fv & Old). assert (R : s_rows s' = s_rows s) by apply K1. rewrite R in Lk. apply look_none in Lk.
      destruct F as [W F]. split; [exact V'|]. split; [exact X|]. split.
      * split; [now apply insert_wf|]. intros y O. apply insert_occurs in O. rewrite R. destruct O as [->|O].
        -- split; [exact Lk|]. apply find_var_in in Fv. apply (vi_types _ V') in Fv. tauto.
        -- apply F in O. destruct K1 as (_ & _ & _ & _ & L). unfold below in *. split; [tauto|lia].
      * intros E. split; [now apply insert_exact in E|]. split; [intros u [<-|[]] _; congruence|]. intros v Hv. rewrite insert_ev by assumption. unfold vals. rewrite Fv. reflexivity.
Qed.
Lemma terms_ok ts : forall r s, let '(r', s') := fold_left add_term ts (r, s) in
  kept s s' /\ s_objective s' = s_objective s /\
  ((s_tick s' <= 256)%N -> tab (s_rows s) -> all_below s -> vinv s -> fits s r -> vinv s' /\ extends s s' /\ fits s' r' /\
     (r_exact r' = true -> r_exact r = true /\ known s' ts /\ forall v, hold (s_rows s) v -> ev r' v == ev r v + term_sum ts (vals s' v))).
Proof.
  induction ts as [|t ts IH]; intros r s.
  - cbn. split; [apply kept_refl|]. split; [reflexivity|]. intros _ T B V F. split; [exact V|]. split; [apply ext_refl|]. split; [exact F|]. intros E. split; [exact E|]. split; [intros u []|]. intros v _. ring.
  - cbn [fold_left]. pose proof (add_term_ok r s t) as A. destruct (add_term (r, s) t) as [r1 s1]. destruct A as (A1 & A2 & A3).
    specialize (IH r1 s1). destruct (fold_left add_term ts (r1, s1)) as [r2 s2]. destruct IH as (B1 & B2 & B3).
    split; [exact (kept_trans _ _ _ A1 B1)|]. split; [congruence|]. intros H T B V F.
    assert (H1 : (s_tick s1 <= 256)%N) by (destruct B1 as (_ & _ & _ & _ & L); lia). destruct (A3 H1 T B V F) as (V1 & X1 & F1 & E1).
    assert (R : s_rows s1 = s_rows s) by apply A1. destruct (B3 H) as (V2 & X2 & F2 & E2); [rewrite R; exact T|exact (kept_below _ _ A1 B)|exact V1|exact F1|].
    split; [exact V2|]. split; [exact (ext_trans _ _ _ X1 X2)|]. split; [exact F2|]. intros E. destruct (E2 E) as (G1 & G2 & G3). destruct (E1 G1) as (H2 & H3 & H4). split; [exact H2|]. split.
    + intros u [<-|I]; [|now apply G2]. apply (known_ext _ _ _ X2 H3). now left.
    + intros v Hv. rewrite G3 by (rewrite R; exact Hv). rewrite H4 by exact Hv. cbn [term_sum fold_right]. fold (term_sum ts (vals s2 v)).
      pose proof (term_sum_ext s1 s2 [t] v X2 H3) as Q. cbn in Q. lra.
Qed.

(** ** Marks *)
(** The symbols that stand for how a constraint is met: slack, errors or a dummy. *)
Definition marks := list (symbol * Q).
Definition mark_ok (c : constr) (mk : marks) : Prop :=
  match c_op c, qltb (c_strength c) required with
  | RLe, false => exists a, mk = [(a, 1)] /\ sy_type a = TSlack
  | RLe, true => exists a b, mk = [(a, 1); (b, -(1))] /\ sy_type a = TSlack /\ sy_type b = TError
  | RGe, false => exists a, mk = [(a, -(1))] /\ sy_type a = TSlack
  | RGe, true => exists a b, mk = [(a, -(1)); (b, 1)] /\ sy_type a = TSlack /\ sy_type b = TError
  | REq, false => exists a, mk = [(a, 1)] /\ sy_type a = TDummy
  | REq, true => exists a b, mk = [(a, -(1)); (b, 1)] /\ sy_type a = TError /\ sy_type b = TError
  end.
Definition errors (mk : marks) (v : symbol -> Q) : Q := fold_right (fun p acc => (if stype_eqb (sy_type (fst p)) TError then v (fst p) else 0) + acc) 0 mk.
Lemma insert_fresh r x k : ~ occurs x r -> near_zero k = false -> insert_symbol r x k = Row (put_at x k (r_cells r)) (r_const r) (r_exact r).
Proof. intros N Z. unfold insert_symbol. apply look_none in N. now rewrite N, Z. Qed.
Lemma insert_fresh_props r x k : wf r -> ~ occurs x r -> near_zero k = false -> let r' := insert_symbol r x k in
  wf r' /\ r_exact r' = r_exact r /\ r_const r' = r_const r /\ (forall y, occurs y r' <-> y = x \/ occurs y r) /\ (forall v, ev r' v == ev r v + k * v x).
Proof.
  intros W N Z r'. split; [now apply insert_wf|]. unfold r'. rewrite insert_fresh by assumption. split; [reflexivity|]. split; [reflexivity|]. split.
  - intros y. apply put_dom.
  - intros v. unfold ev. cbn [r_cells r_const]. rewrite ev_cells_put by apply W. rewrite (cf_none _ _ N). ring.
Qed.
Lemma vinv_kept s s' : s_vars s' = s_vars s -> s_var_for s' = s_var_for s -> (s_tick s <= s_tick s')%N -> vinv s -> vinv s'.
Proof.
  intros E1 E2 L V. constructor; rewrite ?E1, ?E2; try apply V. intros v x I. apply (vi_types _ V) in I. unfold below in *. split; [tauto|lia].
Qed.
Lemma mark_step s ty k r : (s_tick s <= 255)%N -> near_zero k = false -> all_below s -> fits s r ->
  let a := Sym (s_tick s) ty in let s' := snd (fresh s ty) in let r' := insert_symbol r a k in
  fst (fresh s ty) = a /\ fits s' r' /\ r_exact r' = r_exact r /\ r_const r' = r_const r /\ (forall y, occurs y r' <-> y = a \/ occurs y r) /\ (forall v, ev r' v == ev r v + k * v a) /\
  ~ In a (dom (s_rows s)) /\ all_below s'.
Proof.
  intros L Z B [W F] a s' r'. assert (Na : ~ occurs a r) by (intros O; apply F in O; destruct O as [_ O]; unfold below in O; cbn in O; lia).
  assert (Nd : ~ In a (dom (s_rows s))) by (intros I; apply in_map_iff in I; destruct I as (p & E & I); apply B in I; destruct I as [I _]; rewrite E in I; unfold below in I; cbn in I; lia).
  destruct (insert_fresh_props r a k W Na Z) as (P1 & P2 & P3 & P4 & P5). fold r' in P1, P2, P3, P4, P5.
  split; [apply fresh_sym; cbn; lia|]. split.
  - split; [exact P1|]. intros y O. apply P4 in O. cbn [s' s_rows fresh snd]. destruct O as [->|O]; [split; [exact Nd|unfold below; cbn; lia]|]. apply F in O. unfold below in *. cbn. split; [tauto|lia].
  - split; [exact P2|]. split; [exact P3|]. split; [exact P4|]. split; [exact P5|]. split; [exact Nd|]. exact (kept_below _ _ (fresh_kept s ty) B).
Qed.
Lemma obj_insert rows o x k : objective rows o -> ~ In x (dom rows) -> sy_type x <> TExternal -> objective rows (insert_symbol o x k).
Proof. intros O N T. constructor; [apply insert_wf; apply O| |]; intros y Z; apply insert_occurs in Z; destruct Z as [->|Z]; auto; [now apply (ob_basic _ _ O)|now apply (ob_ext _ _ O)]. Qed.

(** The row says that the constraint and its marks balance, perhaps with the opposite sign. *)
Definition balance (s : solver) (c : constr) (mk : marks) (v : symbol -> Q) : Q := eval (c_expr c) (vals s v) + ev_cells mk v.
Record created (s : solver) (c : constr) (r : row) (t : tag) (s1 : solver) (mk : marks) : Prop := Created {
  cr_vars : vinv s1;
  cr_ext : extends s s1;
  cr_obj : objective (s_rows s) (s_objective s1);
  cr_obj_below : (forall x, occurs x (s_objective s) -> below s x) -> forall x, occurs x (s_objective s1) -> below s1 x;
  cr_fits : fits s1 r;
  cr_pos : 0 <= r_const r;
  cr_marks : mark_ok c mk;
  cr_nodup : NoDup (dom mk);
  cr_fresh : forall x, In x (dom mk) -> (s_tick s <= sy_value x)%N /\ below s1 x;
  cr_marker : In (t_marker t) (dom mk) /\ occurs (t_marker t) r;
  cr_other : forall x, t_other t = Some x -> In x (dom mk);
  cr_obj_exact : r_exact (s_objective s1) = true -> r_exact (s_objective s) = true /\ forall v, ev (s_objective s1) v == ev (s_objective s) v + c_strength c * errors mk v;
  cr_exact : r_exact r = true -> known s1 (e_terms (c_expr c)) /\ exists k, (k == 1 \/ k == -(1)) /\ forall v, hold (s_rows s) v -> ev r v == k * balance s1 c mk v
}.
Lemma flip_ok s1 (rows : list (symbol * row)) r : fits s1 r -> let r' := if qltb (r_const r) 0 then reverse_sign r else r in
  fits s1 r' /\ 0 <= r_const r' /\ (forall x, occurs x r' <-> occurs x r) /\ r_exact r' = r_exact r /\ exists k, (k == 1 \/ k == -(1)) /\ forall v, ev r' v == k * ev r v.
Proof.
  intros [W F] r'. unfold r'. destruct (qltb (r_const r) 0) eqn:E.
  - apply qltb_ok in E. destruct (reverse_props r W) as (P1 & P2 & P3 & P4 & P5). split; [split; [exact P1|intros x O; apply P4 in O; auto]|]. split; [rewrite P2; lra|]. split; [exact P4|]. split; [exact P3|]. exists (-(1)). split; [right; reflexivity|]. intros v. rewrite P5. ring.
  - apply qltb_no in E. split; [split; assumption|]. split; [exact E|]. split; [tauto|]. split; [reflexivity|]. exists 1. split; [left; reflexivity|]. intros v. ring.
Qed.
Lemma eval_sum e x : eval e x = e_const e + term_sum (e_terms e) x. Proof. reflexivity. Qed.
Lemma create_row_ok s c : let '(r, t, s1) := create_row s c in kept s s1 /\
  ((s_tick s1 <= 256)%N -> tab (s_rows s) -> objective (s_rows s) (s_objective s) -> all_below s -> (forall x, occurs x (s_objective s) -> below s x) -> vinv s -> exists mk, created s c r t s1 mk).
Proof.
  unfold create_row. pose proof (terms_ok (e_terms (c_expr c)) (new_row (e_const (c_expr c))) s) as Tm.
  destruct (fold_left add_term (e_terms (c_expr c)) (new_row (e_const (c_expr c)), s)) as [r0 s0]. destruct Tm as (K0 & O0 & Tm).
  assert (Base : (s_tick s0 <= 255)%N -> tab (s_rows s) -> all_below s -> vinv s -> vinv s0 /\ extends s s0 /\ fits s0 r0 /\ all_below s0 /\
     (r_exact r0 = true -> known s0 (e_terms (c_expr c)) /\ forall v, hold (s_rows s) v -> ev r0 v == eval (c_expr c) (vals s0 v))).
  { intros H T B V. destruct Tm as (V0 & X0 & F0 & E0); try assumption; [lia| |].
    - split; [split; [constructor|constructor]|]. intros x [].
    - split; [exact V0|]. split; [exact X0|]. split; [exact F0|]. split; [exact (kept_below _ _ K0 B)|]. intros E. destruct (E0 E) as (_ & G1 & G2). split; [exact G1|]. intros v Hv. rewrite (G2 v Hv), eval_sum. unfold ev, new_row. cbn. ring. }
  clear Tm. assert (R0 : s_rows s0 = s_rows s) by apply K0.
  assert (Slack : forall op k, (op = RLe /\ k = 1 \/ op = RGe /\ k = -(1)) -> c_op c = op ->
    let '(r, t, s1) := (let '(slack, s) := fresh s0 TSlack in let r := insert_symbol r0 slack k in
        if qltb (c_strength c) required then
          let '(err, s) := fresh s TError in
          (insert_symbol r err (qopp k), Tag slack (Some err), with_objective s (insert_symbol (s_objective s) err (c_strength c)))
        else (r, Tag slack None, s)) in
    let r := if qltb (r_const r) 0 then reverse_sign r else r in kept s s1 /\
      ((s_tick s1 <= 256)%N -> tab (s_rows s) -> objective (s_rows s) (s_objective s) -> all_below s -> (forall x, occurs x (s_objective s) -> below s x) -> vinv s -> exists mk, created s c r t s1 mk)).
  { intros op k Ek Eo. assert (Nk : near_zero k = false) by (destruct Ek as [[_ ->]|[_ ->]]; first [exact (proj1 one_far)|exact (proj2 one_far)]). assert (Nk' : near_zero (qopp k) = false) by (destruct Ek as [[_ ->]|[_ ->]]; first [exact (proj1 one_far)|exact (proj2 one_far)]).
    destruct (qltb (c_strength c) required) eqn:St; cbn [fresh].
    - cbv zeta. split; [apply (kept_trans _ _ _ K0); repeat split; cbn; lia|]. cbn [s_tick with_objective s_rows]. intros H T Ob B Bo V. destruct (Base ltac:(lia) T B V) as (V0 & X0 & F0 & B0 & E0).
      destruct (mark_step s0 TSlack k r0 ltac:(lia) Nk B0 F0) as (M1 & M2 & M3 & M4 & M5 & M6 & M7 & M8). set (a := Sym (s_tick s0) TSlack) in *. set (sa := snd (fresh s0 TSlack)) in *. set (ra := insert_symbol r0 a k) in *.
      cbn [fresh fst] in M1. rewrite M1. assert (La : (s_tick sa <= 255)%N) by (cbn; lia).
      destruct (mark_step sa TError (qopp k) ra La Nk' M8 M2) as (N1 & N2 & N3 & N4 & N5 & N6 & N7 & N8). set (b := Sym (s_tick sa) TError) in *. set (sb := snd (fresh sa TError)) in *. set (rb := insert_symbol ra b (qopp k)) in *.
      cbn [fresh fst] in N1. change (s_tick sa) with (s_tick s0 + 1)%N in N1. rewrite N1. fold ra rb.
      destruct (flip_ok sb (s_rows s) rb N2) as (P1 & P2 & P3 & P4 & (f & P5 & P6)). set (r := if qltb (r_const rb) 0 then reverse_sign rb else rb) in *.
      assert (Fb : ~ In b (dom (s_rows s))) by (rewrite <- R0; exact N7).
      exists [(a, k); (b, qopp k)]. assert (Qk : qopp k == - k) by apply qopp_ok. constructor; cbn [dom map fst snd t_marker t_other].
      + apply (vinv_kept s0); [reflexivity|reflexivity|cbn; lia|exact V0].
      + exact X0.
      + cbn [s_objective with_objective]. rewrite O0. apply obj_insert; [exact Ob|exact Fb|discriminate].
      + cbn [s_objective with_objective]. rewrite O0. intros _ x Ox. unfold below. cbn. apply insert_occurs in Ox. destruct Ox as [->|Ox]; [cbn; lia|]. apply Bo in Ox. unfold below in Ox. destruct K0 as (_ & _ & _ & _ & L). lia.
      + exact P1.
      + exact P2.
      + unfold mark_ok. rewrite Eo, St. destruct Ek as [[-> ->]|[-> ->]]; exists a, b; repeat split.
      + constructor; [intros [Z|[]]; injection Z as Z; lia|constructor; [intros []|constructor]].
      + destruct K0 as (_ & _ & _ & _ & L). intros x [<-|[<-|[]]]; unfold below; cbn; lia.
      + split; [now left|]. apply P3, N5. right. apply M5. now left.
      + intros x E. injection E as <-. right. now left.
      + cbn [s_objective with_objective]. rewrite O0. intros E. split; [now apply insert_exact in E|]. intros v. rewrite insert_ev; [|apply Ob|exact E]. cbn. ring.
      + intros E. rewrite P4, N3, M3 in E. destruct (E0 E) as [G1 G2]. split; [exact G1|]. exists f. split; [exact P5|]. intros v Hv. rewrite P6, N6, M6, (G2 v Hv). unfold balance, vals. cbn [s_vars with_objective ev_cells fst snd]. ring.
    - cbv zeta. split; [apply (kept_trans _ _ _ K0); repeat split; cbn; lia|]. cbn [s_tick]. intros H T Ob B Bo V. destruct (Base ltac:(lia) T B V) as (V0 & X0 & F0 & B0 & E0).
      destruct (mark_step s0 TSlack k r0 ltac:(lia) Nk B0 F0) as (M1 & M2 & M3 & M4 & M5 & M6 & M7 & M8). set (a := Sym (s_tick s0) TSlack) in *. set (sa := snd (fresh s0 TSlack)) in *. set (ra := insert_symbol r0 a k) in *.
      cbn [fresh fst] in M1. rewrite M1. fold ra.
      destruct (flip_ok sa (s_rows s) ra M2) as (P1 & P2 & P3 & P4 & (f & P5 & P6)). set (r := if qltb (r_const ra) 0 then reverse_sign ra else ra) in *.
      exists [(a, k)]. constructor; cbn [dom map fst snd t_marker t_other].
      + apply (vinv_kept s0); [reflexivity|reflexivity|cbn; lia|exact V0].
      + exact X0.
      + cbn [s_objective]. rewrite O0. exact Ob.
      + cbn [s_objective]. rewrite O0. intros _ x Ox. apply Bo in Ox. unfold below in *. cbn. destruct K0 as (_ & _ & _ & _ & L). lia.
      + exact P1.
      + exact P2.
      + unfold mark_ok. rewrite Eo, St. destruct Ek as [[-> ->]|[-> ->]]; exists a; repeat split.
      + constructor; [intros []|constructor].
      + destruct K0 as (_ & _ & _ & _ & L). intros x [<-|[]]; unfold below; cbn; lia.
      + split; [now left|]. apply P3, M5. now left.
      + discriminate.
      + cbn [s_objective]. rewrite O0. intros E. split; [exact E|]. intros v. cbn. ring.
      + intros E. rewrite P4, M3 in E. destruct (E0 E) as [G1 G2]. split; [exact G1|]. exists f. split; [exact P5|]. intros v Hv. rewrite P6, M6, (G2 v Hv). unfold balance, vals. cbn [s_vars ev_cells fst snd]. ring. }
  destruct (c_op c) eqn:Op.
  - specialize (Slack RLe 1 (or_introl (conj eq_refl eq_refl)) eq_refl). destruct (fresh s0 TSlack) as [sl s']. destruct (qltb (c_strength c) required); [destruct (fresh s' TError)|]; exact Slack.
  - destruct (qltb (c_strength c) required) eqn:St; cbn [fresh].
    + split; [apply (kept_trans _ _ _ K0); repeat split; cbn; lia|]. cbn [s_tick with_objective s_rows]. intros H T Ob B Bo V. destruct (Base ltac:(lia) T B V) as (V0 & X0 & F0 & B0 & E0).
      destruct (mark_step s0 TError (-(1)) r0 ltac:(lia) (proj2 one_far) B0 F0) as (M1 & M2 & M3 & M4 & M5 & M6 & M7 & M8). set (a := Sym (s_tick s0) TError) in *. set (sa := snd (fresh s0 TError)) in *. set (ra := insert_symbol r0 a (-(1))) in *.
      cbn [fresh fst] in M1. rewrite M1. assert (La : (s_tick sa <= 255)%N) by (cbn; lia).
      destruct (mark_step sa TError 1 ra La (proj1 one_far) M8 M2) as (N1 & N2 & N3 & N4 & N5 & N6 & N7 & N8). set (b := Sym (s_tick sa) TError) in *. set (sb := snd (fresh sa TError)) in *. set (rb := insert_symbol ra b 1) in *.
      cbn [fresh fst] in N1. change (s_tick sa) with (s_tick s0 + 1)%N in N1. rewrite N1. fold ra rb.
      destruct (flip_ok sb (s_rows s) rb N2) as (P1 & P2 & P3 & P4 & (f & P5 & P6)). set (r := if qltb (r_const rb) 0 then reverse_sign rb else rb) in *.
      assert (Fb : ~ In b (dom (s_rows s))) by (rewrite <- R0; exact N7). assert (Fa : ~ In a (dom (s_rows s))) by (rewrite <- R0; exact M7).
      exists [(a, -(1)); (b, 1)]. constructor; cbn [dom map fst snd t_marker t_other].
      * apply (vinv_kept s0); [reflexivity|reflexivity|cbn; lia|exact V0].
      * exact X0.
      * cbn [s_objective with_objective]. rewrite O0. apply obj_insert; [apply obj_insert; [exact Ob|exact Fa|discriminate]|exact Fb|discriminate].
      * cbn [s_objective with_objective]. rewrite O0. intros _ x Ox. unfold below. cbn. apply insert_occurs in Ox. destruct Ox as [->|Ox]; [cbn; lia|]. apply insert_occurs in Ox. destruct Ox as [->|Ox]; [cbn; lia|]. apply Bo in Ox. unfold below in Ox. destruct K0 as (_ & _ & _ & _ & L). lia.
      * exact P1.
      * exact P2.
      * unfold mark_ok. rewrite Op, St. exists a, b; repeat split.
      * constructor; [intros [Z|[]]; injection Z as Z; lia|constructor; [intros []|constructor]].
      * destruct K0 as (_ & _ & _ & _ & L). intros x [<-|[<-|[]]]; unfold below; cbn; lia.
      * split; [now left|]. apply P3, N5. right. apply M5. now left.
      * intros x E. injection E as <-. right. now left.
      * cbn [s_objective with_objective]. rewrite O0. intros E. pose proof (insert_exact _ _ _ E) as E1. split; [now apply insert_exact in E1|]. intros v. rewrite insert_ev; [|apply insert_wf; apply Ob|exact E]. rewrite insert_ev; [|apply Ob|exact E1]. cbn. ring.
      * intros E. rewrite P4, N3, M3 in E. destruct (E0 E) as [G1 G2]. split; [exact G1|]. exists f. split; [exact P5|]. intros v Hv. rewrite P6, N6, M6, (G2 v Hv). unfold balance, vals. cbn [s_vars with_objective ev_cells fst snd]. ring.
    + split; [apply (kept_trans _ _ _ K0); repeat split; cbn; lia|]. cbn [s_tick]. intros H T Ob B Bo V. destruct (Base ltac:(lia) T B V) as (V0 & X0 & F0 & B0 & E0).
      destruct (mark_step s0 TDummy 1 r0 ltac:(lia) (proj1 one_far) B0 F0) as (M1 & M2 & M3 & M4 & M5 & M6 & M7 & M8). set (a := Sym (s_tick s0) TDummy) in *. set (sa := snd (fresh s0 TDummy)) in *. set (ra := insert_symbol r0 a 1) in *.
      cbn [fresh fst] in M1. rewrite M1. fold ra.
      destruct (flip_ok sa (s_rows s) ra M2) as (P1 & P2 & P3 & P4 & (f & P5 & P6)). set (r := if qltb (r_const ra) 0 then reverse_sign ra else ra) in *.
      exists [(a, 1)]. constructor; cbn [dom map fst snd t_marker t_other].
      * apply (vinv_kept s0); [reflexivity|reflexivity|cbn; lia|exact V0].
      * exact X0.
      * cbn [s_objective]. rewrite O0. exact Ob.
      * cbn [s_objective]. rewrite O0. intros _ x Ox. apply Bo in Ox. unfold below in *. cbn. destruct K0 as (_ & _ & _ & _ & L). lia.
      * exact P1.
      * exact P2.
      * unfold mark_ok. rewrite Op, St. exists a; repeat split.
      * constructor; [intros []|constructor].
      * destruct K0 as (_ & _ & _ & _ & L). intros x [<-|[]]; unfold below; cbn; lia.
      * split; [now left|]. apply P3, M5. now left.
      * discriminate.
      * cbn [s_objective]. rewrite O0. intros E. split; [exact E|]. intros v. cbn. ring.
      * intros E. rewrite P4, M3 in E. destruct (E0 E) as [G1 G2]. split; [exact G1|]. exists f. split; [exact P5|]. intros v Hv. rewrite P6, M6, (G2 v Hv). unfold balance, vals. cbn [s_vars ev_cells fst snd]. ring.
  - specialize (Slack RGe (-(1)) (or_intror (conj eq_refl eq_refl)) eq_refl). destruct (fresh s0 TSlack) as [sl s']. destruct (qltb (c_strength c) required); [destruct (fresh s' TError)|]; exact Slack.
Qed.
End Tolerance.
