(** How many walks over maps it takes to add constraints, and what those walks meet, when the symbols are walked in a fixed order from some point on. *)
From Verif Require Import Base M_Solver S_Solver P_Row P_Tableau P_Simplex P_Add P_Art P_Create P_System P_Step P_Exact P_Count P_Bland P_Ends.
From Coq Require Import ZArith NArith QArith List Bool Lia Lqa Setoid Permutation.
Import ListNotations.
Open Scope Q_scope.

Section Tolerance.
Context {tolr : tolerance}.
Definition uses_of {A} (u : A -> nat) (r : result A) : nat := match r with Done a => u a | Fail _ s => s_uses s | NoFuel => O end.

Lemma substitute_uses s x r : s_uses (substitute s x r) = s_uses s.
Proof. destruct (substitute_fields s x r) as (_ & _ & _ & _ & U & _). exact U. Qed.
Lemma add_term_uses t : forall acc, s_uses (snd (add_term acc t)) = s_uses (snd acc).
Proof. intros [r s]. unfold add_term. destruct (near_zero (snd t)); [reflexivity|]. unfold get_var_symbol. destruct (find_var _ _); cbn [fst snd fresh]; destruct (look _ _); reflexivity. Qed.
Lemma create_uses s c : s_uses (snd (create_row s c)) = s_uses s.
Proof.
  unfold create_row. assert (K : forall l acc, s_uses (snd (fold_left add_term l acc)) = s_uses (snd acc)) by (induction l as [|t l IH]; intros acc; [reflexivity|]; cbn [fold_left]; now rewrite IH, add_term_uses).
  specialize (K (e_terms (c_expr c)) (new_row (e_const (c_expr c)), s)). destruct (fold_left _ _ _) as [r s1]. cbn [snd] in K. destruct (c_op c); cbn [fresh]; destruct (qltb _ _); exact K.
Qed.

Section Order.
Variable order : nat -> list symbol -> list symbol.
Hypothesis order_ok : forall n l, Permutation (order n l) l.
Hypothesis near : forall q, near_zero q = true -> is_zero q = true.
Variable n0 : nat.
Hypothesis fixed : fixed_from order n0.
Variable names : list symbol.
Hypothesis names_all : forall x, (sy_value x < 256)%N -> In x names.
Let k0 := (n0 + 2 ^ length names)%nat.

(** Keys that are different names *)
Definition named (l : list symbol) : Prop := NoDup l /\ incl l names.
Definition like (t : nat -> list symbol) (u v : nat) (order' : nat -> list symbol -> list symbol) : Prop := forall k, (u <= k < v)%nat -> order' k (t k) = order k (t k).
(** The work [f], begun after [u] walks, is over at most [d] walks after the walks are in the fixed order, and its result depends only on how the keys [t] are walked. *)
Definition closes {A} (us : A -> nat) (d u : nat) (f : (nat -> list symbol -> list symbol) -> nat -> result A) : Prop :=
  exists res t, res <> NoFuel /\ (u <= uses_of us res)%nat /\ (uses_of us res <= Nat.max u n0 + d)%nat /\ (forall k, named (t k)) /\
    forall order', like t u (uses_of us res) order' -> forall fuel, (k0 < fuel)%nat -> f order' fuel = res.
Lemma named_nil : named [].
Proof. split; [constructor|intros x []]. Qed.
Lemma like_self t u v : like t u v order.
Proof. intros k _. reflexivity. Qed.
Lemma closes_bind {A B} (ua : A -> nat) (ub : B -> nat) d1 d2 u (f : (nat -> list symbol -> list symbol) -> nat -> result A) (g : (nat -> list symbol -> list symbol) -> nat -> A -> result B) :
  closes ua d1 u f -> (forall fuel a, (k0 < fuel)%nat -> f order fuel = Done a -> closes ub d2 (ua a) (fun o n => g o n a)) -> closes ub (d1 + d2) u (fun o n => rbind (f o n) (g o n)).
Proof.
  intros (res & t & Rn & U1 & U2 & Nt & F) G. destruct res as [a|e s|]; [| |congruence].
  - destruct (G (S k0) a) as (res' & t' & Rn' & V1 & V2 & Nt' & F'); [lia|apply F; [apply like_self|lia]|]. cbn [uses_of] in U1, U2, F.
    exists res', (fun k => if (k <? ua a)%nat then t k else t' k). split; [exact Rn'|]. split; [lia|]. split; [lia|]. split; [intros k; destruct (k <? ua a)%nat; auto|]. intros order' L fuel Hf.
    rewrite (F order'); [cbn [rbind]; apply F'; [|exact Hf]|intros k K|exact Hf].
    + intros k K. specialize (L k ltac:(lia)). cbn beta in L. destruct (Nat.ltb_spec k (ua a)); [lia|exact L].
    + specialize (L k ltac:(lia)). cbn beta in L. destruct (Nat.ltb_spec k (ua a)); [exact L|lia].
  - exists (Fail e s), t. split; [discriminate|]. cbn [uses_of] in *. split; [exact U1|]. split; [lia|]. split; [exact Nt|]. intros order' L fuel Hf. rewrite (F order' L fuel Hf). reflexivity.
Qed.
Lemma closes_const {A} (us : A -> nat) d u r : r <> NoFuel -> uses_of us r = u -> closes us d u (fun _ _ => r).
Proof. intros H E. exists r, (fun _ => []). split; [exact H|]. split; [lia|]. split; [lia|]. split; [intros _; apply named_nil|reflexivity]. Qed.
(** Work that begins with one walk *)
Lemma closes_walk {A} (us : A -> nat) d u l (f : list symbol -> (nat -> list symbol -> list symbol) -> nat -> result A) : named l -> closes us d (S u) (f (order u l)) -> closes us (S d) u (fun o n => f (o u l) o n).
Proof.
  intros Nl (res & t & Rn & U1 & U2 & Nt & F). exists res, (fun k => if (k =? u)%nat then l else t k). split; [exact Rn|]. split; [lia|]. split; [lia|]. split; [intros k; destruct (k =? u)%nat; auto|].
  intros order' L fuel Hf. assert (E : order' u l = order u l). { specialize (L u ltac:(lia)). cbn beta in L. rewrite Nat.eqb_refl in L. exact L. }
  rewrite E. apply F; [|exact Hf]. intros k K. specialize (L k ltac:(lia)). cbn beta in L. destruct (Nat.eqb_spec k u); [lia|exact L].
Qed.
Lemma closes_more {A} (us : A -> nat) d d' u f : (d <= d')%nat -> closes us d u f -> closes us d' u f.
Proof. intros H (res & t & Rn & U1 & U2 & Nt & F). exists res, t. repeat (split; [first [exact Rn|exact U1|lia|exact Nt]|]). exact F. Qed.
Lemma closes_ext {A} (us : A -> nat) d u f g : (forall o n, f o n = g o n) -> closes us d u f -> closes us d u g.
Proof. intros H (res & t & Rn & U1 & U2 & Nt & F). exists res, t. repeat (split; [assumption|]). intros o L n Hn. rewrite <- H. now apply F. Qed.

Lemma closes_find {A} (us : A -> nat) u l p (g : symbol -> result A) (h : result A) : named l -> (forall x, g x <> NoFuel /\ uses_of us (g x) = S u) -> (h <> NoFuel /\ uses_of us h = S u) ->
  closes us 1 u (fun o _ => match find p (o u l) with Some x => g x | None => h end).
Proof.
  intros Nl Hg [H1 H2]. apply (closes_walk us 0 u l (fun w _ _ => match find p w with Some x => g x | None => h end) Nl). destruct (find p (order u l)) as [x|]; [destruct (Hg x)|]; now apply closes_const.
Qed.

(** ** Optimising *)
Section Optimize.
Variable art : bool.
Lemma goal_named s : ready art s -> syms (fun x => In x names) s -> named (map fst (r_cells (goal art s))).
Proof.
  intros (Hi & _ & Ha) (_ & B & C). pose proof (goal_obj art s Hi Ha) as Ob. split; [apply (ob_wf _ _ Ob)|]. intros x J. unfold goal in J. destruct art; [|now apply B]. destruct (s_artificial s) as [a|] eqn:E; [exact (C a x eq_refl J)|destruct J].
Qed.
Lemma rows_named s : ready art s -> syms (fun x => In x names) s -> named (map fst (s_rows s)).
Proof. intros (Hi & _) (A & _). split; [apply (tb_nodup _ (proj1 Hi))|]. intros x J. apply in_map_iff in J. destruct J as (p & <- & J). now apply A. Qed.
Lemma optimize_trace : forall fuel s, ready art s -> syms (fun x => In x names) s -> optimize order fuel art s <> NoFuel ->
  exists t, (forall k, named (t k)) /\ (s_uses s <= uses_of s_uses (optimize order fuel art s) <= s_uses s + 2 * fuel)%nat /\
    (forall s2, optimize order fuel art s = Done s2 -> ready art s2 /\ syms (fun x => In x names) s2) /\
    forall order', like t (s_uses s) (uses_of s_uses (optimize order fuel art s)) order' -> forall fuel', (fuel <= fuel')%nat -> optimize order' fuel' art s = optimize order fuel art s.
Proof using All.
  induction fuel as [|fuel IH]; intros s R Sy H; [elim H; reflexivity|].
  pose proof (goal_named s R Sy) as N1. pose proof (rows_named s R Sy) as N2. assert (Self : agrees order art s order) by (split; reflexivity).
  destruct (step_alike order order_ok near art s R) as [F|[(e & s1 & U & F)|(x & y & s' & St & F & _)]].
  - rewrite (F order eq_refl fuel). cbn [uses_of use s_uses]. exists (fun _ => map fst (r_cells (goal art s))). split; [intros _; exact N1|]. split; [lia|].
    split; [intros s2 D; injection D as <-; split; [exact R|exact Sy]|]. intros order' L fuel' Hf. destruct fuel' as [|fuel']; [lia|]. apply F. exact (L (s_uses s) ltac:(lia)).
  - rewrite (F order Self fuel). cbn [uses_of]. rewrite U. exists (fun k => if (k =? s_uses s)%nat then map fst (r_cells (goal art s)) else map fst (s_rows s)). split; [intros k; destruct (k =? s_uses s)%nat; assumption|]. split; [lia|].
    split; [discriminate|]. intros order' L fuel' Hf. destruct fuel' as [|fuel']; [lia|]. apply F. pose proof (L (s_uses s) ltac:(lia)) as L1. pose proof (L (S (s_uses s)) ltac:(lia)) as L2. cbn beta in L1, L2. rewrite Nat.eqb_refl in L1.
    destruct (Nat.eqb_spec (S (s_uses s)) (s_uses s)); [lia|]. split; assumption.
  - rewrite (F order Self fuel) in *. destruct (IH s' (st_ready _ _ _ _ _ St) (st_syms _ _ _ _ _ St _ Sy) H) as (t & Nt & U & D & G). rewrite (st_uses _ _ _ _ _ St) in U, G.
    exists (fun k => if (k =? s_uses s)%nat then map fst (r_cells (goal art s)) else if (k =? S (s_uses s))%nat then map fst (s_rows s) else t k). split; [intros k; destruct (k =? s_uses s)%nat; [assumption|]; destruct (k =? _)%nat; auto|].
    split; [lia|]. split; [exact D|]. intros order' L fuel' Hf. destruct fuel' as [|fuel']; [lia|]. pose proof (L (s_uses s) ltac:(lia)) as L1. pose proof (L (S (s_uses s)) ltac:(lia)) as L2. cbn beta in L1, L2. rewrite Nat.eqb_refl in L1. rewrite Nat.eqb_refl in L2.
    destruct (Nat.eqb_spec (S (s_uses s)) (s_uses s)); [lia|]. rewrite (F order' (conj L1 L2) fuel'). apply G; [|lia]. intros k K. specialize (L k ltac:(lia)). cbn beta in L. destruct (Nat.eqb_spec k (s_uses s)); [lia|]. destruct (Nat.eqb_spec k (S (s_uses s))); [lia|exact L].
Qed.
Definition per_run : nat := (2 * 2 ^ length names + 5)%nat.
Lemma optimize_closes s : ready art s -> syms (fun x => In x names) s -> closes s_uses per_run (s_uses s) (fun o fuel => optimize o fuel art s).
Proof using All.
  intros R Sy.
  assert (K : exists m, (m <= k0 + 1)%nat /\ (s_uses s + 2 * m <= Nat.max (s_uses s) n0 + per_run)%nat /\ optimize order m art s <> NoFuel).
  { unfold per_run, k0. destruct (Nat.le_gt_cases n0 (s_uses s)) as [L|L].
    - destruct (optimize_ends order order_ok near art names s R) as (k & res & Kk & Rn & F); [intros n l H; apply fixed; lia|exact Sy|]. exists (k + 1)%nat. split; [lia|]. split; [lia|]. now rewrite F.
    - set (d := ((n0 - s_uses s + 1) / 2)%nat). assert (Hd : (2 * d <= n0 - s_uses s + 1 < 2 * d + 2)%nat). { unfold d. pose proof (Nat.div_mod (n0 - s_uses s + 1) 2 ltac:(lia)). pose proof (Nat.mod_upper_bound (n0 - s_uses s + 1) 2 ltac:(lia)). lia. } clearbody d.
      destruct (run_long order order_ok near art d s R) as [(k & res & Kd & Rn & F)|(st & ex & ey & E0 & Es & F)].
      { exists (k + 1)%nat. split; [lia|]. split; [lia|]. now rewrite F. }
      assert (Q : forall k, (k <= d)%nat -> ready art (st k) /\ syms (fun x => In x names) (st k) /\ s_uses (st k) = (s_uses s + 2 * k)%nat).
      { induction k as [|k IH]; intros Hk; [rewrite E0; split; [exact R|split; [exact Sy|lia]]|]. destruct (Es k) as [A _]; [lia|]. destruct IH as (I1 & I2 & I3); [lia|].
        split; [exact (st_ready _ _ _ _ _ A)|]. split; [now apply (st_syms _ _ _ _ _ A)|]. rewrite (st_uses _ _ _ _ _ A). lia. }
      destruct (Q d ltac:(lia)) as (Q1 & Q2 & Q3). destruct (optimize_ends order order_ok near art names (st d) Q1) as (k & res & Kk & Rn & G); [intros n l H; apply fixed; lia|exact Q2|].
      exists (d + (k + 1))%nat. split; [lia|]. split; [lia|]. now rewrite F, G. }
  destruct K as (m & M1 & M2 & M3). destruct (optimize_trace m s R Sy M3) as (t & Nt & U & _ & G). exists (optimize order m art s), t. split; [exact M3|]. split; [lia|]. split; [lia|]. split; [exact Nt|]. intros order' L fuel Hf. apply G; [exact L|lia].
Qed.
End Optimize.

(** ** Adding a constraint *)
Lemma optimize_done art fuel s s2 : ready art s -> syms (fun x => In x names) s -> optimize order fuel art s = Done s2 -> ready art s2 /\ syms (fun x => In x names) s2.
Proof using All. intros R Sy E. destruct (optimize_trace art fuel s R Sy) as (t & _ & _ & D & _); [rewrite E; discriminate|]. now apply D. Qed.
Lemma art_closes s r : inv s -> s_artificial s = None -> wf r -> 0 <= r_const r -> (forall y, occurs y r -> ~ In y (dom (s_rows s))) -> (forall y, occurs y r -> sy_type y <> TExternal) ->
  (s_tick s + 1 <= 256)%N -> syms (below s) s -> (forall y, occurs y r -> below s y) -> exact s = true -> r_exact r = true ->
  closes (fun p : bool * solver => s_uses (snd p)) (per_run + 1) (s_uses s) (fun o fuel => add_with_artificial_variable o fuel s r).
Proof using All.
  intros Hi An W Pr Nr Er Tk Sy Br Es Xr. assert (Va : (s_tick s mod 256 = s_tick s)%N) by (apply N.mod_small; lia).
  assert (Nb : forall y, below s y -> y <> Sym (s_tick s mod 256) TSlack) by (intros y B ->; unfold below in B; cbn [sy_value] in B; lia).
  assert (A2 : forall p, In p (s_rows s) -> ~ occurs (Sym (s_tick s mod 256) TSlack) (snd p)). { intros p I O. apply (proj1 Sy) in I. destruct I as [_ I]. apply I in O. now apply Nb in O. }
  assert (A3 : ~ occurs (Sym (s_tick s mod 256) TSlack) r) by (intros O; apply Br in O; now apply Nb in O).
  assert (A4 : ~ occurs (Sym (s_tick s mod 256) TSlack) (s_objective s)) by (intros O; apply (proj1 (proj2 Sy)) in O; now apply Nb in O).
  pose proof (art_inv s r Hi W Pr Nr Er A2 A3 A4) as I1. unfold add_with_artificial_variable. cbn [fresh]. cbn [fresh snd] in I1. set (art := Sym (s_tick s mod 256) TSlack) in *. set (s1 := with_artificial _ (Some r)) in *.
  assert (E1 : exact s1 = true). { apply exact_parts in Es. destruct Es as (B1 & B2 & B3 & _). apply exact_parts. split; [exact B1|]. split; [now apply put_keeps|]. split; [exact B3|]. intros a Z. injection Z as <-. exact Xr. }
  assert (Na : In art names) by (apply names_all; unfold art; cbn [sy_value]; lia).
  assert (Nm : forall y, below s y -> In y names) by (intros y B; apply names_all; unfold below in B; lia).
  assert (S1 : syms (fun x => In x names) s1).
  { destruct Sy as (S1 & S2 & _). split; [|split].
    - intros p I. cbn [s1 s_rows with_artificial with_rows] in I. apply put_in' in I. destruct I as [->|I]; [cbn [fst snd]; auto|]. destruct (S1 p I). auto.
    - intros x O. auto.
    - intros a x E O. injection E as <-. auto. }
  assert (Sa : true = true -> s_artificial s1 <> None) by discriminate. change (s_uses s) with (s_uses s1). clearbody s1. assert (R1 : ready true s1) by (split; [exact I1|split; [exact E1|exact Sa]]).
  apply (closes_bind s_uses (fun p => s_uses (snd p)) per_run 1 (s_uses s1) (fun o fuel => optimize o fuel true s1)
    (fun o n s0 => let k := r_const (goal true s0) in let success := near_zero k in let s := with_exact s0 (r_exact (goal true s0) && (negb success || is_zero k)) in let s := with_artificial s None in
      let clean s := let s := with_rows s (map (fun p => (fst p, remove_symbol (snd p) art)) (s_rows s)) in with_objective s (remove_symbol (s_objective s) art) in
      match look art (s_rows s) with
      | Some r => let s := with_exact s (r_exact r && (negb success || is_zero (r_const r))) in let s := with_rows s (drop_key art (s_rows s)) in
          match r_cells r with
          | [] => Done (success, s)
          | _ => let '(entering, s) := any_pivotable_symbol o s r in match entering with None => Done (false, s) | Some entering => let r := solve_for_symbols r art entering in let s := substitute s entering r in let s := with_rows s (put_at entering r (s_rows s)) in Done (success, clean s) end
          end
      | None => Done (success, clean s)
      end)); [apply optimize_closes; [exact R1|exact S1]|].
  intros fuel s2 _ D. destruct (optimize_done true fuel s1 s2 R1 S1 D) as [R2 S2]. cbv zeta. cbn [s_rows with_artificial with_exact]. destruct (look art (s_rows s2)) as [ra|] eqn:La; [|now apply closes_const].
  apply look_in in La. assert (Nra : named (map fst (r_cells ra))). { split; [apply (tb_wf _ (proj1 (proj1 R2)) _ La)|]. intros x J. now apply (proj1 S2 _ La). }
  destruct (r_cells ra) as [|c cells] eqn:Ec; [now apply closes_const|]. rewrite <- Ec in *. unfold any_pivotable_symbol, keys. cbn [s_uses with_rows with_exact with_artificial].
  apply closes_find; [exact Nra|intros x|]; (split; [discriminate|]); cbn [uses_of snd with_objective with_rows s_uses]; [|reflexivity]. now rewrite substitute_uses.
Qed.

Lemma subject_uses o s r t : snd (choose_subject o s r t) = use s.
Proof. reflexivity. Qed.
Lemma put_closes s L c : good s L -> exact s = true -> (s_tick (snd (create_row s c)) + 1 <= 256)%N -> closes s_uses (S (per_run + 1)) (s_uses s) (fun o => put_row o s c).
Proof using All.
  intros G E H. unfold put_row. pose proof (create_row_ok s c) as Cr. pose proof (create_keeps near s c) as Ck. pose proof (create_uses s c) as Cu. destruct (create_row s c) as [[r t] s1]. cbn [snd] in H, Cu. destruct (Ck r t s1 E eq_refl) as [Xr E1]. clear Ck. destruct Cr as [K Cr].
  assert (R1 : s_rows s1 = s_rows s) by apply K. assert (T1 : (s_tick s <= s_tick s1)%N) by apply K. assert (Ar1 : s_artificial s1 = None) by (rewrite <- (g_art _ _ G); apply K).
  destruct (Cr ltac:(lia) (proj1 (g_inv _ _ G)) (proj1 (proj2 (g_inv _ _ G))) (proj1 (g_syms _ _ G)) (proj1 (proj2 (g_syms _ _ G))) (g_vars _ _ G)) as (mk & C).
  assert (I1 : inv s1). { split; [rewrite R1; apply G|]. split; [rewrite R1; exact (cr_obj _ _ _ _ _ _ C)|]. rewrite Ar1. discriminate. }
  destruct (cr_fits _ _ _ _ _ _ C) as [W Fi].
  assert (Nr : named (map fst (r_cells r))). { split; [apply W|]. intros x J. apply names_all. destruct (Fi x J) as (_ & B). unfold below in B. lia. }
  rewrite <- Cu.
  pose (subj := fun w : list symbol => match find is_external w with Some x => Some x | None => let usable x := match sy_type x with TSlack | TError => qltb (coefficient_for r x) 0 | _ => false end in
       if usable (t_marker t) then Some (t_marker t) else match t_other t with Some x => if usable x then Some x else None | None => None end end).
  refine (closes_walk s_uses (per_run + 1) (s_uses s1) (map fst (r_cells r)) (fun w o fuel =>
    let subject := subj w in let no_subject := match subject with None => true | Some _ => false end in
    if no_subject && all_dummies r && negb (near_zero (r_const r)) then Fail EUnsatisfiable (with_exact (use s1) (r_exact r))
    else
      let s := if no_subject && all_dummies r then with_exact (use s1) (is_zero (r_const r)) else use s1 in
      let subject := if no_subject && all_dummies r then Some (t_marker t) else subject in
      match subject with
      | None => rbind (add_with_artificial_variable o fuel s r) (fun p => if fst p then Done (snd p) else Fail EUnsatisfiable (snd p))
      | Some x => let r := solve_for_symbol r x in let s := substitute s x r in let s := if is_external x && negb (is_zero (r_const r)) then var_changed s (var_for s x) else s in Done (with_rows s (put_at x r (s_rows s)))
      end) Nr _). cbv zeta beta.
  assert (Sn : subj (order (s_uses s1) (map fst (r_cells r))) = None -> forall y, occurs y r -> sy_type y <> TExternal).
  { intros Z. assert (Cs : choose_subject order s1 r t = (None, use s1)) by (unfold choose_subject; f_equal; exact Z). exact (proj2 (subject_none order order_ok _ _ _ _ Cs)). }
  destruct (subj (order (s_uses s1) (map fst (r_cells r)))) as [x|]; clear subj.
  - cbn [andb]. apply closes_const; [discriminate|]. cbn [uses_of with_rows s_uses]. destruct (is_external x && _); cbn [s_uses var_changed]; now rewrite substitute_uses.
  - specialize (Sn eq_refl). cbn [andb]. destruct (all_dummies r && negb (near_zero (r_const r))); [apply closes_const; [discriminate|reflexivity]|]. destruct (all_dummies r).
    { apply closes_const; [discriminate|]. cbn [uses_of with_rows s_uses]. destruct (is_external (t_marker t) && _); cbn [s_uses var_changed]; now rewrite substitute_uses. }
    apply (closes_more s_uses (per_run + 1 + 0)); [lia|]. change (S (s_uses s1)) with (s_uses (use s1)).
    apply (closes_bind (fun p : bool * solver => s_uses (snd p)) s_uses (per_run + 1) 0 (s_uses (use s1)) (fun o n => add_with_artificial_variable o n (use s1) r) (fun _ _ p => if fst p then Done (snd p) else Fail EUnsatisfiable (snd p))).
    2:{ intros _ [[|] q] _ _; cbn [fst snd]; apply closes_const; first [discriminate|reflexivity]. }
    apply art_closes; try assumption.
    + apply C.
    + intros y O. cbn. now apply Fi.
    + split; [|split].
      * intros p I. cbn in I. rewrite R1 in I. destruct (proj1 (g_syms _ _ G) p I) as [Z1 Z2]. unfold below in *. cbn. split; [lia|]. intros x O. specialize (Z2 x O). lia.
      * intros x O. exact (cr_obj_below _ _ _ _ _ _ C (proj1 (proj2 (g_syms _ _ G))) x O).
      * intros a x Z. cbn in Z. rewrite Ar1 in Z. discriminate.
    + intros y O. now apply Fi.
Qed.
Definition per_constraint : nat := (S (per_run + 1) + per_run)%nat.
Lemma add_closes s L c : good s L -> exact s = true -> (s_tick (snd (create_row s c)) + 1 <= 256)%N -> closes s_uses per_constraint (s_uses s) (fun o n => add_constraint o n s c).
Proof using All.
  intros G E H. apply (closes_ext s_uses _ _ (fun o n => rbind (put_row o s c n) (optimize o n false))); [intros o n; symmetry; apply add_put_row|].
  apply (closes_bind s_uses s_uses (S (per_run + 1)) per_run (s_uses s) (fun o => put_row o s c) (fun o n => optimize o n false)); [exact (put_closes s L c G E H)|]. intros fuel s2 _ D.
  assert (T2 := put_row_tick order order_ok fuel s c s2 (or_introl D)). pose proof (put_row_keeps near order order_ok fuel s L c G E) as Kp. pose proof (put_row_ok order order_ok s L c G fuel) as Ok. rewrite D in Kp, Ok.
  assert (E2 : exact s2 = true) by (apply Kp; lia). destruct (Ok ltac:(lia)) as (mk & A); [apply exact_parts in E2; tauto|]. destruct (added_good s L c G s2 mk A) as [G2 _].
  apply optimize_closes; [split; [apply G2|]; split; [exact E2|discriminate]|]. apply (syms_mono (below s2)); [|apply G2]. intros x B. apply names_all. unfold below in B. lia.
Qed.
Lemma adds_closes vs : forall cs n s L, good s L -> exact s = true -> (forall c', In c' (map fst L ++ cs) -> 0 <= c_strength c') -> (forall c, In c cs -> incl (map fst (e_terms (c_expr c))) vs) -> counted vs n s ->
  (length vs + n + fold_right (fun c acc => symbols_of c + acc) 0 cs <= 254)%nat -> closes s_uses (length cs * per_constraint) (s_uses s) (fun o n => add_constraints o n s cs).
Proof using All.
  induction cs as [|c cs IH]; intros n s L G E St Iv C H; [apply (closes_const s_uses _ _ (Done s)); [discriminate|reflexivity]|]. cbn [add_constraints fold_right length Nat.mul] in *.
  assert (Sy : (2 <= symbols_of c)%nat) by (unfold symbols_of; lia).
  assert (Len : forall m q, counted vs m q -> (N.to_nat (s_tick q) <= 1 + length vs + m)%nat). { intros m q (C1 & C2 & C3). apply NoDup_incl_length in C2; [|exact C1]. rewrite map_length in C2. lia. }
  assert (T1 : (s_tick (snd (create_row s c)) + 1 <= 256)%N). { pose proof (create_counted vs n s c (Iv c (or_introl eq_refl)) C) as Cc. destruct (create_row s c) as [[r t] s1]. cbn [snd]. apply Len in Cc. unfold symbols_of in H. destruct (Qle_bool _ _); lia. }
  apply (closes_bind s_uses s_uses per_constraint (length cs * per_constraint) (s_uses s) (fun o n => add_constraint o n s c) (fun o n s => add_constraints o n s cs)); [now apply (add_closes s L)|]. intros fuel s2 _ D.
  assert (C2 := add_counted order order_ok vs n fuel s c s2 (conj (g_vars _ _ G) (fun p J => proj2 (proj1 (g_syms _ _ G) p J))) ltac:(lia) (Iv c (or_introl eq_refl)) C (or_introl D)). assert (T2 := Len _ _ C2).
  assert (St1 : forall c', In c' (map fst L ++ [c]) -> 0 <= c_strength c') by (intros c' J; apply St; apply in_app_iff; apply in_app_iff in J; cbn in *; tauto).
  pose proof (add_keeps near order order_ok fuel s L c G E) as A. pose proof (add_ok order order_ok s L c G fuel St1) as B. rewrite D in A, B. assert (E2 : exact s2 = true) by (apply A; lia).
  destruct (B ltac:(lia)) as (mk & G2 & _); [apply exact_parts in E2; tauto|].
  apply (IH (n + symbols_of c)%nat s2 (L ++ [(c, mk)])); try assumption.
  - intros c' J. apply St. rewrite map_app, <- app_assoc in J. exact J.
  - intros c' J. apply Iv. now right.
  - lia.
Qed.
End Order.
End Tolerance.
