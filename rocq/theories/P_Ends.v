(** Adding constraints ends when the symbols are walked in a fixed order from some point on. *)
From Verif Require Import Base M_Solver S_Solver P_Row P_Tableau P_Simplex P_Add P_Art P_Create P_System P_Step P_Exact P_Count P_Bland.
From Coq Require Import ZArith NArith QArith List Bool Lia Lqa Setoid Permutation.
Import ListNotations.
Open Scope Q_scope.

(** The symbols that have names *)
Lemma names_exist : exists names : list symbol, forall x, (sy_value x < 256)%N -> In x names.
Proof.
  exists (flat_map (fun n => map (Sym (N.of_nat n)) [TExternal; TSlack; TError; TDummy]) (seq 0 256)).
  intros x H. apply in_flat_map. exists (N.to_nat (sy_value x)). split; [apply in_seq; lia|]. rewrite N2Nat.id. destruct x as [v t]. cbn [sy_value]. destruct t; cbn; tauto.
Qed.

Section Tolerance.
Context {tolr : tolerance}.
Definition ends {A} (k : nat) (f : nat -> result A) : Prop := exists res, res <> NoFuel /\ forall fuel, (k < fuel)%nat -> f fuel = res.
Lemma ends_bind {A B} k (f : nat -> result A) (g : nat -> A -> result B) : ends k f -> (forall fuel a, f fuel = Done a -> ends k (fun n => g n a)) -> ends k (fun n => rbind (f n) (g n)).
Proof.
  intros (res & Rn & F) G. destruct res as [a|e s|]; [|exists (Fail e s); split; [discriminate|]; intros n H; now rewrite F|congruence].
  destruct (G (S k) a) as (res & Rn' & F'); [apply F; lia|]. exists res. split; [exact Rn'|]. intros n H. rewrite F by exact H. now apply F'.
Qed.
Lemma ends_const {A} k (r : result A) : r <> NoFuel -> ends k (fun _ => r).
Proof. intros H. exists r. auto. Qed.
Lemma syms_mono (P Q : symbol -> Prop) s : (forall x, P x -> Q x) -> syms P s -> syms Q s.
Proof. intros H (A & B & C). split; [|split; eauto]. intros p I. destruct (A p I) as [A1 A2]. auto. Qed.

Section Order.
Variable order : nat -> list symbol -> list symbol.
Hypothesis order_ok : forall n l, Permutation (order n l) l.
Lemma put_row_tick fuel s c s2 : put_row order s c fuel = Done s2 \/ (exists e, put_row order s c fuel = Fail e s2) -> (s_tick s2 <= s_tick (snd (create_row s c)) + 1)%N.
Proof.
  unfold put_row. destruct (create_row s c) as [[r t] s1]. cbn [snd]. destruct (choose_subject order s1 r t) as [subj s3] eqn:Cs. assert (Us : s3 = use s1) by (unfold choose_subject in Cs; injection Cs as _ <-; reflexivity).
  set (ns := match subj with None => true | Some _ => false end). destruct (ns && all_dummies r && negb (near_zero (r_const r))).
  { intros [E|[e E]]; [discriminate|]. injection E as _ <-. subst s3. cbn. lia. }
  set (s4 := if ns && all_dummies r then _ else s3). assert (T4 : s_tick s4 = s_tick s1) by (unfold s4; subst s3; destruct (ns && all_dummies r); reflexivity).
  clearbody s4. set (sub := if ns && all_dummies r then Some (t_marker t) else subj). clearbody sub. destruct sub as [x|].
  - intros [E|[e E]]; [|discriminate]. injection E as <-. cbn [s_tick with_rows]. destruct (substitute_fields s4 x (solve_for_symbol r x)) as ((_ & _ & F) & _). destruct (is_external x && _); cbn [s_tick var_changed]; rewrite F; lia.
  - destruct (add_with_artificial_variable order fuel s4 r) as [[b q]|e q|] eqn:Ea; cbn [rbind fst snd].
    + destruct (art_flags order order_ok (fun _ => True) fuel s4 r) with (s2 := q) as (_ & _ & F3 & _); auto; [repeat split|left; eauto|]. destruct b; intros [E|[e E]]; try discriminate; injection E; intros; subst; lia.
    + destruct (art_flags order order_ok (fun _ => True) fuel s4 r) with (s2 := q) as (_ & _ & F3 & _); auto; [repeat split|right; eauto|]. intros [E|[e' E]]; try discriminate; injection E; intros; subst; lia.
    + intros [E|[e E]]; discriminate.
Qed.
Hypothesis near : forall q, near_zero q = true -> is_zero q = true.
Variable n0 : nat.
Hypothesis fixed : fixed_from order n0.
Variable names : list symbol.
Hypothesis names_all : forall x, (sy_value x < 256)%N -> In x names.
Let k0 := (n0 + 2 ^ length names)%nat.

Lemma opt_ends art s : ready art s -> syms (fun x => In x names) s -> ends k0 (fun fuel => optimize order fuel art s).
Proof. intros R Sy. destruct (optimize_ends' order order_ok near art names n0 s R fixed Sy) as (res & Rn & F). exists res. split; [exact Rn|]. intros fuel H. apply F. exact H. Qed.

Lemma art_ends s r : inv s -> s_artificial s = None -> wf r -> 0 <= r_const r -> (forall y, occurs y r -> ~ In y (dom (s_rows s))) -> (forall y, occurs y r -> sy_type y <> TExternal) ->
  (s_tick s + 1 <= 256)%N -> syms (below s) s -> (forall y, occurs y r -> below s y) -> exact s = true -> r_exact r = true ->
  ends k0 (fun fuel => add_with_artificial_variable order fuel s r).
Proof.
  intros Hi An W Pr Nr Er Tk Sy Br Es Xr. assert (Va : (s_tick s mod 256 = s_tick s)%N) by (apply N.mod_small; lia).
  assert (Nb : forall y, below s y -> y <> Sym (s_tick s mod 256) TSlack) by (intros y B ->; unfold below in B; cbn [sy_value] in B; lia).
  assert (A2 : forall p, In p (s_rows s) -> ~ occurs (Sym (s_tick s mod 256) TSlack) (snd p)). { intros p I O. apply (proj1 Sy) in I. destruct I as [_ I]. apply I in O. now apply Nb in O. }
  assert (A3 : ~ occurs (Sym (s_tick s mod 256) TSlack) r) by (intros O; apply Br in O; now apply Nb in O).
  assert (A4 : ~ occurs (Sym (s_tick s mod 256) TSlack) (s_objective s)) by (intros O; apply (proj1 (proj2 Sy)) in O; now apply Nb in O).
  pose proof (art_inv s r Hi W Pr Nr Er A2 A3 A4) as I1. unfold add_with_artificial_variable. cbn [fresh]. cbn [fresh snd] in I1. set (art := Sym (s_tick s mod 256) TSlack) in *. set (s1 := with_artificial _ (Some r)) in *.
  assert (E1 : exact s1 = true). { apply exact_parts in Es. destruct Es as (B1 & B2 & B3 & _). apply exact_parts. split; [exact B1|]. split; [now apply put_keeps|]. split; [exact B3|]. intros a Z. injection Z as <-. exact Xr. }
  assert (Na : In art names) by (apply names_all; unfold art; cbn [sy_value]; lia).
  assert (Nm : forall y, below s y -> In y names) by (intros y B; apply names_all; unfold below in B; lia).
  assert (S1 : syms (fun x => In x names) s1).
  { destruct Sy as (S1 & S2 & _). split; [|split].
    - intros p I. cbn [s1 s_rows with_artificial with_rows] in I. apply put_in' in I. destruct I as [->|I]; [cbn [fst snd]; auto|]. destruct (S1 p I). auto.
    - intros x O. auto.
    - intros a x E O. injection E as <-. auto. }
  assert (Sa : true = true -> s_artificial s1 <> None) by discriminate. clearbody s1. apply ends_bind; [apply opt_ends; [split; [exact I1|split; [exact E1|exact Sa]]|exact S1]|].
  intros _ s2 _. apply ends_const. destruct (look art _) as [ra|]; [|discriminate]. destruct (r_cells ra); [discriminate|]. destruct (any_pivotable_symbol _ _ _) as [[x|] ?]; discriminate.
Qed.

Lemma put_ends s L c : good s L -> exact s = true -> (s_tick (snd (create_row s c)) + 1 <= 256)%N -> ends k0 (put_row order s c).
Proof using All.
  intros G E H. unfold put_row. pose proof (create_row_ok s c) as Cr. pose proof (create_keeps near s c) as Ck. destruct (create_row s c) as [[r t] s1]. cbn [snd] in H. destruct (Ck r t s1 E eq_refl) as [Xr E1]. clear Ck. destruct Cr as [K Cr].
  assert (R1 : s_rows s1 = s_rows s) by apply K. assert (T1 : (s_tick s <= s_tick s1)%N) by apply K. assert (Ar1 : s_artificial s1 = None) by (rewrite <- (g_art _ _ G); apply K).
  destruct (choose_subject order s1 r t) as [subj s2] eqn:Cs. assert (Us : s2 = use s1) by (unfold choose_subject in Cs; injection Cs as _ <-; reflexivity).
  set (ns := match subj with None => true | Some _ => false end).
  destruct (ns && all_dummies r && negb (near_zero (r_const r))); [apply ends_const; discriminate|]. destruct (ns && all_dummies r) eqn:Nd; [apply ends_const; discriminate|]. destruct subj as [x|]; [apply ends_const; discriminate|].
  destruct (subject_none order order_ok _ _ _ _ Cs) as [_ Ne]. 
  destruct (Cr ltac:(lia) (proj1 (g_inv _ _ G)) (proj1 (proj2 (g_inv _ _ G))) (proj1 (g_syms _ _ G)) (proj1 (proj2 (g_syms _ _ G))) (g_vars _ _ G)) as (mk & C).
  assert (I1 : inv s1). { split; [rewrite R1; apply G|]. split; [rewrite R1; exact (cr_obj _ _ _ _ _ _ C)|]. rewrite Ar1. discriminate. }
  destruct (cr_fits _ _ _ _ _ _ C) as [W Fi]. subst s2.
  apply (ends_bind k0 (fun n => add_with_artificial_variable order n (use s1) r) (fun _ p => if fst p then Done (snd p) else Fail EUnsatisfiable (snd p))); [|intros _ [[|] q] _; apply ends_const; discriminate].
  apply art_ends; try assumption.
  - apply C.
  - intros y O. cbn. now apply Fi.
  - split; [|split].
    + intros p I. cbn in I. rewrite R1 in I. destruct (proj1 (g_syms _ _ G) p I) as [Z1 Z2]. unfold below in *. cbn. split; [lia|]. intros x O. specialize (Z2 x O). lia.
    + intros x O. exact (cr_obj_below _ _ _ _ _ _ C (proj1 (proj2 (g_syms _ _ G))) x O).
    + intros a x Z. cbn in Z. rewrite Ar1 in Z. discriminate.
  - intros y O. now apply Fi.
Qed.
Lemma add_ends s L c : good s L -> exact s = true -> (s_tick (snd (create_row s c)) + 1 <= 256)%N -> ends k0 (fun n => add_constraint order n s c).
Proof using All.
  intros G E H. assert (P := put_ends s L c G E H).
  assert (Q : ends k0 (fun n => rbind (put_row order s c n) (optimize order n false))).
  { apply (ends_bind k0 (put_row order s c) (fun n => optimize order n false)); [exact P|]. intros fuel s2 D. clear P.
    assert (T2 := put_row_tick fuel s c s2 (or_introl D)). pose proof (put_row_keeps near order order_ok fuel s L c G E) as Kp. pose proof (put_row_ok order order_ok s L c G fuel) as Ok. rewrite D in Kp, Ok.
    assert (E2 : exact s2 = true) by (apply Kp; lia). destruct (Ok ltac:(lia)) as (mk & A); [apply exact_parts in E2; tauto|]. destruct (added_good s L c G s2 mk A) as [G2 _].
    apply opt_ends; [split; [apply G2|]; split; [exact E2|discriminate]|]. apply (syms_mono (below s2)); [|apply G2]. intros x B. apply names_all. unfold below in B. lia. }
  destruct Q as (res & Rn & F). exists res. split; [exact Rn|]. intros n Hn. rewrite add_put_row. now apply F.
Qed.
Lemma adds_ends vs : forall cs n s L, good s L -> exact s = true -> (forall c', In c' (map fst L ++ cs) -> 0 <= c_strength c') -> (forall c, In c cs -> incl (map fst (e_terms (c_expr c))) vs) -> counted vs n s ->
  (length vs + n + fold_right (fun c acc => symbols_of c + acc) 0 cs <= 254)%nat -> ends k0 (fun n => add_constraints order n s cs).
Proof using All.
  induction cs as [|c cs IH]; intros n s L G E St Iv C H; [exists (Done s); split; [discriminate|reflexivity]|]. cbn [add_constraints fold_right] in *.
  assert (Sy : (2 <= symbols_of c)%nat) by (unfold symbols_of; lia).
  assert (Len : forall m q, counted vs m q -> (N.to_nat (s_tick q) <= 1 + length vs + m)%nat). { intros m q (C1 & C2 & C3). apply NoDup_incl_length in C2; [|exact C1]. rewrite map_length in C2. lia. }
  assert (T1 : (s_tick (snd (create_row s c)) + 1 <= 256)%N). { pose proof (create_counted vs n s c (Iv c (or_introl eq_refl)) C) as Cc. destruct (create_row s c) as [[r t] s1]. cbn [snd]. apply Len in Cc. unfold symbols_of in H. destruct (Qle_bool _ _); lia. }
  apply (ends_bind k0 (fun n => add_constraint order n s c) (fun n s => add_constraints order n s cs)); [now apply (add_ends s L)|]. intros fuel s2 D.
  assert (C2 := add_counted order order_ok vs n fuel s c s2 (conj (g_vars _ _ G) (fun p J => proj2 (proj1 (g_syms _ _ G) p J))) ltac:(lia) (Iv c (or_introl eq_refl)) C (or_introl D)). assert (T2 := Len _ _ C2).
  assert (St1 : forall c', In c' (map fst L ++ [c]) -> 0 <= c_strength c') by (intros c' J; apply St; apply in_app_iff; apply in_app_iff in J; cbn in *; tauto).
  pose proof (add_keeps near order order_ok fuel s L c G E) as A. pose proof (add_ok order order_ok s L c G fuel St1) as B. rewrite D in A, B. assert (E2 : exact s2 = true) by (apply A; lia).
  destruct (B ltac:(lia)) as (mk & G2 & _); [apply exact_parts in E2; tauto|].
  apply (IH (n + symbols_of c)%nat s2 (L ++ [(c, mk)])); try assumption.
  - intros c' J. apply St. rewrite map_app, <- app_assoc in J. exact J.
  - intros c' J. apply Iv. now right.
  - lia.
Qed.
End Order.
End Tolerance.
