(** Lemmas about layouts: elements, constraints, rounding. *)
From Verif Require Import Base P_Base M_Geom M_Combin T_Combin M_Solver M_Layout S_Solver S_Layout P_Row.
From Coq Require Import ZArith NArith QArith Qround Qabs Qminmax List Bool Lia Lqa Setoid Permutation.
Import ListNotations.
Open Scope Q_scope.

(** ** Elements *)
Lemma pair_ind {A} (P : list A -> Prop) : P [] -> (forall a, P [a]) -> (forall a b l, P l -> P (a :: b :: l)) -> forall l, P l.
Proof. intros H0 H1 H2. assert (H : forall l, P l /\ forall a, P (a :: l)). { induction l as [|a l [I1 I2]]; split; auto. } intros l. apply H. Qed.
Lemma elements_nth vs k e : nth_error (new_elements vs) k = Some e <-> nth_error vs (2 * k) = Some (el_start e) /\ nth_error vs (2 * k + 1) = Some (el_end e).
Proof.
  revert k. induction vs as [|a|a b l IH] using pair_ind; intros k.
  - cbn. destruct k; cbn; split; intros H; try discriminate; destruct H; try discriminate.
  - cbn [new_elements]. destruct k as [|k]; cbn [nth_error Nat.mul Nat.add].
    + split; [discriminate|]. intros [_ H]. discriminate.
    + split; [discriminate|]. intros [_ H]. exfalso. rewrite Nat.add_succ_r in H. cbn in H. destruct (k + (k + 0) + 1)%nat; discriminate.
  - cbn [new_elements]. destruct k as [|k].
    + cbn. split; [intros E; injection E as <-; split; reflexivity|]. intros [H1 H2]. injection H1 as ->. injection H2 as ->. now destruct e.
    + replace (2 * S k)%nat with (S (S (2 * k))) by lia. replace (S (S (2 * k)) + 1)%nat with (S (S (2 * k + 1))) by lia. cbn [nth_error]. apply IH.
Qed.
Lemma elements_length vs : length (new_elements vs) = Nat.div2 (length vs).
Proof. induction vs as [|a|a b l IH] using pair_ind; cbn; [reflexivity|reflexivity|]. now rewrite IH. Qed.
Lemma element_in vs e : In e (new_elements vs) -> In (el_start e) vs /\ In (el_end e) vs.
Proof. intros I. apply In_nth_error in I. destruct I as (k & H). apply elements_nth in H. destruct H as [H1 H2]. split; eapply nth_error_In; eassumption. Qed.

(** ** The constraints *)
Definition soft (vs : list variable) (c : constr) : Prop := 0 < c_strength c /\ c_strength c < required /\ incl (map fst (e_terms (c_expr c))) vs.
Lemma size_terms e f : map fst (e_terms (e_sub (el_size e) f)) = [el_end e; el_start e] ++ map fst (e_terms f).
Proof. cbn. f_equal. f_equal. now rewrite map_map. Qed.
Lemma has_size_soft vs e f k : In (el_start e) vs -> In (el_end e) vs -> incl (map fst (e_terms f)) vs -> 0 < k -> k < required -> soft vs (has_size e f k).
Proof. intros A B F K1 K2. split; [exact K1|]. split; [exact K2|]. unfold has_size, rel_expr, c_expr. rewrite size_terms. intros v [<-|[<-|I]]; auto. Qed.
Lemma has_min_soft vs e n k : In (el_start e) vs -> In (el_end e) vs -> 0 < k -> k < required -> soft vs (has_min_size e n k).
Proof. intros A B K1 K2. split; [exact K1|]. split; [exact K2|]. cbn. intros v [<-|[<-|[]]]; auto. Qed.
Lemma has_max_soft vs e n k : In (el_start e) vs -> In (el_end e) vs -> 0 < k -> k < required -> soft vs (has_max_size e n k).
Proof. intros A B K1 K2. split; [exact K1|]. split; [exact K2|]. cbn. intros v [<-|[<-|[]]]; auto. Qed.
Lemma has_int_soft vs e n k : In (el_start e) vs -> In (el_end e) vs -> 0 < k -> k < required -> soft vs (has_int_size e n k).
Proof. intros A B K1 K2. split; [exact K1|]. split; [exact K2|]. cbn. intros v [<-|[<-|[]]]; auto. Qed.
Lemma is_empty_soft vs e : In (el_start e) vs -> In (el_end e) vs -> soft vs (is_empty e).
Proof. intros A B. split; [reflexivity|]. split; [reflexivity|]. cbn. intros v [<-|[<-|[]]]; auto. Qed.
Definition known_el (vs : list variable) (e : element) : Prop := In (el_start e) vs /\ In (el_end e) vs.
Lemma el_size_vars vs e : known_el vs e -> incl (map fst (e_terms (el_size e))) vs.
Proof. intros [A B] v [<-|[<-|[]]]; auto. Qed.

Lemma pairs_ok {A} (l : list A) : (2 <= length l)%nat -> exists ps, pairs l = Ret ps /\ (forall p, In p ps -> In (fst p) l /\ In (snd p) l) /\ (2 * length ps = length l * (length l - 1))%nat.
Proof.
  intros H. unfold pairs. destruct (C33_pairs (zlen l)) as (ixs & E & _ & C & Len); [unfold zlen; lia|]. rewrite E. cbn [bind].
  assert (C' : forall ix, In ix ixs -> exists i j, ix = [i; j] /\ (0 <= i < zlen l)%Z /\ (0 <= j < zlen l)%Z). { intros ix I. apply C in I. destruct I as (i & j & -> & Hi & Hj). exists i, j. split; [reflexivity|lia]. }
  assert (G : forall ixs acc, (forall ix, In ix ixs -> exists i j, ix = [i; j] /\ (0 <= i < zlen l)%Z /\ (0 <= j < zlen l)%Z) -> (forall p, In p acc -> In (fst p) l /\ In (snd p) l) ->
     exists ps, ofold (fun acc ix => let! i := index_at ix 0 in let! j := index_at ix 1 in let! a := index_at l i in let! b := index_at l j in Ret (acc ++ [(a, b)])) ixs acc = Ret ps /\
       (forall p, In p ps -> In (fst p) l /\ In (snd p) l) /\ length ps = (length acc + length ixs)%nat).
  { clear. induction ixs as [|ix ixs IH]; intros acc C Ha; cbn [ofold]; [exists acc; split; [reflexivity|]; split; [exact Ha|cbn; lia]|].
    destruct (C ix (or_introl eq_refl)) as (i & j & -> & Hi & Hj). cbn [bind]. change (index_at [i; j] 0) with (Ret i). change (index_at [i; j] 1) with (Ret j). cbn [bind].
    assert (At : forall k, (0 <= k < zlen l)%Z -> exists a, index_at l k = Ret a /\ In a l). { intros k Hk. unfold index_at. replace (k <? 0)%Z with false by (symmetry; apply Z.ltb_ge; lia). destruct (nth_error l (Z.to_nat k)) as [a|] eqn:N; [exists a; split; [reflexivity|eapply nth_error_In; exact N]|]. apply nth_error_None in N. unfold zlen in Hk. lia. }
    destruct (At i Hi) as (a & Ea & Ia). destruct (At j Hj) as (b & Eb & Ib). rewrite Ea, Eb. cbn [bind]. destruct (IH (acc ++ [(a, b)])) as (ps & Ep & P1 & P2); [intros ix I; apply C; now right| |].
    - intros p I. apply in_app_iff in I. destruct I as [I|[<-|[]]]; [now apply Ha|split; assumption].
    - exists ps. split; [exact Ep|]. split; [exact P1|]. rewrite P2, app_length. cbn. lia. }
  destruct (G ixs [] C') as (ps & Ep & P1 & P2); [intros p []|]. exists ps. split; [exact Ep|]. split; [exact P1|]. cbn in P2. unfold zlen in Len. nia.
Qed.
Lemma middle_in {A} (l : list A) a : In a (middle l) -> In a l.
Proof. unfold middle. destruct (2 <? length l)%nat; [|contradiction]. destruct l as [|x l]; [contradiction|]. cbn [tl]. intros I. right. destruct l as [|y l]; [contradiction|]. rewrite (app_removelast_last y) by discriminate. apply in_app_iff. now left. Qed.
Lemma middle_length {A} (l : list A) : (length (middle l) <= length l - 2)%nat.
Proof. unfold middle. destruct (2 <? length l)%nat eqn:E; [|cbn; lia]. destruct l as [|x l]; [cbn; lia|]. cbn [tl length]. destruct l as [|y l]; [cbn; lia|]. pose proof (@app_removelast_last _ (y :: l) y ltac:(discriminate)) as Q. apply (f_equal (@length _)) in Q. rewrite app_length in Q. change (length [last (y :: l) y]) with 1%nat in Q. cbn [length] in *. lia. Qed.
Lemma last_in {A} (l : list A) d : l <> [] -> In (last l d) l.
Proof. intros H. rewrite (app_removelast_last d H) at 2. apply in_app_iff. right. now left. Qed.

Lemma flex_ok vs area sps fl space : known_el vs area -> (forall e, In e sps -> known_el vs e) -> exists cs, flex_constraints area sps fl space = Ret cs /\ (forall c, In c cs -> soft vs c) /\
  (2 * length cs <= gap_names fl (length sps - 1))%nat.
Proof.
  intros Ka Ks. unfold flex_constraints. set (mid := middle sps). assert (Km : forall e, In e mid -> known_el vs e) by (intros e I; apply Ks; now apply middle_in). assert (Lm : (length mid <= length sps - 2)%nat) by apply middle_length.
  set (sf := qmul (inject_Z space) multiplier).
  assert (Fx : forall c, In c (map (fun s => has_size s (Expr [] sf) spacer_size_eq) mid) -> soft vs c). { intros c I. apply in_map_iff in I. destruct I as (e & <- & I). apply Km in I. destruct I. apply has_size_soft; auto; try reflexivity. intros v []. }
  assert (Gr : forall c, In c (flat_map (fun s => [has_min_size s space spacer_size_eq; has_size s (el_size area) space_grow]) mid) -> soft vs c).
  { intros c I. apply in_flat_map in I. destruct I as (e & I & J). apply Km in I. destruct I. destruct J as [<-|[<-|[]]]; [apply has_min_soft|apply has_size_soft]; auto; try reflexivity. now apply el_size_vars. }
  assert (Lf : length (map (fun s => has_size s (Expr [] sf) spacer_size_eq) mid) = length mid) by apply map_length.
  assert (Lg : forall f : element -> list constr, (forall e, length (f e) = 2%nat) -> length (flat_map f mid) = (2 * length mid)%nat) by (intros f Hf; induction mid as [|e m IH]; [reflexivity|]; cbn; rewrite app_length, Hf; assert (length (flat_map f m) = 2 * length m)%nat by (clear -Hf; induction m as [|e m IH]; [reflexivity|]; cbn; rewrite app_length, Hf, IH; lia); lia).
  assert (En : forall f, (forall a b, In a sps -> In b sps -> forall c, In c (f a b) -> soft vs c) -> forall c, In c (ends sps f) -> soft vs c).
  { intros f Hf c. unfold ends. destruct sps as [|a [|b l]]; [contradiction|contradiction|]. apply Hf; [now left|]. apply last_in. discriminate. }
  assert (Le : forall f k, (forall a b, (length (f a b) <= k)%nat) -> (length (ends sps f) <= k)%nat) by (intros f k Hf; unfold ends; destruct sps as [|a [|b l]]; cbn; try lia; apply Hf).
  assert (Eq : exists eq, (if (2 <=? length mid)%nat then let! ps := pairs mid in Ret (map (fun p => has_size (fst p) (el_size (snd p)) spacer_size_eq) ps) else Ret []) = Ret eq /\ (forall c, In c eq -> soft vs c) /\ (2 * length eq <= (length sps - 2) * (length sps - 3))%nat).
  { destruct (Nat.leb_spec 2 (length mid)); [|exists []; split; [reflexivity|]; split; [intros c []|apply Nat.le_0_l]]. destruct (pairs_ok mid) as (ps & E & P & L); [assumption|]. rewrite E. cbn [bind]. eexists. split; [reflexivity|]. split; [|rewrite map_length, L; nia].
    intros c I. apply in_map_iff in I. destruct I as (p & <- & I). apply P in I. destruct I as [I1 I2]. apply Km in I1, I2. destruct I1. apply has_size_soft; auto; try reflexivity. now apply el_size_vars. }
  destruct Eq as (eq & E & Eq1 & Eq2). cbv zeta. rewrite E. clear E.
  assert (Em : forall a, In a sps -> soft vs (is_empty a)) by (intros a I; apply Ks in I; destruct I; now apply is_empty_soft).
  assert (Gw : forall a, In a sps -> soft vs (has_size a (el_size area) grow)) by (intros a I; apply Ks in I; destruct I; apply has_size_soft; auto; try reflexivity; now apply el_size_vars).
  assert (Cn : forall a b, In a sps -> In b sps -> soft vs (has_size a (el_size b) spacer_size_eq)) by (intros a b I J; apply Ks in I, J; destruct I; apply has_size_soft; auto; try reflexivity; now apply el_size_vars).
  destruct fl; cbn [bind]; eexists; (split; [reflexivity|]); (split; [intros c I; rewrite ?in_app_iff in I; repeat (destruct I as [I|I]); auto; revert c I; apply En; intros a b Ia Ib c I; cbn in I; repeat (destruct I as [<-|I]; [auto|]); contradiction|]).
  all: rewrite ?app_length, ?Lf, ?Lg by reflexivity. all: unfold gap_names. all: replace (length sps - 1 - 1)%nat with (length sps - 2)%nat by lia. all: replace (length sps - 1 - 2)%nat with (length sps - 3)%nat by lia.
  all: set (K := ((length sps - 2) * (length sps - 3))%nat) in *; clearbody K.
  1-3,5: match goal with |- context [length (ends ?l ?f)] => assert (length (ends l f) <= 2)%nat by (apply Le; intros; cbn; lia); lia end.
  - match goal with |- context [length (ends ?l ?f)] => assert (length (ends l f) <= 3)%nat by (apply Le; intros; cbn; lia); lia end.
  - lia.
Qed.
Lemma combine_known {A} vs (l : list A) segs p : (forall e, In e segs -> known_el vs e) -> In p (combine l segs) -> known_el vs (snd p).
Proof. intros H I. apply H. destruct p. eapply in_combine_r. exact I. Qed.
Lemma size_ok vs area segs cs fl : known_el vs area -> (forall e, In e segs -> known_el vs e) -> (forall c, In c (size_constraints area segs cs fl) -> soft vs c) /\ (2 * length (size_constraints area segs cs fl) <= fold_right (fun c m => size_names c + m) 0 cs)%nat.
Proof.
  intros Ka Ks. assert (Ka' : incl (map fst (e_terms (el_size area))) vs) by now apply el_size_vars. split.
  - intros c I. unfold size_constraints in I. apply in_flat_map in I. destruct I as ([lc e] & I & J). apply (combine_known vs) in I; [|exact Ks]. destruct I as [I1 I2]. cbn [fst snd] in *.
    destruct lc; cbn [segment_constraints] in J; repeat (destruct J as [<-|J]; [first [apply has_max_soft|apply has_min_soft|apply has_int_soft|apply has_size_soft]; auto; try reflexivity; rewrite ?map_map; cbn; try exact Ka'|]); try contradiction.
    destruct fl; destruct J as [<-|[]]; first [apply has_int_soft|apply has_size_soft]; auto; reflexivity.
  - unfold size_constraints. revert segs Ks. induction cs as [|lc cs IH]; intros [|e segs] Ks; cbn [combine flat_map length fold_right]; try lia. cbn [fst snd]. rewrite app_length. specialize (IH segs (fun e' I => Ks e' (or_intror I))).
    assert (2 * length (segment_constraints area fl lc e) <= size_names lc)%nat by (destruct lc; cbn; try lia; destruct fl; cbn; lia). lia.
Qed.
Lemma fill_ok vs segs cs fl : (forall e, In e segs -> known_el vs e) -> exists l, fill_constraints segs cs fl = Ret l /\ (forall c, In c l -> soft vs c) /\ (let k := length (filter (stretches fl) cs) in 2 * length l <= k * (k - 1))%nat.
Proof.
  intros Ks. unfold fill_constraints. set (valid := filter _ _). cbv zeta. set (k := length (filter (stretches fl) cs)). assert (Lv : (length valid <= k)%nat). { unfold valid, k. clear. revert segs. induction cs as [|c cs IH]; intros [|e segs]; cbn [combine filter length]; try lia. cbn [fst]. assert (E : fills fl c = stretches fl c) by (destruct c, fl; reflexivity). rewrite E. specialize (IH segs). destruct (stretches fl c); cbn [length]; lia. }
  destruct (Nat.ltb_spec (length valid) 2); [exists []; split; [reflexivity|]; split; [intros c []|apply Nat.le_0_l]|]. destruct (pairs_ok valid) as (ps & E & P & L); [assumption|]. rewrite E. cbn [bind]. eexists. split; [reflexivity|]. split; [|rewrite map_length, L; nia].
  intros c I. apply in_map_iff in I. destruct I as ([[lc ls] [rc rs]] & <- & I). apply P in I. cbn [fst snd] in I. destruct I as [I1 I2]. apply filter_In in I1, I2. destruct I1 as [I1 _], I2 as [I2 _]. apply (combine_known vs) in I1, I2; try exact Ks. destruct I1, I2. cbn [snd] in *.
  split; [reflexivity|]. split; [reflexivity|]. cbn. intros v [<-|[<-|[<-|[<-|[]]]]]; assumption.
Qed.
Lemma neighbours_ok vs segs : (forall e, In e segs -> known_el vs e) -> (forall c, In c (neighbours segs) -> soft vs c) /\ (length (neighbours segs) <= length segs - 1)%nat.
Proof.
  induction segs as [|a segs IH]; intros Ks; [split; [intros c []|cbn; lia]|]. destruct IH as [I1 I2]; [intros e I; apply Ks; now right|]. destruct segs as [|b segs]; [split; [intros c []|cbn; lia]|]. cbn [neighbours] in *. split; [|cbn [length] in *; lia].
  intros c [<-|I]; [|now apply I1]. destruct (Ks a (or_introl eq_refl)). apply has_size_soft; auto; try reflexivity. apply el_size_vars. apply Ks. right. now left.
Qed.
(** All constraints: those of the area, then optional ones. *)
Definition hard (lo hi : Q) (vs : list variable) : list constr :=
  let area := Element (hd 0%Z vs) (last vs 0%Z) in area_constraints area lo hi ++ in_area_constraints vs area ++ variable_constraints vs.
Lemma layout_ok l lo hi vs n : length (l_constraints l) = n -> length vs = (2 * n + 2)%nat -> exists rest, layout_constraints l lo hi vs = Ret (hard lo hi vs ++ rest) /\ (forall c, In c rest -> soft vs c) /\ (2 * length rest + (2 * n + 2) + 2 * (2 + (4 * n + 4) + n) <= names_for l)%nat.
Proof.
  intros Ln Lv. unfold layout_constraints, hard. set (area := Element _ _). set (sps := new_elements vs). set (segs := new_elements (tl vs)).
  assert (Nv : vs <> []) by (intros ->; cbn in Lv; lia).
  assert (Ka : known_el vs area). { split; cbn; [destruct vs; [congruence|now left]|now apply last_in]. }
  assert (Kp : forall e, In e sps -> known_el vs e) by (intros e I; now apply element_in). assert (Kg : forall e, In e segs -> known_el vs e). { intros e I. apply element_in in I. destruct vs as [|v vs]; [congruence|]. cbn [tl] in I. split; right; tauto. }
  assert (Lp : length sps = S n) by (unfold sps; rewrite elements_length, Lv; replace (2 * n + 2)%nat with (2 * (S n))%nat by lia; apply Nat.div2_double).
  assert (Lg : length segs = n). { unfold segs. rewrite elements_length. destruct vs as [|v vs]; [congruence|]. cbn [tl length] in *. assert (E : length vs = S (2 * n)) by lia. rewrite E. apply Nat.div2_succ_double. }
  destruct (flex_ok vs area sps (l_flex l) (match l_spacing l with SpSpace n => n | SpOverlap n => (- n)%Z | SpOther => 0%Z end) Ka Kp) as (fx & E1 & F1 & L1). rewrite E1. cbn [bind].
  destruct (fill_ok vs segs (l_constraints l) (l_flex l) Kg) as (fi & E2 & F2 & L2). rewrite E2. cbn [bind]. destruct (size_ok vs area segs (l_constraints l) (l_flex l) Ka Kg) as [F3 L3]. destruct (neighbours_ok vs segs Kg) as [F4 L4].
  set (nb := match l_flex l with FlexLegacy => [] | _ => neighbours segs end). assert (F5 : forall c, In c nb -> soft vs c) by (unfold nb; destruct (l_flex l); auto; intros c []). assert (L5 : (2 * length nb <= match l_flex l with FlexLegacy => 0 | _ => 2 * (n - 1) end)%nat) by (unfold nb; destruct (l_flex l); cbn [length]; lia).
  exists (fx ++ size_constraints area segs (l_constraints l) (l_flex l) ++ fi ++ nb). split; [now rewrite <- !app_assoc|]. split.
  - intros c I. rewrite !in_app_iff in I. destruct I as [I|[I|[I|I]]]; auto.
  - rewrite !app_length. rewrite Lp in L1. replace (S n - 1)%nat with n in L1 by lia. unfold names_for. rewrite Ln. cbv zeta in *. lia.
Qed.
Lemma hard_strength lo hi vs c : In c (hard lo hi vs) -> c_strength c = required /\ incl (map fst (e_terms (c_expr c))) (hd 0%Z vs :: last vs 0%Z :: vs).
Proof.
  unfold hard, area_constraints, in_area_constraints, variable_constraints. rewrite !in_app_iff. intros [I|[I|I]].
  - cbn in I. destruct I as [<-|[<-|[]]]; (split; [reflexivity|]); cbn; intros v [<-|[]]; [now left|right; now left].
  - apply in_flat_map in I. destruct I as (v & I & J). destruct J as [<-|[<-|[]]]; (split; [reflexivity|]); cbn; intros w [<-|[<-|[]]]; cbn; auto.
  - apply in_map_iff in I. destruct I as (e & <- & I). split; [reflexivity|]. apply element_in in I. cbn. assert (T : forall w, In w (tl vs) -> In w vs) by (destruct vs; [auto|intros w W; now right]). intros w [<-|[<-|[]]]; right; right; apply T; tauto.
Qed.
Lemma hard_length lo hi vs n : length vs = (2 * n + 2)%nat -> length (hard lo hi vs) = (5 * n + 6)%nat.
Proof.
  intros L. unfold hard, area_constraints, in_area_constraints, variable_constraints. rewrite !app_length, map_length, elements_length.
  assert (F : forall (f : variable -> list constr) l, (forall v, length (f v) = 2%nat) -> length (flat_map f l) = (2 * length l)%nat) by (intros f l Hf; induction l as [|v l IH]; [reflexivity|]; cbn [flat_map length]; rewrite app_length, Hf, IH; lia).
  rewrite F by reflexivity. destruct vs as [|v vs]; [cbn in L; lia|]. cbn [tl length] in *. assert (E : length vs = S (2 * n)) by lia. rewrite E, Nat.div2_succ_double. cbn. lia.
Qed.

(** ** Rounding *)
Lemma floor_is q z : inject_Z z <= q -> q < inject_Z (z + 1) -> Qfloor q = z.
Proof.
  intros A B. pose proof (Qfloor_le q) as F1. pose proof (Qlt_floor q) as F2. assert (inject_Z (Qfloor q) < inject_Z (z + 1)) by lra. assert (inject_Z z < inject_Z (Qfloor q + 1)) by lra. rewrite <- Zlt_Qlt in *. lia.
Qed.
Lemma round_mono p q : p <= q -> (round_q p <= round_q q)%Z.
Proof.
  intros H. unfold round_q. destruct (qltb p 0) eqn:P; destruct (qltb q 0) eqn:R.
  - assert (Qfloor (- q + (1 # 2)) <= Qfloor (- p + (1 # 2)))%Z by (apply Qfloor_resp_le; lra). lia.
  - apply qltb_ok in P. apply qltb_no in R. assert (Qfloor (inject_Z 0) <= Qfloor (- p + (1 # 2)))%Z by (apply Qfloor_resp_le; change (inject_Z 0) with 0; lra). assert (Qfloor (inject_Z 0) <= Qfloor (q + (1 # 2)))%Z by (apply Qfloor_resp_le; change (inject_Z 0) with 0; lra). rewrite Qfloor_Z in *. lia.
  - apply qltb_no in P. apply qltb_ok in R. lra.
  - apply Qfloor_resp_le. lra.
Qed.
Lemma round_eq p q : p == q -> round_q p = round_q q.
Proof. intros H. apply Z.le_antisymm; apply round_mono; lra. Qed.
Lemma round_int z : round_q (inject_Z z) = z.
Proof.
  unfold round_q. destruct (qltb (inject_Z z) 0).
  - rewrite (floor_is _ (- z)); [lia| |]; rewrite ?inject_Z_plus, inject_Z_opp; change (inject_Z 1) with 1; lra.
  - apply floor_is; rewrite ?inject_Z_plus; change (inject_Z 1) with 1; lra.
Qed.
Lemma cells_is q : to_cells q = round_q (inject_Z (round_q q) / multiplier).
Proof. unfold to_cells. apply round_eq. apply qdiv_ok. Qed.
Lemma cells_mono p q : p <= q -> (to_cells p <= to_cells q)%Z.
Proof. intros H. rewrite !cells_is. apply round_mono. apply round_mono in H. rewrite Zle_Qle in H. unfold multiplier. apply Qle_shift_div_l; [lra|]. setoid_replace (inject_Z (round_q p) / 100 * 100) with (inject_Z (round_q p)) by field. exact H. Qed.
Lemma cells_eq p q : p == q -> to_cells p = to_cells q.
Proof. intros H. apply Z.le_antisymm; apply cells_mono; lra. Qed.
Lemma cells_int z q : q == inject_Z z * multiplier -> to_cells q = z.
Proof.
  intros H. rewrite (cells_eq _ _ H). rewrite cells_is. assert (E : inject_Z z * multiplier == inject_Z (z * 100)) by (rewrite inject_Z_mult; reflexivity).
  rewrite (round_eq _ _ E), round_int. rewrite <- (round_int z) at 2. apply round_eq. rewrite inject_Z_mult. unfold multiplier. change (inject_Z 100) with 100. field.
Qed.
