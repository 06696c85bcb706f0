(** C34, C35, C38: splitting an area. *)
From Verif Require Import Base P_Base M_Geom M_Solver M_Layout S_Solver S_Layout P_Row P_Tableau P_Simplex P_System P_Step P_Noted P_Count P_Layout T_Solver.
From Coq Require Import ZArith NArith QArith Qabs Qminmax List Bool Lia Lqa Setoid Permutation.
Import ListNotations.
Open Scope Z_scope.
Section Tolerance.
Context {tolr : tolerance}.

Lemma inner_size r p : 0 <= rw (inner r p) /\ 0 <= rh (inner r p).
Proof. unfold inner. destruct (_ || _); cbn; lia. Qed.
Lemma Ret_inj {A} (a b : A) : Ret a = Ret b -> a = b. Proof. congruence. Qed.
(** The coordinates the solver is given. *)
Definition bounds (l : layout) (area : rect) : Z * Z :=
  let a := inner area (l_padding l) in match l_direction l with DirHorizontal => (rx a, rright a) | DirVertical => (ry a, rbottom a) end.
Definition problem (vs : list variable) (l : layout) (area : rect) : outcome (list constr) :=
  layout_constraints l (qmul (inject_Z (fst (bounds l area))) multiplier) (qmul (inject_Z (snd (bounds l area))) multiplier) vs.
(** The variables of a layout: different, two for each constraint and two more (C39). *)
Definition vars_ok (vs : list variable) (l : layout) : Prop := NoDup vs /\ length vs = (2 * length (l_constraints l) + 2)%nat.
(** The runs for which the solver is proved right: every number it took for zero was zero, and it made at most 255 symbols. *)
Definition regular (order : nat -> list symbol -> list symbol) (fuel : nat) (vs : list variable) (l : layout) (area : rect) : Prop :=
  forall cs s, problem vs l area = Ret cs -> (add_constraints order fuel new_solver cs = Done s \/ exists e, add_constraints order fuel new_solver cs = Fail e s) -> exact s = true /\ (s_tick s <= 256)%N.

Lemma bounds_le l area : fst (bounds l area) <= snd (bounds l area).
Proof. unfold bounds. pose proof (inner_size area (l_padding l)). destruct (l_direction l); cbn; unfold rright, rbottom; lia. Qed.
Lemma problem_ok vs l area : vars_ok vs l -> exists rest, problem vs l area = Ret (hard (qmul (inject_Z (fst (bounds l area))) multiplier) (qmul (inject_Z (snd (bounds l area))) multiplier) vs ++ rest) /\ (forall c, In c rest -> soft vs c) /\
  let n := length (l_constraints l) in (2 * length rest + (2 * n + 2) + 2 * (2 + (4 * n + 4) + n) <= names_for l)%nat.
Proof. intros [_ Lv]. apply layout_ok; [reflexivity|exact Lv]. Qed.
Lemma problem_strengths vs l area cs : vars_ok vs l -> problem vs l area = Ret cs -> forall c, In c cs -> (0 <= c_strength c)%Q.
Proof.
  intros V E c I. destruct (problem_ok vs l area V) as (rest & E' & Sf & _). rewrite E' in E. apply Ret_inj in E. subst cs. apply in_app_iff in I. destruct I as [I|I]; [apply hard_strength in I; destruct I as [-> _]; discriminate|]. apply Sf in I. destruct I as [I _]. now apply Qlt_le_weak.
Qed.

(** *** What the required constraints say *)
Lemma eval_const e k x : (eval (e_sub_const e k) x == eval e x - k)%Q.
Proof. unfold eval, e_sub_const. cbn [e_const e_terms]. rewrite qadd_ok, qopp_ok. ring. Qed.
Lemma eval_var v x : (eval (e_var v) x == x v)%Q.
Proof. unfold eval. cbn. ring. Qed.
Lemma eval_sub_var v w x : (eval (e_sub_var (e_var v) w) x == x v - x w)%Q.
Proof. unfold eval. cbn. ring. Qed.
Lemma hard_sat lo hi vs x : (forall c, In c (hard lo hi vs) -> satisfies x c) <->
  (x (hd 0%Z vs) == lo /\ x (last vs 0%Z) == hi /\ (forall v, In v vs -> x (hd 0%Z vs) <= x v /\ x v <= x (last vs 0%Z)) /\ forall e, In e (new_elements (tl vs)) -> x (el_start e) <= x (el_end e))%Q.
Proof.
  unfold hard. set (a := Element (hd 0%Z vs) (last vs 0%Z)). split.
  - intros H. repeat split.
    + specialize (H (rel_const REq required (e_var (el_start a)) lo)). unfold satisfies in H. cbn [c_op c_expr rel_const] in H. rewrite eval_const, eval_var in H. cbn [el_start a] in H. assert (x (hd 0%Z vs) - lo == 0)%Q by (apply H; apply in_app_iff; left; now left). lra.
    + specialize (H (rel_const REq required (e_var (el_end a)) hi)). unfold satisfies in H. cbn [c_op c_expr rel_const] in H. rewrite eval_const, eval_var in H. cbn [el_end a] in H. assert (x (last vs 0%Z) - hi == 0)%Q by (apply H; apply in_app_iff; left; right; now left). lra.
    + specialize (H (rel_var RGe required (e_var v) (el_start a))). unfold satisfies in H. cbn [c_op c_expr rel_var] in H. rewrite eval_sub_var in H. cbn [el_start a] in H. assert (0 <= x v - x (hd 0%Z vs))%Q by (apply H; rewrite !in_app_iff; right; left; apply in_flat_map; exists v; split; [assumption|now left]). lra.
    + specialize (H (rel_var RLe required (e_var v) (el_end a))). unfold satisfies in H. cbn [c_op c_expr rel_var] in H. rewrite eval_sub_var in H. cbn [el_end a] in H. assert (x v - x (last vs 0%Z) <= 0)%Q by (apply H; rewrite !in_app_iff; right; left; apply in_flat_map; exists v; split; [assumption|right; now left]). lra.
    + intros e I. specialize (H (rel_var RLe required (e_var (el_start e)) (el_end e))). unfold satisfies in H. cbn [c_op c_expr rel_var] in H. rewrite eval_sub_var in H. assert (x (el_start e) - x (el_end e) <= 0)%Q by (apply H; rewrite !in_app_iff; right; right; unfold variable_constraints; apply in_map_iff; exists e; auto). lra.
  - intros (H1 & H2 & H3 & H4) c I. rewrite !in_app_iff in I. destruct I as [I|[I|I]].
    + cbn in I. destruct I as [<-|[<-|[]]]; unfold satisfies; cbn [c_op c_expr rel_const]; rewrite eval_const, eval_var; cbn [el_start el_end a]; lra.
    + apply in_flat_map in I. destruct I as (v & I & J). apply H3 in I. destruct J as [<-|[<-|[]]]; unfold satisfies; cbn [c_op c_expr rel_var]; rewrite eval_sub_var; cbn [el_start el_end a]; lra.
    + apply in_map_iff in I. destruct I as (e & <- & I). apply H4 in I. unfold satisfies. cbn [c_op c_expr rel_var]. rewrite eval_sub_var. lra.
Qed.
Lemma last_nth {A} (l : list A) d n : length l = S n -> nth_error l n = Some (last l d).
Proof. revert n. induction l as [|a l IH]; intros n E; [discriminate|]. injection E as E. destruct l as [|b l]; [cbn in E; subst n; reflexivity|]. destruct n as [|n]; [discriminate|]. cbn [nth_error]. rewrite (IH n E). reflexivity. Qed.

(** Everything at the lower end except the end of the area. *)
Lemma problem_feasible vs l area cs : vars_ok vs l -> problem vs l area = Ret cs -> exists x, feasible cs x.
Proof.
  intros V E. destruct (problem_ok vs l area V) as (rest & E' & Sf & _). rewrite E' in E. apply Ret_inj in E. subst cs. pose proof (bounds_le l area) as B. set (lo := fst (bounds l area)) in *. set (hi := snd (bounds l area)) in *. clearbody lo hi. clear E'.
  destruct V as [Nd Lv]. set (n := length (l_constraints l)) in *. clearbody n.
  exists (fun v => if v =? last vs 0 then qmul (inject_Z hi) multiplier else qmul (inject_Z lo) multiplier). set (x := fun v => _).
  assert (Hle : (qmul (inject_Z lo) multiplier <= qmul (inject_Z hi) multiplier)%Q) by (rewrite !qmul_ok; apply Qmult_le_compat_r; [now rewrite <- Zle_Qle|unfold multiplier; lra]).
  assert (Nl : nth_error vs (2 * n + 1) = Some (last vs 0%Z)) by (apply last_nth; lia).
  assert (Ne : forall k, (k < 2 * n + 1)%nat -> forall v, nth_error vs k = Some v -> v <> last vs 0%Z). { intros k Hk v Hv Z. rewrite NoDup_nth_error in Nd. specialize (Nd k (2 * n + 1)%nat ltac:(lia)). rewrite Hv, Nl, Z in Nd. specialize (Nd eq_refl). lia. }
  assert (Xl : (x (last vs 0%Z) == qmul (inject_Z hi) multiplier)%Q) by (unfold x; rewrite Z.eqb_refl; reflexivity).
  assert (Xo : forall v, v <> last vs 0 -> (x v == qmul (inject_Z lo) multiplier)%Q) by (intros v Hv; unfold x; apply Z.eqb_neq in Hv; rewrite Hv; reflexivity).
  assert (Hh : forall c, In c (hard (qmul (inject_Z lo) multiplier) (qmul (inject_Z hi) multiplier) vs) -> satisfies x c).
  { apply hard_sat. assert (X0 : (x (hd 0%Z vs) == qmul (inject_Z lo) multiplier)%Q) by (apply Xo; apply (Ne 0%nat); [lia|]; destruct vs; [cbn in Lv; lia|reflexivity]). split; [exact X0|]. split; [exact Xl|]. split.
    - intros v I. rewrite X0, Xl. destruct (Z.eq_dec v (last vs 0%Z)) as [->|Z]; [rewrite Xl; split; [exact Hle|apply Qle_refl]|rewrite (Xo v Z); split; [apply Qle_refl|exact Hle]].
    - intros e I. apply In_nth_error in I. destruct I as (k & I). assert (Lk : (k < n)%nat). { assert (Q : nth_error (new_elements (tl vs)) k <> None) by congruence. apply nth_error_Some in Q. rewrite elements_length in Q. destruct vs as [|v0 vs]; [cbn in Lv; lia|]. cbn [tl length] in *. assert (Q2 : length vs = (S (2 * n))%nat) by lia. rewrite Q2, Nat.div2_succ_double in Q. exact Q. }
      apply elements_nth in I. destruct I as [I1 I2]. assert (T : forall j, nth_error (tl vs) j = nth_error vs (S j)) by (intros j; destruct vs; [cbn in Lv; lia|reflexivity]). rewrite T in I1, I2.
      rewrite (Xo (el_start e)), (Xo (el_end e)); [apply Qle_refl|apply (Ne (S (2 * k + 1))); [lia|exact I2]|apply (Ne (S (2 * k))); [lia|exact I1]]. }
  intros c I M. apply in_app_iff in I. destruct I as [I|I]; [now apply Hh|]. apply Sf in I. destruct I as (_ & I & _). unfold mandatory in M. lra.
Qed.

(** ** C35: splitting does not panic, in regular runs. (It may not end: the fuel may run out.) *)
Theorem C35_no_panic_partial order fuel vs l area : any_order order -> vars_ok vs l -> regular order fuel vs l area -> M_Layout.split order fuel vs l area <> SplitPanics.
Proof.
  intros Oo V R. unfold M_Layout.split. destruct (problem_ok vs l area V) as (rest & E & _). pose proof (problem_strengths vs l area _ V E) as St. pose proof (problem_feasible vs l area _ V E) as F. unfold problem in E.
  assert (Eb : (match l_direction l with DirHorizontal => (rx (inner area (l_padding l)), rright (inner area (l_padding l))) | DirVertical => (ry (inner area (l_padding l)), rbottom (inner area (l_padding l))) end) = bounds l area) by reflexivity.
  cbv zeta. rewrite Eb. destruct (bounds l area) as [lo hi] eqn:B. cbn [fst snd] in *. rewrite E. match type of E with _ = Ret ?L => set (cs := L) in * end.
  destruct (add_constraints order fuel new_solver cs) as [s|e s|] eqn:A; [discriminate| |discriminate]. intros _. destruct (R cs s) as [X T]; [unfold problem; rewrite B; exact E|right; eauto|]. exact (C36_failure_partial order fuel cs e s Oo St A X T F).
Qed.

(** ** C34: the segments and spacers. *)
Lemma split_values order fuel vs l area segs sps : any_order order -> vars_ok vs l -> regular order fuel vs l area -> M_Layout.split order fuel vs l area = Splits segs sps ->
  exists f : variable -> Z, f (hd 0%Z vs) = fst (bounds l area) /\ f (last vs 0%Z) = snd (bounds l area) /\ (forall v, In v vs -> fst (bounds l area) <= f v <= snd (bounds l area)) /\ (forall e, In e (new_elements (tl vs)) -> f (el_start e) <= f (el_end e)) /\
    let rect_of e := match l_direction l with DirHorizontal => Rect (f (el_start e)) (ry (inner area (l_padding l))) (Z.max 0 (f (el_end e) - f (el_start e))) (rh (inner area (l_padding l))) | DirVertical => Rect (rx (inner area (l_padding l))) (f (el_start e)) (rw (inner area (l_padding l))) (Z.max 0 (f (el_end e) - f (el_start e))) end in
    segs = map rect_of (new_elements (tl vs)) /\ sps = map rect_of (new_elements vs).
Proof.
  intros Oo V R. unfold M_Layout.split. destruct (problem_ok vs l area V) as (rest & E & _). pose proof (problem_strengths vs l area _ V E) as St. pose proof E as Ep. unfold problem in E.
  assert (Eb : (match l_direction l with DirHorizontal => (rx (inner area (l_padding l)), rright (inner area (l_padding l))) | DirVertical => (ry (inner area (l_padding l)), rbottom (inner area (l_padding l))) end) = bounds l area) by reflexivity.
  cbv zeta. rewrite Eb. clear Eb. set (lo := fst (bounds l area)) in *. set (hi := snd (bounds l area)) in *. replace (bounds l area) with (lo, hi) by (unfold lo, hi; now destruct (bounds l area)). rewrite E. match type of E with _ = Ret ?L => set (cs := L) in * end.
  destruct (add_constraints order fuel new_solver cs) as [s|e s|] eqn:A; try discriminate. intros Q. injection Q as <- <-. destruct (R cs s Ep) as [X T]; [now left|].
  destruct (C36_optimal_partial order fuel cs s Oo St A X T) as [F _].
  assert (H : forall c, In c (hard (qmul (inject_Z lo) multiplier) (qmul (inject_Z hi) multiplier) vs) -> satisfies (get_value s) c). { intros c I. apply F; [apply in_app_iff; now left|]. apply hard_strength in I. destruct I as [I _]. unfold mandatory. rewrite I. apply Qle_refl. }
  apply hard_sat in H. destruct H as (H1 & H2 & H3 & H4). assert (Ch : forall v, (change_of v (fetch_changes s) == get_value s v)%Q) by (intros v; apply (C37_read_partial order fuel cs s v Oo A T)).
  exists (fun v => to_cells (change_of v (fetch_changes s))). assert (Elo : to_cells (get_value s (hd 0%Z vs)) = lo) by (apply cells_int; rewrite H1, qmul_ok; reflexivity). assert (Ehi : to_cells (get_value s (last vs 0%Z)) = hi) by (apply cells_int; rewrite H2, qmul_ok; reflexivity).
  assert (Ec : forall v, to_cells (change_of v (fetch_changes s)) = to_cells (get_value s v)) by (intros v; apply cells_eq; apply Ch). split; [now rewrite Ec|]. split; [now rewrite Ec|]. split; [|split; [|split; reflexivity]].
  - intros v I. rewrite Ec. rewrite <- Elo, <- Ehi. split; apply cells_mono; now apply H3.
  - intros e I. rewrite !Ec. apply cells_mono. now apply H4.
Qed.
Theorem C34_pieces_partial order fuel vs l area segs sps : any_order order -> vars_ok vs l -> regular order fuel vs l area -> M_Layout.split order fuel vs l area = Splits segs sps ->
  let a := inner area (l_padding l) in let d := l_direction l in
  length segs = length (l_constraints l) /\ length sps = S (length segs) /\
  (forall r, In r segs -> piece d a r) /\ (forall r, In r sps -> piece d a r) /\
  (* every segment ends where the next spacer starts *)
  (forall k seg sp, nth_error segs k = Some seg -> nth_error sps (S k) = Some sp -> low d sp = high d seg) /\
  (* every spacer ends where the next segment starts, unless the segments overlap, when it is empty *)
  (forall k seg sp, nth_error segs k = Some seg -> nth_error sps k = Some sp -> high d sp = Z.max (low d sp) (low d seg)) /\
  (* the first spacer starts and the last one ends with the area *)
  (forall sp, nth_error sps 0 = Some sp -> low d sp = low d a) /\ (forall sp, nth_error sps (length segs) = Some sp -> high d sp = high d a).
Proof.
  intros Oo V R E. destruct (split_values order fuel vs l area segs sps Oo V R E) as (f & F1 & F2 & F3 & F4 & F5 & F6). destruct V as [_ Lv]. cbv zeta. set (a := inner area (l_padding l)) in *. set (n := length (l_constraints l)) in *.
  set (ro := fun e => _) in F5, F6. set (d := l_direction l) in *.
  assert (La : low d a = fst (bounds l area) /\ high d a = snd (bounds l area)) by (unfold d, bounds, a; destruct (l_direction l); split; reflexivity). destruct La as [La Ha].
  assert (Ro : forall e, low d (ro e) = f (el_start e) /\ high d (ro e) = f (el_start e) + Z.max 0 (f (el_end e) - f (el_start e)) /\ across d (ro e) = across d a) by (intros e; unfold ro, d; destruct (l_direction l); cbn; repeat split).
  clearbody ro d a. clear E R Oo. rewrite <- La, <- Ha in *. clear La Ha.
  assert (Lg : length (new_elements (tl vs)) = n). { rewrite elements_length. destruct vs as [|v vs]; [cbn in Lv; lia|]. cbn [tl length] in *. assert (Q : length vs = S (2 * n)) by lia. rewrite Q. apply Nat.div2_succ_double. }
  assert (Lp : length (new_elements vs) = S n) by (rewrite elements_length, Lv; replace (2 * n + 2)%nat with (2 * (S n))%nat by lia; apply Nat.div2_double).
  assert (Tl : forall j, nth_error (tl vs) j = nth_error vs (S j)) by (intros j; destruct vs; [cbn in Lv; lia|reflexivity]).
  assert (Sg : forall k r, nth_error segs k = Some r -> exists e, r = ro e /\ nth_error vs (S (2 * k)) = Some (el_start e) /\ nth_error vs (S (S (2 * k))) = Some (el_end e) /\ f (el_start e) <= f (el_end e)).
  { intros k r Q. rewrite F5, nth_error_map in Q. destruct (nth_error (new_elements (tl vs)) k) as [e|] eqn:N; [|discriminate]. injection Q as <-. exists e. split; [reflexivity|]. pose proof (F4 e (nth_error_In _ _ N)) as Fe. apply elements_nth in N. rewrite !Tl in N. replace (S (2 * k + 1)) with (S (S (2 * k))) in N by lia. tauto. }
  assert (Sp : forall k r, nth_error sps k = Some r -> exists e, r = ro e /\ nth_error vs (2 * k) = Some (el_start e) /\ nth_error vs (S (2 * k)) = Some (el_end e)).
  { intros k r Q. rewrite F6, nth_error_map in Q. destruct (nth_error (new_elements vs) k) as [e|] eqn:N; [|discriminate]. injection Q as <-. exists e. split; [reflexivity|]. apply elements_nth in N. now replace (2 * k + 1)%nat with (S (2 * k)) in N by lia. }
  assert (Lseg : length segs = n) by (rewrite F5, map_length; exact Lg). assert (Lsp : length sps = S n) by (rewrite F6, map_length; exact Lp).
  assert (Pc : forall e, In (el_start e) vs -> In (el_end e) vs -> piece d a (ro e)). { intros e I1 I2. apply F3 in I1, I2. destruct (Ro e) as (R1 & R2 & R3). unfold piece. rewrite R1, R2, R3. repeat split; lia. }
  split; [exact Lseg|]. split; [lia|]. split; [|split; [|split; [|split; [|split]]]].
  - intros r I. apply In_nth_error in I. destruct I as (k & I). apply Sg in I. destruct I as (e & -> & I1 & I2 & _). apply Pc; eapply nth_error_In; eassumption.
  - intros r I. apply In_nth_error in I. destruct I as (k & I). apply Sp in I. destruct I as (e & -> & I1 & I2). apply Pc; eapply nth_error_In; eassumption.
  - intros k seg sp I J. apply Sg in I. apply Sp in J. destruct I as (e & -> & I1 & I2 & I3). destruct J as (e' & -> & J1 & J2). replace (2 * S k)%nat with (S (S (2 * k))) in J1 by lia. rewrite I2 in J1. injection J1 as J1.
    destruct (Ro e) as (R1 & R2 & _), (Ro e') as (R3 & _ & _). rewrite R3, R2, <- J1. lia.
  - intros k seg sp I J. apply Sg in I. apply Sp in J. destruct I as (e & -> & I1 & I2 & _). destruct J as (e' & -> & J1 & J2). rewrite I1 in J2. injection J2 as J2. destruct (Ro e) as (R1 & _ & _), (Ro e') as (R3 & R4 & _). rewrite R1, R3, R4, J2. lia.
  - intros sp J. apply Sp in J. destruct J as (e & -> & J1 & _). destruct (Ro e) as (R1 & _). rewrite R1. destruct vs as [|v vs]; [discriminate|]. cbn in J1. injection J1 as <-. exact F1.
  - intros sp J. rewrite Lseg in J. apply Sp in J. destruct J as (e & -> & J1 & J2). destruct (Ro e) as (R1 & R2 & _). rewrite R2. rewrite (last_nth vs 0 (S (2 * n))) in J2 by lia. injection J2 as J2. rewrite <- J2, F2. apply nth_error_In in J1. apply F3 in J1. lia.
Qed.

(** *** Runs can be checked *)
Definition regular_run (order : nat -> list symbol -> list symbol) (fuel : nat) (vs : list variable) (l : layout) (area : rect) : bool :=
  match problem vs l area with
  | Ret cs => match add_constraints order fuel new_solver cs with Done s | Fail _ s => exact s && (s_tick s <=? 256)%N | NoFuel => true end
  | Panic => true
  end.
Lemma regular_run_ok order fuel vs l area : regular_run order fuel vs l area = true -> regular order fuel vs l area.
Proof.
  unfold regular_run. intros H cs s E A. rewrite E in H. destruct A as [A|[e A]]; rewrite A in H; apply andb_prop in H; destruct H as [H1 H2]; apply N.leb_le in H2; auto.
Qed.
Lemma vars_for_ok l : vars_ok (vars_for (l_constraints l)) l.
Proof. split; unfold vars_for; [apply FinFun.Injective_map_NoDup; [intros x y; lia|apply seq_NoDup]|]. rewrite map_length, seq_length. lia. Qed.

(** The names that a layout can need *)
Lemma few_needed vs l area cs : vars_ok vs l -> few_names l -> problem vs l area = Ret cs -> (length (variables cs) + 2 * length cs <= 254)%nat.
Proof.
  intros V N E. unfold few_names in N. destruct (problem_ok vs l area V) as (rest & E' & Sf & Lr). rewrite E' in E. apply Ret_inj in E. subst cs. cbv zeta in Lr. destruct V as [_ Lv].
  set (lo := qmul _ _) in *. set (hi := qmul (inject_Z (snd _)) _) in *. clearbody lo hi. set (n := length (l_constraints l)) in *. clearbody n.
  assert (Vs : (length (variables (hard lo hi vs ++ rest)) <= 2 * n + 2)%nat).
  { rewrite <- Lv. apply NoDup_incl_length; [apply NoDup_nodup|]. intros v I. unfold variables in I. apply nodup_In in I. apply in_flat_map in I. destruct I as (c & I & J). apply in_app_iff in I. assert (Nv : vs <> []) by (intros ->; cbn in Lv; lia). destruct I as [I|I].
    - apply hard_strength in I. destruct I as [_ I]. apply I in J. destruct J as [<-|[<-|J]]; [destruct vs; [congruence|now left]|now apply last_in|exact J].
    - apply Sf in I. destruct I as (_ & _ & I). now apply I. }
  rewrite app_length, (hard_length lo hi vs n Lv). lia.
Qed.
Lemma sizes_four cs : (fold_right (fun c m => size_names c + m) 0 cs <= 4 * length cs)%nat.
Proof. induction cs as [|c cs IH]; [reflexivity|]. cbn [fold_right length]. assert (size_names c <= 4)%nat by (destruct c; cbn; lia). lia. Qed.
Lemma stretches_len fl cs : (length (filter (stretches fl) cs) <= length cs)%nat.
Proof. induction cs as [|c cs IH]; [reflexivity|]. cbn [filter length]. destruct (stretches fl c); cbn [length]; lia. Qed.
(** *** C38: seven constraints of any kind need few names; so do thirteen in a layout as New makes it, if at most one is a Fill, and fourteen if
    there are no limits either; and nine lengths, percentages or ratios however the space is shared out. *)
Definition a_size (c : lconstraint) : Prop := match c with LLen _ | LPercentage _ | LRatio _ _ => True | _ => False end.
Theorem C38_counts l : let n := length (l_constraints l) in let fills := length (filter (stretches (l_flex l)) (l_constraints l)) in
  (n <= 7)%nat \/ (l_flex l = FlexLegacy /\ (fills <= 1)%nat /\ (n <= 13)%nat) \/ (l_flex l = FlexLegacy /\ (forall c, In c (l_constraints l) -> a_size c) /\ (n <= 14)%nat) \/ ((forall c, In c (l_constraints l) -> a_size c) /\ (n <= 9)%nat) ->
  few_names l.
Proof.
  cbv zeta. intros H. unfold few_names, names_for. cbv zeta. pose proof (sizes_four (l_constraints l)) as S4. pose proof (stretches_len (l_flex l) (l_constraints l)) as Sk.
  assert (S2 : (forall c, In c (l_constraints l) -> a_size c) -> (fold_right (fun c m => size_names c + m) 0 (l_constraints l) <= 2 * length (l_constraints l))%nat /\ length (filter (stretches (l_flex l)) (l_constraints l)) = 0%nat).
  { clear. generalize (l_flex l). intros fl. induction (l_constraints l) as [|c cs IH]; intros A; [split; reflexivity|]. cbn [fold_right length filter]. destruct (IH (fun c' I => A c' (or_intror I))) as [I1 I2]. specialize (A c (or_introl eq_refl)). destruct c; try contradiction; cbn [size_names]; destruct fl; cbn [stretches]; (split; [lia|exact I2]). }
  set (sz := fold_right _ _ _) in *. set (k := length (filter _ _)) in *. set (n := length (l_constraints l)) in *. clearbody sz k n.
  destruct H as [H|[(F & H1 & H)|[(F & H1 & H)|(H1 & H)]]].
  - assert (k * (k - 1) <= n * (n - 1))%nat by nia. do 8 (destruct n as [|n]; [destruct (l_flex l); cbn [gap_names Nat.sub]; lia|]). lia.
  - rewrite F. cbn [gap_names]. assert (k * (k - 1) = 0)%nat by (destruct k as [|[|k]]; [reflexivity|reflexivity|lia]). lia.
  - rewrite F. cbn [gap_names]. destruct (S2 H1) as [Z1 Z2]. rewrite Z2. lia.
  - destruct (S2 H1) as [Z1 Z2]. rewrite Z2. do 10 (destruct n as [|n]; [destruct (l_flex l); cbn [gap_names Nat.sub]; lia|]). lia.
Qed.
(** ** C38: a layout that needs few names is solved with names enough for all the solver's quantities, in any area and whatever the order. *)
Theorem C38_few_partial order fuel vs l area cs s : any_order order -> vars_ok vs l -> few_names l -> problem vs l area = Ret cs ->
  add_constraints order fuel new_solver cs = Done s \/ (exists e, add_constraints order fuel new_solver cs = Fail e s) -> (s_tick s <= 256)%N.
Proof. intros Oo V N E A. apply (small_ticks order fuel cs s Oo); [|exact A]. rewrite symbols_two. pose proof (few_needed vs l area cs V N E). lia. Qed.
Lemma split_done order fuel vs l area cs s : problem vs l area = Ret cs -> add_constraints order fuel new_solver cs = Done s ->
  M_Layout.split order fuel vs l area = Splits (changes_to_rects (fetch_changes s) (new_elements (tl vs)) (inner area (l_padding l)) (l_direction l)) (changes_to_rects (fetch_changes s) (new_elements vs) (inner area (l_padding l)) (l_direction l)).
Proof.
  unfold problem, M_Layout.split, bounds. intros E A. cbv zeta in *. destruct (l_direction l); cbn [fst snd] in E; rewrite E, A; reflexivity.
Qed.
End Tolerance.
#[local] Existing Instance code_tolerance.

Definition mixed : layout := Layout DirHorizontal [LLen 3; LMin 2; LPercentage 30; LFill 1; LMax 4; LRatio 1 3] (Padding 0 1 0 1) FlexStart (SpSpace 1).
Example C34_instance : regular keep_order 1000 (vars_for (l_constraints mixed)) mixed (Rect 2 1 40 5) /\ regular (fun _ l => rev l) 1000 (vars_for (l_constraints mixed)) mixed (Rect 2 1 40 5) /\
  exists sps, M_Layout.split keep_order 1000 (vars_for (l_constraints mixed)) mixed (Rect 2 1 40 5) = Splits [Rect 3 1 3 5; Rect 7 1 2 5; Rect 10 1 11 5; Rect 22 1 0 5; Rect 23 1 4 5; Rect 28 1 13 5] sps.
Proof. split; [apply regular_run_ok; vm_compute; reflexivity|]. split; [apply regular_run_ok; vm_compute; reflexivity|]. eexists. vm_compute. reflexivity. Qed.
(** With an overlap the spacer between two segments does not reach the second one. *)
Definition overlapping : layout := Layout DirHorizontal [LLen 3; LLen 4] (Padding 0 0 0 0) FlexLegacy (SpOverlap 1).
Theorem C34_edges_refuted : exists segs sps seg sp, M_Layout.split keep_order 1000 (vars_for (l_constraints overlapping)) overlapping (Rect 0 0 6 1) = Splits segs sps /\
  nth_error segs 1 = Some seg /\ nth_error sps 1 = Some sp /\ high DirHorizontal sp <> low DirHorizontal seg.
Proof. do 4 eexists. split; [vm_compute; reflexivity|]. split; [reflexivity|]. split; [reflexivity|]. discriminate. Qed.

(** Thirty-three rows of height three, in an area of height ninety-nine, are given no height. Nothing was rounded to zero: two of the
    solver's quantities had the same name. *)
Definition many : layout := new_layout (repeat (LLen 3) 33).
Definition many_area : rect := Rect 0 0 10 99.
Definition many_vars : list variable := vars_for (l_constraints many).
(** Each row at its place. *)
Definition many_fit (v : variable) : Q := qmul (inject_Z (3 * (v / 2))) multiplier.
Definition collapses (vs : list variable) (l : layout) (area : rect) (x : variable -> Q) : bool :=
  match problem vs l area with
  | Ret cs =>
      match add_constraints keep_order 1000 new_solver cs with
      | Done s => exact s && Qeq_bool (penalty cs x) 0 && qltb 0 (penalty cs (get_value s)) &&
          forallb (fun c => match c_op c with REq => Qeq_bool (eval (c_expr c) x) 0 | RLe => Qle_bool (eval (c_expr c) x) 0 | RGe => Qle_bool 0 (eval (c_expr c) x) end) cs &&
          forallb (fun r => (rh r =? 0)%Z) (firstn 5 (changes_to_rects (fetch_changes s) (new_elements (tl vs)) (inner area (l_padding l)) (l_direction l)))
      | _ => false
      end
  | Panic => false
  end.
Lemma collapses_ok vs l area x : collapses vs l area x = true -> exists cs s, problem vs l area = Ret cs /\ add_constraints keep_order 1000 new_solver cs = Done s /\ exact s = true /\
  (forall c, In c cs -> satisfies x c) /\ (penalty cs x < penalty cs (get_value s))%Q /\
  exists segs sps, M_Layout.split keep_order 1000 vs l area = Splits segs sps /\ forall r, In r (firstn 5 segs) -> rh r = 0.
Proof.
  unfold collapses. intros H. destruct (problem vs l area) as [cs|] eqn:E; [|discriminate]. destruct (add_constraints keep_order 1000 new_solver cs) as [s|e s|] eqn:A; try discriminate.
  rewrite !andb_true_iff in H. destruct H as ((((H1 & H3) & H4) & H5) & H6). exists cs, s. split; [reflexivity|]. split; [exact A|]. split; [exact H1|]. split; [|split].
  - intros c I. rewrite forallb_forall in H5. apply H5 in I. unfold satisfies. destruct (c_op c); [now apply Qle_bool_iff|now apply Qeq_bool_iff|now apply Qle_bool_iff].
  - apply Qeq_bool_iff in H3. apply qltb_ok in H4. rewrite H3. exact H4.
  - rewrite (split_done keep_order 1000 vs l area cs s E A). do 2 eexists. split; [reflexivity|].
    intros r I. rewrite forallb_forall in H6. apply H6 in I. now apply Z.eqb_eq.
Qed.
Lemma many_collapses : collapses many_vars many many_area many_fit = true.
Proof. vm_compute. reflexivity. Qed.
Theorem C38_names_refuted : exists cs s, problem many_vars many many_area = Ret cs /\ add_constraints keep_order 1000 new_solver cs = Done s /\ exact s = true /\
  (forall c, In c cs -> satisfies many_fit c) /\ (penalty cs many_fit < penalty cs (get_value s))%Q /\
  exists segs sps, M_Layout.split keep_order 1000 many_vars many many_area = Splits segs sps /\ forall r, In r (firstn 5 segs) -> rh r = 0.
Proof. exact (collapses_ok many_vars many many_area many_fit many_collapses). Qed.

Print Assumptions C34_pieces_partial.
Print Assumptions C34_edges_refuted.
Print Assumptions C35_no_panic_partial.
Print Assumptions C38_few_partial.
Print Assumptions C38_counts.
Print Assumptions C38_names_refuted.
