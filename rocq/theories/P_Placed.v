(** From the solver's values to the rectangles of a layout with room for every segment. *)
From Verif Require Import Base P_Base M_Geom M_Combin M_Solver M_Layout S_Solver S_Layout S_Place P_Row P_System P_Step P_Noted P_Layout P_Sum P_Place T_Solver T_Layout.
From Coq Require Import ZArith NArith QArith Qround Qabs Qminmax List Bool Lia Lqa Setoid Permutation.
Import ListNotations.
Open Scope Q_scope.
Section Tolerance.
Context {tolr : tolerance}.

Lemma inject_minus a b : inject_Z (a - b) == inject_Z a - inject_Z b.
Proof. unfold Z.sub. rewrite inject_Z_plus, inject_Z_opp. reflexivity. Qed.
(** Different variables can have any values. *)
Lemma assign (z : nat -> Q) (vs : list variable) : NoDup vs -> exists y : variable -> Q, forall j, (j < length vs)%nat -> y (nth j vs 0%Z) = z j.
Proof.
  revert z. induction vs as [|v vs IH]; intros z Nd; [exists (fun _ => 0); intros j H; cbn in H; lia|]. inversion_clear Nd as [|? ? Ni Nd']. destruct (IH (fun j => z (S j)) Nd') as (y & H). exists (fun w => if Z.eqb w v then z 0%nat else y w). intros j Hj. destruct j as [|j]; cbn [nth]; [now rewrite Z.eqb_refl|].
  cbn in Hj. destruct (Z.eqb_spec (nth j vs 0%Z) v) as [E|E]; [|apply H; lia]. elim Ni. rewrite <- E. apply nth_In. lia.
Qed.

(** The values behind a split. *)
Definition edges (d : direction) (a : rect) (x : variable -> Q) (e : element) : rect :=
  let lo := to_cells (x (el_start e)) in let hi := to_cells (x (el_end e)) in
  match d with DirHorizontal => Rect lo (ry a) (Z.max 0 (hi - lo)) (rh a) | DirVertical => Rect (rx a) lo (rw a) (Z.max 0 (hi - lo)) end.
Lemma split_solution order fuel vs l area segs sps : any_order order -> vars_ok vs l -> regular order fuel vs l area -> M_Layout.split order fuel vs l area = Splits segs sps ->
  exists cs x, problem vs l area = Ret cs /\ feasible cs x /\ (forall z, feasible cs z -> penalty cs x <= penalty cs z) /\
    segs = map (edges (l_direction l) (inner area (l_padding l)) x) (new_elements (tl vs)) /\ sps = map (edges (l_direction l) (inner area (l_padding l)) x) (new_elements vs).
Proof.
  intros Oo V R. unfold M_Layout.split. destruct (problem_ok vs l area V) as (rest & E & _). pose proof (problem_strengths vs l area _ V E) as St. pose proof E as Ep. unfold problem in E.
  assert (Eb : (match l_direction l with DirHorizontal => (rx (inner area (l_padding l)), rright (inner area (l_padding l))) | DirVertical => (ry (inner area (l_padding l)), rbottom (inner area (l_padding l))) end) = bounds l area) by reflexivity.
  cbv zeta. rewrite Eb. clear Eb. destruct (bounds l area) as [lo hi] eqn:B. cbn [fst snd] in *. rewrite E. match type of E with _ = Ret ?L => set (cs := L) in * end.
  destruct (add_constraints order fuel new_solver cs) as [s|e s|] eqn:A; try discriminate. intros Q. injection Q as <- <-. destruct (R cs s Ep) as [X T]; [now left|].
  destruct (C36_optimal_partial order fuel cs s Oo St A X T) as [F O]. exists cs, (get_value s). split; [exact Ep|]. split; [exact F|]. split; [exact O|].
  assert (Ch : forall v, to_cells (change_of v (fetch_changes s)) = to_cells (get_value s v)) by (intros v; apply cells_eq; apply (C37_read_partial order fuel cs s v Oo A T)).
  unfold changes_to_rects, edges. split; apply map_ext; intros e; rewrite !Ch; reflexivity.
Qed.

Section Placed.
Variables (vs : list variable) (l : layout) (area : rect) (cs : list constr) (x : variable -> Q).
Hypotheses (V : vars_ok vs l) (Ep : problem vs l area = Ret cs) (Fe : feasible cs x) (Op : forall z, feasible cs z -> penalty cs x <= penalty cs z).
Let lo := fst (bounds l area).
Let total := (snd (bounds l area) - fst (bounds l area))%Z.
Let space := cells_between l.
Let ds := map (demand_of (l_flex l) total) (l_constraints l).
Let n := length (l_constraints l).
Hypothesis Fit : fits (l_flex l) total space ds.
Let off := offset (l_flex l) total space ds.
Let d0 := nth_error ds.
Let sh i := share total space ds (dem (l_flex l) total (l_constraints l) i).
(** The intended values, 100 to a cell. *)
Definition intended (j : nat) : Q :=
  inject_Z lo * 100 + (if (j =? 0)%nat then 0 else if (j =? 2 * n + 1)%nat then inject_Z total * 100
  else let k := Nat.div2 (j - 1) in if Nat.odd j then off k * 100 else (off k + sh k) * 100).
Lemma intended_first : intended 0 == inject_Z lo * 100.
Proof. unfold intended. cbn [Nat.eqb]. ring. Qed.
Lemma intended_last : intended (2 * n + 1) == inject_Z (snd (bounds l area)) * 100.
Proof. unfold intended. rewrite Nat.eqb_refl. destruct (Nat.eqb_spec (2 * n + 1) 0); [lia|]. unfold lo, total. rewrite inject_minus. ring. Qed.
Lemma intended_start k : (k < n)%nat -> intended (2 * k + 1) == inject_Z lo * 100 + off k * 100.
Proof.
  intros H. unfold intended. destruct (Nat.eqb_spec (2 * k + 1) 0); [lia|]. destruct (Nat.eqb_spec (2 * k + 1) (2 * n + 1)); [lia|]. cbv zeta. replace (2 * k + 1 - 1)%nat with (2 * k)%nat by lia. rewrite Nat.div2_double. replace (Nat.odd (2 * k + 1)) with true; [ring|]. symmetry. apply Nat.odd_spec. now exists k.
Qed.
Lemma intended_end k : (k < n)%nat -> intended (2 * k + 2) == inject_Z lo * 100 + (off k + sh k) * 100.
Proof.
  intros H. unfold intended. destruct (Nat.eqb_spec (2 * k + 2) 0); [lia|]. destruct (Nat.eqb_spec (2 * k + 2) (2 * n + 1)); [lia|]. cbv zeta. replace (2 * k + 2 - 1)%nat with (S (2 * k))%nat by lia. rewrite Nat.div2_succ_double. replace (Nat.odd (2 * k + 2)) with false; [ring|]. symmetry. rewrite <- Nat.negb_even. replace (Nat.even (2 * k + 2)) with true; [reflexivity|]. symmetry. apply Nat.even_spec. exists (k + 1)%nat. lia.
Qed.
Lemma Ln : length ds = n. Proof. unfold ds. now rewrite map_length. Qed.
Lemma ds_nth k : (k < n)%nat -> nth_error ds k = Some (dem (l_flex l) total (l_constraints l) k).
Proof. intros H. unfold ds. rewrite nth_error_map. unfold dem, con. rewrite (nth_error_nth' (l_constraints l) (LFill 0)) by exact H. reflexivity. Qed.
Lemma off_next k : (k < n)%nat -> off (S k) == off k + sh k + gap (l_flex l) total space ds.
Proof.
  intros H. unfold off, offset. assert (F : firstn (S k) ds = firstn k ds ++ [dem (l_flex l) total (l_constraints l) k]).
  { pose proof (ds_nth k H) as N. clear -N. revert k N. generalize (dem (l_flex l) total (l_constraints l)) as f. generalize ds as m. intros m f k. generalize (f k) as b. revert m. clear. induction k as [|k IH]; intros [|a m] b N; try discriminate; cbn in *; [now injection N as ->|]. f_equal. now apply IH. }
  rewrite F, sum_app. cbn [sum_of]. unfold sh. ring.
Qed.

Theorem placed : forall j, (j < 2 * n + 2)%nat -> x (var_at vs j) == intended j.
Proof.
  destruct V as [Nd Lv]. fold n in Lv. pose proof Ep as E. unfold problem, layout_constraints in E.
  assert (Nn : (1 <= n)%nat). { pose proof (fits_some _ _ _ _ Fit) as H. rewrite <- Ln. destruct ds; [congruence|cbn; lia]. }
  rewrite (spacers_eq vs n Lv), (segs_eq vs n Lv) in E by exact Nn. fold (area_el vs) in E. fold (cells_between l) in E. fold space in E.
  destruct (flex_constraints (area_el vs) (map (sp_el vs) (seq 0 (S n))) (l_flex l) space) as [fx|] eqn:Ef; [|discriminate]. cbn [bind] in E.
  destruct (fill_constraints (map (seg_el vs) (seq 0 n)) (l_constraints l) (l_flex l)) as [fi|] eqn:Ei; [|discriminate]. cbn [bind] in E. apply Ret_inj in E.
  destruct (problem_ok vs l area V) as (rest0 & E0 & Sf & _). rewrite Ep in E0. apply Ret_inj in E0. set (H := hard _ _ vs) in E0.
  set (rest := fx ++ size_constraints (area_el vs) (map (seg_el vs) (seq 0 n)) (l_constraints l) (l_flex l) ++ fi ++ match l_flex l with FlexLegacy => [] | _ => neighbours (map (seg_el vs) (seq 0 n)) end).
  assert (Er : cs = H ++ rest). { rewrite <- E. unfold H, rest, hard. cbv zeta. fold (area_el vs). now rewrite <- !app_assoc. }
  assert (rest0 = rest) by (rewrite Er in E0; apply app_inv_head in E0; congruence). subst rest0. clear E E0.
  assert (Hm : forall c, In c H -> mandatory c) by (intros c I; apply hard_strength in I; destruct I as [I _]; unfold mandatory; rewrite I; apply Qle_refl).
  destruct (assign intended vs Nd) as (y & Hy). assert (Yv : forall j, (j < 2 * n + 2)%nat -> y (var_at vs j) = intended j) by (intros j Hj; apply Hy; rewrite Lv; exact Hj). clear Hy.
  assert (Ar : area_el vs = Element (var_at vs 0) (var_at vs (2 * n + 1))) by now apply area_eq. assert (Ah : hd 0%Z vs = var_at vs 0) by (exact (f_equal el_start Ar)). assert (Al : last vs 0%Z = var_at vs (2 * n + 1)) by (exact (f_equal el_end Ar)).
  assert (In_var : forall v, In v vs -> exists j, (j < 2 * n + 2)%nat /\ v = var_at vs j). { intros v I. apply (In_nth _ _ (0%Z : variable)) in I. destruct I as (j & Hj & <-). rewrite Lv in Hj. exists j. split; [exact Hj|reflexivity]. }
  assert (Hx : forall c, In c H -> satisfies x c) by (intros c I; apply Fe; [rewrite Er; apply in_app_iff; now left|now apply Hm]). apply hard_sat in Hx. rewrite !qmul_ok in Hx. fold lo in Hx. destruct Hx as (X1 & X2 & X3 & X4).
  rewrite (segs_eq vs n Lv) in X4 by exact Nn. rewrite Ah in X1, X3. rewrite Al in X2, X3.
  assert (Nonneg : 0 <= inject_Z total) by (change 0 with (inject_Z 0); rewrite <- Zle_Qle; unfold total; pose proof (bounds_le l area); lia).
  assert (In_range : forall j, (j < 2 * n + 2)%nat -> intended 0 <= intended j /\ intended j <= intended (2 * n + 1)).
  { intros j Hj. rewrite intended_first, intended_last. assert (T : inject_Z (snd (bounds l area)) * 100 == inject_Z lo * 100 + inject_Z total * 100) by (unfold lo, total; rewrite inject_minus; ring). rewrite T.
    destruct j as [|j]; [rewrite intended_first; lra|]. destruct (Nat.eq_dec (S j) (2 * n + 1)) as [->|D]; [rewrite intended_last, T; lra|].
    destruct (Nat.Even_or_Odd j) as [[k Hk]|[k Hk]]; subst j.
    - replace (S (2 * k)) with (2 * k + 1)%nat in * by lia. rewrite intended_start by lia. destruct (fits_inside _ _ _ _ Fit k _ (ds_nth k ltac:(lia))) as [I1 I2]. pose proof (fits_sizes _ _ _ _ Fit _ (nth_error_In _ _ (ds_nth k ltac:(lia)))) as I3. unfold off. fold (sh k) in I2, I3. lra.
    - replace (S (2 * k + 1)) with (2 * k + 2)%nat in * by lia. rewrite intended_end by lia. destruct (fits_inside _ _ _ _ Fit k _ (ds_nth k ltac:(lia))) as [I1 I2]. pose proof (fits_sizes _ _ _ _ Fit _ (nth_error_In _ _ (ds_nth k ltac:(lia)))) as I3. fold (sh k) in I2, I3. fold off in I1, I2. lra. }
  assert (Hy : forall c, In c H -> satisfies y c).
  { apply hard_sat. rewrite !qmul_ok. fold lo. rewrite (segs_eq vs n Lv) by exact Nn. rewrite Ah, Al, !Yv by lia. split; [rewrite intended_first; reflexivity|]. split; [rewrite intended_last; reflexivity|]. split.
    - intros v I. apply In_var in I. destruct I as (j & Hj & ->). rewrite Yv by exact Hj. now apply In_range.
    - intros e I. apply in_map_iff in I. destruct I as (k & <- & I). apply in_seq in I. cbn [seg_el el_start el_end]. rewrite !Yv by lia. rewrite intended_start, intended_end by lia. pose proof (fits_sizes _ _ _ _ Fit _ (nth_error_In _ _ (ds_nth k ltac:(lia)))) as I3. fold (sh k) in I3. lra. }
  assert (Fy : feasible cs y). { intros c I M. rewrite Er in I. apply in_app_iff in I. destruct I as [I|I]; [now apply Hy|]. apply Sf in I. destruct I as (_ & I & _). unfold mandatory in M. lra. }
  pose proof (Op y Fy) as P. rewrite Er in P. rewrite !(penalty_cost _ H rest vs Hm Sf) in P.
  assert (In_v : forall j, (j < 2 * n + 2)%nat -> In (var_at vs j) vs) by (intros j Hj; apply nth_In; rewrite Lv; exact Hj).
  assert (Xr : forall j, (j < 2 * n + 2)%nat -> inject_Z lo * 100 <= x (var_at vs j) /\ x (var_at vs j) <= inject_Z lo * 100 + inject_Z total * 100).
  { intros j Hj. destruct (X3 _ (In_v j Hj)) as [A B]. assert (T : inject_Z (snd (bounds l area)) * 100 == inject_Z lo * 100 + inject_Z total * 100) by (unfold lo, total; rewrite inject_minus; ring). unfold multiplier in *. lra. }
  assert (Yr : forall j, (j < 2 * n + 2)%nat -> inject_Z lo * 100 <= y (var_at vs j) /\ y (var_at vs j) <= inject_Z lo * 100 + inject_Z total * 100).
  { intros j Hj. rewrite Yv by exact Hj. destruct (In_range j Hj) as [A B]. rewrite intended_first in A. rewrite intended_last in B. assert (T : inject_Z (snd (bounds l area)) * 100 == inject_Z lo * 100 + inject_Z total * 100) by (unfold lo, total; rewrite inject_minus; ring). lra. }
  assert (Sz : forall z, (forall j, (j < 2 * n + 2)%nat -> inject_Z lo * 100 <= z (var_at vs j) /\ z (var_at vs j) <= inject_Z lo * 100 + inject_Z total * 100) -> (forall i, (i < n)%nat -> size z (seg_el vs i) <= inject_Z total * 100) /\ (forall i, (i <= n)%nat -> size z (sp_el vs i) <= inject_Z total * 100)).
  { intros z Hz. split; intros i Hi; unfold size; cbn [seg_el sp_el el_start el_end]. - pose proof (Hz (2 * i + 1)%nat ltac:(lia)). pose proof (Hz (2 * i + 2)%nat ltac:(lia)). lra. - pose proof (Hz (2 * i)%nat ltac:(lia)). pose proof (Hz (2 * i + 1)%nat ltac:(lia)). lra. }
  destruct (Sz x Xr) as [Lx Px]. destruct (Sz y Yr) as [Ly Py]. clear Sz.
  assert (Ax : size x (area_el vs) == inject_Z total * 100) by (unfold size; cbn [area_el el_start el_end]; rewrite Ah, Al, X1, X2; unfold lo, total, multiplier; rewrite inject_minus; ring).
  assert (Ay : size y (area_el vs) == inject_Z total * 100) by (unfold size; cbn [area_el el_start el_end]; rewrite Ah, Al, !Yv by lia; rewrite intended_first, intended_last; unfold lo, total; rewrite inject_minus; ring).
  assert (Y1 : forall i, (i < n)%nat -> size y (seg_el vs i) == sh i * 100) by (intros i Hi; unfold size; cbn [seg_el el_start el_end]; rewrite !Yv by lia; rewrite intended_start, intended_end by lia; ring).
  assert (Y2 : size y (sp_el vs 0) == before (l_flex l) total space ds * 100). { unfold size. cbn [sp_el el_start el_end]. rewrite !Yv by lia. change (2 * 0)%nat with 0%nat. change (0 + 1)%nat with (2 * 0 + 1)%nat. rewrite intended_first, intended_start by lia. unfold off, offset. cbn [firstn sum_of]. ring. }
  assert (Y3 : forall i, In i (mids n) -> size y (sp_el vs i) == gap (l_flex l) total space ds * 100).
  { intros i I. apply in_seq in I. unfold size. cbn [sp_el el_start el_end]. rewrite !Yv by lia. destruct i as [|i]; [lia|]. replace (2 * S i)%nat with (2 * i + 2)%nat at 2 by lia. rewrite intended_start, intended_end by lia. rewrite off_next by lia. ring. }
  assert (F0 : 0 <= size x (sp_el vs 0)) by (unfold size; cbn [sp_el el_start el_end]; destruct (X3 _ (In_v 1%nat ltac:(lia))) as [A _]; change (2 * 0)%nat with 0%nat; change (0 + 1)%nat with 1%nat; lra).
  assert (Fn : 0 <= size x (sp_el vs n)) by (unfold size; cbn [sp_el el_start el_end]; destruct (X3 _ (In_v (2 * n)%nat ltac:(lia))) as [_ B]; lra).
  destruct (place_unique vs n Lv Nn (l_flex l) total space (l_constraints l) eq_refl x y Fit Ax Ay Lx Ly Px Py F0 Fn Y1 Y2 Y3 fx fi Ef Ei P) as [U1 U2].
  assert (G : forall j, (j < 2 * n + 2)%nat -> x (var_at vs j) == y (var_at vs j)).
  { induction j as [|j IH]; intros Hj; [rewrite X1, Yv by lia; rewrite intended_first; reflexivity|]. specialize (IH ltac:(lia)). destruct (Nat.Even_or_Odd j) as [[k Hk]|[k Hk]]; subst j.
    - pose proof (U2 k ltac:(lia)) as U. unfold size in U. cbn [sp_el el_start el_end] in U. replace (S (2 * k)) with (2 * k + 1)%nat by lia. lra.
    - pose proof (U1 k ltac:(lia)) as U. unfold size in U. cbn [seg_el el_start el_end] in U. replace (S (2 * k + 1)) with (2 * k + 2)%nat by lia. lra. }
  intros j Hj. rewrite (G j Hj), Yv by exact Hj. reflexivity.
Qed.
End Placed.
End Tolerance.
