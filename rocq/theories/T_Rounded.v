(** C75: the arithmetic of float64 and layouts in whole cells. *)
From Verif Require Import Base P_Base M_Geom M_Solver M_Layout M_Rounded S_Solver S_Layout S_Place S_Rounded S_Geom P_Row P_Tableau P_Simplex P_System P_Step P_Exact P_Count P_Network P_Alike P_Netted P_Same P_Ledger P_Addsame P_Layout P_Rounded P_Diffs T_Solver T_Layout T_Place T_Exact T_Apart T_Tile T_Ends.
From Coq Require Import ZArith NArith QArith Qabs Qround List Bool Lia Lqa Permutation.
Import ListNotations.
Open Scope Z_scope.
#[local] Existing Instance no_tolerance.

Lemma int32_bounds l area : int32_layout l area -> int32 (fst (bounds l area)) /\ int32 (snd (bounds l area)).
Proof. intros (_ & _ & H1 & H2). unfold bounds. destruct (l_direction l); cbn [low high fst snd] in *; unfold rright, rbottom; split; assumption. Qed.
Lemma round_abs q b : (Qabs q <= inject_Z b)%Q -> Z.abs (round_q q) <= b.
Proof.
  intros H. assert (A : (- inject_Z b <= q <= inject_Z b)%Q) by (now apply Qabs_Qle_condition). assert (B : Qfloor (inject_Z b + (1 # 2)) = b) by (unfold Qfloor, Qplus, inject_Z; cbn [Qnum Qden]; symmetry; apply Z.div_unique with 1; lia).
  assert (M : forall x, (x <= inject_Z b)%Q -> Qfloor (x + (1 # 2)) <= b) by (intros x L; rewrite <- B; apply Qfloor_resp_le; lra).
  assert (P : forall x, (0 <= x)%Q -> 0 <= Qfloor (x + (1 # 2))) by (intros x L; change 0%Z with (Qfloor (1 # 2)) at 1; apply Qfloor_resp_le; lra).
  unfold round_q. destruct (qltb q 0) eqn:E.
  - apply qltb_ok in E. pose proof (M (- q)%Q ltac:(lra)). pose proof (P (- q)%Q ltac:(lra)). lia.
  - apply qltb_no in E. pose proof (M q ltac:(lra)). pose proof (P q E). lia.
Qed.
Lemma change_calm s v : calm s -> Z.abs (round_q (change_of v (fetch_changes s))) < 2 ^ 52.
Proof.
  intros Cm. assert (H : small (1905 * K38) (change_of v (fetch_changes s))).
  { unfold fetch_changes. induction (s_changed s) as [|w l IH]; [apply small_zero; unfold K38; lia|]. cbn [flat_map]. destruct (find_var w (s_vars s)) as [x|]; [|exact IH]. cbn [app change_of]. destruct (Z.eqb v w); [|exact IH].
    destruct (look x (s_rows s)) as [r|] eqn:Lx; [|apply small_zero; unfold K38; lia]. apply look_in in Lx. exact (ti_const _ (cl_rows _ Cm _ Lx)). }
  pose proof (round_abs _ _ (proj2 H)) as A. change (1905 * K38) with 523642412728320 in A. lia.
Qed.
Lemma whole_problem F vs l area : vars_ok vs l -> in_whole_cells l -> int32_layout l area -> few_names l ->
  exists cs, problem vs l area = Ret cs /\ @layout_constraints (fl_ar F) l (@qmul (fl_ar F) (inject_Z (fst (bounds l area))) multiplier) (@qmul (fl_ar F) (inject_Z (snd (bounds l area))) multiplier) vs = Ret cs /\
    (exists vm, differences vm cs (hd 0 vs) (last vs 0) (variables cs)) /\ (length (variables cs) + fold_right (fun c acc => symbols_of c + acc) 0 cs <= 254)%nat.
Proof.
  intros V W I N. destruct (int32_bounds l area I) as [I1 I2]. destruct I as (Hc & Hs & _). destruct (constraints_same F l vs W Hc Hs (proj2 V) (proj1 V) _ _ I1 I2) as (cs & E1 & E2 & Sp & Ap & Mo & Pl).
  assert (Few : (length (variables cs) + fold_right (fun c acc => symbols_of c + acc) 0 cs <= 254)%nat) by (rewrite symbols_two; exact (few_needed vs l area cs V N E1)).
  exists cs. split; [exact E1|]. split; [exact E2|]. split; [|exact Few]. eexists. split; [exact Sp|exact Ap|exact Mo|exact Pl| |exact Few].
  intros c J v K. unfold variables. apply nodup_In. apply in_flat_map. eauto.
Qed.
Lemma split_same F order fuel vs l area : any_order order -> vars_ok vs l -> few_names l -> in_whole_cells l -> int32_layout l area ->
  (forall q, Z.abs (round_q q) < 2 ^ 52 -> @to_cells (fl_ar F) q = to_cells q) ->
  @M_Layout.split (fl_ar F) (fl_tol F) order fuel vs l area = M_Layout.split order fuel vs l area.
Proof.
  intros Oo V N W I Tc. destruct (whole_problem F vs l area V W I N) as (cs & E1 & E2 & (vm & Df) & _). destruct (adds_same order Oo F fuel vm cs _ _ _ Df) as [Lk Cm].
  assert (Rc : forall s els a d, calm s -> @changes_to_rects (fl_ar F) (fetch_changes s) els a d = changes_to_rects (fetch_changes s) els a d).
  { intros s els a d Cs. unfold changes_to_rects. apply map_ext. intros e. rewrite !Tc by (now apply change_calm). reflexivity. }
  unfold problem, bounds in E1, E2. unfold M_Layout.split. cbv zeta in *. destruct (l_direction l); cbn [fst snd] in E1, E2; rewrite E1, E2; clear E1 E2.
  - destruct (@add_constraints exact_arith no_tolerance order fuel new_solver cs) as [s|e s|]; unfold like in Lk; [destruct Lk as (k & ->)|destruct Lk as (k & ->); reflexivity|rewrite Lk; reflexivity].
    change (fetch_changes (oc s k)) with (fetch_changes s). rewrite !Rc by (now apply Cm). reflexivity.
  - destruct (@add_constraints exact_arith no_tolerance order fuel new_solver cs) as [s|e s|]; unfold like in Lk; [destruct Lk as (k & ->)|destruct Lk as (k & ->); reflexivity|rewrite Lk; reflexivity].
    change (fetch_changes (oc s k)) with (fetch_changes s). rewrite !Rc by (now apply Cm). reflexivity.
Qed.
(** ** C75: a layout in whole cells is solved by float64 as it would be without rounding errors, whatever the order of the maps. *)
Theorem C75_float64_partial order fuel vs l area : any_order order -> vars_ok vs l -> whole_layout l area ->
  split64 order fuel vs l area = M_Layout.split order fuel vs l area.
Proof. intros Oo V (W & I & N). exact (split_same floats64 order fuel vs l area Oo V N W I cells64). Qed.
(** Nor does it matter that the code takes numbers below 1e-8 for zero. *)
Theorem C75_tolerance_partial order fuel vs l area : any_order order -> vars_ok vs l -> whole_layout l area ->
  @M_Layout.split exact_arith code_tolerance order fuel vs l area = @M_Layout.split exact_arith no_tolerance order fuel vs l area.
Proof. intros Oo V (W & I & N). exact (split_same floats_exact order fuel vs l area Oo V N W I (fun q _ => eq_refl)). Qed.
Lemma whole_regular order fuel vs l area : any_order order -> vars_ok vs l -> whole_layout l area -> regular order fuel vs l area.
Proof.
  intros Oo V (W & I & N) cs s E A. destruct (whole_problem floats64 vs l area V W I N) as (cs' & E1 & _ & _ & Few). rewrite E1 in E. apply Ret_inj in E. subst cs'.
  assert (T : (s_tick s <= 256)%N) by (apply (small_ticks order fuel cs s Oo); [lia|exact A]). split; [|exact T]. apply (no_loss order fuel cs s Oo); [|exact T|exact A]. apply (problem_strengths vs l area cs V E1).
Qed.
(** So what is proved of the solver without rounding errors is true of the code's arithmetic on these layouts, and nothing is assumed of the run.
    The call does not panic. *)
Theorem C75_no_panic_partial order fuel vs l area : any_order order -> vars_ok vs l -> whole_layout l area -> split64 order fuel vs l area <> SplitPanics.
Proof. intros Oo V W. rewrite (C75_float64_partial order fuel vs l area Oo V W). exact (C35_no_panic_partial order fuel vs l area Oo V (whole_regular order fuel vs l area Oo V W)). Qed.
(** The segments and the spaces are pieces of the area, each next to the one before it. *)
Theorem C75_pieces_partial order fuel vs l area segs sps : any_order order -> vars_ok vs l -> whole_layout l area -> split64 order fuel vs l area = Splits segs sps ->
  let a := inner area (l_padding l) in let d := l_direction l in
  length segs = length (l_constraints l) /\ length sps = S (length segs) /\
  (forall r, In r segs -> piece d a r) /\ (forall r, In r sps -> piece d a r) /\
  (forall k seg sp, nth_error segs k = Some seg -> nth_error sps (S k) = Some sp -> low d sp = high d seg) /\
  (forall k seg sp, nth_error segs k = Some seg -> nth_error sps k = Some sp -> high d sp = Z.max (low d sp) (low d seg)) /\
  (forall sp, nth_error sps 0 = Some sp -> low d sp = low d a) /\ (forall sp, nth_error sps (length segs) = Some sp -> high d sp = high d a).
Proof. intros Oo V W. rewrite (C75_float64_partial order fuel vs l area Oo V W). exact (C34_pieces_partial order fuel vs l area segs sps Oo V (whole_regular order fuel vs l area Oo V W)). Qed.
(** No cell is in two segments. *)
Theorem C75_disjoint_partial order fuel vs l area segs sps : any_order order -> vars_ok vs l -> whole_layout l area -> split64 order fuel vs l area = Splits segs sps ->
  0 <= cells_between l -> forall i j seg seg' p, i <> j -> nth_error segs i = Some seg -> nth_error segs j = Some seg' -> inside p seg -> inside p seg' -> False.
Proof. intros Oo V W. rewrite (C75_float64_partial order fuel vs l area Oo V W). exact (C64_disjoint_partial order fuel vs l area segs sps Oo V (whole_regular order fuel vs l area Oo V W)). Qed.
(** Layouts as New makes them, without spacing: every cell of the area is in exactly one segment. *)
Theorem C75_tiles_partial order fuel vs l area segs sps : any_order order -> vars_ok vs l -> whole_layout l area -> split64 order fuel vs l area = Splits segs sps ->
  l_flex l = FlexLegacy -> cells_between l = 0 -> l_constraints l <> [] ->
  forall p, inside p (inner area (l_padding l)) -> exists i seg, nth_error segs i = Some seg /\ inside p seg /\ (forall j seg', nth_error segs j = Some seg' -> inside p seg' -> j = i).
Proof. intros Oo V W. rewrite (C75_float64_partial order fuel vs l area Oo V W). exact (C68_tiles_partial order fuel vs l area segs sps Oo V (whole_regular order fuel vs l area Oo V W)). Qed.
(** Where there is room, every segment is where its constraint asks for it, so every run gives the same. *)
Theorem C75_placed_partial order fuel vs l area segs sps : any_order order -> vars_ok vs l -> whole_layout l area -> split64 order fuel vs l area = Splits segs sps ->
  let d := l_direction l in let a := inner area (l_padding l) in
  let total := (high d a - low d a)%Z in let space := cells_between l in
  let ds := map (demand_of (l_flex l) total) (l_constraints l) in
  fits (l_flex l) total space ds ->
  length segs = length ds /\
  forall k seg dm, nth_error segs k = Some seg -> nth_error ds k = Some dm ->
    let start := (inject_Z (low d a) + offset (l_flex l) total space ds k)%Q in
    stands_for (low d seg) start /\ stands_for (high d seg) (start + share total space ds dm)%Q.
Proof. intros Oo V W. rewrite (C75_float64_partial order fuel vs l area Oo V W). exact (C60_placed_partial order fuel vs l area segs sps Oo V (whole_regular order fuel vs l area Oo V W)). Qed.
Theorem C75_same_partial order fuel vs order' fuel' vs' l area segs sps segs' sps' :
  any_order order -> vars_ok vs l -> split64 order fuel vs l area = Splits segs sps ->
  any_order order' -> vars_ok vs' l -> split64 order' fuel' vs' l area = Splits segs' sps' -> whole_layout l area ->
  let d := l_direction l in let a := inner area (l_padding l) in let total := (high d a - low d a)%Z in
  fits (l_flex l) total (cells_between l) (map (demand_of (l_flex l) total) (l_constraints l)) ->
  segs = segs' /\ sps = sps'.
Proof.
  intros Oo V E Oo' V' E' W. rewrite (C75_float64_partial order fuel vs l area Oo V W) in E. rewrite (C75_float64_partial order' fuel' vs' l area Oo' V' W) in E'.
  exact (C61_same_partial order fuel vs order' fuel' vs' l area segs sps segs' sps' Oo V (whole_regular order fuel vs l area Oo V W) E Oo' V' (whole_regular order' fuel' vs' l area Oo' V' W) E').
Qed.
(** However the maps were walked so far, the work can still end. *)
Theorem C75_can_end_partial : exists b, forall order n vs l area, any_order order -> vars_ok vs l -> whole_layout l area ->
  exists order', any_order order' /\ (forall k x, (k < n)%nat -> order' k x = order k x) /\
    forall fuel, (n + b <= fuel)%nat -> exists segs sps, split64 order' fuel vs l area = Splits segs sps.
Proof.
  destruct ranked_ends as (b & K). exists b. intros order n vs l area Oo V W. exists (then_ranked n order). pose proof (then_ranked_ok n order Oo) as Oo'. split; [exact Oo'|]. split; [intros k x; apply then_ranked_first|].
  intros fuel Hf. pose proof (C75_no_panic_partial (then_ranked n order) fuel vs l area Oo' V W) as Np. rewrite (C75_float64_partial _ fuel vs l area Oo' V W) in *. destruct W as (W & I & N). destruct (whole_problem floats64 vs l area V W I N) as (cs & E & _ & _ & Few). pose proof (problem_strengths vs l area _ V E) as St.
  pose proof (K order n _ Oo St (eq_ind _ (fun z => length (variables cs) + z <= 254)%nat Few _ (symbols_two cs)) fuel Hf) as R. clear K. destruct (add_constraints (then_ranked n order) fuel new_solver _) as [s|e s|] eqn:A in R; [| |congruence].
  - rewrite (split_done _ _ _ _ _ _ _ E A). eauto.
  - elim Np. exact (split_fail _ _ _ _ _ _ _ _ E A).
Qed.
(** *** Instances: eight constraints that do not fit, in float64; and six that do. *)
Definition crowd : layout := Layout DirHorizontal [LLen 7; LMin 3; LMax 9; LFill 2; LLen 4; LMin 6; LLen 2; LMax 5] (Padding 0 1 0 1) FlexLegacy (SpSpace 1).
Definition fitting : layout := Layout DirVertical [LLen 3; LMax 2; LFill 1; LLen 4; LMin 5; LLen 1] (Padding 1 0 0 0) FlexLegacy (SpSpace 0).
Example C75_instance : whole_layout crowd (Rect 3 0 40 2) /\ vars_ok (vars_for (l_constraints crowd)) crowd /\ 0 <= cells_between crowd /\
  exists sps, split64 keep_order 1000 (vars_for (l_constraints crowd)) crowd (Rect 3 0 40 2) = Splits [Rect 4 0 7 2; Rect 12 0 3 2; Rect 16 0 9 2; Rect 26 0 0 2; Rect 27 0 4 2; Rect 32 0 6 2; Rect 39 0 2 2; Rect 42 0 0 2] sps.
Proof.
  split; [|split; [apply vars_for_ok|split; [cbn; lia|]]].
  - split; [split; [intros c H; repeat (destruct H as [<-|H]; [exact Logic.I|]); destruct H|left; split; [reflexivity|cbn; lia]]|]. split; [|unfold few_names; cbn; lia].
    split; [intros c H; repeat (destruct H as [<-|H]; [unfold int32; cbn; lia|]); destruct H|]. unfold int32. cbn. lia.
  - eexists. vm_compute. reflexivity.
Qed.
(** Four columns in the middle of seven: the place is 4.5 before it is rounded. *)
Definition centred : layout := Layout DirHorizontal [LLen 4] (Padding 0 0 0 0) FlexCenter (SpSpace 0).
Example C75_centred_instance : whole_layout centred (Rect 3 0 7 2) /\ vars_ok (vars_for (l_constraints centred)) centred /\
  exists sps, split64 keep_order 1000 (vars_for (l_constraints centred)) centred (Rect 3 0 7 2) = Splits [Rect 5 0 4 2] sps.
Proof.
  split; [|split; [apply vars_for_ok|eexists; vm_compute; reflexivity]].
  split; [split; [intros c H; repeat (destruct H as [<-|H]; [exact Logic.I|]); destruct H|right; cbn; lia]|]. split; [|unfold few_names; cbn; lia].
  split; [intros c H; repeat (destruct H as [<-|H]; [unfold int32; cbn; lia|]); destruct H|]. unfold int32. cbn. lia.
Qed.
Example C75_tiles_instance : whole_layout fitting (Rect 3 0 9 30) /\ vars_ok (vars_for (l_constraints fitting)) fitting /\ l_flex fitting = FlexLegacy /\ cells_between fitting = 0 /\
  fits FlexLegacy 29 0 (map (demand_of FlexLegacy 29) (l_constraints fitting)) /\
  exists sps, split64 (fun _ l => rev l) 1000 (vars_for (l_constraints fitting)) fitting (Rect 3 0 9 30) = Splits [Rect 3 1 9 3; Rect 3 4 9 2; Rect 3 6 9 14; Rect 3 20 9 4; Rect 3 24 9 5; Rect 3 29 9 1] sps.
Proof.
  split; [|split; [apply vars_for_ok|split; [reflexivity|split; [reflexivity|split]]]].
  - split; [split; [intros c H; repeat (destruct H as [<-|H]; [exact Logic.I|]); destruct H|left; split; [reflexivity|cbn; lia]]|]. split; [|unfold few_names; cbn; lia].
    split; [intros c H; repeat (destruct H as [<-|H]; [unfold int32; cbn; lia|]); destruct H|]. unfold int32. cbn. lia.
  - apply fits_check_ok; vm_compute; reflexivity.
  - eexists. vm_compute. reflexivity.
Qed.
(** ** Ratios are not whole: 31 * 29 / 200 cells are 449.5 hundredths of a cell, but the float64 next to 29/200 is less than that, and the
    code rounds to hundredths before it rounds to cells. A segment that asks for one cell, with room for it, then gets two. *)
Definition ratio_then_one : layout := Layout DirHorizontal [LRatio 29 200; LLen 1] (Padding 0 0 0 0) FlexStart (SpSpace 0).
Theorem C75_ratio_refuted : exists order l area segs sps segs' sps', any_order order /\ vars_ok (vars_for (l_constraints l)) l /\ int32_layout l area /\
  fits (l_flex l) (rw area) (cells_between l) (map (demand_of (l_flex l) (rw area)) (l_constraints l)) /\
  split64 order 1000 (vars_for (l_constraints l)) l area = Splits segs sps /\ M_Layout.split order 1000 (vars_for (l_constraints l)) l area = Splits segs' sps' /\
  nth_error (l_constraints l) 1 = Some (LLen 1) /\ option_map rw (nth_error segs 1) = Some 2 /\ option_map rw (nth_error segs' 1) = Some 1.
Proof.
  exists keep_order, ratio_then_one, (Rect 0 0 31 1). do 4 eexists. split; [intros n l; reflexivity|]. split; [apply vars_for_ok|]. split; [|split; [apply fits_check_ok; vm_compute; reflexivity|split; [vm_compute; reflexivity|split; [vm_compute; reflexivity|split; [|split]; reflexivity]]]].
  split; [intros c H; repeat (destruct H as [<-|H]; [unfold int32; cbn; lia|]); destruct H|]. unfold int32. cbn. lia.
Qed.
(** And the order of the maps decides where segments end: without rounding errors it does not, where there is room (C61). *)
Definition sometimes (n : nat) (l : list symbol) : list symbol := if Nat.eqb (n mod 3) 0 then rev l else l.
Lemma sometimes_ok : any_order sometimes.
Proof. intros n l. unfold sometimes. destruct (Nat.eqb _ _); [symmetry; apply Permutation_rev|reflexivity]. Qed.
Definition two_ratios : layout := Layout DirHorizontal [LRatio 29 200; LFill 1; LRatio 29 200] (Padding 0 0 0 0) FlexLegacy (SpSpace 0).
Theorem C75_orders_refuted : exists order order' l area sps sps', any_order order /\ any_order order' /\ vars_ok (vars_for (l_constraints l)) l /\ int32_layout l area /\
  fits (l_flex l) (rw area) (cells_between l) (map (demand_of (l_flex l) (rw area)) (l_constraints l)) /\
  split64 order 1000 (vars_for (l_constraints l)) l area = Splits [Rect 0 0 4 1; Rect 4 0 23 1; Rect 27 0 4 1] sps /\
  split64 order' 1000 (vars_for (l_constraints l)) l area = Splits [Rect 0 0 5 1; Rect 5 0 22 1; Rect 27 0 4 1] sps'.
Proof.
  exists keep_order, sometimes, two_ratios, (Rect 0 0 31 1). do 2 eexists. split; [intros n l; reflexivity|]. split; [exact sometimes_ok|]. split; [apply vars_for_ok|]. split; [|split; [apply fits_check_ok; vm_compute; reflexivity|split; vm_compute; reflexivity]].
  split; [intros c H; repeat (destruct H as [<-|H]; [unfold int32; cbn; lia|]); destruct H|]. unfold int32. cbn. lia.
Qed.
Print Assumptions C75_float64_partial.
Print Assumptions C75_tolerance_partial.
Print Assumptions C75_no_panic_partial.
Print Assumptions C75_pieces_partial.
Print Assumptions C75_disjoint_partial.
Print Assumptions C75_tiles_partial.
Print Assumptions C75_placed_partial.
Print Assumptions C75_same_partial.
Print Assumptions C75_can_end_partial.
Print Assumptions C75_ratio_refuted.
Print Assumptions C75_orders_refuted.
