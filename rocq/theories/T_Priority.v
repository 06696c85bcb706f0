(** C91: when there is no room for everything, the constraints of lower priority give way; and where there is too much room, only the
    segments that mind least become longer than they ask to be. *)
From Verif Require Import Base P_Base M_Geom M_Combin M_Solver M_Layout S_Geom S_Solver S_Layout S_Place S_Priority P_Row P_Layout P_Sum P_Place P_Placed P_Apart P_Tile P_Priority T_Solver T_Layout T_Place T_NoRoom T_Exact T_Apart T_Tile.
From Coq Require Import ZArith NArith QArith Qround Qabs Qminmax List Bool Lia Lqa Setoid Permutation.
Import ListNotations.
Open Scope Q_scope.

Lemma asked_cells total c : asked_of (inject_Z total * 100) c == asks total c * 100.
Proof.
  destruct c as [k|k|k|k|a b|k]; cbn [asked_of asks]; try ring; [field|]. assert (Nz : ~ inject_Z (Z.max 1 b) == 0) by (intros Y; unfold Qeq in Y; cbn in Y; lia). field. exact Nz.
Qed.
Lemma max_cells q r : q == r * 100 -> Qmax 0 q == Qmax 0 r * 100.
Proof. intros E. rewrite E. destruct (Qlt_le_dec r 0) as [H|H]; [rewrite !Q.max_l by lra; ring|rewrite !Q.max_r by lra; ring]. Qed.
Lemma sum_lt {A} (f g : A -> Q) m a : (forall b, In b m -> f b <= g b) -> In a m -> f a < g a -> sum_of f m < sum_of g m.
Proof. induction m as [|b m IH]; intros H I L; [destruct I|]. cbn [sum_of]. pose proof (H b (or_introl eq_refl)). destruct I as [->|I]; [pose proof (sum_le f g m ltac:(intros; apply H; now right)); lra|]. specialize (IH ltac:(intros; apply H; now right) I L). lra. Qed.

Section Tolerance.
Context {tolr : tolerance}.
(** What the solver found. *)
Lemma solved order fuel vs l area segs sps : any_order order -> vars_ok vs l -> regular order fuel vs l area -> M_Layout.split order fuel vs l area = Splits segs sps ->
  let d := l_direction l in let a := inner area (l_padding l) in let total := (high d a - low d a)%Z in let space := cells_between l in let n := length (l_constraints l) in
  moderate l -> (0 <= space)%Z -> ((Z.of_nat n - 1) * space <= total)%Z -> exists start stop : nat -> Q,
  (forall k seg, nth_error segs k = Some seg -> (k < n)%nat /\ low d seg = to_cells (start k * 100) /\ high d seg = to_cells (stop k * 100) /\ start k <= stop k /\ inject_Z (low d a) <= start k) /\
  (forall i ci, nth_error (l_constraints l) i = Some ci -> (2 <= rank ci)%nat -> stop i - start i < asks total ci ->
    sum_of (fun k => stop k - start k) (seq 0 n) == inject_Z (total - (Z.of_nat n - 1) * space) /\
    forall j cj, nth_error (l_constraints l) j = Some cj -> j <> i -> stop j - start j <= entitled total (rank ci) cj) /\
  (forall j cj, nth_error (l_constraints l) j = Some cj -> takes_rest (l_flex l) cj = false -> Qmax 0 (asks total cj) < stop j - start j ->
    (l_flex l = FlexLegacy \/ (l_flex l = FlexSpaceBetween /\ n = 1%nat)) /\ forall k ck, nth_error (l_constraints l) k = Some ck -> k <> j -> (minds cj <= minds ck)%nat).
Proof.
  intros Oo V R E d a total space n Mod Sp Le. destruct (split_solution order fuel vs l area segs sps Oo V R E) as (cs & x & Ep & Fe & Op & Es & _).
  destruct (Nat.eq_dec n 0) as [Z0|Nz].
  { assert (Ls : segs = []). { rewrite Es. destruct V as [_ Lv]. fold n in Lv. rewrite Z0 in Lv. destruct vs as [|v1 [|v2 [|]]]; cbn in Lv; try lia. reflexivity. } assert (Lc : l_constraints l = []) by (unfold n in Z0; now apply length_zero_iff_nil). rewrite Ls, Lc. exists (fun _ => 0), (fun _ => 0). repeat split; try (intros; destruct k; discriminate); intros; try (destruct i; discriminate); destruct j; discriminate. }
  assert (Nn : (1 <= n)%nat) by lia.
  assert (Bd : fst (bounds l area) = low d a /\ snd (bounds l area) = high d a) by (unfold d, bounds, a; destruct (l_direction l); split; reflexivity). destruct Bd as [Bl Bh].
  assert (En : inject_Z (Z.of_nat (n - 1)) * (inject_Z space * 100) == inject_Z ((Z.of_nat n - 1) * space) * 100) by (rewrite inject_Z_mult; replace (Z.of_nat (n - 1)) with (Z.of_nat n - 1)%Z by lia; ring).
  assert (As : sum_of (fun _ : nat => inject_Z (cells_between l) * 100) (mids n) == inject_Z ((Z.of_nat n - 1) * space) * 100) by (rewrite sum_const; replace (length (mids n)) with (n - 1)%nat by (unfold mids; now rewrite seq_length); exact En).
  assert (Fits : sum_of (fun _ : nat => inject_Z (cells_between l) * 100) (mids n) <= inject_Z (snd (bounds l area) - fst (bounds l area)) * 100) by (rewrite As, Bl, Bh; fold total; rewrite Zle_Qle in Le; lra).
  pose proof (edge_values vs l area cs x V Ep Fe Nn) as Ev. fold n in Ev. rewrite Bl, Bh in Ev. destruct Ev as (X0 & Xn & Xr).
  pose proof (short_no_free vs l area cs x V Ep Fe Op Nn Sp Fits Mod) as HF. pose proof (short_others vs l area cs x V Ep Fe Op Nn Sp Fits Mod) as HO. pose proof (long_flex vs l area cs x V Ep Fe Op Nn Sp Fits) as HL. pose proof (long_others vs l area cs x V Ep Fe Op Nn Sp Fits) as HM.
  pose proof (all_sizes vs l area cs x V Ep Fe Op Nn) as Al.
  fold n in HF, HO, HL, HM, Al, Fits. rewrite Bl, Bh in HF, HO, HL, HM, Al. fold total in HF, HO, HL, HM, Al.
  pose proof (seg_range vs l area cs x V Ep Fe Op Nn) as Sx. fold n in Sx.
  destruct V as [_ Lv]. fold n in Lv. rewrite (segs_eq vs n Lv) in Es by exact Nn. rewrite map_map in Es.
  set (start k := x (var_at vs (2 * k + 1)) / 100). set (stop k := x (var_at vs (2 * k + 2)) / 100).
  assert (Sz : forall k, size x (seg_el vs k) == (stop k - start k) * 100) by (intros k; unfold size, start, stop; cbn [seg_el el_start el_end]; field).
  assert (Con : forall k c, nth_error (l_constraints l) k = Some c -> (k < n)%nat /\ con (l_constraints l) k = c) by (intros k c K; split; [apply nth_error_Some; congruence|unfold con; now apply nth_error_nth]).
  exists start, stop. split; [|split].
  - intros k seg K. assert (Hk : (k < n)%nat) by (rewrite Es in K; assert (Hs : nth_error (map (fun i => edges (l_direction l) (inner area (l_padding l)) x (seg_el vs i)) (seq 0 n)) k <> None) by congruence; apply nth_error_Some in Hs; now rewrite map_length, seq_length in Hs). split; [exact Hk|].
    rewrite Es, nth_error_map, (nth_error_nth' _ 0%nat) in K by now rewrite seq_length. rewrite seq_nth in K by exact Hk. rewrite Nat.add_0_l in K. cbn [option_map] in K. apply (f_equal (fun o => match o with Some r => r | None => seg end)) in K. cbn beta iota in K. subst seg.
    destruct (Sx k Hk) as [A _]. rewrite (Sz k) in A.
    assert (M : (to_cells (x (var_at vs (2 * k + 1))) <= to_cells (x (var_at vs (2 * k + 2))))%Z) by (apply cells_mono; unfold start, stop in A; assert (x (var_at vs (2 * k + 2)) / 100 * 100 == x (var_at vs (2 * k + 2))) by field; assert (x (var_at vs (2 * k + 1)) / 100 * 100 == x (var_at vs (2 * k + 1))) by field; lra).
    assert (C1 : to_cells (start k * 100) = to_cells (x (var_at vs (2 * k + 1)))) by (apply cells_eq; unfold start; field). assert (C2 : to_cells (stop k * 100) = to_cells (x (var_at vs (2 * k + 2)))) by (apply cells_eq; unfold stop; field). rewrite C1, C2.
    assert (L : inject_Z (low d a) <= start k). { pose proof (Xr (2 * k + 1)%nat ltac:(lia)) as X1. unfold start. apply Qle_shift_div_l; [reflexivity|exact X1]. }
    unfold edges. cbn [seg_el el_start el_end]. unfold d in *. destruct (l_direction l); cbn [low high rx ry rw rh] in *; repeat split; try reflexivity; try exact L; try (rewrite Z.max_r by lia; lia); lra.
  - intros i ci I Rk Sh. destruct (Con i ci I) as [Hi Ci].
    assert (Sh' : size x (seg_el vs i) < asked_of (inject_Z total * 100) (con (l_constraints l) i)) by (rewrite Ci, (asked_cells total ci), (Sz i); lra). rewrite <- Ci in Rk.
    specialize (HF i Hi Rk Sh'). rewrite As in HF. cbn beta in HF. specialize (HO i Hi Rk Sh'). split.
    + rewrite (sum_ext _ (fun k => 100 * (stop k - start k)) (seq 0 n)) in Al by (intros k _; rewrite Sz; ring). rewrite sum_scale in Al. rewrite inject_minus. lra.
    + intros j cj J Nj. destruct (Con j cj J) as [Hj Cj]. specialize (HO j Hj Nj). rewrite (Sz j), Ci, Cj in HO. unfold entitled. destruct (rank ci <=? rank cj)%nat; [rewrite (max_cells _ _ (asked_cells total cj)) in HO|]; lra.
  - intros j cj J Tk Lg. destruct (Con j cj J) as [Hj Cj].
    assert (Gj : fills (l_flex l) (con (l_constraints l) j) = false) by (rewrite Cj; exact Tk). assert (Lg' : Qmax 0 (asked_of (inject_Z total * 100) (con (l_constraints l) j)) < size x (seg_el vs j)) by (rewrite Cj, (max_cells _ _ (asked_cells total cj)), (Sz j); lra).
    specialize (HL j Hj Gj Lg'). split; [exact HL|]. intros k ck K Nk. destruct (Con k ck K) as [Hk Ck]. pose proof (HM j Hj Gj Lg' k Hk Nk) as H. now rewrite Cj, Ck in H.
Qed.

(** ** C91: a segment is shorter than it asks to be only if every other has no more than its rank entitles it to and no space is free; it is
    longer only if the layout has nowhere else to put the room (legacy flex, or a single segment with space between) and nobody minds less *)
Theorem C91_gives_way_partial order fuel vs l area segs sps : any_order order -> vars_ok vs l -> regular order fuel vs l area -> M_Layout.split order fuel vs l area = Splits segs sps ->
  let d := l_direction l in let a := inner area (l_padding l) in let total := (high d a - low d a)%Z in let space := cells_between l in let n := length (l_constraints l) in
  moderate l -> (0 <= space)%Z -> ((Z.of_nat n - 1) * space <= total)%Z -> exists start stop : nat -> Q, exact_places (low d) (high d) segs start stop /\
  (forall i ci, nth_error (l_constraints l) i = Some ci -> (2 <= rank ci)%nat -> stop i - start i < asks total ci ->
    sum_of (fun k => stop k - start k) (seq 0 n) == inject_Z (total - (Z.of_nat n - 1) * space) /\
    forall j cj, nth_error (l_constraints l) j = Some cj -> j <> i -> stop j - start j <= entitled total (rank ci) cj) /\
  (forall j cj, nth_error (l_constraints l) j = Some cj -> takes_rest (l_flex l) cj = false -> Qmax 0 (asks total cj) < stop j - start j ->
    (l_flex l = FlexLegacy \/ (l_flex l = FlexSpaceBetween /\ n = 1%nat)) /\ forall k ck, nth_error (l_constraints l) k = Some ck -> k <> j -> (minds cj <= minds ck)%nat).
Proof.
  intros Oo V R E d a total space n Mod Sp Le. destruct (solved order fuel vs l area segs sps Oo V R E Mod Sp Le) as (start & stop & Pl & H). exists start, stop. split; [|exact H].
  split; intros k seg K; destruct (Pl k seg K) as (_ & L & Hh & O & _).
  - fold d in L. rewrite L. apply cells_near.
  - fold d in Hh. rewrite Hh. apply cells_near.
  - exact O.
  - intros O'. fold d in L, Hh. rewrite L, Hh. apply cells_eq. lra.
Qed.
(** ** C91: what that means for the cells *)
Theorem C91_cells_partial order fuel vs l area segs sps : any_order order -> vars_ok vs l -> regular order fuel vs l area -> M_Layout.split order fuel vs l area = Splits segs sps ->
  let d := l_direction l in let a := inner area (l_padding l) in let total := (high d a - low d a)%Z in let space := cells_between l in let n := length (l_constraints l) in
  moderate l -> (0 <= space)%Z -> ((Z.of_nat n - 1) * space <= total)%Z ->
  forall i j ci cj seg seg', nth_error (l_constraints l) i = Some ci -> nth_error (l_constraints l) j = Some cj -> nth_error segs i = Some seg -> nth_error segs j = Some seg' -> i <> j ->
  (* a segment that is two cells short, or one that asks for a whole number of cells and does not have them *)
  (2 <= rank ci)%nat -> inject_Z (high d seg - low d seg) + 2 <= asks total ci \/ (exists m, asks total ci == inject_Z m /\ (high d seg - low d seg < m)%Z) ->
  inject_Z (high d seg' - low d seg') <= entitled total (rank ci) cj + (101 # 100) /\ ((rank cj < rank ci)%nat -> high d seg' = low d seg').
Proof.
  intros Oo V R E d a total space n Mod Sp Le i j ci cj seg seg' Ci Cj Si Sj Nj Rk Sh. destruct (solved order fuel vs l area segs sps Oo V R E Mod Sp Le) as (start & stop & Pl & H & _). fold d a total space n in Pl, H.
  destruct (Pl i seg Si) as (_ & Li & Hi & Oi & _). destruct (Pl j seg' Sj) as (_ & Lj & Hj & Oj & _).
  assert (Near : forall q, inject_Z (to_cells (q * 100)) <= q + (505 # 1000) /\ q - (505 # 1000) <= inject_Z (to_cells (q * 100))) by (intros q; pose proof (cells_near q) as N; unfold stands_for in N; apply Qabs_Qle_condition in N; lra).
  assert (Sh' : stop i - start i < asks total ci).
  { destruct Sh as [Sh|(m & Em & Sh)].
    - rewrite inject_minus, Li, Hi in Sh. pose proof (Near (start i)). pose proof (Near (stop i)). lra.
    - destruct (Qlt_le_dec (stop i - start i) (asks total ci)) as [Y|Y]; [exact Y|]. exfalso. rewrite Em in Y. destruct (Z.le_gt_cases 0 m) as [M0|M0]; [|rewrite Li, Hi in Sh; pose proof (cells_mono (start i * 100) (stop i * 100) ltac:(lra)); lia]. pose proof (cells_plus (start i * 100) (stop i * 100) m M0 ltac:(lra)). rewrite Li, Hi in Sh. lia. }
  destruct (H i ci Ci Rk Sh') as [_ H2]. specialize (H2 j cj Cj (fun Y => Nj (eq_sym Y))). split.
  - rewrite inject_minus, Lj, Hj. pose proof (Near (start j)). pose proof (Near (stop j)). lra.
  - intros Lt. rewrite Lj, Hj. apply cells_eq. unfold entitled in H2. destruct (Nat.leb_spec (rank ci) (rank cj)); [lia|]. lra.
Qed.
(** ** C91: if what the constraints of rank [p] and higher ask for fits, with the spaces, all of them get it, whatever the others ask *)
Theorem C91_honoured_partial order fuel vs l area segs sps : any_order order -> vars_ok vs l -> regular order fuel vs l area -> M_Layout.split order fuel vs l area = Splits segs sps ->
  let d := l_direction l in let a := inner area (l_padding l) in let total := (high d a - low d a)%Z in let space := cells_between l in let n := length (l_constraints l) in
  moderate l -> (0 <= space)%Z -> ((Z.of_nat n - 1) * space <= total)%Z ->
  forall p, (2 <= p)%nat -> sum_of (entitled total p) (l_constraints l) + inject_Z ((Z.of_nat n - 1) * space) <= inject_Z total ->
  forall i c seg, nth_error (l_constraints l) i = Some c -> nth_error segs i = Some seg -> (p <= rank c)%nat ->
  asks total c - (101 # 100) <= inject_Z (high d seg - low d seg) /\ (forall m, asks total c == inject_Z m -> (m <= high d seg - low d seg)%Z).
Proof.
  intros Oo V R E d a total space n Mod Sp Le p Hp Fit i c seg Ci Si Rk. destruct (solved order fuel vs l area segs sps Oo V R E Mod Sp Le) as (start & stop & Pl & H & _). fold d a total space n in Pl, H.
  assert (Enough : asks total c <= stop i - start i).
  { destruct (Qlt_le_dec (stop i - start i) (asks total c)) as [Sh|Sh]; [exfalso|exact Sh]. destruct (H i c Ci ltac:(lia) Sh) as [Sm Ot]. rewrite inject_minus in Sm. pose proof (con_sum l (entitled total p)) as Cs. fold n in Cs. rewrite Cs in Fit.
    assert (Hi : (i < n)%nat) by (apply nth_error_Some; unfold n; congruence). assert (Cc : forall k, (k < n)%nat -> nth_error (l_constraints l) k = Some (con (l_constraints l) k)) by (intros k Hk; unfold con; now apply nth_error_nth'). assert (Cci : con (l_constraints l) i = c) by (unfold con; now apply nth_error_nth).
    assert (Lt : sum_of (fun k => stop k - start k) (seq 0 n) < sum_of (fun k => entitled total p (con (l_constraints l) k)) (seq 0 n)); [|lra].
    assert (Own : stop i - start i < entitled total p (con (l_constraints l) i)) by (rewrite Cci; unfold entitled; destruct (Nat.leb_spec p (rank c)); [|lia]; pose proof (Q.le_max_r 0 (asks total c)); lra).
    apply (sum_lt _ _ _ i); [|apply in_seq; lia|exact Own]. intros k I. apply in_seq in I. destruct (Nat.eq_dec k i) as [->|Nk]; [lra|]. apply Qle_trans with (1 := Ot k _ (Cc k ltac:(lia)) Nk). unfold entitled. destruct (Nat.leb_spec (rank c) (rank (con (l_constraints l) k))), (Nat.leb_spec p (rank (con (l_constraints l) k))); try lia; try apply Qle_refl. apply Q.le_max_l. }
  destruct (Pl i seg Si) as (_ & Li & Hi & Oi & _). split.
  - rewrite inject_minus, Li, Hi. pose proof (cells_near (start i)) as N1. pose proof (cells_near (stop i)) as N2. unfold stands_for in *. apply Qabs_Qle_condition in N1. apply Qabs_Qle_condition in N2. lra.
  - intros m Em. rewrite Li, Hi. destruct (Z.le_gt_cases 0 m) as [M0|M0]; [|pose proof (cells_mono (start i * 100) (stop i * 100) ltac:(lra)); lia]. pose proof (cells_plus (start i * 100) (stop i * 100) m M0 ltac:(lra)). lia.
Qed.
(** ** C91: with any flex but the legacy one (and space between two or more) no segment with a length, a maximum, a percentage or a ratio is longer
    than it asks to be *)
Theorem C91_no_longer_partial order fuel vs l area segs sps : any_order order -> vars_ok vs l -> regular order fuel vs l area -> M_Layout.split order fuel vs l area = Splits segs sps ->
  let d := l_direction l in let a := inner area (l_padding l) in let total := (high d a - low d a)%Z in let space := cells_between l in let n := length (l_constraints l) in
  moderate l -> (0 <= space)%Z -> ((Z.of_nat n - 1) * space <= total)%Z -> l_flex l <> FlexLegacy -> (l_flex l = FlexSpaceBetween -> (2 <= n)%nat) ->
  forall i c seg, nth_error (l_constraints l) i = Some c -> nth_error segs i = Some seg -> takes_rest (l_flex l) c = false ->
  inject_Z (high d seg - low d seg) <= Qmax 0 (asks total c) + (101 # 100) /\ (forall m, asks total c == inject_Z m -> (0 <= low d a)%Z -> (0 <= m)%Z -> (high d seg - low d seg <= m)%Z).
Proof.
  intros Oo V R E d a total space n Mod Sp Le Nl Nb i c seg Ci Si Tk. destruct (solved order fuel vs l area segs sps Oo V R E Mod Sp Le) as (start & stop & Pl & _ & H). fold d a total space n in Pl, H.
  assert (Enough : stop i - start i <= Qmax 0 (asks total c)) by (destruct (Qlt_le_dec (Qmax 0 (asks total c)) (stop i - start i)) as [L|L]; [exfalso|exact L]; destruct (H i c Ci Tk L) as [[Y|[Y1 Y2]] _]; [contradiction|specialize (Nb Y1); lia]).
  destruct (Pl i seg Si) as (_ & Li & Hi & Oi & Lo). split.
  - rewrite inject_minus, Li, Hi. pose proof (cells_near (start i)) as N1. pose proof (cells_near (stop i)) as N2. unfold stands_for in *. apply Qabs_Qle_condition in N1. apply Qabs_Qle_condition in N2. lra.
  - intros m Em L0 M0. rewrite Em in Enough. assert (Mq : 0 <= inject_Z m) by (change 0 with (inject_Z 0); now rewrite <- Zle_Qle). rewrite Q.max_r in Enough by exact Mq. rewrite Li, Hi. assert (L0q : 0 <= inject_Z (low d a)) by (change 0 with (inject_Z 0); now rewrite <- Zle_Qle).
    pose proof (cells_mono (stop i * 100) (start i * 100 + inject_Z m * 100) ltac:(lra)) as M1. rewrite (cells_shift (start i * 100) (start i * 100 + inject_Z m * 100) m ltac:(lra) M0 ltac:(reflexivity)) in M1. lia.
Qed.
End Tolerance.

(** ** C91 for layouts of few enough names, without any condition on the run: lengths, minimums and the rest in the exact model of the solver *)
Section Few.
#[local] Existing Instance no_tolerance.
Theorem C91_few_honoured_partial order fuel vs l area segs sps : any_order order -> vars_ok vs l -> few_names l -> M_Layout.split order fuel vs l area = Splits segs sps ->
  let d := l_direction l in let a := inner area (l_padding l) in let total := (high d a - low d a)%Z in let space := cells_between l in let n := length (l_constraints l) in
  moderate l -> (0 <= space)%Z -> ((Z.of_nat n - 1) * space <= total)%Z ->
  forall p, (2 <= p)%nat -> sum_of (entitled total p) (l_constraints l) + inject_Z ((Z.of_nat n - 1) * space) <= inject_Z total ->
  forall i c seg, nth_error (l_constraints l) i = Some c -> nth_error segs i = Some seg -> (p <= rank c)%nat ->
  asks total c - (101 # 100) <= inject_Z (high d seg - low d seg) /\ (forall m, asks total c == inject_Z m -> (m <= high d seg - low d seg)%Z).
Proof. intros Oo V N E. exact (C91_honoured_partial order fuel vs l area segs sps Oo V (few_regular order fuel vs l area Oo V N) E). Qed.
Theorem C91_few_cells_partial order fuel vs l area segs sps : any_order order -> vars_ok vs l -> few_names l -> M_Layout.split order fuel vs l area = Splits segs sps ->
  let d := l_direction l in let a := inner area (l_padding l) in let total := (high d a - low d a)%Z in let space := cells_between l in let n := length (l_constraints l) in
  moderate l -> (0 <= space)%Z -> ((Z.of_nat n - 1) * space <= total)%Z ->
  forall i j ci cj seg seg', nth_error (l_constraints l) i = Some ci -> nth_error (l_constraints l) j = Some cj -> nth_error segs i = Some seg -> nth_error segs j = Some seg' -> i <> j ->
  (2 <= rank ci)%nat -> inject_Z (high d seg - low d seg) + 2 <= asks total ci \/ (exists m, asks total ci == inject_Z m /\ (high d seg - low d seg < m)%Z) ->
  inject_Z (high d seg' - low d seg') <= entitled total (rank ci) cj + (101 # 100) /\ ((rank cj < rank ci)%nat -> high d seg' = low d seg').
Proof. intros Oo V N E. exact (C91_cells_partial order fuel vs l area segs sps Oo V (few_regular order fuel vs l area Oo V N) E). Qed.
End Few.

#[local] Existing Instance code_tolerance.
(** ** C91 does not hold for filling segments of enormous weight: Fill(3000000) leaves Min(10) nothing of a hundred cells *)
Definition heavy : layout := Layout DirHorizontal [LMin 10; LFill 3000000] (Padding 0 0 0 0) FlexStart (SpSpace 0).
Theorem C91_heavy_fill_refuted : ~ (forall order fuel vs l area segs sps, any_order order -> vars_ok vs l -> regular order fuel vs l area -> M_Layout.split order fuel vs l area = Splits segs sps ->
  forall i j ci cj seg seg' m, nth_error (l_constraints l) i = Some ci -> nth_error (l_constraints l) j = Some cj -> nth_error segs i = Some seg -> nth_error segs j = Some seg' -> cells_between l = 0%Z ->
  (2 <= rank ci)%nat -> (rank cj < rank ci)%nat -> asks (rw area) ci == inject_Z m -> (high (l_direction l) seg - low (l_direction l) seg < m)%Z -> high (l_direction l) seg' = low (l_direction l) seg').
Proof.
  intros H. assert (E : exists sps, M_Layout.split keep_order 1000 (vars_for (l_constraints heavy)) heavy (Rect 0 0 100 1) = Splits [Rect 0 0 0 1; Rect 0 0 100 1] sps) by (eexists; vm_compute; reflexivity). destruct E as [sps E].
  specialize (H keep_order 1000%nat (vars_for (l_constraints heavy)) heavy (Rect 0 0 100 1) _ sps ltac:(intros k m; apply Permutation_refl) (vars_for_ok _) ltac:(apply regular_run_ok; vm_compute; reflexivity) E 0%nat 1%nat (LMin 10) (LFill 3000000) (Rect 0 0 0 1) (Rect 0 0 100 1) 10%Z).
  specialize (H eq_refl eq_refl eq_refl eq_refl eq_refl ltac:(cbn; lia) ltac:(cbn; lia) ltac:(reflexivity) ltac:(cbn; lia)). discriminate H.
Qed.

(** *** Instances: too much of everything; and a layout of lengths that fit with whatever else is there. *)
Definition crowded : layout := Layout DirHorizontal [LMin 60; LLen 60; LPercentage 50; LMax 3; LFill 2] (Padding 0 0 0 0) FlexStart (SpSpace 0).
Definition toolbar : layout := Layout DirVertical [LLen 3; LPercentage 90; LFill 1; LLen 2] (Padding 0 0 0 0) FlexStart (SpSpace 1).
Example C91_instance :
  regular keep_order 1000 (vars_for (l_constraints crowded)) crowded (Rect 0 0 100 1) /\ moderate crowded /\
  (exists sps, M_Layout.split keep_order 1000 (vars_for (l_constraints crowded)) crowded (Rect 0 0 100 1) = Splits [Rect 0 0 60 1; Rect 60 0 40 1; Rect 100 0 0 1; Rect 100 0 0 1; Rect 100 0 0 1] sps) /\
  regular keep_order 1000 (vars_for (l_constraints toolbar)) toolbar (Rect 0 0 9 20) /\ moderate toolbar /\
  sum_of (entitled 20 5) (l_constraints toolbar) + inject_Z ((4 - 1) * 1) <= inject_Z 20 /\ ~ sum_of (entitled 20 4) (l_constraints toolbar) + inject_Z ((4 - 1) * 1) <= inject_Z 20 /\
  (exists sps, M_Layout.split keep_order 1000 (vars_for (l_constraints toolbar)) toolbar (Rect 0 0 9 20) = Splits [Rect 0 0 9 3; Rect 0 4 9 12; Rect 0 17 9 0; Rect 0 18 9 2] sps).
Proof.
  split; [apply regular_run_ok; vm_compute; reflexivity|]. split; [vm_compute; split; intros; (discriminate || lia)|]. split; [eexists; vm_compute; reflexivity|].
  split; [apply regular_run_ok; vm_compute; reflexivity|]. split; [vm_compute; split; intros; (discriminate || lia)|]. split; [vm_compute; discriminate|]. split; [intros H; vm_compute in H; now apply H|]. eexists; vm_compute; reflexivity.
Qed.
Print Assumptions C91_gives_way_partial.
Print Assumptions C91_cells_partial.
Print Assumptions C91_honoured_partial.
Print Assumptions C91_no_longer_partial.
Print Assumptions C91_few_honoured_partial.
Print Assumptions C91_few_cells_partial.
Print Assumptions C91_heavy_fill_refuted.
