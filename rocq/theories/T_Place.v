(** C60, C61, C62: where the segments of a layout are when there is room for all of them. *)
From Verif Require Import Base P_Base M_Geom M_Combin M_Solver M_Layout S_Solver S_Layout S_Place P_Row P_Layout P_Sum P_Place P_Placed T_Solver T_Layout.
From Coq Require Import ZArith NArith QArith Qround Qabs List Bool Lia Lqa Setoid.
Import ListNotations.
Open Scope Q_scope.
Section Tolerance.
Context {tolr : tolerance}.

(** ** Rounding *)
Lemma round_near q : Qabs (inject_Z (round_q q) - q) <= 1 # 2.
Proof.
  unfold round_q. apply Qabs_Qle_condition. destruct (qltb q 0).
  - pose proof (Qfloor_le (- q + (1 # 2))) as A. pose proof (Qlt_floor (- q + (1 # 2))) as B. rewrite inject_Z_plus in B. rewrite inject_Z_opp. change (inject_Z 1) with 1 in B. lra.
  - pose proof (Qfloor_le (q + (1 # 2))) as A. pose proof (Qlt_floor (q + (1 # 2))) as B. rewrite inject_Z_plus in B. change (inject_Z 1) with 1 in B. lra.
Qed.
Lemma cells_near q : stands_for (to_cells (q * 100)) q.
Proof.
  unfold stands_for. rewrite cells_is. unfold multiplier. set (r := round_q (q * 100)). assert (D : inject_Z r / 100 == (1 # 100) * inject_Z r) by field.
  pose proof (round_near (inject_Z r / 100)) as A. pose proof (round_near (q * 100)) as B. fold r in B. apply Qabs_Qle_condition in A. apply Qabs_Qle_condition in B. apply Qabs_Qle_condition. set (t := inject_Z r / 100) in *. clearbody t. destruct A as [A1 A2]. destruct B as [B1 B2]. split; lra.
Qed.
Lemma stands_eq z p q : p == q -> stands_for z p -> stands_for z q.
Proof. unfold stands_for. intros E H. rewrite <- E. exact H. Qed.
Lemma stands_int z w q : stands_for z q -> q == inject_Z w -> z = w.
Proof.
  unfold stands_for. intros H E. apply Qabs_Qle_condition in H. rewrite E in H. assert (A : inject_Z z < inject_Z (w + 1)) by (rewrite inject_Z_plus; change (inject_Z 1) with 1; lra). assert (B : inject_Z w < inject_Z (z + 1)) by (rewrite inject_Z_plus; change (inject_Z 1) with 1; lra). rewrite <- Zlt_Qlt in A, B. lia.
Qed.

(** ** The rectangles *)
Definition slab (d : direction) (a : rect) (lo hi : Z) : rect :=
  match d with DirHorizontal => Rect lo (ry a) (Z.max 0 (hi - lo)) (rh a) | DirVertical => Rect (rx a) lo (rw a) (Z.max 0 (hi - lo)) end.
Lemma placed_rects order fuel vs l area segs sps : any_order order -> vars_ok vs l -> regular order fuel vs l area -> M_Layout.split order fuel vs l area = Splits segs sps ->
  let a := inner area (l_padding l) in let n := length (l_constraints l) in
  let total := (snd (bounds l area) - fst (bounds l area))%Z in
  fits (l_flex l) total (cells_between l) (map (demand_of (l_flex l) total) (l_constraints l)) ->
  segs = map (fun i => slab (l_direction l) a (to_cells (intended l area (2 * i + 1))) (to_cells (intended l area (2 * i + 2)))) (seq 0 n) /\
  sps = map (fun i => slab (l_direction l) a (to_cells (intended l area (2 * i))) (to_cells (intended l area (2 * i + 1)))) (seq 0 (S n)).
Proof.
  intros Oo V R E a n total Fit. destruct (split_solution order fuel vs l area segs sps Oo V R E) as (cs & x & Ep & Fe & Op & -> & ->).
  pose proof (placed vs l area cs x V Ep Fe Op Fit) as P. fold n in P. destruct V as [Nd Lv]. fold n in Lv.
  assert (Nn : (1 <= n)%nat). { pose proof (fits_some _ _ _ _ Fit) as H. unfold n. destruct (l_constraints l); [elim H; reflexivity|cbn; lia]. }
  rewrite (spacers_eq vs n Lv), (segs_eq vs n Lv) by exact Nn. rewrite !map_map. split; apply map_ext_in; intros i I; apply in_seq in I; unfold edges; cbn [seg_el sp_el el_start el_end].
  - rewrite (cells_eq _ _ (P (2 * i + 1)%nat ltac:(lia))), (cells_eq _ _ (P (2 * i + 2)%nat ltac:(lia))). reflexivity.
  - rewrite (cells_eq _ _ (P (2 * i)%nat ltac:(lia))), (cells_eq _ _ (P (2 * i + 1)%nat ltac:(lia))). reflexivity.
Qed.
Lemma slab_low d a lo hi : low d (slab d a lo hi) = lo. Proof. destruct d; reflexivity. Qed.
Lemma slab_high d a lo hi : (lo <= hi)%Z -> high d (slab d a lo hi) = hi. Proof. destruct d; cbn; lia. Qed.
Lemma bounds_eq l area : bounds l area = (low (l_direction l) (inner area (l_padding l)), high (l_direction l) (inner area (l_padding l))).
Proof. unfold bounds. destruct (l_direction l); reflexivity. Qed.

(** ** C60: a segment that has room starts and ends where the specification puts it, whatever the order in which the solver's maps are
    walked: after the segments and the spaces before it, and as long as it asked to be, or its share of the room that is left. *)
Theorem C60_placed_partial order fuel vs l area segs sps : any_order order -> vars_ok vs l -> regular order fuel vs l area -> M_Layout.split order fuel vs l area = Splits segs sps ->
  let d := l_direction l in let a := inner area (l_padding l) in
  let total := (high d a - low d a)%Z in let space := cells_between l in
  let ds := map (demand_of (l_flex l) total) (l_constraints l) in
  fits (l_flex l) total space ds ->
  length segs = length ds /\
  forall k seg dm, nth_error segs k = Some seg -> nth_error ds k = Some dm ->
    let start := inject_Z (low d a) + offset (l_flex l) total space ds k in
    stands_for (low d seg) start /\ stands_for (high d seg) (start + share total space ds dm).
Proof.
  intros Oo V R E d a total space ds Fit. pose proof (placed_rects order fuel vs l area segs sps Oo V R E) as P. cbv zeta in P. rewrite (bounds_eq l area) in P. cbn [fst snd] in P. fold d a in P. fold total in P. destruct (P Fit) as [Es _]. clear P.
  split; [rewrite Es; unfold ds; now rewrite !map_length, seq_length|].
  intros k seg dm Ks Kd start. assert (Hk : (k < length (l_constraints l))%nat). { apply nth_error_Some. intros N. unfold ds in Kd. rewrite nth_error_map, N in Kd. discriminate. }
  rewrite Es, nth_error_map in Ks. rewrite (nth_error_nth' _ 0%nat) in Ks by now rewrite seq_length. rewrite seq_nth in Ks by exact Hk. rewrite Nat.add_0_l in Ks. cbn [option_map] in Ks. injection Ks as <-.
  pose proof (intended_start l area k Hk) as A. pose proof (intended_end l area k Hk) as B. rewrite (bounds_eq l area) in A, B. cbn [fst snd] in A, B. fold d a in A, B. fold total in A, B. fold space ds in A, B.
  assert (Dk : dem (l_flex l) total (l_constraints l) k = dm). { unfold ds in Kd. rewrite nth_error_map, (nth_error_nth' _ (LFill 0)) in Kd by exact Hk. injection Kd as <-. reflexivity. }
  rewrite Dk in B. set (p := intended l area (2 * k + 1)) in *. set (q := intended l area (2 * k + 2)) in *.
  assert (A' : p == start * 100) by (rewrite A; unfold start; ring). assert (B' : q == (start + share total space ds dm) * 100) by (rewrite B; unfold start; ring).
  assert (S0 : 0 <= share total space ds dm) by (apply (fits_sizes _ _ _ _ Fit); now apply nth_error_In in Kd).
  change (k + (k + 0))%nat with (2 * k)%nat. fold p q. clearbody p q. rewrite slab_low, slab_high by (apply cells_mono; rewrite A', B'; clear -S0; clearbody start; set (u := share total space ds dm) in *; clearbody u; lra). rewrite (cells_eq _ _ A'), (cells_eq _ _ B'). split; apply cells_near.
Qed.

(** Lengths, one after the other: the coordinates are exact. *)
Definition total_of (l : list Z) : Z := fold_right Z.add 0%Z l.
Lemma sum_lengths (f : demand -> Q) g (ns : list Z) : (forall z, f (Exactly (inject_Z z)) == inject_Z (g z)) -> sum_of f (map (fun z => Exactly (inject_Z z)) ns) == inject_Z (total_of (map g ns)).
Proof. intros H. induction ns as [|z ns IH]; [reflexivity|]. cbn [map sum_of total_of fold_right]. rewrite H, IH, inject_Z_plus. reflexivity. Qed.
Lemma total_plus s ns : (total_of (map (fun z => z + s) ns) = total_of ns + Z.of_nat (length ns) * s)%Z.
Proof. induction ns as [|z ns IH]; [reflexivity|]. cbn [map total_of fold_right length] in *. unfold total_of in *. rewrite IH. lia. Qed.
Lemma total_firstn ns k z : (forall z, In z ns -> 0 <= z)%Z -> nth_error ns k = Some z -> (0 <= total_of (firstn k ns) /\ total_of (firstn k ns) + z <= total_of ns)%Z.
Proof.
  revert k. induction ns as [|w ns IH]; intros k P E; [destruct k; discriminate|]. assert (T : (0 <= total_of ns)%Z). { clear -P. induction ns as [|v ns IH]; [reflexivity|]. cbn. assert (0 <= v)%Z by (apply P; right; now left). assert (0 <= total_of ns)%Z by (apply IH; intros u [<-|I]; apply P; [now left|right; now right]). unfold total_of in *. lia. }
  assert (0 <= w)%Z by (apply P; now left). destruct k as [|k]; cbn [firstn nth_error] in *; [injection E as <-; cbn; unfold total_of in *; cbn; lia|]. destruct (IH k (fun v I => P v (or_intror I)) E) as [A B]. cbn. unfold total_of in *. lia.
Qed.
Theorem C60_lengths_partial order fuel vs l area segs sps ns s : any_order order -> vars_ok vs l -> regular order fuel vs l area -> M_Layout.split order fuel vs l area = Splits segs sps ->
  let d := l_direction l in let a := inner area (l_padding l) in
  l_flex l = FlexStart -> l_spacing l = SpSpace s -> l_constraints l = map LLen ns -> (0 <= s)%Z -> (forall z, In z ns -> 0 <= z)%Z ->
  (total_of ns + (Z.of_nat (length ns) - 1) * s <= high d a - low d a)%Z ->
  length segs = length ns /\
  forall k z seg, nth_error ns k = Some z -> nth_error segs k = Some seg ->
    low d seg = (low d a + total_of (firstn k ns) + Z.of_nat k * s)%Z /\ (high d seg = low d seg + z)%Z.
Proof.
  intros Oo V R E d a Fl Sp Cs S0 Z0 Room. destruct ns as [|n0 ns0].
  { pose proof (C34_pieces_partial order fuel vs l area segs sps Oo V R E) as C. cbv zeta in C. destruct C as [C _]. rewrite Cs in C. split; [exact C|]. intros k z seg Kz. destruct k; discriminate. }
  set (ns := n0 :: ns0) in *. assert (Nn : (1 <= length ns)%nat) by (cbn; lia). clearbody ns.
  pose proof (C60_placed_partial order fuel vs l area segs sps Oo V R E) as P. cbv zeta in P. fold d a in P. set (total := (high d a - low d a)%Z) in *. assert (Sb : cells_between l = s) by (unfold cells_between; now rewrite Sp). rewrite Sb, Cs, Fl, map_map in P. cbn [demand_of] in P. set (ds := map (fun z => Exactly (inject_Z z)) ns) in *.
  assert (Ng : someone_grows ds = false) by (unfold someone_grows, ds; clear; induction ns; [reflexivity|assumption]).
  assert (Of : forall k, (k <= length ns)%nat -> offset FlexStart total s ds k == inject_Z (total_of (firstn k ns) + Z.of_nat k * s)).
  { intros k Hk. unfold offset, before, gap. rewrite Ng. unfold ds. rewrite firstn_map, (sum_lengths _ (fun z => z + s)%Z); [|intros z; cbn [share]; rewrite inject_Z_plus; reflexivity]. rewrite total_plus, firstn_length_le by exact Hk. ring. }
  assert (Nth : forall k dm, nth_error ds k = Some dm -> exists z, nth_error ns k = Some z /\ dm = Exactly (inject_Z z)) by (intros k dm K; unfold ds in K; rewrite nth_error_map in K; destruct (nth_error ns k) as [z|]; [injection K as <-; eauto|discriminate]).
  assert (Fit : fits FlexStart total s ds).
  { split.
    - intros H. assert (length ds = 0%nat) by now rewrite H. unfold ds in H0. rewrite map_length in H0. lia.
    - intros w m I. unfold ds in I. apply in_map_iff in I. destruct I as (z & I & _). discriminate.
    - intros dm I. unfold ds in I. apply in_map_iff in I. destruct I as (z & <- & I). cbn. change 0 with (inject_Z 0). rewrite <- Zle_Qle. now apply Z0.
    - intros k dm K. destruct (Nth k dm K) as (z & Kz & ->). assert (Hk : (k < length ns)%nat) by (apply nth_error_Some; congruence). rewrite Of by lia. cbn [share]. rewrite <- inject_Z_plus. change 0 with (inject_Z 0). rewrite <- !Zle_Qle. pose proof (total_firstn ns k z Z0 Kz). nia.
    - trivial. }
  destruct (P Fit) as [L H]. unfold ds in L. rewrite map_length in L. split; [exact L|]. intros k z seg Kz Ks. assert (Hk : (k < length ns)%nat) by (apply nth_error_Some; congruence).
  assert (Kd : nth_error ds k = Some (Exactly (inject_Z z))) by (unfold ds; now rewrite nth_error_map, Kz). destruct (H k seg _ Ks Kd) as [A B].
  rewrite (stands_int _ (low d a + total_of (firstn k ns) + Z.of_nat k * s) _ A) in * by (rewrite Of by lia; rewrite <- inject_Z_plus; apply inject_Z_injective; lia).
  split; [reflexivity|]. apply (stands_int _ _ _ B). rewrite Of by lia. cbn [share]. rewrite <- !inject_Z_plus. apply inject_Z_injective. lia.
Qed.

(** ** C61: the order in which the solver's maps are walked does not show. *)
Theorem C61_same_partial order fuel vs order' fuel' vs' l area segs sps segs' sps' :
  any_order order -> vars_ok vs l -> regular order fuel vs l area -> M_Layout.split order fuel vs l area = Splits segs sps ->
  any_order order' -> vars_ok vs' l -> regular order' fuel' vs' l area -> M_Layout.split order' fuel' vs' l area = Splits segs' sps' ->
  let d := l_direction l in let a := inner area (l_padding l) in let total := (high d a - low d a)%Z in
  fits (l_flex l) total (cells_between l) (map (demand_of (l_flex l) total) (l_constraints l)) ->
  segs = segs' /\ sps = sps'.
Proof.
  intros Oo V R E Oo' V' R' E' d a total Fit. pose proof (placed_rects order fuel vs l area segs sps Oo V R E) as P. pose proof (placed_rects order' fuel' vs' l area segs' sps' Oo' V' R' E') as P'. cbv zeta in P, P'. rewrite (bounds_eq l area) in P, P'. cbn [fst snd] in P, P'. destruct (P Fit) as [-> ->]. destruct (P' Fit) as [-> ->]. split; reflexivity.
Qed.

(** ** C62: the flex called space-around leaves no space around: the first segment starts where the area starts, the last ends where it
    ends, and every segment is where space-between puts it. *)
Theorem C62_space_around_refuted order fuel vs order' fuel' vs' l l' area segs sps segs' sps' :
  l_flex l = FlexSpaceAround -> l' = Layout (l_direction l) (l_constraints l) (l_padding l) FlexSpaceBetween (l_spacing l) ->
  any_order order -> vars_ok vs l -> regular order fuel vs l area -> M_Layout.split order fuel vs l area = Splits segs sps ->
  any_order order' -> vars_ok vs' l' -> regular order' fuel' vs' l' area -> M_Layout.split order' fuel' vs' l' area = Splits segs' sps' ->
  let d := l_direction l in let a := inner area (l_padding l) in let total := (high d a - low d a)%Z in
  let ds := map (demand_of FlexSpaceAround total) (l_constraints l) in
  fits FlexSpaceAround total (cells_between l) ds ->
  segs = segs' /\ (forall seg, nth_error segs 0 = Some seg -> low d seg = low d a) /\ (someone_grows ds = false -> forall seg, nth_error segs (length segs - 1) = Some seg -> high d seg = high d a).
Proof.
  intros Fl El Oo V R E Oo' V' R' E' d a total ds Fit.
  assert (Eb : bounds l' area = bounds l area) by (subst l'; reflexivity).
  pose proof (placed_rects order fuel vs l area segs sps Oo V R E) as P. pose proof (placed_rects order' fuel' vs' l' area segs' sps' Oo' V' R' E') as P'. cbv zeta in P, P'. rewrite Eb in P'. rewrite (bounds_eq l area) in P, P'. cbn [fst snd] in P, P'. fold d a in P, P'. fold total in P, P'. rewrite Fl in P.
  assert (Ed : map (demand_of FlexSpaceBetween total) (l_constraints l) = ds) by (unfold ds; apply map_ext; intros []; reflexivity).
  assert (Fit' : fits FlexSpaceBetween total (cells_between l) ds) by (destruct Fit as [F1 F2 F3 F4 F5]; split; assumption).
  destruct (P Fit) as [Es _]. assert (Eg : cells_between l' = cells_between l) by (rewrite El; reflexivity). assert (G1 : l_flex l' = FlexSpaceBetween) by (rewrite El; reflexivity). assert (G2 : l_direction l' = d) by (rewrite El; reflexivity). assert (G3 : l_constraints l' = l_constraints l) by (rewrite El; reflexivity). assert (G4 : inner area (l_padding l') = a) by (rewrite El; reflexivity). rewrite G1, G2, G3, G4, Eg, Ed in P'. destruct (P' Fit') as [Es' _]. clear P P'.
  assert (In_eq : forall j, intended l' area j = intended l area j).
  { intros j. unfold intended. rewrite Eb, Eg. rewrite El. cbn [l_flex l_constraints]. rewrite Fl. unfold dem, con. rewrite (bounds_eq l area). cbn [fst snd]. fold d a. fold total. rewrite Ed. fold ds. assert (D : demand_of FlexSpaceBetween total (nth (Nat.div2 (j - 1)) (l_constraints l) (LFill 0)) = demand_of FlexSpaceAround total (nth (Nat.div2 (j - 1)) (l_constraints l) (LFill 0))) by (destruct (nth _ _ _); reflexivity). rewrite D. reflexivity. }
  split. { rewrite Es, Es'. apply map_ext. intros i. rewrite !In_eq. reflexivity. }
  pose proof (C60_placed_partial order fuel vs l area segs sps Oo V R E) as C. cbv zeta in C. fold d a in C. fold total in C. rewrite Fl in C. fold ds in C. destruct (C Fit) as [L H]. clear C.
  split.
  - intros seg K. destruct ds as [|d0 ds'] eqn:Dd; [elim (fits_some _ _ _ _ Fit); reflexivity|]. destruct (H 0%nat seg d0 K eq_refl) as [A _]. apply (stands_int _ _ _ A). unfold offset, before. cbn [firstn sum_of]. destruct (someone_grows _); ring.
  - intros Ng seg K. rewrite L in K. assert (Hl : (length ds - 1 < length ds)%nat) by (destruct ds; [elim (fits_some _ _ _ _ Fit); reflexivity|cbn; lia]).
    assert (Kd : exists dm, nth_error ds (length ds - 1) = Some dm) by (destruct (nth_error ds (length ds - 1)) eqn:N; [eauto|apply nth_error_None in N; lia]). destruct Kd as (dm & Kd). destruct (H _ seg dm K Kd) as [_ B]. apply (stands_int _ _ _ B). clear B H K.
    assert (Two : (2 <= length ds)%nat) by (apply (fits_flex _ _ _ _ Fit Ng)).
    assert (Sp : ds = firstn (length ds - 1) ds ++ [dm]). { clear -Kd Hl. rewrite <- (firstn_skipn (length ds - 1) ds) at 1. f_equal. remember (length ds - 1)%nat as k eqn:Ek. assert (Hk : length ds = S k) by lia. clear Ek Hl. clearbody ds. revert ds Hk Kd. induction k as [|k IH]; intros [|b ds] Hk Kd; try discriminate; cbn in *; [injection Kd as ->; destruct ds; [reflexivity|discriminate]|]. apply IH; [lia|exact Kd]. }
    assert (Sh : forall m, incl m ds -> sum_of (fun d => share total (cells_between l) ds d + gap FlexSpaceAround total (cells_between l) ds) m == sum_of fixed_size m + inject_Z (Z.of_nat (length m)) * gap FlexSpaceAround total (cells_between l) ds).
    { intros m I. induction m as [|b m IH]; [cbn; ring|]. cbn [sum_of length]. rewrite IH by (intros u U; apply I; now right). rewrite Nat2Z.inj_succ, <- Z.add_1_l, inject_Z_plus. change (inject_Z 1) with 1. assert (J : In b ds) by (apply I; now left). assert (Gb : grows b = false) by (unfold someone_grows in Ng; destruct (grows b) eqn:G; [|reflexivity]; assert (existsb grows ds = true) by (apply existsb_exists; eauto); congruence). destruct b as [q|w m']; [cbn [share fixed_size]; ring|discriminate]. }
    assert (Gd : grows dm = false) by (apply nth_error_In in Kd; unfold someone_grows in Ng; destruct (grows dm) eqn:G; [|reflexivity]; assert (existsb grows ds = true) by (apply existsb_exists; eauto); congruence).
    assert (Fs : sum_of fixed_size ds == sum_of fixed_size (firstn (length ds - 1) ds) + share total (cells_between l) ds dm). { rewrite Sp at 1. rewrite sum_app. cbn [sum_of]. destruct dm; [cbn [share fixed_size]; ring|discriminate]. }
    unfold offset, before. rewrite Ng. rewrite Sh by (intros u U; rewrite <- (firstn_skipn (length ds - 1) ds); apply in_app_iff; now left). rewrite firstn_length_le by lia.
    assert (Gp : inject_Z (Z.of_nat (length ds) - 1) * gap FlexSpaceAround total (cells_between l) ds == inject_Z total - sum_of fixed_size ds). { unfold gap. rewrite Ng. field. change 0 with (inject_Z 0). rewrite inject_Z_injective. lia. }
    replace (Z.of_nat (length ds - 1)) with (Z.of_nat (length ds) - 1)%Z by lia. rewrite Gp, Fs. unfold total. rewrite inject_minus. ring.
Qed.

End Tolerance.
#[local] Existing Instance code_tolerance.

(** *** Instances *)
Definition fits_check (fl : flex) (total space : Z) (ds : list demand) : bool :=
  negb (length ds =? 0)%nat &&
  forallb (fun d => match d with Grow w m => (1 <=? w)%Z && Qle_bool (inject_Z m) (share total space ds d) | Exactly _ => true end) ds &&
  forallb (fun d => Qle_bool 0 (share total space ds d)) ds &&
  forallb (fun k => Qle_bool 0 (offset fl total space ds k) && match nth_error ds k with Some d => Qle_bool (offset fl total space ds k + share total space ds d) (inject_Z total) | None => true end) (seq 0 (length ds)) &&
  (someone_grows ds ||
   match fl with
   | FlexLegacy => Qeq_bool (room total space ds) 0
   | FlexSpaceBetween | FlexSpaceAround => (2 <=? length ds)%nat && Qle_bool (inject_Z space) (gap fl total space ds)
   | _ => true
   end).
Lemma fits_check_ok fl total space ds : fits_check fl total space ds = true -> fits fl total space ds.
Proof.
  unfold fits_check. rewrite !andb_true_iff. intros ((((A & B) & C) & D) & E). rewrite forallb_forall in B, C, D. split.
  - intros ->. discriminate.
  - intros w m I. apply B in I. cbn -[share] in I. apply andb_prop in I. destruct I as [I J]. apply Z.leb_le in I. apply Qle_bool_iff in J. auto.
  - intros d I. apply C in I. now apply Qle_bool_iff in I.
  - intros k d K. assert (Hk : In k (seq 0 (length ds))) by (apply in_seq; assert (k < length ds)%nat by (apply nth_error_Some; congruence); lia). apply D in Hk. rewrite K in Hk. apply andb_prop in Hk. destruct Hk as [H1 H2]. apply Qle_bool_iff in H1. apply Qle_bool_iff in H2. auto.
  - intros G. rewrite G in E. cbn [orb] in E. destruct fl; auto; try (now apply Qeq_bool_iff in E); apply andb_prop in E; destruct E as [E1 E2]; apply Nat.leb_le in E1; apply Qle_bool_iff in E2; auto.
Qed.
(** Thirty-four cells: 3 and 8.5 are fixed, 4 are between; the other 18.5 are shared 1 : 2 : 1. *)
Definition shared : layout := Layout DirHorizontal [LLen 3; LFill 1; LPercentage 25; LFill 2; LMin 2] (Padding 0 1 0 1) FlexCenter (SpSpace 1).
Example C60_instance :
  let area := Rect 4 2 36 5 in let a := inner area (l_padding shared) in
  fits FlexCenter 34 1 (map (demand_of FlexCenter 34) (l_constraints shared)) /\ low DirHorizontal a = 5%Z /\ high DirHorizontal a = 39%Z /\
  regular keep_order 1000 (vars_for (l_constraints shared)) shared area /\ regular (fun _ l => rev l) 1000 (vars_for (l_constraints shared)) shared area /\
  exists sps, M_Layout.split keep_order 1000 (vars_for (l_constraints shared)) shared area = Splits [Rect 5 2 3 5; Rect 9 2 5 5; Rect 15 2 8 5; Rect 24 2 9 5; Rect 34 2 5 5] sps /\
  M_Layout.split (fun _ l => rev l) 1000 (vars_for (l_constraints shared)) shared area = Splits [Rect 5 2 3 5; Rect 9 2 5 5; Rect 15 2 8 5; Rect 24 2 9 5; Rect 34 2 5 5] sps.
Proof.
  split; [apply fits_check_ok; vm_compute; reflexivity|]. split; [reflexivity|]. split; [reflexivity|]. split; [apply regular_run_ok; vm_compute; reflexivity|]. split; [apply regular_run_ok; vm_compute; reflexivity|]. eexists. split; vm_compute; reflexivity.
Qed.
Definition rows : layout := Layout DirVertical [LLen 3; LLen 5; LLen 0; LLen 2] (Padding 0 0 0 0) FlexStart (SpSpace 2).
Example C60_lengths_instance : regular keep_order 1000 (vars_for (l_constraints rows)) rows (Rect 1 1 7 20) /\ (total_of [3; 5; 0; 2] + (4 - 1) * 2 <= 20)%Z /\
  exists sps, M_Layout.split keep_order 1000 (vars_for (l_constraints rows)) rows (Rect 1 1 7 20) = Splits [Rect 1 1 7 3; Rect 1 6 7 5; Rect 1 13 7 0; Rect 1 15 7 2] sps.
Proof. split; [apply regular_run_ok; vm_compute; reflexivity|]. split; [vm_compute; discriminate|]. eexists. vm_compute. reflexivity. Qed.
Definition around (fl : flex) : layout := Layout DirHorizontal [LLen 3; LMax 4; LLen 2] (Padding 0 0 0 0) fl (SpSpace 1).
Example C62_instance : fits FlexSpaceAround 20 1 (map (demand_of FlexSpaceAround 20) (l_constraints (around FlexSpaceAround))) /\
  regular keep_order 1000 (vars_for (l_constraints (around FlexSpaceAround))) (around FlexSpaceAround) (Rect 0 0 20 1) /\ regular keep_order 1000 (vars_for (l_constraints (around FlexSpaceBetween))) (around FlexSpaceBetween) (Rect 0 0 20 1) /\
  exists sps sps', M_Layout.split keep_order 1000 (vars_for (l_constraints (around FlexSpaceAround))) (around FlexSpaceAround) (Rect 0 0 20 1) = Splits [Rect 0 0 3 1; Rect 9 0 4 1; Rect 18 0 2 1] sps /\
  M_Layout.split keep_order 1000 (vars_for (l_constraints (around FlexSpaceBetween))) (around FlexSpaceBetween) (Rect 0 0 20 1) = Splits [Rect 0 0 3 1; Rect 9 0 4 1; Rect 18 0 2 1] sps'.
Proof.
  split; [apply fits_check_ok; vm_compute; reflexivity|]. split; [apply regular_run_ok; vm_compute; reflexivity|]. split; [apply regular_run_ok; vm_compute; reflexivity|]. do 2 eexists. split; vm_compute; reflexivity.
Qed.
Print Assumptions C60_placed_partial.
Print Assumptions C60_lengths_partial.
Print Assumptions C61_same_partial.
Print Assumptions C62_space_around_refuted.
