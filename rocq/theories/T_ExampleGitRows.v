(** C106: how examples/lazygitlike divides its screen, in the code's arithmetic. *)
From Verif Require Import Base P_Base M_Geom M_Solver M_Layout M_Rounded S_Solver S_Layout S_Place S_Rounded S_Geom T_Solver T_Layout T_Place T_Exact T_Apart T_Rounded T_View M_ExampleGit.
From Coq Require Import ZArith NArith QArith List Bool Lia Lqa.
Import ListNotations.
Open Scope Z_scope.
#[local] Existing Instance no_tolerance.

(** ** Rows of so many cells, and one that takes the rest *)
Definition asks (c : lconstraint) (n : Z) : Prop := c = LLen n \/ c = LFill 1.
Lemma demands total cs sz : Forall2 asks cs sz ->
  ((length (filter is_fill cs) = 0)%nat -> (sum_of fixed_size (map (demand_of FlexLegacy total) cs) == inject_Z (zsum sz))%Q /\ (sum_of weight (map (demand_of FlexLegacy total) cs) == 0)%Q) /\
  ((length (filter is_fill cs) = 1)%nat -> exists g, (sum_of fixed_size (map (demand_of FlexLegacy total) cs) == inject_Z (zsum sz) - inject_Z g)%Q /\ (sum_of weight (map (demand_of FlexLegacy total) cs) == 1)%Q /\
     someone_grows (map (demand_of FlexLegacy total) cs) = true /\ forall k n, nth_error cs k = Some (LFill 1) -> nth_error sz k = Some n -> n = g).
Proof.
  induction 1 as [|c n cs sz A F [IH0 IH1]]; [split; [intros _; split; reflexivity|discriminate]|].
  destruct A as [-> | ->]; cbn [filter is_fill length map demand_of sum_of fixed_size weight]; rewrite zsum_cons; split; intros L.
  - destruct (IH0 L) as [E1 E2]. rewrite E1, E2, inject_Z_plus. split; lra.
  - destruct (IH1 L) as (g & E1 & E2 & E3 & E4). exists g. rewrite E1, E2, inject_Z_plus. split; [lra|]. split; [lra|]. split; [exact E3|]. intros [|k] m I J; [discriminate|]. exact (E4 k m I J).
  - discriminate.
  - injection L as L. destruct (IH0 L) as [E1 E2]. exists n. rewrite E1, E2, inject_Z_plus. split; [lra|]. split; [change (inject_Z 1) with 1%Q; lra|]. split; [reflexivity|]. intros [|k] m I J; [now injection J as ->|]. exfalso. cbn in I.
    apply nth_error_In in I. assert (In (LFill 1) (filter is_fill cs)) as I' by (apply filter_In; now split). destruct (filter is_fill cs); [contradiction|discriminate].
Qed.
Lemma nth_firstn {A} (l : list A) : forall k a, nth_error l k = Some a -> firstn (S k) l = firstn k l ++ [a].
Proof. induction l as [|b l IH]; intros [|k] a E; try discriminate; [now injection E as ->|]. cbn in E. cbn [firstn app]. f_equal. exact (IH k a E). Qed.
Lemma sz_range sz : (forall n, In n sz -> 0 <= n) -> forall k n, nth_error sz k = Some n -> 0 <= n /\ 0 <= zsum (firstn k sz) /\ zsum (firstn k sz) + n <= zsum sz.
Proof.
  intros P k n E. pose proof (P n (nth_error_In _ _ E)) as Pn. assert (Q : forall j, 0 <= zsum (firstn j sz) /\ 0 <= zsum (skipn j sz)).
  { intros j. split; apply zsum_nonneg; intros x I; apply P; rewrite <- (firstn_skipn j sz); apply in_or_app; auto. }
  destruct (Q k) as [Q1 _]. destruct (Q (S k)) as [_ Q2]. assert (T : zsum sz = zsum (firstn (S k) sz) + zsum (skipn (S k) sz)) by (rewrite <- zsum_app, firstn_skipn; reflexivity).
  rewrite (nth_firstn sz k n E), zsum_app in T. cbn [zsum fold_right] in T. change (fold_right Z.add 0 [n]) with (n + 0) in T. lia.
Qed.
Lemma exact_rows order fuel vs cs area segs sps sz : any_order order -> vars_ok vs (new_layout cs) -> whole_layout (new_layout cs) area -> sized area ->
  split64 order fuel vs (new_layout cs) area = Splits segs sps ->
  Forall2 asks cs sz -> (length (filter is_fill cs) = 1)%nat -> (forall n, In n sz -> 0 <= n) -> zsum sz = rh area ->
  length segs = length cs /\ forall k seg n, nth_error segs k = Some seg -> nth_error sz k = Some n -> seg = Rect (rx area) (ry area + zsum (firstn k sz)) (rw area) n.
Proof.
  intros Oo V Wl Sz E F One Pos Tot. pose proof (C75_pieces_partial _ _ _ _ _ _ _ Oo V Wl E) as P. cbv zeta in P. change (l_padding (new_layout cs)) with (Padding 0 0 0 0) in P. rewrite (inner_none area Sz) in P. destruct P as (Ls & _ & Pc & _).
  change (l_constraints (new_layout cs)) with cs in Ls. change (l_direction (new_layout cs)) with DirVertical in Pc. split; [exact Ls|].
  pose proof (C75_placed_partial _ _ _ _ _ _ _ Oo V Wl E) as Q. cbv zeta in Q. change (l_padding (new_layout cs)) with (Padding 0 0 0 0) in Q. rewrite (inner_none area Sz) in Q. change (l_direction (new_layout cs)) with DirVertical in Q. change (l_flex (new_layout cs)) with FlexLegacy in Q. change (cells_between (new_layout cs)) with 0 in Q. change (l_constraints (new_layout cs)) with cs in Q. cbn [low high] in Q.
  replace (ry area + rh area - ry area) with (rh area) in Q by lia. set (ds := map (demand_of FlexLegacy (rh area)) cs) in Q. destruct (demands (rh area) cs sz F) as [_ D]. destruct (D One) as (g & D1 & D2 & D3 & D4). fold ds in D1, D2, D3.
  assert (Rm : (room (rh area) 0 ds == inject_Z g)%Q) by (unfold room; rewrite D1, Tot; change (inject_Z 0) with 0%Q; lra).
  assert (Sh : forall k n d, nth_error sz k = Some n -> nth_error ds k = Some d -> (share (rh area) 0 ds d == inject_Z n)%Q).
  { intros k n d I J. unfold ds in J. rewrite nth_error_map in J. destruct (nth_error cs k) as [c|] eqn:Ec; [|discriminate]. injection J as <-. assert (A : asks c n).
    { clear - F I Ec. revert k I Ec. induction F as [|c' n' cs sz A F IH]; intros [|k] I Ec; try discriminate; [cbn in *; congruence|eapply IH; eauto]. }
    destruct A as [-> | ->]; cbn [demand_of share]; [reflexivity|]. rewrite Rm, D2, (D4 k n Ec I). change (inject_Z 1) with 1%Q. field. }
  assert (Ln : length sz = length ds) by (unfold ds; rewrite map_length; clear - F; induction F; cbn [length]; congruence).
  assert (Of : forall k, (k <= length ds)%nat -> (offset FlexLegacy (rh area) 0 ds k == inject_Z (zsum (firstn k sz)))%Q).
  { intros k Hk. unfold offset, before, gap. rewrite D3. change (inject_Z 0) with 0%Q. induction k as [|k IH]; [reflexivity|].
    destruct (nth_error ds k) as [d|] eqn:Ed; [|apply nth_error_None in Ed; lia]. destruct (nth_error sz k) as [n|] eqn:En; [|apply nth_error_None in En; lia].
    rewrite (nth_firstn ds k d Ed), (nth_firstn sz k n En), zsum_app, inject_Z_plus. assert (SA : forall (f : demand -> QArith_base.Q) l m, (sum_of f (l ++ m) == sum_of f l + sum_of f m)%Q) by (intros f l m; induction l as [|a l IHl]; cbn [app sum_of]; [lra|rewrite IHl; lra]).
    rewrite SA. cbn [sum_of]. rewrite (Sh k n d En Ed). specialize (IH ltac:(lia)). rewrite Qplus_assoc, IH. replace (zsum [n]) with n by (cbn; lia). lra. }
  assert (Bd : forall k d, nth_error ds k = Some d -> exists n, nth_error sz k = Some n /\ (k <= length ds)%nat /\ 0 <= n /\ 0 <= zsum (firstn k sz) /\ zsum (firstn k sz) + n <= rh area).
  { intros k d I. assert (Hk : (k < length ds)%nat) by (apply nth_error_Some; congruence). destruct (nth_error sz k) as [n|] eqn:En; [|apply nth_error_None in En; lia]. exists n. split; [reflexivity|]. split; [lia|]. rewrite <- Tot. exact (sz_range sz Pos k n En). }
  assert (Bi : forall d, In d ds -> exists n, (share (rh area) 0 ds d == inject_Z n)%Q /\ 0 <= n).
  { intros d I. apply In_nth_error in I. destruct I as [k I]. destruct (Bd k d I) as (n & En & _ & Hn & _). exists n. split; [exact (Sh k n d En I)|exact Hn]. }
  assert (Z0 : forall n, 0 <= n -> (0 <= inject_Z n)%Q) by (intros n H; change 0%Q with (inject_Z 0); now rewrite <- Zle_Qle).
  destruct Q as [_ Q].
  { split.
    - unfold ds. destruct cs; [discriminate|discriminate].
    - intros w m I. destruct (Bi _ I) as (n & En & Hn). assert (w = 1 /\ m = 0) as [-> ->].
      { unfold ds in I. apply in_map_iff in I. destruct I as (c & Ec & I). apply In_nth_error in I. destruct I as [k I]. assert (exists n, asks c n) as (n' & A).
        { clear - F I. revert k I. induction F as [|c' n' cs sz A F IH]; intros [|k] I; try discriminate; [injection I as <-; eauto|eapply IH; eauto]. }
        destruct A as [-> | ->]; cbn in Ec; [discriminate|injection Ec as <- <-; auto]. }
      split; [lia|]. rewrite En. change (inject_Z 0) with 0%Q. now apply Z0.
    - intros d I. destruct (Bi _ I) as (n & En & Hn). rewrite En. now apply Z0.
    - intros k d I. destruct (Bd k d I) as (n & En & Hk & H1 & H2 & H3). rewrite (Of k Hk), (Sh k n d En I), <- inject_Z_plus, <- Zle_Qle. split; [now apply Z0|exact H3].
    - rewrite D3. discriminate. }
  intros k seg n I J. destruct (nth_error ds k) as [d|] eqn:Ed; [|apply nth_error_None in Ed; assert (nth_error sz k <> None) as K by congruence; apply nth_error_Some in K; lia].
  destruct (Bd k d Ed) as (n' & En & Hk & _). assert (n' = n) as -> by congruence. destruct (Q k seg d I Ed) as [A B].
  apply (stands_int _ (ry area + zsum (firstn k sz))) in A; [|rewrite (Of k Hk), inject_Z_plus; reflexivity]. apply (stands_int _ (ry area + zsum (firstn k sz) + n)) in B; [|rewrite (Of k Hk), (Sh k n d En Ed), !inject_Z_plus; reflexivity].
  destruct (Pc seg (nth_error_In _ _ I)) as (_ & _ & _ & C). cbn [across] in C. injection C as C1 C2. destruct seg as [x y w h]. cbn in *. f_equal; lia.
Qed.

(** ** The sidebar *)
Definition low_rows (height : Z) : Z := if 22 <? height then 3 else 1.
Definition sidebar_rows (height active total : Z) : list Z := map (fun k => if k =? active then total - 4 * low_rows height else low_rows height) [0; 1; 2; 3; 4].
Lemma sidebar_asks height p total : height <= 30 -> 0 <= p < 5 -> let cs := l_constraints (sidebar_layout height p) in
  Forall2 asks cs (sidebar_rows height p total) /\ (length (filter is_fill cs) = 1)%nat /\ zsum (sidebar_rows height p total) = total /\ (forall c, In c cs -> c = LFill 1 \/ c = LLen 3 \/ c = LLen 1) /\ length cs = 5%nat.
Proof.
  intros Hh Hp. unfold sidebar_rows, low_rows, sidebar_layout, status_constraint, list_constraint, stash_constraint, HeightMedium, HeightSmall, PanelStatus, PanelFiles, PanelBranches, PanelCommits, PanelStash. cbv zeta. cbn [l_constraints new_layout].
  destruct (Z.ltb_spec 30 height); [lia|]. assert (p = 0 \/ p = 1 \/ p = 2 \/ p = 3 \/ p = 4) as C by lia.
  destruct (22 <? height); destruct C as [->|[->|[->|[->| ->]]]]; cbn [orb andb negb Z.eqb Pos.eqb map].
  all: split; [repeat (apply Forall2_cons; [first [left; reflexivity|right; reflexivity]|]); apply Forall2_nil|].
  all: split; [reflexivity|].
  all: split; [unfold zsum; cbn [fold_right]; lia|].
  all: split; [|reflexivity].
  all: intros c I; cbn [In] in I; repeat (destruct I as [<-|I]; [first [left; reflexivity|right; left; reflexivity|right; right; reflexivity]|]); destruct I.
Qed.
(** A screen of at most 30 rows: the active panel has all the room the four others leave, which have three rows each, or one each on at most 22 rows. *)
Theorem C106_sidebar_partial order fuel vs height p area segs sps : any_order order -> height <= 30 -> 0 <= p < 5 -> vars_ok vs (sidebar_layout height p) -> sized area -> int32 (ry area) -> int32 (ry area + rh area) ->
  let least := if 22 <? height then 3 else 1 in 4 * least <= rh area ->
  split64 order fuel vs (sidebar_layout height p) area = Splits segs sps ->
  length segs = 5%nat /\ forall k seg, nth_error segs k = Some seg -> seg =
    if Z.of_nat k =? p then Rect (rx area) (ry area + p * least) (rw area) (rh area - 4 * least)
    else if Z.of_nat k <? p then Rect (rx area) (ry area + Z.of_nat k * least) (rw area) least
    else Rect (rx area) (ry area + rh area - (5 - Z.of_nat k) * least) (rw area) least.
Proof.
  intros Oo Hh Hp V Sz I1 I2 least Room E. destruct (sidebar_asks height p (rh area) Hh Hp) as (A & B & C & D & L). cbv zeta in *. set (cs := l_constraints (sidebar_layout height p)) in *. change (sidebar_layout height p) with (new_layout cs) in V, E.
  assert (Wl : whole_layout (new_layout cs) area).
  { split; [split; [intros c I; destruct (D c I) as [->|[->| ->]]; exact Logic.I|left; split; [reflexivity|cbn [l_constraints new_layout]; lia]]|].
    split.
    - split; [intros c I; destruct (D c I) as [->|[->| ->]]; unfold int32; cbn; lia|]. split; [unfold int32; cbn; lia|]. change (l_padding (new_layout cs)) with (Padding 0 0 0 0). rewrite (inner_none area Sz). cbn [low high l_direction new_layout]. now split.
    - clear - Hh Hp. unfold cs, few_names, sidebar_layout, status_constraint, list_constraint, stash_constraint, HeightMedium, HeightSmall, PanelStatus, PanelFiles, PanelBranches, PanelCommits, PanelStash.
      destruct (Z.ltb_spec 30 height); [lia|]. assert (p = 0 \/ p = 1 \/ p = 2 \/ p = 3 \/ p = 4) as C by lia. destruct (22 <? height); destruct C as [->|[->|[->|[->| ->]]]]; vm_compute; lia. }
  assert (Lr : low_rows height = least) by reflexivity. assert (Lp : least = 3 \/ least = 1) by (unfold least; destruct (22 <? height); auto).
  destruct (exact_rows order fuel vs cs area segs sps (sidebar_rows height p (rh area)) Oo V Wl Sz E A B) as [Ls Q]; [|exact C|].
  { intros n I. unfold sidebar_rows in I. apply in_map_iff in I. destruct I as (k & <- & _). rewrite Lr. destruct (k =? p); lia. }
  rewrite L in Ls. split; [exact Ls|]. intros k seg I. assert (Hk : (k < 5)%nat) by (rewrite <- Ls; apply nth_error_Some; congruence).
  unfold sidebar_rows in Q. rewrite Lr in Q. clearbody least. assert (p = 0 \/ p = 1 \/ p = 2 \/ p = 3 \/ p = 4) as Cp by lia.
  destruct k as [|[|[|[|[|k]]]]]; [..|lia]; destruct Cp as [->|[->|[->|[->| ->]]]]; specialize (Q _ seg _ I eq_refl); rewrite Q; cbn [Z.eqb Pos.eqb Z.of_nat Pos.of_succ_nat Pos.succ Z.ltb Z.compare Pos.compare Pos.compare_cont firstn map zsum fold_right]; f_equal; lia.
Qed.
Print Assumptions C106_sidebar_partial.

(** ** The right side and the foot *)
Lemma rest_and n order fuel vs area segs sps : any_order order -> vars_ok vs (new_layout [LFill 1; LLen n]) -> sized area -> int32 (ry area) -> int32 (ry area + rh area) -> 0 <= n <= rh area -> int32 n ->
  split64 order fuel vs (new_layout [LFill 1; LLen n]) area = Splits segs sps ->
  segs = [Rect (rx area) (ry area) (rw area) (rh area - n); Rect (rx area) (ry area + rh area - n) (rw area) n].
Proof.
  intros Oo V Sz I1 I2 Hn I3 E.
  assert (Wl : whole_layout (new_layout [LFill 1; LLen n]) area).
  { split; [split; [intros c [<-|[<-|[]]]; exact Logic.I|left; split; [reflexivity|cbn; lia]]|]. split; [|unfold few_names; cbn; lia].
    split; [intros c [<-|[<-|[]]]; [unfold int32; cbn; lia|exact I3]|]. split; [unfold int32; cbn; lia|]. change (l_padding (new_layout [LFill 1; LLen n])) with (Padding 0 0 0 0). rewrite (inner_none area Sz). cbn [low high l_direction new_layout]. now split. }
  destruct (exact_rows order fuel vs _ area segs sps [rh area - n; n] Oo V Wl Sz E) as [Ls Q]; [apply Forall2_cons; [now right|]; apply Forall2_cons; [now left|]; apply Forall2_nil|reflexivity|intros m [<-|[<-|[]]]; lia|cbn; lia|].
  destruct segs as [|s0 [|s1 [|]]]; try discriminate. rewrite (Q 0%nat s0 _ eq_refl eq_refl), (Q 1%nat s1 _ eq_refl eq_refl). unfold zsum. cbn [firstn fold_right]. f_equal; [f_equal; lia|]. f_equal. f_equal. lia.
Qed.
(** The bottom row is for the keys, and the rest for the panels. The command log has the lowest 3 rows of the right side, 10 on a screen of more than 40 rows. *)
Theorem C106_right_partial order fuel vs height area segs sps : any_order order -> sized area -> int32 (ry area) -> int32 (ry area + rh area) ->
  (vars_ok vs frame_layout -> 1 <= rh area -> split64 order fuel vs frame_layout area = Splits segs sps ->
    segs = [Rect (rx area) (ry area) (rw area) (rh area - 1); Rect (rx area) (ry area + rh area - 1) (rw area) 1]) /\
  (let log := if 40 <? height then 10 else 3 in vars_ok vs (right_layout height) -> log <= rh area -> split64 order fuel vs (right_layout height) area = Splits segs sps ->
    segs = [Rect (rx area) (ry area) (rw area) (rh area - log); Rect (rx area) (ry area + rh area - log) (rw area) log]).
Proof.
  intros Oo Sz I1 I2. split.
  - intros V H. apply (rest_and 1); auto; [lia|unfold int32; lia].
  - intros log V H. assert (El : log_height height = log) by (unfold log_height, log; destruct (Z.leb_spec height 40); destruct (Z.ltb_spec 40 height); lia). unfold right_layout in *. rewrite El in *. assert (log = 3 \/ log = 10) by (unfold log; destruct (40 <? height); auto).
    apply (rest_and log); auto; [lia|unfold int32; lia].
Qed.
Print Assumptions C106_right_partial.

(** *** Instances: a screen of 25 rows, 24 of them for the panels, with Branches active; and 20 rows, with Stash active. *)
Example C106_sidebar_instance : vars_ok (vars_for (l_constraints (sidebar_layout 25 2))) (sidebar_layout 25 2) /\ vars_ok (vars_for (l_constraints (sidebar_layout 20 4))) (sidebar_layout 20 4) /\
  (exists sps, split64 keep_order 1000 (vars_for (l_constraints (sidebar_layout 25 2))) (sidebar_layout 25 2) (Rect 0 0 26 24) = Splits [Rect 0 0 26 3; Rect 0 3 26 3; Rect 0 6 26 12; Rect 0 18 26 3; Rect 0 21 26 3] sps) /\
  (exists sps, split64 keep_order 1000 (vars_for (l_constraints (sidebar_layout 20 4))) (sidebar_layout 20 4) (Rect 0 0 26 19) = Splits [Rect 0 0 26 1; Rect 0 1 26 1; Rect 0 2 26 1; Rect 0 3 26 1; Rect 0 4 26 15] sps) /\
  (exists sps, split64 keep_order 1000 (vars_for (l_constraints (right_layout 25))) (right_layout 25) (Rect 26 0 54 24) = Splits [Rect 26 0 54 21; Rect 26 21 54 3] sps).
Proof.
  split; [apply vars_for_ok|]. split; [apply vars_for_ok|]. split; [|split]; eexists; vm_compute; reflexivity.
Qed.
