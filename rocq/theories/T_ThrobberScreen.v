(** C105: the screen of examples/throbber, letter by letter, with comparisons exact. *)
From Verif Require Import Base P_Base M_Geom M_Style M_Utf8 M_Uniseg M_Buffer M_Text M_Block M_Options M_Solver M_Layout M_Popup M_Throbber M_View M_Splitted M_ThrobberGrid.
From Verif Require Import S_Geom T_Geom S_Buffer S_Text S_Line S_Block S_Layout S_Place P_Buffer P_Text T_Text T_TextRows T_Solver T_Layout T_Place T_Exact T_Apart T_Popup T_Throbber T_View T_ThrobberGrid T_ThrobberBoxes.
From Coq Require Import ZArith NArith QArith String List Bool Lia Lqa Permutation.
Import ListNotations.
Open Scope Z_scope.
#[local] Existing Instance no_tolerance.

(** ** A line of letters *)
Lemma seen_plain u s st W : (forall c, In c s -> cwidth u [c] = 1) -> forall off o, 0 <= off -> o < W ->
  S_Text.seen (cwidth u) (map (fun c => ([c], st)) s) W off o = if o <? off then None else option_map (fun c => HeadOf [c] st) (nth_error s (Z.to_nat (o - off))).
Proof.
  induction s as [|c s IH]; intros H off o Ho HW; cbn [map S_Text.seen].
  - destruct (o <? off); [reflexivity|]. now destruct (Z.to_nat (o - off)).
  - rewrite (H c (or_introl eq_refl)). rewrite IH by (try lia; intros x I; apply H; now right).
    destruct (Z.ltb_spec o off); [replace ((off <=? o) && _) with false by (symmetry; apply andb_false_iff; left; apply Z.leb_gt; lia); replace (o <? off + 1) with true by (symmetry; apply Z.ltb_lt; lia); reflexivity|].
    destruct (Z.eq_dec o off) as [->|Ne].
    + replace ((off <=? off) && (off <? off + 1)) with true by (symmetry; apply andb_true_iff; split; [apply Z.leb_le|apply Z.ltb_lt]; lia). replace ((0 <=? off) && (off + 1 <=? W)) with true by (symmetry; apply andb_true_iff; split; apply Z.leb_le; lia).
      rewrite Z.eqb_refl, Z.sub_diag. reflexivity.
    + replace ((off <=? o) && (o <? off + 1)) with false by (symmetry; apply andb_false_iff; right; apply Z.ltb_ge; lia). destruct (Z.ltb_spec o (off + 1)); [lia|].
      replace (Z.to_nat (o - off)) with (S (Z.to_nat (o - (off + 1)))) by lia. reflexivity.
Qed.
(** A text of one line of letters of one column each. *)
Definition one_line (u : uniseg) (s : str) : Prop := one_column u s /\ tx_lines (new_text_str s) = [new_line [new_span s]].
Lemma text_row u s R b : uniseg_ok u -> one_line u s -> wf_buffer b -> 1 <= rw R -> rh R = 1 -> subrect R (barea b) ->
  exists b', text_render u (new_text_str s) R b = Ret b' /\ changed_only (fun p => inside p R) b b' /\
    forall p, inside p R -> symbol_at b' p = match text_at (rx R) (ry R) s p with Some c => Some c | None => symbol_at b p end.
Proof.
  intros Hu [O Tl] W Rw Rh Sub. destruct (C17_text_stays_inside u (new_text_str s) R b Hu W) as (b' & E & Ch). exists b'. split; [exact E|]. split; [eapply changed_only_weaken; [|exact Ch]; cbn beta; tauto|]. intros p I.
  assert (EI : intersection R (barea b) = R) by (apply intersection_within; [apply subrect_within; [lia|lia|exact Sub]|split; lia]).
  assert (Vis : visible_line u [new_span s]). { intros sp c' [<-|[]] Ic. cbn [sp_content new_span] in Ic. destruct O as [O1 O2]. rewrite O1 in Ic. apply in_map_iff in Ic. destruct Ic as (c0 & <- & Ic). destruct (O2 c0 Ic) as [A B]. split; [lia|]. cbn. now rewrite B. }
  pose proof (C18_text_placement u (new_text_str s) R b Hu W) as P. cbv zeta in P. rewrite EI, Tl in P. destruct P as (b2 & E2 & _ & P & _); [intros l [<-|[]]; exact Vis|lia|lia|]. rewrite E in E2. injection E2 as <-.
  unfold symbol_at. rewrite (P p I). destruct (look_inside b p W (Sub p I)) as (c0 & ->). cbn [option_map]. unfold inside in I. replace (py p - ry R) with 0 by lia. cbn [Z.to_nat nth_error]. unfold line_cell. cbn [ln_align ln_spans new_line effective].
  change (tx_align (new_text_str s)) with AlignNone. cbn [effective start_column]. assert (Lc : line_cells u [new_span s] = map (fun c => ([c], new_style)) s) by (unfold line_cells, span_cells; cbn [flat_map sp_content sp_style new_span]; rewrite app_nil_r; destruct O as [-> _]; now rewrite map_map).
  rewrite Lc, seen_plain by (try lia; intros c Ic; apply O, Ic). unfold text_at. destruct (Z.eqb_spec (py p) (ry R)); [|lia]. destruct (Z.leb_spec (rx R) (px p)); [|lia]. cbn [andb]. destruct (Z.ltb_spec (px p - rx R) 0); [lia|]. rewrite Z.sub_0_r. destruct (nth_error s (Z.to_nat (px p - rx R))); cbn [option_map paint]; [reflexivity|]. change (tx_style (new_text_str s)) with new_style. cbn [ln_style]. rewrite !set_no_style. now destruct (_ <? _).
Qed.
Lemma footer_line u : one_column u footer_text -> one_line u footer_text.
Proof. intros O. split; [exact O|]. vm_compute. reflexivity. Qed.

(** ** The three parts of the screen *)
Lemma screen_split r area segs sps : any_run r screen_layout -> sized area -> M_Layout.split (run_order r) (run_fuel r) (run_vars r) screen_layout area = Splits segs sps ->
  length segs = 3%nat /\ (forall g, In g segs -> piece DirVertical area g) /\ (forall i j g g' p, i <> j -> nth_error segs i = Some g -> nth_error segs j = Some g' -> inside p g -> inside p g' -> False) /\
  (2 <= rh area -> segs = [Rect (rx area) (ry area) (rw area) 1; Rect (rx area) (ry area + 1) (rw area) (rh area - 2); Rect (rx area) (ry area + rh area - 1) (rw area) 1]).
Proof.
  intros [Oo V] Sz E. assert (Fn : few_names screen_layout) by (unfold few_names; vm_compute; lia).
  pose proof (C34_few_partial _ _ _ _ _ _ _ Oo V Fn E) as P. cbv zeta in P. change (l_padding screen_layout) with (Padding 0 0 0 0) in P. rewrite (inner_none area Sz) in P. destruct P as (Ls & _ & Pc & _). change (length (l_constraints screen_layout)) with 3%nat in Ls. change (l_direction screen_layout) with DirVertical in Pc.
  split; [exact Ls|]. split; [exact Pc|]. split; [intros i j g g' p; apply (C64_few_partial _ _ _ _ _ _ _ Oo V Fn E); vm_compute; discriminate|]. intros Hh.
  pose proof (C60_few_partial _ _ _ _ _ _ _ Oo V Fn E) as Q. cbv zeta in Q. change (l_padding screen_layout) with (Padding 0 0 0 0) in Q. rewrite (inner_none area Sz) in Q. change (l_direction screen_layout) with DirVertical in Q. change (l_flex screen_layout) with FlexLegacy in Q. change (cells_between screen_layout) with 0 in Q. cbn [low high] in Q.
  replace (ry area + rh area - ry area) with (rh area) in Q by lia. change (map (demand_of FlexLegacy (rh area)) (l_constraints screen_layout)) with [Exactly 1; Grow 1 0; Exactly 1] in Q. set (ds := [Exactly 1; Grow 1 0; Exactly 1]) in Q.
  assert (Hq : (2 <= inject_Z (rh area))%Q) by (change 2%Q with (inject_Z 2); rewrite <- Zle_Qle; exact Hh).
  assert (Rm : (room (rh area) 0 ds == inject_Z (rh area) - 2)%Q) by (unfold room, ds; cbn [sum_of fixed_size length]; change (inject_Z 0) with 0%Q; lra).
  assert (Sm : (share (rh area) 0 ds (Grow 1 0) == inject_Z (rh area) - 2)%Q) by (unfold share; rewrite Rm; unfold ds; cbn [sum_of weight]; change (inject_Z 1) with 1%Q; field).
  assert (Of : (offset FlexLegacy (rh area) 0 ds 0 == 0 /\ offset FlexLegacy (rh area) 0 ds 1 == 1 /\ offset FlexLegacy (rh area) 0 ds 2 == inject_Z (rh area) - 1)%Q).
  { unfold offset, before, gap. change (someone_grows ds) with true. cbv iota. change (inject_Z 0) with 0%Q. assert (S1 : (share (rh area) 0 ds (Exactly 1) == 1)%Q) by reflexivity. change (firstn 0 ds) with (@nil demand). change (firstn 1 ds) with [Exactly 1]. change (firstn 2 ds) with [Exactly 1; Grow 1 0]. cbn [sum_of]. rewrite Sm, S1. split; [lra|]. split; lra. }
  destruct Of as (O0 & O1 & O2).
  destruct Q as [_ Q].
  { split.
    - discriminate.
    - intros w m [I|[I|[I|[]]]]; try discriminate. injection I as <- <-. split; [lia|]. rewrite Sm. change (inject_Z 0) with 0%Q. lra.
    - intros d [<-|[<-|[<-|[]]]]; [cbn; lra|rewrite Sm; lra|cbn; lra].
    - intros [|[|[|k]]] d I; cbn in I; try (injection I as <-); [rewrite O0; cbn [share]; lra|rewrite O1, Sm; lra|rewrite O2; cbn [share]; lra|destruct k; discriminate].
    - discriminate. }
  destruct segs as [|s0 [|s1 [|s2 [|]]]]; try discriminate.
  assert (G : forall s lo hi, In s [s0; s1; s2] -> ry s = lo -> ry s + rh s = hi -> s = Rect (rx area) lo (rw area) (hi - lo)).
  { intros s lo hi I A B. destruct (Pc s I) as (_ & _ & _ & C). cbn [across] in C. injection C as C1 C2. destruct s as [x y w h]. cbn in *. f_equal; lia. }
  destruct (Q 0%nat s0 (Exactly 1) eq_refl eq_refl) as [A0 B0]. destruct (Q 1%nat s1 (Grow 1 0) eq_refl eq_refl) as [A1 B1]. destruct (Q 2%nat s2 (Exactly 1) eq_refl eq_refl) as [A2 B2].
  assert (J : forall a b, (inject_Z (a - b) == inject_Z a - inject_Z b)%Q) by (intros a b; unfold Z.sub; rewrite inject_Z_plus, inject_Z_opp; lra).
  apply (stands_int _ (ry area)) in A0; [|rewrite O0; lra]. apply (stands_int _ (ry area + 1)) in B0; [|rewrite O0, inject_Z_plus; change (inject_Z 1) with 1%Q; cbn [share]; lra]. apply (stands_int _ (ry area + 1)) in A1; [|rewrite O1, inject_Z_plus; change (inject_Z 1) with 1%Q; lra].
  apply (stands_int _ (ry area + rh area - 1)) in B1; [|rewrite O1, Sm, J, inject_Z_plus; change (inject_Z 1) with 1%Q; lra]. apply (stands_int _ (ry area + rh area - 1)) in A2; [|rewrite O2, J, inject_Z_plus; change (inject_Z 1) with 1%Q; lra]. apply (stands_int _ (ry area + rh area)) in B2; [|rewrite O2, inject_Z_plus; cbn [share]; lra].
  rewrite (G s0 _ _ ltac:(now left) A0 B0), (G s1 _ _ ltac:(right; now left) A1 B1), (G s2 _ _ ltac:(right; right; now left) A2 B2). replace (ry area + 1 - ry area) with 1 by lia. replace (ry area + rh area - 1 - (ry area + 1)) with (rh area - 2) by lia. replace (ry area + rh area - (ry area + rh area - 1)) with 1 by lia. reflexivity.
Qed.

(** ** C105 *)
(** Any runs of the solver for one drawing of the screen. *)
Definition screen_runs (u : uniseg) (rs : spin_runs_of) : Prop := any_run (sr_screen rs) screen_layout /\ grid_runs (zlen shown_types) (sr_grid rs) (sr_rows rs) /\ spin_runs u (sr_spins rs).
(** The part of the screen between its first and its last line. *)
Definition middle (area : rect) : rect := Rect (rx area) (ry area + 1) (rw area) (rh area - 2).
Definition line_shows (text : str) (y : Z) (area : rect) (b b' : buffer) : Prop :=
  forall p, inside p area -> py p = y -> symbol_at b' p = match text_at (rx area) y text p with Some c => Some c | None => symbol_at b p end.
Theorem C105_screen_partial u duration rs ms s acc last_id rate area b o : uniseg_ok u -> plain_letters u -> one_column u footer_text -> one_line u (info_text duration rate) ->
  receives (snd (new_throbber_state last_id)) ms = (s, acc) -> screen_runs u rs -> wf_buffer b -> sized area -> 0 <= rx area -> 0 <= ry area -> subrect area (barea b) ->
  spin_render u duration rs s rate area b = Some o ->
  exists b', o = Ret b' /\ changed_only (fun p => inside p area) b b' /\
    (51 <= rw area -> 11 <= rh area ->
      line_shows (info_text duration rate) (ry area) area b b' /\ line_shows footer_text (ry area + rh area - 1) area b b' /\
      forall i ty, nth_error shown_types i = Some ty -> box_shows (type_string ty) (frame_after ty (zlen acc)) (box (middle area) i) b b').
Proof.
  intros Hu Pl Of Oi Rc (R0 & Rg & Rs) W Sz Rx Ry Sub E. unfold spin_render in E. destruct (M_Layout.split (run_order (sr_screen rs)) (run_fuel (sr_screen rs)) (run_vars (sr_screen rs)) screen_layout area) as [segs sps| |] eqn:Es; [|exfalso|discriminate].
  2: { destruct R0 as [Oo V]. exact (C35_few_partial _ _ _ _ _ Oo V ltac:(unfold few_names; vm_compute; lia) Es). }
  destruct (screen_split _ _ _ _ R0 Sz Es) as (Ls & Pc & Dj & Ex). destruct segs as [|s0 [|s1 [|s2 [|]]]]; try discriminate. change (assign [s0; s1; s2] [Some 0; Some 1; Some 2]%nat (fun _ => Rect 0 0 0 0)) with (Ret (store (store (store (fun _ => Rect 0 0 0 0) 0 s0) 1 s1) 2 s2)) in E. cbv iota beta in E.
  change (store (store (store (fun _ => Rect 0 0 0 0) 0 s0) 1 s1) 2 s2 0%nat) with s0 in E. change (store (store (store (fun _ => Rect 0 0 0 0) 0 s0) 1 s1) 2 s2 1%nat) with s1 in E. change (store (store (store (fun _ => Rect 0 0 0 0) 0 s0) 1 s1) 2 s2 2%nat) with s2 in E.
  assert (Pg : forall g, In g [s0; s1; s2] -> sized g /\ rx g = rx area /\ ry area <= ry g /\ subrect g area).
  { intros g I. destruct (Pc g I) as (A & B & C & D). cbn [low high across] in *. injection D as D1 D2. destruct Sz as [Sw Sh]. split; [split; lia|]. split; [exact D1|]. split; [exact A|]. intros p P. unfold inside in *. lia. }
  destruct (Pg s0 ltac:(now left)) as (S0 & _ & _ & U0). destruct (Pg s1 ltac:(right; now left)) as (S1 & X1 & Y1 & U1). destruct (Pg s2 ltac:(right; right; now left)) as (S2 & _ & _ & U2).
  destruct (C17_text_stays_inside u (new_text_str (info_text duration rate)) s0 b Hu W) as (b1 & E1 & C1). rewrite E1 in E. assert (C1' : changed_only (fun p => inside p s0) b b1) by (eapply changed_only_weaken; [|exact C1]; cbn beta; tauto). destruct C1 as (A1 & W1 & _).
  destruct (render_throbbers u (sr_grid rs) (sr_rows rs) (sr_spins rs) s s1 b1) as [o1|] eqn:E2; [|discriminate].
  destruct (C105_boxes_partial u _ _ _ ms s acc last_id s1 b1 o1 Hu Pl Rc Rg Rs W1 S1 ltac:(lia) ltac:(lia) ltac:(intros p P; rewrite A1; apply Sub, U1, P) E2) as (b2 & -> & C2 & Sh2). assert (C2' := C2). destruct C2' as (A2 & W2 & _).
  destruct (C17_text_stays_inside u (new_text_str footer_text) s2 b2 Hu W2) as (b3 & E3 & C3). rewrite E3 in E. injection E as <-. assert (C3' : changed_only (fun p => inside p s2) b2 b3) by (eapply changed_only_weaken; [|exact C3]; cbn beta; tauto).
  exists b3. split; [reflexivity|]. split.
  { eapply changed_only_trans; [eapply changed_only_weaken; [|exact C1']; exact U0|]. eapply changed_only_trans; [eapply changed_only_weaken; [|exact C2]; exact U1|]. eapply changed_only_weaken; [|exact C3']; exact U2. }
  intros Hw Hh. specialize (Ex ltac:(lia)). injection Ex as Q0 Q1 Q2. fold (middle area) in Q1.
  destruct (text_row u (info_text duration rate) s0 b Hu Oi W ltac:(rewrite Q0; cbn; lia) ltac:(rewrite Q0; reflexivity) ltac:(intros p P; apply Sub, U0, P)) as (b1' & E1' & _ & T1). rewrite E1 in E1'. injection E1' as <-.
  destruct (text_row u footer_text s2 b2 Hu (footer_line u Of) W2 ltac:(rewrite Q2; cbn; lia) ltac:(rewrite Q2; reflexivity) ltac:(intros p P; rewrite A2, A1; apply Sub, U2, P)) as (b3' & E3' & _ & T3). rewrite E3 in E3'. injection E3' as <-.
  assert (K1 : forall p, ~ inside p s0 -> symbol_at b1 p = symbol_at b p) by (intros p N; unfold symbol_at; destruct C1' as (_ & _ & L); now rewrite L).
  assert (K2 : forall p, ~ inside p s1 -> symbol_at b2 p = symbol_at b1 p) by (intros p N; unfold symbol_at; destruct C2 as (_ & _ & L); now rewrite L).
  assert (K3 : forall p, ~ inside p s2 -> symbol_at b3 p = symbol_at b2 p) by (intros p N; unfold symbol_at; destruct C3' as (_ & _ & L); now rewrite L).
  split; [|split].
  - intros p I Y. assert (I0 : inside p s0) by (rewrite Q0; unfold inside in *; cbn [rx ry rw rh]; lia). rewrite K3 by (intros I'; exact (Dj 0%nat 2%nat s0 s2 p ltac:(lia) eq_refl eq_refl I0 I')). rewrite K2 by (intros I'; exact (Dj 0%nat 1%nat s0 s1 p ltac:(lia) eq_refl eq_refl I0 I')). rewrite (T1 p I0), Q0. cbn [rx ry]. reflexivity.
  - intros p I Y. assert (I2 : inside p s2) by (rewrite Q2; unfold inside in *; cbn [rx ry rw rh]; lia). rewrite (T3 p I2), Q2. cbn [rx ry]. rewrite K2 by (intros I'; exact (Dj 2%nat 1%nat s2 s1 p ltac:(lia) eq_refl eq_refl I2 I')). rewrite K1 by (intros I'; exact (Dj 2%nat 0%nat s2 s0 p ltac:(lia) eq_refl eq_refl I2 I')). reflexivity.
  - intros i ty I p P. assert (I1 : inside p s1).
    { rewrite Q1. assert (Hi : (i < 9)%nat) by (change 9%nat with (length shown_types); apply nth_error_Some; congruence). pose proof (Nat.mod_upper_bound i 3 ltac:(lia)) as M. pose proof (Nat.div_lt_upper_bound i 3 3 ltac:(lia) ltac:(lia)) as D. unfold inside, box in P. cbn [rx ry rw rh] in P.
      assert (Mw : 0 <= rw (middle area)) by (cbn; lia). assert (Mh : 0 <= rh (middle area)) by (cbn; lia).
      pose proof (third_mono (rx (middle area)) (rw (middle area)) 0 (i mod 3)%nat Mw ltac:(lia)) as P1. pose proof (third_mono (rx (middle area)) (rw (middle area)) (S (i mod 3)) 3 Mw ltac:(lia)) as P2. pose proof (third_mono (ry (middle area)) (rh (middle area)) 0 (i / 3)%nat Mh ltac:(lia)) as P3. pose proof (third_mono (ry (middle area)) (rh (middle area)) (S (i / 3)) 3 Mh ltac:(lia)) as P4.
      rewrite third_zero in P1, P3. rewrite third_all in P2, P4. unfold inside. lia. }
    rewrite K3 by (intros I'; exact (Dj 1%nat 2%nat s1 s2 p ltac:(lia) eq_refl eq_refl I1 I')). rewrite Q1 in Sh2. rewrite (Sh2 ltac:(cbn; lia) ltac:(cbn; lia) i ty I p P). rewrite K1 by (intros I'; exact (Dj 1%nat 0%nat s1 s0 p ltac:(lia) eq_refl eq_refl I1 I')). reflexivity.
Qed.

(** *** Instance: a screen of 52 by 12 cells after two ticks, at the rate the program starts with. *)
Definition some_screen : spin_runs_of := SpinRuns (some_run screen_layout) (some_run (rows_layout (zlen shown_types))) some_rows some_spin.
Definition some_duration (rate : Z) : str := asc "111.111111ms".
Example C105_screen_instance : let s := ThrobberState 2 1 2 in
  (exists ms acc, receives (snd (new_throbber_state 0)) ms = (s, acc) /\ zlen acc = 2) /\ one_column simple_uniseg footer_text /\ one_line simple_uniseg (info_text some_duration 111111111) /\ screen_runs simple_uniseg some_screen /\
  exists b', spin_render simple_uniseg some_duration some_screen s 111111111 (Rect 0 0 52 12) (demo_buffer 52 12) = Some (Ret b') /\
    let row y n := map (fun x => symbol_at b' (Pos (Z.of_nat x) y)) (seq 0 n) in let word t := map (fun c : N => Some [c]) t in
    row 0 16%nat = word (asc "FPS 111.111111ms") /\ row 11 7%nat = word (asc """+"" - i") /\
    row 1 52%nat = word ([9484] ++ asc "Line" ++ repeat 9472 11 ++ [9488; 9484] ++ asc "HorizontalBlock" ++ [9472; 9488; 9484] ++ asc "VerticalBlock" ++ repeat 9472 2 ++ [9488])%N /\
    row 2 17%nat = word ([9474] ++ repeat 32 7 ++ [45] ++ repeat 32 7 ++ [9474])%N.
Proof.
  cbv zeta. split; [exists [Some (TickMsg 0 1); Some (TickMsg 1 1)]; eexists; split; reflexivity|].
  assert (K : forall s, forallb (fun c => (rune_width c =? 1) && negb (is_control c)) s = true -> one_column simple_uniseg s).
  { intros s H. split; [reflexivity|]. intros c I. rewrite forallb_forall in H. specialize (H c I). apply andb_prop in H. destruct H as [A B]. split; [now apply Z.eqb_eq|now apply negb_true_iff]. }
  split; [apply K; vm_compute; reflexivity|]. split; [split; [apply K; vm_compute; reflexivity|vm_compute; reflexivity]|]. split.
  - split; [apply some_run_any|]. split; [split; [apply some_run_any|intros i; apply (some_run_any columns_layout)]|]. intros i ty f t. split; (split; [intros n x; apply Permutation_refl|]; split; [repeat constructor; cbn; intuition discriminate|reflexivity]).
  - eexists. split; [vm_compute; reflexivity|]. split; [vm_compute; reflexivity|]. split; [vm_compute; reflexivity|]. split; vm_compute; reflexivity.
Qed.
Print Assumptions C105_screen_partial.
