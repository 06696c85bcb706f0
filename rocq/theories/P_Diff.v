(** Buffer.Diff: which cells are in the update list, and what the terminal shows after printing them. *)
From Verif Require Import Base M_Geom S_Geom M_Style M_Uniseg M_Buffer S_Buffer M_Ansi M_Backend S_Terminal S_Display
  P_Base T_Geom P_Buffer P_Ansi P_Attr P_Draw.
From Coq Require Import ZArith NArith List Bool Lia Sorting.Sorted.
Import ListNotations.
Open Scope Z_scope.

Lemma diff_loop_inv u b (I : Z -> diff_state -> Prop) prev : forall next i st,
  length prev = length next -> I i st ->
  (forall j st p n, i <= j -> nth_error prev (Z.to_nat (j - i)) = Some p -> nth_error next (Z.to_nat (j - i)) = Some n -> I j st ->
     exists st', diff_step u b st j p n = Ret st' /\ I (j + 1) st') ->
  exists st', diff_loop u b i prev next st = Ret st' /\ I (i + zlen prev) st'.
Proof.
  induction prev as [|p prev IH]; intros [|n next] i st Hl HI Hs; try discriminate.
  - exists st. split; [reflexivity|]. unfold zlen; cbn. now rewrite Z.add_0_r.
  - cbn [diff_loop]. destruct (Hs i st p n) as (st' & E & HI'); try lia; auto;
      try (rewrite Z.sub_diag; reflexivity).
    rewrite E. cbn [bind]. destruct (IH next (i + 1) st') as (st2 & E2 & HI2); auto.
    + intros j st0 p0 n0 Hj Hp Hn HI0. apply (Hs j st0 p0 n0); auto; try lia;
        replace (Z.to_nat (j - i)) with (S (Z.to_nat (j - (i + 1)))) by lia; assumption.
    + exists st2. split; [assumption|]. rewrite zlen_cons. now replace (i + (1 + zlen prev)) with (i + 1 + zlen prev) by lia.
Qed.

Definition posn (r : rect) (j : Z) : pos := Pos (j mod rw r + rx r) (j / rw r + ry r).

Lemma posn_inside r j : sized r -> 0 <= j < rw r * rh r -> inside (posn r j) r /\ idx r (posn r j) = j.
Proof.
  intros [Hw Hh] Hj. destruct (idx_surj r j Hj Hw) as [A B]. unfold posn.
  rewrite (Z.add_comm (j mod rw r)), (Z.add_comm (j / rw r)). auto.
Qed.

Lemma pos_of_posn b j : wf_buffer b -> 0 <= j < zlen (bcells b) -> pos_of b j = Ret (posn (barea b) j).
Proof.
  intros [[Hw Hh] Hl] Hj. unfold pos_of. destruct (j >=? zlen (bcells b)) eqn:E; [rewrite Z.geb_leb in E; apply Z.leb_le in E; lia|].
  destruct (Z.eqb_spec (rw (barea b)) 0); [rewrite Hl in Hj; nia|].
  rewrite Z.rem_mod_nonneg, Z.quot_div_nonneg by lia. reflexivity.
Qed.

Definition upos (r : rect) (l : list (pos * cell)) : list Z := map (fun pc => idx r (fst pc)) l.

Lemma sorted_snoc l x : StronglySorted Z.lt l -> (forall y, In y l -> y < x) -> StronglySorted Z.lt (l ++ [x]).
Proof.
  induction 1 as [|a l Hs IH Ha]; intros H; cbn.
  - constructor; constructor.
  - constructor; [apply IH; intros; apply H; now right|]. apply Forall_app. split; [assumption|].
    constructor; [apply H; now left|constructor].
Qed.

Lemma left_of_eq z q : py z = py q -> px z = px q + 1 -> left_of z = q.
Proof. destruct z as [a b], q as [c d]; unfold left_of; cbn [px py]. intros -> ->. f_equal. lia. Qed.

Section Diff.
  Variables (u : uniseg) (prev next : buffer).
  Hypothesis Wp : wf_buffer prev.
  Hypothesis Wn : wf_buffer next.
  Hypothesis Ha : barea next = barea prev.
  Let r := barea prev.

  (** facts about any run *)
  Record basic (j : Z) (st : diff_state) : Prop := {
    b_in : forall p c, In (p, c) (d_updates st) -> inside p r /\ idx r p < j /\ look next p = Some c;
    b_sorted : StronglySorted Z.lt (upos r (d_updates st)) }.

  Lemma basic_step j st p n : 0 <= j < zlen (bcells prev) ->
    nth_error (bcells prev) (Z.to_nat j) = Some p -> nth_error (bcells next) (Z.to_nat j) = Some n -> basic j st ->
    inside (posn r j) r /\ idx r (posn r j) = j /\ look prev (posn r j) = Some p /\ look next (posn r j) = Some n /\
    exists st', diff_step u prev st j p n = Ret st' /\ basic (j + 1) st' /\
      d_updates st' = (if negb (cskip n) && (negb (cell_eqb n p) || (d_inval st >? 0)) && (d_skip st =? 0)
                       then d_updates st ++ [(posn r j, n)] else d_updates st) /\
      d_inval st' = Z.max 0 (Z.max (d_inval st) (Z.max (string_width u (csym p)) (string_width u (csym n))) - 1) /\
      d_skip st' = Z.max 0 (string_width u (csym n) - 1).
  Proof.
    intros Hj Hp Hn [B1 B2].
    destruct (posn_inside r j) as [Hin Hidx]; [apply Wp|unfold r; rewrite <- (proj2 Wp); lia|].
    split; [auto|]. split; [auto|].
    assert (Lp : look prev (posn r j) = Some p). { rewrite look_inside_eq by auto. unfold r in *. rewrite Hidx. auto. }
    assert (Ln : look next (posn r j) = Some n).
    { rewrite look_inside_eq by (rewrite Ha; auto). rewrite Ha. unfold r in *. rewrite Hidx. auto. }
    split; [auto|]. split; [auto|].
    unfold diff_step. rewrite (pos_of_posn prev j Wp Hj). fold r.
    destruct (negb (cskip n) && (negb (cell_eqb n p) || (d_inval st >? 0)) && (d_skip st =? 0)); cbn [bind].
    - eexists. split; [reflexivity|]. cbn. split; [|auto]. split; cbn.
      + intros q c Hq. apply in_app_or in Hq. destruct Hq as [Hq|[Hq|[]]].
        * destruct (B1 q c Hq) as (X & Y & Z). repeat split; auto; try apply X. lia.
        * injection Hq as <- <-. repeat split; auto; try apply Hin. lia.
      + unfold upos in *. rewrite map_app. apply sorted_snoc; auto. cbn. intros y Hy. apply in_map_iff in Hy.
        destruct Hy as ([q c] & <- & Hq). cbn. rewrite Hidx. apply (B1 q c Hq).
    - eexists. split; [reflexivity|]. cbn. split; [|auto]. split; auto.
      intros q c Hq. destruct (B1 q c Hq) as (X & Y & Z). repeat split; auto; try apply X. lia.
  Qed.

  Lemma basic_init : basic 0 (DiffState [] 0 0).
  Proof. split; cbn; [tauto|constructor]. Qed.

  Lemma cells_len : length (bcells prev) = length (bcells next).
  Proof. destruct Wp as [_ H1], Wn as [_ H2]. rewrite Ha in H2. unfold zlen in *. lia. Qed.

  (** Diff never panics; updates are the new cells, in row-major order without repetition. *)
  Lemma diff_basic : exists ups, diff u prev next = Ret ups /\
    (forall p c, In (p, c) ups -> inside p r /\ look next p = Some c) /\ StronglySorted Z.lt (upos r ups).
  Proof.
    unfold diff.
    destruct (diff_loop_inv u prev (fun j st => basic j st) (bcells prev) (bcells next) 0 (DiffState [] 0 0) cells_len basic_init)
      as (st & E & [B1 B2]).
    - intros j st p n Hj Hp Hn HB. rewrite Z.sub_0_r in *.
      assert (0 <= j < zlen (bcells prev)).
      { split; [lia|]. assert (Hx := nth_error_Some (bcells prev) (Z.to_nat j)). rewrite Hp in Hx.
        assert ((Z.to_nat j < length (bcells prev))%nat) by (apply Hx; discriminate). unfold zlen; lia. }
      destruct (basic_step j st p n) as (_ & _ & _ & _ & st' & E' & HB' & _); eauto.
    - rewrite E. cbn [bind]. exists (d_updates st). split; [reflexivity|]. split; auto.
      intros p c Hin. destruct (B1 p c Hin) as (X & _ & Z). auto.
  Qed.

  (** ** One-column buffers *)
  Definition narrow (b : buffer) : Prop := forall p c, look b p = Some c -> string_width u (csym c) <= 1 /\ cskip c = false.

  Lemma diff_narrow : narrow prev -> narrow next -> exists ups, diff u prev next = Ret ups /\
    StronglySorted Z.lt (upos r ups) /\
    forall p c, In (p, c) ups <-> look next p = Some c /\ look prev p <> Some c.
  Proof.
    intros Np Nn.
    pose (I := fun j st => basic j st /\ d_inval st = 0 /\ d_skip st = 0 /\
      (forall p c, In (p, c) (d_updates st) -> look prev p <> Some c) /\
      (forall p c, look next p = Some c -> idx r p < j -> look prev p <> Some c -> In (p, c) (d_updates st))).
    destruct (diff_loop_inv u prev I (bcells prev) (bcells next) 0 (DiffState [] 0 0)) as (st & E & HI).
    - apply cells_len.
    - split; [apply basic_init|]. cbn. repeat split; auto; try tauto. intros p c Hp Hi _.
      apply look_Some_inside in Hp. rewrite Ha in Hp. pose proof (idx_range r p Hp). lia.
    - intros j st p n Hj Hp Hn (HB & Hv & Hk & H1 & H2). rewrite Z.sub_0_r in *.
      assert (Hjl : 0 <= j < zlen (bcells prev)).
      { split; [lia|]. assert (Hx := nth_error_Some (bcells prev) (Z.to_nat j)). rewrite Hp in Hx.
        assert ((Z.to_nat j < length (bcells prev))%nat) by (apply Hx; discriminate). unfold zlen; lia. }
      destruct (basic_step j st p n Hjl Hp Hn HB) as (Hin & Hidx & Lp & Ln & st' & E' & HB' & Hups & Hinv & Hskip).
      exists st'. split; [assumption|]. split; [assumption|].
      destruct (Np _ _ Lp) as [Wp1 _], (Nn _ _ Ln) as [Wn1 Sn].
      split; [lia|]. split; [lia|].
      rewrite Sn, Hv, Hk in Hups. cbn [negb andb orb] in Hups. change (0 >? 0) with false in Hups. change (0 =? 0) with true in Hups.
      rewrite orb_false_r, andb_true_r in Hups.
      destruct (cell_eqb n p) eqn:Ec; cbn [negb] in Hups; rewrite Hups.
      + apply cell_eqb_eq in Ec. subst p. split; [assumption|]. intros q c Lq Hq Hne.
        destruct (Z.eq_dec (idx r q) j) as [Eq|]; [|apply H2; auto; lia].
        assert (q = posn r j). { apply (idx_inj r); auto; [|congruence]. apply look_Some_inside in Lq. now rewrite Ha in Lq. }
        subst q. congruence.
      + split.
        * intros q c Hq. apply in_app_or in Hq. destruct Hq as [Hq|[Hq|[]]]; [auto|]. injection Hq as <- <-.
          rewrite Lp. intros Epn. injection Epn as ->. rewrite cell_eqb_refl in Ec. discriminate.
        * intros q c Lq Hq Hne. apply in_or_app.
          destruct (Z.eq_dec (idx r q) j) as [Eq|]; [|left; apply H2; auto; lia].
          assert (q = posn r j). { apply (idx_inj r); auto; [|congruence]. apply look_Some_inside in Lq. now rewrite Ha in Lq. }
          subst q. right. left. congruence.
    - unfold diff. rewrite E. cbn [bind]. exists (d_updates st). split; [reflexivity|].
      destruct HI as ([B1 B2] & _ & _ & H1 & H2). split; [assumption|].
      intros p c. split.
      + intros Hin. split; [apply (B1 p c Hin)|now apply H1].
      + intros [Hl Hne]. apply H2; auto. apply look_Some_inside in Hl as Hi. rewrite Ha in Hi.
        pose proof (idx_range r p Hi). destruct Wp as [_ Hlen]. unfold r in *. rewrite Z.add_0_l. lia.
  Qed.

  (** ** Displayable buffers *)
  Variable te : termenv.
  Hypothesis Dp : displayable u te prev.
  Hypothesis Dn : displayable u te next.
  Variable cells0 : pos -> tglyph.
  Hypothesis S0 : shows u te cells0 prev.

  Lemma sw_single s : clusters u s = [s] -> string_width u s = cwidth u s.
  Proof. intros H. unfold string_width. rewrite H. cbn. lia. Qed.

  Lemma idx_right p : idx r (right_of p) = idx r p + 1.
  Proof. unfold idx, right_of; cbn. lia. Qed.
  Lemma idx_left p : idx r (left_of p) = idx r p - 1.
  Proof. unfold idx, left_of; cbn. lia. Qed.
  Lemma idx_row p q : py p = py q -> idx r p - idx r q = px p - px q.
  Proof. unfold idx. intros ->. lia. Qed.
  Lemma right_left p : right_of (left_of p) = p.
  Proof. destruct p; unfold right_of, left_of; cbn. f_equal; lia. Qed.
  Lemma left_right p : left_of (right_of p) = p.
  Proof. destruct p; unfold right_of, left_of; cbn. f_equal; lia. Qed.

  Lemma expected_cases b q : inside q (barea b) -> displayable u te b ->
    (exists l, look b (left_of q) = Some l /\ cwidth u (csym l) = 2 /\ expected u te b q = TPart (csym l) (attr_of te l) 1) \/
    ((forall l, look b (left_of q) = Some l -> cwidth u (csym l) = 1) /\
     exists c, look b q = Some c /\ expected u te b q = TPart (csym c) (attr_of te c) 0).
  Proof.
    intros Hq Hd. destruct (look_inside b q (disp_wf _ _ _ Hd) Hq) as [c Hc]. unfold expected.
    destruct (look b (left_of q)) as [l|] eqn:El.
    - destruct (ok_width _ _ _ (disp_cell _ _ _ Hd _ _ El)) as [W|W].
      + right. split; [intros l' E; injection E as <-; auto|]. exists c. split; [assumption|].
        rewrite W. cbn. now rewrite Hc.
      + left. exists l. rewrite W. auto.
    - right. split; [discriminate|]. exists c. now rewrite Hc.
  Qed.

  Lemma expected_uncovered b q c : look b q = Some c -> (forall l, look b (left_of q) = Some l -> cwidth u (csym l) = 1) ->
    expected u te b q = TPart (csym c) (attr_of te c) 0.
  Proof.
    intros Hc H. unfold expected. destruct (look b (left_of q)) as [l|]; [|now rewrite Hc].
    rewrite (H l eq_refl). cbn. now rewrite Hc.
  Qed.

  Lemma expected_covered b q l : look b (left_of q) = Some l -> cwidth u (csym l) = 2 ->
    expected u te b q = TPart (csym l) (attr_of te l) 1.
  Proof. intros Hc H. unfold expected. now rewrite Hc, H. Qed.

  Definition wide_at (b : buffer) (j : Z) : Prop :=
    exists q c, idx r q = j /\ look b q = Some c /\ cwidth u (csym c) = 2.

  Record inv (j : Z) (st : diff_state) : Prop := {
    i_basic : basic j st;
    i_chain : forall p0 c0 p c, In (p0, c0) (d_updates st) -> In (p, c) (d_updates st) -> p = right_of p0 -> cwidth u (csym c0) = 1;
    i_skip : d_skip st = 0 \/ d_skip st = 1;
    i_skip0 : d_skip st = 0 -> ~ wide_at next (j - 1);
    i_skip1 : d_skip st = 1 -> wide_at next (j - 1);
    i_inval : d_inval st = 0 \/ d_inval st = 1;
    i_inval0 : d_inval st = 0 -> ~ wide_at prev (j - 1);
    i_done : forall q, inside q r -> idx r q < j -> fold_left (put u te) (d_updates st) cells0 q = expected u te next q;
    i_tail : forall q, inside q r -> idx r q = j -> d_skip st = 1 ->
      fold_left (put u te) (d_updates st) cells0 q = expected u te next q;
    i_here : forall q, inside q r -> idx r q = j -> d_skip st = 0 -> d_inval st = 0 ->
      fold_left (put u te) (d_updates st) cells0 q = expected u te prev q;
    i_rest : forall q, inside q r -> j < idx r q ->
      fold_left (put u te) (d_updates st) cells0 q = expected u te prev q \/
      (idx r q = j + 1 /\ wide_at prev j /\ d_inval st = 1) }.

  Lemma look_inside_r b q c : (b = prev \/ b = next) -> look b q = Some c -> inside q r.
  Proof. intros [->| ->] H; apply look_Some_inside in H; [auto|now rewrite Ha in H]. Qed.

  Lemma wide_at_unique b q c j : (b = prev \/ b = next) -> look b q = Some c -> idx r q = j -> wide_at b j -> cwidth u (csym c) = 2.
  Proof.
    intros Hb Hq Hj (q' & c' & E & L & W). assert (q = q'); [|congruence].
    apply (idx_inj r); [eapply look_inside_r; eauto|eapply look_inside_r; eauto|congruence].
  Qed.

  Lemma inv_step j st p n : 0 <= j < zlen (bcells prev) ->
    nth_error (bcells prev) (Z.to_nat j) = Some p -> nth_error (bcells next) (Z.to_nat j) = Some n -> inv j st ->
    exists st', diff_step u prev st j p n = Ret st' /\ inv (j + 1) st'.
  Proof.
    intros Hj Hp Hn H.
    destruct (basic_step j st p n Hj Hp Hn (i_basic _ _ H)) as (Hin & Hidx & Lp & Ln & st' & E' & HB' & Hups & Hinv & Hskip).
    set (q := posn r j) in *.
    exists st'. split; [assumption|].
    pose proof (disp_cell _ _ _ Dp _ _ Lp) as Kp. pose proof (disp_cell _ _ _ Dn _ _ Ln) as Kn.
    rewrite (sw_single _ (ok_single _ _ _ Kp)), (sw_single _ (ok_single _ _ _ Kn)) in Hinv.
    rewrite (sw_single _ (ok_single _ _ _ Kn)) in Hskip.
    pose proof (ok_width _ _ _ Kp) as Wp'. pose proof (ok_width _ _ _ Kn) as Wn'.
    rewrite (ok_noskip _ _ _ Kn) in Hups. cbn [negb andb] in Hups.
    set (f := fold_left (put u te) (d_updates st) cells0) in *.
    (* facts shared by both cases *)
    assert (Hwn : cwidth u (csym n) = 2 -> wide_at next j) by (intros; exists q, n; auto).
    assert (Hwp : cwidth u (csym p) = 2 -> wide_at prev j) by (intros; exists q, p; auto).
    assert (Hwn' : wide_at next j -> cwidth u (csym n) = 2) by (intros Hw; refine (wide_at_unique _ q _ j _ _ _ Hw); auto).
    assert (Hwp' : wide_at prev j -> cwidth u (csym p) = 2) by (intros Hw; refine (wide_at_unique _ q _ j _ _ _ Hw); auto).
    assert (Hskipn : d_skip st = 1 -> cwidth u (csym n) = 1).
    { intros Hs. destruct (i_skip1 _ _ H Hs) as (q' & c' & E1 & L1 & W1).
      destruct (disp_wide _ _ _ Dn _ _ L1 W1) as (c2 & L2 & W2).
      assert (right_of q' = q). { apply (idx_inj r); [apply (look_inside_r next _ c2); auto|auto|rewrite idx_right; lia]. }
      congruence. }
    assert (Hnleft : d_skip st = 0 -> forall l, look next (left_of q) = Some l -> cwidth u (csym l) = 1).
    { intros Hs l Hl. destruct (ok_width _ _ _ (disp_cell _ _ _ Dn _ _ Hl)) as [|W]; [auto|].
      exfalso. apply (i_skip0 _ _ H Hs). exists (left_of q), l. rewrite idx_left. repeat split; auto; lia. }
    assert (Hpleft : d_inval st = 0 -> forall l, look prev (left_of q) = Some l -> cwidth u (csym l) = 1).
    { intros Hs l Hl. destruct (ok_width _ _ _ (disp_cell _ _ _ Dp _ _ Hl)) as [|W]; [auto|].
      exfalso. apply (i_inval0 _ _ H Hs). exists (left_of q), l. rewrite idx_left. repeat split; auto; lia. }
    assert (Hskip01 : d_skip st' = 0 \/ d_skip st' = 1) by lia.
    assert (Hskip0' : d_skip st' = 0 -> ~ wide_at next (j + 1 - 1)).
    { replace (j + 1 - 1) with j by lia. intros Hs Hw. apply Hwn' in Hw. lia. }
    assert (Hskip1' : d_skip st' = 1 -> wide_at next (j + 1 - 1)).
    { replace (j + 1 - 1) with j by lia. intros Hs. apply Hwn. lia. }
    assert (Hinval01 : d_inval st' = 0 \/ d_inval st' = 1).
    { destruct (i_inval _ _ H); lia. }
    assert (Hinval0' : d_inval st' = 0 -> ~ wide_at prev (j + 1 - 1)).
    { replace (j + 1 - 1) with j by lia. intros Hs Hw. apply Hwp' in Hw. lia. }
    destruct ((negb (cell_eqb n p) || (d_inval st >? 0)) && (d_skip st =? 0)) eqn:Em.
    - (* printed *)
      apply andb_prop in Em. destruct Em as [_ Es]. apply Z.eqb_eq in Es.
      assert (Ef : fold_left (put u te) (d_updates st') cells0 = place u q (csym n) (attr_of te n) f).
      { rewrite Hups, fold_left_app. reflexivity. }
      assert (Hdone : forall z, inside z r -> idx r z < j + 1 -> place u q (csym n) (attr_of te n) f z = expected u te next z).
      { intros z Hz Hzj. destruct (Z.eq_dec (idx r z) j) as [Ez|Nz].
        - assert (z = q) by (apply (idx_inj r); auto; lia). subst z.
          rewrite (expected_uncovered next q n Ln (Hnleft Es)). unfold place.
          rewrite Z.eqb_refl. replace ((px q <=? px q) && (px q <? px q + cwidth u (csym n))) with true.
          + f_equal. lia.
          + symmetry. apply andb_true_intro. split; [apply Z.leb_le|apply Z.ltb_lt]; lia.
        - rewrite <- (i_done _ _ H z Hz) by lia. fold f. unfold place.
          destruct (Z.eqb_spec (py z) (py q)) as [Er|]; [|reflexivity].
          pose proof (idx_row z q Er) as Hr.
          replace ((px q <=? px z) && (px z <? px q + cwidth u (csym n))) with false.
          2: { symmetry. apply andb_false_iff. left. apply Z.leb_gt. lia. }
          unfold f at 1. rewrite (i_done _ _ H z Hz) by lia.
          assert (Hz' : inside z (barea next)) by (rewrite Ha; exact Hz).
          destruct (expected_cases next z Hz' Dn) as [(l & Ll & Wl & Ee)|(Hnl & c & Lc & Ee)]; rewrite Ee; cbn [glyph_cols].
          + rewrite Wl. replace ((px z - 1 <? px q + cwidth u (csym n)) && (px q <? px z - 1 + 2)) with false; [reflexivity|].
            symmetry. apply andb_false_iff. right. apply Z.ltb_ge. lia.
          + replace ((px z - 0 <? px q + cwidth u (csym n)) && (px q <? px z - 0 + cwidth u (csym c))) with false; [reflexivity|].
            symmetry. apply andb_false_iff. right. apply Z.ltb_ge.
            destruct (ok_width _ _ _ (disp_cell _ _ _ Dn _ _ Lc)) as [Wc|Wc]; [lia|].
            destruct (Z.eq_dec (px z + 1) (px q)) as [Eadj|]; [|lia].
            exfalso. apply (i_skip0 _ _ H Es). exists z, c. repeat split; auto. lia. }
      assert (Hright : forall z, inside z r -> idx r z = j + 1 -> d_skip st' = 1 ->
         place u q (csym n) (attr_of te n) f z = expected u te next z).
      { intros z Hz Hzj Hs. assert (Wn2 : cwidth u (csym n) = 2) by lia.
        destruct (disp_wide _ _ _ Dn _ _ Ln Wn2) as (c2 & L2 & _).
        assert (z = right_of q). { apply (idx_inj r); auto; [apply (look_inside_r next _ c2); auto|rewrite idx_right; lia]. }
        subst z. rewrite (expected_covered next (right_of q) n); [|now rewrite left_right|auto].
        unfold place, right_of; cbn [px py]. rewrite Z.eqb_refl, Wn2.
        replace ((px q <=? px q + 1) && (px q + 1 <? px q + 2)) with true.
        + f_equal. lia.
        + symmetry. apply andb_true_intro. split; [apply Z.leb_le|apply Z.ltb_lt]; lia. }
      assert (Hhere : forall z, inside z r -> idx r z = j + 1 -> d_skip st' = 0 -> d_inval st' = 0 ->
         place u q (csym n) (attr_of te n) f z = expected u te prev z).
      { intros z Hz Hzj Hs Hv. assert (Wn1 : cwidth u (csym n) = 1) by lia. assert (Wp1 : cwidth u (csym p) = 1) by lia.
        destruct (i_rest _ _ H z Hz) as [Er|(_ & Hw & _)]; [lia| |apply Hwp' in Hw; lia].
        fold f in Er. unfold place. destruct (Z.eqb_spec (py z) (py q)) as [Ey|]; [|exact Er].
        pose proof (idx_row z q Ey) as Hrow.
        replace ((px q <=? px z) && (px z <? px q + cwidth u (csym n))) with false.
        2: { symmetry. apply andb_false_iff. right. apply Z.ltb_ge. lia. }
        assert (Elz : left_of z = q) by (apply left_of_eq; lia).
        rewrite Er. destruct (expected_cases prev z Hz Dp) as [(l & Ll & Wl & Ee)|(Hnl & c & Lc & Ee)]; rewrite Ee; cbn [glyph_cols].
        - exfalso. rewrite Elz in Ll. congruence.
        - replace ((px z - 0 <? px q + cwidth u (csym n)) && (px q <? px z - 0 + cwidth u (csym c))) with false; [reflexivity|].
          symmetry. apply andb_false_iff. left. apply Z.ltb_ge. lia. }
      assert (Hrest : forall z, inside z r -> j + 1 < idx r z ->
         place u q (csym n) (attr_of te n) f z = expected u te prev z \/ (idx r z = j + 1 + 1 /\ wide_at prev (j + 1) /\ d_inval st' = 1)).
      { intros z Hz Hzj. destruct (i_rest _ _ H z Hz) as [Er|(Ex & _)]; [lia| |lia]. fold f in Er.
        unfold place. destruct (Z.eqb_spec (py z) (py q)) as [Ey|]; [|left; exact Er].
        pose proof (idx_row z q Ey) as Hrow.
        replace ((px q <=? px z) && (px z <? px q + cwidth u (csym n))) with false.
        2: { symmetry. apply andb_false_iff. right. apply Z.ltb_ge. lia. }
        rewrite Er. destruct (expected_cases prev z Hz Dp) as [(l & Ll & Wl & Ee)|(Hnl & c & Lc & Ee)]; rewrite Ee; cbn [glyph_cols].
        - destruct ((px z - 1 <? px q + cwidth u (csym n)) && (px q <? px z - 1 + cwidth u (csym l))) eqn:Eo; [|left; reflexivity].
          right. apply andb_prop in Eo. destruct Eo as [Eo _]. apply Z.ltb_lt in Eo.
          split; [lia|]. split; [|lia]. exists (left_of z), l. split; [rewrite idx_left; lia|auto].
        - left. replace ((px z - 0 <? px q + cwidth u (csym n)) && (px q <? px z - 0 + cwidth u (csym c))) with false; [reflexivity|].
          symmetry. apply andb_false_iff. left. apply Z.ltb_ge. lia. }
      constructor; auto; try (rewrite Ef; assumption).
      rewrite Hups. intros p0 c0 p1 c1 H0 H1 Er. apply in_app_or in H0, H1.
      destruct H0 as [H0|[H0|[]]].
      + destruct H1 as [H1|[H1|[]]]; [exact (i_chain _ _ H p0 c0 p1 c1 H0 H1 Er)|].
        injection H1 as <- <-. destruct (b_in _ _ (i_basic _ _ H) p0 c0 H0) as (_ & _ & L0).
        apply (Hnleft Es c0). rewrite Er, left_right. exact L0.
      + injection H0 as <- <-. exfalso. destruct H1 as [H1|[H1|[]]].
        * destruct (b_in _ _ (i_basic _ _ H) p1 c1 H1) as (_ & Hlt & _). rewrite Er, idx_right in Hlt. lia.
        * injection H1 as E1 _. rewrite Er in E1. apply (f_equal (idx r)) in E1. rewrite idx_right in E1. lia.
    - (* not printed *)
      assert (Hcase : d_skip st = 1 \/ (d_skip st = 0 /\ d_inval st = 0 /\ n = p)).
      { destruct (i_skip _ _ H) as [Es|Es]; [|auto]. right. rewrite Es in Em. cbn in Em. rewrite andb_true_r in Em.
        apply orb_false_elim in Em. destruct Em as [Ec Ev]. apply negb_false_iff in Ec. apply cell_eqb_eq in Ec.
        destruct (i_inval _ _ H) as [Ei|Ei]; [auto|]. rewrite Ei in Ev. discriminate. }
      assert (Hdone : forall z, inside z r -> idx r z < j + 1 -> f z = expected u te next z).
      { intros z Hz Hzj. destruct (Z.eq_dec (idx r z) j) as [Ez|Nz]; [|apply (i_done _ _ H z Hz); lia].
        destruct Hcase as [Es|(Es & Ev & Ec)]; [apply (i_tail _ _ H z Hz Ez Es)|].
        assert (z = q) by (apply (idx_inj r); auto; lia). subst z.
        unfold f. rewrite (i_here _ _ H q Hz Ez Es Ev).
        rewrite (expected_uncovered next q n Ln (Hnleft Es)), (expected_uncovered prev q p Lp (Hpleft Ev)). now rewrite Ec. }
      assert (Htail : forall z, inside z r -> idx r z = j + 1 -> d_skip st' = 1 -> f z = expected u te next z).
      { intros z Hz Hzj Hs. assert (Wn2 : cwidth u (csym n) = 2) by lia.
        destruct Hcase as [Es|(Es & Ev & Ec)]; [specialize (Hskipn Es); lia|].
        destruct (disp_wide _ _ _ Dn _ _ Ln Wn2) as (c2 & L2 & _).
        assert (z = right_of q). { apply (idx_inj r); auto; [apply (look_inside_r next _ c2); auto|rewrite idx_right; lia]. }
        subst z. destruct (i_rest _ _ H (right_of q) Hz) as [Er|(_ & _ & Hv)]; [lia| |lia].
        unfold f. rewrite Er. subst p.
        rewrite (expected_covered next (right_of q) n), (expected_covered prev (right_of q) n); auto; now rewrite left_right. }
      assert (Hhere : forall z, inside z r -> idx r z = j + 1 -> d_skip st' = 0 -> d_inval st' = 0 -> f z = expected u te prev z).
      { intros z Hz Hzj Hs Hv. destruct (i_rest _ _ H z Hz) as [Er|(_ & Hw & _)]; [lia|exact Er|]. apply Hwp' in Hw. lia. }
      assert (Hrest : forall z, inside z r -> j + 1 < idx r z ->
         f z = expected u te prev z \/ (idx r z = j + 1 + 1 /\ wide_at prev (j + 1) /\ d_inval st' = 1)).
      { intros z Hz Hzj. destruct (i_rest _ _ H z Hz) as [Er|(Ex & _)]; [lia|left; exact Er|lia]. }
      constructor; auto; try (rewrite Hups; assumption).
      rewrite Hups. exact (i_chain _ _ H).
  Qed.

  Lemma inv_init : inv 0 (DiffState [] 0 0).
  Proof.
    assert (Hneg : forall b, (b = prev \/ b = next) -> ~ wide_at b (0 - 1)).
    { intros b Hb (q & c & E & L & _). apply (look_inside_r b q c Hb) in L. pose proof (idx_range r q L). lia. }
    constructor; cbn; auto.
    - apply basic_init.
    - tauto.
    - discriminate.
    - intros q Hq Hi. pose proof (idx_range r q Hq). lia.
    - discriminate.
  Qed.

  (** Printing the difference over a screen showing [prev] makes it show [next]. *)
  Lemma diff_shows : exists ups, diff u prev next = Ret ups /\
    (forall p c, In (p, c) ups -> inside p r /\ look next p = Some c) /\
    (forall p0 c0 p c, In (p0, c0) ups -> In (p, c) ups -> p = right_of p0 -> cwidth u (csym c0) = 1) /\
    shows u te (fold_left (put u te) ups cells0) next.
  Proof.
    destruct (diff_loop_inv u prev inv (bcells prev) (bcells next) 0 (DiffState [] 0 0) cells_len inv_init) as (st & E & HI).
    - intros j st p n Hj Hp Hn HB. rewrite Z.sub_0_r in *.
      assert (0 <= j < zlen (bcells prev)).
      { split; [lia|]. assert (Hx := nth_error_Some (bcells prev) (Z.to_nat j)). rewrite Hp in Hx.
        assert ((Z.to_nat j < length (bcells prev))%nat) by (apply Hx; discriminate). unfold zlen; lia. }
      apply inv_step; auto.
    - unfold diff. rewrite E. cbn [bind]. exists (d_updates st). split; [reflexivity|].
      split; [intros p c Hin; destruct (b_in _ _ (i_basic _ _ HI) p c Hin) as (X & _ & Z); auto|].
      split; [exact (i_chain _ _ HI)|].
      intros q Hq. rewrite Ha in Hq. apply (i_done _ _ HI q Hq). pose proof (idx_range r q Hq).
      destruct Wp as [_ Hl]. unfold r in *. lia.
  Qed.
End Diff.

Lemma chain_pairs u l : forall last,
  (forall p0 c0 p c, (last = Some (p0, c0) \/ In (p0, c0) l) -> In (p, c) l -> p = right_of p0 -> cwidth u (csym c0) = 1) ->
  chain u last l.
Proof.
  induction l as [|[p c] l IH]; intros last H; cbn; [exact I|]. split.
  - intros p0 c0 E Hx Hy. apply (H p0 c0 p c); auto; [now left|]. destruct p, p0; unfold right_of; cbn in *. congruence.
  - apply IH. intros p0 c0 p1 c1 [E|Hin] H1 Er.
    + injection E as <- <-. apply (H p c p1 c1); auto; [right; now left|now right].
    + apply (H p0 c0 p1 c1); auto; [right; now right|now right].
Qed.
