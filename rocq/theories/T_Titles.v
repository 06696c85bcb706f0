(** C88: what the title rows of a block show. *)
From Verif Require Import Base P_Base M_Geom S_Geom T_Geom M_Style M_Uniseg M_Buffer S_Buffer S_Text S_Line P_Buffer P_SetString T_Buffer P_Redraw M_Text M_Block P_Text T_Text S_Block P_Block T_Block S_Titles M_Options.
From Coq Require Import ZArith NArith List Bool Lia.
Import ListNotations.
Open Scope Z_scope.

Lemma group_eq k p a : group k p a = filter_titles k p a.
Proof.
  unfold group, filter_titles. apply filter_ext. intros t. unfold belongs, title_pos, title_align, title_position_eqb, alignment_eqb.
  destruct (match ti_pos t with Some q => q | None => bk_titles_pos k end), p, (ti_align t), a; try reflexivity; destruct (bk_titles_align k); reflexivity.
Qed.
Lemma title_width_eq u t : title_width u t = line_width u (ti_line t).
Proof. unfold title_width. apply line_cells_width. Qed.

Definition plain_titles (u : uniseg) (ts : list title) : Prop := forall t, In t ts -> visible_line u (ln_spans (ti_line t)).

Lemma title_width_nonneg u t : uniseg_ok u -> visible_line u (ln_spans (ti_line t)) -> 0 <= title_width u t.
Proof. intros Hu V. apply cells_width_nonneg. now apply visible_of. Qed.

(** One title in a rectangle of its visible columns. *)
Lemma draw_one u k t b x y n : uniseg_ok u -> wf_buffer b -> visible_line u (ln_spans (ti_line t)) -> 0 <= n <= title_width u t ->
  rx (barea b) <= x -> x + n <= rx (barea b) + rw (barea b) -> ry (barea b) <= y < ry (barea b) + rh (barea b) ->
  exists b', draw_title u k t (Rect x y n 1) b = Ret b' /\
    redrawn (fun p c => if (py p =? y) && (x <=? px p) && (px p <? x + n) then
      paint (seen (cwidth u) (line_cells u (ln_spans (ti_line t))) n (start_column (ln_align (ti_line t)) n (title_width u t)) (px p - x))
        (cell_set_style (ln_style (ti_line t)) (cell_set_style (bk_titles_style k) c)) else c) b b'.
Proof.
  intros Hu W V Hn Hx Hr Hy. unfold draw_title. destruct (set_style_redrawn b (Rect x y n 1) (bk_titles_style k) W) as (b1 & E1 & R1). rewrite E1. cbn [bind].
  assert (A1 := redrawn_area _ _ _ R1). assert (W1 := redrawn_wf _ _ _ R1).
  destruct (Z.eq_dec n 0) as [->|Hn0].
  { exists b1. split.
    - unfold line_render, line_render_with. replace (rect_is_empty _) with true; [reflexivity|]. symmetry. unfold rect_is_empty, intersection, rright. cbn [rw rh rx]. apply orb_true_iff. left. apply Z.eqb_eq. lia.
    - eapply redrawn_ext; [|exact R1]. intros p c _. cbn beta. replace (contains (Rect x y 0 1) p) with false by (symmetry; apply contains_false; unfold inside; cbn; lia).
      destruct ((py p =? y) && (x <=? px p)) eqn:E; cbn [andb]; [|reflexivity]. apply andb_true_iff in E. destruct E as [_ E]. apply Z.leb_le in E. destruct (Z.ltb_spec (px p) (x + 0)); [lia|reflexivity]. }
  assert (EI : intersection (Rect x y n 1) (barea b1) = Rect x y n 1) by (apply intersection_within; [unfold within; rewrite A1; cbn; lia|split; cbn; lia]).
  pose proof (C18_line_placement u (ti_line t) (Rect x y n 1) b1 AlignNone Hu W1 V) as P. rewrite EI in P. cbn [rw rh rx ry] in P. rewrite <- title_width_eq in P.
  destruct P as (b2 & E2 & A2 & L & O); try lia.
  destruct (draw_title_ok u k t (Rect x y n 1) b Hu W) as (b2' & E2' & (_ & W2 & _)). unfold draw_title in E2'. rewrite E1 in E2'. cbn [bind] in E2'. unfold line_render in E2'. rewrite E2 in E2'. injection E2' as <-.
  exists b2. split; [exact E2|]. destruct R1 as (_ & _ & R1). split; [congruence|]. split; [exact W2|]. intros p.
  destruct (Z.eqb_spec (py p) y), (Z.leb_spec x (px p)), (Z.ltb_spec (px p) (x + n)); cbn [andb];
    try (rewrite O by lia; rewrite R1; replace (contains (Rect x y n 1) p) with false by (symmetry; apply contains_false; unfold inside; cbn; lia); reflexivity).
  rewrite L, R1 by lia. replace (contains (Rect x y n 1) p) with true by (symmetry; apply contains_inside; unfold inside; cbn; lia).
  replace (px p - x <? Z.min n (title_width u t)) with true by (symmetry; apply Z.ltb_lt; lia).
  replace (effective (ln_align (ti_line t)) AlignNone) with (ln_align (ti_line t)) by (unfold effective; destruct (ln_align (ti_line t)); reflexivity).
  now destruct (look b p).
Qed.

Lemma slot_before u ts : uniseg_ok u -> plain_titles u ts -> forall start o, o < start -> slot_at u start ts o = None.
Proof.
  intros Hu. induction ts as [|t ts IH]; intros V start o H; cbn [slot_at]; [reflexivity|]. pose proof (title_width_nonneg u t Hu (V t (or_introl eq_refl))).
  destruct (Z.leb_spec start o); [lia|]. cbn [andb]. apply IH; [intros x I; apply V; now right|lia].
Qed.
Definition total (u : uniseg) (ts : list title) : Z := zsum (map (fun t => title_width u t + 1) ts).
Lemma total_cons u t ts : total u (t :: ts) = title_width u t + 1 + total u ts.
Proof. unfold total. cbn [map]. now rewrite zsum_cons. Qed.
Lemma total_app u a b : total u (a ++ b) = total u a + total u b.
Proof. induction a as [|t a IH]; cbn [app]; [reflexivity|]. rewrite !total_cons, IH. lia. Qed.
Lemma total_nonneg u ts : uniseg_ok u -> plain_titles u ts -> 0 <= total u ts.
Proof.
  intros Hu. induction ts as [|t ts IH]; intros V; [unfold total; cbn; lia|]. rewrite total_cons. pose proof (title_width_nonneg u t Hu (V t (or_introl eq_refl))).
  specialize (IH ltac:(intros x I; apply V; now right)). lia.
Qed.
Lemma slot_after u ts : uniseg_ok u -> plain_titles u ts -> forall start o, start + total u ts - 1 <= o -> slot_at u start ts o = None.
Proof.
  intros Hu. induction ts as [|t ts IH]; intros V start o H; cbn [slot_at]; [reflexivity|]. pose proof (title_width_nonneg u t Hu (V t (or_introl eq_refl))).
  rewrite total_cons in H. assert (V' : plain_titles u ts) by (intros x I; apply V; now right). pose proof (total_nonneg u ts Hu V').
  destruct (Z.leb_spec start o), (Z.ltb_spec o (start + title_width u t)); cbn [andb]; try lia; apply IH; auto; lia.
Qed.
Lemma slot_app u a b : uniseg_ok u -> plain_titles u (a ++ b) -> forall start o,
  slot_at u start (a ++ b) o = match slot_at u start a o with Some r => Some r | None => slot_at u (start + total u a) b o end.
Proof.
  intros Hu. induction a as [|t a IH]; intros V start o; cbn [app slot_at]. { unfold total. cbn. now rewrite Z.add_0_r. }
  destruct ((start <=? o) && _); [reflexivity|]. rewrite IH by (intros x I; apply V; now right). rewrite total_cons.
  now replace (start + title_width u t + 1 + total u a) with (start + (title_width u t + 1 + total u a)) by lia.
Qed.
Lemma slot_bounds u ts : forall start o t s, slot_at u start ts o = Some (t, s) -> s <= o < s + title_width u t.
Proof.
  induction ts as [|t0 ts IH]; intros start o t s; cbn [slot_at]; [discriminate|]. destruct (Z.leb_spec start o), (Z.ltb_spec o (start + title_width u t0)); cbn [andb]; try apply IH.
  intros H'. injection H' as <- <-. lia.
Qed.
Lemma slot_within u ts : uniseg_ok u -> plain_titles u ts -> forall start o t s, slot_at u start ts o = Some (t, s) -> start <= s /\ s + title_width u t <= start + total u ts - 1.
Proof.
  intros Hu. induction ts as [|t0 ts IH]; intros V start o t s; cbn [slot_at]; [discriminate|]. pose proof (title_width_nonneg u t0 Hu (V t0 (or_introl eq_refl))).
  assert (V' : plain_titles u ts) by (intros x I; apply V; now right). pose proof (total_nonneg u ts Hu V'). rewrite total_cons.
  destruct ((start <=? o) && _); intros H'; [injection H' as <- <-; lia|]. apply IH in H'; [lia|exact V'].
Qed.

(** A strip [x0, x0 + W) of row [y] passed through [f], whose argument is the column in the strip. *)
Definition strip (x0 y W : Z) (f : Z -> cell -> cell) (p : pos) (c : cell) : cell :=
  if (py p =? y) && (x0 <=? px p) && (px p <? x0 + W) then f (px p - x0) c else c.
Ltac strips := unfold strip; repeat match goal with |- context [?a =? ?b] => destruct (Z.eqb_spec a b) | |- context [?a <=? ?b] => destruct (Z.leb_spec a b) | |- context [?a <? ?b] => destruct (Z.ltb_spec a b) end; cbn [andb].

Lemma left_titles_row u k y x0 W ts : uniseg_ok u -> plain_titles u ts -> forall s b, wf_buffer b -> 0 <= s -> rx (barea b) <= x0 ->
  x0 + Z.min W (s + total u ts - 1) <= rx (barea b) + rw (barea b) -> ry (barea b) <= y < ry (barea b) + rh (barea b) ->
  exists b', left_titles u k ts (Rect (x0 + s) y (Z.max 0 (W - s)) 1) b = Ret b' /\ redrawn (strip x0 y W (over u (bk_titles_style k) W s ts)) b b'.
Proof.
  intros Hu. induction ts as [|t ts IH]; intros V s b Wf Hs Hx Hr Hy; cbn [left_titles].
  - exists b. split; [reflexivity|]. eapply redrawn_ext; [|now apply redrawn_refl]. intros p c _. cbn beta. unfold strip, over. cbn [slot_at]. now destruct (_ && _).
  - pose proof (title_width_nonneg u t Hu (V t (or_introl eq_refl))) as Nt. assert (V' : plain_titles u ts) by (intros z I; apply V; now right).
    unfold rect_is_empty. cbn [rw rh]. rewrite orb_false_r. rewrite total_cons in Hr. pose proof (total_nonneg u ts Hu V') as Tn.
    destruct (Z.eqb_spec (Z.max 0 (W - s)) 0) as [E0|E0].
    { exists b. split; [reflexivity|]. eapply redrawn_ext; [|now apply redrawn_refl]. intros p c _. cbn beta. strips; try reflexivity. unfold over.
      rewrite slot_before; auto. lia. }
    cbn [rx ry rh rw]. rewrite <- title_width_eq. set (w := title_width u t) in *. rewrite Z.max_r by lia.
    destruct (draw_one u k t b (x0 + s) y (Z.min w (W - s)) Hu Wf (V t (or_introl eq_refl))) as (b1 & E1 & R1); fold w; try lia.
    assert (A1 := redrawn_area _ _ _ R1). assert (W1 := redrawn_wf _ _ _ R1). rewrite E1. cbn [bind].
    destruct (IH V' (s + w + 1) b1 W1) as (b2 & E2 & R2); try lia; try (rewrite A1; lia).
    replace (x0 + s + (w + 1)) with (x0 + (s + w + 1)) by lia. replace (Z.max 0 (W - s - w - 1)) with (Z.max 0 (W - (s + w + 1))) by lia.
    exists b2. split; [exact E2|]. eapply redrawn_ext; [|eapply redrawn_trans; [exact R1|exact R2]]. intros p c _. cbn beta. fold w.
    unfold strip. destruct (Z.eqb_spec (py p) y); cbn [andb]; [|reflexivity].
    destruct (Z.leb_spec x0 (px p)), (Z.ltb_spec (px p) (x0 + W)); cbn [andb];
      try (destruct (Z.leb_spec (x0 + s) (px p)), (Z.ltb_spec (px p) (x0 + s + Z.min w (W - s))); cbn [andb]; try reflexivity; lia).
    unfold over at 2. cbn [slot_at]. fold w.
    destruct (Z.leb_spec s (px p - x0)), (Z.ltb_spec (px p - x0) (s + w)); cbn [andb].
    + replace (x0 + s <=? px p) with true by (symmetry; apply Z.leb_le; lia). replace (px p <? x0 + s + Z.min w (W - s)) with true by (symmetry; apply Z.ltb_lt; lia). cbn [andb].
      unfold over. rewrite slot_before by (auto; lia). unfold written. fold w. rewrite Z.max_r by lia. replace (Z.min W (s + w) - s) with (Z.min w (W - s)) by lia. replace (px p - x0 - s) with (px p - (x0 + s)) by lia. reflexivity.
    + replace (px p <? x0 + s + Z.min w (W - s)) with false by (symmetry; apply Z.ltb_ge; lia). rewrite andb_false_r. reflexivity.
    + replace (x0 + s <=? px p) with false by (symmetry; apply Z.leb_gt; lia). cbn [andb]. reflexivity.
    + replace (x0 + s <=? px p) with false by (symmetry; apply Z.leb_gt; lia). cbn [andb]. reflexivity.
Qed.

Lemma right_titles_row u k y x0 ts : uniseg_ok u -> plain_titles u ts -> forall W b, wf_buffer b -> 0 <= W -> 0 <= x0 -> rx (barea b) <= x0 ->
  x0 + W <= rx (barea b) + rw (barea b) -> ry (barea b) <= y < ry (barea b) + rh (barea b) ->
  exists b', right_titles u k ts (Rect x0 y W 1) b = Ret b' /\ redrawn (strip x0 y W (over u (bk_titles_style k) W (W - (total u ts - 1)) (rev ts))) b b'.
Proof.
  intros Hu. induction ts as [|t ts IH]; intros V W b Wf HW H0 Hx Hr Hy; cbn [right_titles].
  - exists b. split; [reflexivity|]. eapply redrawn_ext; [|now apply redrawn_refl]. intros p c _. cbn beta. unfold strip, over. cbn [slot_at rev]. now destruct (_ && _).
  - pose proof (title_width_nonneg u t Hu (V t (or_introl eq_refl))) as Nt. assert (V' : plain_titles u ts) by (intros z I; apply V; now right).
    unfold rect_is_empty. cbn [rw rh]. rewrite orb_false_r. rewrite total_cons. pose proof (total_nonneg u ts Hu V') as Tn.
    destruct (Z.eqb_spec W 0) as [E0|E0].
    { exists b. split; [reflexivity|]. eapply redrawn_ext; [|now apply redrawn_refl]. intros p c _. cbn beta. strips; try reflexivity. lia. }
    unfold rleft, rright. cbn [rx ry rh rw with_width]. rewrite <- title_width_eq. set (w := title_width u t) in *.
    replace (Z.max 0 (Z.max x0 (x0 + W - w))) with (x0 + W - Z.min W w) by lia.
    destruct (draw_one u k t b (x0 + W - Z.min W w) y (Z.min W w) Hu Wf (V t (or_introl eq_refl))) as (b1 & E1 & R1); fold w; try lia.
    assert (A1 := redrawn_area _ _ _ R1). assert (W1 := redrawn_wf _ _ _ R1). rewrite E1. cbn [bind].
    destruct (IH V' (Z.max 0 (W - w - 1)) b1 W1) as (b2 & E2 & R2); try lia; try (rewrite A1; lia).
    exists b2. split; [exact E2|]. eapply redrawn_ext; [|eapply redrawn_trans; [exact R1|exact R2]]. intros p c _. cbn beta. fold w.
    assert (Vr : plain_titles u (rev ts ++ [t])) by (intros z I; apply V; apply in_app_or in I; destruct I as [I|[<-|[]]]; [right; now apply in_rev|now left]).
    assert (Vr' : plain_titles u (rev ts)) by (intros z I; apply Vr, in_or_app; now left).
    assert (Et : total u (rev ts) = total u ts).
    { clear. induction ts as [|a ts IH]; [reflexivity|]. cbn [rev]. rewrite total_app, (total_cons u a ts), IH. change (total u [a]) with (title_width u a + 1 + 0). lia. }
    unfold strip. destruct (Z.eqb_spec (py p) y); cbn [andb]; [|reflexivity].
    destruct (Z.leb_spec x0 (px p)), (Z.ltb_spec (px p) (x0 + W)); cbn [andb].
    2:{ replace (px p <? x0 + W - Z.min W w + Z.min W w) with false by (symmetry; apply Z.ltb_ge; lia). rewrite andb_false_r. replace (px p <? x0 + Z.max 0 (W - w - 1)) with false by (symmetry; apply Z.ltb_ge; lia). reflexivity. }
    2,3: replace (x0 + W - Z.min W w <=? px p) with false by (symmetry; apply Z.leb_gt; lia); reflexivity.
    unfold over at 2. cbn [rev]. rewrite slot_app by auto. rewrite Et. set (st := W - (w + 1 + total u ts - 1)). replace (st + total u ts) with (W - w) by (unfold st; lia).
    cbn [slot_at]. fold w.
    destruct (Z.leb_spec (W - w) (px p - x0)).
    + replace (px p - x0 <? W - w + w) with true by (symmetry; apply Z.ltb_lt; lia). cbn [andb].
      rewrite slot_after by (auto; rewrite ?Et; unfold st; lia).
      replace (x0 + W - Z.min W w <=? px p) with true by (symmetry; apply Z.leb_le; lia). replace (px p <? x0 + W - Z.min W w + Z.min W w) with true by (symmetry; apply Z.ltb_lt; lia). cbn [andb].
      replace (px p <? x0 + Z.max 0 (W - w - 1)) with false by (symmetry; apply Z.ltb_ge; lia).
      unfold written. fold w. replace (Z.min W (W - w + w)) with W by lia. replace (W - Z.max 0 (W - w)) with (Z.min W w) by lia.
      replace (px p - x0 - Z.max 0 (W - w)) with (px p - (x0 + W - Z.min W w)) by lia. reflexivity.
    + replace (x0 + W - Z.min W w <=? px p) with false by (symmetry; apply Z.leb_gt; lia). cbn [andb].
      destruct (Z.ltb_spec (px p) (x0 + Z.max 0 (W - w - 1))).
      * replace (Z.max 0 (W - w - 1)) with (W - w - 1) by lia. replace (W - w - 1 - (total u ts - 1)) with st by (unfold st; lia). unfold over.
        destruct (slot_at u st (rev ts) (px p - x0)) as [[t' s']|] eqn:Es; [|reflexivity]. destruct (slot_within u _ Hu Vr' _ _ _ _ Es) as [_ Hs]. rewrite Et in Hs. unfold st in Hs.
        unfold written. replace (Z.min (W - w - 1) (s' + title_width u t')) with (Z.min W (s' + title_width u t')) by lia. reflexivity.
      * rewrite slot_after by (auto; rewrite ?Et; unfold st; lia). reflexivity.
Qed.

Lemma position_row u k p area b : uniseg_ok u -> wf_buffer b -> plain_titles u (bk_titles k) -> sized area -> 0 <= rx area -> 0 < rh area ->
  (forall q, inside q area -> inside q (barea b)) ->
  let lb := if side_contains (bk_borders k) SideLeft then 1 else 0 in
  let rb := if side_contains (bk_borders k) SideRight then 1 else 0 in
  let W := rw area - lb - rb in
  0 < W ->
  exists b', render_title_position u k p area b = Ret b' /\
    redrawn (strip (rx area + lb) (match p with TitleTop => ry area | TitleBottom => ry area + rh area - 1 end) W (title_row u k p W)) b b'.
Proof.
  intros Hu Wf V [Sw Sh] Hx Hh Hin lb rb W HW. unfold render_title_position, render_right_titles, render_center_titles, render_left_titles, titles_area. cbv zeta. fold lb rb.
  assert (Hlb : 0 <= lb <= 1) by (clear; unfold lb; case (side_contains _ _); lia). assert (Hrb : 0 <= rb <= 1) by (clear; unfold rb; case (side_contains _ _); lia).
  replace (Z.max 0 (rw area - lb - rb)) with W by lia. unfold rleft, rtop, rbottom. cbn [rx ry rw rh].
  set (y := match p with TitleTop => ry area | TitleBottom => ry area + rh area - 1 end). set (x0 := rx area + lb).
  assert (Hy : ry area <= y < ry area + rh area) by (unfold y; destruct p; lia).
  assert (I1 := Hin (Pos (rx area) y) ltac:(unfold inside; cbn; lia)). assert (I2 := Hin (Pos (rx area + rw area - 1) y) ltac:(unfold inside; cbn; lia)). unfold inside in I1, I2. cbn [px py] in I1, I2.
  assert (Vf : forall a, plain_titles u (filter_titles k p a)) by (intros a t I; apply filter_In in I; apply V, I).
  assert (Vr : plain_titles u (rev (filter_titles k p AlignRight))) by (intros t I; apply (Vf AlignRight); now apply in_rev).
  destruct (right_titles_row u k y x0 _ Hu Vr W b Wf) as (b1 & E1 & R1); try (unfold x0; lia). rewrite E1. cbn [bind]. rewrite rev_involutive in R1.
  assert (A1 := redrawn_area _ _ _ R1). assert (W1 := redrawn_wf _ _ _ R1).
  assert (Er : total u (rev (filter_titles k p AlignRight)) = total u (filter_titles k p AlignRight)).
  { clear. induction (filter_titles k p AlignRight) as [|a ts IH]; [reflexivity|]. cbn [rev]. rewrite total_app, (total_cons u a ts), IH. change (total u [a]) with (title_width u a + 1 + 0). lia. }
  rewrite Er in R1. clear Er.
  set (tc := filter_titles k p AlignCenter) in *. pose proof (total_nonneg u tc Hu (Vf AlignCenter)) as Tn.
  assert (Etot : zsum (map (fun t => line_width u (ti_line t) + 1) tc) = total u tc) by (unfold total; f_equal; apply map_ext; intros t; now rewrite title_width_eq). rewrite Etot.
  set (off := Z.quot (Z.max 0 (W - Z.max 0 (total u tc - 1))) 2).
  assert (Hoff : off = group_start u AlignCenter W tc \/ tc = []).
  { destruct tc as [|t r] eqn:Etc; [now right|left]. unfold off, group_start. change (group_width u (t :: r)) with (total u (t :: r) - 1). rewrite total_cons in *.
    pose proof (title_width_nonneg u t Hu (Vf AlignCenter t ltac:(fold tc; rewrite Etc; now left))). pose proof (total_nonneg u r Hu ltac:(intros z I; apply (Vf AlignCenter z); fold tc; rewrite Etc; now right)).
    rewrite Z.quot_div_nonneg by lia. f_equal. lia. }
  assert (Hoff0 : 0 <= off) by (apply Z.quot_pos; lia).
  assert (Hfit : off = 0 \/ off + (total u tc - 1) <= W).
  { unfold off. rewrite Z.quot_div_nonneg by lia. destruct (Z.leb_spec (Z.max 0 (total u tc - 1)) W); [right|left].
    - pose proof (Z.div_le_upper_bound (Z.max 0 (W - Z.max 0 (total u tc - 1))) 2 (Z.max 0 (W - Z.max 0 (total u tc - 1))) ltac:(lia) ltac:(lia)). lia.
    - replace (Z.max 0 (W - Z.max 0 (total u tc - 1))) with 0 by lia. reflexivity. }
  clearbody off.
  destruct (left_titles_row u k y x0 (W + off) tc Hu (Vf AlignCenter) off b1 W1) as (b2 & E2 & R2); try (rewrite ?A1; unfold x0; lia).
  replace (Z.max 0 (W + off - off)) with W in E2 by lia. rewrite E2. cbn [bind].
  assert (A2 := redrawn_area _ _ _ R2). assert (W2 := redrawn_wf _ _ _ R2).
  destruct (left_titles_row u k y x0 W (filter_titles k p AlignLeft) Hu (Vf AlignLeft) 0 b2 W2) as (b3 & E3 & R3); try (rewrite ?A2, ?A1; unfold x0; lia).
  replace (x0 + 0) with x0 in E3 by lia. replace (Z.max 0 (W - 0)) with W in E3 by lia. exists b3. split; [exact E3|].
  eapply redrawn_ext; [|eapply redrawn_trans; [exact R1|eapply redrawn_trans; [exact R2|exact R3]]]. intros q c _. cbn beta. unfold strip, title_row. cbv zeta. rewrite (group_eq k p AlignLeft), (group_eq k p AlignCenter), (group_eq k p AlignRight). fold tc.
  destruct (Z.eqb_spec (py q) y); cbn [andb]; [|reflexivity]. destruct (Z.leb_spec x0 (px q)); cbn [andb]; [|reflexivity].
  assert (Ec : forall o c0, 0 <= o < W -> over u (bk_titles_style k) (W + off) off tc o c0 = over u (bk_titles_style k) W (group_start u AlignCenter W tc) tc o c0).
  { intros o c0 Ho. destruct Hoff as [Hoff|Hoff]; [|rewrite Hoff; reflexivity]. rewrite <- Hoff. unfold over. destruct (slot_at u off tc o) as [[t s]|] eqn:Es; [|reflexivity].
    destruct (slot_within u tc Hu (Vf AlignCenter) _ _ _ _ Es). unfold written. destruct Hfit as [Hz|]; [replace (W + off) with W by lia; reflexivity|].
    replace (Z.min (W + off) (s + title_width u t)) with (Z.min W (s + title_width u t)) by lia. reflexivity. }
  destruct (Z.ltb_spec (px q) (x0 + W)).
  - replace (px q <? x0 + (W + off)) with true by (symmetry; apply Z.ltb_lt; lia). rewrite Ec by lia. cbn [group_start]. unfold group_width. fold (total u (filter_titles k p AlignRight)). reflexivity.
  - destruct (Z.ltb_spec (px q) (x0 + (W + off))); [|reflexivity]. unfold over. rewrite slot_after; [reflexivity|auto|apply Vf|]. destruct Hfit; lia.
Qed.

(** A rendered block is its background style, its frame and, between its vertical sides, its titles: each group of titles of
    one row and one alignment stands at the left end, in the middle or at the right end of the row, in the order in which the
    titles were added, with one free column between two titles; left titles cover centred ones and these cover right ones. *)
Theorem C88_rendered u k area b : uniseg_ok u -> wf_buffer b -> sized area -> 0 <= rx area ->
  (forall t, In t (bk_titles k) -> visible_line u (ln_spans (ti_line t))) ->
  (forall p, inside p area -> inside p (barea b)) ->
  exists b', block_render u k area b = Ret b' /\
    forall p, inside p area -> look b' p =
      option_map (fun c => titled u k area p (framed
        (frame_at (N.testbit (bk_borders k) 3) (N.testbit (bk_borders k) 0) (N.testbit (bk_borders k) 1) (N.testbit (bk_borders k) 2)
          (the_frame (bk_set k)) area p) (bk_border_style k) (cell_set_style (bk_style k) c))) (look b p).
Proof.
  intros Hu W Hs Hx V Hin.
  set (lb := if side_contains (bk_borders k) SideLeft then 1 else 0). set (rb := if side_contains (bk_borders k) SideRight then 1 else 0).
  assert (Hlb : (if N.testbit (bk_borders k) 3 then 1 else 0) = lb) by (unfold lb; now rewrite c_left).
  assert (Hrb : (if N.testbit (bk_borders k) 1 then 1 else 0) = rb) by (unfold rb; now rewrite c_right).
  destruct (Z.leb_spec (rw area - lb - rb) 0) as [Hn|Hp].
  { destruct (block_render_ok u k area b Hu W Hs Hx Hin) as (b' & E & C & L). exists b'. split; [exact E|]. intros p Hp. rewrite L; [|exact Hp|].
    - unfold block_frame, has_left, has_top, has_right, has_bottom. unfold titled. rewrite Hlb, Hrb. destruct (look b p) as [c|]; cbn [option_map]; [|reflexivity]. rewrite <- !andb_assoc.
      replace ((0 <=? px p - rx area - lb) && (px p - rx area - lb <? rw area - lb - rb)) with false by (symmetry; apply andb_false_iff; rewrite Z.leb_gt, Z.ltb_ge; lia).
      rewrite !andb_false_r. reflexivity.
    - unfold in_title_strip, titles_area, inside. fold lb rb. cbn [rx rw]. unfold rleft. intros [[_ [Q _]]|[_ [Q _]]]; cbn [rx rw] in Q; lia. }
  destruct (rect_is_empty area) eqn:Ee.
  { unfold block_render. assert (EI : intersection area area = area) by (apply intersection_within; [unfold within; lia|auto]). rewrite EI, Ee. exists b. split; [reflexivity|].
    intros p Hq. exfalso. unfold rect_is_empty in Ee. apply orb_true_iff in Ee. rewrite !Z.eqb_eq in Ee. unfold inside in Hq. lia. }
  assert (Ep := Ee). apply not_empty_pos in Ep; [|auto]. destruct Ep as [Hw Hh].
  unfold block_render. assert (EI : intersection area area = area) by (apply intersection_within; [unfold within; lia|auto]). rewrite EI, Ee.
  destruct (set_style_redrawn b area (bk_style k) W) as (b1 & -> & R1). cbn [bind]. assert (A1 := redrawn_area _ _ _ R1).
  destruct (render_borders_ok k area b1 (redrawn_wf _ _ _ R1) Hw Hh) as (b2 & -> & R2); [now rewrite A1|]. cbn [bind]. assert (A2 := redrawn_area _ _ _ R2).
  unfold render_titles.
  destruct (position_row u k TitleTop area b2 Hu (redrawn_wf _ _ _ R2) V Hs Hx Hh ltac:(now rewrite A2, A1) ltac:(fold lb rb; lia)) as (b3 & -> & R3). cbn [bind]. assert (A3 := redrawn_area _ _ _ R3).
  destruct (position_row u k TitleBottom area b3 Hu (redrawn_wf _ _ _ R3) V Hs Hx Hh ltac:(now rewrite A3, A2, A1) ltac:(fold lb rb; lia)) as (b4 & E4 & R4).
  exists b4. split; [exact E4|]. intros p Hp'. fold lb rb in R3, R4.
  destruct (redrawn_trans _ _ _ _ _ R1 (redrawn_trans _ _ _ _ _ R2 (redrawn_trans _ _ _ _ _ R3 R4))) as (_ & _ & L). rewrite L. destruct (look b p) as [c|]; [|reflexivity]. cbn [option_map]. f_equal.
  apply contains_inside in Hp'. rewrite Hp'. unfold titled. rewrite Hlb, Hrb. unfold strip, block_frame, has_left, has_top, has_right, has_bottom.
  replace (rx area + lb <=? px p) with (0 <=? px p - rx area - lb) by (apply Bool.eq_true_iff_eq; rewrite !Z.leb_le; lia).
  replace (px p <? rx area + lb + (rw area - lb - rb)) with (px p - rx area - lb <? rw area - lb - rb) by (apply Bool.eq_true_iff_eq; rewrite !Z.ltb_lt; lia).
  replace (px p - (rx area + lb)) with (px p - rx area - lb) by lia. reflexivity.
Qed.
Print Assumptions C88_rendered.

(** Every character of a title that lies within its row and under no other title is on the screen: the titles added before it
    to the same row with the same alignment stand before it. *)
Theorem C88_shown u k area b p a pre t post l1 c st l2 : uniseg_ok u -> wf_buffer b -> sized area -> 0 <= rx area -> 1 < rh area ->
  (forall t, In t (bk_titles k) -> visible_line u (ln_spans (ti_line t))) ->
  (forall q, inside q area -> inside q (barea b)) ->
  let lb := if N.testbit (bk_borders k) 3 then 1 else 0 in
  let W := rw area - lb - (if N.testbit (bk_borders k) 1 then 1 else 0) in
  let s := group_start u a W (group k p a) + zsum (map (fun t => title_width u t + 1) pre) in
  a <> AlignNone -> group k p a = pre ++ t :: post -> 0 <= s -> s + title_width u t <= W ->
  (forall a' o, a' <> a -> s <= o < s + title_width u t -> slot_at u (group_start u a' W (group k p a')) (group k p a') o = None) ->
  line_cells u (ln_spans (ti_line t)) = l1 ++ (c, st) :: l2 ->
  exists b' cell, block_render u k area b = Ret b' /\
    look b' (Pos (rx area + lb + s + cells_width u l1) (match p with TitleTop => ry area | TitleBottom => ry area + rh area - 1 end)) = Some cell /\ csym cell = c.
Proof.
  intros Hu Wf Hs Hx Hh V Hin lb W s Ha Eg Hs0 Hs1 Hno El. destruct (C88_rendered u k area b Hu Wf Hs Hx V Hin) as (b' & E & L).
  assert (Vg : forall x, plain_titles u (group k p x)) by (intros x z I; apply filter_In in I; apply V, I).
  assert (Vt : visible_line u (ln_spans (ti_line t))) by (apply (Vg a); rewrite Eg; apply in_or_app; right; now left).
  pose proof (visible_of u _ Hu Vt) as Vc. rewrite El in Vc. assert (Vc' := Vc). apply visible_app in Vc'. destruct Vc' as [V1 V2].
  pose proof (cells_width_nonneg u l1 V1) as N1. destruct (V2 c st (or_introl eq_refl)) as (Hc & _).
  assert (V3 : visible u l2) by (intros x y H; apply (V2 x y); now right). pose proof (cells_width_nonneg u l2 V3) as N2.
  assert (Ew : title_width u t = cells_width u l1 + (cwidth u c + cells_width u l2)) by (unfold title_width; rewrite El, cells_width_app; reflexivity).
  set (y := match p with TitleTop => ry area | TitleBottom => ry area + rh area - 1 end). set (q := Pos (rx area + lb + s + cells_width u l1) y).
  assert (Hlb : 0 <= lb <= 1) by (clear; unfold lb; destruct (N.testbit _ _); lia).
  assert (HW : W <= rw area - lb) by (clear; unfold W; destruct (N.testbit (bk_borders k) 1); lia).
  assert (Iq : inside q area) by (unfold inside, q, y; cbn [px py]; destruct p; lia).
  specialize (L q Iq). destruct (look_inside b q Wf (Hin q Iq)) as [c0 Hc0]. rewrite Hc0 in L. cbn [option_map] in L. eexists b', _. split; [exact E|]. split; [exact L|].
  set (o := s + cells_width u l1). match goal with |- csym (titled _ _ _ _ ?d) = _ => generalize d; intros d0 end.
  assert (Et : titled u k area q d0 = title_row u k p W o d0).
  { unfold titled. fold lb. fold W. replace (px q - rx area - lb) with o by (unfold q, o; cbn [px]; lia). change (py q) with y.
    replace (0 <=? o) with true by (symmetry; apply Z.leb_le; lia). replace (o <? W) with true by (symmetry; apply Z.ltb_lt; lia). rewrite !andb_true_r.
    unfold y. destruct p; rewrite Z.eqb_refl; [replace (ry area =? ry area + rh area - 1) with false by (symmetry; apply Z.eqb_neq; lia)|replace (ry area + rh area - 1 =? ry area) with false by (symmetry; apply Z.eqb_neq; lia)]; reflexivity. }
  rewrite Et. clear Et.
  assert (Hslot : slot_at u (group_start u a W (group k p a)) (group k p a) o = Some (t, s)).
  { rewrite Eg at 2. rewrite slot_app by (auto; rewrite <- Eg; apply Vg). fold (total u pre) in s. rewrite slot_after; [|auto|intros z I; apply (Vg a); rewrite Eg; apply in_or_app; now left|unfold o, s; lia].
    cbn [slot_at]. fold s. replace (s <=? o) with true by (symmetry; apply Z.leb_le; unfold o; lia). replace (o <? s + title_width u t) with true by (symmetry; apply Z.ltb_lt; unfold o; lia). reflexivity. }
  assert (Hwr : forall d, csym (written u (bk_titles_style k) W t s o d) = c).
  { intros d. unfold written. rewrite Z.max_r, Z.min_r by lia. replace (s + title_width u t - s) with (title_width u t) by lia. replace (o - s) with (cells_width u l1) by (unfold o; lia).
    replace (start_column (ln_align (ti_line t)) (title_width u t) (title_width u t)) with 0.
    - rewrite El. rewrite (seen_skip u l1 _ _ V1) by lia. cbn [seen]. rewrite Z.add_0_l, Z.leb_refl. replace (cells_width u l1 <? _) with true by (symmetry; apply Z.ltb_lt; lia). cbn [andb].
      replace (0 <=? cells_width u l1) with true by (symmetry; apply Z.leb_le; lia). replace (_ <=? title_width u t) with true by (symmetry; apply Z.leb_le; lia). rewrite Z.eqb_refl. reflexivity.
    - unfold start_column. destruct (ln_align _); try reflexivity; [|lia]. rewrite Z.leb_refl, Z.sub_diag. reflexivity. }
  assert (Hoth : forall a' d, a' <> a -> over u (bk_titles_style k) W (group_start u a' W (group k p a')) (group k p a') o d = d) by (intros a' d Hd; unfold over; rewrite Hno by (auto; unfold o; lia); reflexivity).
  assert (Hown : forall d, csym (over u (bk_titles_style k) W (group_start u a W (group k p a)) (group k p a) o d) = c) by (intros d; unfold over; rewrite Hslot; apply Hwr).
  unfold title_row. cbv zeta. destruct a; [congruence| | |].
  - apply Hown.
  - rewrite (Hoth AlignLeft) by discriminate. apply Hown.
  - rewrite (Hoth AlignLeft), (Hoth AlignCenter) by discriminate. apply Hown.
Qed.
Print Assumptions C88_shown.

(** A block that is told to align its titles nowhere in particular shows none of them. *)
Theorem C88_no_alignment_refuted : exists u k area b, uniseg_ok u /\ wf_buffer b /\ sized area /\ bk_titles k <> [] /\ has_title_at k TitleTop = true /\
  (forall t, In t (bk_titles k) -> visible_line u (ln_spans (ti_line t)) /\ 0 < title_width u t < rw area) /\ block_render u k area b = Ret b.
Proof.
  exists simple_uniseg, (block_apply (block_with_title new_block (Title AlignNone None (new_line_str [97%N]))) (Block_WithTitlesAlignment AlignNone)), (Rect 0 0 4 3), (demo_buffer 4 3).
  split; [apply simple_uniseg_ok|]. split; [split; [split; cbn; lia|reflexivity]|]. split; [split; cbn; lia|]. split; [discriminate|]. split; [reflexivity|]. split.
  - intros t [<-|[]]. split; [|vm_compute; split; reflexivity]. intros s c [<-|[]] H. cbn in H. destruct H as [<-|[]]. split; [vm_compute; congruence|reflexivity].
  - vm_compute. reflexivity.
Qed.
Print Assumptions C88_no_alignment_refuted.

(** Two left titles, one of a wide character, a centred one and two right ones in a top row of twelve columns, and one below. *)
Definition titled_block : block :=
  let t al pos s := Title al pos (new_line_str s) in
  fold_left block_with_title
    [t AlignNone None [97; 98]%N; t AlignRight None [120]%N; t AlignLeft None [20013]%N; t AlignCenter None [99]%N; t AlignRight (Some TitleTop) [121; 122]%N; t AlignCenter (Some TitleBottom) [100; 101]%N]
    (block_with_sides new_block []).
Example C88_instance :
  (forall t, In t (bk_titles titled_block) -> visible_line simple_uniseg (ln_spans (ti_line t))) /\
  (forall q, inside q (Rect 0 0 14 3) -> inside q (barea (demo_buffer 14 3))) /\
  map (fun a => map (title_width simple_uniseg) (group titled_block TitleTop a)) [AlignLeft; AlignCenter; AlignRight] = [[2; 2]; [1]; [1; 2]] /\
  (forall o, 3 <= o < 5 -> forall a', a' <> AlignLeft -> slot_at simple_uniseg (group_start simple_uniseg a' 12 (group titled_block TitleTop a')) (group titled_block TitleTop a') o = None) /\
  omap symbols (block_render simple_uniseg titled_block (Rect 0 0 14 3) (demo_buffer 14 3)) = Ret (map (fun n => [n])
    ([9484; 97; 98; 9472; 20013; 32; 99; 9472; 9472; 120; 9472; 121; 122; 9488] ++ 9474 :: repeat 32 12 ++ 9474 :: 9492 :: repeat 9472 5 ++ [100; 101] ++ repeat 9472 5 ++ [9496])%N).
Proof.
  split.
  { intros t I s c Hs H. vm_compute in I. repeat (destruct I as [<-|I]; [destruct Hs as [<-|[]]; cbn in H; repeat (destruct H as [<-|H]; [split; [vm_compute; congruence|reflexivity]|]); destruct H|]). destruct I. }
  split; [unfold inside; cbn; lia|]. split; [vm_compute; reflexivity|]. split.
  - intros o Ho a' Ha. assert (O : o = 3 \/ o = 4) by lia. destruct O as [-> | ->], a'; try congruence; vm_compute; reflexivity.
  - vm_compute. reflexivity.
Qed.
