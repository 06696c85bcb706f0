(** Printing lines of one-column characters. *)
From Verif Require Import Base P_Base M_Geom S_Geom T_Geom M_Style M_Uniseg M_Buffer S_Buffer S_Text P_Buffer P_SetString T_Buffer M_Text P_Text T_Text P_Redraw.
From Coq Require Import ZArith NArith List Bool Lia.
Import ListNotations.
Open Scope Z_scope.
Local Arguments zlen : simpl never.

(** A row of cells starting at column [x], each changed in its own way. *)
Definition typed (x y : Z) (fs : list (cell -> cell)) (p : pos) (c : cell) : cell :=
  if (py p =? y) && (x <=? px p) then match nth_error fs (Z.to_nat (px p - x)) with Some f => f c | None => c end else c.

Lemma typed_app x y fs gs p c : typed (x + zlen fs) y gs p (typed x y fs p c) = typed x y (fs ++ gs) p c.
Proof.
  unfold typed. destruct (Z.eqb_spec (py p) y); cbn [andb]; [|reflexivity]. pose proof (zlen_nonneg fs). unfold zlen in *.
  destruct (Z.leb_spec x (px p)); [|destruct (Z.leb_spec (x + Z.of_nat (length fs)) (px p)); [lia|reflexivity]].
  destruct (Z.leb_spec (x + Z.of_nat (length fs)) (px p)).
  - rewrite (nth_error_app2 fs) by lia. replace (nth_error fs (Z.to_nat (px p - x))) with (@None (cell -> cell)) by (symmetry; apply nth_error_None; lia).
    f_equal. replace (Z.to_nat (px p - (x + Z.of_nat (length fs)))) with (Z.to_nat (px p - x) - length fs)%nat by lia. reflexivity.
  - rewrite (nth_error_app1 fs) by lia. reflexivity.
Qed.
Lemma typed_nil x y p c : typed x y [] p c = c.
Proof. unfold typed. destruct (_ && _); [|reflexivity]. now destruct (Z.to_nat _). Qed.

(** The cells a text types: each cluster with the style. *)
Definition show (st : style) (s : str) (c : cell) : cell := cell_set_style st (cell_set_symbol s c).
Definition span_cells (u : uniseg) (st : style) (s : span) : list (cell -> cell) := map (show st) (clusters u (sp_content s)).
Definition line_cells (u : uniseg) (l : line) : list (cell -> cell) :=
  flat_map (fun s => span_cells u (patched (ln_style l) (sp_style s)) s) (ln_spans l).

Definition narrow_span (u : uniseg) (s : span) : Prop := forall c, In c (clusters u (sp_content s)) -> cwidth u c = 1.
Definition narrow_line (u : uniseg) (l : line) : Prop := forall s, In s (ln_spans l) -> narrow_span u s.

Lemma widths_narrow u l : (forall c, In c l -> cwidth u c = 1) -> widths u l = zlen l.
Proof.
  unfold widths. induction l as [|c l IH]; intros H; [reflexivity|]. cbn [map zsum fold_right]. rewrite zlen_cons. unfold zsum in IH. rewrite IH by (intros; apply H; now right).
  rewrite (H c) by now left. lia.
Qed.
Lemma glyph_narrow u l : (forall c, In c l -> cwidth u c = 1) -> forall o, 0 <= o -> glyph_at (cwidth u) l o = option_map Head (nth_error l (Z.to_nat o)).
Proof.
  induction l as [|c l IH]; intros H o Ho; cbn [glyph_at]; [now destruct (Z.to_nat o)|].
  destruct (Z.ltb_spec o 0); [lia|]. destruct (Z.eqb_spec o 0) as [->|]; [reflexivity|]. rewrite (H c) by now left.
  destruct (Z.ltb_spec o 1); [lia|]. rewrite IH by (intros; auto; try (apply H; now right); lia).
  replace (Z.to_nat o) with (S (Z.to_nat (o - 1))) by lia. reflexivity.
Qed.

Lemma set_string_narrow u b x y s n st : wf_buffer b -> inside (Pos x y) (barea b) -> 0 < n -> x + n <= rx (barea b) + rw (barea b) ->
  (forall c, In c (clusters u s) -> cwidth u c = 1) ->
  let fs := firstn (Z.to_nat n) (map (show st) (clusters u s)) in
  exists b', set_string_n u b x y s n st = Ret (b', (x + zlen fs, y)) /\ redrawn (typed x y fs) b b'.
Proof.
  intros W I Hn Hx Hw fs.
  set (pre := firstn (Z.to_nat n) (clusters u s)). set (post := skipn (Z.to_nat n) (clusters u s)).
  assert (Hpre : forall c, In c pre -> cwidth u c = 1) by (intros c Hc; apply Hw; rewrite <- (firstn_skipn (Z.to_nat n)); apply in_or_app; now left).
  assert (Hlen : widths u pre = zlen pre) by now apply widths_narrow.
  assert (Hfl : zlen fs = zlen pre) by (unfold fs, pre, zlen; rewrite !firstn_length, map_length; reflexivity).
  assert (Hle : zlen pre <= n) by (unfold pre, zlen; rewrite firstn_length; lia).
  destruct (C11_set_string_n_partial u b x y s n st pre post W I) as (b' & E & A & W' & L1 & _ & L2).
  - symmetry. apply firstn_skipn.
  - intros c Hc. rewrite Hpre by exact Hc. lia.
  - rewrite Hlen. lia.
  - rewrite Hlen. destruct (Z.eq_dec (zlen pre) n) as [E|N]; [right; lia|left].
    unfold post. apply skipn_all2. unfold pre, zlen in N. rewrite firstn_length in N. lia.
  - exists b'. rewrite Hfl, <- Hlen. split; [exact E|]. split; [exact A|]. split; [exact W'|]. intros p. unfold typed.
    assert (Hnth : forall k, nth_error fs k = option_map (show st) (nth_error pre k)).
    { intros k. unfold fs, pre. rewrite firstn_map. apply nth_error_map. }
    destruct p as [a r]. cbn [px py]. destruct (Z.eqb_spec r y) as [->|]; cbn [andb].
    + destruct (Z.leb_spec x a); cbn [andb].
      * rewrite Hnth. destruct (nth_error pre (Z.to_nat (a - x))) as [c|] eqn:Ec.
        -- cbn [option_map]. assert (Hlt : (Z.to_nat (a - x) < length pre)%nat) by (apply nth_error_Some; congruence).
           assert (Ia : inside (Pos a y) (barea b)) by (unfold inside in *; cbn [px py] in *; unfold zlen in *; lia).
           destruct (look_inside b (Pos a y) W Ia) as (c0 & E0). rewrite E0. cbn [option_map].
           specialize (L1 (a - x) c0 c ltac:(lia)). replace (x + (a - x)) with a in L1 by lia. apply L1; [exact E0|].
           rewrite glyph_narrow by (auto; lia). rewrite Ec. reflexivity.
        -- cbn [option_map]. rewrite L2; [now destruct (look b (Pos a y))|]. apply nth_error_None in Ec. rewrite Hlen. unfold zlen. cbn [px py]. lia.
      * rewrite L2; [now destruct (look b (Pos a y))|]. cbn [px py]. lia.
    + rewrite L2; [now destruct (look b (Pos a r))|]. cbn [px py]. lia.
Qed.

Lemma line_print_narrow u y right l : forall spans b x n, wf_buffer b -> right <= rx (barea b) + rw (barea b) ->
  rx (barea b) <= x -> ry (barea b) <= y < ry (barea b) + rh (barea b) -> 0 <= n -> x + n <= right ->
  (forall s, In s spans -> narrow_span u s) ->
  let fs := firstn (Z.to_nat n) (flat_map (fun s => span_cells u (patched l (sp_style s)) s) spans) in
  exists b', line_print_loop u l spans b x y n = Ret (b', (x + zlen fs, y)) /\ redrawn (typed x y fs) b b'.
Proof.
  induction spans as [|s spans IH]; intros b x n W Hr Hx Hy Hn Hxn Hs fs.
  - exists b. cbn [line_print_loop flat_map] in *. unfold fs. cbn [flat_map]. rewrite firstn_nil. change (zlen (@nil (cell -> cell))) with 0. rewrite Z.add_0_r. split; [reflexivity|].
    eapply redrawn_ext; [|apply redrawn_refl; exact W]. intros. now rewrite typed_nil.
  - cbn [line_print_loop]. destruct (Z.eqb_spec n 0) as [->|Hn0].
    + exists b. unfold fs. cbn [Z.to_nat firstn]. change (zlen (@nil (cell -> cell))) with 0. rewrite Z.add_0_r. split; [reflexivity|].
      eapply redrawn_ext; [|apply redrawn_refl; exact W]. intros. now rewrite typed_nil.
    + assert (I : inside (Pos x y) (barea b)) by (unfold inside; cbn [px py]; lia).
      destruct (set_string_narrow u b x y (sp_content s) n (patched l (sp_style s)) W I ltac:(lia) ltac:(lia) (Hs s (or_introl eq_refl))) as (b1 & E1 & R1).
      rewrite E1. cbn [bind]. set (f1 := firstn (Z.to_nat n) (map (show (patched l (sp_style s))) (clusters u (sp_content s)))) in *.
      pose proof (zlen_nonneg f1). assert (Hf1 : zlen f1 <= n) by (unfold f1, zlen; rewrite firstn_length; lia).
      replace (Z.max 0 (n - Z.max 0 (x + zlen f1 - x))) with (n - zlen f1) by lia.
      destruct (IH b1 (x + zlen f1) (n - zlen f1) (redrawn_wf _ _ _ R1)) as (b2 & E2 & R2); try rewrite (redrawn_area _ _ _ R1); try lia.
      { intros s' Hs'. apply Hs. now right. }
      set (f2 := firstn (Z.to_nat (n - zlen f1)) (flat_map (fun s => span_cells u (patched l (sp_style s)) s) spans)) in *.
      assert (Ef : fs = f1 ++ f2).
      { unfold fs, f2, f1. cbn [flat_map]. unfold span_cells at 1. rewrite firstn_app. f_equal. f_equal.
        unfold zlen. rewrite firstn_length. set (m := length (map _ _)). lia. }
      exists b2. rewrite E2, Ef. unfold zlen. rewrite app_length. split; [do 3 f_equal; lia|].
      eapply redrawn_ext; [|exact (redrawn_trans _ _ _ _ _ R1 R2)]. intros p c _. cbn beta. apply typed_app.
Qed.

Lemma highlight_typed b b' x y fs st g : redrawn (typed x y fs) b b' -> 0 <= zlen fs -> wf_buffer b -> g = zlen fs ->
  exists b'', buffer_set_style b' (Rect x y g 1) st = Ret b'' /\ redrawn (typed x y (map (fun f c => cell_set_style st (f c)) fs)) b b''.
Proof.
  intros R Hz W ->. destruct (set_style_redrawn b' (Rect x y (zlen fs) 1) st (redrawn_wf _ _ _ R)) as (b'' & E & R2). exists b''. split; [exact E|].
  eapply redrawn_ext; [|exact (redrawn_trans _ _ _ _ _ R R2)]. intros p c _. cbn beta. unfold typed. rewrite nth_error_map.
  destruct (contains (Rect x y (zlen fs) 1) p) eqn:Ec.
  - apply contains_inside in Ec. unfold inside in Ec. cbn [rx ry rw rh] in Ec. destruct (Z.eqb_spec (py p) y); [|lia]. destruct (Z.leb_spec x (px p)); [|lia]. cbn [andb].
    destruct (nth_error fs (Z.to_nat (px p - x))) as [f|] eqn:Ef; cbn [option_map]; [reflexivity|]. apply nth_error_None in Ef. unfold zlen in *. lia.
  - apply contains_false in Ec. destruct (Z.eqb_spec (py p) y); cbn [andb]; [|reflexivity]. destruct (Z.leb_spec x (px p)); cbn [andb]; [|reflexivity].
    replace (nth_error fs (Z.to_nat (px p - x))) with (@None (cell -> cell)); [reflexivity|]. symmetry. apply nth_error_None.
    unfold inside in Ec. cbn [rx ry rw rh] in Ec. unfold zlen in *. lia.
Qed.

Lemma firstn_split {A} (n : nat) (a b : list A) : firstn n (a ++ b) = firstn n a ++ firstn (n - length (firstn n a)) b.
Proof. rewrite firstn_app. f_equal. f_equal. rewrite firstn_length. lia. Qed.

Lemma typed_step x y n (a rest : list (cell -> cell)) p c :
  let f1 := firstn (Z.to_nat n) a in
  typed (x + zlen f1) y (firstn (Z.to_nat (n - zlen f1)) rest) p (typed x y f1 p c) = typed x y (firstn (Z.to_nat n) (a ++ rest)) p c.
Proof.
  cbv zeta. rewrite typed_app. rewrite firstn_split. repeat f_equal. unfold zlen. lia.
Qed.

