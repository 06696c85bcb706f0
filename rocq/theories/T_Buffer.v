(** Property theorems C05-C07, C10, C11: buffers. *)
From Verif Require Import Base M_Geom S_Geom M_Style M_Uniseg M_Buffer S_Buffer S_Text P_Base T_Geom P_Buffer P_SetString.
From Coq Require Import ZArith NArith List Bool Lia.
Import ListNotations.
Open Scope Z_scope.

(** C05: CellAt panics exactly outside the area (and, inside, reads the row-major cell). *)
Theorem C05_cell_at_panics_iff_outside : forall b p, wf_buffer b ->
  (cell_at b p = Panic <-> ~ inside p (barea b)) /\
  (forall f, upd_cell b p f = Panic <-> ~ inside p (barea b)).
Proof.
  intros b p H. split; [|intros f]; split; intros H1.
  - intros Hin. destruct (look_inside b p H Hin) as [c Hc]. rewrite cell_at_look, Hc in H1. discriminate.
  - rewrite cell_at_look, look_outside; auto.
  - intros Hin. destruct (upd_cell_spec b p f H Hin) as [b' [E _]]. congruence.
  - now apply upd_cell_panic.
Qed.
Print Assumptions C05_cell_at_panics_iff_outside.

Theorem C05_cell_at_row_major : forall b p, wf_buffer b -> inside p (barea b) ->
  exists c, cell_at b p = Ret c /\
    nth_error (bcells b) (Z.to_nat ((py p - ry (barea b)) * rw (barea b) + (px p - rx (barea b)))) = Some c.
Proof.
  intros b p H Hin. destruct (look_inside b p H Hin) as [c Hc]. exists c. split.
  - rewrite cell_at_look, Hc. reflexivity.
  - rewrite look_inside_eq in Hc by auto. exact Hc.
Qed.
Print Assumptions C05_cell_at_row_major.

(** Positions inside correspond one-to-one to indices 0..len-1, and PosOf is the inverse. *)
Theorem C05_index_bijection : forall b, wf_buffer b ->
  (forall p i, index_of b p = Ret i -> 0 <= i < zlen (bcells b) /\ pos_of b i = Ret p) /\
  (forall i, 0 <= i < zlen (bcells b) -> exists p, inside p (barea b) /\ pos_of b i = Ret p /\ index_of b p = Ret i) /\
  (forall p q i, index_of b p = Ret i -> index_of b q = Ret i -> p = q).
Proof.
  intros b [[Hw Hh] Hl].
  assert (PO : forall i, 0 <= i < zlen (bcells b) ->
    pos_of b i = Ret (Pos (rx (barea b) + i mod rw (barea b)) (ry (barea b) + i / rw (barea b)))).
  { intros i Hi. unfold pos_of. replace (i >=? zlen (bcells b)) with false.
    2:{ symmetry. rewrite Z.geb_leb. apply Z.leb_gt. lia. }
    assert (0 < rw (barea b)) by (destruct (Z.eq_dec (rw (barea b)) 0) as [E|]; [rewrite E in Hl; lia|lia]).
    replace (rw (barea b) =? 0) with false by (symmetry; apply Z.eqb_neq; lia).
    rewrite Z.rem_mod_nonneg, Z.quot_div_nonneg by lia. f_equal. f_equal; lia. }
  assert (IN : forall p i, index_of b p = Ret i -> inside p (barea b) /\ i = idx (barea b) p).
  { intros p i E. destruct (contains (barea b) p) eqn:C.
    - apply contains_inside in C. rewrite index_of_inside in E by auto. injection E as <-. auto.
    - apply contains_false in C. rewrite index_of_outside in E by auto. discriminate. }
  split; [|split].
  - intros p i E. apply IN in E. destruct E as [Hin ->]. pose proof (idx_range _ _ Hin). split; [lia|].
    rewrite PO by lia. f_equal.
    destruct (idx_surj (barea b) (idx (barea b) p)) as [A B]; auto. eapply idx_inj; eauto.
  - intros i Hi. destruct (idx_surj (barea b) i) as [A B]; [lia|auto|].
    eexists. split; [exact A|]. split; [apply PO; auto|]. rewrite index_of_inside by auto. now rewrite B.
  - intros p q i E1 E2. apply IN in E1, E2. destruct E1 as [? ->], E2 as [? ?]. eapply idx_inj; eauto.
Qed.
Print Assumptions C05_index_bijection.

Example C05_example : let b := Buf (Rect 2 (-1) 3 2) [new_cell [65%N]; empty_cell; empty_cell; empty_cell; empty_cell; new_cell [66%N]] in
  wf_buffer b /\ cell_at b (Pos 4 0) = Ret (new_cell [66%N]) /\ cell_at b (Pos 5 0) = Panic /\ pos_of b 3 = Ret (Pos 2 0).
Proof. cbn zeta. unfold wf_buffer, sized. cbn. repeat split; lia. Qed.

(** C06: operations on a buffer. *)
Inductive buffer_op :=
| BSetStringN (x y : Z) (s : str) (n : Z) (st : style)
| BSetString (x y : Z) (s : str) (st : style)
| BSetStyle (r : rect) (st : style)
| BReset
| BResize (r : rect)
| BCell (p : pos) (f : cell -> cell)
| BClear (r : rect)
| BFill (s : str) (st : style) (r : rect).

Definition run_buffer_op (u : uniseg) (b : buffer) (o : buffer_op) : outcome buffer :=
  match o with
  | BSetStringN x y s n st => let! r := set_string_n u b x y s n st in Ret (fst r)
  | BSetString x y s st => set_string u b x y s st
  | BSetStyle r st => buffer_set_style b r st
  | BReset => Ret (buffer_reset b)
  | BResize r => buffer_resize b r
  | BCell p f => upd_cell b p f
  | BClear r => clear_render r b
  | BFill s st r => fill_render s st r b
  end.

(** Resizing is only ever asked for real (non-negative) sizes. *)
Definition op_ok (o : buffer_op) : Prop := match o with BResize r => sized r | _ => True end.

Lemma upd_keeps_wf b p f b' : wf_buffer b -> upd_cell b p f = Ret b' -> wf_buffer b'.
Proof. intros H E. apply upd_cell_Ret in E; auto. apply E. Qed.

Lemma loop_keeps_wf {A B} (g : A -> B -> pos) (f : cell -> cell) la lb b b' : wf_buffer b ->
  ofold (fun b x => ofold (fun b y => upd_cell b (g x y) f) lb b) la b = Ret b' -> wf_buffer b'.
Proof.
  intros H E. refine (ofold_inv' _ wf_buffer la b b' H _ E).
  intros s a s' _ Hs E1. refine (ofold_inv' _ wf_buffer lb s s' Hs _ E1).
  intros s1 a1 s1' _ Hs1 E2. exact (upd_keeps_wf _ _ _ _ Hs1 E2).
Qed.

Lemma run_buffer_op_wf u b o b' : wf_buffer b -> op_ok o -> run_buffer_op u b o = Ret b' -> wf_buffer b'.
Proof.
  intros H Ho E. destruct o; cbn in E.
  - unfold set_string_n in E. destruct (set_clusters _ _ _ _ _ _ _) as [[b1 x1]|] eqn:E1; [|discriminate]. cbn in E.
    injection E as <-. apply set_clusters_only in E1; auto. apply E1.
  - unfold set_string, set_string_n in E. destruct (set_clusters _ _ _ _ _ _ _) as [[b1 x1]|] eqn:E1; [|discriminate]. cbn in E.
    injection E as <-. apply set_clusters_only in E1; auto. apply E1.
  - unfold buffer_set_style in E. eapply (loop_keeps_wf (fun y x => Pos x y)); eauto.
  - injection E as <-. now apply buffer_reset_spec.
  - cbn in Ho. destruct (buffer_resize_spec b r H Ho) as [b'' [E1 [W _]]]. congruence.
  - eapply upd_keeps_wf; eauto.
  - eapply (loop_keeps_wf Pos); eauto.
  - eapply (loop_keeps_wf Pos); eauto.
Qed.

Theorem C06_one_cell_per_position : forall u area c0 ops b0 b, sized area -> Forall op_ok ops ->
  new_buffer_filled area c0 = Ret b0 ->
  ofold (run_buffer_op u) ops b0 = Ret b ->
  zlen (bcells b) = rw (barea b) * rh (barea b) /\ 0 <= rw (barea b) /\ 0 <= rh (barea b).
Proof.
  intros u area c0 ops b0 b Hs Hops E0 E.
  assert (W : wf_buffer b0). { destruct (new_buffer_filled_spec area c0 Hs) as [b1 [E1 [W _]]]. congruence. }
  assert (wf_buffer b).
  { eapply (ofold_inv' _ wf_buffer); [exact W| |exact E].
    intros s a s' Hin Hw E1. eapply run_buffer_op_wf; eauto. rewrite Forall_forall in Hops. auto. }
  destruct H as [[? ?] ?]. auto.
Qed.
Print Assumptions C06_one_cell_per_position.

Example C06_example : exists b0 b, new_buffer_filled (Rect 0 0 4 2) empty_cell = Ret b0 /\
  ofold (run_buffer_op simple_uniseg)
    [BSetString 1 1 [72%N; 105%N] new_style; BResize (Rect 1 1 2 5); BSetStyle (Rect 0 0 9 2) (bold new_style); BReset;
     BFill [35%N] new_style (Rect 1 2 2 2)] b0 = Ret b /\ zlen (bcells b) = 10.
Proof. eexists; eexists; split; [reflexivity|]. split; vm_compute; reflexivity. Qed.

(** C07 *)
Theorem C07_set_style_exact : forall b area st, wf_buffer b ->
  exists b', buffer_set_style b area st = Ret b' /\
    changed_exactly (fun p => inside p area /\ inside p (barea b)) (fun _ => cell_set_style st) b b' /\
    (forall p c, look b p = Some c -> exists c', look b' p = Some c' /\ csym c' = csym c /\ cskip c' = cskip c).
Proof.
  intros b area st H. unfold buffer_set_style.
  destruct (rect_loop_yx (cell_set_style st) (intersection (barea b) area) b H) as [b' [E C]].
  { intros p Hp. apply C01_intersection_is_set_intersection in Hp. apply Hp. }
  exists b'. split; [exact E|]. destruct C as (A & W & C & D).
  assert (X : changed_exactly (fun p => inside p area /\ inside p (barea b)) (fun _ => cell_set_style st) b b').
  { split; [auto|]. split; [auto|]. split; intros p Hp.
    - apply C, C01_intersection_is_set_intersection. tauto.
    - apply D. intros Hi. apply C01_intersection_is_set_intersection in Hi. tauto. }
  split; [exact X|]. intros p c Hc.
  destruct (contains area p) eqn:Ea.
  - apply contains_inside in Ea. destruct X as (_ & _ & X & _).
    rewrite X by (split; [auto|eapply look_Some_inside; eauto]). rewrite Hc. cbn. eexists; split; [reflexivity|]. auto.
  - apply contains_false in Ea. destruct X as (_ & _ & _ & X). rewrite X by tauto. eauto.
Qed.
Print Assumptions C07_set_style_exact.

Example C07_example : let b := Buf (Rect 0 0 2 2) [empty_cell; empty_cell; empty_cell; empty_cell] in
  wf_buffer b /\ buffer_set_style b (Rect 1 (-5) 100 6) (bold new_style)
   = Ret (Buf (Rect 0 0 2 2) [empty_cell; cell_set_style (bold new_style) empty_cell; empty_cell; empty_cell]).
Proof. cbn zeta. split; [unfold wf_buffer, sized; cbn; lia|reflexivity]. Qed.

(** C10 *)
Theorem C10_clear_exact : forall b area, wf_buffer b -> subrect area (barea b) ->
  exists b', clear_render area b = Ret b' /\
    changed_exactly (fun p => inside p area) (fun _ _ => empty_cell) b b'.
Proof.
  intros b area H Hs. unfold clear_render.
  destruct (rect_loop_xy cell_reset area b H Hs) as [b' [E C]]. exists b'. split; [exact E|]. exact C.
Qed.
Print Assumptions C10_clear_exact.

Theorem C10_fill_exact : forall b area sym st, wf_buffer b -> subrect area (barea b) ->
  exists b', fill_render sym st area b = Ret b' /\
    changed_exactly (fun p => inside p area)
      (fun _ _ => Cell sym (match sfg st with Some c => Some c | None => Some ColReset end)
                           (match sbg st with Some c => Some c | None => Some ColReset end)
                           (N.ldiff (sadd st) (ssub st)) false) b b'.
Proof.
  intros b area sym st H Hs. unfold fill_render.
  destruct (rect_loop_xy (fun c => cell_set_symbol sym (cell_set_style st (cell_reset c))) area b H Hs) as [b' [E C]].
  exists b'. split; [exact E|]. destruct C as (A & W & C & D). split; [auto|]. split; [auto|]. split; [|auto].
  intros p Hp. rewrite C by auto. destruct (look b p); reflexivity.
Qed.
Print Assumptions C10_fill_exact.

(** An area reaching outside the buffer makes both widgets panic (the precondition is needed). *)
Theorem C10_outside_panics : forall b p0 area, wf_buffer b -> inside p0 area -> ~ inside p0 (barea b) ->
  clear_render area b = Panic.
Proof.
  intros b p0 area Hwf Hin Hout. unfold clear_render.
  rewrite (ofold_nested (fun b p => upd_cell b p cell_reset) Pos).
  set (ps := prod_list Pos _ _).
  assert (In p0 ps).
  { apply prod_list_In. exists (px p0), (py p0). unfold inside, rleft, rright, rtop, rbottom in *. rewrite !zrange_In.
    destruct Hin. destruct p0; cbn in *; auto. }
  clearbody ps. revert b Hwf Hout. induction ps as [|p ps IH]; intros b Hwf Hout; [destruct H|].
  cbn [ofold]. destruct (upd_cell b p cell_reset) as [b1|] eqn:E; [|reflexivity]. cbn [bind].
  apply upd_cell_Ret in E; auto. destruct E as [Ip (A & W & _)].
  destruct H as [->|H]; [contradiction|]. apply IH; auto. now rewrite A.
Qed.
Print Assumptions C10_outside_panics.

Example C10_example : let b := Buf (Rect 0 0 3 1) [new_cell [65%N]; new_cell [66%N]; new_cell [67%N]] in
  wf_buffer b /\ subrect (Rect 1 0 2 1) (barea b) /\
  clear_render (Rect 1 0 2 1) b = Ret (Buf (Rect 0 0 3 1) [new_cell [65%N]; empty_cell; empty_cell]).
Proof. cbn zeta. repeat split; cbn; try lia; intros; unfold inside in *; cbn in *; lia. Qed.

(** C11: [pre] is the part of the text that is shown. The hypotheses say: it fits the limit, and either it is the whole
    text or it fills the limit exactly; all its clusters have a visible width. *)
Theorem C11_set_string_n_partial : forall u b x y value n st pre post,
  wf_buffer b -> inside (Pos x y) (barea b) ->
  clusters u value = pre ++ post ->
  (forall c, In c pre -> 1 <= cwidth u c) ->
  let limit := Z.min n (rx (barea b) + rw (barea b) - x) in
  widths u pre <= limit -> (post = [] \/ widths u pre = limit) ->
  exists b', set_string_n u b x y value n st = Ret (b', (x + widths u pre, y)) /\
    barea b' = barea b /\ wf_buffer b' /\
    (forall o c0 s, 0 <= o -> look b (Pos (x + o) y) = Some c0 -> glyph_at (cwidth u) pre o = Some (Head s) ->
       look b' (Pos (x + o) y) = Some (cell_set_style st (cell_set_symbol s c0))) /\
    (forall o, glyph_at (cwidth u) pre o = Some Tail -> look b' (Pos (x + o) y) = Some empty_cell) /\
    (forall p, ~ (py p = y /\ x <= px p < x + widths u pre) -> look b' p = look b p).
Proof.
  intros u b x y value n st pre post Hwf [Hx Hy] Hcl Hw limit Hle Hor. cbn [px py] in Hx, Hy.
  assert (Hnn : 0 <= widths u pre).
  { unfold widths. apply zsum_nonneg. intros z Hz. apply in_map_iff in Hz. destruct Hz as [d [<- Hd]]. specialize (Hw d Hd). lia. }
  assert (T : taken u (Z.min n (Z.max 0 (rright (barea b) - x))) (pre ++ post) = pre).
  { unfold rright. apply taken_app; auto; unfold limit in *; [lia|]. destruct Hor; [auto|right; lia]. }
  unfold set_string_n. rewrite Hcl.
  destruct (set_clusters_spec u st y (pre ++ post) b x (Z.min n (Z.max 0 (rright (barea b) - x)))) as [b' [E (A & W & C & D)]]; auto; try lia.
  { rewrite T, adv_eq by auto. unfold limit in Hle. lia. }
  rewrite T in *. rewrite adv_eq in E by auto. rewrite E. cbn [bind].
  exists b'. split; [reflexivity|]. split; [auto|]. split; [auto|].
  assert (GN : forall o, glyph_at (adv u) pre o = glyph_at (cwidth u) pre o) by (intros; apply glyph_at_adv; auto).
  split; [|split].
  - intros o c0 s Ho Hl Hg. rewrite C by reflexivity. cbn [px]. replace (x + o - x) with o by lia.
    rewrite GN, Hg, Hl. reflexivity.
  - intros o Hg. rewrite C by reflexivity. cbn [px]. replace (x + o - x) with o by lia. rewrite GN, Hg.
    destruct (look_inside b (Pos (x + o) y) Hwf) as [c0 ->]; [|reflexivity].
    assert (~ ~ (0 <= o < widths u pre)).
    { intros Hn. apply (proj2 (glyph_at_none (cwidth u) pre o Hw)) in Hn. congruence. }
    unfold inside; cbn. unfold limit in *. lia.
  - intros p Hp. destruct (Z.eq_dec (py p) y) as [Ey|]; [|auto].
    rewrite C by auto. rewrite GN. rewrite (proj2 (glyph_at_none (cwidth u) pre (px p - x) Hw)).
    + destruct (look b p); reflexivity.
    + fold (widths u pre). lia.
Qed.
Print Assumptions C11_set_string_n_partial.

(** Whatever the text, a call that returns changed only cells of row y between x and the returned column. *)
Theorem C11_only_reported_columns_change : forall u b x y value n st b' x' y',
  wf_buffer b -> set_string_n u b x y value n st = Ret (b', (x', y')) ->
  y' = y /\ x <= x' /\ changed_only (fun p => py p = y /\ x <= px p < x' /\ inside p (barea b)) b b'.
Proof.
  intros u b x y value n st b' x' y' Hwf E. unfold set_string_n in E.
  destruct (set_clusters _ _ _ _ _ _ _) as [[b1 x1]|] eqn:E1; [|discriminate]. cbn in E. injection E as <- <- <-.
  apply set_clusters_only in E1; auto.
Qed.
Print Assumptions C11_only_reported_columns_change.

(** One-column text never panics from a position inside the buffer, whatever its length. *)
Theorem C11_narrow_text_never_panics : forall u b x y value n st,
  wf_buffer b -> inside (Pos x y) (barea b) -> (forall c, In c (clusters u value) -> cwidth u c = 1) ->
  exists b' x', set_string_n u b x y value n st = Ret (b', (x', y)) /\
    x' = x + Z.max 0 (Z.min (zlen (clusters u value)) (Z.min n (rx (barea b) + rw (barea b) - x))).
Proof.
  intros u b x y value n st Hwf Hin Hw.
  set (limit := Z.min n (rx (barea b) + rw (barea b) - x)).
  set (k := Z.to_nat limit).
  assert (Hwid : forall l, (forall c, In c l -> In c (clusters u value)) -> widths u l = zlen l).
  { induction l as [|c l IH]; intros Hl; [reflexivity|]. unfold widths in *. cbn [map]. rewrite zsum_cons, zlen_cons, IH.
    - rewrite Hw; [lia|]. apply Hl; now left.
    - intros; apply Hl; now right. }
  assert (Hsub : forall c, In c (firstn k (clusters u value)) -> In c (clusters u value)).
  { intros c Hc. rewrite <- (firstn_skipn k (clusters u value)). apply in_or_app. now left. }
  destruct (Z_le_gt_dec n 0).
  - exists b, x. unfold set_string_n.
    assert (Z.min n (Z.max 0 (rright (barea b) - x)) <= 0) by lia.
    destruct (clusters u value) as [|c cl]; cbn [set_clusters].
    + split; [reflexivity|]. unfold zlen; cbn [length]. lia.
    + replace (Z.min n _ >? 0) with false by (symmetry; rewrite Z.gtb_ltb; apply Z.ltb_ge; lia).
      split; [reflexivity|]. unfold limit. lia.
  - pose proof (Hwid _ Hsub) as Hwk. unfold inside in Hin. cbn [px py] in Hin.
    destruct (C11_set_string_n_partial u b x y value n st (firstn k (clusters u value)) (skipn k (clusters u value))) as [b' [E _]]; auto.
    + symmetry; apply firstn_skipn.
    + intros c Hc. rewrite Hw; [lia|auto].
    + rewrite Hwk. unfold zlen. rewrite firstn_length. fold limit. unfold k. unfold limit in *. lia.
    + rewrite Hwk. unfold zlen. rewrite firstn_length. fold limit.
      destruct (Nat.le_gt_cases (length (clusters u value)) k).
      * left. apply skipn_all2. auto.
      * right. unfold k in *. unfold limit in *. lia.
    + exists b', (x + widths u (firstn k (clusters u value))). split; [exact E|]. rewrite Hwk.
      unfold zlen. rewrite firstn_length. unfold k, limit in *. lia.
Qed.
Print Assumptions C11_narrow_text_never_panics.

(** A two-column cluster reaching the last column of the buffer makes the call panic. *)
Theorem C11_wide_at_edge_refuted : exists u b x y value n st,
  uniseg_ok u /\ wf_buffer b /\ inside (Pos x y) (barea b) /\ set_string_n u b x y value n st = Panic.
Proof.
  exists simple_uniseg, (Buf (Rect 0 0 1 1) [empty_cell]), 0, 0, [20013%N], 10, new_style.
  split; [apply simple_uniseg_ok|]. split; [unfold wf_buffer, sized; cbn; lia|].
  split; [unfold inside; cbn; lia|]. vm_compute. reflexivity.
Qed.
Print Assumptions C11_wide_at_edge_refuted.

(** Inside the buffer, a two-column cluster is drawn across the requested limit of one column. *)
Theorem C11_wide_over_limit_refuted : exists u b x y value n st b',
  uniseg_ok u /\ wf_buffer b /\ inside (Pos x y) (barea b) /\
  set_string_n u b x y value n st = Ret (b', (x + n + 1, y)) /\ look b (Pos (x + n) y) <> look b' (Pos (x + n) y).
Proof.
  exists simple_uniseg, (Buf (Rect 0 0 2 1) [empty_cell; new_cell [65%N]]), 0, 0, [20013%N], 1, new_style.
  eexists. split; [apply simple_uniseg_ok|]. split; [unfold wf_buffer, sized; cbn; lia|].
  split; [unfold inside; cbn; lia|]. split; [vm_compute; reflexivity|]. vm_compute. discriminate.
Qed.
Print Assumptions C11_wide_over_limit_refuted.

(** Zero-width clusters are not skipped, although the documentation says so: each takes a cell, so a text of total
    width 1 overruns a two-column buffer and panics. *)
Theorem C11_zero_width_refuted : exists u b x y value n st,
  uniseg_ok u /\ wf_buffer b /\ inside (Pos x y) (barea b) /\ string_width u value = 1 /\
  set_string_n u b x y value n st = Panic.
Proof.
  exists simple_uniseg, (Buf (Rect 0 0 2 1) [empty_cell; empty_cell]), 0, 0, [8203%N; 8203%N; 65%N], 10, new_style.
  split; [apply simple_uniseg_ok|]. split; [unfold wf_buffer, sized; cbn; lia|].
  split; [unfold inside; cbn; lia|]. split; vm_compute; reflexivity.
Qed.
Print Assumptions C11_zero_width_refuted.

Example C11_example : let b := Buf (Rect 0 0 6 1) (repeat (new_cell [46%N]) 6) in
  let v := [65%N; 20013%N; 66%N] in
  wf_buffer b /\ inside (Pos 1 0) (barea b) /\ widths simple_uniseg (clusters simple_uniseg v) = 4 /\
  set_string_n simple_uniseg b 1 0 v 9 new_style =
    Ret (Buf (Rect 0 0 6 1) [new_cell [46%N]; new_cell [65%N]; new_cell [20013%N]; empty_cell; new_cell [66%N]; new_cell [46%N]], (5, 0)).
Proof. cbn zeta. split; [unfold wf_buffer, sized; cbn; lia|]. split; [unfold inside; cbn; lia|]. split; reflexivity. Qed.
