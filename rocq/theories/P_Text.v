(** Lemmas about text rendering. *)
From Verif Require Import Base M_Geom S_Geom M_Style M_Uniseg M_Buffer S_Buffer S_Text M_Text S_Line P_Base T_Geom P_Buffer P_SetString.
From Coq Require Import ZArith NArith List Bool Lia.
Import ListNotations.
Open Scope Z_scope.

(** [a] lies within [r], by coordinates. *)
Definition within (a r : rect) : Prop :=
  rx r <= rx a /\ rx a + rw a <= rx r + rw r /\ ry r <= ry a /\ ry a + rh a <= ry r + rh r.

Lemma intersection_within a r : within a r -> sized a -> intersection a r = a.
Proof. destruct a, r; unfold within, sized, intersection, rright, rbottom; cbn. intros. f_equal; lia. Qed.

Lemma within_intersection a r : 0 < rw (intersection a r) -> 0 < rh (intersection a r) -> within (intersection a r) r.
Proof. destruct a, r; unfold within, intersection, rright, rbottom; cbn. intros. lia. Qed.

Lemma not_empty_pos a : sized a -> rect_is_empty a = false -> 0 < rw a /\ 0 < rh a.
Proof. unfold sized, rect_is_empty. intros H E. apply orb_false_iff in E. rewrite !Z.eqb_neq in E. lia. Qed.

(** Cells that satisfy [P] everywhere. *)
Definition all_cells (P : cell -> Prop) (b : buffer) : Prop := forall p c, look b p = Some c -> P c.

Lemma upd_all (P : cell -> Prop) b p f b' : wf_buffer b -> upd_cell b p f = Ret b' -> (forall c, P c -> P (f c)) -> all_cells P b -> all_cells P b'.
Proof.
  intros W E Hf H q c Hq. apply upd_cell_Ret in E; auto. destruct E as [_ (A & W' & C & D)].
  assert (Dec : q = p \/ q <> p) by (destruct p as [a b0], q as [a' b0']; destruct (Z.eq_dec a a'); [|right; congruence]; destruct (Z.eq_dec b0 b0'); [left; congruence|right; congruence]).
  destruct Dec as [->|N].
  - rewrite C in Hq by auto. destruct (look b p) eqn:El; [|discriminate]. injection Hq as <-. apply Hf. eapply H; eauto.
  - rewrite D in Hq by auto. eapply H; eauto.
Qed.

Lemma row_reset y x n b : wf_buffer b -> ry (barea b) <= y < ry (barea b) + rh (barea b) ->
  rx (barea b) <= x -> n <= rx (barea b) + rw (barea b) ->
  exists b', ofold (fun b x' => upd_cell b (Pos x' y) cell_reset) (zrange x n) b = Ret b' /\
    changed_exactly (fun p => py p = y /\ x <= px p < n) (fun _ => cell_reset) b b'.
Proof.
  intros W Hy Hx Hn.
  pose proof (ofold_map (fun b p => upd_cell b p cell_reset) (fun x' => Pos x' y) (zrange x n) b) as M. cbn beta in M. rewrite <- M.
  destruct (ofold_upd_spec (fun _ => cell_reset) (map (fun x' => Pos x' y) (zrange x n))) with (b := b) as [b2 [E2 (A2 & W2 & C2 & D2)]]; auto.
  - apply FinFun.Injective_map_NoDup; [|apply zrange_NoDup]. intros ? ? H; now injection H.
  - intros p Hp. apply in_map_iff in Hp. destruct Hp as [x' [<- Hx']]. apply zrange_In in Hx'. unfold inside; cbn. lia.
  - exists b2. split; [exact E2|]. split; [auto|]. split; [auto|].
    assert (I : forall p, In p (map (fun x' => Pos x' y) (zrange x n)) <-> py p = y /\ x <= px p < n).
    { intros p. rewrite in_map_iff. split.
      - intros [x' [<- Hx']]. apply zrange_In in Hx'. cbn. auto.
      - intros [Hp1 Hp2]. exists (px p). rewrite zrange_In. destruct p; cbn in *; subst; auto. }
    split; intros p Hp; [apply C2, I, Hp|apply D2; intros Hin; apply Hp, I, Hin].
Qed.

(** ** Staying inside, never panicking, keeping cell invariants *)

(** [P] survives what rendering a cluster does to a cell. *)
Record stable (P : cell -> Prop) (sym : str) : Prop := {
  st_set : forall st c, P c -> P (cell_set_style st (cell_set_symbol sym c));
  st_app : forall st c, P c -> P (cell_set_style st (cell_append_symbol sym c)) }.

Definition keeps (P : cell -> Prop) (area : rect) (b b' : buffer) : Prop :=
  changed_only (fun p => inside p area /\ inside p (barea b)) b b' /\ (all_cells P b -> all_cells P b').

Lemma keeps_refl P area b : wf_buffer b -> keeps P area b b.
Proof. intros W. split; [now apply changed_only_refl|auto]. Qed.
Lemma keeps_trans P area a b c : keeps P area a b -> keeps P area b c -> keeps P area a c.
Proof.
  intros [H1 H1'] [H2 H2']. split; [|auto]. destruct H1 as (A & W & C), H2 as (A' & W' & C').
  split; [congruence|]. split; [auto|]. intros p Hp. rewrite C', C; auto. now rewrite A.
Qed.
Lemma keeps_weaken P (area area' : rect) a b : (forall p, inside p area -> inside p (barea a) -> inside p area') -> keeps P area a b -> keeps P area' a b.
Proof. intros H [K K']. split; auto. eapply changed_only_weaken; [|exact K]. cbn. intuition. Qed.
Lemma keeps_area P area a b : keeps P area a b -> barea b = barea a.
Proof. now intros [(A & _) _]. Qed.
Lemma keeps_wf P area a b : keeps P area a b -> wf_buffer b.
Proof. now intros [(_ & W & _) _]. Qed.

Lemma upd_keeps (P : cell -> Prop) area b p f : wf_buffer b -> inside p area -> inside p (barea b) -> (forall c, P c -> P (f c)) ->
  exists b', upd_cell b p f = Ret b' /\ keeps P area b b'.
Proof.
  intros W I1 I2 Hf. destruct (upd_cell_spec b p f W I2) as [b' [E C]]. exists b'. split; [exact E|]. split.
  - apply changed_exactly_only in C. eapply changed_only_weaken; [|exact C]. cbn. intros q ->. auto.
  - eapply upd_all; eauto.
Qed.

Lemma span_loop_ok u area (P : cell -> Prop) (HP : forall c, P c -> P (cell_reset c)) gs : (forall c, 0 <= cwidth u c) ->
  (forall sym st, In (sym, st) gs -> stable P sym) -> 0 < rw area -> 0 < rh area ->
  forall first x b, wf_buffer b -> within area (barea b) -> rx area <= x <= rright area -> (first = true -> x = rx area) ->
  exists b', span_loop u area (ry area) gs first x b = Ret b' /\ keeps P area b b'.
Proof.
  intros Hu. induction gs as [|[sym st] gs IH]; intros Hst Hw Hh first x b W Hin Hx Hf; cbn [span_loop].
  - exists b. split; [reflexivity|]. now apply keeps_refl.
  - set (w := string_width u sym). assert (Hwn : 0 <= w).
    { unfold w, string_width. apply zsum_nonneg. intros z Hz. apply in_map_iff in Hz. destruct Hz as (c & <- & _). auto. }
    cbv zeta. destruct (Z.gtb_spec (x + w) (rright area)) as [Hgt|Hle].
    { exists b. split; [reflexivity|]. now apply keeps_refl. }
    unfold rright in *.
    assert (Hstep : exists b1, (if first then upd_cell b (Pos x (ry area)) (fun c => cell_set_style st (cell_set_symbol sym c))
           else if x =? rx area then upd_cell b (Pos x (ry area)) (fun c => cell_set_style st (cell_append_symbol sym c))
           else if w =? 0 then upd_cell b (Pos (x - 1) (ry area)) (fun c => cell_set_style st (cell_append_symbol sym c))
           else upd_cell b (Pos x (ry area)) (fun c => cell_set_style st (cell_set_symbol sym c))) = Ret b1 /\ keeps P area b b1).
    { destruct (Hst sym st (or_introl eq_refl)) as [S1 S2]. destruct Hin as (i1 & i2 & i3 & i4).
      destruct first; [rewrite Hf by auto|]; [apply upd_keeps; auto; unfold inside; cbn; lia|].
      destruct (Z.eqb_spec x (rx area)); [apply upd_keeps; auto; unfold inside; cbn; lia|].
      destruct (Z.eqb_spec w 0); apply upd_keeps; auto; unfold inside; cbn; lia. }
    destruct Hstep as (b1 & E1 & K1). rewrite E1. cbn [bind].
    pose proof (keeps_area _ _ _ _ K1) as A1. pose proof (keeps_wf _ _ _ _ K1) as W1.
    assert (Hin1 : within area (barea b1)) by now rewrite A1.
    destruct (ofold_inv (fun b x' => upd_cell b (Pos x' (ry area)) cell_reset) (fun s => keeps P area b1 s) (zrange (x + 1) (x + w)) b1)
      as (b2 & E2 & K2); [now apply keeps_refl| |].
    { intros s a Ha Ks. apply zrange_In in Ha. pose proof (keeps_area _ _ _ _ Ks) as As. destruct Hin1 as (i1 & i2 & i3 & i4).
      destruct (upd_keeps P area s (Pos a (ry area)) cell_reset) as (s' & E' & K'); auto;
        [now apply keeps_wf in Ks| | |].
      + unfold inside; cbn; lia.
      + rewrite As. unfold inside; cbn; lia.
      + exists s'. split; [exact E'|]. eapply keeps_trans; eauto. }
    rewrite E2. cbn [bind].
    pose proof (keeps_area _ _ _ _ K2) as A2.
    destruct (IH (fun s t H => Hst s t (or_intror H)) Hw Hh false (x + w) b2) as (b' & E' & K').
    + now apply keeps_wf in K2.
    + now rewrite A2.
    + unfold rright. lia.
    + discriminate.
    + exists b'. split; [exact E'|]. eapply keeps_trans; [exact K1|]. eapply keeps_trans; eauto.
Qed.

Lemma span_render_ok u s (P : cell -> Prop) area b : (forall c, 0 <= cwidth u c) -> (forall c, P c -> P (cell_reset c)) ->
  (forall sym, In sym (clusters u (sp_content s)) -> existsb is_control sym = false -> stable P sym) -> wf_buffer b ->
  exists b', span_render u s area b = Ret b' /\ keeps P area b b'.
Proof.
  intros Hu HP Hst W. unfold span_render. set (A := intersection area (barea b)).
  assert (SA : sized A) by apply C01_intersection_sized.
  destruct (rect_is_empty A) eqn:EA.
  { exists b. split; [reflexivity|]. now apply keeps_refl. }
  destruct (not_empty_pos A SA EA) as [Hw Hh].
  destruct (span_loop_ok u A P HP (styled_graphemes u new_style s)) with (first := true) (x := rx A) (b := b) as (b' & E & K); auto.
  - intros sym st Hin. unfold styled_graphemes in Hin. apply in_map_iff in Hin. destruct Hin as (c & Ec & Hc). injection Ec as <- <-.
    apply filter_In in Hc. destruct Hc as [Hc Hn]. apply Hst; auto. now apply negb_true_iff.
  - now apply within_intersection.
  - unfold rright. lia.
  - exists b'. split; [exact E|]. eapply keeps_weaken; [|exact K]. intros p Hp _.
    apply (C01_intersection_is_set_intersection area (barea b) p) in Hp. tauto.
Qed.

Lemma indent_sub area o : 0 <= o -> forall p, inside p (indent_x area o) -> inside p area.
Proof. unfold indent_x, inside; cbn. intros; lia. Qed.

(** The clusters of everything that is rendered are clusters of the line. *)
Definition item_ok (u : uniseg) (P : cell -> Prop) (it : span_after) : Prop :=
  0 <= sa_width it /\ 0 <= sa_offset it /\
  forall sym, In sym (clusters u (sp_content (sa_span it))) -> existsb is_control sym = false -> stable P sym.

Lemma render_items_ok u (P : cell -> Prop) items : (forall c, 0 <= cwidth u c) -> (forall c, P c -> P (cell_reset c)) ->
  (forall it, In it items -> item_ok u P it) -> forall area b, wf_buffer b ->
  exists b', render_items u items area b = Ret b' /\ keeps P area b b'.
Proof.
  intros Hu HP. induction items as [|it items IH]; intros Hit area b W; cbn [render_items].
  - exists b. split; [reflexivity|]. now apply keeps_refl.
  - destruct (Hit it (or_introl eq_refl)) as (H1 & H2 & H3). cbv zeta. destruct (rect_is_empty _).
    + exists b. split; [reflexivity|]. now apply keeps_refl.
    + destruct (span_render_ok u (sa_span it) P (indent_x area (sa_offset it)) b Hu HP H3 W) as (b1 & E1 & K1).
      rewrite E1. cbn [bind]. pose proof (keeps_wf _ _ _ _ K1) as W1.
      destruct (IH (fun it' H => Hit it' (or_intror H)) (indent_x (indent_x area (sa_offset it)) (sa_width it)) b1 W1) as (b2 & E2 & K2).
      exists b2. split; [exact E2|]. eapply keeps_trans.
      * eapply keeps_weaken; [|exact K1]. intros p Hp _. eapply indent_sub; [|exact Hp]. auto.
      * eapply keeps_weaken; [|exact K2]. intros p Hp _. apply indent_sub in Hp; auto. apply indent_sub in Hp; auto.
Qed.

Lemma string_width_nonneg u s : (forall c, 0 <= cwidth u c) -> 0 <= string_width u s.
Proof. intros Hu. unfold string_width. apply zsum_nonneg. intros z Hz. apply in_map_iff in Hz. destruct Hz as (c & <- & _). auto. Qed.

Lemma clusters_nil u : uniseg_ok u -> clusters u [] = [].
Proof.
  intros Hu. destruct (clusters u []) as [|c cl] eqn:Ec; auto. exfalso. pose proof (clusters_concat _ Hu []) as Hc. rewrite Ec in Hc. cbn in Hc.
  apply app_eq_nil in Hc. destruct Hc as [Hc _]. apply (clusters_nonempty _ Hu [] c); [rewrite Ec; now left|auto].
Qed.

(** The truncated content is a run of whole clusters at the end of the text, and its width is reported correctly. *)
Lemma truncate_loop_suffix u s pre cl cur m : uniseg_ok u -> clusters u s = pre ++ cl ->
  exists pre' suf, cl = pre' ++ suf /\ truncate_loop u cl cur m = (concat suf, string_width u (concat suf)) /\ clusters u (concat suf) = suf.
Proof.
  intros Hu. assert (N : string_width u [] = 0) by (unfold string_width; now rewrite clusters_nil).
  revert pre cur. induction cl as [|c cl IH]; intros pre cur E; cbn [truncate_loop].
  - exists [], []. cbn [concat]. rewrite N. split; [reflexivity|]. split; [reflexivity|now apply clusters_nil].
  - destruct (cwidth u c =? 0).
    { exists (c :: cl), []. cbn [concat]. rewrite N, app_nil_r. split; [reflexivity|]. split; [reflexivity|now apply clusters_nil]. }
    destruct (cur - cwidth u c <=? m).
    + exists [c], cl. split; [reflexivity|]. split; [reflexivity|]. apply (clusters_sub _ Hu s (pre ++ [c]) cl []).
      rewrite app_nil_r, <- app_assoc. exact E.
    + destruct (IH (pre ++ [c]) (cur - cwidth u c)) as (pre' & suf & E1 & E2 & E3); [rewrite <- app_assoc; exact E|].
      exists (c :: pre'), suf. split; [cbn; congruence|]. split; [exact E2|exact E3].
Qed.

Lemma truncate_start_suffix u s m : uniseg_ok u ->
  exists pre suf, clusters u s = pre ++ suf /\ truncate_start u s m = (concat suf, string_width u (concat suf)) /\ clusters u (concat suf) = suf.
Proof.
  intros Hu. unfold truncate_start. destruct (string_width u s <=? m).
  - exists [], (clusters u s). rewrite clusters_concat by auto. auto.
  - destruct (truncate_loop_suffix u s [] (clusters u s) (string_width u s) m Hu eq_refl) as (pre & suf & H). eauto.
Qed.

Lemma spans_after_ok u (P : cell -> Prop) spans : uniseg_ok u -> 
  (forall s sym, In s spans -> In sym (clusters u (sp_content s)) -> existsb is_control sym = false -> stable P sym) ->
  forall skip it, In it (spans_after_width u spans skip) -> item_ok u P it.
Proof.
  intros Hu. pose proof (cwidth_nonneg _ Hu) as Hn. induction spans as [|s spans IH]; intros Hst skip it; cbn [spans_after_width]; [intros []|].
  assert (IH' := IH (fun s' sym H => Hst s' sym (or_intror H))).
  destruct (skip >=? span_width u s); [apply IH'|]. cbv zeta.
  destruct (span_width u s <=? _).
  - intros [<-|H]; [|eapply IH'; eauto]. unfold item_ok; cbn. split; [now apply string_width_nonneg|]. split; [lia|].
    intros sym. apply Hst. now left.
  - destruct (truncate_start_suffix u (sp_content s) (Z.max 0 (span_width u s - skip)) Hu) as (pre & suf & E1 & E2 & E3).
    rewrite E2. intros [<-|H]; [|eapply IH'; eauto]. unfold item_ok; cbn. split; [now apply string_width_nonneg|]. split; [lia|].
    intros sym Hs. apply (Hst s); [now left|]. rewrite E1. apply in_app_iff. right. now rewrite E3 in Hs.
Qed.

Lemma set_style_spec b area st : wf_buffer b -> exists b', buffer_set_style b area st = Ret b' /\
  changed_exactly (fun p => inside p area /\ inside p (barea b)) (fun _ => cell_set_style st) b b'.
Proof.
  intros W. unfold buffer_set_style.
  destruct (rect_loop_yx (cell_set_style st) (intersection (barea b) area) b W) as (b' & E & (A & W' & C & D)).
  { intros p Hp. apply (C01_intersection_is_set_intersection (barea b) area p) in Hp. tauto. }
  exists b'. split; [exact E|]. split; [auto|]. split; [auto|].
  split; intros p Hp; [apply C|apply D]; rewrite (proj1 (C01_intersection_is_set_intersection (barea b) area p)); tauto.
Qed.

Lemma set_style_keeps (P : cell -> Prop) b area st : wf_buffer b -> (forall c, P c -> P (cell_set_style st c)) ->
  exists b', buffer_set_style b area st = Ret b' /\ keeps P area b b'.
Proof.
  intros W HP. destruct (set_style_spec b area st W) as (b' & E & C). exists b'. split; [exact E|].
  split; [now apply changed_exactly_only in C|]. destruct C as (A & W' & C & D). intros H p c Hl.
  destruct (contains (intersection area (barea b)) p) eqn:Ec.
  - apply contains_inside in Ec. apply (C01_intersection_is_set_intersection area (barea b) p) in Ec.
    rewrite C in Hl by auto. destruct (look b p) eqn:El; [|discriminate]. injection Hl as <-. apply HP. eapply H; eauto.
  - apply contains_false in Ec. rewrite D in Hl; [eapply H; eauto|]. intros X. apply Ec. now apply C01_intersection_is_set_intersection.
Qed.

Lemma line_render_ok u l (P : cell -> Prop) area b al : uniseg_ok u -> (forall c, P c -> P (cell_reset c)) -> (forall st c, P c -> P (cell_set_style st c)) ->
  (forall s sym, In s (ln_spans l) -> In sym (clusters u (sp_content s)) -> existsb is_control sym = false -> stable P sym) -> wf_buffer b ->
  exists b', line_render_with u l area b al = Ret b' /\ keeps P area b b'.
Proof.
  intros Hu HP HPs Hst W. unfold line_render_with. set (A := intersection area (barea b)).
  assert (SA : sized A) by apply C01_intersection_sized.
  destruct (rect_is_empty A) eqn:EA. { exists b. split; [reflexivity|]. now apply keeps_refl. }
  cbv zeta. destruct (line_width u l =? 0). { exists b. split; [reflexivity|]. now apply keeps_refl. }
  destruct (not_empty_pos A SA EA) as [Hw Hh]. set (A1 := Rect (rx A) (ry A) (rw A) 1).
  assert (Sub : forall p, inside p A1 -> inside p area).
  { intros p Hp. assert (inside p A) by (unfold inside, A1 in *; cbn in *; lia).
    apply (C01_intersection_is_set_intersection area (barea b) p) in H. tauto. }
  destruct (set_style_keeps P b (with_width A1 (Z.min (rw A1) (line_width u l))) (ln_style l) W (HPs _)) as (b1 & E1 & K1).
  rewrite E1. cbn [bind]. pose proof (keeps_wf _ _ _ _ K1) as W1.
  assert (K1' : keeps P area b b1).
  { eapply keeps_weaken; [|exact K1]. intros p Hp _. apply Sub. unfold inside, with_width, A1 in *; cbn in *. lia. }
  destruct (line_width u l <=? rw A1).
  - match goal with |- context [render_spans u _ (indent_x A1 ?i) b1 0] => set (ind := i); assert (Hi : 0 <= ind) end.
    { unfold ind. destruct (ln_align l), al; try lia; apply Z.quot_pos; lia. }
    destruct (render_items_ok u P (spans_after_width u (ln_spans l) 0) (cwidth_nonneg _ Hu) HP (spans_after_ok u P _ Hu Hst 0) (indent_x A1 ind) b1 W1)
      as (b2 & E2 & K2).
    exists b2. split; [exact E2|]. eapply keeps_trans; [exact K1'|]. eapply keeps_weaken; [|exact K2].
    intros p Hp _. apply Sub. eapply indent_sub; eauto.
  - match goal with |- context [render_spans u _ A1 b1 ?i] => set (sk := i) end.
    destruct (render_items_ok u P (spans_after_width u (ln_spans l) sk) (cwidth_nonneg _ Hu) HP (spans_after_ok u P _ Hu Hst sk) A1 b1 W1)
      as (b2 & E2 & K2).
    exists b2. split; [exact E2|]. eapply keeps_trans; [exact K1'|]. eapply keeps_weaken; [|exact K2]. intros p Hp _. now apply Sub.
Qed.

Lemma text_loop_ok u (P : cell -> Prop) al area lines : uniseg_ok u -> (forall c, P c -> P (cell_reset c)) -> (forall st c, P c -> P (cell_set_style st c)) ->
  (forall l s sym, In l lines -> In s (ln_spans l) -> In sym (clusters u (sp_content s)) -> existsb is_control sym = false -> stable P sym) ->
  forall rws b, (forall r p, In r rws -> inside p r -> inside p area) -> wf_buffer b ->
  exists b', text_loop u lines rws al b = Ret b' /\ keeps P area b b'.
Proof.
  intros Hu HP HPs. induction lines as [|l lines IH]; intros Hst rws b Hr W; cbn [text_loop].
  - exists b. split; [reflexivity|]. now apply keeps_refl.
  - destruct rws as [|r rws]. { exists b. split; [reflexivity|]. now apply keeps_refl. }
    destruct (line_render_ok u l P r b al Hu HP HPs (fun s sym => Hst l s sym (or_introl eq_refl)) W) as (b1 & E1 & K1).
    rewrite E1. cbn [bind]. pose proof (keeps_wf _ _ _ _ K1) as W1.
    destruct (IH (fun l' s sym H => Hst l' s sym (or_intror H)) rws b1 (fun r' p H => Hr r' p (or_intror H)) W1) as (b2 & E2 & K2).
    exists b2. split; [exact E2|]. eapply keeps_trans; [|exact K2]. eapply keeps_weaken; [|exact K1].
    intros p Hp _. eapply Hr; [now left|exact Hp].
Qed.

Lemma text_render_ok u t (P : cell -> Prop) area b : uniseg_ok u -> (forall c, P c -> P (cell_reset c)) -> (forall st c, P c -> P (cell_set_style st c)) ->
  (forall l s sym, In l (tx_lines t) -> In s (ln_spans l) -> In sym (clusters u (sp_content s)) -> existsb is_control sym = false -> stable P sym) ->
  wf_buffer b -> exists b', text_render u t area b = Ret b' /\ keeps P area b b'.
Proof.
  intros Hu HP HPs Hst W. unfold text_render. set (A := intersection area (barea b)).
  assert (Sub : forall p, inside p A -> inside p area).
  { intros p H. apply (C01_intersection_is_set_intersection area (barea b) p) in H. tauto. }
  destruct (set_style_keeps P b A (tx_style t) W (HPs _)) as (b1 & E1 & K1).
  cbv zeta. rewrite E1. cbn [bind]. pose proof (keeps_wf _ _ _ _ K1) as W1.
  destruct (text_loop_ok u P (tx_align t) area (tx_lines t) Hu HP HPs Hst (rows A) b1) as (b2 & E2 & K2); auto.
  - intros r p Hr Hp. apply Sub. unfold rows in Hr. apply in_map_iff in Hr. destruct Hr as (y & <- & Hy). apply zrange_In in Hy.
    unfold inside, rbottom in *; cbn in *. lia.
  - exists b2. split; [exact E2|]. eapply keeps_trans; [|exact K2]. eapply keeps_weaken; [|exact K1]. auto.
Qed.

(** ** What a line of visible clusters looks like *)

Lemma patched_new st c : cell_set_style (patched new_style st) c = cell_set_style st c.
Proof.
  unfold cell_set_style, patched, new_style, bit_union, bit_difference, ModifierNone. cbn [sfg sbg sadd ssub].
  rewrite !N.ldiff_0_l, !N.lor_0_l. destruct (sfg st), (sbg st); reflexivity.
Qed.

(** Visible clusters: at least one column wide, no control characters. *)
Definition visible (u : uniseg) (l : list (str * style)) : Prop :=
  forall c st, In (c, st) l -> 1 <= cwidth u c /\ existsb is_control c = false /\ string_width u c = cwidth u c.

Lemma seen_out w l W : forall off o, (forall c st, In (c, st) l -> 1 <= w c) -> o < off -> seen w l W off o = None.
Proof.
  induction l as [|[c st] l IH]; intros off o Hw Ho; cbn [seen]; [reflexivity|].
  replace (off <=? o) with false by (symmetry; apply Z.leb_gt; lia). cbn. apply IH; [eauto using in_cons|]. 
  specialize (Hw c st (or_introl eq_refl)). lia.
Qed.

(** Nothing is seen of what starts at the right edge or beyond. *)
Lemma seen_beyond w l W : forall off o, (forall c st, In (c, st) l -> 1 <= w c) -> W <= off -> seen w l W off o = None.
Proof.
  induction l as [|[c st] l IH]; intros off o Hw Ho; cbn [seen]; [reflexivity|].
  specialize (Hw c st (or_introl eq_refl)) as Hc.
  destruct ((off <=? o) && _).
  - replace (off + w c <=? W) with false by (symmetry; apply Z.leb_gt; lia). now rewrite andb_false_r.
  - apply IH; [eauto using in_cons|lia].
Qed.


Lemma span_loop_seen u area gs : visible u gs -> 0 < rh area -> forall first x b, wf_buffer b -> within area (barea b) ->
  rx area <= x <= rright area -> (first = true <-> x = rx area) ->
  exists b', span_loop u area (ry area) gs first x b = Ret b' /\ barea b' = barea b /\ wf_buffer b' /\
    forall p, look b' p = if (py p =? ry area) && (px p <? rright area)
                          then option_map (paint (seen (cwidth u) gs (rw area) (x - rx area) (px p - rx area))) (look b p) else look b p.
Proof.
  intros Hv Hh. induction gs as [|[sym st] gs IH]; intros first x b W Hin Hx Hf; cbn [span_loop].
  - exists b. split; [reflexivity|]. split; [reflexivity|]. split; [auto|]. intros p. cbn. destruct (look b p), ((py p =? _) && _); reflexivity.
  - destruct (Hv sym st (or_introl eq_refl)) as (Hw & Hc & Hsw). cbv zeta. rewrite Hsw.
    assert (Hv' : visible u gs) by (intros c s H; apply (Hv c s); now right).
    assert (Hw' : forall c s, In (c, s) ((sym, st) :: gs) -> 1 <= cwidth u c) by (intros c s H; now apply (Hv c s)).
    destruct (Z.gtb_spec (x + cwidth u sym) (rright area)) as [Hgt|Hle].
    { exists b. split; [reflexivity|]. split; [reflexivity|]. split; [auto|]. intros p.
      assert (Hs : px p < rright area -> seen (cwidth u) ((sym, st) :: gs) (rw area) (x - rx area) (px p - rx area) = None).
      { intros Hp. cbn [seen]. unfold rright in *. 
        replace (x - rx area + cwidth u sym <=? rw area) with false by (symmetry; apply Z.leb_gt; lia). rewrite andb_false_r.
        destruct (_ && _); [reflexivity|]. apply seen_beyond; [intros c s H; apply (Hw' c s); now right|lia]. }
      destruct (py p =? ry area); cbn [andb]; [|reflexivity]. destruct (Z.ltb_spec (px p) (rright area)); [|reflexivity].
      rewrite Hs by auto. destruct (look b p); reflexivity. }
    unfold rright in *. destruct Hin as (i1 & i2 & i3 & i4).
    assert (Hstep : (if first then upd_cell b (Pos x (ry area)) (fun c => cell_set_style st (cell_set_symbol sym c))
           else if x =? rx area then upd_cell b (Pos x (ry area)) (fun c => cell_set_style st (cell_append_symbol sym c))
           else if cwidth u sym =? 0 then upd_cell b (Pos (x - 1) (ry area)) (fun c => cell_set_style st (cell_append_symbol sym c))
           else upd_cell b (Pos x (ry area)) (fun c => cell_set_style st (cell_set_symbol sym c)))
         = upd_cell b (Pos x (ry area)) (fun c => cell_set_style st (cell_set_symbol sym c))).
    { destruct first; [reflexivity|]. destruct (Z.eqb_spec x (rx area)) as [E|E]; [apply Hf in E; discriminate|].
      replace (cwidth u sym =? 0) with false by (symmetry; apply Z.eqb_neq; lia). reflexivity. }
    rewrite Hstep. clear Hstep.
    destruct (upd_cell_spec b (Pos x (ry area)) (fun c => cell_set_style st (cell_set_symbol sym c)) W) as [b1 [E1 (A1 & W1 & C1 & D1)]].
    { unfold inside; cbn; lia. }
    rewrite E1. cbn [bind].
    destruct (row_reset (ry area) (x + 1) (x + cwidth u sym) b1 W1) as (b2 & E2 & (A2 & W2 & C2 & D2)); try (rewrite A1; lia).
    rewrite E2. cbn [bind].
    destruct (IH Hv' false (x + cwidth u sym) b2 W2) as (b' & E' & A' & W' & L').
    { rewrite A2, A1. unfold within. lia. } { lia. } { split; [discriminate|]. lia. }
    exists b'. split; [exact E'|]. split; [congruence|]. split; [auto|]. intros p. rewrite L'. unfold rright in *.
    destruct (Z.eqb_spec (py p) (ry area)) as [Ey|Ey]; cbn [andb].
    2: { rewrite D2 by lia. apply D1. intros ->. cbn in Ey. lia. }
    destruct (Z.ltb_spec (px p) (rx area + rw area)) as [Er|Er].
    2: { rewrite D2 by lia. apply D1. intros ->. cbn in Er. lia. }
    replace (x + cwidth u sym - rx area) with (x - rx area + cwidth u sym) by lia. cbn [seen].
    replace (0 <=? x - rx area) with true by (symmetry; apply Z.leb_le; lia).
    replace (x - rx area + cwidth u sym <=? rw area) with true by (symmetry; apply Z.leb_le; lia). cbn [andb].
    destruct (Z.leb_spec (x - rx area) (px p - rx area)) as [H1|H1]; cbn [andb].
    2: { rewrite seen_out by (try lia; intros c s H; apply (Hw' c s); now right).
         rewrite D2 by lia. rewrite D1 by (intros ->; cbn in *; lia). reflexivity. }
    destruct (Z.ltb_spec (px p - rx area) (x - rx area + cwidth u sym)) as [H2|H2].
    2: { rewrite D2 by lia. rewrite D1 by (intros ->; cbn in *; lia). reflexivity. }
    rewrite seen_out by (try lia; intros c s H; apply (Hw' c s); now right).
    destruct (Z.eqb_spec (px p - rx area) (x - rx area)) as [H3|H3].
    + rewrite D2 by lia. rewrite C1 by (destruct p; cbn in *; f_equal; lia). destruct (look b p); reflexivity.
    + rewrite C2 by lia. rewrite D1 by (intros ->; cbn in *; lia). destruct (look b p); reflexivity.
Qed.

Lemma seen_style w (f : style -> style) W l : forall off o,
  seen w (map (fun cs => (fst cs, f (snd cs))) l) W off o =
  option_map (fun s => match s with HeadOf c st => HeadOf c (f st) | TailOf => TailOf end) (seen w l W off o).
Proof.
  induction l as [|[c st] l IH]; intros off o; cbn [map seen fst snd]; [reflexivity|].
  destruct (_ && _); [|apply IH]. destruct (_ && _); [|reflexivity]. destruct (o =? off); reflexivity.
Qed.

Lemma span_cells_width u s : cells_width u (span_cells u s) = span_width u s.
Proof. unfold cells_width, span_cells, span_width, string_width. now rewrite map_map. Qed.

Lemma filter_all {A} (f : A -> bool) l : (forall a, In a l -> f a = true) -> filter f l = l.
Proof. induction l; cbn; intros H; [reflexivity|]. rewrite (H a) by now left. f_equal. apply IHl. intros; apply H; now right. Qed.

Lemma span_render_seen u s area b : visible u (span_cells u s) -> 0 < rw area -> 0 < rh area -> wf_buffer b -> within area (barea b) ->
  exists b', span_render u s area b = Ret b' /\ barea b' = barea b /\ wf_buffer b' /\
    forall p, look b' p = if (py p =? ry area) && (px p <? rright area)
                          then option_map (paint (seen (cwidth u) (span_cells u s) (rw area) 0 (px p - rx area))) (look b p) else look b p.
Proof.
  intros Hv Hw Hh W Hin. unfold span_render. rewrite (intersection_within area) by (auto; split; lia). cbv zeta.
  replace (rect_is_empty area) with false by (symmetry; unfold rect_is_empty; apply orb_false_iff; rewrite !Z.eqb_neq; lia).
  assert (Hg : styled_graphemes u new_style s = map (fun cs => (fst cs, patched new_style (snd cs))) (span_cells u s)).
  { unfold styled_graphemes, span_cells. rewrite map_map. cbn. rewrite filter_all; [reflexivity|].
    intros c Hc. apply negb_true_iff. apply (Hv c (sp_style s)). unfold span_cells. apply in_map_iff. eauto. }
  destruct (span_loop_seen u area (styled_graphemes u new_style s)) with (first := true) (x := rx area) (b := b) as (b' & E & A & W' & L); auto.
  - rewrite Hg. intros c st Hc. apply in_map_iff in Hc. destruct Hc as ([c' st'] & E & Hc). injection E as <- <-. now apply (Hv c' st').
  - unfold rright; lia.
  - tauto.
  - exists b'. split; [exact E|]. split; [auto|]. split; [auto|]. intros p. rewrite L, Hg, seen_style, Z.sub_diag.
    destruct (_ && _); [|reflexivity]. destruct (look b p) as [c|]; [|reflexivity]. cbn [option_map]. f_equal.
    destruct (seen _ _ _ _ _) as [[sym st|]|]; cbn; auto. apply patched_new.
Qed.

Lemma cells_width_nonneg u l : visible u l -> 0 <= cells_width u l.
Proof.
  intros Hv. unfold cells_width. apply zsum_nonneg. intros z Hz. apply in_map_iff in Hz. destruct Hz as ([c st] & <- & Hc).
  destruct (Hv c st Hc) as (? & _). cbn. lia.
Qed.

(** Walking past the clusters of [l]. *)
Lemma seen_skip u l m W : visible u l -> forall off o, off + cells_width u l <= o ->
  seen (cwidth u) (l ++ m) W off o = seen (cwidth u) m W (off + cells_width u l) o.
Proof.
  induction l as [|[c st] l IH]; intros Hv off o Ho; unfold cells_width in *; cbn [app map fst] in *.
  - cbn. now rewrite Z.add_0_r.
  - rewrite zsum_cons in *. cbn [seen].
    assert (Hv' : visible u l) by (intros c' s H; apply (Hv c' s); now right).
    destruct (Hv c st (or_introl eq_refl)) as (Hc & _). pose proof (cells_width_nonneg u l Hv') as Hn. unfold cells_width in Hn.
    replace (o <? off + cwidth u c) with false by (symmetry; apply Z.ltb_ge; lia). rewrite andb_false_r.
    rewrite IH; auto; [|lia]. f_equal. lia.
Qed.
Lemma seen_stay u l m W : visible u l -> (forall c st, In (c, st) m -> 1 <= cwidth u c) -> forall off o, o < off + cells_width u l ->
  seen (cwidth u) (l ++ m) W off o = seen (cwidth u) l W off o.
Proof.
  induction l as [|[c st] l IH]; intros Hv Hm off o Ho; unfold cells_width in *; cbn [app map fst] in *.
  - cbn [seen]. apply seen_out; auto. cbn in Ho. lia.
  - rewrite zsum_cons in *. cbn [seen].
    assert (Hv' : visible u l) by (intros c' s H; apply (Hv c' s); now right).
    destruct (_ && _); [reflexivity|]. apply IH; auto. lia.
Qed.

Lemma visible_app u l m : visible u (l ++ m) <-> visible u l /\ visible u m.
Proof.
  unfold visible. split.
  - intros H. split; intros c st Hc; apply (H c st); apply in_app_iff; auto.
  - intros [H1 H2] c st Hc. apply in_app_iff in Hc. destruct Hc; eauto.
Qed.

(** Changing the window's right edge together with everything else does not matter: shift of origin. *)
Lemma seen_shift w l W k : forall off o, 0 <= off -> 0 <= k -> (forall c st, In (c, st) l -> 1 <= w c) ->
  seen w l (W + k) (off + k) (o + k) = seen w l W off o.
Proof.
  induction l as [|[c st] l IH]; intros off o H0 Hk Hw; cbn [seen]; [reflexivity|].
  replace (off + k <=? o + k) with (off <=? o) by (destruct (Z.leb_spec off o), (Z.leb_spec (off + k) (o + k)); auto; lia).
  replace (o + k <? off + k + w c) with (o <? off + w c) by (destruct (Z.ltb_spec o (off + w c)), (Z.ltb_spec (o + k) (off + k + w c)); auto; lia).
  replace (0 <=? off + k) with (0 <=? off) by (destruct (Z.leb_spec 0 off), (Z.leb_spec 0 (off + k)); auto; lia).
  replace (off + k + w c <=? W + k) with (off + w c <=? W) by (destruct (Z.leb_spec (off + w c) W), (Z.leb_spec (off + k + w c) (W + k)); auto; lia).
  replace (o + k =? off + k) with (o =? off) by (destruct (Z.eqb_spec o off), (Z.eqb_spec (o + k) (off + k)); auto; lia).
  destruct (_ && _); [reflexivity|]. replace (off + k + w c) with (off + w c + k) by lia. apply IH; auto.
  - specialize (Hw c st (or_introl eq_refl)). lia.
  - intros c' s H. apply (Hw c' s). now right.
Qed.

Definition whole (u : uniseg) (s : span) : span_after := SpanAfter s (span_width u s) 0.

(** What [render_items] shows: the first item may be indented, the others follow. *)
Lemma render_whole u spans : visible u (line_cells u spans) -> forall area b, 0 < rh area -> 0 <= rw area -> wf_buffer b -> within area (barea b) ->
  exists b', render_items u (map (whole u) spans) area b = Ret b' /\ barea b' = barea b /\ wf_buffer b' /\
    forall p, look b' p = if (py p =? ry area) && (px p <? rright area)
                          then option_map (paint (seen (cwidth u) (line_cells u spans) (rw area) 0 (px p - rx area))) (look b p) else look b p.
Proof.
  induction spans as [|s spans IH]; intros Hv area b Hh Hw W Hin; cbn [map render_items].
  - exists b. split; [reflexivity|]. split; [reflexivity|]. split; [auto|]. intros p. cbn. destruct (_ && _), (look b p); reflexivity.
  - cbn [line_cells flat_map] in Hv. apply visible_app in Hv. destruct Hv as [Hv1 Hv2]. change (flat_map (span_cells u) spans) with (line_cells u spans) in *.
    cbn [sa_offset sa_width sa_span whole]. cbv zeta.
    replace (indent_x area 0) with area by (destruct area; unfold indent_x; cbn in *; f_equal; lia).
    pose proof (cells_width_nonneg u _ Hv1) as Hn. rewrite span_cells_width in Hn.
    assert (Hm : forall c st, In (c, st) (line_cells u spans) -> 1 <= cwidth u c) by (intros c st H; now apply (Hv2 c st)).
    assert (Hm1 : forall c st, In (c, st) (span_cells u s) -> 1 <= cwidth u c) by (intros c st H; now apply (Hv1 c st)).
    destruct (rect_is_empty area) eqn:EA.
    { exists b. split; [reflexivity|]. split; [reflexivity|]. split; [auto|]. intros p. unfold rect_is_empty in EA. apply orb_true_iff in EA.
      rewrite !Z.eqb_eq in EA. assert (EW : rw area = 0) by lia. unfold rright. rewrite EW.
      destruct ((py p =? ry area) && (px p <? rx area + 0)) eqn:Ep; [|reflexivity]. rewrite seen_beyond; [destruct (look b p); reflexivity| |lia].
      intros c st H. cbn in H. apply in_app_iff in H. destruct H as [H|H]; [eapply Hm1; eauto|eapply Hm; eauto]. }
    assert (SA : sized area) by (split; lia). destruct (not_empty_pos area SA EA) as [Hw' _].
    destruct (span_render_seen u s area b Hv1 Hw' Hh W Hin) as (b1 & E1 & A1 & W1 & L1). rewrite E1. cbn [bind].
    set (area2 := indent_x area (span_width u s)).
    destruct (Z.le_gt_cases (rw area) (span_width u s)) as [Hfull|Hroom].
    + (* no room left: the next item stops the loop *)
      assert (ES : render_items u (map (whole u) spans) area2 b1 = Ret b1).
      { destruct spans as [|s2 spans]; [reflexivity|]. cbn [map render_items whole sa_offset]. cbv zeta.
        replace (rect_is_empty (indent_x area2 0)) with true; [reflexivity|]. symmetry. unfold rect_is_empty, area2, indent_x; cbn.
        apply orb_true_iff. left. apply Z.eqb_eq. lia. }
      exists b1. split; [exact ES|]. split; [auto|]. split; [auto|]. intros p. rewrite L1. unfold rright.
      destruct (Z.eqb_spec (py p) (ry area)); cbn [andb]; [|reflexivity]. destruct (Z.ltb_spec (px p) (rx area + rw area)); [|reflexivity].
      cbn [line_cells flat_map]. change (flat_map (span_cells u) spans) with (line_cells u spans).
      rewrite seen_stay; auto. rewrite span_cells_width. lia.
    + destruct (IH Hv2 area2 b1) as (b' & E' & A' & W' & L'); auto.
      { unfold area2, indent_x; cbn. lia. }
      { unfold within, area2, indent_x in *; cbn in *. rewrite A1. lia. }
      exists b'. split; [exact E'|]. split; [congruence|]. split; [auto|]. intros p. rewrite L', L1. unfold rright, area2, indent_x; cbn [rx ry rw rh].
      rewrite Z.max_r by lia. replace (rx area + span_width u s + (rw area - span_width u s)) with (rx area + rw area) by lia.
      destruct (Z.eqb_spec (py p) (ry area)); cbn [andb]; [|reflexivity]. destruct (Z.ltb_spec (px p) (rx area + rw area)); [|reflexivity].
      cbn [line_cells flat_map]. change (flat_map (span_cells u) spans) with (line_cells u spans).
      destruct (Z.le_gt_cases (span_width u s) (px p - rx area)) as [Hr|Hl].
      * rewrite seen_skip; auto; rewrite span_cells_width; [|lia]. cbn [Z.add].
        assert (Hnone : seen (cwidth u) (span_cells u s) (rw area) 0 (px p - rx area) = None).
        { pose proof (seen_skip u (span_cells u s) [] (rw area) Hv1 0 (px p - rx area)) as X. rewrite app_nil_r, span_cells_width in X. rewrite X by lia. reflexivity. }
        rewrite Hnone. rewrite <- (seen_shift (cwidth u) (line_cells u spans) (rw area - span_width u s) (span_width u s) 0) by (auto; lia).
        replace (rw area - span_width u s + span_width u s) with (rw area) by lia.
        replace (px p - (rx area + span_width u s) + span_width u s) with (px p - rx area) by lia. cbn [Z.add].
        destruct (look b p); reflexivity.
      * rewrite seen_stay; auto; [|rewrite span_cells_width; lia]. rewrite seen_out; auto; [|lia]. 
        destruct (look b p) as [c|]; [|reflexivity]. cbn [option_map]. f_equal.
Qed.

(** ** Cutting on the left *)

(** Every cluster of [l] starts left of the window. *)
Fixpoint all_left (u : uniseg) (off : Z) (l : list (str * style)) : Prop :=
  match l with
  | [] => True
  | (c, _) :: l' => off < 0 /\ all_left u (off + cwidth u c) l'
  end.

Lemma seen_drop u W m : (forall c st, In (c, st) m -> 1 <= cwidth u c) -> forall l off o, visible u l -> all_left u off l -> 0 <= o ->
  seen (cwidth u) (l ++ m) W off o = seen (cwidth u) m W (off + cells_width u l) o.
Proof.
  intros Hm. induction l as [|[c st] l IH]; intros off o Hv Ha Ho; unfold cells_width in *; cbn [app map fst] in *.
  - cbn. now rewrite Z.add_0_r.
  - rewrite zsum_cons. destruct Ha as [Hneg Ha]. cbn [seen].
    assert (Hv' : visible u l) by (intros c' s H; apply (Hv c' s); now right).
    pose proof (cells_width_nonneg u l Hv') as Hn. unfold cells_width in Hn.
    destruct (Z.leb_spec off o); [|lia]. cbn [andb].
    destruct (Z.ltb_spec o (off + cwidth u c)).
    + replace (0 <=? off) with false by (symmetry; apply Z.leb_gt; lia). cbn [andb].
      rewrite seen_out; auto. lia.
    + rewrite IH; auto. f_equal. lia.
Qed.

Definition first_offset (off : Z) (l : list span_after) : list span_after :=
  match l with [] => [] | it :: r => SpanAfter (sa_span it) (sa_width it) off :: r end.

Lemma all_left_app u l m : forall off, all_left u off (l ++ m) <-> all_left u off l /\ all_left u (off + cells_width u l) m.
Proof.
  induction l as [|[c st] l IH]; intros off; unfold cells_width in *; cbn [app all_left map fst].
  - cbn. rewrite Z.add_0_r. tauto.
  - rewrite zsum_cons, IH. replace (off + (cwidth u c + zsum (map (fun cs => cwidth u (fst cs)) l))) with (off + cwidth u c + zsum (map (fun cs => cwidth u (fst cs)) l)) by lia. tauto.
Qed.

Lemma cells_width_app u l m : cells_width u (l ++ m) = cells_width u l + cells_width u m.
Proof. unfold cells_width. now rewrite map_app, zsum_app. Qed.

(** Clusters that end at the window's left edge or before start left of it. *)
Lemma all_left_ended u l : visible u l -> forall off, off + cells_width u l <= 0 -> all_left u off l.
Proof.
  induction l as [|[c st] l IH]; intros Hv off H; cbn [all_left]; [exact I|]. unfold cells_width in *. cbn [map fst] in H. rewrite zsum_cons in H.
  assert (Hv' : visible u l) by (intros c' s X; apply (Hv c' s); now right).
  pose proof (cells_width_nonneg u l Hv') as Hn. unfold cells_width in Hn. destruct (Hv c st (or_introl eq_refl)) as (Hc & _).
  split; [lia|]. apply IH; auto. lia.
Qed.

Lemma truncate_loop_spec u m st cl : uniseg_ok u -> (forall c, In c cl -> 1 <= cwidth u c) ->
  forall cur, m < cur -> cur = zsum (map (cwidth u) cl) -> 0 <= m -> (forall l1 l2, cl = l1 ++ l2 -> clusters u (concat l2) = l2) ->
  exists pre suf, cl = pre ++ suf /\ truncate_loop u cl cur m = (concat suf, zsum (map (cwidth u) suf)) /\ clusters u (concat suf) = suf /\
    zsum (map (cwidth u) suf) <= m /\ all_left u (m - cur) (map (fun c => (c, st)) pre).
Proof.
  intros Hu. induction cl as [|c cl IH]; intros Hw cur Hm Hc H0 Hsub; cbn [truncate_loop].
  - cbn in Hc. lia.
  - assert (Hcw : 1 <= cwidth u c) by (apply Hw; now left). replace (cwidth u c =? 0) with false by (symmetry; apply Z.eqb_neq; lia).
    cbn [map] in Hc. rewrite zsum_cons in Hc.
    destruct (Z.leb_spec (cur - cwidth u c) m) as [Hle|Hgt].
    + exists [c], cl. assert (E : clusters u (concat cl) = cl) by (apply (Hsub [c] cl); reflexivity).
      split; [reflexivity|]. split; [unfold string_width; now rewrite E|]. split; [exact E|]. split; [lia|]. cbn. lia.
    + destruct (IH (fun d H => Hw d (or_intror H)) (cur - cwidth u c)) as (pre & suf & E1 & E2 & E3 & E4 & E5); auto; try lia.
      { intros l1 l2 E. apply (Hsub (c :: l1) l2). now rewrite E. }
      exists (c :: pre), suf. split; [now rewrite E1|]. split; [exact E2|]. split; [exact E3|]. split; [exact E4|].
      cbn [map all_left]. split; [lia|]. replace (m - cur + cwidth u c) with (m - (cur - cwidth u c)) by lia. exact E5.
Qed.

Lemma span_nonempty u s : visible u (span_cells u s) -> span_width u s <= 0 -> span_cells u s = [].
Proof.
  intros Hv. rewrite <- span_cells_width. destruct (span_cells u s) as [|[c st] l]; [reflexivity|]. unfold cells_width. cbn [map fst]. rewrite zsum_cons.
  assert (Hv' : visible u l) by (intros c' s' X; apply (Hv c' s'); now right). pose proof (cells_width_nonneg u l Hv') as Hn. unfold cells_width in Hn.
  destruct (Hv c st (or_introl eq_refl)) as (Hc & _). lia.
Qed.

Lemma spans_after_zero u spans : visible u (line_cells u spans) -> exists spans',
  spans_after_width u spans 0 = map (whole u) spans' /\ line_cells u spans' = line_cells u spans.
Proof.
  induction spans as [|s spans IH]; intros Hv; cbn [spans_after_width]; [exists []; auto|].
  cbn [line_cells flat_map] in Hv. apply visible_app in Hv. destruct Hv as [Hv1 Hv2]. destruct (IH Hv2) as (spans' & E & L).
  pose proof (cells_width_nonneg u _ Hv1) as Hn. rewrite span_cells_width in Hn.
  destruct (Z.geb_spec 0 (span_width u s)) as [Hz|Hz].
  - replace (Z.max 0 (0 - span_width u s)) with 0 by lia. exists spans'. split; [exact E|]. cbn. rewrite L, (span_nonempty u s); auto.
  - cbv zeta. replace (Z.max 0 (span_width u s - 0)) with (span_width u s) by lia. rewrite Z.leb_refl.
    exists (s :: spans'). split; [cbn; now rewrite E|]. cbn. unfold line_cells in *. now rewrite L.
Qed.

Lemma spans_after_spec u spans : uniseg_ok u -> visible u (line_cells u spans) -> forall skip, 0 <= skip ->
  exists off dropped spans', spans_after_width u spans skip = first_offset off (map (whole u) spans') /\
    line_cells u spans = dropped ++ line_cells u spans' /\ all_left u (- skip) dropped /\ visible u (line_cells u spans') /\
    0 <= off /\ (spans' <> [] -> off = - skip + cells_width u dropped).
Proof.
  intros Hu. induction spans as [|s spans IH]; intros Hv skip Hs; cbn [spans_after_width].
  - exists 0, [], []. split; [reflexivity|]. split; [reflexivity|]. split; [exact I|]. split; [intros c st []|]. split; [lia|]. congruence.
  - cbn [line_cells flat_map] in Hv. apply visible_app in Hv. destruct Hv as [Hv1 Hv2]. change (flat_map (span_cells u) spans) with (line_cells u spans) in *.
    pose proof (cells_width_nonneg u _ Hv1) as Hn. rewrite span_cells_width in Hn.
    destruct (Z.geb_spec skip (span_width u s)) as [Hz|Hz].
    + destruct (IH Hv2 (Z.max 0 (skip - span_width u s))) as (off & dr & spans' & E & L & A & V & O & O'); [lia|].
      rewrite Z.max_r in * by lia.
      exists off, (span_cells u s ++ dr), spans'. split; [exact E|]. split; [cbn; unfold line_cells in *; rewrite L; now rewrite app_assoc|].
      split; [|split; [exact V|split; [exact O|]]].
      * apply all_left_app. split; [apply all_left_ended; auto; rewrite span_cells_width; lia|].
        rewrite span_cells_width. replace (- skip + span_width u s) with (- (skip - span_width u s)) by lia. exact A.
      * intros N. rewrite cells_width_app, span_cells_width, O' by auto. lia.
    + cbv zeta. rewrite (Z.max_r 0 (span_width u s - skip)) by lia.
      destruct (spans_after_zero u spans Hv2) as (post & Ep & Lp).
      destruct (Z.leb_spec (span_width u s) (span_width u s - skip)) as [Hl|Hl].
      * assert (skip = 0) by lia. subst skip. exists 0, [], (s :: post). cbn [map first_offset whole sa_span sa_width].
        split; [unfold whole; now rewrite Ep|]. split; [cbn; unfold line_cells in *; now rewrite Lp|].
        split; [exact I|]. split; [cbn [line_cells flat_map]; apply visible_app; split; auto; unfold line_cells in *; now rewrite Lp|]. split; [lia|]. cbn. lia.
      * unfold truncate_start.
        replace (string_width u (sp_content s) <=? span_width u s - skip) with false by (symmetry; apply Z.leb_gt; fold (span_width u s); lia).
        destruct (truncate_loop_spec u (span_width u s - skip) (sp_style s) (clusters u (sp_content s)) Hu) with (cur := string_width u (sp_content s))
          as (pre & suf & E1 & E2 & E3 & E4 & E5).
        { intros c Hc. apply (Hv1 c (sp_style s)). unfold span_cells. apply in_map_iff. eauto. }
        { fold (span_width u s). lia. } { reflexivity. } { lia. }
        { intros l1 l2 E. apply (clusters_sub _ Hu (sp_content s) l1 l2 []). now rewrite app_nil_r. }
        rewrite E2. set (s' := Span (sp_style s) (concat suf)).
        assert (Ec : span_cells u s = map (fun c => (c, sp_style s)) pre ++ span_cells u s').
        { unfold span_cells, s'. cbn. now rewrite E3, <- map_app, <- E1. }
        assert (Ew : span_width u s' = zsum (map (cwidth u) suf)) by (unfold span_width, string_width, s'; cbn; now rewrite E3).
        assert (Et : span_width u s = cells_width u (map (fun c => (c, sp_style s)) pre) + zsum (map (cwidth u) suf)).
        { rewrite <- span_cells_width, Ec, cells_width_app, span_cells_width, Ew. reflexivity. }
        exists (span_width u s - skip - zsum (map (cwidth u) suf)), (map (fun c => (c, sp_style s)) pre), (s' :: post).
        cbn [map first_offset whole sa_span sa_width]. rewrite Ew, Z.max_r by lia.
        split; [unfold s'; now rewrite Ep|]. split.
        { cbn. unfold line_cells in *. rewrite Lp, Ec. now rewrite app_assoc. }
        split. { fold (span_width u s) in E5. replace (span_width u s - skip - span_width u s) with (- skip) in E5 by lia. exact E5. }
        split. { cbn [line_cells flat_map]. apply visible_app. split; [|unfold line_cells in *; now rewrite Lp].
                 intros c st Hc. apply (Hv1 c st). rewrite Ec. apply in_app_iff. auto. }
        split; [lia|]. intros _. lia.
Qed.

Lemma first_offset_render u off items area b : 0 <= off -> 0 <= rw area ->
  (forall it r, items = it :: r -> sa_offset it = 0) ->
  render_items u (first_offset off items) area b = render_items u items (indent_x area off) b.
Proof.
  intros Ho Hr Hi. destruct items as [|it r]; [reflexivity|]. cbn [first_offset render_items sa_offset sa_span sa_width]. rewrite (Hi it r eq_refl).
  replace (indent_x (indent_x area off) 0) with (indent_x area off); [reflexivity|].
  unfold indent_x; cbn. f_equal; lia.
Qed.

(** The whole renderer for a line of visible clusters starting at column [-skip] of the window. *)
Lemma render_spans_seen u spans area b skip : uniseg_ok u -> visible u (line_cells u spans) -> 0 <= skip ->
  0 < rh area -> 0 <= rw area -> wf_buffer b -> within area (barea b) ->
  exists b', render_spans u spans area b skip = Ret b' /\ barea b' = barea b /\ wf_buffer b' /\
    forall p, look b' p = if (py p =? ry area) && ((rx area <=? px p) && (px p <? rright area))
                          then option_map (paint (seen (cwidth u) (line_cells u spans) (rw area) (- skip) (px p - rx area))) (look b p) else look b p.
Proof.
  intros Hu Hv Hs Hh Hw W Hin. unfold render_spans.
  destruct (spans_after_spec u spans Hu Hv skip Hs) as (off & dr & spans' & E & L & A & V & O & O').
  rewrite E. rewrite first_offset_render; auto.
  2: { intros it r X. destruct spans'; [discriminate|]. cbn in X. injection X as <- _. reflexivity. }
  assert (Hvd : visible u dr) by (rewrite L in Hv; now apply visible_app in Hv).
  assert (Hm : forall c st, In (c, st) (line_cells u spans') -> 1 <= cwidth u c) by (intros c st H; now apply (V c st)).
  assert (Hseen : forall o, 0 <= o -> seen (cwidth u) (line_cells u spans) (rw area) (- skip) o = seen (cwidth u) (line_cells u spans') (rw area) off o).
  { intros o Ho. rewrite L. rewrite seen_drop by auto. destruct spans' as [|s' r]; [reflexivity|]. f_equal. symmetry. apply O'. discriminate. }
  destruct (Z.le_gt_cases (rw area) off) as [Hfull|Hroom].
  - exists b. split; [|split; [reflexivity|split; [auto|]]].
    + destruct spans'; [reflexivity|]. cbn [map render_items whole sa_offset]. cbv zeta.
      replace (rect_is_empty _) with true; [reflexivity|]. symmetry. unfold rect_is_empty, indent_x; cbn. apply orb_true_iff. left. apply Z.eqb_eq. lia.
    + intros p. destruct (_ && _) eqn:Ep; [|reflexivity]. rewrite !andb_true_iff, Z.leb_le in Ep. rewrite Hseen by lia.
      rewrite seen_beyond by auto. destruct (look b p); reflexivity.
  - destruct (render_whole u spans' V (indent_x area off) b) as (b' & E' & A' & W' & L'); auto.
    { unfold indent_x; cbn; lia. } { unfold within, indent_x in *; cbn in *; lia. }
    exists b'. split; [exact E'|]. split; [auto|]. split; [auto|]. intros p. rewrite L'. unfold rright, indent_x; cbn [rx ry rw rh].
    rewrite Z.max_r by lia. replace (rx area + off + (rw area - off)) with (rx area + rw area) by lia.
    destruct (Z.eqb_spec (py p) (ry area)); cbn [andb]; [|reflexivity]. 
    destruct (Z.ltb_spec (px p) (rx area + rw area)); [|now rewrite andb_false_r]. rewrite andb_true_r.
    rewrite <- (seen_shift (cwidth u) (line_cells u spans') (rw area - off) off 0) by (auto; lia).
    replace (rw area - off + off) with (rw area) by lia. replace (px p - (rx area + off) + off) with (px p - rx area) by lia. cbn [Z.add].
    destruct (Z.leb_spec (rx area) (px p)); [rewrite Hseen by lia; reflexivity|].
    rewrite seen_out by (auto; lia). destruct (look b p); reflexivity.
Qed.
