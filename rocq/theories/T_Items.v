(** C97: what a list shows. *)
From Verif Require Import Base P_Base M_Geom S_Geom T_Geom M_Style M_Uniseg M_Buffer S_Buffer S_Text S_Line P_Buffer P_SetString T_Buffer M_Text P_Text T_Text T_TextRows P_Redraw M_Block S_Block P_Block T_Block M_Slice M_List S_Items P_List T_List.
From Coq Require Import ZArith NArith List Bool Lia.
Import ListNotations.
Open Scope Z_scope.

Lemma set_string_redrawn u b x y s n st : wf_buffer b -> inside (Pos x y) (barea b) -> (forall c, In c (clusters u s) -> 1 <= cwidth u c) -> widths u (clusters u s) <= n ->
  x + n <= rx (barea b) + rw (barea b) ->
  exists b' x', set_string_n u b x y s n st = Ret (b', (x', y)) /\ redrawn (fun p c => if py p =? y then written u st (clusters u s) (px p - x) c else c) b b'.
Proof.
  intros W [Ix Iy] Hv Hn Hx. cbn [px py] in Ix, Iy. unfold set_string_n. set (cl := clusters u s) in *.
  assert (H0 : 0 <= widths u cl) by (unfold widths; apply zsum_nonneg; intros z Hz; apply in_map_iff in Hz; destruct Hz as [d [<- Hd]]; specialize (Hv d Hd); lia).
  assert (T : taken u (Z.min n (Z.max 0 (rright (barea b) - x))) cl = cl).
  { rewrite <- (app_nil_r cl) at 1. apply taken_app; auto. unfold rright. lia. }
  destruct (set_clusters_spec u st y cl b x (Z.min n (Z.max 0 (rright (barea b) - x))) W) as [b' [E (A & W' & C & D)]]; try lia.
  { rewrite T, adv_eq by auto. lia. }
  rewrite E. cbn [bind]. exists b'. eexists. split; [reflexivity|]. split; [exact A|]. split; [exact W'|]. intros p. destruct (Z.eqb_spec (py p) y) as [Ey|Ny].
  - rewrite (C p Ey), T. destruct (look b p); [|reflexivity]. cbn. f_equal. unfold written. rewrite <- glyph_at_adv by auto. reflexivity.
  - rewrite (D p Ny). now destruct (look b p).
Qed.

Lemma fold_redrawn {A} (f : buffer -> A -> outcome buffer) (g : A -> pos -> cell -> cell) (l : list A) : forall b, wf_buffer b ->
  (forall a b1, In a l -> wf_buffer b1 -> barea b1 = barea b -> exists b2, f b1 a = Ret b2 /\ redrawn (g a) b1 b2) ->
  exists b', ofold f l b = Ret b' /\ redrawn (fun p c => fold_left (fun c a => g a p c) l c) b b'.
Proof.
  induction l as [|a l IH]; intros b W H; cbn [ofold fold_left].
  - exists b. split; [reflexivity|]. now apply redrawn_refl.
  - destruct (H a b (or_introl eq_refl) W eq_refl) as (b1 & -> & R1). cbn [bind]. destruct (IH b1 (redrawn_wf _ _ _ R1)) as (b2 & -> & R2).
    + intros a' b3 I W3 A3. apply H; [now right|exact W3|]. rewrite A3. apply (redrawn_area _ _ _ R1).
    + exists b2. split; [reflexivity|]. exact (redrawn_trans _ _ _ _ _ R1 R2).
Qed.
Lemma fold_row (g : Z -> cell -> cell) y py0 h (H : 0 <= h) c : fold_left (fun c j => if py0 =? y + j then g j c else c) (zrange 0 h) c = if (y <=? py0) && (py0 <? y + h) then g (py0 - y) c else c.
Proof.
  assert (Gen : forall n lo c, fold_left (fun c j => if py0 =? y + j then g j c else c) (zrange lo (lo + Z.of_nat n)) c = if (y + lo <=? py0) && (py0 <? y + lo + Z.of_nat n) then g (py0 - y) c else c).
  { induction n as [|n IH]; intros lo c0.
    - rewrite zrange_nil by lia. cbn [fold_left]. replace ((_ <=? _) && _) with false; [reflexivity|]. symmetry. apply andb_false_iff. rewrite Z.leb_gt, Z.ltb_ge. lia.
    - rewrite zrange_cons by lia. cbn [fold_left]. replace (lo + Z.of_nat (S n)) with (lo + 1 + Z.of_nat n) by lia. rewrite IH. destruct (Z.eqb_spec py0 (y + lo)) as [->|Ne].
      + replace (y + (lo + 1) <=? y + lo) with false by (symmetry; apply Z.leb_gt; lia). cbn [andb]. replace (y + lo <=? y + lo) with true by (symmetry; apply Z.leb_le; lia). replace (y + lo <? y + lo + Z.of_nat (S n)) with true by (symmetry; apply Z.ltb_lt; lia). cbn [andb]. f_equal. lia.
      + replace (y + (lo + 1) <=? py0) with (y + lo <=? py0); [replace (y + (lo + 1) + Z.of_nat n) with (y + lo + Z.of_nat (S n)) by lia; reflexivity|]. destruct (Z.leb_spec (y + lo) py0), (Z.leb_spec (y + (lo + 1)) py0); auto; lia. }
  specialize (Gen (Z.to_nat h) 0 c). rewrite Z2Nat.id in Gen by lia. rewrite !Z.add_0_r in Gen. exact Gen.
Qed.

Section Items.
Variables (u : uniseg) (l : lst) (area : rect).
Hypothesis Hu : uniseg_ok u.
Hypothesis Hb : blanks_apart u.
Hypothesis Hm : forall c, In c (clusters u (ls_hl_symbol l)) -> 1 <= cwidth u c.
Hypothesis Hw : widths u (clusters u (ls_hl_symbol l)) <= rw area.
Hypothesis Hpos : 0 < rw area.
Let marker := ls_hl_symbol l.
Let w := string_width u marker.
Lemma w_pos : 0 <= w. Proof. apply string_width_nonneg, (cwidth_nonneg _ Hu). Qed.
Lemma blank_clusters : clusters u (spaces w) = repeat [32%N] (Z.to_nat w). Proof. apply Hb. Qed.
Lemma blank_width n : widths u (repeat [32%N] n) = Z.of_nat n.
Proof. unfold widths. induction n as [|n IH]; [reflexivity|]. cbn [repeat map]. rewrite zsum_cons, IH, (proj1 Hb). lia. Qed.

Lemma draw_item_cells selected cur b i item : wf_buffer b -> 0 <= cur -> cur + text_height item <= rh area -> (forall p, inside p area -> inside p (barea b)) ->
  (forall ln, In ln (tx_lines item) -> visible_line u (ln_spans ln)) ->
  let row := rows_of (ls_dir l) area cur (text_height item) in
  exists b', draw_item u l area selected (cur, b) (i, item) = Ret (cur + text_height item, b') /\
    redrawn (fun p c => if contains row p then item_cell u l (is_chosen selected i) (keeps_column l selected) item (rw area) (px p - rx row) (py p - ry row) c else c) b b'.
Proof.
  intros W Hc Hh Hin Hv row. unfold draw_item. cbv zeta.
  set (h := text_height item) in *. assert (H0 : 0 <= h) by (unfold h, text_height; apply zlen_nonneg).
  set (y := match ls_dir l with BottomToTop => _ | TopToBottom => _ end).
  assert (Erow : Rect (rleft area) y (rw area) h = row).
  { unfold row, rows_of, y, rleft, rtop, rbottom. destruct (ls_dir l); reflexivity. }
  rewrite Erow. assert (Hrow : rx row = rx area /\ ry row = y /\ rw row = rw area /\ rh row = h) by (rewrite <- Erow; auto).
  assert (Hra : forall p, inside p row -> inside p area).
  { intros p Hp. unfold row, rows_of, inside in *. destruct (ls_dir l); cbn [rx ry rw rh] in Hp; lia. }
  clearbody row. destruct Hrow as (Rx & Ry & Rw & Rh).
  set (st := patched (ls_style l) (tx_style item)).
  destruct (set_style_redrawn b row st W) as (b1 & -> & R1). cbn [bind].
  assert (Ec : should_add (ls_spacing l) (match selected with Some _ => true | None => false end) = keeps_column l selected).
  { unfold should_add, keeps_column. destruct (ls_spacing l), selected; reflexivity. }
  rewrite Ec. set (column := keeps_column l selected). fold marker w. pose proof w_pos as Hw0.
  set (wc := if column then w else 0). assert (Hwc : 0 <= wc <= rw area) by (assert (Hww : w <= rw area) by exact Hw; unfold wc; clearbody w; destruct column; lia).
  (* the text *)
  set (TA := if column then Rect (rx row + w) (ry row) (Z.max 0 (rw row - w)) (rh row) else row).
  assert (ETA : rx TA = rx area + wc /\ ry TA = y /\ rw TA = rw area - wc /\ rh TA = h) by (unfold TA, wc in *; destruct column; cbn [rx ry rw rh]; lia).
  destruct ETA as (Tx & Ty & Tw & Th).
  assert (E2 : exists b2, text_render u item TA b1 = Ret b2 /\ redrawn (fun p c => if contains TA p then let c := cell_set_style (tx_style item) c in
       match nth_error (tx_lines item) (Z.to_nat (py p - y)) with Some ln => line_in u (tx_align item) (rw area - wc) (px p - rx area - wc) ln c | None => c end else c) b1 b2).
  { pose proof (redrawn_area _ _ _ R1) as A1. destruct (Z.eq_dec (rw TA) 0) as [Z0|Nz]; [|destruct (Z.eq_dec h 0) as [Z1|Nz1]].
    1,2: destruct (C17_text_stays_inside u item TA b1 Hu (redrawn_wf _ _ _ R1)) as (b2 & E & (A2 & W2 & C2)); exists b2; split; [exact E|]; split; [exact A2|]; split; [exact W2|]; intros p;
      assert (Np : ~ inside p TA) by (unfold inside; lia); rewrite C2 by tauto; rewrite (proj2 (contains_false TA p) Np); now destruct (look b1 p).
    assert (InTA : forall p, inside p TA -> inside p (barea b1)). { intros p Hp. rewrite A1. apply Hin, Hra. unfold inside in *. lia. }
    assert (Wi : within TA (barea b1)).
    { pose proof (InTA (Pos (rx TA) (ry TA))) as P1. pose proof (InTA (Pos (rx TA + rw TA - 1) (ry TA + rh TA - 1))) as P2. unfold inside, within, rright, rbottom in *. cbn [px py] in *. lia. }
    assert (EI : intersection TA (barea b1) = TA) by (apply intersection_within; [exact Wi|unfold sized; lia]).
    pose proof (C18_text_placement u item TA b1 Hu (redrawn_wf _ _ _ R1) Hv) as P. cbv zeta in P. rewrite EI in P. destruct (P ltac:(lia) ltac:(lia)) as (b2 & E & A2 & P1 & P2).
    destruct (C17_text_stays_inside u item TA b1 Hu (redrawn_wf _ _ _ R1)) as (b2' & E' & (_ & W2 & _)). rewrite E in E'. injection E' as <-.
    exists b2. split; [exact E|]. split; [exact A2|]. split; [exact W2|]. intros p. destruct (contains TA p) eqn:Ep.
    - apply contains_inside in Ep. rewrite (P1 p Ep). rewrite Ty, Tw, Tx. destruct (look b1 p); [|reflexivity]. cbn. f_equal. destruct (nth_error _ _); [|reflexivity]. unfold line_cell, line_in. replace (px p - (rx area + wc)) with (px p - rx area - wc) by lia. reflexivity.
    - apply contains_false in Ep. rewrite (P2 p Ep). now destruct (look b1 p). }
  destruct E2 as (b2 & -> & R2). cbn [bind]. pose proof (redrawn_trans _ _ _ _ _ R1 R2) as R12. clear R1 R2 b1.
  (* the marker *)
  set (chosen := match selected with Some s => s =? i | None => false end). change (is_chosen selected i) with chosen.
  set (mark := fun j : Z => if chosen && ((j =? 0) || ls_repeat l) then marker else spaces w).
  assert (E3 : exists b3, (if column then ofold (fun b j => let! (b, _) := set_string_n u b (rleft area) (y + j) (mark j) (rw area) st in Ret b) (zrange 0 h) b2 else Ret b2) = Ret b3 /\
    redrawn (fun p c => if column && (y <=? py p) && (py p <? y + h) then written u st (clusters u (mark (py p - y))) (px p - rx area) c else c) b2 b3).
  { destruct column; [|exists b2; split; [reflexivity|]; eapply redrawn_ext; [|apply redrawn_refl; exact (redrawn_wf _ _ _ R12)]; reflexivity].
    destruct (fold_redrawn (fun b j => let! (b, _) := set_string_n u b (rleft area) (y + j) (mark j) (rw area) st in Ret b) (fun j p c => if py p =? y + j then written u st (clusters u (mark j)) (px p - rx area) c else c) (zrange 0 h) b2 (redrawn_wf _ _ _ R12)) as (b3 & E3 & R3).
    - intros j b1 Ij W1 A1. apply zrange_In in Ij. rewrite (redrawn_area _ _ _ R12) in A1.
      assert (Hp : inside (Pos (rleft area) (y + j)) (barea b1)) by (rewrite A1; apply Hin, Hra; unfold inside, rleft; cbn [px py]; lia).
      assert (Hr : rleft area + rw area <= rx (barea b1) + rw (barea b1)).
      { pose proof (Hin (Pos (rx area + rw area - 1) (y + j))) as Q. rewrite A1. unfold rleft. assert (inside (Pos (rx area + rw area - 1) (y + j)) area) by (apply Hra; unfold inside; cbn [px py]; lia). specialize (Q H). unfold inside in Q. cbn [px py] in Q. lia. }
      assert (Hmk : (forall c, In c (clusters u (mark j)) -> 1 <= cwidth u c) /\ widths u (clusters u (mark j)) <= rw area).
      { unfold mark. destruct (chosen && _); [split; [exact Hm|exact Hw]|]. rewrite blank_clusters, blank_width. split; [|unfold wc in Hwc; lia]. intros c I. apply repeat_spec in I. subst c. rewrite (proj1 Hb). lia. }
      destruct (set_string_redrawn u b1 (rleft area) (y + j) (mark j) (rw area) st W1 Hp (proj1 Hmk) (proj2 Hmk) Hr) as (b1' & x' & E & R). rewrite E. cbn [bind]. exists b1'. split; [reflexivity|exact R].
    - exists b3. split; [exact E3|]. eapply redrawn_ext; [|exact R3]. intros p c _. cbv beta. rewrite (fold_row (fun j c => written u st (clusters u (mark j)) (px p - rx area) c) y (py p) h H0 c). reflexivity. }
  destruct E3 as (b3 & E3 & R3). unfold mark in E3. rewrite E3. cbn [bind]. pose proof (redrawn_trans _ _ _ _ _ R12 R3) as R123. clear R12 R3 E3 b2.
  destruct (set_style_redrawn b3 row (ls_hl_style l) (redrawn_wf _ _ _ R123)) as (b4 & E4 & R4).
  assert (R5 : redrawn (fun p c => if contains row p && chosen then cell_set_style (ls_hl_style l) c else c) b3 (if chosen then b4 else b3)).
  { destruct chosen; [eapply redrawn_ext; [|exact R4]; intros p c _; cbv beta; now rewrite andb_true_r|]. eapply redrawn_ext; [|apply redrawn_refl; exact (redrawn_wf _ _ _ R123)]. intros p c _. cbv beta. now rewrite andb_false_r. }
  exists (if chosen then b4 else b3). split; [destruct chosen; [rewrite E4|]; reflexivity|].
  eapply redrawn_ext; [|exact (redrawn_trans _ _ _ _ _ R123 R5)]. intros p c _. cbv beta.
  destruct (contains row p) eqn:Ep; cbn [andb].
  - apply contains_inside in Ep. assert (Ip : rx area <= px p < rx area + rw area /\ y <= py p < y + h) by (unfold inside in Ep; lia).
    unfold item_cell. cbv zeta. fold st marker. change (widths u (clusters u marker)) with w. fold wc.
    replace ((y <=? py p) && (py p <? y + h)) with true by (symmetry; apply andb_true_iff; rewrite Z.leb_le, Z.ltb_lt; lia).
    replace (column && (y <=? py p) && (py p <? y + h)) with column by (rewrite <- andb_assoc; replace ((y <=? py p) && (py p <? y + h)) with true by (symmetry; apply andb_true_iff; rewrite Z.leb_le, Z.ltb_lt; lia); now rewrite andb_true_r).
    rewrite Rx, Ry. replace (px p - rx area <? wc) with (negb (contains TA p)).
    2:{ destruct (contains TA p) eqn:Et; cbn [negb]; symmetry; [apply contains_inside in Et; apply Z.ltb_ge|apply contains_false in Et; apply Z.ltb_lt]; unfold inside in Et; lia. }
    destruct (contains TA p) eqn:Et; cbn [negb].
    + apply contains_inside in Et. assert (Hx : wc <= px p - rx area) by (unfold inside in Et; lia).
      assert (No : forall c, (if column then written u st (clusters u (mark (py p - y))) (px p - rx area) c else c) = c).
      { intros c0. destruct column eqn:Eq; [|reflexivity]. unfold written. replace (glyph_at _ _ _) with (@None glyph); [reflexivity|]. symmetry. apply glyph_at_none.
        - unfold mark. destruct (chosen && _); [exact Hm|]. rewrite blank_clusters. intros c1 I. apply repeat_spec in I. subst c1. rewrite (proj1 Hb). lia.
        - fold (widths u (clusters u (mark (py p - y)))). unfold mark. destruct (chosen && _); [change (widths u (clusters u marker)) with w|rewrite blank_clusters, blank_width]; unfold wc in Hx; lia. }
      rewrite No. destruct chosen; reflexivity.
    + apply contains_false in Et. assert (Hx : px p - rx area < wc) by (unfold inside in Et; lia). assert (Eq : column = true) by (unfold wc in Hx; destruct column; [reflexivity|lia]). rewrite Eq.
      replace (clusters u (mark (py p - y))) with (if chosen && ((py p - y =? 0) || ls_repeat l) then clusters u marker else repeat [32%N] (Z.to_nat wc)); [destruct chosen; reflexivity|].
      unfold mark, wc. rewrite Eq. destruct (chosen && _); [reflexivity|now rewrite blank_clusters].
  - apply contains_false in Ep. assert (Et : contains TA p = false). { apply contains_false. intros I. apply Ep. unfold inside in *. lia. } rewrite Et.
    destruct column; [|reflexivity]. cbn [andb]. destruct ((y <=? py p) && (py p <? y + h)) eqn:Ey; [|reflexivity]. apply andb_true_iff in Ey. rewrite Z.leb_le, Z.ltb_lt in Ey.
    unfold written. replace (glyph_at _ _ _) with (@None glyph); [reflexivity|]. symmetry.
    assert (V1 : forall c0, In c0 (clusters u (mark (py p - y))) -> 1 <= cwidth u c0).
    { unfold mark. destruct (chosen && _); [exact Hm|]. rewrite blank_clusters. intros c1 I. apply repeat_spec in I. subst c1. rewrite (proj1 Hb). lia. }
    apply glyph_at_none; [exact V1|]. fold (widths u (clusters u (mark (py p - y)))).
    assert (widths u (clusters u (mark (py p - y))) <= rw area). { unfold mark. destruct (chosen && _); [exact Hw|]. rewrite blank_clusters, blank_width. unfold wc in Hwc. lia. }
    unfold inside in Ep. lia.
Qed.

Lemma draw_items_cells selected items : (forall item ln, In item items -> In ln (tx_lines item) -> visible_line u (ln_spans ln)) ->
  forall first cur b, wf_buffer b -> 0 <= cur -> cur + zsum (map text_height items) <= rh area -> (forall p, inside p area -> inside p (barea b)) ->
  exists cur' b', ofold (draw_item u l area selected) (indexed first items) (cur, b) = Ret (cur', b') /\
    changed_only (fun p => inside p (rows_of (ls_dir l) area cur (zsum (map text_height items)))) b b' /\
    (forall k item p, nth_error items k = Some item ->
       let row := rows_of (ls_dir l) area (cur + zsum (map text_height (firstn k items))) (text_height item) in inside p row ->
       look b' p = option_map (item_cell u l (is_chosen selected (first + Z.of_nat k)) (keeps_column l selected) item (rw area) (px p - rx row) (py p - ry row)) (look b p)) /\
    (forall p, (forall k item, nth_error items k = Some item -> ~ inside p (rows_of (ls_dir l) area (cur + zsum (map text_height (firstn k items))) (text_height item))) -> look b' p = look b p).
Proof.
  intros Hv. induction items as [|item items IH]; intros first cur b W Hc Hh Hin; cbn [indexed ofold].
  - exists cur, b. split; [reflexivity|]. split; [now apply changed_only_refl|]. split; [|auto]. intros [|k] item p E; discriminate.
  - cbn [map] in *. rewrite zsum_cons in *.
    assert (H0 : 0 <= text_height item) by apply zlen_nonneg.
    assert (H1 : 0 <= zsum (map text_height items)).
    { apply zsum_nonneg. intros z Hz. apply in_map_iff in Hz. destruct Hz as (t & <- & _). apply zlen_nonneg. }
    destruct (draw_item_cells selected cur b first item W Hc ltac:(lia) Hin ltac:(intros; apply (Hv item); [now left|assumption])) as (b1 & -> & R1). cbn [bind].
    assert (A1 : barea b1 = barea b) by apply R1.
    destruct (IH ltac:(intros it ln I; apply (Hv it ln); now right) (first + 1) (cur + text_height item) b1) as (cur' & b2 & E & C2 & S2 & O2); [apply R1|lia|lia|now rewrite A1|].
    exists cur', b2. split; [exact E|]. split; [|split].
    + assert (C1 : changed_only (fun p => inside p (rows_of (ls_dir l) area cur (text_height item))) b b1).
      { eapply redrawn_only; [|exact R1]. intros p c Np. cbv beta. now rewrite (proj2 (contains_false _ p) Np). }
      eapply changed_only_trans; (eapply changed_only_weaken; [|eassumption]); cbv beta; intros p; unfold rows_of, inside; destruct (ls_dir l); cbn [rx ry rw rh]; lia.
    + intros [|k] it p Ei; cbv zeta; intros Hp.
      * injection Ei as <-. cbn [firstn map] in *. change (zsum []) with 0 in *. rewrite !Z.add_0_r in *. destruct C2 as (_ & _ & C2). rewrite C2.
        -- destruct R1 as (_ & _ & R1). rewrite R1. cbv zeta in *. apply contains_inside in Hp. destruct (look b p); [|reflexivity]. cbn [option_map]. f_equal. now rewrite Hp.
        -- intros Hp2. revert Hp Hp2. unfold rows_of, inside; destruct (ls_dir l); cbn [rx ry rw rh]; lia.
      * cbn [nth_error firstn map] in *. rewrite zsum_cons in *. cbv zeta in S2.
        replace (cur + (text_height item + zsum (map text_height (firstn k items)))) with (cur + text_height item + zsum (map text_height (firstn k items))) in * by lia.
        rewrite (S2 k it p Ei Hp). replace (first + 1 + Z.of_nat k) with (first + Z.of_nat (S k)) by lia. destruct R1 as (_ & _ & R1). rewrite R1.
        assert (Np : ~ inside p (rows_of (ls_dir l) area cur (text_height item))).
        { assert (0 <= zsum (map text_height (firstn k items))) by (apply zsum_nonneg; intros z Hz; apply in_map_iff in Hz; destruct Hz as (t & <- & _); apply zlen_nonneg).
          intros Hp2. revert Hp Hp2. unfold rows_of, inside; destruct (ls_dir l); cbn [rx ry rw rh]; lia. }
        destruct (look b p); [|reflexivity]. cbn [option_map]. now rewrite (proj2 (contains_false _ p) Np).
    + intros p No. rewrite O2.
      * destruct R1 as (_ & _ & R1). rewrite R1. specialize (No O item eq_refl). cbn [firstn map] in No. change (zsum []) with 0 in No. rewrite Z.add_0_r in No. rewrite (proj2 (contains_false _ p) No). now destruct (look b p).
      * intros k it Ei. specialize (No (S k) it Ei). cbn [firstn map] in No. rewrite zsum_cons, Z.add_assoc in No. exact No.
Qed.
End Items.

(** ** C97 *)

Lemma list_cells : forall u l area b s,
  uniseg_ok u -> blanks_apart u -> wf_buffer b -> sized area -> 0 <= rx area -> opt_padded (ls_block l) -> (forall p, inside p area -> inside p (barea b)) ->
  0 <= ls_padding l -> 0 <= st_offset s -> (forall i, st_selected s = Some i -> 0 <= i) ->
  (forall c, In c (clusters u (ls_hl_symbol l)) -> 1 <= cwidth u c) -> (forall item ln, In item (ls_items l) -> In ln (tx_lines item) -> visible_line u (ln_spans ln)) ->
  let A := opt_block_inner (ls_block l) area in
  widths u (clusters u (ls_hl_symbol l)) <= rw A -> 0 < rw A -> 0 < rh A -> ls_items l <> [] ->
  exists b0 b' s' last, list_render u (without_items l) area b s = Ret (b0, s) /\ list_render u l area b s = Ret (b', s') /\ barea b' = barea b /\
    st_selected s' = option_map (Z.min (zlen (ls_items l) - 1)) (st_selected s) /\
    let first := st_offset s' in let row i item := rows_of (ls_dir l) A (zsum (map text_height (slice (ls_items l) first i))) (text_height item) in
    get_items_bounds (map text_height (ls_items l)) (ls_padding l) (st_selected s') (st_offset s) (rh A) = Ret (first, last) /\
    0 <= first <= last /\ last <= zlen (ls_items l) /\ zsum (map text_height (slice (ls_items l) first last)) <= rh A /\
    (forall i item, st_selected s' = Some i -> nth_error (ls_items l) (Z.to_nat i) = Some item -> text_height item <= rh A -> first <= i < last) /\
    (forall i item p, first <= i < last -> nth_error (ls_items l) (Z.to_nat i) = Some item -> inside p (row i item) ->
       look b' p = option_map (item_cell u l (is_chosen (st_selected s') i) (keeps_column l (st_selected s')) item (rw A) (px p - rx (row i item)) (py p - ry (row i item))) (look b0 p)) /\
    (forall p, (forall i item, first <= i < last -> nth_error (ls_items l) (Z.to_nat i) = Some item -> ~ inside p (row i item)) -> look b' p = look b0 p).
Proof.
  intros u l area b s Hu Hbl W Hs Hx Hk Hin Hpad Hoff Hsel Hmk Hvis A Hwm Hw Hh Hne. unfold list_render. cbn [without_items ls_style ls_block ls_items].
  destruct (set_style_redrawn b area (ls_style l) W) as (b1 & -> & R1). cbn [bind].
  assert (C1 : changed_only (fun p => inside p area) b b1).
  { eapply redrawn_only; [|exact R1]. intros p c Hp. cbn. apply contains_false in Hp. now rewrite Hp. }
  assert (A1 := redrawn_area _ _ _ R1).
  destruct (opt_block_ok u (ls_block l) area b1 Hu (redrawn_wf _ _ _ R1) Hs Hx Hk ltac:(now rewrite A1)) as (b2 & -> & C2 & HA & SA). cbn [bind].
  pose proof (changed_only_trans _ _ _ _ C1 C2) as C. clear C1 C2 R1 A1 b1. fold A in HA, SA. fold A.
  assert (A2 : barea b2 = barea b) by apply C.
  rewrite (orb_true_r (rect_is_empty A) : rect_is_empty A || (zlen (@nil text) =? 0) = true).
  set (N := zlen (ls_items l)) in *. assert (HN : 0 < N) by (unfold N; destruct (ls_items l); [congruence|rewrite zlen_cons; match goal with |- context [zlen ?x] => pose proof (zlen_nonneg x) end; lia]).
  assert (Ee : rect_is_empty A || (N =? 0) = false).
  { apply orb_false_iff. split; [|apply Z.eqb_neq; lia]. unfold rect_is_empty. apply orb_false_iff. rewrite !Z.eqb_neq. lia. }
  rewrite Ee.
  set (s1 := match st_selected s with Some i => if i >=? N then st_select s (Z.max 0 (N - 1)) else s | None => s end).
  assert (S1 : st_offset s1 = st_offset s /\ st_selected s1 = option_map (Z.min (N - 1)) (st_selected s)).
  { unfold s1. destruct (st_selected s) as [i|] eqn:Es; [|now rewrite Es]. rewrite Z.geb_leb. destruct (Z.leb_spec N i); cbn.
    - split; [auto|]. f_equal. lia.
    - rewrite Es. split; [auto|]. f_equal. lia. }
  destruct S1 as [So Ss].
  destruct (C23_window_shows_selection (map text_height (ls_items l)) (ls_padding l) (st_selected s1) (st_offset s1) (rh A)) as (f & k & Eb & F1 & F2 & F3 & F4).
  { intros E. apply map_eq_nil in E. congruence. }
  { intros h Hh'. apply in_map_iff in Hh'. destruct Hh' as (t & <- & _). apply zlen_nonneg. }
  { lia. } { lia. } { lia. }
  { rewrite zlen_map. fold N. intros i Ei. rewrite Ss in Ei. destruct (st_selected s) as [i0|] eqn:Es; [|discriminate]. cbn in Ei. injection Ei as <-.
    specialize (Hsel i0 eq_refl). lia. }
  rewrite Eb. cbn [bind st_selected]. rewrite zlen_map in F2. fold N in F2. fold (@slice Z) in F3.
  set (shown := slice (ls_items l) f k).
  assert (Eshown : (let! rest := skip (ls_items l) f in take rest (k - f)) = Ret shown).
  { unfold skip. fold N. rewrite Z.geb_leb. destruct (Z.leb_spec N f) as [Hf|Hf].
    - cbn [bind]. unfold take, shown, slice. rewrite zlen_nil. replace (Z.min (k - f) 0) with 0 by lia. cbn.
      replace (Z.to_nat (k - f)) with O by lia. reflexivity.
    - replace (f <? 0) with false by (symmetry; apply Z.ltb_ge; lia). cbn [bind]. unfold take, shown, slice.
      assert (El : zlen (skipn (Z.to_nat f) (ls_items l)) = N - f) by (unfold zlen in *; rewrite skipn_length; unfold N; lia).
      rewrite El. rewrite Z.min_l by lia. replace (k - f <? 0) with false by (symmetry; apply Z.ltb_ge; lia). reflexivity. }
  destruct (skip (ls_items l) f) as [rest|]; [|discriminate]. cbn [bind] in Eshown |- *. rewrite Eshown. cbn [bind].
  assert (Esum : zsum (map text_height shown) <= rh A).
  { unfold shown. unfold slice in F3. rewrite skipn_map, firstn_map in F3. exact F3. }
  destruct (draw_items_cells u l A Hu Hbl Hmk Hwm Hw (st_selected s1) shown) with (first := f) (cur := 0) (b := b2) as (cur & b3 & -> & C3 & D1 & D2).
  { intros item ln I. apply Hvis. unfold shown, slice in I. rewrite <- (firstn_skipn (Z.to_nat f) (ls_items l)). apply in_or_app. right.
    rewrite <- (firstn_skipn (Z.to_nat (k - f)) (skipn _ _)). apply in_or_app. now left. }
  { apply C. } { lia. } { lia. } { intros p Hp. rewrite A2. auto. }
  cbn [bind]. eexists b2, b3, _, k. split; [reflexivity|]. split; [reflexivity|]. split; [destruct C3 as (-> & _); exact A2|]. cbn [st_selected st_offset].
  split; [exact Ss|]. cbv zeta.
  assert (Nth : forall i, f <= i < k -> nth_error shown (Z.to_nat (i - f)) = nth_error (ls_items l) (Z.to_nat i)).
  { intros i Hi. unfold shown, slice. rewrite <- (firstn_skipn (Z.to_nat f) (ls_items l)) at 2.
    assert (Hlen : length (firstn (Z.to_nat f) (ls_items l)) = Z.to_nat f) by (rewrite firstn_length; unfold N, zlen in F2; lia).
    rewrite nth_error_app2 by lia. rewrite Hlen. replace (Z.to_nat i - Z.to_nat f)%nat with (Z.to_nat (i - f)) by lia.
    rewrite <- (firstn_skipn (Z.to_nat (k - f)) (skipn _ _)) at 2. rewrite nth_error_app1; [reflexivity|].
    rewrite firstn_length, skipn_length. unfold N, zlen in *. lia. }
  assert (Epre : forall i, f <= i < k -> firstn (Z.to_nat (i - f)) shown = slice (ls_items l) f i).
  { intros i Hi. unfold shown, slice. rewrite firstn_firstn. f_equal. lia. }
  split; [rewrite <- So; exact Eb|]. split; [exact F1|]. split; [exact F2|]. split; [exact Esum|]. split; [|split].
  - intros i item Ei Eit Hit. apply (F4 i (text_height item) Ei); [now apply map_nth_error|exact Hit].
  - intros i item p Hi Eit Hp. rewrite <- (Nth i Hi) in Eit. pose proof (D1 (Z.to_nat (i - f)) item p Eit) as Q. cbv zeta in Q. rewrite (Epre i Hi), Z.add_0_l in Q.
    specialize (Q Hp). replace (f + Z.of_nat (Z.to_nat (i - f))) with i in Q by lia. exact Q.
  - intros p No. apply D2. intros k' item Ek. assert (Hk' : (k' < length shown)%nat) by (apply nth_error_Some; congruence).
    assert (Hk2 : f <= f + Z.of_nat k' < k) by (unfold shown, slice in Hk'; rewrite firstn_length in Hk'; lia).
    specialize (No (f + Z.of_nat k') item Hk2). rewrite <- (Nth _ Hk2), <- (Epre _ Hk2) in No. replace (Z.to_nat (f + Z.of_nat k' - f)) with k' in No by lia. rewrite Z.add_0_l. apply (No Ek).
Qed.
(** A list with room shows a range of its items, one below the other from the top or one above the other from the bottom, each in as many rows as it has
    lines and with exactly the cells it should have, over what the list without its items would have drawn; nothing else is drawn.  The selected item is
    among those shown if it fits at all. *)
Theorem C97_list_cells : forall u l area b s,
  uniseg_ok u -> blanks_apart u -> wf_buffer b -> sized area -> 0 <= rx area -> opt_padded (ls_block l) -> (forall p, inside p area -> inside p (barea b)) ->
  0 <= ls_padding l -> 0 <= st_offset s -> (forall i, st_selected s = Some i -> 0 <= i) ->
  (forall c, In c (clusters u (ls_hl_symbol l)) -> 1 <= cwidth u c) -> (forall item ln, In item (ls_items l) -> In ln (tx_lines item) -> visible_line u (ln_spans ln)) ->
  let A := opt_block_inner (ls_block l) area in
  widths u (clusters u (ls_hl_symbol l)) <= rw A -> 0 < rw A -> 0 < rh A -> ls_items l <> [] ->
  exists b0 b' s' last, list_render u (without_items l) area b s = Ret (b0, s) /\ list_render u l area b s = Ret (b', s') /\ barea b' = barea b /\
    st_selected s' = option_map (Z.min (zlen (ls_items l) - 1)) (st_selected s) /\
    let first := st_offset s' in let row i item := rows_of (ls_dir l) A (zsum (map text_height (slice (ls_items l) first i))) (text_height item) in
    0 <= first <= last /\ last <= zlen (ls_items l) /\ zsum (map text_height (slice (ls_items l) first last)) <= rh A /\
    (forall i item, st_selected s' = Some i -> nth_error (ls_items l) (Z.to_nat i) = Some item -> text_height item <= rh A -> first <= i < last) /\
    (forall i item p, first <= i < last -> nth_error (ls_items l) (Z.to_nat i) = Some item -> inside p (row i item) ->
       look b' p = option_map (item_cell u l (is_chosen (st_selected s') i) (keeps_column l (st_selected s')) item (rw A) (px p - rx (row i item)) (py p - ry (row i item))) (look b0 p)) /\
    (forall p, (forall i item, first <= i < last -> nth_error (ls_items l) (Z.to_nat i) = Some item -> ~ inside p (row i item)) -> look b' p = look b0 p).
Proof.
  intros u l area b s H1 H2 H3 H4 H5 H6 H7 H8 H9 H10 H11 H12 A H13 H14 H15 H16.
  destruct (list_cells u l area b s H1 H2 H3 H4 H5 H6 H7 H8 H9 H10 H11 H12 H13 H14 H15 H16) as (b0 & b' & s' & last & E0 & E & Ea & Es & _ & R). exists b0, b', s', last. auto.
Qed.
Print Assumptions C97_list_cells.

(** Three items of one, two and one lines, the second selected, in an area of three rows: the marker is repeated, the window starts at the first item. *)
Definition rich_list : lst :=
  Lst [one_line [97%N]; new_text [new_line_str [98%N]; new_line_str [99%N]]; one_line [100%N]] None (reversed new_style) BottomToTop (underlined new_style) [62%N] true SpacingAlways 0.
Example C97_instance : blanks_apart simple_uniseg /\ (forall c, In c (clusters simple_uniseg (ls_hl_symbol rich_list)) -> 1 <= cwidth simple_uniseg c) /\
  (forall item ln, In item (ls_items rich_list) -> In ln (tx_lines item) -> visible_line simple_uniseg (ln_spans ln)) /\
  omap (fun r => (symbols (fst r), snd r)) (list_render simple_uniseg rich_list (Rect 0 0 3 3) (demo_buffer 3 3) (ListState 0 (Some 1))) =
  Ret ([[62%N]; [98%N]; [32%N]; [62%N]; [99%N]; [32%N]; [32%N]; [97%N]; [32%N]], ListState 0 (Some 1)).
Proof.
  split; [split; [reflexivity|]; intros n; cbn; induction n as [|n IH]; [reflexivity|cbn; now rewrite IH]|]. split; [intros c [<-|[]]; vm_compute; discriminate|].
  split; [|vm_compute; reflexivity].
  intros item ln [<-|[<-|[<-|[]]]] I; cbn in I; repeat (destruct I as [<-|I]; [intros s c [<-|[]] J; cbn in J; repeat (destruct J as [<-|J]; [split; [vm_compute; discriminate|reflexivity]|]); destruct J|]); destruct I.
Qed.
