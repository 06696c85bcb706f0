(** C18 for characters of no width: they follow the character before them. *)
From Verif Require Import Base M_Geom S_Geom M_Style M_Uniseg M_Buffer S_Buffer S_Text M_Text S_Line S_Combining P_Base T_Geom P_Buffer P_SetString P_Text T_Text.
From Coq Require Import ZArith NArith List Bool Lia.
Import ListNotations.
Open Scope Z_scope.

(** Characters that take one column or none and are shown. *)
Definition thin (u : uniseg) (gs : list (str * style)) : Prop := forall c st, In (c, st) gs -> 0 <= cwidth u c <= 1 /\ string_width u c = cwidth u c.
Lemma in_column_cons k i c l : in_column k ((i, c) :: l) = if i =? k then c :: in_column k l else in_column k l.
Proof. unfold in_column. cbn [filter fst]. destruct (i =? k); reflexivity. Qed.
Lemma symbol_changed b b' p f q : changed_exactly (fun q => q = p) (fun _ => f) b b' ->
  symbol_at b' q = (if (px q =? px p) && (py q =? py p) then match look b q with Some c => csym (f c) | None => [] end else symbol_at b q).
Proof.
  intros (_ & _ & C & D). unfold symbol_at. destruct (Z.eqb_spec (px q) (px p)) as [E|E]; cbn [andb].
  - destruct (Z.eqb_spec (py q) (py p)) as [F|F].
    + rewrite C by (destruct p, q; cbn in *; congruence). destruct (look b q); reflexivity.
    + rewrite D by (intros ->; lia). reflexivity.
  - rewrite D by (intros ->; lia). reflexivity.
Qed.

Section Loop.
Variable u : uniseg.
Variable area : rect.
Notation at_ b k := (symbol_at b (Pos (rx area + k) (ry area))).
Lemma set_at b b' i st sym k : wf_buffer b -> inside (Pos (rx area + i) (ry area)) (barea b) ->
  changed_exactly (fun q => q = Pos (rx area + i) (ry area)) (fun _ c => cell_set_style st (cell_set_symbol sym c)) b b' -> at_ b' k = if i =? k then sym else at_ b k.
Proof.
  intros W H K. rewrite (symbol_changed _ _ _ _ _ K). cbn [px py]. rewrite Z.eqb_refl, andb_true_r. destruct (Z.eqb_spec i k) as [->|E].
  - rewrite Z.eqb_refl. destruct (look_inside _ _ W H) as [c ->]. now destruct c.
  - replace (rx area + k =? rx area + i) with false by (symmetry; apply Z.eqb_neq; lia). reflexivity.
Qed.
Lemma append_at b b' i st sym k : wf_buffer b -> inside (Pos (rx area + i) (ry area)) (barea b) ->
  changed_exactly (fun q => q = Pos (rx area + i) (ry area)) (fun _ c => cell_set_style st (cell_append_symbol sym c)) b b' -> at_ b' k = if i =? k then at_ b k ++ sym else at_ b k.
Proof.
  intros W H K. rewrite (symbol_changed _ _ _ _ _ K). cbn [px py]. rewrite Z.eqb_refl, andb_true_r. destruct (Z.eqb_spec i k) as [->|E].
  - rewrite Z.eqb_refl. unfold symbol_at. destruct (look_inside _ _ W H) as [c ->]. now destruct c.
  - replace (rx area + k =? rx area + i) with false by (symmetry; apply Z.eqb_neq; lia). reflexivity.
Qed.
Lemma no_hidden y x w b : w <= 1 -> ofold (fun b x' => upd_cell b (Pos x' y) cell_reset) (zrange (x + 1) (x + w)) b = Ret b.
Proof. intros H. unfold zrange. replace (Z.to_nat (x + w - (x + 1))) with 0%nat by lia. reflexivity. Qed.
Lemma loop_columns gs : thin u gs -> forall j b, wf_buffer b -> within area (barea b) -> 0 < rw area -> 0 < rh area -> 0 <= j <= rw area ->
  exists b', span_loop u area (ry area) gs false (rx area + j) b = Ret b' /\ barea b' = barea b /\ wf_buffer b' /\ forall k, 0 <= k ->
    let g := in_column k (columns_of (cwidth u) (rw area) j (map fst gs)) in
    at_ b' k = if k <? Z.max 1 j then at_ b k ++ concat g else match g with [] => at_ b k | _ => concat g end.
Proof.
  induction gs as [|[sym st] gs IH]; intros T j b W Hin Hw Hh Hj; cbn [span_loop map fst columns_of].
  - exists b. repeat split; auto; try apply W. intros k Hk. cbn. rewrite app_nil_r. now destruct (k <? _).
  - destruct (T sym st (or_introl eq_refl)) as [Ww Hs]. assert (T' : thin u gs) by (intros c s' H; apply (T c s'); now right).
    assert (Wn : forall c, In c (map fst gs) -> 0 <= cwidth u c). { intros c H. apply in_map_iff in H. destruct H as ([c' s'] & <- & H). apply (T' _ _ H). }
    rewrite Hs. unfold rright. cbv zeta. replace (rx area + j + cwidth u sym >? rx area + rw area) with (negb (j + cwidth u sym <=? rw area)).
    2: { destruct (Z.leb_spec (j + cwidth u sym) (rw area)); destruct (Z.gtb_spec (rx area + j + cwidth u sym) (rx area + rw area)); cbn; lia. }
    destruct (Z.leb_spec (j + cwidth u sym) (rw area)) as [Hf|Hf]; cbn [negb].
    2: { exists b. repeat split; auto; try apply W. intros k Hk. cbn. rewrite app_nil_r. now destruct (k <? _). }
    destruct Hin as (i1 & i2 & i3 & i4).
    assert (Hins : forall i, 0 <= i < rw area -> inside (Pos (rx area + i) (ry area)) (barea b)) by (intros i Hi; unfold inside; cbn; lia).
    replace (rx area + j =? rx area) with (j =? 0) by (destruct (Z.eqb_spec j 0), (Z.eqb_spec (rx area + j) (rx area)); lia || reflexivity).
    set (i := if cwidth u sym =? 0 then Z.max 0 (j - 1) else j).
    assert (Step : exists b1, (if j =? 0 then upd_cell b (Pos (rx area + j) (ry area)) (fun c => cell_set_style st (cell_append_symbol sym c))
       else if cwidth u sym =? 0 then upd_cell b (Pos (rx area + j - 1) (ry area)) (fun c => cell_set_style st (cell_append_symbol sym c))
       else upd_cell b (Pos (rx area + j) (ry area)) (fun c => cell_set_style st (cell_set_symbol sym c))) = Ret b1 /\ barea b1 = barea b /\ wf_buffer b1 /\
       forall k, 0 <= k -> at_ b1 k = if i =? k then (if i <? Z.max 1 j then at_ b k ++ sym else sym) else at_ b k).
    { destruct (Z.eqb_spec j 0) as [J|J].
      - subst j. destruct (upd_cell_spec b (Pos (rx area + 0) (ry area)) (fun c => cell_set_style st (cell_append_symbol sym c)) W (Hins 0 ltac:(lia))) as (b1 & E1 & K1).
        exists b1. split; [exact E1|]. split; [apply K1|]. split; [apply K1|]. intros k Hk. rewrite (append_at b b1 0 st sym k W (Hins 0 ltac:(lia)) K1).
        replace i with 0 by (unfold i; destruct (_ =? 0); lia). reflexivity.
      - destruct (Z.eqb_spec (cwidth u sym) 0) as [Z0|Z0].
        + destruct (upd_cell_spec b (Pos (rx area + (j - 1)) (ry area)) (fun c => cell_set_style st (cell_append_symbol sym c)) W (Hins (j - 1) ltac:(lia))) as (b1 & E1 & K1).
          exists b1. replace (rx area + j - 1) with (rx area + (j - 1)) by lia. split; [exact E1|]. split; [apply K1|]. split; [apply K1|]. intros k Hk. rewrite (append_at b b1 (j - 1) st sym k W (Hins (j - 1) ltac:(lia)) K1).
          replace i with (j - 1) by (unfold i; lia). replace (j - 1 <? Z.max 1 j) with true by (symmetry; apply Z.ltb_lt; lia). reflexivity.
        + destruct (upd_cell_spec b (Pos (rx area + j) (ry area)) (fun c => cell_set_style st (cell_set_symbol sym c)) W (Hins j ltac:(lia))) as (b1 & E1 & K1).
          exists b1. split; [exact E1|]. split; [apply K1|]. split; [apply K1|]. intros k Hk. rewrite (set_at b b1 j st sym k W (Hins j ltac:(lia)) K1).
          unfold i. replace (j <? Z.max 1 j) with false by (symmetry; apply Z.ltb_ge; lia). reflexivity. }
    destruct Step as (b1 & E1 & A1 & W1 & L1). rewrite E1. cbn [bind]. rewrite no_hidden by lia. cbn [bind]. rewrite <- Z.add_assoc.
    destruct (IH T' (j + cwidth u sym) b1 W1) as (b' & E' & A' & W' & L'); [rewrite A1; unfold within; lia|lia|lia|lia|].
    exists b'. split; [exact E'|]. split; [congruence|]. split; [exact W'|]. intros k Hk. specialize (L' k Hk). cbv zeta in L'. rewrite L', L1 by exact Hk. fold i. rewrite in_column_cons.
    set (g := in_column k (columns_of (cwidth u) (rw area) (j + cwidth u sym) (map fst gs))) in *.
    destruct (Z.eqb_spec i k) as [Ik|Ik].
    + subst k. cbn [concat]. destruct (Z.ltb_spec i (Z.max 1 j)) as [H1|H1].
      * replace (i <? Z.max 1 (j + cwidth u sym)) with true by (symmetry; apply Z.ltb_lt; lia). now rewrite <- app_assoc.
      * replace (i <? Z.max 1 (j + cwidth u sym)) with true; [reflexivity|]. symmetry. apply Z.ltb_lt. unfold i in *. destruct (Z.eqb_spec (cwidth u sym) 0); lia.
    + destruct (Z.ltb_spec k (Z.max 1 j)) as [H1|H1].
      * replace (k <? Z.max 1 (j + cwidth u sym)) with true by (symmetry; apply Z.ltb_lt; lia). reflexivity.
      * replace (k <? Z.max 1 (j + cwidth u sym)) with false; [reflexivity|]. symmetry. apply Z.ltb_ge. unfold i in *. destruct (Z.eqb_spec (cwidth u sym) 0); lia.
Qed.
End Loop.

(** ** C18: in a span of characters that take one column or none, every column shows the characters that belong there, in order: a character of no width follows the one before
    it, and none is lost or moved as far as the columns reach. *)
Theorem C18_zero_widths u s area b : uniseg_ok u -> wf_buffer b ->
  (forall c, In c (clusters u (sp_content s)) -> cwidth u c <= 1 /\ existsb is_control c = false) ->
  let A := intersection area (barea b) in 0 < rw A -> 0 < rh A ->
  exists b', span_render u s area b = Ret b' /\ forall k, 0 <= k < rw A ->
    let here := in_column k (columns_of (cwidth u) (rw A) 0 (clusters u (sp_content s))) in
    symbol_at b' (Pos (rx A + k) (ry A)) = match here with [] => symbol_at b (Pos (rx A + k) (ry A)) | _ => concat here end.
Proof.
  intros Hu W Hc A Hw Hh. unfold span_render. fold A. cbv zeta. pose proof (within_intersection area (barea b) Hw Hh) as Hin. fold A in Hin.
  replace (rect_is_empty A) with false by (symmetry; unfold rect_is_empty; apply orb_false_iff; rewrite !Z.eqb_neq; lia).
  assert (Hg : styled_graphemes u new_style s = map (fun c => (c, patched new_style (sp_style s))) (clusters u (sp_content s))).
  { unfold styled_graphemes. rewrite filter_all; [reflexivity|]. intros c H. apply negb_true_iff. now apply Hc. }
  assert (T : thin u (styled_graphemes u new_style s)).
  { rewrite Hg. intros c st H. apply in_map_iff in H. destruct H as (c' & E & H). injection E as <- _. split; [split; [apply (cwidth_nonneg _ Hu)|now apply Hc]|].
    apply in_split in H. destruct H as (l1 & l2 & E). pose proof (clusters_sub _ Hu (sp_content s) l1 [c'] l2 E) as X. cbn in X. rewrite app_nil_r in X. unfold string_width. rewrite X. cbn. lia. }
  assert (Em : clusters u (sp_content s) = map fst (styled_graphemes u new_style s)). { rewrite Hg, map_map. cbn. now rewrite map_id. }
  rewrite Em. clear Hg Em Hc. destruct (styled_graphemes u new_style s) as [|[sym st] gs].
  - exists b. split; [reflexivity|]. intros k Hk. reflexivity.
  - destruct (T sym st (or_introl eq_refl)) as [Ww Hs]. assert (T' : thin u gs) by (intros c s' H; apply (T c s'); now right).
    cbn [span_loop map fst columns_of]. rewrite Hs. unfold rright. replace (rx A + cwidth u sym >? rx A + rw A) with false by (symmetry; rewrite Z.gtb_ltb; apply Z.ltb_ge; lia).
    replace (0 + cwidth u sym <=? rw A) with true by (symmetry; apply Z.leb_le; lia).
    assert (Hins : inside (Pos (rx A + 0) (ry A)) (barea b)) by (clearbody A; destruct Hin as (i1 & i2 & i3 & i4); unfold inside; cbn [px py]; lia).
    destruct (upd_cell_spec b (Pos (rx A + 0) (ry A)) (fun c => cell_set_style st (cell_set_symbol sym c)) W Hins) as (b1 & E1 & K1).
    replace (rx A + 0) with (rx A) in E1 by lia. rewrite E1. cbn [bind]. rewrite no_hidden by lia. cbn [bind].
    pose proof K1 as (A1 & W1 & _).
    destruct (loop_columns u A gs T' (cwidth u sym) b1 W1) as (b' & E' & _ & _ & L); [now rewrite A1|lia|lia|lia|].
    exists b'. split; [exact E'|]. intros k Hk. specialize (L k ltac:(lia)). cbv zeta in L. rewrite L, (set_at A b b1 0 st sym k W Hins K1), in_column_cons.
    replace (if cwidth u sym =? 0 then Z.max 0 (0 - 1) else 0) with 0 by (destruct (_ =? 0); reflexivity).
    destruct (Z.eqb_spec 0 k) as [<-|K0].
    + replace (0 <? Z.max 1 (cwidth u sym)) with true by (symmetry; apply Z.ltb_lt; lia). reflexivity.
    + replace (k <? Z.max 1 (cwidth u sym)) with false by (symmetry; apply Z.ltb_ge; lia). reflexivity.
Qed.
(** A character of no width after one that takes two columns does not follow it: it goes into the second column, which the terminal does not draw. *)
Theorem C18_after_wide_refuted : exists s, rendered (span_render simple_uniseg s (Rect 0 0 3 1) (demo_buffer 3 1)) = [[20013%N]; space ++ [8203%N]; space] /\ sp_content s = [20013; 8203]%N.
Proof. exists (new_span [20013; 8203]%N). split; [vm_compute; reflexivity|reflexivity]. Qed.
(** The hypotheses are met, with characters of no width at the start, in the middle and at the end of the area. *)
Example C18_zero_widths_instance : let s := new_span [8203; 97; 8203; 98; 8203; 8203; 99]%N in
  (forall c, In c (clusters simple_uniseg (sp_content s)) -> cwidth simple_uniseg c <= 1 /\ existsb is_control c = false) /\
  rendered (span_render simple_uniseg s (Rect 0 0 2 1) (demo_buffer 3 1)) = [[8203; 97; 8203]%N; [98; 8203; 8203]%N; space].
Proof. split; [|vm_compute; reflexivity]. cbn. intros c H. repeat (destruct H as [<-|H]; [split; [vm_compute; discriminate|reflexivity]|]). destruct H. Qed.
Print Assumptions C18_zero_widths.
Print Assumptions C18_after_wide_refuted.
