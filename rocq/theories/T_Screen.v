(** C102: the screen of examples/list, letter by letter. *)
From Verif Require Import P_Base P_SetString P_Ansi.
From Verif Require Import Base M_Geom S_Geom T_Geom M_Style M_Uniseg M_Buffer S_Buffer S_Text P_Buffer M_Text S_Line P_Text T_Text M_Block S_Block P_Block S_Titles M_Reflow S_Paragraph M_List S_Items M_Solver M_Layout M_Popup T_Popup M_Ansi M_Utf8 M_Options S_Frame P_Frame T_Frame T_Example M_ExampleList S_ExampleList T_ExampleList T_ExampleListRun S_Screen.
From Coq Require Import ZArith NArith String List Bool Lia.
Import ListNotations.
Open Scope Z_scope.
Local Arguments zlen : simpl never.

Lemma dec_length f : forall k n acc, (1 <= k)%nat -> (n < 10 ^ N.of_nat k)%N -> (length (dec_digits f n acc) <= k + length acc)%nat.
Proof.
  induction f as [|f IH]; intros k n acc Hk Hn; cbn [dec_digits]; [lia|]. destruct (N.ltb_spec n 10) as [L|L]; [cbn [length]; lia|].
  destruct k as [|[|k]]; [lia|change (10 ^ N.of_nat 1)%N with 10%N in Hn; lia|].
  etransitivity; [apply (IH (S k)); [lia|]|cbn [length]; lia].
  apply N.div_lt_upper_bound; [lia|]. rewrite Nat2N.inj_succ, N.pow_succ_r' in Hn. exact Hn.
Qed.
Lemma itoa_length z : 0 <= z <= M_Buffer.max_int -> zlen (itoa z) <= 19.
Proof.
  intros Hz. unfold itoa. destruct (Z.ltb_spec z 0); [lia|]. unfold itoa_N, zlen.
  pose proof (dec_length (S (N.to_nat (N.log2 (Z.to_N z)))) 19 (Z.to_N z) [] ltac:(lia)) as G. assert (B : (Z.to_N z < 10 ^ N.of_nat 19)%N). { change (10 ^ N.of_nat 19)%N with 10000000000000000000%N. assert (M_Buffer.max_int = 9223372036854775807) by reflexivity. lia. }
  specialize (G B). cbn [length] in G. lia.
Qed.

Section Screen.
Variables (u : uniseg) (A : str -> Prop).
Hypothesis (HA : alphabet u A) (Hex : forall c, In c listing_chars -> A [c]).

Ltac known := let c := fresh in let I := fresh in intros c I; vm_compute in I; repeat (destruct I as [<-|I]; [vm_compute; tauto|]); destruct I.
Lemma chars_clean s : incl s listing_chars -> ~ In newline s /\ ~ In cr s.
Proof. intros H. split; intros I; apply H in I; vm_compute in I; intuition discriminate. Qed.
Lemma chars_short s : incl s listing_chars -> zlen s < 60 -> byte_len s < 65536.
Proof.
  intros _ L. assert (B : byte_len s <= 4 * zlen s). { clear. unfold byte_len, zlen. induction s as [|c s IH]; [cbn; lia|]. cbn [map length]. rewrite zsum_cons, Nat2Z.inj_succ. assert (utf8_len c <= 4) by (unfold utf8_len; repeat destruct (_ <? _)%N; lia). lia. }
  lia.
Qed.
Lemma line_spans s : incl s listing_chars -> 0 < zlen s < 60 -> ln_spans (new_line_str s) = [new_span s].
Proof.
  intros H L. destruct (chars_clean s H) as [Hn Hc]. unfold new_line_str, new_line. cbn [ln_spans]. unfold scan_lines. rewrite raw_single by exact Hn. cbn [rev app].
  destruct s as [|r s]; [unfold zlen in L; cbn in L; lia|]. cbn [short_lines]. replace (_ <? _) with true by (symmetry; apply Z.ltb_lt; apply chars_short; [exact H|lia]). cbn [map]. now rewrite drop_cr_id.
Qed.
Lemma line_letters s : incl s listing_chars -> 0 < zlen s < 60 -> line_cells u (ln_spans (new_line_str s)) = map (fun c => ([c], new_style)) s.
Proof.
  intros H L. rewrite line_spans by assumption. unfold line_cells, span_cells. cbn [flat_map new_span sp_content sp_style]. rewrite app_nil_r, (of_chars u A HA) by (intros c I; apply Hex, H, I). now rewrite map_map.
Qed.
Lemma width_one c : In c listing_chars -> cwidth u [c] = 1.
Proof. intros I. apply (al_one u A HA), Hex, I. Qed.
Lemma letters_width s st : incl s listing_chars -> cells_width u (map (fun c => ([c], st)) s) = zlen s.
Proof.
  intros H. unfold cells_width, zlen. rewrite map_map. cbn [fst]. induction s as [|c s IH]; [reflexivity|]. cbn [map length]. rewrite zsum_cons, Nat2Z.inj_succ. rewrite IH by (intros x I; apply H; now right). rewrite width_one by (apply H; now left). lia.
Qed.
Lemma seen_letters s st W : forall off o, incl s listing_chars -> 0 <= off -> o < W ->
  S_Text.seen (cwidth u) (map (fun c => ([c], st)) s) W off o = if o <? off then None else option_map (fun c => HeadOf [c] st) (nth_error s (Z.to_nat (o - off))).
Proof.
  induction s as [|c s IH]; intros off o H Ho HW; cbn [map S_Text.seen].
  - destruct (o <? off); [reflexivity|]. now destruct (Z.to_nat (o - off)).
  - rewrite (width_one c) by (apply H; now left). rewrite IH by (try lia; intros x I; apply H; now right).
    destruct (Z.ltb_spec o off); [replace ((off <=? o) && _) with false by (symmetry; apply andb_false_iff; left; apply Z.leb_gt; lia); replace (o <? off + 1) with true by (symmetry; apply Z.ltb_lt; lia); reflexivity|].
    destruct (Z.eq_dec o off) as [->|Ne].
    + replace ((off <=? off) && (off <? off + 1)) with true by (symmetry; apply andb_true_iff; split; [apply Z.leb_le|apply Z.ltb_lt]; lia). replace ((0 <=? off) && (off + 1 <=? W)) with true by (symmetry; apply andb_true_iff; split; apply Z.leb_le; lia).
      rewrite Z.eqb_refl, Z.sub_diag. reflexivity.
    + replace ((off <=? o) && (o <? off + 1)) with false by (symmetry; apply andb_false_iff; right; apply Z.ltb_ge; lia). destruct (Z.ltb_spec o (off + 1)); [lia|].
      replace (Z.to_nat (o - off)) with (S (Z.to_nat (o - (off + 1)))) by lia. reflexivity.
Qed.
Lemma line_width_letters s : incl s listing_chars -> 0 < zlen s < 60 -> line_width u (new_line_str s) = zlen s.
Proof.
  intros H L. unfold line_width. rewrite line_spans by assumption. cbn [map]. rewrite zsum_cons. change (zsum []) with 0. unfold span_width, string_width. cbn [new_span sp_content].
  rewrite (of_chars u A HA) by (intros c I; apply Hex, H, I). rewrite Z.add_0_r. rewrite <- (letters_width s new_style H). unfold cells_width. now rewrite !map_map.
Qed.
(** A line of known letters at the left of a window *)
Lemma line_in_letters W o st s c : incl s listing_chars -> 0 < zlen s < 60 -> 0 <= o < W ->
  line_in u AlignNone W o (Line st (ln_spans (new_line_str s)) AlignNone) c = match nth_error s (Z.to_nat o) with Some ch => cell_set_style new_style (cell_set_symbol [ch] (cell_set_style st c)) | None => c end.
Proof.
  intros H L Ho. unfold line_in. cbn [ln_spans ln_style ln_align effective start_column]. rewrite line_letters by assumption. rewrite seen_letters by (assumption || lia). destruct (Z.ltb_spec o 0); [lia|]. rewrite Z.sub_0_r.
  assert (Ew : line_width u (Line st (ln_spans (new_line_str s)) AlignNone) = zlen s) by (rewrite <- (line_width_letters s H L); reflexivity). rewrite Ew.
  destruct (nth_error s (Z.to_nat o)) as [ch|] eqn:E; cbn [option_map paint].
  - assert (Hl : (Z.to_nat o < length s)%nat) by (apply nth_error_Some; congruence). unfold zlen. destruct (Z.ltb_spec o (Z.min W (Z.of_nat (length s)))); [reflexivity|lia].
  - apply nth_error_None in E. unfold zlen. destruct (Z.ltb_spec o (Z.min W (Z.of_nat (length s)))); [lia|reflexivity].
Qed.

Lemma letter_nth s o d : 0 <= o -> letter s o d = match nth_error s (Z.to_nat o) with Some c => c | None => d end.
Proof. intros Ho. unfold letter. destruct (Z.ltb_spec o 0); [lia|]. destruct (nth_error s (Z.to_nat o)) as [c|] eqn:E; [now apply nth_error_nth|]. apply nth_overflow. now apply nth_error_None in E. Qed.
Lemma item_text_known i r : 0 <= i -> i + 1 <= M_Buffer.max_int -> incl (item_text i r) listing_chars /\ 0 < zlen (item_text i r) < 60.
Proof.
  intros Hi Hm. unfold item_text. destruct (r =? 0).
  - split; [apply incl_app; [known|]; intros c I; exact (itoa_known c (i + 1) ltac:(lia) I)|]. pose proof (itoa_length (i + 1) ltac:(lia)) as L. unfold zlen in *. rewrite app_length. cbn [asc length]. lia.
  - split; [known|]. vm_compute. split; reflexivity.
Qed.
Lemma marker_letters : clusters u (asc "> "%string) = [[62%N]; [32%N]].
Proof. now rewrite (of_chars u A HA) by (intros c I; apply Hex; revert c I; known). Qed.
Lemma item_letters count selected i W x r : 0 <= i -> i + 1 <= M_Buffer.max_int -> 0 <= x < W -> r = 0 \/ r = 1 ->
  item_cell u (listing_list count) selected true (listing_item i) W x r empty_cell = row_cell selected i r x.
Proof.
  intros Hi Hm Hx Hr. destruct (item_text_known i r Hi Hm) as [Kt Lt].
  unfold item_cell. set (l := listing_list count). change (ls_style l) with new_style. change (tx_style (listing_item i)) with new_style. change (ls_hl_symbol l) with (asc "> "%string). change (ls_repeat l) with false. change (tx_align (listing_item i)) with AlignNone.
  change (ls_hl_style l) with (Style (Some (ColAnsi 0)) (Some (ColAnsi 4)) 0%N 0%N). clear l. cbv zeta. rewrite marker_letters.
  assert (W1 : cwidth u [62%N] = 1) by (apply width_one; vm_compute; tauto). assert (W2 : cwidth u [32%N] = 1) by (apply width_one; vm_compute; tauto).
  assert (Ew : widths u [[62%N]; [32%N]] = 2) by (unfold widths; cbn [map]; rewrite W1, W2; reflexivity). rewrite Ew.
  change (cell_set_style (patched new_style new_style) empty_cell) with (plain_cell 32). change (patched new_style new_style) with new_style. change (cell_set_style new_style (plain_cell 32)) with (plain_cell 32).
  unfold row_cell. destruct (Z.ltb_spec x 2) as [Lx|Lx].
  - replace ((2 <=? x) && _) with false by (symmetry; apply andb_false_iff; left; apply Z.leb_gt; lia). rewrite orb_false_r. change (repeat [32%N] (Z.to_nat 2)) with [[32%N]; [32%N]].
    assert (Q : x = 0 \/ x = 1) by lia. destruct Q as [-> | ->]; destruct selected, Hr as [-> | ->]; unfold S_Items.written; cbn [andb orb Z.eqb glyph_at Z.ltb Z.compare]; rewrite ?W1, ?W2; reflexivity.
  - assert (El : nth_error (tx_lines (listing_item i)) (Z.to_nat r) = Some (Line (if r =? 0 then bold new_style else dim (italic new_style)) (ln_spans (new_line_str (item_text i r))) AlignNone)) by (destruct Hr as [-> | ->]; reflexivity).
    rewrite El, (line_in_letters (W - 2) (x - 2)) by (assumption || lia). rewrite (letter_nth _ (x - 2)) by lia.
    replace (2 <=? x) with true by (symmetry; apply Z.leb_le; lia). cbn [andb].
    destruct (nth_error (item_text i r) (Z.to_nat (x - 2))) as [ch|] eqn:E.
    + assert (Hl : (Z.to_nat (x - 2) < length (item_text i r))%nat) by (apply nth_error_Some; congruence). unfold zlen. destruct (Z.ltb_spec x (2 + Z.of_nat (length (item_text i r)))); [|lia]. destruct Hr as [-> | ->], selected; reflexivity.
    + apply nth_error_None in E. unfold zlen. destruct (Z.ltb_spec x (2 + Z.of_nat (length (item_text i r)))); [lia|]. destruct selected; reflexivity.
Qed.

(** Frames *)
Lemma over_letters W s a p al start o c : incl s listing_chars -> 0 < zlen s < 60 -> 0 <= start -> start + zlen s <= W -> 0 <= o ->
  S_Titles.over u new_style W start [Title a p (line_with_alignment (new_line_str s) al)] o (plain_cell c) = plain_cell (letter s (o - start) c).
Proof.
  intros H L Hs HW Ho. unfold S_Titles.over, S_Titles.slot_at, S_Titles.title_width. cbn [ti_line line_with_alignment ln_spans]. rewrite line_letters, letters_width by assumption.
  destruct (Z.leb_spec start o) as [A1|A1]; cbn [andb]; [|unfold letter; destruct (Z.ltb_spec (o - start) 0); [reflexivity|lia]].
  destruct (Z.ltb_spec o (start + zlen s)) as [A2|A2].
  - unfold S_Titles.written, S_Titles.title_width. cbn [ti_line line_with_alignment ln_spans]. rewrite line_letters, letters_width by assumption. rewrite Z.max_r, Z.min_r by lia. unfold line_with_alignment. cbn [ti_line ln_align ln_style ln_spans]. change (ln_style (new_line_str s)) with new_style. try rewrite line_letters by assumption. replace (start_column al (start + zlen s - start) (zlen s)) with 0 by (unfold start_column; destruct al; try lia; destruct (Z.leb_spec (zlen s) (start + zlen s - start)); [|lia]; replace (start + zlen s - start - zlen s) with 0 by lia; reflexivity).
    rewrite seen_letters by (assumption || lia). destruct (Z.ltb_spec (o - start) 0); [lia|]. rewrite Z.sub_0_r, letter_nth by lia.
    destruct (nth_error s (Z.to_nat (o - start))) as [ch|] eqn:E; [reflexivity|]. apply nth_error_None in E. unfold zlen in A2. lia.
  - rewrite letter_nth by lia. replace (nth_error s (Z.to_nat (o - start))) with (@None N); [reflexivity|]. symmetry. apply nth_error_None. unfold zlen in A2. lia.
Qed.
Lemma row_width s a p al : incl s listing_chars -> 0 < zlen s < 60 -> S_Titles.group_width u [Title a p (line_with_alignment (new_line_str s) al)] = zlen s.
Proof. intros H L. unfold S_Titles.group_width, S_Titles.title_width. cbn [map ti_line line_with_alignment ln_spans]. rewrite line_letters, letters_width by assumption. rewrite zsum_cons. change (zsum []) with 0. lia. Qed.
Definition title_of (ts : list title) (s : str) : Prop := ts = [] /\ s = [] \/ (exists a p al, ts = [Title a p (line_with_alignment (new_line_str s) al)]) /\ incl s listing_chars /\ 0 < zlen s < 60.
Lemma edge_letters k ks top bottom area q :
  bk_borders k = 15%N -> bk_style k = new_style -> bk_border_style k = new_style -> bk_titles_style k = new_style ->
  the_frame (bk_set k) = Frame [k_tl ks] [k_tr ks] [k_bl ks] [k_br ks] [k_v ks] [k_v ks] [k_h ks] [k_h ks] ->
  title_of (group k TitleTop AlignLeft) top -> group k TitleTop AlignCenter = [] -> group k TitleTop AlignRight = [] ->
  group k TitleBottom AlignLeft = [] -> group k TitleBottom AlignCenter = [] -> title_of (group k TitleBottom AlignRight) bottom ->
  zlen top <= rw area - 2 -> zlen bottom <= rw area - 2 -> 2 <= rh area -> inside q area ->
  let x := px q - rx area in let y := py q - ry area in on_edge (rw area) (rh area) x y = true ->
  edge_cell u k area q empty_cell = plain_cell (edge_letter ks (rw area) (rh area) top bottom x y).
Proof.
  intros Bo St Bs Ts Fr T1 T2 T3 B1 B2 B3 Lt Lb Hh Iq x y On. unfold edge_cell, titled. rewrite Bo, St, Bs, Fr.
  change (N.testbit 15 3) with true. change (N.testbit 15 0) with true. change (N.testbit 15 1) with true. change (N.testbit 15 2) with true. cbv iota zeta.
  change (cell_set_style new_style empty_cell) with (plain_cell 32).
  assert (Top : forall o c, 0 <= o -> title_row u k TitleTop (rw area - 1 - 1) o (plain_cell c) = plain_cell (letter top o c)).
  { intros o c Ho. unfold title_row. cbv zeta. rewrite T2, T3, Ts. change (S_Titles.over u new_style (rw area - 1 - 1) _ [] o) with (fun z : cell => z). cbv beta. destruct T1 as [[-> ->]|((a & p & al & ->) & Ki & Kl)].
    - change (S_Titles.over u new_style (rw area - 1 - 1) _ [] o (plain_cell c)) with (plain_cell c). unfold letter. destruct (o <? 0); [reflexivity|]. now destruct (Z.to_nat o).
    - cbn [group_start]. rewrite over_letters by (assumption || lia). now rewrite Z.sub_0_r. }
  assert (Bot : forall o c, 0 <= o -> title_row u k TitleBottom (rw area - 1 - 1) o (plain_cell c) = plain_cell (letter bottom (o - (rw area - 2 - zlen bottom)) c)).
  { intros o c Ho. unfold title_row. cbv zeta. rewrite B1, B2, Ts. change (S_Titles.over u new_style (rw area - 1 - 1) (group_start u AlignLeft _ []) [] o) with (fun z : cell => z). change (S_Titles.over u new_style (rw area - 1 - 1) (group_start u AlignCenter _ []) [] o) with (fun z : cell => z). cbv beta.
    destruct B3 as [[-> ->]|((a & p & al & ->) & Ki & Kl)].
    - change (S_Titles.over u new_style (rw area - 1 - 1) _ [] o (plain_cell c)) with (plain_cell c). unfold letter. destruct (_ <? 0); [reflexivity|]. now destruct (Z.to_nat _).
    - cbn [group_start]. rewrite row_width by assumption. rewrite over_letters by (assumption || lia). f_equal. f_equal. lia. }
  unfold inside in Iq. unfold frame_at, edge_letter. cbn [f_tl f_tr f_bl f_br f_l f_r f_t f_b andb]. unfold on_edge in On. fold x. fold y in On |- *.
  replace (px q =? rx area) with (x =? 0) by (unfold x; destruct (Z.eqb_spec (px q - rx area) 0), (Z.eqb_spec (px q) (rx area)); lia).
  replace (px q =? rx area + rw area - 1) with (x =? rw area - 1) by (unfold x; destruct (Z.eqb_spec (px q - rx area) (rw area - 1)), (Z.eqb_spec (px q) (rx area + rw area - 1)); lia).
  replace (py q =? ry area) with (y =? 0) by (unfold y; destruct (Z.eqb_spec (py q - ry area) 0), (Z.eqb_spec (py q) (ry area)); lia).
  replace (py q =? ry area + rh area - 1) with (y =? rh area - 1) by (unfold y; destruct (Z.eqb_spec (py q - ry area) (rh area - 1)), (Z.eqb_spec (py q) (ry area + rh area - 1)); lia).
  replace (negb _) with false by (symmetry; apply negb_false_iff; rewrite !andb_true_iff, !Z.leb_le, !Z.ltb_lt; lia).
  assert (Hx : 0 <= x < rw area) by (unfold x; lia). assert (Hy : 0 <= y < rh area) by (unfold y; lia). clearbody x y.
  assert (S1 : forall c, framed (Some [c]) new_style (plain_cell 32) = plain_cell c) by reflexivity.
  destruct (Z.eqb_spec x 0) as [X0|X0]; cbn [andb orb] in *.
  - replace (0 <=? x - 1) with false by (symmetry; apply Z.leb_gt; lia). rewrite !andb_false_r. cbn [andb].
    destruct (Z.eqb_spec y 0), (Z.eqb_spec y (rh area - 1)), (Z.eqb_spec x (rw area - 1)); try lia; cbn [andb]; apply S1.
  - destruct (Z.eqb_spec x (rw area - 1)) as [X1|X1]; cbn [andb orb] in *.
    + replace (x - 1 <? rw area - 1 - 1) with false by (symmetry; apply Z.ltb_ge; lia). rewrite !andb_false_r.
      destruct (Z.eqb_spec y 0), (Z.eqb_spec y (rh area - 1)); try lia; cbn [andb]; apply S1.
    + replace (0 <=? x - 1) with true by (symmetry; apply Z.leb_le; lia). replace (x - 1 <? rw area - 1 - 1) with true by (symmetry; apply Z.ltb_lt; lia).
      destruct (Z.eqb_spec y 0) as [Y0|Y0], (Z.eqb_spec y (rh area - 1)) as [Y1|Y1]; try lia; cbn [andb orb] in *; try discriminate; rewrite S1.
      * rewrite Top by lia. reflexivity.
      * rewrite Bot by lia. do 2 f_equal. lia.
Qed.

(** The popup *)
Lemma starts_letters s st : forall o, incl s listing_chars -> starts_at u (map (fun c => ([c], st)) s) o = if o <? 0 then None else option_map (fun c => ([c], st)) (nth_error s (Z.to_nat o)).
Proof.
  induction s as [|c s IH]; intros o H; cbn [map starts_at]; [destruct (o <? 0); [reflexivity|now destruct (Z.to_nat o)]|]. cbn [fst]. rewrite (width_one c) by (apply H; now left). cbn [Z.eqb].
  destruct (Z.eqb_spec o 0) as [->|Ne]; [reflexivity|]. rewrite IH by (intros x I; apply H; now right).
  destruct (Z.ltb_spec o 0), (Z.ltb_spec (o - 1) 0); try lia; [reflexivity|]. replace (Z.to_nat o) with (S (Z.to_nat (o - 1))) by lia. reflexivity.
Qed.
Lemma hello_letters : text_of u (pg_text listing_paragraph) the_hello = map (fun c => ([c], new_style)) (asc "Hello, world!"%string).
Proof.
  unfold text_of. change (ln_spans the_hello) with [new_span (asc "Hello, world!"%string)]. cbn [flat_map]. rewrite app_nil_r. change (sp_content (new_span (asc "Hello, world!"%string))) with (asc "Hello, world!"%string).
  rewrite (of_chars u A HA) by (intros c I; apply Hex; revert c I; known). reflexivity.
Qed.
Lemma popup_letters at_ q : rw at_ = 30 -> rh at_ = 3 -> inside q at_ -> let x := px q - rx at_ in let y := py q - ry at_ in
  note_cell u listing_popup the_popup_block listing_paragraph the_hello at_ q =
  plain_cell (if on_edge 30 3 x y then edge_letter thick_strokes 30 3 (asc "Popup"%string) [] x y else letter (asc "Hello, world!"%string) (x - 9) 32).
Proof.
  intros Ew Eh Iq x y. unfold note_cell. cbv zeta. change (pp_style listing_popup) with new_style. change (cell_set_style new_style empty_cell) with empty_cell.
  assert (Ei : block_inner the_popup_block at_ = Rect (rx at_ + 1) (ry at_ + 1) 28 1).
  { unfold block_inner. set (k := the_popup_block). change (side_intersects (bk_borders k) SideLeft) with true. change (side_intersects (bk_borders k) SideTop) with true. change (side_intersects (bk_borders k) SideRight) with true. change (side_intersects (bk_borders k) SideBottom) with true. cbv iota zeta.
    unfold with_width, with_height, rright, rbottom. change (bk_padding k) with (Padding 0 0 0 0). cbn [orb rx ry rw rh ptop pright pbottom pleft]. rewrite Ew, Eh. f_equal; lia. }
  rewrite Ei. unfold inside in Iq. rewrite Ew, Eh in Iq.
  assert (Cn : contains (Rect (rx at_ + 1) (ry at_ + 1) 28 1) q = negb (on_edge 30 3 x y)).
  { apply eq_true_iff_eq. rewrite negb_true_iff, contains_inside. unfold inside, on_edge, x, y. cbn [rx ry rw rh]. rewrite !orb_false_iff, !Z.eqb_neq. lia. }
  rewrite Cn. destruct (on_edge 30 3 x y) eqn:On; cbn [negb].
  - pose proof (edge_letters the_popup_block thick_strokes (asc "Popup"%string) [] at_ q eq_refl eq_refl eq_refl eq_refl eq_refl) as G. rewrite Ew, Eh in G. apply G; try reflexivity; try lia.
    + right. split; [exists AlignNone, None, AlignNone; reflexivity|]. split; [known|vm_compute; split; reflexivity].
    + left. split; reflexivity.
    + change (zlen (asc "Popup"%string)) with 5. lia.
    + change (zlen (@nil N)) with 0. lia.
    + unfold inside. rewrite Ew, Eh. exact Iq.
    + exact On.
  - cbn [ry rx rw]. rewrite hello_letters. unfold on_edge in On. rewrite !orb_false_iff, !Z.eqb_neq in On.
    destruct (Z.eqb_spec (py q) (ry at_ + 1)) as [Ey|Ey]; [|unfold y in On; lia].
    assert (Ec : columns_of u (map (fun c => ([c], new_style)) (asc "Hello, world!"%string)) = 13) by (change (cells_width u (map (fun c => ([c], new_style)) (asc "Hello, world!"%string)) = 13); rewrite letters_width by known; reflexivity).
    rewrite Ec. change (begins (alignment_of listing_paragraph the_hello) 28 13) with 8. rewrite starts_letters by known.
    replace (px q - (rx at_ + 1) - 8) with (x - 9) by (unfold x; lia). change (pg_style listing_paragraph) with new_style. change (bk_style the_popup_block) with new_style.
    unfold letter. destruct (Z.ltb_spec (x - 9) 0); [reflexivity|]. destruct (nth_error (asc "Hello, world!"%string) (Z.to_nat (x - 9))) as [ch|] eqn:E; cbn [option_map].
    + erewrite nth_error_nth by exact E. reflexivity.
    + rewrite nth_overflow by (now apply nth_error_None in E). reflexivity.
Qed.

Lemma list_letters count W H first sel q : 1 <= count <= M_Buffer.max_int - 8 -> 30 <= W -> 4 <= H -> 0 <= first -> inside q (new_rect W H) ->
  listing_cell u (listing_list count) (listing_block count) 2 (new_rect W H) first sel q =
  if on_edge W H (px q) (py q) then plain_cell (edge_letter round_strokes W H (asc "List"%string) (itoa count ++ asc " items"%string)%list (px q) (py q))
  else let j := (py q - 1) / 2 in let i := first + j in
    if (j <? (H - 2) / 2) && (i <? count) then row_cell (match sel with Some s => s =? i | None => false end) i ((py q - 1) mod 2) (px q - 1) else plain_cell 32.
Proof.
  intros Hc HW HH Hf Iq. unfold listing_cell. cbv zeta. change (ls_style (listing_list count)) with new_style. change (cell_set_style new_style empty_cell) with empty_cell.
  assert (Ei : block_inner (listing_block count) (new_rect W H) = Rect 1 1 (W - 2) (H - 2)).
  { unfold block_inner. set (k := listing_block count). change (side_intersects (bk_borders k) SideLeft) with true. change (side_intersects (bk_borders k) SideTop) with true. change (side_intersects (bk_borders k) SideRight) with true. change (side_intersects (bk_borders k) SideBottom) with true. cbv iota zeta.
    unfold with_width, with_height, rright, rbottom, new_rect. change (bk_padding k) with (Padding 0 0 0 0). cbn [orb rx ry rw rh ptop pright pbottom pleft]. f_equal; lia. }
  rewrite Ei. unfold inside, new_rect in Iq. cbn [rx ry rw rh] in Iq.
  assert (Cn : contains (Rect 1 1 (W - 2) (H - 2)) q = negb (on_edge W H (px q) (py q))).
  { apply eq_true_iff_eq. rewrite negb_true_iff, contains_inside. unfold inside, on_edge. cbn [rx ry rw rh]. rewrite !orb_false_iff, !Z.eqb_neq. lia. }
  rewrite Cn. destruct (on_edge W H (px q) (py q)) eqn:On; cbn [negb].
  - pose proof (edge_letters (listing_block count) round_strokes (asc "List"%string) (itoa count ++ asc " items"%string) (new_rect W H) q eq_refl eq_refl eq_refl eq_refl eq_refl) as G.
    unfold new_rect in G. cbn [rx ry rw rh] in G. rewrite !Z.sub_0_r in G. pose proof (itoa_length count ltac:(lia)) as Ll. assert (El : zlen (itoa count ++ asc " items"%string) = zlen (itoa count) + 6) by (unfold zlen; rewrite app_length; cbn [asc length]; lia). assert (0 <= zlen (itoa count)) by (unfold zlen; lia).
    apply G; try reflexivity; try lia.
    + right. split; [exists AlignNone, None, AlignNone; reflexivity|]. split; [known|vm_compute; split; reflexivity].
    + right. split; [exists AlignRight, (Some TitleBottom), AlignRight; unfold listing_block, new_title_str; generalize (new_line_str (itoa count ++ asc " items"%string)); intros ln; reflexivity|]. split; [|lia]. apply incl_app; [|known]. intros c I. exact (itoa_known c count ltac:(lia) I).
    + change (zlen (asc "List"%string)) with 4. lia.
    + unfold inside. cbn [rx ry rw rh]. exact Iq.
    + exact On.
  - change (bk_style (listing_block count)) with new_style. change (cell_set_style new_style empty_cell) with empty_cell. cbn [rx ry rw rh].
    unfold on_edge in On. rewrite !orb_false_iff, !Z.eqb_neq in On. set (j := (py q - 1) / 2). assert (Hj : 0 <= j) by (apply Z.div_pos; lia).
    destruct (Z.ltb_spec j ((H - 2) / 2)) as [Lj|Lj]; cbn [andb]; [|reflexivity].
    change (ls_items (listing_list count)) with (listing_items count). unfold listing_items. rewrite nth_error_map.
    destruct (Z.ltb_spec (first + j) count) as [Li|Li].
    + rewrite (zrange_nth_error 0 count) by lia. cbn [option_map]. rewrite Z2Nat.id by lia. rewrite Z.add_0_l.
      change (keeps_column (listing_list count) sel) with true. rewrite item_letters; [reflexivity|lia|lia|lia|]. pose proof (Z.mod_pos_bound (py q - 1) 2 ltac:(lia)). lia.
    + replace (nth_error (zrange 0 count) (Z.to_nat (first + j))) with (@None Z); [reflexivity|]. symmetry. apply nth_error_None. rewrite zrange_length. lia.
Qed.

(** ** C102: every cell of the screen, letter by letter *)
Theorem C102_screen count W H v q : 1 <= count <= M_Buffer.max_int - 8 -> 30 <= W -> 4 <= H -> 0 <= vw_first v -> inside q (new_rect W H) ->
  program_cell u (listing_list count) (listing_block count) 2 listing_popup the_popup_block listing_paragraph the_hello (listing_place (W, H)) (new_rect W H) v q = list_screen count W H v (px q) (py q).
Proof.
  intros Hc HW HH Hf Iq. unfold program_cell, list_screen. cbv zeta.
  assert (Cp : contains (listing_place (W, H)) q = (0 <=? px q - (W - 30 + 1) / 2) && (px q - (W - 30 + 1) / 2 <? 30) && (0 <=? py q - (H - 3 + 1) / 2) && (py q - (H - 3 + 1) / 2 <? 3)).
  { apply eq_true_iff_eq. rewrite contains_inside. unfold inside, listing_place. cbn [rx ry rw rh fst snd]. rewrite !andb_true_iff, !Z.leb_le, !Z.ltb_lt. lia. }
  destruct (vw_popup v) eqn:Pv; cbn [andb]; rewrite <- ?Cp.
  - destruct (contains (listing_place (W, H)) q) eqn:Ct.
    + rewrite popup_letters; [reflexivity|reflexivity|reflexivity|]. symmetry in Cp. rewrite !andb_true_iff, !Z.leb_le, !Z.ltb_lt in Cp. unfold inside, listing_place. cbn [rx ry rw rh fst snd]. lia.
    + apply (list_letters count W H (vw_first v) (vw_selected v) q); assumption.
  - apply (list_letters count W H (vw_first v) (vw_selected v) q); assumption.
Qed.
End Screen.
Print Assumptions C102_screen.
