(** C69, C70: spinners and inputs in the places their layouts give them. *)
From Verif Require Import Base P_Base M_Geom M_Solver M_Layout S_Solver S_Layout S_Place P_Row P_Layout P_Sum P_Place P_Placed T_Solver T_Layout T_Place T_Exact T_Apart T_Tile.
From Verif Require Import S_Geom T_Geom M_Style M_Uniseg M_Buffer S_Buffer P_Buffer P_SetString T_Buffer M_Text S_Text S_Line P_Text T_Text T_TextRows M_Block S_Block P_Block T_Block M_Popup T_Popup.
From Verif Require Import M_Slice M_List T_List M_Input T_Input M_Throbber T_Throbber M_View.
From Coq Require Import ZArith NArith QArith List Bool Lia Permutation.
Import ListNotations.
Open Scope Z_scope.

Lemma inner_none a : sized a -> inner a (Padding 0 0 0 0) = a.
Proof. destruct a as [x y w h]. intros [A B]. unfold inner. cbn in *. destruct (Z.ltb_spec w 0); [lia|]. destruct (Z.ltb_spec h 0); [lia|]. cbn. f_equal; lia. Qed.
Lemma subrect_within a r : 0 < rw a -> 0 < rh a -> subrect a r -> within a r.
Proof.
  intros W H S. pose proof (S (Pos (rx a) (ry a)) ltac:(unfold inside; cbn; lia)) as A. pose proof (S (Pos (rx a + rw a - 1) (ry a + rh a - 1)) ltac:(unfold inside; cbn; lia)) as B. unfold within, inside, rright, rbottom in *. cbn in *. lia.
Qed.

Lemma set_no_style c : cell_set_style new_style c = c.
Proof. destruct c as [sy f g m k]. unfold cell_set_style, bit_difference, bit_union. cbn. now rewrite N.lor_0_r, N.ldiff_0_r. Qed.
(** ** The frames of a spinner *)
(** Clusters of one rune and one column *)
Definition one_column (u : uniseg) (f : str) : Prop := clusters u f = map (fun c => [c]) f /\ forall c, In c f -> cwidth u [c] = 1 /\ is_control c = false.
Lemma frame_lines ty f : In f (frame_set ty) -> new_lines_str [f] = [new_line (match f with [] => [] | _ => [new_span f] end)].
Proof. intros I. destruct ty; cbn in I; repeat (destruct I as [<-|I]; [vm_compute; reflexivity|]); destruct I. Qed.
Lemma one_column_width u f : one_column u f -> string_width u f = zlen f.
Proof.
  intros [C W]. unfold string_width. rewrite C, map_map. clear C. induction f as [|c f IH]; [reflexivity|]. cbn [map]. rewrite zsum_cons, zlen_cons, IH by (intros c' I; apply W; now right). destruct (W c (or_introl eq_refl)) as [-> _]. lia.
Qed.
Lemma frame_size u ty f : uniseg_ok u -> In f (frame_set ty) -> one_column u f -> frame_dimensions u f = (zlen f, 1).
Proof.
  intros Hu I O. unfold frame_dimensions. rewrite (frame_lines ty f I). unfold lines_width, lines_height, line_width. cbn [fold_left ln_spans new_line zlen length]. change (Z.of_nat 1) with 1. f_equal. destruct f as [|c f].
  - reflexivity.
  - cbn [map]. rewrite zsum_cons. unfold span_width. cbn [sp_content new_span zsum fold_right]. rewrite (one_column_width u _ O). pose proof (zlen_nonneg (c :: f)). cbn [zsum fold_right]. lia.
Qed.
Section Tolerance.
Context {tolr : tolerance}.
(** Both runs of a spinner *)
Definition proper_spin (u : uniseg) (r r' : run) (t : throbber) (f : str) (area : rect) : Prop :=
  proper_run r (throbber_rows u t f) area /\ forall rows, split_one r (throbber_rows u t f) area = At rows -> proper_run r' (throbber_columns u t f) rows.
Lemma spin_area_in u r r' t f area at_ : sized area -> nonneg_padding (tw_padding t) -> proper_spin u r r' t f area -> throbber_area u r r' t f area = At at_ -> sized at_ /\ subrect at_ area.
Proof.
  intros Sz Pd [R1 R2] E. unfold throbber_area in E. destruct (split_one r (throbber_rows u t f) area) as [rows| |] eqn:E1; try discriminate. specialize (R2 rows eq_refl).
  apply (split_one_piece _ _ _ _ R1) in E1. apply (split_one_piece _ _ _ _ R2) in E. cbn [throbber_rows throbber_columns l_direction l_padding] in E1, E.
  destruct (inner_in area _ Sz Pd) as (A1 & A2 & A3). destruct (piece_in _ _ _ A1 E1) as (B1 & B2 & B3). destruct (inner_in rows _ B1 Pd) as (C1 & C2 & C3). destruct (piece_in _ _ _ C1 E) as (D1 & D2 & D3).
  split; [exact D1|]. intros q I; auto.
Qed.
Lemma spin_safe u r r' t f area : proper_spin u r r' t f area -> throbber_area u r r' t f area <> PlacePanics.
Proof.
  intros [R1 R2]. unfold throbber_area. assert (N1 := split_one_safe r (throbber_rows u t f) area ltac:(discriminate) R1). destruct (split_one r (throbber_rows u t f) area) as [rows| |] eqn:E1; try congruence. apply split_one_safe; [discriminate|now apply R2].
Qed.
Lemma spin_centred u r r' ty f area at_ w h : frame_dimensions u f = (w, h) -> 0 <= w <= rw area -> 0 <= h <= rh area -> 0 <= rx area -> 0 <= ry area ->
  let t := throbber_with_type new_throbber ty in
  proper_spin u r r' t f area -> throbber_area u r r' t f area = At at_ ->
  at_ = Rect (rx area + (rw area - w + 1) / 2) (ry area + (rh area - h + 1) / 2) w h.
Proof.
  intros Dm Hw Hh Rx Ry t [R1 R2] E. unfold throbber_area in E. destruct (split_one r (throbber_rows u t f) area) as [rows| |] eqn:E1; try discriminate. specialize (R2 rows eq_refl).
  pose proof (one_len r (throbber_rows u t f) area h rows R1) as O1. cbn [throbber_rows l_constraints l_flex l_direction l_padding t throbber_with_type new_throbber tw_padding tw_vertical] in O1. rewrite Dm, inner_none in O1 by (split; lia). cbn [low high across snd] in O1. destruct (O1 eq_refl ltac:(tauto) ltac:(lia) Ry E1) as (A1 & A2 & A3). injection A3 as A3 A4. unfold flexed in A1.
  pose proof (one_len r' (throbber_columns u t f) rows w at_ R2) as O2. cbn [throbber_columns l_constraints l_flex l_direction l_padding t throbber_with_type new_throbber tw_padding tw_horizontal] in O2. rewrite Dm, inner_none in O2 by (split; lia). cbn [low high across fst] in O2. destruct (O2 eq_refl ltac:(tauto) ltac:(lia) ltac:(lia) E) as (B1 & B2 & B3). injection B3 as B3 B4. unfold flexed in B1.
  replace (rx rows + rw rows - rx rows) with (rw area) in B1 by lia. replace (ry area + rh area - ry area) with (rh area) in A1 by lia. rewrite A3 in B1. destruct at_ as [x y aw ah]. cbn [rx ry rw rh] in *. f_equal; lia.
Qed.

(** ** C69: drawing a spinner, whatever messages it has got, never panics, changes only cells of its area, and shows the frame it has reached in
    the middle of the area, on one line, and nothing else, if that fits. *)
Theorem C69_shows_partial u r r' ty ms s acc last_id area b : uniseg_ok u -> wf_buffer b -> sized area -> 0 <= rx area -> 0 <= ry area -> subrect area (barea b) ->
  receives (snd (new_throbber_state last_id)) ms = (s, acc) ->
  let t := throbber_with_type new_throbber ty in
  exists f, nth_error (frame_set ty) (Z.to_nat (zlen acc mod zlen (frame_set ty))) = Some f /\
    (proper_spin u r r' t f area ->
      throbber_area u r r' t f area <> PlacePanics /\
      forall at_, throbber_area u r r' t f area = At at_ ->
        exists b', throbber_render u r r' t area b s = Some (Ret b') /\ changed_only (fun p => inside p area) b b' /\
          (one_column u f -> zlen f <= rw area -> 1 <= rh area ->
            let x := rx area + (rw area - zlen f + 1) / 2 in let y := ry area + rh area / 2 in
            (forall k c, nth_error f k = Some c -> exists cell, look b (Pos (x + Z.of_nat k) y) = Some cell /\ look b' (Pos (x + Z.of_nat k) y) = Some (cell_set_symbol [c] cell)) /\
            (forall p, ~ (py p = y /\ x <= px p < x + zlen f) -> look b' p = look b p))).
Proof.
  intros Hu W Sz Rx Ry Sub Rc t. destruct (C32_frame_exists ty ms s acc last_id Rc) as (f & Ef & Nf). exists f. split; [exact Nf|]. intros Pr. split; [now apply spin_safe|]. intros at_ E.
  destruct (spin_area_in u r r' t f area at_ Sz ltac:(unfold t; cbn; unfold nonneg_padding; cbn; lia) Pr E) as [Sa Sb].
  unfold throbber_render. change (tw_set t) with (frame_set ty). rewrite Ef, E. set (tx := Text _ _ _).
  destruct (C17_text_stays_inside u tx at_ b Hu W) as (b' & Er & Ch). exists b'. rewrite Er. split; [reflexivity|]. split; [eapply changed_only_weaken; [|exact Ch]; cbn beta; intros p [P _]; now apply Sb|].
  intros O Lw Lh. set (x := rx area + (rw area - zlen f + 1) / 2). set (y := ry area + rh area / 2). assert (If : In f (frame_set ty)) by (eapply nth_error_In; exact Nf). pose proof (zlen_nonneg f) as Z0.
  pose proof (spin_centred u r r' ty f area at_ (zlen f) 1 (frame_size u ty f Hu If O) ltac:(lia) ltac:(lia) Rx Ry Pr E) as Ea. replace (rh area - 1 + 1) with (rh area) in Ea by lia. fold x y in Ea.
  split; [|intros p N; apply Ch; rewrite Ea; unfold inside; cbn; lia].
  intros k c K. assert (Kl : (k < length f)%nat) by (apply nth_error_Some; congruence). assert (Fl : 0 < zlen f) by (unfold zlen; lia).
  assert (Tl : tx_lines tx = [new_line [new_span f]]). { unfold tx. cbn [tx_lines]. unfold new_text_str, new_text. cbn [tx_lines]. rewrite (frame_lines ty f If). destruct f; [cbn in Kl; lia|reflexivity]. }
  assert (EI : intersection at_ (barea b) = at_) by (apply intersection_within; [apply subrect_within; [rewrite Ea; cbn; lia|rewrite Ea; cbn; lia|intros q I; auto]|exact Sa]).
  pose proof (C18_text_placement u tx at_ b Hu W) as P. cbv zeta in P. rewrite EI, Tl in P.
  assert (Vis : visible_line u [new_span f]). { intros sp c' [<-|[]] I. cbn [sp_content new_span] in I. destruct O as [O1 O2]. rewrite O1 in I. apply in_map_iff in I. destruct I as (c0 & <- & I). destruct (O2 c0 I) as [A B]. split; [lia|]. cbn. now rewrite B. }
  destruct P as (b2 & E2 & _ & P & _); [intros l [<-|[]]; exact Vis|rewrite Ea; cbn; lia|rewrite Ea; cbn; lia|]. rewrite Er in E2. injection E2 as <-.
  set (q := Pos (x + Z.of_nat k) y). assert (Iq : inside q at_) by (rewrite Ea; unfold inside, q, zlen; cbn; lia). rewrite (P q Iq). destruct (look_inside b q W ltac:(apply Sub, Sb, Iq)) as (c0 & L). rewrite L. cbn [option_map]. exists c0. split; [reflexivity|].
  replace (py q - ry at_) with 0 by (rewrite Ea; cbn; lia). cbn [Z.to_nat nth_error]. replace (px q - rx at_) with (Z.of_nat k) by (rewrite Ea; cbn; lia). replace (rw at_) with (zlen f) by (rewrite Ea; reflexivity).
  unfold line_cell. cbn [ln_align ln_spans new_line effective tx_align tx]. change (start_column AlignNone (zlen f) (line_width u (new_line [new_span f]))) with 0.
  assert (Lc : line_cells u [new_span f] = map (fun c => ([c], new_style)) (firstn k f) ++ ([c], new_style) :: map (fun c => ([c], new_style)) (skipn (S k) f)).
  { unfold line_cells, span_cells. cbn [flat_map sp_content sp_style new_span]. rewrite app_nil_r. destruct O as [-> _]. rewrite map_map. rewrite <- (firstn_skipn k f) at 1. rewrite map_app. f_equal. assert (Sk : skipn k f = c :: skipn (S k) f) by (clear - K; revert f K; induction k as [|k IH]; intros [|a f] K; try discriminate; [injection K as ->; reflexivity|cbn; now apply IH]). now rewrite Sk. }
  pose proof (visible_of u [new_span f] Hu Vis) as V. rewrite Lc in V.
  assert (Cw : cells_width u (map (fun c => ([c], new_style)) (firstn k f)) = Z.of_nat k).
  { destruct O as [_ O]. assert (H : forall c, In c (firstn k f) -> cwidth u [c] = 1) by (intros c' I; apply O; rewrite <- (firstn_skipn k f); apply in_app_iff; now left). assert (Lk : length (firstn k f) = k) by (rewrite firstn_length; lia). rewrite <- Lk at 2. clear - H. unfold cells_width. rewrite map_map. cbn [fst]. induction (firstn k f) as [|a l IH]; [reflexivity|]. cbn [map length]. rewrite zsum_cons, IH by (intros; apply H; now right). rewrite (H a (or_introl eq_refl)). lia. }
  destruct O as [_ O]. assert (Wc : cwidth u [c] = 1) by (apply O; eapply nth_error_In; exact K).
  pose proof (seen_here u _ [c] new_style _ (zlen f) 0 V) as Sn. rewrite Cw, Wc in Sn. rewrite Z.add_0_l in Sn. rewrite Lc. match goal with |- Some (paint ?x _) = _ => assert (Hx : x = Some (HeadOf [c] new_style)) by (apply Sn; unfold zlen; lia); rewrite Hx end. cbn [paint]. change (tx_style tx) with new_style. rewrite !set_no_style. now destruct (_ <? _).
Qed.

(** ** C70: the row of an input *)
Definition input_row (f : flex) (content : rect) : rect :=
  match f with
  | FlexStart => Rect (rx content) (ry content) (rw content) 1
  | FlexCenter => Rect (rx content) (ry content + rh content / 2) (rw content) 1
  | FlexEnd => Rect (rx content) (ry content + rh content - 1) (rw content) 1
  | _ => content
  end.
Theorem C70_row_partial r w content row : sized content -> 0 <= ry content -> 1 <= rh content -> iw_vertical w <> FlexSpaceAround -> proper_run r (input_layout w) content ->
  split_one r (input_layout w) content = At row -> row = input_row (iw_vertical w) content.
Proof.
  intros Sz Ry Rh Ns Pr E. destruct (iw_vertical w) eqn:F; try congruence; cbn [input_row].
  2-4: pose proof (one_len r (input_layout w) content 1 row Pr eq_refl) as O; cbn [input_layout l_flex l_direction l_padding] in O; rewrite F, (inner_none _ Sz) in O; specialize (O ltac:(tauto)); cbn [low high across] in O; destruct (O ltac:(lia) Ry E) as (A1 & A2 & A3); injection A3 as A3 A4; unfold flexed in A1; destruct row as [x y rw_ rh_]; cbn [rx ry rw rh] in *; f_equal; try lia.
  2: { rewrite A1. f_equal. f_equal. lia. }
  all: pose proof Pr as (Oo & V & R); unfold split_one in E; destruct (M_Layout.split (run_order r) (run_fuel r) (run_vars r) (input_layout w) content) as [segs sps| |] eqn:S0; try discriminate; destruct segs as [|seg segs]; try discriminate; injection E as ->.
  all: pose proof (C68_edges_partial _ _ _ _ _ _ _ Oo V R S0) as H; cbv zeta in H; cbn [input_layout l_direction l_padding l_constraints l_flex length] in H; rewrite (inner_none _ Sz), F in H; destruct (H ltac:(cbn; lia) ltac:(unfold cells_between; cbn; destruct Sz; lia)) as (H1 & H2 & _); specialize (H1 eq_refl row eq_refl); specialize (H2 eq_refl row eq_refl).
  all: destruct (C34_pieces_partial _ _ _ _ _ _ _ Oo V R S0) as (_ & _ & Pc & _); destruct (Pc row (or_introl eq_refl)) as (_ & _ & _ & Ac); cbn [input_layout l_direction l_padding] in Ac; rewrite (inner_none _ Sz) in Ac; cbn [low high across] in *; injection Ac as A1 A2; destruct row, content; cbn in *; f_equal; lia.
Qed.
(** By the calls that make an input: Top, Middle and Bottom put its row there, and change nothing else of it. *)
Theorem C70_builders_partial r w content row put expected : sized content -> 0 <= ry content -> 1 <= rh content ->
  In (put, expected) [(input_top, ry content); (input_middle, ry content + rh content / 2); (input_bottom, ry content + rh content - 1)] ->
  iw_input (put w) = iw_input w /\
  (proper_run r (input_layout (put w)) content -> split_one r (input_layout (put w)) content = At row -> row = Rect (rx content) expected (rw content) 1).
Proof.
  intros Sz Ry Rh B. destruct B as [B|[B|[B|[]]]]; injection B as <- <-; (split; [reflexivity|]); intros Pr E; refine (C70_row_partial r _ content row Sz Ry Rh _ Pr E); discriminate.
Qed.
(** C70: an input draws in its row, which is where Top, Middle and Bottom say, and shows its cursor there; by default its row is the first of its
    content area. *)
Theorem C70_shows_partial u r w area b s row : uniseg_ok u -> wf_buffer b -> sized area -> 0 <= rx area -> opt_padded (ip_block (iw_input w)) -> subrect area (barea b) ->
  let content := opt_block_inner (ip_block (iw_input w)) area in
  0 <= ry content -> 1 <= rh content -> 0 <= rw content -> iw_vertical w <> FlexSpaceAround -> proper_run r (input_layout w) content ->
  split_one r (input_layout w) content = At row ->
  let max_w := rw content - string_width u (ip_prompt (iw_input w)) - 1 in
  0 <= max_w -> view_near u s max_w -> is_show s = true ->
  is_text s <> [] -> clusters u (is_string s) = is_text s ->
  (forall c, In c (is_text s) -> 1 <= cwidth u c <= max_w /\ existsb is_control c = false) ->
  (forall c, In c (clusters u (ip_prompt (iw_input w))) -> 1 <= cwidth u c /\ existsb is_control c = false) ->
  clusters u [32%N] = [[32%N]] -> cwidth u [32%N] = 1 ->
  exists b' f l before, input_draw u r w area b s = Some (Ret (b', IState (is_cursor s) true (is_text s) f)) /\
    changed_only (fun p => inside p area) b b' /\
    0 <= f <= is_cursor s /\ is_cursor s <= l <= zlen (is_text s) /\
    let lw := string_width u (ip_prompt (iw_input w)) + widths u (slice (is_text s) f l) + (if is_cursor s <? l then 0 else 1) in
    lw <= rw content /\
    let at_ := Pos (rx content + start_column (ip_align (iw_input w)) (rw content) lw + string_width u (ip_prompt (iw_input w)) + widths u (slice (is_text s) f (is_cursor s)))
                   (match iw_vertical w with FlexCenter => ry content + rh content / 2 | FlexEnd => ry content + rh content - 1 | _ => ry content end) in
    inside at_ content /\
    look b' at_ = Some (cell_set_style (patched new_style (ip_cursor_style (iw_input w))) (cell_set_symbol (at_cursor (is_text s) (is_cursor s) l) before)).
Proof.
  intros Hu W Sz Rx Pk Sub content Ry Rh Rw Ns Pr E max_w M0 Vn Sh Ne Seg Fit Prm Sp1 Sp2.
  pose proof (C70_row_partial r w content row ltac:(split; lia) Ry Rh Ns Pr E) as Er.
  assert (Dm : rx row = rx content /\ rw row = rw content /\ 1 <= rh row /\ ry row = match iw_vertical w with FlexCenter => ry content + rh content / 2 | FlexEnd => ry content + rh content - 1 | _ => ry content end) by (rewrite Er; unfold input_row; destruct (iw_vertical w); cbn; repeat split; lia). destruct Dm as (D1 & D2 & D3 & D4).
  assert (Hin : forall p, inside p row -> inside p content). { assert (Hd : 0 <= rh content / 2 < rh content) by (split; [apply Z.div_pos; lia|apply Z.div_lt_upper_bound; lia]). intros p I. rewrite Er in I. unfold input_row in I. unfold inside in *. destruct (iw_vertical w); cbn in *; lia. }
  assert (Bnd := C26_render_shows_cursor u (fun _ => row) (iw_input w) area b s Hu W Sz Rx Pk Sub). cbv zeta beta in Bnd. fold content in Bnd. rewrite D1, D2, D4 in Bnd. fold max_w in Bnd.
  destruct (Bnd Hin D3 M0 Vn Sh Ne Seg Fit Prm Sp1 Sp2) as (b' & f & l & before_ & G1 & G2 & G3 & G4 & G5 & G6 & G7). exists b', f, l, before_. unfold input_draw. fold content. rewrite E, G1. split; [reflexivity|]. split; [exact G2|]. split; [exact G3|]. split; [exact G4|]. split; [exact G5|]. split; [apply Hin; exact G6|exact G7].
Qed.

(** C70: whatever the state of the input, if drawing it returns, only cells of its area have changed, and its text and its cursor are kept. *)
Theorem C70_inside_partial u r w area b s : uniseg_ok u -> wf_buffer b -> sized area -> 0 <= rx area -> opt_padded (ip_block (iw_input w)) -> subrect area (barea b) ->
  let content := opt_block_inner (ip_block (iw_input w)) area in
  sized content -> proper_run r (input_layout w) content ->
  split_one r (input_layout w) content <> PlacePanics /\
  forall b' s', input_draw u r w area b s = Some (Ret (b', s')) -> changed_only (fun p => inside p area) b b' /\ is_text s' = is_text s /\ is_cursor s' = is_cursor s /\ is_show s' = is_show s.
Proof.
  intros Hu W Sz Rx Pk Sub content Sc Pr. split; [apply split_one_safe; [discriminate|exact Pr]|]. intros b' s' E. unfold input_draw in E. fold content in E. destruct (split_one r (input_layout w) content) as [row| |] eqn:S0; try discriminate. injection E as E.
  pose proof (split_one_piece _ _ _ _ Pr S0) as P1. cbn [input_layout l_direction l_padding] in P1. rewrite (inner_none _ Sc) in P1. destruct (piece_in _ _ _ Sc P1) as (_ & Hin & _).
  destruct (C26_draws_inside u (fun _ => row) (iw_input w) area b s Hu W Sz Rx Pk Sub Hin) as [Pn|(b2 & s2 & E2 & H)]; [rewrite E in Pn; discriminate|]. rewrite E in E2. injection E2 as <- <-. exact H.
Qed.
(** After an edit of any length, the input not having scrolled yet *)
Theorem C70_paste_partial u r w area b s row : uniseg_ok u -> wf_buffer b -> sized area -> 0 <= rx area -> opt_padded (ip_block (iw_input w)) -> subrect area (barea b) ->
  let content := opt_block_inner (ip_block (iw_input w)) area in
  0 <= ry content -> 1 <= rh content -> 0 <= rw content -> iw_vertical w <> FlexSpaceAround -> proper_run r (input_layout w) content ->
  split_one r (input_layout w) content = At row ->
  let max_w := rw content - string_width u (ip_prompt (iw_input w)) - 1 in
  1 <= max_w -> is_offset s = 0 -> 0 <= is_cursor s <= zlen (is_text s) -> is_show s = true ->
  is_text s <> [] -> clusters u (is_string s) = is_text s ->
  (forall c, In c (is_text s) -> cwidth u c = 1 /\ existsb is_control c = false) ->
  (forall c, In c (clusters u (ip_prompt (iw_input w))) -> 1 <= cwidth u c /\ existsb is_control c = false) ->
  clusters u [32%N] = [[32%N]] -> cwidth u [32%N] = 1 ->
  exists b' f l before, input_draw u r w area b s = Some (Ret (b', IState (is_cursor s) true (is_text s) f)) /\
    changed_only (fun p => inside p area) b b' /\
    0 <= f <= is_cursor s /\ is_cursor s <= l <= zlen (is_text s) /\
    let lw := string_width u (ip_prompt (iw_input w)) + widths u (slice (is_text s) f l) + (if is_cursor s <? l then 0 else 1) in
    lw <= rw content /\
    let at_ := Pos (rx content + start_column (ip_align (iw_input w)) (rw content) lw + string_width u (ip_prompt (iw_input w)) + widths u (slice (is_text s) f (is_cursor s)))
                   (match iw_vertical w with FlexCenter => ry content + rh content / 2 | FlexEnd => ry content + rh content - 1 | _ => ry content end) in
    inside at_ content /\
    look b' at_ = Some (cell_set_style (patched new_style (ip_cursor_style (iw_input w))) (cell_set_symbol (at_cursor (is_text s) (is_cursor s) l) before)).
Proof.
  intros Hu W Sz Rx Pk Sub content Ry Rh Rw Ns Pr E max_w M0 Of Cu Sh Ne Seg Fit Prm Sp1 Sp2.
  pose proof (C70_row_partial r w content row ltac:(split; lia) Ry Rh Ns Pr E) as Er.
  assert (Dm : rx row = rx content /\ rw row = rw content /\ 1 <= rh row /\ ry row = match iw_vertical w with FlexCenter => ry content + rh content / 2 | FlexEnd => ry content + rh content - 1 | _ => ry content end) by (rewrite Er; unfold input_row; destruct (iw_vertical w); cbn; repeat split; lia). destruct Dm as (D1 & D2 & D3 & D4).
  assert (Hin : forall p, inside p row -> inside p content). { assert (Hd : 0 <= rh content / 2 < rh content) by (split; [apply Z.div_pos; lia|apply Z.div_lt_upper_bound; lia]). intros p I. rewrite Er in I. unfold input_row in I. unfold inside in *. destruct (iw_vertical w); cbn in *; lia. }
  assert (Bnd := C26_paste_shows_cursor u (fun _ => row) (iw_input w) area b s Hu W Sz Rx Pk Sub). cbv zeta beta in Bnd. fold content in Bnd. rewrite D1, D2, D4 in Bnd. fold max_w in Bnd.
  destruct (Bnd Hin D3 M0 Of Cu Sh Ne Seg Fit Prm Sp1 Sp2) as (b' & f & l & before_ & G1 & G2 & G3 & G4 & G5 & G6 & G7). exists b', f, l, before_. unfold input_draw. fold content. rewrite E, G1. split; [reflexivity|]. split; [exact G2|]. split; [exact G3|]. split; [exact G4|]. split; [exact G5|]. split; [apply Hin; exact G6|exact G7].
Qed.
End Tolerance.
(** ** With comparisons exact, whatever the order in which maps are walked *)
Section Exact.
#[local] Existing Instance no_tolerance.
Lemma any_spin u r r' t f area : any_run r (throbber_rows u t f) -> any_run r' (throbber_columns u t f) -> proper_spin u r r' t f area.
Proof. intros [O V] [O' V']. split; [|intros rows _]; (split; [assumption|]; split; [assumption|]); apply few_regular; try assumption; apply C38_counts; left; cbn; lia. Qed.
Lemma any_input r w area : any_run r (input_layout w) -> proper_run r (input_layout w) area.
Proof. intros [O V]. split; [assumption|]. split; [assumption|]. apply few_regular; try assumption; apply C38_counts; left; cbn; lia. Qed.
Theorem C69_exact_partial u r r' ty ms s acc last_id area b : uniseg_ok u -> wf_buffer b -> sized area -> 0 <= rx area -> 0 <= ry area -> subrect area (barea b) ->
  receives (snd (new_throbber_state last_id)) ms = (s, acc) ->
  let t := throbber_with_type new_throbber ty in
  exists f, nth_error (frame_set ty) (Z.to_nat (zlen acc mod zlen (frame_set ty))) = Some f /\
    (any_run r (throbber_rows u t f) -> any_run r' (throbber_columns u t f) ->
      throbber_area u r r' t f area <> PlacePanics /\
      forall at_, throbber_area u r r' t f area = At at_ ->
        exists b', throbber_render u r r' t area b s = Some (Ret b') /\ changed_only (fun p => inside p area) b b' /\
          (one_column u f -> zlen f <= rw area -> 1 <= rh area ->
            let x := rx area + (rw area - zlen f + 1) / 2 in let y := ry area + rh area / 2 in
            (forall k c, nth_error f k = Some c -> exists cell, look b (Pos (x + Z.of_nat k) y) = Some cell /\ look b' (Pos (x + Z.of_nat k) y) = Some (cell_set_symbol [c] cell)) /\
            (forall p, ~ (py p = y /\ x <= px p < x + zlen f) -> look b' p = look b p))).
Proof.
  intros Hu W Sz Rx Ry Sub Rc t. destruct (C69_shows_partial u r r' ty ms s acc last_id area b Hu W Sz Rx Ry Sub Rc) as (f & Nf & H). exists f. split; [exact Nf|]. intros A B. apply H. now apply any_spin.
Qed.
Theorem C70_exact_partial r w content row : sized content -> 0 <= ry content -> 1 <= rh content -> iw_vertical w <> FlexSpaceAround -> any_run r (input_layout w) ->
  split_one r (input_layout w) content = At row -> row = input_row (iw_vertical w) content.
Proof. intros Sz Ry Rh Ns A E. now apply (C70_row_partial r); auto using any_input. Qed.
End Exact.
(** ** Instances *)
#[local] Existing Instance code_tolerance.
(** The first frame of a meter, in an area of seven columns and four lines: columns 4 to 6 of line 3 *)
Example C69_instance : let t := throbber_with_type new_throbber TypeMeter in let f := [9649; 9649; 9649]%N in
  proper_spin simple_uniseg (a_run (LLen 1)) (a_run (LLen 3)) t f (Rect 2 1 7 4) /\ one_column simple_uniseg f /\
  throbber_area simple_uniseg (a_run (LLen 1)) (a_run (LLen 3)) t f (Rect 2 1 7 4) = At (Rect 4 3 3 1) /\
  nth_error (frame_set TypeMeter) 0 = Some f.
Proof.
  cbv zeta. split; [|split; [|split; [vm_compute; reflexivity|reflexivity]]].
  - split; [apply a_run_proper; vm_compute; reflexivity|]. intros rows E. assert (E' : rows = Rect 2 3 7 1) by (vm_compute in E; injection E as <-; reflexivity). subst rows. apply a_run_proper; vm_compute; reflexivity.
  - split; [reflexivity|]. intros c I. cbn in I. repeat (destruct I as [<-|I]; [split; reflexivity|]). destruct I.
Qed.
(** Inputs at the top, in the middle, at the bottom of five lines, and by default *)
Example C70_instance : (forall w, In w [input_top new_input; input_middle new_input; input_bottom new_input; new_input] -> proper_run (a_run (LLen 1)) (input_layout w) (Rect 1 1 8 5)) /\
  map (fun w => split_one (a_run (LLen 1)) (input_layout w) (Rect 1 1 8 5)) [input_top new_input; input_middle new_input; input_bottom new_input; new_input] = [At (Rect 1 1 8 1); At (Rect 1 3 8 1); At (Rect 1 5 8 1); At (Rect 1 1 8 5)].
Proof.
  split; [|vm_compute; reflexivity]. intros w I. cbn [In] in I. repeat (destruct I as [<-|I]; [apply a_run_proper; vm_compute; reflexivity|]). destruct I.
Qed.
Print Assumptions C69_shows_partial.
Print Assumptions C69_exact_partial.
Print Assumptions C70_row_partial.
Print Assumptions C70_builders_partial.
Print Assumptions C70_shows_partial.
Print Assumptions C70_paste_partial.
Print Assumptions C70_inside_partial.
Print Assumptions C70_exact_partial.
