(** C65, C69, C70 with the arithmetic of float64. *)
From Verif Require Import Base P_Base M_Geom M_Solver M_Layout M_Rounded S_Solver S_Layout S_Place S_Rounded P_Row P_Layout P_Sum P_Place P_Placed T_Solver T_Layout T_Place T_Exact T_Apart T_Tile T_Ends T_Rounded.
From Verif Require Import S_Geom T_Geom M_Style M_Uniseg M_Buffer S_Buffer P_Buffer P_SetString T_Buffer M_Text S_Text S_Line P_Text T_Text T_TextRows M_Block S_Block P_Block T_Block M_Popup T_Popup.
From Verif Require Import M_Slice M_List T_List M_Input T_Input M_Throbber T_Throbber M_View T_View M_View64.
From Coq Require Import ZArith NArith QArith List Bool Lia Permutation.
Import ListNotations.
Open Scope Z_scope.
#[local] Existing Instance no_tolerance.

(** Rectangles whose corners an int32 can hold *)
Definition int32_rect (r : rect) : Prop := int32 (rx r) /\ int32 (ry r) /\ int32 (rx r + rw r) /\ int32 (ry r + rh r).
Lemma int32_inner r d : sized r -> nonneg_padding d -> int32_rect r -> int32_rect (inner r d).
Proof.
  intros [W H] (P1 & P2 & P3 & P4) I. unfold int32_rect, int32 in *. unfold inner. destruct ((rw r <? pright d + pleft d) || (rh r <? ptop d + pbottom d)) eqn:E; [cbn; lia|]. apply orb_false_iff in E. destruct E as [E1 E2]. apply Z.ltb_ge in E1, E2. cbn [rx ry rw rh]. lia.
Qed.
Lemma int32_piece d a r : int32_rect a -> piece d a r -> int32_rect r.
Proof. intros I (P1 & P2 & P3 & P4). unfold int32_rect, int32 in *. destruct d; cbn in *; injection P4 as P4 P5; lia. Qed.
(** A size in cells that an int32 can hold *)
Definition cells32 (c : lconstraint) : Prop := in_cells c /\ int32 (asked c).
Lemma one_whole l c area : l_constraints l = [c] -> cells32 c -> l_spacing l = SpSpace 0 -> sized area -> nonneg_padding (l_padding l) -> int32_rect area -> whole_layout l area.
Proof.
  intros E [C1 C2] Es Sz Pd I. assert (In' : forall c', In c' (l_constraints l) -> c' = c) by (intros c' J; rewrite E in J; destruct J as [<-|[]]; reflexivity).
  split; [split; [intros c' J; now rewrite (In' c' J)|right; rewrite E; cbn; lia]|]. split; [|apply C38_counts; left; rewrite E; cbn; lia].
  split; [intros c' J; now rewrite (In' c' J)|]. rewrite Es. split; [unfold int32; cbn; lia|]. destruct (int32_inner area _ Sz Pd I) as (A & B & C & D). destruct (l_direction l); cbn [low high]; auto.
Qed.
Lemma one_same r l area : any_run r l -> whole_layout l area -> @split_one M_Rounded.float64 code_tolerance r l area = split_one r l area.
Proof.
  intros [O V] W. pose proof (C75_float64_partial (run_order r) (run_fuel r) (run_vars r) l area O V W) as E. unfold split64 in E. unfold split_one. now rewrite E.
Qed.
Lemma two_same r r' rows_ cols_ h w area d : any_run r rows_ -> any_run r' cols_ -> l_constraints rows_ = [h] -> l_constraints cols_ = [w] -> l_spacing rows_ = SpSpace 0 -> l_spacing cols_ = SpSpace 0 -> l_padding rows_ = d -> l_padding cols_ = d ->
  cells32 h -> cells32 w -> nonneg_padding d -> sized area -> int32_rect area ->
  match @split_one M_Rounded.float64 code_tolerance r rows_ area with At rows => @split_one M_Rounded.float64 code_tolerance r' cols_ rows | x => x end = match split_one r rows_ area with At rows => split_one r' cols_ rows | x => x end.
Proof.
  intros R R' E1 E2 S1 S2 D1 D2 C1 C2 Pd Sz I. assert (W1 : whole_layout rows_ area) by (apply (one_whole _ h); try assumption; now rewrite D1). rewrite (one_same r rows_ area R W1). destruct (split_one r rows_ area) as [rows| |] eqn:E; try reflexivity.
  destruct R as [O V]. assert (Pr : proper_run r rows_ area) by (split; [exact O|]; split; [exact V|]; apply few_regular; try assumption; apply C38_counts; left; rewrite E1; cbn; lia).
  pose proof (split_one_piece _ _ _ _ Pr E) as Pc. rewrite D1 in Pc. destruct (inner_in area d Sz Pd) as (A1 & _). destruct (piece_in _ _ _ A1 Pc) as (B1 & _).
  apply one_same; [exact R'|]. apply (one_whole _ w); try assumption; [now rewrite D2|]. eapply int32_piece; [|exact Pc]. now apply int32_inner.
Qed.

(** ** C65 *)
Definition popup32 (p : popup) : Prop := cells32 (pp_width p) /\ cells32 (pp_height p) /\ nonneg_padding (pp_padding p).
Lemma popup_same r r' p area : any_run r (popup_rows p) -> any_run r' (popup_columns p) -> popup32 p -> sized area -> int32_rect area -> popup_area64 r r' p area = popup_area r r' p area.
Proof. intros R R' (C1 & C2 & Pd) Sz I. exact (two_same r r' _ _ (pp_height p) (pp_width p) area (pp_padding p) R R' eq_refl eq_refl eq_refl eq_refl eq_refl eq_refl C2 C1 Pd Sz I). Qed.
(** Whatever the order of the maps, with the arithmetic of float64 and the tolerance of the code: a popup whose width and height are in cells does
    not panic, lies in its area, changes nothing else, and is blank inside. *)
Theorem C65_float64_partial u r r' p area b : uniseg_ok u -> wf_buffer b -> sized area -> 0 <= rx area -> subrect area (barea b) ->
  popup32 p -> int32_rect area -> (forall k, pp_block p = Some k -> padded k) -> any_run r (popup_rows p) -> any_run r' (popup_columns p) ->
  popup_area64 r r' p area <> PlacePanics /\
  forall at_, popup_area64 r r' p area = At at_ ->
    sized at_ /\ subrect at_ area /\ popup_inner64 r r' p area = Some (Ret (popup_inner_at p at_)) /\ subrect (popup_inner_at p at_) at_ /\
    exists b', popup_render64 u r r' p area b = Some (Ret b') /\ changed_only (fun q => inside q at_) b b' /\
      forall q, inside q (popup_inner_at p at_) ->
        look b' q = Some (match pp_block p with Some k => cell_set_style (bk_style k) (cell_set_style (pp_style p) empty_cell) | None => cell_set_style (pp_style p) empty_cell end).
Proof.
  intros U W Sz X Sb P32 I Pk R R'. pose proof (C65_exact_partial u r r' p area b U W Sz X Sb (proj2 (proj2 P32)) Pk R R') as H. pose proof (popup_same r r' p area R R' P32 Sz I) as E.
  unfold popup_render64, popup_inner64, popup_render, popup_inner. fold (popup_area64 r r' p area). unfold popup_render, popup_inner in H. rewrite E. exact H.
Qed.
(** And by the calls that make a popup, it has the size and the place that it was given. *)
Theorem C65_placed64_partial r r' p area at_ w h left_right top_bottom x y : sized area -> 0 <= rx area -> 0 <= ry area -> int32_rect area -> pp_padding p = Padding 0 0 0 0 -> 0 <= w <= rw area -> 0 <= h <= rh area ->
  In (left_right, x) [(popup_left, rx area); (popup_center, rx area + (rw area - w + 1) / 2); (popup_right, rx area + rw area - w)] ->
  In (top_bottom, y) [(popup_top, ry area); (popup_middle, ry area + (rh area - h + 1) / 2); (popup_bottom, ry area + rh area - h)] ->
  let q := popup_with_height (popup_with_width (top_bottom (left_right p)) (LLen w)) (LLen h) in
  any_run r (popup_rows q) -> any_run r' (popup_columns q) -> popup_area64 r r' q area = At at_ -> at_ = Rect x y w h.
Proof.
  intros Sz Rx Ry I Pd Hw Hh X Y q R R' E. destruct (C65_builders_partial r r' p area at_ w h left_right top_bottom x y Sz Rx Ry Pd Hw Hh X Y) as (_ & _ & H). apply H; [now apply any_proper|].
  rewrite <- E. symmetry. apply popup_same; try assumption. assert (Hi : int32 w /\ int32 h) by (unfold int32_rect, int32 in *; lia). 
  assert (Q : pp_padding q = pp_padding p) by (unfold q; destruct X as [X|[X|[X|[]]]]; injection X as <- _; destruct Y as [Y|[Y|[Y|[]]]]; injection Y as <- _; reflexivity).
  split; [split; [exact Logic.I|apply Hi]|]. split; [split; [exact Logic.I|apply Hi]|]. fold q. rewrite Q, Pd. unfold nonneg_padding. cbn. lia.
Qed.

(** ** C69 *)
Theorem C69_float64_partial u r r' ty ms s acc last_id area b : uniseg_ok u -> wf_buffer b -> sized area -> 0 <= rx area -> 0 <= ry area -> int32_rect area -> subrect area (barea b) ->
  receives (snd (new_throbber_state last_id)) ms = (s, acc) ->
  let t := throbber_with_type new_throbber ty in
  exists f, nth_error (frame_set ty) (Z.to_nat (zlen acc mod zlen (frame_set ty))) = Some f /\
    (one_column u f -> any_run r (throbber_rows u t f) -> any_run r' (throbber_columns u t f) ->
      throbber_area64 u r r' t f area <> PlacePanics /\
      forall at_, throbber_area64 u r r' t f area = At at_ ->
        exists b', throbber_render64 u r r' t area b s = Some (Ret b') /\ changed_only (fun p => inside p area) b b' /\
          (zlen f <= rw area -> 1 <= rh area ->
            let x := rx area + (rw area - zlen f + 1) / 2 in let y := ry area + rh area / 2 in
            (forall k c, nth_error f k = Some c -> exists cell, look b (Pos (x + Z.of_nat k) y) = Some cell /\ look b' (Pos (x + Z.of_nat k) y) = Some (cell_set_symbol [c] cell)) /\
            (forall p, ~ (py p = y /\ x <= px p < x + zlen f) -> look b' p = look b p))).
Proof.
  intros Hu W Sz Rx Ry I Sub Rc t. destruct (C69_exact_partial u r r' ty ms s acc last_id area b Hu W Sz Rx Ry Sub Rc) as (f & Nf & H). exists f. split; [exact Nf|]. intros O A B.
  assert (If : In f (frame_set ty)) by (eapply nth_error_In; exact Nf).
  assert (Lf : zlen f <= 10) by (clear - If; destruct ty; cbn in If; repeat (destruct If as [<-|If]; [vm_compute; discriminate|]); destruct If). pose proof (zlen_nonneg f) as Z0.
  assert (E : throbber_area64 u r r' t f area = throbber_area u r r' t f area).
  { apply (two_same r r' (throbber_rows u t f) (throbber_columns u t f) (LLen 1) (LLen (zlen f)) area (Padding 0 0 0 0)); try assumption; try reflexivity.
    - unfold throbber_rows. now rewrite (frame_size u ty f Hu If O).
    - unfold throbber_columns. now rewrite (frame_size u ty f Hu If O).
    - split; [exact Logic.I|unfold int32; cbn; lia].
    - split; [exact Logic.I|unfold int32; cbn [asked]; lia].
    - unfold nonneg_padding. cbn. lia. }
  destruct (H A B) as [H1 H2]. rewrite E. split; [exact H1|]. intros at_ Ea. destruct (H2 at_ Ea) as (b' & Er & Ch & Sh). exists b'. split; [|split; [exact Ch|exact (Sh O)]]. rewrite <- Er.
  destruct (C32_frame_exists ty ms s acc last_id Rc) as (g & Eg & Ng). rewrite Nf in Ng. injection Ng as <-.
  unfold throbber_render64, throbber_render. fold t. change (tw_set t) with (frame_set ty). rewrite Eg. change (@throbber_area M_Rounded.float64 code_tolerance u r r' t f area) with (throbber_area64 u r r' t f area). rewrite E. reflexivity.
Qed.

(** ** C70 *)
Lemma input_same r w content : any_run r (input_layout w) -> sized content -> int32_rect content -> @split_one M_Rounded.float64 code_tolerance r (input_layout w) content = split_one r (input_layout w) content.
Proof. intros R Sz I. apply one_same; [exact R|]. apply (one_whole _ (LLen 1)); try assumption; try reflexivity; [split; [exact Logic.I|unfold int32; cbn; lia]|unfold nonneg_padding; cbn; lia]. Qed.
Lemma draw_same u r w area b s : any_run r (input_layout w) -> let content := opt_block_inner (ip_block (iw_input w)) area in sized content -> int32_rect content -> input_draw64 u r w area b s = input_draw u r w area b s.
Proof. intros R content Sz I. unfold input_draw64, input_draw. fold content. rewrite (input_same r w content R Sz I). reflexivity. Qed.
(** An input draws in its area, and keeps its text and its cursor. *)
Theorem C70_float64_partial u r w area b s : uniseg_ok u -> wf_buffer b -> sized area -> 0 <= rx area -> opt_padded (ip_block (iw_input w)) -> subrect area (barea b) ->
  let content := opt_block_inner (ip_block (iw_input w)) area in
  sized content -> int32_rect content -> any_run r (input_layout w) ->
  @split_one M_Rounded.float64 code_tolerance r (input_layout w) content <> PlacePanics /\
  forall b' s', input_draw64 u r w area b s = Some (Ret (b', s')) -> changed_only (fun p => inside p area) b b' /\ is_text s' = is_text s /\ is_cursor s' = is_cursor s /\ is_show s' = is_show s.
Proof.
  intros Hu W Sz Rx Pk Sub content Sc I R. rewrite (input_same r w content R Sc I). rewrite (draw_same u r w area b s R Sc I). exact (C70_inside_partial u r w area b s Hu W Sz Rx Pk Sub Sc (any_input r w content R)).
Qed.
(** It draws in its row, which is where Top, Middle and Bottom say, and shows its cursor there. *)
Theorem C70_shows64_partial u r w area b s row : uniseg_ok u -> wf_buffer b -> sized area -> 0 <= rx area -> opt_padded (ip_block (iw_input w)) -> subrect area (barea b) ->
  let content := opt_block_inner (ip_block (iw_input w)) area in
  0 <= ry content -> 1 <= rh content -> 0 <= rw content -> int32_rect content -> iw_vertical w <> FlexSpaceAround -> any_run r (input_layout w) ->
  @split_one M_Rounded.float64 code_tolerance r (input_layout w) content = At row ->
  let max_w := rw content - string_width u (ip_prompt (iw_input w)) - 1 in
  0 <= max_w -> view_near u s max_w -> is_show s = true ->
  is_text s <> [] -> clusters u (is_string s) = is_text s ->
  (forall c, In c (is_text s) -> 1 <= cwidth u c <= max_w /\ existsb is_control c = false) ->
  (forall c, In c (clusters u (ip_prompt (iw_input w))) -> 1 <= cwidth u c /\ existsb is_control c = false) ->
  clusters u [32%N] = [[32%N]] -> cwidth u [32%N] = 1 ->
  exists b' f l before, input_draw64 u r w area b s = Some (Ret (b', IState (is_cursor s) true (is_text s) f)) /\
    changed_only (fun p => inside p area) b b' /\
    0 <= f <= is_cursor s /\ is_cursor s <= l <= zlen (is_text s) /\
    let lw := string_width u (ip_prompt (iw_input w)) + widths u (slice (is_text s) f l) + (if is_cursor s <? l then 0 else 1) in
    lw <= rw content /\
    let at_ := Pos (rx content + start_column (ip_align (iw_input w)) (rw content) lw + string_width u (ip_prompt (iw_input w)) + widths u (slice (is_text s) f (is_cursor s)))
                   (match iw_vertical w with FlexCenter => ry content + rh content / 2 | FlexEnd => ry content + rh content - 1 | _ => ry content end) in
    inside at_ content /\
    look b' at_ = Some (cell_set_style (patched new_style (ip_cursor_style (iw_input w))) (cell_set_symbol (at_cursor (is_text s) (is_cursor s) l) before)).
Proof.
  intros Hu W Sz Rx Pk Sub content Ry Rh Rw I Ns R E. assert (Sc : sized content) by (split; lia). rewrite (input_same r w content R Sc I) in E. rewrite (draw_same u r w area b s R Sc I).
  exact (C70_shows_partial u r w area b s row Hu W Sz Rx Pk Sub Ry Rh Rw Ns (any_input r w content R) E).
Qed.

(** ** However the maps were walked so far, each of these can still end. *)
Lemma one_ends : exists b, forall order n vs l c area, any_order order -> vars_ok vs l -> whole_layout l area -> l_constraints l = [c] ->
  exists order', any_order order' /\ (forall k x, (k < n)%nat -> order' k x = order k x) /\ forall fuel, (n + b <= fuel)%nat -> exists seg, @split_one M_Rounded.float64 code_tolerance (Run order' fuel vs) l area = At seg.
Proof.
  destruct C75_can_end_partial as (b & H). exists b. intros order n vs l c area O V W Ec. destruct (H order n vs l area O V W) as (o & O' & Ag & K). exists o. split; [exact O'|]. split; [exact Ag|]. intros fuel Hf. destruct (K fuel Hf) as (segs & sps & E).
  destruct (C75_pieces_partial o fuel vs l area segs sps O' V W E) as (Ls & _). rewrite Ec in Ls. destruct segs as [|seg segs]; [discriminate|]. exists seg. unfold split_one. cbn [run_order run_fuel run_vars]. unfold split64 in E. now rewrite E.
Qed.
Theorem C70_can_end_partial : exists b, forall order n vs w content, any_order order -> vars_ok vs (input_layout w) -> sized content -> int32_rect content ->
  exists order', any_order order' /\ (forall k x, (k < n)%nat -> order' k x = order k x) /\
    forall fuel, (n + b <= fuel)%nat -> exists row, @split_one M_Rounded.float64 code_tolerance (Run order' fuel vs) (input_layout w) content = At row.
Proof.
  destruct one_ends as (b & H). exists b. intros order n vs w content O V Sz I. apply (H order n vs (input_layout w) (LLen 1) content O V); [|reflexivity]. apply (one_whole _ (LLen 1)); try assumption; try reflexivity; [split; [exact Logic.I|unfold int32; cbn; lia]|unfold nonneg_padding; cbn; lia].
Qed.
Theorem C65_can_end_partial : exists b, forall order order1 n n1 vs vs1 p area, any_order order -> any_order order1 -> vars_ok vs (popup_rows p) -> vars_ok vs1 (popup_columns p) -> popup32 p -> sized area -> int32_rect area ->
  exists order' order1', any_order order' /\ any_order order1' /\ (forall k x, (k < n)%nat -> order' k x = order k x) /\ (forall k x, (k < n1)%nat -> order1' k x = order1 k x) /\
    exists at_, popup_area64 (Run order' (n + b) vs) (Run order1' (n1 + b) vs1) p area = At at_.
Proof.
  destruct one_ends as (b & H). exists b. intros order order1 n n1 vs vs1 p area O O1 V V1 (C1 & C2 & Pd) Sz I.
  assert (W1 : whole_layout (popup_rows p) area) by (apply (one_whole _ (pp_height p)); try assumption; reflexivity).
  destruct (H order n vs (popup_rows p) (pp_height p) area O V W1 eq_refl) as (o & O' & Ag & K). destruct (K (n + b)%nat (le_n _)) as (rows & E).
  assert (R : any_run (Run o (n + b) vs) (popup_rows p)) by (split; assumption). assert (E' := E). rewrite (one_same _ _ _ R W1) in E'.
  assert (Pr : proper_run (Run o (n + b) vs) (popup_rows p) area) by (split; [exact O'|]; split; [exact V|]; apply few_regular; try assumption; apply C38_counts; left; cbn; lia).
  pose proof (split_one_piece _ _ _ _ Pr E') as Pc. cbn [popup_rows l_padding l_direction] in Pc. destruct (inner_in area _ Sz Pd) as (A1 & _). destruct (piece_in _ _ _ A1 Pc) as (B1 & _).
  assert (W2 : whole_layout (popup_columns p) rows) by (apply (one_whole _ (pp_width p)); try assumption; try reflexivity; eapply int32_piece; [|exact Pc]; now apply int32_inner).
  destruct (H order1 n1 vs1 (popup_columns p) (pp_width p) rows O1 V1 W2 eq_refl) as (o1 & O1' & Ag1 & K1). destruct (K1 (n1 + b)%nat (le_n _)) as (at_ & E1).
  exists o, o1. split; [exact O'|]. split; [exact O1'|]. split; [exact Ag|]. split; [exact Ag1|]. exists at_. unfold popup_area64, popup_area. rewrite E. exact E1.
Qed.
(** *** Instances, in float64 *)
Example C65_float64_instance : popup32 a_popup /\ int32_rect (Rect 3 2 20 10) /\ any_run (a_run (LLen 3)) (popup_rows a_popup) /\ any_run (a_run (LLen 5)) (popup_columns a_popup) /\
  popup_area64 (a_run (LLen 3)) (a_run (LLen 5)) a_popup (Rect 3 2 20 10) = At (Rect 11 9 5 3).
Proof.
  split; [split; [split; [exact Logic.I|unfold int32; cbn; lia]|split; [split; [exact Logic.I|unfold int32; cbn; lia]|unfold nonneg_padding; cbn; lia]]|]. split; [unfold int32_rect, int32; cbn; lia|]. split; [split; [apply keep_any|exact (vars_for_ok (popup_rows a_popup))]|]. split; [split; [apply keep_any|exact (vars_for_ok (popup_columns a_popup))]|]. vm_compute. reflexivity.
Qed.
Example C69_float64_instance : let t := throbber_with_type new_throbber TypeMeter in let f := [9649; 9649; 9649]%N in
  one_column simple_uniseg f /\ int32_rect (Rect 2 1 7 4) /\ any_run (a_run (LLen 1)) (throbber_rows simple_uniseg t f) /\ any_run (a_run (LLen 3)) (throbber_columns simple_uniseg t f) /\
  throbber_area64 simple_uniseg (a_run (LLen 1)) (a_run (LLen 3)) t f (Rect 2 1 7 4) = At (Rect 4 3 3 1).
Proof.
  cbv zeta. split; [apply C69_instance|]. split; [unfold int32_rect, int32; cbn; lia|]. split; [split; [apply keep_any|exact (vars_for_ok (throbber_rows simple_uniseg (throbber_with_type new_throbber TypeMeter) [9649; 9649; 9649]%N))]|]. split; [split; [apply keep_any|exact (vars_for_ok (throbber_columns simple_uniseg (throbber_with_type new_throbber TypeMeter) [9649; 9649; 9649]%N))]|]. vm_compute. reflexivity.
Qed.
Example C70_float64_instance : int32_rect (Rect 1 1 8 5) /\ any_run (a_run (LLen 1)) (input_layout (input_middle new_input)) /\
  @split_one M_Rounded.float64 code_tolerance (a_run (LLen 1)) (input_layout (input_middle new_input)) (Rect 1 1 8 5) = At (Rect 1 3 8 1).
Proof. split; [unfold int32_rect, int32; cbn; lia|]. split; [split; [apply keep_any|exact (vars_for_ok (input_layout (input_middle new_input)))]|]. vm_compute. reflexivity. Qed.
Print Assumptions C65_float64_partial.
Print Assumptions C65_placed64_partial.
Print Assumptions C65_can_end_partial.
Print Assumptions C69_float64_partial.
Print Assumptions C70_float64_partial.
Print Assumptions C70_shows64_partial.
Print Assumptions C70_can_end_partial.
