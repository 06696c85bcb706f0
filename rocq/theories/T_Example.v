(** C101: what the program of examples/input shows. *)
From Verif Require Import S_Keys T_Decode T_Stream T_AppRuns T_KeyName P_SetString T_Output.
From Verif Require Import M_Solver M_Layout T_Layout M_Rounded S_Rounded M_Popup T_Popup T_Percent M_View M_View64 T_View64.
From Verif Require Import Base P_Base M_Geom S_Geom T_Geom M_Style M_Uniseg M_Buffer S_Buffer S_Text P_Buffer T_Buffer M_Text S_Line P_Text T_Text M_Block S_Block P_Block T_Block M_Slice M_List P_List T_List M_Utf8 M_KeyTable M_Decode M_Reflow M_Input S_Input P_Input P_InputView T_Input
  M_Typing S_Typing T_Typing S_Field T_View T_Field M_Ansi M_Backend S_Terminal S_Ansi S_Display S_Command S_Session S_Frame T_Terminal P_Frame T_Frame.
From Verif Require Import M_Cmd M_App P_App P_AppIds P_AppLog P_AppRun P_AppEnd T_App S_Joint T_Joint S_Stateful T_Stateful S_Typed T_Typed T_Sizes S_Entry T_Entry S_Titles T_Titles M_Options M_Example S_Example.
From Coq Require Import ZArith NArith String List Bool Lia.
Import ListNotations.
Open Scope Z_scope.
Local Arguments zlen : simpl never.

(** Drawing a popup at a place: its inside is blank, its frame is drawn, and nothing else changes. *)
Lemma popup_drawn u p at_ b : uniseg_ok u -> wf_buffer b -> sized at_ -> 0 <= rx at_ -> subrect at_ (barea b) -> (forall k, pp_block p = Some k -> padded k) ->
  exists b2 b', popup_render_at u p at_ b = Ret b' /\ barea b2 = barea b /\ wf_buffer b2 /\ (forall q, inside q at_ -> look b2 q = Some (cell_set_style (pp_style p) empty_cell)) /\
    opt_block_render u (pp_block p) at_ b2 = Ret b' /\ changed_only (fun q => inside q at_) b b' /\
    forall q, inside q (popup_inner_at p at_) ->
      look b' q = Some (match pp_block p with Some k => cell_set_style (bk_style k) (cell_set_style (pp_style p) empty_cell) | None => cell_set_style (pp_style p) empty_cell end).
Proof.
  intros Hu W Sa Rx' Sub' Pk. unfold popup_render_at.
  destruct (C10_clear_exact b at_ W Sub') as (b1 & E1 & A1 & W1 & C1 & D1). rewrite E1. cbn [bind].
  destruct (C07_set_style_exact b1 at_ (pp_style p) W1) as (b2 & E2 & (A2 & W2 & C2 & D2) & _). rewrite E2. cbn [bind].
  assert (Sub2 : forall q, inside q at_ -> inside q (barea b2)) by (intros q I; rewrite A2, A1; auto).
  assert (Look : forall q, inside q at_ -> look b2 q = Some (cell_set_style (pp_style p) empty_cell)).
  { intros q I. rewrite C2 by (split; [exact I|rewrite A1; auto]). rewrite C1 by exact I. destruct (look b q) as [c|] eqn:L; [reflexivity|]. exfalso. destruct (look_inside b q W (Sub' q I)) as [c L']. congruence. }
  assert (Keep : forall q, ~ inside q at_ -> look b2 q = look b q) by (intros q I; rewrite D2 by tauto; now apply D1).
  exists b2. unfold opt_block_render, popup_inner_at, opt_block_inner. destruct (pp_block p) as [k|] eqn:K.
  - destruct (C31_render_stays_inside u k at_ b2 Hu W2 Sa Rx' (Pk k eq_refl) Sub2) as (b3 & E3 & (A3 & W3 & C3) & In3). exists b3. rewrite E3.
    split; [reflexivity|]. split; [congruence|]. split; [exact W2|]. split; [exact Look|]. split; [reflexivity|]. split; [split; [congruence|split; [exact W3|]]|].
    + intros q I. rewrite C3 by exact I. now apply Keep.
    + intros q I. rewrite (In3 q I), Look; [reflexivity|]. now apply (C31_inner_excludes_decoration k at_ q Sa (Pk k eq_refl)) in I.
  - exists b2. split; [reflexivity|]. split; [congruence|]. split; [exact W2|]. split; [exact Look|]. split; [reflexivity|]. split; [split; [congruence|split; [exact W2|exact Keep]]|]. exact Look.
Qed.

Lemma drawn_visible u te A l : alphabet u A -> line_drawn u te A l -> visible_line u (ln_spans l).
Proof.
  intros HA [_ Hl] s c Is Ic. destruct (Hl s Is) as [D _]. pose proof (D c Ic) as H. rewrite (al_one u A HA c H). split; [lia|]. apply not_true_is_false. intros E. apply existsb_exists in E. destruct E as (r & I & E). pose proof (al_plain u A HA c H r I) as P. unfold M_Text.is_control in E. congruence.
Qed.
(** Holding is decidable. *)
Definition holds_b (frame r : rect) : bool := (1 <=? rw r) && (1 <=? rh r) && (rx frame <=? rx r) && (ry frame <=? ry r) && (rx r + rw r <=? rx frame + rw frame) && (ry r + rh r <=? ry frame + rh frame).
Lemma holds_spec frame r : holds_b frame r = true <-> holds frame r.
Proof. unfold holds_b, holds. rewrite !andb_true_iff, !Z.leb_le. tauto. Qed.
(** The place of the popup, as a part of every area. *)
Definition pop (at_of : Z * Z -> rect) (area : rect) : rect := let r := at_of (rw area, rh area) in if holds_b area r then r else area.
Lemma pop_at at_of w h : holds (new_rect w h) (at_of (w, h)) -> pop at_of (new_rect w h) = at_of (w, h).
Proof. intros H. unfold pop. cbn [new_rect rw rh]. apply holds_spec in H. change (Rect 0 0 w h) with (new_rect w h). now rewrite H. Qed.
Lemma pop_part at_of : part_of (pop at_of).
Proof.
  intros area Sz Hx. unfold pop. destruct (holds_b area (at_of (rw area, rh area))) eqn:E; [|auto]. apply holds_spec in E. destruct E as (E1 & E2 & E3 & E4 & E5 & E6).
  split; [split; lia|]. split; [lia|]. unfold inside. intros; lia.
Qed.
Lemma roomy_padded (k : option block) : roomy k -> forall k0, k = Some k0 -> padded k0.
Proof. intros H k0 E. exact (H k0 E). Qed.
Lemma inner_x k area : sized area -> nonneg_padding (bk_padding k) -> 0 <= rx area -> 0 <= rx (block_inner k area).
Proof.
  intros [? ?] (P1 & P2 & P3 & P4) Hx. unfold block_inner. destruct (side_intersects (bk_borders k) SideLeft), (_ || _), (side_intersects (bk_borders k) SideRight), (_ || _); unfold with_width, with_height, rright, rbottom; cbn [rx ry rw rh]; lia.
Qed.
Lemma inner_part at_of p : roomy (pp_block p) -> part_of (fun area => popup_inner_at p (pop at_of area)).
Proof.
  intros R area Sz Hx. destruct (pop_part at_of area Sz Hx) as (A1 & A2 & A3). unfold popup_inner_at, opt_block_inner. destruct (pp_block p) as [k|]; [|auto].
  split; [apply block_inner_sized|]. split; [now apply inner_x; [|apply R|]|]. intros q I. apply A3. now apply (C31_inner_excludes_decoration k _ q A1 (R k eq_refl)) in I.
Qed.

Section Field.
Context {ar : arith} {tolr : tolerance}.
Variables (u : uniseg) (ds : list M_Decode.msg) (symbol : str) (fill : style) (p : popup) (w : input_widget).
Hypothesis Hnb : ip_block (iw_input w) = None.
Definition behind (at_of : Z * Z -> rect) : widget := fun area b => let! b := fill_render symbol fill area b in popup_render_at u p (pop at_of area) b.
Lemma draw_is at_of W H r b s o : laid_out p w (W, H) (at_of (W, H)) -> any_runs p w r -> example_render u r symbol fill p w (new_rect W H) b s = Some o ->
  o = let! b := behind at_of (new_rect W H) b in input_render u (row_in w) (iw_input w) (popup_inner_at p (pop at_of (new_rect W H))) b s.
Proof.
  intros (L1 & L2 & L3) (R1 & R2 & R3 & R4 & R5) E. unfold behind. cbn [fst snd] in *. rewrite (pop_at _ _ _ L1). unfold example_render, popup_render, popup_inner, input_draw in E.
  destruct (fill_render symbol fill (new_rect W H) b) as [b1|]; [|injection E as <-; reflexivity]. cbn [bind].
  destruct (L2 _ _ R1 R2) as [P|P]; rewrite P in E; [|discriminate]. destruct (popup_render_at u p (at_of (W, H)) b1) as [b2|]; [|injection E as <-; reflexivity]. cbn [bind].
  destruct (L2 _ _ R3 R4) as [P'|P']; rewrite P' in E; [|discriminate]. unfold opt_block_inner in E at 1. rewrite Hnb in E.
  destruct (L3 _ R5) as [P''|P'']; rewrite P'' in E; [|discriminate]. injection E as <-. unfold input_render, opt_block_inner. rewrite Hnb. reflexivity.
Qed.
Lemma program_field (at_size : Z * Z -> Prop) at_of update redrawn view : (forall size, at_size size -> laid_out p w size (at_of size)) -> input_program u ds symbol fill p w at_size update redrawn view ->
  has_field u ds (row_in w) (iw_input w) (fun area => popup_inner_at p (pop at_of area)) (fun _ : input_state => behind at_of) (fun s => s) at_size update redrawn view.
Proof.
  intros L [U D]. constructor.
  - intros m n d m' c Hd E. rewrite U in E. unfold example_update in E. rewrite Hd in E. destruct (try_update u m d) as [[s' [|]]|]; [| |discriminate]; injection E as <- _; eauto.
  - intros m x m' c Ot E. rewrite U in E. unfold example_update in E. destruct x; try (now injection E as <- _). specialize (Ot _ eq_refl). apply nth_error_None in Ot. rewrite Ot in E. now injection E as <- _.
  - intros m W H S area. destruct (D m W H S) as (r & o & R & E & V & _). fold area in V. rewrite V, (draw_is at_of W H r _ m o (L _ S) R E). fold area. destruct (behind at_of area (blank area)) as [b|]; [|reflexivity]. cbn [bind].
    destruct (input_render u (row_in w) (iw_input w) (popup_inner_at p (pop at_of area)) b m) as [[b' s']|]; reflexivity.
  - intros m W H b b' s' S B I. destruct (D m W H S) as (r & o & R & E & V & X). pose proof (draw_is at_of W H r _ m o (L _ S) R E) as O. rewrite B in O. cbn [bind] in O. rewrite I in O. exact (X b' s' O).
Qed.
End Field.

Lemma size_in h z : told z true h = true -> In (final_size z h) (z :: resizes h).
Proof.
  intros Td. rewrite <- (told_last h z true z (fun _ => eq_refl) Td). clear Td. revert z. generalize (resizes h) as l. induction l as [|x l IH]; intros z; [now left|]. destruct l as [|y l]; [right; now left|]. cbn [last]. specialize (IH z). cbn [last] in IH. destruct IH as [IH|IH]; [now left|right; right; exact IH].
Qed.
Section Screen.
Context {ar : arith} {tolr : tolerance}.
Variables (u : uniseg) (te : termenv) (A : str -> Prop).
Hypothesis (He : env_ok u te) (HA : alphabet u A).
Variables (ds : list M_Decode.msg) (symbol : str) (fill : style) (p : popup) (w : input_widget).
Let i := iw_input w.
Hypothesis Hnb : ip_block i = None.
(** The parts can be drawn *)
Hypothesis (Hsy : A symbol) (Hfi : showable te fill) (Hpk : boxed_drawn u te A (pp_block p)) (Hpr : roomy (pp_block p)) (Hpst : showable te (pp_style p)).
Hypothesis (Hst : showable te (ip_style i)) (Hps : showable te (ip_placeholder_style i)) (Hcs : showable te (ip_cursor_style i)) (Hprs : showable te (ip_prompt_style i))
  (Hprompt : S_Frame.drawn u A (ip_prompt i)) (Hpl : forall c, In c (ip_placeholder i) -> A c).
Hypothesis Hch : forall d c, In d ds -> In c (brings d) -> A [c].
Hypothesis Hwords : words_inside ed_empty (flat_map event_edits ds).
Variables (init_cmd : option cmd) (update : input_state -> M_Cmd.msg -> option (input_state * option cmd)) (redrawn : input_state -> Z * Z -> input_state) (view : input_state -> widget).
Variables (at_of : Z * Z -> rect).
Let Hu := env_uniseg _ _ He.

(** The program with a text input in a popup over a filled background, whenever it waits for a message and has been told the size of the terminal: the screen
    has the symbol wherever the popup is not; in the popup, at its place, the frame of its block; inside of it blank, but for the row of the input, which has the
    prompt, all of the text that has been typed or pasted so far, and the cursor. *)
Theorem C101_screen_partial t0 s h v : let sizes := (t_w t0, t_h t0) :: resizes h in
  input_program u ds symbol fill p w (fun size => In size sizes) update redrawn view ->
  (forall size, In size sizes -> laid_out p w size (at_of size)) ->
  (forall size k, In size sizes -> let content := popup_inner_at p (at_of size) in let row := row_in w content in
    1 <= rh row /\ string_width u (ip_prompt i) + zlen (ed_clusters (edited (firstn k ds))) + 1 <= rw row /\ forall q, inside q row -> inside q content) ->
  t_attr t0 = default_attr -> 0 <= t_w t0 -> 0 <= t_h t0 ->
  S_Joint.together (Live new_input_state (t_w t0, t_h t0) (resizes h)) init_cmd (live_update update redrawn) (numbered ds) (live_view view) s h -> sizes_ok h ->
  st_main s = PLoop v -> told (t_w t0, t_h t0) true h = true ->
  (forall w k, In (EAccepted w (MUser k)) (history s) -> (k < length ds)%nat -> exists j, w = WInput j) ->
  let size := final_size (t_w t0, t_h t0) h in let frame := new_rect (fst size) (snd size) in
  let at_ := at_of size in let content := popup_inner_at p at_ in let row := row_in w content in
  exists k, (k <= length ds)%nat /\ from_reader (history s) = firstn k (numbered ds) /\
  let e := edited (firstn k ds) in
  is_text (lv_model v) = ed_clusters e /\ is_cursor (lv_model v) = zlen (ed_before e) /\
  exists s0 tm t b, start u te t0 = Some s0 /\ S_Session.run u te s0 h = Some (tm, t) /\ barea b = frame /\ shows u te (t_cells t) b /\
    (forall q, inside q frame -> ~ inside q at_ -> look b q = Some (filled symbol fill)) /\
    (forall k q, pp_block p = Some k -> inside q at_ -> ~ inside q content ->
      look b q = Some (titled u k at_ q (framed (frame_at (N.testbit (bk_borders k) 3) (N.testbit (bk_borders k) 0) (N.testbit (bk_borders k) 1) (N.testbit (bk_borders k) 2) (the_frame (bk_set k)) at_ q)
        (bk_border_style k) (cell_set_style (bk_style k) (cell_set_style (pp_style p) empty_cell))))) /\
    (forall q, inside q content -> ~ (py q = ry row /\ rx row <= px q < rx row + rw row) -> look b q = Some (cleared p i)) /\
    (forall q, py q = ry row -> rx row <= px q < rx row + rw row ->
      look b q = Some (field_cell u (ip_align i) (field_cells u i (ed_clusters e) (zlen (ed_before e)) true 0 (zlen (ed_clusters e))) (rw row) (px q - rx row) (cleared p i))).
Proof.
  intros sizes Ip L Rw Ha HW HH T Hs Wt Td Hin size frame at_ content row.
  pose proof (program_field u ds symbol fill p w Hnb _ at_of update redrawn view L Ip) as Hf.
  assert (Pl : forall m : input_state, placed u te A (behind u symbol fill p at_of)).
  { intros _. apply (placed_then u te A (fill_render symbol fill) (fun area b => popup_render_at u p (pop at_of area) b)); [now apply placed_fill|]. apply (placed_part u te A (pop at_of) (popup_render_at u p)); [apply pop_part|now apply placed_popup]. }
  assert (Nb : boxed_drawn u te A (ip_block i)) by (rewrite Hnb; discriminate). assert (Nr : roomy (ip_block i)) by (rewrite Hnb; discriminate).
  assert (FS : In size sizes).
  { apply size_in. exact Td. }
  assert (Row : forall z, In z sizes -> opt_block_inner (ip_block i) (popup_inner_at p (pop at_of (new_rect (fst z) (snd z)))) = popup_inner_at p (at_of z)).
  { intros [W H] I. rewrite Hnb. cbn [opt_block_inner fst snd]. rewrite pop_at; [reflexivity|]. exact (proj1 (L _ I)). }
  pose proof (C100_whole_partial u te A He HA new_input_state init_cmd update redrawn view ds (row_in w) i (fun area => popup_inner_at p (pop at_of area)) (fun _ => behind u symbol fill p at_of) (fun s => s) (fun z => In z sizes) Hf
    Nb Nr Hst Hps Hcs Hprs Hprompt Hpl (inner_part at_of p Hpr) Pl Hch Hwords t0 s h v Ha HW HH eq_refl T Hs Wt Td (fun z I => I)) as G.
  destruct G as (k & K1 & K2 & K3 & K4 & s0 & tm & t & b & b0 & B1 & B2 & B3 & B4 & B5 & B6 & B7).
  { intros z k I. unfold fits_row, field_row. rewrite (Row z I). exact (Rw z k I). }
  { exact Hin. }
  exists k. split; [exact K1|]. split; [exact K2|]. cbv zeta. split; [exact K3|]. split; [exact K4|]. exists s0, tm, t, b. split; [exact B1|]. split; [exact B2|]. split; [exact B3|]. split; [exact B4|].
  unfold field_row in B6, B7. fold size in B6, B7. rewrite (Row size FS) in B6, B7. fold at_ content row in B6, B7.
  assert (Ep : pop at_of frame = at_) by (unfold frame, at_; destruct size as [W H]; apply pop_at; exact (proj1 (L _ FS))).
  fold size in B5. fold frame in B5. rewrite Hnb in B5. unfold behind in B5. rewrite Ep in B5. cbn [opt_block_render] in B5. fold content in B5.
  assert (Hsz : 0 <= fst size /\ 0 <= snd size).
  { destruct (proj1 (L _ FS)) as (Q1 & Q2 & Q3 & Q4 & Q5 & Q6). cbn [new_rect rx ry rw rh] in *. lia. }
  assert (Wb : wf_buffer (blank frame)) by (apply wf_blank; apply Hsz).
  destruct (C10_fill_exact (blank frame) frame symbol fill Wb ltac:(intros q I; exact I)) as (f1 & F1 & FA & FW & FC & FD). rewrite F1 in B5. cbn [bind] in B5.
  destruct (proj1 (L _ FS)) as (Q1 & Q2 & Q3 & Q4 & Q5 & Q6). fold at_ in Q1, Q2, Q3, Q4, Q5, Q6. fold frame in Q3, Q4, Q5, Q6.
  assert (Sub : subrect at_ (barea f1)) by (rewrite FA; intros q I; cbn [blank barea]; unfold inside in *; lia).
  destruct (popup_drawn u p at_ f1 Hu FW ltac:(split; lia) ltac:(cbn [frame new_rect rx] in Q3; lia) Sub (roomy_padded _ Hpr)) as (b2 & b1 & E & A2 & W2 & C2 & O2 & (A1 & W1 & D1) & C1). fold content in C1.
  rewrite E in B5. cbn [bind] in B5. destruct (C07_set_style_exact b1 content (ip_style i) W1) as (b3 & E3 & (A3 & W3 & C3 & D3) & _). rewrite E3 in B5. cbn [bind] in B5. injection B5 as <-.
  assert (Inn : forall q, inside q content -> inside q at_).
  { unfold content, popup_inner_at, opt_block_inner. destruct (pp_block p) as [k0|] eqn:Kb; [|auto]. intros q I. exact (proj1 (C31_inner_excludes_decoration k0 at_ q (conj (Z.le_trans 0 1 _ Z.le_0_1 Q1) (Z.le_trans 0 1 _ Z.le_0_1 Q2)) (Hpr k0 eq_refl) I)). }
  destruct (Rw size k FS) as (R1 & R2 & R3). fold at_ content row in R1, R2, R3.
  assert (RI : forall q, py q = ry row /\ rx row <= px q < rx row + rw row -> inside q content) by (intros q [I1 I2]; apply R3; unfold inside; lia).
  assert (Lk : forall q, inside q content -> look b3 q = Some (cleared p i)).
  { intros q I. rewrite C3 by (split; [exact I|rewrite A1; apply Sub; auto]). rewrite (C1 q I). unfold cleared. destruct (pp_block p); reflexivity. }
  split. { intros q I N. rewrite B7 by (intros X; apply N, Inn, RI, X). rewrite D3 by (intros [X _]; apply N, Inn, X). rewrite D1 by exact N. rewrite FC by exact I. destruct (look_inside (blank frame) q Wb I) as [c ->]. reflexivity. }
  split. { intros k0 q Kb I N. rewrite B7 by (intros X; apply N, RI, X). rewrite D3 by tauto. rewrite Kb in O2. cbn [opt_block_render] in O2.
    destruct (C88_rendered u k0 at_ b2 Hu W2 ltac:(split; lia) ltac:(cbn [frame new_rect rx] in Q3; lia)) as (b1' & E1 & Lk1).
    - intros tt It. apply (drawn_visible u te A _ HA). destruct (Hpk k0 Kb) as (_ & _ & _ & _ & Tt). now apply Tt.
    - intros q' I'. rewrite A2. now apply Sub.
    - rewrite O2 in E1. injection E1 as <-. rewrite (Lk1 q I), (C2 q I). reflexivity. }
  split. { intros q I N. rewrite B7 by exact N. now apply Lk. }
  intros q I1 I2. rewrite B6 by assumption. rewrite Lk by (apply RI; auto). reflexivity.
Qed.
End Screen.
Print Assumptions C101_screen_partial.

(** ** Where the popup is *)
Section Exact.
#[local] Existing Instance no_tolerance.
(** With exact numbers, for a width and a height in cells or percentages *)
Lemma laid_exact p iw W H x y w h : pp_padding p = Padding 0 0 0 0 ->
  pp_horizontal p = FlexStart \/ pp_horizontal p = FlexCenter \/ pp_horizontal p = FlexEnd -> pp_vertical p = FlexStart \/ pp_vertical p = FlexCenter \/ pp_vertical p = FlexEnd ->
  extent (pp_horizontal p) 0 W (pp_width p) = Some (x, w) -> extent (pp_vertical p) 0 H (pp_height p) = Some (y, h) -> holds (new_rect W H) (Rect x y w h) ->
  (forall k, pp_block p = Some k -> padded k) -> iw_vertical iw <> FlexSpaceAround ->
  let content := popup_inner_at p (Rect x y w h) in 0 <= ry content -> 1 <= rh content ->
  laid_out p iw (W, H) (Rect x y w h).
Proof.
  intros Pd Fh Fv Ew Eh Ho Pk Ns content Ry Rh. unfold laid_out. cbn [fst snd]. fold content. split; [exact Ho|].
  assert (Sz : sized (new_rect W H)) by (destruct Ho as (H1 & H2 & H3 & H4 & H5 & H6); split; cbn [new_rect rx ry rw rh] in *; lia).
  assert (Sc : sized content). { unfold content, popup_inner_at, opt_block_inner. destruct (pp_block p); [apply block_inner_sized|]. destruct Ho as (H1 & H2 & _). cbn in H1, H2. split; cbn; lia. }
  split.
  - intros r r' A A'. destruct (popup_area r r' p (new_rect W H)) as [at_| |] eqn:E; [| |now right].
    + left. f_equal. exact (C65_percent_exact_partial r r' p (new_rect W H) at_ x y w h Sz ltac:(cbn; lia) ltac:(cbn; lia) Pd Fh Fv Ew Eh A A' E).
    + exfalso. destruct (any_proper r r' p (new_rect W H) A A') as [R1 R2]. unfold popup_area in E. assert (N1 := split_one_safe r (popup_rows p) (new_rect W H) ltac:(discriminate) R1). destruct (split_one r (popup_rows p) (new_rect W H)) as [rows| |] eqn:E1; try congruence. revert E. apply split_one_safe; [discriminate|now apply R2].
  - intros r A. pose proof (any_input r iw content A) as Pr. destruct (split_one r (input_layout iw) content) as [row| |] eqn:E; [| |now right].
    + left. f_equal. rewrite (C70_exact_partial r iw content row Sc Ry Rh Ns A E). reflexivity.
    + exfalso. revert E. apply split_one_safe; [discriminate|exact Pr].
Qed.
(** The example's own popup *)
Theorem C101_place_partial u size : 2 <= fst size -> 3 <= snd size -> laid_out example_popup (example_input u) size (example_place size).
Proof.
  destruct size as [W H]. cbn [fst snd]. intros HW HH. unfold example_place.
  assert (X : (W * (100 - 60) + 101) / 200 = (2 * W + 5) / 10) by (pose proof (Z.div_mod (2 * W + 5) 10 ltac:(lia)); pose proof (Z.mod_pos_bound (2 * W + 5) 10 ltac:(lia)); symmetry; apply (Z.div_unique _ _ _ (W * 40 + 101 - 200 * ((2 * W + 5) / 10))); lia).
  assert (X' : (W * (100 + 60) + 101) / 200 = (8 * W + 5) / 10) by (pose proof (Z.div_mod (8 * W + 5) 10 ltac:(lia)); pose proof (Z.mod_pos_bound (8 * W + 5) 10 ltac:(lia)); symmetry; apply (Z.div_unique _ _ _ (W * 160 + 101 - 200 * ((8 * W + 5) / 10))); lia).
  assert (Y : (H - 3 + 1) / 2 = (H - 2) / 2) by (f_equal; lia).
  set (x := (2 * W + 5) / 10) in *. set (x' := (8 * W + 5) / 10) in *. assert (B1 : 10 * x <= 2 * W + 5 < 10 * x + 10) by (unfold x; pose proof (Z.div_mod (2 * W + 5) 10 ltac:(lia)); pose proof (Z.mod_pos_bound (2 * W + 5) 10 ltac:(lia)); lia).
  assert (B2 : 10 * x' <= 8 * W + 5 < 10 * x' + 10) by (unfold x'; pose proof (Z.div_mod (8 * W + 5) 10 ltac:(lia)); pose proof (Z.mod_pos_bound (8 * W + 5) 10 ltac:(lia)); lia).
  set (y := (H - 2) / 2) in *. assert (B3 : 2 * y <= H - 2 < 2 * y + 2) by (unfold y; pose proof (Z.div_mod (H - 2) 2 ltac:(lia)); pose proof (Z.mod_pos_bound (H - 2) 2 ltac:(lia)); lia). clearbody x x' y.
  apply laid_exact.
  - reflexivity.
  - auto.
  - auto.
  - cbn [example_popup popup_with_height popup_with_block new_popup pp_horizontal pp_width extent]. cbn [Z.leb Z.compare andb]. change ((0 <=? 60) && (60 <=? 100)) with true. cbn [percent_low percent_high]. unfold cell_of. rewrite X, X', !Z.add_0_l. reflexivity.
  - cbn [example_popup popup_with_height popup_with_block new_popup pp_vertical pp_height extent]. destruct (Z.leb_spec 3 H); [|lia]. cbn [Z.leb Z.compare andb]. rewrite Y, ?Z.add_0_l. reflexivity.
  - unfold holds. cbn [new_rect rx ry rw rh]. lia.
  - intros k [= <-]. unfold padded. cbn. lia.
  - discriminate.
  - change (0 <= Z.min (y + 1) (y + 3) + 0). lia.
  - cbn. lia.
Qed.
End Exact.
Print Assumptions C101_place_partial.
(** With float64, for a width and a height in cells *)
Theorem C101_place64_partial p iw W H w h : pp_padding p = Padding 0 0 0 0 -> pp_width p = LLen w -> pp_height p = LLen h -> 1 <= w <= W -> 1 <= h <= H -> int32 W -> int32 H ->
  pp_horizontal p = FlexStart \/ pp_horizontal p = FlexCenter \/ pp_horizontal p = FlexEnd -> pp_vertical p = FlexStart \/ pp_vertical p = FlexCenter \/ pp_vertical p = FlexEnd ->
  (forall k, pp_block p = Some k -> padded k) -> iw_vertical iw <> FlexSpaceAround ->
  let at_ := Rect (match pp_horizontal p with FlexEnd => W - w | FlexCenter => (W - w + 1) / 2 | _ => 0 end) (match pp_vertical p with FlexEnd => H - h | FlexCenter => (H - h + 1) / 2 | _ => 0 end) w h in
  1 <= rw (popup_inner_at p at_) -> 1 <= rh (popup_inner_at p at_) ->
  @laid_out float64 code_tolerance p iw (W, H) at_.
Proof.
  intros Pd Pw Ph Hw Hh IW IH Fh Fv Pk Ns at_ Cw Ch. set (content := popup_inner_at p at_) in *.
  assert (B : 0 <= rx at_ /\ 0 <= ry at_ /\ rx at_ + w <= W /\ ry at_ + h <= H).
  { unfold at_. cbn [rx ry]. assert (D : forall a, 0 <= a -> 0 <= (a + 1) / 2 <= a) by (intros a Ha; split; [apply Z.div_pos; lia|apply Z.lt_succ_r, Z.div_lt_upper_bound; lia]). pose proof (D (W - w) ltac:(lia)). pose proof (D (H - h) ltac:(lia)). destruct (pp_horizontal p), (pp_vertical p); lia. }
  destruct B as (B1 & B2 & B3 & B4).
  assert (Sa : sized at_) by (split; [change (0 <= w); lia|change (0 <= h); lia]).
  assert (Inn : subrect content at_). { unfold content, popup_inner_at, opt_block_inner. destruct (pp_block p) as [k|] eqn:K; [|intros q I; exact I]. intros q I. exact (proj1 (C31_inner_excludes_decoration k at_ q Sa (Pk k eq_refl) I)). }
  destruct (Inn (Pos (rx content) (ry content)) ltac:(unfold inside; cbn; lia)) as [C1 C2]. destruct (Inn (Pos (rx content + rw content - 1) (ry content + rh content - 1)) ltac:(unfold inside; cbn; lia)) as [C3 C4]. cbn [px py] in C1, C2, C3, C4. change (rw at_) with w in *. change (rh at_) with h in *.
  assert (L : @laid_out exact_arith no_tolerance p iw (W, H) at_).
  { apply laid_exact; try assumption.
    - rewrite Pw. cbn [extent]. destruct (Z.leb_spec 0 w); [|lia]. destruct (Z.leb_spec w W); [|lia]. cbn [andb]. destruct Fh as [F|[F|F]]; rewrite F; rewrite ?Z.add_0_l; reflexivity.
    - rewrite Ph. cbn [extent]. destruct (Z.leb_spec 0 h); [|lia]. destruct (Z.leb_spec h H); [|lia]. cbn [andb]. destruct Fv as [F|[F|F]]; rewrite F; rewrite ?Z.add_0_l; reflexivity.
    - unfold holds. fold at_. change (rw at_) with w. change (rh at_) with h. cbn [new_rect rx ry rw rh]. lia.
    - fold at_. fold content. lia. }
  destruct L as (L1 & L2 & L3). cbn [fst snd] in L1, L2, L3. fold content in L3. unfold laid_out. cbn [fst snd]. fold content. split; [exact L1|].
  assert (I32 : int32 w /\ int32 h) by (unfold int32 in *; lia).
  split.
  - intros r r' A A'. fold (popup_area64 r r' p (new_rect W H)). rewrite popup_same; [now apply L2|exact A|exact A'| | |].
    + split; [rewrite Pw; split; [exact Logic.I|apply I32]|]. split; [rewrite Ph; split; [exact Logic.I|apply I32]|]. rewrite Pd. unfold nonneg_padding. cbn. lia.
    + split; cbn; lia.
    + unfold int32_rect, int32 in *. cbn. lia.
  - intros r A. rewrite input_same; [now apply L3|exact A|split; lia|]. unfold int32_rect, int32 in *. lia.
Qed.
Print Assumptions C101_place64_partial.

(** ** The program of the repository *)
(** The characters it writes by itself *)
Definition example_chars : str := (asc "Placeholder...> Input"%string ++ [9586; 9487; 9491; 9495; 9499; 9475; 9473; 32])%N.
Section Repository.
#[local] Existing Instance no_tolerance.
Variables (u : uniseg) (te : termenv) (A : str -> Prop).
Hypothesis (He : env_ok u te) (HA : alphabet u A) (Hex : forall c, In c example_chars -> A [c]).
Lemma of_chars l : (forall c, In c l -> A [c]) -> clusters u l = map (fun c => [c]) l.
Proof.
  intros H. rewrite <- (al_apart u A HA (map (fun c => [c]) l)); [|intros s I; apply in_map_iff in I; destruct I as (c & <- & I); auto]. f_equal. clear. induction l as [|c l IH]; [reflexivity|]. cbn [map concat app]. now rewrite <- IH.
Qed.
Lemma chars_drawn l : incl l example_chars -> S_Frame.drawn u A l.
Proof. intros H s I. rewrite of_chars in I by (intros c J; apply Hex, H, J). apply in_map_iff in I. destruct I as (c & <- & I). apply Hex, H, I. Qed.
Ltac known := let c := fresh in let I := fresh in intros c I; vm_compute in I; repeat (destruct I as [<-|I]; [vm_compute; tauto|]); destruct I.
Lemma prompt_width : string_width u (asc "> "%string) = 2.
Proof.
  unfold string_width. rewrite of_chars by (intros c I; apply Hex; revert c I; known). cbn. rewrite !(al_one u A HA) by (apply Hex; vm_compute; tauto). reflexivity.
Qed.

(** The example, on a terminal that has at all times room for the popup and, in it, for all that has been typed: at least three rows, and a popup of five columns more than the text. *)
Theorem C101_example_partial ds init_cmd update redrawn view t0 s h v : let sizes := (t_w t0, t_h t0) :: resizes h in
  input_program u ds example_symbol example_fill example_popup (example_input u) (fun size => In size sizes) update redrawn view ->
  (forall d c, In d ds -> In c (brings d) -> A [c]) -> words_inside ed_empty (flat_map event_edits ds) ->
  (forall size k, In size sizes -> 3 <= snd size /\ zlen (ed_clusters (edited (firstn k ds))) + 5 <= rw (example_place size)) ->
  t_attr t0 = default_attr -> 0 <= t_w t0 -> 0 <= t_h t0 ->
  S_Joint.together (Live new_input_state (t_w t0, t_h t0) (resizes h)) init_cmd (live_update update redrawn) (numbered ds) (live_view view) s h -> sizes_ok h ->
  st_main s = PLoop v -> told (t_w t0, t_h t0) true h = true ->
  (forall w k, In (EAccepted w (MUser k)) (history s) -> (k < length ds)%nat -> exists j, w = WInput j) ->
  let size := final_size (t_w t0, t_h t0) h in let frame := new_rect (fst size) (snd size) in let at_ := example_place size in let i := iw_input (example_input u) in
  exists k, (k <= length ds)%nat /\ from_reader (history s) = firstn k (numbered ds) /\
  let e := edited (firstn k ds) in
  is_text (lv_model v) = ed_clusters e /\ is_cursor (lv_model v) = zlen (ed_before e) /\
  exists s0 tm t b, start u te t0 = Some s0 /\ S_Session.run u te s0 h = Some (tm, t) /\ barea b = frame /\ shows u te (t_cells t) b /\
    forall q, inside q frame -> look b q = Some (
      if negb ((rx at_ <=? px q) && (px q <? rx at_ + rw at_) && (ry at_ <=? py q) && (py q <? ry at_ + 3)) then Cell example_symbol (Some ColReset) (Some ColReset) ModifierDim false
      else if (py q =? ry at_ + 1) && negb (px q =? rx at_) && negb (px q =? rx at_ + rw at_ - 1)
      then field_cell u AlignLeft (field_cells u i (ed_clusters e) (zlen (ed_before e)) true 0 (zlen (ed_clusters e))) (rw at_ - 2) (px q - rx at_ - 1) empty_cell
      else titled u example_block at_ q (framed (frame_at true true true true (the_frame thick_set) at_ q) new_style empty_cell)).
Proof.
  intros sizes Ip Hch Hw Rm Ha HW HH T Hs Wt Td Hin size frame at_ i.
  assert (Hn : forall z, In z sizes -> 2 <= fst z).
  { intros [W H] I. destruct (Rm (W, H) 0%nat I) as [_ R]. cbn [fst]. unfold example_place in R. cbn [rw] in R. pose proof (zlen_nonneg (ed_clusters (edited (firstn 0 ds)))) as Z0.
    assert (B1 := Z.div_mod (2 * W + 5) 10 ltac:(lia)); assert (B2 := Z.mod_pos_bound (2 * W + 5) 10 ltac:(lia)); assert (B3 := Z.div_mod (8 * W + 5) 10 ltac:(lia)); assert (B4 := Z.mod_pos_bound (8 * W + 5) 10 ltac:(lia)). lia. }
  assert (Bx : forall z, let a := example_place z in 2 <= rw a -> popup_inner_at example_popup a = Rect (rx a + 1) (ry a + 1) (rw a - 2) 1).
  { intros [W H] a B. unfold popup_inner_at, opt_block_inner. change (pp_block example_popup) with (Some example_block). cbv iota. unfold block_inner. change (side_intersects (bk_borders example_block) SideLeft) with true. change (side_intersects (bk_borders example_block) SideTop) with true. change (side_intersects (bk_borders example_block) SideRight) with true. change (side_intersects (bk_borders example_block) SideBottom) with true. cbv iota zeta.
    unfold with_width, with_height, rright, rbottom. assert (Rh : rh a = 3) by reflexivity. clearbody a. change (bk_padding example_block) with (Padding 0 0 0 0). cbn [orb rx ry rw rh ptop pright pbottom pleft]. f_equal; lia. }
  assert (Sn : showable te new_style) by apply showable_new.
  assert (Pd : forall l, incl l example_chars -> S_Frame.drawn u A l) by exact chars_drawn.
  assert (Bd : boxed_drawn u te A (pp_block example_popup)).
  { intros k0 [= <-]. split; [exact Sn|]. split; [exact Sn|]. split; [exact Sn|]. split.
    - repeat (split; [apply Hex; vm_compute; tauto|]). apply Hex. vm_compute. tauto.
    - intros t [<-|[]]. split; [exact Sn|]. intros s1 [<-|[]]. split; [|exact Sn]. apply Pd. known. }
  pose proof (C101_screen_partial u te A He HA ds example_symbol example_fill example_popup (example_input u) eq_refl (Hex 9586%N ltac:(vm_compute; tauto)) ltac:(repeat split; discriminate) Bd
    ltac:(intros k0 [= <-]; unfold nonneg_padding; cbn; lia) Sn Sn ltac:(repeat split; discriminate) ltac:(repeat split; discriminate) Sn) as G.
  specialize (G ltac:(apply Pd; known)).
  assert (Hpl : forall c, In c (ip_placeholder (iw_input (example_input u))) -> A c) by (change (S_Frame.drawn u A (asc "Placeholder..."%string)); apply Pd; known).
  specialize (G Hpl Hch Hw init_cmd update redrawn view example_place t0 s h v Ip).
  assert (Wd : forall z k, In z sizes -> 5 <= rw (example_place z)) by (intros z k I; destruct (Rm z k I) as [_ R]; pose proof (zlen_nonneg (ed_clusters (edited (firstn k ds)))); lia).
  specialize (G ltac:(intros z I; apply C101_place_partial; [now apply Hn|apply (Rm z 0%nat I)])).
  assert (Fr : forall z k, In z sizes -> let content := popup_inner_at example_popup (example_place z) in let row := row_in (example_input u) content in
    1 <= rh row /\ string_width u (ip_prompt (iw_input (example_input u))) + zlen (ed_clusters (edited (firstn k ds))) + 1 <= rw row /\ forall q, inside q row -> inside q content).
  { intros z k I content row. unfold content in row. pose proof (Wd z k I) as W5. pose proof (Bx z ltac:(lia)) as Ec. cbv zeta in Ec. unfold content. unfold row. rewrite Ec. change (row_in (example_input u)) with (fun r : rect => r). cbv beta. cbn [rx ry rw rh].
    split; [lia|]. split; [|auto]. change (ip_prompt (iw_input (example_input u))) with (asc "> "%string). rewrite prompt_width. destruct (Rm z k I) as [_ R]. lia. }
  destruct (G Fr Ha HW HH T Hs Wt Td Hin) as (k & K1 & K2 & K3 & K4 & s0 & tm & t & b & B1 & B2 & B3 & B4 & B5 & B6 & B7 & B8). clear G.
  exists k. split; [exact K1|]. split; [exact K2|]. cbv zeta. split; [exact K3|]. split; [exact K4|]. exists s0, tm, t, b. split; [exact B1|]. split; [exact B2|]. split; [exact B3|]. split; [exact B4|].
  assert (FS : In size sizes) by (apply size_in; exact Td).
  pose proof (Bx size ltac:(pose proof (Wd size 0%nat FS); lia)) as Ec. cbv zeta in Ec. fold size in B5, B6, B7, B8. rewrite Ec in B6, B7, B8. change (row_in (example_input u)) with (fun r : rect => r) in B7, B8. cbv beta in B7, B8. fold at_ in B5, B6, B7, B8. cbn [rx ry rw rh] in B7, B8.
  assert (R3 : rh at_ = 3) by (unfold at_, example_place; destruct size; reflexivity).
  intros q I. destruct (negb _) eqn:N1.
  - rewrite B5; [reflexivity|exact I|]. intros J. rewrite negb_true_iff in N1. revert N1. apply not_false_iff_true. unfold inside in J. rewrite R3 in J. rewrite !andb_true_iff, !Z.leb_le, !Z.ltb_lt. lia.
  - rewrite negb_false_iff, !andb_true_iff, !Z.leb_le, !Z.ltb_lt in N1. assert (J : inside q at_) by (unfold inside; rewrite R3; lia).
    destruct (_ && negb (px q =? rx at_ + rw at_ - 1)) eqn:N2.
    + rewrite !andb_true_iff, !negb_true_iff, Z.eqb_eq, !Z.eqb_neq in N2. rewrite B8 by lia. replace (px q - rx at_ - 1) with (px q - (rx at_ + 1)) by lia. reflexivity.
    + rewrite (B6 example_block q eq_refl J); [reflexivity|]. intros X. revert N2. apply not_false_iff_true. unfold inside in X. cbn [rx ry rw rh] in X. rewrite !andb_true_iff, !negb_true_iff, Z.eqb_eq, !Z.eqb_neq. lia.
Qed.
End Repository.
Print Assumptions C101_example_partial.
