(** C89: programs made of the library's widgets can be shown. *)
From Verif Require Import Base M_Geom S_Geom M_Style M_Uniseg M_Buffer S_Buffer M_Text M_Block M_Reflow M_Slice M_List M_Widget M_Tabs M_Float M_Gauge M_Scroll M_Input
  M_Solver M_Layout M_Popup M_Throbber M_View M_Ansi M_Backend S_Terminal S_Display S_Command S_Session S_Frame P_Base T_Geom S_Text S_Line P_SetString T_Buffer P_Redraw P_Print P_Text P_Block P_List T_Text T_Block T_List T_Paragraph T_Tabs T_Framed P_Frame.
From Verif Require Import M_Cmd M_App P_App P_AppRun T_App S_Joint T_Joint T_Terminal.
From Verif Require Import M_Buffer S_Buffer P_Buffer M_Ansi M_Backend S_Display S_Frame P_Frame.
From Coq Require Import ZArith NArith List Bool Lia.
Import ListNotations.
Open Scope Z_scope.

Lemma look_blank area p c : look (blank area) p = Some c -> c = empty_cell.
Proof. intros L. unfold look, blank in L. cbn [barea bcells] in L. destruct (_ && _); [|discriminate]. apply nth_error_In in L. now apply repeat_spec in L. Qed.
Lemma wf_blank w h : 0 <= w -> 0 <= h -> wf_buffer (blank (new_rect w h)).
Proof. intros Hw Hh. unfold wf_buffer, blank, sized, zlen, new_rect, rect_area. cbn. rewrite repeat_length. nia. Qed.

Section Claims.
Variables (u : uniseg) (te : termenv) (A : str -> Prop).
Hypothesis (He : env_ok u te) (HA : alphabet u A).

Lemma tidy_blank w h : 0 <= w -> 0 <= h -> tidy te A (blank (new_rect w h)).
Proof. intros Hw Hh. split; [now apply wf_blank|]. intros p c L. rewrite (look_blank _ _ _ L). now apply (neat_empty u te A (env_reset _ _ He)). Qed.
Lemma tidy_frame b : tidy te A b -> frame_ok u te b.
Proof.
  intros [W N]. constructor.
  - constructor; [exact W| |].
    + intros p c L. destruct (N p c L). constructor; auto.
      * now apply (single u A HA).
      * left. now apply (al_one _ _ HA).
      * split; [assumption|]. rewrite n_rapid. now apply andb_false_r.
    + intros p c L E. rewrite (al_one _ _ HA _ (n_sym _ _ _ (N p c L))) in E. discriminate.
  - intros p l H. apply (al_apart _ _ HA). intros s I. apply In_nth_error in I. destruct I as (k & Ek). destruct (H k s Ek) as (c & L & <-). apply (n_sym _ _ _ (N _ _ L)).
  - intros p c L. apply (al_plain _ _ HA), (n_sym _ _ _ (N p c L)).
Qed.

(** A view built of the library's widgets, drawn with one-column graphemes and showable styles, gives a frame that can be shown whenever it returns. *)
Theorem C89_frames w width height b : made u te A w -> 0 <= width -> 0 <= height -> w (new_rect width height) (blank (new_rect width height)) = Ret b ->
  barea b = new_rect width height /\ frame_ok u te b.
Proof.
  intros Hw H1 H2 E. destruct (made_neatly u te A (env_uniseg _ _ He) (env_reset _ _ He) HA w Hw (new_rect width height) _ b (tidy_blank width height H1 H2) E) as [T Ar].
  split; [exact Ar|now apply tidy_frame].
Qed.

(** The widgets that place themselves with a layout are such views, whatever the layouts compute. *)
Definition drawing (o : option (outcome buffer)) : outcome buffer := match o with Some x => x | None => Panic end.
Theorem C89_layouts (ar : arith) (tolr : tolerance) r r' :
  (forall p, boxed_drawn u te A (pp_block p) -> showable te (pp_style p) -> made u te A (fun area b => drawing (popup_render u r r' p area b))) /\
  (forall t s, showable te (tw_style t) -> (forall f, In f (tw_set t) -> text_drawn u te A (new_text_str f)) -> made u te A (fun area b => drawing (throbber_render u r r' t area b s))) /\
  (forall w s, boxed_drawn u te A (ip_block (iw_input w)) -> showable te (ip_style (iw_input w)) -> showable te (ip_placeholder_style (iw_input w)) -> showable te (ip_cursor_style (iw_input w)) ->
    showable te (ip_prompt_style (iw_input w)) -> drawn u A (ip_prompt (iw_input w)) -> (forall c, In c (ip_placeholder (iw_input w)) -> A c) -> (forall c, In c (is_text s) -> A c) ->
    made u te A (fun area b => drawing (option_map (fun o => let! (b, _) := o in Ret b) (input_draw u r w area b s)))).
Proof.
  repeat split.
  - intros p Hk Hs. apply (made_by _ _ _ (fun a _ b => drawing (popup_render u r r' p a b))). intros area. unfold popup_render. destruct (popup_area r r' p area) as [at_| |]; cbn [drawing]; try apply made_failure.
    apply (made_part _ _ _ (fun _ => at_) (popup_render_at u p)). now apply made_popup.
  - intros t s Hs Hf. apply (made_by _ _ _ (fun a _ b => drawing (throbber_render u r r' t a b s))). intros area. unfold throbber_render. destruct (set_frame (tw_set t) (th_frame s)) as [f|] eqn:Ef; [|apply made_failure].
    destruct (throbber_area u r r' t f area) as [at_| |]; cbn [drawing]; try apply made_failure.
    apply (made_part _ _ _ (fun _ => at_) (text_render u (Text (tw_style t) (tx_lines (new_text_str f)) AlignNone))). apply made_text. split; [exact Hs|]. apply Hf.
    unfold set_frame in Ef. destruct (_ =? 0); [discriminate|]. eapply index_at_in; exact Ef.
  - intros w s Hk Hs Hp Hcu Hpr Dp Pl Tx. apply (made_by _ _ _ (fun a _ b => drawing (option_map (fun o => let! (b, _) := o in Ret b) (input_draw u r w a b s)))). intros area. unfold input_draw.
    destruct (split_one r (input_layout w) _) as [row| |]; cbn [option_map drawing bind]; try apply made_failure.
    apply (made_part _ _ _ (fun _ => area) (fun area b => let! (b, _) := input_render u (fun _ => row) (iw_input w) area b s in Ret b)). now apply made_input.
Qed.

(** ** Views that return for every size *)
Definition returns (w : widget) : Prop := forall area b, wf_buffer b -> sized area -> 0 <= rx area -> (forall p, inside p area -> inside p (barea b)) ->
  exists b', w area b = Ret b' /\ wf_buffer b' /\ barea b' = barea b.
Let Hu := env_uniseg _ _ He.
Lemma boxed_returns k s area b : wf_buffer b -> sized area -> 0 <= rx area -> roomy k -> (forall p, inside p area -> inside p (barea b)) ->
  exists b0 b1, buffer_set_style b area s = Ret b0 /\ opt_block_render u k area b0 = Ret b1 /\ wf_buffer b1 /\ barea b1 = barea b /\
    (forall p, inside p (opt_block_inner k area) -> inside p area) /\ sized (opt_block_inner k area).
Proof.
  intros W Hs Hx Hk Hin. destruct (set_style_redrawn b area s W) as (b0 & E0 & R0). assert (A0 := redrawn_area _ _ _ R0). assert (W0 := redrawn_wf _ _ _ R0).
  destruct (opt_block_ok u k area b0 Hu W0 Hs Hx) as (b1 & E1 & (A1 & W1 & _) & HB & SB); [destruct k; [now apply Hk|exact Logic.I]|now rewrite A0|].
  exists b0, b1. split; [exact E0|]. split; [exact E1|]. split; [exact W1|]. split; [congruence|]. now split.
Qed.
Lemma drawn_narrow s : drawn u A s -> forall c, In c (clusters u s) -> cwidth u c = 1.
Proof. intros H c I. apply (al_one _ _ HA), H, I. Qed.
Lemma only_returns (w : outcome buffer) P b b' : w = Ret b' -> changed_only P b b' -> exists b', w = Ret b' /\ wf_buffer b' /\ barea b' = barea b.
Proof. intros E (A1 & W1 & _). eauto. Qed.
Lemma placed_returns w : placed u te A w -> returns w.
Proof.
  induction 1 as [|s Hd|l Hl|t Ht|k Hk Hp| |s st Ha Hst|k p Hk Hr Hst Ht Hw Hal Hsx Hsy|l s Hk Hr Hst Hh Hy Ht Hp Ho Hse|t Hk Hr Hst Hh Hd HL HR Ht|p Hk Hr Hst|f w Hf _ IH|w w' _ IH _ IH'|f _ IH]; intros area b W Hs Hx Hin.
  - exists b. auto.
  - destruct (C17_span_stays_inside u s area b Hu W) as (b' & E & C). eapply only_returns; eauto.
  - destruct (C17_line_stays_inside u l area b AlignNone Hu W) as (b' & E & C). eapply only_returns; eauto.
  - destruct (C17_text_stays_inside u t area b Hu W) as (b' & E & C). eapply only_returns; eauto.
  - destruct (opt_block_ok u (Some k) area b Hu W Hs Hx Hp Hin) as (b' & E & C & _). eapply only_returns; eauto.
  - destruct (C10_clear_exact b area W Hin) as (b' & E & C1 & C2 & _). eauto.
  - destruct (C10_fill_exact b area s st W Hin) as (b' & E & C1 & C2 & _). eauto.
  - unfold paragraph_render. destruct (boxed_returns k (pg_style p) area b W Hs Hx Hr Hin) as (b0 & b1 & E0 & E1 & W1 & A1 & HB & SB). rewrite E0. cbn [bind]. rewrite E1. cbn [bind].
    destruct (rect_is_empty (opt_block_inner k area)) eqn:Em; [exists b1; unfold paragraph_render_text; rewrite Em; auto|].
    destruct (area_pos _ SB Em) as [P1 P2]. destruct (C57_unwrapped_paragraph u p (opt_block_inner k area) b1 Hu W1 SB) as (b' & ls & E & (C1 & C2 & _) & _).
    + apply within_of; auto. intros q Hq. rewrite A1. auto.
    + now repeat split.
    + exact Hw.
    + exists b'. rewrite E. repeat split; try apply C2. congruence.
  - destruct (C23_list_render u l area b s Hu W Hs Hx) as (b' & s' & E & (C1 & C2 & _) & _); auto.
    + destruct (ls_block l); [now apply Hr|exact Logic.I].
    + left. now apply drawn_narrow.
    + left. apply drawn_narrow, (drawn_spaces u A HA).
    + exists b'. rewrite E. auto.
  - unfold tabs_render. destruct (boxed_returns (tb_block t) (tb_style t) area b W Hs Hx Hr Hin) as (b0 & b1 & E0 & E1 & W1 & A1 & HB & SB). rewrite E0. cbn [bind]. rewrite E1. cbn [bind].
    unfold tabs_render_inner. destruct (rect_is_empty (opt_block_inner (tb_block t) area)) eqn:Em; [exists b1; auto|]. destruct (area_pos _ SB Em) as [P1 P2]. set (I := opt_block_inner (tb_block t) area) in *.
    assert (Wi : within I (barea b1)) by (apply within_of; auto; intros q Hq; rewrite A1; auto). unfold within in Wi.
    assert (NL : forall l, line_drawn u te A l -> narrow_line u l) by (intros l [_ Hl] s Is; exact (drawn_narrow _ (proj1 (Hl s Is)))).
    destruct (tabs_loop_ok u t I ltac:(lia) (NL _ HL) (NL _ HR) (drawn_narrow _ (proj1 Hd)) (tb_titles t) (zlen (tb_titles t)) 0 b1 (rleft I) W1 ltac:(auto) ltac:(lia)) as (b3 & E3 & R3); unfold rright, rleft, rtop in *; try lia.
    exists b3. split; [exact E3|]. split; [exact (redrawn_wf _ _ _ R3)|]. rewrite (redrawn_area _ _ _ R3). exact A1.
  - unfold popup_render_at. destruct (C10_clear_exact b area W Hin) as (b2 & E & C1 & C2 & _). rewrite E. cbn [bind].
    destruct (boxed_returns (pp_block p) (pp_style p) area b2 C2 Hs Hx Hr ltac:(now rewrite C1)) as (b0 & b1 & E0 & E1 & W1 & A1 & _). rewrite E0. cbn [bind]. exists b1. repeat split; try assumption; try apply W1. congruence.
  - destruct (Hf area Hs Hx) as (F1 & F2 & F3). apply IH; auto.
  - destruct (IH area b W Hs Hx Hin) as (b1 & E1 & W1 & A1). destruct (IH' area b1 W1 Hs Hx ltac:(now rewrite A1)) as (b2 & E2 & W2 & A2). exists b2. rewrite E1. cbn [bind]. repeat split; try apply W2; auto. congruence.
  - now apply IH.
Qed.
Lemma placed_made w : placed u te A w -> made u te A w.
Proof. induction 1; try (now constructor). Qed.

(** Views that cannot fail are good whatever the size of the terminal ... *)
Theorem C89_view w : placed u te A w -> good_widget u te w.
Proof.
  intros Hw width height H1 H2. destruct (placed_returns w Hw (new_rect width height) (blank (new_rect width height)) (wf_blank _ _ H1 H2)) as (b & E & _).
  - now split.
  - now cbn.
  - auto.
  - exists b. split; [exact E|]. apply (C89_frames w width height b (placed_made w Hw) H1 H2 E).
Qed.
(** ... so whenever a program with such a view waits for a message, knowing the size of the terminal, the screen shows what its model draws. *)
Theorem C89_program {M : Type} (m0 : M) init_cmd update inputs view t0 s h m : (forall m, placed u te A (view m)) ->
  t_attr t0 = default_attr -> 0 <= t_w t0 -> 0 <= t_h t0 -> S_Joint.together m0 init_cmd update inputs view s h -> sizes_ok h -> waits s m -> told (t_w t0, t_h t0) true h = true ->
  model_after update m0 (updates (history s)) = Some m /\
  let area := let (W, H) := final_size (t_w t0, t_h t0) h in new_rect W H in
  exists s0 tm t b, start u te t0 = Some s0 /\ S_Session.run u te s0 h = Some (tm, t) /\ view m area (blank area) = Ret b /\ shows u te (t_cells t) b.
Proof.
  intros Hv Ha HW HH T Hs Wt Td. destruct (C85_screen m0 init_cmd update inputs view u te t0 s h m He (fun m => C89_view _ (Hv m)) Ha HW HH T Hs Wt Td) as (_ & E & s0 & tm & t & b & E1 & E2 & E3 & _ & E4 & _).
  split; [exact E|]. exists s0, tm, t, b. auto.
Qed.
End Claims.

(** ** Example: a titled box with a coloured text and, below it, a list, in a program that redraws after a resize. *)
Definition letter (s : str) : Prop := exists r, s = [r] /\ (32 <=? r)%N && ((r <? 127)%N || (9472 <=? r)%N && (r <? 9728)%N) = true.
Lemma letter_alphabet : alphabet simple_uniseg letter.
Proof.
  assert (R : forall r, (32 <=? r)%N && ((r <? 127)%N || (9472 <=? r)%N && (r <? 9728)%N) = true -> (32 <= r < 127 \/ 9472 <= r < 9728)%N).
  { intros r H. apply andb_true_iff in H. destruct H as [H1 H2]. apply N.leb_le in H1. apply orb_true_iff in H2. rewrite andb_true_iff, !N.ltb_lt, N.leb_le in H2. lia. }
  constructor.
  - now exists 32%N.
  - intros s (r & -> & H). apply R in H. cbn. unfold rune_width.
    repeat match goal with |- context [(?a =? ?b)%N] => destruct (N.eqb_spec a b); [lia|] | |- context [(?a <? ?b)%N] => destruct (N.ltb_spec a b); [lia|] | |- context [(?a <=? ?b)%N] => destruct (N.leb_spec a b); [lia|] end. reflexivity.
  - intros s (r & -> & H) x [<-|[]]. apply R in H. destruct (N.ltb_spec r 32); [lia|]. destruct (N.leb_spec 127 r); [|reflexivity]. destruct (N.ltb_spec r 160); [lia|reflexivity].
  - intros l H. cbn. induction l as [|s l IH]; [reflexivity|]. destruct (H s (or_introl eq_refl)) as (r & -> & _). cbn. f_equal. apply IH. intros x I. apply H. now right.
Qed.
Definition red : style := Style (Some (ColAnsi 1)) None ModifierBold ModifierNone.
Definition the_box (on : bool) : block := Block [Title AlignNone None (new_line [new_span (if on then [79; 110] else [79; 102; 102])%N])] new_style AlignLeft TitleTop SideAll red sharp_set new_style (Padding 0 0 0 0).
Definition the_list (on : bool) : lst := Lst [new_text_str [111; 110]%N; new_text_str [111; 102; 102]%N] None new_style TopToBottom (reversed new_style) [62; 32]%N false WhenSelected 0.
Definition the_view (on : bool) : widget := fun area b =>
  let! b := block_render simple_uniseg (the_box on) area b in
  (fun area b => let! (b, _) := list_render simple_uniseg (the_list on) area b (ListState 0 (Some (if on then 0 else 1))) in Ret b) (block_inner (the_box on) area) b.
Lemma the_env : env_ok simple_uniseg te_id.
Proof. constructor; [exact simple_uniseg_ok|split; reflexivity|reflexivity]. Qed.
Ltac chars := intros ? I; cbn in I; intuition (subst; eexists; split; [reflexivity|reflexivity]).
Lemma the_placed on : placed simple_uniseg te_id letter (the_view on).
Proof.
  assert (Sn : showable te_id new_style) by apply showable_new.
  assert (Sr : showable te_id red) by (repeat split; cbn; try discriminate; intros c E; injection E as <-; discriminate).
  assert (Bd : block_drawn simple_uniseg te_id letter (the_box on)).
  { repeat split; try apply Sn; try apply Sr; try (eexists; split; [reflexivity|reflexivity]).
    - destruct H as [<-|[]]. apply Sn.
    - destruct H as [<-|[]]. apply Sn.
    - destruct H as [<-|[]]. apply Sn.
    - destruct H as [<-|[]]. apply Sn.
    - destruct H as [<-|[]]. destruct H0 as [<-|[]]. destruct on; chars.
    - destruct H as [<-|[]]. destruct H0 as [<-|[]]. apply Sn.
    - destruct H as [<-|[]]. destruct H0 as [<-|[]]. apply Sn.
    - destruct H as [<-|[]]. destruct H0 as [<-|[]]. apply Sn.
    - destruct H as [<-|[]]. destruct H0 as [<-|[]]. apply Sn. }
  apply (placed_then _ _ _ (block_render simple_uniseg (the_box on))).
  - apply placed_block; [exact Bd|]. unfold nonneg_padding. cbn. lia.
  - apply (placed_part _ _ _ (block_inner (the_box on)) (fun area b => let! (b, _) := list_render simple_uniseg (the_list on) area b (ListState 0 (Some (if on then 0 else 1))) in Ret b)).
    + intros area Hs Hx. split; [apply block_inner_sized|]. assert (P : padded (the_box on)) by (unfold padded; cbn; lia).
      split; [|intros p I; now apply (C31_inner_excludes_decoration (the_box on) area p)]. destruct Hs as [S1 S2]. unfold block_inner, rright. cbn. destruct on; cbn; lia.
    + apply placed_list; try discriminate; try apply Sn; try (cbn; lia).
      * chars.
      * intros t [<-|[<-|[]]]; (split; [apply Sn|]); intros l [<-|[]]; (split; [apply Sn|]); intros s [<-|[]]; (split; [|apply Sn]); chars.
      * cbn. intros i E. injection E as <-. destruct on; lia.
Qed.
Example C89_instance : (forall on, placed simple_uniseg te_id letter (the_view on)) /\ env_ok simple_uniseg te_id /\ alphabet simple_uniseg letter /\
  omap picture (the_view false (Rect 0 0 8 4) (blank (new_rect 8 4))) =
    Ret [[9484]; [79]; [102]; [102]; [9472]; [9472]; [9472]; [9488];
         [9474]; [32]; [32]; [111]; [110]; [32]; [32]; [9474];
         [9474]; [62]; [32]; [111]; [102]; [102]; [32]; [9474];
         [9492]; [9472]; [9472]; [9472]; [9472]; [9472]; [9472]; [9496]]%N.
Proof. split; [exact the_placed|]. split; [exact the_env|]. split; [exact letter_alphabet|]. vm_compute. reflexivity. Qed.
Print Assumptions C89_frames.
Print Assumptions C89_layouts.
Print Assumptions C89_view.
Print Assumptions C89_program.
