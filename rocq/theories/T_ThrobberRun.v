(** C105: what the terminal shows while the program of examples/throbber runs, letter by letter, with comparisons exact. *)
From Verif Require Import S_Keys P_Decode T_Decode T_KeyName.
From Verif Require Import Base P_Base M_Geom M_Style M_Utf8 M_Uniseg M_Buffer M_Text M_Block M_Options M_Solver M_Layout M_Popup M_Throbber M_View M_Splitted M_ThrobberGrid M_Decode M_Ansi M_Backend.
From Verif Require Import S_Geom T_Geom S_Buffer S_Text S_Line S_Block S_Layout S_Place P_Buffer P_Text T_Text T_TextRows T_Solver T_Layout T_Place T_Exact T_Apart T_Popup T_Throbber T_View T_ThrobberGrid T_ThrobberBoxes T_ThrobberScreen S_ThrobberScreen T_WithTerminal.
From Verif Require Import P_Session S_Terminal S_Ansi S_Display S_Command S_Session S_Frame P_Redraw T_Terminal P_Frame T_Frame M_Cmd M_App P_App P_AppIds P_AppLog P_AppRun P_AppEnd T_App S_Joint T_Joint S_Stateful T_Stateful S_Typed T_Sizes M_ExampleThrobber T_Ticking T_Example T_ExampleListRun T_ExampleThrobber.
From Coq Require Import ZArith NArith QArith String List Bool Lia Lqa Permutation.
Import ListNotations.
Open Scope Z_scope.
Local Open Scope list_scope.
#[local] Existing Instance no_tolerance.

(** ** C85 for programs that need room, and that drawing does not change *)
Lemma screen_at {M} (m0 : M) init_cmd update inputs view u te t0 s h m : env_ok u te -> (forall n, clusters u (repeat 32%N n) = repeat [32%N] n) ->
  let sizes := (t_w t0, t_h t0) :: resizes h in
  (forall w, In (EvDraw w) h -> forall W H, In (W, H) sizes -> exists b, w (new_rect W H) (blank (new_rect W H)) = Ret b /\ barea b = new_rect W H /\ frame_ok u te b) ->
  t_attr t0 = default_attr -> 0 <= t_w t0 -> 0 <= t_h t0 ->
  S_Joint.together m0 init_cmd update inputs view s h -> sizes_ok h -> st_main s = PLoop m -> told (t_w t0, t_h t0) true h = true ->
  let area := let (W, H) := final_size (t_w t0, t_h t0) h in new_rect W H in
  In (final_size (t_w t0, t_h t0) h) sizes /\
  exists s0 tm t b, start u te t0 = Some s0 /\ S_Session.run u te s0 h = Some (tm, t) /\ view m area (blank area) = Ret b /\ barea b = area /\ S_Display.shows u te (t_cells t) b.
Proof.
  intros He Hsp sizes Hv Ha HW HH T Hs Wt Td area.
  assert (Pz : In (final_size (t_w t0, t_h t0) h) sizes).
  { rewrite <- (told_last h _ _ _ (fun _ => eq_refl) Td). unfold sizes. clear. generalize (t_w t0, t_h t0). induction (resizes h) as [|z l IH]; intros z0; [now left|]. rewrite last_cons. right. apply IH. }
  split; [exact Pz|].
  set (h' := map (event_at sizes) h). pose proof (together_at m0 init_cmd update inputs view sizes s h T) as T'. fold h' in T'.
  destruct (screen m0 init_cmd update inputs (fun m => only_at sizes (view m)) u te t0 s h' m He) as (Eu & Em & s0 & tm & t & b & B); auto.
  { intros w I. apply in_map_iff in I. destruct I as (e & Ee & I). destruct e as [w0| |]; try discriminate. cbn [event_at] in Ee. injection Ee as <-. intros W H ZW ZH. destruct (in_dec (pair_dec) (W, H) sizes) as [J|J].
    - rewrite only_at_in by exact J. exact (Hv w0 I W H J).
    - rewrite only_at_out by exact J. exists (blank (new_rect W H)). split; [reflexivity|]. split; [reflexivity|]. split.
      + apply blank_displayable; [exact He|now apply new_rect_sized].
      + intros p l Hl. assert (Es : l = repeat [32%N] (length l)).
        { clear - Hl. assert (Q : forall x, In x l -> x = [32%N]). { intros x Ix. apply In_nth_error in Ix. destruct Ix as [k Ik]. destruct (Hl k x Ik) as (c & Lc & <-). apply blank_look_Some in Lc. now subst c. }
          clear Hl. induction l as [|x l IH]; [reflexivity|]. cbn [length repeat]. rewrite (Q x (or_introl eq_refl)). f_equal. apply IH. intros y Iy. apply Q. now right. }
        rewrite Es. replace (concat (repeat [32%N] (length l))) with (repeat 32%N (length l)) by (clear; induction l as [|x l IH]; [reflexivity|]; cbn [length repeat concat app]; now rewrite IH). apply Hsp.
      + intros p c Lc. apply blank_look_Some in Lc. subst c. intros r [<-|[]]. reflexivity. }
  { now apply sizes_at. } { now left. } { unfold h'. now rewrite told_at. }
  destruct B as (B1 & B2 & B3 & B4 & B5 & _). unfold h' in B2, B3, B4. rewrite final_at in B3, B4. destruct s0 as [tm0 t1].
  rewrite run_at in B2; [|exists (t_w t0), (t_h t0); split; [exact (start_at _ _ _ _ _ B1)|now left]|intros z I; now right].
  exists (tm0, t1), tm, t, b. split; [exact B1|]. split; [exact B2|]. unfold area. destruct (final_size (t_w t0, t_h t0) h) as [W H] eqn:Fz. rewrite only_at_in in B3 by exact Pz. auto.
Qed.

(** ** What the program draws *)
Definition spin_view (u : uniseg) (duration : Z -> str) (rs : spinning -> rect -> spin_runs_of) (m : spinning) : widget :=
  fun area b => T_Frame.drawing (spin_render u duration (rs m area) (sp_state m) (sp_rate m) area b).
Definition spin_chars : str := (asc "LineHorizontalBlockVerticalBlockBrailleEightParenthesisCanadianEllipsisMeterPulse" ++ [9484; 9488; 9492; 9496; 9474; 9472] ++ footer_text ++ asc "FPS " ++ concat (concat (map frame_set shown_types)))%N.

Lemma table : the_throbbers = map (fun ty => (type_string ty, frame_set ty)) shown_types.
Proof. reflexivity. Qed.
Section Drawing.
Variables (u : uniseg) (te : termenv) (A : str -> Prop).
Hypothesis (He : env_ok u te) (HA : alphabet u A) (Hex : forall c, In c spin_chars -> A [c]).

Lemma letters_drawn l : (forall c, In c l -> A [c]) -> S_Frame.drawn u A l.
Proof. intros H s I. rewrite (of_chars u A HA) in I by exact H. apply in_map_iff in I. destruct I as (c & <- & I). now apply H. Qed.
Lemma letters_column l : (forall c, In c l -> A [c]) -> T_View.one_column u l.
Proof.
  intros H. split; [now apply (of_chars u A HA)|]. intros c I. specialize (H c I). split; [now apply (al_one _ _ HA)|]. pose proof (al_plain _ _ HA _ H c (or_introl eq_refl)) as P.
  unfold is_control. exact P.
Qed.
Lemma name_known ty c : In c (type_string ty) -> A [c].
Proof. intros I. apply Hex. unfold spin_chars. apply in_or_app. left. destruct ty; vm_compute in I; repeat (destruct I as [<-|I]; [vm_compute; tauto|]); destruct I. Qed.
Lemma frame_known ty f c : In f (frame_set ty) -> In c f -> A [c].
Proof.
  intros If Ic. apply Hex. unfold spin_chars. do 4 (apply in_or_app; right). apply in_concat. exists f. split; [|exact Ic]. apply in_concat. exists (frame_set ty). split; [|exact If]. apply in_map. destruct ty; cbn; tauto.
Qed.
Lemma footer_known c : In c footer_text -> A [c].
Proof. intros I. apply Hex. unfold spin_chars. apply in_or_app. right. apply in_or_app. right. apply in_or_app. now left. Qed.
Lemma plain_all : plain_letters u.
Proof. intros ty. split; [apply letters_column; intros c; apply name_known|]. intros f I. apply letters_column. intros c. now apply (frame_known ty). Qed.

Lemma line_text s : (forall c, In c s -> A [c]) -> line_drawn u te A (new_line_str s).
Proof.
  intros H. split; [apply showable_new|]. intros x I. destruct (line_incl _ _ I) as [Ic Es]. split; [|rewrite Es; apply showable_new]. apply letters_drawn. intros c J. apply H, Ic, J.
Qed.
Lemma plain_text s : tx_lines (new_text_str s) = [new_line (match s with [] => [] | _ => [new_span s] end)] -> (forall c, In c s -> A [c]) -> text_drawn u te A (new_text_str s).
Proof.
  intros E H. split; [apply showable_new|]. rewrite E. intros l [<-|[]]. split; [apply showable_new|]. intros x I. destruct s as [|c0 s]; [destruct I|]. destruct I as [<-|[]]. split; [|apply showable_new]. now apply letters_drawn.
Qed.
Lemma box_drawn ty : block_drawn u te A (type_block ty).
Proof.
  assert (Sn : showable te new_style) by apply showable_new. split; [exact Sn|]. split; [exact Sn|]. split; [exact Sn|]. split.
  - repeat split; apply Hex; vm_compute; tauto.
  - intros t [<-|[]]. apply line_text. intros c. apply name_known.
Qed.
Lemma types_made rs s grid types : forall i, made u te A (fun _ b => T_Frame.drawing (draw_types u rs s grid i types b)).
Proof.
  induction types as [|ty types IH]; intros i; [apply made_nothing|]. cbn [draw_types]. destruct (index_at grid (Z.of_nat i)) as [g|]; [|apply made_failure]. cbv zeta.
  set (a := block_inner (type_block ty) g). set (t := throbber_with_type new_throbber ty).
  assert (M1 : made u te A (fun _ b => block_render u (type_block ty) g b)) by (apply (made_part _ _ _ (fun _ => g) (block_render u (type_block ty))); apply made_block, box_drawn).
  assert (M2 : made u te A (fun _ b => T_Frame.drawing (throbber_render u (fst (rs i)) (snd (rs i)) t a b s))).
  { apply (made_part _ _ _ (fun _ => a) (fun a b => T_Frame.drawing (throbber_render u (fst (rs i)) (snd (rs i)) t a b s))). destruct (C89_layouts u te A _ _ (fst (rs i)) (snd (rs i))) as (_ & L & _). apply L; [apply showable_new|].
    intros f I. apply plain_text; [exact (frame_lines ty f I)|]. intros c. now apply (frame_known ty). }
  apply (made_same _ _ _ (fun area b => let! b := block_render u (type_block ty) g b in (fun _ b => let! b := T_Frame.drawing (throbber_render u (fst (rs i)) (snd (rs i)) t a b s) in T_Frame.drawing (draw_types u rs s grid (S i) types b)) area b)).
  - apply (made_then _ _ _ (fun _ b => block_render u (type_block ty) g b)); [exact M1|]. apply (made_then _ _ _ (fun _ b => T_Frame.drawing (throbber_render u (fst (rs i)) (snd (rs i)) t a b s))); [exact M2|]. apply IH.
  - intros area b. destruct (block_render u (type_block ty) g b) as [b1|]; [|reflexivity]. cbn [bind]. destruct (throbber_render u (fst (rs i)) (snd (rs i)) t a b1 s) as [[b2|]|]; reflexivity.
Qed.
Lemma view_made duration rs m : (forall c, In c (duration (sp_rate m)) -> A [c]) -> one_line u (info_text duration (sp_rate m)) -> made u te A (spin_view u duration rs m).
Proof.
  intros Hd [_ Ol]. unfold spin_view. apply (made_by _ _ _ (fun area _ b => T_Frame.drawing (spin_render u duration (rs m area) (sp_state m) (sp_rate m) area b))). intros area. unfold spin_render. set (r := rs m area).
  destruct (M_Layout.split _ _ _ _ area) as [segs sps| |]; try apply made_failure. destruct (assign segs _ _) as [f|]; [|apply made_failure].
  assert (Hi : forall c, In c (info_text duration (sp_rate m)) -> A [c]). { intros c I. apply in_app_or in I. destruct I as [I|I]; [|now apply Hd]. apply Hex. unfold spin_chars. do 3 (apply in_or_app; right). apply in_or_app. now left. }
  assert (M1 : made u te A (fun _ b => text_render u (new_text_str (info_text duration (sp_rate m))) (f 0%nat) b)).
  { apply (made_part _ _ _ (fun _ => f 0%nat) (text_render u _)). apply made_text, plain_text; [|exact Hi]. rewrite Ol. reflexivity. }
  assert (M2 : made u te A (fun _ b => T_Frame.drawing (render_throbbers u (sr_grid r) (sr_rows r) (sr_spins r) (sp_state m) (f 1%nat) b))).
  { unfold render_throbbers. destruct (get_grid _ _ _ _) as [[grid|]|]; try apply made_failure. apply types_made. }
  assert (M3 : made u te A (fun _ b => text_render u (new_text_str footer_text) (f 2%nat) b)).
  { apply (made_part _ _ _ (fun _ => f 2%nat) (text_render u _)). apply made_text, plain_text; [vm_compute; reflexivity|exact footer_known]. }
  apply (made_same _ _ _ (fun area b => let! b := text_render u (new_text_str (info_text duration (sp_rate m))) (f 0%nat) b in
    (fun _ b => let! b := T_Frame.drawing (render_throbbers u (sr_grid r) (sr_rows r) (sr_spins r) (sp_state m) (f 1%nat) b) in text_render u (new_text_str footer_text) (f 2%nat) b) area b)).
  - apply (made_then _ _ _ (fun _ b => text_render u (new_text_str (info_text duration (sp_rate m))) (f 0%nat) b)); [exact M1|]. apply (made_then _ _ _ (fun _ b => T_Frame.drawing (render_throbbers u (sr_grid r) (sr_rows r) (sr_spins r) (sp_state m) (f 1%nat) b))); [exact M2|exact M3].
  - intros a b. destruct (text_render u _ (f 0%nat) b) as [b1|]; [|reflexivity]. cbn [bind]. destruct (render_throbbers _ _ _ _ _ _ b1) as [[b2|]|]; reflexivity.
Qed.

(** ** The models of the program *)
Definition counts (last : Z) (m : spinning) : Prop := exists n, 0 <= n /\ sp_state m = ThrobberState n (last + 1) n.
Lemma new_counts last : counts last (new_spinning last).
Proof. exists 0. split; [lia|reflexivity]. Qed.
Lemma update_counts last ds m x m' c : counts last m -> spin_update ds m x = Some (m', c) -> counts last m'.
Proof.
  intros (n & Hn & E). unfold spin_update. destruct x as [| | |k| |]; try (intros [= <- _]; now exists n).
  destruct (nth_error ds k) as [[key| | | | |]|]; try (intros [= <- _]; now exists n).
  - cbv zeta. repeat match goal with |- context [if ?b then _ else _] => destruct b end; intros [= <- _]; now exists n.
  - unfold throbber_try_update. rewrite E. repeat match goal with |- context [if ?b then _ else _] => destruct b end; intros [= <- _]; cbn [sp_state th_frame th_id th_tag]; [now exists n|now exists n|]. exists (n + 1). split; [lia|reflexivity].
Qed.
Lemma counts_receives last n : exists ms acc, receives (snd (new_throbber_state last)) ms = (ThrobberState (Z.of_nat n) (last + 1) (Z.of_nat n), acc) /\ zlen acc = Z.of_nat n.
Proof.
  exists (repeat (Some (TickMsg 0 0)) n). cbn [new_throbber_state snd].
  assert (G : forall k, exists acc, receives (ThrobberState k (last + 1) k) (repeat (Some (TickMsg 0 0)) n) = (ThrobberState (k + Z.of_nat n) (last + 1) (k + Z.of_nat n), acc) /\ zlen acc = Z.of_nat n).
  { induction n as [|n IH]; intros k; [exists []; split; [cbn; now rewrite Z.add_0_r|reflexivity]|]. destruct (IH (k + 1)) as (acc & E & L). cbn [repeat receives throbber_try_update tk_id tk_tag Z.gtb Z.compare andb th_frame th_id th_tag]. rewrite E.
    eexists. split; [f_equal; f_equal; lia|]. rewrite zlen_cons, L. lia. }
  exact (G 0).
Qed.

(** ** C105: whenever the program waits, the terminal shows its screen: the first line the time between two frames, as many milliseconds more than the "+" typed exceed the "-",
    the last line the help, and between them nine boxes, each with its throbber's frame, as far as the ticks that were given brought it. Each drawing may be the result of any
    runs of the solver that end. *)
Theorem C105_terminal_partial duration rs ds last t0 s h m : let sizes := (t_w t0, t_h t0) :: resizes h in
  (forall rate, (forall c, In c (duration rate) -> A [c]) /\ one_line u (asc "FPS " ++ duration rate)) ->
  0 <= last -> (forall k, In (KeyMsg k) ds -> one_press k) -> (forall m area, screen_runs u (rs m area)) ->
  (forall m W H, counts last m -> In (W, H) sizes -> spin_render u duration (rs m (new_rect W H)) (sp_state m) (sp_rate m) (new_rect W H) (blank (new_rect W H)) <> None) ->
  t_attr t0 = default_attr -> 0 <= t_w t0 -> 0 <= t_h t0 ->
  S_Joint.together (new_spinning last) (spin_init ds (new_spinning last)) (spin_update ds) (numbered ds) (spin_view u duration rs) s h -> sizes_ok h -> st_main s = PLoop m -> told (t_w t0, t_h t0) true h = true ->
  let (W, H) := final_size (t_w t0, t_h t0) h in let area := new_rect W H in let done := updates (history s) in
  exists s0 tm t b, start u te t0 = Some s0 /\ S_Session.run u te s0 h = Some (tm, t) /\ barea b = area /\ S_Display.shows u te (t_cells t) b /\
    (51 <= W -> 11 <= H ->
      line_shows (asc "FPS " ++ duration (1000000000 / 9 + 1000000 * (times 43 (typed ds done) - times 45 (typed ds done)))) 0 area (blank area) b /\
      line_shows the_help (H - 1) area (blank area) b /\
      forall i name frames, nth_error the_throbbers i = Some (name, frames) -> exists f, nth_error frames (length (ticks_given (length ds) (history s)) mod length frames) = Some f /\
        box_shows name f (box (Rect 0 1 W (H - 2)) i) (blank area) b).
Proof.
  intros sizes Hd L One Rn Ends Ha HW HH T Hs Wt Td.
  assert (Hu := env_uniseg _ _ He).
  assert (Sz : forall W H, In (W, H) sizes -> 0 <= W /\ 0 <= H).
  { intros W H [E|I]; [injection E as <- <-; now split|]. unfold resizes in I. apply in_flat_map in I. destruct I as (e & Ie & I). specialize (Hs e Ie). destruct e as [w|w ht|w ht x y]; cbn in I; try contradiction. destruct I as [I|[]]. injection I as <- <-. exact Hs. }
  assert (Draw : forall m W H, counts last m -> In (W, H) sizes -> exists b, spin_view u duration rs m (new_rect W H) (blank (new_rect W H)) = Ret b /\
    (51 <= W -> 11 <= H -> line_shows (info_text duration (sp_rate m)) 0 (new_rect W H) (blank (new_rect W H)) b /\ line_shows footer_text (H - 1) (new_rect W H) (blank (new_rect W H)) b /\
      forall i ty, nth_error shown_types i = Some ty -> box_shows (type_string ty) (frame_after ty (th_frame (sp_state m))) (box (Rect 0 1 W (H - 2)) i) (blank (new_rect W H)) b)).
  { intros m1 W H C I. destruct (Sz W H I) as [ZW ZH]. specialize (Ends m1 W H C I). destruct C as (n & Hn & Es). unfold spin_view. destruct (spin_render u duration _ _ _ _ _) as [o|] eqn:Eo; [|contradiction]. clear Ends. cbn [T_Frame.drawing].
    destruct (counts_receives last (Z.to_nat n)) as (ms & acc & Rc & La). rewrite Z2Nat.id in Rc, La by exact Hn. rewrite <- Es in Rc.
    destruct (C105_screen_partial u duration (rs m1 (new_rect W H)) ms (sp_state m1) acc last (sp_rate m1) (new_rect W H) (blank (new_rect W H)) o Hu plain_all (letters_column _ footer_known) (proj2 (Hd (sp_rate m1))) Rc (Rn m1 (new_rect W H)) (wf_blank W H ZW ZH)) as (b & -> & _ & Sh); try exact Eo; try (cbn; lia).
    - now split.
    - intros p P. exact P.
    - exists b. split; [reflexivity|]. intros W51 H11. destruct (Sh W51 H11) as (S1 & S2 & S3). rewrite La in S3. rewrite Es. cbn [th_frame]. cbn [rx ry rw rh new_rect middle] in S1, S2, S3. rewrite ?Z.add_0_l in S2, S3. exact (conj S1 (conj S2 S3)). }
  assert (Good : forall w, In (EvDraw w) h -> forall W H, In (W, H) sizes -> exists b, w (new_rect W H) (blank (new_rect W H)) = Ret b /\ barea b = new_rect W H /\ frame_ok u te b).
  { intros w I W H J. destruct (together_models _ _ _ _ _ (counts last) s h (new_counts last) (fun m x m' c => update_counts last ds m x m' c) T w I) as (m1 & C & ->). destruct (Draw m1 W H C J) as (b & E & _). exists b. split; [exact E|]. destruct (Sz W H J) as [ZW ZH].
    exact (C89_frames u te A He HA _ W H b (view_made duration rs m1 (proj1 (Hd _)) (proj2 (Hd _))) ZW ZH E). }
  assert (Hsp : forall n, clusters u (repeat 32%N n) = repeat [32%N] n).
  { intros n. rewrite (of_chars u A HA) by (intros c I; apply repeat_spec in I; subst c; apply (al_space _ _ HA)). induction n as [|n IH]; [reflexivity|]. cbn. now rewrite IH. }
  destruct (screen_at _ _ _ _ _ u te t0 s h m He Hsp Good Ha HW HH T Hs Wt Td) as (Is & s0 & tm & t & b & B1 & B2 & B3 & B4 & B5).
  pose proof (together_reachable _ _ _ _ _ s h T) as R. destruct (C104_example ds last s m L One R Wt) as (_ & Fr & _ & Rt & _).
  assert (C : counts last m).
  { pose proof (reach_model _ _ _ _ _ R m ltac:(rewrite Wt; reflexivity)) as K. revert K. generalize (new_counts last). generalize (new_spinning last). generalize (rev (upd (st_log s))). clear.
    induction l as [|x l IH]; intros a C E; cbn [model_after] in E; [now injection E as <-|]. destruct (spin_update ds a x) as [[a' c]|] eqn:U; [|discriminate]. eapply IH; [|exact E]. eapply update_counts; eassumption. }
  destruct (final_size (t_w t0, t_h t0) h) as [W H] eqn:Fz. cbv zeta. destruct (Draw m W H C Is) as (b' & E' & Sh). rewrite E' in B3. injection B3 as ->. rewrite Fr, Rt in Sh.
  exists s0, tm, t, b. split; [exact B1|]. split; [exact B2|]. split; [exact B4|]. split; [exact B5|]. intros W51 H11. destruct (Sh W51 H11) as (S1 & S2 & S3).
  split; [exact S1|]. split; [exact S2|]. intros i name frames I.
  assert (K : exists ty, nth_error shown_types i = Some ty /\ name = type_string ty /\ frames = frame_set ty).
  { rewrite table in I. rewrite nth_error_map in I. destruct (nth_error shown_types i) as [ty|]; [|discriminate]. cbn [option_map] in I. injection I as <- <-. eauto. }
  destruct K as (ty & Ity & -> & ->). assert (Lf : (0 < length (frame_set ty))%nat) by (destruct ty; cbn; lia).
  exists (frame_after ty (zlen (ticks_given (length ds) (history s)))). split; [|exact (S3 i ty Ity)]. unfold frame_after, zlen. rewrite <- Nat2Z.inj_mod, Nat2Z.id. apply nth_error_nth'. apply Nat.mod_upper_bound. lia.
Qed.
End Drawing.
Print Assumptions C105_terminal_partial.

(** *** Instance: a terminal of 52 by 12 cells; the user typed "+", and seven ticks were given. *)
Definition wide_letter (s : str) : Prop := exists r, s = [r] /\ rune_width r = 1 /\ is_control r = false.
Lemma wide_alphabet : alphabet simple_uniseg wide_letter.
Proof.
  constructor.
  - exists 32%N. repeat split.
  - intros s (r & -> & E & _). exact E.
  - intros s (r & -> & _ & E) x [<-|[]]. exact E.
  - intros l H. cbn. induction l as [|s l IH]; [reflexivity|]. destruct (H s (or_introl eq_refl)) as (r & -> & _). cbn. f_equal. apply IH. intros x I. apply H. now right.
Qed.
Lemma wide_known s : forallb (fun c => (rune_width c =? 1) && negb (is_control c)) s = true -> forall c, In c s -> wide_letter [c].
Proof. intros H c I. rewrite forallb_forall in H. specialize (H c I). apply andb_prop in H. destruct H as [A B]. exists c. split; [reflexivity|]. split; [now apply Z.eqb_eq|now apply negb_true_iff]. Qed.
Lemma types_end u rs s grid types : forall i b,
  (forall k ty g f, nth_error types k = Some ty -> nth_error grid (i + k) = Some g -> In f (frame_set ty) ->
    throbber_area u (fst (rs (i + k)%nat)) (snd (rs (i + k)%nat)) (throbber_with_type new_throbber ty) f (block_inner (type_block ty) g) <> PlaceBusy) ->
  draw_types u rs s grid i types b <> None.
Proof.
  induction types as [|ty types IH]; intros i b H; [discriminate|]. cbn [draw_types]. destruct (index_at grid (Z.of_nat i)) as [g|] eqn:G; [|discriminate]. cbv zeta. destruct (block_render u (type_block ty) g b) as [b1|]; [|discriminate].
  unfold throbber_render. destruct (set_frame (tw_set (throbber_with_type new_throbber ty)) (th_frame s)) as [f|] eqn:F; [|discriminate].
  assert (If : In f (frame_set ty)) by (unfold set_frame in F; destruct (_ =? 0); [discriminate|]; eapply index_at_in; exact F).
  assert (Ig : nth_error grid i = Some g) by (unfold index_at in G; destruct (Z.ltb_spec (Z.of_nat i) 0); [lia|]; rewrite Nat2Z.id in G; destruct (nth_error grid i); [now injection G as ->|discriminate]).
  pose proof (H 0%nat ty g f eq_refl ltac:(now rewrite Nat.add_0_r) If) as P. rewrite Nat.add_0_r in P. destruct (throbber_area u _ _ _ f _) as [at_| |]; [|discriminate|contradiction].
  destruct (text_render u _ at_ b1) as [b2|]; [|discriminate]. apply IH. intros k ty' g' f' K N If'. replace (S i + k)%nat with (i + S k)%nat in N |- * by lia. exact (H (S k) ty' g' f' K N If').
Qed.
Definition two_durations (rate : Z) : str := if rate =? 111111111 then asc "111.111111ms" else asc "112.111111ms".
Definition busy (ty : throbber_type) (g : rect) (i : nat) : bool :=
  existsb (fun f => match throbber_area simple_uniseg (fst (some_spin i)) (snd (some_spin i)) (throbber_with_type new_throbber ty) f (block_inner (type_block ty) g) with PlaceBusy => true | _ => false end) (frame_set ty).
Lemma some_screen_ends s rate b : spin_render simple_uniseg two_durations some_screen s rate (new_rect 52 12) b <> None.
Proof.
  unfold spin_render. destruct (M_Layout.split _ _ _ screen_layout (new_rect 52 12)) as [segs sps| |] eqn:E; [|discriminate|vm_compute in E; discriminate].
  assert (Es : segs = [Rect 0 0 52 1; Rect 0 1 52 10; Rect 0 11 52 1]) by (vm_compute in E; injection E as <- _; reflexivity). clear E. subst segs. cbn [assign store].
  match goal with |- match ?x with _ => _ end <> None => destruct x as [f|] eqn:Ef; [|discriminate] end. assert (F1 : f 1%nat = Rect 0 1 52 10) by (cbn in Ef; injection Ef as <-; reflexivity). rewrite F1. clear Ef F1.
  destruct (text_render simple_uniseg _ (f 0%nat) b) as [b1|]; [|discriminate]. unfold render_throbbers. destruct (get_grid _ _ (Rect 0 1 52 10) _) as [[grid|]|] eqn:G; [|discriminate|vm_compute in G; discriminate].
  assert (Eg : grid = map (box (Rect 0 1 52 10)) (seq 0 9)) by (vm_compute in G; injection G as <-; vm_compute; reflexivity). clear G. subst grid.
  assert (D : draw_types simple_uniseg (sr_spins some_screen) s (map (box (Rect 0 1 52 10)) (seq 0 9)) 0 shown_types b1 <> None).
  { apply types_end. intros k ty g f' K N If B. rewrite Nat.add_0_l in N, B.
    assert (Bs : forallb (fun k => match nth_error shown_types k with Some ty => negb (busy ty (box (Rect 0 1 52 10) k) k) | None => true end) (seq 0 9) = true) by (vm_compute; reflexivity).
    assert (Hk : (k < 9)%nat) by (change 9%nat with (length shown_types); apply nth_error_Some; congruence). rewrite forallb_forall in Bs. specialize (Bs k ltac:(apply in_seq; lia)). rewrite K in Bs.
    rewrite nth_error_map, (nth_error_nth' _ 0%nat) in N by (now rewrite seq_length). rewrite seq_nth in N by exact Hk. cbn [option_map Nat.add] in N. injection N as <-. apply negb_true_iff in Bs. unfold busy in Bs.
    assert (T : existsb (fun f => match throbber_area simple_uniseg (fst (some_spin k)) (snd (some_spin k)) (throbber_with_type new_throbber ty) f (block_inner (type_block ty) (box (Rect 0 1 52 10) k)) with PlaceBusy => true | _ => false end) (frame_set ty) = true); [|congruence].
    apply existsb_exists. exists f'. split; [exact If|]. change (sr_spins some_screen) with some_spin in B. rewrite B. reflexivity. }
  destruct (draw_types _ _ _ _ _ _ _) as [[b2|]|]; [discriminate|discriminate|contradiction].
Qed.
Example C105_terminal_instance t0 : t_attr t0 = default_attr -> t_w t0 = 52 -> t_h t0 = 12 ->
  exists s h m s0 tm t b, S_Joint.together (new_spinning 0) (spin_init [plus_key; stop_key] (new_spinning 0)) (spin_update [plus_key; stop_key]) (numbered [plus_key; stop_key]) (spin_view simple_uniseg two_durations (fun _ _ => some_screen)) s h /\
    st_main s = PLoop m /\ length (ticks_given 2 (history s)) = 7%nat /\ start simple_uniseg te_id t0 = Some s0 /\ S_Session.run simple_uniseg te_id s0 h = Some (tm, t) /\ S_Display.shows simple_uniseg te_id (t_cells t) b /\
    let row y n := map (fun x => symbol_at b (Pos (Z.of_nat x) y)) (seq 0 n) in let word t := map (fun c : N => Some [c]) t in
    row 0 17%nat = word (asc "FPS 112.111111ms ") /\ row 11 7%nat = word (asc """+"" - i") /\
    row 1 17%nat = word ([9484] ++ asc "Line" ++ repeat 9472 11 ++ [9488])%N /\ row 2 17%nat = word ([9474] ++ repeat 32 7 ++ [92] ++ repeat 32 7 ++ [9474])%N.
Proof.
  intros Ha Ew Eh. destruct C104_instance as (One & s & m & R & E & Cn & Fr & Rt & Tg & _). set (ds := [plus_key; stop_key]) in *.
  destruct (C85_every_run _ _ _ _ (spin_view simple_uniseg two_durations (fun _ _ => some_screen)) 52 12 s R) as [K|(h & T & C)]; [unfold alone in K; rewrite E in K; contradiction|].
  destruct (calm_told _ 52 12 h C) as (C1 & C2 & C3). pose proof (calm_sizes _ 52 12 h ltac:(lia) ltac:(lia) C) as C4.
  assert (Hd : forall rate, (forall c, In c (two_durations rate) -> wide_letter [c]) /\ one_line simple_uniseg (asc "FPS " ++ two_durations rate)).
  { intros rate. unfold two_durations. destruct (rate =? 111111111); (split; [apply wide_known; vm_compute; reflexivity|]); (split; [|vm_compute; reflexivity]); apply (letters_column _ _ wide_alphabet), wide_known; vm_compute; reflexivity. }
  assert (Rn : forall (m : spinning) (area : rect), screen_runs simple_uniseg some_screen) by (intros _ _; exact (proj1 (proj2 (proj2 (proj2 C105_screen_instance))))).
  pose proof (C105_terminal_partial simple_uniseg te_id wide_letter the_env wide_alphabet ltac:(apply wide_known; vm_compute; reflexivity) two_durations (fun _ _ => some_screen) ds 0 t0 s h m) as G.
  cbv zeta in G. rewrite Ew, Eh, C2 in G.
  destruct G as (s0 & tm & t & b & B1 & B2 & B3 & B4 & B5); try assumption; try lia.
  { intros m1 W H _ I. assert (Q : (W, H) = (52, 12)) by (destruct I as [I|I]; [now symmetry|now apply C3]). injection Q as -> ->. apply some_screen_ends. }
  destruct (C104_example ds 0 s m (Z.le_refl 0) One R E) as (_ & _ & _ & Rt' & _). rewrite Rt in Rt'. rewrite <- Rt' in B5. change (length ds) with 2%nat in B5. rewrite Tg in B5.
  destruct (B5 ltac:(lia) ltac:(lia)) as (L1 & L2 & L3). clear B5.
  exists s, h, m, s0, tm, t, b. split; [exact T|]. split; [exact E|]. split; [now rewrite Tg|]. split; [exact B1|]. split; [exact B2|]. split; [exact B4|]. cbv zeta.
  destruct (L3 0%nat _ _ eq_refl) as (f & Ef & L4). vm_compute in Ef. injection Ef as <-.
  repeat split.
  - transitivity (map (fun x => (fun p => match text_at 0 0 (asc "FPS " ++ two_durations 112111111) p with Some c => Some c | None => symbol_at (blank (new_rect 52 12)) p end) (Pos (Z.of_nat x) 0)) (seq 0 17)); [apply map_ext_in; intros x Hx; apply in_seq in Hx; cbv beta; apply L1; [unfold inside; cbn [rx ry rw rh px py new_rect]; lia|reflexivity]|vm_compute; reflexivity].
  - transitivity (map (fun x => (fun p => match text_at 0 11 the_help p with Some c => Some c | None => symbol_at (blank (new_rect 52 12)) p end) (Pos (Z.of_nat x) 11)) (seq 0 7)); [apply map_ext_in; intros x Hx; apply in_seq in Hx; cbv beta; apply L2; [unfold inside; cbn [rx ry rw rh px py new_rect]; lia|reflexivity]|vm_compute; reflexivity].
  - transitivity (map (fun x => (fun p => match box_symbol (asc "Line") [92%N] (Rect 0 1 17 3) p with Some c => Some c | None => symbol_at (blank (new_rect 52 12)) p end) (Pos (Z.of_nat x) 1)) (seq 0 17)); [apply map_ext_in; intros x Hx; apply in_seq in Hx; cbv beta; apply L4; change (box _ _) with (Rect 0 1 17 3); unfold inside; cbn [rx ry rw rh px py]; lia|vm_compute; reflexivity].
  - transitivity (map (fun x => (fun p => match box_symbol (asc "Line") [92%N] (Rect 0 1 17 3) p with Some c => Some c | None => symbol_at (blank (new_rect 52 12)) p end) (Pos (Z.of_nat x) 2)) (seq 0 17)); [apply map_ext_in; intros x Hx; apply in_seq in Hx; cbv beta; apply L4; change (box _ _) with (Rect 0 1 17 3); unfold inside; cbn [rx ry rw rh px py]; lia|vm_compute; reflexivity].
Qed.
