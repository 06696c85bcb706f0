(** Lemmas for the terminal theorems. *)
From Verif Require Import Base M_Geom S_Geom M_Style M_Uniseg M_Buffer S_Buffer M_Ansi M_Backend S_Terminal S_Ansi S_Display S_Command S_Session
  P_Base T_Geom P_Buffer P_Ansi P_Attr P_Draw P_Diff.
From Coq Require Import ZArith NArith List Bool Lia.
Import ListNotations.
Open Scope Z_scope.

Lemma intended_ptoks te c : command_ok c -> command_ptoks te c = intended te c.
Proof.
  destruct c as [| a |[f|] [b|]|s| | | | | | | | | | |]; try reflexivity.
  - cbn [command_ok]. intros Ha. cbn [command_ptoks intended].
    assert (Hin : In a (map N.of_nat (seq 0 28))).
    { apply in_map_iff. exists (N.to_nat a). split; [apply N2Nat.id|]. apply in_seq. lia. }
    cbn [seq map] in Hin. repeat (destruct Hin as [<-|Hin]; [reflexivity|]). destruct Hin.
  - intros _. cbn [command_ptoks intended]. unfold csi. do 2 f_equal. rewrite map_app. f_equal.
    + destruct f as [| |n|n|s]; try reflexivity.
      * cbn [color_params sgr_of_color map]. cbv zeta. do 3 f_equal. destruct (n <? 8)%N; lia.
      * cbn. destruct (hex te s) as [[[? ?] ?]|]; reflexivity.
    + destruct b as [| |n|n|s]; try reflexivity.
      * cbn [color_params sgr_of_color map]. cbv zeta. do 3 f_equal. destruct (n <? 8)%N; lia.
      * cbn. destruct (hex te s) as [[[? ?] ?]|]; reflexivity.
Qed.

Lemma flat_map_ext_in {A B} (f g : A -> list B) l : (forall a, In a l -> f a = g a) -> flat_map f l = flat_map g l.
Proof. induction l; intros H; cbn; auto. rewrite (H a (or_introl eq_refl)). f_equal. apply IHl. intros; apply H; now right. Qed.

(** Commands of a drawing are well formed. *)
Lemma draw_cells_ok te l : forall st,
  (forall p c, In (p, c) l -> 0 <= px p /\ 0 <= py p /\ plain (csym c) /\ conv te (cfg c) <> None /\ conv te (cbg c) <> None) ->
  forall c, In c (draw_cells te st l) -> command_ok c.
Proof.
  induction l as [|[p c] l IH]; intros st H k Hk; [destruct Hk|]. cbn [draw_cells draw_cell] in Hk.
  destruct (H p c (or_introl eq_refl)) as (Hx & Hy & Hpl & Hf & Hb).
  rewrite !in_app_iff in Hk. destruct Hk as [[Hk|[Hk|[Hk|Hk]]]|Hk].
  - destruct (adjacent _ _); [destruct Hk|]. destruct Hk as [<-|[]]. cbn. auto.
  - destruct (_ =? _)%N; [destruct Hk|]. rewrite modifier_diff_steps in Hk. apply in_flat_map in Hk.
    destruct Hk as ([b a] & Hin & Hk). cbn in Hk. destruct b; cbn in Hk; [|destruct Hk]. destruct Hk as [<-|[]].
    cbn. apply steps_simple in Hin. apply Hin.
  - destruct (_ && _); [destruct Hk|]. destruct Hk as [<-|[]]. cbn. auto.
  - destruct Hk as [<-|[]]. exact Hpl.
  - apply (IH (DrawState (Some p) (cmod c) (cfg c) (cbg c))); auto. intros; apply H. now right.
Qed.

Lemma backend_draw_ok te l :
  (forall p c, In (p, c) l -> 0 <= px p /\ 0 <= py p /\ plain (csym c) /\ conv te (cfg c) <> None /\ conv te (cbg c) <> None) ->
  forall c, In c (backend_draw te l) -> command_ok c.
Proof.
  intros H c Hc. unfold backend_draw in Hc. apply in_app_or in Hc. destruct Hc as [Hc|[<-|[<-|[]]]].
  - eapply draw_cells_ok; eauto.
  - cbn. split; discriminate.
  - cbn. reflexivity.
Qed.

Lemma send_no_print u te t cmds : uniseg_ok u -> no_print cmds -> (forall c, In c cmds -> command_ok c) ->
  send u te t cmds = Some (exec u t (commands_tokens u te cmds)).
Proof.
  intros Hu Hn Hok. unfold send. destruct (write_all_parse te cmds Hok) as (s & -> & Hp).
  unfold receive. rewrite Hp. cbn [option_map]. do 2 f_equal. rewrite no_print_tokens by auto.
  assert (N : clusters u [] = []).
  { destruct (clusters u []) as [|c cl] eqn:E; auto. exfalso. pose proof (clusters_concat _ Hu []) as Hc. rewrite E in Hc. cbn in Hc.
    apply app_eq_nil in Hc. destruct Hc as [Hc _]. apply (clusters_nonempty _ Hu [] c); [rewrite E; now left|auto]. }
  pose proof (no_print_csi te cmds Hn) as Hcsi. revert Hcsi. generalize (flat_map (command_ptoks te) cmds). intros l Hcsi.
  destruct l as [|k l]; [cbn; now rewrite N|].
  rewrite <- (app_nil_r (k :: l)) at 1. rewrite regroup_csi; try apply Hu; auto; [|discriminate].
  rewrite N. cbn [regroup map app]. now rewrite N, app_nil_r.
Qed.

(** Sending the updates of a frame. *)
Lemma send_draw u te t b ups : uniseg_ok u -> frame_ok u te b -> 0 <= rx (barea b) -> 0 <= ry (barea b) ->
  (forall p c, In (p, c) ups -> look b p = Some c) ->
  send u te t (backend_draw te ups ++ [HideCursor]) = Some (exec u t (commands_tokens u te (backend_draw te ups ++ [HideCursor]))).
Proof.
  intros Hu Hf Hrx Hry Hups. unfold send.
  assert (Hok : forall c, In c (backend_draw te ups ++ [HideCursor]) -> command_ok c).
  { intros c Hc. apply in_app_or in Hc. destruct Hc as [Hc|[<-|[]]]; [|exact I].
    revert Hc. apply backend_draw_ok. intros p c' Hpc. apply Hups in Hpc as Hl.
    pose proof (look_Some_inside _ _ _ Hl) as [Hix Hiy]. split; [lia|]. split; [lia|].
    split; [apply (frame_plain _ _ _ Hf p c' Hl)|].
    pose proof (disp_cell _ _ _ (frame_displayable _ _ _ Hf) _ _ Hl) as Hc'.
    pose proof (ok_fg _ _ _ Hc') as H1. pose proof (ok_bg _ _ _ Hc') as H2. unfold shown in *.
    split; [destruct (conv te (cfg c')); congruence|destruct (conv te (cbg c')); congruence]. }
  destruct (write_all_parse te _ Hok) as (s & -> & Hp).
  unfold receive. rewrite Hp. cbn [option_map]. do 2 f_equal.
  unfold backend_draw. rewrite <- app_assoc, flat_map_app, commands_tokens_app.
  set (rest := flat_map (command_ptoks te) ([_; _] ++ _)). change (@nil N) with (concat (@nil str)).
  rewrite (draw_regroup u te b rest Hu (frame_separate _ _ _ Hf) ups _ [] (Pos 0 0)); auto.
  - intros [|k] s0; discriminate.
  - congruence.
  - apply no_print_csi. intros s0 [H|[H|[H|[]]]]; discriminate.
  - discriminate.
Qed.

(** ** Blank buffers *)
Lemma blank_wf r : sized r -> wf_buffer (blank r).
Proof.
  intros [Hw Hh]. split; [split; auto|]. cbn. unfold zlen, rect_area. rewrite repeat_length. rewrite Z2Nat.id by nia. reflexivity.
Qed.
Lemma blank_look r p : sized r -> inside p r -> look (blank r) p = Some empty_cell.
Proof.
  intros Hs Hp. destruct (look_inside (blank r) p (blank_wf r Hs) Hp) as [c Hc]. rewrite Hc. f_equal.
  rewrite look_inside_eq in Hc by auto. cbn in Hc. apply nth_error_In in Hc. now apply repeat_spec in Hc.
Qed.
Lemma blank_look_Some r p c : look (blank r) p = Some c -> c = empty_cell.
Proof.
  intros H. pose proof (look_Some_inside _ _ _ H) as Hi. rewrite look_inside_eq in H by auto. cbn in H.
  apply nth_error_In in H. now apply repeat_spec in H.
Qed.

Lemma map_reset l : map cell_reset l = repeat empty_cell (length l).
Proof. induction l; cbn; auto. now rewrite IHl. Qed.
Lemma reset_blank b : wf_buffer b -> buffer_reset b = blank (barea b).
Proof.
  intros [_ Hl]. unfold buffer_reset, blank. f_equal. rewrite map_reset. f_equal. unfold rect_area. unfold zlen in Hl. lia.
Qed.
Lemma resize_wf b area : wf_buffer b -> sized area -> exists b', buffer_resize b area = Ret b' /\ wf_buffer b' /\ barea b' = area.
Proof. intros H1 H2. destruct (buffer_resize_spec b area H1 H2) as (b' & E & W & A & _). eauto. Qed.
Lemma resize_blank r area : sized r -> sized area -> buffer_resize (blank r) area = Ret (blank area).
Proof.
  intros H1 H2. destruct (buffer_resize_spec (blank r) area (blank_wf r H1) H2) as (b' & E & W & A & C). rewrite E. f_equal.
  destruct b' as [ra cs]; cbn in *. subst ra. unfold blank. f_equal. rewrite C.
  rewrite <- repeat_app. generalize (Z.to_nat (rect_area r)) as n. generalize (Z.to_nat (rect_area area)) as m. clear.
  intros m n. revert n. induction m; intros n; [reflexivity|]. rewrite Nat.add_succ_r. cbn [repeat firstn]. f_equal.
  apply IHm.
Qed.

Lemma new_rect_sized w h : 0 <= w -> 0 <= h -> sized (new_rect w h).
Proof. split; auto. Qed.

Lemma new_buffer_blank r : sized r -> new_buffer_empty r = Ret (blank r).
Proof.
  intros [Hw Hh]. unfold new_buffer_empty, new_buffer_filled, rect_area. destruct (Z.ltb_spec (rw r * rh r) 0); [nia|reflexivity].
Qed.

Lemma empty_cell_ok u te : env_ok u te -> cell_ok u te empty_cell.
Proof.
  intros [Hu [Hs1 Hs2] Hr]. constructor; cbn; auto.
  - unfold shown. rewrite Hr. discriminate.
  - unfold shown. rewrite Hr. discriminate.
  - split; reflexivity.
Qed.

Lemma blank_displayable u te r : env_ok u te -> sized r -> displayable u te (blank r).
Proof.
  intros He Hs. constructor.
  - now apply blank_wf.
  - intros p c H. apply blank_look_Some in H. subst. now apply empty_cell_ok.
  - intros p c H W. apply blank_look_Some in H. subst c. cbn in W. destruct (env_space _ _ He) as [_ X]. congruence.
Qed.

Lemma blank_expected u te r p : env_ok u te -> sized r -> inside p r ->
  expected u te (blank r) p = erased default_attr.
Proof.
  intros He Hs Hp. rewrite (expected_uncovered u te (blank r) p empty_cell).
  - unfold erased, attr_of, shown_or_default, shown. cbn [cfg cbg cmod empty_cell new_cell csym]. rewrite (env_reset _ _ He). reflexivity.
  - now apply blank_look.
  - intros l Hl. apply blank_look_Some in Hl. subst l. apply (env_space _ _ He).
Qed.

(** ** The invariant of a session *)
Record session_inv (u : uniseg) (te : termenv) (tm : terminal) (t : term) (size : Z * Z) (ok : bool) : Prop := {
  si_view : tm_viewport tm = Fullscreen;
  si_size : t_w t = fst size /\ t_h t = snd size;
  si_area : exists w h, 0 <= w /\ 0 <= h /\ tm_area tm = new_rect w h /\ (ok = true -> w = fst size /\ h = snd size);
  si_current : current_buffer tm = blank (tm_area tm);
  si_prev : displayable u te (previous_buffer tm) /\ barea (previous_buffer tm) = tm_area tm;
  si_attr : t_attr t = default_attr;
  si_shows : ok = true -> shows u te (t_cells t) (previous_buffer tm) }.

Lemma draw_step u te tm t size ok w : env_ok u te -> session_inv u te tm t size ok -> good_widget u te w ->
  exists tm' t' b, run_event u te (tm, t) (EvDraw w) = Some (tm', t') /\
    w (tm_area tm) (blank (tm_area tm)) = Ret b /\ previous_buffer tm' = b /\ tm_area tm' = tm_area tm /\ t_visible t' = false /\
    session_inv u te tm' t' size ok.
Proof.
  intros He HI Hw. destruct (si_area _ _ _ _ _ _ HI) as (W & H & HW & HH & EA & Hok).
  destruct (Hw W H HW HH) as (b & Eb & Ab & Fb). rewrite <- EA in Eb, Ab.
  destruct (si_prev _ _ _ _ _ _ HI) as [Dp Ap].
  assert (Hs : sized (tm_area tm)) by (rewrite EA; now apply new_rect_sized).
  cbn [run_event]. unfold terminal_draw. rewrite (si_current _ _ _ _ _ _ HI), Eb. cbn [bind].
  set (tm1 := set_current tm b).
  assert (P1 : previous_buffer tm1 = previous_buffer tm) by (unfold tm1, set_current, previous_buffer; destruct (tm_current tm) eqn:E; cbn; now rewrite ?E).
  assert (C1 : current_buffer tm1 = b) by (unfold tm1, set_current, current_buffer; destruct (tm_current tm) eqn:E; cbn; now rewrite ?E).
  rewrite P1, C1.
  pose proof (frame_displayable _ _ _ Fb) as Db.
  destruct (diff_basic u (previous_buffer tm) b (disp_wf _ _ _ Dp) (disp_wf _ _ _ Db)) as (ups & Eu & Hups & _); [congruence|].
  rewrite Eu. cbn [bind].
  rewrite (send_draw u te t b ups); auto.
  2: apply (env_uniseg _ _ He).
  2,3: rewrite Ab, EA; cbn; lia.
  2: intros p c Hpc; now apply Hups.
  cbn [option_map]. 
  match goal with |- context [Some (?X, exec _ _ _)] => set (tm2 := X) end.
  assert (S1 : tm_current tm1 = tm_current tm) by (unfold tm1, set_current; now destruct (tm_current tm)).
  assert (A1 : tm_area tm1 = tm_area tm) by (unfold tm1, set_current; now destruct (tm_current tm)).
  assert (V1 : tm_viewport tm1 = tm_viewport tm) by (unfold tm1, set_current; now destruct (tm_current tm)).
  assert (P2 : previous_buffer tm2 = b).
  { rewrite <- C1. unfold tm2, swap_buffers, set_previous, previous_buffer, current_buffer. destruct (tm_current tm1) eqn:E; cbn; rewrite ?E; reflexivity. }
  assert (C2 : current_buffer tm2 = buffer_reset (previous_buffer tm)).
  { rewrite <- P1. unfold tm2, swap_buffers, set_previous, previous_buffer, current_buffer. destruct (tm_current tm1) eqn:E; cbn; rewrite ?E; reflexivity. }
  assert (A2 : tm_area tm2 = tm_area tm).
  { rewrite <- A1. unfold tm2, swap_buffers, set_previous. destruct (tm_current tm1); reflexivity. }
  assert (V2 : tm_viewport tm2 = Fullscreen).
  { rewrite <- (si_view _ _ _ _ _ _ HI), <- V1. unfold tm2, swap_buffers, set_previous. destruct (tm_current tm1); reflexivity. }
  rewrite commands_tokens_app, exec_app.
  set (t1 := exec u t (commands_tokens u te (backend_draw te ups))).
  assert (Ehc : exec u t1 (commands_tokens u te [HideCursor]) = set_visible false t1) by reflexivity.
  rewrite Ehc.
  assert (Hsize : t_w t1 = t_w t /\ t_h t1 = t_h t).
  { unfold t1. clear. generalize (commands_tokens u te (backend_draw te ups)). intros l. revert t.
    induction l as [|k l IH]; intros t; [auto|]. change (exec u t (k :: l)) with (exec u (exec_token u t k) l). destruct (IH (exec_token u t k)) as [-> ->].
    clear. destruct k as [s|[|] ps f]; cbn [exec_token].
    - unfold print_glyph. destruct (_ =? _); [auto|]. destruct (t_cur t); [|auto]. destruct (_ && _); auto.
    - repeat match goal with |- context [match ?x with _ => _ end] => destruct x; auto end.
    - unfold erase_below. repeat (match goal with |- context [match ?x with _ => _ end] => destruct x; auto end). }
  assert (Hattr : t_attr t1 = default_attr).
  { unfold t1, backend_draw.
    change [SetColors (Some ColReset) (Some ColReset); SetAttribute AttrReset] with ([SetColors (Some ColReset) (Some ColReset)] ++ [SetAttribute AttrReset]).
    rewrite app_assoc. apply exec_reset_attr. }
  exists tm2, (set_visible false t1), b. split; [reflexivity|]. split; [reflexivity|]. split; [assumption|]. split; [assumption|].
  split; [reflexivity|].
  constructor; auto.
  - destruct Hsize as [Hs1 Hs2], (si_size _ _ _ _ _ _ HI) as [Hs3 Hs4]. cbn [set_visible t_w t_h]. split; congruence.
  - exists W, H. rewrite A2. auto.
  - rewrite C2, A2, reset_blank by apply Dp. now rewrite Ap.
  - rewrite P2, A2. split; [exact Db|congruence].
  - intros Hok'. rewrite P2. cbn [set_visible t_cells].
    destruct (Hok Hok') as [EW EH]. destruct (si_size _ _ _ _ _ _ HI) as [TW TH].
    destruct (diff_shows u (previous_buffer tm) b (disp_wf _ _ _ Dp) (disp_wf _ _ _ Db) ltac:(congruence) te Dp Db (t_cells t)
      (si_shows _ _ _ _ _ _ HI Hok')) as (ups' & Eu' & Hu' & Hch & Hsh).
    rewrite Eu in Eu'. injection Eu' as <-.
    destruct (draw_exec u te t ups) as (cur & Ed).
    + apply (env_reset _ _ He).
    + apply (si_attr _ _ _ _ _ _ HI).
    + intros p c Hpc. destruct (Hups p c Hpc) as [Hin Hl].
      pose proof (disp_cell _ _ _ Db _ _ Hl) as Hc. split; [exact Hc|].
      rewrite Ap, EA in Hin. destruct Hin as [Hx Hy]. cbn in Hx, Hy. unfold fits; cbn [fst snd].
      destruct (ok_width _ _ _ Hc) as [W1|W2]; [lia|].
      destruct (disp_wide _ _ _ Db _ _ Hl W2) as (c' & Hl' & _). apply look_Some_inside in Hl'. rewrite Ab, EA in Hl'.
      destruct Hl' as [Hx' _]. cbn in Hx'. lia.
    + apply chain_pairs. intros p0 c0 p c [E|H0] H1 Er; [discriminate|]. now apply (Hch p0 c0 p c).
    + unfold t1. rewrite Ed. cbn [t_cells]. exact Hsh.
Qed.

Lemma resize_step u te tm t size ok w h : env_ok u te -> session_inv u te tm t size ok -> 0 <= w -> 0 <= h ->
  exists tm' t', run_event u te (tm, t) (EvResize w h) = Some (tm', t') /\
    session_inv u te tm' t' size ((w =? fst size) && (h =? snd size)).
Proof.
  intros He HI Hw Hh. cbn [run_event]. unfold terminal_resize. rewrite (si_view _ _ _ _ _ _ HI).
  destruct (si_area _ _ _ _ _ _ HI) as (W & H & HW & HH & EA & Hok).
  destruct (si_prev _ _ _ _ _ _ HI) as [Dp Ap].
  assert (Hs : sized (tm_area tm)) by (rewrite EA; now apply new_rect_sized).
  set (area := new_rect w h). assert (Hsa : sized area) by (now apply new_rect_sized).
  rewrite (si_current _ _ _ _ _ _ HI), (resize_blank _ area Hs Hsa). cbn [bind].
  set (tm1 := set_current tm (blank area)).
  assert (P1 : previous_buffer tm1 = previous_buffer tm) by (unfold tm1, set_current, previous_buffer; destruct (tm_current tm) eqn:E; cbn; now rewrite ?E).
  rewrite P1. destruct (resize_wf (previous_buffer tm) area (disp_wf _ _ _ Dp) Hsa) as (b' & Eb' & Wb' & Ab').
  rewrite Eb'. cbn [bind].
  unfold terminal_clear.
  assert (V : tm_viewport (set_previous tm1 b') = Fullscreen).
  { rewrite <- (si_view _ _ _ _ _ _ HI). unfold tm1, set_previous, set_current. destruct (tm_current tm) eqn:E; cbn; now rewrite ?E. }
  cbn [tm_viewport]. rewrite V.
  rewrite send_no_print.
  2: apply (env_uniseg _ _ He).
  2: intros s [E|[]]; discriminate.
  2: intros c [<-|[]]; exact I.
  cbn [option_map].
  assert (Et : exec u t (commands_tokens u te [ClearAll]) = with_cells t (fun _ => erased (t_attr t))) by reflexivity.
  rewrite Et, (si_attr _ _ _ _ _ _ HI).
  eexists _, _. split; [reflexivity|].
  set (tm2 := Terminal _ _ _ _ _ _).
  assert (C2 : current_buffer tm2 = blank area).
  { unfold tm2, tm1, set_previous, set_current, current_buffer. destruct (tm_current tm) eqn:E; cbn; rewrite ?E; reflexivity. }
  assert (P2 : previous_buffer tm2 = b').
  { unfold tm2, tm1, set_previous, set_current, previous_buffer. destruct (tm_current tm) eqn:E; cbn; rewrite ?E; reflexivity. }
  rewrite P2, reset_blank by auto. rewrite Ab'.
  set (tm3 := set_previous tm2 (blank area)).
  assert (C3 : current_buffer tm3 = blank area).
  { rewrite <- C2. unfold tm3, set_previous, current_buffer. destruct (tm_current tm2) eqn:E; cbn; rewrite ?E; reflexivity. }
  assert (P3 : previous_buffer tm3 = blank area).
  { unfold tm3, set_previous, previous_buffer. destruct (tm_current tm2) eqn:E; cbn; rewrite ?E; reflexivity. }
  assert (A3 : tm_area tm3 = area).
  { unfold tm3, set_previous. destruct (tm_current tm2); reflexivity. }
  assert (V3 : tm_viewport tm3 = Fullscreen).
  { unfold tm3, set_previous, tm2. destruct (tm_current _); cbn; try exact V; reflexivity. }
  constructor; auto.
  - apply (si_size _ _ _ _ _ _ HI).
  - exists w, h. rewrite A3. split; [auto|]. split; [auto|]. split; [reflexivity|]. intros E. apply andb_prop in E.
    destruct E as [E1 E2]. apply Z.eqb_eq in E1, E2. auto.
  - now rewrite A3.
  - rewrite P3, A3. split; [now apply blank_displayable|reflexivity].
  - apply (si_attr _ _ _ _ _ _ HI).
  - intros _. rewrite P3. intros p Hp. cbn [with_cells t_cells]. symmetry. now apply blank_expected.
Qed.

Lemma run_inv u te l : env_ok u te -> forall tm t size ok,
  session_inv u te tm t size ok -> (forall e, In e l -> good_event u te e) ->
  exists tm' t', run u te (tm, t) l = Some (tm', t') /\ session_inv u te tm' t' (final_size size l) (told size ok l).
Proof.
  intros He. induction l as [|e l IH]; intros tm t size ok HI Hg; cbn [run final_size told].
  - eauto.
  - pose proof (Hg e (or_introl eq_refl)) as He'. assert (Hg' : forall e, In e l -> good_event u te e) by (intros; apply Hg; now right).
    destruct e as [w|w h|w h cells cur].
    + destruct (draw_step u te tm t size ok w He HI He') as (tm' & t' & b & E & _ & _ & _ & _ & HI'). rewrite E. now apply IH.
    + destruct He' as [Hw Hh]. destruct (resize_step u te tm t size ok w h He HI Hw Hh) as (tm' & t' & E & HI'). rewrite E. now apply IH.
    + destruct He' as [Hw Hh]. cbn [run_event]. apply IH; auto.
      destruct (si_area _ _ _ _ _ _ HI) as (W & H & HW & HH & EA & Hok).
      constructor; cbn; try apply HI; auto; try discriminate.
      exists W, H. split; [auto|]. split; [auto|]. split; [auto|]. discriminate.
Qed.

Lemma start_inv u te t : env_ok u te -> t_attr t = default_attr -> 0 <= t_w t -> 0 <= t_h t ->
  exists tm t', start u te t = Some (tm, t') /\ session_inv u te tm t' (t_w t, t_h t) true.
Proof.
  intros He Ha Hw Hh. unfold start. rewrite send_no_print.
  2: apply (env_uniseg _ _ He).
  2: intros s [E|[]]; discriminate.
  2: intros c [<-|[]]; exact I.
  unfold new_terminal. assert (Hs : sized (new_rect (t_w t) (t_h t))) by (now apply new_rect_sized).
  rewrite (new_buffer_blank _ Hs). cbn [bind]. eexists _, _. split; [reflexivity|].
  constructor; cbn; auto.
  - exists (t_w t), (t_h t). auto.
  - split; [now apply blank_displayable|reflexivity].
  - intros _ p Hp. rewrite Ha. symmetry. now apply blank_expected.
Qed.
