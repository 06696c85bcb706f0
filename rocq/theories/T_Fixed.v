(** C82: drawing on a fixed part of the terminal (NewTerminal with ViewportFixed). *)
From Verif Require Import Base M_Geom S_Geom M_Style M_Uniseg M_Buffer S_Buffer M_Ansi M_Backend S_Terminal S_Ansi S_Display S_Command S_Session S_Fixed
  P_Base T_Geom P_Buffer P_SetString T_Buffer P_Ansi P_Attr P_Draw P_Diff P_Session P_Fixed T_Terminal.
From Coq Require Import ZArith NArith List Bool Lia.
Import ListNotations.
Open Scope Z_scope.

(** The terminal before the program starts: [r] is a blank part of the screen and nothing hangs over its edges. *)
Definition ready (u : uniseg) (t : term) (r : rect) : Prop :=
  0 < t_w t /\ t_attr t = default_attr /\ part_of r (t_w t) (t_h t) /\ blank_at t r /\ no_overhang u t r.

(** After any history of drawing, clearing and resizing, drawing shows the frame on the part of the screen named last,
    and changes nothing elsewhere. *)
Theorem C82_last_frame u te t0 r hist w :
  env_ok u te -> ready u t0 r -> (forall a, In a hist -> good_act u te t0 a) -> good_anywhere u te w ->
  exists s0 tm t tm' t' b,
    start_at r t0 = Some s0 /\ perform_all u te s0 hist = Some (tm, t) /\ perform u te (tm, t) (Draw w) = Some (tm', t') /\
    w (last_area r hist) (blank (last_area r hist)) = Ret b /\ barea b = last_area r hist /\
    shows u te (t_cells t') b /\
    (forall p, on t0 p -> ~ inside p (last_area r hist) -> t_cells t' p = t_cells t p) /\
    t_attr t' = default_attr /\ t_visible t' = false.
Proof.
  intros He (Wp & Ha & HP & Hb & Ho) Hg Hw. destruct (fixed_start u te r t0 He Ha HP Hb Ho) as (tm0 & E0 & A0 & I0).
  destruct (fixed_run u te hist He tm0 t0 (t_w t0) (t_h t0) Wp I0) as (tm & t & E & A & HI).
  { intros a Hin. specialize (Hg a Hin). destruct a; exact Hg. }
  destruct (fixed_draw u te tm t (t_w t0) (t_h t0) w He HI Hw) as (tm' & t' & b & E' & Eb & Pb & A' & V & Hout & HI').
  rewrite A0 in A. rewrite A in Eb, Hout, A'. exists (tm0, t0), tm, t, tm', t', b. split; [assumption|]. split; [assumption|]. split; [assumption|].
  split; [assumption|]. destruct (fi_prev _ _ _ _ _ _ HI') as [_ Ap]. split; [congruence|].
  split; [rewrite <- Pb; apply HI'|]. split; [|split; [apply HI'|assumption]].
  intros p Hon Hp. apply Hout; [|assumption]. unfold on in *. destruct (fi_size _ _ _ _ _ _ HI) as [-> ->]. exact Hon.
Qed.
Print Assumptions C82_last_frame.

Lemma draws_outside u te ws : env_ok u te -> (forall w, In w ws -> good_anywhere u te w) -> forall tm t W H, fixed_inv u te tm t W H ->
  exists tm' t', perform_all u te (tm, t) (map Draw ws) = Some (tm', t') /\
    forall p, on t p -> ~ inside p (tm_area tm) -> t_cells t' p = t_cells t p.
Proof.
  intros He Hg. induction ws as [|w ws IH]; intros tm t W H HI; cbn [map perform_all].
  - exists tm, t. split; reflexivity.
  - destruct (fixed_draw u te tm t W H w He HI (Hg w (or_introl eq_refl))) as (tm' & t' & b & E' & _ & _ & A' & _ & Hout & HI').
    rewrite E'. destruct (IH (fun x Hx => Hg x (or_intror Hx)) tm' t' W H HI') as (tm2 & t2 & E2 & H2).
    rewrite E2. exists tm2, t2. split; [reflexivity|]. rewrite A' in H2. intros p Hon Hp.
    transitivity (t_cells t' p); [|now apply Hout]. apply H2; [|assumption]. unfold on in *.
    destruct (fi_size _ _ _ _ _ _ HI) as [S1 S2], (fi_size _ _ _ _ _ _ HI') as [-> ->]. now rewrite S1, S2 in Hon.
Qed.

(** A program that only draws never changes anything outside its part of the screen. *)
Theorem C82_rest_untouched u te t0 r ws :
  env_ok u te -> ready u t0 r -> (forall w, In w ws -> good_anywhere u te w) ->
  exists s0 tm t, start_at r t0 = Some s0 /\ perform_all u te s0 (map Draw ws) = Some (tm, t) /\
    forall p, on t0 p -> ~ inside p r -> t_cells t p = t_cells t0 p.
Proof.
  intros He (Wp & Ha & HP & Hb & Ho) Hg. destruct (fixed_start u te r t0 He Ha HP Hb Ho) as (tm0 & E0 & A0 & I0).
  destruct (draws_outside u te ws He Hg tm0 t0 _ _ I0) as (tm & t & E & G). rewrite A0 in G. exists (tm0, t0), tm, t. auto.
Qed.
Print Assumptions C82_rest_untouched.

(** What clearing does: the rows above the viewport are kept, everything from its first row to the end of the screen is
    erased - over the full width, and below the viewport too. *)
Theorem C82_clear u te t0 r hist :
  env_ok u te -> ready u t0 r -> (forall a, In a hist -> good_act u te t0 a) ->
  exists s0 tm t tm' t',
    start_at r t0 = Some s0 /\ perform_all u te s0 hist = Some (tm, t) /\ perform u te (tm, t) Clear = Some (tm', t') /\
    (forall p, py p < ry (last_area r hist) -> t_cells t' p = t_cells t p) /\
    (forall p, on t0 p -> 0 < rh (last_area r hist) -> ry (last_area r hist) <= py p -> t_cells t' p = erased default_attr).
Proof.
  intros He (Wp & Ha & HP & Hb & Ho) Hg. destruct (fixed_start u te r t0 He Ha HP Hb Ho) as (tm0 & E0 & A0 & I0).
  destruct (fixed_run u te hist He tm0 t0 (t_w t0) (t_h t0) Wp I0) as (tm & t & E & A & HI).
  { intros a Hin. specialize (Hg a Hin). destruct a; exact Hg. }
  destruct (fixed_clear u te tm t (t_w t0) (t_h t0) He Wp HI) as (tm' & t' & E' & A' & _ & X & Y & _).
  rewrite A0 in A. rewrite A in X, Y. exists (tm0, t0), tm, t, tm', t'. split; [assumption|]. split; [assumption|]. split; [assumption|].
  split; [assumption|]. intros p Hon. apply X. unfold on in *. destruct (fi_size _ _ _ _ _ _ HI) as [-> ->]. exact Hon.
Qed.
Print Assumptions C82_clear.

(** A screen of 6 by 3 full of x, with a blank 2 by 1 part at (2, 1). *)
Definition window := Rect 2 1 2 1.
Definition letter (r : N) : tglyph := TPart [r] default_attr 0.
Definition desk (inner : tglyph) : term :=
  Term 6 3 (fun p => if (2 <=? px p) && (px p <? 4) && (py p =? 1) then inner else letter 120%N) None default_attr true.
Definition seen (s : option (terminal * term)) : option (list (list tglyph)) :=
  option_map (fun s => map (fun y => map (fun x => t_cells (snd s) (Pos x y)) [0; 1; 2; 3; 4; 5]) [0; 1; 2]) s.
Definition session (t : term) (l : list act) : option (terminal * term) :=
  match start_at window t with Some s => perform_all simple_uniseg te_id s l | None => None end.
(** A widget that leaves its part of the screen blank. *)
Definition nothing : widget := fun _ b => Ret b.

Lemma demo_good_anywhere : good_anywhere simple_uniseg te_id demo_widget.
Proof.
  intros r Hx Hy Hw Hh. assert (Hs : sized r) by (split; auto).
  destruct (C10_fill_exact (blank r) r [65%N] demo_style (blank_wf r Hs)) as (b & E & Hc); [intros p Hp; exact Hp|].
  exists b. split; [exact E|]. destruct Hc as (A & W & Hin & Hout). split; [exact A|].
  assert (G : forall p c, look b p = Some c -> c = Cell [65%N] (Some (ColAnsi 1%N)) (Some ColReset) 1%N false).
  { intros p c Hl. pose proof (look_Some_inside _ _ _ Hl) as Hi. rewrite A in Hi. cbn [blank barea] in Hi.
    rewrite (Hin p Hi), (blank_look r p Hs Hi) in Hl. cbn in Hl. now injection Hl as <-. }
  constructor.
  - constructor; [exact W| |].
    + intros p c Hl. rewrite (G p c Hl). constructor; cbn; auto; try discriminate. split; reflexivity.
    + intros p c Hl. rewrite (G p c Hl). cbn. discriminate.
  - apply simple_separate. intros p c Hl. rewrite (G p c Hl). cbn. eauto.
  - intros p c Hl. rewrite (G p c Hl). intros x [<-|[]]. reflexivity.
Qed.
Lemma nothing_good : good_anywhere simple_uniseg te_id nothing.
Proof.
  intros r Hx Hy Hw Hh. assert (Hs : sized r) by (split; auto). exists (blank r). split; [reflexivity|]. split; [reflexivity|].
  constructor.
  - apply blank_displayable; [apply simple_env_ok|assumption].
  - apply simple_separate. intros p c Hl. apply blank_look_Some in Hl. subst. exists 32%N. reflexivity.
  - intros p c Hl. apply blank_look_Some in Hl. subst. intros x [<-|[]]. reflexivity.
Qed.

Lemma desk_ready : ready simple_uniseg (desk (erased default_attr)) window.
Proof.
  split; [reflexivity|]. split; [reflexivity|]. split; [unfold part_of; cbn; lia|]. split.
  - intros p [Hx Hy]. cbn in Hx, Hy. cbn [desk t_cells]. replace ((2 <=? px p) && (px p <? 4) && (py p =? 1)) with true; [reflexivity|].
    symmetry. rewrite !andb_true_iff, Z.leb_le, Z.ltb_lt, Z.eqb_eq. lia.
  - intros p Hon Hp Hy. cbn in Hy. exists [120%N]. do 2 eexists. split.
    + cbn [desk t_cells]. replace ((2 <=? px p) && (px p <? 4) && (py p =? 1)) with false; [reflexivity|].
      symmetry. destruct ((2 <=? px p) && (px p <? 4) && (py p =? 1)) eqn:E; [|reflexivity]. exfalso. apply Hp.
      rewrite !andb_true_iff, Z.leb_le, Z.ltb_lt, Z.eqb_eq in E. unfold inside; cbn. lia.
    + cbn. assert (px p < 2 \/ 4 <= px p); [|lia]. destruct (Z.lt_ge_cases (px p) 2) as [|G1]; [now left|].
      destruct (Z.lt_ge_cases (px p) 4) as [G2|]; [|now right]. exfalso. apply Hp. unfold inside; cbn. lia.
Qed.

Example C82_instance :
  env_ok simple_uniseg te_id /\ ready simple_uniseg (desk (erased default_attr)) window /\ good_anywhere simple_uniseg te_id demo_widget /\
  (forall a, In a [Draw demo_widget; Clear; Resize (Rect 1 0 3 2); Draw nothing] -> good_act simple_uniseg te_id (desk (erased default_attr)) a) /\
  let x := letter 120%N in let A := TPart [65%N] (attr_for (TIndexed 1%N) TDefault ModifierBold) 0 in
  seen (session (desk (erased default_attr)) [Draw nothing; Draw demo_widget]) = Some [[x; x; x; x; x; x]; [x; x; A; A; x; x]; [x; x; x; x; x; x]].
Proof.
  split; [apply simple_env_ok|]. split; [apply desk_ready|]. split; [apply demo_good_anywhere|]. split.
  - intros a [<-|[<-|[<-|[<-|[]]]]]; cbn [good_act]; [apply demo_good_anywhere|exact Logic.I|unfold part_of; cbn; lia|apply nothing_good].
  - vm_compute. reflexivity.
Qed.

(** Clearing the viewport is not confined to it: what stood beside it and below it is gone. *)
Theorem C82_clear_refuted : exists t r p tm t',
  ready simple_uniseg t r /\ on t p /\ ~ inside p r /\ (exists s, start_at r t = Some s /\ perform simple_uniseg te_id s Clear = Some (tm, t')) /\
  t_cells t' p <> t_cells t p.
Proof.
  exists (desk (erased default_attr)), window, (Pos 5 2). do 2 eexists. split; [apply desk_ready|]. split; [unfold on; cbn; lia|].
  split; [unfold inside; cbn; lia|]. split; [eexists; split; [vm_compute; reflexivity|vm_compute; reflexivity]|].
  vm_compute. discriminate.
Qed.

(** Handling a resize notification the way the application loop does (Terminal.Resize with the new size of the terminal)
    turns a fixed viewport into one that fills the screen. *)
Theorem C82_resize_refuted : forall u te w,
  env_ok u te -> good_anywhere u te w -> forall t r, ready u t r -> exists s0 tm t1,
  start_at r t = Some s0 /\ perform_all u te s0 [Resize (new_rect (t_w t) (t_h t)); Draw w] = Some (tm, t1) /\
  tm_viewport tm = Fixed r /\ tm_area tm = new_rect (t_w t) (t_h t) /\
  exists b, w (new_rect (t_w t) (t_h t)) (blank (new_rect (t_w t) (t_h t))) = Ret b /\ shows u te (t_cells t1) b.
Proof.
  intros u te w He Hw t r (Wp & Ha & HP & Hb & Ho).
  assert (HP' : part_of (new_rect (t_w t) (t_h t)) (t_w t) (t_h t)) by (unfold part_of in *; cbn; lia).
  destruct (fixed_start u te r t He Ha HP Hb Ho) as (tm0 & E0 & A0 & I0).
  destruct (fixed_resize u te tm0 t _ _ _ He Wp I0 HP') as (tm1 & t1 & E1 & A1 & _ & _ & _ & I1).
  destruct (fixed_draw u te tm1 t1 _ _ w He I1 Hw) as (tm2 & t2 & b & E2 & Eb & Pb & A2 & _ & _ & I2).
  exists (tm0, t), tm2, t2. split; [exact E0|]. split; [cbn [perform_all]; rewrite E1; cbn [perform_all]; rewrite E2; reflexivity|].
  assert (V : tm_viewport tm0 = Fixed r).
  { unfold start_at, new_terminal in E0. rewrite (new_buffer_blank r (part_sized _ _ _ HP)) in E0. cbn in E0. injection E0 as <-. reflexivity. }
  assert (Vp : forall a b c, tm_viewport (set_previous a b) = tm_viewport a /\ tm_viewport (set_current a c) = tm_viewport a)
    by (intros a ? ?; unfold set_previous, set_current; destruct (tm_current a); auto).
  assert (V1 : tm_viewport tm1 = Fixed r).
  { cbn [perform] in E1. unfold terminal_resize in E1. rewrite V in E1.
    destruct (buffer_resize (current_buffer tm0) _) as [c|]; [|discriminate]. cbn [bind] in E1.
    destruct (buffer_resize (previous_buffer (set_current tm0 c)) _) as [pb|]; [|discriminate]. cbn [bind] in E1.
    unfold terminal_clear in E1. cbn [tm_viewport] in E1.
    rewrite (proj1 (Vp (set_current tm0 c) pb pb)), (proj2 (Vp tm0 pb c)), V in E1.
    destruct (send _ _ _ _); [|discriminate]. cbn [option_map] in E1. injection E1 as <- _.
    rewrite (proj1 (Vp _ _ pb)). reflexivity. }
  split.
  - cbn [perform] in E2. unfold terminal_draw in E2. destruct (w _ _) as [b2|]; [|discriminate]. cbn [bind] in E2.
    destruct (diff _ _ _) as [ups|]; [|discriminate]. cbn [bind] in E2. destruct (send _ _ _ _); [|discriminate]. cbn [option_map] in E2.
    injection E2 as <- _. cbn [tm_viewport]. unfold swap_buffers. cbn [tm_viewport]. rewrite (proj1 (Vp _ _ b)), (proj2 (Vp tm1 b b2)). exact V1.
  - split; [congruence|]. exists b. rewrite A1 in Eb. split; [exact Eb|]. rewrite <- Pb. apply I2.
Qed.
Print Assumptions C82_resize_refuted.

(** Making the terminal does not clear its part of the screen: what stood there stays where the frame is blank. *)
Theorem C82_start_refuted : exists t, part_of window (t_w t) (t_h t) /\ t_attr t = default_attr /\ no_overhang simple_uniseg t window /\
  exists tm t', session t [Draw nothing] = Some (tm, t') /\
    nothing window (blank window) = Ret (blank window) /\ ~ shows simple_uniseg te_id (t_cells t') (blank window).
Proof.
  exists (desk (letter 121%N)). split; [unfold part_of; cbn; lia|]. split; [reflexivity|]. split.
  - intros p Hon Hp Hy. destruct desk_ready as (_ & _ & _ & _ & Ho). destruct (Ho p Hon Hp Hy) as (s & a & k & E & G). exists s, a, k. split; [|exact G].
    cbn [desk t_cells] in *. destruct ((2 <=? px p) && (px p <? 4) && (py p =? 1)) eqn:Eb; [|exact E]. exfalso. apply Hp.
    rewrite !andb_true_iff, Z.leb_le, Z.ltb_lt, Z.eqb_eq in Eb. unfold inside; cbn. lia.
  - do 2 eexists. split; [vm_compute; reflexivity|]. split; [reflexivity|]. intros H. specialize (H (Pos 2 1)).
    assert (Hi : inside (Pos 2 1) (barea (blank window))) by (unfold inside; cbn; lia). specialize (H Hi). vm_compute in H. discriminate.
Qed.

(** A terminal cannot be made for a number of lines below the prompt (ViewportInline). *)
Theorem C82_inline_refuted : forall n w h, new_terminal (Inline n) w h = Panic.
Proof. reflexivity. Qed.
