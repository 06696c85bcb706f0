(** C95 (continued): programs that can only be drawn on frames of the sizes they were told. *)
From Verif Require Import Base M_Geom S_Geom M_Style M_Uniseg M_Buffer S_Buffer M_Ansi M_Backend S_Terminal S_Ansi S_Display S_Command S_Session
  P_Base T_Geom P_Buffer P_SetString T_Buffer P_Ansi P_Attr P_Draw P_Diff P_Session T_Terminal.
From Verif Require Import M_Cmd M_App P_App P_AppIds P_AppLog P_AppRun P_AppEnd T_App S_Joint T_Joint S_Stateful T_Stateful.
From Coq Require Import ZArith NArith List Bool Lia.
Import ListNotations.
Open Scope Z_scope.

(** The widget, on frames of the given sizes; nothing on others. *)
Definition only_at (sizes : list (Z * Z)) (w : widget) : widget := fun area b =>
  if existsb (fun z => (rx area =? 0) && (ry area =? 0) && (rw area =? fst z) && (rh area =? snd z)) sizes then w area b else Ret b.
Lemma only_at_in sizes w W H b : In (W, H) sizes -> only_at sizes w (new_rect W H) b = w (new_rect W H) b.
Proof.
  intros I. unfold only_at. replace (existsb _ sizes) with true; [reflexivity|]. symmetry. apply existsb_exists. exists (W, H). split; [exact I|]. cbn. now rewrite !Z.eqb_refl.
Qed.
Lemma only_at_out sizes w W H b : ~ In (W, H) sizes -> only_at sizes w (new_rect W H) b = Ret b.
Proof.
  intros I. unfold only_at. replace (existsb _ sizes) with false; [reflexivity|]. symmetry. apply not_true_is_false. intros E. apply existsb_exists in E. destruct E as ([a c] & J & E). cbn in E. apply andb_prop in E. destruct E as [E1 E2]. apply Z.eqb_eq in E1, E2. subst. contradiction.
Qed.
Definition event_at (sizes : list (Z * Z)) (e : S_Session.event) : S_Session.event := match e with EvDraw w => EvDraw (only_at sizes w) | e => e end.

(** The terminal's frame has one of the sizes. *)
Definition at_size (sizes : list (Z * Z)) (tm : terminal) : Prop := exists w h, tm_area tm = new_rect w h /\ In (w, h) sizes.
Lemma area_current tm b : tm_area (set_current tm b) = tm_area tm. Proof. unfold set_current. now destruct (tm_current tm). Qed.
Lemma area_previous tm b : tm_area (set_previous tm b) = tm_area tm. Proof. unfold set_previous. now destruct (tm_current tm). Qed.
Lemma area_swap tm : tm_area (swap_buffers tm) = tm_area tm. Proof. unfold swap_buffers. cbn [tm_area]. apply area_previous. Qed.
Lemma draw_area u te tm w tm' cmds : terminal_draw u te tm w = Ret (tm', cmds) -> tm_area tm' = tm_area tm.
Proof. unfold terminal_draw. destruct (w _ _); [|discriminate]. cbn [bind]. destruct (diff _ _ _); [|discriminate]. cbn [bind]. intros [= <- _]. unfold swap_buffers. cbn [tm_area]. now rewrite area_previous, area_current. Qed.
Lemma resize_area tm area tm' cmds : terminal_resize tm area = Ret (tm', cmds) -> tm_area tm' = area.
Proof.
  unfold terminal_resize. destruct (tm_viewport tm) eqn:V; try discriminate; (destruct (buffer_resize _ _); [|discriminate]; cbn [bind]; destruct (buffer_resize _ _); [|discriminate]; cbn [bind]; unfold terminal_clear; cbn [tm_viewport];
  intros E; match type of E with match ?x with _ => _ end = _ => destruct x end; injection E as <- _; now rewrite area_previous).
Qed.
Lemma run_at u te sizes l : forall tm t, at_size sizes tm -> (forall z, In z (resizes l) -> In z sizes) -> run u te (tm, t) (map (event_at sizes) l) = run u te (tm, t) l.
Proof.
  induction l as [|e l IH]; intros tm t A R; [reflexivity|]. cbn [map run].
  assert (R' : forall z, In z (resizes l) -> In z sizes) by (intros z I; apply R; unfold resizes; cbn [flat_map]; apply in_or_app; now right).
  destruct e as [w|w h|w h c k]; cbn [event_at].
  - assert (E : terminal_draw u te tm (only_at sizes w) = terminal_draw u te tm w) by (unfold terminal_draw; destruct A as (W & H & -> & I); now rewrite only_at_in).
    cbn [run_event]. rewrite E. destruct (terminal_draw u te tm w) as [[tm' cmds]|] eqn:D; [|reflexivity]. destruct (send u te t cmds); [|reflexivity]. cbn [option_map]. apply IH; [|exact R']. unfold at_size. now rewrite (draw_area _ _ _ _ _ _ D).
  - cbn [run_event]. destruct (terminal_resize tm (new_rect w h)) as [[tm' cmds]|] eqn:D; [|reflexivity]. destruct (send u te t cmds); [|reflexivity]. cbn [option_map]. apply IH; [|exact R']. exists w, h. split; [exact (resize_area _ _ _ _ D)|]. apply R. now left.
  - cbn [run_event]. apply IH; assumption.
Qed.
Lemma start_at u te t tm t' : start u te t = Some (tm, t') -> tm_area tm = new_rect (t_w t) (t_h t).
Proof. unfold start. destruct (send _ _ _ _); [|discriminate]. unfold new_terminal. destruct (new_buffer_empty _); [|discriminate]. cbn [bind]. intros [= <- _]. reflexivity. Qed.
Lemma final_at sizes l : forall z, final_size z (map (event_at sizes) l) = final_size z l.
Proof. induction l as [|[w|w h|w h c k] l IH]; intros z; cbn [map event_at final_size]; auto. Qed.
Lemma told_at sizes l : forall z ok, told z ok (map (event_at sizes) l) = told z ok l.
Proof. induction l as [|[w|w h|w h c k] l IH]; intros z ok; cbn [map event_at told]; auto. Qed.
Lemma resizes_at sizes l : resizes (map (event_at sizes) l) = resizes l.
Proof. induction l as [|[w|w h|w h c k] l IH]; cbn [map event_at resizes flat_map app]; auto. f_equal. exact IH. Qed.
Lemma sizes_at sizes l : sizes_ok l -> sizes_ok (map (event_at sizes) l).
Proof. intros H e I. apply in_map_iff in I. destruct I as (e0 & <- & I). specialize (H e0 I). now destruct e0. Qed.
Lemma together_at {M} (m0 : M) init_cmd update inputs view sizes s h : S_Joint.together m0 init_cmd update inputs view s h ->
  S_Joint.together m0 init_cmd update inputs (fun m => only_at sizes (view m)) s (map (event_at sizes) h).
Proof.
  induction 1 as [s R E|s s' h es T IH S F|s h w ht cells cur T IH]; [now apply t_start| |]; rewrite map_app.
  - apply (t_step _ _ _ _ _ s); [exact IH|exact S|]. destruct F as [m D L|from m w ht L Mn|L1 L2]; cbn [map event_at]; [exact (e_draw m0 (fun m => only_at sizes (view m)) s s' m D L)|eapply e_size; eassumption|now apply e_none].
  - now apply t_term.
Qed.
Definition pair_dec (a b : Z * Z) : {a = b} + {a <> b}. Proof. decide equality; apply Z.eq_dec. Defined.
Lemma step_more {M} (m0 : M) init_cmd update inputs a b : M_App.step m0 init_cmd update inputs a b -> exists l, st_log b = l ++ st_log a.
Proof.
  destruct 1; cbn [st_log]; first [now exists []|now eexists [_]|now eexists [_; _]|now eexists|idtac].
  all: try (match goal with |- exists l, ?x ++ ?y :: ?lg = _ => exists (x ++ [y]); now rewrite <- app_assoc end).
Qed.
(** Every frame of a session was drawn in an earlier state of the program. *)
Lemma together_draws {M} (m0 : M) init_cmd update inputs view s h : S_Joint.together m0 init_cmd update inputs view s h -> forall w, In (EvDraw w) h ->
  exists s1 m, M_App.reachable m0 init_cmd update inputs s1 /\ drawing m0 s1 = Some m /\ w = view m /\ exists l, st_log s = l ++ st_log s1.
Proof.
  induction 1 as [s R E|s s' h es T IH S F|s h w0 ht cells c T IH]; intros w I; [destruct I| |]; apply in_app_or in I; destruct I as [I|I].
  - destruct (IH w I) as (s1 & m & R1 & D & W & l & L). exists s1, m. repeat (split; [assumption|]). destruct (step_more _ _ _ _ _ _ S) as (l' & L'). exists (l' ++ l). rewrite L', L. apply app_assoc.
  - destruct F as [m D L|from m w1 ht L Mn|L1 L2]; cbn in I; [|destruct I as [I|[]]; discriminate|destruct I]. destruct I as [I|[]]. injection I as <-. exists s, m. split; [eapply together_reachable; exact T|]. split; [exact D|]. split; [reflexivity|]. destruct (step_more _ _ _ _ _ _ S) as (l' & L'). now exists l'.
  - auto.
  - destruct I as [I|[]]. discriminate.
Qed.
Section Claims.
Context {M : Type}.
Variable m0 : M.
Variable init_cmd : option cmd.
Variable update : M -> msg -> option (M * option cmd).
Variable redrawn : M -> Z * Z -> M.
Variable inputs : list msg.
Variable view : M -> widget.
Notation live_update := (live_update update redrawn).
Notation live_view := (live_view view).

(** ** C95 for programs that need room: it is enough that the models that are in fact drawn in the run, and the one that the program waits with, can be drawn on
    frames of the sizes that the program was told. *)
Theorem C95_reached (ok : M -> Prop) u te t0 s h v : env_ok u te -> (forall n, clusters u (repeat 32%N n) = repeat [32%N] n) ->
  let sizes := (t_w t0, t_h t0) :: resizes h in
  (forall s1 v1, M_App.reachable (Live m0 (t_w t0, t_h t0) (resizes h)) init_cmd live_update inputs s1 -> (exists l, st_log s = l ++ st_log s1) ->
    S_Joint.drawing (Live m0 (t_w t0, t_h t0) (resizes h)) s1 = Some v1 \/ st_main s1 = PLoop v1 -> ok (lv_model v1)) ->
  (forall m w ht, ok m -> In (w, ht) sizes -> exists b, view m (new_rect w ht) (blank (new_rect w ht)) = Ret b /\ barea b = new_rect w ht /\ frame_ok u te b) ->
  t_attr t0 = default_attr -> 0 <= t_w t0 -> 0 <= t_h t0 ->
  S_Joint.together (Live m0 (t_w t0, t_h t0) (resizes h)) init_cmd live_update inputs live_view s h -> sizes_ok h -> st_main s = PLoop v -> told (t_w t0, t_h t0) true h = true ->
  let m := lv_model v in
  filter for_model (map snd (taken (history s))) = updates (history s) /\
  lived update redrawn m0 (t_w t0, t_h t0) (updates (history s)) (resizes h) = Some (m, final_size (t_w t0, t_h t0) h) /\ ok m /\
  let area := let (W, H) := final_size (t_w t0, t_h t0) h in new_rect W H in
  exists s0 tm t b, start u te t0 = Some s0 /\ run u te s0 h = Some (tm, t) /\ view m area (blank area) = Ret b /\ barea b = area /\ shows u te (t_cells t) b.
Proof.
  intros He Hsp sizes Ok Hv Ha HW HH T Hs Wt Td m.
  set (P := fun v : live M => In (lv_size v) sizes /\ Forall (fun z => In z sizes) (lv_coming v)).
  set (v0 := Live m0 (t_w t0, t_h t0) (resizes h)) in *.
  assert (P0 : P v0).
  { split; [now left|]. apply Forall_forall. intros z I. now right. }
  assert (Pu : forall a x b c, P a -> live_update a x = Some (b, c) -> P b).
  { intros [a [w ht] coming] x b c (Pz & Pc) E. unfold S_Stateful.live_update in E. cbn [lv_model lv_size lv_coming fst snd] in *. destruct (update (redrawn a (w, ht)) x) as [[a' c']|] eqn:U; [|discriminate].
    destruct (next_size x (w, ht) coming) as [z r] eqn:Nx. injection E as <- _.
    unfold P. cbn [lv_size lv_coming]. unfold next_size in Nx. destruct x; try (injection Nx as <- <-; now split). destruct coming as [|z' r']; injection Nx as <- <-; [now split|]. inversion Pc; subst. now split. }
  set (h' := map (event_at sizes) h). set (view' := fun v : live M => only_at sizes (live_view v)).
  pose proof (together_at v0 init_cmd live_update inputs live_view sizes s h T) as T'. fold h' view' in T'.
  pose proof (together_draws v0 init_cmd live_update inputs view' s h' T') as Gm.
  destruct (screen v0 init_cmd live_update inputs view' u te t0 s h' v He) as (Eu & Em & s0 & tm & t & b & B); auto.
  { intros w I. destruct (Gm w I) as (s1 & a & R1 & D1 & -> & L1). intros W H ZW ZH. unfold view'. destruct (in_dec (pair_dec) (W, H) sizes) as [J|J].
    - rewrite only_at_in by exact J. apply Hv; [exact (Ok s1 a R1 L1 (or_introl D1))|exact J].
    - rewrite only_at_out by exact J. exists (blank (new_rect W H)). split; [reflexivity|]. split; [reflexivity|]. split.
      + apply blank_displayable; [exact He|now apply new_rect_sized].
      + intros p l Hl. assert (Es : l = repeat [32%N] (length l)).
        { clear - Hl. assert (Q : forall x, In x l -> x = [32%N]). { intros x Ix. apply In_nth_error in Ix. destruct Ix as [k Ik]. destruct (Hl k x Ik) as (c & Lc & <-). apply blank_look_Some in Lc. now subst c. }
          clear Hl. induction l as [|x l IH]; [reflexivity|]. cbn [length repeat]. rewrite (Q x (or_introl eq_refl)). f_equal. apply IH. intros y Iy. apply Q. now right. }
        rewrite Es. replace (concat (repeat [32%N] (length l))) with (repeat 32%N (length l)) by (clear; induction l as [|x l IH]; [reflexivity|]; cbn [length repeat concat app]; now rewrite IH). apply Hsp.
      + intros p c Lc. apply blank_look_Some in Lc. subst c. intros r [<-|[]]. reflexivity. }
  { now apply sizes_at. } { now left. } { unfold h'. now rewrite told_at. }
  split; [exact Eu|].
  assert (Ct : length (filter is_size (updates (history s))) = length (resizes h)).
  { destruct (together_sizes init_cmd update redrawn inputs view v0 s h T) as [K|K]; [unfold refused in K; rewrite Wt in K; contradiction|]. rewrite K, <- Eu. unfold count_sizes, taken, history. rewrite <- (rev_involutive (st_log s)) at 2. generalize (rev (st_log s)). clear.
    intros l. rewrite <- (rev_length (flat_map _ (rev l))). rewrite <- flat_map_rev by (intros []; cbn; try lia; destruct m; cbn; lia). rewrite rev_involutive.
    induction l as [|e l IH]; [reflexivity|]. cbn [flat_map]. rewrite app_length, map_app, filter_app, filter_app, app_length, IH. f_equal. destruct e; try reflexivity. destruct m; reflexivity. }
  pose proof (lived_after update redrawn (updates (history s)) m0 (t_w t0, t_h t0) (resizes h) v ltac:(lia) Em) as El. rewrite Ct, firstn_all in El.
  pose proof (lived_size update redrawn _ _ _ _ _ _ Ct El) as Ez. rewrite (told_last h _ _ _ (fun _ => eq_refl) Td) in Ez. split; [rewrite El, Ez; reflexivity|].
  assert (Pv : P v). { assert (Q : forall l a b, P a -> model_after live_update a l = Some b -> P b). { induction l as [|x l IH]; intros a c Pa E; cbn in E; [now injection E as <-|]. destruct (live_update a x) as [[a' c']|] eqn:U; [|discriminate]. eapply IH; [|exact E]. eapply Pu; eassumption. }
    apply (Q _ _ _ P0 Em). }
  split; [apply (Ok s v (together_reachable _ _ _ _ _ s h T)); [now exists []|now right]|].
  destruct B as (B1 & B2 & B3 & B4 & B5 & _). unfold h' in B2, B3, B4. rewrite final_at in B3, B4. destruct s0 as [tm0 t1].
  rewrite run_at in B2; [|exists (t_w t0), (t_h t0); split; [exact (start_at _ _ _ _ _ B1)|now left]|intros z I; now right].
  exists (tm0, t1), tm, t, b. split; [exact B1|]. split; [exact B2|].
  destruct Pv as (Pz & _). rewrite Ez in Pz. destruct (final_size (t_w t0, t_h t0) h) as [W H] eqn:Fz. unfold view' in B3. rewrite only_at_in in B3 by exact Pz. auto.
Qed.
(** ** C95 for programs that need room: models only have to be drawable on frames of the sizes that the program was told, and the program only has to stay
    within such models when it is drawn at these sizes. *)
Theorem C95_sizes (ok : M -> Prop) u te t0 s h v : env_ok u te -> (forall n, clusters u (repeat 32%N n) = repeat [32%N] n) ->
  let sizes := (t_w t0, t_h t0) :: resizes h in
  ok m0 -> (forall m w ht x m' c, ok m -> In (w, ht) sizes -> update (redrawn m (w, ht)) x = Some (m', c) -> ok m') ->
  (forall m w ht, ok m -> In (w, ht) sizes -> exists b, view m (new_rect w ht) (blank (new_rect w ht)) = Ret b /\ barea b = new_rect w ht /\ frame_ok u te b) ->
  t_attr t0 = default_attr -> 0 <= t_w t0 -> 0 <= t_h t0 ->
  S_Joint.together (Live m0 (t_w t0, t_h t0) (resizes h)) init_cmd live_update inputs live_view s h -> sizes_ok h -> st_main s = PLoop v -> told (t_w t0, t_h t0) true h = true ->
  let m := lv_model v in
  filter for_model (map snd (taken (history s))) = updates (history s) /\
  lived update redrawn m0 (t_w t0, t_h t0) (updates (history s)) (resizes h) = Some (m, final_size (t_w t0, t_h t0) h) /\ ok m /\
  let area := let (W, H) := final_size (t_w t0, t_h t0) h in new_rect W H in
  exists s0 tm t b, start u te t0 = Some s0 /\ run u te s0 h = Some (tm, t) /\ view m area (blank area) = Ret b /\ barea b = area /\ shows u te (t_cells t) b.
Proof.
  intros He Hsp sizes O0 Ou Hv. apply C95_reached; auto. intros s1 v1 R1 _ D.
  set (P := fun v : live M => ok (lv_model v) /\ In (lv_size v) sizes /\ Forall (fun z => In z sizes) (lv_coming v)).
  set (v0 := Live m0 (t_w t0, t_h t0) (resizes h)) in *.
  assert (P0 : P v0). { split; [exact O0|]. split; [now left|]. apply Forall_forall. intros z I. now right. }
  assert (Pu : forall a x b c, P a -> live_update a x = Some (b, c) -> P b).
  { intros [a [w ht] coming] x b c (Pa & Pz & Pc) E. unfold S_Stateful.live_update in E. cbn [lv_model lv_size lv_coming fst snd] in *. destruct (update (redrawn a (w, ht)) x) as [[a' c']|] eqn:U; [|discriminate].
    pose proof (Ou a w ht x a' c' Pa Pz U) as Oa. destruct (next_size x (w, ht) coming) as [z r] eqn:Nx. injection E as <- _.
    split; [exact Oa|]. cbn [lv_size lv_coming]. unfold next_size in Nx. destruct x; try (injection Nx as <- <-; now split). destruct coming as [|z' r']; injection Nx as <- <-; [now split|]. inversion Pc; subst. now split. }
  assert (E : model_after live_update v0 (rev (upd (st_log s1))) = Some v1).
  { apply (reach_model _ _ _ _ _ R1 v1). destruct D as [D|D]; [unfold drawing in D; unfold cur; destruct (st_main s1); try discriminate; exact D|now rewrite D]. }
  assert (Q : forall l a b, P a -> model_after live_update a l = Some b -> P b). { induction l as [|x l IH]; intros a c Pa Ea; cbn in Ea; [now injection Ea as <-|]. destruct (live_update a x) as [[a' c']|] eqn:U; [|discriminate]. eapply IH; [|exact Ea]. eapply Pu; eassumption. }
  exact (proj1 (Q _ _ _ P0 E)).
Qed.
End Claims.
Print Assumptions C95_sizes.
Print Assumptions C95_reached.
