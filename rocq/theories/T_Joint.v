(** C85: the screen of a running program. *)
From Verif Require Import Base M_Geom S_Geom M_Style M_Uniseg M_Buffer S_Buffer M_Ansi M_Backend S_Terminal S_Ansi S_Display S_Command S_Session
  P_Base T_Geom P_Buffer P_SetString T_Buffer P_Ansi P_Attr P_Draw P_Diff P_Session T_Terminal.
From Verif Require Import M_Cmd M_App P_App P_AppIds P_AppLog P_AppRun P_AppEnd T_App S_Joint.
From Coq Require Import ZArith NArith List Bool Lia.
Import ListNotations.
Open Scope Z_scope.

Section Claims.
Context {M : Type}.
Variable m0 : M.
Variable init_cmd : option cmd.
Variable update : M -> msg -> option (M * option cmd).
Variable inputs : list msg.
Variable view : M -> widget.
Notation step := (M_App.step m0 init_cmd update inputs).
Notation reachable := (M_App.reachable m0 init_cmd update inputs).
Notation together := (S_Joint.together m0 init_cmd update inputs view).
Notation effect := (S_Joint.effect m0 view).

Lemma together_reachable s h : together s h -> reachable s.
Proof. induction 1 as [s R _|s s' h es _ IH S _|]; auto. eapply steps_step; eassumption. Qed.
Definition resized (e : S_Session.event) : Prop := match e with EvTermSize _ _ _ _ => True | _ => False end.
(** The last thing drawn is [m]; since then only the user has touched the terminal. *)
Definition last_drawn (m : M) (h : list S_Session.event) : Prop := exists h0 r, h = h0 ++ EvDraw (view m) :: r /\ forall e, In e r -> resized e.
Definition drawn_inv (s : state M) (h : list S_Session.event) : Prop :=
  match st_main s with
  | PSetup _ => False
  | PReader | PStart => last_drawn m0 h
  | PLoop m | PLoopEnd m None | PFinalDraw m | PCancel (Some m) | PWait (Some m) | PRestore (Some m) _ => last_drawn m h
  | _ => True
  end.
Lemma last_same m h es : last_drawn m h -> (forall e, In e es -> resized e) -> last_drawn m (h ++ es).
Proof. intros (h0 & r & -> & R) Q. exists h0, (r ++ es). split; [now rewrite <- app_assoc|]. intros e I. apply in_app_or in I. destruct I; auto. Qed.
Lemma last_now m h : last_drawn m (h ++ [EvDraw (view m)]).
Proof. exists h, []. split; [reflexivity|]. intros e []. Qed.
Lemma starts_only id i cs : forall k e, In e (starts id i k cs) -> match e with EDropped _ | EStarted _ _ => True | _ => False end.
Proof. induction cs as [|c cs IH]; intros k e I; cbn in I; [destruct I|]. destruct I as [<-|I]; [exact Logic.I|]. exact (IH _ _ I). Qed.
Lemma gstep_log x g gs evs lg : gstep inputs x g gs evs -> evs ++ lg <> EDraw :: lg /\ forall from, evs ++ lg <> EAccepted from MSize :: lg.
Proof.
  intros G. assert (K : forall e, In e evs -> match e with EDropped _ | EStarted _ _ => True | _ => False end).
  { destruct G; intros e I; try (destruct I as [<-|[]]; exact Logic.I); try (destruct I; fail). eapply starts_only; exact I. }
  destruct evs as [|e [|e' evs]].
  - cbn. split; [|intros from]; intros E; apply (f_equal (@length _)) in E; cbn in E; lia.
  - cbn. pose proof (K e (or_introl eq_refl)) as Ke. split; [|intros from]; intros E; injection E as ->; exact Ke.
  - split; [|intros from]; intros E; apply (f_equal (@length _)) in E; cbn in E; rewrite app_length in E; lia.
Qed.
Lemma cons_self {A} (x : A) l : l <> x :: l.
Proof. intros E. apply (f_equal (@length _)) in E. cbn in E. lia. Qed.
Lemma together_drawn s h : together s h -> drawn_inv s h.
Proof.
  induction 1 as [s R E|s s' h es T IH S F|s h w ht cells cur T IH].
  - unfold drawn_inv. now rewrite E.
  - destruct F as [m D L|from m w ht L Mn|L1 L2].
    + (* a frame *)
      destruct S; unfold drawing, drawn_inv in *; cbn [st_main st_log] in *; try discriminate; try exact Logic.I; try (elim (cons_self _ _ L); fail);
        try (injection D as <-; apply last_now).
      all: try (destruct (gstep_log _ _ _ _ lg H) as [N _]; elim (N L)).
      all: try (apply (f_equal (@length _)) in L; cbn in L; rewrite ?app_length in L; cbn in L; lia).
    + (* a size *)
      destruct S; unfold drawn_inv in *; cbn [st_main st_log] in *; try discriminate; try exact Logic.I; try (rewrite Mn; exact Logic.I).
    + (* neither *)
      rewrite app_nil_r. destruct S; unfold drawn_inv in *; cbn [st_main st_log] in *; auto; try (elim L1; reflexivity).
  - unfold drawn_inv in *. destruct (st_main s) as [| | | | | | | | |? [?|]| |[?|]|[?|]|[?|] ?| |]; auto; apply last_same; auto; intros e [<-|[]]; exact Logic.I.
Qed.
Lemma told_app size ok a b : told size ok (a ++ b) = told (final_size size a) (told size ok a) b.
Proof. revert size ok. induction a as [|[w|w h|w h c k] a IH]; intros size ok; cbn [app told final_size]; auto. Qed.
Lemma told_resized r : forall size ok, (forall e, In e r -> resized e) -> told size ok r = true -> r = [].
Proof.
  induction r as [|e r IH]; intros size ok Q T; [reflexivity|]. pose proof (Q e (or_introl eq_refl)) as Qe. destruct e; try contradiction. cbn [told] in T.
  assert (Er : r = []) by (eapply IH; [intros x I; apply Q; now right|exact T]). subst r. discriminate.
Qed.
Lemma effect_good u te s s' es : (forall m, good_widget u te (view m)) -> effect s s' es -> forall w, In (EvDraw w) es -> good_widget u te w.
Proof. intros G F w I. destruct F; cbn in I; [destruct I as [I|[]]; injection I as <-; apply G|destruct I as [I|[]]; discriminate|destruct I]. Qed.
Lemma together_good u te s h : (forall m, good_widget u te (view m)) -> together s h -> forall w, In (EvDraw w) h -> good_widget u te w.
Proof.
  intros G T. induction T as [s R E|s s' h es T IH S F|s h w0 ht cells c T IH]; intros w I; [destruct I| |]; apply in_app_or in I; destruct I as [I|I]; auto.
  - eapply effect_good; eassumption.
  - destruct I as [I|[]]. discriminate.
Qed.
(** Sizes are not negative. *)
Definition sizes_ok (h : list S_Session.event) : Prop := forall e, In e h -> match e with EvDraw _ => True | EvResize w ht | EvTermSize w ht _ _ => 0 <= w /\ 0 <= ht end.
(** The program waits for a message, or has drawn its last frame. *)
Definition waits (s : state M) (m : M) : Prop := st_main s = PLoop m \/ st_main s = PCancel (Some m).

(** Only models the program can have are drawn. *)
Lemma together_models (P : M -> Prop) s h : P m0 -> (forall m x m' c, P m -> update m x = Some (m', c) -> P m') -> together s h -> forall w, In (EvDraw w) h -> exists m, P m /\ w = view m.
Proof.
  intros P0 Pu T.
  assert (Ml : forall s, reachable s -> forall m, drawing m0 s = Some m -> P m).
  { intros a R m D. assert (E : model_after update m0 (rev (upd (st_log a))) = Some m).
    { apply (reach_model _ _ _ _ _ R m). unfold drawing in D. unfold cur. destruct (st_main a); try discriminate; exact D. }
    revert E. generalize (rev (upd (st_log a))). clear - P0 Pu. intros l. revert m0 P0. induction l as [|x l IH]; intros m1 P1 E; cbn [model_after] in E; [now injection E as <-|].
    destruct (update m1 x) as [[m' c]|] eqn:U; [|discriminate]. eapply IH; [|exact E]. eapply Pu; eassumption. }
  induction T as [s R E|s s' h es T IH S F|s h w0 ht cells c T IH]; intros w I; [destruct I| |]; apply in_app_or in I; destruct I as [I|I]; auto.
  - destruct F as [m D L|from m w1 ht L Mn|L1 L2]; cbn in I; [|destruct I as [I|[]]; discriminate|destruct I]. destruct I as [I|[]]. injection I as <-. exists m. split; [|reflexivity]. eapply Ml; [eapply together_reachable; exact T|exact D].
  - destruct I as [I|[]]. discriminate.
Qed.
Lemma screen u te t0 s h m : env_ok u te -> (forall w, In (EvDraw w) h -> good_widget u te w) -> t_attr t0 = default_attr -> 0 <= t_w t0 -> 0 <= t_h t0 ->
  together s h -> sizes_ok h -> waits s m -> told (t_w t0, t_h t0) true h = true ->
  filter for_model (map snd (taken (history s))) = updates (history s) /\ model_after update m0 (updates (history s)) = Some m /\
  let area := let (W, H) := final_size (t_w t0, t_h t0) h in new_rect W H in
  exists s0 tm t b, start u te t0 = Some s0 /\ run u te s0 h = Some (tm, t) /\
    view m area (blank area) = Ret b /\ barea b = area /\ shows u te (t_cells t) b /\ t_attr t = default_attr /\ t_visible t = false.
Proof.
  intros He Hv Ha HW HH T Hs Wt Td. split; [|split].
  - destruct (C46_updates m0 init_cmd update inputs s (together_reachable s h T)) as (rest & E & _). pose proof (reach_upd _ _ _ _ _ (together_reachable s h T)) as U. unfold upd_inv in U. cbv zeta in U.
    assert (E1 : taken (history s) = rev (acc (st_log s))) by (apply flat_map_rev; intros []; cbn; lia). assert (E2 : updates (history s) = rev (upd (st_log s))) by (apply flat_map_rev; intros []; cbn; lia).
    assert (F : forall l : list msg, filter to_model (rev l) = rev (filter to_model l)) by (induction l as [|x l IH]; [reflexivity|]; cbn [rev filter]; rewrite filter_app, IH; cbn [filter]; destruct (to_model x); [reflexivity|apply app_nil_r]).
    change for_model with to_model. rewrite E1, E2, map_rev, F. f_equal. destruct U as [U|[O _]]; [destruct Wt as [W|W]; rewrite W in U; exact U|destruct Wt as [W|W]; rewrite W in O; contradiction].
  - pose proof (reach_model _ _ _ _ _ (together_reachable s h T) m) as K. unfold updates, history. rewrite flat_map_rev by (intros []; cbn; lia). apply K. unfold cur. destruct Wt as [-> | ->]; reflexivity.
  - pose proof (together_drawn s h T) as D. assert (L : last_drawn m h) by (unfold drawn_inv in D; destruct Wt as [E|E]; rewrite E in D; exact D). destruct L as (h0 & r & Eh & Q).
    assert (Er : r = []). { rewrite Eh, told_app in Td. cbn [told] in Td. eapply told_resized; eassumption. } subst r.
    assert (Td0 : told (t_w t0, t_h t0) true h0 = true) by (rewrite Eh, told_app in Td; exact Td).
    assert (Gd : forall e, In e h0 -> good_event u te e).
    { intros e I. assert (I' : In e h) by (rewrite Eh; apply in_or_app; now left). destruct e as [w|w ht|w ht cells c]; cbn [good_event]; [exact (Hv w I')|exact (Hs _ I')|exact (Hs _ I')]. }
    assert (Fs : final_size (t_w t0, t_h t0) h = final_size (t_w t0, t_h t0) h0). { rewrite Eh. clear. generalize (t_w t0, t_h t0). induction h0 as [|[w|w ht|w ht c k] h0 IH]; intros size; cbn [app final_size]; auto. }
    rewrite Fs, Eh. exact (C13_screen_shows_last_frame u te t0 h0 (view m) He Ha HW HH Gd (Hv (view m) ltac:(rewrite Eh; apply in_or_app; right; now left)) Td0).
Qed.
(** Whenever a program waits for its next message, whatever commands, goroutines and resizes have done, it has given every message so far to Update,
    and if it was told the size of the terminal then the screen shows what its model draws on an empty frame of that size, and nothing else. *)
Theorem C85_screen u te t0 s h m : env_ok u te -> (forall m, good_widget u te (view m)) -> t_attr t0 = default_attr -> 0 <= t_w t0 -> 0 <= t_h t0 ->
  together s h -> sizes_ok h -> waits s m -> told (t_w t0, t_h t0) true h = true ->
  filter for_model (map snd (taken (history s))) = updates (history s) /\ model_after update m0 (updates (history s)) = Some m /\
  let area := let (W, H) := final_size (t_w t0, t_h t0) h in new_rect W H in
  exists s0 tm t b, start u te t0 = Some s0 /\ run u te s0 h = Some (tm, t) /\
    view m area (blank area) = Ret b /\ barea b = area /\ shows u te (t_cells t) b /\ t_attr t = default_attr /\ t_visible t = false.
Proof. intros He Hv Ha HW HH T Hs Wt Td. apply (screen u te t0 s h m He (together_good u te s h Hv T) Ha HW HH T Hs Wt Td). Qed.
End Claims.

(** *** An instance: a program that shows A, or B after an odd number of messages. The terminal is resized while it handles the first one. *)
Definition letter (n : N) : widget := fill_render [n] demo_style.
Lemma letter_good n : n = 65%N \/ n = 66%N -> good_widget simple_uniseg te_id (letter n).
Proof.
  intros Hn w h Hw Hh. set (r := new_rect w h). assert (Hs : sized r) by (split; auto).
  destruct (C10_fill_exact (blank r) r [n] demo_style (blank_wf r Hs)) as (b & E & Hc); [intros p Hp; exact Hp|].
  exists b. split; [exact E|]. destruct Hc as (A & W & Hin & Hout). split; [exact A|].
  assert (G : forall p c, look b p = Some c -> c = Cell [n] (Some (ColAnsi 1%N)) (Some ColReset) 1%N false).
  { intros p c Hl. pose proof (look_Some_inside _ _ _ Hl) as Hi. rewrite A in Hi. rewrite (Hin p Hi), (blank_look r p Hs Hi) in Hl.
    cbn in Hl. now injection Hl as <-. }
  constructor.
  - constructor; [exact W| |].
    + intros p c Hl. rewrite (G p c Hl). destruct Hn as [-> | ->]; constructor; cbn; auto; try discriminate; split; reflexivity.
    + intros p c Hl. rewrite (G p c Hl). cbn. destruct Hn as [-> | ->]; discriminate.
  - apply simple_separate. intros p c Hl. rewrite (G p c Hl). cbn. eauto.
  - intros p c Hl. rewrite (G p c Hl). intros x [<-|[]]. destruct Hn as [-> | ->]; reflexivity.
Qed.
Definition flip (m : bool) (_ : msg) : option (bool * option cmd) := Some (negb m, None).
Definition two_letters (m : bool) : widget := letter (if m then 66%N else 65%N).
Definition shown_modes : modes := Modes true true true false.
Definition shown_state : state bool := State (PLoop true) [GListen; GHandler; GRead 0] false shown_modes 3 [EDraw; EUpdate MSize; EAccepted WSize MSize; EDraw].
Definition shown_history : list S_Session.event := [EvDraw (two_letters false); EvTermSize 4 3 (fun _ => Junk) None; EvResize 4 3; EvDraw (two_letters true)].
Lemma shown_together : together false None flip [MNil] two_letters shown_state shown_history.
Proof.
  assert (A : together false None flip [MNil] two_letters (State PDraw0 [] false shown_modes 1 []) []).
  { apply t_start; [|reflexivity]. eapply steps_step; [|exact (s_init bool false None flip [MNil] [] false shown_modes 0 [])].
    eapply steps_step; [|exact (s_setup bool false None flip [MNil] (OpAlt true) [] [] false (Modes true true false false) 0 [])].
    eapply steps_step; [|exact (s_setup bool false None flip [MNil] (OpHide true) [OpAlt true] [] false (Modes true false false false) 0 [])].
    eapply steps_step; [|exact (s_setup bool false None flip [MNil] (OpRaw true) [OpHide true; OpAlt true] [] false plain_modes 0 [])]. apply steps_refl. }
  assert (B : together false None flip [MNil] two_letters (State PReader [] false shown_modes 1 [EDraw]) [EvDraw (two_letters false)]).
  { apply (t_step _ _ _ _ _ _ _ [] [EvDraw (two_letters false)] A (s_draw0 _ _ _ _ _ _ _ _ _ _)). apply e_draw; reflexivity. }
  assert (C : together false None flip [MNil] two_letters (State PStart [GRead 0] false shown_modes 1 [EDraw]) [EvDraw (two_letters false)]).
  { apply (t_step _ _ _ _ _ _ _ _ [] B (s_reader _ _ _ _ _ _ _ _ _ _)). apply e_none; discriminate. }
  assert (D : together false None flip [MNil] two_letters (State (PLoop false) [GCheck false; GListen; GHandler; GRead 0] false shown_modes 1 [EDraw]) [EvDraw (two_letters false)]).
  { apply (t_step _ _ _ _ _ _ _ _ [] C (s_start _ _ _ _ _ _ _ _ _ _)). apply e_none; discriminate. }
  apply (t_term _ _ _ _ _ _ _ 4 3 (fun _ => Junk) None) in D. cbn [app] in D.
  assert (F : together false None flip [MNil] two_letters (State (PLoop false) [GSize false; GListen; GHandler; GRead 0] false shown_modes 1 [EDraw]) [EvDraw (two_letters false); EvTermSize 4 3 (fun _ => Junk) None]).
  { apply (t_step _ _ _ _ _ _ _ _ [] D (s_gor bool false None flip [MNil] (PLoop false) (GCheck false) [GSize false] [] [] [GListen; GHandler; GRead 0] false shown_modes 1 [EDraw] (g_size_known _ _ _))). apply e_none; discriminate. }
  assert (G : together false None flip [MNil] two_letters (State (PUpdate false MSize) [GListen; GHandler; GRead 0] false shown_modes 2 [EAccepted WSize MSize; EDraw]) [EvDraw (two_letters false); EvTermSize 4 3 (fun _ => Junk) None; EvResize 4 3]).
  { apply (t_step _ _ _ _ _ _ _ _ [EvResize 4 3] F (s_loop_msg bool false None flip [MNil] false (GSize false) WSize MSize [] [] [GListen; GHandler; GRead 0] false shown_modes 1 [EDraw] (o_size _ false) ltac:(discriminate) ltac:(discriminate))). eapply e_size; reflexivity. }
  assert (K : together false None flip [MNil] two_letters (State (PSendCmd true None) [GListen; GHandler; GRead 0] false shown_modes 3 [EUpdate MSize; EAccepted WSize MSize; EDraw]) [EvDraw (two_letters false); EvTermSize 4 3 (fun _ => Junk) None; EvResize 4 3]).
  { apply (t_step _ _ _ _ _ _ _ _ [] G (s_update bool false None flip [MNil] false MSize true None [GListen; GHandler; GRead 0] false shown_modes 2 [EAccepted WSize MSize; EDraw] eq_refl)). apply e_none; discriminate. }
  assert (L : together false None flip [MNil] two_letters (State (PDraw true) [GListen; GHandler; GRead 0] false shown_modes 3 [EUpdate MSize; EAccepted WSize MSize; EDraw]) [EvDraw (two_letters false); EvTermSize 4 3 (fun _ => Junk) None; EvResize 4 3]).
  { apply (t_step _ _ _ _ _ _ _ _ [] K (s_send_nil bool false None flip [MNil] true [GListen] [GRead 0] false shown_modes 3 [EUpdate MSize; EAccepted WSize MSize; EDraw])). apply e_none; discriminate. }
  apply (t_step _ _ _ _ _ _ _ _ [EvDraw (two_letters true)] L (s_draw _ _ _ _ _ _ _ _ _ _ _)). apply e_draw; reflexivity.
Qed.
Example C85_instance : (forall m, good_widget simple_uniseg te_id (two_letters m)) /\ together false None flip [MNil] two_letters shown_state shown_history /\ sizes_ok shown_history /\ waits shown_state true /\
  told (5, 2) true shown_history = true /\ updates (history shown_state) = [MSize].
Proof.
  split; [intros [|]; apply letter_good; auto|]. split; [exact shown_together|]. split; [intros e [<-|[<-|[<-|[<-|[]]]]]; cbn; lia|]. split; [now left|]. split; reflexivity.
Qed.
Print Assumptions C85_screen.
