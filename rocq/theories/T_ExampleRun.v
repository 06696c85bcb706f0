(** C101: a run of the program of examples/input. *)
From Verif Require Import P_Decode S_Keys T_Decode T_Stream T_AppRuns T_KeyName P_SetString T_Output.
From Verif Require Import M_Solver M_Layout T_Layout M_Rounded S_Rounded M_Popup T_Popup T_Percent M_View M_View64 T_View64.
From Verif Require Import Base P_Base M_Geom S_Geom T_Geom M_Style M_Uniseg M_Buffer S_Buffer S_Text P_Buffer T_Buffer M_Text S_Line P_Text T_Text M_Block S_Block P_Block T_Block M_Slice M_List P_List T_List M_Utf8 M_KeyTable M_Decode M_Reflow M_Input S_Input P_Input P_InputView T_Input
  M_Typing S_Typing T_Typing S_Field T_View T_Field M_Ansi M_Backend S_Terminal S_Ansi S_Display S_Command S_Session S_Frame T_Terminal P_Frame T_Frame.
From Verif Require Import M_Cmd M_App P_App P_AppIds P_AppLog P_AppRun P_AppEnd T_App S_Joint T_Joint S_Stateful T_Stateful S_Typed T_Typed T_Sizes S_Entry T_Entry S_Titles T_Titles M_Options M_Example S_Example T_Example.
From Coq Require Import ZArith NArith String List Bool Lia.
Import ListNotations.
Open Scope Z_scope.
Local Arguments zlen : simpl never.

(** *** An instance: on a terminal of twenty columns and five rows the user pastes hi. *)
Section Instance.
#[local] Existing Instance no_tolerance.
Lemma one_message {M : Type} (m0 m1 : M) (d : M_Decode.msg) up vw : up m0 (MUser 0) = Some (m1, None) ->
  together m0 None up (numbered [d]) vw (State (PLoop m1) [GCheck false; GListen; GHandler; GRead 1] false shown_modes 3 [EDraw; EUpdate (MUser 0); EAccepted (WInput 0) (MUser 0); EDraw]) [EvDraw (vw m0); EvDraw (vw m1)].
Proof.
  intros Eup.
  assert (B : together m0 None up (numbered [d]) vw (State PDraw0 [] false shown_modes 1 []) []).
  { apply t_start; [|reflexivity]. eapply steps_step; [|exact (s_init _ m0 None up (numbered [d]) [] false shown_modes 0 [])].
    eapply steps_step; [|exact (s_setup _ m0 None up (numbered [d]) (OpAlt true) [] [] false (Modes true true false false) 0 [])].
    eapply steps_step; [|exact (s_setup _ m0 None up (numbered [d]) (OpHide true) [OpAlt true] [] false (Modes true false false false) 0 [])].
    eapply steps_step; [|exact (s_setup _ m0 None up (numbered [d]) (OpRaw true) [OpHide true; OpAlt true] [] false plain_modes 0 [])]. apply steps_refl. }
  assert (C : together m0 None up (numbered [d]) vw (State PReader [] false shown_modes 1 [EDraw]) [EvDraw (vw m0)]).
  { apply (t_step _ _ _ _ _ _ _ [] [EvDraw (vw m0)] B (s_draw0 _ _ _ _ _ _ _ _ _ _)). apply e_draw; reflexivity. }
  assert (D : together m0 None up (numbered [d]) vw (State PStart [GRead 0] false shown_modes 1 [EDraw]) [EvDraw (vw m0)]).
  { apply (t_step _ _ _ _ _ _ _ _ [] C (s_reader _ _ _ _ _ _ _ _ _ _)). apply e_none; discriminate. }
  assert (E : together m0 None up (numbered [d]) vw (State (PLoop m0) [GCheck false; GListen; GHandler; GRead 0] false shown_modes 1 [EDraw]) [EvDraw (vw m0)]).
  { apply (t_step _ _ _ _ _ _ _ _ [] D (s_start _ _ _ _ _ _ _ _ _ _)). apply e_none; discriminate. }
  assert (F : together m0 None up (numbered [d]) vw (State (PUpdate m0 (MUser 0)) [GCheck false; GListen; GHandler; GRead 1] false shown_modes 2 [EAccepted (WInput 0) (MUser 0); EDraw]) [EvDraw (vw m0)]).
  { apply (t_step _ _ _ _ _ _ _ _ [] E (s_loop_msg _ m0 None up (numbered [d]) m0 (GRead 0) (WInput 0) (MUser 0) [GRead 1] [GCheck false; GListen; GHandler] [] false shown_modes 1 [EDraw] (o_input (numbered [d]) 0 (MUser 0) eq_refl) ltac:(discriminate) ltac:(discriminate))). apply e_none; discriminate. }
  assert (G : together m0 None up (numbered [d]) vw (State (PSendCmd m1 None) [GCheck false; GListen; GHandler; GRead 1] false shown_modes 3 [EUpdate (MUser 0); EAccepted (WInput 0) (MUser 0); EDraw]) [EvDraw (vw m0)]).
  { apply (t_step _ _ _ _ _ _ _ _ [] F (s_update _ m0 None up (numbered [d]) m0 (MUser 0) m1 None [GCheck false; GListen; GHandler; GRead 1] false shown_modes 2 [EAccepted (WInput 0) (MUser 0); EDraw] Eup)). apply e_none; discriminate. }
  assert (K : together m0 None up (numbered [d]) vw (State (PDraw m1) [GCheck false; GListen; GHandler; GRead 1] false shown_modes 3 [EUpdate (MUser 0); EAccepted (WInput 0) (MUser 0); EDraw]) [EvDraw (vw m0)]).
  { apply (t_step _ _ _ _ _ _ _ _ [] G (s_send_nil _ m0 None up (numbered [d]) m1 [GCheck false; GListen] [GRead 1] false shown_modes 3 [EUpdate (MUser 0); EAccepted (WInput 0) (MUser 0); EDraw])). apply e_none; discriminate. }
  apply (t_step _ _ _ _ _ _ _ _ [EvDraw (vw m1)] K (s_draw _ _ _ _ _ _ _ _ _ _ _)). apply e_draw; reflexivity.
Qed.
Definition demo_runs : draw_runs := DrawRuns (a_run (LLen 3)) (a_run (LPercentage 60)) (a_run (LLen 3)) (a_run (LPercentage 60)) (a_run (LLen 1)).
Definition demo_draw (s : input_state) (area : rect) (b : buffer) : option (outcome (buffer * input_state)) := example_render simple_uniseg demo_runs example_symbol example_fill example_popup (example_input simple_uniseg) area b s.
Definition demo_view (s : input_state) : widget := fun area b => match demo_draw s area b with Some o => omap fst o | None => Panic end.
Definition demo_redrawn (s : input_state) (size : Z * Z) : input_state := match demo_draw s (new_rect (fst size) (snd size)) (blank (new_rect (fst size) (snd size))) with Some (Ret (_, s')) => s' | _ => s end.
Lemma demo_runs_any : any_runs example_popup (example_input simple_uniseg) demo_runs.
Proof.
  pose proof (T_Layout.vars_for_ok (popup_rows example_popup)) as V1. pose proof (T_Layout.vars_for_ok (popup_columns example_popup)) as V2. pose proof (T_Layout.vars_for_ok (input_layout (example_input simple_uniseg))) as V3.
  split; [split; [apply keep_any|exact V1]|]. split; [split; [apply keep_any|exact V2]|]. split; [split; [apply keep_any|exact V1]|]. split; [split; [apply keep_any|exact V2]|]. split; [apply keep_any|exact V3].
Qed.
Lemma render_ends u r symbol fill p w area b s at_ row : popup_area (dr_rows r) (dr_columns r) p area = At at_ -> popup_area (dr_rows' r) (dr_columns' r) p area = At at_ ->
  split_one (dr_row r) (input_layout w) (opt_block_inner (ip_block (iw_input w)) (popup_inner_at p at_)) = At row -> exists o, example_render u r symbol fill p w area b s = Some o.
Proof.
  intros P P' P2. unfold example_render, popup_render, popup_inner, input_draw. destruct (fill_render symbol fill area b) as [b1|]; [|eauto]. rewrite P, P'. destruct (popup_render_at u p at_ b1) as [b2|]; [|eauto]. rewrite P2. eauto.
Qed.
Definition drawn_by (s : input_state) (area : rect) (o : outcome (buffer * input_state)) : Prop :=
  example_render simple_uniseg demo_runs example_symbol example_fill example_popup (example_input simple_uniseg) area (blank area) s = Some o.
Lemma demo_ends s : exists o, drawn_by s (new_rect 20 5) o.
Proof.
  unfold drawn_by. apply (render_ends simple_uniseg demo_runs example_symbol example_fill example_popup (example_input simple_uniseg) (new_rect 20 5) (blank (new_rect 20 5)) s (Rect 4 1 12 3) (Rect 5 2 10 1)); vm_compute; reflexivity.
Qed.
Lemma demo_shows s area o : drawn_by s area o -> demo_view s area (blank area) = omap fst o.
Proof. unfold drawn_by. intros E. unfold demo_view, demo_draw. now rewrite E. Qed.
Lemma demo_leaves s W H b' s' : drawn_by s (new_rect W H) (Ret (b', s')) -> demo_redrawn s (W, H) = s'.
Proof. unfold drawn_by. intros E. unfold demo_redrawn, demo_draw. cbn [fst snd]. now rewrite E. Qed.
Lemma demo_program ds : input_program simple_uniseg ds example_symbol example_fill example_popup (example_input simple_uniseg) (fun size => In size [(20, 5)]) (example_update simple_uniseg ds) demo_redrawn demo_view.
Proof.
  constructor; [reflexivity|]. intros s W H [E|[]]. injection E as <- <-. destruct (demo_ends s) as [o X]. cbv zeta. exists demo_runs, o. split; [exact demo_runs_any|]. split; [exact X|]. split; [exact (demo_shows s (new_rect 20 5) o X)|].
  intros b' s' ->. exact (demo_leaves s 20 5 b' s' X).
Qed.
Definition hi_history : list S_Session.event := [EvDraw (live_view demo_view (Live new_input_state (20, 5) [])); EvDraw (live_view demo_view (Live two_typed (20, 5) []))].
(** The symbols of a row of the screen *)
Definition row_of_screen (b : buffer) (y : Z) : list (option str) := map (fun x => option_map csym (look b (Pos (Z.of_nat x) y))) (seq 0 20).
Example C101_instance t0 : t_attr t0 = default_attr -> t_w t0 = 20 -> t_h t0 = 5 -> exists s0 tm t b, start simple_uniseg te_id t0 = Some s0 /\ S_Session.run simple_uniseg te_id s0 hi_history = Some (tm, t) /\
  shows simple_uniseg te_id (t_cells t) b /\
  row_of_screen b 0 = map (fun c => Some [c]) (repeat 9586%N 20) /\
  row_of_screen b 1 = map (fun c => Some [c]) (repeat 9586 4 ++ [9487] ++ asc "Input" ++ repeat 9473 5 ++ [9491] ++ repeat 9586 4)%N /\
  row_of_screen b 2 = map (fun c => Some [c]) (repeat 9586 4 ++ [9475] ++ asc "> hi      " ++ [9475] ++ repeat 9586 4)%N /\
  row_of_screen b 3 = map (fun c => Some [c]) (repeat 9586 4 ++ [9495] ++ repeat 9473 10 ++ [9499] ++ repeat 9586 4)%N /\
  row_of_screen b 4 = map (fun c => Some [c]) (repeat 9586%N 20) /\
  option_map cmod (look b (Pos 9 2)) = Some ModifierReversed.
Proof.
  intros Ha Ew Eh.
  pose proof (C101_example_partial simple_uniseg te_id T_Frame.letter the_env letter_alphabet) as G.
  specialize (G ltac:(intros c I; vm_compute in I; repeat (destruct I as [<-|I]; [eexists; split; reflexivity|]); destruct I)).
  specialize (G [hi_msg] None (example_update simple_uniseg [hi_msg]) demo_redrawn demo_view t0 (State (PLoop (Live two_typed (20, 5) [])) [GCheck false; GListen; GHandler; GRead 1] false shown_modes 3 [EDraw; EUpdate (MUser 0); EAccepted (WInput 0) (MUser 0); EDraw]) hi_history (Live two_typed (20, 5) [])).
  cbv zeta in G. rewrite Ew, Eh in G. change (resizes hi_history) with (@nil (Z * Z)) in G.
  specialize (G (demo_program [hi_msg]) ltac:(intros d c [<-|[]] [<-|[<-|[]]]; eexists; split; reflexivity) ltac:(repeat (split; [discriminate|]); exact Logic.I)).
  assert (Rm : forall (size : Z * Z) k, In size [(20, 5)] -> 3 <= snd size /\ zlen (ed_clusters (edited (firstn k [hi_msg]))) + 5 <= rw (example_place size)).
  { intros size k [<-|[]]. split; [cbn; lia|]. assert (Q : firstn k [hi_msg] = [] \/ firstn k [hi_msg] = [hi_msg]) by (clear; destruct k as [|k]; [now left|right; now destruct k]). destruct Q as [-> | ->]; vm_compute; discriminate. }
  specialize (G Rm Ha ltac:(lia) ltac:(lia)).
  assert (Eu : live_update (example_update simple_uniseg [hi_msg]) demo_redrawn (Live new_input_state (20, 5) []) (MUser 0) = Some (Live two_typed (20, 5) [], None)) by (vm_compute; reflexivity).
  specialize (G (one_message (Live new_input_state (20, 5) []) (Live two_typed (20, 5) []) hi_msg (live_update (example_update simple_uniseg [hi_msg]) demo_redrawn) (live_view demo_view) Eu)).
  assert (So : sizes_ok hi_history) by (intros e [<-|[<-|[]]]; exact Logic.I).
  assert (To : told (20, 5) true hi_history = true) by reflexivity.
  specialize (G So).
  specialize (G eq_refl).
  specialize (G To).
  assert (Hi : forall w k, In (EAccepted w (MUser k)) (history (State (PLoop (Live two_typed (20, 5) [])) [GCheck false; GListen; GHandler; GRead 1] false shown_modes 3 [EDraw; EUpdate (MUser 0); EAccepted (WInput 0) (MUser 0); EDraw])) -> (k < Datatypes.length [hi_msg])%nat -> exists j, w = WInput j).
  { clear. intros w j [E|[E|[E|[E|[]]]]] _; try discriminate. injection E as <- <-. now exists 0%nat. }
  specialize (G Hi). clear Hi To So Eu Rm.
  destruct G as (k & _ & K & Et & _ & s0 & tm & t & b & B1 & B2 & _ & B3 & B4).
  exists s0, tm, t, b. split; [exact B1|]. split; [exact B2|]. split; [exact B3|].
  assert (Ek : firstn k [hi_msg] = [hi_msg]) by (clear - K; destruct k as [|k]; [discriminate K|now destruct k]). rewrite Ek in B4. clear K Ek Et B1 B2 B3.
  change (final_size (20, 5) hi_history) with (20, 5) in B4. cbn [fst snd] in B4.
  repeat split; unfold row_of_screen; cbn [seq map]; rewrite !B4 by (unfold inside; cbn; lia); vm_compute; reflexivity.
Qed.
End Instance.

(** ** Quitting *)
Lemma name_found t l s : M_Decode.name_of t l = Some s -> In (t, s) l.
Proof. induction l as [|[k x] l IH]; [discriminate|]. cbn [M_Decode.name_of]. destruct (Z.eqb_spec k t) as [->|_]; [intros [= ->]; now left|right; auto]. Qed.
Lemma ctrl_c_name t s : In (t, s) key_names -> s = asc "ctrl+c" -> t = KeyCtrlC.
Proof.
  intros I ->. assert (F : forallb (fun x => implb (bytes_eqb (snd x) (asc "ctrl+c")) (fst x =? KeyCtrlC)) key_names = true) by (vm_compute; reflexivity).
  rewrite forallb_forall in F. specialize (F _ I). cbn [fst snd] in F. change (bytes_eqb (asc "ctrl+c") (asc "ctrl+c")) with true in F. cbn [implb] in F. now apply Z.eqb_eq in F.
Qed.
(** The example asks to quit at a key message exactly if that is Ctrl+C, without Alt, and then it leaves its text alone; nothing else makes it ask for anything. *)
Theorem C101_quits u ds s x s' c : example_update u ds s x = Some (s', c) ->
  (c = None \/ c = Some (quit_cmd 0)) /\
  (c = Some (quit_cmd 0) <-> exists n k, x = MUser n /\ nth_error ds n = Some (KeyMsg k) /\ k_type k = KeyCtrlC /\ k_alt k = false) /\ (c <> None -> s' = s).
Proof.
  unfold example_update. destruct x as [| | |n| |]; try (intros [= <- <-]; split; [now left|]; split; [split; [discriminate|intros (n & k & E & _); discriminate]|congruence]).
  destruct (nth_error ds n) as [d|] eqn:D; [|intros [= <- <-]; split; [now left|]; split; [split; [discriminate|intros (n' & k & E & D' & _); injection E as <-; congruence]|congruence]].
  destruct (try_update u s d) as [[s1 [|]]|] eqn:U; [| |discriminate]; intros [= <- <-].
  - split; [now left|]. split; [|congruence]. split; [discriminate|]. intros (n' & k & E & D' & Kt & Ka). injection E as <-. rewrite D in D'. injection D' as ->. cbn [try_update] in U. unfold input_key_of in U. rewrite Kt in U. vm_compute in U. discriminate.
  - assert (Es : s1 = s).
    { destruct d as [k|m| | |m|m]; cbn [try_update] in U; try (now injection U). destruct (input_key_of k); cbn [is_update] in U; try discriminate; try (injection U; congruence).
      all: match type of U with (let! s := ?m in _) = _ => destruct m; cbn [bind] in U; discriminate end. }
    split; [destruct d as [k|m| | |m|m]; auto; destruct (bytes_eqb _ _); auto|]. split; [|intros _; exact Es].
    split.
    + intros Q. destruct d as [k|m| | |m|m]; try congruence. change (match bytes_eqb (key_string k) (asc "ctrl+c") with true => Some (quit_cmd 0) | false => None end = Some (quit_cmd 0)) in Q. destruct (bytes_eqb (key_string k) (asc "ctrl+c")) eqn:B; [|congruence]. exists n, k. split; [reflexivity|]. split; [exact D|].
      apply P_Decode.bytes_eqb_true in B. unfold key_string in B. destruct (Z.eqb_spec (k_type k) KeyRunes) as [Er|Er].
      { exfalso. cbn [try_update] in U. unfold input_key_of in U. rewrite Er in U. change (if KeyRunes =? KeyRunes then IKRunes (k_runes k) else if KeyRunes =? KeySpace then IKSpace (k_runes k) else IKOther) with (IKRunes (k_runes k)) in U. cbn -[is_append] in U. destruct (is_append u s (k_runes k)); discriminate. }
      destruct (M_Decode.name_of (k_type k) key_names) as [nm|] eqn:Nm; [|discriminate]. destruct (k_alt k); [discriminate B|]. cbn [app] in B. split; [|reflexivity]. exact (ctrl_c_name _ _ (name_found _ _ _ Nm) B).
    + intros (n' & k & E & D' & Kt & Ka). injection E as <-. rewrite D in D'. injection D' as ->. unfold key_string. rewrite Kt, Ka. vm_compute. reflexivity.
Qed.
Print Assumptions C101_quits.
Example C101_quits_instance : example_update simple_uniseg [KeyMsg (Key KeyCtrlC [] false false)] two_typed (MUser 0) = Some (two_typed, Some (quit_cmd 0)) /\
  example_update simple_uniseg [KeyMsg (Key KeyCtrlC [] true false)] two_typed (MUser 0) = Some (two_typed, None) /\
  example_update simple_uniseg [KeyMsg (Key KeyRunes (asc "ctrl+c") false false)] two_typed (MUser 0) <> Some (two_typed, Some (quit_cmd 0)).
Proof. split; [vm_compute; reflexivity|]. split; [vm_compute; reflexivity|]. vm_compute. discriminate. Qed.
