(** C102: the program of examples/list as it is in the repository, and when it quits. *)
From Verif Require Import S_Keys P_Decode T_Decode T_Stream T_AppRuns T_KeyName P_SetString T_Output.
From Verif Require Import M_Solver M_Layout T_Layout M_Rounded S_Rounded M_Popup T_Popup T_Percent M_View M_View64 T_View64.
From Verif Require Import Base P_Base M_Geom S_Geom T_Geom M_Style M_Uniseg M_Buffer S_Buffer S_Text P_Buffer T_Buffer M_Text S_Line P_Text T_Text M_Block S_Block P_Block T_Block M_Slice M_List P_List T_List S_Items T_Items T_Window M_Utf8 M_KeyTable M_Decode M_Reflow S_Reflow S_Paragraph T_Shown M_Widget M_Input M_Ansi P_Ansi M_Backend
  S_Terminal S_Ansi S_Display S_Command S_Session S_Frame P_Redraw T_Terminal P_Frame T_Frame M_Listing S_Listing T_Listing.
From Verif Require Import M_Cmd M_App P_App P_AppIds P_AppLog P_AppRun P_AppEnd T_App S_Joint T_Joint S_Stateful T_Stateful S_Typed T_Typed T_Sizes T_Listed S_Titles T_Titles M_Options M_Example S_Example T_Example T_ExampleRun M_ExampleList S_ExampleList T_ExampleList.
From Coq Require Import ZArith NArith String List Bool Lia.
Import ListNotations.
Open Scope Z_scope.
Local Arguments zlen : simpl never.

(** Where the example's popup is *)
Definition listing_place (size : Z * Z) : rect := Rect ((fst size - 30 + 1) / 2) ((snd size - 3 + 1) / 2) 30 3.
(** ** C102: float64 puts it there. *)
Theorem C102_place64 W H : 30 <= W -> 3 <= H -> int32 W -> int32 H -> @popup_found float64 code_tolerance listing_popup (W, H) (listing_place (W, H)).
Proof.
  intros HW HH IW IH.
  assert (Pk : forall k, pp_block listing_popup = Some k -> padded k) by (intros k [= <-]; unfold padded, nonneg_padding; cbn; lia).
  pose proof (C101_place64_partial listing_popup new_input W H 30 3 eq_refl eq_refl eq_refl ltac:(lia) ltac:(lia) IW IH ltac:(right; left; reflexivity) ltac:(right; left; reflexivity) Pk ltac:(discriminate)) as G.
  cbv zeta in G. change (pp_horizontal listing_popup) with FlexCenter in G. change (pp_vertical listing_popup) with FlexCenter in G. cbv iota in G. change (Rect ((W - 30 + 1) / 2) ((H - 3 + 1) / 2) 30 3) with (listing_place (W, H)) in G.
  assert (Ei : popup_inner_at listing_popup (listing_place (W, H)) = Rect ((W - 30 + 1) / 2 + 1) ((H - 3 + 1) / 2 + 1) 28 1).
  { unfold popup_inner_at, opt_block_inner. set (k := match pp_block listing_popup with Some k => k | None => new_block end). change (pp_block listing_popup) with (Some k). cbv iota. unfold block_inner. change (side_intersects (bk_borders k) SideLeft) with true. change (side_intersects (bk_borders k) SideTop) with true. change (side_intersects (bk_borders k) SideRight) with true. change (side_intersects (bk_borders k) SideBottom) with true. cbv iota zeta.
    unfold with_width, with_height, rright, rbottom, listing_place. cbn [fst snd]. change (bk_padding k) with (Padding 0 0 0 0). cbn [orb rx ry rw rh ptop pright pbottom pleft]. f_equal; lia. }
  rewrite Ei in G. specialize (G ltac:(cbn; lia) ltac:(cbn; lia)). destruct G as (G1 & G2 & _). split; assumption.
Qed.
Print Assumptions C102_place64.

(** The characters the example writes *)
Definition listing_chars : str := (asc "Item #Description0123456789List items> Hello, world!Popup" ++ [9581; 9582; 9584; 9583; 9474; 9472; 9487; 9491; 9495; 9499; 9475; 9473; 32])%N.
Definition the_popup_block : block := block_build [Block_WithBorderSides []; Block_Thick; Block_WithTitleStr (asc "Popup")] new_block.
Definition the_hello : line := new_line_str (asc "Hello, world!").
Lemma line_incl s x : In x (ln_spans (new_line_str s)) -> incl (sp_content x) s /\ sp_style x = new_style.
Proof.
  intros I. unfold new_line_str, new_line in I. cbn [ln_spans] in I. apply in_map_iff in I. destruct I as (p & <- & I). split; [|reflexivity]. cbn [new_span sp_content].
  unfold scan_lines in I. apply in_map_iff in I. destruct I as (r & <- & I). intros c Ic. apply drop_cr_sub in Ic. apply short_lines_sub in I. destruct (raw_lines_infix s [] r I) as (pre & post & E). cbn in E. rewrite E, !in_app_iff. auto.
Qed.
Lemma itoa_known c z : 0 <= z -> In c (itoa z) -> In c listing_chars.
Proof.
  intros Hz I. unfold itoa in I. destruct (Z.ltb_spec z 0); [lia|]. destruct (itoa_N_spec (Z.to_N z)) as (e & E & _ & Dg & _). rewrite E in I. specialize (Dg c I).
  unfold is_digit in Dg. apply andb_true_iff in Dg. destruct Dg as [D1 D2]. apply N.leb_le in D1, D2.
  assert (Q : (c = 48 \/ c = 49 \/ c = 50 \/ c = 51 \/ c = 52 \/ c = 53 \/ c = 54 \/ c = 55 \/ c = 56 \/ c = 57)%N) by lia. unfold listing_chars. repeat (destruct Q as [->|Q]; [vm_compute; tauto|]). subst c. vm_compute. tauto.
Qed.

Lemma viewed_same n ds room room' xs : forall v size coming, (forall z, In z (size :: coming) -> room z = room' z) -> viewed n ds room v size xs coming = viewed n ds room' v size xs coming.
Proof.
  induction xs as [|x xs IH]; intros v size coming E; [reflexivity|]. cbn [viewed]. rewrite <- (E size) by now left. destruct (next_size x size coming) as [size' coming'] eqn:Nx. apply IH.
  intros z I. apply E. unfold next_size in Nx. destruct x; try (injection Nx as <- <-; exact I). destruct coming as [|c0 r]; injection Nx as <- <-; [exact I|now right].
Qed.

Section Repository.
#[local] Existing Instance code_tolerance.
#[local] Existing Instance float64.
Variables (u : uniseg) (te : termenv) (A : str -> Prop).
Hypothesis (He : env_ok u te) (HA : alphabet u A) (Hex : forall c, In c listing_chars -> A [c]).
Hypothesis (Hblack : shown te (Some (ColAnsi 0)) <> None) (Hblue : shown te (Some (ColAnsi 4)) <> None).
Lemma known_drawn l : incl l listing_chars -> S_Frame.drawn u A l.
Proof. intros H s I. rewrite (of_chars u A HA) in I by (intros c J; apply Hex, H, J). apply in_map_iff in I. destruct I as (c & <- & I). apply Hex, H, I. Qed.
Ltac known := let c := fresh in let I := fresh in intros c I; vm_compute in I; repeat (destruct I as [<-|I]; [vm_compute; tauto|]); destruct I.
Lemma item_drawn i : 0 <= i -> text_drawn u te A (listing_item i).
Proof.
  intros Hi. assert (Sn : showable te new_style) by apply showable_new. split; [exact Sn|]. intros l [<-|[<-|[]]]; (split; [repeat split; discriminate|]); intros s Is.
  - apply line_incl in Is. destruct Is as [Is Es]. split; [|rewrite Es; exact Sn]. apply known_drawn. refine (incl_tran Is _). apply incl_app; [known|]. intros c I. exact (itoa_known c (i + 1) ltac:(lia) I).
  - apply line_incl in Is. destruct Is as [Is Es]. split; [|rewrite Es; exact Sn]. apply known_drawn. refine (incl_tran Is _). known.
Qed.

(** ** C102: the example with its popup, on a terminal of at all times at least thirty columns and four rows *)
Theorem C102_example_partial count ds init_cmd update redrawn view t0 s h v : let sizes := (t_w t0, t_h t0) :: resizes h in
  1 <= count <= M_Buffer.max_int - 8 -> (forall k, In (KeyMsg k) ds -> one_press k) ->
  list_program u ds (listing_list count) listing_popup listing_paragraph (fun size => In size sizes) update redrawn view ->
  (forall W H, In (W, H) sizes -> 30 <= W /\ 4 <= H /\ int32 W /\ int32 H) -> t_attr t0 = default_attr ->
  S_Joint.together (Live (Listing (ListState 0 None) false) (t_w t0, t_h t0) (resizes h)) init_cmd (live_update update redrawn) (numbered ds) (live_view view) s h -> sizes_ok h ->
  st_main s = PLoop v -> told (t_w t0, t_h t0) true h = true ->
  (forall w k, In (EAccepted w (MUser k)) (history s) -> (k < length ds)%nat -> exists j, w = WInput j) ->
  let size := final_size (t_w t0, t_h t0) h in let frame := new_rect (fst size) (snd size) in
  let room := fun size => (snd size - 2) / 2 in
  let plain := scrolls (room size) (viewed count ds room (Viewer 0 None false) (t_w t0, t_h t0) (updates (history s)) (resizes h)) in
  (exists s0 tm t b, start u te t0 = Some s0 /\ S_Session.run u te s0 h = Some (tm, t) /\ barea b = frame /\ S_Display.shows u te (t_cells t) b /\
    forall q, inside q frame -> look b q = Some (program_cell u (listing_list count) (listing_block count) 2 listing_popup the_popup_block listing_paragraph the_hello (listing_place size) frame plain q)) /\
  exists k, (k <= length ds)%nat /\ from_reader (history s) = firstn k (numbered ds) /\
    vw_selected plain = selection_after count (firstn k ds) /\ vw_popup plain = Nat.odd (length (filter space_bar (firstn k ds))).
Proof.
  intros sizes Hc One Lp Sz Ha T Hs Wt Td Own size frame room plain. assert (Sn : showable te new_style) by apply showable_new.
  assert (Hl : zlen (ls_items (listing_list count)) = count). { change (ls_items (listing_list count)) with (listing_items count). unfold listing_items, zlen. rewrite map_length, zrange_length. lia. }
  assert (Hit : forall t, In t (ls_items (listing_list count)) -> exists i, 0 <= i /\ t = listing_item i). { intros t I. apply in_map_iff in I. destruct I as (i & <- & I). apply zrange_In in I. exists i. split; [lia|reflexivity]. }
  assert (Pe : forall l, incl l listing_chars -> S_Frame.drawn u A l) by exact known_drawn.
  assert (Kd : block_drawn u te A (listing_block count)).
  { split; [exact Sn|]. split; [exact Sn|]. split; [exact Sn|]. split.
    - repeat (split; [apply Hex; vm_compute; tauto|]). apply Hex. vm_compute. tauto.
    - intros t [<-|[<-|[]]]; (split; [exact Sn|]); intros s1 Is; apply line_incl in Is; destruct Is as [Is Es]; (split; [|rewrite Es; exact Sn]); apply Pe; refine (incl_tran Is _); [known|]. apply incl_app; [|known]. intros c I. exact (itoa_known c count ltac:(lia) I). }
  assert (Pd : block_drawn u te A the_popup_block).
  { split; [exact Sn|]. split; [exact Sn|]. split; [exact Sn|]. split.
    - repeat (split; [apply Hex; vm_compute; tauto|]). apply Hex. vm_compute. tauto.
    - intros t [<-|[]]. split; [exact Sn|]. intros s1 Is. apply line_incl in Is. destruct Is as [Is Es]. split; [|rewrite Es; exact Sn]. apply Pe. refine (incl_tran Is _). known. }
  assert (Hi : showable te (ls_hl_style (listing_list count))). { split; [intros c [= <-]; exact Hblack|]. split; [intros c [= <-]; exact Hblue|]. split; reflexivity. }
  assert (Gd : text_drawn u te A (pg_text listing_paragraph)).
  { split; [exact Sn|]. intros l0 [<-|[]]. split; [exact Sn|]. intros s1 Is. apply line_incl in Is. destruct Is as [Is Es]. split; [|rewrite Es; exact Sn]. apply Pe. refine (incl_tran Is _). known. }
  assert (Hy : S_Frame.drawn u A (ls_hl_symbol (listing_list count))) by (apply Pe; change (ls_hl_symbol (listing_list count)) with (asc "> "%string); known).
  assert (Ht : forall t, In t (ls_items (listing_list count)) -> text_drawn u te A t) by (intros t I; destruct (Hit t I) as (i & Hi0 & ->); now apply item_drawn).
  assert (Hd : forall t, In t (ls_items (listing_list count)) -> text_height t = 2) by (intros t I; destruct (Hit t I) as (i & Hi0 & ->); reflexivity).
  assert (Hn : ls_items (listing_list count) <> []) by (intros E; rewrite E in Hl; change (zlen (@nil text)) with 0 in Hl; lia).
  assert (Np : nonneg_padding (bk_padding (listing_block count))) by (unfold nonneg_padding; cbn; lia).
  assert (Np' : nonneg_padding (bk_padding the_popup_block)) by (unfold nonneg_padding; cbn; lia).
  assert (Ei : forall W H, 2 <= W -> 2 <= H -> block_inner (listing_block count) (new_rect W H) = Rect 1 1 (W - 2) (H - 2)).
  { intros W H B1 B2. unfold block_inner. set (k := listing_block count). change (side_intersects (bk_borders k) SideLeft) with true. change (side_intersects (bk_borders k) SideTop) with true. change (side_intersects (bk_borders k) SideRight) with true. change (side_intersects (bk_borders k) SideBottom) with true. cbv iota zeta.
    unfold with_width, with_height, rright, rbottom, new_rect. change (bk_padding k) with (Padding 0 0 0 0). cbn [orb rx ry rw rh ptop pright pbottom pleft]. f_equal; lia. }
  assert (Ep : forall z, block_inner the_popup_block (listing_place z) = Rect (rx (listing_place z) + 1) (ry (listing_place z) + 1) 28 1).
  { intros z. unfold block_inner. set (k := the_popup_block). change (side_intersects (bk_borders k) SideLeft) with true. change (side_intersects (bk_borders k) SideTop) with true. change (side_intersects (bk_borders k) SideRight) with true. change (side_intersects (bk_borders k) SideBottom) with true. cbv iota zeta.
    unfold with_width, with_height, rright, rbottom, listing_place. change (bk_padding k) with (Padding 0 0 0 0). cbn [orb rx ry rw rh ptop pright pbottom pleft]. f_equal; lia. }
  assert (Wy : widths u (clusters u (ls_hl_symbol (listing_list count))) = 2).
  { change (ls_hl_symbol (listing_list count)) with (asc "> "%string). rewrite (of_chars u A HA) by (intros c I; apply Hex; revert c I; known). cbn. rewrite !(al_one u A HA) by (apply Hex; vm_compute; tauto). reflexivity. }
  assert (Wh : columns_of u (text_of u (pg_text listing_paragraph) the_hello) = 13).
  { assert (Ec : clusters u (asc "Hello, world!"%string) = map (fun c => [c]) (asc "Hello, world!"%string)) by (apply (of_chars u A HA); intros c I; apply Hex; revert c I; known).
    unfold text_of. change (ln_spans the_hello) with [new_span (asc "Hello, world!"%string)]. cbn [flat_map new_span sp_content]. rewrite Ec, app_nil_r. unfold columns_of. rewrite map_map. cbn [fst].
    replace (filter printable (map (fun c => [c]) (asc "Hello, world!"%string))) with (map (fun c : N => [c]) (asc "Hello, world!"%string)).
    - rewrite map_map, (map_ext_in _ (fun _ => 1)); [reflexivity|]. intros c I. apply (al_one u A HA), Hex. revert c I. known.
    - vm_compute. reflexivity. }
  assert (En : forall z, In z sizes -> enough u (listing_list count) (listing_block count) listing_popup the_popup_block listing_paragraph the_hello 2 listing_place z).
  { intros [W H] I. destruct (Sz W H I) as (S1 & S2 & S3 & S4). unfold enough. cbn [fst snd]. rewrite (Ei W H) by lia. rewrite Ep, Wy, Wh. cbn [rw rh]. split; [lia|]. split; [lia|]. split; [lia|]. split; [lia|]. split; [lia|]. split; [apply C102_place64; auto; lia|]. lia. }
  assert (Rs : forall z, In z sizes -> list_rows (listing_block count) 2 z = room z).
  { intros [W H] I. destruct (Sz W H I) as (S1 & S2 & _). unfold list_rows, room. cbn [fst snd]. rewrite (Ei W H) by lia. reflexivity. }
  assert (Ev : viewed count ds (list_rows (listing_block count) 2) (Viewer 0 None false) (t_w t0, t_h t0) (updates (history s)) (resizes h) = viewed count ds room (Viewer 0 None false) (t_w t0, t_h t0) (updates (history s)) (resizes h)) by (apply viewed_same; exact Rs).
  assert (Z0 : 0 <= t_w t0 /\ 0 <= t_h t0) by (destruct (Sz (t_w t0) (t_h t0) (or_introl eq_refl)) as (S1 & S2 & _); lia).
  assert (FS : In size sizes) by (apply size_in; exact Td).
  split.
  - pose proof (C102_screen_partial u te A He HA ds (listing_list count) (listing_block count) listing_popup the_popup_block listing_paragraph the_hello 2 eq_refl Kd Np Sn Hi Hy Ht Hd ltac:(lia) eq_refl eq_refl Hn ltac:(rewrite Hl; lia)
      eq_refl Pd Np' Sn Sn Gd eq_refl eq_refl ltac:(discriminate) eq_refl eq_refl One init_cmd update redrawn view listing_place t0 s h v) as G.
    cbv zeta in G. specialize (G Lp En Ha (proj1 Z0) (proj2 Z0) T Hs Wt Td). rewrite Hl, Ev in G. fold size in G. rewrite (Rs size FS) in G. exact G.
  - pose proof (C102_reads_partial u te A He HA ds (listing_list count) (listing_block count) listing_popup the_popup_block listing_paragraph the_hello 2 eq_refl Kd Np Sn Hi Hy Ht Hd ltac:(lia) eq_refl eq_refl Hn ltac:(rewrite Hl; lia)
      eq_refl Pd Np' Sn Sn Gd eq_refl eq_refl ltac:(discriminate) eq_refl eq_refl One init_cmd update redrawn view listing_place t0 s h v) as G.
    cbv zeta in G. specialize (G Lp En Ha (proj1 Z0) (proj2 Z0) T Hs Wt Td Own). rewrite Hl, Ev in G. exact G.
Qed.
End Repository.
Print Assumptions C102_example_partial.

(** *** An instance: on a terminal of thirty-four columns and eight rows the user presses Down four times and then the space bar. *)
Section Instance.
#[local] Existing Instance float64.
#[local] Existing Instance code_tolerance.
Lemma next_message {M : Type} (m0 m m' : M) (ds : list M_Decode.msg) up vw j c log h : (j < length ds)%nat -> up m (MUser j) = Some (m', None) ->
  together m0 None up (numbered ds) vw (State (PLoop m) [GCheck false; GListen; GHandler; GRead j] false shown_modes c log) h ->
  together m0 None up (numbered ds) vw (State (PLoop m') [GCheck false; GListen; GHandler; GRead (S j)] false shown_modes (S (S c)) (EDraw :: EUpdate (MUser j) :: EAccepted (WInput j) (MUser j) :: log)) (h ++ [EvDraw (vw m')]).
Proof.
  intros Lj Eup E.
  assert (Nj : nth_error (numbered ds) j = Some (MUser j)) by (unfold numbered; rewrite nth_error_map, (nth_error_nth' _ 0%nat) by (now rewrite seq_length); rewrite seq_nth by exact Lj; reflexivity).
  assert (F : together m0 None up (numbered ds) vw (State (PUpdate m (MUser j)) [GCheck false; GListen; GHandler; GRead (S j)] false shown_modes (S c) (EAccepted (WInput j) (MUser j) :: log)) (h ++ [])).
  { apply (t_step _ _ _ _ _ _ _ _ [] E (s_loop_msg _ m0 None up (numbered ds) m (GRead j) (WInput j) (MUser j) [GRead (S j)] [GCheck false; GListen; GHandler] [] false shown_modes c log (o_input (numbered ds) j (MUser j) Nj) ltac:(discriminate) ltac:(discriminate))). apply e_none; discriminate. }
  assert (G : together m0 None up (numbered ds) vw (State (PSendCmd m' None) [GCheck false; GListen; GHandler; GRead (S j)] false shown_modes (S (S c)) (EUpdate (MUser j) :: EAccepted (WInput j) (MUser j) :: log)) ((h ++ []) ++ [])).
  { apply (t_step _ _ _ _ _ _ _ _ [] F (s_update _ m0 None up (numbered ds) m (MUser j) m' None [GCheck false; GListen; GHandler; GRead (S j)] false shown_modes (S c) (EAccepted (WInput j) (MUser j) :: log) Eup)). apply e_none; discriminate. }
  assert (K : together m0 None up (numbered ds) vw (State (PDraw m') [GCheck false; GListen; GHandler; GRead (S j)] false shown_modes (S (S c)) (EUpdate (MUser j) :: EAccepted (WInput j) (MUser j) :: log)) (((h ++ []) ++ []) ++ [])).
  { apply (t_step _ _ _ _ _ _ _ _ [] G (s_send_nil _ m0 None up (numbered ds) m' [GCheck false; GListen] [GRead (S j)] false shown_modes (S (S c)) (EUpdate (MUser j) :: EAccepted (WInput j) (MUser j) :: log))). apply e_none; discriminate. }
  rewrite !app_nil_r in K. apply (t_step _ _ _ _ _ _ _ _ [EvDraw (vw m')] K (s_draw _ _ _ _ _ _ _ _ _ _ _)). apply e_draw; reflexivity.
Qed.
Lemma begun {M : Type} (m0 : M) (ds : list M_Decode.msg) up vw :
  together m0 None up (numbered ds) vw (State (PLoop m0) [GCheck false; GListen; GHandler; GRead 0] false shown_modes 1 [EDraw]) [EvDraw (vw m0)].
Proof.
  assert (B : together m0 None up (numbered ds) vw (State PDraw0 [] false shown_modes 1 []) []).
  { apply t_start; [|reflexivity]. eapply steps_step; [|exact (s_init _ m0 None up (numbered ds) [] false shown_modes 0 [])].
    eapply steps_step; [|exact (s_setup _ m0 None up (numbered ds) (OpAlt true) [] [] false (Modes true true false false) 0 [])].
    eapply steps_step; [|exact (s_setup _ m0 None up (numbered ds) (OpHide true) [OpAlt true] [] false (Modes true false false false) 0 [])].
    eapply steps_step; [|exact (s_setup _ m0 None up (numbered ds) (OpRaw true) [OpHide true; OpAlt true] [] false plain_modes 0 [])]. apply steps_refl. }
  assert (C : together m0 None up (numbered ds) vw (State PReader [] false shown_modes 1 [EDraw]) [EvDraw (vw m0)]).
  { apply (t_step _ _ _ _ _ _ _ [] [EvDraw (vw m0)] B (s_draw0 _ _ _ _ _ _ _ _ _ _)). apply e_draw; reflexivity. }
  assert (D : together m0 None up (numbered ds) vw (State PStart [GRead 0] false shown_modes 1 [EDraw]) [EvDraw (vw m0)]).
  { apply (t_step _ _ _ _ _ _ _ _ [] C (s_reader _ _ _ _ _ _ _ _ _ _)). apply e_none; discriminate. }
  apply (t_step _ _ _ _ _ _ _ _ [] D (s_start _ _ _ _ _ _ _ _ _ _)). apply e_none; discriminate.
Qed.
Definition five_keys : list M_Decode.msg := let down := KeyMsg (Key KeyDown [] false false) in [down; down; down; down; KeyMsg (Key KeySpace [32%N] false false)].
Definition list_runs : popup_runs := PopupRuns (a_run (LLen 3)) (a_run (LLen 30)) (a_run (LLen 3)) (a_run (LLen 30)).
Definition list_draw (m : listing) (area : rect) (b : buffer) : option (outcome (buffer * listing)) := listing_render simple_uniseg list_runs (listing_list 100) listing_popup listing_paragraph area b m.
Definition list_view (m : listing) : widget := fun area b => match list_draw m area b with Some o => omap fst o | None => Panic end.
Definition list_redrawn (m : listing) (size : Z * Z) : listing := match list_draw m (new_rect (fst size) (snd size)) (blank (new_rect (fst size) (snd size))) with Some (Ret (_, m')) => m' | _ => m end.
Lemma list_runs_any : any_popup_runs listing_popup list_runs.
Proof.
  pose proof (T_Layout.vars_for_ok (popup_rows listing_popup)) as V1. pose proof (T_Layout.vars_for_ok (popup_columns listing_popup)) as V2.
  split; [split; [apply keep_any|exact V1]|]. split; [split; [apply keep_any|exact V2]|]. split; [split; [apply keep_any|exact V1]|]. split; [apply keep_any|exact V2].
Qed.
Lemma listing_ends u r l p g area b m at_ : popup_area (pr_rows r) (pr_columns r) p area = At at_ -> popup_area (pr_rows' r) (pr_columns' r) p area = At at_ -> exists o, listing_render u r l p g area b m = Some o.
Proof.
  intros P P'. unfold listing_render, popup_render, popup_inner. destruct (list_render u l area b (li_list m)) as [[b1 s1]|]; [|eauto]. cbn [li_popup]. destruct (li_popup m); [|eauto]. rewrite P, P'. destruct (popup_render_at u p at_ b1) as [b2|]; eauto.
Qed.
Definition list_drawn_by (m : listing) (area : rect) (o : outcome (buffer * listing)) : Prop :=
  listing_render simple_uniseg list_runs (listing_list 100) listing_popup listing_paragraph area (blank area) m = Some o.
Lemma list_ends m : exists o, list_drawn_by m (new_rect 34 8) o.
Proof. unfold list_drawn_by. apply (listing_ends simple_uniseg list_runs (listing_list 100) listing_popup listing_paragraph (new_rect 34 8) (blank (new_rect 34 8)) m (Rect 2 3 30 3)); vm_compute; reflexivity. Qed.
Lemma list_shows m area o : list_drawn_by m area o -> list_view m area (blank area) = omap fst o.
Proof. unfold list_drawn_by. intros E. unfold list_view, list_draw. now rewrite E. Qed.
Lemma list_leaves m W H b' m' : list_drawn_by m (new_rect W H) (Ret (b', m')) -> list_redrawn m (W, H) = m'.
Proof. unfold list_drawn_by. intros E. unfold list_redrawn, list_draw. cbn [fst snd]. now rewrite E. Qed.
Lemma the_list_program ds : list_program simple_uniseg ds (listing_list 100) listing_popup listing_paragraph (fun size => In size [(34, 8)]) (listing_update ds) list_redrawn list_view.
Proof.
  constructor; [reflexivity|]. intros m W H [E|[]]. injection E as <- <-. destruct (list_ends m) as [o X]. cbv zeta. exists list_runs, o. split; [exact list_runs_any|]. split; [exact X|]. split; [exact (list_shows m (new_rect 34 8) o X)|].
  intros b' m' ->. exact (list_leaves m 34 8 b' m' X).
Qed.
Definition seen (first : Z) (sel : option Z) (pop : bool) : live listing := Live (Listing (ListState first sel) pop) (34, 8) [].
Definition list_history : list S_Session.event :=
  map (fun v => EvDraw (live_view list_view v)) [seen 0 None false; seen 0 (Some 0) false; seen 0 (Some 1) false; seen 0 (Some 2) false; seen 0 (Some 3) false; seen 1 (Some 3) true].
Definition list_log : list event := Eval cbn in flat_map (fun j => [EDraw; EUpdate (MUser j); EAccepted (WInput j) (MUser j)]) [4; 3; 2; 1; 0]%nat ++ [EDraw].
Definition list_state_now : state (live listing) := State (PLoop (seen 1 (Some 3) true)) [GCheck false; GListen; GHandler; GRead 5] false shown_modes 11 list_log.
Lemma list_together : together (seen 0 None false) None (live_update (listing_update five_keys) list_redrawn) (numbered five_keys) (live_view list_view) list_state_now list_history.
Proof.
  pose proof (begun (seen 0 None false) five_keys (live_update (listing_update five_keys) list_redrawn) (live_view list_view)) as G.
  assert (U1 : live_update (listing_update five_keys) list_redrawn (seen 0 None false) (MUser 0) = Some (seen 0 (Some 0) false, None)) by (vm_compute; reflexivity).
  assert (U2 : live_update (listing_update five_keys) list_redrawn (seen 0 (Some 0) false) (MUser 1) = Some (seen 0 (Some 1) false, None)) by (vm_compute; reflexivity).
  assert (U3 : live_update (listing_update five_keys) list_redrawn (seen 0 (Some 1) false) (MUser 2) = Some (seen 0 (Some 2) false, None)) by (vm_compute; reflexivity).
  assert (U4 : live_update (listing_update five_keys) list_redrawn (seen 0 (Some 2) false) (MUser 3) = Some (seen 0 (Some 3) false, None)) by (vm_compute; reflexivity).
  assert (U5 : live_update (listing_update five_keys) list_redrawn (seen 0 (Some 3) false) (MUser 4) = Some (seen 1 (Some 3) true, None)) by (vm_compute; reflexivity).
  assert (L : forall j, (j < 5)%nat -> (j < length five_keys)%nat) by (intros j Lj; exact Lj).
  apply (next_message (seen 0 None false) _ _ five_keys _ _ 0 _ _ _ (L 0%nat ltac:(lia)) U1) in G. apply (next_message (seen 0 None false) _ _ five_keys _ _ 1 _ _ _ (L 1%nat ltac:(lia)) U2) in G. apply (next_message (seen 0 None false) _ _ five_keys _ _ 2 _ _ _ (L 2%nat ltac:(lia)) U3) in G. apply (next_message (seen 0 None false) _ _ five_keys _ _ 3 _ _ _ (L 3%nat ltac:(lia)) U4) in G. apply (next_message (seen 0 None false) _ _ five_keys _ _ 4 _ _ _ (L 4%nat ltac:(lia)) U5) in G. exact G.
Qed.
(** The symbols of a row of the screen *)
Definition row_shown (b : buffer) (y : Z) : list (option str) := map (fun x => option_map csym (look b (Pos (Z.of_nat x) y))) (seq 0 34).
Definition sym_row (s : str) : list (option str) := map (fun c => Some [c]) s.
Example C102_instance t0 : t_attr t0 = default_attr -> t_w t0 = 34 -> t_h t0 = 8 -> exists s0 tm t b, start simple_uniseg te_id t0 = Some s0 /\ S_Session.run simple_uniseg te_id s0 list_history = Some (tm, t) /\
  S_Display.shows simple_uniseg te_id (t_cells t) b /\
  row_shown b 0 = sym_row ([9581] ++ asc "List" ++ repeat 9472 28 ++ [9582])%N /\
  row_shown b 1 = sym_row ([9474] ++ asc "  Item #2" ++ repeat 32 23 ++ [9474])%N /\
  row_shown b 2 = sym_row ([9474] ++ asc "  Description" ++ repeat 32 19 ++ [9474])%N /\
  row_shown b 3 = sym_row ([9474; 32; 9487] ++ asc "Popup" ++ repeat 9473 23 ++ [9491; 32; 9474])%N /\
  row_shown b 4 = sym_row ([9474; 32; 9475] ++ repeat 32 8 ++ asc "Hello, world!" ++ repeat 32 7 ++ [9475; 32; 9474])%N /\
  row_shown b 5 = sym_row ([9474; 62; 9495] ++ repeat 9473 28 ++ [9499; 32; 9474])%N /\
  row_shown b 6 = sym_row ([9474] ++ asc "  Description" ++ repeat 32 19 ++ [9474])%N /\
  row_shown b 7 = sym_row ([9584] ++ repeat 9472 23 ++ asc "100 items" ++ [9583])%N /\
  look b (Pos 5 6) = Some (Cell (asc "s") (Some (ColAnsi 0)) (Some (ColAnsi 4)) (ModifierDim + ModifierItalic)%N false).
Proof.
  intros Ha Ew Eh.
  pose proof (C102_example_partial simple_uniseg te_id T_Frame.letter the_env letter_alphabet) as G.
  specialize (G ltac:(intros c I; vm_compute in I; repeat (destruct I as [<-|I]; [eexists; split; reflexivity|]); destruct I) ltac:(discriminate) ltac:(discriminate)).
  specialize (G 100 five_keys None (listing_update five_keys) list_redrawn list_view t0 list_state_now list_history (seen 1 (Some 3) true)).
  cbv zeta in G. rewrite Ew, Eh in G. change (resizes list_history) with (@nil (Z * Z)) in G.
  assert (H1 : 1 <= 100 <= M_Buffer.max_int - 8) by (vm_compute; split; discriminate).
  assert (H2 : forall k, In (KeyMsg k) five_keys -> one_press k).
  { intros k I. assert (Q : k = Key KeyDown [] false false \/ k = Key KeySpace [32%N] false false) by (clear - I; cbn in I; intuition congruence). destruct Q as [-> | ->]; [apply (press_named KeyDown false)|apply (press_named KeySpace false)]; try discriminate; vm_compute; tauto. }
  assert (H3 : forall W H, In (W, H) [(34, 8)] -> 30 <= W /\ 4 <= H /\ int32 W /\ int32 H) by (intros W H [E|[]]; injection E as <- <-; unfold int32; lia).
  assert (H4 : sizes_ok list_history) by (intros e I; apply in_map_iff in I; destruct I as (x & <- & _); exact Logic.I).
  assert (H5 : forall w k, In (EAccepted w (MUser k)) (history list_state_now) -> (k < length five_keys)%nat -> exists j, w = WInput j).
  { intros w j I _. vm_compute in I. repeat (destruct I as [I|I]; [try discriminate I; injection I as <- _; now eexists|]). destruct I. }
  specialize (G H1 H2 (the_list_program five_keys) H3 Ha list_together H4 eq_refl eq_refl H5). clear H1 H2 H3 H4 H5.
  destruct G as ((s0 & tm & t & b & B1 & B2 & _ & B3 & B4) & _).
  exists s0, tm, t, b. split; [exact B1|]. split; [exact B2|]. split; [exact B3|].
  change (final_size (34, 8) list_history) with (34, 8) in B4. cbn [fst snd] in B4. change (updates (history list_state_now)) with [MUser 0; MUser 1; MUser 2; MUser 3; MUser 4] in B4.
  repeat split; unfold row_shown; cbn [seq map]; rewrite !B4 by (unfold inside; cbn; lia); vm_compute; reflexivity.
Qed.
End Instance.

(** ** Quitting *)
(** The example asks to quit at a key message exactly if that is the letter q or Ctrl+C, typed without Alt, and then it leaves the list and the popup alone; nothing
    else makes it ask for anything. The keys are those the input decoder makes (C45). *)
Definition asks_to_quit (k : key) : Prop := k = Key KeyRunes (asc "q") false false \/ (k_type k = KeyCtrlC /\ k_alt k = false).
Theorem C102_quits ds m x m' c : (forall k, In (KeyMsg k) ds -> one_press k) -> listing_update ds m x = Some (m', c) ->
  (c = None \/ c = Some (quit_cmd 0)) /\ (c = Some (quit_cmd 0) <-> exists j k, x = MUser j /\ nth_error ds j = Some (KeyMsg k) /\ asks_to_quit k) /\ (c <> None -> m' = m).
Proof.
  intros One. unfold listing_update.
  assert (Not : forall x0 : M_Cmd.msg, (forall j k, x0 = MUser j -> nth_error ds j <> Some (KeyMsg k)) -> Some (m, @None cmd) = Some (m', c) ->
    (c = None \/ c = Some (quit_cmd 0)) /\ (c = Some (quit_cmd 0) <-> exists j k, x0 = MUser j /\ nth_error ds j = Some (KeyMsg k) /\ asks_to_quit k) /\ (c <> None -> m' = m)).
  { intros x0 N0 E. injection E as <- <-. split; [now left|]. split; [|congruence]. split; [discriminate|]. intros (j & k & E1 & E2 & _). destruct (N0 j k E1 E2). }
  destruct x as [| | |j| |]; try (apply Not; discriminate).
  destruct (nth_error ds j) as [e|] eqn:Ej; [|apply Not; intros i k E; injection E as <-; congruence].
  destruct e as [k| | | | |]; try (intros E; apply (Not (MUser j)); [intros i k E'; injection E' as <-; congruence|]; cbn in E; destruct m; exact E).
  pose proof (One k (nth_error_In _ _ Ej)) as Pk.
  assert (Q : asks_to_quit k <-> bytes_eqb (key_string k) (asc "q") || bytes_eqb (key_string k) (asc "ctrl+c") = true).
  { rewrite orb_true_iff. rewrite !P_Decode.bytes_eqb_true. split.
    - intros [->|[Kt Ka]]; [left; reflexivity|right]. unfold key_string. rewrite Kt, Ka. vm_compute. reflexivity.
    - intros [E|E]; [left|right].
      + assert (Pq : one_press (Key KeyRunes (asc "q") false false)) by (apply (press_char 113%N false); [reflexivity|discriminate]). apply C45_names_partial; auto.
      + assert (Pc : one_press (Key KeyCtrlC [] false false)) by (apply (press_named KeyCtrlC false); [vm_compute; tauto|discriminate]). assert (k = Key KeyCtrlC [] false false) as -> by (apply C45_names_partial; auto). split; reflexivity. }
  cbn [list_try_update].
  assert (Iff : forall c', (c' = Some (quit_cmd 0) <-> asks_to_quit k) -> (c' = Some (quit_cmd 0) <-> exists i k0, MUser j = MUser i /\ nth_error ds i = Some (KeyMsg k0) /\ asks_to_quit k0)).
  { intros c' H. rewrite H. split; [intros Aq; exists j, k; auto|]. intros (i & k0 & E & E' & Aq). injection E as <-. rewrite Ej in E'. injection E' as ->. exact Aq. }
  destruct (list_key_of k) eqn:Lk.
  9: { cbn [st_update li_popup]. cbv zeta. destruct (bytes_eqb (key_string k) (asc " ")) eqn:Sp.
    { intros E. injection E as <- <-. split; [now left|]. split; [|congruence]. apply Iff. rewrite Q. apply P_Decode.bytes_eqb_true in Sp. rewrite Sp. split; discriminate. }
    destruct (_ || _) eqn:Dq; intros E; injection E as <- <-.
    - split; [now right|]. split; [apply Iff; rewrite Q; tauto|]. intros _. destruct m; reflexivity.
    - split; [now left|]. split; [apply Iff; rewrite Q; split; discriminate|congruence]. }
  all: assert (Nq : bytes_eqb (key_string k) (asc "q") || bytes_eqb (key_string k) (asc "ctrl+c") = false)
    by (clear - Lk; apply not_true_is_false; rewrite orb_true_iff, !P_Decode.bytes_eqb_true; intros [E|E]; unfold list_key_of in Lk; rewrite E in Lk; vm_compute in Lk; discriminate).
  all: match goal with |- context [st_update ?a ?b] => destruct (st_update a b) as [s1 known] eqn:Es; assert (known = true) as -> by (cbn [st_update] in Es; congruence) end.
  all: intros E; injection E as <- <-; (split; [now left|]); (split; [|congruence]); apply Iff; rewrite Q, Nq; split; discriminate.
Qed.
Print Assumptions C102_quits.
Example C102_quits_instance : let m := Listing (ListState 2 (Some 4)) true in
  listing_update [KeyMsg (Key KeyRunes (asc "q") false false)] m (MUser 0) = Some (m, Some (quit_cmd 0)) /\ listing_update [KeyMsg (Key KeyCtrlC [] false false)] m (MUser 0) = Some (m, Some (quit_cmd 0)) /\
  listing_update [KeyMsg (Key KeyRunes (asc "q") true false)] m (MUser 0) = Some (m, None) /\ listing_update [KeyMsg (Key KeyRunes (asc "q") false true)] m (MUser 0) = Some (m, None) /\
  one_press (Key KeyRunes (asc "q") true false) /\ one_press (Key KeyRunes (asc "q") false true).
Proof. do 4 (split; [vm_compute; reflexivity|]). split; [apply (press_char 113%N true); [reflexivity|discriminate]|apply press_paste; repeat constructor]. Qed.
