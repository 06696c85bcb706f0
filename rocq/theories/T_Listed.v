(** C96 (continued): the list of a running program follows the keys and shows what it selects. *)
From Verif Require Import T_Decode T_Stream T_AppRuns T_KeyName P_SetString T_Output.
From Verif Require Import Base P_Base M_Geom S_Geom M_Style M_Uniseg M_Buffer S_Buffer M_Text M_Block M_Slice M_List M_Utf8 M_KeyTable M_Decode M_Listing M_Ansi M_Backend
  S_Terminal S_Ansi S_Display S_Command S_Session S_Frame P_Redraw P_Block T_Block P_List T_List T_KeyName T_Terminal P_Frame T_Frame S_Listing T_Listing.
From Verif Require Import M_Cmd M_App P_App P_AppIds P_AppLog P_AppRun P_AppEnd T_App S_Joint T_Joint S_Stateful T_Stateful S_Typed T_Typed.
From Coq Require Import ZArith NArith List Bool Lia.
Import ListNotations.
Open Scope Z_scope.

Section Program.
Context {M : Type}.
Variables (u : uniseg) (te : termenv) (A : str -> Prop).
Hypothesis (He : env_ok u te) (HA : alphabet u A).
Variable m0 : M.
Variable init_cmd : option cmd.
Variable update : M -> M_Cmd.msg -> option (M * option cmd).
Variable redrawn : M -> Z * Z -> M.
Variable view : M -> widget.
Variable ds : list M_Decode.msg.
Variable l : lst.
Variable place : rect -> rect.
Variable before : M -> widget.
Variable state_of : M -> list_state.
Hypothesis Hl : has_list u ds l place before state_of update redrawn view.
(** The list is made of drawable parts, and is put into a part of the frame. *)
Hypothesis (Hk : boxed_drawn u te A (ls_block l)) (Hr : roomy (ls_block l)) (Hst : showable te (ls_style l)) (Hh : showable te (ls_hl_style l)) (Hy : S_Frame.drawn u A (ls_hl_symbol l))
  (Ht : forall t, In t (ls_items l) -> text_drawn u te A t) (Hp : 0 <= ls_padding l) (Hf : part_of place) (Hb : forall m, placed u te A (before m)).
(** It has items, and each key message is one press. *)
Hypothesis (Hn : ls_items l <> []) (Hmax : zlen (ls_items l) <= M_Buffer.max_int - 8).
Hypothesis Hone : forall k, In (KeyMsg k) ds -> one_press k.
Let n := zlen (ls_items l).
Let Hu := env_uniseg _ _ He.

Lemma items_pos : 0 < n.
Proof. unfold n. destruct (ls_items l) as [|t r]; [contradiction|]. rewrite zlen_cons. pose proof (zlen_nonneg r). lia. Qed.
Lemma frame_sized w h : 0 <= w -> 0 <= h -> sized (new_rect w h).
Proof. intros. split; auto. Qed.
(** Drawing the list in a frame. *)
Lemma renders m w h b : usable (state_of m) -> 0 <= w -> 0 <= h -> wf_buffer b -> barea b = new_rect w h ->
  exists b' s', list_render u l (place (new_rect w h)) b (state_of m) = Ret (b', s') /\ s' = state_of (redrawn m (w, h)) /\ usable s' /\
    (has_room l place (w, h) -> st_selected s' = selects n (state_of m) /\
     forall i item, st_selected s' = Some i -> nth_error (ls_items l) (Z.to_nat i) = Some item -> text_height item <= rh (opt_block_inner (ls_block l) (place (new_rect w h))) ->
       0 <= st_offset s' <= i /\
       let row := item_row (ls_dir l) (opt_block_inner (ls_block l) (place (new_rect w h))) (zsum (map text_height (slice (ls_items l) (st_offset s') i))) (text_height item) in
       (forall p, inside p row -> inside p (opt_block_inner (ls_block l) (place (new_rect w h)))) /\ (forall p, inside p row -> exists c, look b' p = Some (cell_set_style (ls_hl_style l) c))).
Proof.
  intros [U1 U2] Hw Hh' W Ea. destruct (Hf (new_rect w h) (frame_sized w h Hw Hh') ltac:(cbn; lia)) as (F1 & F2 & F3).
  destruct (C23_list_render u l (place (new_rect w h)) b (state_of m) Hu W F1 F2) as (b' & s' & E & _ & R); auto.
  - destruct (ls_block l); [now apply Hr|exact Logic.I].
  - now rewrite Ea.
  - left. now apply (drawn_narrow u A HA).
  - left. apply (drawn_narrow u A HA), (drawn_spaces u A HA).
  - exists b', s'. split; [exact E|]. split; [symmetry; eapply (hl_drawn _ _ _ _ _ _ _ _ _ Hl); [split; eassumption|exact Hw|exact Hh'|exact E]|]. split.
    + eapply (offset_ok u l); [split; eassumption|exact Hp| |exact E]. destruct (ls_block l) as [k|]; [apply block_inner_sized|exact F1].
    + intros [R1 R2]. apply R; auto.
Qed.
(** The model about to be drawn selects [sel]. *)
Definition selecting (m : M) (sel : option Z) : Prop := usable (state_of m) /\ selects n (state_of m) = sel.
Lemma drawn_selecting m sel w h : selecting m sel -> 0 <= w -> 0 <= h -> has_room l place (w, h) ->
  usable (state_of (redrawn m (w, h))) /\ st_selected (state_of (redrawn m (w, h))) = sel /\ forall i, sel = Some i -> 0 <= i < n.
Proof.
  intros [U S] Hw Hh' Rm. destruct (renders m w h (blank (new_rect w h)) U Hw Hh' (wf_blank w h Hw Hh') eq_refl) as (b' & s' & _ & -> & U' & R). destruct (R Rm) as [R1 _]. split; [exact U'|]. split; [congruence|].
  intros i Ei. rewrite <- S in Ei. unfold selects in Ei. destruct (st_selected (state_of m)) as [j|] eqn:Ej; [|discriminate]. cbn in Ei. injection Ei as <-. pose proof (proj2 U j Ej). pose proof items_pos. lia.
Qed.
Lemma selections tk : forall m size coming m' z sel, selecting m sel ->
  (forall w k, In (w, MUser k) tk -> (k < length ds)%nat -> exists j, w = WInput j) -> (forall k x, In (WInput k, x) tk -> nth_error (numbered ds) k = Some x) ->
  (forall w h, In (w, h) (size :: coming) -> 0 <= w /\ 0 <= h /\ has_room l place (w, h)) ->
  lived update redrawn m size (filter for_model (map snd tk)) coming = Some (m', z) -> selecting m' (fold_left (fun sel d => pressed n d sel) (read_from ds tk) sel).
Proof.
  induction tk as [|[w x] tk IH]; intros m size coming m' z sel G H1 H2 H3 E; [cbn in E; injection E as <- _; exact G|].
  assert (I1 : forall w k, In (w, MUser k) tk -> (k < length ds)%nat -> exists j, w = WInput j) by (intros; eapply H1; [right; eassumption|assumption]). assert (I2 : forall k x, In (WInput k, x) tk -> nth_error (numbered ds) k = Some x) by (intros; apply H2; now right).
  cbn [map snd filter] in E. unfold read_from. cbn [flat_map]. rewrite fold_left_app. fold (read_from ds tk).
  destruct size as [sw sh]. destruct (H3 sw sh (or_introl eq_refl)) as (Z1 & Z2 & Rm). destruct (drawn_selecting m sel sw sh G Z1 Z2 Rm) as (U & S & Rg).
  assert (Sz : forall size' coming', next_size x (sw, sh) coming = (size', coming') -> forall w h, In (w, h) (size' :: coming') -> 0 <= w /\ 0 <= h /\ has_room l place (w, h)).
  { intros size' coming' Nx a b I. apply H3. unfold next_size in Nx. destruct x; try (injection Nx as <- <-; exact I). destruct coming as [|c r]; injection Nx as <- <-; [exact I|now right]. }
  assert (Other : (forall k, x = MUser k -> (length ds <= k)%nat) -> selecting m' (fold_left (fun sel d => pressed n d sel) (read_from ds tk) sel)).
  { intros Ot. destruct (for_model x) eqn:Fm; [|eapply IH; eassumption]. cbn [lived] in E. destruct (update (redrawn m (sw, sh)) x) as [[m1 c]|] eqn:Eu; [|discriminate]. destruct (next_size x (sw, sh) coming) as [size' coming'] eqn:Nx.
    eapply IH; [|exact I1|exact I2|exact (Sz _ _ eq_refl)|exact E]. pose proof (hl_other _ _ _ _ _ _ _ _ _ Hl _ _ _ _ Ot Eu) as Es. unfold selecting. rewrite Es. split; [exact U|]. unfold selects. rewrite S. destruct sel as [i|]; [|reflexivity]. cbn. f_equal. specialize (Rg i eq_refl). lia. }
  destruct w as [k| | |].
  - pose proof (H2 k x (or_introl eq_refl)) as Hx. apply numbered_at in Hx. destruct Hx as [-> Lk]. cbn [for_model lived] in E. destruct (update (redrawn m (sw, sh)) (MUser k)) as [[m1 c]|] eqn:Eu; [|discriminate]. cbn [next_size] in E.
    destruct (nth_error ds k) as [d|] eqn:Ed; [|apply nth_error_None in Ed; lia]. cbn [fold_left]. eapply IH; [|exact I1|exact I2|exact H3|exact E].
    pose proof (hl_key _ _ _ _ _ _ _ _ _ Hl _ _ _ _ _ Ed Eu) as Es. unfold selecting. rewrite Es. split; [now apply usable_key|]. pose proof items_pos.
    destruct d as [key| | | | |]; try (cbn [list_try_update fst pressed]; unfold selects; rewrite S; destruct sel as [i|]; [|reflexivity]; cbn; f_equal; specialize (Rg i eq_refl); lia).
    rewrite (press_moves n); [now rewrite S|apply Hone; eapply nth_error_In; exact Ed|unfold n in *; lia|intros i Ei; apply Rg; congruence].
  - apply Other. intros k ->. destruct (Nat.le_gt_cases (length ds) k) as [L|L]; [exact L|]. destruct (H1 _ k (or_introl eq_refl) L) as [? Y]; discriminate.
  - apply Other. intros k ->. destruct (Nat.le_gt_cases (length ds) k) as [L|L]; [exact L|]. destruct (H1 _ k (or_introl eq_refl) L) as [? Y]; discriminate.
  - apply Other. intros k ->. destruct (Nat.le_gt_cases (length ds) k) as [L|L]; [exact L|]. destruct (H1 _ k (or_introl eq_refl) L) as [? Y]; discriminate.
Qed.
Lemma view_good m : usable (state_of m) -> good_widget u te (view m).
Proof.
  intros [U1 U2] w h Hw Hh'.
  assert (P : placed u te A (fun area b => let! b := before m area b in (fun area b => let! (b, _) := list_render u l (place area) b (state_of m) in Ret b) area b)).
  { apply placed_then; [apply Hb|]. apply (placed_part _ _ _ place (fun area b => let! (b, _) := list_render u l area b (state_of m) in Ret b) Hf). now apply placed_list. }
  destruct (C89_view u te A He HA _ P w h Hw Hh') as (b & E & R). exists b. split; [|exact R]. rewrite (hl_view _ _ _ _ _ _ _ _ _ Hl). exact E.
Qed.
(** ** C96: Whenever such a program waits for a message, knowing the terminal's size, its list selects what the keys read so far, one by one, select in a
    plain list, and the selected item stands highlighted on the screen, whole, if it fits. *)
Theorem C96_follows_partial t0 s h v : t_attr t0 = default_attr -> 0 <= t_w t0 -> 0 <= t_h t0 -> state_of m0 = ListState 0 None ->
  S_Joint.together (Live m0 (t_w t0, t_h t0) (resizes h)) init_cmd (live_update update redrawn) (numbered ds) (live_view view) s h -> sizes_ok h ->
  st_main s = PLoop v -> told (t_w t0, t_h t0) true h = true ->
  (forall size, In size ((t_w t0, t_h t0) :: resizes h) -> has_room l place size) ->
  (forall w k, In (EAccepted w (MUser k)) (history s) -> (k < length ds)%nat -> exists j, w = WInput j) ->
  let (W, H) := final_size (t_w t0, t_h t0) h in
  let room := opt_block_inner (ls_block l) (place (new_rect W H)) in
  exists k, (k <= length ds)%nat /\ from_reader (history s) = firstn k (numbered ds) /\
  let sel := selection_after (zlen (ls_items l)) (firstn k ds) in
  selects (zlen (ls_items l)) (state_of (lv_model v)) = sel /\
  exists s0 tm t b, start u te t0 = Some s0 /\ S_Session.run u te s0 h = Some (tm, t) /\ barea b = new_rect W H /\ shows u te (t_cells t) b /\
    forall i item, sel = Some i -> nth_error (ls_items l) (Z.to_nat i) = Some item -> text_height item <= rh room ->
      exists first, 0 <= first <= i /\
      let row := item_row (ls_dir l) room (zsum (map text_height (slice (ls_items l) first i))) (text_height item) in
      (forall p, inside p row -> inside p room) /\ (forall p, inside p row -> exists c, look b p = Some (cell_set_style (ls_hl_style l) c)).
Proof.
  intros Ha HW HH E0 T Hs Wt Td Rm Own.
  set (v0 := Live m0 (t_w t0, t_h t0) (resizes h)) in *.
  destruct (C95_screen m0 init_cmd update redrawn (numbered ds) view (fun m => usable (state_of m)) u te t0 s h v He) as (Eu & El & Uv & s0 & tm & t & b & B1 & B2 & B3 & B4 & B5); auto.
  { rewrite E0. split; [cbn; lia|discriminate]. }
  { intros m w ht x m' c Um Zw Zh E. destruct (renders m w ht (blank (new_rect w ht)) Um Zw Zh (wf_blank w ht Zw Zh) eq_refl) as (b' & s' & _ & -> & U' & _).
    assert (D : (exists k d, x = MUser k /\ nth_error ds k = Some d) \/ forall k, x = MUser k -> (length ds <= k)%nat).
    { destruct x as [| | |k| |]; try (right; intros; discriminate). destruct (nth_error ds k) as [d|] eqn:Ed; [left; eauto|right]. intros j [= <-]. now apply nth_error_None. }
    destruct D as [(k & d & -> & Ed)|Ot].
    - rewrite (hl_key _ _ _ _ _ _ _ _ _ Hl _ _ _ _ _ Ed E). now apply usable_key.
    - now rewrite (hl_other _ _ _ _ _ _ _ _ _ Hl _ _ _ _ Ot E). }
  { intros m Um. now apply view_good. }
  pose proof (together_reachable _ _ _ _ _ s h T) as R. set (up := live_update update redrawn) in *.
  destruct (C46_reader_order v0 init_cmd up (numbered ds) s R) as (k & K).
  assert (Ln : length (numbered ds) = length ds) by (unfold numbered; now rewrite map_length, seq_length).
  assert (K' : from_reader (history s) = firstn (Nat.min k (length ds)) (numbered ds)) by (rewrite K; destruct (Nat.le_gt_cases k (length ds)); [now rewrite Nat.min_l by lia|rewrite Nat.min_r by lia; rewrite !firstn_all2 by lia; reflexivity]).
  assert (Or : forall k x, In (WInput k, x) (taken (history s)) -> nth_error (numbered ds) k = Some x).
  { intros j x I. unfold taken in I. apply in_flat_map in I. destruct I as (e & I & J). apply in_split in I. destruct I as (h1 & h2 & Eh). destruct e as [| |w y| | | | | |]; try contradiction. destruct J as [J|[]]. injection J as -> ->. exact (C46_origin v0 init_cmd up (numbered ds) s h1 _ _ h2 R Eh). }
  assert (Nz : forall w ht, In (w, ht) ((t_w t0, t_h t0) :: resizes h) -> 0 <= w /\ 0 <= ht /\ has_room l place (w, ht)).
  { intros w ht I. assert (0 <= w /\ 0 <= ht); [|split; [tauto|split; [tauto|now apply Rm]]]. destruct I as [[= <- <-]|I]; [auto|]. unfold resizes in I. apply in_flat_map in I. destruct I as (e & I & J). specialize (Hs e I). destruct e; try contradiction. destruct J as [[= <- <-]|[]]. exact Hs. }
  rewrite <- Eu in El.
  assert (S0 : selecting m0 None) by (split; [rewrite E0; split; [cbn; lia|discriminate]|now rewrite E0]).
  pose proof (selections (taken (history s)) m0 (t_w t0, t_h t0) (resizes h) (lv_model v) (final_size (t_w t0, t_h t0) h) None S0) as Se. specialize (Se ltac:(intros w j I L; apply (Own w j); [|exact L]; unfold taken in I; apply in_flat_map in I; destruct I as (e & I & J); destruct e as [| |w' y| | | | | |]; try contradiction; destruct J as [J|[]]; injection J as -> ->; exact I) Or Nz El).
  destruct (final_size (t_w t0, t_h t0) h) as [W H] eqn:Fz.
  exists (Nat.min k (length ds)). split; [lia|]. split; [exact K'|].
  rewrite (read_reader ds (history s) Or _ (Nat.le_min_r _ _) K') in Se. fold (selection_after n (firstn (Nat.min k (length ds)) ds)) in Se. destruct Se as [Us Se]. split; [exact Se|].
  exists s0, tm, t, b. split; [exact B1|]. split; [exact B2|]. split; [exact B4|]. split; [exact B5|].
  (* the frame *)
  assert (Last : (W, H) = last (resizes h) (t_w t0, t_h t0)) by (rewrite <- Fz; symmetry; apply (told_last h _ true); auto).
  assert (Zs : In (W, H) ((t_w t0, t_h t0) :: resizes h)). { rewrite Last. clear. generalize (t_w t0, t_h t0). induction (resizes h) as [|c r IH]; intros d; [now left|]. rewrite last_cons. right. apply IH. }
  destruct (Nz W H Zs) as (ZW & ZH & RmF). cbn zeta beta in B3. rewrite (hl_view _ _ _ _ _ _ _ _ _ Hl) in B3.
  destruct (placed_returns u te A He HA (before (lv_model v)) (Hb (lv_model v)) (new_rect W H) (blank (new_rect W H)) (wf_blank W H ZW ZH)) as (b1 & E1 & W1 & A1); [now split|cbn; lia|auto|]. rewrite E1 in B3. cbn [bind] in B3.
  destruct (renders (lv_model v) W H b1 Us ZW ZH W1 A1) as (b' & s' & Er & _ & _ & Rr). rewrite Er in B3. cbn [bind] in B3. injection B3 as <-. destruct (Rr RmF) as [Es Rows].
  intros i item Ei Hi Hfit. rewrite Se in Es. exists (st_offset s'). apply (Rows i item); [rewrite Es; exact Ei|exact Hi|exact Hfit].
Qed.
End Program.
Print Assumptions C96_follows_partial.

(** ** C96 is false of characters that are read together: typed quickly, j and j do nothing, while in two reads they move the selection twice. *)
Theorem C96_together_refuted : exists one j, read_inputs the_seqs the_sizes [] [encode [106; 106]%N] = Ret ([one], []) /\ read_inputs the_seqs the_sizes [] [encode [106]%N; encode [106]%N] = Ret ([j; j], []) /\
  forall n s, 1 < n <= M_Buffer.max_int - 8 -> usable s -> st_selected s = None ->
    selects n (fst (list_try_update s (snd one))) = None /\ selects n (fst (list_try_update (fst (list_try_update s (snd j))) (snd j))) = Some 1 /\ selection_after n (map snd [j; j]) = Some 1.
Proof.
  exists (encode [106; 106]%N, KeyMsg (Key KeyRunes [106; 106]%N false false)), (encode [106]%N, KeyMsg (Key KeyRunes [106]%N false false)).
  split; [vm_compute; reflexivity|]. split; [vm_compute; reflexivity|]. intros n s Hn _ E. cbn [snd map].
  assert (K1 : list_key_of (Key KeyRunes [106; 106]%N false false) = KOther) by (vm_compute; reflexivity). assert (K2 : list_key_of (Key KeyRunes [106]%N false false) = KJ) by (vm_compute; reflexivity).
  cbn [list_try_update]. rewrite K1, K2. cbn [st_update fst]. unfold selects, st_select_next, st_select. cbn [st_selected st_offset]. rewrite E. cbn [option_map]. split; [reflexivity|]. split.
  - change (Z.max 0 0) with 0. rewrite wrap64_id by (unfold is_int, min_int, M_Buffer.max_int; lia). cbn [option_map]. f_equal. lia.
  - unfold selection_after. cbn [fold_left]. assert (P : forall sel, pressed n (KeyMsg (Key KeyRunes [106]%N false false)) sel = moved n 1 (match sel with Some j => j | None => -1 end)) by (intros; reflexivity). rewrite P, P. unfold moved. f_equal. lia.
Qed.
(** It is false as well while the list has no room: it is not told where the end is, so that moving down from the last item goes to the first one. *)
Theorem C96_no_room_refuted : exists u l b b' s, list_render u l (new_rect 9 0) b (st_select_last (ListState 0 None)) = Ret (b', s) /\ zlen (ls_items l) = 2 /\
  let G := KeyMsg (Key KeyRunes [71]%N false false) in let j := KeyMsg (Key KeyRunes [106]%N false false) in
  fst (list_try_update (ListState 0 None) G) = st_select_last (ListState 0 None) /\ selects 2 (fst (list_try_update s j)) = Some 0 /\ selection_after 2 [G; j] = Some 1.
Proof.
  exists simple_uniseg, (the_list true), (blank (new_rect 9 0)). eexists. eexists. split; [vm_compute; reflexivity|]. split; [reflexivity|]. cbv zeta. split; [vm_compute; reflexivity|]. split; vm_compute; reflexivity.
Qed.
Print Assumptions C96_together_refuted.
Print Assumptions C96_no_room_refuted.

(** *** An instance: the user presses the arrow down in a program that shows a list and nothing else. *)
Definition down_msg : M_Decode.msg := KeyMsg (Key KeyDown [] false false).
Definition demo_update (s : list_state) (x : M_Cmd.msg) : option (list_state * option cmd) := Some (match x with MUser 0 => fst (list_try_update s down_msg) | _ => s end, None).
Definition demo_redrawn (s : list_state) (size : Z * Z) : list_state :=
  match list_render simple_uniseg (the_list true) (new_rect (fst size) (snd size)) (blank (new_rect (fst size) (snd size))) s with Ret (_, s') => s' | Panic => s end.
Definition demo_before (s : list_state) : widget := fun _ b => Ret b.
Definition demo_view (s : list_state) : widget := fun area b => let! b := demo_before s area b in let! (b, _) := list_render simple_uniseg (the_list true) area b s in Ret b.
Definition demo_start : live list_state := Live (ListState 0 None) (9, 4) [].
Definition demo_end : live list_state := Live (ListState 0 (Some 0)) (9, 4) [].
Definition demo_state : state (live list_state) := State (PLoop demo_end) [GCheck false; GListen; GHandler; GRead 1] false shown_modes 3 [EDraw; EUpdate (MUser 0); EAccepted (WInput 0) (MUser 0); EDraw].
Definition demo_history : list S_Session.event := [EvDraw (live_view demo_view demo_start); EvDraw (live_view demo_view demo_end)].
Lemma demo_together : together demo_start None (live_update demo_update demo_redrawn) (numbered [down_msg]) (live_view demo_view) demo_state demo_history.
Proof.
  set (up := live_update demo_update demo_redrawn). set (vw := live_view demo_view).
  assert (B : together demo_start None up (numbered [down_msg]) vw (State PDraw0 [] false shown_modes 1 []) []).
  { apply t_start; [|reflexivity]. eapply steps_step; [|exact (s_init _ demo_start None up (numbered [down_msg]) [] false shown_modes 0 [])].
    eapply steps_step; [|exact (s_setup _ demo_start None up (numbered [down_msg]) (OpAlt true) [] [] false (Modes true true false false) 0 [])].
    eapply steps_step; [|exact (s_setup _ demo_start None up (numbered [down_msg]) (OpHide true) [OpAlt true] [] false (Modes true false false false) 0 [])].
    eapply steps_step; [|exact (s_setup _ demo_start None up (numbered [down_msg]) (OpRaw true) [OpHide true; OpAlt true] [] false plain_modes 0 [])]. apply steps_refl. }
  assert (C : together demo_start None up (numbered [down_msg]) vw (State PReader [] false shown_modes 1 [EDraw]) [EvDraw (vw demo_start)]).
  { apply (t_step _ _ _ _ _ _ _ [] [EvDraw (vw demo_start)] B (s_draw0 _ _ _ _ _ _ _ _ _ _)). apply e_draw; reflexivity. }
  assert (D : together demo_start None up (numbered [down_msg]) vw (State PStart [GRead 0] false shown_modes 1 [EDraw]) [EvDraw (vw demo_start)]).
  { apply (t_step _ _ _ _ _ _ _ _ [] C (s_reader _ _ _ _ _ _ _ _ _ _)). apply e_none; discriminate. }
  assert (E : together demo_start None up (numbered [down_msg]) vw (State (PLoop demo_start) [GCheck false; GListen; GHandler; GRead 0] false shown_modes 1 [EDraw]) [EvDraw (vw demo_start)]).
  { apply (t_step _ _ _ _ _ _ _ _ [] D (s_start _ _ _ _ _ _ _ _ _ _)). apply e_none; discriminate. }
  assert (F : together demo_start None up (numbered [down_msg]) vw (State (PUpdate demo_start (MUser 0)) [GCheck false; GListen; GHandler; GRead 1] false shown_modes 2 [EAccepted (WInput 0) (MUser 0); EDraw]) [EvDraw (vw demo_start)]).
  { apply (t_step _ _ _ _ _ _ _ _ [] E (s_loop_msg _ demo_start None up (numbered [down_msg]) demo_start (GRead 0) (WInput 0) (MUser 0) [GRead 1] [GCheck false; GListen; GHandler] [] false shown_modes 1 [EDraw] (o_input (numbered [down_msg]) 0 (MUser 0) eq_refl) ltac:(discriminate) ltac:(discriminate))). apply e_none; discriminate. }
  assert (G : together demo_start None up (numbered [down_msg]) vw (State (PSendCmd demo_end None) [GCheck false; GListen; GHandler; GRead 1] false shown_modes 3 [EUpdate (MUser 0); EAccepted (WInput 0) (MUser 0); EDraw]) [EvDraw (vw demo_start)]).
  { apply (t_step _ _ _ _ _ _ _ _ [] F (s_update _ demo_start None up (numbered [down_msg]) demo_start (MUser 0) demo_end None [GCheck false; GListen; GHandler; GRead 1] false shown_modes 2 [EAccepted (WInput 0) (MUser 0); EDraw] ltac:(vm_compute; reflexivity))). apply e_none; discriminate. }
  assert (K : together demo_start None up (numbered [down_msg]) vw (State (PDraw demo_end) [GCheck false; GListen; GHandler; GRead 1] false shown_modes 3 [EUpdate (MUser 0); EAccepted (WInput 0) (MUser 0); EDraw]) [EvDraw (vw demo_start)]).
  { apply (t_step _ _ _ _ _ _ _ _ [] G (s_send_nil _ demo_start None up (numbered [down_msg]) demo_end [GCheck false; GListen] [GRead 1] false shown_modes 3 [EUpdate (MUser 0); EAccepted (WInput 0) (MUser 0); EDraw])). apply e_none; discriminate. }
  apply (t_step _ _ _ _ _ _ _ _ [EvDraw (vw demo_end)] K (s_draw _ _ _ _ _ _ _ _ _ _ _)). apply e_draw; reflexivity.
Qed.
Example C96_instance : has_list simple_uniseg [down_msg] (the_list true) (fun r => r) demo_before (fun s => s) demo_update demo_redrawn demo_view /\
  part_of (fun r => r) /\ (forall k, In (KeyMsg k) [down_msg] -> one_press k) /\
  together (Live (ListState 0 None) (9, 4) (resizes demo_history)) None (live_update demo_update demo_redrawn) (numbered [down_msg]) (live_view demo_view) demo_state demo_history /\
  st_main demo_state = PLoop demo_end /\ told (9, 4) true demo_history = true /\ has_room (the_list true) (fun r => r) (9, 4) /\ selection_after 2 [down_msg] = Some 0 /\ selects 2 (lv_model demo_end) = Some 0.
Proof.
  split; [|split; [intros area Hs Hx; auto|split; [|split; [exact demo_together|split; [reflexivity|split; [reflexivity|split; [split; reflexivity|split; reflexivity]]]]]]].
  - constructor.
    + intros m n d m' c Hd E. destruct n as [|[|n]]; try discriminate. injection Hd as <-. unfold demo_update in E. injection E as <- _. reflexivity.
    + intros m x m' c Ot E. unfold demo_update in E. injection E as <- _. destruct x as [| | |[|k]| |]; try reflexivity. specialize (Ot 0%nat eq_refl). cbn in Ot. lia.
    + reflexivity.
    + intros m w h b b' s' [U1 U2] Hw Hh E. unfold demo_redrawn. cbn [fst snd].
      destruct (C23_list_render simple_uniseg (the_list true) (new_rect w h) (blank (new_rect w h)) m simple_uniseg_ok (wf_blank w h Hw Hh)) as (b0 & s0 & E0 & _); try (split; assumption); try (cbn; lia); auto.
      * left. intros c I. vm_compute in I. intuition (subst; reflexivity).
      * left. intros c I. vm_compute in I. intuition (subst; reflexivity).
      * rewrite E0. eapply same_state; [exact E0|exact E].
  - intros k [E|[]]. injection E as <-. apply (press_ctrl KeyDown). cbn. tauto.
Qed.
(** What C95 and C96 say of it, on any terminal of nine cells by four: the first item stands on the screen in reverse. *)
Lemma demo_meets : has_list simple_uniseg [down_msg] (the_list true) (fun r => r) demo_before (fun s => s) demo_update demo_redrawn demo_view. Proof. apply C96_instance. Qed.
Example C96_shown t0 : t_attr t0 = default_attr -> t_w t0 = 9 -> t_h t0 = 4 -> exists s0 tm t b, start simple_uniseg te_id t0 = Some s0 /\ S_Session.run simple_uniseg te_id s0 demo_history = Some (tm, t) /\
  shows simple_uniseg te_id (t_cells t) b /\ forall p, inside p (Rect 0 0 9 1) -> exists c, look b p = Some (cell_set_style (reversed new_style) c).
Proof.
  intros Ha Ew Eh. assert (Sn : showable te_id new_style) by apply showable_new. pose proof C96_instance as (_ & Pf & One & _).
  pose proof (C96_follows_partial simple_uniseg te_id T_Frame.letter the_env letter_alphabet (ListState 0 None) None demo_update demo_redrawn demo_view [down_msg] (the_list true) (fun r => r) demo_before (fun s => s) demo_meets) as G.
  specialize (G ltac:(discriminate) ltac:(discriminate) Sn).
  specialize (G ltac:(apply Sn) ltac:(chars) ltac:(intros t [<-|[<-|[]]]; (split; [apply Sn|]); intros l [<-|[]]; (split; [apply Sn|]); intros s [<-|[]]; (split; [|apply Sn]); chars) ltac:(cbn; lia) Pf (fun _ => placed_nothing _ _ _) ltac:(discriminate) ltac:(vm_compute; discriminate) One).
  specialize (G t0 demo_state demo_history demo_end). rewrite Ew, Eh in G. specialize (G Ha ltac:(lia) ltac:(lia) eq_refl demo_together).
  destruct G as (k & _ & K & _ & s0 & tm & t & b & E1 & E2 & _ & E3 & R); try reflexivity.
  - intros e [<-|[<-|[]]]; exact Logic.I.
  - intros size [<-|[]]. split; reflexivity.
  - intros w j [E|[E|[E|[E|[]]]]] _; try discriminate. injection E as <- <-. eauto.
  - exists s0, tm, t, b. split; [exact E1|]. split; [exact E2|]. split; [exact E3|]. cbn in K. destruct k as [|k]; [discriminate|].
    replace (selection_after _ _) with (Some 0) in R by (rewrite firstn_all2 by (cbn; lia); reflexivity). destruct (R 0 (new_text_str [111; 110]%N) eq_refl eq_refl) as (first & F & _ & Rr); [cbn; lia|]. replace first with 0 in Rr by lia. exact Rr.
Qed.
Example C95_instance t0 : t_attr t0 = default_attr -> t_w t0 = 9 -> t_h t0 = 4 ->
  lived demo_update demo_redrawn (ListState 0 None) (9, 4) [MUser 0] [] = Some (ListState 0 (Some 0), (9, 4)) /\
  exists s0 tm t b, start simple_uniseg te_id t0 = Some s0 /\ S_Session.run simple_uniseg te_id s0 demo_history = Some (tm, t) /\
    demo_view (ListState 0 (Some 0)) (new_rect 9 4) (blank (new_rect 9 4)) = Ret b /\ shows simple_uniseg te_id (t_cells t) b.
Proof.
  intros Ha Ew Eh. split; [vm_compute; reflexivity|]. assert (Sn : showable te_id new_style) by apply showable_new.
  assert (Pl : forall m, usable m -> placed simple_uniseg te_id T_Frame.letter (demo_view m)).
  { intros m [U1 U2]. apply (placed_then _ _ _ (demo_before m) (fun area b => let! (b, _) := list_render simple_uniseg (the_list true) area b m in Ret b)); [apply placed_nothing|].
    apply placed_list; try discriminate; try apply Sn; try (cbn; lia); auto; [chars|]. intros t [<-|[<-|[]]]; (split; [apply Sn|]); intros l [<-|[]]; (split; [apply Sn|]); intros s [<-|[]]; (split; [|apply Sn]); chars. }
  destruct (C95_screen (ListState 0 None) None demo_update demo_redrawn (numbered [down_msg]) demo_view usable simple_uniseg te_id t0 demo_state demo_history demo_end the_env) as (_ & _ & _ & s0 & tm & t & b & B1 & B2 & B3 & _ & B5); auto.
  - split; [cbn; lia|discriminate].
  - intros m w ht x m' c Um Hw Hh E. unfold demo_update in E. injection E as <- _.
    assert (U : usable (demo_redrawn m (w, ht))).
    { destruct (renders simple_uniseg te_id T_Frame.letter the_env letter_alphabet demo_update demo_redrawn demo_view [down_msg] (the_list true) (fun r => r) demo_before (fun s => s) demo_meets
        ltac:(discriminate) ltac:(discriminate) ltac:(chars) ltac:(cbn; lia) ltac:(intros area H1 H2; auto) ltac:(discriminate) m w ht (blank (new_rect w ht)) Um Hw Hh (wf_blank w ht Hw Hh) eq_refl) as (b' & s' & _ & -> & U' & _). exact U'. }
    destruct x as [| | |[|k]| |]; auto. exact (usable_key _ down_msg U).
  - intros m Um w ht Hw Hh. exact (C89_view simple_uniseg te_id T_Frame.letter the_env letter_alphabet _ (Pl m Um) w ht Hw Hh).
  - rewrite Ew. lia.
  - rewrite Eh. lia.
  - rewrite Ew, Eh. exact demo_together.
  - intros e [<-|[<-|[]]]; exact Logic.I.
  - exists s0, tm, t, b. rewrite Ew, Eh in B3. auto.
Qed.
