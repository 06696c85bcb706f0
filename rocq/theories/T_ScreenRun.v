(** C102: what the running program of examples/list shows, letter by letter. *)
From Verif Require Import S_Keys P_Decode T_Decode T_Stream T_AppRuns T_KeyName P_SetString T_Output.
From Verif Require Import M_Solver M_Layout T_Layout M_Rounded S_Rounded M_Popup T_Popup T_Percent M_View M_View64 T_View64.
From Verif Require Import Base P_Base M_Geom S_Geom T_Geom M_Style M_Uniseg M_Buffer S_Buffer S_Text P_Buffer T_Buffer M_Text S_Line P_Text T_Text M_Block S_Block P_Block T_Block M_Slice M_List P_List T_List S_Items T_Items T_Window M_Utf8 M_KeyTable M_Decode M_Reflow S_Reflow S_Paragraph T_Shown M_Widget M_Input M_Ansi P_Ansi M_Backend
  S_Terminal S_Ansi S_Display S_Command S_Session S_Frame P_Redraw T_Terminal P_Frame T_Frame M_Listing S_Listing T_Listing.
From Verif Require Import M_Cmd M_App P_App P_AppIds P_AppLog P_AppRun P_AppEnd T_App S_Joint T_Joint S_Stateful T_Stateful S_Typed T_Typed T_Sizes T_Listed S_Titles T_Titles M_Options M_Example S_Example T_Example T_ExampleRun M_ExampleList S_ExampleList T_ExampleList T_ExampleListRun S_Screen T_Screen.
From Coq Require Import ZArith NArith String List Bool Lia.
Import ListNotations.
Open Scope Z_scope.

(** The first item in view and the selected one are items. *)
Definition counted (v : viewer) : Prop := 0 <= vw_first v /\ forall s, vw_selected v = Some s -> 0 <= s.
Lemma scrolls_counted k v : counted v -> counted (scrolls k v).
Proof.
  intros [F S1]. split; [|exact S1]. unfold scrolls. cbv zeta. cbn [vw_first]. destruct (vw_selected v) as [s|] eqn:E; [|exact F]. specialize (S1 s eq_refl). destruct (Z.ltb_spec s (vw_first v)); [exact S1|]. destruct (Z.leb_spec (vw_first v + k) s); lia.
Qed.
Lemma handles_counted n d v : 1 <= n -> counted v -> counted (handles n d v).
Proof.
  intros Hn [F S1]. split; [exact F|]. unfold handles. cbn [vw_selected]. intros s E. unfold S_Listing.pressed, S_Listing.moved in E. destruct d as [[ty rs [|] [|]]| | | | |]; try (now apply S1).
  cbv zeta in E. repeat match type of E with (if ?b then _ else _) = _ => destruct b end; try (injection E as <-; lia); now apply S1.
Qed.
Lemma viewed_counted n ds room xs : 1 <= n -> forall v size coming, counted v -> counted (viewed n ds room v size xs coming).
Proof.
  intros Hn. induction xs as [|x xs IH]; intros v size coming C; [exact C|]. cbn [viewed]. destruct (next_size x size coming). apply IH. apply (scrolls_counted (room size)) in C. destruct x; try exact C. destruct (nth_error ds _); [now apply handles_counted|exact C].
Qed.

Section Running.
#[local] Existing Instance code_tolerance.
#[local] Existing Instance float64.
Variables (u : uniseg) (te : termenv) (A : str -> Prop).
Hypothesis (He : env_ok u te) (HA : alphabet u A) (Hex : forall c, In c listing_chars -> A [c]).
Hypothesis (Hblack : shown te (Some (ColAnsi 0)) <> None) (Hblue : shown te (Some (ColAnsi 4)) <> None).
(** ** C102: whatever happened, the terminal shows that screen. *)
Theorem C102_letters_partial count ds init_cmd update redrawn view t0 s h v : let sizes := (t_w t0, t_h t0) :: resizes h in
  1 <= count <= M_Buffer.max_int - 8 -> (forall k, In (KeyMsg k) ds -> one_press k) ->
  list_program u ds (listing_list count) listing_popup listing_paragraph (fun size => In size sizes) update redrawn view ->
  (forall W H, In (W, H) sizes -> 30 <= W /\ 4 <= H /\ int32 W /\ int32 H) -> t_attr t0 = default_attr ->
  S_Joint.together (Live (Listing (ListState 0 None) false) (t_w t0, t_h t0) (resizes h)) init_cmd (live_update update redrawn) (numbered ds) (live_view view) s h -> sizes_ok h ->
  st_main s = PLoop v -> told (t_w t0, t_h t0) true h = true ->
  (forall w k, In (EAccepted w (MUser k)) (history s) -> (k < length ds)%nat -> exists j, w = WInput j) ->
  let size := final_size (t_w t0, t_h t0) h in
  let room := fun size => (snd size - 2) / 2 in
  let plain := scrolls (room size) (viewed count ds room (Viewer 0 None false) (t_w t0, t_h t0) (updates (history s)) (resizes h)) in
  exists s0 tm t b, start u te t0 = Some s0 /\ S_Session.run u te s0 h = Some (tm, t) /\ barea b = new_rect (fst size) (snd size) /\ S_Display.shows u te (t_cells t) b /\
    forall q, inside q (barea b) -> look b q = Some (list_screen count (fst size) (snd size) plain (px q) (py q)).
Proof.
  intros sizes Hc One Lp Sz Ha T Hs Wt Td Own size room plain.
  destruct (C102_example_partial u te A He HA Hex Hblack Hblue count ds init_cmd update redrawn view t0 s h v Hc One Lp Sz Ha T Hs Wt Td Own) as ((s0 & tm & t & b & B1 & B2 & B3 & B4 & B5) & _).
  exists s0, tm, t, b. split; [exact B1|]. split; [exact B2|]. split; [exact B3|]. split; [exact B4|]. intros q Iq. fold size in B3, B5. fold plain in B5. rewrite B3 in Iq. rewrite (B5 q Iq). f_equal.
  assert (In size sizes) as Is by (apply size_in; exact Td). destruct size as [W H] eqn:E. destruct (Sz W H Is) as (HW & HH & _). cbn [fst snd] in *.
  apply (C102_screen u A HA Hex); try assumption.
  assert (C : counted plain); [|exact (proj1 C)]. apply scrolls_counted, viewed_counted; [lia|]. split; [cbn; lia|discriminate].
Qed.
End Running.
Print Assumptions C102_letters_partial.
(** The screen of C102_instance, whose run meets the hypotheses: 34 columns and 8 rows, the items from the second on, the fourth selected, the popup shown *)
Example C102_letters_instance : let row y := map (fun x => csym (list_screen 100 34 8 (Viewer 1 (Some 3) true) (Z.of_nat x) y)) (seq 0 34) in let word s := map (fun c : N => [c]) s in
  row 0 = word ([9581] ++ asc "List" ++ repeat 9472 28 ++ [9582])%N /\ row 1 = word ([9474] ++ asc "  Item #2" ++ repeat 32 23 ++ [9474])%N /\ row 2 = word ([9474] ++ asc "  Description" ++ repeat 32 19 ++ [9474])%N /\
  row 3 = word ([9474; 32; 9487] ++ asc "Popup" ++ repeat 9473 23 ++ [9491; 32; 9474])%N /\ row 4 = word ([9474; 32; 9475] ++ repeat 32 8 ++ asc "Hello, world!" ++ repeat 32 7 ++ [9475; 32; 9474])%N /\
  row 5 = word ([9474; 62; 9495] ++ repeat 9473 28 ++ [9499; 32; 9474])%N /\ row 7 = word ([9584] ++ repeat 9472 23 ++ asc "100 items" ++ [9583])%N /\
  list_screen 100 34 8 (Viewer 1 (Some 3) true) 5 6 = Cell (asc "s") (Some (ColAnsi 0)) (Some (ColAnsi 4)) (ModifierDim + ModifierItalic)%N false /\
  list_screen 100 34 8 (Viewer 1 (Some 3) false) 5 6 = list_screen 100 34 8 (Viewer 1 (Some 3) true) 5 6.
Proof. vm_compute. repeat split. Qed.
