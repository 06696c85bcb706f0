(** C81: the names of mouse events. *)
From Verif Require Import Base P_Base M_Utf8 M_KeyTable M_Decode S_Keys S_Mouse P_Decode T_Decode T_Mouse M_Windows M_MouseName.
From Coq Require Import ZArith NArith String List Bool Lia.
Import ListNotations.
Open Scope Z_scope.
Local Open Scope list_scope.

(** The events a terminal reports: those of S_Mouse.v, and the release of a button that is not named. *)
Definition reportable (m : mouse) : Prop := event m \/ (m_button m = ButtonNone /\ m_action m = ActionRelease).
(** They are the same but for the place. *)
Definition same_but_place (m m' : mouse) : Prop := m_shift m = m_shift m' /\ m_alt m = m_alt m' /\ m_ctrl m = m_ctrl m' /\ m_action m = m_action m' /\ m_button m = m_button m'.

Definition booleans : list bool := [false; true].
Definition shapes : list mouse :=
  flat_map (fun s => flat_map (fun a => flat_map (fun c => map (fun ab => Mouse 0 0 s a c (fst ab) (snd ab))
    (map (pair ActionPress) [1; 2; 3; 4; 5; 6; 7; 8; 9; 10; 11] ++ map (pair ActionRelease) [0; 1; 2; 3; 8; 9; 10; 11] ++ map (pair ActionMotion) [0; 1; 2; 3; 8; 9; 10; 11])) booleans) booleans) booleans.
Lemma shape_In m : reportable m -> In (Mouse 0 0 (m_shift m) (m_alt m) (m_ctrl m) (m_action m) (m_button m)) shapes.
Proof.
  intros H. assert (C : In (m_action m, m_button m) (map (pair ActionPress) [1; 2; 3; 4; 5; 6; 7; 8; 9; 10; 11] ++ map (pair ActionRelease) [0; 1; 2; 3; 8; 9; 10; 11] ++ map (pair ActionMotion) [0; 1; 2; 3; 8; 9; 10; 11])).
  { destruct H as [(A & B & W & N)|(-> & ->)]; [|vm_compute; tauto].
    assert (Ha : m_action m = 0 \/ m_action m = 1 \/ m_action m = 2) by lia. assert (Hb : m_button m = 0 \/ m_button m = 1 \/ m_button m = 2 \/ m_button m = 3 \/ m_button m = 4 \/ m_button m = 5 \/ m_button m = 6 \/ m_button m = 7 \/ m_button m = 8 \/ m_button m = 9 \/ m_button m = 10 \/ m_button m = 11) by lia.
    destruct Ha as [Ha|[Ha|Ha]]; rewrite Ha in *; repeat (destruct Hb as [Hb|Hb]; [rewrite Hb in *|]); try rewrite Hb in *; try (specialize (W eq_refl); discriminate W); try (specialize (N eq_refl); discriminate N); vm_compute; tauto. }
  unfold shapes. apply in_flat_map. exists (m_shift m). split; [destruct (m_shift m); cbn; tauto|]. apply in_flat_map. exists (m_alt m). split; [destruct (m_alt m); cbn; tauto|]. apply in_flat_map. exists (m_ctrl m). split; [destruct (m_ctrl m); cbn; tauto|].
  apply in_map_iff. exists (m_action m, m_button m). split; [reflexivity|exact C].
Qed.
Definition same_shape (m m' : mouse) : bool := eqb (m_shift m) (m_shift m') && eqb (m_alt m) (m_alt m') && eqb (m_ctrl m) (m_ctrl m') && (m_action m =? m_action m') && (m_button m =? m_button m').
Lemma shapes_differ : forallb (fun m => forallb (fun m' => eqb (bytes_eqb (mouse_string m) (mouse_string m')) (same_shape m m')) shapes) shapes = true.
Proof. vm_compute. reflexivity. Qed.

(** Two events that a terminal can report have the same name just if they differ in nothing but the place. *)
Theorem C81_name_identifies : forall m m', reportable m -> reportable m' -> (mouse_string m = mouse_string m' <-> same_but_place m m').
Proof.
  intros m m' H H'. pose proof shapes_differ as X. rewrite forallb_forall in X. specialize (X _ (shape_In m H)). rewrite forallb_forall in X. specialize (X _ (shape_In m' H')). apply eqb_prop in X.
  change (mouse_string (Mouse 0 0 (m_shift m) (m_alt m) (m_ctrl m) (m_action m) (m_button m))) with (mouse_string m) in X. change (mouse_string (Mouse 0 0 (m_shift m') (m_alt m') (m_ctrl m') (m_action m') (m_button m'))) with (mouse_string m') in X.
  assert (E : bytes_eqb (mouse_string m) (mouse_string m') = true <-> mouse_string m = mouse_string m'). { unfold bytes_eqb. destruct (list_eq_dec _ _ _); split; congruence. }
  rewrite <- E, X. unfold same_shape, same_but_place. cbn [m_shift m_alt m_ctrl m_action m_button]. rewrite !andb_true_iff, !Z.eqb_eq. split.
  - intros ((((A & B) & C) & D) & F). apply eqb_prop in A, B, C. auto.
  - intros (-> & -> & -> & -> & ->). rewrite !eqb_reflx. auto.
Qed.
Print Assumptions C81_name_identifies.

(** None of them is called unknown. *)
Lemma shapes_known : forallb (fun m => negb (bytes_eqb (skipn (List.length (mouse_string m) - 7) (mouse_string m)) (asc "unknown"))) shapes = true.
Proof. vm_compute. reflexivity. Qed.
Theorem C81_none_unknown : forall m p, reportable m -> mouse_string m <> p ++ asc "unknown".
Proof.
  intros m p H E. pose proof shapes_known as X. rewrite forallb_forall in X. specialize (X _ (shape_In m H)). change (mouse_string (Mouse 0 0 (m_shift m) (m_alt m) (m_ctrl m) (m_action m) (m_button m))) with (mouse_string m) in X.
  rewrite E, app_length, skipn_app in X. change (List.length (asc "unknown")) with 7%nat in X. replace (List.length p + 7 - 7)%nat with (List.length p) in X by lia. rewrite skipn_all, Nat.sub_diag in X. vm_compute in X. discriminate.
Qed.
Print Assumptions C81_none_unknown.

(** Whatever bytes come in, every mouse event delivered is such an event. *)
Lemma parse_reportable z sgr : let m := parse_mouse_button z sgr in reportable m.
Proof.
  cbv zeta. unfold parse_mouse_button. set (e := if sgr then z else z - 32). assert (H3 : 0 <= Z.land e 3 <= 3).
  { assert (Z.land e 3 = e mod 2 ^ 2) as -> by (change 3 with (Z.ones 2); apply Z.land_ones; lia). pose proof (Z.mod_pos_bound e (2 ^ 2) ltac:(lia)). lia. }
  set (r := Z.land e 3) in *. clearbody r. unfold reportable, event. destruct (Z.land e 128 =? 0); cbn [negb]; [destruct (Z.land e 64 =? 0); cbn [negb]; [destruct (Z.eqb_spec r 3)|]|]; cbn [m_button m_action]; destruct (negb (Z.land e 32 =? 0)); cbn [andb].
  - left. vm_compute. repeat split; congruence. - right. split; reflexivity.
  - assert (r = 0 \/ r = 1 \/ r = 2) as [->|[->| ->]] by lia; left; vm_compute; repeat split; congruence.
  - assert (r = 0 \/ r = 1 \/ r = 2) as [->|[->| ->]] by lia; left; vm_compute; repeat split; congruence.
  - assert (r = 0 \/ r = 1 \/ r = 2 \/ r = 3) as [->|[->|[->| ->]]] by lia; left; vm_compute; repeat split; congruence.
  - assert (r = 0 \/ r = 1 \/ r = 2 \/ r = 3) as [->|[->|[->| ->]]] by lia; left; vm_compute; repeat split; congruence.
  - assert (r = 0 \/ r = 1 \/ r = 2 \/ r = 3) as [->|[->|[->| ->]]] by lia; left; vm_compute; repeat split; congruence.
  - assert (r = 0 \/ r = 1 \/ r = 2 \/ r = 3) as [->|[->|[->| ->]]] by lia; left; vm_compute; repeat split; congruence.
Qed.
Lemma detect_mouse_msg seqs sizes b more w m : detect_one_msg seqs sizes b more = Ret (Some (w, MouseMsg m)) -> (exists b0 b1 b2, m = parse_x10 b0 b1 b2) \/ exists r, parse_sgr r = Ret m.
Proof.
  intros E. assert (D : detect_mouse b = Ret (Some (w, MouseMsg m))).
  { unfold detect_one_msg in E. destruct (detect_mouse b) as [[r|]|]; [cbn [bind] in E; congruence| |discriminate]. exfalso. cbn [bind] in E.
    destruct (detect_report_focus b) as [[? f]|] eqn:F.
    { injection E as -> ->. revert F. unfold detect_report_focus. destruct (bytes_eqb _ _); [discriminate|]. destruct (bytes_eqb _ _); discriminate. }
    destruct (detect_bracketed_paste b) as [r|] eqn:F2.
    { injection E as ->. revert F2. unfold detect_bracketed_paste. destruct (has_prefix _ _); [|discriminate]. destruct (index_of _ _); discriminate. }
    destruct (detect_sequence seqs sizes b) as [[? f]|] eqn:F3.
    { injection E as -> ->. revert F3. unfold detect_sequence. destruct (known_prefix _ _ _) as [[? ?]|]; [discriminate|]. destruct (csi_match b); discriminate. }
    destruct b as [|b0 b]; [discriminate|]. cbv zeta in E.
    match type of E with context [if ?c then Ret (Some (_, KeyMsg _)) else _] => destruct c; [discriminate|] end.
    destruct (rune_run _ _ _) as [rs n]. match type of E with context [if ?c then Ret None else _] => destruct c; [discriminate|] end.
    destruct rs; [|discriminate]. match type of E with context [if ?c then _ else _] => destruct c; discriminate end. }
  clear E. unfold detect_mouse in D. repeat (match type of D with context [match ?y with _ => _ end] => destruct y eqn:? end; try discriminate; try (injection D as _ <-; eauto; fail)).
  all: match type of D with context [parse_sgr ?r] => destruct (parse_sgr r) eqn:Q; [|discriminate]; cbn [bind] in D; injection D as _ <-; eauto end.
Qed.
Theorem C81_delivered : forall seqs sizes reads ms left bs m, read_inputs seqs sizes [] reads = Ret (ms, left) -> In (bs, MouseMsg m) ms -> reportable m.
Proof.
  intros seqs sizes reads ms left bs m. generalize (@nil N). revert ms left. induction reads as [|r reads IH]; intros ms left l E I.
  - cbn in E. injection E as <- _. destruct I.
  - cbn [read_inputs] in E.
    assert (G : forall f b more ms0 rest, scan seqs sizes f b more = Ret (ms0, rest) -> In (bs, MouseMsg m) ms0 -> reportable m).
    { clear. induction f as [|f IH]; intros b more ms0 rest E I; destruct b as [|b0 b']; cbn [scan] in E; try (injection E as <- _; destruct I).
      destruct (detect_one_msg seqs sizes (b0 :: b') more) as [[[w m0]|]|] eqn:D; cbn [bind] in E; [|injection E as <- _; destruct I|discriminate].
      destruct (scan seqs sizes f _ more) as [[ms1 rest1]|] eqn:S; cbn [bind] in E; [|discriminate]. injection E as <- _. destruct I as [I|I]; [|eapply IH; eauto]. injection I as _ ->.
      destruct (detect_mouse_msg _ _ _ _ _ _ D) as [(x0 & x1 & x2 & ->)|(r & Q)].
      - exact (parse_reportable (Z.of_N x0) false).
      - unfold parse_sgr in Q. destruct (sgr_find r) as [g|]; [|discriminate]. injection Q as <-. pose proof (parse_reportable (atoi (g_b g)) true) as R. cbv zeta in R. set (m := parse_mouse_button (atoi (g_b g)) true) in *. clearbody m.
        unfold reportable, event in *. cbn [m_button m_action m_shift m_alt m_ctrl]. destruct (Z.eqb_spec (m_action m) ActionMotion); cbn [negb andb]; [exact R|]. destruct (is_wheel (m_button m)) eqn:W; cbn [negb andb]; [exact R|]. destruct (_ =? _)%N; [|exact R].
        destruct R as [(A & B & C & N)|(A & B)]; [|right; auto]. left. split; [unfold ActionRelease; lia|]. split; [exact B|]. split; [congruence|]. intros X. elim n. exact (N X). }
    destruct (scan _ _ _ _ _) as [[ms0 l0]|] eqn:S; cbn [bind] in E; [|discriminate]. destruct (read_inputs seqs sizes l0 reads) as [[ms1 l1]|] eqn:R; cbn [bind] in E; [|discriminate]. injection E as <- _.
    apply in_app_iff in I. destruct I as [I|I]; [eapply G; eauto|eapply IH; eauto].
Qed.
Print Assumptions C81_delivered.
Example C81_instance : let m := Mouse 3 4 true false true ActionRelease ButtonRight in reportable m /\ mouse_string m = asc "ctrl+shift+right release" /\ mouse_string (Mouse 9 9 false true false ActionPress ButtonWheelUp) = asc "alt+wheel up" /\
  exists bs left, read_inputs the_seqs the_sizes [] [ESC :: asc "[<22;4;5m"] = Ret ([(bs, MouseMsg m)], left).
Proof. cbv zeta. split; [left; unfold event; cbn; repeat split; try lia; discriminate|]. split; [reflexivity|]. split; [reflexivity|]. eexists. eexists. vm_compute. reflexivity. Qed.
