(** C79, C80: keys and mouse on Windows. *)
From Verif Require Import Base P_Base M_Utf8 M_KeyTable M_Decode S_Keys S_Mouse M_Windows S_Windows.
From Coq Require Import ZArith NArith List Bool Lia.
Import ListNotations.
Open Scope Z_scope.
Local Open Scope list_scope.

(** ** Bits *)
Lemma has_bit s i : has_bits s (2 ^ i) = N.testbit s i.
Proof.
  unfold has_bits. destruct (N.testbit s i) eqn:E.
  - apply negb_true_iff, N.eqb_neq. intros H. assert (X : N.testbit (N.land s (2 ^ i)) i = true) by (rewrite N.land_spec, E, N.pow2_bits_true; reflexivity). rewrite H, N.bits_0 in X. discriminate.
  - apply negb_false_iff, N.eqb_eq. apply N.bits_inj. intros n. rewrite N.bits_0, N.land_spec, N.pow2_bits_eqb. destruct (N.eqb_spec i n) as [<-|]; [now rewrite E|apply andb_false_r].
Qed.
Lemma has_two s i j : has_bits s (N.lor (2 ^ i) (2 ^ j)) = N.testbit s i || N.testbit s j.
Proof.
  rewrite <- !has_bit. unfold has_bits. rewrite N.land_lor_distr_r. destruct (N.eqb_spec (N.land s (2 ^ i)) 0) as [->|A]; [now rewrite N.lor_0_l|]. cbn [negb orb].
  apply negb_true_iff, N.eqb_neq. intros H. apply N.lor_eq_0_l in H. contradiction.
Qed.
Lemma alt_pressed_held s : alt_pressed s = alt_held s.
Proof. unfold alt_pressed, alt_held. rewrite orb_comm. exact (has_two s 1 0). Qed.
Lemma ctrl_pressed_held s : ctrl_pressed s = ctrl_held s.
Proof. unfold ctrl_pressed, ctrl_held. rewrite orb_comm. exact (has_two s 3 2). Qed.
Lemma shift_pressed_held s : shift_pressed s = shift_held s.
Proof. exact (has_bit s 4). Qed.
Lemma ctrl_mask s : (N.land s (N.lor LEFT_CTRL_PRESSED RIGHT_CTRL_PRESSED) =? 0)%N = negb (ctrl_held s).
Proof. rewrite <- ctrl_pressed_held. unfold ctrl_pressed, has_bits. now rewrite negb_involutive. Qed.

(** ** The state kept between records *)
Definition con_after (s : con_state) (rs : list console_record) : con_state := fold_left (fun s r => fst (con_step s r)) rs s.
Lemma read_app s a b : read_con_inputs s (a ++ b) = read_con_inputs s a ++ read_con_inputs (con_after s a) b.
Proof.
  revert s. induction a as [|r a IH]; intros s; [reflexivity|]. cbn [app read_con_inputs con_after fold_left]. destruct (con_step s r) as [s' ms] eqn:E. rewrite IH, app_assoc. unfold con_after. cbn [fst]. reflexivity.
Qed.
Lemma after_state rs : forall s, con_after s rs = ConState (fold_left (fun s r => match r with MouseRec m => mr_buttons m | _ => s end) rs (cs_buttons s)) (fold_left (fun s r => match r with SizeRec w h => (w, h) | _ => s end) rs (cs_size s)).
Proof.
  induction rs as [|r rs IH]; intros s; [now destruct s|]. unfold con_after. cbn [fold_left]. fold (con_after (fst (con_step s r)) rs). rewrite IH. destruct r as [e|w h|m| | |]; cbn [con_step]; try (destruct s; reflexivity).
  - destruct (_ || _); destruct s; reflexivity.
  - destruct (Z.eqb_spec w (fst (cs_size s))) as [->|]; [|reflexivity]. destruct (Z.eqb_spec h (snd (cs_size s))) as [->|]; [|reflexivity]. destruct s as [p [a b]]. reflexivity.
Qed.
Lemma read_last before r : read_con_inputs con_start (before ++ [r]) = read_con_inputs con_start before ++ snd (con_step (ConState (last_buttons before) (last_size before)) r).
Proof. rewrite read_app, after_state. cbn [read_con_inputs]. change (ConState _ _) with (ConState (last_buttons before) (last_size before)). destruct (con_step _ r) as [s ms]. cbn [snd]. now rewrite app_nil_r. Qed.
Lemma delivered e : kr_down e = true -> kr_code e <> 16%N -> delivers e (con_key e).
Proof. intros D C before. rewrite read_last. cbn [con_step]. rewrite D. destruct (N.eqb_spec (kr_code e) VK_SHIFT); [contradiction|]. reflexivity. Qed.

(** ** C79 *)
(** Records are handled one by one and in order; a key that is released and the Shift key alone, a change of the focus or of a menu lead to no message; a
    size leads to a message just if it is new. *)
Theorem C79_quiet_records : forall before r,
  match r with KeyRec e => kr_down e = false \/ kr_code e = 16%N | SizeRec w h => last_size before = (w, h) | MouseRec _ => False | _ => True end ->
  read_con_inputs con_start (before ++ [r]) = read_con_inputs con_start before.
Proof.
  intros before r H. rewrite read_last. destruct r as [e|w h|m| | |]; cbn [con_step snd]; rewrite ?app_nil_r; try reflexivity; [| |contradiction].
  - replace (negb (kr_down e) || (kr_code e =? VK_SHIFT)%N) with true; [apply app_nil_r|]. symmetry. destruct H as [->| ->]; [reflexivity|apply orb_true_r].
  - cbn [cs_size]. rewrite H. cbn [fst snd]. rewrite !Z.eqb_refl. apply app_nil_r.
Qed.
Print Assumptions C79_quiet_records.
Theorem C79_resize : forall before w h, last_size before <> (w, h) -> read_con_inputs con_start (before ++ [SizeRec w h]) = read_con_inputs con_start before ++ [WindowSize w h].
Proof.
  intros before w h H. rewrite read_last. cbn [con_step cs_size]. destruct (last_size before) as [a b]. cbn [fst snd]. destruct (Z.eqb_spec w a) as [->|]; [|reflexivity]. destruct (Z.eqb_spec h b) as [->|]; [now elim H|reflexivity].
Qed.
Print Assumptions C79_resize.

(** A cursor key with any modifiers is the key message that xterm's sequence for the same key and modifiers leads to. *)
Lemma in_sequences s k : existsb (fun e => bytes_eqb (fst e) s && (k_type (snd e) =? k_type k) && bytes_eqb (k_runes (snd e)) (k_runes k) && eqb (k_alt (snd e)) (k_alt k) && eqb (k_paste (snd e)) (k_paste k)) sequences = true -> In (s, k) sequences.
Proof.
  intros H. apply existsb_exists in H. destruct H as ([s' k'] & I & H). rewrite !andb_true_iff in H. cbn [fst snd] in H. destruct H as ((((A & B) & C) & D) & E). unfold bytes_eqb in A, C. destruct (list_eq_dec N.eq_dec s' s); [|discriminate]. destruct (list_eq_dec N.eq_dec (k_runes k') (k_runes k)) as [E1|]; [|discriminate].
  apply Z.eqb_eq in B. apply eqb_prop in D, E. destruct k, k'. cbn in *. subst. exact I.
Qed.
Theorem C79_cursor_keys : forall e letter, kr_down e = true -> In (kr_code e, letter) cursor_keys -> exists k, delivers e k /\ known (xterm_cursor_key letter (kr_state e)) k.
Proof.
  intros e letter D I. exists (con_key e). split; [apply delivered; [exact D|]; intros E; rewrite E in I; cbn in I; intuition congruence|].
  destruct e as [d n code c st]. cbn [kr_code kr_state kr_down] in *. unfold con_key, con_key_type, by_modifiers, xterm_cursor_key, modifier_digit. cbn [kr_code kr_state kr_char]. rewrite alt_pressed_held, ctrl_pressed_held, shift_pressed_held.
  cbn in I. repeat (destruct I as [I|I]; [injection I as <- <-|]); try contradiction; destruct (shift_held st), (alt_held st), (ctrl_held st); apply known_seq, in_sequences; vm_compute; reflexivity.
Qed.
Print Assumptions C79_cursor_keys.
(** Enter, Backspace, Tab, Page Up, Page Down and Delete without Shift or Ctrl are what a terminal's sequences for them lead to; Shift and Tab together too;
    Escape is Escape. *)
Theorem C79_editing_keys : forall e s, kr_down e = true -> shift_held (kr_state e) = false -> ctrl_held (kr_state e) = false -> In (kr_code e, s) editing_keys ->
  exists k, delivers e k /\ known (with_escape (kr_state e) s) k.
Proof.
  intros e s D H C I. exists (con_key e). split; [apply delivered; [exact D|]; intros E; rewrite E in I; cbn in I; intuition congruence|].
  destruct e as [d n code c st]. cbn [kr_code kr_state kr_down] in *. unfold con_key, con_key_type, with_escape. cbn [kr_code kr_state kr_char]. rewrite alt_pressed_held, shift_pressed_held, H.
  cbn in I. repeat (destruct I as [I|I]; [injection I as <- <-|]); try contradiction; destruct (alt_held st).
  - apply (known_alt_control 13); [left; lia|discriminate]. - apply (known_control 13); [left; lia|discriminate].
  - apply (known_alt_control 127); [now right|discriminate]. - apply (known_control 127); [now right|discriminate].
  - apply (known_alt_control 9); [left; lia|discriminate]. - apply (known_control 9); [left; lia|discriminate].
  - apply (known_alt_seq _ (Key KeyPgUp [] false false)); [apply in_sequences; vm_compute; reflexivity|reflexivity]. - apply known_seq, in_sequences; vm_compute; reflexivity.
  - apply (known_alt_seq _ (Key KeyPgDown [] false false)); [apply in_sequences; vm_compute; reflexivity|reflexivity]. - apply known_seq, in_sequences; vm_compute; reflexivity.
  - apply (known_alt_seq _ (Key KeyDelete [] false false)); [apply in_sequences; vm_compute; reflexivity|reflexivity]. - apply known_seq, in_sequences; vm_compute; reflexivity.
Qed.
Print Assumptions C79_editing_keys.
Theorem C79_back_tab : forall e, kr_down e = true -> kr_code e = 9%N -> shift_held (kr_state e) = true -> exists k, delivers e k /\ known (with_escape (kr_state e) [27; 91; 90]%N) k.
Proof.
  intros e D C H. exists (con_key e). split; [apply delivered; [exact D|rewrite C; discriminate]|]. destruct e as [d n code c st]. cbn [kr_code kr_state kr_down] in *. subst code. unfold con_key, con_key_type, with_escape. cbn [kr_code kr_state kr_char]. rewrite alt_pressed_held, shift_pressed_held, H.
  destruct (alt_held st); [apply (known_alt_seq _ (Key KeyShiftTab [] false false)); [apply in_sequences; vm_compute; reflexivity|reflexivity]|apply known_seq, in_sequences; vm_compute; reflexivity].
Qed.
Print Assumptions C79_back_tab.
Theorem C79_escape : forall e, kr_down e = true -> kr_code e = 27%N -> delivers e (Key KeyEscape [] (alt_held (kr_state e)) false).
Proof. intros e D C. replace (Key _ _ _ _) with (con_key e); [apply delivered; [exact D|rewrite C; discriminate]|]. destruct e as [d n code c st]. cbn [kr_code kr_state kr_down] in *. subst code. unfold con_key, con_key_type. cbn [kr_code kr_state kr_char]. now rewrite alt_pressed_held. Qed.
Print Assumptions C79_escape.

(** A letter with Ctrl, and ctrl+\ and ctrl+_, are the control character they stand for; any other character without Ctrl is itself. *)
Lemma other_code e : ~ In (kr_code e) own_codes -> con_key_type e = if negb (ctrl_held (kr_state e)) then KeyRunes else match control_of_char (kr_char e) with Some k => k | None => if (kr_code e =? VK_OEM_4)%N then KeyCtrlOpenBracket else KeyRunes end.
Proof.
  intros H. unfold con_key_type. rewrite ctrl_mask. unfold own_codes in H. cbn [In] in H.
  repeat match goal with |- context [if (kr_code e =? ?c)%N then _ else _] => lazymatch c with VK_OEM_4 => fail | _ => destruct (N.eqb_spec (kr_code e) c) as [X|_]; [exfalso; apply H; rewrite X; vm_compute; tauto|] end end.
  reflexivity.
Qed.
Theorem C79_control_letters : forall e, kr_down e = true -> ~ In (kr_code e) own_codes -> ctrl_held (kr_state e) = true -> (1 <= kr_char e <= 26)%N \/ kr_char e = 28%N \/ kr_char e = 31%N ->
  exists k, delivers e k /\ known (with_escape (kr_state e) [kr_char e]) k.
Proof.
  intros e D O C H. exists (con_key e). split; [apply delivered; [exact D|]; intros X; apply O; rewrite X; vm_compute; tauto|].
  assert (E : control_of_char (kr_char e) = Some (Z.of_N (kr_char e))).
  { destruct e as [d n code c st]. cbn [kr_char] in *. destruct H as [H|[->| ->]]; try reflexivity. unfold control_of_char. destruct (N.eqb_spec c 64); [lia|]. destruct (N.leb_spec 1 c); [|lia]. destruct (N.leb_spec c 26); [|lia]. cbn [andb].
    assert (R : forallb (fun i => match nth_error [KeyCtrlA; KeyCtrlB; KeyCtrlC; KeyCtrlD; KeyCtrlE; KeyCtrlF; KeyCtrlG; KeyCtrlH; KeyCtrlI; KeyCtrlJ; KeyCtrlK; KeyCtrlL; KeyCtrlM; KeyCtrlN; KeyCtrlO;
      KeyCtrlP; KeyCtrlQ; KeyCtrlR; KeyCtrlS; KeyCtrlT; KeyCtrlU; KeyCtrlV; KeyCtrlW; KeyCtrlX; KeyCtrlY; KeyCtrlZ] i with Some z => z =? Z.of_nat (S i) | None => false end) (seq 0 26) = true) by (vm_compute; reflexivity).
    rewrite forallb_forall in R. specialize (R (N.to_nat c - 1)%nat ltac:(apply in_seq; lia)). destruct (nth_error _ _) as [z|]; [|discriminate]. apply Z.eqb_eq in R. rewrite R. f_equal. lia. }
  unfold con_key. rewrite (other_code e O), C, E. cbn [negb]. rewrite alt_pressed_held. destruct (Z.eqb_spec (Z.of_N (kr_char e)) KeyRunes) as [X|_]; [unfold KeyRunes in X; lia|].
  assert (kr_char e <> ESC) by (unfold ESC; lia). unfold with_escape. destruct (alt_held (kr_state e)); [apply known_alt_control|apply known_control]; auto; left; lia.
Qed.
Print Assumptions C79_control_letters.
Theorem C79_characters : forall e, kr_down e = true -> ~ In (kr_code e) own_codes -> ctrl_held (kr_state e) = false -> (33 <= kr_char e)%N -> kr_char e <> 127%N ->
  delivers e (Key (k_type (char_press (kr_char e))) (k_runes (char_press (kr_char e))) (alt_held (kr_state e)) false).
Proof.
  intros e D O C H H'. replace (Key _ _ _ _) with (con_key e); [apply delivered; [exact D|]; intros X; apply O; rewrite X; vm_compute; tauto|].
  unfold con_key. rewrite (other_code e O), C, alt_pressed_held. cbn [negb]. unfold char_press. destruct (N.leb_spec (kr_char e) 31); [lia|]. destruct (N.eqb_spec (kr_char e) 127); [contradiction|]. destruct (N.eqb_spec (kr_char e) 32); [lia|]. reflexivity.
Qed.
Print Assumptions C79_characters.
(** The space bar: its name is that of the space key elsewhere. *)
Theorem C79_space : forall e, kr_down e = true -> kr_code e = 32%N -> kr_char e = 32%N -> exists k k', delivers e k /\ known (with_escape (kr_state e) [32%N]) k' /\ key_string k = key_string k'.
Proof.
  intros e D C H. exists (con_key e), (Key KeySpace [32%N] (alt_held (kr_state e)) false). split; [apply delivered; [exact D|rewrite C; discriminate]|]. unfold with_escape, con_key, con_key_type. rewrite C, H, alt_pressed_held.
  split; destruct (alt_held (kr_state e)); [apply known_alt_space|apply known_space|vm_compute; reflexivity|vm_compute; reflexivity].
Qed.
Print Assumptions C79_space.
(** *** What does not arrive as it should *)
(** Ctrl and Page Up together are Page Up, although there is a key message of their own for them. *)
Theorem C79_page_keys_refuted : exists e k, kr_down e = true /\ kr_code e = 33%N /\ ctrl_held (kr_state e) = true /\ delivers e (Key KeyPgUp [] false false) /\ known [27; 91; 53; 59; 53; 126]%N k /\ k <> Key KeyPgUp [] false false.
Proof.
  exists (KeyRecord true 1 33 0 8), (Key KeyCtrlPgUp [] false false). split; [reflexivity|]. split; [reflexivity|]. split; [reflexivity|]. split; [intros before; rewrite read_last; reflexivity|]. split; [apply known_seq, in_sequences; vm_compute; reflexivity|discriminate].
Qed.
Print Assumptions C79_page_keys_refuted.
(** Every key without a character and without a case of its own is delivered as the character 0: Insert (45), the function keys (112 to 135), and the Ctrl and
    Alt keys alone (17, 18). *)
Theorem C79_no_character_refuted : forall e, kr_down e = true -> kr_code e = 45%N \/ (112 <= kr_code e <= 135)%N \/ kr_code e = 17%N \/ kr_code e = 18%N -> kr_char e = 0%N ->
  delivers e (Key KeyRunes [0%N] (alt_held (kr_state e)) false).
Proof.
  intros e D C H. assert (O : ~ In (kr_code e) own_codes) by (unfold own_codes; cbn [In]; lia). replace (Key _ _ _ _) with (con_key e); [apply delivered; [exact D|]; intros X; apply O; rewrite X; vm_compute; tauto|].
  unfold con_key. rewrite (other_code e O), H, alt_pressed_held. destruct (negb _); [reflexivity|]. cbn [control_of_char]. destruct (N.eqb_spec (kr_code e) VK_OEM_4) as [X|]; [unfold VK_OEM_4 in X; lia|reflexivity].
Qed.
Print Assumptions C79_no_character_refuted.
(** A character typed with AltGr, which Windows reports as left Ctrl and right Alt, has Alt held; "@" is even taken for ctrl+@. *)
Theorem C79_altgr_refuted : forall e, kr_down e = true -> ~ In (kr_code e) own_codes -> kr_code e <> 219%N -> kr_state e = 9%N -> (33 <= kr_char e)%N ->
  exists k, delivers e k /\ k_alt k = true /\ (kr_char e = 64%N -> k = Key KeyCtrlAt [] true false).
Proof.
  intros e D O C S H. exists (con_key e). split; [apply delivered; [exact D|]; intros X; apply O; rewrite X; vm_compute; tauto|]. unfold con_key. rewrite alt_pressed_held, S. split; [reflexivity|]. intros E. rewrite (other_code e O), S, E. reflexivity.
Qed.
Print Assumptions C79_altgr_refuted.
(** The two brackets with Ctrl: the character 27 is taken for ctrl+] and the character 29, which stands for ctrl+], for a character. *)
Theorem C79_brackets_refuted : forall e, kr_down e = true -> ~ In (kr_code e) own_codes -> kr_code e <> 219%N \/ kr_char e = 27%N -> kr_state e = 8%N ->
  (kr_char e = 27%N -> delivers e (Key KeyCtrlCloseBracket [] false false)) /\ (kr_char e = 29%N -> delivers e (Key KeyRunes [29%N] false false) /\ known [29%N] (Key KeyCtrlCloseBracket [] false false)).
Proof.
  intros e D O C S. assert (K : delivers e (con_key e)) by (apply delivered; [exact D|]; intros X; apply O; rewrite X; vm_compute; tauto). unfold con_key in K. rewrite (other_code e O), S in K. split; intros E; rewrite E in K; cbn in K.
  - exact K. - split; [|apply (known_control 29); [left; lia|discriminate]]. destruct C as [C|C]; [|congruence]. destruct (N.eqb_spec (kr_code e) VK_OEM_4) as [X|]; [contradiction|exact K].
Qed.
Print Assumptions C79_brackets_refuted.
(** Characters are 16 bit wide in a record, so a character beyond U+FFFF never arrives as one character. *)
Theorem C79_wide_characters_refuted : forall rs, (forall e, In (KeyRec e) rs -> (kr_char e < 65536)%N) -> forall k r, In (Input (KeyMsg k)) (read_con_inputs con_start rs) -> In r (k_runes k) -> (r < 65536)%N.
Proof.
  intros rs. generalize con_start. induction rs as [|x rs IH]; intros s H k r I R; [contradiction|]. cbn [read_con_inputs] in I. destruct (con_step s x) as [s' ms] eqn:E. apply in_app_or in I. destruct I as [I|I].
  - assert (I' : In (Input (KeyMsg k)) (snd (con_step s x))) by now rewrite E. clear E I. destruct x as [e|w h|m| | |]; cbn [con_step] in I'; try contradiction.
    + destruct (_ || _); [contradiction|]. cbn [snd] in I'. apply repeat_spec in I'. injection I' as ->. unfold con_key in R. cbn [k_runes] in R. destruct (_ =? _); [|contradiction]. destruct R as [<-|[]]. apply H. now left.
    + destruct (_ && _); [contradiction|]. destruct I' as [I'|[]]. discriminate.
    + destruct I' as [I'|[]]. discriminate.
  - apply (IH s' (fun e Ie => H e (or_intror Ie)) k r I R).
Qed.
Print Assumptions C79_wide_characters_refuted.

Example C79_instance : exists before, read_con_inputs con_start before = [WindowSize 80 25; Input (KeyMsg (Key KeyCtrlShiftUp [] true false)); Input (KeyMsg (Key KeyCtrlShiftUp [] true false)); Input (KeyMsg (Key KeyCtrlC [] false false)); Input (KeyMsg (Key KeyRunes [228%N] true false))] /\
  In (38, 65)%N cursor_keys /\ ~ In 67%N own_codes /\ ctrl_held 4 = true /\ ctrl_held 34 = false /\ alt_held 34 = true.
Proof.
  exists [SizeRec 80 25; KeyRec (KeyRecord true 1 16 0 16); KeyRec (KeyRecord true 2 38 0 57); FocusRec; SizeRec 80 25; KeyRec (KeyRecord false 1 38 0 57); KeyRec (KeyRecord true 1 67 3 4); KeyRec (KeyRecord true 1 222 228 34)].
  split; [reflexivity|]. split; [now left|]. split; [cbn; lia|]. repeat split.
Qed.

(** ** C80 *)
(** A click that changes one button reports this button: pressed if it is down now, released if not; the other buttons may be in any state. *)
Lemma reported before e : reports before e (m_button (con_mouse (last_buttons before) e)) (m_action (con_mouse (last_buttons before) e)).
Proof. unfold reports. rewrite read_last. cbn [con_step snd cs_buttons]. do 3 f_equal. unfold con_mouse. rewrite shift_pressed_held, alt_pressed_held, ctrl_pressed_held. destruct (if _ || _ then _ else _) as [b a]. reflexivity. Qed.
Theorem C80_clicks : forall before e i, (i < 5)%N -> mr_flags e = 0%N \/ mr_flags e = 2%N -> mr_buttons e = N.lxor (last_buttons before) (2 ^ i) ->
  reports before e (button_of_bit i) (if N.testbit (mr_buttons e) i then ActionPress else ActionRelease).
Proof.
  intros before e i Hi F B. pose proof (reported before e) as R. set (p := last_buttons before) in *. clearbody p.
  replace (button_of_bit i) with (m_button (con_mouse p e)). 1: replace (if _ : bool then ActionPress else ActionRelease) with (m_action (con_mouse p e)); [exact R|].
  all: clear R; unfold con_mouse; replace ((mr_flags e =? CLICK)%N || (mr_flags e =? DOUBLE_CLICK)%N) with true by (destruct F as [->| ->]; reflexivity); unfold mouse_event_button;
    assert (X : N.lxor p (mr_buttons e) = (2 ^ i)%N) by (rewrite B, <- N.lxor_assoc, N.lxor_nilpotent; apply N.lxor_0_l); rewrite X;
    replace ((2 ^ i =? 0)%N) with false by (symmetry; apply N.eqb_neq, N.pow_nonzero; discriminate).
  - cbn [m_action]. pose proof (has_bit (mr_buttons e) i) as T. unfold has_bits in T. rewrite N.land_comm in T. destruct (N.land (2 ^ i) (mr_buttons e) =? 0)%N; cbn [negb] in T; now rewrite <- T.
  - cbn [m_button]. assert (Hc : (i = 0 \/ i = 1 \/ i = 2 \/ i = 3 \/ i = 4)%N) by lia. destruct Hc as [->|[->|[->|[->| ->]]]]; reflexivity.
Qed.
Print Assumptions C80_clicks.
(** A movement reports the button held down, and none if none is. *)
Theorem C80_moves : forall before e, mr_flags e = 1%N -> mr_buttons e = last_buttons before ->
  (mr_buttons e = 0%N -> reports before e ButtonNone ActionMotion) /\ (forall i, (i < 5)%N -> mr_buttons e = (2 ^ i)%N -> reports before e (button_of_bit i) ActionMotion).
Proof.
  intros before e F B. pose proof (reported before e) as R. rewrite <- B in R. unfold con_mouse in R. rewrite F in R. cbn [N.eqb orb CLICK DOUBLE_CLICK MOUSE_WHEELED MOUSE_HWHEELED MOUSE_MOVED] in R.
  unfold mouse_event_button in R. rewrite N.lxor_nilpotent in R. cbn [N.eqb fst m_button m_action] in R. split.
  - intros E. rewrite E in R. exact R.
  - intros i Hi E. rewrite E in R. assert (Hc : (i = 0 \/ i = 1 \/ i = 2 \/ i = 3 \/ i = 4)%N) by lia. destruct Hc as [->|[->|[->|[->| ->]]]]; exact R.
Qed.
Print Assumptions C80_moves.
(** A wheel reports its direction. *)
Theorem C80_wheels : forall before e, (mr_flags e = 4%N -> reports before e (if mr_wheel e >? 0 then ButtonWheelUp else ButtonWheelDown) ActionPress) /\ (mr_flags e = 8%N -> reports before e (if mr_wheel e >? 0 then ButtonWheelRight else ButtonWheelLeft) ActionPress).
Proof. intros before e. pose proof (reported before e) as R. unfold con_mouse in R. split; intros F; rewrite F in R; exact R. Qed.
Print Assumptions C80_wheels.
(** The record of a wheel has the distance in the upper half of its button state (Windows API). It is taken for buttons: the click after it is of no button. *)
Theorem C80_after_wheel_refuted : exists wheel click, mr_flags wheel = 4%N /\ mr_flags click = 0%N /\ N.land (mr_buttons wheel) 31 = 0%N /\ mr_buttons click = 1%N /\ reports [MouseRec wheel] click ButtonNone ActionPress.
Proof. exists (MouseRecord 3 4 7864320 0 4 1), (MouseRecord 3 4 1 0 0 0). repeat split; reflexivity. Qed.
Print Assumptions C80_after_wheel_refuted.
Example C80_instance : let down := MouseRecord 3 4 5 16 0 0 in let up := MouseRecord 3 5 1 0 0 0 in last_buttons [MouseRec (MouseRecord 3 4 1 0 0 0)] = 1%N /\ mr_buttons down = N.lxor 1 (2 ^ 2) /\
  reports [MouseRec (MouseRecord 3 4 1 0 0 0)] down ButtonMiddle ActionPress /\ reports [MouseRec down] up ButtonMiddle ActionRelease.
Proof. repeat split; reflexivity. Qed.
