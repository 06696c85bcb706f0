(** C44: mouse events. *)
From Verif Require Import Base P_Base M_Utf8 P_Utf8 M_KeyTable M_Decode M_Ansi S_Mouse S_Keys P_Decode T_Decode.
From Verif Require P_Ansi S_Ansi.
From Coq Require Import ZArith NArith String Ascii List Bool Lia.
Import ListNotations.
Open Scope Z_scope.
Local Open Scope list_scope.

Lemma take_digits_app ds c r : (forall x, In x ds -> is_dig x = true) -> is_dig c = false -> take_digits (ds ++ c :: r) = (ds, c :: r).
Proof.
  induction ds as [|d ds IH]; intros H Hc; cbn [app take_digits]; [now rewrite Hc|]. rewrite (H d) by now left. rewrite IH; auto. intros; apply H; now right.
Qed.

Lemma itoa_digits z : 0 <= z < 2 ^ 63 -> exists d ds, itoa z = d :: ds /\ (forall x, In x (d :: ds) -> is_dig x = true) /\ atoi (d :: ds) = z.
Proof.
  intros H. rewrite P_Ansi.itoa_nonneg by lia. destruct (P_Ansi.itoa_N_spec (Z.to_N z)) as (l & -> & Hne & Hd & Hv). destruct l as [|d ds]; [easy|]. exists d, ds. split; [reflexivity|].
  assert (G : forall x, In x (d :: ds) -> is_dig x = true).
  { intros x Hx. specialize (Hd x Hx). unfold S_Ansi.is_digit in Hd. unfold is_dig, in_range. exact Hd. }
  split; [exact G|].
  assert (V : forall l v, (forall x, In x l -> is_dig x = true) ->
    fold_left (fun v c => 10 * v + (Z.of_N c - 48)) l (Z.of_N v) = Z.of_N (fold_left (fun v r => 10 * v + (r - 48))%N l v)).
  { clear. induction l as [|c l IH]; intros v G; [reflexivity|]. cbn [fold_left]. rewrite <- IH by (intros; apply G; now right). f_equal.
    specialize (G c (or_introl eq_refl)). apply in_range_spec in G. lia. }
  unfold atoi. change 0 with (Z.of_N 0). rewrite V by exact G. unfold P_Ansi.digits_value in Hv. rewrite Hv. unfold max_int. lia.
Qed.

Lemma sgr_find_at s g : sgr_at s = Some g -> sgr_find s = Some g.
Proof. destruct s; cbn [sgr_find]; intros ->; reflexivity. Qed.

Lemma sgr_at_encoded a x y f rest : 0 <= a < 2 ^ 63 -> 0 <= x < 2 ^ 63 -> 0 <= y < 2 ^ 63 -> f = 77%N \/ f = 109%N ->
  exists g, sgr_at (itoa a ++ [59%N] ++ itoa x ++ [59%N] ++ itoa y ++ [f] ++ rest) = Some g /\ atoi (g_b g) = a /\ atoi (g_x g) = x /\ atoi (g_y g) = y /\ g_final g = f /\
    g_end g = length (itoa a ++ [59%N] ++ itoa x ++ [59%N] ++ itoa y ++ [f]).
Proof.
  intros Ha Hx Hy Hf. destruct (itoa_digits a Ha) as (a0 & al & -> & Da & Va). destruct (itoa_digits x Hx) as (x0 & xl & -> & Dx & Vx). destruct (itoa_digits y Hy) as (y0 & yl & -> & Dy & Vy).
  unfold sgr_at. cbn [app]. change (a0 :: al ++ ?t) with ((a0 :: al) ++ t). rewrite (take_digits_app (a0 :: al)) by auto.
  change (x0 :: xl ++ ?t) with ((x0 :: xl) ++ t). rewrite (take_digits_app (x0 :: xl)) by auto. change (y0 :: yl ++ ?t) with ((y0 :: yl) ++ t).
  rewrite (take_digits_app (y0 :: yl)) by (auto; destruct Hf as [-> | ->]; reflexivity).
  replace ((f =? 77)%N || (f =? 109)%N) with true by (destruct Hf as [-> | ->]; reflexivity). eexists. split; [reflexivity|]. cbn [g_b g_x g_y g_final g_end]. repeat split; auto.
  cbn [length app]. rewrite !app_length. cbn [length]. rewrite !app_length. cbn [length]. rewrite app_length. cbn [length]. lia.
Qed.

(** The fields of the code. *)
Lemma code_ok m : event m -> let e := event_code m in 0 <= e < 256 /\
  parse_mouse_button e true = Mouse 0 0 (m_shift m) (m_alt m) (m_ctrl m) (if m_action m =? ActionMotion then ActionMotion else ActionPress) (m_button m).
Proof.
  destruct m as [x y sh al ct ac bt]. intros (A & B & W & N). cbn [m_action m_button m_shift m_alt m_ctrl m_x m_y] in *.
  assert (Ha : ac = 0 \/ ac = 1 \/ ac = 2) by lia.
  assert (Hb : bt = 0 \/ bt = 1 \/ bt = 2 \/ bt = 3 \/ bt = 4 \/ bt = 5 \/ bt = 6 \/ bt = 7 \/ bt = 8 \/ bt = 9 \/ bt = 10 \/ bt = 11) by lia.
  clear A B.
  destruct Ha as [->|[->| ->]]; repeat (destruct Hb as [->|Hb]); try subst bt;
    try (specialize (W eq_refl); discriminate W); try (specialize (N eq_refl); discriminate N);
    destruct sh, al, ct; vm_compute; repeat split; congruence.
Qed.

Lemma x10_code_ok m : event m -> let e := if m_action m =? ActionRelease then button_code ButtonNone + (event_code m - button_code (m_button m)) else event_code m in 0 <= e < 224 /\
  parse_mouse_button (32 + e) false = Mouse 0 0 (m_shift m) (m_alt m) (m_ctrl m) (m_action m) (if m_action m =? ActionRelease then ButtonNone else m_button m).
Proof.
  destruct m as [x y sh al ct ac bt]. intros (A & B & W & N). cbn [m_action m_button m_shift m_alt m_ctrl m_x m_y] in *.
  assert (Ha : ac = 0 \/ ac = 1 \/ ac = 2) by lia.
  assert (Hb : bt = 0 \/ bt = 1 \/ bt = 2 \/ bt = 3 \/ bt = 4 \/ bt = 5 \/ bt = 6 \/ bt = 7 \/ bt = 8 \/ bt = 9 \/ bt = 10 \/ bt = 11) by lia.
  clear A B.
  destruct Ha as [->|[->| ->]]; repeat (destruct Hb as [->|Hb]); try subst bt;
    try (specialize (W eq_refl); discriminate W); try (specialize (N eq_refl); discriminate N);
    destruct sh, al, ct; vm_compute; repeat split; congruence.
Qed.

Lemma itoa_len z : 0 <= z < 2 ^ 63 -> (1 <= length (itoa z))%nat.
Proof. intros H. destruct (itoa_digits z H) as (d & ds & -> & _). cbn. lia. Qed.

(** The bytes of an SGR event decode to the event, whatever follows them. *)
Theorem C44_sgr_round_trip : forall seqs sizes m rest more, event m -> 0 <= m_x m < 2 ^ 63 - 1 -> 0 <= m_y m < 2 ^ 63 - 1 ->
  detect_one_msg seqs sizes (sgr_bytes m ++ rest) more = Ret (Some (length (sgr_bytes m), MouseMsg m)).
Proof.
  intros seqs sizes m rest more Hm Hx Hy. destruct (code_ok m Hm) as [Hc Hp]. cbv zeta in Hc, Hp.
  set (f := if m_action m =? ActionRelease then 109%N else 77%N).
  destruct (sgr_at_encoded (event_code m) (m_x m + 1) (m_y m + 1) f rest) as (g & G & V1 & V2 & V3 & V4 & V5); try lia.
  { unfold f. destruct (m_action m =? ActionRelease); [now right|now left]. }
  apply sgr_find_at in G. unfold detect_one_msg.
  set (body := itoa (event_code m) ++ [59%N] ++ itoa (m_x m + 1) ++ [59%N] ++ itoa (m_y m + 1) ++ [f] ++ rest) in *.
  assert (E : sgr_bytes m ++ rest = 27%N :: 91%N :: 60%N :: body) by (unfold sgr_bytes, body; fold f; cbn [app]; rewrite <- !app_assoc; cbn [app]; rewrite <- !app_assoc; cbn [app]; rewrite <- !app_assoc; reflexivity).
  assert (L : length (sgr_bytes m) = (g_end g + 3)%nat) by (rewrite V5; unfold sgr_bytes; fold f; rewrite app_length; cbn [length]; lia).
  assert (D : detect_mouse (sgr_bytes m ++ rest) = Ret (Some (length (sgr_bytes m), MouseMsg m))).
  { rewrite E. unfold detect_mouse.
    assert (Hl : (3 <= length body)%nat).
    { unfold body. rewrite !app_length. pose proof (itoa_len (event_code m) ltac:(lia)). pose proof (itoa_len (m_x m + 1) ltac:(lia)). pose proof (itoa_len (m_y m + 1) ltac:(lia)). cbn [length]. lia. }
    destruct body as [|c0 [|c1 [|c2 body']]] eqn:Eb; cbn [length] in Hl; try lia.
    cbn [skipn]. change ((60 =? 77)%N) with false. change ((60 =? 60)%N) with true. cbv iota. unfold parse_sgr. rewrite G. cbn [bind]. rewrite L, V1, V2, V3, V4, Hp. cbn [m_action m_button m_shift m_alt m_ctrl].
    do 4 f_equal. destruct Hm as (A & B & W & N). destruct m as [x y sh al ct ac bt]. cbn [m_x m_y m_action m_button m_shift m_alt m_ctrl] in *. unfold f.
    f_equal; try lia.
    destruct (Z.eqb_spec ac ActionMotion) as [->|N2]; [reflexivity|]. cbn [negb andb Z.eqb ActionPress ActionMotion].
    destruct (Z.eqb_spec ac ActionRelease) as [->|N1].
    - destruct (is_wheel bt) eqn:Ew; [specialize (W eq_refl); discriminate|]. reflexivity.
    - rewrite andb_false_r. unfold ActionPress, ActionRelease, ActionMotion in *. lia. }
  rewrite D. reflexivity.
Qed.
Print Assumptions C44_sgr_round_trip.

Example C44_sgr_instance : event (Mouse 119 3 true false true ActionRelease ButtonRight) /\
  sgr_bytes (Mouse 119 3 true false true ActionRelease ButtonRight) = ESC :: asc "[<22;120;4m".
Proof. split; [unfold event; cbn; lia || (repeat split; try lia; discriminate)|vm_compute; reflexivity]. Qed.

(** The bytes of an X10 event decode to the event, whatever follows them; of a release the button is not known. *)
Theorem C44_x10_round_trip : forall seqs sizes m rest more, event m -> 0 <= m_x m <= 222 -> 0 <= m_y m <= 222 ->
  (forall b, In b (x10_bytes m) -> (b < 256)%N) /\
  detect_one_msg seqs sizes (x10_bytes m ++ rest) more =
    Ret (Some (6%nat, MouseMsg (Mouse (m_x m) (m_y m) (m_shift m) (m_alt m) (m_ctrl m) (m_action m) (if m_action m =? ActionRelease then ButtonNone else m_button m)))).
Proof.
  intros seqs sizes m rest more Hm Hx Hy. destruct (x10_code_ok m Hm) as [Hc Hp]. cbv zeta in Hc, Hp. unfold x10_bytes.
  set (e := if m_action m =? ActionRelease then _ else _) in *. clearbody e. split.
  - intros b [<-|[<-|[<-|[<-|[<-|[<-|[]]]]]]]; lia.
  - unfold detect_one_msg. cbn [app detect_mouse]. change ((77 =? 77)%N) with true. cbv iota. cbn [bind]. unfold parse_x10. rewrite !Z2N.id by lia. rewrite Hp. cbn [m_shift m_alt m_ctrl m_action m_button].
    do 4 f_equal. f_equal; lia.
Qed.
Print Assumptions C44_x10_round_trip.

Example C44_x10_instance : event (Mouse 222 0 false true false ActionPress ButtonWheelDown) /\
  x10_bytes (Mouse 222 0 false true false ActionPress ButtonWheelDown) = [27; 91; 77; 105; 255; 33]%N.
Proof. split; [unfold event; cbn; repeat split; try lia; discriminate|vm_compute; reflexivity]. Qed.

(** The pattern for an SGR event may match anywhere later in the buffer: an unfinished "ESC [ <" swallows the text typed after
    it and reports a mouse event the terminal never sent. *)
Theorem C44_unfinished_prefix_swallows_text : forall seqs sizes more,
  detect_one_msg seqs sizes (ESC :: asc "[<hello 1;2;3M") more = Ret (Some (15%nat, MouseMsg (Mouse 1 2 false false false ActionPress ButtonMiddle))).
Proof. intros. vm_compute. reflexivity. Qed.
Print Assumptions C44_unfinished_prefix_swallows_text.

(** A wheel event is a press whatever the terminal sends: never a motion, never a release. *)
Theorem C44_wheel_is_press : forall seqs sizes b more w m,
  detect_one_msg seqs sizes b more = Ret (Some (w, MouseMsg m)) -> is_wheel (m_button m) = true -> m_action m = ActionPress.
Proof.
  intros seqs sizes b more w m E Hw.
  assert (P : forall z sgr, is_wheel (m_button (parse_mouse_button z sgr)) = true -> m_action (parse_mouse_button z sgr) = ActionPress).
  { intros z sgr. unfold parse_mouse_button. set (e := if sgr then z else z - 32). assert (H3 : 0 <= Z.land e 3 <= 3).
    { assert (Z.land e 3 = e mod 2 ^ 2) as -> by (change 3 with (Z.ones 2); apply Z.land_ones; lia). pose proof (Z.mod_pos_bound e (2 ^ 2) ltac:(lia)). lia. }
    set (r := Z.land e 3) in *. clearbody r. destruct (Z.land e 128 =? 0) eqn:E1; cbn [negb]; [destruct (Z.land e 64 =? 0) eqn:E2; cbn [negb]; [destruct (Z.eqb_spec r 3)|]|]; cbn [m_button m_action].
    - unfold is_wheel. cbn. discriminate.
    - assert (r = 0 \/ r = 1 \/ r = 2) as [->|[->| ->]] by lia; cbn; discriminate.
    - intros ->. now rewrite andb_false_r.
    - assert (r = 0 \/ r = 1 \/ r = 2 \/ r = 3) as [->|[->|[->| ->]]] by lia; cbn; discriminate. }
  assert (D : detect_mouse b = Ret (Some (w, MouseMsg m))).
  { unfold detect_one_msg in E. destruct (detect_mouse b) as [[r|]|]; [cbn [bind] in E; congruence| |discriminate]. exfalso. cbn [bind] in E.
    destruct (detect_report_focus b) as [[? f]|] eqn:F.
    { injection E as -> ->. revert F. unfold detect_report_focus. destruct (bytes_eqb _ _); [discriminate|]. destruct (bytes_eqb _ _); discriminate. }
    destruct (detect_bracketed_paste b) as [r|] eqn:F2.
    { injection E as ->. revert F2. unfold detect_bracketed_paste. destruct (has_prefix _ _); [|discriminate]. destruct (index_of _ _); discriminate. }
    destruct (detect_sequence seqs sizes b) as [[? f]|] eqn:F3.
    { injection E as -> ->. revert F3. unfold detect_sequence. destruct (known_prefix _ _ _) as [[? ?]|]; [discriminate|]. destruct (csi_match b); discriminate. }
    destruct b as [|b0 b]; [discriminate|]. cbv zeta in E.
    match type of E with context [if ?c then Ret (Some (_, KeyMsg _)) else _] => destruct c; [discriminate|] end.
    destruct (rune_run _ _ _) as [rs n]. match type of E with context [if ?c then Ret None else _] => destruct c; [discriminate|] end.
    destruct rs; [|discriminate]. match type of E with context [if ?c then _ else _] => destruct c; discriminate end. }
  clear E. assert (M : (exists b0 b1 b2, m = parse_x10 b0 b1 b2) \/ exists r, parse_sgr r = Ret m).
  { unfold detect_mouse in D. repeat (match type of D with context [match ?y with _ => _ end] => destruct y eqn:? end; try discriminate; try (injection D as _ <-; eauto; fail)).
    all: match type of D with context [parse_sgr ?r] => destruct (parse_sgr r) eqn:Q; [|discriminate]; cbn [bind] in D; injection D as _ <-; eauto end. }
  destruct M as [(b0 & b1 & b2 & ->)|(r & Q)].
  - unfold parse_x10 in *. cbn [m_button m_action] in *. now apply P.
  - unfold parse_sgr in Q. destruct (sgr_find r) as [g|]; [|discriminate]. injection Q as <-. cbn [m_button m_action] in *. rewrite Hw. cbn [negb andb]. rewrite andb_false_r. cbn [andb]. now apply P.
Qed.
Print Assumptions C44_wheel_is_press.
Example C44_wheel_instance : forall seqs sizes, detect_one_msg seqs sizes (ESC :: asc "[<97;2;3m") false = Ret (Some (10%nat, MouseMsg (Mouse 1 2 false false false ActionPress ButtonWheelDown))).
Proof. intros. vm_compute. reflexivity. Qed.
