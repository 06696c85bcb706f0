(** C41: read boundaries; more of C42 and C43. *)
From Verif Require Import Base P_Base M_Utf8 P_Utf8 M_KeyTable M_Decode S_Keys S_Mouse S_Stream P_Decode T_Decode T_Mouse.
From Coq Require Import ZArith NArith String Ascii List Bool Lia Permutation.
Import ListNotations.
Open Scope Z_scope.
Local Open Scope list_scope.

(** *** The shape of known sequences *)

Lemma all_known (P : bytes -> key -> bool) : forallb (fun e : bytes * key => P (fst e) (snd e)) the_seqs = true -> forall s k, known s k -> P s k = true.
Proof. intros H s k K. apply (tables_get _ _ the_tables) in K. rewrite kget_In in K by exact ext_distinct. rewrite forallb_forall in H. exact (H _ K). Qed.

(** Comparing two sequences as far as both go. *)
Fixpoint agree (a b : bytes) : bool := match a, b with x :: a, y :: b => (x =? y)%N && agree a b | _, _ => true end.
Lemma agree_begins s p (b : bytes) : begins s b -> begins p b -> agree s p = true.
Proof.
  revert p b. induction s as [|x s IH]; intros [|y p] b (t & ->) (t' & E); cbn [agree]; auto. cbn [app] in E. injection E as -> E. rewrite N.eqb_refl. apply (IH p (s ++ t)); [now exists t|now exists t'].
Qed.

Lemma known_apart s k (b : bytes) p : known s k -> begins s b -> begins p b -> forallb (fun e : bytes * key => negb (agree (fst e) p)) the_seqs = false.
Proof.
  intros K B P. destruct (forallb _ the_seqs) eqn:F; [|reflexivity]. pose proof (all_known (fun s _ => negb (agree s p)) F s k K) as X. cbn beta in X. rewrite (agree_begins s p b B P) in X. discriminate.
Qed.

Lemma not_focus s k (b : bytes) : known s k -> begins s b -> detect_report_focus b = None.
Proof.
  intros K B. unfold detect_report_focus. destruct (bytes_eqb b (ESC :: asc "[I")) eqn:E.
  { apply bytes_eqb_true in E. pose proof (known_prefix_spec _ _ b the_tables) as P. subst b. vm_compute in P. exfalso. exact (P _ _ K B). }
  destruct (bytes_eqb b (ESC :: asc "[O")) eqn:E'; [|reflexivity].
  apply bytes_eqb_true in E'. pose proof (known_prefix_spec _ _ b the_tables) as P. subst b. vm_compute in P. exfalso. exact (P _ _ K B).
Qed.
Lemma not_paste s k (b : bytes) : known s k -> begins s b -> detect_bracketed_paste b = None.
Proof.
  intros K B. unfold detect_bracketed_paste. destruct (has_prefix bp_start b) eqn:E; [|reflexivity]. apply has_prefix_true in E. pose proof (known_apart s k b bp_start K B E) as X. vm_compute in X. discriminate.
Qed.
Lemma not_mouse s k (b : bytes) : known s k -> begins s b -> detect_mouse b = Ret None.
Proof.
  intros K B.
  assert (M1 : ~ begins [27; 91; 77]%N b) by (intros P; pose proof (known_apart s k b _ K B P) as X; vm_compute in X; discriminate).
  assert (M2 : ~ begins [27; 91; 60]%N b) by (intros P; pose proof (known_apart s k b _ K B P) as X; vm_compute in X; discriminate).
  clear K B. destruct b as [|x b]; [reflexivity|]. unfold detect_mouse.
  destruct (N.eq_dec x 27) as [->|Nx]; [|repeat (match goal with |- context [match ?y with _ => _ end] => destruct y end; try reflexivity; try congruence)].
  destruct b as [|x b]; [reflexivity|].
  destruct (N.eq_dec x 91) as [->|Nx]; [|repeat (match goal with |- context [match ?y with _ => _ end] => destruct y end; try reflexivity; try congruence)].
  destruct b as [|c [|b0 [|b1 [|b2 b]]]]; try reflexivity.
  destruct (N.eqb_spec c 77) as [->|]; [exfalso; apply M1; now exists (b0 :: b1 :: b2 :: b)|]. destruct (N.eqb_spec c 60) as [->|]; [exfalso; apply M2; now exists (b0 :: b1 :: b2 :: b)|]. reflexivity.
Qed.

(** If the input begins with known key sequences, the message is the key of the longest of them and exactly its bytes are
    consumed, in every order of visiting the maps; no other kind of message takes precedence. *)
Theorem C42_message : forall seqs sizes b s k more, tables seqs sizes -> known s k -> begins s b ->
  (forall s' k', known s' k' -> begins s' b -> (length s' <= length s)%nat) ->
  detect_one_msg seqs sizes b more = Ret (Some (length s, KeyMsg k)).
Proof.
  intros seqs sizes b s k more T K B M. unfold detect_one_msg. rewrite (not_mouse s k b K B). cbn [bind]. rewrite (not_focus s k b K B), (not_paste s k b K B).
  destruct (C42_longest_wins seqs sizes b T) as (H & _). rewrite (H s k K B M). reflexivity.
Qed.
Print Assumptions C42_message.

Example C42_message_instance : let b := ESC :: asc "OPabc" in
  known (ESC :: asc "OP") (Key KeyF1 [] false false) /\ begins (ESC :: asc "OP") b /\
  (forall s' k', known s' k' -> begins s' b -> (length s' <= 3)%nat) /\
  detect_one_msg the_seqs the_sizes b true = Ret (Some (3%nat, KeyMsg (Key KeyF1 [] false false))).
Proof.
  cbv zeta. split; [apply (tables_get _ _ the_tables); vm_compute; reflexivity|]. split; [now exists (asc "abc")|]. split; [|vm_compute; reflexivity].
  intros s' k' K B. pose proof (known_prefix_spec _ _ (ESC :: asc "OPabc") the_tables) as P. vm_compute in P. destruct P as (s & L & _ & _ & P). exact (P s' k' K B).
Qed.

(** *** Text *)

Definition text_char (c : N) : bool := negb (stops c) && negb (c =? 0)%N.
Lemma text_char_stops c : text_char c = negb (stops c).
Proof. unfold text_char, stops. destruct (N.eqb_spec c 0) as [->|]; [reflexivity|now rewrite andb_true_r]. Qed.

Lemma known_first s k : known s k -> exists c s', s = c :: s' /\ (c = ESC \/ (s' = [] /\ (1 <= c <= 32)%N \/ c = 127%N)).
Proof.
  intros K. pose proof (all_known (fun s _ => match s with [] => false | c :: s' => (c =? ESC)%N || (match s' with [] => true | _ => false end && in_range 1 c 32) || (c =? 127)%N end) ltac:(vm_compute; reflexivity) s k K) as X. cbn beta in X.
  destruct s as [|c s']; [discriminate|]. exists c, s'. split; [reflexivity|]. rewrite !orb_true_iff, andb_true_iff, !N.eqb_eq, in_range_spec in X. destruct X as [[X|[X Y]]|X]; auto. right. left. destruct s'; [auto|discriminate].
Qed.
Lemma known_single s k c s' : known s k -> s = c :: s' -> c <> ESC -> s' = [].
Proof.
  intros K -> N. pose proof (all_known (fun s _ => match s with [] => false | c :: s' => (c =? ESC)%N || match s' with [] => true | _ => false end end) ltac:(vm_compute; reflexivity) _ k K) as X. cbn beta in X.
  rewrite orb_true_iff, N.eqb_eq in X. destruct X as [X|X]; [congruence|]. destruct s'; [reflexivity|discriminate].
Qed.

Lemma first_not_esc b c t : b = c :: t -> c <> ESC -> detect_mouse b = Ret None /\ detect_report_focus b = None /\ detect_bracketed_paste b = None /\ csi_match b = None.
Proof.
  intros -> N. unfold ESC in N. repeat split.
  - unfold detect_mouse. repeat (match goal with |- context [match ?y with _ => _ end] => destruct y end; try reflexivity; try congruence).
  - unfold detect_report_focus. destruct (bytes_eqb _ (ESC :: asc "[I")) eqn:E; [apply bytes_eqb_true in E; unfold ESC in E; congruence|].
    destruct (bytes_eqb _ (ESC :: asc "[O")) eqn:E'; [apply bytes_eqb_true in E'; unfold ESC in E'; congruence|]. reflexivity.
  - unfold detect_bracketed_paste. destruct (has_prefix bp_start (c :: t)) eqn:E; [|reflexivity]. apply has_prefix_true in E. destruct E as (v & E). unfold bp_start, ESC in E. cbn [app] in E. congruence.
  - unfold csi_match. repeat (match goal with |- context [match ?y with _ => _ end] => destruct y end; try reflexivity; try congruence).
Qed.

Lemma encode_first c : scalar c = true -> (c < 128)%N /\ encode_rune c = [c] \/ (128 <= c)%N /\ exists x r, encode_rune c = x :: r /\ (128 <= x)%N.
Proof.
  intros H. unfold encode_rune. rewrite H. destruct (N.ltb_spec c 128); [left; auto|right]. split; [assumption|].
  destruct (c <? 2048)%N; [|destruct (c <? 65536)%N]; eexists; eexists; (split; [reflexivity|]); clear; match goal with |- (_ <= _ + ?q)%N => generalize q end; intros; lia.
Qed.

(** A maximal run of text characters is found whole. *)
Lemma rune_run_text rs t : forall fuel, (forall c, In c rs -> scalar c = true /\ stops c = false) -> (length (encode rs ++ t) <= fuel)%nat ->
  (t = [] \/ stops (fst (decode_rune t)) = true) -> rune_run fuel false (encode rs ++ t) = (rs, length (encode rs)).
Proof.
  induction rs as [|r rs IH]; intros fuel H L Ht.
  - cbn [encode flat_map app length] in *. destruct fuel as [|f]; [destruct t; reflexivity|]. destruct t as [|c t]; [reflexivity|]. rewrite rune_run_step by discriminate.
    destruct Ht as [Ht|Ht]; [discriminate|]. destruct (decode_rune (c :: t)) as [r w]. cbn [fst] in Ht. now rewrite Ht.
  - destruct (H r (or_introl eq_refl)) as [Hs Hr]. assert (E : encode (r :: rs) ++ t = encode_rune r ++ (encode rs ++ t)) by (unfold encode; cbn [flat_map]; now rewrite <- app_assoc).
    rewrite E in *. pose proof (decode_encode r (encode rs ++ t) Hs) as D.
    assert (Hne : (1 <= length (encode_rune r))%nat) by (pose proof (encode_nonempty r); destruct (encode_rune r); [congruence|cbn; lia]).
    destruct fuel as [|f]; [rewrite app_length in L; lia|].
    rewrite rune_run_step by (intros X; apply app_eq_nil in X; destruct X as [X _]; now apply encode_nonempty in X). rewrite D, Hr.
    rewrite skipn_app, skipn_all, Nat.sub_diag. cbn [skipn app]. rewrite IH; [|intros; apply H; now right|rewrite app_length in L; lia|exact Ht].
    unfold encode. cbn [flat_map]. now rewrite app_length.
Qed.

Lemma split_run cs : exists rs cs', cs = rs ++ cs' /\ (forall c, In c rs -> stops c = false) /\ match cs' with [] => True | c :: _ => stops c = true end.
Proof.
  induction cs as [|c cs (rs & cs' & -> & H & H')]; [exists [], []; repeat split; auto; contradiction|]. destruct (stops c) eqn:E.
  - exists [], (c :: rs ++ cs'). repeat split; auto. contradiction.
  - exists (c :: rs), cs'. repeat split; auto. intros x [<-|I]; auto.
Qed.

(** One message of text. *)
Lemma detect_text seqs sizes c cs t more : tables seqs sizes -> (forall x, In x (c :: cs) -> plain_char x) -> (t = [] \/ exists t', t = ESC :: t') ->
  (stops c = true /\ detect_one_msg seqs sizes (encode (c :: cs) ++ t) more = Ret (Some (length (encode_rune c), KeyMsg (char_press c)))) \/
  (exists rs cs', c :: cs = rs ++ cs' /\ rs <> [] /\ (forall x, In x rs -> stops x = false) /\
     detect_one_msg seqs sizes (encode (c :: cs) ++ t) more = if more && (length (encode cs' ++ t) =? 0)%nat then Ret None else Ret (Some (length (encode rs), KeyMsg (Key KeyRunes rs false false)))).
Proof.
  intros T H Ht. destruct (H c (or_introl eq_refl)) as (Hs & He & Hr). set (b := encode (c :: cs) ++ t).
  assert (Hb : exists x y, b = x :: y /\ x <> ESC /\ ((c < 128)%N /\ x = c /\ encode_rune c = [c] \/ (128 <= c)%N /\ (128 <= x)%N)).
  { unfold b, encode. cbn [flat_map]. destruct (encode_first c Hs) as [[L E]|(L & x & r & E & Lx)]; rewrite E; cbn [app]; eexists; eexists; (split; [reflexivity|]); unfold ESC in *; (split; [lia || congruence|]); auto. }
  destruct Hb as (x & y & Eb & Nx & Hx). destruct (first_not_esc b x y Eb Nx) as (D1 & D2 & D3 & D4).
  unfold detect_one_msg. rewrite D1. cbn [bind]. rewrite D2, D3. unfold detect_sequence.
  pose proof (known_prefix_spec seqs sizes b T) as K.
  assert (KS : forall s k, known s k -> begins s b -> s = [x] /\ ((1 <= x <= 31)%N /\ k = Key (Z.of_N x) [] false false \/ x = 32%N /\ k = Key KeySpace [32%N] false false \/ x = 127%N /\ k = Key 127 [] false false)).
  { intros s k Hk (v & E). rewrite Eb in E. destruct (known_first s k Hk) as (c0 & s' & -> & _). cbn [app] in E. injection E as <- _. pose proof (known_single _ _ _ _ Hk eq_refl Nx) as ->. split; [reflexivity|].
    pose proof (all_known (fun s k => match s with [z] => (z =? ESC)%N || (in_range 1 z 31 && (k_type k =? Z.of_N z) && match k_runes k with [] => true | _ => false end && negb (k_alt k) && negb (k_paste k))
        || ((z =? 32)%N && (k_type k =? KeySpace) && bytes_eqb (k_runes k) [32%N] && negb (k_alt k) && negb (k_paste k))
        || ((z =? 127)%N && (k_type k =? 127) && match k_runes k with [] => true | _ => false end && negb (k_alt k) && negb (k_paste k)) | _ => true end) ltac:(vm_compute; reflexivity) _ k Hk) as X. cbn beta in X.
    destruct k as [ty rs al pa]. cbn [k_type k_runes k_alt k_paste] in X. rewrite !orb_true_iff, !andb_true_iff, !N.eqb_eq, !Z.eqb_eq, in_range_spec, !negb_true_iff in X.
    destruct X as [[[X|((((X & ->) & R) & ->) & ->)]|((((-> & ->) & R) & ->) & ->)]|((((-> & ->) & R) & ->) & ->)]; [congruence| | |].
    - left. split; [exact X|]. destruct rs; [reflexivity|discriminate].
    - right. left. split; [reflexivity|]. apply bytes_eqb_true in R. now subst rs.
    - right. right. split; [reflexivity|]. destruct rs; [reflexivity|discriminate]. }
  destruct (stops c) eqn:Es.
  - left. split; [reflexivity|]. unfold stops in Es. rewrite !orb_true_iff, !N.eqb_eq, N.leb_le in Es.
    destruct Hx as [(L & -> & E1)|(L & _)]; [|unfold RuneError in *; lia]. rewrite E1. cbn [length].
    destruct (N.eq_dec c 0) as [->|N0].
    { assert (Kn : known_prefix seqs sizes b = None).
      { destruct (known_prefix seqs sizes b) as [[w k]|]; [|reflexivity]. destruct K as (s & _ & Hk & Hb & _). destruct (KS s k Hk Hb) as (_ & [[X _]|[[X _]|[X _]]]); lia. }
      rewrite Kn, D4. rewrite Eb. reflexivity. }
    assert (Kc : known [c] (char_press c)).
    { unfold char_press. destruct ((c <=? 31)%N || (c =? 127)%N) eqn:E.
      - apply orb_prop in E. rewrite N.leb_le, N.eqb_eq in E. apply known_control; [lia|exact He].
      - rewrite orb_false_iff, N.leb_gt, N.eqb_neq in E. assert (c = 32%N) as -> by (unfold RuneError in *; lia). apply known_space. }
    assert (Bc : begins [c] b) by (exists y; exact Eb).
    destruct (known_prefix seqs sizes b) as [[w k]|]; [|exfalso; exact (K _ _ Kc Bc)].
    destruct K as (s & <- & Hk & Hb & _). destruct (KS s k Hk Hb) as (-> & _). rewrite (known_fun _ _ _ Hk Kc). reflexivity.
  - right. apply stops_false in Es. destruct Es as (S1 & S2 & S3).
    assert (Kn : known_prefix seqs sizes b = None).
    { destruct (known_prefix seqs sizes b) as [[w k]|]; [|reflexivity]. destruct K as (s & _ & Hk & Hb & _). destruct (KS s k Hk Hb) as (_ & [[X _]|[[X _]|[X _]]]); destruct Hx as [(L & E1 & _)|(L & L')]; lia. }
    rewrite Kn, D4. destruct (split_run (c :: cs)) as (rs & cs' & Ec & R1 & R2).
    assert (Hrs : rs <> []). { intros ->. cbn [app] in Ec. subst cs'. unfold stops in R2. rewrite !orb_true_iff, !N.eqb_eq, N.leb_le in R2. unfold RuneError in *. lia. }
    exists rs, cs'. split; [exact Ec|]. split; [exact Hrs|]. split; [exact R1|].
    assert (Eenc : b = encode rs ++ (encode cs' ++ t)) by (unfold b; rewrite Ec; unfold encode; rewrite flat_map_app, <- app_assoc; reflexivity).
    assert (RR : rune_run (length b) false b = (rs, length (encode rs))).
    { rewrite Eenc. apply rune_run_text; [|lia|].
      - intros z Hz. split; [|now apply R1]. apply (H z). rewrite Ec. apply in_or_app. now left.
      - destruct cs' as [|z cs']; [destruct Ht as [->|(t' & ->)]; [now left|right; reflexivity]|right]. unfold encode. cbn [flat_map]. rewrite <- app_assoc, decode_encode; [exact R2|].
        apply (H z). rewrite Ec. apply in_or_app. right. now left. }
    clearbody b. destruct b as [|x' y']; [discriminate|]. injection Eb as -> ->.
    destruct (N.eqb_spec x ESC); [congruence|]. cbv zeta. cbn [skipn nth_error].
    replace (match x with 0%N => true | _ => false end) with false by (destruct x; [destruct Hx as [(L & E1 & _)|(L & L')]; lia|reflexivity]).
    set (b := x :: y) in *.
    rewrite RR. cbn [Nat.add]. rewrite (andb_comm _ more). replace (length b <=? length (encode rs))%nat with (length (encode cs' ++ t) =? 0)%nat.
    2:{ rewrite Eenc, (app_length (encode rs)). destruct (Nat.eqb_spec (length (encode cs' ++ t)) 0), (Nat.leb_spec (length (encode rs) + length (encode cs' ++ t)) (length (encode rs))); auto; lia. }
    destruct (more && _); [reflexivity|]. destruct rs as [|r0 rs]; [easy|].
    assert (N32 : r0 <> 32%N). { specialize (R1 r0 (or_introl eq_refl)). apply stops_false in R1. lia. }
    replace (match r0 :: rs with [32%N] => true | _ => false end) with false; [reflexivity|]. symmetry.
    destruct rs; [|repeat (match goal with |- context [match ?z with _ => _ end] => destruct z end; try reflexivity; try congruence)].
    repeat (match goal with |- context [match ?z with _ => _ end] => destruct z end; try reflexivity; try congruence).
Qed.

Definition pressed (c : N) : msg := KeyMsg (char_press c).
Definition shown (ms : list (bytes * msg)) : list msg := flat_map presses (map snd ms).
Lemma shown_app a b : shown (a ++ b) = shown a ++ shown b.
Proof. unfold shown. now rewrite map_app, flat_map_app. Qed.

Lemma presses_char c : presses (pressed c) = [pressed c].
Proof.
  unfold pressed, char_press, presses. destruct (_ || _) eqn:E; [|destruct (c =? 32)%N; reflexivity].
  replace (Z.of_N c =? KeyRunes) with false by (symmetry; apply Z.eqb_neq; unfold KeyRunes; lia). reflexivity.
Qed.
Lemma pressed_text c : stops c = false -> pressed c = KeyMsg (Key KeyRunes [c] false false).
Proof.
  intros H. apply stops_false in H. destruct H as (_ & H1 & H2). unfold pressed, char_press.
  destruct (N.leb_spec c 31); [lia|]. destruct (N.eqb_spec c 127); [congruence|]. destruct (N.eqb_spec c 32); [lia|]. reflexivity.
Qed.
Lemma presses_run rs : (forall c, In c rs -> stops c = false) -> presses (KeyMsg (Key KeyRunes rs false false)) = map pressed rs.
Proof. intros H. cbn [presses]. change ((KeyRunes =? KeyRunes) && negb false) with true. cbv iota. apply map_ext_in. intros c Hc. symmetry. apply pressed_text. auto. Qed.

Lemma encode_app a b : encode (a ++ b) = encode a ++ encode b.
Proof. unfold encode. apply flat_map_app. Qed.

Lemma scan_text seqs sizes more t : tables seqs sizes -> (t = [] \/ exists t', t = ESC :: t') -> forall n cs fuel, (length cs <= n)%nat -> (forall c, In c cs -> plain_char c) ->
  (length (encode cs ++ t) <= fuel)%nat -> exists ms pre rs, cs = pre ++ rs /\ shown ms = map pressed pre /\ (forall c, In c rs -> stops c = false) /\
   ((rs <> [] /\ t = [] /\ more = true /\ scan seqs sizes fuel (encode cs ++ t) more = Ret (ms, encode rs)) \/
    (rs = [] /\ exists f', (length t <= f')%nat /\ scan seqs sizes fuel (encode cs ++ t) more = let! (ms', lo) := scan seqs sizes f' t more in Ret (ms ++ ms', lo))).
Proof.
  intros T Ht. induction n as [|n IH]; intros cs fuel Hn Hp Hf.
  - destruct cs; [|cbn in Hn; lia]. exists [], [], []. repeat split; auto; [contradiction|]. right. split; [reflexivity|]. exists fuel. split; [exact Hf|]. cbn [encode flat_map app]. destruct (scan seqs sizes fuel t more) as [[? ?]|]; reflexivity.
  - destruct cs as [|c cs].
    { exists [], [], []. repeat split; auto; [contradiction|]. right. split; [reflexivity|]. exists fuel. split; [exact Hf|]. cbn [encode flat_map app]. destruct (scan seqs sizes fuel t more) as [[? ?]|]; reflexivity. }
    assert (Hne : encode (c :: cs) ++ t <> []).
    { unfold encode. cbn [flat_map]. intros X. apply app_eq_nil in X. destruct X as [X _]. apply app_eq_nil in X. destruct X as [X _]. now apply encode_nonempty in X. }
    destruct fuel as [|f]. { destruct (encode (c :: cs) ++ t); [congruence|cbn in Hf; lia]. }
    assert (Step : scan seqs sizes (S f) (encode (c :: cs) ++ t) more = let! r := detect_one_msg seqs sizes (encode (c :: cs) ++ t) more in
        match r with None => Ret ([], encode (c :: cs) ++ t) | Some (w, m) => let! (ms, rest) := scan seqs sizes f (skipn w (encode (c :: cs) ++ t)) more in Ret ((firstn w (encode (c :: cs) ++ t), m) :: ms, rest) end).
    { destruct (encode (c :: cs) ++ t); [congruence|reflexivity]. }
    rewrite Step. clear Step.
    (* a step over the characters pre0, of which the message is m *)
    assert (G : forall pre0 cs0 m, c :: cs = pre0 ++ cs0 -> pre0 <> [] -> presses m = map pressed pre0 -> detect_one_msg seqs sizes (encode (c :: cs) ++ t) more = Ret (Some (length (encode pre0), m)) ->
       exists ms pre rs, c :: cs = pre ++ rs /\ shown ms = map pressed pre /\ (forall c, In c rs -> stops c = false) /\
   ((rs <> [] /\ t = [] /\ more = true /\ (let! r := detect_one_msg seqs sizes (encode (c :: cs) ++ t) more in
        match r with None => Ret ([], encode (c :: cs) ++ t) | Some (w, m) => let! (ms, rest) := scan seqs sizes f (skipn w (encode (c :: cs) ++ t)) more in Ret ((firstn w (encode (c :: cs) ++ t), m) :: ms, rest) end) = Ret (ms, encode rs)) \/
    (rs = [] /\ exists f', (length t <= f')%nat /\ (let! r := detect_one_msg seqs sizes (encode (c :: cs) ++ t) more in
        match r with None => Ret ([], encode (c :: cs) ++ t) | Some (w, m) => let! (ms, rest) := scan seqs sizes f (skipn w (encode (c :: cs) ++ t)) more in Ret ((firstn w (encode (c :: cs) ++ t), m) :: ms, rest) end) = let! (ms', lo) := scan seqs sizes f' t more in Ret (ms ++ ms', lo)))).
    { intros pre0 cs0 m E0 N0 P0 D. rewrite D. cbn [bind]. rewrite E0, encode_app, <- app_assoc. rewrite skipn_app, skipn_all, Nat.sub_diag. cbn [skipn app].
      assert (Lp : (1 <= length pre0)%nat) by (destruct pre0; [congruence|cbn; lia]).
      assert (Le : (1 <= length (encode pre0))%nat). { destruct pre0 as [|z ?]; [congruence|]. unfold encode. cbn [flat_map]. rewrite app_length. pose proof (encode_nonempty z). destruct (encode_rune z); [congruence|cbn; lia]. }
      destruct (IH cs0 f) as (ms & pre & rs & E1 & S1 & R1 & C1).
      - apply (f_equal (@length N)) in E0. rewrite app_length in E0. cbn [length] in *. lia.
      - intros z Hz. apply Hp. rewrite E0. apply in_or_app. now right.
      - rewrite E0, encode_app, <- app_assoc, app_length in Hf. lia.
      - exists ((firstn (length (encode pre0)) (encode pre0 ++ encode cs0 ++ t), m) :: ms), (pre0 ++ pre), rs. split; [rewrite E1; apply app_assoc|]. split; [|split; [exact R1|]].
        + unfold shown in *. cbn [map snd flat_map]. rewrite S1, P0. now rewrite map_app.
        + destruct C1 as [(X1 & X2 & X3 & X4)|(X1 & f' & X2 & X3)].
          * left. repeat split; auto. rewrite X4. reflexivity.
          * right. split; [exact X1|]. exists f'. split; [exact X2|]. rewrite X3. destruct (scan seqs sizes f' t more) as [[? ?]|]; reflexivity. }
    destruct (detect_text seqs sizes c cs t more T Hp Ht) as [[Hs D]|(rs & cs' & Ec & Nrs & Hrs & D)].
    + apply (G [c] cs (pressed c)); [reflexivity|discriminate|apply presses_char|]. rewrite D. unfold encode. cbn [flat_map]. rewrite app_nil_r. reflexivity.
    + destruct (more && (length (encode cs' ++ t) =? 0)%nat) eqn:Em.
      * apply andb_prop in Em. destruct Em as [-> E0]. apply Nat.eqb_eq in E0. rewrite D. cbn [bind].
        assert (t = [] /\ cs' = []) as [-> ->].
        { rewrite app_length in E0. split; [destruct t; [reflexivity|cbn in E0; lia]|]. destruct cs' as [|z ?]; [reflexivity|]. exfalso. unfold encode in E0. cbn [flat_map] in E0. rewrite app_length in E0. pose proof (encode_nonempty z). destruct (encode_rune z); [congruence|cbn in E0; lia]. }
        rewrite app_nil_r in Ec. subst rs. exists [], [], (c :: cs). repeat split; auto. left. rewrite app_nil_r. repeat split; auto.
      * apply (G rs cs' (KeyMsg (Key KeyRunes rs false false))); auto. now apply presses_run.
Qed.

(** *** Reads with whole events *)

Lemma scan_whole seqs sizes f b more m : b <> [] -> (length b <= f)%nat -> detect_one_msg seqs sizes b more = Ret (Some (length b, m)) -> scan seqs sizes f b more = Ret ([(b, m)], []).
Proof.
  intros N L D. destruct f as [|f]; [destruct b; [congruence|cbn in L; lia]|]. destruct b as [|c b]; [congruence|]. cbn [scan]. rewrite D. cbn [bind]. rewrite skipn_all, firstn_all. destruct f; reflexivity.
Qed.

Lemma carries_scan seqs sizes b ms more : tables seqs sizes -> carries b ms -> more = (length b =? 256)%nat ->
  (exists cs, (forall c, In c cs -> plain_char c) /\ b = encode cs /\ ms = map pressed cs) \/
  (exists t m, b = ESC :: t /\ ms = [m] /\ presses m = [m] /\ forall f, (length b <= f)%nat -> scan seqs sizes f b more = Ret ([(b, m)], [])).
Proof.
  intros T C Em. destruct C as [cs H|s k K| | | |m Hm Hx Hy|text Hx Hno].
  - left. exists cs. auto.
  - right. exists s, (KeyMsg k). repeat split; auto.
    + pose proof (all_known (fun _ k => negb (k_type k =? KeyRunes)) ltac:(vm_compute; reflexivity) _ _ K) as X. cbn beta in X. destruct k as [ty rs al pa]. cbn [presses k_type] in *. apply negb_true_iff in X. now rewrite X.
    + intros f L. apply scan_whole; [discriminate|exact L|]. apply C42_message; auto; [exists []; now rewrite app_nil_r|]. intros s' k' _ (t & E). rewrite E, app_length. lia.
  - right. exists [], (KeyMsg (Key KeyEscape [] false false)). repeat split; auto. intros f L. subst more. apply scan_whole; [discriminate|exact L|].
    unfold detect_one_msg. change (detect_mouse [ESC]) with (@Ret (option (nat * msg)) None). cbn [bind]. change (detect_report_focus [ESC]) with (@None (nat * msg)). change (detect_bracketed_paste [ESC]) with (@None (option (nat * msg))). unfold detect_sequence.
    pose proof (known_prefix_spec seqs sizes [ESC] T) as K. destruct (known_prefix seqs sizes [ESC]) as [[w k]|]; [|reflexivity]. exfalso. destruct K as (s & L' & K & B & _).
    pose proof (known_prefix_spec _ _ [ESC] the_tables) as K'. vm_compute in K'. exact (K' s k K B).
  - right. exists (asc "[I"), FocusMsg. repeat split; auto. intros f L. subst more. apply scan_whole; [discriminate|exact L|]. reflexivity.
  - right. exists (asc "[O"), BlurMsg. repeat split; auto. intros f L. subst more. apply scan_whole; [discriminate|exact L|]. reflexivity.
  - right. exists (tl (sgr_bytes m)), (MouseMsg m). repeat split; auto. intros f L. apply scan_whole; [discriminate|exact L|]. rewrite <- (app_nil_r (sgr_bytes m)) at 1. now apply C44_sgr_round_trip.
  - right. exists (tl (bp_start ++ encode text ++ bp_end)), (KeyMsg (Key KeyRunes text false true)). repeat split; auto. intros f L. apply scan_whole; [discriminate|exact L|].
    pose proof (C43_paste_verbatim seqs sizes text [] more T) as P. rewrite app_nil_r in P. apply P; [|exact Hno]. now apply Forall_forall.
Qed.

Lemma read_carries seqs sizes : tables seqs sizes -> forall reads exps, Forall2 carries reads exps -> forall rs0, (forall c, In c rs0 -> plain_char c) ->
  exists ms rs, read_inputs seqs sizes (encode rs0) reads = Ret (ms, encode rs) /\ shown ms ++ map pressed rs = map pressed rs0 ++ concat exps /\ (forall c, In c rs -> plain_char c) /\
    (reads <> [] -> length (last reads []) <> 256%nat -> rs = []).
Proof.
  intros T reads exps H. induction H as [|b e reads exps C H IH]; intros rs0 P0.
  - exists [], rs0. split; [reflexivity|]. split; [symmetry; apply app_nil_r|]. split; [exact P0|]. intros X. now elim X.
  - cbn [read_inputs]. unfold read_size.
    assert (X : exists ms rs, scan seqs sizes (length (encode rs0 ++ b)) (encode rs0 ++ b) (length b =? 256)%nat = Ret (ms, encode rs) /\
        shown ms ++ map pressed rs = map pressed rs0 ++ e /\ (forall c, In c rs -> plain_char c) /\ (length b <> 256%nat -> rs = [])).
    { destruct (carries_scan seqs sizes b e (length b =? 256)%nat T C eq_refl) as [(cs & Pc & -> & ->)|(t & m & Eb & -> & Pm & S)].
      - rewrite <- encode_app, <- map_app. assert (Pa : forall c, In c (rs0 ++ cs) -> plain_char c) by (intros c Hc; apply in_app_iff in Hc; destruct Hc; auto).
        destruct (scan_text seqs sizes (length (encode cs) =? 256)%nat [] T (or_introl eq_refl) (length (rs0 ++ cs)) (rs0 ++ cs) (length (encode (rs0 ++ cs)))) as (ms & pre & rs & E & S & R & D); auto; [rewrite app_nil_r; lia|].
        rewrite app_nil_r in D. assert (Pr : forall c, In c rs -> plain_char c) by (intros c Hc; apply Pa; rewrite E; apply in_or_app; now right). destruct D as [(N & _ & M & D)|(N & f' & L & D)].
        + exists ms, rs. rewrite D. split; [reflexivity|]. split; [rewrite S, E; symmetry; apply map_app|]. split; [exact Pr|]. intros L. apply Nat.eqb_eq in M. contradiction.
        + subst rs. exists ms, []. rewrite D. replace (scan seqs sizes f' [] _) with (@Ret (list (bytes * msg) * bytes) ([], [])) by (now destruct f'). cbn [bind]. rewrite app_nil_r in *. split; [reflexivity|]. cbn [map]. rewrite app_nil_r. split; [rewrite S, E; reflexivity|]. auto.
      - assert (Hb : exists t', b = ESC :: t') by (now exists t).
        destruct (scan_text seqs sizes (length b =? 256)%nat b T (or_intror Hb) (length rs0) rs0 (length (encode rs0 ++ b))) as (ms & pre & rs & E & Sh & R & D); auto.
        destruct D as [(_ & X & _)|(-> & f' & L & D)]; [clear - Eb X; subst b; discriminate|]. rewrite D, S by exact L. cbn [bind]. rewrite app_nil_r in E. subst pre. exists (ms ++ [(b, m)]), []. split; [reflexivity|].
        rewrite shown_app, Sh. unfold shown at 1. cbn [map snd flat_map]. rewrite Pm, !app_nil_r. split; [reflexivity|]. split; [contradiction|reflexivity]. }
    destruct X as (ms & rs & -> & Sh & Pr & Full). cbn [bind]. destruct (IH rs Pr) as (ms' & rs' & E' & Sh' & Pr' & F'). rewrite E'. cbn [bind]. exists (ms ++ ms'), rs'. split; [reflexivity|]. split.
    + rewrite shown_app, <- app_assoc, Sh'. cbn [concat]. rewrite !app_assoc. now rewrite Sh.
    + split; [exact Pr'|]. intros _ L. destruct reads as [|r1 reads']; [|apply F'; [discriminate|exact L]]. cbn [last] in L. specialize (Full L). subst rs. cbn [read_inputs encode flat_map] in E'. injection E' as <- E'. destruct rs' as [|z ?]; [reflexivity|]. exfalso.
      unfold encode in E'. cbn [flat_map] in E'. symmetry in E'. apply app_eq_nil in E'. destruct E' as [E' _]. now apply encode_nonempty in E'.
Qed.

(** When every read carries whole events - characters, however grouped, or one key sequence, mouse event, paste, focus change or
    escape - the key presses and other messages delivered are exactly those events in order, wherever the text is cut and even
    when a read fills the buffer (then its last characters may be held back until the next read). *)
Theorem C41_whole_events_partial : forall seqs sizes reads events, tables seqs sizes -> Forall2 carries reads events ->
  exists ms held, read_inputs seqs sizes [] reads = Ret (ms, encode held) /\
    flat_map presses (map snd ms) ++ map (fun c => KeyMsg (char_press c)) held = concat events /\
    (length (last reads []) <> 256%nat -> held = []).
Proof.
  intros seqs sizes reads events T H. destruct (read_carries seqs sizes T reads events H [] ltac:(contradiction)) as (ms & rs & E & S & _ & L). exists ms, rs. split; [exact E|]. split; [exact S|].
  intros N. destruct reads as [|r reads]; [|apply L; [discriminate|exact N]]. cbn in E. injection E as <- E. destruct rs as [|z ?]; [reflexivity|]. exfalso.
  unfold encode in E. cbn [flat_map] in E. symmetry in E. apply app_eq_nil in E. destruct E as [E _]. now apply encode_nonempty in E.
Qed.
Print Assumptions C41_whole_events_partial.

Example C41_instance : Forall2 carries [encode [104; 105; 233]%N; ESC :: asc "[A"; encode [13; 32; 8364]%N; [ESC]]
   [map pressed [104; 105; 233]%N; [KeyMsg (Key KeyUp [] false false)]; map pressed [13; 32; 8364]%N; [KeyMsg (Key KeyEscape [] false false)]] /\
  read_inputs the_seqs the_sizes [] [encode [104; 105; 233]%N; ESC :: asc "[A"; encode [13; 32; 8364]%N; [ESC]] =
    Ret ([(encode [104; 105; 233]%N, KeyMsg (Key KeyRunes [104; 105; 233]%N false false)); (ESC :: asc "[A", KeyMsg (Key KeyUp [] false false));
          ([13%N], KeyMsg (Key KeyEnter [] false false)); ([32%N], KeyMsg (Key KeySpace [32%N] false false)); (encode [8364]%N, KeyMsg (Key KeyRunes [8364%N] false false));
          ([ESC], KeyMsg (Key KeyEscape [] false false))], []).
Proof.
  split; [|vm_compute; reflexivity]. unfold pressed. repeat (constructor; [|]).
  - apply carries_text. intros c [<-|[<-|[<-|[]]]]; vm_compute; auto; repeat split; discriminate.
  - apply carries_key. apply (tables_get _ _ the_tables). vm_compute. reflexivity.
  - apply carries_text. intros c [<-|[<-|[<-|[]]]]; repeat split; vm_compute; congruence.
  - apply carries_escape.
  - constructor.
Qed.

(** Typed text is delivered the same however it is cut between characters. *)
Theorem C41_text_cut_anywhere : forall seqs sizes chunks chunks', tables seqs sizes ->
  (forall c, In c (concat chunks) -> plain_char c) -> concat chunks = concat chunks' ->
  length (last (map encode chunks) []) <> 256%nat -> length (last (map encode chunks') []) <> 256%nat ->
  exists ms ms', read_inputs seqs sizes [] (map encode chunks) = Ret (ms, []) /\ read_inputs seqs sizes [] (map encode chunks') = Ret (ms', []) /\
    flat_map presses (map snd ms) = flat_map presses (map snd ms').
Proof.
  intros seqs sizes chunks chunks' T P E L L'.
  assert (G : forall ch, (forall c, In c (concat ch) -> plain_char c) -> length (last (map encode ch) []) <> 256%nat ->
     exists ms, read_inputs seqs sizes [] (map encode ch) = Ret (ms, []) /\ flat_map presses (map snd ms) = map pressed (concat ch)).
  { clear - T. intros ch P L. assert (F : Forall2 carries (map encode ch) (map (map pressed) ch)).
    { clear L. induction ch as [|c ch IH]; [constructor|]. cbn [map]. constructor; [|apply IH; intros; apply P; cbn; apply in_or_app; now right]. apply carries_text. intros; apply P. cbn. apply in_or_app. now left. }
    destruct (C41_whole_events_partial seqs sizes _ _ T F) as (ms & held & R & S & H). specialize (H L). subst held. exists ms. split; [exact R|]. cbn [map] in S. rewrite app_nil_r in S. rewrite S. symmetry. apply concat_map. }
  destruct (G chunks P L) as (ms & R & S). destruct (G chunks' ltac:(now rewrite <- E) L') as (ms' & R' & S'). exists ms, ms'. split; [exact R|]. split; [exact R'|]. congruence.
Qed.
Print Assumptions C41_text_cut_anywhere.

Example C41_text_instance : concat [[97; 8364]; [98]]%N = concat [[97]; []; [8364; 98]]%N /\ (forall c, In c (concat [[97; 8364]; [98]]%N) -> plain_char c).
Proof. split; [reflexivity|]. intros c [<-|[<-|[<-|[]]]]; repeat split; vm_compute; congruence. Qed.

(** Cut inside a sequence or a character the messages change: an arrow key becomes Alt+[ and "A", a character becomes unknown
    bytes, also when the cut is that of a full buffer; a focus report is recognised only at the end of a read. *)
Theorem C41_cut_inside_refuted :
  let messages reads := match read_inputs the_seqs the_sizes [] reads with Ret (ms, _) => map snd ms | Panic => [] end in
  messages [ESC :: asc "[A"] = [KeyMsg (Key KeyUp [] false false)] /\
  messages [ESC :: asc "["; asc "A"] = [KeyMsg (Key KeyRunes [91%N] true false); KeyMsg (Key KeyRunes [65%N] false false)] /\
  messages [encode [8364%N]] = [KeyMsg (Key KeyRunes [8364%N] false false)] /\
  messages [firstn 1 (encode [8364%N]); skipn 1 (encode [8364%N])] = [UnknownByte 226; UnknownByte 130; UnknownByte 172] /\
  (let text := repeat 97%N 255 in messages [text ++ firstn 1 (encode [8364%N]); skipn 1 (encode [8364%N])] =
     [KeyMsg (Key KeyRunes text false false); UnknownByte 226; UnknownByte 130; UnknownByte 172]) /\
  messages [ESC :: asc "[I"; asc "a"] = [FocusMsg; KeyMsg (Key KeyRunes [97%N] false false)] /\
  messages [ESC :: asc "[Ia"] = [UnknownCSI (ESC :: asc "[I"); KeyMsg (Key KeyRunes [97%N] false false)].
Proof. intros messages. subst messages. repeat split; vm_compute; reflexivity. Qed.
Print Assumptions C41_cut_inside_refuted.

(** *** Pastes cut anywhere *)

Lemma no_end_inside (e t v : bytes) : (forall u v, e <> u ++ bp_end ++ v) -> e ++ bp_end = t ++ v -> v <> [] -> forall u w, t <> u ++ bp_end ++ w.
Proof.
  intros Hno E Nv u w ->. rewrite <- !app_assoc in E.
  destruct (le_lt_dec (length (u ++ bp_end)) (length e)) as [Hle|Hlt].
  - apply (Hno u (skipn (length (u ++ bp_end)) e)). rewrite app_assoc. rewrite <- (firstn_skipn (length (u ++ bp_end)) e) at 1. f_equal.
    assert (E2 : e ++ bp_end = (u ++ bp_end) ++ (w ++ v)) by (rewrite E; now rewrite <- app_assoc).
    apply (f_equal (firstn (length (u ++ bp_end)))) in E2. rewrite firstn_app in E2. replace (length (u ++ bp_end) - length e)%nat with 0%nat in E2 by lia. cbn [firstn] in E2. rewrite app_nil_r in E2.
    rewrite E2, firstn_app, firstn_all, Nat.sub_diag. cbn. now rewrite app_nil_r.
  - (* the marker ends inside the closing marker, before its end *)
    assert (Lv : (1 <= length v)%nat) by (destruct v; [congruence|cbn; lia]).
    assert (Ltot : (length e + 6 = length u + 6 + length w + length v)%nat) by (apply (f_equal (@length N)) in E; rewrite !app_length in E; change (length bp_end) with 6%nat in E; clear - E; lia).
    rewrite app_length in Hlt. change (length bp_end) with 6%nat in Hlt.
    assert (Hu : e = firstn (length u) e ++ skipn (length u) e) by (symmetry; apply firstn_skipn).
    assert (Lu : (length u <= length e)%nat) by lia.
    set (t := skipn (length u) e) in *. assert (Lt : (length t < 6)%nat) by (unfold t; rewrite skipn_length; lia). assert (Lt1 : (1 <= length t)%nat) by (unfold t; rewrite skipn_length; lia).
    assert (Fu : firstn (length u) e = u).
    { apply (f_equal (firstn (length u))) in E. rewrite firstn_app in E. replace (length u - length e)%nat with 0%nat in E by lia. cbn [firstn] in E. rewrite app_nil_r in E.
      rewrite E, firstn_app, firstn_all, Nat.sub_diag. cbn. now rewrite app_nil_r. }
    rewrite Fu in Hu. rewrite Hu, <- app_assoc in E. apply app_inv_head in E. clear - E Lt Lt1.
    change bp_end with [27; 91; 50; 48; 49; 126]%N in E. destruct t as [|t0 [|t1 [|t2 [|t3 [|t4 [|t5 t]]]]]]; cbn [length app] in *; try lia; discriminate.
Qed.

Lemma detect_paste_open seqs sizes t more : (forall u v, t <> u ++ bp_end ++ v) -> detect_one_msg seqs sizes (bp_start ++ t) more = Ret None.
Proof.
  intros H. unfold detect_one_msg.
  assert (M : detect_mouse (bp_start ++ t) = Ret None) by reflexivity. rewrite M. cbn [bind]. clear M.
  assert (F : detect_report_focus (bp_start ++ t) = None).
  { unfold detect_report_focus. destruct (bytes_eqb _ (ESC :: asc "[I")) eqn:E; [apply bytes_eqb_true in E; discriminate|].
    destruct (bytes_eqb _ (ESC :: asc "[O")) eqn:E'; [apply bytes_eqb_true in E'; discriminate|reflexivity]. }
  rewrite F. unfold detect_bracketed_paste. replace (has_prefix bp_start (bp_start ++ t)) with true by (symmetry; apply has_prefix_true; now eexists).
  replace (skipn (length bp_start) (bp_start ++ t)) with t by reflexivity. destruct (index_of bp_end t) as [n|] eqn:I; [|reflexivity]. exfalso. destruct (index_of_Some _ _ _ I) as (u & v & E & _). exact (H u v E).
Qed.

Lemma scan_open seqs sizes f t more : (forall u v, t <> u ++ bp_end ++ v) -> scan seqs sizes f (bp_start ++ t) more = Ret ([], bp_start ++ t).
Proof. intros H. destruct f; [reflexivity|]. cbn [scan bp_start app]. change (ESC :: asc "[200~" ++ t) with (bp_start ++ t). now rewrite detect_paste_open. Qed.

(** A paste of any size, cut into reads anywhere after its opening marker, still arrives as that one message. *)
Theorem C43_any_cut : forall seqs sizes text first reads, tables seqs sizes ->
  Forall (fun r => scalar r = true /\ r <> RuneError) text -> (forall u v, encode text <> u ++ bp_end ++ v) ->
  (forall r, In r reads -> r <> []) ->
  (bp_start ++ first) ++ concat reads = bp_start ++ encode text ++ bp_end ->
  read_inputs seqs sizes [] ((bp_start ++ first) :: reads) = Ret ([(bp_start ++ encode text ++ bp_end, KeyMsg (Key KeyRunes text false true))], []).
Proof.
  intros seqs sizes text first reads T Ht Hno Hne E.
  assert (Whole : forall f more, (length (bp_start ++ encode text ++ bp_end) <= f)%nat -> scan seqs sizes f (bp_start ++ encode text ++ bp_end) more = Ret ([(bp_start ++ encode text ++ bp_end, KeyMsg (Key KeyRunes text false true))], [])).
  { intros f more L. apply scan_whole; [discriminate|exact L|]. pose proof (C43_paste_verbatim seqs sizes text [] more T Ht Hno) as P. now rewrite app_nil_r in P. }
  assert (G : forall reads0 acc, (forall r, In r reads0 -> r <> []) -> reads0 <> [] -> acc ++ concat reads0 = encode text ++ bp_end ->
     read_inputs seqs sizes (bp_start ++ acc) reads0 = Ret ([(bp_start ++ encode text ++ bp_end, KeyMsg (Key KeyRunes text false true))], [])).
  { induction reads0 as [|r rs IH]; intros acc N NN Ea; [congruence|]. cbn [read_inputs]. rewrite <- app_assoc. destruct rs as [|r' rs'].
    - cbn [concat] in Ea. rewrite app_nil_r in Ea. rewrite Ea, Whole by lia. reflexivity.
    - assert (Ez : encode text ++ bp_end = (acc ++ r) ++ concat (r' :: rs')) by (rewrite <- app_assoc; symmetry; exact Ea).
      rewrite scan_open.
      + cbn [bind]. rewrite IH; [reflexivity|intros; apply N; now right|discriminate|now symmetry].
      + apply (no_end_inside (encode text) (acc ++ r) (concat (r' :: rs')) Hno Ez). cbn [concat]. intros X. apply app_eq_nil in X. destruct X as [X _]. apply (N r'); [right; now left|exact X]. }
  rewrite <- app_assoc in E. apply app_inv_head in E. cbn [read_inputs app]. change (ESC :: asc "[200~" ++ first) with (bp_start ++ first). destruct reads as [|r rs].
  - cbn [concat] in E. rewrite app_nil_r in E. rewrite E, Whole by lia. reflexivity.
  - rewrite scan_open.
    + cbn [bind]. rewrite (G (r :: rs) first Hne ltac:(discriminate) E). reflexivity.
    + apply (no_end_inside (encode text) first (concat (r :: rs)) Hno); [now symmetry|]. cbn [concat]. intros X. apply app_eq_nil in X. destruct X as [X _]. apply (Hne r); [now left|exact X].
Qed.
Print Assumptions C43_any_cut.

Example C43_cut_instance : (forall u v, encode [104; 233; 10; 27; 91]%N <> u ++ bp_end ++ v) /\
  (bp_start ++ [104; 195]%N) ++ concat [[169; 10; 27]; [91; 27; 91]; [50; 48; 49; 126]]%N = bp_start ++ encode [104; 233; 10; 27; 91]%N ++ bp_end /\
  read_inputs the_seqs the_sizes [] ((bp_start ++ [104; 195]%N) :: [[169; 10; 27]; [91; 27; 91]; [50; 48; 49; 126]]%N) =
    Ret ([(bp_start ++ encode [104; 233; 10; 27; 91]%N ++ bp_end, KeyMsg (Key KeyRunes [104; 233; 10; 27; 91]%N false true))], []).
Proof.
  split; [|split; vm_compute; reflexivity]. intros u v E. pose proof (index_of_None bp_end (encode [104; 233; 10; 27; 91]%N) ltac:(vm_compute; reflexivity)) as H. exact (H u v E).
Qed.
