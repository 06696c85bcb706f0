(** C45: the names of keys. *)
From Verif Require Import Base P_Base M_Utf8 P_Utf8 M_KeyTable M_Decode S_Keys P_Decode T_Decode T_Stream.
From Coq Require Import ZArith NArith String Ascii List Bool Lia Permutation.
Import ListNotations.
Open Scope Z_scope.
Local Open Scope list_scope.

(** The messages that stand for one action of the user: a character, plain or with Alt (the space is a key of its own); a
    key with a name, plain or with Alt; a paste. *)
Inductive one_press : key -> Prop :=
| press_char r alt : scalar r = true -> r <> 32%N -> one_press (Key KeyRunes [r] alt false)
| press_named t alt : In t (map fst key_names) -> t <> KeyRunes -> one_press (Key t (if t =? KeySpace then [32%N] else []) alt false)
| press_paste rs : Forall (fun r => scalar r = true) rs -> one_press (Key KeyRunes rs false true).

Lemma name_of_In t l : In t (map fst l) -> exists s, name_of t l = Some s /\ In (t, s) l.
Proof.
  induction l as [|[k s] l IH]; [contradiction|]. cbn [map fst name_of]. intros H. destruct (Z.eqb_spec k t) as [->|N].
  - exists s. split; [reflexivity|now left].
  - destruct H as [H|H]; [easy|]. destruct (IH H) as (s' & E & I). exists s'. split; [exact E|now right].
Qed.

Lemma names_check (P : Z -> bytes -> bool) : forallb (fun e : Z * bytes => P (fst e) (snd e)) key_names = true -> forall t s, In (t, s) key_names -> P t s = true.
Proof. intros H t s I. rewrite forallb_forall in H. exact (H _ I). Qed.

(** Every name but " " has two bytes or more; no name starts with a byte of a longer character, with "[" or with "alt+". *)
Lemma name_shape t s : In (t, s) key_names -> t <> KeyRunes -> (t = KeySpace /\ s = [32%N]) \/
  (t <> KeySpace /\ exists c d r, s = c :: d :: r /\ (c < 128)%N /\ c <> 91%N /\ ~ begins (asc "alt+") s).
Proof.
  intros I _. pose proof (names_check (fun t s => if t =? KeySpace then bytes_eqb s [32%N] else match s with c :: d :: r => (c <? 128)%N && negb (c =? 91)%N && negb (has_prefix (asc "alt+") s) | _ => false end) ltac:(vm_compute; reflexivity) t s I) as X. cbn beta in X.
  destruct (Z.eqb_spec t KeySpace) as [E|E]; [left; split; [exact E|now apply bytes_eqb_true]|]. right. split; [exact E|]. destruct s as [|c [|d r]]; try discriminate. rewrite !andb_true_iff, !negb_true_iff, N.ltb_lt, N.eqb_neq in X. destruct X as [[X1 X2] X3].
  exists c, d, r. repeat split; auto. intros B. apply has_prefix_true in B. congruence.
Qed.
Lemma names_differ t t' s : In (t, s) key_names -> In (t', s) key_names -> t = t'.
Proof.
  intros I I'. pose proof (names_check (fun t s => forallb (fun e => negb (bytes_eqb (snd e) s) || (fst e =? t)) key_names) ltac:(vm_compute; reflexivity) t s I) as X. cbn beta in X.
  rewrite forallb_forall in X. specialize (X _ I'). cbn [fst snd] in X. rewrite orb_true_iff, negb_true_iff, Z.eqb_eq in X. destruct X as [X|X]; [|auto]. replace (bytes_eqb s s) with true in X by (symmetry; now apply bytes_eqb_true). discriminate.
Qed.

(** The name without "alt+". *)
Definition core (k : key) : bytes := key_string (Key (k_type k) (k_runes k) false (k_paste k)).
Lemma core_string k : one_press k -> key_string k = (if k_alt k then asc "alt+" else []) ++ core k.
Proof.
  intros H. unfold core, key_string. cbn [k_type k_runes k_alt k_paste]. destruct (k_type k =? KeyRunes) eqn:E; [reflexivity|]. destruct H as [r alt _ _|t alt I N|rs _]; cbn [k_type] in *; try discriminate.
  destruct (name_of_In t key_names I) as (s & -> & _). reflexivity.
Qed.
Lemma core_no_alt k : one_press k -> ~ begins (asc "alt+") (core k).
Proof.
  intros H (v & E). destruct H as [r alt Hr _|t alt I N|rs _]; unfold core, key_string in E; cbn [k_type k_runes k_alt k_paste app] in E.
  - change (KeyRunes =? KeyRunes) with true in E. cbv iota in E. unfold encode in E. cbn [flat_map] in E. rewrite !app_nil_r in E. destruct (encode_first r Hr) as [[_ X]|(_ & x & y & X & L)]; rewrite X in E; [discriminate|]. cbn [asc app] in E. injection E as -> _. vm_compute in L. congruence.
  - replace (t =? KeyRunes) with false in E by (symmetry; now apply Z.eqb_neq). destruct (name_of_In t key_names I) as (s & X & J). rewrite X in E. destruct (name_shape t s J N) as [(_ & ->)|(_ & c & d & r & _ & _ & _ & Z)]; [discriminate|]. apply Z. now exists v.
  - change (KeyRunes =? KeyRunes) with true in E. discriminate.
Qed.

Lemma core_inj k k' : one_press k -> one_press k' -> core k = core k' -> k_type k = k_type k' /\ k_runes k = k_runes k' /\ k_paste k = k_paste k'.
Proof.
  assert (Char : forall r alt, scalar r = true -> core (Key KeyRunes [r] alt false) = encode_rune r).
  { intros r alt Hr. unfold core, key_string. cbn [k_type k_runes k_paste k_alt app]. change (KeyRunes =? KeyRunes) with true. cbv iota. unfold encode. cbn [flat_map]. now rewrite !app_nil_r. }
  assert (Named : forall t rs alt, In t (map fst key_names) -> t <> KeyRunes -> exists s, In (t, s) key_names /\ core (Key t rs alt false) = s).
  { intros t rs alt I N. destruct (name_of_In t key_names I) as (s & X & J). exists s. split; [exact J|]. unfold core, key_string. cbn [k_type k_runes k_paste k_alt app]. replace (t =? KeyRunes) with false by (symmetry; now apply Z.eqb_neq). now rewrite X. }
  assert (Paste : forall rs, core (Key KeyRunes rs false true) = 91%N :: encode rs ++ [93%N]) by reflexivity.
  assert (CN : forall r alt t rs alt', scalar r = true -> r <> 32%N -> In t (map fst key_names) -> t <> KeyRunes -> core (Key KeyRunes [r] alt false) = core (Key t rs alt' false) -> False).
  { intros r alt t rs alt' Hr N32 I N E. rewrite Char in E by exact Hr. destruct (Named t rs alt' I N) as (s & J & X). rewrite X in E.
    destruct (name_shape t s J N) as [(_ & ->)|(_ & c & d & v & -> & L & _)]; destruct (encode_first r Hr) as [[_ Y]|(_ & x & y & Y & Lx)]; rewrite Y in E; first [congruence | injection E as E1 E2; subst; lia | injection E as E1 E2; clear - E1 L Lx; lia]. }
  assert (CP : forall r alt rs, scalar r = true -> core (Key KeyRunes [r] alt false) = core (Key KeyRunes rs false true) -> False).
  { intros r alt rs Hr E. rewrite Char, Paste in E by exact Hr. destruct (encode_first r Hr) as [[_ Y]|(_ & x & y & Y & Lx)]; rewrite Y in E; injection E as E1 E2; [|lia]. destruct (encode rs); discriminate. }
  assert (NP : forall t rs alt rs', In t (map fst key_names) -> t <> KeyRunes -> core (Key t rs alt false) = core (Key KeyRunes rs' false true) -> False).
  { intros t rs alt rs' I N E. destruct (Named t rs alt I N) as (s & J & X). rewrite X, Paste in E. destruct (name_shape t s J N) as [(_ & ->)|(_ & c & d & v & -> & L & Z & _)]; congruence. }
  intros H H' E. destruct H as [r alt Hr N32|t alt I N|rs Hs], H' as [r' alt' Hr' N32'|t' alt' I' N'|rs' Hs']; try (exfalso; eauto; fail).
  - rewrite !Char in E by assumption. cbn [k_type k_runes k_paste]. repeat split. apply encode_inj; [now constructor|now constructor|]. unfold encode. cbn [flat_map]. now rewrite E.
  - destruct (Named t (if t =? KeySpace then [32%N] else []) alt I N) as (s & J & X). destruct (Named t' (if t' =? KeySpace then [32%N] else []) alt' I' N') as (s' & J' & X'). rewrite X, X' in E. clear X X'. subst s'. pose proof (names_differ _ _ _ J J') as ->. cbn [k_type k_runes k_paste]. auto.
  - rewrite !Paste in E. injection E as E. apply app_inv_tail in E. cbn [k_type k_runes k_paste]. repeat split. now apply encode_inj.
Qed.

(** Two messages for one action each that have the same name are the same message: a binding to a name is a binding to one key. *)
Theorem C45_names_partial : forall k k', one_press k -> one_press k' -> key_string k = key_string k' -> k = k'.
Proof.
  intros k k' H H' E. rewrite (core_string k H), (core_string k' H') in E.
  assert (A : k_alt k = k_alt k' /\ core k = core k').
  { destruct (k_alt k), (k_alt k'); [apply app_inv_head in E; auto|exfalso; cbn [app] in E; apply (core_no_alt k' H'); now exists (core k)|exfalso; apply (core_no_alt k H); now exists (core k')|auto]. }
  destruct A as [A B]. destruct (core_inj k k' H H' B) as (X & Y & Z). destruct k, k'; cbn in *; congruence.
Qed.
Print Assumptions C45_names_partial.

Example C45_instance : one_press (Key KeyUp [] true false) /\ one_press (Key KeySpace [32%N] false false) /\ one_press (Key KeyRunes [8364%N] true false) /\ one_press (Key KeyRunes [117; 112]%N false true) /\
  key_string (Key KeyUp [] true false) = asc "alt+up" /\ key_string (Key KeyRunes [117; 112]%N false true) = asc "[up]".
Proof.
  split; [apply (press_named KeyUp true); [vm_compute; tauto|discriminate]|]. split; [apply (press_named KeySpace false); [vm_compute; tauto|discriminate]|].
  split; [now apply press_char|]. split; [apply press_paste; repeat constructor|]. split; reflexivity.
Qed.

(** Every key message delivered is such a message or a group of two or more characters that were read together. *)
Lemma known_one_press s k : known s k -> one_press k.
Proof.
  intros K. pose proof (all_known (fun _ k => existsb (fun t => t =? k_type k) (map fst key_names) && negb (k_type k =? KeyRunes) && bytes_eqb (k_runes k) (if k_type k =? KeySpace then [32%N] else []) && negb (k_paste k)) ltac:(vm_compute; reflexivity) s k K) as X. cbn beta in X.
  rewrite !andb_true_iff, !negb_true_iff, bytes_eqb_true, Z.eqb_neq, existsb_exists in X. destruct X as [[[(t & I & X1) X2] X3] X4]. apply Z.eqb_eq in X1. subst t. destruct k as [ty rs al pa]. cbn [k_type k_runes k_paste] in *. subst pa rs. now apply press_named.
Qed.

Lemma rune_run_runes f alt : forall b rs n, rune_run f alt b = (rs, n) -> (forall r, In r rs -> scalar r = true /\ stops r = false) /\ (alt = true -> (length rs <= 1)%nat).
Proof.
  induction f as [|f IH]; intros b rs n E; [cbn in E; injection E as <- _; split; [contradiction|cbn; lia]|].
  destruct b as [|b0 b']; [cbn in E; injection E as <- _; split; [contradiction|cbn; lia]|].
  rewrite rune_run_step in E by discriminate. pose proof (decode_scalar (b0 :: b')) as D. destruct (decode_rune (b0 :: b')) as [r rw]. cbn [fst] in D.
  destruct (stops r) eqn:S; [injection E as <- _; split; [contradiction|cbn; lia]|]. destruct alt.
  - injection E as <- _. split; [|cbn; lia]. intros x [<-|[]]. auto.
  - destruct (rune_run f false (skipn rw (b0 :: b'))) as [rs' n'] eqn:R. injection E as <- _. destruct (IH _ _ _ R) as [P _]. split; [|discriminate]. intros x [<-|I]; auto.
Qed.

Lemma paste_scalar f : forall p, Forall (fun r => scalar r = true) (paste_runes f p).
Proof.
  induction f as [|f IH]; intros p; [constructor|]. destruct p as [|c p]; [constructor|]. cbn [paste_runes]. pose proof (decode_scalar (c :: p)) as D. destruct (decode_rune (c :: p)) as [r w]. cbn [fst] in D.
  destruct (r =? RuneError)%N; [apply IH|]. constructor; [exact D|apply IH].
Qed.

Definition group (k : key) : Prop := exists r s rs, k = Key KeyRunes (r :: s :: rs) false false.

Lemma detect_key seqs sizes b more w k : tables seqs sizes -> detect_one_msg seqs sizes b more = Ret (Some (w, KeyMsg k)) -> one_press k \/ group k.
Proof.
  intros T. unfold detect_one_msg.
  assert (M : forall r, detect_mouse b = Ret (Some r) -> exists w m, r = (w, MouseMsg m)).
  { intros r. unfold detect_mouse. intros H. repeat (match type of H with context [match ?y with _ => _ end] => destruct y end; try discriminate; try (injection H as <-; eauto; fail)).
    all: destruct (parse_sgr _) as [mm|] eqn:PS; cbn [bind] in H; [injection H as <-; eauto|discriminate]. }
  destruct (detect_mouse b) as [r|] eqn:DM; cbn [bind]; [|discriminate]. destruct r as [r|].
  { destruct (M r eq_refl) as (w' & m & ->). discriminate. }
  destruct (detect_report_focus b) as [[w' m]|] eqn:F.
  { unfold detect_report_focus in F. destruct (bytes_eqb b _); [injection F as <- <-; discriminate|]. destruct (bytes_eqb b _); [injection F as <- <-; discriminate|discriminate]. }
  destruct (detect_bracketed_paste b) as [r|] eqn:P.
  { unfold detect_bracketed_paste in P. destruct (has_prefix bp_start b); [|discriminate]. destruct (index_of bp_end _) as [idx|]; injection P as <-; [|discriminate]. intros E. injection E as _ <-. left. apply press_paste, paste_scalar. }
  unfold detect_sequence. pose proof (known_prefix_spec seqs sizes b T) as K. destruct (known_prefix seqs sizes b) as [[w' k']|].
  { intros E. injection E as _ <-. destruct K as (s & _ & K & _). left. now apply known_one_press in K. }
  destruct (csi_match b); [discriminate|].
  destruct b as [|b0 b']; [discriminate|]. set (alt := (b0 =? ESC)%N). cbv zeta. destruct (match nth_error _ _ with Some _ => _ | None => _ end).
  { intros E. injection E as _ <-. left. apply (press_named keyNUL alt); [vm_compute; tauto|discriminate]. }
  destruct (rune_run _ _ _) as [rs n] eqn:R. apply rune_run_runes in R. destruct R as [R1 R2]. destruct (_ && more); [discriminate|].
  destruct rs as [|r rs].
  { destruct (alt && _); [|discriminate]. intros E. injection E as _ <-. left. apply (press_named KeyEscape false); [vm_compute; tauto|discriminate]. }
  destruct (R1 r (or_introl eq_refl)) as [Sr St]. apply stops_false in St.
  destruct rs as [|r' rs].
  - replace (match r with 32%N => true | _ => false end) with false by (destruct (N.eq_dec r 32); [lia|]; symmetry; destruct r as [|p]; [reflexivity|]; repeat (destruct p as [p|p|]; try reflexivity); congruence).
    intros E. injection E as _ <-. left. apply press_char; [exact Sr|lia].
  - replace alt with false by (symmetry; destruct alt; [specialize (R2 eq_refl); cbn in R2; lia|reflexivity]).
    replace (match r with 32%N => false | _ => false end) with false by (destruct r as [|p]; [reflexivity|]; repeat (destruct p as [p|p|]; try reflexivity)).
    intros E. injection E as _ <-. right. now exists r, r', rs.
Qed.

Theorem C45_delivered : forall seqs sizes reads ms left bs k, tables seqs sizes -> read_inputs seqs sizes [] reads = Ret (ms, left) -> In (bs, KeyMsg k) ms -> one_press k \/ group k.
Proof.
  intros seqs sizes reads ms left bs k T. generalize (@nil N). revert ms left. induction reads as [|r reads IH]; intros ms left l E I.
  - cbn in E. injection E as <- _. destruct I.
  - cbn [read_inputs] in E.
    assert (G : forall f b more ms0 rest, scan seqs sizes f b more = Ret (ms0, rest) -> In (bs, KeyMsg k) ms0 -> one_press k \/ group k).
    { clear - T. induction f as [|f IH]; intros b more ms0 rest E I; destruct b as [|b0 b']; cbn [scan] in E; try (injection E as <- _; destruct I).
      destruct (detect_one_msg seqs sizes (b0 :: b') more) as [[[w m]|]|] eqn:D; cbn [bind] in E; [|injection E as <- _; destruct I|discriminate].
      destruct (scan seqs sizes f _ more) as [[ms1 rest1]|] eqn:S; cbn [bind] in E; [|discriminate]. injection E as <- _. destruct I as [I|I]; [|eapply IH; eauto]. injection I as _ ->. eapply detect_key; eauto. }
    destruct (scan _ _ _ _ _) as [[ms0 l0]|] eqn:S; cbn [bind] in E; [|discriminate]. destruct (read_inputs seqs sizes l0 reads) as [[ms1 l1]|] eqn:R; cbn [bind] in E; [|discriminate]. injection E as <- _.
    apply in_app_iff in I. destruct I as [I|I]; [eapply G; eauto|eapply IH; eauto].
Qed.
Print Assumptions C45_delivered.

(** Two characters read together are named like a key: "u" and "p" typed (or pasted without markers) in one read are delivered
    as one message that answers to the binding "up"; likewise "[", "a" and "]" and a paste of "a". *)
Theorem C45_group_refuted :
  exists typed arrow, read_inputs the_seqs the_sizes [] [encode [117; 112]%N] = Ret ([(encode [117; 112]%N, KeyMsg typed)], []) /\
    read_inputs the_seqs the_sizes [] [ESC :: asc "[A"] = Ret ([(ESC :: asc "[A", KeyMsg arrow)], []) /\
    typed <> arrow /\ key_string typed = key_string arrow /\
    key_string (Key KeyRunes [91; 97; 93]%N false false) = key_string (Key KeyRunes [97]%N false true).
Proof. exists (Key KeyRunes [117; 112]%N false false), (Key KeyUp [] false false). repeat split; try (vm_compute; reflexivity). discriminate. Qed.
Print Assumptions C45_group_refuted.
