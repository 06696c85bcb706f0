(** C92: what the user types ends up in the text input. *)
From Verif Require Import Base P_Base M_Geom M_Style M_Uniseg M_Utf8 M_KeyTable M_Decode S_Keys S_Mouse S_Stream P_Decode T_Decode T_Stream M_Reflow M_Input S_Input P_Input T_Input M_Typing S_Typing.
From Coq Require Import ZArith NArith String List Bool Lia.
Import ListNotations.
Open Scope Z_scope.

(** *** Messages and events *)
Definition op_of (m : msg) : list input_op := match m with KeyMsg k => [OpKey (input_key_of k)] | _ => [] end.
Lemma ofold_app {A B} (f : A -> B -> outcome A) l l' a : ofold f (l ++ l') a = bind (ofold f l a) (fun a => ofold f l' a).
Proof. revert a. induction l as [|b l IH]; intros a; [reflexivity|]. cbn [app ofold]. destruct (f a b); cbn [bind]; auto. Qed.
Lemma try_updates_ops u ms s : try_updates u ms s = ofold (is_do u) (flat_map op_of ms) s.
Proof.
  revert s. induction ms as [|m ms IH]; intros s; [reflexivity|]. cbn [flat_map]. rewrite ofold_app. unfold try_updates in *. cbn [ofold]. destruct m as [k| | | | |]; cbn [try_update op_of ofold bind is_do]; try apply IH.
  destruct (is_update u s (input_key_of k)) as [[s' b]|]; cbn [bind]; [apply IH|reflexivity].
Qed.
Definition alike (a b : list edit) : Prop := forall e, ed_run e a = ed_run e b /\ (words_inside e a <-> words_inside e b).
Lemma words_app a b : forall e, words_inside e (a ++ b) <-> words_inside e a /\ words_inside (ed_run e a) b.
Proof. induction a as [|o a IH]; intros e; cbn [app words_inside ed_run fold_left]; [tauto|]. rewrite IH. unfold ed_run. tauto. Qed.
Lemma run_app e a b : ed_run e (a ++ b) = ed_run (ed_run e a) b.
Proof. apply fold_left_app. Qed.
Lemma alike_refl a : alike a a. Proof. intros e. tauto. Qed.
Lemma alike_app a b a' b' : alike a a' -> alike b b' -> alike (a ++ b) (a' ++ b').
Proof. intros H H' e. rewrite !run_app, !words_app. destruct (H e) as [E W]. rewrite E. destruct (H' (ed_run e a')) as [E' W']. rewrite E'. tauto. Qed.
Lemma alike_typed rs : alike [Type_ (map (fun c => [c]) rs)] (map (fun c => Type_ [[c]]) rs).
Proof.
  assert (G : forall e, ed_run e (map (fun c => Type_ [[c]]) rs) = ed_step e (Type_ (map (fun c => [c]) rs)) /\ words_inside e (map (fun c => Type_ [[c]]) rs)).
  { induction rs as [|r rs IH]; intros [b a]; [split; [reflexivity|exact Logic.I]|]. cbn [map ed_run fold_left words_inside]. destruct (IH (ed_step (Editor b a) (Type_ [[r]]))) as [E W]. split.
    - fold (ed_run (ed_step (Editor b a) (Type_ [[r]])) (map (fun c => Type_ [[c]]) rs)). rewrite E. cbn [ed_step rev app]. now rewrite <- app_assoc.
    - split; [discriminate|exact W]. }
  intros e. destruct (G e) as [E W]. cbn [words_inside ed_run fold_left]. rewrite <- E. split; [reflexivity|]. split; [intros _; exact W|intros _; split; [discriminate|exact Logic.I]].
Qed.
Lemma msg_alike u A m : stand_alone u A -> (forall c, In c (brings m) -> A c) -> alike (flat_map (meaning u) (op_of m)) (flat_map event_edits (presses m)).
Proof.
  intros Al H. destruct m as [[ty rs alt paste]| | | | |]; try apply alike_refl. cbn [brings k_runes] in H. cbn [op_of flat_map]. rewrite app_nil_r. unfold input_key_of. cbn [k_type k_runes presses].
  destruct (Z.eqb_spec ty KeyRunes) as [->|N1].
  - replace (flat_map event_edits (if true && negb paste then map (fun r => KeyMsg (Key KeyRunes [r] alt false)) rs else [KeyMsg (Key KeyRunes rs alt paste)])) with (map (fun c => Type_ [[c]]) rs).
    + change (alike [Type_ (clusters u rs)] (map (fun c => Type_ [[c]]) rs)). rewrite (Al rs H). apply alike_typed.
    + destruct paste; cbn [negb andb].
      * cbn [flat_map event_edits]. change (KeyRunes =? KeyRunes) with true. cbn [orb]. now rewrite app_nil_r.
      * clear. induction rs as [|r rs IH]; [reflexivity|]. cbn [map flat_map]. rewrite <- IH. reflexivity.
  - cbn [andb flat_map]. rewrite app_nil_r. cbn [event_edits]. destruct (Z.eqb_spec ty KeyRunes) as [Y|_]; [contradiction|]. cbn [orb].
    destruct (Z.eqb_spec ty KeySpace) as [->|N2]; [change (alike [Type_ (clusters u rs)] (map (fun c => Type_ [[c]]) rs)); rewrite (Al rs H); apply alike_typed|].
    destruct (Z.eqb_spec ty KeyLeft) as [->|N3]; [apply alike_refl|]. destruct (Z.eqb_spec ty KeyShiftLeft) as [->|N4]; [apply alike_refl|].
    destruct (Z.eqb_spec ty KeyRight) as [->|N5]; [apply alike_refl|]. destruct (Z.eqb_spec ty KeyShiftRight) as [->|N6]; [apply alike_refl|].
    destruct (Z.eqb_spec ty KeyBackspace) as [->|N7]; [apply alike_refl|]. destruct (Z.eqb_spec ty KeyDelete) as [->|N8]; [apply alike_refl|].
    destruct (Z.eqb_spec ty KeyCtrlA) as [->|N9]; [apply alike_refl|]. destruct (Z.eqb_spec ty KeyCtrlE) as [->|N10]; [apply alike_refl|].
    destruct (Z.eqb_spec ty KeyCtrlW) as [->|N11]; apply alike_refl.
Qed.
Lemma msgs_alike u A ms : stand_alone u A -> (forall m c, In m ms -> In c (brings m) -> A c) -> alike (flat_map (meaning u) (flat_map op_of ms)) (flat_map event_edits (flat_map presses ms)).
Proof.
  intros Al. induction ms as [|m ms IH]; intros H; [apply alike_refl|]. cbn [flat_map]. rewrite !flat_map_app. apply alike_app; [apply (msg_alike u A); [exact Al|intros c; apply H; now left]|apply IH; intros m' c I C; apply (H m' c); [now right|exact C]].
Qed.
Lemma brings_presses m c : In c (brings m) <-> In c (flat_map brings (presses m)).
Proof.
  destruct m as [[ty rs alt paste]| | | | |]; cbn [brings presses flat_map k_runes app]; try reflexivity. destruct ((ty =? KeyRunes) && negb paste); [|cbn [flat_map brings k_runes]; rewrite app_nil_r; reflexivity].
  induction rs as [|r rs IH]; [reflexivity|]. cbn [map flat_map brings k_runes app]. cbn [In]. rewrite IH. reflexivity.
Qed.
(** Messages that amount to some events edit the text as those events do. *)
Lemma messages_edit u A ms events : uniseg_ok u -> stand_alone u A -> flat_map presses ms = events -> (forall m c, In m events -> In c (brings m) -> A c) -> words_inside ed_empty (flat_map event_edits events) ->
  exists s, try_updates u ms new_input_state = Ret s /\ is_string s = ed_text (edited events) /\ is_text s = ed_clusters (edited events) /\ is_cursor s = zlen (ed_before (edited events)).
Proof.
  intros Hu Al E H W. assert (H' : forall m c, In m ms -> In c (brings m) -> A c).
  { intros m c I C. apply brings_presses in C. apply in_flat_map in C. destruct C as (m' & I' & C). apply (H m'); [|exact C]. rewrite <- E. apply in_flat_map. now exists m. }
  destruct (msgs_alike u A ms Al H' ed_empty) as [Er Ew]. rewrite E in Er, Ew. destruct (C25_behaves_as_editor u (flat_map op_of ms) Hu (proj2 Ew W)) as (s & Es & R). exists s. split; [now rewrite try_updates_ops|]. cbv zeta in R. rewrite Er in R. exact R.
Qed.
(** ** C92: when the reads of the terminal carry whole events, the messages they are decoded into change an input as the events, one by one, change a
    plain editor, however the text was divided into reads and grouped into messages *)
Theorem C92_reads_partial seqs sizes reads events u A : tables seqs sizes -> uniseg_ok u -> stand_alone u A -> Forall2 carries reads events -> length (last reads []) <> 256%nat ->
  (forall m c, In m (concat events) -> In c (brings m) -> A c) -> words_inside ed_empty (flat_map event_edits (concat events)) ->
  exists ms s, read_inputs seqs sizes [] reads = Ret (ms, []) /\ try_updates u (map snd ms) new_input_state = Ret s /\
    is_string s = ed_text (edited (concat events)) /\ is_text s = ed_clusters (edited (concat events)) /\ is_cursor s = zlen (ed_before (edited (concat events))).
Proof.
  intros T Hu Al F L H W. destruct (C41_whole_events_partial seqs sizes reads events T F) as (ms & held & R & S & Hh). specialize (Hh L). subst held. cbn [map] in S. rewrite app_nil_r in S.
  destruct (messages_edit u A (map snd ms) (concat events) Hu Al S H W) as (s & E). exists ms, s. auto.
Qed.
(** ** C92: characters that combine too: typing and pasting inserts the text at the cursor, whatever the graphemes are *)
Lemma typed_string u ms : uniseg_ok u -> (forall m, In m ms -> match m with KeyMsg k => k_type k = KeyRunes \/ k_type k = KeySpace | _ => True end) -> forall s e, represents s e -> exists s' e', try_updates u ms s = Ret s' /\ represents s' e' /\ concat (rev (ed_before e')) = concat (rev (ed_before e)) ++ flat_map brings ms /\ ed_after e' = ed_after e.
Proof.
  intros Hu. induction ms as [|m ms IH]; intros H s e R; [exists s, e; cbn; rewrite app_nil_r; auto|]. unfold try_updates in *. cbn [ofold flat_map]. specialize (IH ltac:(intros; apply H; now right)).
  assert (Step : exists s1 e1, bind (try_update u s m) (fun p => let '(s0, _) := p in Ret s0) = Ret s1 /\ represents s1 e1 /\ concat (rev (ed_before e1)) = concat (rev (ed_before e)) ++ brings m /\ ed_after e1 = ed_after e).
  { destruct m as [k| | | | |]; cbn [try_update bind brings]; try (exists s, e; rewrite app_nil_r; auto; fail). assert (Ap : exists s1, is_update u s (input_key_of k) = Ret (s1, true) /\ represents s1 (ed_step e (Type_ (clusters u (k_runes k))))).
    { destruct (append_ok u (k_runes k) s e R) as (s1 & E1 & R1 & _). exists s1. split; [|exact R1]. destruct (H (KeyMsg k) (or_introl eq_refl)) as [E|E]; unfold input_key_of; rewrite E; cbn; now rewrite E1. }
    destruct Ap as (s1 & -> & R1). exists s1, (ed_step e (Type_ (clusters u (k_runes k)))). split; [reflexivity|]. split; [exact R1|]. destruct e as [b a]. cbn [ed_step ed_before ed_after]. rewrite rev_app_distr, rev_involutive, concat_app. split; [|reflexivity]. f_equal. apply (clusters_concat u Hu). }
  destruct Step as (s1 & e1 & -> & R1 & E1 & A1). cbn [bind]. destruct (IH s1 e1 R1) as (s' & e' & E & R' & E2 & A2). exists s', e'. split; [exact E|]. split; [exact R'|]. split; [rewrite E2, E1, <- app_assoc; reflexivity|congruence].
Qed.
Definition inserts (m : msg) : Prop := match m with KeyMsg k => k_type k = KeyRunes \/ k_type k = KeySpace | _ => False end.
Theorem C92_text_partial seqs sizes reads events u : tables seqs sizes -> uniseg_ok u -> Forall2 carries reads events -> length (last reads []) <> 256%nat -> (forall m, In m (concat events) -> inserts m) ->
  exists ms s, read_inputs seqs sizes [] reads = Ret (ms, []) /\ try_updates u (map snd ms) new_input_state = Ret s /\
    is_string s = flat_map brings (concat events) /\ is_cursor s = zlen (is_text s).
Proof.
  intros T Hu F L H. destruct (C41_whole_events_partial seqs sizes reads events T F) as (ms & held & R & S & Hh). specialize (Hh L). subst held. cbn [map] in S. rewrite app_nil_r in S.
  assert (H' : forall m, In m (map snd ms) -> match m with KeyMsg k => k_type k = KeyRunes \/ k_type k = KeySpace | _ => True end).
  { intros m I. destruct m as [[ty rs alt paste]| | | | |]; try exact Logic.I. cbn [k_type]. destruct (Z.eq_dec ty KeyRunes) as [E|N]; [now left|right]. specialize (H (KeyMsg (Key ty rs alt paste))). cbn [inserts k_type] in H. destruct H as [Y|Y]; [|contradiction|exact Y].
    rewrite <- S. apply in_flat_map. exists (KeyMsg (Key ty rs alt paste)). split; [exact I|]. cbn [presses]. destruct (Z.eqb_spec ty KeyRunes) as [Y|_]; [contradiction|]. cbn. now left. }
  destruct (typed_string u (map snd ms) Hu H' new_input_state ed_empty ltac:(split; reflexivity)) as (s & e & E & [R1 R2] & E1 & E2). exists ms, s. split; [exact R|]. split; [exact E|].
  cbn [ed_empty ed_before ed_after rev concat app] in E1, E2. unfold is_string. rewrite R1, R2. unfold ed_clusters. rewrite E2, app_nil_r, E1, zlen_rev. split; [|reflexivity]. rewrite <- S. clear. induction (map snd ms) as [|m l IH]; [reflexivity|]. cbn [flat_map]. rewrite flat_map_app, IH. f_equal.
  destruct m as [[ty rs alt paste]| | | | |]; cbn [brings presses flat_map k_runes app]; try reflexivity. destruct ((ty =? KeyRunes) && negb paste); [|cbn [flat_map brings k_runes]; now rewrite app_nil_r]. induction rs as [|r rs IH']; [reflexivity|]. cbn [map flat_map brings k_runes app]. now rewrite <- IH'.
Qed.

(** *** Instances: "helo", left, "l", Ctrl+E, a pasted " you", Backspace - cut in the middle of the word; and an accent that combines. *)
Lemma simple_alone : stand_alone simple_uniseg (fun _ => True).
Proof. intros s _. reflexivity. Qed.
Definition some_reads : list bytes := [encode [104; 101]%N; encode [108; 111]%N; ESC :: asc "[D"; encode [108; 5]%N; bp_start ++ encode [32; 121; 111; 117]%N ++ bp_end; [127%N]].
Definition some_events : list (list msg) :=
  [map (fun c => KeyMsg (char_press c)) [104; 101]%N; map (fun c => KeyMsg (char_press c)) [108; 111]%N; [KeyMsg (Key KeyLeft [] false false)]; map (fun c => KeyMsg (char_press c)) [108; 5]%N;
   [KeyMsg (Key KeyRunes [32; 121; 111; 117]%N false true)]; map (fun c => KeyMsg (char_press c)) [127]%N].
Example C92_reads_instance : Forall2 carries some_reads some_events /\ length (last some_reads []) <> 256%nat /\ words_inside ed_empty (flat_map event_edits (concat some_events)) /\
  ed_text (edited (concat some_events)) = [104; 101; 108; 108; 111; 32; 121; 111]%N.
Proof.
  split; [|split; [vm_compute; discriminate|split; [|reflexivity]]].
  - unfold some_reads, some_events. assert (Tx : forall cs, forallb (fun c => scalar c && negb (c =? ESC)%N && negb (c =? RuneError)%N) cs = true -> carries (encode cs) (map (fun c => KeyMsg (char_press c)) cs)).
    { intros cs E. apply carries_text. intros c I. rewrite forallb_forall in E. specialize (E c I). apply andb_true_iff in E. destruct E as [E E3]. apply andb_true_iff in E. destruct E as [E1 E2]. split; [exact E1|]. split; intros ->; [apply negb_true_iff in E2|apply negb_true_iff in E3]; rewrite N.eqb_refl in *; discriminate. }
    constructor; [apply Tx; reflexivity|]. constructor; [apply Tx; reflexivity|]. constructor; [apply carries_key; apply (tables_get _ _ the_tables); vm_compute; reflexivity|]. constructor; [apply Tx; reflexivity|].
    constructor; [apply carries_paste; [intros c [<-|[<-|[<-|[<-|[]]]]]; split; vm_compute; congruence|]|constructor; [exact (Tx [127%N] eq_refl)|constructor]].
    intros x v E. assert (L : length (encode [32; 121; 111; 117]%N) = length (x ++ bp_end ++ v)) by now rewrite E. rewrite !app_length in L. cbn in L. lia.
  - vm_compute. repeat split; intros; discriminate.
Qed.
Print Assumptions C92_reads_partial.
Print Assumptions C92_text_partial.
