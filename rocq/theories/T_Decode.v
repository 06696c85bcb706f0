(** C40, C42, C43: decoding input. *)
From Verif Require Import Base P_Base M_Utf8 P_Utf8 M_KeyTable M_Decode S_Keys P_Decode.
From Coq Require Import ZArith NArith String Ascii List Bool Lia Permutation.
Import ListNotations.
Open Scope Z_scope.
Local Open Scope list_scope.

(** The tables exist: Go visits the maps in some order. *)
Definition the_seqs : kmap := Eval vm_compute in ext_sequences sequences.
Definition the_sizes : list nat := Eval vm_compute in seq_lengths (map fst the_seqs).
Lemma the_tables : tables the_seqs the_sizes.
Proof. exists sequences, (map fst the_seqs). split; [reflexivity|]. split; [vm_compute; reflexivity|]. split; [reflexivity|]. vm_compute. reflexivity. Qed.

(** *** C40 *)

(** However the input is cut into reads, decoding never panics, the bytes covered by the messages are exactly the input without
    what is still buffered, every message covers at least one byte, and what is buffered is nothing, an unterminated paste, or
    (after a full read) a run of text bytes, possibly after an escape. *)
Theorem C40_every_byte_once : forall seqs sizes reads, tables seqs sizes -> exists ms left,
  read_inputs seqs sizes [] reads = Ret (ms, left) /\
  concat reads = concat (map fst ms) ++ left /\
  (forall covered m, In (covered, m) ms -> covered <> []) /\
  (left = [] \/ (exists t, left = bp_start ++ t /\ forall u v, t <> u ++ bp_end ++ v) \/
   (exists r, last reads [] = r /\ length r = 256%nat /\ forall c, In c (tl left) -> (32 < c)%N /\ c <> 127%N)).
Proof.
  intros seqs sizes reads T. destruct (read_inputs_ok seqs sizes T reads []) as (ms & rest & E & C & N & R). exists ms, rest. split; [exact E|]. split; [exact C|]. split; [exact N|].
  destruct reads as [|r rs]; [cbn in E; injection E as <- <-; now left|]. destruct (R ltac:(discriminate)) as [H|[H|[H1 H2]]]; [now left|right; now left|].
  right. right. eexists. split; [reflexivity|]. split; [exact H1|]. exact H2.
Qed.
Print Assumptions C40_every_byte_once.

Example C40_instance : read_inputs the_seqs the_sizes [] [[97; 27; 91; 65]; [27; 91; 50; 48; 48; 126; 98]; [99]]%N =
  Ret ([([97]%N, KeyMsg (Key KeyRunes [97%N] false false)); ([27; 91; 65]%N, KeyMsg (Key KeyUp [] false false))], [27; 91; 50; 48; 48; 126; 98; 99]%N).
Proof. vm_compute. reflexivity. Qed.

(** The decoder answers at once: for a non-empty buffer it gives a message of at least one byte, or asks for more bytes only
    for an unterminated paste or at the end of a completely filled buffer. *)
Theorem C40_progress : forall seqs sizes b more, tables seqs sizes -> b <> [] ->
  (exists w m, detect_one_msg seqs sizes b more = Ret (Some (w, m)) /\ (1 <= w <= length b)%nat) \/
  (detect_one_msg seqs sizes b more = Ret None /\ (more = true \/ begins bp_start b)).
Proof.
  intros seqs sizes b more T H. destruct (detect_one_ok seqs sizes b more T H) as ([[w m]|] & -> & R).
  - left. now exists w, m.
  - right. split; [reflexivity|]. destruct R as [(t & -> & _)|[-> _]]; [right; now exists t|now left].
Qed.
Print Assumptions C40_progress.

Example C40_progress_instance : detect_one_msg the_seqs the_sizes [27%N] false = Ret (Some (1%nat, KeyMsg (Key KeyEsc [] false false))) /\
  detect_one_msg the_seqs the_sizes [27%N] true = Ret None.
Proof. split; vm_compute; reflexivity. Qed.

(** *** C42 *)

(** The answer depends only on which known sequences the input begins with, not on the order of visiting maps: it is the longest
    of them, exactly that many bytes are consumed, and with no known sequence none is reported. *)
Theorem C42_longest_wins : forall seqs sizes b, tables seqs sizes ->
  (forall s k, known s k -> begins s b -> (forall s' k', known s' k' -> begins s' b -> (length s' <= length s)%nat) ->
     detect_sequence seqs sizes b = Some (length s, KeyMsg k)) /\
  ((forall s k, known s k -> ~ begins s b) -> forall w k, detect_sequence seqs sizes b <> Some (w, KeyMsg k)) /\
  (forall w k, detect_sequence seqs sizes b = Some (w, KeyMsg k) -> exists s, known s k /\ begins s b /\ length s = w).
Proof.
  intros seqs sizes b T. unfold detect_sequence. pose proof (known_prefix_spec seqs sizes b T) as K. destruct (known_prefix seqs sizes b) as [[w k]|].
  - destruct K as (s & L & Hk & Hb & M). split; [|split].
    + intros s' k' Hk' Hb' M'. assert (s' = s) as -> by (apply (prefix_same_length s' s b); auto; pose proof (M s' k' Hk' Hb'); pose proof (M' s k Hk Hb); lia).
      rewrite (known_fun s k k' Hk Hk'), L. reflexivity.
    + intros H. exfalso. exact (H s k Hk Hb).
    + intros w' k' [= <- <-]. exists s. auto.
  - split; [|split].
    + intros s k Hk Hb. exfalso. exact (K s k Hk Hb).
    + intros _ w k. destruct (csi_match b); discriminate.
    + intros w k. destruct (csi_match b); discriminate.
Qed.
Print Assumptions C42_longest_wins.

(** "ESC [ 1 ; 5 A" begins with several known sequences (ESC [ is Alt+[ only as text): the whole of it wins. *)
Example C42_instance : known (ESC :: asc "[1;5A") (Key KeyCtrlUp [] false false) /\
  detect_sequence the_seqs the_sizes (ESC :: asc "[1;5Axyz") = Some (6%nat, KeyMsg (Key KeyCtrlUp [] false false)) /\
  known (ESC :: asc "[[A") (Key KeyF1 [] false false) /\ known (ESC :: ESC :: asc "[[A") (Key KeyF1 [] true false) /\
  known [ESC; ESC] (Key KeyEscape [] true false) /\
  detect_sequence the_seqs the_sizes (ESC :: ESC :: asc "[[A") = Some (5%nat, KeyMsg (Key KeyF1 [] true false)).
Proof.
  repeat split; try (apply (tables_get _ _ the_tables)); vm_compute; reflexivity.
Qed.

(** The table has one meaning per sequence. *)
Theorem C42_one_meaning : forall s k k', known s k -> known s k' -> k = k'.
Proof. exact known_fun. Qed.
Print Assumptions C42_one_meaning.

(** *** C43 *)

Lemma paste_runes_encode rs : forall fuel rest, Forall (fun r => scalar r = true /\ r <> RuneError) rs -> (length (encode rs ++ rest) <= fuel)%nat ->
  exists f', paste_runes fuel (encode rs ++ rest) = rs ++ paste_runes f' rest /\ (length rest <= f')%nat.
Proof.
  induction rs as [|r rs IH]; intros fuel rest H L; [exists fuel; auto|]. apply Forall_cons_iff in H. destruct H as [[Hs Hr] H].
  cbn [encode flat_map] in *. rewrite <- app_assoc in *. destruct fuel as [|f].
  { destruct (encode_rune r) eqn:E; [exfalso; eapply encode_nonempty; eauto|]. cbn in L. lia. }
  pose proof (decode_encode r (flat_map encode_rune rs ++ rest) Hs) as D.
  assert (Hne : (1 <= length (encode_rune r))%nat) by (pose proof (encode_nonempty r); destruct (encode_rune r); [congruence|cbn; lia]).
  destruct (encode_rune r ++ flat_map encode_rune rs ++ rest) as [|c l] eqn:El; [apply app_eq_nil in El; destruct El as [El _]; exfalso; eapply encode_nonempty; eauto|].
  cbn [paste_runes]. rewrite D. rewrite <- El in *. replace (skipn (length (encode_rune r)) (encode_rune r ++ flat_map encode_rune rs ++ rest)) with (encode rs ++ rest) by (rewrite skipn_app, skipn_all, Nat.sub_diag; reflexivity).
  destruct (IH f rest H) as (f' & E & L'); [unfold encode; rewrite app_length in L; lia|]. exists f'. rewrite E. destruct (N.eqb_spec r RuneError); [congruence|]. auto.
Qed.

(** Pasted text that does not contain the end marker arrives as one paste message with exactly its characters, consuming text and
    markers and nothing of what follows. *)
Theorem C43_paste_verbatim : forall seqs sizes text rest more, tables seqs sizes ->
  Forall (fun r => scalar r = true /\ r <> RuneError) text -> (forall u v, encode text <> u ++ bp_end ++ v) ->
  detect_one_msg seqs sizes (bp_start ++ encode text ++ bp_end ++ rest) more =
    Ret (Some (length (bp_start ++ encode text ++ bp_end), KeyMsg (Key KeyRunes text false true))).
Proof.
  intros seqs sizes text rest more T Ht Hno. unfold detect_one_msg.
  assert (M : detect_mouse (bp_start ++ encode text ++ bp_end ++ rest) = Ret None) by reflexivity. rewrite M. cbn [bind]. clear M.
  assert (F : detect_report_focus (bp_start ++ encode text ++ bp_end ++ rest) = None).
  { unfold detect_report_focus. destruct (bytes_eqb _ (ESC :: asc "[I")) eqn:E; [apply bytes_eqb_true in E; discriminate|].
    destruct (bytes_eqb _ (ESC :: asc "[O")) eqn:E'; [apply bytes_eqb_true in E'; discriminate|reflexivity]. }
  rewrite F. unfold detect_bracketed_paste. replace (has_prefix bp_start (bp_start ++ encode text ++ bp_end ++ rest)) with true by (symmetry; apply has_prefix_true; now eexists).
  replace (skipn (length bp_start) (bp_start ++ encode text ++ bp_end ++ rest)) with (encode text ++ bp_end ++ rest) by reflexivity.
  rewrite (index_of_skip bp_end (encode text ++ bp_end ++ rest) (encode text) rest eq_refl).
  - rewrite firstn_app, firstn_all, Nat.sub_diag. cbn [firstn]. rewrite app_nil_r.
    destruct (paste_runes_encode text (length (encode text)) [] Ht) as (f' & E & _); [rewrite app_nil_r; lia|]. rewrite app_nil_r in E. rewrite E.
    replace (paste_runes f' []) with (@nil N) by (destruct f'; reflexivity). rewrite app_nil_r. rewrite !app_length, Nat.add_assoc. reflexivity.
  - intros u v E. destruct (le_lt_dec (length (encode text)) (length u)) as [|Hlt]; [assumption|exfalso].
    (* the marker would begin inside the text; it starts with an escape and holds no other one *)
    set (e := encode text) in *. clearbody e.
    assert (Hu : u = firstn (length u) e).
    { apply (f_equal (firstn (length u))) in E. rewrite firstn_app in E. replace (length u - length e)%nat with 0%nat in E by lia. cbn [firstn] in E. rewrite app_nil_r in E.
      rewrite E, firstn_app, firstn_all, Nat.sub_diag. cbn. now rewrite app_nil_r. }
    set (t := skipn (length u) e). assert (Ee : e = u ++ t) by (rewrite Hu at 1; symmetry; unfold t; apply firstn_skipn).
    assert (Lt : (1 <= length t)%nat) by (unfold t; rewrite skipn_length; lia). rewrite Ee, <- app_assoc in E. apply app_inv_head in E.
    destruct (le_lt_dec (length bp_end) (length t)) as [Hge|Hlt'].
    + apply (Hno u (skipn (length bp_end) t)). rewrite Ee. f_equal.
      apply (f_equal (firstn (length bp_end))) in E. rewrite firstn_app in E. replace (length bp_end - length t)%nat with 0%nat in E by lia. cbn [firstn] in E. rewrite app_nil_r in E.
      rewrite firstn_app, firstn_all, Nat.sub_diag in E. cbn [firstn] in E. rewrite app_nil_r in E. rewrite <- E at 1. symmetry. apply firstn_skipn.
    + clear - E Lt Hlt'. cbn in Hlt'. change bp_end with [27; 91; 50; 48; 49; 126]%N in E.
      destruct t as [|t0 [|t1 [|t2 [|t3 [|t4 [|t5 t]]]]]]; cbn [length app] in *; try lia; discriminate.
Qed.
Print Assumptions C43_paste_verbatim.

(** The pasted text may contain key sequences. *)
Example C43_instance : Forall (fun r => scalar r = true /\ r <> RuneError) [97; 27; 91; 65; 8364]%N /\ (forall u v, encode [97; 27; 91; 65; 8364]%N <> u ++ bp_end ++ v) /\
  read_inputs the_seqs the_sizes [] [bp_start ++ [97; 27]%N; [91; 65]%N; encode [8364]%N ++ bp_end ++ [120]%N] =
    Ret ([(bp_start ++ encode [97; 27; 91; 65; 8364]%N ++ bp_end, KeyMsg (Key KeyRunes [97; 27; 91; 65; 8364]%N false true)); ([120]%N, KeyMsg (Key KeyRunes [120%N] false false))], []).
Proof.
  split; [|split; [|vm_compute; reflexivity]].
  - repeat constructor; try discriminate.
  - apply index_of_None. vm_compute. reflexivity.
Qed.

(** The character U+FFFD, which stands for itself in pasted text, is dropped. *)
Theorem C43_replacement_char_refuted : forall seqs sizes more, tables seqs sizes ->
  detect_one_msg seqs sizes (bp_start ++ encode [97; RuneError; 98]%N ++ bp_end) more = Ret (Some (17%nat, KeyMsg (Key KeyRunes [97; 98]%N false true))).
Proof. intros seqs sizes more _. reflexivity. Qed.
Print Assumptions C43_replacement_char_refuted.
