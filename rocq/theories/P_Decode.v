(** Facts about the input decoder. *)
From Verif Require Import Base P_Base M_Utf8 P_Utf8 M_KeyTable M_Decode S_Keys.
From Coq Require Import ZArith NArith String Ascii List Bool Lia Permutation Sorted.
Import ListNotations.
Open Scope Z_scope.
Local Open Scope list_scope.

(** *** The tables *)

Lemma bytes_eqb_true a b : bytes_eqb a b = true <-> a = b.
Proof. unfold bytes_eqb. destruct (list_eq_dec _ a b); intuition congruence. Qed.

Definition base_step (s : kmap) (sk : bytes * key) : kmap :=
  let '(seq, k) := sk in let s := (seq, k) :: s in if negb (k_alt k) then (ESC :: seq, with_alt k) :: s else s.

Lemma base_step_perm order s : Permutation (fold_left base_step order s)
  (flat_map (fun sk : bytes * key => let '(seq, k) := sk in (seq, k) :: (if negb (k_alt k) then [(ESC :: seq, with_alt k)] else [])) order ++ s).
Proof.
  revert s. induction order as [|[q k] r IH]; intros s; [reflexivity|]. cbn [fold_left flat_map]. rewrite IH. unfold base_step. cbv zeta.
  destruct (negb (k_alt k)); cbn [app].
  - rewrite <- Permutation_middle. rewrite <- Permutation_middle. apply perm_swap.
  - symmetry. apply Permutation_middle.
Qed.

Lemma control_loop_app n : forall i s, control_loop n i s = control_loop n i [] ++ s.
Proof.
  induction n as [|n IH]; intros i s; [reflexivity|]. cbn [control_loop]. destruct (i <=? keyDEL); [|reflexivity]. destruct (i =? keyESC); [apply IH|].
  rewrite IH. symmetry. rewrite IH. rewrite <- app_assoc. reflexivity.
Qed.

Lemma ext_perm order : Permutation order sequences -> Permutation (ext_sequences order) (ext_sequences sequences).
Proof.
  intros H. unfold ext_sequences. cbv zeta. do 3 apply perm_skip.
  rewrite (control_loop_app _ _ (fold_left _ order [])), (control_loop_app _ _ (fold_left _ sequences [])). apply Permutation_app_head.
  change (Permutation (fold_left base_step order []) (fold_left base_step sequences [])).
  rewrite !base_step_perm. apply Permutation_app_tail. now apply Permutation_flat_map.
Qed.

Fixpoint distinct (l : list bytes) : bool :=
  match l with [] => true | a :: r => negb (existsb (bytes_eqb a) r) && distinct r end.
Lemma distinct_NoDup l : distinct l = true -> NoDup l.
Proof.
  induction l as [|a r IH]; intros H; [constructor|]. cbn in H. apply andb_prop in H. destruct H as [H1 H2]. constructor; [|auto].
  intros I. apply negb_true_iff in H1. assert (existsb (bytes_eqb a) r = true); [|congruence]. apply existsb_exists. exists a. split; [exact I|]. now apply bytes_eqb_true.
Qed.

Lemma ext_distinct : NoDup (map fst (ext_sequences sequences)).
Proof. apply distinct_NoDup. vm_compute. reflexivity. Qed.

Lemma kget_In m s k : NoDup (map fst m) -> (kget m s = Some k <-> In (s, k) m).
Proof.
  induction m as [|[t j] r IH]; intros H; cbn [kget map fst] in *; [split; [discriminate|intros []]|].
  apply NoDup_cons_iff in H. destruct H as [H1 H2]. destruct (bytes_eqb t s) eqn:E.
  - apply bytes_eqb_true in E. subst t. split.
    + intros [= ->]. now left.
    + intros [[= ->]|I]; [reflexivity|]. exfalso. apply H1. apply in_map_iff. now exists (s, k).
  - rewrite IH by exact H2. split; [now right|]. intros [[= -> ->]|I]; [|exact I]. assert (bytes_eqb s s = true) by now apply bytes_eqb_true. congruence.
Qed.


(** The entries of the table, canonical order, are exactly the known sequences. *)
Lemma known_entries s k : In (s, k) (ext_sequences sequences) <-> known s k.
Proof.
  unfold ext_sequences. cbv zeta. rewrite control_loop_app. cbn [In]. rewrite in_app_iff.
  assert (B : In (s, k) (fold_left base_step sequences []) <-> In (s, k) sequences \/ exists s' k', In (s', k') sequences /\ k_alt k' = false /\ s = ESC :: s' /\ k = with_alt k').
  { rewrite (Permutation_in' eq_refl (base_step_perm sequences [])). rewrite app_nil_r, in_flat_map. split.
    - intros ([s' k'] & I & [[= <- <-]|H]); [now left|]. right. destruct (k_alt k') eqn:E; cbn in H; [contradiction|]. destruct H as [[= <- <-]|[]]. exists s', k'. auto.
    - intros [H|(s' & k' & I & A & -> & ->)]; [exists (s, k); split; [exact H|now left]|]. exists (s', k'). split; [exact I|]. right. rewrite A. now left. }
  change (fun (s0 : kmap) (sk : bytes * key) => let '(seq, k0) := sk in let s1 := (seq, k0) :: s0 in if negb (k_alt k0) then (ESC :: seq, with_alt k0) :: s1 else s1) with base_step.
  rewrite B. clear B.
  assert (C : In (s, k) (control_loop 128 (keyNUL + 1) []) <-> exists c, ((1 <= c <= 31)%N \/ c = 127%N) /\ c <> ESC /\
     ((s = [c] /\ k = Key (Z.of_N c) [] false false) \/ (s = [ESC; c] /\ k = Key (Z.of_N c) [] true false))).
  { set (cs := map N.of_nat (seq 1 26 ++ seq 28 4 ++ [127%nat])).
    assert (E : forall x, In x (control_loop 128 (keyNUL + 1) []) <-> In x (flat_map (fun c => [([c], Key (Z.of_N c) [] false false); ([ESC; c], Key (Z.of_N c) [] true false)]) cs)).
    { assert (E : control_loop 128 (keyNUL + 1) [] = rev (flat_map (fun c => [([c], Key (Z.of_N c) [] false false); ([ESC; c], Key (Z.of_N c) [] true false)]) cs)) by (vm_compute; reflexivity).
      intros x. rewrite E. symmetry. apply in_rev. }
    rewrite E, in_flat_map. split.
    - intros (c & Hc & H). exists c. unfold cs in Hc. apply in_map_iff in Hc. destruct Hc as (n & <- & Hn). rewrite !in_app_iff, !in_seq in Hn. cbn [In] in Hn.
      unfold ESC. split; [lia|]. split; [lia|]. destruct H as [[= <- <-]|[[= <- <-]|[]]]; auto.
    - intros (c & Hc & Hn & H). exists c. split.
      + unfold cs. apply in_map_iff. exists (N.to_nat c). split; [lia|]. rewrite !in_app_iff, !in_seq. cbn [In]. unfold ESC in Hn. lia.
      + destruct H as [[-> ->]|[-> ->]]; [now left|right; now left]. }
  rewrite C. clear C. split.
  - intros [[= <- <-]|[[= <- <-]|[[= <- <-]|[(c & H1 & H2 & [[-> ->]|[-> ->]])|[H|(s' & k' & I & A & -> & ->)]]]]]; try (now constructor).
  - intros H. destruct H.
    + right; right; right; right; left. assumption.
    + right; right; right; right; right. exists s, k. auto.
    + right; right; right; left. exists c. auto.
    + right; right; right; left. exists c. auto.
    + right; right; left. reflexivity.
    + right; left. reflexivity.
    + left. reflexivity.
Qed.

Lemma tables_get seqs sizes : tables seqs sizes -> forall s k, kget seqs s = Some k <-> known s k.
Proof.
  intros (order & keys & P & -> & _) s k. pose proof (ext_perm order P) as Q.
  rewrite kget_In, <- known_entries.
  - now apply Permutation_in'.
  - eapply Permutation_NoDup; [|exact ext_distinct]. apply Permutation_map. now symmetry.
Qed.

Definition desc := StronglySorted (fun a b : nat => (b < a)%nat).
Lemma insert_desc_In n l x : In x (insert_desc n l) <-> x = n \/ In x l.
Proof. induction l as [|m r IH]; cbn [insert_desc In]; [split; (intros [E|H]; [subst; auto|tauto])|]. destruct (m <? n)%nat; cbn [In]; [split; (intros [E|H]; [subst; auto|auto])|]. rewrite IH. split; (intros [E|[E|H]]; subst; auto). Qed.
Lemma insert_desc_sorted n l : desc l -> ~ In n l -> desc (insert_desc n l).
Proof.
  induction l as [|m r IH]; intros H N; cbn [insert_desc]; [repeat constructor|]. inversion H as [|? ? H1 H2]; subst.
  destruct (Nat.ltb_spec m n).
  - constructor; [exact H|]. constructor; [exact H0|]. eapply Forall_impl; [|exact H2]. cbn. intros; lia.
  - constructor; [apply IH; [exact H1|cbn in N; tauto]|]. apply Forall_forall. intros x Hx. apply insert_desc_In in Hx. destruct Hx as [->|Hx].
    + cbn in N. assert (m <> n) by tauto. lia.
    + rewrite Forall_forall in H2. auto.
Qed.
Lemma sort_desc_In l x : In x (sort_desc l) <-> In x l.
Proof. induction l as [|a r IH]; cbn [sort_desc fold_right In]; [reflexivity|]. fold (sort_desc r). rewrite insert_desc_In, IH. split; (intros [E|H]; subst; auto). Qed.
Lemma sort_desc_sorted l : NoDup l -> desc (sort_desc l).
Proof. induction 1; cbn; [constructor|]. apply insert_desc_sorted; [assumption|]. now rewrite sort_desc_In. Qed.

Lemma tables_sizes seqs sizes : tables seqs sizes -> desc sizes /\ forall n, In n sizes <-> exists s k, known s k /\ length s = n.
Proof.
  intros T. pose proof (tables_get _ _ T) as G. destruct T as (order & keys & P & E & PK & ->). unfold seq_lengths. split; [apply sort_desc_sorted, NoDup_nodup|].
  intros n. rewrite sort_desc_In, nodup_In, in_map_iff. split.
  - intros (s & L & I). rewrite (Permutation_in' eq_refl PK) in I. apply in_map_iff in I. destruct I as ([s' k] & <- & I). exists s', k. split; [|exact L].
    rewrite E in I. rewrite (Permutation_in' eq_refl (ext_perm order P)) in I. now apply known_entries.
  - intros (s & k & H & L). exists s. split; [exact L|]. rewrite (Permutation_in' eq_refl PK). apply in_map_iff. exists (s, k). split; [reflexivity|].
    rewrite E, (Permutation_in' eq_refl (ext_perm order P)). now apply known_entries.
Qed.

Lemma known_prefix_Some seqs sizes b w k : known_prefix seqs sizes b = Some (w, k) -> (w <= length b)%nat /\ kget seqs (firstn w b) = Some k /\ In w sizes.
Proof.
  induction sizes as [|n r IH]; cbn [known_prefix]; [discriminate|]. destruct (Nat.ltb_spec (length b) n); [intros H'; destruct (IH H'); intuition|].
  destruct (kget seqs (firstn n b)) eqn:E; [intros [= <- <-]; cbn; auto|]. intros H'; destruct (IH H'); intuition.
Qed.
Lemma known_prefix_None seqs sizes b : known_prefix seqs sizes b = None -> forall n, In n sizes -> (n <= length b)%nat -> kget seqs (firstn n b) = None.
Proof.
  induction sizes as [|n r IH]; cbn [known_prefix]; [easy|]. intros H m [->|I] L.
  - destruct (Nat.ltb_spec (length b) m); [lia|]. destruct (kget seqs (firstn m b)); [discriminate|reflexivity].
  - apply IH; auto. destruct (length b <? n)%nat; [exact H|]. destruct (kget seqs (firstn n b)); [discriminate|exact H].
Qed.
Lemma known_prefix_longest seqs sizes b w k : desc sizes -> known_prefix seqs sizes b = Some (w, k) ->
  forall n, In n sizes -> (n <= length b)%nat -> kget seqs (firstn n b) <> None -> (n <= w)%nat.
Proof.
  induction sizes as [|m r IH]; cbn [known_prefix]; [discriminate|]. intros D H n I L K. inversion D as [|? ? D1 D2]; subst. rewrite Forall_forall in D2.
  destruct (Nat.ltb_spec (length b) m).
  - destruct I as [->|I]; [lia|]. eapply IH; eauto.
  - destruct (kget seqs (firstn m b)) as [k'|] eqn:E.
    + injection H as -> ->. destruct I as [->|I]; [lia|]. specialize (D2 _ I). lia.
    + destruct I as [->|I]; [congruence|]. eapply IH; eauto.
Qed.

Lemma firstn_prefix s (b : bytes) : begins s b <-> (length s <= length b)%nat /\ firstn (length s) b = s.
Proof.
  split.
  - intros (t & ->). rewrite app_length. split; [lia|]. rewrite firstn_app, Nat.sub_diag. cbn. rewrite app_nil_r. apply firstn_all.
  - intros (H & E). exists (skipn (length s) b). rewrite <- E at 1. symmetry. apply firstn_skipn.
Qed.

(** Longest known prefix, or none. *)
Lemma known_prefix_spec seqs sizes b : tables seqs sizes ->
  match known_prefix seqs sizes b with
  | Some (w, k) => exists s, length s = w /\ known s k /\ begins s b /\ forall s' k', known s' k' -> begins s' b -> (length s' <= w)%nat
  | None => forall s k, known s k -> ~ begins s b
  end.
Proof.
  intros T. pose proof (tables_get _ _ T) as G. destruct (tables_sizes _ _ T) as [D S].
  destruct (known_prefix seqs sizes b) as [[w k]|] eqn:E.
  - destruct (known_prefix_Some _ _ _ _ _ E) as (L & K & _). exists (firstn w b). rewrite firstn_length_le by exact L. split; [reflexivity|]. split; [now apply G|].
    split. { exists (skipn w b). symmetry. apply firstn_skipn. }
    intros s' k' K' P. apply firstn_prefix in P. destruct P as [L' P]. eapply known_prefix_longest; eauto.
    + apply S. now exists s', k'.
    + rewrite P. apply G in K'. congruence.
  - intros s k K P. apply firstn_prefix in P. destruct P as [L P]. assert (X := known_prefix_None _ _ _ E (length s)). rewrite P in X.
    apply G in K. rewrite K in X. discriminate X; [|exact L]. apply S. exists s, k. split; [now apply G|reflexivity].
Qed.

Lemma prefix_same_length s s' (b : bytes) : begins s b -> begins s' b -> length s = length s' -> s = s'.
Proof. rewrite !firstn_prefix. intros [_ E1] [_ E2] L. rewrite L in E1. congruence. Qed.
Lemma known_fun s k k' : known s k -> known s k' -> k = k'.
Proof. rewrite <- !known_entries, <- !kget_In by apply ext_distinct. congruence. Qed.

(** *** Widths *)

Lemma take_digits_len s : let (d, r) := take_digits s in (length d + length r = length s)%nat.
Proof. induction s as [|c t IH]; cbn; [reflexivity|]. destruct (is_dig c); [|reflexivity]. destruct (take_digits t). cbn. lia. Qed.
Lemma sgr_at_len s g : sgr_at s = Some g -> (g_end g <= length s)%nat.
Proof.
  unfold sgr_at. pose proof (take_digits_len s) as L. destruct (take_digits s) as [d1 r1].
  destruct r1 as [|c r1]; [discriminate|]. destruct (N.eqb_spec c 59) as [->|N].
  2:{ intros H. exfalso. repeat (match type of H with context [match ?x with _ => _ end] => destruct x end; try discriminate; try congruence). }
  pose proof (take_digits_len r1) as L1. destruct (take_digits r1) as [d2 r2].
  destruct r2 as [|c r2]; [discriminate|]. destruct (N.eqb_spec c 59) as [->|N].
  2:{ intros H. exfalso. repeat (match type of H with context [match ?x with _ => _ end] => destruct x end; try discriminate; try congruence). }
  pose proof (take_digits_len r2) as L2. destruct (take_digits r2) as [d3 r3].
  destruct r3 as [|f r3]; [discriminate|]. destruct (_ || _); [|discriminate]. destruct d1, d2, d3; try discriminate. intros [= <-]. cbn [g_end length] in *. lia.
Qed.
Lemma sgr_find_len s g : sgr_find s = Some g -> (g_end g <= length s)%nat.
Proof.
  revert g. induction s as [|c t IH]; intros g; cbn [sgr_find].
  - destruct (sgr_at []) eqn:E; [|discriminate]. intros [= <-]. now apply sgr_at_len.
  - destruct (sgr_at (c :: t)) eqn:E; [intros [= <-]; now apply sgr_at_len|]. destruct (sgr_find t) as [h|]; [|discriminate]. intros [= <-]. cbn. specialize (IH h eq_refl). lia.
Qed.
Lemma take_while_len f s : let (d, r) := take_while f s in (length d + length r = length s)%nat.
Proof. induction s as [|c t IH]; cbn; [reflexivity|]. destruct (f c); [|reflexivity]. destruct (take_while f t). cbn. lia. Qed.
Lemma csi_match_len s w : csi_match s = Some w -> (3 <= w <= length s)%nat.
Proof.
  intros H. unfold csi_match in H. destruct s as [|a s]; [discriminate|]. destruct (N.eqb_spec a 27) as [->|N].
  2:{ exfalso. repeat (match type of H with context [match ?x with _ => _ end] => destruct x end; try discriminate; try congruence). }
  destruct s as [|c s]; [discriminate|]. destruct (N.eqb_spec c 91) as [->|N].
  2:{ exfalso. repeat (match type of H with context [match ?x with _ => _ end] => destruct x end; try discriminate; try congruence). }
  pose proof (take_while_len (fun c => in_range 48 c 63) s) as L1. destruct (take_while _ s) as [p r].
  pose proof (take_while_len (fun c => in_range 32 c 47) r) as L2. destruct (take_while _ r) as [q t]. destruct t as [|f t]; [discriminate|].
  destruct (in_range 64 f 126); [|discriminate]. injection H as <-. cbn [length] in *. lia.
Qed.

Lemma detect_mouse_ok b : exists r, detect_mouse b = Ret r /\ match r with Some (w, m) => (6 <= w \/ 3 <= w)%nat /\ (w <= length b)%nat | None => True end.
Proof.
  unfold detect_mouse.
  repeat (match goal with
  | |- exists r, Ret ?x = Ret r /\ _ => exists x; split; [reflexivity|]; cbn [length]; auto; lia
  | |- context [match ?x with _ => _ end] => is_var x; destruct x
  end; try (eexists; split; [reflexivity|exact I])).
  all: match goal with |- context [if ?c then _ else _] => destruct c; [eexists; split; [reflexivity|]; cbn [length]; lia|] end.
  all: match goal with |- context [if ?c then _ else _] => destruct c; [|eexists; split; [reflexivity|exact I]] end.
  all: cbn [skipn]; match goal with |- context [sgr_find ?s] => pose proof (sgr_find_len s) as L; unfold parse_sgr; destruct (sgr_find s) as [g|] end; 
    [|eexists; split; [reflexivity|exact I]]; eexists; cbn [bind]; (split; [reflexivity|]); specialize (L g eq_refl); cbn [length] in *; lia.
Qed.

(** *** Substrings *)
Lemma has_prefix_true p s : has_prefix p s = true <-> begins p s.
Proof.
  unfold has_prefix. rewrite bytes_eqb_true, firstn_prefix. split; [|tauto]. intros E. split; [|exact E]. rewrite <- E at 1. rewrite firstn_length. lia.
Qed.
Lemma index_of_Some p s n : index_of p s = Some n -> exists u v, s = u ++ p ++ v /\ length u = n /\ forall u' v', s = u' ++ p ++ v' -> (n <= length u')%nat.
Proof.
  revert n. induction s as [|c t IH]; intros n; cbn [index_of].
  - destruct (has_prefix p []) eqn:E; [|discriminate]. intros [= <-]. apply has_prefix_true in E. destruct E as (v & E). exists [], v. repeat split; auto. cbn. lia.
  - destruct (has_prefix p (c :: t)) eqn:E.
    + intros [= <-]. apply has_prefix_true in E. destruct E as (v & E). exists [], v. repeat split; auto. cbn. lia.
    + destruct (index_of p t) as [m|]; [|discriminate]. intros [= <-]. destruct (IH m eq_refl) as (u & v & -> & L & M). exists (c :: u), v. cbn [length app]. repeat split; [lia|].
      intros u' v' H. destruct u' as [|c' u']; cbn [app] in H.
      * exfalso. assert (has_prefix p (c :: u ++ p ++ v) = true) by (apply has_prefix_true; now exists v'). congruence.
      * injection H as -> H. specialize (M u' v' H). cbn. lia.
Qed.
Lemma index_of_None p s : index_of p s = None -> forall u v, s <> u ++ p ++ v.
Proof.
  induction s as [|c t IH]; cbn [index_of]; intros H u v E.
  - destruct (has_prefix p []) eqn:B; [discriminate|]. symmetry in E. apply app_eq_nil in E. destruct E as [_ E]. assert (has_prefix p [] = true) by (apply has_prefix_true; exists v; now symmetry). congruence.
  - destruct (has_prefix p (c :: t)) eqn:B; [discriminate|]. destruct (index_of p t); [discriminate|]. destruct u as [|c' u]; cbn [app] in E.
    + assert (has_prefix p (c :: t) = true) by (apply has_prefix_true; now exists v). congruence.
    + injection E as -> E. exact (IH eq_refl u v E).
Qed.
Lemma index_of_skip (p s u v : bytes) : s = u ++ p ++ v -> (forall u' v', s = u' ++ p ++ v' -> (length u <= length u')%nat) -> index_of p s = Some (length u).
Proof.
  intros E M. destruct (index_of p s) as [n|] eqn:I.
  - destruct (index_of_Some _ _ _ I) as (u' & v' & E' & L & M'). specialize (M u' v' E'). specialize (M' u v E). f_equal. lia.
  - exfalso. exact (index_of_None _ _ I u v E).
Qed.

(** *** Runs of runes *)
Definition text_byte (c : N) : Prop := (32 < c)%N /\ c <> 127%N.

Lemma decode_bytes b r w : decode_rune b = (r, w) -> r <> RuneError -> (b = r :: tl b /\ w = 1%nat) \/ (forall c, In c (firstn w b) -> (128 <= c)%N).
Proof.
  destruct b as [|p0 q]; cbn [decode_rune]; [intros [= <- <-]; congruence|]. destruct (N.ltb_spec p0 128); [intros [= <- <-] _; now left|].
  destruct (first_byte p0) as [[[sz lo] hi]|] eqn:F; [|intros [= <- <-]; congruence].
  assert (LO : (128 <= lo)%N) by (unfold first_byte in F; repeat match type of F with context [if ?c then _ else _] => destruct c end; injection F as <- <- <- || discriminate; lia). clear F.
  destruct q as [|b1 q]; [intros [= <- <-]; congruence|].
  destruct (_ <? sz)%nat; [intros [= <- <-]; congruence|].
  destruct (in_range lo b1 hi) eqn:R1; cbn [negb]; [|intros [= <- <-]; congruence]. apply in_range_spec in R1.
  destruct (sz <=? 2)%nat; [intros [= <- <-] _; right; cbn; intros c [<-|[<-|[]]]; lia|].
  destruct q as [|b2 q]; [intros [= <- <-]; congruence|]. destruct (in_range 128 b2 191) eqn:R2; cbn [negb]; [|intros [= <- <-]; congruence]. apply in_range_spec in R2.
  destruct (sz <=? 3)%nat; [intros [= <- <-] _; right; cbn; intros c [<-|[<-|[<-|[]]]]; lia|].
  destruct q as [|b3 q]; [intros [= <- <-]; congruence|]. destruct (in_range 128 b3 191) eqn:R3; cbn [negb]; [|intros [= <- <-]; congruence]. apply in_range_spec in R3.
  intros [= <- <-] _; right; cbn; intros c [<-|[<-|[<-|[<-|[]]]]]; lia.
Qed.

Definition stops (r : N) : bool := (r =? RuneError)%N || (r <=? 31)%N || (r =? 127)%N || (r =? 32)%N.
Lemma stops_false r : stops r = false -> r <> RuneError /\ (32 < r)%N /\ r <> 127%N.
Proof. unfold stops. rewrite !orb_false_iff, !N.eqb_neq, N.leb_gt. lia. Qed.

Lemma rune_run_step f alt b : b <> [] -> rune_run (S f) alt b = let (r, rw) := decode_rune b in
  if stops r then ([], 0%nat) else if alt then ([r], rw) else let (rs, n) := rune_run f alt (skipn rw b) in (r :: rs, (rw + n)%nat).
Proof. destruct b; [easy|]. reflexivity. Qed.

Lemma firstn_plus {A} n m (l : list A) : firstn (n + m) l = firstn n l ++ firstn m (skipn n l).
Proof. revert l. induction n as [|n IH]; intros [|a l]; cbn; [reflexivity|reflexivity|now rewrite firstn_nil|]. now rewrite IH. Qed.
Lemma rune_run_len f alt : forall b rs n, rune_run f alt b = (rs, n) -> (n <= length b)%nat /\ (rs <> [] -> (1 <= n)%nat) /\ forall c, In c (firstn n b) -> text_byte c.
Proof.
  induction f as [|f IH]; intros b rs n H; [injection H as <- <-; repeat split; [lia|congruence| |]; contradiction|].
  destruct b as [|c0 b0]; [injection H as <- <-; repeat split; [lia|congruence| |]; contradiction|].
  rewrite rune_run_step in H by discriminate. set (b := c0 :: b0) in *. pose proof (decode_width b ltac:(discriminate)) as W. destruct (decode_rune b) as [r rw] eqn:D. cbn [snd] in W.
  destruct (stops r) eqn:S; [injection H as <- <-; repeat split; [lia|congruence| |]; contradiction|]. apply stops_false in S. destruct S as (S1 & S2 & S3).
  assert (B : forall c, In c (firstn rw b) -> text_byte c).
  { intros c Hc. destruct (decode_bytes b r rw D S1) as [[E ->]|B].
    - rewrite E in Hc. cbn in Hc. destruct Hc as [<-|[]]. now split.
    - specialize (B c Hc). unfold text_byte. lia. }
  destruct alt; [injection H as <- <-; repeat split; [lia|lia| |]; now apply B|].
  destruct (rune_run f false (skipn rw b)) as [rs' n'] eqn:E. injection H as <- <-. destruct (IH _ _ _ E) as (L & _ & T). rewrite skipn_length in L.
  split; [lia|]. split; [intros _; lia|]. intros c Hc.
  rewrite firstn_plus in Hc.
  apply in_app_iff in Hc. destruct Hc; auto.
Qed.

(** *** One message *)
Definition unfinished_paste (b : bytes) : Prop := exists t, b = bp_start ++ t /\ forall u v, t <> u ++ bp_end ++ v.

Lemma detect_one_ok seqs sizes b more : tables seqs sizes -> b <> [] -> exists r, detect_one_msg seqs sizes b more = Ret r /\
  match r with
  | Some (w, m) => (1 <= w <= length b)%nat
  | None => unfinished_paste b \/ (more = true /\ forall c, In c (tl b) -> text_byte c)
  end.
Proof.
  intros T Hb. unfold detect_one_msg. destruct (detect_mouse_ok b) as (r & -> & W). cbn [bind]. destruct r as [[w m]|]; [eexists; split; [reflexivity|]; cbn; lia|]. clear W.
  unfold detect_report_focus. destruct (bytes_eqb b (ESC :: asc "[I")) eqn:F1; [apply bytes_eqb_true in F1; subst b; eexists; split; [reflexivity|]; cbn; lia|].
  destruct (bytes_eqb b (ESC :: asc "[O")) eqn:F2; [apply bytes_eqb_true in F2; subst b; eexists; split; [reflexivity|]; cbn; lia|].
  unfold detect_bracketed_paste. destruct (has_prefix bp_start b) eqn:P.
  { apply has_prefix_true in P. destruct P as (t & ->). replace (skipn (length bp_start) (bp_start ++ t)) with t by reflexivity.
    destruct (index_of bp_end t) as [n|] eqn:I; eexists; (split; [reflexivity|]).
    - destruct (index_of_Some _ _ _ I) as (u & v & -> & L & _). rewrite !app_length, <- L. cbn [bp_start length Nat.add]. lia.
    - left. exists t. split; [reflexivity|]. exact (index_of_None _ _ I). }
  unfold detect_sequence. pose proof (known_prefix_spec seqs sizes b T) as K. destruct (known_prefix seqs sizes b) as [[w k]|].
  { eexists; split; [reflexivity|]. destruct K as (s & <- & Hk & Hp & _). apply firstn_prefix in Hp. destruct Hp as [L _]. split; [|exact L].
    destruct s as [|c s]; [|cbn; lia]. exfalso. apply known_entries in Hk. assert (X : forallb (fun e : bytes * key => negb (bytes_eqb (fst e) [])) (ext_sequences sequences) = true) by (vm_compute; reflexivity).
    rewrite forallb_forall in X. specialize (X _ Hk). discriminate. }
  clear K. destruct (csi_match b) as [w|] eqn:C; [apply csi_match_len in C; eexists; split; [reflexivity|]; cbv beta iota; lia|]. clear C.
  destruct b as [|b0 b']; [easy|]. set (b := b0 :: b') in *. set (alt := (b0 =? ESC)%N). cbv zeta.
  set (i := if alt then 1%nat else 0%nat). assert (Hi : (i <= length b)%nat) by (unfold i, b; destruct alt; cbn; lia).
  destruct (nth_error b i) as [c|] eqn:Ei.
  2:{ apply nth_error_None in Ei. assert (b' = [] /\ i = 1%nat). { unfold i, b in *. destruct alt; cbn [length] in *; destruct b'; cbn [length] in *; try lia; auto. }
      destruct H as [-> Hi1]. rewrite Hi1. cbn [skipn b]. destruct more.
      - eexists; split; [reflexivity|]. right. split; [reflexivity|]. cbn. contradiction.
      - assert (alt = true) by (unfold i in Hi1; destruct alt; [reflexivity|discriminate]). cbn [length rune_run Nat.add Nat.leb andb]. rewrite H. eexists; split; [reflexivity|]. cbn. lia. }
  destruct (N.eq_dec c 0) as [->|Nc].
  { eexists; split; [reflexivity|]. assert (i < length b)%nat by (apply nth_error_Some; congruence). cbv beta iota. lia. }
  replace (match c with 0%N => true | _ => false end) with false by (destruct c; [congruence|reflexivity]).
  destruct (rune_run (length b) alt (skipn i b)) as [rs n] eqn:R. destruct (rune_run_len _ _ _ _ _ R) as (L & P1 & TB). rewrite skipn_length in L.
  destruct ((length b <=? i + n)%nat && more) eqn:E.
  { apply andb_prop in E. destruct E as [E1 ->]. apply Nat.leb_le in E1. eexists; split; [reflexivity|]. right. split; [reflexivity|]. intros c' Hc'. apply TB.
    assert (n = length (skipn i b)) by (rewrite skipn_length; lia). subst n. rewrite firstn_all. unfold i, b in *. destruct alt; [exact Hc'|]. now right. }
  destruct rs as [|r0 rs].
  - destruct (alt && (length b =? 1)%nat); eexists; (split; [reflexivity|]); cbn; lia.
  - eexists; split; [reflexivity|]. specialize (P1 ltac:(discriminate)). cbv beta iota. lia.
Qed.

(** *** Reads *)
Lemma scan_ok seqs sizes more : tables seqs sizes -> forall fuel b, (length b <= fuel)%nat -> exists ms rest, scan seqs sizes fuel b more = Ret (ms, rest) /\
  b = concat (map fst ms) ++ rest /\ (forall bs m, In (bs, m) ms -> bs <> []) /\
  (rest = [] \/ unfinished_paste rest \/ (more = true /\ forall c, In c (tl rest) -> text_byte c)).
Proof.
  intros T. induction fuel as [|f IH]; intros b L.
  - destruct b; [|cbn in L; lia]. exists [], []. repeat split; auto.
  - destruct b as [|b0 b']; [exists [], []; repeat split; auto|]. cbn [scan]. set (b := b0 :: b') in *.
    destruct (detect_one_ok seqs sizes b more T ltac:(discriminate)) as (r & -> & W). cbn [bind]. destruct r as [[w m]|].
    + destruct (IH (skipn w b)) as (ms & rest & -> & E & N & R); [rewrite skipn_length; lia|]. cbn [bind]. exists ((firstn w b, m) :: ms), rest. split; [reflexivity|].
      cbn [map fst concat]. split; [rewrite <- app_assoc, <- E; symmetry; apply firstn_skipn|]. split; [|exact R].
      intros bs m' [[= <- <-]|I]; [|eauto]. intros X. apply (f_equal (@length BinNums.N)) in X. rewrite firstn_length in X. cbn [length] in X. lia.
    + exists [], b. split; [reflexivity|]. split; [reflexivity|]. split; [intros ? ? []|]. right. exact W.
Qed.

Lemma last_default {A} (l : list A) a b : l <> [] -> last l a = last l b.
Proof. induction l as [|x [|y r] IH]; intros H; [easy|reflexivity|]. cbn [last]. apply IH. discriminate. Qed.

Lemma read_inputs_ok seqs sizes : tables seqs sizes -> forall reads left, exists ms rest, read_inputs seqs sizes left reads = Ret (ms, rest) /\
  left ++ concat reads = concat (map fst ms) ++ rest /\ (forall bs m, In (bs, m) ms -> bs <> []) /\
  (reads <> [] -> rest = [] \/ unfinished_paste rest \/ (length (last reads []) = read_size /\ forall c, In c (tl rest) -> text_byte c)).
Proof.
  intros T. induction reads as [|r rs IH]; intros left; cbn [read_inputs].
  - exists [], left. cbn. rewrite app_nil_r. repeat split; auto; congruence.
  - destruct (scan_ok seqs sizes (length r =? read_size)%nat T (length (left ++ r)) (left ++ r) ltac:(lia)) as (ms & rest & -> & E & N & R). cbn [bind].
    destruct (IH rest) as (ms' & rest' & E1 & E' & N' & R'). rewrite E1. cbn [bind]. exists (ms ++ ms'), rest'. split; [reflexivity|]. split.
    { cbn [concat]. rewrite map_app, concat_app, <- app_assoc, <- E', app_assoc, E, <- app_assoc. reflexivity. }
    split; [intros bs m I; apply in_app_iff in I; destruct I; eauto|]. intros _. destruct rs as [|r' rs'].
    + cbn [read_inputs] in E1. injection E1 as <- <-. cbn [last]. destruct R as [R|[R|[R1 R2]]]; auto. right. right. split; [|exact R2]. now apply Nat.eqb_eq.
    + specialize (R' ltac:(discriminate)). exact R'.
Qed.
