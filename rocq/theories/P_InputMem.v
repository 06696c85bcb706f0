(** Lemmas about the text inputs in memory. *)
From Verif Require Import Base P_Base M_Geom M_Style M_Uniseg M_Buffer M_Text M_Block M_Slice M_List M_Reflow M_Input S_Input P_Input M_InputMem.
From Coq Require Import ZArith NArith List Bool Lia Arith.
Import ListNotations.
Open Scope nat_scope.
Local Arguments zlen : simpl never.

Lemma nth_skipn {A} (l : list A) n k d : nth k (skipn n l) d = nth (n + k) l d.
Proof. revert l. induction n as [|n IH]; intros [|a l]; cbn [skipn plus nth]; auto. now destruct k. Qed.
Lemma nth_firstn {A} (l : list A) n k d : nth k (firstn n l) d = if k <? n then nth k l d else d.
Proof. revert k l. induction n as [|n IH]; intros k [|a l]; cbn [firstn]; [now destruct k|now destruct k|destruct k as [|k]; cbn [nth]; destruct (_ <? _); reflexivity|]. destruct k; cbn [nth]; [reflexivity|]. rewrite IH. reflexivity. Qed.
Lemma skipn_skipn {A} (l : list A) n k : skipn n (skipn k l) = skipn (k + n) l.
Proof. revert l. induction k as [|k IH]; intros [|a l]; cbn [skipn plus]; auto. apply skipn_nil. Qed.

(** ** Arrays *)
Lemma overwrite_length a i xs : i + length xs <= length a -> length (overwrite a i xs) = length a.
Proof. intros H. unfold overwrite. rewrite !app_length, !firstn_length, skipn_length. lia. Qed.
Lemma overwrite_nth a i xs k d : i + length xs <= length a -> nth k (overwrite a i xs) d = if (i <=? k) && (k <? i + length xs) then nth (k - i) xs d else nth k a d.
Proof.
  intros H. unfold overwrite. rewrite (firstn_all2 (n := length a - i) xs) by lia.
  destruct (Nat.leb_spec i k) as [L|L]; cbn [andb].
  - rewrite app_nth2; rewrite firstn_length, Nat.min_l by lia; [|lia]. destruct (Nat.ltb_spec k (i + length xs)) as [M|M].
    + now rewrite app_nth1 by lia.
    + rewrite app_nth2 by lia. rewrite nth_skipn. f_equal. lia.
  - rewrite app_nth1 by (rewrite firstn_length; lia). rewrite nth_firstn. destruct (Nat.ltb_spec k i); [reflexivity|lia].
Qed.
Lemma set_array_length m n a : length (set_array m n a) = length m.
Proof. revert n. induction m as [|b m IH]; intros [|n]; cbn; auto. Qed.
Lemma set_array_nth m n a k : nth k (set_array m n a) [] = if (k =? n) && (n <? length m) then a else nth k m [].
Proof. revert n k. induction m as [|b m IH]; intros [|n] [|k]; cbn; auto. 1: now rewrite andb_false_r. apply IH. Qed.
Lemma set_array_same m n : set_array m n (nth n m []) = m.
Proof. revert n. induction m as [|b m IH]; intros [|n]; cbn; auto. now rewrite IH. Qed.
Lemma copy_length m a i xs : length (copy_to m a i xs) = length m.
Proof. apply set_array_length. Qed.
Lemma copy_same m a i xs : nth a (copy_to m a i xs) [] = if a <? length m then overwrite (nth a m []) i xs else nth a m [].
Proof. unfold copy_to. rewrite set_array_nth, Nat.eqb_refl. reflexivity. Qed.
Lemma copy_other m a i xs b : b <> a -> nth b (copy_to m a i xs) [] = nth b m [].
Proof. intros H. unfold copy_to. rewrite set_array_nth. destruct (Nat.eqb_spec b a); [contradiction|reflexivity]. Qed.

(** ** Windows *)
Definition sound (m : memory) (w : window) : Prop := wi_array w < length m /\ wi_from w + wi_len w <= length (nth (wi_array w) m []).
Lemma view_length m w : sound m w -> length (view m w) = wi_len w.
Proof. intros [_ H]. unfold view. rewrite firstn_length, skipn_length. lia. Qed.
Lemma view_nth m w k d : k < wi_len w -> nth k (view m w) d = nth (wi_from w + k) (nth (wi_array w) m []) d.
Proof. intros H. unfold view. rewrite nth_firstn. destruct (Nat.ltb_spec k (wi_len w)); [|lia]. now rewrite nth_skipn. Qed.
(** Two equal views. *)
Lemma view_eq m w l : sound m w -> length l = wi_len w -> (forall k, k < wi_len w -> nth (wi_from w + k) (nth (wi_array w) m []) [] = nth k l []) -> view m w = l.
Proof. intros S L H. apply nth_ext with (d := []) (d' := []); rewrite (view_length m w S); [auto|]. intros n Hn. rewrite view_nth by lia. now apply H. Qed.

(** What the calls on one window leave of the memory: they write only in its array and in new arrays. *)
Definition keeps (m : memory) (a : nat) (m' : memory) : Prop :=
  length m <= length m' /\ (forall b, b < length m -> b <> a -> nth b m' [] = nth b m []) /\ length (nth a m' []) = length (nth a m []).
Definition step_window (m : memory) (w w' : window) : Prop := wi_array w' = wi_array w \/ wi_array w' = 0 \/ length m <= wi_array w'.
Lemma keeps_refl m a : keeps m a m. Proof. split; [lia|auto]. Qed.
Lemma keeps_trans m a m1 m2 : keeps m a m1 -> keeps m1 a m2 -> keeps m a m2.
Proof. intros (A & B & C) (D & E & F). split; [lia|]. split; [intros b Hb N; rewrite E by (auto; lia); auto|congruence]. Qed.

Lemma nth_app_old (m : memory) l k : k < length m -> nth k (m ++ l) [] = nth k m [].
Proof. intros H. now apply app_nth1. Qed.
Lemma keeps_app m a l : a < length m -> keeps m a (m ++ l).
Proof. intros H. split; [rewrite app_length; lia|]. split; [intros; now apply nth_app_old|now rewrite nth_app_old]. Qed.
Lemma keeps_copy m a i xs : i + length xs <= length (nth a m []) -> keeps m a (copy_to m a i xs).
Proof.
  intros H. split; [rewrite copy_length; lia|]. split; [intros; now apply copy_other|]. rewrite copy_same. destruct (_ <? _); [now apply overwrite_length|reflexivity].
Qed.

Section Grow.
Variable grow : nat -> nat -> nat.
Notation append := (append grow). Notation insert := (insert grow).

Lemma append_ok m w xs m' w' : sound m w -> append m w xs = (m', w') ->
  view m' w' = view m w ++ xs /\ sound m' w' /\ keeps m (wi_array w) m' /\ step_window m w w' /\ wi_len w' = wi_len w + length xs /\
  (wi_len w + length xs <= capacity m w -> w' = Window (wi_array w) (wi_from w) (wi_len w + length xs) /\ m' = copy_to m (wi_array w) (wi_from w + wi_len w) xs) /\
  (capacity m w < wi_len w + length xs -> wi_array w' = length m /\ wi_from w' = 0 /\ exists a, m' = m ++ [a]).
Proof.
  intros S E. pose proof S as [S1 S2]. unfold M_InputMem.append in E. destruct (Nat.leb_spec (wi_len w + length xs) (capacity m w)) as [L|L]; injection E as <- <-.
  - assert (R : wi_from w + wi_len w + length xs <= length (nth (wi_array w) m [])) by (unfold capacity in L; lia).
    assert (G : sound (copy_to m (wi_array w) (wi_from w + wi_len w) xs) (Window (wi_array w) (wi_from w) (wi_len w + length xs))).
    { split; cbn; [rewrite copy_length; auto|]. rewrite copy_same. destruct (Nat.ltb_spec (wi_array w) (length m)); [|lia]. rewrite overwrite_length; lia. }
    split; [|split; [exact G|split; [apply keeps_copy; lia|split; [left; reflexivity|split; [reflexivity|split; [auto|lia]]]]]].
    apply view_eq; [exact G|cbn; rewrite app_length, view_length by auto; lia|]. cbn. intros k Hk. rewrite copy_same. destruct (Nat.ltb_spec (wi_array w) (length m)); [|lia]. rewrite overwrite_nth by lia.
    destruct (Nat.leb_spec (wi_from w + wi_len w) (wi_from w + k)); cbn [andb].
    + destruct (Nat.ltb_spec (wi_from w + k) (wi_from w + wi_len w + length xs)); [|lia]. rewrite app_nth2; rewrite view_length by auto; [f_equal; lia|lia].
    + rewrite app_nth1 by (rewrite view_length by auto; lia). now rewrite view_nth by lia.
  - assert (G : forall r, nth (length m) (m ++ [view m w ++ xs ++ r]) [] = view m w ++ xs ++ r).
    { intros r. rewrite app_nth2, Nat.sub_diag by lia. reflexivity. }
    assert (Q : forall r, sound (m ++ [view m w ++ xs ++ r]) (Window (length m) 0 (wi_len w + length xs))).
    { intros r. split; cbn; [rewrite app_length; cbn; lia|]. rewrite G, !app_length, view_length by auto. lia. }
    split; [|split; [apply Q|split; [now apply keeps_app|split; [right; right; cbn; lia|split; [reflexivity|split; [lia|intros _; split; [reflexivity|split; [reflexivity|eauto]]]]]]]].
    unfold view at 1. cbn [wi_len wi_from wi_array skipn]. rewrite G, app_assoc, firstn_app. replace (wi_len w + length xs) with (length (view m w ++ xs)) by (rewrite app_length, view_length; auto).
    now rewrite firstn_all, Nat.sub_diag, firstn_O, app_nil_r.
Qed.

Lemma sound_upto m w i : sound m w -> i <= wi_len w -> sound m (upto w i).
Proof. intros [A B] H. split; cbn; [auto|lia]. Qed.
Lemma sound_from m w i : sound m w -> i <= wi_len w -> sound m (from w i).
Proof. intros [A B] H. split; cbn; [auto|lia]. Qed.
Lemma sound_nil m : nth 0 m [] = [] -> 0 < length m -> sound m nil_window.
Proof. intros A B. split; cbn; [auto|lia]. Qed.
Lemma view_upto m w i : sound m w -> i <= wi_len w -> view m (upto w i) = firstn i (view m w).
Proof. intros S H. unfold view, upto. cbn. rewrite firstn_firstn, Nat.min_l by lia. reflexivity. Qed.
Lemma view_from m w i : view m (from w i) = skipn i (view m w).
Proof. unfold view, from. cbn. rewrite skipn_firstn_comm, skipn_skipn. reflexivity. Qed.
Lemma view_nil m : view m nil_window = []. Proof. reflexivity. Qed.

(** A window that shows the same places shows the same. *)
Lemma view_kept m m' w : (forall k, k < wi_len w -> nth (wi_from w + k) (nth (wi_array w) m' []) [] = nth (wi_from w + k) (nth (wi_array w) m []) []) -> sound m w -> sound m' w -> view m' w = view m w.
Proof. intros H S S'. apply view_eq; [auto|now rewrite view_length|]. intros k Hk. rewrite H by auto. now rewrite view_nth. Qed.
Lemma keeps_sound m a m' w : keeps m a m' -> sound m w -> sound m' w.
Proof. intros (A & B & C) [D E]. split; [lia|]. destruct (Nat.eq_dec (wi_array w) a) as [Q|N]; [rewrite Q in *; lia|]. now rewrite B by auto. Qed.
Lemma keeps_view m a m' w : keeps m a m' -> sound m w -> wi_array w <> a -> view m' w = view m w.
Proof. intros (A & B & C) [D E] N. unfold view. now rewrite B by auto. Qed.

Definition agrees {A B} (rel : A -> B -> Prop) (x : outcome A) (y : outcome B) : Prop :=
  match x, y with Ret a, Ret b => rel a b | Panic, Panic => True | _, _ => False end.

Lemma firstn_length_le' {A} (l : list A) n : n <= length l -> length (firstn n l) = n.
Proof. intros. rewrite firstn_length. lia. Qed.

Lemma insert_ok m w i v : sound m w ->
  agrees (fun t (r : memory * window) => view (fst r) (snd r) = t /\ sound (fst r) (snd r) /\ keeps m (wi_array w) (fst r) /\ step_window m w (snd r))
    (slice_insert (view m w) i v) (insert m w i v).
Proof.
  intros S. pose proof S as [S1 S2]. unfold slice_insert, M_InputMem.insert, zlen. rewrite view_length by auto.
  destruct ((i <? 0)%Z || (i >? Z.of_nat (wi_len w))%Z) eqn:B; [exact I|]. apply orb_false_iff in B. destruct B as [B1 B2]. apply Z.ltb_ge in B1. rewrite Z.gtb_ltb in B2. apply Z.ltb_ge in B2.
  set (j := Z.to_nat i) in *. assert (J : j <= wi_len w) by (unfold j; lia). clearbody j. destruct (Nat.eqb_spec j (wi_len w)) as [->|N].
  { cbn [agrees]. destruct (append m w [v]) as [m' w'] eqn:E. destruct (append_ok _ _ _ _ _ S E) as (V & G & K & T & _). cbn [fst snd]. split; [|auto]. rewrite V.
    rewrite firstn_all2, skipn_all2 by (rewrite view_length; auto). reflexivity. }
  destruct (Nat.ltb_spec (capacity m w) (wi_len w + 1)) as [C|C].
  - destruct (append m (upto w j) (repeat [] (wi_len w + 1 - j))) as [m1 w2] eqn:E. destruct (append_ok _ _ _ _ _ (sound_upto m w j S J) E) as (V & G & K & T & Len & _ & X).
    rewrite repeat_length in Len, X. cbn [wi_len upto] in Len, X. destruct X as (X1 & X2 & a & ->); [unfold capacity in C |- *; cbn in *; lia|]. cbn [agrees fst snd].
    set (m1 := m ++ [a]) in *. set (m2 := copy_to m1 (wi_array w2) (wi_from w2 + j) [v]).
    assert (La : wi_len w + 1 <= length (nth (wi_array w2) m1 [])) by (destruct G; lia).
    assert (K2 : keeps m1 (wi_array w2) m2) by (apply keeps_copy; cbn; lia).
    assert (Vw : view m2 (from w j) = skipn j (view m w)).
    { rewrite view_from. f_equal. transitivity (view m1 w); [apply keeps_view with (a := wi_array w2); auto; [eapply keeps_sound; [apply keeps_app|]; eauto|lia]|]. unfold view, m1. now rewrite nth_app_old. }
    rewrite Vw. assert (Ls : length (skipn j (view m w)) = wi_len w - j) by (rewrite skipn_length, view_length; auto).
    assert (K3 : keeps m2 (wi_array w2) (copy_to m2 (wi_array w2) (wi_from w2 + j + 1) (skipn j (view m w)))) by (apply keeps_copy; destruct K2 as (_ & _ & ->); lia).
    pose proof (keeps_trans _ _ _ _ K2 K3) as K23.
    split; [|split; [eapply keeps_sound; eauto|split; [|exact (or_intror (or_intror (Nat.eq_le_incl _ _ (eq_sym X1))))]]].
    + apply view_eq; [eapply keeps_sound; eauto|rewrite app_length, firstn_length; cbn [length]; rewrite Ls, view_length by auto; lia|]. intros k Hk.
      rewrite copy_same. destruct G as [G1 G2]. destruct (Nat.ltb_spec (wi_array w2) (length m2)); [|unfold m2 in *; rewrite copy_length in *; lia].
      rewrite overwrite_nth by (destruct K2 as (_ & _ & ->); lia). unfold m2 at 1. rewrite copy_same. destruct (Nat.ltb_spec (wi_array w2) (length m1)); [|lia]. rewrite overwrite_nth by (cbn; lia). cbn [length].
      destruct (Nat.leb_spec (wi_from w2 + j + 1) (wi_from w2 + k)); cbn [andb].
      * destruct (Nat.ltb_spec (wi_from w2 + k) (wi_from w2 + j + 1 + length (skipn j (view m w)))); [|lia].
        rewrite app_nth2; rewrite firstn_length_le' by (rewrite view_length; auto); [|lia]. replace (k - j) with (Datatypes.S (k - j - 1)) by lia. cbn [nth]. f_equal. lia.
      * destruct (Nat.leb_spec (wi_from w2 + j) (wi_from w2 + k)); cbn [andb].
        -- destruct (Nat.ltb_spec (wi_from w2 + k) (wi_from w2 + j + 1)); [|lia]. rewrite app_nth2; rewrite firstn_length_le' by (rewrite view_length; auto); [|lia]. replace (k - j) with 0 by lia. replace (wi_from w2 + k - (wi_from w2 + j)) with 0 by lia. reflexivity.
        -- rewrite app_nth1 by (rewrite firstn_length_le'; [lia|rewrite view_length; auto]).
           assert (Z : view m1 w2 = firstn j (view m w) ++ repeat [] (wi_len w + 1 - j)) by (rewrite V, view_upto by auto; reflexivity).
           rewrite <- view_nth by lia. rewrite Z. rewrite app_nth1; [reflexivity|]. rewrite firstn_length_le'; [lia|rewrite view_length; auto].
    + destruct K23 as (A1 & A2 & A3). split; [unfold m1 in A1; rewrite app_length in A1; lia|].
      split; [intros b Hb Nb; rewrite A2; [unfold m1; now apply nth_app_old|unfold m1; rewrite app_length; lia|lia]|]. rewrite A2; [|unfold m1; rewrite app_length; lia|lia]. unfold m1. now rewrite nth_app_old.
  - cbn [agrees fst snd]. rewrite view_from. assert (Ls : length (skipn j (view m w)) = wi_len w - j) by (rewrite skipn_length, view_length; auto). unfold capacity in C.
    set (m1 := copy_to m (wi_array w) (wi_from w + j + 1) (skipn j (view m w))). assert (K1 : keeps m (wi_array w) m1) by (apply keeps_copy; lia).
    assert (K2 : keeps m1 (wi_array w) (copy_to m1 (wi_array w) (wi_from w + j) [v])) by (apply keeps_copy; destruct K1 as (_ & _ & ->); cbn; lia).
    pose proof (keeps_trans _ _ _ _ K1 K2) as K.
    assert (G : sound (copy_to m1 (wi_array w) (wi_from w + j) [v]) (Window (wi_array w) (wi_from w) (wi_len w + 1))) by (destruct K as (A1 & A2 & A3); split; cbn; [lia|rewrite A3; lia]).
    split; [|split; [exact G|split; [exact K|left; reflexivity]]]. apply view_eq; [exact G|cbn; rewrite app_length, firstn_length; cbn [length]; rewrite Ls, view_length by auto; lia|].
    cbn [wi_len wi_from wi_array]. intros k Hk. rewrite copy_same. destruct (Nat.ltb_spec (wi_array w) (length m1)); [|unfold m1 in *; rewrite copy_length in *; lia].
    rewrite overwrite_nth by (destruct K1 as (_ & _ & ->); cbn; lia). unfold m1. rewrite copy_same. destruct (Nat.ltb_spec (wi_array w) (length m)); [|lia]. rewrite overwrite_nth by lia. cbn [length].
    destruct (Nat.leb_spec (wi_from w + j) (wi_from w + k)); cbn [andb].
    + destruct (Nat.ltb_spec (wi_from w + k) (wi_from w + j + 1)).
      * rewrite app_nth2; rewrite firstn_length_le' by (rewrite view_length; auto); [|lia]. replace (k - j) with 0 by lia. replace (wi_from w + k - (wi_from w + j)) with 0 by lia. reflexivity.
      * destruct (Nat.leb_spec (wi_from w + j + 1) (wi_from w + k)); [|lia]. destruct (Nat.ltb_spec (wi_from w + k) (wi_from w + j + 1 + length (skipn j (view m w)))); [|lia]. cbn [andb].
        rewrite app_nth2; rewrite firstn_length_le' by (rewrite view_length; auto); [|lia]. replace (k - j) with (Datatypes.S (k - j - 1)) by lia. cbn [nth]. f_equal. lia.
    + destruct (Nat.leb_spec (wi_from w + j + 1) (wi_from w + k)); [lia|]. cbn [andb]. rewrite app_nth1 by (rewrite firstn_length_le'; [lia|rewrite view_length; auto]).
      rewrite nth_firstn. destruct (Nat.ltb_spec k j); [|lia]. now rewrite view_nth by lia.
Qed.

(** ** One call on one state *)
Lemma keeps_zero m a m' : keeps m a m' -> nth 0 m [] = [] -> 0 < length m -> nth 0 m' [] = [].
Proof. intros (A & B & C) Z P. destruct (Nat.eq_dec a 0) as [->|N]; [|rewrite B; auto]. rewrite Z in C. now apply length_zero_iff_nil. Qed.
Lemma keeps_then m a m1 b m2 : keeps m a m1 -> keeps m1 b m2 -> a < length m -> b = a \/ (b = 0 /\ nth 0 m1 [] = []) \/ length m <= b -> keeps m a m2.
Proof.
  intros K K' L [->|[[-> Z]|G]]; [eapply keeps_trans; eauto| |].
  - destruct K as (A & B & C). assert (Z' : nth 0 m2 [] = []) by (destruct K' as (_ & _ & F); rewrite Z in F; now apply length_zero_iff_nil). destruct K' as (D & E & F). split; [lia|]. split.
    + intros b Hb N. destruct (Nat.eq_dec b 0) as [->|M]; [rewrite Z', <- B by auto; auto|]. rewrite E by (auto; lia). auto.
    + destruct (Nat.eq_dec a 0) as [->|M]; [rewrite Z', <- C, Z; reflexivity|]. rewrite E by (auto; lia). auto.
  - destruct K as (A & B & C), K' as (D & E & F). split; [lia|]. split; [intros c Hc N; rewrite E by (lia); auto|]. rewrite E by lia. auto.
Qed.
Lemma step_then m w m1 w1 w2 : length m <= length m1 -> step_window m w w1 -> step_window m1 w1 w2 -> step_window m w w2.
Proof. unfold step_window. intros L A B. lia. Qed.
Lemma copy_nothing m a i : copy_to m a i [] = m.
Proof. unfold copy_to, overwrite. cbn [length]. rewrite Nat.add_0_r. replace (firstn i (nth a m []) ++ firstn (length (nth a m []) - i) [] ++ skipn i (nth a m [])) with (nth a m []); [apply set_array_same|]. rewrite firstn_nil. cbn. symmetry. apply firstn_skipn. Qed.
Lemma append_nil_ok m xs m' w' : nth 0 m [] = [] -> 0 < length m -> append m nil_window xs = (m', w') ->
  view m' w' = xs /\ sound m' w' /\ (forall b, b < length m -> nth b m' [] = nth b m []) /\ length m <= length m' /\ (wi_array w' = 0 \/ length m <= wi_array w').
Proof.
  intros Z P E. destruct (append_ok _ _ _ _ _ (sound_nil m Z P) E) as (V & G & K & T & Len & X & Y). rewrite view_nil in V. split; [exact V|]. split; [exact G|].
  unfold capacity in X, Y. cbn in X, Y. rewrite Z in X, Y. cbn in X, Y. destruct (Nat.eq_dec (length xs) 0) as [L|L].
  - destruct X as (-> & ->); [lia|]. destruct xs; [|discriminate]. rewrite copy_nothing. cbn. auto.
  - destruct Y as (-> & _ & a & ->); [lia|]. rewrite app_length. split; [intros; now apply nth_app_old|]. lia.
Qed.

Definition follows (m : memory) (s : mstate) (p : outcome input_state) (r : outcome (memory * mstate)) : Prop :=
  agrees (fun p r => as_seen (fst r) (snd r) = p /\ sound (fst r) (ms_text (snd r)) /\ keeps m (wi_array (ms_text s)) (fst r) /\ step_window m (ms_text s) (ms_text (snd r))) p r.

Lemma follows_pure m s s' p : sound m (ms_text s) -> ms_text s' = ms_text s -> p = as_seen m s' -> follows m s (Ret p) (Ret (m, s')).
Proof. intros S E ->. cbn. split; [reflexivity|]. rewrite E. split; [exact S|]. split; [apply keeps_refl|left; reflexivity]. Qed.
Lemma set_cursor_seen m s c : sound m (ms_text s) -> is_set_cursor (as_seen m s) c = as_seen m (ms_set_cursor s c).
Proof. intros S. unfold is_set_cursor, ms_set_cursor, as_seen, zlen. cbn. now rewrite view_length. Qed.

(** Two calls in a row. *)
Lemma follows_then m s m1 s1 p r : nth 0 m [] = [] -> sound m (ms_text s) -> keeps m (wi_array (ms_text s)) m1 -> step_window m (ms_text s) (ms_text s1) -> follows m1 s1 p r -> follows m s p r.
Proof.
  intros Z S K T F. unfold follows in *. destruct p as [p|], r as [[m2 s2]|]; cbn [agrees fst snd] in *; auto. destruct F as (A & B & C & D). split; [exact A|]. split; [exact B|].
  assert (P : 0 < length m) by (destruct S; lia). split; [|eapply step_then; [|exact T|exact D]; destruct K; auto].
  eapply keeps_then; [exact K|exact C|destruct S; auto|]. destruct T as [T|[T|T]]; auto. right. left. split; [exact T|]. eapply keeps_zero; eauto.
Qed.

Lemma append_follows u content m s : nth 0 m [] = [] -> sound m (ms_text s) -> follows m s (is_append u (as_seen m s) content) (ms_append grow u m s content).
Proof.
  unfold is_append, ms_append. generalize (clusters u content). intros l. revert m s. induction l as [|c l IH]; intros m s Z S; cbn [ofold]; [now apply follows_pure|].
  pose proof (insert_ok m (ms_text s) (ms_cursor s) c S) as X. cbn [is_text is_cursor as_seen].
  destruct (slice_insert (view m (ms_text s)) (ms_cursor s) c) as [t|]; destruct (M_InputMem.insert grow m (ms_text s) (ms_cursor s) c) as [[m1 w1]|]; cbn [agrees] in X; try contradiction; [|exact I].
  destruct X as (V & G & K & T). cbn [fst snd bind] in *. set (s1 := ms_right (MState (ms_cursor s) (ms_show s) w1 (ms_offset s))).
  replace (is_right _) with (as_seen m1 s1); [|unfold s1, ms_right, is_right; rewrite <- set_cursor_seen by exact G; unfold as_seen; cbn; now rewrite V].
  apply follows_then with (m1 := m1) (s1 := s1); auto. apply IH; [|exact G]. eapply keeps_zero; eauto. destruct S; lia.
Qed.

(** The parts of the text at the cursor. *)
Lemma split_follows m s : nth 0 m [] = [] -> sound m (ms_text s) ->
  agrees (fun (p : list str * str * list str) (r : window * str * window) => let '(b, c, a) := p in let '(wb, c', wa) := r in
      view m wb = b /\ c' = c /\ view m wa = a /\ sound m wb /\ sound m wa /\
      (wb = nil_window \/ exists i, i < wi_len (ms_text s) /\ nth i (view m (ms_text s)) [] = c /\ wb = upto (ms_text s) i /\ (wa = nil_window \/ wa = from (ms_text s) (i + 1))))
    (split_at_cursor (as_seen m s)) (ms_split m s).
Proof.
  intros Z S. assert (P : 0 < length m) by (destruct S; lia). unfold split_at_cursor, ms_split, zlen. cbn [is_text is_cursor as_seen]. rewrite (view_length m (ms_text s) S).
  destruct ((Z.of_nat (wi_len (ms_text s)) =? 0)%Z || (ms_cursor s =? 0)%Z) eqn:B; cbn [agrees].
  { split; [reflexivity|]. split; [reflexivity|]. split; [reflexivity|]. split; [now apply sound_nil|]. split; [exact S|]. left. reflexivity. }
  apply orb_false_iff in B. destruct B as [B1 B2]. apply Z.eqb_neq in B1, B2.
  unfold index_at. destruct (ms_cursor s - 1 <? 0)%Z eqn:N; [exact I|]. apply Z.ltb_ge in N. destruct (nth_error (view m (ms_text s)) (Z.to_nat (ms_cursor s - 1))) as [c|] eqn:E; [|exact I]. cbn [bind agrees].
  assert (L : Z.to_nat (ms_cursor s - 1) < wi_len (ms_text s)) by (rewrite <- (view_length m _ S); apply nth_error_Some; congruence).
  split; [rewrite view_upto; auto; lia|]. split; [reflexivity|]. rewrite Z.gtb_ltb. destruct (Z.ltb_spec (ms_cursor s) (Z.of_nat (wi_len (ms_text s)))).
  - split; [now rewrite view_from|]. split; [apply sound_upto; auto; lia|]. split; [apply sound_from; auto; lia|]. right. exists (Z.to_nat (ms_cursor s - 1)). split; [exact L|]. split; [now apply nth_error_nth|]. split; [reflexivity|]. right. f_equal. lia.
  - split; [reflexivity|]. split; [apply sound_upto; auto; lia|]. split; [now apply sound_nil|]. right. exists (Z.to_nat (ms_cursor s - 1)). split; [exact L|]. split; [now apply nth_error_nth|]. split; [reflexivity|]. now left.
Qed.

Lemma loop_follows cond m len wb k c cur : sound m wb -> k <= wi_len wb ->
  let '(b, c1, cur1) := delete_loop cond len (rev (firstn k (view m wb))) c cur in
  let '(k2, c2, cur2) := ms_delete_loop cond m len wb k c cur in
  b = rev (firstn k2 (view m wb)) /\ c1 = c2 /\ cur1 = cur2 /\ k2 <= k.
Proof.
  intros S. revert c cur. induction k as [|k IH]; intros c cur L.
  - cbn [firstn rev delete_loop ms_delete_loop]. destruct (cond c); auto.
  - assert (E : firstn (Datatypes.S k) (view m wb) = firstn k (view m wb) ++ [nth k (view m wb) []]).
    { assert (H : k < length (view m wb)) by (rewrite view_length; auto). clear -H. revert k H. induction (view m wb) as [|x l IH]; intros [|k] H; cbn in *; try lia; auto. f_equal. apply IH. lia. }
    rewrite E, rev_app_distr. cbn [rev app delete_loop ms_delete_loop]. destruct (cond c).
    + assert (L' : k <= wi_len wb) by lia. specialize (IH (nth k (view m wb) []) (clamp_cursor len (cur - 1)) L').
      destruct (delete_loop _ _ _ _ _) as [[b c1] cur1], (ms_delete_loop _ _ _ _ _ _ _) as [[k2 c2] cur2]. destruct IH as (A & B & C & D). auto.
    + split; [|auto]. rewrite E, rev_app_distr. reflexivity.
Qed.

(** The first append of a deletion leaves what comes after the cursor. *)
Lemma delete_append m w i k c wa m1 t1 : nth 0 m [] = [] -> sound m w -> i < wi_len w -> k <= i -> (wa = nil_window \/ wa = from w (i + 1)) -> append m (upto w k) [c] = (m1, t1) -> view m1 wa = view m wa.
Proof.
  intros Z S Hi Hk [->| ->] E; [reflexivity|]. destruct (append_ok m (upto w k) [c] m1 t1) as (_ & _ & K & _ & _ & X & _); [apply sound_upto; auto; lia|exact E|].
  destruct X as (-> & ->); [destruct S; unfold capacity; cbn; lia|]. cbn [wi_array wi_from wi_len upto] in *. apply view_kept; [|now apply sound_from; [|lia]|].
  2: { eapply keeps_sound; [exact K|]. apply sound_from; [auto|lia]. }
  cbn [wi_len wi_from wi_array from]. intros j Hj. rewrite copy_same. destruct (Nat.ltb_spec (wi_array w) (length m)); [|reflexivity]. rewrite overwrite_nth by (destruct S; cbn; lia).
  destruct (Nat.ltb_spec (wi_from w + (i + 1) + j) (wi_from w + k + length [c])); [cbn in *; lia|]. now rewrite andb_false_r.
Qed.

Lemma delete_while_follows cond m s : nth 0 m [] = [] -> sound m (ms_text s) -> follows m s (delete_while (as_seen m s) cond) (ms_delete_while grow m s cond).
Proof.
  intros Z S. assert (P : 0 < length m) by (destruct S; lia). unfold delete_while, ms_delete_while. pose proof (split_follows m s Z S) as X.
  destruct (split_at_cursor (as_seen m s)) as [[[b c] a]|]; destruct (ms_split m s) as [[[wb c'] wa]|]; cbn [agrees] in X; try contradiction; [|exact I].
  destruct X as (Vb & -> & Va & Sb & Sa & W). cbn [bind]. unfold zlen. cbn [is_text is_cursor is_show is_offset as_seen]. rewrite (view_length m (ms_text s) S).
  pose proof (loop_follows cond m (Z.of_nat (wi_len (ms_text s))) wb (wi_len wb) c (ms_cursor s) Sb (le_n _)) as Q. rewrite firstn_all2 in Q by (rewrite view_length; auto). rewrite Vb in Q.
  destruct (delete_loop _ _ _ _ _) as [[b1 c1] cur1], (ms_delete_loop _ _ _ _ _ _ _) as [[k2 c2] cur2]. destruct Q as (-> & -> & -> & L). rewrite rev_involutive.
  destruct (append m (upto wb k2) [c2]) as [m1 t1] eqn:E1. assert (Su : sound m (upto wb k2)) by (apply sound_upto; auto).
  destruct (append_ok _ _ _ _ _ Su E1) as (V1 & S1 & K1 & T1 & _ & _). rewrite view_upto in V1 by auto. rewrite Vb in V1.
  assert (Kt : keeps m (wi_array (ms_text s)) m1 /\ step_window m (ms_text s) t1 /\ view m1 wa = view m wa).
  { destruct W as [->|(i & Hi & Hc & -> & Ha)].
    - cbn in L. assert (k2 = 0) by lia. subst k2. change (upto nil_window 0) with nil_window in E1. destruct (append_nil_ok _ _ _ _ Z P E1) as (_ & _ & B & D & F).
      split; [|split; [unfold step_window; lia|unfold view; destruct Sa; now rewrite B]]. split; [exact D|]. destruct S. split; [auto|now rewrite B].
    - cbn in L. change (upto (upto (ms_text s) i) k2) with (upto (ms_text s) k2) in *. split; [exact K1|]. split; [exact T1|]. exact (delete_append m (ms_text s) i k2 c2 wa m1 t1 Z S Hi L Ha E1). }
  destruct Kt as (Kt & Tt & Vw). destruct (append m1 t1 (view m1 wa)) as [m2 t2] eqn:E2. destruct (append_ok _ _ _ _ _ S1 E2) as (V2 & S2 & K2 & T2 & _ & _).
  assert (F : follows m1 (MState cur2 (ms_show s) t1 (ms_offset s)) (Ret (IState cur2 (ms_show s) (firstn k2 b ++ [c2] ++ a) (ms_offset s))) (Ret (m2, MState cur2 (ms_show s) t2 (ms_offset s)))).
  { cbn. split; [|auto]. unfold as_seen. cbn. rewrite V2, V1, Vw, Va, <- app_assoc. reflexivity. }
  refine (follows_then m s m1 _ _ _ Z S Kt _ F). exact Tt.
Qed.

Lemma delete_under_follows m s : nth 0 m [] = [] -> sound m (ms_text s) -> follows m s (is_delete_under (as_seen m s)) (ms_delete_under grow m s).
Proof.
  intros Z S. assert (P : 0 < length m) by (destruct S; lia). unfold is_delete_under, ms_delete_under. pose proof (split_follows m s Z S) as X.
  destruct (split_at_cursor (as_seen m s)) as [[[b c] a]|]; destruct (ms_split m s) as [[[wb c'] wa]|]; cbn [agrees] in X; try contradiction; [|exact I].
  destruct X as (Vb & -> & Va & Sb & Sa & W). cbn [bind is_cursor is_show is_offset as_seen].
  destruct (append m wb (view m wa)) as [m1 t1] eqn:E1. destruct (append_ok _ _ _ _ _ Sb E1) as (V1 & S1 & K1 & T1 & _ & _). rewrite Vb, Va in V1.
  assert (Kt : keeps m (wi_array (ms_text s)) m1 /\ step_window m (ms_text s) t1).
  { destruct W as [->|(i & Hi & Hc & -> & Ha)]; [|auto]. destruct (append_nil_ok _ _ _ _ Z P E1) as (_ & _ & B & D & F).
    split; [|unfold step_window; lia]. split; [exact D|]. destruct S. split; [intros; now apply B|now rewrite B]. }
  destruct Kt as (Kt & Tt). cbn. split; [|auto]. unfold ms_left, is_left. rewrite <- set_cursor_seen by exact S1. unfold as_seen. cbn. now rewrite V1.
Qed.

Lemma delete_word_follows m s : nth 0 m [] = [] -> sound m (ms_text s) -> follows m s (is_delete_word (as_seen m s)) (ms_delete_word grow m s).
Proof.
  intros Z S. unfold is_delete_word, ms_delete_word, under_cursor, ms_under. unfold zlen. cbn [is_text is_cursor as_seen]. rewrite (view_length m (ms_text s) S).
  match goal with |- context [bind ?x _] => destruct x as [c|] end; cbn [bind]; [|exact I]. destruct (is_empty_str c); [now apply follows_pure|]. destruct (is_whitespace c).
  - change (IState (ms_cursor s) (ms_show s) (view m (ms_text s)) (ms_offset s)) with (as_seen m s). pose proof (delete_while_follows is_whitespace m s Z S) as F. unfold follows in F at 1.
    destruct (delete_while (as_seen m s) is_whitespace) as [p|], (ms_delete_while grow m s is_whitespace) as [[m1 s1]|]; cbn [agrees] in F; try contradiction; [|exact I]. destruct F as (<- & B & C & D). cbn [bind fst snd] in *.
    apply follows_then with (m1 := m1) (s1 := s1); auto. apply delete_while_follows; [|exact B]. eapply keeps_zero; eauto. destruct S; lia.
  - cbn [bind]. now apply delete_while_follows.
Qed.

Lemma overwrite_same a i : i < length a -> overwrite a i [nth i a []] = a.
Proof.
  intros H. apply nth_ext with (d := []) (d' := []); [apply overwrite_length; cbn; lia|]. intros k Hk. rewrite overwrite_nth by (cbn; lia). cbn [length].
  destruct (Nat.leb_spec i k); cbn [andb]; [|reflexivity]. destruct (Nat.ltb_spec k (i + 1)); [|reflexivity]. replace k with i by lia. rewrite Nat.sub_diag. reflexivity.
Qed.

(** What a call does to a state seen as a list. *)
Definition plain_edit (u : uniseg) (s : input_state) (e : input_edit) : outcome input_state :=
  match e with
  | EdLeft => is_do u s OpLeft | EdRight => is_do u s OpRight | EdBegin => is_do u s OpBegin | EdEnd => is_do u s OpEnd
  | EdAppend t => is_do u s (OpAppend t) | EdDeleteUnder => is_do u s OpDeleteUnder | EdDeleteWord => is_do u s OpDeleteWord
  | EdDeleteLine => is_do u s OpDeleteLine | EdShow v => is_do u s (OpShow v) | EdKey k => is_do u s (OpKey k)
  | EdDraw i width => let! (_, s) := input_line_of u i width s in Ret s
  end.

Lemma draw_follows u i width m s : nth 0 m [] = [] -> sound m (ms_text s) -> follows m s (plain_edit u (as_seen m s) (EdDraw i width)) (ms_draw grow u i width m s).
Proof.
  intros Z S. assert (P : 0 < length m) by (destruct S; lia). unfold plain_edit, input_line_of, ms_draw. cbn [is_text is_cursor is_offset is_show as_seen].
  destruct (get_bounds _ _ _ _) as [[first last]|]; cbn [bind is_text is_cursor is_offset is_show ms_text ms_cursor ms_offset ms_show]; [|exact I].
  assert (R : agrees (fun p r => view m r = p /\ sound m r /\ (r = nil_window \/ wi_array r = wi_array (ms_text s))) (skip (view m (ms_text s)) first) (if (first >=? Z.of_nat (wi_len (ms_text s)))%Z then Ret nil_window else if (first <? 0)%Z then Panic else Ret (from (ms_text s) (Z.to_nat first)))).
  { unfold skip, zlen. rewrite (view_length m _ S). destruct (first >=? _)%Z eqn:G; [cbn; auto using sound_nil|]. rewrite Z.geb_leb in G. apply Z.leb_gt in G. destruct (Z.ltb_spec first 0); [exact I|]. cbn [agrees]. rewrite view_from. split; [reflexivity|]. split; [apply sound_from; auto; lia|auto]. }
  destruct (skip _ first) as [rest|], (if (first >=? _)%Z then _ else _) as [wr|]; cbn [agrees] in R; try contradiction; [|exact I]. destruct R as (Vr & Sr & Ar). cbn [bind].
  assert (R : agrees (fun p r => view m r = p /\ sound m r) (take rest (last - first)) (if (Z.min (last - first) (Z.of_nat (wi_len wr)) <? 0)%Z then Panic else Ret (upto wr (Z.to_nat (Z.min (last - first) (Z.of_nat (wi_len wr))))))).
  { unfold take, zlen. rewrite <- Vr, (view_length m _ Sr). destruct (Z.ltb_spec (Z.min (last - first) (Z.of_nat (wi_len wr))) 0); [exact I|]. cbn [agrees]. split; [apply view_upto; auto; lia|apply sound_upto; auto; lia]. }
  destruct (take rest (last - first)) as [shown|], (if (_ <? 0)%Z then _ else _) as [ws|]; cbn [agrees] in R; try contradiction; [|exact I]. destruct R as (Vs & Ss). cbn [bind].
  unfold input_split, is_is_empty. cbn [is_text]. rewrite <- Vs. destruct (forallb is_empty_str (view m ws)).
  { destruct (ip_placeholder i); cbn [bind]; now apply follows_pure. }
  pose proof (split_follows m (MState (ms_cursor s - first) false ws first) Z Ss) as X. unfold as_seen in X. cbn [ms_cursor ms_show ms_text ms_offset] in X.
  destruct (split_at_cursor _) as [[[b c] a]|], (ms_split _ _) as [[[wb c'] wa]|]; cbn [agrees] in X; try contradiction; [|exact I]. destruct X as (Vb & -> & Va & Sb & Sa & W). cbn [bind].
  destruct (append m wb [c]) as [m1 t1] eqn:E1.
  assert (F : follows m s (Ret (IState (ms_cursor s) (ms_show s) (view m (ms_text s)) first)) (Ret (m1, MState (ms_cursor s) (ms_show s) (ms_text s) first))).
  { assert (B : length m <= length m1 /\ forall b, b < length m -> nth b m1 [] = nth b m []).
    { destruct W as [->|(j & Hj & Hc & -> & Ha)]; [destruct (append_nil_ok _ _ _ _ Z P E1) as (_ & _ & B & D & F); auto|].
      destruct (append_ok _ _ _ _ _ Sb E1) as (_ & _ & _ & _ & _ & X & _). destruct X as (_ & ->); [destruct Ss; unfold capacity; cbn; lia|]. cbn [wi_array wi_from wi_len upto].
      rewrite <- Hc, view_nth by auto. unfold copy_to. rewrite overwrite_same by (destruct Ss; lia). now rewrite set_array_same. }
    destruct B as [B1 B2]. destruct S as [S1 S2]. cbn. unfold as_seen, view. cbn. rewrite B2 by auto. split; [reflexivity|]. split; [split; [lia|now rewrite B2]|]. split; [split; [exact B1|split; [auto|now rewrite B2]]|left; reflexivity]. }
  destruct a as [|c0 a]; cbn [bind]; exact F.
Qed.

Lemma edit_follows u m s e : nth 0 m [] = [] -> sound m (ms_text s) -> follows m s (plain_edit u (as_seen m s) e) (ms_edit grow u m s e).
Proof.
  intros Z S. destruct e; cbn [plain_edit is_do ms_edit]; try (now apply append_follows); try (now apply delete_under_follows); try (now apply delete_word_follows); try (now apply draw_follows);
    try (apply follows_pure; [exact S|reflexivity|]; try reflexivity; now apply set_cursor_seen).
  - apply follows_pure; [exact S|reflexivity|]. unfold is_begin. rewrite set_cursor_seen by exact S. reflexivity.
  - apply follows_pure; [exact S|reflexivity|]. unfold is_end, ms_end. rewrite set_cursor_seen by exact S. unfold zlen. cbn [is_text as_seen]. now rewrite view_length.
  - cbn. split; [reflexivity|]. split; [apply sound_nil; auto; destruct S; lia|]. split; [apply keeps_refl|]. right. left. reflexivity.
  - assert (R : forall p r, follows m s p r -> follows m s (let! (s, _) := (let! s := p in Ret (s, true)) in Ret s) r) by (intros [p|] r F; exact F).
    destruct k; cbn [is_update ms_update bind]; try (apply R); try (now apply append_follows); try (now apply delete_under_follows); try (now apply delete_word_follows);
      try (apply follows_pure; [exact S|reflexivity|]; try reflexivity; now apply set_cursor_seen).
    + apply follows_pure; [exact S|reflexivity|]. unfold is_begin. rewrite set_cursor_seen by exact S. reflexivity.
    + apply follows_pure; [exact S|reflexivity|]. unfold is_end, ms_end. rewrite set_cursor_seen by exact S. unfold zlen. cbn [is_text as_seen]. now rewrite view_length.
Qed.
End Grow.
