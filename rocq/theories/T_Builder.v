(** C53: deriving one configuration value from another. *)
From Verif Require Import Base M_Builder S_Builder.
From Coq Require Import List Bool Arith Lia.
Import ListNotations.

Section Thm.
Variables (A : Type) (grow : nat -> nat -> nat).
Implicit Types (cs : list (call A)) (c : call A).
Notation made := (made A grow). Notation seen := (seen A). Notation append := (append A grow). Notation make := (make A grow). Notation w_values := (w_values A). Notation w_arrays := (w_arrays A). Notation meant := (meant A). Notation elements_of := (elements_of A). Notation extended := (extended A). Notation valid := (valid A). Notation source := (source A). Notation comes_from := (comes_from A).
Definition value cs (v : nat) : slice := nth v (w_values (made cs)) (Slice 0 0).
(** What value v looks like after the calls [cs]. *)
Definition look cs (v : nat) : list (option A) := seen (w_arrays (made cs)) (value cs v).

Lemma made_snoc cs c : made (cs ++ [c]) = make (made cs) c.
Proof. unfold M_Builder.made. now rewrite fold_left_app. Qed.
Lemma make_length w c : length (w_values (make w c)) = S (length (w_values w)).
Proof. destruct c as [xs|v xs|v]; cbn; [rewrite app_length; cbn; lia| |rewrite app_length; cbn; lia]. destruct (append _ _ _) as [h s]. cbn. rewrite app_length. cbn. lia. Qed.
Lemma made_length cs : length (w_values (made cs)) = length cs.
Proof. induction cs as [|c cs IH] using rev_ind; [reflexivity|]. rewrite made_snoc, make_length, IH, app_length. cbn. lia. Qed.
Lemma make_old w c v : v < length (w_values w) -> nth v (w_values (make w c)) (Slice 0 0) = nth v (w_values w) (Slice 0 0).
Proof. intros H. destruct c as [xs|u xs|u]; cbn; [now rewrite app_nth1| |now rewrite app_nth1]. destruct (append _ _ _) as [h s]. cbn. now rewrite app_nth1. Qed.
Lemma value_snoc cs c v : v < length cs -> value (cs ++ [c]) v = value cs v.
Proof. intros H. unfold value. rewrite made_snoc. apply make_old. now rewrite made_length. Qed.
Lemma valid_snoc cs c : valid (cs ++ [c]) -> valid cs /\ forall v, source c = Some v -> v < length cs.
Proof.
  intros V. split.
  - intros k d v K. apply (V k d v). now rewrite nth_error_app1 by (apply nth_error_Some; congruence).
  - intros v. apply (V (length cs) c v). rewrite nth_error_app2, Nat.sub_diag by lia. reflexivity.
Qed.

(** Slices are within their arrays. *)
Definition sound (w : world A) : Prop := forall s, In s (w_values w) -> sl_array s < length (w_arrays w) /\ sl_len s <= length (nth (sl_array s) (w_arrays w) []).
Lemma set_nth_length {B} n (x : B) (l : list B) : length (set_nth n x l) = length l.
Proof. revert n. induction l as [|y l IH]; intros [|n]; cbn; auto. Qed.
Lemma set_nth_nth {B} n (x : B) l m d : nth m (set_nth n x l) d = if (n =? m) && (n <? length l) then x else nth m l d.
Proof.
  revert n m. induction l as [|y l IH]; intros n m; [destruct n, m; cbn; rewrite ?andb_false_r; reflexivity|]. destruct n as [|n], m as [|m]; cbn [set_nth nth Nat.eqb]; [reflexivity|reflexivity|reflexivity|]. rewrite IH. cbn [length]. change (S n <? S (length l)) with (n <? length l). reflexivity.
Qed.
Lemma cap_append h s xs a : sl_array s < length h -> sl_len s <= length (nth (sl_array s) h []) -> a < length h -> length (nth a (fst (append h s xs)) []) = length (nth a h []).
Proof.
  intros Hs Hl Ha. unfold M_Builder.append. destruct (Nat.leb_spec (sl_len s + length xs) (length (nth (sl_array s) h []))) as [L|L]; cbn [fst].
  - rewrite set_nth_nth. destruct (Nat.eqb_spec (sl_array s) a) as [E|E]; cbn [andb]; [|reflexivity]. destruct (Nat.ltb_spec (sl_array s) (length h)); [|reflexivity]. subst a. rewrite !app_length, map_length, firstn_length_le, skipn_length by lia. lia.
  - now rewrite app_nth1.
Qed.
Lemma append_grows h s xs : length h <= length (fst (append h s xs)).
Proof. unfold M_Builder.append. destruct (_ <=? _); cbn [fst]; [rewrite set_nth_length|rewrite app_length]; lia. Qed.
Lemma append_slice_sound h s xs : sl_array s < length h -> sl_len s <= length (nth (sl_array s) h []) -> let '(h', s') := append h s xs in sl_array s' < length h' /\ sl_len s' = sl_len s + length xs /\ sl_len s' <= length (nth (sl_array s') h' []).
Proof.
  intros Hs Hl. unfold M_Builder.append. destruct (Nat.leb_spec (sl_len s + length xs) (length (nth (sl_array s) h []))) as [L|L]; cbn [sl_array sl_len].
  - rewrite set_nth_length. split; [exact Hs|]. split; [reflexivity|]. rewrite set_nth_nth, Nat.eqb_refl. destruct (Nat.ltb_spec (sl_array s) (length h)); [|lia]. cbn [andb]. rewrite !app_length, map_length, firstn_length_le, skipn_length by lia. lia.
  - rewrite app_length. cbn. split; [lia|]. split; [reflexivity|]. rewrite app_nth2, Nat.sub_diag by lia. cbn. rewrite !app_length, map_length, firstn_length_le by lia. lia.
Qed.
Lemma made_sound cs : valid cs -> sound (made cs).
Proof.
  induction cs as [|c cs IH] using rev_ind; intros V; [intros s []|]. destruct (valid_snoc _ _ V) as [V1 V2]. specialize (IH V1). rewrite made_snoc. set (w := made cs) in *. assert (Lw : length (w_values w) = length cs) by apply made_length. destruct c as [xs|v xs|v]; cbn.
  - intros s I. cbn in I. apply in_app_iff in I. destruct I as [I|[<-|[]]]; cbn.
    + destruct (IH s I). rewrite app_length. cbn. split; [lia|]. now rewrite app_nth1.
    + rewrite app_length. cbn. split; [lia|]. rewrite app_nth2, Nat.sub_diag by lia. cbn. now rewrite map_length.
  - assert (Hv : v < length (w_values w)) by (rewrite Lw; now apply V2). set (s0 := nth v (w_values w) (empty_slice A w)). assert (I0 : In s0 (w_values w)) by now apply nth_In. destruct (IH s0 I0) as [S1 S2].
    pose proof (append_slice_sound (w_arrays w) s0 xs S1 S2) as P. pose proof (append_grows (w_arrays w) s0 xs) as G. pose proof (fun a => cap_append (w_arrays w) s0 xs a S1 S2) as C. destruct (append (w_arrays w) s0 xs) as [h s']. cbn [fst] in G, C. intros s I. cbn in I. apply in_app_iff in I. destruct I as [I|[<-|[]]]; cbn; [|tauto]. destruct (IH s I). rewrite C by lia. split; lia.
  - intros s I. cbn in I. apply in_app_iff in I. destruct I as [I|[<-|[]]]; cbn; [now apply IH|]. apply IH. apply nth_In. rewrite Lw. now apply V2.
Qed.
Lemma value_in cs v : v < length cs -> In (value cs v) (w_values (made cs)).
Proof. intros H. unfold value. apply nth_In. now rewrite made_length. Qed.
Lemma value_nth cs v d : v < length cs -> nth v (w_values (made cs)) d = value cs v.
Proof. intros H. unfold value. apply nth_indep. now rewrite made_length. Qed.

(** An append changes no place before the end of its slice, and nothing in other arrays. *)
Lemma append_keeps h s xs t : sl_array s < length h -> sl_len s <= length (nth (sl_array s) h []) -> sl_array t < length h -> (sl_array t = sl_array s -> sl_len t <= sl_len s) -> seen (fst (append h s xs)) t = seen h t.
Proof.
  intros Hs Hl Ht L. unfold M_Builder.append, M_Builder.seen. destruct (Nat.leb_spec (sl_len s + length xs) (length (nth (sl_array s) h []))) as [C|C]; cbn [fst].
  - rewrite set_nth_nth. destruct (Nat.eqb_spec (sl_array s) (sl_array t)) as [E|E]; cbn [andb]; [|reflexivity]. destruct (Nat.ltb_spec (sl_array s) (length h)); [|reflexivity]. rewrite <- E. specialize (L (eq_sym E)). rewrite firstn_app, firstn_firstn, firstn_length_le by lia. rewrite Nat.min_l by lia. replace (sl_len t - sl_len s) with 0 by lia. cbn [firstn]. now rewrite app_nil_r.
  - now rewrite app_nth1.
Qed.
Lemma append_new h s xs : sl_array s < length h -> sl_len s <= length (nth (sl_array s) h []) -> seen (fst (append h s xs)) (snd (append h s xs)) = seen h s ++ map Some xs.
Proof.
  intros Hs Hl. unfold M_Builder.append, M_Builder.seen. set (a := nth (sl_array s) h []) in *. assert (F : forall r, firstn (sl_len s + length xs) (firstn (sl_len s) a ++ map Some xs ++ r) = firstn (sl_len s) a ++ map (@Some A) xs).
  { intros r. rewrite app_assoc, firstn_app. assert (E : length (firstn (sl_len s) a ++ map (@Some A) xs) = sl_len s + length xs) by (rewrite app_length, map_length, firstn_length_le by exact Hl; reflexivity). rewrite E, Nat.sub_diag. cbn [firstn]. rewrite app_nil_r. apply firstn_all2. lia. }
  destruct (Nat.leb_spec (sl_len s + length xs) (length a)) as [C|C]; cbn [fst snd sl_array sl_len].
  - rewrite set_nth_nth, Nat.eqb_refl. destruct (Nat.ltb_spec (sl_array s) (length h)); [|lia]. cbn [andb]. apply F.
  - rewrite app_nth2, Nat.sub_diag by lia. cbn [nth]. apply F.
Qed.
Lemma seen_more h b t : sl_array t < length h -> seen (h ++ [b]) t = seen h t.
Proof. intros H. unfold M_Builder.seen. now rewrite app_nth1. Qed.

(** The effect of one more call. *)
Lemma look_snoc cs c v : valid (cs ++ [c]) -> v < length cs -> (forall u xs, c = With u xs -> xs = [] \/ (sl_array (value cs v) = sl_array (value cs u) -> sl_len (value cs v) <= sl_len (value cs u))) -> look (cs ++ [c]) v = look cs v.
Proof.
  intros V Hv K. destruct (valid_snoc _ _ V) as [V1 V2]. pose proof (made_sound cs V1) as So. unfold look. rewrite value_snoc by exact Hv. rewrite made_snoc. destruct (So _ (value_in cs v Hv)) as [A1 A2]. destruct c as [xs|u xs|u]; cbn; [now apply seen_more| |reflexivity].
  assert (Hu : u < length cs) by now apply V2. rewrite (value_nth cs u _ Hu). destruct (So _ (value_in cs u Hu)) as [B1 B2]. destruct (K u xs eq_refl) as [->|L].
  - pose proof (append_keeps (w_arrays (made cs)) (value cs u) [] (value cs v) B1 B2 A1) as P. unfold M_Builder.append in *. cbn [length] in *. rewrite Nat.add_0_r in *. destruct (Nat.leb_spec (sl_len (value cs u)) (length (nth (sl_array (value cs u)) (w_arrays (made cs)) []))) as [C|C]; [|lia]. cbn [fst map app] in *. cbn. rewrite firstn_skipn. unfold M_Builder.seen. rewrite set_nth_nth. destruct (Nat.eqb_spec (sl_array (value cs u)) (sl_array (value cs v))) as [E|E]; cbn [andb]; [|reflexivity]. destruct (_ <? _); [now rewrite E|reflexivity].
  - pose proof (append_keeps (w_arrays (made cs)) (value cs u) xs (value cs v) B1 B2 A1 L) as P. destruct (append (w_arrays (made cs)) (value cs u) xs) as [h s]. exact P.
Qed.
Lemma look_new cs c : valid (cs ++ [c]) -> look (cs ++ [c]) (length cs) = match c with New xs => map Some xs | With u xs => look cs u ++ map Some xs | Other u => look cs u end.
Proof.
  intros V. destruct (valid_snoc _ _ V) as [V1 V2]. pose proof (made_sound cs V1) as So. unfold look at 1, value. rewrite made_snoc. assert (E : length cs = length (w_values (made cs))) by (symmetry; apply made_length). destruct c as [xs|u xs|u]; cbn.
  - rewrite E at 1. rewrite app_nth2, Nat.sub_diag by lia. cbn. unfold M_Builder.seen. cbn [sl_array sl_len]. rewrite app_nth2, Nat.sub_diag by lia. cbn. apply firstn_all2. now rewrite map_length.
  - assert (Hu : u < length cs) by now apply V2. rewrite (value_nth cs u _ Hu). destruct (So _ (value_in cs u Hu)) as [B1 B2]. pose proof (append_new (w_arrays (made cs)) (value cs u) xs B1 B2) as P. destruct (append (w_arrays (made cs)) (value cs u) xs) as [h s]. cbn [fst snd] in P. cbn. rewrite E at 1. rewrite app_nth2, Nat.sub_diag by lia. cbn. exact P.
  - assert (Hu : u < length cs) by now apply V2. rewrite E at 1. rewrite app_nth2, Nat.sub_diag by lia. cbn. rewrite (value_nth cs u _ Hu). reflexivity.
Qed.
Lemma slice_new cs c : valid (cs ++ [c]) -> value (cs ++ [c]) (length cs) = match c with New xs => Slice (length (w_arrays (made cs))) (length xs) | With u xs => snd (append (w_arrays (made cs)) (value cs u) xs) | Other u => value cs u end.
Proof.
  intros V. destruct (valid_snoc _ _ V) as [V1 V2]. unfold value at 1. rewrite made_snoc. assert (E : length cs = length (w_values (made cs))) by (symmetry; apply made_length). destruct c as [xs|u xs|u]; cbn.
  - rewrite E at 1. now rewrite app_nth2, Nat.sub_diag by lia.
  - assert (Hu : u < length cs) by now apply V2. rewrite (value_nth cs u _ Hu). destruct (append (w_arrays (made cs)) (value cs u) xs) as [h s]. cbn. rewrite E at 1. now rewrite app_nth2, Nat.sub_diag by lia.
  - assert (Hu : u < length cs) by now apply V2. rewrite E at 1. rewrite app_nth2, Nat.sub_diag by lia. cbn. now rewrite (value_nth cs u _ Hu).
Qed.

(** ** Deriving never changes the value derived from, nor those it was derived from, and the new value is right if they are. *)
Lemma longer cs v w : valid cs -> v < length cs -> comes_from cs v w -> w < length cs /\ sl_len (value cs w) <= sl_len (value cs v).
Proof.
  intros V Hv F. revert Hv. induction F as [v|v c u w K Su F IH]; intros Hv; [auto|]. assert (Hu : u < v) by (eapply V; eauto). destruct (IH ltac:(lia)) as [H1 H2]. split; [exact H1|]. assert (L : sl_len (value cs u) <= sl_len (value cs v)); [|lia]. clear IH F H1 H2 w.
  (* v was made by c when the calls before it had been made *)
  assert (G : forall cs', valid (firstn (S v) cs ++ cs') -> value (firstn (S v) cs ++ cs') v = value (firstn (S v) cs) v /\ value (firstn (S v) cs ++ cs') u = value (firstn (S v) cs) u).
  { assert (Lf : length (firstn (S v) cs) = S v) by (apply firstn_length_le; lia). induction cs' as [|d cs' IH] using rev_ind; intros V'; [now rewrite app_nil_r|]. rewrite app_assoc in *. destruct (valid_snoc _ _ V') as [V1 _]. rewrite !value_snoc by (rewrite app_length; lia). now apply IH. }
  rewrite <- (firstn_skipn (S v) cs) in V |- *. destruct (G _ V) as [-> ->]. assert (Sp : firstn (S v) cs = firstn v cs ++ [c]). { clear -K. revert v K. induction cs as [|d cs IH]; intros [|v] K; try discriminate; cbn in *; [now injection K as ->|]. f_equal. now apply IH. }
  assert (V1 : valid (firstn (S v) cs)) by (intros k d x Kk; apply (V k d x); now rewrite nth_error_app1 by (apply nth_error_Some; congruence)). rewrite Sp in *. assert (Lf : length (firstn v cs) = v) by (apply firstn_length_le; lia). rewrite (value_snoc _ c u) by lia. pose proof (slice_new _ _ V1) as Sn. rewrite Lf in Sn. rewrite Sn. clear Sn. destruct (valid_snoc _ _ V1) as [V2 _]. destruct c as [xs|u' xs|u']; cbn in Su; [discriminate| |]; injection Su as ->; [|lia].
  destruct (made_sound _ V2 _ (value_in (firstn v cs) u ltac:(lia))) as [B1 B2]. pose proof (append_slice_sound _ _ xs B1 B2) as P. destruct (append (w_arrays (made (firstn v cs))) (value (firstn v cs) u) xs) as [h s]. cbn. lia.
Qed.
Theorem C53_source_kept cs c v w : valid (cs ++ [c]) -> source c = Some v -> comes_from cs v w -> look (cs ++ [c]) w = look cs w.
Proof.
  intros V Sv F. destruct (valid_snoc _ _ V) as [V1 V2]. destruct (longer cs v w V1 (V2 v Sv) F) as [Hw L]. apply look_snoc; [exact V|exact Hw|]. intros u xs ->. cbn in Sv. injection Sv as ->. right. auto.
Qed.
Theorem C53_derived cs c : valid (cs ++ [c]) -> look (cs ++ [c]) (length cs) = match c with New xs => map Some xs | With u xs => look cs u ++ map Some xs | Other u => look cs u end.
Proof. apply look_new. Qed.

(** ** While elements are added at most once to each list of elements, every value has the elements it should have. *)
Lemma meant_snoc cs c : meant (cs ++ [c]) = meant cs ++ [match c with New xs => xs | With v xs => nth v (meant cs) [] ++ xs | Other v => nth v (meant cs) [] end].
Proof. unfold S_Builder.meant. now rewrite fold_left_app. Qed.
Lemma meant_length cs : length (meant cs) = length cs.
Proof. induction cs as [|c cs IH] using rev_ind; [reflexivity|]. rewrite meant_snoc, !app_length, IH. reflexivity. Qed.
Lemma el_snoc cs c : elements_of (cs ++ [c]) = elements_of cs ++ [match c with New _ | With _ (_ :: _) => length (elements_of cs) | With v [] | Other v => nth v (elements_of cs) 0 end].
Proof. unfold S_Builder.elements_of. now rewrite fold_left_app. Qed.
Lemma el_length cs : length (elements_of cs) = length cs.
Proof. induction cs as [|c cs IH] using rev_ind; [reflexivity|]. rewrite el_snoc, !app_length, IH. reflexivity. Qed.
Definition el cs v := nth v (elements_of cs) 0.
Lemma el_old cs c v : v < length cs -> el (cs ++ [c]) v = el cs v.
Proof. intros H. unfold el. rewrite el_snoc. apply app_nth1. now rewrite el_length. Qed.
Lemma el_new cs c : el (cs ++ [c]) (length cs) = match c with New _ | With _ (_ :: _) => length cs | With v [] | Other v => el cs v end.
Proof. unfold el. rewrite el_snoc, app_nth2, el_length, Nat.sub_diag by (rewrite el_length; lia). reflexivity. Qed.
Lemma el_le cs v : valid cs -> v < length cs -> el cs v < length cs.
Proof.
  revert v. induction cs as [|c cs IH] using rev_ind; intros v V Hv; [cbn in Hv; lia|]. destruct (valid_snoc _ _ V) as [V1 V2]. rewrite app_length in *. cbn in *. destruct (Nat.eq_dec v (length cs)) as [->|D].
  - rewrite el_new. destruct c as [xs|u [|x xs]|u]; try lia; specialize (IH u V1 (V2 u eq_refl)); lia.
  - rewrite el_old by lia. specialize (IH v V1 ltac:(lia)). lia.
Qed.
Lemma extended_snoc cs c : valid (cs ++ [c]) -> extended (cs ++ [c]) = extended cs ++ match c with With v (_ :: _) => [el cs v] | _ => [] end.
Proof.
  intros V. destruct (valid_snoc _ _ V) as [V1 V2]. unfold S_Builder.extended. rewrite flat_map_app. f_equal.
  - assert (F : forall l, (forall d v, In d l -> source d = Some v -> v < length cs) -> flat_map (fun c0 => match c0 with With v (_ :: _) => [nth v (elements_of (cs ++ [c])) 0] | _ => [] end) l = flat_map (fun c0 => match c0 with With v (_ :: _) => [nth v (elements_of cs) 0] | _ => [] end) l).
    { induction l as [|d l IH]; intros H; [reflexivity|]. cbn [flat_map]. rewrite IH by (intros e v I; apply H; now right). f_equal. destruct d as [xs|v [|x xs]|v]; try reflexivity. f_equal. apply el_old. apply (H (With v (x :: xs))); [now left|reflexivity]. }
    apply F. intros d v I Sv. apply In_nth_error in I. destruct I as [k K]. assert (k < length cs) by (apply nth_error_Some; congruence). specialize (V1 k d v K Sv). lia.
  - cbn [flat_map]. rewrite app_nil_r. destruct c as [xs|v [|x xs]|v]; try reflexivity. f_equal. apply el_old. now apply V2.
Qed.
Record linear cs : Prop := {
  lin_look : forall v, v < length cs -> look cs v = map Some (nth v (meant cs) []);
  lin_same : forall v w, v < length cs -> w < length cs -> el cs v = el cs w -> value cs v = value cs w;
  lin_tips : forall v w, v < length cs -> w < length cs -> el cs v <> el cs w -> sl_array (value cs v) = sl_array (value cs w) -> sl_len (value cs v) <= sl_len (value cs w) -> In (el cs v) (extended cs)
}.
Lemma linear_all cs : valid cs -> NoDup (extended cs) -> linear cs.
Proof.
  induction cs as [|c cs IH] using rev_ind; intros V Nd; [split; intros; cbn in *; lia|]. destruct (valid_snoc _ _ V) as [V1 V2]. rewrite (extended_snoc _ _ V) in Nd.
  assert (Nd1 : NoDup (extended cs)). { clear -Nd. induction (extended cs) as [|e l IH]; [constructor|]. cbn in Nd. inversion_clear Nd as [|? ? N M]. constructor; [intros I; apply N; apply in_app_iff; now left|auto]. }
  destruct (IH V1 Nd1) as [L1 L2 L3]. pose proof (made_sound cs V1) as So. clear IH. assert (Len : length (cs ++ [c]) = S (length cs)) by (rewrite app_length; cbn; lia).
  (* the old values *)
  assert (Old : forall v, v < length cs -> look (cs ++ [c]) v = look cs v).
  { intros v Hv. apply look_snoc; [exact V|exact Hv|]. intros u xs ->. destruct xs as [|x xs]; [now left|]. right. intros Ea. assert (Hu : u < length cs) by now apply V2. destruct (Nat.eq_dec (el cs v) (el cs u)) as [E|D]; [rewrite (L2 v u Hv Hu E); lia|].
    destruct (Nat.le_gt_cases (sl_len (value cs v)) (sl_len (value cs u))) as [G|G]; [exact G|]. exfalso. assert (I : In (el cs u) (extended cs)) by (apply (L3 u v); auto; lia). apply NoDup_remove_2 in Nd. rewrite app_nil_r in Nd. contradiction. }
  assert (Nth : forall v, v < length cs -> nth v (meant (cs ++ [c])) [] = nth v (meant cs) []) by (intros v Hv; rewrite meant_snoc; apply app_nth1; now rewrite meant_length).
  split.
  - intros v Hv. rewrite Len in Hv. destruct (Nat.eq_dec v (length cs)) as [->|D]; [|rewrite Old, Nth by lia; apply L1; lia]. rewrite (look_new _ _ V), meant_snoc, app_nth2, meant_length, Nat.sub_diag by (rewrite meant_length; lia). cbn [nth]. destruct c as [xs|u xs|u]; [reflexivity| |]; (rewrite L1; [|now apply V2]); [now rewrite map_app|reflexivity].
  - assert (N : forall w, w < length cs -> el (cs ++ [c]) (length cs) = el cs w -> value (cs ++ [c]) (length cs) = value cs w).
    { intros w Hw. rewrite el_new, (slice_new _ _ V). pose proof (el_le cs w V1 Hw). destruct c as [xs|u [|x xs]|u]; intros E; try lia; [|apply L2; auto; now apply V2]. rewrite <- (L2 u w) by (auto; now apply V2). assert (Hu : u < length cs) by now apply V2. destruct (So _ (value_in cs u Hu)) as [B1 B2]. unfold M_Builder.append. cbn [length]. rewrite Nat.add_0_r. destruct (Nat.leb_spec (sl_len (value cs u)) (length (nth (sl_array (value cs u)) (w_arrays (made cs)) []))); [|lia]. cbn [snd]. now destruct (value cs u). }
    intros v w Hv Hw. rewrite Len in *. destruct (Nat.eq_dec v (length cs)) as [->|Dv], (Nat.eq_dec w (length cs)) as [->|Dw]; [reflexivity| | |].
    + rewrite (el_old cs c w), (value_snoc cs c w) by lia. apply N. lia.
    + rewrite (el_old cs c v), (value_snoc cs c v) by lia. intros E. symmetry. apply N; [lia|auto].
    + rewrite !el_old, !value_snoc by lia. apply L2; lia.
  - assert (Sl : forall u x xs, c = With u (x :: xs) -> (sl_array (value (cs ++ [c]) (length cs)) = sl_array (value cs u) \/ sl_array (value (cs ++ [c]) (length cs)) = length (w_arrays (made cs))) /\ sl_len (value (cs ++ [c]) (length cs)) > sl_len (value cs u)).
    { intros u x xs ->. rewrite (slice_new _ _ V). unfold M_Builder.append. destruct (_ <=? _); cbn; split; auto; lia. }
    rewrite (extended_snoc _ _ V). assert (Ar : forall v, v < length cs -> sl_array (value cs v) < length (w_arrays (made cs))) by (intros v Hv; apply So; now apply value_in).
    intros v w Hv Hw. rewrite Len in *. destruct (Nat.eq_dec v (length cs)) as [->|Dv], (Nat.eq_dec w (length cs)) as [->|Dw]; [congruence| | |].
    + rewrite (el_old cs c w), (value_snoc cs c w) by lia. intros D Ea Ll. destruct c as [xs|u xs|u].
      * rewrite (slice_new _ _ V) in Ea. cbn in Ea. specialize (Ar w ltac:(lia)). lia.
      * assert (Hu : u < length cs) by now apply V2. destruct xs as [|x xs].
        -- rewrite el_new in *. assert (Es : value (cs ++ [With u []]) (length cs) = value cs u). { rewrite (slice_new _ _ V). destruct (So _ (value_in cs u Hu)) as [B1 B2]. unfold M_Builder.append. cbn [length]. rewrite Nat.add_0_r. destruct (Nat.leb_spec (sl_len (value cs u)) (length (nth (sl_array (value cs u)) (w_arrays (made cs)) []))); [|lia]. cbn [snd]. now destruct (value cs u). } rewrite Es in *. rewrite app_nil_r. apply (L3 u w); auto; lia.
        -- destruct (Sl u x xs eq_refl) as [[Sa|Sa] Sb]; [|specialize (Ar w ltac:(lia)); lia]. exfalso. assert (Hw' : w < length cs) by lia. destruct (Nat.eq_dec (el cs w) (el cs u)) as [E|D']; [rewrite (L2 w u Hw' Hu E) in *; lia|]. assert (I : In (el cs u) (extended cs)) by (apply (L3 u w); auto; try lia; congruence). apply NoDup_remove_2 in Nd. rewrite app_nil_r in Nd. contradiction.
      * assert (Hu : u < length cs) by now apply V2. rewrite el_new in *. rewrite (slice_new _ _ V) in *. rewrite app_nil_r. apply (L3 u w); auto; lia.
    + rewrite (el_old cs c v), (value_snoc cs c v) by lia. intros D Ea Ll. assert (Hv' : v < length cs) by lia. destruct c as [xs|u xs|u].
      * rewrite (slice_new _ _ V) in Ea. cbn in Ea. specialize (Ar v ltac:(lia)). lia.
      * assert (Hu : u < length cs) by now apply V2. destruct xs as [|x xs].
        -- rewrite el_new in *. assert (Es : value (cs ++ [With u []]) (length cs) = value cs u). { rewrite (slice_new _ _ V). destruct (So _ (value_in cs u Hu)) as [B1 B2]. unfold M_Builder.append. cbn [length]. rewrite Nat.add_0_r. destruct (Nat.leb_spec (sl_len (value cs u)) (length (nth (sl_array (value cs u)) (w_arrays (made cs)) []))); [|lia]. cbn [snd]. now destruct (value cs u). } rewrite Es in *. rewrite app_nil_r. apply (L3 v u); auto.
        -- destruct (Sl u x xs eq_refl) as [[Sa|Sa] Sb]; [|specialize (Ar v Hv'); lia]. apply in_app_iff. destruct (Nat.eq_dec (el cs v) (el cs u)) as [E|D']; [right; left; congruence|]. left. destruct (Nat.le_gt_cases (sl_len (value cs v)) (sl_len (value cs u))) as [G|G]; [apply (L3 v u); auto; congruence|]. exfalso. assert (I : In (el cs u) (extended cs)) by (apply (L3 u v); auto; try lia; congruence). apply NoDup_remove_2 in Nd. rewrite app_nil_r in Nd. contradiction.
      * assert (Hu : u < length cs) by now apply V2. rewrite el_new in *. rewrite (slice_new _ _ V) in *. rewrite app_nil_r. apply (L3 v u); auto.
    + rewrite !el_old, !value_snoc by lia. intros D Ea Ll. apply in_app_iff. left. apply (L3 v w); auto; lia.
Qed.
Theorem C53_once_partial cs v : valid cs -> NoDup (extended cs) -> v < length cs -> look cs v = map Some (nth v (meant cs) []).
Proof. intros V Nd Hv. now apply (lin_look _ (linear_all cs V Nd)). Qed.

Lemma append_fits h s x : sl_len s < length (nth (sl_array s) h []) -> snd (append h s [x]) = Slice (sl_array s) (sl_len s + 1).
Proof. intros H. unfold M_Builder.append. cbn [length]. destruct (Nat.leb_spec (sl_len s + 1) (length (nth (sl_array s) h []))); [reflexivity|lia]. Qed.
(** ** Adding to the same value twice, while its array has room, changes what was derived first. *)
Theorem C53_siblings_refuted cs u x y : valid cs -> u < length cs -> sl_len (value cs u) < length (nth (sl_array (value cs u)) (w_arrays (made cs)) []) -> x <> y ->
  look (cs ++ [With u [x]]) (length cs) = look cs u ++ [Some x] /\
  look (cs ++ [With u [x]; With u [y]]) (length cs) = look cs u ++ [Some y].
Proof.
  intros V Hu Room _. assert (V1 : valid (cs ++ [With u [x]])). { intros k d v K Sv. destruct (Nat.lt_ge_cases k (length cs)) as [H|H]; [rewrite nth_error_app1 in K by exact H; eapply V; eauto|]. rewrite nth_error_app2 in K by exact H. destruct (k - length cs) as [|[|j]] eqn:Ek; cbn in K; try discriminate. injection K as <-. cbn in Sv. injection Sv as <-. lia. }
  assert (V2 : valid ((cs ++ [With u [x]]) ++ [With u [y]])). { intros k d v K Sv. destruct (Nat.lt_ge_cases k (length (cs ++ [With u [x]]))) as [H|H]; [rewrite nth_error_app1 in K by exact H; eapply V1; eauto|]. rewrite nth_error_app2 in K by exact H. rewrite app_length in *. cbn in *. destruct (k - (length cs + 1)) as [|[|j]] eqn:Ek; cbn in K; try discriminate. injection K as <-. cbn in Sv. injection Sv as <-. lia. }
  split; [apply (look_new _ _ V1)|]. replace (cs ++ [With u [x]; With u [y]]) with ((cs ++ [With u [x]]) ++ [With u [y]]) by now rewrite <- app_assoc.
  pose proof (look_new _ _ V2) as N. cbn in N. rewrite (look_snoc _ _ _ V1 Hu) in N by (intros u1 xs1 E1; injection E1 as E1 _; subst u1; right; lia).
  (* both new values are the same slice *)
  assert (Same : value ((cs ++ [With u [x]]) ++ [With u [y]]) (length (cs ++ [With u [x]])) = value ((cs ++ [With u [x]]) ++ [With u [y]]) (length cs)).
  { rewrite (slice_new _ _ V2). rewrite (value_snoc (cs ++ [With u [x]]) _ (length cs)) by (rewrite app_length; cbn; lia). rewrite (slice_new _ _ V1), (value_snoc cs _ u Hu). destruct (made_sound cs V _ (value_in cs u Hu)) as [B1 B2].
    assert (Ha : w_arrays (made (cs ++ [With u [x]])) = fst (append (w_arrays (made cs)) (value cs u) [x])) by (rewrite made_snoc; cbn; rewrite (value_nth cs u _ Hu); now destruct (append (w_arrays (made cs)) (value cs u) [x])). rewrite Ha.
    assert (Hc := cap_append (w_arrays (made cs)) (value cs u) [x] (sl_array (value cs u)) B1 B2 B1). rewrite !append_fits; [reflexivity| |]; try rewrite Hc; exact Room. }
  unfold look in N |- *. rewrite Same in N. exact N.
Qed.
End Thm.

(** *** Instances. Go doubles small arrays. *)
Definition doubled (old need : nat) : nat := Nat.max need (2 * old).
Definition tree : list (call nat) := [New [1; 2; 3]; With 0 [4]; Other 1; With 2 [5; 6]; With 3 [7]; New []; With 5 [8]].
Example C53_once_instance : NoDup (extended nat tree) /\ meant nat tree = [[1; 2; 3]; [1; 2; 3; 4]; [1; 2; 3; 4]; [1; 2; 3; 4; 5; 6]; [1; 2; 3; 4; 5; 6; 7]; []; [8]] /\ sl_array (value nat doubled tree 1) = sl_array (value nat doubled tree 3).
Proof. split; [|split; reflexivity]. repeat constructor; cbn; intuition discriminate. Qed.
Example C53_siblings_instance : let cs := [New [1; 2; 3]; With 0 [4]; With 1 [5]; With 1 [6]] in
  look nat doubled (firstn 3 cs) 2 = map Some [1; 2; 3; 4; 5] /\ look nat doubled cs 2 = map Some [1; 2; 3; 4; 6].
Proof. split; reflexivity. Qed.
Print Assumptions C53_source_kept.
Print Assumptions C53_derived.
Print Assumptions C53_once_partial.
Print Assumptions C53_siblings_refuted.
