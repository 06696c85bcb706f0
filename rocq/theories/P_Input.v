From Verif Require Import Base P_Base M_Geom M_Style M_Uniseg M_Buffer M_Text M_Slice M_List P_List M_Reflow M_Input S_Input.
From Coq Require Import ZArith NArith List Bool Lia.
Import ListNotations.
Open Scope Z_scope.

Local Arguments zlen : simpl never.

(** ** The editor with marks: erasing back to the start of the text leaves an empty cluster *)
Definition marked (l : list str) : list str := match l with [] => [[]] | _ => l end.
Definition erase_word_marked (b : list str) : list str :=
  match b with
  | [] => []
  | c :: _ =>
      if is_empty_str c then b
      else
        let b := if is_whitespace c then marked (drop_while is_whitespace b) else b in
        marked (drop_while (fun g => negb (is_empty_str g) && negb (is_whitespace g)) b)
  end.
Definition marked_step (e : editor) (o : edit) : editor :=
  match o with EraseWord => Editor (erase_word_marked (ed_before e)) (ed_after e) | _ => ed_step e o end.

Definition represents (s : input_state) (e : editor) : Prop :=
  is_text s = ed_clusters e /\ is_cursor s = zlen (ed_before e).

Lemma zlen_rev {A} (l : list A) : zlen (rev l) = zlen l.
Proof. unfold zlen. now rewrite rev_length. Qed.

Lemma clamp_id n c : 0 <= c <= n -> clamp_cursor n c = c.
Proof. unfold clamp_cursor. lia. Qed.

Lemma firstn_zlen_app {A} (l m : list A) : firstn (Z.to_nat (zlen l)) (l ++ m) = l.
Proof. unfold zlen. rewrite Nat2Z.id, firstn_app, Nat.sub_diag, firstn_all. cbn. now rewrite app_nil_r. Qed.
Lemma skipn_zlen_app {A} (l m : list A) : skipn (Z.to_nat (zlen l)) (l ++ m) = m.
Proof. unfold zlen. rewrite Nat2Z.id, skipn_app, Nat.sub_diag, skipn_all. reflexivity. Qed.

Lemma split_represents s e : represents s e ->
  split_at_cursor s = Ret (match ed_before e with
                           | [] => ([], [], ed_after e)
                           | c :: b => (rev b, c, ed_after e)
                           end).
Proof.
  intros [Ht Hc]. unfold split_at_cursor. rewrite Ht, Hc. unfold ed_clusters.
  destruct e as [[|c b] a]; cbn [ed_before ed_after rev app].
  - now rewrite Z.eqb_refl, orb_true_r.
  - rewrite zlen_cons, zlen_app, zlen_app, zlen_rev, zlen_cons, zlen_nil. pose proof (zlen_nonneg b). pose proof (zlen_nonneg a).
    replace (zlen b + (1 + 0) + zlen a =? 0) with false by (symmetry; apply Z.eqb_neq; lia).
    replace (1 + zlen b =? 0) with false by (symmetry; apply Z.eqb_neq; lia). cbn [orb].
    replace (1 + zlen b - 1) with (zlen (rev b)) by (rewrite zlen_rev; lia).
    rewrite <- app_assoc. cbn [app].
    unfold index_at. replace (zlen (rev b) <? 0) with false by (symmetry; apply Z.ltb_ge; apply zlen_nonneg).
    rewrite nth_error_app2 by (unfold zlen; lia). unfold zlen at 1. rewrite Nat2Z.id, Nat.sub_diag. cbn [nth_error bind].
    rewrite firstn_zlen_app.
    replace (1 + zlen b) with (zlen (rev b ++ [c])) by (rewrite zlen_app, zlen_rev, zlen_cons, zlen_nil; lia).
    replace (rev b ++ c :: a) with ((rev b ++ [c]) ++ a) by (rewrite <- app_assoc; reflexivity).
    rewrite skipn_zlen_app. rewrite Z.gtb_ltb.
    match goal with |- context [if ?x <? ?y then a else []] => destruct (Z.ltb_spec x y) as [|Hl] end; [reflexivity|].
    destruct a as [|y a]; [reflexivity|]. rewrite ?zlen_app, ?zlen_rev, ?zlen_cons, ?zlen_nil in Hl. change (zlen (@nil str)) with 0 in Hl. pose proof (zlen_nonneg a). lia.
Qed.

Lemma delete_loop_ok cond len : forall before current cursor, cursor = 1 + zlen before -> cursor <= len ->
  exists b c k, delete_loop cond len before current cursor = (b, c, k) /\ c :: b = marked (drop_while cond (current :: before)) /\ k = 1 + zlen b.
Proof.
  induction before as [|x before IH]; intros current cursor Hc Hl; cbn [delete_loop drop_while]; destruct (cond current) eqn:Ec.
  - exists [], [], cursor. auto.
  - exists [], current, cursor. auto.
  - rewrite zlen_cons in Hc. pose proof (zlen_nonneg before). rewrite clamp_id by lia.
    destruct (IH x (cursor - 1)) as (b & c & k & E & E2 & E3); [lia|lia|]. exists b, c, k. split; [exact E|]. split; [|exact E3]. rewrite E2. cbn [drop_while]. reflexivity.
  - exists (x :: before), current, cursor. auto.
Qed.

Lemma delete_while_ok s e cond : represents s e -> ed_before e <> [] ->
  exists s', delete_while s cond = Ret s' /\ represents s' (Editor (marked (drop_while cond (ed_before e))) (ed_after e)) /\ is_offset s' = is_offset s /\ is_show s' = is_show s.
Proof.
  intros R Hne. unfold delete_while. rewrite (split_represents s e R). destruct e as [[|c b] a]; cbn [ed_before ed_after] in *; [congruence|].
  cbn [bind]. rewrite rev_involutive. destruct R as [Ht Hc]. cbn in Hc. rewrite zlen_cons in Hc.
  destruct (delete_loop_ok cond (zlen (is_text s)) b c (is_cursor s)) as (b' & c' & k & -> & E & Ek); [exact Hc| |].
  { rewrite Ht, Hc. unfold ed_clusters. cbn [ed_before ed_after rev]. rewrite !zlen_app, zlen_rev, zlen_cons, zlen_nil. pose proof (zlen_nonneg a). lia. }
  eexists. split; [reflexivity|]. split; [|auto]. unfold represents. cbn [is_text is_cursor ed_before ed_after]. unfold ed_clusters. cbn [ed_before ed_after].
  rewrite <- E. cbn [rev]. split; [now rewrite <- app_assoc|]. rewrite zlen_cons. exact Ek.
Qed.

Lemma under_represents s e : represents s e -> under_cursor s = Ret (match ed_before e with [] => [] | c :: _ => c end).
Proof.
  intros R. pose proof (split_represents s e R) as H. unfold split_at_cursor in H. unfold under_cursor.
  destruct ((zlen (is_text s) =? 0) || (is_cursor s =? 0)); [destruct (ed_before e); [reflexivity|injection H as _ H2 _; now rewrite <- H2]|].
  destruct (index_at (is_text s) (is_cursor s - 1)); [|discriminate]. cbn in H. destruct (ed_before e); injection H as _ H2 _; now rewrite <- H2.
Qed.

Lemma delete_word_ok s e : represents s e ->
  exists s', is_delete_word s = Ret s' /\ represents s' (marked_step e EraseWord) /\ is_offset s' = is_offset s /\ is_show s' = is_show s.
Proof.
  intros R. unfold is_delete_word. rewrite (under_represents s e R). cbn [bind marked_step]. unfold erase_word_marked.
  destruct e as [[|c b] a]; cbn [ed_before ed_after is_empty_str].
  - exists s. auto.
  - destruct (is_empty_str c); [exists s; auto|]. destruct (is_whitespace c).
    + destruct (delete_while_ok s _ is_whitespace R ltac:(discriminate)) as (s1 & -> & R1 & O1 & S1). cbn [bind].
      destruct (delete_while_ok s1 _ (fun g => negb (is_empty_str g) && negb (is_whitespace g)) R1) as (s2 & E2 & R2 & O2 & S2).
      { cbn [ed_before]. unfold marked. destruct (drop_while _ _); discriminate. }
      exists s2. split; [exact E2|]. split; [exact R2|]. split; congruence.
    + cbn [bind]. destruct (delete_while_ok s _ (fun g => negb (is_empty_str g) && negb (is_whitespace g)) R ltac:(discriminate)) as (s2 & E2 & R2 & O2 & S2).
      exists s2. auto.
Qed.

Lemma delete_under_ok s e : represents s e ->
  exists s', is_delete_under s = Ret s' /\ represents s' (ed_step e EraseBack) /\ is_offset s' = is_offset s /\ is_show s' = is_show s.
Proof.
  intros R. unfold is_delete_under. rewrite (split_represents s e R). destruct R as [Ht Hc].
  destruct e as [[|c b] a]; cbn [ed_before ed_after ed_step bind] in *.
  - eexists. split; [reflexivity|]. split; [|auto]. unfold represents, is_left, is_set_cursor. cbn. split; [reflexivity|]. rewrite Hc. rewrite zlen_nil. unfold clamp_cursor. pose proof (zlen_nonneg a). lia.
  - eexists. split; [reflexivity|]. split; [|auto]. unfold represents, is_left, is_set_cursor, ed_clusters. cbn. split; [reflexivity|]. rewrite zlen_cons in Hc. rewrite Hc.
    rewrite zlen_app, zlen_rev. pose proof (zlen_nonneg a). pose proof (zlen_nonneg b). rewrite clamp_id; lia.
Qed.

Lemma left_ok s e : represents s e -> represents (is_left s) (ed_step e Left).
Proof.
  intros [Ht Hc]. unfold represents, is_left, is_set_cursor. cbn [is_text is_cursor]. rewrite Ht, Hc. destruct e as [[|c b] a]; unfold ed_clusters; cbn [ed_step ed_before ed_after rev app].
  - split; [reflexivity|]. rewrite zlen_nil. pose proof (zlen_nonneg a). unfold clamp_cursor. lia.
  - split; [now rewrite <- app_assoc|]. rewrite !zlen_app, zlen_cons, zlen_rev, zlen_cons, zlen_nil. pose proof (zlen_nonneg a). pose proof (zlen_nonneg b). rewrite clamp_id; lia.
Qed.

Lemma right_ok s e : represents s e -> represents (is_right s) (ed_step e Right).
Proof.
  intros [Ht Hc]. unfold represents, is_right, is_set_cursor. cbn [is_text is_cursor]. rewrite Ht, Hc. destruct e as [b [|c a]]; unfold ed_clusters; cbn [ed_step ed_before ed_after rev app].
  - split; [reflexivity|]. rewrite app_nil_r, zlen_rev. pose proof (zlen_nonneg b). unfold clamp_cursor. lia.
  - split; [now rewrite <- app_assoc|]. rewrite !zlen_app, zlen_cons, zlen_rev, zlen_cons. pose proof (zlen_nonneg a). pose proof (zlen_nonneg b). rewrite clamp_id; lia.
Qed.

Lemma begin_ok s e : represents s e -> represents (is_begin s) (ed_step e Home).
Proof.
  intros [Ht Hc]. unfold represents, is_begin, is_set_cursor, ed_clusters at 1. cbn. split; [exact Ht|]. unfold clamp_cursor. change (zlen (@nil str)) with 0. pose proof (zlen_nonneg (is_text s)). lia.
Qed.
Lemma end_ok s e : represents s e -> represents (is_end s) (ed_step e End_).
Proof.
  intros [Ht Hc]. unfold represents, is_end, is_set_cursor, ed_clusters at 1. cbn. rewrite rev_involutive, app_nil_r. split; [exact Ht|].
  rewrite zlen_rev, <- Ht. apply clamp_id. pose proof (zlen_nonneg (is_text s)). lia.
Qed.

Lemma insert_ok b (a : list str) c : slice_insert (rev b ++ a) (zlen b) c = Ret (rev b ++ c :: a).
Proof.
  unfold slice_insert. rewrite zlen_app, zlen_rev. pose proof (zlen_nonneg a). pose proof (zlen_nonneg b).
  replace (zlen b <? 0) with false by (symmetry; apply Z.ltb_ge; lia). rewrite Z.gtb_ltb. replace (zlen b + zlen a <? zlen b) with false by (symmetry; apply Z.ltb_ge; lia).
  cbn [orb]. rewrite <- (zlen_rev b), firstn_zlen_app, skipn_zlen_app. reflexivity.
Qed.

Lemma append_ok u : forall content s e, represents s e ->
  exists s', is_append u s content = Ret s' /\ represents s' (ed_step e (Type_ (clusters u content))) /\ is_offset s' = is_offset s /\ is_show s' = is_show s.
Proof.
  intros content. unfold is_append. generalize (clusters u content). induction l as [|c l IH]; intros s e R.
  - exists s. destruct e. auto.
  - cbn [ofold]. destruct e as [b a]. destruct R as [Ht Hc]. unfold ed_clusters in Ht. cbn [ed_before ed_after] in Ht, Hc. rewrite Ht, Hc, insert_ok. cbn [bind].
    match goal with |- context [ofold _ l ?s1] => destruct (IH s1 (Editor (c :: b) a)) as (s' & E & R' & O & S) end.
    { apply (right_ok _ (Editor b (c :: a))). unfold represents, ed_clusters. cbn. auto. }
    exists s'. split; [exact E|]. split; [|auto]. cbn [ed_step] in *. cbn [rev]. rewrite <- app_assoc. exact R'.
Qed.

(** ** The operations *)
Inductive input_op := OpLeft | OpRight | OpBegin | OpEnd | OpAppend (s : str) | OpDeleteUnder | OpDeleteWord | OpDeleteLine
                    | OpShow (v : bool) | OpKey (k : input_key).
Definition is_do (u : uniseg) (s : input_state) (o : input_op) : outcome input_state :=
  match o with
  | OpLeft => Ret (is_left s) | OpRight => Ret (is_right s) | OpBegin => Ret (is_begin s) | OpEnd => Ret (is_end s)
  | OpAppend t => is_append u s t | OpDeleteUnder => is_delete_under s | OpDeleteWord => is_delete_word s
  | OpDeleteLine => Ret (is_delete_line s) | OpShow v => Ret (is_show_cursor s v)
  | OpKey k => let! (s, _) := is_update u s k in Ret s
  end.
(** What the operations mean in the plain editor. *)
Definition meaning (u : uniseg) (o : input_op) : list edit :=
  match o with
  | OpLeft | OpKey IKLeft => [Left]
  | OpRight | OpKey IKRight => [Right]
  | OpBegin | OpKey IKCtrlA => [Home]
  | OpEnd | OpKey IKCtrlE => [End_]
  | OpAppend t | OpKey (IKRunes t) | OpKey (IKSpace t) => [Type_ (clusters u t)]
  | OpDeleteUnder | OpKey IKBackspace | OpKey IKDelete => [EraseBack]
  | OpDeleteWord | OpKey IKCtrlW => [EraseWord]
  | OpDeleteLine => [EraseAll]
  | OpShow _ | OpKey _ => []
  end.

Lemma op_ok u s e o : represents s e -> exists s', is_do u s o = Ret s' /\ represents s' (fold_left marked_step (meaning u o) e).
Proof.
  intros R.
  assert (T : forall t, exists s', is_append u s t = Ret s' /\ represents s' (fold_left marked_step [Type_ (clusters u t)] e)).
  { intros t. destruct (append_ok u t s e R) as (s' & ? & ? & _). exists s'. auto. }
  assert (D : exists s', is_delete_under s = Ret s' /\ represents s' (fold_left marked_step [EraseBack] e)).
  { destruct (delete_under_ok s e R) as (s' & ? & ? & _). exists s'. auto. }
  assert (W : exists s', is_delete_word s = Ret s' /\ represents s' (fold_left marked_step [EraseWord] e)).
  { destruct (delete_word_ok s e R) as (s' & ? & ? & _). exists s'. auto. }
  destruct o as [| | | |t| | | |v|k]; cbn [is_do meaning]; auto.
  - eexists; split; [reflexivity|]. now apply left_ok.
  - eexists; split; [reflexivity|]. now apply right_ok.
  - eexists; split; [reflexivity|]. now apply begin_ok.
  - eexists; split; [reflexivity|]. now apply end_ok.
  - eexists; split; [reflexivity|]. cbn. split; reflexivity.
  - eexists; split; [reflexivity|]. exact R.
  - destruct k; cbn [is_update bind]; try (eexists; split; [reflexivity|]).
    + now apply left_ok.
    + exact R.
    + now apply right_ok.
    + exact R.
    + destruct D as (s' & -> & ?). exists s'. auto.
    + destruct D as (s' & -> & ?). exists s'. auto.
    + now apply begin_ok.
    + now apply end_ok.
    + destruct W as (s' & -> & ?). exists s'. auto.
    + destruct (T s0) as (s' & -> & ?). exists s'. auto.
    + destruct (T s0) as (s' & -> & ?). exists s'. auto.
    + exact R.
Qed.

Lemma ops_ok u ops : forall s e, represents s e ->
  exists s', ofold (is_do u) ops s = Ret s' /\ represents s' (fold_left marked_step (flat_map (meaning u) ops) e).
Proof.
  induction ops as [|o ops IH]; intros s e R; cbn [ofold flat_map]; [exists s; auto|].
  destruct (op_ok u s e o R) as (s1 & -> & R1). cbn [bind]. rewrite fold_left_app. now apply IH.
Qed.

(** On plain histories the marks never appear. *)
Definition no_marks (e : editor) : Prop := forall c, In c (ed_clusters e) -> c <> [].

Lemma drop_while_app {A} (f : A -> bool) l : exists p, l = p ++ drop_while f l.
Proof. induction l as [|a l [p IH]]; [now exists []|]. cbn. destruct (f a); [exists (a :: p); cbn; now f_equal|now exists []]. Qed.
Lemma drop_while_in {A} (f : A -> bool) l x : In x (drop_while f l) -> In x l.
Proof. intros H. destruct (drop_while_app f l) as [p E]. rewrite E. apply in_or_app. now right. Qed.
Lemma drop_while_ext {A} (f g : A -> bool) l : (forall x, In x l -> f x = g x) -> drop_while f l = drop_while g l.
Proof. induction l as [|a l IH]; intros H; [reflexivity|]. cbn. rewrite (H a) by now left. destruct (g a); [apply IH; intros; apply H; now right|reflexivity]. Qed.
Lemma drop_while_head {A} (f : A -> bool) l : match drop_while f l with [] => True | a :: _ => f a = false end.
Proof. induction l as [|a l IH]; cbn; [exact I|]. destruct (f a) eqn:E; [exact IH|exact E]. Qed.

Lemma marked_plain (e : editor) o : no_marks e -> (o = EraseWord -> ed_before e <> [] -> without_word (ed_before e) <> []) -> marked_step e o = ed_step e o.
Proof.
  intros N H. destruct o; try reflexivity. specialize (H eq_refl). destruct e as [[|c b] a]; [reflexivity|]. specialize (H ltac:(discriminate)).
  assert (Hc : forall x, In x (c :: b) -> is_empty_str x = false).
  { intros x Hx. assert (x <> []) by (apply N; unfold ed_clusters; cbn [ed_before ed_after]; apply in_or_app; left; now apply -> in_rev). now destruct x. }
  cbn [marked_step ed_step ed_before ed_after]. f_equal. unfold erase_word_marked. rewrite (Hc c (or_introl eq_refl)).
  unfold without_word in *. cbn [ed_before] in H.
  assert (E : (if is_whitespace c then marked (drop_while is_whitespace (c :: b)) else c :: b) = drop_while is_whitespace (c :: b)).
  { destruct (is_whitespace c) eqn:Ew.
    - unfold marked. destruct (drop_while is_whitespace (c :: b)); [exfalso; now apply H|reflexivity].
    - cbn. now rewrite Ew. }
  rewrite E. rewrite (drop_while_ext _ (fun x => negb (is_whitespace x))).
  - unfold marked. destruct (drop_while (fun x => negb (is_whitespace x)) _); [exfalso; now apply H|reflexivity].
  - intros x Hx. apply drop_while_in in Hx. now rewrite (Hc x Hx).
Qed.

Lemma step_no_marks e o : no_marks e -> (forall cs, o = Type_ cs -> forall c, In c cs -> c <> []) -> no_marks (ed_step e o).
Proof.
  intros N H c. destruct e as [b a]. unfold no_marks, ed_clusters in *. cbn [ed_before ed_after] in *.
  assert (N' : forall x, In x b \/ In x a -> x <> []) by (intros x Hx; apply N; apply in_or_app; destruct Hx; [left; now apply -> in_rev|now right]).
  intros Hc. cut ((In c b \/ In c a) \/ exists cs, o = Type_ cs /\ In c cs).
  { intros [?|(cs & E & ?)]; [now apply N'|]. now apply (H cs E). }
  revert Hc. destruct o; unfold ed_step, ed_clusters, ed_empty; cbn [ed_before ed_after].
  - destruct b; cbn [ed_before ed_after]; rewrite in_app_iff, <- in_rev; cbn; intuition auto.
  - destruct a; cbn [ed_before ed_after]; rewrite in_app_iff, <- in_rev; cbn; intuition auto.
  - cbn. rewrite in_app_iff, <- in_rev. auto.
  - rewrite app_nil_r, <- in_rev, <- in_rev, in_app_iff, <- in_rev. auto.
  - rewrite in_app_iff, <- in_rev, in_app_iff, <- in_rev. intros [[?|?]|?]; eauto.
  - destruct b; cbn [ed_before ed_after]; rewrite in_app_iff, <- in_rev; cbn; intuition auto.
  - rewrite in_app_iff, <- in_rev. intros [Hc|?]; [|auto]. unfold without_word in Hc. do 2 apply drop_while_in in Hc. auto.
  - intros [].
Qed.

Lemma plain_run os : forall e, no_marks e -> (forall cs, In (Type_ cs) os -> forall c, In c cs -> c <> []) -> words_inside e os ->
  fold_left marked_step os e = ed_run e os.
Proof.
  induction os as [|o os IH]; intros e N T W; [reflexivity|]. destruct W as [W1 W2]. unfold ed_run. cbn [fold_left]. rewrite marked_plain by auto.
  apply IH; [|intros cs Hc; apply T; now right|exact W2]. apply step_no_marks; [exact N|]. intros cs ->. apply T. now left.
Qed.
