(** Lemmas about Base. *)
From Verif Require Import Base.
From Coq Require Import ZArith List Bool Lia FinFun.
Import ListNotations.
Open Scope Z_scope.

Lemma zlen_nonneg {A} (l : list A) : 0 <= zlen l.
Proof. unfold zlen; lia. Qed.

Lemma zlen_app {A} (l m : list A) : zlen (l ++ m) = zlen l + zlen m.
Proof. unfold zlen; rewrite app_length; lia. Qed.

Lemma zlen_cons {A} (a : A) l : zlen (a :: l) = 1 + zlen l.
Proof. unfold zlen; cbn [length]; lia. Qed.

Lemma zlen_nil {A} : zlen (@nil A) = 0.
Proof. reflexivity. Qed.

Lemma zlen_map {A B} (f : A -> B) l : zlen (map f l) = zlen l.
Proof. unfold zlen; now rewrite map_length. Qed.

Lemma zrange_length lo hi : length (zrange lo hi) = Z.to_nat (hi - lo).
Proof. unfold zrange. now rewrite map_length, seq_length. Qed.

Lemma zrange_In lo hi z : In z (zrange lo hi) <-> lo <= z < hi.
Proof.
  unfold zrange. rewrite in_map_iff. split.
  - intros [k [<- Hk]]. apply in_seq in Hk. lia.
  - intros H. exists (Z.to_nat (z - lo)). split; [lia|]. apply in_seq. lia.
Qed.

Lemma zrange_nth lo hi k d : (k < Z.to_nat (hi - lo))%nat -> nth k (zrange lo hi) d = lo + Z.of_nat k.
Proof.
  intros H. unfold zrange.
  rewrite (nth_indep _ d (lo + Z.of_nat 0)) by (now rewrite map_length, seq_length).
  rewrite (map_nth (fun k => lo + Z.of_nat k)). rewrite seq_nth by lia. lia.
Qed.

Lemma zrange_nth_error lo hi k : (k < Z.to_nat (hi - lo))%nat -> nth_error (zrange lo hi) k = Some (lo + Z.of_nat k).
Proof.
  intros H. rewrite (nth_error_nth' _ 0) by (now rewrite zrange_length).
  now rewrite zrange_nth.
Qed.

Lemma zrange_NoDup lo hi : NoDup (zrange lo hi).
Proof.
  unfold zrange. apply Injective_map_NoDup; [|apply seq_NoDup].
  intros a b H. lia.
Qed.

Lemma zrange_nil lo hi : hi <= lo -> zrange lo hi = [].
Proof. intros H. unfold zrange. replace (Z.to_nat (hi - lo)) with O by lia. reflexivity. Qed.

Lemma zrange_cons lo hi : lo < hi -> zrange lo hi = lo :: zrange (lo + 1) hi.
Proof.
  intros H. unfold zrange. replace (Z.to_nat (hi - lo)) with (S (Z.to_nat (hi - (lo + 1)))) by lia.
  cbn [seq map]. f_equal; [lia|]. rewrite <- seq_shift, map_map.
  apply map_ext. intros; lia.
Qed.

Lemma zrange_snoc lo hi : lo <= hi -> zrange lo (hi + 1) = zrange lo hi ++ [hi].
Proof.
  intros H. unfold zrange. replace (Z.to_nat (hi + 1 - lo)) with (Z.to_nat (hi - lo) + 1)%nat by lia.
  rewrite seq_app, map_app. cbn [seq map plus]. f_equal. f_equal. lia.
Qed.

Lemma zrange_split lo mid hi : lo <= mid <= hi -> zrange lo hi = zrange lo mid ++ zrange mid hi.
Proof.
  intros H. unfold zrange.
  replace (Z.to_nat (hi - lo)) with (Z.to_nat (mid - lo) + Z.to_nat (hi - mid))%nat by lia.
  rewrite seq_app, map_app. f_equal. cbn [plus].
  assert (E : forall n s, map (fun k => lo + Z.of_nat k) (seq (s) n) = map (fun k => (lo + Z.of_nat s) + Z.of_nat k) (seq 0 n)).
  { clear. induction n; intros s; cbn [seq map]; [reflexivity|]. f_equal; [lia|].
    rewrite IHn. rewrite <- (seq_shift n 0), map_map. apply map_ext. intros; lia. }
  rewrite E. apply map_ext. intros; lia.
Qed.

Lemma list_update_length {A} n (f : A -> A) l : length (list_update n f l) = length l.
Proof. revert n; induction l; intros [|n]; cbn; auto. Qed.

Lemma list_update_nth_eq {A} n (f : A -> A) l a :
  nth_error l n = Some a -> nth_error (list_update n f l) n = Some (f a).
Proof.
  revert n; induction l; intros [|n] H; cbn in *; try discriminate; auto. now injection H as ->.
Qed.

Lemma list_update_nth_ne {A} n m (f : A -> A) l :
  n <> m -> nth_error (list_update n f l) m = nth_error l m.
Proof.
  revert n m; induction l; intros [|n] [|m] H; cbn in *; auto; try congruence.
Qed.

Lemma index_at_Ret {A} (l : list A) i a :
  index_at l i = Ret a <-> 0 <= i /\ nth_error l (Z.to_nat i) = Some a.
Proof.
  unfold index_at. destruct (i <? 0) eqn:E; [apply Z.ltb_lt in E|apply Z.ltb_ge in E].
  - split; [discriminate|lia].
  - destruct (nth_error l (Z.to_nat i)) eqn:N.
    + split; [intros H; injection H as ->; split; [lia|auto] | intros [_ H]; congruence].
    + split; [discriminate | intros [_ H]; discriminate].
Qed.

Lemma index_at_ok {A} (l : list A) i : 0 <= i < zlen l -> exists a, index_at l i = Ret a.
Proof.
  intros H. destruct (nth_error l (Z.to_nat i)) eqn:E.
  - exists a. apply index_at_Ret. split; [lia|auto].
  - apply nth_error_None in E. unfold zlen in H. lia.
Qed.

Lemma ofold_app {A S} (f : S -> A -> outcome S) l m s :
  ofold f (l ++ m) s = bind (ofold f l s) (ofold f m).
Proof.
  revert s; induction l; intros s; cbn; [reflexivity|].
  destruct (f s a); cbn; auto.
Qed.

Lemma ofold_inv {A S} (f : S -> A -> outcome S) (I : S -> Prop) l s :
  I s -> (forall s a, In a l -> I s -> exists s', f s a = Ret s' /\ I s') ->
  exists s', ofold f l s = Ret s' /\ I s'.
Proof.
  revert s; induction l; intros s HI Hstep; cbn.
  - eauto.
  - destruct (Hstep s a (or_introl eq_refl) HI) as [s' [E HI']]. rewrite E. cbn.
    apply IHl; auto. intros; apply Hstep; auto. now right.
Qed.

(** Invariant of a fold that may panic: whatever it returns satisfies the invariant. *)
Lemma ofold_inv' {A S} (f : S -> A -> outcome S) (I : S -> Prop) l s s' :
  I s -> (forall s a s', In a l -> I s -> f s a = Ret s' -> I s') ->
  ofold f l s = Ret s' -> I s'.
Proof.
  revert s; induction l; intros s HI Hstep E; cbn in E.
  - congruence.
  - destruct (f s a) eqn:Ea; [|discriminate]. cbn in E.
    eapply (IHl a0); eauto. { eapply Hstep; eauto. now left. } intros; eapply Hstep; eauto. now right.
Qed.

Lemma zsum_cons a l : zsum (a :: l) = a + zsum l.
Proof. reflexivity. Qed.

Lemma zsum_app l m : zsum (l ++ m) = zsum l + zsum m.
Proof. induction l; cbn [app]; [reflexivity|]. rewrite !zsum_cons, IHl. lia. Qed.

Lemma zsum_nonneg l : (forall x, In x l -> 0 <= x) -> 0 <= zsum l.
Proof.
  induction l; intros H; [reflexivity|]. assert (0 <= a) by (apply H; now left).
  assert (0 <= zsum l) by (apply IHl; intros; apply H; now right). rewrite zsum_cons. lia.
Qed.
