(** C33: the enumeration of pairs. *)
From Verif Require Import Base P_Base M_Combin.
From Coq Require Import ZArith List Bool Lia Permutation.
Import ListNotations.
Open Scope Z_scope.

(** All pairs i < j of numbers below n, in lexicographic order, starting from (i, j). *)
Definition row (n i j : Z) : list (list Z) := map (fun j' => [i; j']) (zrange j n).
Definition from (n i j : Z) : list (list Z) := row n i j ++ flat_map (fun i' => row n i' (i' + 1)) (zrange (i + 1) (n - 1)).

Lemma next_pair n i j : 0 <= i < j -> j < n -> next_combination [i; j] n 2 =
  Ret (if j <? n - 1 then [i; j + 1] else if i <? n - 2 then [i + 1; i + 2] else [i; j]).
Proof.
  intros Hi Hj. unfold next_combination. change (Z.to_nat 2) with 2%nat. cbn [next_loop]. change (index_at [i; j] (Z.of_nat 1)) with (Ret j). cbn [bind].
  replace (j =? n + Z.of_nat 1 - 2) with (negb (j <? n - 1)) by (destruct (Z.ltb_spec j (n - 1)), (Z.eqb_spec j (n + Z.of_nat 1 - 2)); cbn; lia).
  destruct (Z.ltb_spec j (n - 1)); cbn [negb]; [reflexivity|].
  change (index_at [i; j] (Z.of_nat 0)) with (Ret i). cbn [bind].
  replace (i =? n + Z.of_nat 0 - 2) with (negb (i <? n - 2)) by (destruct (Z.ltb_spec i (n - 2)), (Z.eqb_spec i (n + Z.of_nat 0 - 2)); cbn; lia).
  destruct (Z.ltb_spec i (n - 2)); cbn [negb]; [|reflexivity].
  cbn [list_update]. change (zrange (Z.of_nat 0 + 1) 2) with [1]. cbn [ofold]. change (index_at [i + 1; j] (Z.of_nat 0)) with (Ret (i + 1)). change (index_at [i + 1; j] 1) with (Ret j). cbn [bind].
  change (Z.to_nat 1) with 1%nat. cbn [list_update]. do 2 f_equal. f_equal. cbn [Z.of_nat]. lia.
Qed.

Lemma fill_from n : forall c i j, 0 <= i < j -> j < n -> S c = length (from n i j) -> exists rest, fill_next c [i; j] n 2 = Ret rest /\ from n i j = [i; j] :: rest.
Proof.
  induction c as [|c IH]; intros i j Hi Hj L.
  - exists []. split; [reflexivity|]. destruct (from n i j) as [|x [|y r]] eqn:E; try (cbn in L; lia). unfold from, row in E. rewrite zrange_cons in E by lia. cbn [map app] in E. congruence.
  - cbn [fill_next]. rewrite next_pair by lia. cbn [bind]. unfold from, row in L |- *. rewrite zrange_cons by lia. rewrite zrange_cons in L by lia. cbn [map app length] in L |- *. injection L as L.
    destruct (Z.ltb_spec j (n - 1)).
    + destruct (IH i (j + 1)) as (rest & R & F); [lia|lia|exact L|]. rewrite R. cbn [bind]. exists ([i; j + 1] :: rest). split; [reflexivity|]. f_equal. exact F.
    + rewrite (zrange_nil (j + 1) n) in * by lia. cbn [map app] in *. destruct (Z.ltb_spec i (n - 2)).
      * rewrite zrange_cons in * by lia. cbn [flat_map] in *. replace (i + 1 + 1) with (i + 2) in * by lia.
        destruct (IH (i + 1) (i + 2)) as (rest & R & F); [lia|lia|unfold from; replace (i + 1 + 1) with (i + 2) by lia; exact L|]. rewrite R. cbn [bind]. exists ([i + 1; i + 2] :: rest). split; [reflexivity|]. f_equal.
        unfold from in F. replace (i + 1 + 1) with (i + 2) in F by lia. exact F.
      * rewrite zrange_nil in L by lia. discriminate.
Qed.

Lemma from_length n i j : 0 <= i < j -> j <= n -> 2 * zlen (from n i j) = 2 * (n - j) + (n - 1 - i) * (n - 2 - i).
Proof.
  intros Hi Hj. unfold from. rewrite zlen_app. unfold row at 1. rewrite zlen_map. unfold zlen at 1. rewrite zrange_length.
  assert (G : forall m a, Z.to_nat (n - 1 - a) = m -> a <= n - 1 -> 2 * zlen (flat_map (fun i' => row n i' (i' + 1)) (zrange a (n - 1))) = (n - a) * (n - 1 - a)).
  { induction m as [|m IH]; intros a E Ha.
    - rewrite zrange_nil by lia. cbn [flat_map]. change (zlen (@nil (list Z))) with 0. assert (a = n - 1) by lia. subst a. ring.
    - rewrite zrange_cons by lia. cbn [flat_map]. rewrite zlen_app. unfold row at 1. rewrite zlen_map. unfold zlen at 1. rewrite zrange_length. specialize (IH (a + 1) ltac:(lia) ltac:(lia)). nia. }
  destruct (Z_le_gt_dec (i + 1) (n - 1)).
  - specialize (G _ (i + 1) eq_refl ltac:(lia)). nia.
  - rewrite (zrange_nil (i + 1)) by lia. cbn [flat_map]. change (zlen (@nil (list Z))) with 0. nia.
Qed.

Lemma binomial_2 n : 2 <= n -> binomial n 2 = Ret (n * (n - 1) / 2).
Proof.
  intros H. unfold binomial. replace (n <? 0) with false by (symmetry; apply Z.ltb_ge; lia). cbn [orb]. change (2 <? 0) with false. replace (n <? 2) with false by (symmetry; apply Z.ltb_ge; lia). cbv iota.
  destruct (Z.eq_dec n 2) as [->|]; [reflexivity|]. destruct (Z.eq_dec n 3) as [->|]; [reflexivity|].
  assert (2 <= n / 2) by (apply Z.div_le_lower_bound; lia). replace (2 >? n / 2) with false by (symmetry; rewrite Z.gtb_ltb; apply Z.ltb_ge; lia).
  change (zrange 1 (2 + 1)) with [1; 2]. cbn [fold_left]. rewrite Z.div_1_r. do 2 f_equal. ring.
Qed.

(** The pairs compared when several segments grow: all pairs i < j, each once, in lexicographic order. *)
Theorem C33_pairs : forall n, 2 <= n -> exists l, combinations n 2 = Ret l /\ NoDup l /\
  (forall c, In c l <-> exists i j, c = [i; j] /\ 0 <= i < j /\ j < n) /\ 2 * zlen l = n * (n - 1).
Proof.
  intros n H. unfold combinations. rewrite binomial_2 by lia. cbn [bind].
  pose proof (from_length n 0 1 ltac:(lia) ltac:(lia)) as L. assert (L' : 2 * zlen (from n 0 1) = n * (n - 1)) by nia. clear L.
  assert (Q : n * (n - 1) / 2 = zlen (from n 0 1)) by (rewrite <- L', Z.mul_comm; apply Z.div_mul; lia). rewrite Q.
  assert (P : 0 < zlen (from n 0 1)) by nia.
  replace (zlen (from n 0 1) <? 0) with false by (symmetry; apply Z.ltb_ge; lia). replace (zlen (from n 0 1) =? 0) with false by (symmetry; apply Z.eqb_neq; lia).
  change (zrange 0 2) with [0; 1]. destruct (fill_from n (Z.to_nat (zlen (from n 0 1) - 1)) 0 1) as (rest & R & F); [lia|lia|unfold zlen in *; lia|].
  rewrite R. cbn [bind]. rewrite <- F. exists (from n 0 1). split; [reflexivity|].
  assert (S : from n 0 1 = flat_map (fun i' => row n i' (i' + 1)) (zrange 0 (n - 1))) by (unfold from; rewrite (zrange_cons 0 (n - 1)) by lia; reflexivity).
  split; [|split; [|exact L']].
  - rewrite S. clear. generalize 0. intros a. remember (Z.to_nat (n - 1 - a)) as m eqn:E. revert a E. induction m as [|m IH]; intros a E.
    + rewrite zrange_nil by lia. constructor.
    + rewrite zrange_cons by lia. cbn [flat_map].
      assert (D : forall (l1 l2 : list (list Z)), NoDup l1 -> NoDup l2 -> (forall x, In x l1 -> In x l2 -> False) -> NoDup (l1 ++ l2)).
      { clear. induction l1 as [|x l1 IH]; intros l2 N1 N2 D; [exact N2|]. inversion N1; subst. cbn [app]. constructor; [rewrite in_app_iff; intros [X|X]; [auto|eapply D; [now left|exact X]]|]. apply IH; auto. intros y Y. apply D. now right. }
      apply D; [|apply IH; lia|].
      * unfold row. apply FinFun.Injective_map_NoDup; [|apply zrange_NoDup]. intros x y X. congruence.
      * intros x X Y. unfold row in X. apply in_map_iff in X. destruct X as (j & <- & _). apply in_flat_map in Y. destruct Y as (i' & I & Y). apply zrange_In in I. unfold row in Y. apply in_map_iff in Y. destruct Y as (j' & E' & _). injection E' as E' _. lia.
  - intros c. rewrite S. rewrite in_flat_map. split.
    + intros (i & I & C). apply zrange_In in I. unfold row in C. apply in_map_iff in C. destruct C as (j & <- & J). apply zrange_In in J. exists i, j. repeat split; lia.
    + intros (i & j & -> & Hi & Hj). exists i. split; [apply zrange_In; lia|]. unfold row. apply in_map_iff. exists j. split; [reflexivity|]. apply zrange_In. lia.
Qed.
Print Assumptions C33_pairs.

Example C33_instance : combinations 4 2 = Ret [[0; 1]; [0; 2]; [0; 3]; [1; 2]; [1; 3]; [2; 3]].
Proof. reflexivity. Qed.
