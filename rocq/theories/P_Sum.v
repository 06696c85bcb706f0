(** Sums of rational numbers over lists. *)
From Verif Require Import Base P_Base M_Combin T_Combin M_Layout S_Place P_Layout.
From Coq Require Import ZArith QArith Qabs List Bool Lia Lqa Setoid Permutation.
Import ListNotations.
Open Scope Q_scope.

Section Sums.
Context {A : Type}.
Implicit Types (f g : A -> Q) (l : list A).
Lemma sum_app f l m : sum_of f (l ++ m) == sum_of f l + sum_of f m.
Proof. induction l as [|a l IH]; cbn; [ring|]. rewrite IH. ring. Qed.
Lemma sum_ext f g l : (forall a, In a l -> f a == g a) -> sum_of f l == sum_of g l.
Proof. induction l as [|a l IH]; intros H; cbn; [reflexivity|]. rewrite IH by (intros b I; apply H; now right). rewrite (H a) by now left. reflexivity. Qed.
Lemma sum_le f g l : (forall a, In a l -> f a <= g a) -> sum_of f l <= sum_of g l.
Proof. induction l as [|a l IH]; intros H; cbn; [lra|]. assert (f a <= g a) by (apply H; now left). assert (sum_of f l <= sum_of g l) by (apply IH; intros b I; apply H; now right). lra. Qed.
Lemma sum_plus f g l : sum_of (fun a => f a + g a) l == sum_of f l + sum_of g l.
Proof. induction l as [|a l IH]; cbn; [ring|]. rewrite IH. ring. Qed.
Lemma sum_minus f g l : sum_of (fun a => f a - g a) l == sum_of f l - sum_of g l.
Proof. induction l as [|a l IH]; cbn; [ring|]. rewrite IH. ring. Qed.
Lemma sum_scale k f l : sum_of (fun a => k * f a) l == k * sum_of f l.
Proof. induction l as [|a l IH]; cbn; [ring|]. rewrite IH. ring. Qed.
Lemma sum_const k l : sum_of (fun _ => k) l == inject_Z (Z.of_nat (length l)) * k.
Proof. induction l as [|a l IH]; cbn [sum_of length]; [cbn; ring|]. rewrite IH, Nat2Z.inj_succ. unfold Z.succ. rewrite inject_Z_plus. change (inject_Z 1) with 1. ring. Qed.
Lemma sum_zero f l : (forall a, In a l -> f a == 0) -> sum_of f l == 0.
Proof. intros H. rewrite (sum_ext f (fun _ => 0)) by exact H. rewrite sum_const. ring. Qed.
Lemma sum_pos f l : (forall a, In a l -> 0 <= f a) -> 0 <= sum_of f l.
Proof. induction l as [|a l IH]; intros H; cbn; [lra|]. assert (0 <= f a) by (apply H; now left). assert (0 <= sum_of f l) by (apply IH; intros b I; apply H; now right). lra. Qed.
Lemma sum_abs f l : Qabs (sum_of f l) <= sum_of (fun a => Qabs (f a)) l.
Proof. induction l as [|a l IH]; cbn [sum_of]; [apply Qle_refl|]. pose proof (Qabs_triangle (f a) (sum_of f l)). lra. Qed.
Lemma sum_abs_zero f l : sum_of (fun a => Qabs (f a)) l <= 0 -> forall a, In a l -> f a == 0.
Proof.
  induction l as [|b l IH]; cbn; [contradiction|]. intros H a I. assert (0 <= sum_of (fun a => Qabs (f a)) l) by (apply sum_pos; intros; apply Qabs_nonneg). pose proof (Qabs_nonneg (f b)).
  destruct I as [<-|I]; [|apply IH; [lra|exact I]]. pose proof (Qle_Qabs (f b)). pose proof (Qle_Qabs (- f b)). rewrite Qabs_opp in *. lra.
Qed.
Lemma sum_perm f l m : Permutation l m -> sum_of f l == sum_of f m.
Proof. induction 1; cbn; lra. Qed.
Lemma sum_filter f p l : sum_of f l == sum_of f (filter p l) + sum_of f (filter (fun a => negb (p a)) l).
Proof. induction l as [|a l IH]; cbn; [ring|]. destruct (p a); cbn; rewrite IH; ring. Qed.
End Sums.
Lemma sum_map {A B} (f : B -> Q) (g : A -> B) l : sum_of f (map g l) = sum_of (fun a => f (g a)) l.
Proof. induction l as [|a l IH]; cbn; [reflexivity|]. now rewrite IH. Qed.
Lemma sum_flat_map {A B} (f : B -> Q) (g : A -> list B) l : sum_of f (flat_map g l) == sum_of (fun a => sum_of f (g a)) l.
Proof. induction l as [|a l IH]; cbn; [reflexivity|]. now rewrite sum_app, IH. Qed.
Lemma sum_swap {A B} (f : A -> B -> Q) l m : sum_of (fun a => sum_of (f a) m) l == sum_of (fun b => sum_of (fun a => f a b) l) m.
Proof. induction l as [|a l IH]; cbn; [rewrite sum_zero by reflexivity; reflexivity|]. rewrite IH, sum_plus. reflexivity. Qed.

(** ** All pairs *)
Fixpoint all_pairs {A} (l : list A) : list (A * A) := match l with [] => [] | a :: l => map (pair a) l ++ all_pairs l end.
Lemma all_pairs_map {A B} (f : A -> B) l : all_pairs (map f l) = map (fun p => (f (fst p), f (snd p))) (all_pairs l).
Proof. induction l as [|a l IH]; cbn; [reflexivity|]. rewrite map_app, IH, !map_map. reflexivity. Qed.
Lemma all_pairs_in {A} (l : list A) p : In p (all_pairs l) -> In (fst p) l /\ In (snd p) l.
Proof. induction l as [|a l IH]; cbn; [contradiction|]. rewrite in_app_iff, in_map_iff. intros [(b & <- & I)|I]; cbn; [auto|]. apply IH in I. tauto. Qed.
(** The sum over all pairs of a symmetric function that vanishes on the diagonal is half that over the square. *)
Lemma all_pairs_sum {A} (f : A -> A -> Q) (l : list A) : (forall a b, f a b == f b a) -> (forall a, f a a == 0) ->
  2 * sum_of (fun p => f (fst p) (snd p)) (all_pairs l) == sum_of (fun a => sum_of (f a) l) l.
Proof.
  intros Sy Di. induction l as [|a l IH]; cbn; [ring|]. rewrite sum_app, sum_map. cbn. rewrite Di, sum_plus. rewrite (sum_ext (fun b => f b a) (f a)) by (intros b _; apply Sy). rewrite <- IH. setoid_replace (sum_of (fun a0 => f a a0) l) with (sum_of (f a) l) by reflexivity. ring.
Qed.
(** Shares in proportion to the weights [k] are as close together as can be. *)
Lemma proportional {A} (k e : A -> Q) (l : list A) : (forall a, In a l -> 1 <= k a) ->
  sum_of (fun a => Qabs (e a)) l - Qabs (sum_of e l) <= 2 * sum_of (fun p => Qabs (k (snd p) * e (fst p) - k (fst p) * e (snd p))) (all_pairs l).
Proof.
  intros Hk. set (T := sum_of e l). set (K := sum_of k l).
  assert (P : 2 * sum_of (fun p => Qabs (k (snd p) * e (fst p) - k (fst p) * e (snd p))) (all_pairs l) == sum_of (fun a => sum_of (fun b => Qabs (k b * e a - k a * e b)) l) l).
  { apply (all_pairs_sum (fun a b => Qabs (k b * e a - k a * e b))); intros; [rewrite <- Qabs_opp; apply Qabs_wd; ring|]. rewrite <- (Qabs_pos 0) by lra. apply Qabs_wd. ring. }
  rewrite P. clear P.
  assert (L : sum_of (fun a => K * Qabs (e a) - k a * Qabs T) l <= sum_of (fun a => sum_of (fun b => Qabs (k b * e a - k a * e b)) l) l).
  { apply sum_le. intros a I. apply Qle_trans with (Qabs (sum_of (fun b => k b * e a - k a * e b) l)); [|apply sum_abs].
    assert (E : sum_of (fun b => k b * e a - k a * e b) l == K * e a - k a * T). { rewrite sum_minus. setoid_replace (sum_of (fun b => k b * e a) l) with (e a * K) by (rewrite (sum_ext _ (fun b => e a * k b)) by (intros; ring); apply sum_scale). rewrite sum_scale. unfold T. ring. }
    rewrite E. clear E. assert (K0 : 0 <= K) by (apply sum_pos; intros b J; specialize (Hk b J); lra). assert (k0 : 0 <= k a) by (specialize (Hk a I); lra).
    pose proof (Qabs_triangle_reverse (K * e a) (k a * T)) as R. rewrite !Qabs_Qmult, (Qabs_pos K K0), (Qabs_pos (k a) k0) in R. exact R. }
  refine (Qle_trans _ _ _ _ L). clear L. rewrite sum_minus, sum_scale. rewrite (sum_ext (fun a => k a * Qabs T) (fun a => Qabs T * k a)) by (intros; ring). rewrite sum_scale. fold K.
  assert (D : 0 <= sum_of (fun a => Qabs (e a)) l - Qabs T) by (pose proof (sum_abs e l) as Z; fold T in Z; lra).
  destruct l as [|a l]; [unfold K, T in *; cbn in *; lra|]. assert (K1 : 1 <= K). { unfold K. cbn. assert (1 <= k a) by (apply Hk; now left). assert (0 <= sum_of k l) by (apply sum_pos; intros b J; specialize (Hk b (or_intror J)); lra). lra. }
  set (X := sum_of (fun a => Qabs (e a)) (a :: l)) in *. clearbody X. assert ((1 - 1) * (X - Qabs T) <= (K - 1) * (X - Qabs T)) by (apply Qmult_le_compat_r; lra). lra.
Qed.

(** [pairs] gives all pairs, in some order. *)
Lemma all_pairs_nodup {A} (l : list A) : NoDup l -> NoDup (all_pairs l).
Proof.
  induction 1 as [|a l H N IH]; cbn; [constructor|].
  assert (App : forall (p q : list (A * A)), NoDup p -> NoDup q -> (forall x, In x p -> ~ In x q) -> NoDup (p ++ q)). { clear. induction p as [|x p IH]; intros q P Q D; cbn; [exact Q|]. inversion_clear P. constructor; [rewrite in_app_iff; intros [I|I]; [auto|now apply (D x); [now left|]]|]. apply IH; auto. intros y I. apply D. now right. }
  apply App; [apply FinFun.Injective_map_NoDup; [intros x y E; now injection E|exact N]|exact IH|]. intros x I J. apply in_map_iff in I. destruct I as (b & <- & I). apply all_pairs_in in J. cbn in J. tauto.
Qed.
Lemma all_pairs_range n i j : In (i, j) (all_pairs (map Z.of_nat (seq 0 n))) <-> (0 <= i < j)%Z /\ (j < Z.of_nat n)%Z.
Proof.
  assert (G : forall m s, In (i, j) (all_pairs (map Z.of_nat (seq s m))) <-> (Z.of_nat s <= i < j)%Z /\ (j < Z.of_nat (s + m))%Z).
  { induction m as [|m IH]; intros s; cbn [seq map all_pairs]; [cbn; lia|]. rewrite in_app_iff, IH, in_map_iff. split.
    - intros [(b & E & I)|I]; [|lia]. injection E as <- <-. apply in_map_iff in I. destruct I as (c & <- & I). apply in_seq in I. lia.
    - intros H. destruct (Z.eq_dec i (Z.of_nat s)) as [->|D]; [left|right; lia]. exists j. split; [reflexivity|]. apply in_map_iff. exists (Z.to_nat j). split; [lia|]. apply in_seq. lia. }
  rewrite G. lia.
Qed.
Lemma pairs_perm {A} (l : list A) : (2 <= length l)%nat -> exists ps, pairs l = Ret ps /\ Permutation ps (all_pairs l).
Proof.
  intros H. unfold pairs. destruct (C33_pairs (zlen l)) as (ixs & E & Nd & C & Len); [unfold zlen; lia|]. rewrite E. cbn [bind].
  assert (P : Permutation ixs (map (fun p => [fst p; snd p]) (all_pairs (map Z.of_nat (seq 0 (length l)))))).
  { apply NoDup_Permutation; [exact Nd| |].
    - apply FinFun.Injective_map_NoDup; [intros [x1 x2] [y1 y2] Q; cbn in Q; congruence|]. apply all_pairs_nodup. apply FinFun.Injective_map_NoDup; [intros x y; lia|apply seq_NoDup].
    - intros ix. rewrite C, in_map_iff. unfold zlen. split.
      + intros (i & j & -> & Hi & Hj). exists (i, j). split; [reflexivity|]. apply all_pairs_range. lia.
      + intros ([i j] & <- & I). apply all_pairs_range in I. exists i, j. cbn. split; [reflexivity|lia]. }
  destruct l as [|d l']; [cbn in H; lia|]. set (l := d :: l') in *. set (at_ := fun i => nth (Z.to_nat i) l d).
  assert (G : forall ixs acc, (forall ix, In ix ixs -> exists i j, ix = [i; j] /\ (0 <= i < zlen l)%Z /\ (0 <= j < zlen l)%Z) ->
     ofold (fun acc ix => let! i := index_at ix 0 in let! j := index_at ix 1 in let! a := index_at l i in let! b := index_at l j in Ret (acc ++ [(a, b)])) ixs acc = Ret (acc ++ map (fun ix => (at_ (nth 0 ix 0%Z), at_ (nth 1 ix 0%Z))) ixs)).
  { clear -at_. induction ixs as [|ix ixs IH]; intros acc C; cbn [ofold map]; [now rewrite app_nil_r|]. destruct (C ix (or_introl eq_refl)) as (i & j & -> & Hi & Hj). cbn [bind]. change (index_at [i; j] 0) with (Ret i). change (index_at [i; j] 1) with (Ret j). cbn [bind].
    assert (At : forall k, (0 <= k < zlen l)%Z -> index_at l k = Ret (at_ k)). { intros k Hk. unfold index_at, at_. replace (k <? 0)%Z with false by (symmetry; apply Z.ltb_ge; lia). destruct (nth_error l (Z.to_nat k)) as [a|] eqn:N; [now rewrite (nth_error_nth _ _ _ N)|]. apply nth_error_None in N. unfold zlen in Hk. lia. }
    rewrite (At i Hi), (At j Hj). cbn [bind]. rewrite IH by (intros ix I; apply C; now right). now rewrite <- app_assoc. }
  rewrite G by (intros ix I; apply C in I; destruct I as (i & j & -> & Hi & Hj); exists i, j; split; [reflexivity|lia]). eexists. split; [reflexivity|]. cbn [app].
  rewrite (Permutation_map _ P), map_map. cbn [nth fst snd]. rewrite (all_pairs_map Z.of_nat), map_map. cbn [fst snd]. unfold at_.
  replace (all_pairs l) with (map (fun p : nat * nat => (nth (fst p) l d, nth (snd p) l d)) (all_pairs (seq 0 (length l)))).
  - erewrite map_ext; [reflexivity|]. intros [i j]. cbn. now rewrite !Nat2Z.id.
  - rewrite <- (all_pairs_map (fun i => nth i l d)). f_equal. clear. clearbody l. induction l as [|a l IH]; [reflexivity|]. cbn [length seq map]. rewrite <- seq_shift, map_map. cbn [nth]. now rewrite IH.
Qed.
