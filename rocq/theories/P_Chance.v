(** Counting the draws after which the work goes on. *)
From Verif Require Import Base M_Solver S_Chance.
From Coq Require Import List Arith Lia Permutation Factorial.
Import ListNotations.
Local Open Scope nat_scope.

(** ** Outcomes *)
Fixpoint outcomes (K n : nat) : list (list nat) := match n with O => [[]] | S n => flat_map (fun c => map (cons c) (outcomes K n)) (seq 0 K) end.
Lemma outcomes_ok K n : forall cs, In cs (outcomes K n) <-> draws K n cs.
Proof.
  induction n as [|n IH]; intros cs; cbn [outcomes].
  - split; [intros [<-|[]]; split; [reflexivity|constructor]|]. intros [L _]. destruct cs; [now left|discriminate].
  - rewrite in_flat_map. split.
    + intros (c & C & I). apply in_seq in C. apply in_map_iff in I. destruct I as (w & <- & I). apply IH in I. destruct I as [L F]. split; [cbn; lia|]. constructor; [lia|exact F].
    + intros [L F]. destruct cs as [|c cs]; [discriminate|]. inversion F; subst. exists c. split; [apply in_seq; lia|]. apply in_map. apply IH. split; [cbn in L; lia|assumption].
Qed.
Lemma flat_map_const {A B} (f : A -> list B) k l : (forall x, In x l -> length (f x) = k) -> length (flat_map f l) = length l * k.
Proof. induction l as [|a l IH]; intros H; [reflexivity|]. cbn [flat_map length Nat.mul]. rewrite app_length, H by now left. rewrite IH; [reflexivity|]. intros x I. apply H. now right. Qed.
Lemma outcomes_length K n : length (outcomes K n) = K ^ n.
Proof. induction n as [|n IH]; [reflexivity|]. cbn [outcomes Nat.pow]. rewrite (flat_map_const _ (K ^ n)); [now rewrite seq_length|]. intros c _. now rewrite map_length. Qed.
Lemma outcomes_nodup K n : NoDup (outcomes K n).
Proof.
  induction n as [|n IH]; [repeat constructor; intros []|]. cbn [outcomes]. generalize (seq_NoDup K 0). generalize (seq 0 K). induction l as [|c l IHl]; intros H; [constructor|]. inversion H as [|? ? N1 N2]; subst. cbn [flat_map].
  assert (App : forall (u v : list (list nat)), NoDup u -> NoDup v -> (forall x, In x u -> ~ In x v) -> NoDup (u ++ v)).
  { induction u as [|x u IHu]; intros v Hu Hv D; [exact Hv|]. inversion Hu; subst. cbn. constructor; [rewrite in_app_iff; intros [Z|Z]; [contradiction|]; apply (D x); [now left|exact Z]|]. apply IHu; auto. intros y Y. apply D. now right. }
  apply App; [|now apply IHl|].
  - apply FinFun.Injective_map_NoDup; [|exact IH]. intros x y E. now injection E.
  - intros x I J. apply in_map_iff in I. destruct I as (w & <- & _). apply in_flat_map in J. destruct J as (c' & C' & J). apply in_map_iff in J. destruct J as (w' & E & _). injection E as -> _. contradiction.
Qed.
Lemma outcomes_positive K n : 0 < K -> 0 < K ^ n.
Proof. intros H. induction n; cbn; [lia|]. nia. Qed.

(** ** Blocks of draws *)
Lemma some_missed {A} (d : forall x y : A, {x = y} + {x <> y}) (w : A) l : In w l -> exists l', length l' = length l - 1 /\ forall x, In x l -> x <> w -> In x l'.
Proof.
  intros I. apply in_split in I. destruct I as (a & b & ->). exists (a ++ b). split; [rewrite !app_length; cbn; lia|]. intros x J N. rewrite in_app_iff in *. cbn in J. destruct J as [J|[J|J]]; [now left|congruence|now right].
Qed.
Lemma block K b (P : list nat -> Prop) (good : list (list nat)) :
  (forall p, In p good -> exists w, draws K b w /\ P (p ++ w)) -> exists bad, length bad <= length good * (K ^ b - 1) /\ forall p w, In p good -> draws K b w -> ~ In (p ++ w) bad -> P (p ++ w).
Proof.
  induction good as [|p good IH]; intros H; [exists []; split; [cbn; lia|intros p w []]|].
  destruct IH as (bad & B1 & B2); [intros q Q; apply H; now right|]. destruct (H p (or_introl eq_refl)) as (w & W & Pw).
  destruct (some_missed (list_eq_dec Nat.eq_dec) w (outcomes K b)) as (l' & L1 & L2); [now apply outcomes_ok|]. rewrite outcomes_length in L1.
  exists (map (app p) l' ++ bad). split; [rewrite app_length, map_length; cbn [length Nat.mul]; lia|]. intros q v [<-|Q] V N.
  - destruct (list_eq_dec Nat.eq_dec v w) as [->|D]; [exact Pw|]. elim N. apply in_app_iff. left. apply in_map. apply L2; [now apply outcomes_ok|exact D].
  - apply B2; [exact Q|exact V|]. intros Z. apply N. apply in_app_iff. now right.
Qed.
Lemma blocks K b (P : list nat -> Prop) : (forall p w, P p -> P (p ++ w)) -> (forall n p, draws K n p -> exists w, draws K b w /\ P (p ++ w)) ->
  forall j, exists bad, length bad <= (K ^ b - 1) ^ j /\ (forall cs, In cs bad -> draws K (j * b) cs) /\ forall cs, draws K (j * b) cs -> ~ In cs bad -> P cs.
Proof.
  intros Mono H. induction j as [|j (bad & B1 & B2 & B3)].
  { exists [[]]. split; [cbn; lia|]. split; [intros cs [<-|[]]; split; [reflexivity|constructor]|]. intros cs [L _] N. destruct cs; [elim N; now left|discriminate]. }
  destruct (block K b P bad) as (bad' & C1 & C2); [intros p Q; apply (H (j * b)); now apply B2|].
  exists (filter (fun cs => if in_dec (list_eq_dec Nat.eq_dec) cs (outcomes K (S j * b)) then true else false) bad').
  assert (Fl : forall (f : list nat -> bool) l, length (filter f l) <= length l) by (intros f l; induction l as [|x l IH]; cbn; [lia|]; destruct (f x); cbn; lia).
  split; [cbn [Nat.pow]; specialize (Fl (fun cs => if in_dec (list_eq_dec Nat.eq_dec) cs (outcomes K (S j * b)) then true else false) bad'); nia|].
  split; [intros cs I; apply filter_In in I; destruct I as [_ I]; destruct (in_dec _ _ _) as [J|]; [now apply outcomes_ok|discriminate]|].
  intros cs [L F] N. assert (E := firstn_skipn (j * b) cs). set (p := firstn (j * b) cs) in *. set (w := skipn (j * b) cs) in *.
  assert (Lp : length p = j * b) by (unfold p; rewrite firstn_length; cbn in L; lia). assert (Lw : length w = b) by (unfold w; rewrite skipn_length; cbn in L; lia). rewrite <- E in F. apply Forall_app in F. destruct F as [F1 F2]. rewrite <- E.
  destruct (in_dec (list_eq_dec Nat.eq_dec) p bad) as [I|I]; [|apply Mono; apply B3; [split; assumption|exact I]]. apply C2; [exact I|split; assumption|]. intros Z. apply N. rewrite E in Z. apply filter_In. split; [exact Z|].
  destruct (in_dec _ _ _) as [_|D]; [reflexivity|]. elim D. apply outcomes_ok. split; [exact L|]. rewrite <- E. now apply Forall_app.
Qed.
(** ** The chance falls below every bound *)
Lemma bernoulli a : forall j, (a + j) * a ^ j <= S a ^ j * a.
Proof. induction j as [|j IH]; [cbn; lia|]. cbn [Nat.pow]. nia. Qed.
Lemma falls m a : exists j, m * a ^ j <= S a ^ j.
Proof.
  destruct a as [|a]; [exists 1; cbn; lia|]. exists (m * S a). pose proof (bernoulli (S a) (m * S a)) as B. apply (Nat.mul_le_mono_pos_r _ _ (S a)); [lia|].
  set (x := S a ^ (m * S a)) in *. set (y := S (S a) ^ (m * S a)) in *. clearbody x y. nia.
Qed.
Lemma sooner_or_later m K b : 0 < K -> exists n, b <= n /\ forall P : list nat -> Prop, (forall p w, P p -> P (p ++ w)) -> (forall n p, draws K n p -> exists w, draws K b w /\ P (p ++ w)) -> all_but_one_in m K n P.
Proof.
  intros HK. destruct (falls m (K ^ b - 1)) as (j & J). pose proof (outcomes_positive K b HK) as Kb. replace (S (K ^ b - 1)) with (K ^ b) in J by lia.
  assert (J' : m * (K ^ b - 1) ^ S j <= (K ^ b) ^ S j). { cbn [Nat.pow]. rewrite (Nat.mul_comm (K ^ b - 1)), Nat.mul_assoc, Nat.mul_comm. apply Nat.mul_le_mono; [lia|exact J]. }
  exists (S j * b). split; [cbn; lia|]. intros P Mono H. destruct (blocks K b P Mono H (S j)) as (bad & B1 & _ & B3). exists bad. split; [|exact B3]. rewrite (Nat.mul_comm (S j) b), Nat.pow_mul_r.
  set (q := (K ^ b - 1) ^ S j) in *. set (r := (K ^ b) ^ S j) in *. clearbody q r. nia.
Qed.
(** ** Finitely many choices *)
Lemma choose K b (R : nat -> nat -> Prop) : (forall k, exists c, c < K /\ R k c) -> forall n, exists w, draws K b w /\ forall k, k < b -> R (n + k) (nth k w 0).
Proof.
  intros H. induction b as [|b IH]; intros n; [exists []; split; [split; [reflexivity|constructor]|intros k Hk; lia]|].
  destruct (H n) as (c & C & Rc). destruct (IH (S n)) as (w & [L F] & W). exists (c :: w). split; [split; [cbn; lia|now constructor]|]. intros [|k] Hk; [now rewrite Nat.add_0_r|]. cbn [nth]. replace (n + S k) with (S n + k) by lia. apply W. lia.
Qed.

(** ** All orders equally likely *)
Fixpoint everywhere (x : symbol) (l : list symbol) : list (list symbol) := match l with [] => [[x]] | y :: l' => (x :: l) :: map (cons y) (everywhere x l') end.
Fixpoint orders (l : list symbol) : list (list symbol) := match l with [] => [[]] | x :: l => flat_map (everywhere x) (orders l) end.
Lemma everywhere_in x : forall l l', In l' (everywhere x l) <-> exists a b, l = a ++ b /\ l' = a ++ x :: b.
Proof.
  induction l as [|y l IH]; intros l'; cbn [everywhere].
  - split; [intros [<-|[]]; exists [], []; auto|]. intros (a & b & E & ->). destruct a; [|discriminate]. destruct b; [|discriminate]. now left.
  - split.
    + intros [<-|I]; [exists [], (y :: l); auto|]. apply in_map_iff in I. destruct I as (w & <- & I). apply IH in I. destruct I as (a & b & -> & ->). exists (y :: a), b. auto.
    + intros (a & b & E & ->). destruct a as [|z a]; [left; cbn in *; now subst|]. right. injection E as <- ->. cbn. apply in_map. apply IH. eauto.
Qed.
Lemma orders_in : forall l l', In l' (orders l) <-> Permutation l' l.
Proof.
  induction l as [|x l IH]; intros l'; cbn [orders].
  - split; [intros [<-|[]]; constructor|]. intros P. apply Permutation_sym, Permutation_nil in P. now left.
  - rewrite in_flat_map. split.
    + intros (w & W & I). apply IH in W. apply everywhere_in in I. destruct I as (a & b & -> & ->). apply Permutation_sym, Permutation_cons_app, Permutation_sym. exact W.
    + intros P. assert (I : In x l') by (apply (Permutation_in _ (Permutation_sym P)); now left). apply in_split in I. destruct I as (a & b & ->). exists (a ++ b). split; [|apply everywhere_in; eauto].
      apply IH. apply (Permutation_cons_app_inv a b (Permutation_sym P)) || (apply Permutation_sym; apply (Permutation_cons_app_inv a b (l := l) (a := x)); now apply Permutation_sym).
Qed.
Lemma everywhere_length x l : length (everywhere x l) = S (length l).
Proof. induction l as [|y l IH]; [reflexivity|]. cbn. now rewrite map_length, IH. Qed.
Lemma orders_length : forall l, length (orders l) = fact (length l).
Proof.
  induction l as [|x l IH]; [reflexivity|]. cbn [orders length fact]. rewrite (flat_map_const _ (S (length l))); [rewrite IH; lia|]. intros w W. rewrite everywhere_length. apply orders_in in W. now rewrite (Permutation_length W).
Qed.
Lemma fact_le a b : a <= b -> fact a <= fact b.
Proof. induction 1; [lia|]. cbn. lia. Qed.
(** Draw one of [fact N] numbers and take that of the orders, counting round and round: as [fact (length l)] divides [fact N], all orders are equally likely. *)
Definition even_walk (c : nat) (l : list symbol) : list symbol := nth (c mod fact (length l)) (orders l) l.
Lemma even_fair N : fair (fact N) N even_walk.
Proof.
  constructor.
  - intros c l. unfold even_walk. apply orders_in. apply nth_In. rewrite orders_length. apply Nat.mod_upper_bound. apply fact_neq_0.
  - intros l l' L P. apply orders_in in P. apply (In_nth _ _ l) in P. destruct P as (i & I & E). rewrite orders_length in I. exists i. pose proof (fact_le _ _ L). split; [lia|]. unfold even_walk. now rewrite Nat.mod_small.
Qed.
Lemma fact_divides N : forall n, n <= N -> Nat.divide (fact n) (fact N).
Proof. induction N as [|N IH]; intros n H; [replace n with 0 by lia; exists 1; reflexivity|]. destruct (Nat.eq_dec n (S N)) as [->|D]; [exists 1; lia|]. cbn [fact]. apply Nat.divide_add_r; [apply IH; lia|]. apply Nat.divide_mul_r. apply IH. lia. Qed.
(** Of the numbers below a multiple of [q], as many leave one remainder as another. *)
Lemma even_count q r k : r < q -> length (filter (fun c => c mod q =? r) (seq 0 (k * q))) = k.
Proof.
  intros H. induction k as [|k IH]; [reflexivity|]. replace (S k * q) with (k * q + q) by lia. rewrite seq_app, filter_app, app_length, IH. cbn [Nat.add]. replace (S k) with (k + 1) by lia. f_equal.
  replace q with (r + (1 + (q - r - 1))) at 2 by lia. rewrite !seq_app, !filter_app, !app_length. cbn [seq filter]. 
  assert (Z : forall a n, (forall c, a <= c < a + n -> c mod q <> r) -> length (filter (fun c => c mod q =? r) (seq a n)) = 0).
  { intros a n. revert a. induction n as [|n IHn]; intros a Ha; [reflexivity|]. cbn [seq filter]. destruct (Nat.eqb_spec (a mod q) r) as [E|E]; [elim (Ha a); [lia|exact E]|]. apply IHn. intros c Hc. apply Ha. lia. }
  assert (Md : forall d, d < q -> (k * q + d) mod q = d) by (intros d Hd; rewrite Nat.add_comm, Nat.mod_add by lia; now apply Nat.mod_small).
  rewrite Md by exact H. rewrite Nat.eqb_refl. rewrite !Z; [reflexivity| |]; intros c Hc; replace c with (k * q + (c - k * q)) by lia; rewrite Md by lia; lia.
Qed.
Lemma even_likely N (l : list symbol) i : length l <= N -> i < fact (length l) -> length (filter (fun c => c mod fact (length l) =? i) (seq 0 (fact N))) * fact (length l) = fact N.
Proof. intros L I. destruct (fact_divides N (length l) L) as (k & E). rewrite E at 1. rewrite even_count by exact I. lia. Qed.
Lemma even_every l l' : Permutation l' l -> exists i, i < fact (length l) /\ nth i (orders l) l = l'.
Proof. intros P. apply orders_in in P. apply (In_nth _ _ l) in P. destruct P as (i & I & E). rewrite orders_length in I. eauto. Qed.
Lemma everywhere_nodup x : forall l, ~ In x l -> NoDup (everywhere x l).
Proof.
  induction l as [|y l IH]; intros N; cbn [everywhere]; [repeat constructor; intros []|]. constructor.
  - intros I. apply in_map_iff in I. destruct I as (w & E & _). injection E as -> _. apply N. now left.
  - apply FinFun.Injective_map_NoDup; [intros a b E; now injection E|]. apply IH. intros I. apply N. now right.
Qed.
Lemma apart (x : symbol) : forall a b a' b', ~ In x (a ++ b) -> ~ In x (a' ++ b') -> a ++ x :: b = a' ++ x :: b' -> a ++ b = a' ++ b'.
Proof.
  induction a as [|y a IH]; intros b a' b' N N' E; destruct a' as [|z a']; cbn in *.
  - now injection E.
  - injection E as <- _. elim N'. now left.
  - injection E as -> _. elim N. now left.
  - injection E as -> E. f_equal. apply IH; [tauto|tauto|exact E].
Qed.
Lemma orders_nodup : forall l, NoDup l -> NoDup (orders l).
Proof.
  induction l as [|x l IH]; intros H; [repeat constructor; intros []|]. inversion H as [|? ? Nx Nl]; subst. cbn [orders]. specialize (IH Nl).
  assert (Mem : forall w, In w (orders l) -> ~ In x w) by (intros w W I; apply orders_in in W; apply Nx; now apply (Permutation_in _ W)).
  induction (orders l) as [|w ws IHw]; [constructor|]. inversion IH as [|? ? Nw Nws]; subst. cbn [flat_map].
  assert (App : forall (u v : list (list symbol)), NoDup u -> NoDup v -> (forall y, In y u -> ~ In y v) -> NoDup (u ++ v)).
  { induction u as [|y u IHu]; intros v Hu Hv D; [exact Hv|]. inversion Hu; subst. cbn. constructor; [rewrite in_app_iff; intros [Z|Z]; [contradiction|]; apply (D y); [now left|exact Z]|]. apply IHu; auto. intros q Q. apply D. now right. }
  apply App; [apply everywhere_nodup; apply Mem; now left|apply IHw; [exact Nws|intros v V; apply Mem; now right]|].
  intros y Y Z. apply everywhere_in in Y. destruct Y as (a & b & -> & ->). apply in_flat_map in Z. destruct Z as (w' & W' & Z). apply everywhere_in in Z. destruct Z as (a' & b' & -> & E).
  apply Nw. rewrite (apart x a b a' b'); [exact W'|apply Mem; now left|apply Mem; now right|exact E].
Qed.
Lemma even_once l i j : NoDup l -> i < fact (length l) -> j < fact (length l) -> nth i (orders l) l = nth j (orders l) l -> i = j.
Proof. intros N I J E. apply (proj1 (NoDup_nth (orders l) l) (orders_nodup l N)); rewrite ?orders_length; assumption. Qed.
