(** Effect of the attribute commands on the terminal. *)
From Verif Require Import Base M_Geom M_Style M_Uniseg M_Ansi M_Backend S_Terminal S_Ansi S_Display P_Base P_Ansi.
From Coq Require Import ZArith NArith List Bool Lia.
Import ListNotations.
Open Scope Z_scope.

(** Tokens of a command sequence when text is cut command by command. *)
Definition command_tokens (u : uniseg) (te : termenv) (c : command) : list token :=
  match c with
  | Print s => map TText (clusters u s)
  | _ => flat_map (fun k => match k with PCsi p ps f => [TCsi p ps f] | PChar _ => [] end) (command_ptoks te c)
  end.
Definition commands_tokens u te l := flat_map (command_tokens u te) l.

Lemma exec_app u t a b : exec u t (a ++ b) = exec u (exec u t a) b.
Proof. apply fold_left_app. Qed.

Lemma land_pow2 m k : N.land m (2 ^ k)%N = if N.testbit m k then (2 ^ k)%N else 0%N.
Proof.
  apply N.bits_inj. intros i. rewrite N.land_spec.
  destruct (N.eq_dec i k) as [->|Hne].
  - rewrite N.pow2_bits_true, andb_true_r. destruct (N.testbit m k) eqn:E.
    + now rewrite N.pow2_bits_true.
    + now rewrite N.bits_0.
  - rewrite N.pow2_bits_false, andb_false_r by auto. destruct (N.testbit m k); [now rewrite N.pow2_bits_false by auto|now rewrite N.bits_0].
Qed.

Lemma has_bit m k : has m (2 ^ k)%N = N.testbit m k.
Proof.
  unfold has. rewrite land_pow2. destruct (N.testbit m k); [|reflexivity].
  replace (2 ^ k =? 0)%N with false; [reflexivity|]. symmetry. apply N.eqb_neq. apply N.pow_nonzero. lia.
Qed.

Lemma contains_bit m k : bit_contains m (2 ^ k)%N = N.testbit m k.
Proof.
  unfold bit_contains. rewrite land_pow2. destruct (N.testbit m k); [apply N.eqb_refl|].
  apply N.eqb_neq. intros E. symmetry in E. revert E. apply N.pow_nonzero. lia.
Qed.

Definition sgr_if (b : bool) (n : N) (a : tattr) : tattr := if b then sgr1 n a else a.

Lemma set_attr_id t : set_attr (t_attr t) t = t.
Proof. now destruct t. Qed.

Lemma sgr_single c a : c <> 38%N -> c <> 48%N -> sgr [[Some c]] a = sgr1 c a.
Proof.
  intros H3 H4. destruct c as [|p]; [reflexivity|].
  do 6 (destruct p as [p|p|]; try reflexivity); congruence.
Qed.

Lemma exec_attr u te t a : (a < 28)%N -> (4 <? a)%N && (a <? 9)%N = false ->
  nth (N.to_nat a) sgr_table 0%N <> 38%N -> nth (N.to_nat a) sgr_table 0%N <> 48%N ->
  exec u t (commands_tokens u te [SetAttribute a]) = set_attr (sgr1 (nth (N.to_nat a) sgr_table 0%N) (t_attr t)) t.
Proof.
  intros H1 H2 H3 H4. unfold commands_tokens. cbn [flat_map command_tokens command_ptoks app]. rewrite H2.
  revert H3 H4. generalize (nth (N.to_nat a) sgr_table 0%N). intros c H3 H4.
  cbn [exec fold_left exec_token]. now rewrite sgr_single by auto.
Qed.

Lemma exec_when u te t b a : (a < 28)%N -> (4 <? a)%N && (a <? 9)%N = false ->
  nth (N.to_nat a) sgr_table 0%N <> 38%N -> nth (N.to_nat a) sgr_table 0%N <> 48%N ->
  exec u t (commands_tokens u te (when b (SetAttribute a))) = set_attr (sgr_if b (nth (N.to_nat a) sgr_table 0%N) (t_attr t)) t.
Proof.
  intros. destruct b; cbn [when]; [apply exec_attr; auto|]. cbn. symmetry; apply set_attr_id.
Qed.

Lemma commands_tokens_app u te a b : commands_tokens u te (a ++ b) = commands_tokens u te a ++ commands_tokens u te b.
Proof. apply flat_map_app. Qed.

Definition simple_attr (a : N) : Prop :=
  (a < 28)%N /\ (4 <? a)%N && (a <? 9)%N = false /\
  nth (N.to_nat a) sgr_table 0%N <> 38%N /\ nth (N.to_nat a) sgr_table 0%N <> 48%N.

Lemma exec_whens u te l : (forall b a, In (b, a) l -> simple_attr a) -> forall t,
  exec u t (commands_tokens u te (flat_map (fun ba => when (fst ba) (SetAttribute (snd ba))) l)) =
  set_attr (fold_left (fun x ba => sgr_if (fst ba) (nth (N.to_nat (snd ba)) sgr_table 0%N) x) l (t_attr t)) t.
Proof.
  induction l as [|[b a] l IH]; intros H t.
  - symmetry. apply set_attr_id.
  - cbn [flat_map fold_left fst snd]. rewrite commands_tokens_app, exec_app.
    destruct (H b a (or_introl eq_refl)) as (H1 & H2 & H3 & H4).
    rewrite exec_when by auto. rewrite IH by (intros b' a' Hin; apply (H b' a'); now right). reflexivity.
Qed.

(** The conditional attribute commands of a transition, in order. *)
Definition steps (from to : modifier) : list (bool * N) :=
  let r k := N.testbit from k && negb (N.testbit to k) in
  let d k := N.testbit to k && negb (N.testbit from k) in
  [(r 6%N, AttrNoReverse);
   (r 0%N || r 1%N, AttrNormalIntensity);
   ((r 0%N || r 1%N) && N.testbit to 1, AttrDim);
   ((r 0%N || r 1%N) && N.testbit to 0, AttrBold);
   (r 2%N, AttrNoItalic);
   (r 3%N, AttrNoUnderline);
   (r 8%N, AttrNotCrossedOut);
   (r 4%N || r 5%N, AttrNoBlink);
   (d 6%N, AttrReverse);
   (d 0%N, AttrBold);
   (d 2%N, AttrItalic);
   (d 3%N, AttrUnderlined);
   (d 1%N, AttrDim);
   (d 8%N, AttrCrossedOut);
   (d 4%N, AttrSlowBlink);
   (d 5%N, AttrRapidBlink)].

Lemma steps_simple from to b a : In (b, a) (steps from to) -> simple_attr a.
Proof.
  unfold steps. intros H. cbn [In] in H. unfold simple_attr.
  repeat (destruct H as [H|H]; [injection H as _ <-; repeat split; cbn; first [reflexivity|discriminate]|]). destruct H.
Qed.

Lemma modifier_diff_steps from to :
  modifier_diff from to = flat_map (fun ba => when (fst ba) (SetAttribute (snd ba))) (steps from to).
Proof.
  unfold modifier_diff, bit_difference.
  change ModifierBold with (2 ^ 0)%N. change ModifierDim with (2 ^ 1)%N. change ModifierItalic with (2 ^ 2)%N.
  change ModifierUnderlined with (2 ^ 3)%N. change ModifierSlowBlink with (2 ^ 4)%N. change ModifierRapidBlink with (2 ^ 5)%N.
  change ModifierReversed with (2 ^ 6)%N. change ModifierCrossedOut with (2 ^ 8)%N.
  rewrite !contains_bit, !N.ldiff_spec. unfold steps. cbn [flat_map fst snd].
  rewrite app_nil_r.
  generalize (N.testbit from 0) (N.testbit from 1) (N.testbit from 2) (N.testbit from 3) (N.testbit from 4)
    (N.testbit from 5) (N.testbit from 6) (N.testbit from 8).
  generalize (N.testbit to 0) (N.testbit to 1) (N.testbit to 2) (N.testbit to 3) (N.testbit to 4)
    (N.testbit to 5) (N.testbit to 6) (N.testbit to 8).
  intros t0 t1 t2 t3 t4 t5 t6 t8 f0 f1 f2 f3 f4 f5 f6 f8.
  f_equal. rewrite !app_assoc. repeat f_equal. 
  destruct (f0 && negb t0 || f1 && negb t1); cbn [when app andb]; reflexivity.
Qed.

(** The attributes after a transition. *)
Definition transition (from to : modifier) (a : tattr) : tattr :=
  fold_left (fun x ba => sgr_if (fst ba) (nth (N.to_nat (snd ba)) sgr_table 0%N) x) (steps from to) a.

Lemma modifier_diff_exec u te t from to :
  exec u t (commands_tokens u te (modifier_diff from to)) = set_attr (transition from to (t_attr t)) t.
Proof. rewrite modifier_diff_steps. apply exec_whens. apply steps_simple. Qed.

Section SgrIf.
  Variables (b : bool) (fg bg : tcolor) (bo di it un sl ra re hi cr : bool).
  Let A := TAttr fg bg bo di it un sl ra re hi cr.
  Lemma si1 : sgr_if b 1 A = TAttr fg bg (b || bo) di it un sl ra re hi cr. Proof. now destruct b. Qed.
  Lemma si2 : sgr_if b 2 A = TAttr fg bg bo (b || di) it un sl ra re hi cr. Proof. now destruct b. Qed.
  Lemma si3 : sgr_if b 3 A = TAttr fg bg bo di (b || it) un sl ra re hi cr. Proof. now destruct b. Qed.
  Lemma si4 : sgr_if b 4 A = TAttr fg bg bo di it (b || un) sl ra re hi cr. Proof. now destruct b. Qed.
  Lemma si5 : sgr_if b 5 A = TAttr fg bg bo di it un (b || sl) ra re hi cr. Proof. now destruct b. Qed.
  Lemma si6 : sgr_if b 6 A = TAttr fg bg bo di it un sl (b || ra) re hi cr. Proof. now destruct b. Qed.
  Lemma si7 : sgr_if b 7 A = TAttr fg bg bo di it un sl ra (b || re) hi cr. Proof. now destruct b. Qed.
  Lemma si9 : sgr_if b 9 A = TAttr fg bg bo di it un sl ra re hi (b || cr). Proof. now destruct b. Qed.
  Lemma si22 : sgr_if b 22 A = TAttr fg bg (negb b && bo) (negb b && di) it un sl ra re hi cr. Proof. now destruct b. Qed.
  Lemma si23 : sgr_if b 23 A = TAttr fg bg bo di (negb b && it) un sl ra re hi cr. Proof. now destruct b. Qed.
  Lemma si24 : sgr_if b 24 A = TAttr fg bg bo di it (negb b && un) sl ra re hi cr. Proof. now destruct b. Qed.
  Lemma si25 : sgr_if b 25 A = TAttr fg bg bo di it un (negb b && sl) (negb b && ra) re hi cr. Proof. now destruct b. Qed.
  Lemma si27 : sgr_if b 27 A = TAttr fg bg bo di it un sl ra (negb b && re) hi cr. Proof. now destruct b. Qed.
  Lemma si29 : sgr_if b 29 A = TAttr fg bg bo di it un sl ra re hi (negb b && cr). Proof. now destruct b. Qed.
End SgrIf.

Lemma transition_spec from to fg bg h :
  let b m k := N.testbit m k in
  transition from to (TAttr fg bg (b from 0%N) (b from 1%N) (b from 2%N) (b from 3%N) (b from 4%N) (b from 5%N) (b from 6%N) h (b from 8%N)) =
  TAttr fg bg (b to 0%N) (b to 1%N) (b to 2%N) (b to 3%N)
    (if b from 5%N && negb (b to 5%N) then b to 4%N && negb (b from 4%N) else b to 4%N)
    (if b from 4%N && negb (b to 4%N) then b to 5%N && negb (b from 5%N) else b to 5%N)
    (b to 6%N) h (b to 8%N).
Proof.
  cbv zeta beta. unfold transition, steps.
  generalize (N.testbit from 0) (N.testbit from 1) (N.testbit from 2) (N.testbit from 3) (N.testbit from 4)
    (N.testbit from 5) (N.testbit from 6) (N.testbit from 8).
  generalize (N.testbit to 0) (N.testbit to 1) (N.testbit to 2) (N.testbit to 3) (N.testbit to 4)
    (N.testbit to 5) (N.testbit to 6) (N.testbit to 8).
  intros t0 t1 t2 t3 t4 t5 t6 t8 f0 f1 f2 f3 f4 f5 f6 f8.
  cbn [fold_left fst snd].
  repeat match goal with |- context [nth (N.to_nat ?a) sgr_table 0%N] =>
    let v := eval compute in (nth (N.to_nat a) sgr_table 0%N) in change (nth (N.to_nat a) sgr_table 0%N) with v end.
  rewrite si27, si22, si2, si1, si23, si24, si29, si25, si7, si1, si3, si4, si2, si9, si5, si6.
  f_equal; try (destruct t0, t1, f0, f1; reflexivity); try (destruct t2, f2; reflexivity); try (destruct t3, f3; reflexivity);
    try (destruct t4, f4, t5, f5; reflexivity); try (destruct t6, f6; reflexivity); try (destruct t8, f8; reflexivity).
Qed.
