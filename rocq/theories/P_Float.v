(** Facts about the float64 model. *)
From Verif Require Import Base M_Float.
From Coq Require Import ZArith Lia Bool.
Open Scope Z_scope.

Lemma pow2_pos z : 0 < 2 ^ Z.max 0 z.
Proof. apply Z.pow_pos_nonneg; lia. Qed.

Lemma nearest_even_ge n d a : 0 < d -> a * d <= n -> a <= nearest_even n d.
Proof.
  intros Hd Ha. unfold nearest_even. assert (a <= n / d) by (apply Z.div_le_lower_bound; lia).
  destruct (_ ?= _); [destruct (Z.even _)| |]; lia.
Qed.
Lemma nearest_even_le n d a : 0 < d -> n <= a * d -> nearest_even n d <= a.
Proof.
  intros Hd Ha. unfold nearest_even. pose proof (Z.div_mod n d ltac:(lia)). pose proof (Z.mod_pos_bound n d ltac:(lia)).
  assert (n / d <= a) by (apply Z.div_le_upper_bound; lia).
  destruct (Z.compare_spec (2 * (n mod d)) d); [destruct (Z.even _)| |]; try lia; nia.
Qed.
Lemma nearest_even_lt n d a : 0 < d -> 2 * n < (2 * a - 1) * d -> nearest_even n d < a.
Proof.
  intros Hd Ha. unfold nearest_even. pose proof (Z.div_mod n d ltac:(lia)). pose proof (Z.mod_pos_bound n d ltac:(lia)).
  assert (n / d < a) by (apply Z.div_lt_upper_bound; nia).
  destruct (Z.compare_spec (2 * (n mod d)) d); [destruct (Z.even _)| |]; try lia; nia.
Qed.
Lemma nearest_even_exact q d : 0 < d -> nearest_even (q * d) d = q.
Proof. intros. apply Z.le_antisymm; [apply nearest_even_le|apply nearest_even_ge]; lia. Qed.

(** the scale puts the significand into [2^52, 2^53) *)
Lemma scale_spec n d : 0 < n -> 0 < d -> let s := scale n d in
  d * 2 ^ Z.max 0 (- s) * 2 ^ 52 <= n * 2 ^ Z.max 0 s < d * 2 ^ Z.max 0 (- s) * 2 ^ 53.
Proof.
  intros Hn Hd. pose proof (Z.log2_spec n Hn) as [N1 N2]. pose proof (Z.log2_spec d Hd) as [D1 D2].
  set (ln := Z.log2 n) in *. set (ld := Z.log2 d) in *.
  assert (0 <= ln) by apply Z.log2_nonneg. assert (0 <= ld) by apply Z.log2_nonneg.
  unfold scale. fold ln ld. set (s := 52 - (ln - ld)).
  rewrite Z.pow_succ_r in N2, D2 by lia.
  assert (G : n * 2 ^ Z.max 0 s < d * 2 ^ Z.max 0 (- s) * 2 ^ 53).
  { destruct (Z.le_gt_cases 0 s) as [Hs|Hs].
    - rewrite Z.max_r, Z.max_l by lia.
      assert (E : 2 ^ ln * 2 ^ s = 2 ^ ld * 2 ^ 52) by (rewrite <- !Z.pow_add_r by lia; f_equal; lia).
      pose proof (Z.pow_pos_nonneg 2 s ltac:(lia) Hs). change (2 ^ 53) with (2 * 2 ^ 52). pose proof (Z.pow_pos_nonneg 2 52 ltac:(lia) ltac:(lia)).
      set (P := 2 ^ 52) in *. change (2^0) with 1. nia.
    - rewrite Z.max_l, Z.max_r by lia.
      assert (E : 2 ^ ln = 2 ^ ld * 2 ^ (- s) * 2 ^ 52) by (rewrite <- (Z.pow_add_r 2 ld (- s)), <- Z.pow_add_r by lia; f_equal; unfold s; lia).
      pose proof (Z.pow_pos_nonneg 2 (- s) ltac:(lia) ltac:(lia)). change (2 ^ 53) with (2 * 2 ^ 52).
      set (P := 2 ^ 52) in *. assert (0 < P) by (apply Z.pow_pos_nonneg; lia). change (2^0) with 1. set (Q := 2 ^ (- s)) in *. assert (2 ^ ld * (Q * P) <= d * (Q * P)) by (apply Z.mul_le_mono_nonneg_r; [apply Z.mul_nonneg_nonneg; lia|lia]). lia. }
  assert (L : d * 2 ^ Z.max 0 (- s) * 2 ^ 52 < 2 * (n * 2 ^ Z.max 0 s)).
  { destruct (Z.le_gt_cases 0 s) as [Hs|Hs].
    - rewrite Z.max_l, Z.max_r by lia.
      assert (E : 2 ^ ln * 2 ^ s = 2 ^ ld * 2 ^ 52) by (rewrite <- !Z.pow_add_r by lia; f_equal; lia).
      pose proof (Z.pow_pos_nonneg 2 s ltac:(lia) Hs). pose proof (Z.pow_pos_nonneg 2 52 ltac:(lia) ltac:(lia)).
      set (P := 2 ^ 52) in *. change (2^0) with 1.
      assert (2 ^ ln * 2 ^ s <= n * 2 ^ s) by (apply Z.mul_le_mono_nonneg_r; lia). nia.
    - rewrite Z.max_r, Z.max_l by lia.
      assert (E : 2 ^ ln = 2 ^ ld * 2 ^ (- s) * 2 ^ 52) by (rewrite <- (Z.pow_add_r 2 ld (- s)), <- Z.pow_add_r by lia; f_equal; unfold s; lia).
      pose proof (Z.pow_pos_nonneg 2 (- s) ltac:(lia) ltac:(lia)).
      set (P := 2 ^ 52) in *. assert (0 < P) by (apply Z.pow_pos_nonneg; lia). change (2^0) with 1. set (Q := 2 ^ (- s)) in *.
      assert (d * (Q * P) < 2 * 2 ^ ld * (Q * P)) by (apply Z.mul_lt_mono_pos_r; nia). lia. }
  destruct (Z.leb_spec (d * 2 ^ Z.max 0 (- s) * 2 ^ 52) (n * 2 ^ Z.max 0 s)) as [Hc|Hc]; cbv zeta.
  - lia.
  - destruct (Z.le_gt_cases 0 s) as [Hs|Hs].
    + rewrite (Z.max_l 0 (- (s + 1))), (Z.max_r 0 (s + 1)), Z.pow_add_r by lia.
      rewrite (Z.max_l 0 (- s)), (Z.max_r 0 s) in * by lia. change (2 ^ 1) with 2. change (2 ^ 53) with (2 * 2 ^ 52). change (2 ^ 0) with 1 in *. lia.
    + rewrite (Z.max_r 0 (- (s + 1))), (Z.max_l 0 (s + 1)) by lia.
      rewrite (Z.max_r 0 (- s)), (Z.max_l 0 s) in * by lia. change (2 ^ 53) with (2 * 2 ^ 52).
      replace (- s) with (- (s + 1) + 1) in * by lia. rewrite Z.pow_add_r in * by lia. change (2 ^ 1) with 2 in *. change (2 ^ 0) with 1 in *. lia.
Qed.

Lemma fround_pos n d : 0 < n -> 0 < d -> fround n d = round_pos n d.
Proof.
  intros. unfold fround. destruct (Z.ltb_spec d 0); [lia|]. rewrite Z.abs_eq by lia.
  destruct (Z.eqb_spec n 0); [lia|]. destruct (Z.ltb_spec n 0); [lia|]. reflexivity.
Qed.
Lemma fround_zero d : fround 0 d = Float 0 1.
Proof. unfold fround. destruct (d <? 0); reflexivity. Qed.

(** A value below 2^52 is rounded at a scale finer than one half. *)
Lemma scale_half n d : 0 < n -> 0 < d -> n < d * 2 ^ 52 -> 1 <= scale n d.
Proof.
  intros Hn Hd Hx. pose proof (scale_spec n d Hn Hd) as [S1 _]. destruct (Z.le_gt_cases 1 (scale n d)) as [|Hs]; [auto|].
  rewrite (Z.max_l 0 (scale n d)) in S1 by lia. change (2 ^ 0) with 1 in S1.
  pose proof (pow2_pos (- scale n d)). set (P := 2 ^ 52) in *. nia.
Qed.

Lemma round_pos_small n d : 0 < n -> 0 < d -> n < d * 2 ^ 52 ->
  exists S, S = 2 ^ (scale n d - 1) /\ 0 < S /\ round_pos n d = Float (nearest_even (n * (2 * S)) d) (2 * S) /\ d * 2 ^ 52 <= n * (2 * S).
Proof.
  intros Hn Hd Hx. pose proof (scale_half n d Hn Hd Hx) as Hs. pose proof (scale_spec n d Hn Hd) as [S1 _].
  exists (2 ^ (scale n d - 1)). split; [reflexivity|]. split; [apply Z.pow_pos_nonneg; lia|].
  rewrite (Z.max_l 0 (- scale n d)), (Z.max_r 0 (scale n d)) in S1 by lia.
  assert (E : 2 ^ scale n d = 2 * 2 ^ (scale n d - 1)) by (rewrite <- (Z.pow_succ_r 2 (scale n d - 1)) by lia; f_equal; lia).
  unfold round_pos. cbv zeta. set (k := scale n d) in *. rewrite (Z.max_l 0 (- k)), (Z.max_r 0 k) by lia. change (2 ^ 0) with 1.
  change (2 ^ 0) with 1 in S1. rewrite E in *. rewrite !Z.mul_1_r in *. split; [reflexivity|]. exact S1.
Qed.

(** math.Round after rounding to 53 bits is math.Round of the exact value, for fractions with a numerator below 2^52. *)
Lemma math_round_fround n d a b : 0 <= a < 2 ^ 52 -> 0 < b -> 0 < d -> n * b = a * d -> math_round (fround n d) = (2 * a + b) / (2 * b).
Proof.
  intros Ha Hb Hd E. destruct (Z.eq_dec a 0) as [->|Ha0].
  { assert (n = 0) by nia. subst n. rewrite fround_zero. rewrite (Z.div_small (2 * 0 + b)) by lia. reflexivity. }
  assert (Hn : 0 < n) by nia.
  assert (Hx : n < d * 2 ^ 52) by (set (P := 2 ^ 52) in *; nia).
  rewrite fround_pos by lia. destruct (round_pos_small n d Hn Hd Hx) as (S & _ & HS & -> & HP).
  unfold math_round. cbn [fnum fden]. set (q := (2 * a + b) / (2 * b)).
  assert (Q1 : 2 * b * q <= 2 * a + b) by (apply Z.mul_div_le; lia).
  assert (Q2 : 2 * a + b < 2 * b * (q + 1)) by (unfold q; pose proof (Z.mul_succ_div_gt (2 * a + b) (2 * b) ltac:(lia)); lia).
  assert (M0 : 0 <= nearest_even (n * (2 * S)) d) by (apply nearest_even_ge; nia).
  destruct (Z.ltb_spec (nearest_even (n * (2 * S)) d) 0); [lia|].
  assert (HSb : b < 2 * S). { set (P := 2 ^ 52) in *. assert (a * (2 * S) * d >= b * P * d) by nia. nia. }
  assert (M1 : S * (2 * q - 1) <= nearest_even (n * (2 * S)) d).
  { apply nearest_even_ge; [lia|]. assert ((2 * q - 1) * b <= 2 * a) by lia. assert ((2 * q - 1) * b * d <= 2 * (n * b)) by nia.
    assert ((2 * q - 1) * d <= 2 * n) by nia. nia. }
  assert (M2 : nearest_even (n * (2 * S)) d < S * (2 * q + 1)).
  { apply nearest_even_lt; [lia|].
    assert (K : 2 * a + 1 <= (2 * q + 1) * b) by lia.
    assert (K2 : 2 * n * b + d <= (2 * q + 1) * b * d) by nia.
    (* goal: 4 n S < (2 S (2q+1) - 1) d *)
    assert (K3 : (4 * n * S) * b < ((2 * S * (2 * q + 1) - 1) * d) * b).
    { assert (2 * S * (2 * n * b + d) <= 2 * S * ((2 * q + 1) * b * d)) by (apply Z.mul_le_mono_nonneg_l; lia).
      assert (b * d < 2 * S * d) by nia. lia. }
    apply Z.mul_lt_mono_pos_r in K3; lia. }
  symmetry. apply Z.div_unique with (r := 2 * nearest_even (n * (2 * S)) d + 2 * S - 2 * (2 * S) * q); lia.
Qed.

(** A fraction of at most w stays at most w after rounding, and one of at most w - w/2^53 stays below it. *)
Lemma math_round_bound n d w : 0 <= n -> 0 < d -> 0 <= w < 2 ^ 52 -> n <= w * d -> 0 <= math_round (fround n d) <= w.
Proof.
  intros Hn Hd Hw Hx. destruct (Z.eq_dec n 0) as [->|].
  { rewrite fround_zero. unfold math_round. cbn. lia. }
  rewrite fround_pos by lia. assert (Hx2 : n < d * 2 ^ 52) by (set (P := 2 ^ 52) in *; nia).
  destruct (round_pos_small n d) as (S & _ & HS & -> & HP); auto with zarith.
  unfold math_round. cbn [fnum fden].
  assert (M0 : 0 <= nearest_even (n * (2 * S)) d) by (apply nearest_even_ge; nia).
  assert (M1 : nearest_even (n * (2 * S)) d <= w * (2 * S)) by (apply nearest_even_le; nia).
  destruct (Z.ltb_spec (nearest_even (n * (2 * S)) d) 0); [lia|]. split; [apply Z.div_pos; lia|].
  apply Z.lt_succ_r. apply Z.div_lt_upper_bound; lia.
Qed.
Lemma math_floor_bound n d w : 0 <= n -> 0 < d -> 0 <= w < 2 ^ 52 -> n <= w * d -> 0 <= math_floor (fround n d) <= w.
Proof.
  intros Hn Hd Hw Hx. destruct (Z.eq_dec n 0) as [->|].
  { rewrite fround_zero. unfold math_floor. cbn. lia. }
  rewrite fround_pos by lia. assert (Hx2 : n < d * 2 ^ 52) by (set (P := 2 ^ 52) in *; nia).
  destruct (round_pos_small n d) as (S & _ & HS & -> & HP); auto with zarith.
  unfold math_floor. cbn [fnum fden].
  assert (M0 : 0 <= nearest_even (n * (2 * S)) d) by (apply nearest_even_ge; nia).
  assert (M1 : nearest_even (n * (2 * S)) d <= w * (2 * S)) by (apply nearest_even_le; nia).
  split; [apply Z.div_pos; lia|]. apply Z.div_le_upper_bound; lia.
Qed.
Lemma math_floor_below n d w : 0 <= n -> 0 < d -> 0 < w < 2 ^ 52 -> n * 2 ^ 53 <= w * d * (2 ^ 53 - 1) -> 0 <= math_floor (fround n d) < w.
Proof.
  intros Hn Hd Hw Hx. destruct (Z.eq_dec n 0) as [->|].
  { rewrite fround_zero. unfold math_floor. cbn. lia. }
  assert (Hlt : n < w * d) by (change (2 ^ 53) with (2 * 2 ^ 52) in *; set (P := 2 ^ 52) in *; nia).
  rewrite fround_pos by lia. assert (Hx2 : n < d * 2 ^ 52) by (set (P := 2 ^ 52) in *; nia).
  destruct (round_pos_small n d) as (S & _ & HS & -> & HP); auto with zarith.
  unfold math_floor. cbn [fnum fden].
  assert (M0 : 0 <= nearest_even (n * (2 * S)) d) by (apply nearest_even_ge; nia).
  assert (M1 : nearest_even (n * (2 * S)) d < w * (2 * S)).
  { apply nearest_even_lt; [lia|]. change (2 ^ 53) with (2 * 2 ^ 52) in *. set (P := 2 ^ 52) in *.
    (* n (2S) 2 < (2 w 2S - 1) d ; w d - n >= w d / (2P); times 2*2S: 4S (wd - n) >= 4S w d/(2P) > d  since 2S w > P *)
    assert (A : P < w * (2 * S)) by nia.
    assert (B : w * d <= 2 * P * (w * d - n)) by lia.
    assert (C : 4 * S * (w * d) <= 2 * P * (4 * S * (w * d - n))) by nia.
    assert (D : 2 * P * d < 4 * S * (w * d)) by nia.
    assert (0 < P) by (unfold P; lia). assert (d < 4 * S * (w * d - n)) by nia. lia. }
  split; [apply Z.div_pos; lia|]. apply Z.div_lt_upper_bound; lia.
Qed.

Lemma fround_den n d : 0 < d -> 0 < fden (fround n d).
Proof.
  intros Hd. unfold fround. destruct (Z.ltb_spec d 0); [lia|]. destruct (n =? 0); [cbn; lia|].
  destruct (n <? 0); unfold round_pos; cbn [fden]; apply pow2_pos.
Qed.
Lemma fround_nonneg n d : 0 <= n -> 0 < d -> 0 <= fnum (fround n d).
Proof.
  intros Hn Hd. destruct (Z.eq_dec n 0) as [->|]; [rewrite fround_zero; cbn; lia|]. rewrite fround_pos by lia. unfold round_pos. cbn [fnum].
  apply Z.mul_nonneg_nonneg; [|apply Z.pow_nonneg; lia]. apply nearest_even_ge.
  - pose proof (pow2_pos (- scale n d)). nia.
  - pose proof (pow2_pos (scale n d)). nia.
Qed.

(** Integers below 2^53 are represented exactly. *)
Lemma of_int_exact z : 0 <= z < 2 ^ 52 -> fnum (of_int z) = z * fden (of_int z) /\ 0 < fden (of_int z).
Proof.
  intros Hz. split; [|apply fround_den; lia]. unfold of_int. destruct (Z.eq_dec z 0) as [->|]; [rewrite fround_zero; reflexivity|].
  rewrite fround_pos by lia. destruct (round_pos_small z 1) as (S & _ & HS & -> & _); [lia..|]. cbn [fnum fden].
  replace (z * (2 * S)) with (z * (2 * S) * 1) at 1 by lia. now rewrite nearest_even_exact by lia.
Qed.

Lemma wrap64_small z : - 2 ^ 63 <= z < 2 ^ 63 -> wrap64 z = z.
Proof. intros. unfold wrap64. rewrite Z.mod_small; lia. Qed.
