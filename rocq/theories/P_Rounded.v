(** The arithmetic of float64 is exact for quarters of whole numbers up to 2^53. *)
From Verif Require Import Base M_Float P_Float M_Geom M_Solver M_Layout M_Rounded P_Row P_Tableau P_Simplex P_System P_Network P_Alike P_Layout.
From Coq Require Import ZArith NArith QArith Qabs Qround List Bool Lia Lqa Setoid.
Import ListNotations.
Open Scope Q_scope.

Lemma round_pos_quarter n z d : (4 * n = z * d)%Z -> (0 < z <= 9007199254740992)%Z -> (0 < d)%Z -> (4 * fnum (round_pos n d) = z * fden (round_pos n d))%Z.
Proof.
  intros E Hz Hd. pose proof (scale_spec n d ltac:(nia) Hd) as [S1 _]. unfold round_pos. cbv zeta. set (s := scale n d) in *. cbn [fnum fden]. set (T := (2 ^ 52)%Z) in *. change 9007199254740992%Z with (2 * T)%Z in Hz. assert (HT : (0 < T)%Z) by (unfold T; lia).
  assert (Hs : (1 <= s)%Z).
  { destruct (Z.le_gt_cases 1 s) as [H|H]; [exact H|]. rewrite (Z.max_l 0 s) in S1 by lia. change (2 ^ 0)%Z with 1%Z in S1. assert (P : (0 < 2 ^ Z.max 0 (- s))%Z) by (apply Z.pow_pos_nonneg; lia). nia. }
  rewrite (Z.max_l 0 (- s)), (Z.max_r 0 s) in * by lia. change (2 ^ 0)%Z with 1%Z in *. destruct (Z.eq_dec s 1) as [H|H].
  - rewrite H in *. change (2 ^ 1)%Z with 2%Z in *. assert (z = 2 * T)%Z by nia. subst z. replace (n * 2)%Z with (T * (d * 1))%Z by lia. rewrite nearest_even_exact by lia. lia.
  - assert (P : (2 ^ s = 4 * 2 ^ (s - 2))%Z) by (change 4%Z with (2 ^ 2)%Z; rewrite <- Z.pow_add_r by lia; f_equal; lia). rewrite P. set (p := (2 ^ (s - 2))%Z) in *. replace (n * (4 * p))%Z with ((z * p) * (d * 1))%Z by nia. rewrite nearest_even_exact by lia. lia.
Qed.
Lemma fround_quarter n z d : (4 * n = z * d)%Z -> (Z.abs z <= 9007199254740992)%Z -> (0 < d)%Z -> (4 * fnum (fround n d) = z * fden (fround n d))%Z.
Proof.
  intros E Hz Hd. unfold fround. destruct (Z.ltb_spec d 0); [lia|]. rewrite (Z.abs_eq d) by lia. destruct (Z.eqb_spec n 0); [cbn; nia|]. destruct (Z.ltb_spec n 0).
  - cbn [fnum fden]. pose proof (round_pos_quarter (- n) (- z) d ltac:(lia) ltac:(nia) Hd). lia.
  - apply round_pos_quarter; nia.
Qed.
Lemma okq_opp q : okq q -> okq (- q).
Proof. intros [(z & E) A]. split; [exists (- z)%Z; rewrite inject_Z_opp; lra|]. now rewrite Qabs_opp. Qed.
Lemma frnd_ok q : okq q -> frnd q = Qred q.
Proof.
  intros [(z & E) A]. unfold frnd. apply Qred_complete.
  assert (Az : (Z.abs z <= 9007199254740992)%Z). { rewrite Zle_Qle. change (inject_Z (Z.abs z)) with (Qabs (inject_Z z)). rewrite <- E, Qabs_Qmult. change (inject_Z 9007199254740992) with (4 * inject_Z 2251799813685248). change (Qabs 4) with 4. lra. }
  destruct q as [n d]. cbn [Qnum Qden]. unfold Qeq in E. cbn [Qmult Qnum Qden inject_Z] in E. rewrite Pos.mul_1_l, Z.mul_1_r in E. pose proof (fround_quarter n z (Zpos d) E Az ltac:(lia)) as H. pose proof (fround_den n (Zpos d) ltac:(lia)) as P.
  set (f := fround n (Zpos d)) in *. clearbody f. unfold Qeq. cbn [Qnum Qden]. rewrite Z2Pos.id by exact P. nia.
Qed.
Lemma below_ok q : okq q -> below_1e8 q = is_zero q.
Proof.
  intros [(z & E) _]. assert (Cs : q <= -(1#4) \/ q == 0 \/ 1#4 <= q).
  { destruct (Z.lt_trichotomy z 0) as [H|[H|H]]; [left|right; left|right; right].
    - assert (I : inject_Z z <= inject_Z (-1)) by (rewrite <- Zle_Qle; lia). change (inject_Z (-1)) with (-(1)) in I. lra.
    - rewrite H in E. change (inject_Z 0) with 0 in E. lra.
    - assert (I : inject_Z 1 <= inject_Z z) by (rewrite <- Zle_Qle; lia). change (inject_Z 1) with 1 in I. lra. }
  assert (Nz : ~ q == 0 -> is_zero q = false) by (intros N; apply not_true_iff_false; intros C; now apply is_zero_ok in C).
  destruct Cs as [H|[H|H]].
  - rewrite Nz by lra. unfold below_1e8. assert (A : qltb q 0 = true) by (apply qltb_ok; lra). rewrite A. apply qltb_no. lra.
  - rewrite (zero_below q H). symmetry. now apply is_zero_ok.
  - rewrite Nz by lra. unfold below_1e8. assert (A : qltb q 0 = false) by (apply qltb_no; lra). rewrite A. apply qltb_no. lra.
Qed.
(** float64 with the tolerance of the code, and fractions with that tolerance *)
Definition floats64 : floats.
Proof.
  refine (Floats float64 code_tolerance _ _ _ _ _); cbn [float64 qadd qmul qopp qdiv exact_arith].
  - intros a b H. now apply frnd_ok.
  - intros a b H. now apply frnd_ok.
  - intros a H. apply frnd_ok. now apply okq_opp.
  - intros a b H. now apply frnd_ok.
  - exact below_ok.
Defined.
Definition floats_exact : floats.
Proof. refine (Floats exact_arith code_tolerance _ _ _ _ below_ok); reflexivity. Defined.

(** ** Cells *)
Lemma frnd_opp q : frnd (- q) == - frnd q.
Proof.
  unfold frnd. rewrite !Qred_correct. destruct q as [n d]. cbn [Qopp Qnum Qden]. unfold fround. cbn [Z.ltb]. destruct (Z.ltb_spec (Zpos d) 0); [lia|]. rewrite Z.abs_eq by lia.
  destruct (Z.eqb_spec (- n) 0), (Z.eqb_spec n 0); try lia; [reflexivity|]. destruct (Z.ltb_spec (- n) 0), (Z.ltb_spec n 0); try lia; cbn [fnum fden]; rewrite ?Z.opp_involutive; unfold Qeq, Qopp; cbn [Qnum Qden]; lia.
Qed.
Lemma round_opp q : round_q (- q) = (- round_q q)%Z.
Proof.
  destruct (Qlt_le_dec q 0) as [H|H].
  - unfold round_q. assert (A : qltb q 0 = true) by (now apply qltb_ok). assert (B : qltb (- q) 0 = false) by (apply qltb_no; lra). rewrite A, B. lia.
  - destruct (Qlt_le_dec 0 q) as [P|P].
    + unfold round_q. assert (A : qltb q 0 = false) by (now apply qltb_no). assert (B : qltb (- q) 0 = true) by (apply qltb_ok; lra). rewrite A, B. f_equal. apply Z.le_antisymm; apply Qfloor_resp_le; lra.
    + assert (Z : q == 0) by lra. rewrite (round_eq _ _ Z). assert (Z' : - q == 0) by lra. rewrite (round_eq _ _ Z'). reflexivity.
Qed.
Lemma round_pos_q n d : (0 <= n)%Z -> round_q (n # d) = ((2 * n + Zpos d) / (2 * Zpos d))%Z.
Proof.
  intros H. unfold round_q. assert (A : qltb (n # d) 0 = false) by (apply qltb_no; unfold Qle; cbn; lia). rewrite A. unfold Qfloor, Qplus. cbn [Qnum Qden]. f_equal; [lia|]. rewrite Pos2Z.inj_mul. lia.
Qed.
Lemma round_frnd m : (0 <= m < 2 ^ 52)%Z -> round_q (frnd (inject_Z m / 100)) = round_q (inject_Z m / 100).
Proof.
  intros H. unfold frnd. rewrite (round_eq _ _ (Qred_correct _)). change (inject_Z m / 100) with (m * 1 # 100)%Q. cbn [Qnum Qden].
  pose proof (math_round_fround (m * 1) 100 m 100 H ltac:(lia) ltac:(lia) ltac:(lia)) as R. pose proof (fround_den (m * 1) 100 ltac:(lia)) as P. pose proof (fround_nonneg (m * 1) 100 ltac:(lia) ltac:(lia)) as N.
  set (f := fround (m * 1) 100) in *. rewrite round_pos_q by exact N. rewrite Z2Pos.id by exact P. unfold math_round in R. destruct (Z.ltb_spec (fnum f) 0); [lia|]. rewrite R. rewrite round_pos_q by lia. f_equal. lia.
Qed.
Lemma cells64 q : (Z.abs (round_q q) < 2 ^ 52)%Z -> @to_cells float64 q = to_cells q.
Proof.
  intros H. rewrite cells_is. unfold to_cells. change (@qdiv float64 (inject_Z (round_q q)) multiplier) with (frnd (inject_Z (round_q q) / multiplier)). unfold multiplier. set (m := round_q q) in *. clearbody m. destruct (Z.le_gt_cases 0 m) as [P|P]; [apply round_frnd; lia|].
  assert (E : inject_Z m / 100 == - (inject_Z (- m) / 100)) by (rewrite inject_Z_opp; field).
  assert (Em : inject_Z m / 100 = - (inject_Z (- m) / 100)) by (unfold Qdiv, Qmult, Qinv, Qopp, inject_Z; cbn [Qnum Qden]; f_equal; lia).
  rewrite Em, (round_eq _ _ (frnd_opp _)), !round_opp. f_equal. apply round_frnd. lia.
Qed.
