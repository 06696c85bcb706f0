(** Facts about UTF-8. *)
From Verif Require Import Base P_Base M_Utf8.
From Coq Require Import ZArith NArith List Bool Lia.
Import ListNotations.
Open Scope Z_scope.

Lemma decode_width p : p <> [] -> (1 <= snd (decode_rune p) <= length p)%nat.
Proof.
  intros H. destruct p as [|p0 q]; [easy|]. unfold decode_rune. clear H. destruct (p0 <? 128)%N; [cbn; lia|].
  destruct (first_byte p0) as [[[sz lo] hi]|]; [|cbn; lia].
  destruct q as [|b1 q]; [cbn; lia|]. destruct (_ <? sz)%nat; [cbn; lia|]. destruct (negb _); [cbn; lia|]. destruct (sz <=? 2)%nat; [cbn; lia|].
  destruct q as [|b2 q]; [cbn; lia|]. destruct (negb _); [cbn; lia|]. destruct (sz <=? 3)%nat; [cbn; lia|].
  destruct q as [|b3 q]; [cbn; lia|]. destruct (negb _); cbn; lia.
Qed.

Lemma in_range_spec lo b hi : in_range lo b hi = true <-> (lo <= b <= hi)%N.
Proof. unfold in_range. rewrite andb_true_iff, !N.leb_le. reflexivity. Qed.
Lemma in_range_not lo b hi : in_range lo b hi = false <-> ~ (lo <= b <= hi)%N.
Proof. rewrite <- in_range_spec. destruct (in_range lo b hi); intuition discriminate. Qed.

Ltac decide_first :=
  unfold first_byte;
  repeat match goal with
  | |- context [in_range ?lo ?b ?hi] => destruct (in_range lo b hi) eqn:?; [match goal with H : in_range _ _ _ = true |- _ => apply in_range_spec in H end | match goal with H : in_range _ _ _ = false |- _ => apply in_range_not in H end]
  | |- context [(?a =? ?b)%N] => destruct (N.eqb_spec a b)
  end; try lia.

Lemma mod_shift k c m : (0 < m)%N -> (k < m)%N -> ((c * m + k) mod m = k)%N.
Proof. intros H K. rewrite N.add_comm, N.mod_add by lia. now apply N.mod_small. Qed.

Lemma decode_encode r rest : scalar r = true -> decode_rune (encode_rune r ++ rest) = (r, length (encode_rune r)).
Proof.
  intros H. unfold encode_rune. rewrite H. unfold scalar in H. rewrite orb_true_iff, N.ltb_lt, in_range_spec in H.
  assert (C : forall x, (x < 64 -> cont (128 + x) = x)%N) by (intros x Hx; unfold cont; apply (mod_shift x 2 64); lia).
  destruct (N.ltb_spec r 128).
  { cbn [app decode_rune length]. destruct (N.ltb_spec r 128); [reflexivity|lia]. }
  pose proof (N.div_mod r 64 ltac:(lia)) as D. pose proof (N.mod_lt r 64 ltac:(lia)) as M.
  destruct (N.ltb_spec r 2048).
  { cbn [app length]. unfold decode_rune.
    set (q := (r / 64)%N) in *. set (m := (r mod 64)%N) in *. clearbody q m.
    destruct (N.ltb_spec (192 + q) 128); [lia|].
    assert (F : first_byte (192 + q) = Some (2%nat, 128, 191)%N) by (decide_first; reflexivity). rewrite F.
    cbn [length]. change (S (S (length rest)) <? 2)%nat with false.
    replace (in_range 128 (128 + m) 191) with true by (symmetry; apply in_range_spec; lia). cbn [negb Nat.leb].
    rewrite C by lia. change (192 + q)%N with (6 * 32 + q)%N. rewrite mod_shift by lia. f_equal. lia. }
  pose proof (N.div_mod (r / 64) 64 ltac:(lia)) as D2. pose proof (N.mod_lt (r / 64) 64 ltac:(lia)) as M2.
  rewrite N.div_div in D2 by lia. change (64 * 64)%N with 4096%N in D2.
  destruct (N.ltb_spec r 65536).
  { cbn [app length]. unfold decode_rune.
    set (q2 := (r / 4096)%N) in *. set (m2 := (r / 64 mod 64)%N) in *. set (q := (r / 64)%N) in *. set (m := (r mod 64)%N) in *. clearbody q m q2 m2.
    destruct (N.ltb_spec (224 + q2) 128); [lia|].
    assert (F : exists lo hi, first_byte (224 + q2) = Some (3%nat, lo, hi) /\ (lo <= 128 + m2 <= hi)%N).
    { decide_first; eexists; eexists; (split; [reflexivity|]); lia. }
    destruct F as (lo & hi & F & FR). rewrite F.
    cbn [length]. change (S (S (S (length rest))) <? 3)%nat with false.
    replace (in_range lo (128 + m2) hi) with true by (symmetry; apply in_range_spec; lia). cbn [negb Nat.leb].
    replace (in_range 128 (128 + m) 191) with true by (symmetry; apply in_range_spec; lia). cbn [negb].
    rewrite !C by lia. change (224 + q2)%N with (14 * 16 + q2)%N. rewrite mod_shift by lia. f_equal. lia. }
  pose proof (N.div_mod (r / 4096) 64 ltac:(lia)) as D3. pose proof (N.mod_lt (r / 4096) 64 ltac:(lia)) as M3.
  rewrite N.div_div in D3 by lia. change (4096 * 64)%N with 262144%N in D3.
  cbn [app length]. unfold decode_rune.
  set (q3 := (r / 262144)%N) in *. set (m3 := (r / 4096 mod 64)%N) in *. set (q2 := (r / 4096)%N) in *. set (m2 := (r / 64 mod 64)%N) in *. set (q := (r / 64)%N) in *. set (m := (r mod 64)%N) in *. clearbody q m q2 m2 q3 m3.
  destruct (N.ltb_spec (240 + q3) 128); [lia|].
  assert (F : exists lo hi, first_byte (240 + q3) = Some (4%nat, lo, hi) /\ (lo <= 128 + m3 <= hi)%N).
  { decide_first; eexists; eexists; (split; [reflexivity|]); lia. }
  destruct F as (lo & hi & F & FR). rewrite F.
  cbn [length]. change (S (S (S (S (length rest)))) <? 4)%nat with false.
  replace (in_range lo (128 + m3) hi) with true by (symmetry; apply in_range_spec; lia). cbn [negb Nat.leb].
  replace (in_range 128 (128 + m2) 191) with true by (symmetry; apply in_range_spec; lia). cbn [negb].
  replace (in_range 128 (128 + m) 191) with true by (symmetry; apply in_range_spec; lia). cbn [negb].
  rewrite !C by lia. change (240 + q3)%N with (30 * 8 + q3)%N. rewrite mod_shift by lia. f_equal. lia.
Qed.

Lemma encode_nonempty r : encode_rune r <> [].
Proof. unfold encode_rune. cbv zeta. generalize (if scalar r then r else RuneError). intros n. destruct (n <? 128)%N, (n <? 2048)%N, (n <? 65536)%N; discriminate. Qed.

Lemma encode_inj rs ss : Forall (fun r => scalar r = true) rs -> Forall (fun r => scalar r = true) ss -> encode rs = encode ss -> rs = ss.
Proof.
  revert ss. induction rs as [|r rs IH]; intros [|s ss] Hr Hs E; cbn [encode flat_map] in E.
  - reflexivity.
  - symmetry in E. apply app_eq_nil in E. destruct (encode_nonempty s); tauto.
  - apply app_eq_nil in E. destruct (encode_nonempty r); tauto.
  - apply Forall_cons_iff in Hr. apply Forall_cons_iff in Hs. destruct Hr as [Hr Hrs], Hs as [Hs Hss].
    pose proof (decode_encode r (encode rs) Hr) as D1. pose proof (decode_encode s (encode ss) Hs) as D2.
    unfold encode in D1, D2. rewrite E in D1. rewrite D1 in D2. injection D2 as -> _. f_equal. apply IH; auto.
    now apply app_inv_head in E.
Qed.

Lemma mod_of b m c : (0 < m)%N -> (c * m <= b < (c + 1) * m)%N -> (b mod m = b - c * m)%N.
Proof. intros Hm H. replace b with (c * m + (b - c * m))%N at 1 by lia. apply mod_shift; lia. Qed.

(** Whatever is decoded is a Unicode scalar value. *)
Lemma decode_scalar p : scalar (fst (decode_rune p)) = true.
Proof.
  destruct p as [|p0 q]; [reflexivity|]. unfold decode_rune. destruct (N.ltb_spec p0 128).
  { cbn [fst]. unfold scalar. destruct (N.ltb_spec p0 55296); [reflexivity|lia]. }
  destruct (first_byte p0) as [[[sz lo] hi]|] eqn:F; [|reflexivity].
  destruct q as [|b1 q]; [reflexivity|]. destruct (_ <? sz)%nat; [reflexivity|].
  destruct (in_range lo b1 hi) eqn:R1; cbn [negb]; [|reflexivity]. apply in_range_spec in R1.
  assert (C : forall b, (128 <= b <= 191)%N -> cont b = (b - 128)%N) by (intros b Hb; unfold cont; change 128%N with (2 * 64)%N; apply mod_of; lia).
  assert (S : forall r, (r < 55296)%N \/ (57344 <= r < 1114112)%N -> scalar r = true).
  { intros r Hr. unfold scalar. destruct (N.ltb_spec r 55296); [reflexivity|]. cbn [orb]. destruct Hr; [lia|]. apply andb_true_intro. split; apply N.leb_le; lia. }
  assert (B1 : (128 <= b1 <= 191)%N /\ ((sz = 2%nat /\ (194 <= p0 <= 223)%N) \/ (sz = 3%nat /\ (224 <= p0 <= 239)%N /\ (p0 = 237%N -> (b1 <= 159)%N)) \/ (sz = 4%nat /\ (240 <= p0 <= 244)%N /\ (p0 = 240%N -> (144 <= b1)%N) /\ (p0 = 244%N -> (b1 <= 143)%N)))).
  { unfold first_byte in F.
    destruct (in_range 194 p0 223) eqn:E1; [apply in_range_spec in E1; injection F as <- <- <-; lia|].
    destruct (N.eqb_spec p0 224); [injection F as <- <- <-; lia|].
    destruct (in_range 225 p0 236) eqn:E2; [apply in_range_spec in E2; injection F as <- <- <-; lia|].
    destruct (N.eqb_spec p0 237); [injection F as <- <- <-; lia|].
    destruct (in_range 238 p0 239) eqn:E3; [apply in_range_spec in E3; injection F as <- <- <-; lia|].
    destruct (N.eqb_spec p0 240); [injection F as <- <- <-; lia|].
    destruct (in_range 241 p0 243) eqn:E4; [apply in_range_spec in E4; injection F as <- <- <-; lia|].
    destruct (N.eqb_spec p0 244); [injection F as <- <- <-; lia|]. discriminate. }
  destruct B1 as [B1 D]. destruct D as [(-> & P)|[(-> & P & Q)|(-> & P & Q & Q')]]; cbn [Nat.leb].
  - cbn [fst]. apply S. rewrite C by lia. rewrite (mod_of p0 32 6) by lia. lia.
  - destruct q as [|b2 q]; [reflexivity|]. destruct (in_range 128 b2 191) eqn:R2; cbn [negb]; [|reflexivity]. apply in_range_spec in R2.
    cbn [fst]. apply S. rewrite !C by lia. rewrite (mod_of p0 16 14) by lia. destruct (N.eq_dec p0 237) as [->|]; lia.
  - destruct q as [|b2 q]; [reflexivity|]. destruct (in_range 128 b2 191) eqn:R2; cbn [negb]; [|reflexivity]. apply in_range_spec in R2.
    destruct q as [|b3 q]; [reflexivity|]. destruct (in_range 128 b3 191) eqn:R3; cbn [negb]; [|reflexivity]. apply in_range_spec in R3.
    cbn [fst]. apply S. rewrite !C by lia. rewrite (mod_of p0 8 30) by lia. destruct (N.eq_dec p0 240) as [->|]; [|destruct (N.eq_dec p0 244) as [->|]]; lia.
Qed.
