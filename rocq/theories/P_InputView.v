From Verif Require Import Base P_Base M_Geom M_Style M_Uniseg M_Buffer M_Text M_Slice M_List P_List M_Reflow M_Input S_Input P_Input.
From Coq Require Import ZArith NArith List Bool Lia.
Import ListNotations.
Open Scope Z_scope.
Local Arguments zlen : simpl never.

Section View.
Variable ws : list Z.
Variable max_w : Z.
Hypothesis Hpos : forall x, In x ws -> 0 <= x.
Let N := zlen ws.
Let P := psum ws.

Local Lemma Pm i j : i <= j -> P i <= P j.
Proof. apply psum_mono. exact Hpos. Qed.

(** The window when the text between the old offset and the cell before the cursor fits. *)
Lemma view_ok cursor offset : 0 < N -> 0 <= max_w -> 0 <= offset -> 0 <= cursor <= N -> (cursor = 0 -> offset = 0) ->
  (Z.min offset (N - 1) < cursor - 1 -> P (cursor - 1) - P (Z.min offset (N - 1)) <= max_w) ->
  (forall x, In x ws -> x <= max_w) ->
  exists f l, get_bounds ws cursor offset max_w = Ret (f, l) /\ 0 <= f <= cursor /\ cursor <= l <= N /\ f < l /\ P l - P f <= max_w /\ (0 < cursor -> f < cursor).
Proof.
  intros HN Hmax Ho Hc H0 Hfit Hitems.
  assert (Hitem : forall i, 0 <= i < N -> P (i + 1) - P i <= max_w).
  { intros i Hi. pose proof (psum_step ws i Hi) as E. unfold index_at in E. destruct (i <? 0); [discriminate|].
    destruct (nth_error ws (Z.to_nat i)) eqn:En; [|discriminate]. injection E as E. fold P in E. rewrite <- E. apply Hitems. eapply nth_error_In. exact En. } unfold get_bounds. fold N.
  replace (N =? 0) with false by (symmetry; apply Z.eqb_neq; lia). rewrite (Z.max_r 0 (N - 1)) by lia.
  set (o := Z.min offset (N - 1)) in *. assert (HO : 0 <= o < N) by (unfold o; lia).
  unfold skip. fold N. rewrite Z.geb_leb. replace (N <=? o) with false by (symmetry; apply Z.leb_gt; lia).
  replace (o <? 0) with false by (symmetry; apply Z.ltb_ge; lia). cbn [bind].
  destruct (fit_loop_ok ws max_w (skipn (Z.to_nat o) ws) o 0 o eq_refl ltac:(lia) eq_refl Hmax ltac:(fold N; lia)) as (h & last & -> & L1 & -> & L2 & L3).
  fold P in L2, L3. fold N in L1, L3. fold P. replace (0 + (P last - P o)) with (P last - P o) in * by lia. cbv zeta.
  (* the cursor is at most one past the text that fits *)
  assert (Hcl : cursor <= last + 1).
  { destruct L3 as [L3|L3]; [lia|]. destruct (Z.le_gt_cases cursor (last + 1)); [auto|exfalso].
    specialize (Hfit ltac:(lia)). pose proof (Pm (last + 1) (cursor - 1) ltac:(lia)). lia. }
  set (idx := if negb (cursor =? 0) then Z.min (cursor - 1) last else o).
  assert (Hidx : 0 < cursor /\ idx = cursor - 1 \/ cursor = 0 /\ idx = 0 /\ o = 0).
  { unfold idx. destruct (Z.eqb_spec cursor 0); cbn [negb]; [right; specialize (H0 ltac:(auto)); unfold o in *; lia|left; lia]. }
  clearbody idx. assert (HI : 0 <= idx < N) by lia.
  match goal with |- context [ofold ?F (zrange last (idx + 1)) ?S] => change (ofold F (zrange last (idx + 1)) S) with (loop1 ws max_w last (idx + 1) (P last - P o, o)) end.
  assert (L : exists f1 l1, loop1 ws max_w last (idx + 1) (P last - P o, o) = Ret (P l1 - P f1, f1) /\ Z.max last (idx + 1) = l1 /\
    o <= f1 <= l1 /\ P l1 - P f1 <= max_w /\ (idx < last -> f1 = o)).
  { destruct (Z.le_gt_cases last (idx + 1)).
    - destruct (loop1_ok ws max_w Hpos Hmax (Z.to_nat (idx + 1 - last)) o o last (idx + 1) eq_refl) as (f1 & E & ? & ? & ?); fold P N; try lia.
      fold P in H2, H3, E. exists f1, (idx + 1). split; [exact E|]. repeat split; try lia.
      intros. assert (last = idx + 1) by lia. subst last. unfold loop1 in E. rewrite zrange_nil in E by lia. cbn in E. injection E as _ E. lia.
    - exists o, last. unfold loop1. rewrite zrange_nil by lia. cbn. repeat split; auto; lia. }
  destruct L as (f1 & l1 & -> & El1 & F1 & F2 & F3). cbn [bind]. rewrite El1.
  match goal with |- context [ofold ?F (rev (zrange idx f1)) ?S] => change (ofold F (rev (zrange idx f1)) S) with (loop2 ws max_w idx f1 (P l1 - P f1, l1)) end.
  assert (HL1 : l1 <= N) by lia.
  assert (L : exists l2, loop2 ws max_w idx f1 (P l1 - P f1, l1) = Ret (P l2 - P (Z.min f1 idx), l2) /\ Z.min f1 idx <= l2 <= l1 /\
     P l2 - P (Z.min f1 idx) <= max_w /\ (l2 = l1 \/ P (l2 + 1) - P (Z.min f1 idx) > max_w) /\ (f1 <= idx -> l2 = l1)).
  { destruct (Z.le_gt_cases idx f1).
    - destruct (loop2_ok ws max_w Hpos Hmax (Z.to_nat (f1 - idx)) l1 l1 idx f1 eq_refl) as (l2 & E & ? & ? & ?); fold P N; try lia.
      fold P in H2, H3, E. exists l2. rewrite Z.min_r by lia. split; [exact E|]. repeat split; try lia.
      intros. assert (f1 = idx) by lia. subst f1. unfold loop2 in E. rewrite zrange_nil in E by lia. cbn in E. injection E as _ E. lia.
    - exists l1. unfold loop2. rewrite zrange_nil by lia. cbn. rewrite Z.min_l by lia. repeat split; auto; lia. }
  destruct L as (l2 & -> & G1 & G2 & G3 & G4). cbn [bind].
  set (f := Z.min f1 idx) in *.
  assert (Hf : 0 <= f <= cursor) by (unfold f; lia).
  assert (Hcl2 : cursor <= l2).
  { destruct Hidx as [[C1 C2]|(C1 & _)]; [|lia]. destruct G3 as [->|G3]; [lia|].
    destruct (Z.le_gt_cases cursor l2); [auto|exfalso]. specialize (Hitem idx ltac:(lia)).
    destruct (Z.le_gt_cases f1 idx) as [Hf1|Hf1]; [rewrite G4 in * by auto; lia|].
    assert (f = idx /\ l2 = idx) as [-> ->] by (unfold f in *; lia). lia. }
  assert (Hlt : f < l2).
  { destruct Hidx as [[C1 C2]|(C1 & C2 & C3)]; [unfold f; lia|].
    assert (0 < last) by (destruct L3 as [L3|L3]; [lia|]; specialize (Hitem 0 ltac:(lia)); destruct (Z.eq_dec last 0); [subst last; rewrite C3 in L3; lia|lia]).
    rewrite G4 by lia. unfold f; lia. }
  assert (Hfc : 0 < cursor -> f < cursor) by (unfold f; lia). clearbody f.
  rewrite Z.geb_leb. destruct (Z.leb_spec l2 (cursor - f)).
  - assert (cursor = l2) by lia. subst l2. replace (cursor - cursor) with 0 by lia. exists (f + 0), (cursor + 0). rewrite !Z.add_0_r.
    split; [reflexivity|]. repeat split; lia.
  - exists f, l2. split; [reflexivity|]. repeat split; lia.
Qed.

(** The window when every cluster is one column wide and the cursor is far to the right of the old view: moved so that it ends at the
    cursor, provided the cursor is far enough. *)
Lemma view_jump cursor offset : (forall x, In x ws -> x = 1) -> 0 < N -> 1 <= max_w -> 0 <= offset -> cursor <= N ->
  let o := Z.min offset (N - 1) in o + max_w + 1 < cursor ->
  get_bounds ws cursor offset max_w = Ret (if 2 * o + max_w + 2 <=? cursor then (cursor - max_w, cursor) else (o + 1, o + max_w + 1)).
Proof.
  intros H1 HN Hmax Ho Hc o Hfar.
  assert (HP : forall i, 0 <= i <= N -> P i = i).
  { intros i Hi. unfold P, psum, N, zlen in *. assert (E : forall l : list Z, (forall x, In x l -> x = 1) -> zsum l = zlen l).
    { clear. induction l as [|x l IH]; intros H; [reflexivity|]. rewrite zsum_cons, zlen_cons, IH by (intros; apply H; now right). rewrite (H x) by now left. lia. }
    rewrite E; [unfold zlen; rewrite firstn_length; lia|]. intros x Hx. apply H1. rewrite <- (firstn_skipn (Z.to_nat i) ws). apply in_or_app. now left. }
  unfold get_bounds. fold N.
  replace (N =? 0) with false by (symmetry; apply Z.eqb_neq; lia). rewrite (Z.max_r 0 (N - 1)) by lia. fold o. assert (HO : 0 <= o < N) by (unfold o; lia). clearbody o.
  unfold skip. fold N. rewrite Z.geb_leb. replace (N <=? o) with false by (symmetry; apply Z.leb_gt; lia).
  replace (o <? 0) with false by (symmetry; apply Z.ltb_ge; lia). cbn [bind].
  destruct (fit_loop_ok ws max_w (skipn (Z.to_nat o) ws) o 0 o eq_refl ltac:(lia) eq_refl ltac:(lia) ltac:(fold N; lia)) as (h & last & -> & L1 & -> & L2 & L3).
  fold P in L2, L3. fold N in L1, L3. fold P. rewrite !HP in * by lia.
  assert (last = o + max_w) as -> by lia.
  cbv zeta. replace (cursor =? 0) with false by (symmetry; apply Z.eqb_neq; lia). cbn [negb]. rewrite Z.min_r by lia.
  replace (0 + (o + max_w - o)) with max_w by lia. rewrite zrange_cons by lia. rewrite zrange_nil by lia. cbn [ofold].
  rewrite (psum_step ws (o + max_w)) by (fold N; lia). cbn [bind]. fold P. rewrite !HP by lia.
  assert (Z.to_nat (N - o) = S (Z.to_nat (N - o - 1))) as -> by lia. cbn [drop_first]. rewrite !Z.gtb_ltb.
  replace (max_w <? max_w + (o + max_w + 1 - (o + max_w))) with true by (symmetry; apply Z.ltb_lt; lia).
  rewrite (psum_step ws o) by (fold N; lia). cbn [bind]. fold P. rewrite !HP by lia.
  assert (E : drop_first (Z.to_nat (N - o - 1)) ws max_w (Z.max 0 (max_w + (o + max_w + 1 - (o + max_w)) - (o + 1 - o))) (o + 1) = Ret (max_w, o + 1)).
  { replace (Z.max 0 (max_w + (o + max_w + 1 - (o + max_w)) - (o + 1 - o))) with max_w by lia. destruct (Z.to_nat (N - o - 1)); cbn [drop_first]; rewrite Z.gtb_ltb, Z.ltb_irrefl; reflexivity. }
  rewrite E. cbn [bind]. rewrite (zrange_nil (o + max_w)) by lia. cbn [rev ofold bind].
  rewrite (Z.max_r (o + max_w)), (Z.min_l (o + 1)) by lia. rewrite Z.geb_leb.
  destruct (Z.leb_spec (2 * o + max_w + 2) cursor); destruct (Z.leb_spec (o + max_w + 1) (cursor - (o + 1))); try lia; do 2 f_equal; lia.
Qed.

(** A negative width never works. *)
Lemma drop_first_neg n : forall h first, max_w < 0 -> 0 <= h -> drop_first n ws max_w h first = Panic.
Proof.
  induction n as [|n IH]; intros h first Hm Hh; cbn [drop_first]; rewrite Z.gtb_ltb; replace (max_w <? h) with true by (symmetry; apply Z.ltb_lt; lia); [reflexivity|].
  destruct (index_at ws first); cbn [bind]; [apply IH; lia|reflexivity].
Qed.
Lemma drop_last_neg n : forall h last, max_w < 0 -> 0 <= h -> drop_last n ws max_w h last = Panic.
Proof.
  induction n as [|n IH]; intros h last Hm Hh; cbn [drop_last]; rewrite Z.gtb_ltb; replace (max_w <? h) with true by (symmetry; apply Z.ltb_lt; lia); [reflexivity|].
  destruct (index_at ws (last - 1)); cbn [bind]; [apply IH; lia|reflexivity].
Qed.

Lemma view_neg cursor offset : 0 < N -> max_w < 0 -> 0 <= offset -> 0 <= cursor <= N -> get_bounds ws cursor offset max_w = Panic.
Proof.
  intros HN Hmax Ho Hc. unfold get_bounds. fold N.
  replace (N =? 0) with false by (symmetry; apply Z.eqb_neq; lia). rewrite (Z.max_r 0 (N - 1)) by lia.
  set (o := Z.min offset (N - 1)) in *. assert (HO : 0 <= o < N) by (unfold o; lia).
  unfold skip. fold N. rewrite Z.geb_leb. replace (N <=? o) with false by (symmetry; apply Z.leb_gt; lia).
  replace (o <? 0) with false by (symmetry; apply Z.ltb_ge; lia). cbn [bind].
  assert (E : fit_loop (skipn (Z.to_nat o) ws) max_w 0 o = (0, o)).
  { assert (Hin : forall x, In x (skipn (Z.to_nat o) ws) -> 0 <= x) by (intros x Hx; apply Hpos; rewrite <- (firstn_skipn (Z.to_nat o) ws); apply in_or_app; now right).
    destruct (skipn (Z.to_nat o) ws) as [|x l]; [reflexivity|]. cbn [fit_loop]. rewrite Z.gtb_ltb. specialize (Hin x (or_introl eq_refl)).
    replace (max_w <? 0 + x) with true by (symmetry; apply Z.ltb_lt; lia). reflexivity. }
  rewrite E. cbv zeta. set (idx := if negb (cursor =? 0) then Z.min (cursor - 1) o else o).
  assert (Hidx : 0 <= idx <= o) by (unfold idx; destruct (Z.eqb_spec cursor 0); cbn [negb]; lia). clearbody idx.
  destruct (Z.eq_dec idx o) as [->|Hne].
  - rewrite zrange_cons by lia. cbn [ofold]. rewrite (psum_step ws o) by (fold N; lia). cbn [bind]. fold P. pose proof (Pm o (o + 1) ltac:(lia)).
    rewrite drop_first_neg by lia. reflexivity.
  - rewrite (zrange_nil o) by lia. cbn [ofold bind].
    assert (Ez : zrange idx o = zrange idx (o - 1) ++ [o - 1]) by (rewrite <- zrange_snoc by lia; f_equal; lia).
    rewrite Ez, rev_app_distr. cbn [rev app ofold]. rewrite (psum_step ws (o - 1)) by (fold N; lia). cbn [bind]. fold P. pose proof (Pm (o - 1) (o - 1 + 1) ltac:(lia)).
    rewrite drop_last_neg by lia. reflexivity.
Qed.
End View.
