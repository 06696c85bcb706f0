(** C23 (continued): lists whose items are all of the same height. *)
From Verif Require Import Base P_Base M_Slice M_List P_List.
From Coq Require Import ZArith List Bool Lia.
Import ListNotations.
Open Scope Z_scope.

(** The first item shown, of a list in which [k] items fit and which showed the items from [first] on: the list scrolls up to the selected item if that is
    above, down just as far as it takes if that is below, and otherwise stays. *)
Definition scrolled (k first : Z) (selected : option Z) : Z :=
  match selected with Some s => if s <? first then s else if first + k <=? s then s + 1 - k else first | None => first end.

Lemma psum_equal hs d i : (forall h, In h hs -> h = d) -> 0 <= i <= zlen hs -> psum hs i = d * i.
Proof.
  intros He Hi. unfold psum. rewrite <- (Z2Nat.id i) at 2 by lia. assert (Hn : (Z.to_nat i <= length hs)%nat) by (unfold zlen in Hi; lia). revert Hn. generalize (Z.to_nat i). clear Hi i.
  induction hs as [|h hs IH]; intros [|n] Hn; cbn in Hn; try (cbn; lia). cbn [firstn]. rewrite zsum_cons, IH; [|intros; apply He; now right|lia]. rewrite (He h) by now left. lia.
Qed.
(** Without scroll padding a list of items of the same height shows as many items as fit, from the place on that scrolling leads to. *)
Theorem C23_equal_items hs d selected offset max_h : (forall h, In h hs -> h = d) -> 0 < d <= max_h -> hs <> [] -> 0 <= offset -> (forall s, selected = Some s -> 0 <= s < zlen hs) ->
  let k := max_h / d in let first := scrolled k (Z.min offset (zlen hs - 1)) selected in
  get_items_bounds hs 0 selected offset max_h = Ret (first, Z.min (zlen hs) (first + k)).
Proof.
  intros He Hd Hne Ho Hsel. cbv zeta. set (k := max_h / d).
  assert (Hk : forall z, d * z <= max_h <-> z <= k). { intros z. unfold k. split; intros; [apply Z.div_le_lower_bound; lia|]. pose proof (Z.mul_div_le max_h d ltac:(lia)). nia. }
  assert (Hk1 : 1 <= k) by (apply Hk; lia). clearbody k.
  set (N := zlen hs) in *. assert (HN : 0 < N) by (unfold N; destruct hs; [congruence|rewrite zlen_cons; pose proof (zlen_nonneg hs); lia]).
  assert (Hpos : forall x, In x hs -> 0 <= x) by (intros x I; rewrite (He x I); lia). assert (Hmax : 0 <= max_h) by lia.
  assert (PE : forall i, 0 <= i <= N -> psum hs i = d * i) by (intros; now apply psum_equal).
  unfold get_items_bounds. fold N. rewrite (Z.max_r 0 (N - 1)) by lia.
  set (o := Z.min offset (N - 1)). assert (HO : 0 <= o < N) by (unfold o; lia). clearbody o.
  unfold skip. fold N. rewrite Z.geb_leb. replace (N <=? o) with false by (symmetry; apply Z.leb_gt; lia).
  replace (o <? 0) with false by (symmetry; apply Z.ltb_ge; lia). cbn [bind].
  destruct (fit_loop_ok hs max_h (skipn (Z.to_nat o) hs) o 0 o eq_refl ltac:(lia) eq_refl Hmax ltac:(fold N; lia)) as (h & last & -> & L1 & -> & L2 & L3). fold N in L1, L3.
  assert (EL : last = Z.min N (o + k)).
  { rewrite !PE in L2 by lia. assert (last - o <= k) by (apply Hk; lia). destruct L3 as [->|L3]; [lia|]. destruct (Z.le_gt_cases N last) as [|Lt]; [lia|]. rewrite !PE in L3 by lia. assert (~ last + 1 - o <= k) by (intros X; apply Hk in X; lia). lia. }
  replace (0 + (psum hs last - psum hs o)) with (psum hs last - psum hs o) in * by lia.
  assert (D : match selected with None => Ret o | Some s => apply_padding hs 0 s max_h o last end = Ret (match selected with None => o | Some s => s end)).
  { destruct selected as [s|]; [|reflexivity]. specialize (Hsel s eq_refl). unfold apply_padding. fold N. rewrite (Z.max_r 0 (N - 1)) by lia. rewrite (Z.min_l s) by lia. change (0 >? 0) with false. cbv iota. cbn [bind]. rewrite Z.geb_leb.
    f_equal. destruct (Z.leb_spec last (Z.min (N - 1) (s + 0))), (Z.ltb_spec (Z.max 0 (s - 0)) o); lia. }
  rewrite D. cbn [bind]. clear D. set (idx := match selected with None => o | Some s => s end). assert (HI : 0 <= idx < N) by (unfold idx; destruct selected; [now apply Hsel|lia]).
  assert (ES : scrolled k o selected = if idx <? o then idx else if o + k <=? idx then idx + 1 - k else o).
  { unfold scrolled, idx. destruct selected; [reflexivity|]. rewrite Z.ltb_irrefl. replace (o + k <=? o) with false by (symmetry; apply Z.leb_gt; lia). reflexivity. }
  rewrite ES. clear ES. clearbody idx. clear Hsel selected.
  match goal with |- context [ofold ?F (zrange last (idx + 1)) ?S] => change (ofold F (zrange last (idx + 1)) S) with (loop1 hs max_h last (idx + 1) (psum hs last - psum hs o, o)) end.
  destruct (Z.le_gt_cases last idx) as [Below|Notbelow].
  - destruct (loop1_ok hs max_h Hpos Hmax (Z.to_nat (idx + 1 - last)) o o last (idx + 1) eq_refl ltac:(lia) ltac:(lia) ltac:(lia) ltac:(fold N; lia) L2 (or_introl eq_refl)) as (f1 & -> & F1 & F2 & F3). cbn [bind].
    assert (EF : f1 = idx + 1 - k). { rewrite !PE in F2 by lia. assert (idx + 1 - f1 <= k) by (apply Hk; lia). destruct F3 as [->|F3]; [lia|]. destruct (Z.le_gt_cases f1 0) as [Z0|Z0]; [lia|]. rewrite !PE in F3 by lia. assert (~ idx + 1 - (f1 - 1) <= k) by (intros X; apply Hk in X; lia). lia. }
    rewrite (zrange_nil idx f1) by lia. cbn [rev ofold bind]. replace (idx <? o) with false by (symmetry; apply Z.ltb_ge; lia). replace (o + k <=? idx) with true by (symmetry; apply Z.leb_le; lia). f_equal. f_equal; lia.
  - unfold loop1. rewrite (zrange_nil last (idx + 1)) by lia. cbn [ofold bind]. rewrite Z.max_l by lia.
    match goal with |- context [ofold ?F (rev (zrange idx o)) ?S] => change (ofold F (rev (zrange idx o)) S) with (loop2 hs max_h idx o (psum hs last - psum hs o, last)) end.
    destruct (Z.ltb_spec idx o) as [Above|In_].
    + destruct (loop2_ok hs max_h Hpos Hmax (Z.to_nat (o - idx)) last last idx o eq_refl ltac:(lia) ltac:(lia) ltac:(lia) ltac:(fold N; lia) L2 (or_introl eq_refl)) as (l2 & -> & G1 & G2 & G3). cbn [bind].
      assert (E2 : l2 = Z.min N (idx + k)). { rewrite !PE in G2 by lia. assert (l2 - idx <= k) by (apply Hk; lia). destruct G3 as [->|G3]; [lia|]. destruct (Z.le_gt_cases N l2) as [|Lt]; [lia|]. rewrite !PE in G3 by lia. assert (~ l2 + 1 - idx <= k) by (intros X; apply Hk in X; lia). lia. }
      f_equal. f_equal; lia.
    + unfold loop2. rewrite (zrange_nil idx o) by lia. cbn [rev ofold bind]. replace (o + k <=? idx) with false by (symmetry; apply Z.leb_gt; lia). f_equal. f_equal; lia.
Qed.
Print Assumptions C23_equal_items.
Example C23_equal_instance : get_items_bounds [2; 2; 2; 2; 2] 0 (Some 4) 1 5 = Ret (3, 5) /\ get_items_bounds [2; 2; 2; 2; 2] 0 (Some 0) 3 5 = Ret (0, 2) /\ get_items_bounds [2; 2; 2; 2; 2] 0 None 9 5 = Ret (4, 5).
Proof. vm_compute. auto. Qed.
