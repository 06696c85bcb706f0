From Verif Require Import Base P_Base M_Geom S_Geom T_Geom M_Style M_Uniseg M_Buffer S_Buffer S_Text P_Buffer P_SetString T_Buffer M_Text P_Text T_Text P_Redraw M_Block M_Slice M_List.
From Coq Require Import ZArith NArith List Bool Lia.
Import ListNotations.
Open Scope Z_scope.

(** ** Prefix sums *)
Definition psum (hs : list Z) (i : Z) : Z := zsum (firstn (Z.to_nat i) hs).

Lemma psum_step hs i : 0 <= i < zlen hs -> index_at hs i = Ret (psum hs (i + 1) - psum hs i).
Proof.
  intros H. unfold zlen in H. unfold psum. replace (Z.to_nat (i + 1)) with (S (Z.to_nat i)) by lia.
  unfold index_at. replace (i <? 0) with false by (symmetry; apply Z.ltb_ge; lia).
  assert (Hn : (Z.to_nat i < length hs)%nat) by lia. revert Hn. generalize (Z.to_nat i). clear. intros n. revert n.
  induction hs as [|h hs IH]; intros n Hn; cbn [length] in Hn; [lia|].
  destruct n as [|n]; cbn [nth_error firstn].
  - rewrite zsum_cons. cbn. f_equal. lia.
  - specialize (IH n ltac:(lia)). destruct (nth_error hs n); [|discriminate]. injection IH as ->. f_equal. cbn [firstn]. rewrite !zsum_cons.
    change (firstn (S n) (h :: hs)) with (h :: firstn n hs). destruct hs; cbn in *; lia.
Qed.

Lemma psum_mono hs i j : (forall x, In x hs -> 0 <= x) -> i <= j -> psum hs i <= psum hs j.
Proof.
  intros Hp Hij. unfold psum. assert (Hn : (Z.to_nat i <= Z.to_nat j)%nat) by lia. revert Hn. generalize (Z.to_nat i), (Z.to_nat j).
  clear Hij. induction hs as [|h hs IH]; intros n m Hn; [now rewrite !firstn_nil|].
  assert (0 <= h) by (apply Hp; now left).
  destruct n, m; cbn [firstn]; try lia.
  - rewrite zsum_cons. assert (0 <= zsum (firstn m hs)); [|cbn; lia]. apply zsum_nonneg. intros x Hx. apply Hp. right. rewrite <- (firstn_skipn m hs). apply in_or_app; now left.
  - rewrite !zsum_cons. specialize (IH ltac:(intros; apply Hp; now right) n m ltac:(lia)). lia.
Qed.

Lemma psum_range hs f l : 0 <= f <= l -> zsum (firstn (Z.to_nat (l - f)) (skipn (Z.to_nat f) hs)) = psum hs l - psum hs f.
Proof.
  intros H. unfold psum. rewrite <- (firstn_skipn (Z.to_nat f) hs) at 2.
  assert (E : Z.to_nat l = (Z.to_nat f + Z.to_nat (l - f))%nat) by lia. rewrite E. clear E.
  generalize (Z.to_nat f), (Z.to_nat (l - f)). intros n m. clear. rewrite firstn_skipn.
  revert hs. induction n as [|n IH]; intros hs; cbn [plus skipn firstn]; [cbn; lia|].
  destruct hs as [|h hs]; [now rewrite !firstn_nil|]. rewrite !zsum_cons. rewrite IH. lia.
Qed.

Section Window.
Variable hs : list Z.
Variable max_h : Z.
Hypothesis Hpos : forall x, In x hs -> 0 <= x.
Hypothesis Hmax : 0 <= max_h.
Let N := zlen hs.
Let P := psum hs.

Lemma P_mono i j : i <= j -> P i <= P j.
Proof. apply psum_mono. exact Hpos. Qed.

Lemma fit_loop_ok tail : forall k h last, tail = skipn (Z.to_nat k) hs -> 0 <= last -> k = last -> h <= max_h ->
  last <= N -> exists h' last', fit_loop tail max_h h last = (h', last') /\ last <= last' <= N /\ h' = h + (P last' - P last) /\ h' <= max_h /\
    (last' = N \/ h + (P (last' + 1) - P last) > max_h).
Proof.
  induction tail as [|x tail IH]; intros k h last Et H0 -> Hh HN; cbn [fit_loop].
  - exists h, last. split; [reflexivity|]. split; [lia|]. split; [lia|]. split; [auto|]. left.
    assert (length (skipn (Z.to_nat last) hs) = O) by now rewrite <- Et. rewrite skipn_length in H. unfold N, zlen in *. lia.
  - assert (Hl : last < N).
    { assert (length (skipn (Z.to_nat last) hs) = S (length tail)) by now rewrite <- Et. rewrite skipn_length in H. unfold N, zlen in *. lia. }
    assert (Ex : x = P (last + 1) - P last).
    { assert (Hi := psum_step hs last ltac:(fold N; lia)). fold P in Hi. unfold index_at in Hi. destruct (last <? 0); [discriminate|].
      assert (nth_error hs (Z.to_nat last) = Some x).
      { rewrite <- (firstn_skipn (Z.to_nat last) hs), <- Et. rewrite nth_error_app2; rewrite firstn_length; unfold N, zlen in *; [|lia].
        replace (Z.to_nat last - Nat.min (Z.to_nat last) (length hs))%nat with O by lia. reflexivity. }
      rewrite H in Hi. now injection Hi. }
    rewrite Z.gtb_ltb. destruct (Z.ltb_spec max_h (h + x)).
    + exists h, last. repeat split; try lia; auto.
    + destruct (IH (last + 1) (h + x) (last + 1)) as (h' & l' & E & ? & ? & ? & ?); try lia.
      * replace (Z.to_nat (last + 1)) with (S (Z.to_nat last)) by lia.
        assert (E2 : skipn 1 (skipn (Z.to_nat last) hs) = tail) by now rewrite <- Et. rewrite <- E2.
        clear. revert hs. induction (Z.to_nat last) as [|n IHn]; intros [|a l]; cbn [skipn]; auto. apply IHn.
      * exists h', l'. split; [exact E|]. repeat split; try lia.
Qed.

Lemma drop_first_ok n : forall h first l, 0 <= first <= l -> l <= N -> h = P l - P first -> (Z.to_nat (N - first) <= n)%nat ->
  exists f', drop_first n hs max_h h first = Ret (P l - P f', f') /\ first <= f' <= l /\ P l - P f' <= max_h /\
    (f' = first \/ P l - P (f' - 1) > max_h).
Proof.
  induction n as [|n IH]; intros h first l Hf Hl Hh Hn; cbn [drop_first]; rewrite Z.gtb_ltb; destruct (Z.ltb_spec max_h h).
  - exfalso. assert (first = l) by lia. subst. lia.
  - exists first. subst h. repeat split; auto; lia.
  - assert (first < l) by (destruct (Z.eq_dec first l); [subst; lia|lia]).
    rewrite (psum_step hs first) by (fold N; lia). fold P. cbn [bind].
    pose proof (P_mono (first + 1) l ltac:(lia)).
    rewrite Z.max_r by lia.
    destruct (IH (h - (P (first + 1) - P first)) (first + 1) l) as (f' & E & ? & ? & ?); try lia.
    exists f'. split; [exact E|]. repeat split; try lia. destruct (Z.eq_dec f' (first + 1)); [right; subst; replace (first + 1 - 1) with first by lia; lia|]. lia.
  - exists first. subst h. repeat split; auto; lia.
Qed.

Lemma drop_last_ok n : forall h first l, 0 <= first <= l -> l <= N -> h = P l - P first -> (Z.to_nat l <= n)%nat ->
  exists l', drop_last n hs max_h h l = Ret (P l' - P first, l') /\ first <= l' <= l /\ P l' - P first <= max_h /\
    (l' = l \/ P (l' + 1) - P first > max_h).
Proof.
  induction n as [|n IH]; intros h first l Hf Hl Hh Hn; cbn [drop_last]; rewrite Z.gtb_ltb; destruct (Z.ltb_spec max_h h).
  - exfalso. assert (first = l) by lia. subst. lia.
  - exists l. subst h. repeat split; auto; lia.
  - assert (first < l) by (destruct (Z.eq_dec first l); [subst; lia|lia]).
    rewrite (psum_step hs (l - 1)) by (fold N; lia). fold P. cbn [bind]. replace (l - 1 + 1) with l by lia.
    pose proof (P_mono first (l - 1) ltac:(lia)).
    rewrite Z.max_r by lia.
    destruct (IH (h - (P l - P (l - 1))) first (l - 1)) as (l' & E & ? & ? & ?); try lia.
    exists l'. split; [exact E|]. repeat split; try lia. destruct (Z.eq_dec l' (l - 1)); [right; subst l'; replace (l - 1 + 1) with l by lia; lia|]. lia.
  - exists l. subst h. repeat split; auto; lia.
Qed.

Definition loop1 (lo hi : Z) (st : Z * Z) : outcome (Z * Z) :=
  ofold (fun (st : Z * Z) last => let (h, first) := st in let! x := index_at hs last in
    drop_first (Z.to_nat (zlen hs - first)) hs max_h (h + x) first) (zrange lo hi) st.
Definition loop2 (lo hi : Z) (st : Z * Z) : outcome (Z * Z) :=
  ofold (fun (st : Z * Z) first => let (h, last) := st in let! x := index_at hs first in
    drop_last (Z.to_nat last) hs max_h (h + x) last) (rev (zrange lo hi)) st.

(** The least start from which the window up to [l] fits. *)
Lemma loop1_ok (k : nat) : forall f0 first lo hi, Z.to_nat (hi - lo) = k -> 0 <= f0 <= first -> first <= lo -> lo <= hi -> hi <= N ->
  P lo - P first <= max_h -> (first = f0 \/ P lo - P (first - 1) > max_h) ->
  exists f', loop1 lo hi (P lo - P first, first) = Ret (P hi - P f', f') /\ first <= f' <= hi /\ P hi - P f' <= max_h /\
    (f' = f0 \/ P hi - P (f' - 1) > max_h).
Proof.
  induction k as [|k IH]; intros f0 first lo hi Ek Hf Hl Hlh HN Hfit Hmin.
  - assert (lo = hi) by lia. subst. unfold loop1. rewrite zrange_nil by lia. cbn. exists first. repeat split; auto; lia.
  - unfold loop1. rewrite zrange_cons by lia. cbn [ofold]. rewrite (psum_step hs lo) by (fold N; lia). fold P. cbn [bind].
    destruct (drop_first_ok (Z.to_nat (zlen hs - first)) (P lo - P first + (P (lo + 1) - P lo)) first (lo + 1)) as (f1 & E1 & ? & ? & M1); try lia.
    rewrite E1. cbn [bind].
    destruct (IH f0 f1 (lo + 1) hi) as (f' & E & ? & ? & ?); try lia.
    { pose proof (P_mono lo (lo + 1) ltac:(lia)). destruct M1 as [->|M1]; [|right; exact M1]. destruct Hmin as [->|Hmin]; [now left|right]. lia. }
    exists f'. split; [exact E|]. repeat split; try lia.
Qed.

(** The greatest end up to which the window from [lo] fits. *)
Lemma loop2_ok (k : nat) : forall l0 last lo hi, Z.to_nat (hi - lo) = k -> last <= l0 -> 0 <= lo <= hi -> hi <= last -> last <= N ->
  P last - P hi <= max_h -> (last = l0 \/ P (last + 1) - P hi > max_h) ->
  exists l', loop2 lo hi (P last - P hi, last) = Ret (P l' - P lo, l') /\ lo <= l' <= last /\ P l' - P lo <= max_h /\
    (l' = l0 \/ P (l' + 1) - P lo > max_h).
Proof.
  induction k as [|k IH]; intros l0 last lo hi Ek Hl0 Hl Hh HN Hfit Hmin.
  - assert (lo = hi) by lia. subst. unfold loop2. rewrite zrange_nil by lia. cbn. exists last. repeat split; auto; lia.
  - unfold loop2. assert (Ez : zrange lo hi = zrange lo (hi - 1) ++ [hi - 1]) by (rewrite <- zrange_snoc by lia; f_equal; lia).
    rewrite Ez, rev_app_distr. cbn [rev app ofold].
    rewrite (psum_step hs (hi - 1)) by (fold N; lia). fold P. cbn [bind]. replace (hi - 1 + 1) with hi by lia.
    destruct (drop_last_ok (Z.to_nat last) (P last - P hi + (P hi - P (hi - 1))) (hi - 1) last) as (l1 & E1 & ? & ? & M1); try lia.
    rewrite E1. cbn [bind].
    destruct (IH l0 l1 lo (hi - 1)) as (l' & E & ? & ? & ?); try lia.
    { pose proof (P_mono (hi - 1) hi ltac:(lia)). destruct M1 as [->|M1]; [|right; exact M1]. destruct Hmin as [->|Hmin]; [now left|right]. lia. }
    exists l'. split; [exact E|]. repeat split; try lia.
Qed.

Lemma height_around_ok from to : 0 <= from -> from <= to + 1 -> to + 1 <= N -> height_around hs from to = Ret (P (to + 1) - P from).
Proof.
  intros Hf Hft Ht. unfold height_around. remember (Z.to_nat (to + 1 - from)) as k eqn:Ek.
  assert (G : forall acc from, 0 <= from -> from <= to + 1 -> k = Z.to_nat (to + 1 - from) ->
    ofold (fun acc i => let! x := index_at hs i in Ret (acc + x)) (zrange from (to + 1)) acc = Ret (acc + (P (to + 1) - P from))).
  { clear Hf Hft Ek from. induction k as [|k IH]; intros acc from Hf Hft Ek.
    - rewrite zrange_nil by lia. cbn. assert (from = to + 1) by lia. subst. f_equal. lia.
    - rewrite zrange_cons by lia. cbn [ofold]. rewrite (psum_step hs from) by (fold N; lia). cbn [bind]. fold P. rewrite IH by lia. f_equal. lia. }
  rewrite G by auto. f_equal; lia.
Qed.

Lemma reduce_padding_ok n sel : 0 <= sel < N -> exists pad, reduce_padding n hs max_h sel = Ret pad /\ 0 <= pad <= Z.of_nat n /\
  (pad = 0 \/ P (Z.min (N - 1) (sel + pad) + 1) - P (Z.max 0 (sel - pad)) <= max_h).
Proof.
  intros Hs. induction n as [|n IH]; cbn [reduce_padding].
  - exists 0. repeat split; auto; lia.
  - rewrite (height_around_ok) by (fold N; lia). cbn [bind]. fold N.
    destruct (Z.leb_spec (P (Z.min (Z.max 0 (N - 1)) (sel + Z.of_nat (S n)) + 1) - P (Z.max 0 (sel - Z.of_nat (S n)))) max_h).
    + exists (Z.of_nat (S n)). rewrite (Z.max_r 0 (N - 1)) in * by lia. repeat split; auto; lia.
    + destruct IH as (pad & E & ? & ?). exists pad. repeat split; auto; lia.
Qed.

(** The window: for every offset, selection and padding. *)
Lemma bounds_ok padding selected offset : 0 < N -> 0 <= offset -> 0 <= padding ->
  (forall s, selected = Some s -> 0 <= s < N) ->
  exists f l, get_items_bounds hs padding selected offset max_h = Ret (f, l) /\ 0 <= f <= l /\ l <= N /\ P l - P f <= max_h /\
    (forall s, selected = Some s -> P (s + 1) - P s <= max_h -> f <= s < l) /\
    (forall s, selected = Some s -> P (s + 1) - P s > max_h -> padding = 0 -> f = s /\ l = s) /\
    (selected = None -> P (Z.min offset (N - 1) + 1) - P (Z.min offset (N - 1)) <= max_h -> f = Z.min offset (N - 1)).
Proof.
  intros HN Ho Hp Hsel. unfold get_items_bounds. fold N. rewrite (Z.max_r 0 (N - 1)) by lia.
  set (o := Z.min offset (N - 1)). assert (HO : 0 <= o < N) by (unfold o; lia).
  unfold skip. fold N. rewrite Z.geb_leb. replace (N <=? o) with false by (symmetry; apply Z.leb_gt; lia).
  replace (o <? 0) with false by (symmetry; apply Z.ltb_ge; lia). cbn [bind].
  destruct (fit_loop_ok (skipn (Z.to_nat o) hs) o 0 o eq_refl ltac:(lia) eq_refl Hmax ltac:(lia)) as (h & last & -> & L1 & -> & L2 & L3).
  replace (0 + (P last - P o)) with (P last - P o) in * by lia.
  (* the index to display *)
  assert (D : exists idx, match selected with None => Ret o | Some s => apply_padding hs padding s max_h o last end = Ret idx /\ 0 <= idx < N /\
    (selected = None -> idx = o) /\
    (forall s, selected = Some s -> exists pad, 0 <= pad <= padding /\
       (pad = 0 \/ P (Z.min (N - 1) (s + pad) + 1) - P (Z.max 0 (s - pad)) <= max_h) /\
       ((Z.min (N - 1) (s + pad) >= last /\ idx = Z.min (N - 1) (s + pad)) \/
        (Z.min (N - 1) (s + pad) < last /\ Z.max 0 (s - pad) < o /\ idx = Z.max 0 (s - pad)) \/
        (Z.min (N - 1) (s + pad) < last /\ Z.max 0 (s - pad) >= o /\ idx = s)))).
  { destruct selected as [s|].
    - specialize (Hsel s eq_refl). unfold apply_padding. fold N. rewrite (Z.max_r 0 (N - 1)) by lia. rewrite (Z.min_l s) by lia.
      assert (E : exists pad, (if padding >? 0 then reduce_padding (Z.to_nat padding) hs max_h s else Ret padding) = Ret pad /\
         0 <= pad <= padding /\ (pad = 0 \/ P (Z.min (N - 1) (s + pad) + 1) - P (Z.max 0 (s - pad)) <= max_h)).
      { rewrite Z.gtb_ltb. destruct (Z.ltb_spec 0 padding).
        - destruct (reduce_padding_ok (Z.to_nat padding) s Hsel) as (pad & ? & ? & ?). exists pad. repeat split; auto; lia.
        - exists padding. repeat split; auto; lia. }
      destruct E as (pad & -> & Hpad & Hfit). cbn [bind]. rewrite Z.geb_leb. eexists. split; [reflexivity|].
      split; [destruct (Z.leb_spec last (Z.min (N - 1) (s + pad))), (Z.ltb_spec (Z.max 0 (s - pad)) o); lia|].
      split; [discriminate|]. intros s' E'. injection E' as <-. exists pad. split; [auto|]. split; [auto|].
      destruct (Z.leb_spec last (Z.min (N - 1) (s + pad))); [left; lia|]. right.
      destruct (Z.ltb_spec (Z.max 0 (s - pad)) o); [left|right]; lia.
    - exists o. split; [reflexivity|]. split; [lia|]. split; [auto|]. discriminate. }
  destruct D as (idx & -> & HI & D0 & D1). cbn [bind].
  match goal with |- context [ofold ?F (zrange last (idx + 1)) ?S] => change (ofold F (zrange last (idx + 1)) S) with (loop1 last (idx + 1) (P last - P o, o)) end.
  (* first loop *)
  assert (L : exists f1 l1, loop1 last (idx + 1) (P last - P o, o) = Ret (P l1 - P f1, f1) /\ Z.max last (idx + 1) = l1 /\
    o <= f1 <= l1 /\ P l1 - P f1 <= max_h /\ (f1 = o \/ P l1 - P (f1 - 1) > max_h) /\ (idx < last -> f1 = o /\ l1 = last)).
  { destruct (Z.le_gt_cases last (idx + 1)).
    - destruct (loop1_ok (Z.to_nat (idx + 1 - last)) o o last (idx + 1) eq_refl) as (f1 & E & ? & ? & ?); try lia.
      exists f1, (idx + 1). split; [exact E|]. repeat split; try lia.
      + assert (last = idx + 1) by lia. subst last. unfold loop1 in E. rewrite zrange_nil in E by lia. cbn in E. injection E as _ E. lia.
    - exists o, last. unfold loop1. rewrite zrange_nil by lia. cbn. repeat split; auto; lia. }
  destruct L as (f1 & l1 & -> & El1 & F1 & F2 & F3 & F4). cbn [bind]. rewrite El1.
  match goal with |- context [ofold ?F (rev (zrange idx f1)) ?S] => change (ofold F (rev (zrange idx f1)) S) with (loop2 idx f1 (P l1 - P f1, l1)) end.
  assert (HL1 : l1 <= N) by lia.
  assert (L : exists l2, loop2 idx f1 (P l1 - P f1, l1) = Ret (P l2 - P (Z.min f1 idx), l2) /\ Z.min f1 idx <= l2 <= l1 /\
     P l2 - P (Z.min f1 idx) <= max_h /\ (l2 = l1 \/ P (l2 + 1) - P (Z.min f1 idx) > max_h) /\ (f1 <= idx -> l2 = l1)).
  { destruct (Z.le_gt_cases idx f1).
    - destruct (loop2_ok (Z.to_nat (f1 - idx)) l1 l1 idx f1 eq_refl) as (l2 & E & ? & ? & ?); try lia.
      exists l2. rewrite Z.min_r by lia. split; [exact E|]. repeat split; try lia.
      intros. assert (f1 = idx) by lia. subst f1. unfold loop2 in E. rewrite zrange_nil in E by lia. cbn in E. injection E as _ E. lia.
    - exists l1. unfold loop2. rewrite zrange_nil by lia. cbn. rewrite Z.min_l by lia. repeat split; auto; lia. }
  destruct L as (l2 & -> & G1 & G2 & G3 & G4). cbn [bind].
  exists (Z.min f1 idx), l2. split; [reflexivity|]. split; [lia|]. split; [lia|]. split; [exact G2|].
  split; [|split].
  - intros s Es Hfit. destruct (D1 s Es) as (pad & Hpad & Hw & Hcase). specialize (Hsel s Es).
    assert (Hw' : P (Z.min (N - 1) (s + pad) + 1) - P (Z.max 0 (s - pad)) <= max_h).
    { destruct Hw as [->|Hw]; [|exact Hw]. replace (Z.min (N - 1) (s + 0)) with s by lia. replace (Z.max 0 (s - 0)) with s by lia. lia. }
    set (to := Z.min (N - 1) (s + pad)) in *. set (from := Z.max 0 (s - pad)) in *.
    assert (from <= s <= to) by (unfold from, to; lia).
    destruct Hcase as [[C1 ->]|[(C1 & C2 & ->)|(C1 & C2 & ->)]].
    + (* below the window *)
      assert (Hl1 : l1 = to + 1) by lia. clear El1 HL1. subst l1.
      assert (Hos : o <= s).
      { destruct (Z.le_gt_cases o s); [auto|exfalso]. destruct L3 as [L3|L3]; [lia|].
        pose proof (P_mono from o ltac:(lia)). pose proof (P_mono (last + 1) (to + 1) ltac:(lia)). lia. }
      assert (f1 <= s).
      { destruct (Z.le_gt_cases f1 s); [auto|exfalso]. destruct F3 as [->|F3]; [lia|].
        pose proof (P_mono from (f1 - 1) ltac:(lia)). lia. }
      rewrite G4 by lia. lia.
    + (* above the window *)
      destruct (F4 ltac:(lia)) as [-> ->]. rewrite Z.min_r in * by lia.
      split; [lia|]. destruct (Z.le_gt_cases l2 s); [exfalso|auto]. destruct G3 as [->|G3]; [lia|].
      pose proof (P_mono (l2 + 1) (to + 1) ltac:(lia)). lia.
    + destruct (F4 ltac:(lia)) as [-> ->]. rewrite G4 by lia. lia.
  - intros s Es Htall Hp0. destruct (D1 s Es) as (pad & Hpad & Hw & Hcase). specialize (Hsel s Es).
    assert (pad = 0) by lia. subst pad. replace (Z.min (N - 1) (s + 0)) with s in * by lia. replace (Z.max 0 (s - 0)) with s in * by lia.
    assert (idx = s) by lia. subst idx.
    assert (Hin : ~ (Z.min f1 s <= s /\ s + 1 <= l2)).
    { intros [H1 H2]. pose proof (P_mono (s + 1) l2 ltac:(lia)). pose proof (P_mono (Z.min f1 s) s ltac:(lia)). lia. }
    assert (l2 <= s) by lia.
    destruct (Z.le_gt_cases f1 s) as [Hf|Hf].
    + rewrite G4 in * by lia. assert (l1 >= s + 1) by lia. lia.
    + rewrite Z.min_r in * by lia. split; lia.
  - intros Es Hfit. specialize (D0 Es). subst idx. rewrite Z.min_r by lia. reflexivity.
Qed.
End Window.

(** ** Drawing *)

(** A string whose clusters can be written into [n] columns: none is invisible, and either every cluster is one column wide
    or all of them fit. *)
Definition drawable_in (u : uniseg) (s : str) (n : Z) : Prop :=
  (forall c, In c (clusters u s) -> cwidth u c = 1) \/
  ((forall c, In c (clusters u s) -> 1 <= cwidth u c) /\ widths u (clusters u s) <= n).

Lemma set_string_drawable u b x y s n st : uniseg_ok u -> wf_buffer b -> inside (Pos x y) (barea b) -> 0 <= n -> x + n <= rx (barea b) + rw (barea b) ->
  drawable_in u s n -> exists b' x', set_string_n u b x y s n st = Ret (b', (x', y)) /\
    changed_only (fun p => py p = y /\ x <= px p < x + n) b b'.
Proof.
  intros Hu W Hi Hn Hx Hd.
  assert (E : exists b' x', set_string_n u b x y s n st = Ret (b', (x', y)) /\ x' <= x + n).
  { destruct Hd as [Hd|[Hd Hd2]].
    - destruct (C11_narrow_text_never_panics u b x y s n st W Hi Hd) as (b' & x' & E & ->). exists b'. eexists. split; [exact E|]. lia.
    - destruct (C11_set_string_n_partial u b x y s n st (clusters u s) [] W Hi) as (b' & E & _); auto.
      + now rewrite app_nil_r.
      + rewrite Z.min_l by lia. exact Hd2.
      + exists b'. eexists. split; [exact E|]. lia. }
  destruct E as (b' & x' & E & Hx'). exists b', x'. split; [exact E|].
  destruct (C11_only_reported_columns_change u b x y s n st b' x' y W E) as (_ & _ & C).
  eapply changed_only_weaken; [|exact C]. cbn. intros p (Hp1 & Hp2 & _). lia.
Qed.

(** The row of an item of height [h] after items of total height [cur]. *)
Definition item_row (dir : list_direction) (area : rect) (cur h : Z) : rect :=
  match dir with
  | TopToBottom => Rect (rx area) (ry area + cur) (rw area) h
  | BottomToTop => Rect (rx area) (ry area + rh area - (cur + h)) (rw area) h
  end.

Lemma draw_item_ok u l area selected cur b i item : uniseg_ok u -> wf_buffer b -> 0 < rw area -> 0 <= cur -> cur + text_height item <= rh area ->
  (forall p, inside p area -> inside p (barea b)) -> rx area + rw area <= rx (barea b) + rw (barea b) ->
  drawable_in u (ls_hl_symbol l) (rw area) -> drawable_in u (spaces (string_width u (ls_hl_symbol l))) (rw area) ->
  let row := item_row (ls_dir l) area cur (text_height item) in
  exists b', draw_item u l area selected (cur, b) (i, item) = Ret (cur + text_height item, b') /\
    changed_only (fun p => inside p row) b b' /\
    (selected = Some i -> forall p, inside p row -> exists c, look b' p = Some (cell_set_style (ls_hl_style l) c)).
Proof.
  intros Hu W Hw Hc Hh Hin Hx Hd1 Hd2 row. unfold draw_item. cbv zeta.
  set (h := text_height item) in *. assert (0 <= h) by (unfold h, text_height; apply zlen_nonneg).
  set (y := match ls_dir l with BottomToTop => _ | TopToBottom => _ end).
  assert (Erow : Rect (rleft area) y (rw area) h = row).
  { unfold row, item_row, y, rleft, rtop, rbottom. destruct (ls_dir l); reflexivity. }
  rewrite Erow. assert (Hrow : rx row = rx area /\ ry row = y /\ rw row = rw area /\ rh row = h) by (rewrite <- Erow; auto).
  assert (Hra : forall p, inside p row -> inside p area).
  { intros p Hp. unfold row, item_row, inside in *. destruct (ls_dir l); cbn [rx ry rw rh] in Hp; lia. }
  clearbody row. destruct Hrow as (Rx & Ry & Rw & Rh).
  destruct (set_style_redrawn b row (patched (ls_style l) (tx_style item)) W) as (b1 & -> & R1). cbn [bind].
  assert (C1 : changed_only (fun p => inside p row) b b1).
  { eapply redrawn_only; [|exact R1]. intros p c Hp. cbn. apply contains_false in Hp. now rewrite Hp. }
  set (spacing := should_add _ _). set (w := string_width u (ls_hl_symbol l)) in *.
  assert (Hw0 : 0 <= w) by (apply string_width_nonneg, (cwidth_nonneg _ Hu)).
  destruct (C17_text_stays_inside u item (if spacing then Rect (rx row + w) (ry row) (Z.max 0 (rw row - w)) (rh row) else row) b1 Hu (redrawn_wf _ _ _ R1)) as (b2 & -> & C2). cbn [bind].
  assert (C2' : changed_only (fun p => inside p row) b b2).
  { eapply changed_only_trans; [exact C1|]. eapply changed_only_weaken; [|exact C2]. intros p [Hp _]. destruct spacing; [|exact Hp].
    unfold inside in *. cbn [rx ry rw rh] in Hp. lia. }
  clear C1 C2 R1 b1.
  assert (E3 : exists b3, (if spacing then
               ofold (fun b j =>
                 let! (b, _) := set_string_n u b (rleft area) (y + j)
                   (if match selected with Some s => s =? i | None => false end && ((j =? 0) || ls_repeat l) then ls_hl_symbol l else spaces w) (rw area) (patched (ls_style l) (tx_style item)) in Ret b) (zrange 0 h) b2
             else Ret b2) = Ret b3 /\ changed_only (fun p => inside p row) b b3).
  { destruct spacing; [|eauto]. apply (ofold_inv _ (changed_only (fun p => inside p row) b)); [exact C2'|].
    intros b' j Hj HC. apply zrange_In in Hj.
    match goal with |- context [set_string_n u b' _ _ ?t _ _] => set (symbol := t) end.
    assert (Hd : drawable_in u symbol (rw area)) by (unfold symbol; destruct (_ && _); auto).
    assert (A' : barea b' = barea b) by apply HC.
    destruct (set_string_drawable u b' (rleft area) (y + j) symbol (rw area) (patched (ls_style l) (tx_style item)) Hu) as (b'' & x' & E & C).
    - apply HC.
    - rewrite A'. apply Hin. apply Hra. unfold inside, rleft. cbn [px py]. lia.
    - lia.
    - rewrite A'. unfold rleft. lia.
    - exact Hd.
    - rewrite E. cbn [bind]. exists b''. split; [reflexivity|]. eapply changed_only_trans; [exact HC|].
      eapply changed_only_weaken; [|exact C]. intros p [Hp1 Hp2]. unfold inside, rleft in *. lia. }
  destruct E3 as (b3 & E3 & C3). rewrite E3. cbn [bind].
  destruct (set_style_redrawn b3 row (ls_hl_style l) (proj1 (proj2 C3))) as (b4 & E4 & R4).
  set (is_sel := match selected with Some s => s =? i | None => false end).
  exists (if is_sel then b4 else b3). split; [destruct is_sel; [rewrite E4|]; reflexivity|]. split.
  - destruct is_sel; [|exact C3]. eapply changed_only_trans; [exact C3|]. eapply redrawn_only; [|exact R4].
    intros p c Hp. cbn. apply contains_false in Hp. now rewrite Hp.
  - intros Es p Hp. unfold is_sel. rewrite Es. rewrite Z.eqb_refl. destruct R4 as (_ & _ & R4). rewrite R4.
    destruct (look_inside b3 p) as (c & ->); [apply C3| |].
    + destruct C3 as (-> & _). now apply Hin, Hra.
    + exists c. cbn. apply contains_inside in Hp. now rewrite Hp.
Qed.

Lemma draw_items_ok u l area selected items : uniseg_ok u -> 0 < rw area ->
  drawable_in u (ls_hl_symbol l) (rw area) -> drawable_in u (spaces (string_width u (ls_hl_symbol l))) (rw area) ->
  forall first cur b, wf_buffer b -> 0 <= cur -> cur + zsum (map text_height items) <= rh area ->
  (forall p, inside p area -> inside p (barea b)) -> rx area + rw area <= rx (barea b) + rw (barea b) ->
  exists cur' b', ofold (draw_item u l area selected) (indexed first items) (cur, b) = Ret (cur', b') /\
    changed_only (fun p => inside p (item_row (ls_dir l) area cur (zsum (map text_height items)))) b b' /\
    (forall k item, selected = Some (first + Z.of_nat k) -> nth_error items k = Some item ->
       forall p, inside p (item_row (ls_dir l) area (cur + zsum (map text_height (firstn k items))) (text_height item)) ->
       exists c, look b' p = Some (cell_set_style (ls_hl_style l) c)).
Proof.
  intros Hu Hw Hd1 Hd2. induction items as [|item items IH]; intros first cur b W Hc Hh Hin Hx; cbn [indexed ofold].
  - exists cur, b. split; [reflexivity|]. split; [now apply changed_only_refl|]. intros [|k] item _ E; discriminate.
  - cbn [map] in *. rewrite zsum_cons in *.
    assert (H0 : 0 <= text_height item) by apply zlen_nonneg.
    assert (H1 : 0 <= zsum (map text_height items)).
    { apply zsum_nonneg. intros z Hz. apply in_map_iff in Hz. destruct Hz as (t & <- & _). apply zlen_nonneg. }
    destruct (draw_item_ok u l area selected cur b first item Hu W Hw Hc ltac:(lia) Hin Hx Hd1 Hd2) as (b1 & -> & C1 & S1). cbn [bind].
    assert (A1 : barea b1 = barea b) by apply C1.
    destruct (IH (first + 1) (cur + text_height item) b1) as (cur' & b2 & E & C2 & S2); [apply C1|lia|lia|now rewrite A1|now rewrite A1|].
    exists cur', b2. split; [exact E|]. split.
    + eapply changed_only_trans; (eapply changed_only_weaken; [|eassumption]); cbn beta; intros p; unfold item_row, inside; destruct (ls_dir l); cbn [rx ry rw rh]; lia.
    + intros [|k] it Es Ei p Hp.
      * injection Ei as <-. cbn in Hp. rewrite Z.add_0_r in Hp. destruct (S1 ltac:(rewrite Es; f_equal; lia) p Hp) as (c & Hcl).
        exists c. destruct C2 as (_ & _ & C2). rewrite C2; [exact Hcl|]. intros Hp2. revert Hp Hp2. unfold item_row, inside; destruct (ls_dir l); cbn [rx ry rw rh]; lia.
      * cbn [nth_error firstn map] in *. rewrite zsum_cons in Hp. apply (S2 k it); [rewrite Es; f_equal; lia|exact Ei|].
        replace (cur + text_height item + zsum (map text_height (firstn k items))) with (cur + (text_height item + zsum (map text_height (firstn k items)))) by lia. exact Hp.
Qed.
