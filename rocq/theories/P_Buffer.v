(** Lemmas about buffers. *)
From Verif Require Import Base M_Geom S_Geom M_Style M_Uniseg M_Buffer S_Buffer P_Base T_Geom.
From Coq Require Import ZArith NArith List Bool Lia.
Import ListNotations.
Open Scope Z_scope.

Definition pos_eq_dec (p q : pos) : {p = q} + {p <> q}.
Proof. decide equality; apply Z.eq_dec. Defined.

Definition idx (r : rect) (p : pos) : Z := (py p - ry r) * rw r + (px p - rx r).

Lemma idx_range r p : inside p r -> 0 <= idx r p < rw r * rh r.
Proof. unfold inside, idx. intros [H1 H2]. nia. Qed.

Lemma idx_inj r p q : inside p r -> inside q r -> idx r p = idx r q -> p = q.
Proof.
  unfold inside, idx. destruct p as [x y], q as [x' y']; cbn. intros [H1 H2] [H3 H4] E.
  assert (y - ry r = y' - ry r).
  { apply (Z.div_mod_unique (rw r) _ _ (x - rx r) (x' - rx r)); lia. }
  f_equal; nia.
Qed.

Lemma idx_surj r i : 0 <= i < rw r * rh r -> 0 <= rw r -> 
  let p := Pos (rx r + i mod rw r) (ry r + i / rw r) in inside p r /\ idx r p = i.
Proof.
  intros H Hw p. assert (0 < rw r) by (destruct (Z.eq_dec (rw r) 0) as [E|E]; [rewrite E in H; lia|lia]). unfold inside, idx, p; cbn.
  pose proof (Z.mod_pos_bound i (rw r) ltac:(lia)). pose proof (Z.div_mod i (rw r) ltac:(lia)).
  assert (0 <= i / rw r) by (apply Z.div_pos; lia).
  assert (i / rw r < rh r) by (apply Z.div_lt_upper_bound; lia).
  split; [split; lia|]. lia.
Qed.

Lemma look_inside_eq b p : inside p (barea b) -> look b p = nth_error (bcells b) (Z.to_nat (idx (barea b) p)).
Proof.
  unfold look, inside, idx. intros H.
  replace ((_ && _ && _ && _)%bool) with true; [reflexivity|].
  symmetry. rewrite !andb_true_iff, !Z.leb_le, !Z.ltb_lt. lia.
Qed.

Lemma look_outside b p : ~ inside p (barea b) -> look b p = None.
Proof.
  unfold look, inside. intros H.
  destruct ((_ && _ && _ && _)%bool) eqn:E; [|reflexivity].
  rewrite !andb_true_iff, !Z.leb_le, !Z.ltb_lt in E. lia.
Qed.

Lemma look_inside b p : wf_buffer b -> inside p (barea b) -> exists c, look b p = Some c.
Proof.
  intros [Hs Hl] Hp. rewrite look_inside_eq by auto. pose proof (idx_range _ _ Hp).
  destruct (nth_error _ _) eqn:E; eauto. apply nth_error_None in E. unfold zlen in Hl. lia.
Qed.

Lemma look_Some_inside b p c : look b p = Some c -> inside p (barea b).
Proof.
  intros H. destruct (contains (barea b) p) eqn:E; [now apply contains_inside|].
  apply contains_false in E. rewrite look_outside in H by auto. discriminate.
Qed.

Lemma index_of_inside b p : inside p (barea b) -> index_of b p = Ret (idx (barea b) p).
Proof.
  intros H. unfold index_of. rewrite (proj2 (contains_inside _ _) H). unfold idx, inside in *. f_equal.
  rewrite !Z.max_r by lia. reflexivity.
Qed.

Lemma index_of_outside b p : ~ inside p (barea b) -> index_of b p = Panic.
Proof. intros H. unfold index_of. rewrite (proj2 (contains_false _ _) H). reflexivity. Qed.

Lemma cell_at_look b p : cell_at b p = match look b p with Some c => Ret c | None => Panic end.
Proof.
  unfold cell_at. destruct (contains (barea b) p) eqn:E.
  - apply contains_inside in E. rewrite index_of_inside by auto. cbn.
    rewrite look_inside_eq by auto. unfold index_at. pose proof (idx_range _ _ E).
    replace (idx (barea b) p <? 0) with false by (symmetry; apply Z.ltb_ge; lia). reflexivity.
  - apply contains_false in E. rewrite index_of_outside, look_outside; auto.
Qed.

Lemma upd_cell_spec b p f : wf_buffer b -> inside p (barea b) ->
  exists b', upd_cell b p f = Ret b' /\ changed_exactly (fun q => q = p) (fun _ => f) b b'.
Proof.
  intros [Hs Hl] Hp. unfold upd_cell. rewrite index_of_inside by auto. cbn.
  pose proof (idx_range _ _ Hp) as Hr.
  destruct (index_at_ok (bcells b) (idx (barea b) p)) as [c Hc]; [lia|]. rewrite Hc. cbn.
  eexists; split; [reflexivity|]. apply index_at_Ret in Hc. destruct Hc as [_ Hc].
  repeat split; cbn.
  - apply Hs.
  - apply Hs.
  - unfold zlen in *. rewrite list_update_length. exact Hl.
  - intros q ->. rewrite !look_inside_eq by auto. cbn. rewrite Hc. cbn. now apply list_update_nth_eq.
  - intros q Hq. destruct (contains (barea b) q) eqn:E.
    + apply contains_inside in E. rewrite !look_inside_eq by auto. cbn.
      apply list_update_nth_ne. intros Heq. apply Hq.
      apply (idx_inj (barea b)); auto. pose proof (idx_range _ _ E). lia.
    + apply contains_false in E. rewrite !look_outside by auto. reflexivity.
Qed.

Lemma upd_cell_panic b p f : ~ inside p (barea b) -> upd_cell b p f = Panic.
Proof. intros H. unfold upd_cell. now rewrite index_of_outside. Qed.

Lemma upd_cell_Ret b p f b' : wf_buffer b -> upd_cell b p f = Ret b' ->
  inside p (barea b) /\ changed_exactly (fun q => q = p) (fun _ => f) b b'.
Proof.
  intros Hwf H. destruct (contains (barea b) p) eqn:E.
  - apply contains_inside in E. destruct (upd_cell_spec b p f Hwf E) as [b'' [H1 H2]].
    rewrite H in H1. injection H1 as ->. auto.
  - apply contains_false in E. rewrite upd_cell_panic in H by auto. discriminate.
Qed.

Lemma buffer_ext a b : wf_buffer a -> wf_buffer b -> barea a = barea b -> (forall p, look a p = look b p) -> a = b.
Proof.
  destruct a as [ra ca], b as [rb cb]; cbn. intros [Sa La] [Sb Lb] <- H. cbn in *. f_equal.
  apply (nth_ext _ _ empty_cell empty_cell).
  - unfold zlen in *; lia.
  - intros n Hn. unfold zlen in *. destruct Sa.
    destruct (idx_surj ra (Z.of_nat n)) as [Hi Hx]; [lia|lia|].
    specialize (H (Pos (rx ra + Z.of_nat n mod rw ra) (ry ra + Z.of_nat n / rw ra))).
    rewrite !look_inside_eq in H by auto. cbn [barea bcells] in H.
    rewrite Hx in H. rewrite Nat2Z.id in H.
    rewrite (nth_error_nth' _ empty_cell) in H by lia. rewrite (nth_error_nth' _ empty_cell) in H by lia.
    now injection H.
Qed.

Lemma changed_exactly_refl S f b : wf_buffer b -> (forall p, ~ S p) -> changed_exactly S f b b.
Proof.
  intros H N. split; [reflexivity|]. split; [exact H|]. split; intros p Hp; [now destruct (N p)|reflexivity].
Qed.

Lemma changed_exactly_wf S f b b' : changed_exactly S f b b' -> wf_buffer b'.
Proof. intros H; apply H. Qed.
Lemma changed_exactly_area S f b b' : changed_exactly S f b b' -> barea b' = barea b.
Proof. intros H; apply H. Qed.

Lemma changed_exactly_only S f b b' : changed_exactly S f b b' -> changed_only S b b'.
Proof. intros (A & B & C & D). repeat split; auto; apply B. Qed.

Lemma changed_only_refl S b : wf_buffer b -> changed_only S b b.
Proof. intros H; repeat split; apply H. Qed.

Lemma changed_only_trans S a b c : changed_only S a b -> changed_only S b c -> changed_only S a c.
Proof.
  intros (A & B & C) (A' & B' & C'). split; [congruence|]. split; [auto|].
  intros p Hp. rewrite C', C; auto.
Qed.

Lemma changed_only_weaken (S T : pos -> Prop) a b : (forall p, S p -> T p) -> changed_only S a b -> changed_only T a b.
Proof. intros H (A & B & C). split; [auto|]. split; [auto|]. intros p Hp. apply C. auto. Qed.

(** A loop writing each position of a duplicate-free list once. *)
Lemma ofold_upd_spec (f : pos -> cell -> cell) ps : NoDup ps -> forall b, wf_buffer b ->
  (forall p, In p ps -> inside p (barea b)) ->
  exists b', ofold (fun b p => upd_cell b p (f p)) ps b = Ret b' /\ changed_exactly (fun p => In p ps) f b b'.
Proof.
  induction 1 as [|p ps Hnin Hnd IH]; intros b Hwf Hin.
  - exists b. split; [reflexivity|]. apply changed_exactly_refl; auto.
  - cbn [ofold]. destruct (upd_cell_spec b p (f p) Hwf) as [b1 [E1 (A1 & W1 & C1 & D1)]]; [apply Hin; now left|].
    rewrite E1. cbn [bind].
    destruct (IH b1 W1) as [b2 [E2 (A2 & W2 & C2 & D2)]].
    { intros q Hq. rewrite A1. apply Hin. now right. }
    exists b2. split; [exact E2|]. split; [congruence|]. split; [auto|]. split.
    + intros q [<-|Hq].
      * rewrite D2 by auto. apply C1. reflexivity.
      * rewrite C2 by auto. rewrite D1; [reflexivity|]. intros ->. auto.
    + intros q Hq. cbn in Hq. rewrite D2 by auto. apply D1. intros ->. auto.
Qed.

Definition prod_list {A B C} (g : A -> B -> C) (la : list A) (lb : list B) : list C :=
  flat_map (fun a => map (g a) lb) la.

Lemma ofold_map {A B S} (f : S -> B -> outcome S) (g : A -> B) l s :
  ofold f (map g l) s = ofold (fun s a => f s (g a)) l s.
Proof. revert s; induction l; intros s; cbn; auto. destruct (f s (g a)); cbn; auto. Qed.

Lemma ofold_nested {A B C S} (f : S -> C -> outcome S) (g : A -> B -> C) la lb s :
  ofold (fun s a => ofold (fun s b => f s (g a b)) lb s) la s = ofold f (prod_list g la lb) s.
Proof.
  revert s; induction la; intros s; cbn; auto.
  rewrite ofold_app, ofold_map. destruct (ofold _ lb s); cbn; auto.
Qed.

Lemma ofold_ext {A S} (f g : S -> A -> outcome S) l s : (forall s a, f s a = g s a) -> ofold f l s = ofold g l s.
Proof. intros H. revert s; induction l; intros s; cbn; auto. rewrite H. destruct (g s a); cbn; auto. Qed.

Lemma prod_list_In {A B C} (g : A -> B -> C) la lb c :
  In c (prod_list g la lb) <-> exists a b, In a la /\ In b lb /\ g a b = c.
Proof.
  unfold prod_list. rewrite in_flat_map. split.
  - intros [a [Ha H]]. apply in_map_iff in H. destruct H as [b [<- Hb]]. eauto.
  - intros (a & b & Ha & Hb & <-). exists a. split; auto. now apply in_map.
Qed.

Lemma NoDup_app_intro {A} (l m : list A) : NoDup l -> NoDup m -> (forall a, In a l -> In a m -> False) -> NoDup (l ++ m).
Proof.
  induction 1; cbn; auto. intros Hm Hd. constructor.
  - rewrite in_app_iff. intros [?|?]; [auto|]. apply (Hd x); auto.
  - apply IHNoDup; auto. intros; apply (Hd a); auto.
Qed.

Lemma prod_list_NoDup {A B C} (g : A -> B -> C) la lb :
  (forall a b a' b', g a b = g a' b' -> a = a' /\ b = b') -> NoDup la -> NoDup lb -> NoDup (prod_list g la lb).
Proof.
  intros Hg Ha Hb. induction Ha; cbn; [constructor|]. apply NoDup_app_intro; auto.
  - apply FinFun.Injective_map_NoDup; auto. intros b b' E. now apply Hg in E.
  - intros c H1 H2. apply in_map_iff in H1. destruct H1 as [b [<- Hb1]].
    change (In (g x b) (prod_list g l lb)) in H2.
    apply prod_list_In in H2. destruct H2 as (a & b' & Hal & _ & E). apply Hg in E. destruct E; subst. auto.
Qed.

(** All positions of a rectangle, column by column / row by row. *)
Lemma rect_loop_xy (f : cell -> cell) area b : wf_buffer b -> subrect area (barea b) ->
  exists b', ofold (fun b x => ofold (fun b y => upd_cell b (Pos x y) f) (zrange (rtop area) (rbottom area)) b)
    (zrange (rleft area) (rright area)) b = Ret b' /\ changed_exactly (fun p => inside p area) (fun _ => f) b b'.
Proof.
  intros Hwf Hsub.
  rewrite (ofold_nested (fun b p => upd_cell b p f) Pos).
  assert (I : forall p, In p (prod_list Pos (zrange (rleft area) (rright area)) (zrange (rtop area) (rbottom area))) <-> inside p area).
  { intros p. rewrite prod_list_In. unfold inside, rleft, rright, rtop, rbottom. split.
    - intros (x & y & Hx & Hy & <-). apply zrange_In in Hx, Hy. cbn. auto.
    - intros [Hx Hy]. exists (px p), (py p). rewrite !zrange_In. destruct p; cbn in *; auto. }
  destruct (ofold_upd_spec (fun _ => f) (prod_list Pos (zrange (rleft area) (rright area)) (zrange (rtop area) (rbottom area)))) with (b := b)
    as [b' [E C]]; auto.
  - apply prod_list_NoDup; try apply zrange_NoDup. intros ? ? ? ? H; now injection H.
  - intros p Hp. apply Hsub, I, Hp.
  - exists b'. split; [exact E|]. destruct C as (A & W & C & D). split; [auto|]. split; [auto|]. split.
    + intros p Hp. apply C, I, Hp.
    + intros p Hp. apply D. intros Hin. apply Hp, I, Hin.
Qed.

Lemma rect_loop_yx (f : cell -> cell) area b : wf_buffer b -> subrect area (barea b) ->
  exists b', ofold (fun b y => ofold (fun b x => upd_cell b (Pos x y) f) (zrange (rleft area) (rright area)) b)
    (zrange (rtop area) (rbottom area)) b = Ret b' /\ changed_exactly (fun p => inside p area) (fun _ => f) b b'.
Proof.
  intros Hwf Hsub.
  rewrite (ofold_nested (fun b p => upd_cell b p f) (fun y x => Pos x y)).
  assert (I : forall p, In p (prod_list (fun y x => Pos x y) (zrange (rtop area) (rbottom area)) (zrange (rleft area) (rright area))) <-> inside p area).
  { intros p. rewrite prod_list_In. unfold inside, rleft, rright, rtop, rbottom. split.
    - intros (x & y & Hx & Hy & <-). apply zrange_In in Hx, Hy. cbn. auto.
    - intros [Hx Hy]. exists (py p), (px p). rewrite !zrange_In. destruct p; cbn in *; auto. }
  destruct (ofold_upd_spec (fun _ => f) (prod_list (fun y x => Pos x y) (zrange (rtop area) (rbottom area)) (zrange (rleft area) (rright area)))) with (b := b)
    as [b' [E C]]; auto.
  - apply prod_list_NoDup; try apply zrange_NoDup. intros ? ? ? ? H; now injection H.
  - intros p Hp. apply Hsub, I, Hp.
  - exists b'. split; [exact E|]. destruct C as (A & W & C & D). split; [auto|]. split; [auto|]. split.
    + intros p Hp. apply C, I, Hp.
    + intros p Hp. apply D. intros Hin. apply Hp, I, Hin.
Qed.

Lemma new_buffer_filled_spec area c : sized area ->
  exists b, new_buffer_filled area c = Ret b /\ wf_buffer b /\ barea b = area /\
    forall p, look b p = if contains area p then Some c else None.
Proof.
  intros [Hw Hh]. unfold new_buffer_filled, rect_area. assert (0 <= rw area * rh area) by nia.
  replace (rw area * rh area <? 0) with false by (symmetry; apply Z.ltb_ge; lia).
  eexists; split; [reflexivity|]. split; [|split; [reflexivity|]].
  - split; [split; auto|]. cbn. unfold zlen. rewrite repeat_length. lia.
  - intros p. destruct (contains area p) eqn:E.
    + apply contains_inside in E. rewrite look_inside_eq by auto. cbn.
      pose proof (idx_range _ _ E). apply nth_error_repeat. lia.
    + apply contains_false in E. now apply look_outside.
Qed.

Lemma buffer_reset_spec b : wf_buffer b ->
  wf_buffer (buffer_reset b) /\ changed_exactly (fun p => inside p (barea b)) (fun _ => cell_reset) b (buffer_reset b).
Proof.
  intros [Hs Hl]. assert (W : wf_buffer (buffer_reset b)).
  { split; [exact Hs|]. cbn. now rewrite zlen_map. }
  split; [auto|]. split; [reflexivity|]. split; [auto|]. split; intros p Hp.
  - rewrite !look_inside_eq by auto. cbn. apply nth_error_map.
  - rewrite !look_outside by auto. reflexivity.
Qed.

Lemma buffer_resize_spec b area : wf_buffer b -> sized area ->
  exists b', buffer_resize b area = Ret b' /\ wf_buffer b' /\ barea b' = area /\
    bcells b' = firstn (Z.to_nat (rect_area area)) (bcells b ++ repeat empty_cell (Z.to_nat (rect_area area))).
Proof.
  intros [Hs Hl] [Hw Hh]. unfold buffer_resize, rect_area. assert (0 <= rw area * rh area) by nia.
  set (n := rw area * rh area) in *.
  destruct (zlen (bcells b) >? n) eqn:E; [apply Z.gtb_lt in E | rewrite Z.gtb_ltb in E; apply Z.ltb_ge in E].
  - replace (n <? 0) with false by (symmetry; apply Z.ltb_ge; lia).
    eexists; split; [reflexivity|]. unfold zlen in *. split; [|split; [reflexivity|]].
    + split; [split; auto|]. cbn. unfold zlen. rewrite firstn_length. fold n. lia.
    + cbn. rewrite firstn_app. replace (Z.to_nat n - length (bcells b))%nat with O by lia. cbn. now rewrite app_nil_r.
  - eexists; split; [reflexivity|]. unfold zlen in *. split; [|split; [reflexivity|]].
    + split; [split; auto|]. cbn. unfold zlen. rewrite app_length, repeat_length. fold n. lia.
    + cbn. rewrite firstn_app. rewrite firstn_all2 by lia. f_equal.
      assert (G : forall m k (c : cell), (k <= m)%nat -> firstn k (repeat c m) = repeat c k).
      { clear. induction m; intros [|k] c H; cbn; auto; try lia. f_equal. apply IHm. lia. }
      rewrite G by lia. f_equal. lia.
Qed.
