(** Buffers described cell by cell after a drawing. *)
From Verif Require Import Base P_Base M_Geom S_Geom T_Geom M_Style M_Uniseg M_Buffer S_Buffer P_Buffer M_Text P_Text.
From Coq Require Import ZArith NArith List Bool Lia.
Import ListNotations.
Open Scope Z_scope.

(** [b'] is [b] with the cell at each position [p] passed through [g p]. *)
Definition redrawn (g : pos -> cell -> cell) (b b' : buffer) : Prop :=
  barea b' = barea b /\ wf_buffer b' /\ forall p, look b' p = option_map (g p) (look b p).

Lemma redrawn_refl b : wf_buffer b -> redrawn (fun _ c => c) b b.
Proof. intros W. split; [reflexivity|]. split; [auto|]. intros p. now destruct (look b p). Qed.
Lemma redrawn_trans g h a b c : redrawn g a b -> redrawn h b c -> redrawn (fun p x => h p (g p x)) a c.
Proof.
  intros (A & W & L) (A' & W' & L'). split; [congruence|]. split; [auto|]. intros p. rewrite L', L. now destruct (look a p).
Qed.
Lemma redrawn_ext g h a b : (forall p c, inside p (barea a) -> g p c = h p c) -> redrawn g a b -> redrawn h a b.
Proof.
  intros E (A & W & L). split; [auto|]. split; [auto|]. intros p. rewrite L. destruct (look a p) eqn:El; [|reflexivity].
  cbn. f_equal. apply E. eapply look_Some_inside; eauto.
Qed.
Lemma redrawn_wf g a b : redrawn g a b -> wf_buffer b.
Proof. intros H; apply H. Qed.
Lemma redrawn_area g a b : redrawn g a b -> barea b = barea a.
Proof. intros H; apply H. Qed.

Definition pos_eqb (p q : pos) : bool := (px p =? px q) && (py p =? py q).
Lemma pos_eqb_spec p q : Bool.reflect (p = q) (pos_eqb p q).
Proof.
  unfold pos_eqb. destruct p as [x y], q as [x' y']; cbn. destruct (Z.eqb_spec x x'), (Z.eqb_spec y y'); cbn; constructor; congruence.
Qed.

Lemma upd_redrawn b p f : wf_buffer b -> inside p (barea b) ->
  exists b', upd_cell b p f = Ret b' /\ redrawn (fun q c => if pos_eqb q p then f c else c) b b'.
Proof.
  intros W I. destruct (upd_cell_spec b p f W I) as (b' & E & (A & W' & C & D)). exists b'. split; [auto|].
  split; [auto|]. split; [auto|]. intros q. destruct (pos_eqb_spec q p) as [->|N].
  - now apply C.
  - rewrite D by auto. now destruct (look b q).
Qed.

(** A loop writing one cell per index, at pairwise different positions. *)
Lemma loop_redrawn (at_ : Z -> pos) (sel : pos -> bool) f lo hi b : wf_buffer b ->
  (forall i j, at_ i = at_ j -> i = j) -> (forall i, lo <= i < hi -> inside (at_ i) (barea b)) ->
  (forall p, sel p = true <-> exists i, lo <= i < hi /\ p = at_ i) ->
  exists b', ofold (fun b i => upd_cell b (at_ i) f) (zrange lo hi) b = Ret b' /\ redrawn (fun q c => if sel q then f c else c) b b'.
Proof.
  intros W Hinj Hin Hsel.
  destruct (ofold_upd_spec (fun _ => f) (map at_ (zrange lo hi)) (FinFun.Injective_map_NoDup Hinj (zrange_NoDup lo hi)) b W) as (b' & E & (A & W' & C & D)).
  { intros p Hp. apply in_map_iff in Hp. destruct Hp as (i & <- & Hi). apply zrange_In in Hi. auto. }
  rewrite ofold_map in E. exists b'. split; [exact E|]. split; [auto|]. split; [auto|]. intros p. destruct (sel p) eqn:Es.
  - apply Hsel in Es. destruct Es as (i & Hi & ->). apply C. apply in_map. now apply zrange_In.
  - rewrite D; [now destruct (look b p)|]. intros Hp. apply in_map_iff in Hp. destruct Hp as (i & <- & Hi). apply zrange_In in Hi.
    assert (sel (at_ i) = true) by (apply Hsel; eauto). congruence.
Qed.

Lemma col_redrawn x f lo hi b : wf_buffer b -> (forall y, lo <= y < hi -> inside (Pos x y) (barea b)) ->
  exists b', ofold (fun b y => upd_cell b (Pos x y) f) (zrange lo hi) b = Ret b' /\
    redrawn (fun q c => if (px q =? x) && (lo <=? py q) && (py q <? hi) then f c else c) b b'.
Proof.
  intros W Hin. apply (loop_redrawn (fun y => Pos x y) (fun q => (px q =? x) && (lo <=? py q) && (py q <? hi))); auto.
  - intros i j E. now injection E.
  - intros [a c]. cbn. rewrite !andb_true_iff, Z.eqb_eq, Z.leb_le, Z.ltb_lt. split.
    + intros [[-> ?] ?]. exists c. auto.
    + intros (i & ? & E). injection E as -> ->. lia.
Qed.
Lemma row_redrawn y f lo hi b : wf_buffer b -> (forall x, lo <= x < hi -> inside (Pos x y) (barea b)) ->
  exists b', ofold (fun b x => upd_cell b (Pos x y) f) (zrange lo hi) b = Ret b' /\
    redrawn (fun q c => if (py q =? y) && (lo <=? px q) && (px q <? hi) then f c else c) b b'.
Proof.
  intros W Hin. apply (loop_redrawn (fun x => Pos x y) (fun q => (py q =? y) && (lo <=? px q) && (px q <? hi))); auto.
  - intros i j E. now injection E.
  - intros [a c]. cbn. rewrite !andb_true_iff, Z.eqb_eq, Z.leb_le, Z.ltb_lt. split.
    + intros [[-> ?] ?]. exists a. auto.
    + intros (i & ? & E). injection E as -> ->. lia.
Qed.

Lemma set_style_redrawn b area st : wf_buffer b ->
  exists b', buffer_set_style b area st = Ret b' /\ redrawn (fun p c => if contains area p then cell_set_style st c else c) b b'.
Proof.
  intros W. destruct (set_style_spec b area st W) as (b' & E & (A & W' & C & D)). exists b'. split; [auto|].
  split; [auto|]. split; [auto|]. intros p. destruct (contains area p) eqn:Ec.
  - apply contains_inside in Ec. destruct (contains (barea b) p) eqn:Ec2.
    + apply contains_inside in Ec2. now apply C.
    + apply contains_false in Ec2. rewrite !look_outside; auto. now rewrite A.
  - apply contains_false in Ec. rewrite D by tauto. now destruct (look b p).
Qed.

Lemma redrawn_only g (S : pos -> Prop) b b' : (forall p c, ~ S p -> g p c = c) -> redrawn g b b' -> changed_only S b b'.
Proof.
  intros H (A & W & L). split; [auto|]. split; [auto|]. intros p Hp. rewrite L. destruct (look b p); [|reflexivity]. cbn. now rewrite H.
Qed.

(** Writing the same style twice is writing it once. *)
Lemma set_style_twice st c : cell_set_style st (cell_set_style st c) = cell_set_style st c.
Proof.
  unfold cell_set_style; cbn. f_equal.
  - now destruct (sfg st).
  - now destruct (sbg st).
  - unfold bit_difference, bit_union. apply N.bits_inj. intros n. rewrite !N.ldiff_spec, !N.lor_spec, !N.ldiff_spec, N.lor_spec.
    destruct (N.testbit (cmod c) n), (N.testbit (sadd st) n), (N.testbit (ssub st) n); reflexivity.
Qed.
Lemma set_style_symbol st s c : cell_set_style st (cell_set_symbol s c) = cell_set_symbol s (cell_set_style st c).
Proof. reflexivity. Qed.
