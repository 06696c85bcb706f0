(** Property theorems C08, C09: styles. *)
From Verif Require Import Base M_Style.
From Coq Require Import ZArith NArith List Bool Lia.
Import ListNotations.

(** Bit [i] of a modifier set. *)
Definition has (m : modifier) (i : N) : bool := N.testbit m i.

(** No modifier is both added and removed. *)
Definition disjoint (s : style) : Prop := forall i, has (sadd s) i = true -> has (ssub s) i = true -> False.

(** Builder calls a user can make on a style. *)
Inductive style_op :=
| OpAdd (m : modifier) | OpRemove (m : modifier) | OpFg (c : option color) | OpBg (c : option color).

Definition run_style_op (s : style) (o : style_op) : style :=
  match o with
  | OpAdd m => with_modifier s m
  | OpRemove m => without_modifier s m
  | OpFg c => with_foreground s c
  | OpBg c => with_background s c
  end.

(** Styles obtainable from the API: builder calls and patching. *)
Inductive api_style : style -> Prop :=
| api_new : api_style new_style
| api_op s o : api_style s -> api_style (run_style_op s o)
| api_patch s t : api_style s -> api_style t -> api_style (patched s t).

Ltac bits := unfold bit_union, bit_difference, has in *; repeat first [rewrite N.lor_spec in * | rewrite N.ldiff_spec in *].

Lemma api_disjoint s : api_style s -> disjoint s.
Proof.
  induction 1 as [|s o H IH|s t Hs IHs Ht IHt]; intros i; unfold disjoint in *.
  - cbn. discriminate.
  - specialize (IH i). destruct o; cbn; bits; auto;
      destruct (N.testbit m i), (N.testbit (sadd s) i), (N.testbit (ssub s) i); cbn; auto.
  - specialize (IHs i); specialize (IHt i). cbn; bits.
    destruct (N.testbit (sadd t) i), (N.testbit (ssub t) i), (N.testbit (sadd s) i), (N.testbit (ssub s) i); cbn; auto.
Qed.

(** C08: applying a style then a patch is applying the patched style. *)
Theorem C08_patch_composes : forall s t c, api_style s -> api_style t ->
  cell_set_style (patched s t) c = cell_set_style t (cell_set_style s c).
Proof.
  intros s t c Hs Ht. apply api_disjoint in Hs, Ht. unfold cell_set_style, patched; cbn.
  f_equal.
  - destruct (sfg t); auto.
  - destruct (sbg t); auto.
  - apply N.bits_inj. intros i. specialize (Hs i); specialize (Ht i). bits.
    destruct (N.testbit (sadd t) i), (N.testbit (ssub t) i), (N.testbit (sadd s) i), (N.testbit (ssub s) i),
      (N.testbit (cmod c) i); cbn; auto; try (exfalso; auto; fail).
Qed.
Print Assumptions C08_patch_composes.

Theorem C08_patch_assoc : forall s t u, api_style s -> api_style t -> api_style u ->
  patched (patched s t) u = patched s (patched t u).
Proof.
  intros s t u Hs Ht Hu. apply api_disjoint in Hs, Ht, Hu. unfold patched; cbn. f_equal.
  - destruct (sfg u); auto.
  - destruct (sbg u); auto.
  - apply N.bits_inj. intros i. specialize (Ht i); specialize (Hu i). bits.
    destruct (N.testbit (sadd t) i), (N.testbit (ssub t) i), (N.testbit (sadd s) i),
      (N.testbit (sadd u) i), (N.testbit (ssub u) i); cbn; auto; try (exfalso; auto; fail).
  - apply N.bits_inj. intros i. specialize (Ht i); specialize (Hu i). bits.
    destruct (N.testbit (sadd t) i), (N.testbit (ssub t) i), (N.testbit (ssub s) i),
      (N.testbit (sadd u) i), (N.testbit (ssub u) i); cbn; auto; try (exfalso; auto; fail).
Qed.
Print Assumptions C08_patch_assoc.

Theorem C08_patch_identity : forall s, patched s new_style = s /\ patched new_style s = s.
Proof.
  intros [f b a r]; unfold patched; cbn; split; f_equal; try (destruct f); try (destruct b); auto;
    apply N.bits_inj; intros i; bits; cbn; rewrite ?N.bits_0; cbn; rewrite ?andb_true_r, ?orb_false_r; auto.
Qed.
Print Assumptions C08_patch_identity.


Example C08_example : let s := without_modifier (with_modifier new_style 5%N) 4%N in
  let t := with_foreground (with_modifier new_style 4%N) (Some (ColAnsi 1%N)) in
  api_style s /\ api_style t /\
  cell_set_style (patched s t) (Cell [65%N] (Some ColReset) None 2%N false)
    = Cell [65%N] (Some (ColAnsi 1%N)) None 7%N false.
Proof.
  cbn zeta. split; [|split].
  - apply (api_op _ (OpRemove 4%N)), (api_op _ (OpAdd 5%N)), api_new.
  - apply (api_op _ (OpFg _)), (api_op _ (OpAdd 4%N)), api_new.
  - reflexivity.
Qed.

(** C09: what the last call that names modifier [i] asked for; [None] if no call names it. *)
Fixpoint last_request (ops : list style_op) (i : N) : option bool :=
  match ops with
  | [] => None
  | o :: rest =>
      match last_request rest i with
      | Some b => Some b
      | None => match o with
                | OpAdd m => if has m i then Some true else None
                | OpRemove m => if has m i then Some false else None
                | _ => None
                end
      end
  end.

Lemma run_style_ops_bits ops s i : disjoint s ->
  let s' := fold_left run_style_op ops s in
  match last_request ops i with
  | Some true => has (sadd s') i = true /\ has (ssub s') i = false
  | Some false => has (sadd s') i = false /\ has (ssub s') i = true
  | None => has (sadd s') i = has (sadd s) i /\ has (ssub s') i = has (ssub s) i
  end.
Proof.
  revert s; induction ops as [|o ops IH]; intros s Hs; cbn; auto.
  assert (Hs' : disjoint (run_style_op s o)).
  { intros j. specialize (Hs j). destruct o; cbn; bits; auto;
      destruct (N.testbit m j), (N.testbit (sadd s) j), (N.testbit (ssub s) j); cbn; auto. }
  specialize (IH _ Hs'). cbn in IH. destruct (last_request ops i) as [[]|]; auto.
  destruct IH as [-> ->]. destruct o; cbn; bits; auto; destruct (N.testbit m i); cbn;
    rewrite ?orb_true_r, ?andb_false_r, ?andb_true_r, ?orb_false_r; auto.
Qed.

Theorem C09_last_request_wins : forall ops c i,
  has (cmod (cell_set_style (fold_left run_style_op ops new_style) c)) i =
  match last_request ops i with Some b => b | None => has (cmod c) i end.
Proof.
  intros ops c i. assert (D : disjoint new_style) by (apply api_disjoint, api_new).
  pose proof (run_style_ops_bits ops new_style i D) as H. cbn zeta in H.
  cbn. bits. destruct (last_request ops i) as [[]|]; destruct H as [Ha Hb]; unfold has in *; rewrite Ha, Hb; cbn;
    rewrite ?N.bits_0, ?orb_true_r, ?orb_false_r, ?andb_true_r, ?andb_false_r; reflexivity.
Qed.
Print Assumptions C09_last_request_wins.

Theorem C09_added_removed_disjoint : forall s i, api_style s -> has (sadd s) i && has (ssub s) i = false.
Proof.
  intros s i H. apply api_disjoint in H. specialize (H i).
  destruct (has (sadd s) i), (has (ssub s) i); auto. now destruct (H eq_refl eq_refl).
Qed.
Print Assumptions C09_added_removed_disjoint.

(** The colours of a style are those of the last colour calls; symbol and skip flag of a cell are never touched. *)
Theorem C09_style_keeps_symbol : forall s c,
  csym (cell_set_style s c) = csym c /\ cskip (cell_set_style s c) = cskip c.
Proof. intros; split; reflexivity. Qed.
Print Assumptions C09_style_keeps_symbol.

Fixpoint last_fg (ops : list style_op) : option (option color) :=
  match ops with
  | [] => None
  | o :: rest => match last_fg rest with Some c => Some c | None => match o with OpFg c => Some c | _ => None end end
  end.
Fixpoint last_bg (ops : list style_op) : option (option color) :=
  match ops with
  | [] => None
  | o :: rest => match last_bg rest with Some c => Some c | None => match o with OpBg c => Some c | _ => None end end
  end.

Lemma run_fg ops s : sfg (fold_left run_style_op ops s) = match last_fg ops with Some c => c | None => sfg s end.
Proof.
  revert s; induction ops as [|o ops IH]; intros s; cbn; auto. rewrite IH.
  destruct (last_fg ops); auto. destruct o; reflexivity.
Qed.
Lemma run_bg ops s : sbg (fold_left run_style_op ops s) = match last_bg ops with Some c => c | None => sbg s end.
Proof.
  revert s; induction ops as [|o ops IH]; intros s; cbn; auto. rewrite IH.
  destruct (last_bg ops); auto. destruct o; reflexivity.
Qed.

Theorem C09_last_colour_wins : forall ops c,
  cfg (cell_set_style (fold_left run_style_op ops new_style) c)
    = match last_fg ops with Some (Some k) => Some k | _ => cfg c end /\
  cbg (cell_set_style (fold_left run_style_op ops new_style) c)
    = match last_bg ops with Some (Some k) => Some k | _ => cbg c end.
Proof.
  intros; cbn. rewrite run_fg, run_bg. split.
  - destruct (last_fg ops) as [[]|]; reflexivity.
  - destruct (last_bg ops) as [[]|]; reflexivity.
Qed.
Print Assumptions C09_last_colour_wins.

Example C09_example : let ops := [OpAdd ModifierBold; OpRemove 3%N; OpAdd ModifierDim] in
  last_request ops 0 = Some false /\ last_request ops 1 = Some true /\ last_request ops 2 = None /\
  cmod (cell_set_style (fold_left run_style_op ops new_style) (Cell [] None None 5%N false)) = 6%N.
Proof. repeat split; reflexivity. Qed.
