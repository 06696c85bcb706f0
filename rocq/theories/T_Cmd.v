(** C50: Batch. *)
From Verif Require Import Base M_Cmd.
From Coq Require Import List Bool Arith Lia.
Import ListNotations.

(** The commands of a list that are not nil, in order. *)
Inductive non_nil : list (option cmd) -> list cmd -> Prop :=
| nn_nil : non_nil [] []
| nn_skip l r : non_nil l r -> non_nil (None :: l) r
| nn_keep c l r : non_nil l r -> non_nil (Some c :: l) (c :: r).

Lemma valid_acc cs : forall acc, fold_left (fun acc c => match c with None => acc | Some c => acc ++ [c] end) cs acc = acc ++ valid_cmds cs.
Proof.
  unfold valid_cmds. induction cs as [|[c|] cs IH]; intros acc; cbn [fold_left]; [now rewrite app_nil_r| |apply IH].
  rewrite (IH (acc ++ [c])), (IH ([] ++ [c])), <- app_assoc. reflexivity.
Qed.
Lemma valid_spec cs : forall r, non_nil cs r <-> valid_cmds cs = r.
Proof.
  assert (K : forall c cs, valid_cmds (Some c :: cs) = c :: valid_cmds cs) by (intros c l; unfold valid_cmds at 1; cbn [fold_left app]; apply (valid_acc l [c])).
  assert (S : forall cs, valid_cmds (None :: cs) = valid_cmds cs) by reflexivity.
  induction cs as [|[c|] cs IH]; intros r; split; intros H.
  - now inversion H.
  - cbn in H. subst. constructor.
  - inversion H; subst. rewrite K. f_equal. now apply IH.
  - rewrite K in H. subst. constructor. now apply IH.
  - inversion H; subst. rewrite S. now apply IH.
  - rewrite S in H. constructor. now apply IH.
Qed.

Theorem C50_batch : forall fresh cs, exists rest, non_nil cs rest /\
  (rest = [] -> batch fresh cs = None) /\
  (forall c, rest = [c] -> batch fresh cs = Some c) /\
  ((2 <= length rest)%nat -> exists b, batch fresh cs = Some b /\ c_panics b = false /\ c_msg b = MBatch rest).
Proof.
  intros fresh cs. exists (valid_cmds cs). split; [now apply valid_spec|]. unfold batch. repeat split.
  - now intros ->.
  - now intros c ->.
  - intros L. destruct (valid_cmds cs) as [|a [|b r]]; cbn [length] in L; try lia. exists (Cmd fresh false (MBatch (a :: b :: r))). repeat split.
Qed.
Print Assumptions C50_batch.
(** The commands kept are determined by the list. *)
Theorem C50_unique : forall cs r r', non_nil cs r -> non_nil cs r' -> r = r'.
Proof. intros cs r r' H H'. apply valid_spec in H, H'. congruence. Qed.
Print Assumptions C50_unique.

Example C50_instance : let c1 := Cmd 1 false (MUser 1) in let c2 := Cmd 2 false (MUser 2) in
  batch 9 [None; Some c1; None; Some c2] = Some (Cmd 9 false (MBatch [c1; c2])) /\ batch 9 [None; Some c1] = Some c1 /\ batch 9 [None; None] = None.
Proof. repeat split. Qed.
