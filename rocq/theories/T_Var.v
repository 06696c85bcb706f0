(** C39: variables created concurrently. *)
From Verif Require Import Base P_Base M_Var.
From Coq Require Import ZArith List Bool Lia Sorting.Sorted.
Import ListNotations.
Open Scope Z_scope.

Lemma sorted_NoDup l : StronglySorted Z.gt l -> NoDup l.
Proof. induction 1 as [|a l S IH F]; constructor; [|exact IH]. intros I. rewrite Forall_forall in F. specialize (F a I). lia. Qed.

Lemma v_inv schedule : zlen schedule < 2 ^ 64 -> let s := v_run schedule in 0 <= v_next s <= zlen schedule /\
  forall g, StronglySorted Z.gt (mk_got (v_makers s g)) /\
    (forall v, In v (mk_got (v_makers s g)) -> 0 <= v < v_next s) /\
    (forall v, mk_loaded (v_makers s g) = Some v -> 0 <= v <= v_next s /\ forall w, In w (mk_got (v_makers s g)) -> w < v).
Proof.
  unfold v_run. induction schedule as [|g schedule IH] using rev_ind; intros L.
  - cbn. split; [lia|]. intros g. split; [constructor|]. split; [contradiction|discriminate].
  - rewrite fold_left_app. cbn [fold_left]. rewrite zlen_app in L. change (zlen [g]) with 1 in L. specialize (IH ltac:(lia)). cbv zeta in IH. set (s := fold_left v_step schedule v_init) in *. clearbody s. destruct IH as [IN IH].
    unfold v_step. cbv zeta. rewrite zlen_app. change (zlen [g]) with 1. destruct (mk_loaded (v_makers s g)) as [v|] eqn:E; cbn [v_next v_makers].
    + rewrite Z.mod_small by lia. split; [lia|]. intros h. unfold upd. destruct (Nat.eqb_spec h g) as [->|N]; cbn [mk_got mk_loaded].
      * destruct (IH g) as (S & B & P). destruct (P v E) as [P1 P2]. split; [constructor; [exact S|]|].
        { apply Forall_forall. intros w W. specialize (P2 w W). lia. }
        split; [|discriminate]. intros w [<-|W]; [lia|]. specialize (B w W). lia.
      * destruct (IH h) as (S & B & P). split; [exact S|]. split; [intros w W; specialize (B w W); lia|]. intros w W. destruct (P w W). split; [lia|auto].
    + split; [lia|]. intros h. unfold upd. destruct (Nat.eqb_spec h g) as [->|N]; cbn [mk_got mk_loaded].
      * destruct (IH g) as (S & B & P). split; [exact S|]. split; [exact B|]. intros w [= <-]. split; [lia|]. intros x X. apply B in X. lia.
      * exact (IH h).
Qed.

(** Under every schedule the variables one goroutine gets are all different - in particular those of one layout, which is
    computed by one goroutine with its own solver. *)
Theorem C39_per_goroutine_partial : forall schedule g, zlen schedule < 2 ^ 64 -> NoDup (mk_got (v_makers (v_run schedule) g)).
Proof. intros schedule g L. apply sorted_NoDup. apply v_inv. exact L. Qed.
Print Assumptions C39_per_goroutine_partial.

Example C39_instance : mk_got (v_makers (v_run [1; 2; 1; 1; 2; 1; 2; 2]%nat) 1) = [1; 0] /\ mk_got (v_makers (v_run [1; 2; 1; 1; 2; 1; 2; 2]%nat) 2) = [3; 0].
Proof. split; reflexivity. Qed.

(** Two goroutines can get the same variable: both load before either adds. *)
Theorem C39_global_refuted : ~ (forall schedule g h v, zlen schedule < 2 ^ 64 -> g <> h ->
  In v (mk_got (v_makers (v_run schedule) g)) -> In v (mk_got (v_makers (v_run schedule) h)) -> False).
Proof. intros H. apply (H [1; 2; 1; 2]%nat 1%nat 2%nat 0); [reflexivity|discriminate|now left|now left]. Qed.
Print Assumptions C39_global_refuted.
