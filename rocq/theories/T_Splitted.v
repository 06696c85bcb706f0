(** C86: one segment per constraint, and how they are handed out. *)
From Verif Require Import Base P_Base M_Geom M_Solver M_Layout M_Rounded S_Layout P_Layout T_Solver T_Layout M_Splitted.
From Coq Require Import ZArith QArith List Bool Lia.
Import ListNotations.
Open Scope Z_scope.

(** ** Split, with any arithmetic and any tolerance, for any number of constraints of any kind *)
Lemma new_elements_length : forall n vs, (length vs = 2 * n \/ length vs = 2 * n + 1)%nat -> length (new_elements vs) = n.
Proof.
  induction n as [|n IH]; intros vs H.
  - destruct vs as [|a [|b vs]]; [reflexivity|reflexivity|cbn in H; lia].
  - destruct vs as [|a [|b vs]]; try (cbn in H; lia). cbn [new_elements length]. f_equal. apply IH. cbn in H. lia.
Qed.
(** The part of a segment that the layout does not choose: the whole width of a vertical layout, the whole height of a horizontal one. *)
Definition across (d : direction) (a r : rect) : Prop := match d with DirHorizontal => ry r = ry a /\ rh r = rh a | DirVertical => rx r = rx a /\ rw r = rw a end.
Definition along (d : direction) (r : rect) : Z := match d with DirHorizontal => rw r | DirVertical => rh r end.
Lemma rects_shape (ar : arith) ch els a d r : In r (@changes_to_rects ar ch els a d) -> across d a r /\ 0 <= along d r.
Proof. intros I. apply in_map_iff in I. destruct I as (e & <- & _). destruct d; cbn [across along rx ry rw rh]; repeat split; try reflexivity; lia. Qed.
(** If Split returns it returns one segment per constraint, in their order along the layout's variables, and one more spacer; all have a size that is not
    negative and the extent of the padded area across. *)
Theorem C86_one_per_constraint (ar : arith) (tol : tolerance) order fuel vs l area segs sps : vars_ok vs l -> @M_Layout.split ar tol order fuel vs l area = Splits segs sps ->
  length segs = length (l_constraints l) /\ length sps = S (length (l_constraints l)) /\
  forall r, In r segs \/ In r sps -> across (l_direction l) (inner area (l_padding l)) r /\ 0 <= along (l_direction l) r.
Proof.
  intros [_ L] E. unfold M_Layout.split in E. destruct (match l_direction l with DirHorizontal => _ | DirVertical => _ end) as [lo hi]. destruct (layout_constraints _ _ _ _) as [cs|]; [|discriminate].
  destruct (add_constraints order fuel new_solver cs) as [s|e s|]; try discriminate. injection E as <- <-.
  split; [|split].
  - unfold changes_to_rects. rewrite map_length. apply new_elements_length. destruct vs; cbn [tl length] in *; lia.
  - unfold changes_to_rects. rewrite map_length. apply new_elements_length. lia.
  - intros r [I|I]; apply rects_shape in I; exact I.
Qed.

(** ** Assign *)
(** [p] is the pointer given for the segment with index [i]. *)
Definition pointer (areas : list (option nat)) (i p : nat) : Prop := nth_error areas i = Some (Some p).
Lemma assign_spec s : forall areas i m, 
  (exists m', assign_from (Z.of_nat i) s areas m = Ret m' /\ (forall k p, pointer areas k p -> (i + k < length s)%nat) /\
     (forall p, (forall k, ~ pointer areas k p) -> m' p = m p) /\
     forall k p, pointer areas k p -> (forall k', pointer areas k' p -> (k' <= k)%nat) -> nth_error s (i + k) = Some (m' p)) \/
  (assign_from (Z.of_nat i) s areas m = Panic /\ exists k p, pointer areas k p /\ (length s <= i + k)%nat).
Proof.
  induction areas as [|a areas IH]; intros i m.
  - left. exists m. split; [reflexivity|]. split; [intros [|k] p P; discriminate P|]. split; [reflexivity|]. intros [|k] p P; discriminate P.
  - assert (Sh : forall k p, pointer (a :: areas) (S k) p <-> pointer areas k p) by (intros; reflexivity).
    assert (Step : forall m, assign_from (Z.of_nat i + 1) s areas m = assign_from (Z.of_nat (S i)) s areas m) by (intros; f_equal; lia).
    destruct a as [q|]; cbn [assign_from].
    + unfold index_at. destruct (Z.ltb_spec (Z.of_nat i) 0); [lia|]. rewrite Nat2Z.id. destruct (nth_error s i) as [r|] eqn:Er; cbn beta iota delta [bind].
      * rewrite Step. destruct (IH (S i) (store m q r)) as [(m' & E & B & O & V)|(E & k & p & P & B)].
        -- left. exists m'. split; [exact E|]. split; [|split].
           ++ intros [|k] p P; [rewrite Nat.add_0_r; apply nth_error_Some; congruence|]. apply Sh in P. specialize (B k p P). lia.
           ++ intros p N. rewrite O; [|intros k P; apply (N (S k)); exact P]. unfold store. destruct (Nat.eqb_spec p q) as [->|D]; [|reflexivity]. elim (N 0%nat). reflexivity.
           ++ intros [|k] p P Last.
              ** injection P as <-. rewrite Nat.add_0_r, Er. f_equal. symmetry. rewrite O; [unfold store; now rewrite Nat.eqb_refl|]. intros k P. specialize (Last (S k) P). lia.
              ** apply Sh in P. rewrite <- (V k p P); [f_equal; lia|]. intros k' P'. specialize (Last (S k') P'). lia.
        -- right. split; [exact E|]. exists (S k), p. split; [exact P|lia].
      * right. split; [reflexivity|]. exists 0%nat, q. split; [reflexivity|]. apply nth_error_None in Er. lia.
    + rewrite Step. destruct (IH (S i) m) as [(m' & E & B & O & V)|(E & k & p & P & B)].
      * left. exists m'. split; [exact E|]. split; [|split].
        -- intros [|k] p P; [discriminate P|]. apply Sh in P. specialize (B k p P). lia.
        -- intros p N. apply O. intros k P. apply (N (S k)). exact P.
        -- intros [|k] p P Last; [discriminate P|]. apply Sh in P. rewrite <- (V k p P); [f_equal; lia|]. intros k' P'. specialize (Last (S k') P'). lia.
      * right. split; [exact E|]. exists (S k), p. split; [exact P|lia].
Qed.
(** Assign panics exactly if there is a pointer for a segment that does not exist. *)
Theorem C86_assign_panics s areas m : assign s areas m = Panic <-> exists i p, pointer areas i p /\ (length s <= i)%nat.
Proof.
  unfold assign. change 0 with (Z.of_nat 0). destruct (assign_spec s areas 0 m) as [(m' & E & B & _)|(E & k & p & P & L)]; rewrite E.
  - split; [discriminate|]. intros (i & p & P & L). specialize (B i p P). cbn in B. lia.
  - split; [|reflexivity]. intros _. exists k, p. auto.
Qed.
(** Otherwise each pointer ends at its segment (the last one, if it was given for several), and nothing else changes; nil pointers are passed over. *)
Theorem C86_assign s areas m m' : assign s areas m = Ret m' ->
  (forall p, (forall i, ~ pointer areas i p) -> m' p = m p) /\
  forall i p, pointer areas i p -> (forall k, pointer areas k p -> (k <= i)%nat) -> nth_error s i = Some (m' p).
Proof.
  unfold assign. change 0 with (Z.of_nat 0). intros H. destruct (assign_spec s areas 0 m) as [(m1 & E & _ & O & V)|(E & _)]; [|congruence]. rewrite E in H. injection H as <-. auto.
Qed.
(** ** Unwrap *)
Definition of_list {A} (l : list A) (n : nat) : outcome (list A) := if (n <=? length l)%nat then Ret (firstn n l) else Panic.
Definition omap {A B} (f : A -> B) (o : outcome A) : outcome B := match o with Ret a => Ret (f a) | Panic => Panic end.
(** Unwrap, Unwrap2, Unwrap3 and Unwrap4 give the first segments in order, and panic exactly if there are fewer. *)
Theorem C86_unwrap s :
  omap (fun a => [a]) (unwrap s) = of_list s 1 /\ omap (fun '(a, b) => [a; b]) (unwrap2 s) = of_list s 2 /\
  omap (fun '(a, b, c) => [a; b; c]) (unwrap3 s) = of_list s 3 /\ omap (fun '(a, b, c, d) => [a; b; c; d]) (unwrap4 s) = of_list s 4.
Proof. destruct s as [|a [|b [|c [|d s]]]]; repeat split. Qed.
(** ** Together: a layout with as many constraints as there are names for its segments does not panic in Assign or Unwrap. *)
Corollary C86_layout (ar : arith) (tol : tolerance) order fuel vs l area segs sps areas m : vars_ok vs l -> @M_Layout.split ar tol order fuel vs l area = Splits segs sps ->
  (length areas <= length (l_constraints l))%nat -> NoDup (flat_map (fun a => match a with Some p => [p] | None => [] end) areas) ->
  exists m', assign segs areas m = Ret m' /\ forall i p, pointer areas i p -> nth_error segs i = Some (m' p).
Proof.
  intros V E L Nd. destruct (C86_one_per_constraint ar tol order fuel vs l area segs sps V E) as (Ls & _). destruct (assign segs areas m) as [m'|] eqn:A.
  - exists m'. split; [reflexivity|]. intros i p P. apply (C86_assign _ _ _ _ A); [exact P|]. intros k K.
    assert (U : forall areas i k p, NoDup (flat_map (fun a => match a with Some p => [p] | None => [] end) areas) -> pointer areas i p -> pointer areas k p -> i = k).
    { clear. assert (J : forall areas i p, pointer areas i p -> In p (flat_map (fun a => match a with Some p => [p] | None => [] end) areas)) by (intros areas i p P; apply in_flat_map; exists (Some p); split; [eapply nth_error_In; exact P|now left]).
      induction areas as [|a areas IH]; intros i k p N P K; [destruct i; discriminate P|].
      destruct i as [|i], k as [|k]; auto.
      - injection P as ->. cbn [flat_map app] in N. inversion N as [|? ? N1 N2]; subst. elim N1. eapply J. exact K.
      - injection K as ->. cbn [flat_map app] in N. inversion N as [|? ? N1 N2]; subst. elim N1. eapply J. exact P.
      - f_equal. apply (IH i k p); [|exact P|exact K]. destruct a; cbn [flat_map app] in N; [now inversion N|exact N]. }
    rewrite (U areas i k p Nd P K). lia.
  - apply C86_assign_panics in A. destruct A as (i & p & P & Li). assert (i < length areas)%nat by (apply nth_error_Some; unfold pointer in P; congruence). lia.
Qed.
(** *** An instance: a layout with ratios, in float64; the third segment goes nowhere. *)
Definition thirds : layout := Layout DirHorizontal [LRatio 1 3; LPercentage 40; LFill 1; LMin 2] (Padding 0 0 0 0) FlexLegacy (SpSpace 1).
Example C86_instance : vars_ok (vars_for (l_constraints thirds)) thirds /\
  exists segs sps, @M_Layout.split float64 code_tolerance keep_order 1000 (vars_for (l_constraints thirds)) thirds (Rect 2 1 40 5) = Splits segs sps /\ segs = [Rect 2 1 13 5; Rect 16 1 16 5; Rect 33 1 6 5; Rect 40 1 2 5] /\
    exists m', assign segs [Some 7; Some 3; None; Some 9]%nat (fun _ => Rect 0 0 0 0) = Ret m' /\ m' 9%nat = Rect 40 1 2 5 /\ m' 3%nat = Rect 16 1 16 5 /\ m' 4%nat = Rect 0 0 0 0.
Proof.
  split; [apply vars_for_ok|]. do 2 eexists. split; [vm_compute; reflexivity|]. split; [reflexivity|]. eexists. split; [reflexivity|]. repeat split.
Qed.
Print Assumptions C86_one_per_constraint.
Print Assumptions C86_assign_panics.
Print Assumptions C86_assign.
Print Assumptions C86_unwrap.
Print Assumptions C86_layout.
