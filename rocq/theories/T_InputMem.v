(** C83: several text inputs at once, and copies of them. *)
From Verif Require Import Base P_Base M_Geom M_Style M_Uniseg M_Buffer S_Text M_Text M_Block M_Slice M_List M_Reflow M_Input S_Input P_Input M_InputMem P_InputMem.
From Coq Require Import ZArith NArith List Bool Lia Arith.
Import ListNotations.
Open Scope nat_scope.
Local Arguments zlen : simpl never.

(** ** Specification *)

(** The edits that a history makes on state [k], which is there once more than [k] states have been made; [n] states are there already. *)
Fixpoint edits_of (n k : nat) (cs : list call) : list input_edit :=
  match cs with
  | [] => []
  | MakeState :: cs => edits_of (S n) k cs
  | CopyState _ :: cs => edits_of n k cs
  | Edit j e :: cs => if (j =? k) && (k <? n) then e :: edits_of n k cs else edits_of n k cs
  end.
Definition no_copies (cs : list call) : Prop := forall k, ~ In (CopyState k) cs.

(** Who shares a text with whom: each new state starts a family, a copy joins the family of the state it was copied from, and a state
    whose line is deleted leaves its family and starts its own. [t] counts the calls. *)
Definition family_step (p : nat * list nat) (c : call) : nat * list nat :=
  let (t, fs) := p in
  (S t, match c with
        | MakeState => fs ++ [t]
        | CopyState k => match nth_error fs k with Some f => fs ++ [f] | None => fs end
        | Edit k EdDeleteLine => firstn k fs ++ match skipn k fs with [] => [] | _ :: r => t :: r end
        | Edit _ _ => fs
        end).
Definition families (cs : list call) : list nat := snd (fold_left family_step cs (0, [])).

Section Grow.
Variables (grow : nat -> nat -> nat) (u : uniseg).
Notation do_call := (do_call grow u). Notation do_calls := (do_calls grow u).

(** ** Invariant *)
Definition fine (t : nat) (fs : list nat) (h : held) : Prop :=
  nth 0 (h_memory h) [] = [] /\ 0 < length (h_memory h) /\ length fs = length (h_states h) /\ (forall f, In f fs -> f < t) /\
  (forall k s, nth_error (h_states h) k = Some s -> sound (h_memory h) (ms_text s)) /\
  (forall j k s r f g, nth_error (h_states h) j = Some s -> nth_error (h_states h) k = Some r -> nth_error fs j = Some f -> nth_error fs k = Some g -> f <> g -> wi_array (ms_text s) = 0 \/ wi_array (ms_text s) <> wi_array (ms_text r)).

Lemma set_state_length l k s : length (set_state l k s) = length l.
Proof. revert k. induction l as [|x l IH]; intros [|k]; cbn; auto. Qed.
Lemma set_state_nth l k s j : nth_error (set_state l k s) j = if (j =? k) && (k <? length l) then Some s else nth_error l j.
Proof. revert k j. induction l as [|x l IH]; intros [|k] [|j]; cbn; auto. 1: now rewrite andb_false_r. apply IH. Qed.

Lemma leave_nth (fs : list nat) k t j : k < length fs -> nth_error (firstn k fs ++ match skipn k fs with [] => [] | _ :: r => t :: r end) j = if j =? k then Some t else nth_error fs j.
Proof. revert k j. induction fs as [|f fs IH]; intros [|k] [|j] H; cbn in *; try lia; auto. apply IH. lia. Qed.
Lemma leave_length (fs : list nat) k t : length (firstn k fs ++ match skipn k fs with [] => [] | _ :: r => t :: r end) = length fs.
Proof. revert k. induction fs as [|f fs IH]; intros [|k]; cbn in *; auto. Qed.
Lemma leave_In (fs : list nat) k t f : In f (firstn k fs ++ match skipn k fs with [] => [] | _ :: r => t :: r end) -> f = t \/ In f fs.
Proof. revert k. induction fs as [|g fs IH]; intros [|k]; cbn in *; [auto|auto|intuition|]. intros [->|H]; [auto|]. destruct (IH k H); auto. Qed.
Lemma nth_error_snoc {A} (l : list A) a k x : nth_error (l ++ [a]) k = Some x -> (k < length l /\ nth_error l k = Some x) \/ (k = length l /\ x = a).
Proof.
  intros H. destruct (Nat.lt_ge_cases k (length l)) as [L|L]; [left; rewrite nth_error_app1 in H; auto|]. right. rewrite nth_error_app2 in H by lia.
  destruct (k - length l) as [|d] eqn:E; [cbn in H; injection H as <-; split; [lia|auto]|]. now destruct d.
Qed.

Lemma nothing_fine : fine 0 [] nothing_held.
Proof. split; [reflexivity|]. split; [cbn; lia|]. split; [reflexivity|]. split; [intros f []|]. split; [intros [|k] s H; discriminate|]. intros [|j] k s r f g H; discriminate. Qed.

(** An edit leaves the states of other families, and does to its own state what it does to a list. *)
Lemma edit_fine t fs h k e s : fine t fs h -> nth_error (h_states h) k = Some s ->
  agrees (fun p h' =>
    (exists s', nth_error (h_states h') k = Some s' /\ as_seen (h_memory h') s' = p) /\
    (forall j, nth_error (h_states h') j = None <-> nth_error (h_states h) j = None) /\
    (forall j r f g, nth_error (h_states h) j = Some r -> nth_error fs j = Some f -> nth_error fs k = Some g -> f <> g ->
       nth_error (h_states h') j = Some r /\ as_seen (h_memory h') r = as_seen (h_memory h) r) /\
    fine (S t) (snd (family_step (t, fs) (Edit k e))) h') (plain_edit u (as_seen (h_memory h) s) e) (do_call h (Edit k e)).
Proof.
  intros (Z & P & L & B & G & D) Hk. cbn [M_InputMem.do_call]. rewrite Hk. pose proof (edit_follows grow u (h_memory h) s e Z (G _ _ Hk)) as F. unfold follows in F.
  destruct (plain_edit u _ e) as [p|]; destruct (ms_edit grow u (h_memory h) s e) as [[m' s']|] eqn:Em; cbn [agrees bind fst snd] in *; try contradiction; [|exact I]. destruct F as (V & S' & K & T).
  assert (Lk : k < length (h_states h)) by (apply nth_error_Some; congruence). cbn [h_states h_memory].
  assert (N : forall j, nth_error (set_state (h_states h) k s') j = if j =? k then Some s' else nth_error (h_states h) j).
  { intros j. rewrite set_state_nth. destruct (Nat.ltb_spec k (length (h_states h))); [|lia]. now rewrite andb_true_r. }
  assert (Ot : forall j r, nth_error (h_states h) j = Some r -> wi_array (ms_text r) < length (h_memory h)) by (intros j r Hj; destruct (G _ _ Hj); auto).
  split; [exists s'; rewrite N, Nat.eqb_refl; auto|]. split; [|split].
  - intros j. rewrite N. destruct (Nat.eqb_spec j k) as [->|]; [|tauto]. split; [discriminate|congruence].
  - intros j r f g Hj Hf Hg Ne. assert (Nk : j <> k) by congruence. rewrite N. destruct (Nat.eqb_spec j k); [contradiction|]. split; [exact Hj|].
    unfold as_seen. f_equal. destruct (D j k r s f g Hj Hk Hf Hg Ne) as [E0|E1].
    + unfold view. rewrite E0, Z, (keeps_zero _ _ _ K Z P). reflexivity.
    + eapply keeps_view; eauto.
  - set (fs' := snd (family_step (t, fs) (Edit k e))). assert (Lf : length fs' = length fs) by (unfold fs'; destruct e; cbn [family_step snd]; auto using leave_length).
    assert (Nf : forall j f, nth_error fs' j = Some f -> (nth_error fs j = Some f \/ (j = k /\ wi_array (ms_text s') = 0))).
    { intros j f. unfold fs'. destruct e; cbn [family_step snd]; auto. rewrite leave_nth by lia. destruct (Nat.eqb_spec j k); auto. intros _. right. split; [auto|]. cbn in Em. injection Em as _ <-. reflexivity. }
    split; [cbn [h_memory]; eapply keeps_zero; eauto|]. split; [cbn [h_memory]; destruct K; lia|]. split; [cbn [h_states]; rewrite set_state_length; lia|].
    split; [intros f Hf; unfold fs' in Hf; destruct e; cbn [family_step snd] in Hf; try (apply B in Hf; lia); destruct (leave_In _ _ _ _ Hf) as [->|H]; [lia|apply B in H; lia]|].
    cbn [h_states h_memory]. split.
    + intros j r. rewrite N. destruct (j =? k); [intros X; injection X as <-; exact S'|]. intros Hj. eapply keeps_sound; eauto.
    + intros a b r1 r2 f g. rewrite !N. intros Ha Hb Hf Hg Ne.
      assert (Zs : wi_array (ms_text s') = 0 \/ (wi_array (ms_text s') <> 0 /\ wi_array (ms_text s') = wi_array (ms_text s) /\ fs' = fs) \/ length (h_memory h) <= wi_array (ms_text s')).
      { destruct (Nat.eq_dec (wi_array (ms_text s')) 0) as [|Nz]; [auto|]. right. destruct T as [T|[T|T]]; [|lia|auto]. left. split; [auto|]. split; [exact T|]. unfold fs'. destruct e; auto. cbn in Em. injection Em as _ <-. cbn in Nz. lia. }
      destruct (Nat.eqb_spec a k) as [->|Na]; destruct (Nat.eqb_spec b k) as [->|Nb].
      * congruence.
      * injection Ha as <-. destruct Zs as [Zs|[(Nz & Zs & Zf)|Zs]]; [auto| |right; apply Ot in Hb; lia]. rewrite Zf in Hf, Hg. rewrite Zs. eauto.
      * injection Hb as <-. destruct Zs as [Zs|[(Nz & Zs & Zf)|Zs]]; [rewrite Zs; destruct (Nat.eq_dec (wi_array (ms_text r1)) 0); auto| |right; apply Ot in Ha; lia]. rewrite Zf in Hf, Hg. rewrite Zs. eauto.
      * destruct (Nf _ _ Hf) as [Hf'|[? _]]; [|contradiction]. destruct (Nf _ _ Hg) as [Hg'|[? _]]; [|contradiction]. eauto.
Qed.

Lemma step_fine t fs h c h' : fine t fs h -> do_call h c = Ret h' -> fine (S t) (snd (family_step (t, fs) c)) h'.
Proof.
  intros F E. pose proof F as (Z & P & L & B & G & D). destruct c as [|k|k e].
  - cbn in E. injection E as <-. cbn [family_step snd]. split; [exact Z|]. split; [exact P|]. split; [cbn; rewrite !app_length; cbn; lia|]. split; [intros f Hf; apply in_app_iff in Hf; destruct Hf as [Hf|[<-|[]]]; [apply B in Hf|]; lia|]. cbn [h_states h_memory]. split.
    + intros k s H. destruct (nth_error_snoc _ _ _ _ H) as [[_ H']|[_ ->]]; [eauto|]. now apply sound_nil.
    + intros j k s r f g Hj Hk Hf Hg Ne. destruct (nth_error_snoc _ _ _ _ Hj) as [[L1 Hj']|[L1 ->]]; [|left; reflexivity]. destruct (nth_error_snoc _ _ _ _ Hk) as [[L2 Hk']|[L2 ->]].
      * rewrite nth_error_app1 in Hf, Hg by lia. eauto.
      * cbn. destruct (Nat.eq_dec (wi_array (ms_text s)) 0); auto.
  - cbn in E. injection E as <-. cbn [family_step snd]. destruct (nth_error (h_states h) k) as [s|] eqn:Hs.
    + assert (Lk : k < length (h_states h)) by (apply nth_error_Some; congruence). destruct (nth_error fs k) as [f|] eqn:Hf; [|apply nth_error_None in Hf; lia].
      split; [exact Z|]. split; [exact P|]. split; [cbn; rewrite !app_length; cbn; lia|]. split; [intros g Hg; apply in_app_iff in Hg; destruct Hg as [Hg|[<-|[]]]; [apply B in Hg; lia|apply nth_error_In in Hf; apply B in Hf; lia]|]. cbn [h_states h_memory].
      assert (R : forall j r g, nth_error (h_states h ++ [s]) j = Some r -> nth_error (fs ++ [f]) j = Some g -> exists i, nth_error (h_states h) i = Some r /\ nth_error fs i = Some g).
      { intros j r g Hj Hg. destruct (nth_error_snoc _ _ _ _ Hj) as [[L1 Hj']|[L1 ->]]; [exists j; rewrite nth_error_app1 in Hg by lia; auto|]. exists k. split; [auto|]. rewrite L1, <- L, nth_error_app2, Nat.sub_diag in Hg by lia. cbn in Hg. congruence. }
      split.
      * intros j r Hj. destruct (nth_error_snoc _ _ _ _ Hj) as [[_ H']|[_ ->]]; eauto.
      * intros j j2 r r2 g g2 Hj Hj2 Hg Hg2 Ne. destruct (R _ _ _ Hj Hg) as (i & A1 & A2). destruct (R _ _ _ Hj2 Hg2) as (i2 & B1 & B2). eauto.
    + apply nth_error_None in Hs. destruct (nth_error fs k) as [f|] eqn:Hf; [assert (k < length fs) by (apply nth_error_Some; congruence); lia|]. split; [exact Z|]. split; [exact P|]. split; [exact L|]. split; [intros f Hg; apply B in Hg; lia|]. auto.
  - destruct (nth_error (h_states h) k) as [s|] eqn:Hs.
    + pose proof (edit_fine t fs h k e s F Hs) as X. rewrite E in X. destruct (plain_edit _ _ _); cbn [agrees] in X; [|contradiction]. tauto.
    + cbn [M_InputMem.do_call] in E. rewrite Hs in E. injection E as <-. apply nth_error_None in Hs.
      assert (Q : snd (family_step (t, fs) (Edit k e)) = fs) by (destruct e; cbn [family_step snd]; auto; rewrite firstn_all2, skipn_all2, app_nil_r by lia; reflexivity).
      rewrite Q. split; [exact Z|]. split; [exact P|]. split; [exact L|]. split; [intros f Hg; apply B in Hg; lia|]. auto.
Qed.
Lemma calls_fine cs : forall t fs h h', fine t fs h -> ofold do_call cs h = Ret h' -> fine (t + length cs) (snd (fold_left family_step cs (t, fs))) h'.
Proof.
  induction cs as [|c cs IH]; intros t fs h h' F E; cbn [ofold fold_left length] in *.
  - injection E as <-. now rewrite Nat.add_0_r.
  - destruct (do_call h c) as [h1|] eqn:E1; [|discriminate]. cbn [bind] in E. pose proof (step_fine _ _ _ _ _ F E1) as F1. specialize (IH (S t) _ _ _ F1 E). rewrite <- Nat.add_succ_comm. exact IH.
Qed.
Lemma held_fine cs h : do_calls cs = Ret h -> fine (length cs) (families cs) h.
Proof. intros E. exact (calls_fine cs 0 [] _ _ nothing_fine E). Qed.

(** ** C83 *)

(** Whatever was made, copied and edited before, a call does to the state it is called on what the same call does to a text of its own
    (M_Input), and it panics exactly when that does. *)
Theorem C83_called : forall cs h k s e, do_calls cs = Ret h -> nth_error (h_states h) k = Some s ->
  match do_call h (Edit k e) with
  | Ret h' => exists s', nth_error (h_states h') k = Some s' /\ plain_edit u (as_seen (h_memory h) s) e = Ret (as_seen (h_memory h') s')
  | Panic => plain_edit u (as_seen (h_memory h) s) e = Panic
  end.
Proof.
  intros cs h k s e E Hk. pose proof (edit_fine _ _ h k e s (held_fine _ _ E) Hk) as X. destruct (plain_edit _ _ _) as [p|], (do_call h (Edit k e)) as [h'|]; cbn [agrees] in X; try contradiction; [|reflexivity].
  destruct X as ((s' & A & <-) & _). eauto.
Qed.

(** It changes no state of another family: such a state shows the same text with the same cursor. *)
Theorem C83_strangers : forall cs h k e h' j r f g, do_calls cs = Ret h -> do_call h (Edit k e) = Ret h' -> nth_error (h_states h) j = Some r ->
  nth_error (families cs) j = Some f -> nth_error (families cs) k = Some g -> f <> g ->
  exists r', nth_error (h_states h') j = Some r' /\ as_seen (h_memory h') r' = as_seen (h_memory h) r.
Proof.
  intros cs h k e h' j r f g E E' Hj Hf Hg Ne. pose proof (held_fine _ _ E) as F. destruct (nth_error (h_states h) k) as [s|] eqn:Hk.
  - pose proof (edit_fine _ _ h k e s F Hk) as X. rewrite E' in X. destruct (plain_edit _ _ _) as [p|]; cbn [agrees] in X; [|contradiction]. destruct X as (_ & _ & X & _). exists r. eauto.
  - cbn [M_InputMem.do_call] in E'. rewrite Hk in E'. injection E' as <-. eauto.
Qed.

(** As long as nothing is copied, every state is as if it were the only one. *)
Lemma alone cs : no_copies cs -> forall t fs h, fine t fs h -> NoDup fs ->
  (forall h', ofold do_call cs h = Ret h' -> forall k s, nth_error (h_states h') k = Some s ->
     exists s0, (nth_error (h_states h) k = Some s0 \/ (nth_error (h_states h) k = None /\ s0 = new_mstate)) /\
       ofold (plain_edit u) (edits_of (length (h_states h)) k cs) (as_seen (h_memory h) s0) = Ret (as_seen (h_memory h') s)) /\
  (ofold do_call cs h = Panic -> exists k s0, (nth_error (h_states h) k = Some s0 \/ (nth_error (h_states h) k = None /\ s0 = new_mstate)) /\
       ofold (plain_edit u) (edits_of (length (h_states h)) k cs) (as_seen (h_memory h) s0) = Panic).
Proof.
  induction cs as [|c cs IH]; intros NC t fs h F ND; cbn [ofold edits_of].
  { split; [|discriminate]. intros h' E. injection E as <-. intros k s Hk. exists s. auto. }
  assert (NC' : no_copies cs) by (intros k Hk; apply (NC k); now right).
  destruct c as [|k|k e]; [|elim (NC k); now left|].
  - assert (E1 : do_call h MakeState = Ret (Held (h_memory h) (h_states h ++ [new_mstate]))) by reflexivity. pose proof (step_fine _ _ _ _ _ F E1) as F1. rewrite E1. cbn [bind].
    assert (ND1 : NoDup (snd (family_step (t, fs) MakeState))).
    { cbn. apply NoDup_rev in ND. rewrite <- (rev_involutive (fs ++ [t])). apply NoDup_rev. rewrite rev_app_distr. cbn. constructor; [|exact ND]. rewrite <- in_rev. intros H. destruct F as (_ & _ & _ & B & _). apply B in H. lia. }
    destruct (IH NC' _ _ _ F1 ND1) as [R1 R2]. cbn [h_states h_memory] in R1, R2. rewrite app_length in R1, R2. cbn in R1, R2. rewrite Nat.add_1_r in R1, R2.
    assert (Q : forall k s0, nth_error (h_states h ++ [new_mstate]) k = Some s0 \/ (nth_error (h_states h ++ [new_mstate]) k = None /\ s0 = new_mstate) -> nth_error (h_states h) k = Some s0 \/ (nth_error (h_states h) k = None /\ s0 = new_mstate)).
    { intros k s0 [H|[H ->]].
      - destruct (nth_error_snoc _ _ _ _ H) as [[_ H']|[-> ->]]; [auto|]. right. split; [apply nth_error_None; lia|auto].
      - right. split; [|auto]. apply nth_error_None in H. rewrite app_length in H. apply nth_error_None. lia. }
    split.
    + intros h' E k s Hk. destruct (R1 h' E k s Hk) as (s0 & A & C). exists s0. auto.
    + intros E. destruct (R2 E) as (k & s0 & A & C). exists k, s0. auto.
  - destruct (nth_error (h_states h) k) as [s1|] eqn:Hk1.
    + pose proof (edit_fine t fs h k e s1 F Hk1) as X. assert (Lk : k < length (h_states h)) by (apply nth_error_Some; congruence). destruct (do_call h (Edit k e)) as [h1|] eqn:E1; cbn [bind].
      * destruct (plain_edit u (as_seen (h_memory h) s1) e) as [p|] eqn:Ep; cbn [agrees] in X; [|contradiction]. destruct X as ((s2 & A1 & A2) & A3 & A4 & F1).
        assert (Ll : length (h_states h1) = length (h_states h)).
        { destruct F as (_ & _ & L & _), F1 as (_ & _ & L1 & _). rewrite <- L, <- L1. destruct e; cbn [family_step snd]; auto. now rewrite leave_length. }
        assert (ND1 : NoDup (snd (family_step (t, fs) (Edit k e)))).
        { destruct F as (_ & _ & L & B & _). destruct e; cbn [family_step snd]; auto. apply NoDup_nth_error. intros a b Ha Hab. rewrite leave_length in Ha. rewrite !leave_nth in Hab by lia.
          assert (Bt : forall i, nth_error fs i <> Some t) by (intros i Hi; apply nth_error_In in Hi; apply B in Hi; lia).
          destruct (Nat.eqb_spec a k) as [->|], (Nat.eqb_spec b k) as [->|]; auto; [elim (Bt b); auto|elim (Bt a); auto|]. rewrite NoDup_nth_error in ND. auto. }
        destruct (IH NC' _ _ _ F1 ND1) as [R1 R2]. rewrite Ll in R1, R2.
        assert (Q : forall j s0, nth_error (h_states h1) j = Some s0 \/ (nth_error (h_states h1) j = None /\ s0 = new_mstate) -> j <> k ->
           exists s3, (nth_error (h_states h) j = Some s3 \/ (nth_error (h_states h) j = None /\ s3 = new_mstate)) /\ as_seen (h_memory h1) s0 = as_seen (h_memory h) s3).
        { intros j s0 H Nj. destruct (nth_error (h_states h) j) as [s3|] eqn:Hj.
          - exists s3. split; [auto|]. destruct F as (_ & _ & L & _). assert (Lj : j < length (h_states h)) by (apply nth_error_Some; congruence).
            destruct (nth_error fs j) as [f|] eqn:Hf; [|apply nth_error_None in Hf; lia]. destruct (nth_error fs k) as [g|] eqn:Hg; [|apply nth_error_None in Hg; lia].
            destruct (A4 j s3 f g Hj Hf eq_refl) as [B1 B2]. { intros ->. apply Nj. rewrite NoDup_nth_error in ND. apply ND; [lia|congruence]. }
            destruct H as [H|[H _]]; congruence.
          - apply A3 in Hj. destruct H as [H|[_ ->]]; [congruence|]. exists new_mstate. split; [right; split; reflexivity|]. reflexivity. }
        assert (Qk : forall s0, nth_error (h_states h1) k = Some s0 \/ (nth_error (h_states h1) k = None /\ s0 = new_mstate) -> plain_edit u (as_seen (h_memory h) s1) e = Ret (as_seen (h_memory h1) s0)).
        { intros s0 [H|[H _]]; [|congruence]. rewrite Ep. f_equal. congruence. }
        split.
        -- intros h' E j s Hj. destruct (R1 h' E j s Hj) as (s0 & A & C). destruct (Nat.eqb_spec k j) as [<-|Nj].
           ++ destruct (Nat.ltb_spec k (length (h_states h))); [|lia]. cbn [andb ofold]. exists s1. split; [auto|]. rewrite (Qk s0 A). cbn [bind]. exact C.
           ++ cbn [andb]. destruct (Q j s0 A (not_eq_sym Nj)) as (s3 & B1 & B2). exists s3. split; [exact B1|]. now rewrite <- B2.
        -- intros E. destruct (R2 E) as (j & s0 & A & C). exists j. destruct (Nat.eqb_spec k j) as [<-|Nj].
           ++ exists s1. split; [auto|]. destruct (Nat.ltb_spec k (length (h_states h))); [|lia]. cbn [andb ofold]. rewrite (Qk s0 A). cbn [bind]. exact C.
           ++ destruct (Q j s0 A (not_eq_sym Nj)) as (s3 & B1 & B2). exists s3. split; [exact B1|]. cbn [andb]. now rewrite <- B2.
      * split; [discriminate|]. intros _. exists k, s1. split; [auto|]. rewrite Nat.eqb_refl. destruct (Nat.ltb_spec k (length (h_states h))); [|lia]. cbn [andb ofold].
        destruct (plain_edit u (as_seen (h_memory h) s1) e); cbn [agrees] in X; [contradiction|reflexivity].
    + assert (E1 : do_call h (Edit k e) = Ret h) by (cbn [M_InputMem.do_call]; now rewrite Hk1). rewrite E1. cbn [bind]. pose proof (step_fine _ _ _ _ _ F E1) as F1. apply nth_error_None in Hk1.
      assert (Q : snd (family_step (t, fs) (Edit k e)) = fs) by (destruct F as (_ & _ & L & _); destruct e; cbn [family_step snd]; auto; rewrite firstn_all2, skipn_all2, app_nil_r by lia; reflexivity). rewrite Q in F1.
      destruct (IH NC' _ _ _ F1 ND) as [R1 R2].
      assert (Z : forall j, (k =? j) && (j <? length (h_states h)) = false) by (intros j; destruct (Nat.eqb_spec k j) as [<-|]; [|reflexivity]; destruct (Nat.ltb_spec k (length (h_states h))); [lia|reflexivity]).
      split; [intros h' E j s Hj; rewrite Z; eauto|]. intros E. destruct (R2 E) as (j & s0 & A & C). exists j, s0. rewrite Z. auto.
Qed.
Theorem C83_alone : forall cs, no_copies cs ->
  match do_calls cs with
  | Ret h => forall k s, nth_error (h_states h) k = Some s -> ofold (plain_edit u) (edits_of 0 k cs) new_input_state = Ret (as_seen (h_memory h) s)
  | Panic => exists k, ofold (plain_edit u) (edits_of 0 k cs) new_input_state = Panic
  end.
Proof.
  intros cs NC. destruct (alone cs NC 0 [] nothing_held nothing_fine (NoDup_nil _)) as [R1 R2]. unfold M_InputMem.do_calls. destruct (ofold do_call cs nothing_held) as [h|].
  - intros k s Hk. destruct (R1 h eq_refl k s Hk) as (s0 & [A|[_ ->]] & C); [now destruct k|]. exact C.
  - destruct (R2 eq_refl) as (k & s0 & [A|[_ ->]] & C); [now destruct k|]. exists k. exact C.
Qed.

(** A copy is not independent: erasing a cluster through the copy, with at least one cluster after it, changes the text of the original;
    it loses that cluster and shows its last one twice. *)
Theorem C83_copy_erase_refuted : forall cs h k s, do_calls cs = Ret h -> nth_error (h_states h) k = Some s ->
  let t := view (h_memory h) (ms_text s) in let n := length (h_states h) in
  (1 <= ms_cursor s < zlen t)%Z ->
  exists h', ofold do_call [CopyState k; Edit n EdDeleteUnder] h = Ret h' /\ nth_error (h_states h') k = Some s /\
    view (h_memory h') (ms_text s) = firstn (Z.to_nat (ms_cursor s) - 1) t ++ skipn (Z.to_nat (ms_cursor s)) t ++ [last t []].
Proof.
  intros cs h k s E Hk t n Hc. pose proof (held_fine _ _ E) as (Z & P & L & B & G & D). pose proof (G _ _ Hk) as Sd. pose proof Sd as [S1 S2]. assert (Lt : length t = wi_len (ms_text s)) by (unfold t; now apply view_length).
  unfold zlen in Hc. set (w := ms_text s) in *. set (m := h_memory h) in *. set (c := Z.to_nat (ms_cursor s)) in *.
  assert (C : ms_cursor s = Z.of_nat c) by (unfold c; lia). cbn [ofold M_InputMem.do_call]. rewrite Hk. cbn [bind h_states h_memory]. unfold n. rewrite nth_error_app2, Nat.sub_diag by lia. cbn [nth_error ms_edit].
  unfold ms_delete_under, ms_split. fold m w. rewrite <- Lt, C. destruct (Z.eqb_spec (Z.of_nat (length t)) 0); [lia|]. destruct (Z.eqb_spec (Z.of_nat c) 0); [lia|]. cbn [orb].
  unfold index_at. destruct (Z.ltb_spec (Z.of_nat c - 1) 0); [lia|]. fold t. destruct (nth_error t (Z.to_nat (Z.of_nat c - 1))) as [x|] eqn:Ex; [|apply nth_error_None in Ex; lia]. cbn [bind].
  rewrite Z.gtb_ltb. destruct (Z.ltb_spec (Z.of_nat c) (Z.of_nat (length t))); [|lia]. replace (Z.to_nat (Z.of_nat c - 1)) with (c - 1) by lia. rewrite Nat2Z.id.
  rewrite view_from. fold t. assert (Ls : length (skipn c t) = length t - c) by (now rewrite skipn_length).
  unfold append. cbn [wi_len upto wi_array wi_from]. rewrite Ls. destruct (Nat.leb_spec (c - 1 + (length t - c)) (capacity m (upto w (c - 1)))) as [Q|Q]; [|unfold capacity in Q; cbn in Q; lia]. cbn [bind].
  eexists. split; [reflexivity|]. cbn [h_states h_memory]. split.
  - rewrite set_state_nth, nth_error_app1 by (apply nth_error_Some; congruence). destruct (Nat.eqb_spec k (length (h_states h))) as [->|]; [|exact Hk]. assert (X : nth_error (h_states h) (length (h_states h)) = None) by (apply nth_error_None; lia). congruence.
  - assert (K : keeps m (wi_array w) (copy_to m (wi_array w) (wi_from w + (c - 1)) (skipn c t))) by (apply keeps_copy; lia).
    apply view_eq; [eapply keeps_sound; eauto|rewrite !app_length, firstn_length, Ls; cbn; lia|]. intros j Hj. rewrite copy_same. destruct (Nat.ltb_spec (wi_array w) (length m)); [|lia]. rewrite overwrite_nth by lia.
    destruct (Nat.leb_spec (wi_from w + (c - 1)) (wi_from w + j)); cbn [andb].
    + rewrite app_nth2; rewrite firstn_length, Nat.min_l by lia; [|lia]. destruct (Nat.ltb_spec (wi_from w + j) (wi_from w + (c - 1) + length (skipn c t))).
      * rewrite app_nth1 by lia. f_equal. lia.
      * rewrite app_nth2 by lia. replace (j - (c - 1) - length (skipn c t)) with 0 by lia. cbn [nth]. rewrite <- view_nth by lia. fold t. replace j with (length t - 1) by lia. clear. induction t as [|a [|b t] IH]; cbn in *; auto. now rewrite Nat.sub_0_r in *.
    + rewrite app_nth1 by (rewrite firstn_length; lia). rewrite nth_firstn. destruct (Nat.ltb_spec j (c - 1)); [|lia]. symmetry. now apply view_nth.
Qed.
End Grow.
Print Assumptions C83_called.
Print Assumptions C83_strangers.
Print Assumptions C83_alone.
Print Assumptions C83_copy_erase_refuted.

(** Typing into a copy also shows in the original: both write their next cluster at the same place while the array has room, as it has
    when capacities double. *)
Theorem C83_copy_type_refuted : let cs := [MakeState; Edit 0 (EdAppend [97; 98; 99]%N); CopyState 0; Edit 0 (EdAppend [120%N]); Edit 1 (EdAppend [121%N])] in
  exists h s, do_calls (fun _ n => 2 * n) simple_uniseg cs = Ret h /\ nth_error (h_states h) 0 = Some s /\ is_string (as_seen (h_memory h) s) = [97; 98; 99; 121]%N.
Proof. eexists. eexists. vm_compute. repeat split. Qed.
Print Assumptions C83_copy_type_refuted.

(** Two inputs, one typed into and partly erased, the other typed into in between: each has its own text. And a copy that is emptied and
    filled again is of another family. *)
Example C83_instance : let cs := [MakeState; Edit 0 (EdAppend [97; 98; 99]%N); MakeState; Edit 1 (EdKey (IKRunes [120; 121]%N)); Edit 0 EdLeft; Edit 0 EdDeleteUnder; Edit 1 EdLeft; Edit 1 EdDeleteUnder] in
  no_copies cs /\ (exists h, do_calls (fun c n => 2 * n) simple_uniseg cs = Ret h /\ map (fun s => is_text (as_seen (h_memory h) s)) (h_states h) = [[[97%N]; [99%N]]; [[121%N]]]) /\
  let cs' := [MakeState; Edit 0 (EdAppend [97; 98; 99]%N); CopyState 0; Edit 1 EdDeleteLine; Edit 1 (EdAppend [97; 98; 99]%N)] in
  families cs' = [0; 3] /\ families [MakeState; Edit 0 (EdAppend [97; 98; 99]%N); CopyState 0] = [0; 0] /\
  exists h, do_calls (fun c n => 2 * n) simple_uniseg (cs' ++ [Edit 1 EdLeft; Edit 1 EdDeleteUnder]) = Ret h /\ map (fun s => is_text (as_seen (h_memory h) s)) (h_states h) = [[[97%N]; [98%N]; [99%N]]; [[97%N]; [99%N]]].
Proof.
  cbv zeta. split; [intros k H; cbn in H; intuition discriminate|]. split; [eexists; vm_compute; split; reflexivity|]. split; [reflexivity|]. split; [reflexivity|]. eexists. vm_compute. split; reflexivity.
Qed.
