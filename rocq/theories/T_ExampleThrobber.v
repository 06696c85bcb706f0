(** C104: the program of examples/throbber: its frame advances by one a tick, the ticks go on as long as it runs, the keys set the rate, and it ends at Ctrl+C. *)
From Verif Require Import S_Keys P_Decode T_Decode T_KeyName.
From Verif Require Import Base P_Base M_Utf8 M_KeyTable M_Decode M_Cmd M_App P_App P_AppIds P_AppLog P_AppRun P_AppEnd T_App S_Stateful T_Stateful S_Typed S_Session S_Joint T_Joint M_Throbber T_Throbber M_ExampleThrobber T_Leaving T_LeavingExamples T_Ticking.
From Coq Require Import ZArith NArith String List Bool Lia.
Import ListNotations.
Open Scope Z_scope.
Local Open Scope list_scope.

(** What the user does: the messages of the reader the model was given, in order; how often one key is among them. *)
Definition typed (ds : list M_Decode.msg) (xs : list M_Cmd.msg) : list M_Decode.msg :=
  flat_map (fun x => match x with MUser n => match nth_error ds n with Some d => [d] | None => [] end | _ => [] end) xs.
Definition is_char (c : N) (d : M_Decode.msg) : bool :=
  match d with KeyMsg (Key t [r] false false) => (t =? KeyRunes) && (r =? c)%N | _ => false end.
Definition times (c : N) (ds : list M_Decode.msg) : Z := zlen (filter (is_char c) ds).
Definition the_program (ds : list M_Decode.msg) (last_id : Z) : state spinning -> Prop :=
  reachable (new_spinning last_id) (spin_init ds (new_spinning last_id)) (spin_update ds) (numbered ds).

Lemma char_name c k : scalar c = true -> c <> 32%N -> one_press k -> key_string k = key_string (Key KeyRunes [c] false false) <-> is_char c (KeyMsg k) = true.
Proof.
  intros Sc Ns P. split.
  - intros E. apply C45_names_partial in E; [|exact P|now apply (press_char c false)]. subst k. cbn. now rewrite N.eqb_refl.
  - intros E. destruct k as [t rs a p]. cbn in E. destruct rs as [|r [|]]; try discriminate. destruct a; try discriminate. destruct p; try discriminate. apply andb_true_iff in E. destruct E as [E1 E2]. apply Z.eqb_eq in E1. apply N.eqb_eq in E2. now subst.
Qed.
Lemma quit_name k : one_press k -> key_string k = asc "ctrl+c" <-> k_type k = KeyCtrlC /\ k_alt k = false.
Proof.
  intros P. split.
  - intros E. assert (k = Key KeyCtrlC [] false false) as -> by (apply C45_names_partial; [exact P|apply (press_named KeyCtrlC false); [vm_compute; tauto|discriminate]|exact E]). auto.
  - intros [Kt Ka]. unfold key_string. rewrite Kt, Ka. vm_compute. reflexivity.
Qed.

Lemma next_tag ds m n : nth_error ds n = None -> 0 <= th_tag (sp_state m) -> 0 < th_id (sp_state m) -> (n - length ds)%nat = Z.to_nat (th_tag (sp_state m)) ->
  spin_update ds m (MUser n) = Some (Spinning (ThrobberState (th_frame (sp_state m) + 1) (th_id (sp_state m)) (th_tag (sp_state m) + 1)) (sp_rate m), Some (spin_cmd ds (TickMsg (th_tag (sp_state m) + 1) (th_id (sp_state m))))).
Proof.
  intros En Ht Hid Eq. unfold spin_update. rewrite En. unfold throbber_try_update, spin_msg. cbn [tk_id tk_tag]. rewrite Eq, Z2Nat.id by lia.
  rewrite !Z.eqb_refl. cbn [negb]. rewrite !andb_false_r. reflexivity.
Qed.
Definition sound (m : spinning) : Prop := 0 <= th_tag (sp_state m) /\ 0 < th_id (sp_state m) /\ th_frame (sp_state m) = th_tag (sp_state m).
Definition tag_of (m : spinning) : nat := Z.to_nat (th_tag (sp_state m)).
Lemma new_sound last : 0 <= last -> sound (new_spinning last) /\ tag_of (new_spinning last) = 0%nat.
Proof. intros L. unfold sound, tag_of. cbn. lia. Qed.
Lemma spin_sound ds m x m' c : sound m -> spin_update ds m x = Some (m', c) -> sound m'.
Proof.
  intros (S1 & S2 & S3). unfold spin_update. destruct x as [| | |n| |]; try (intros [= <- _]; now split).
  destruct (nth_error ds n) as [[k| | | | |]|]; try (intros [= <- _]; now split).
  - cbv zeta. repeat match goal with |- context [if ?b then _ else _] => destruct b end; intros [= <- _]; now split.
  - unfold throbber_try_update. repeat match goal with |- context [if ?b then _ else _] => destruct b end; intros [= <- _]; unfold sound in *; cbn in *; lia.
Qed.
Lemma spin_ticks ds m : sound m -> exists m', spin_update ds m (MUser (length (numbered ds) + tag_of m)) = Some (m', Some (tick_cmd (length (numbered ds)) (S (tag_of m)))) /\ tag_of m' = S (tag_of m).
Proof.
  intros (S1 & S2 & S3). rewrite numbered_length. rewrite next_tag; [|apply nth_error_None; lia|exact S1|exact S2|unfold tag_of; lia].
  eexists. split; [unfold spin_cmd, tick_cmd, tag_of; cbn [tk_tag]; rewrite Z2Nat.inj_add by lia; repeat f_equal; lia|]. unfold tag_of. cbn. lia.
Qed.
Lemma spin_others ds m x : sound m -> msg_tick (length (numbered ds)) x = [] -> exists m' c, spin_update ds m x = Some (m', c) /\ tag_of m' = tag_of m /\ (c = None \/ c = Some (quit_cmd 0)).
Proof.
  intros _. rewrite numbered_length. intros Q. unfold spin_update. destruct x as [| | |n| |]; try (do 2 eexists; split; [reflexivity|auto]; fail).
  unfold msg_tick in Q. destruct (Nat.ltb_spec n (length ds)) as [Ln|]; [|discriminate]. destruct (nth_error ds n) as [d|] eqn:En; [|apply nth_error_None in En; lia].
  destruct d as [k| | | | |]; try (do 2 eexists; split; [reflexivity|auto]; fail). cbv zeta.
  repeat match goal with |- context [if ?b then _ else _] => destruct b end; (do 2 eexists; split; [reflexivity|auto]).
Qed.
Lemma spin_first ds last : 0 <= last -> spin_init ds (new_spinning last) = Some (tick_cmd (length (numbered ds)) 0).
Proof. intros _. rewrite numbered_length. reflexivity. Qed.
Lemma times_cons c d ds : times c (d :: ds) = (if is_char c d then 1 else 0) + times c ds.
Proof. unfold times. cbn [filter]. destruct (is_char c d); [rewrite zlen_cons|]; lia. Qed.
(** The rate after some messages *)
Lemma spin_rate ds : (forall k, In (KeyMsg k) ds -> one_press k) -> forall xs m m', model_after (spin_update ds) m xs = Some m' ->
  sp_rate m' = sp_rate m + 1000000 * (times 43 (typed ds xs) - times 45 (typed ds xs)).
Proof.
  intros One. induction xs as [|x xs IH]; intros m m' E; cbn [model_after] in E; [injection E as <-; unfold times; cbn; lia|].
  destruct (spin_update ds m x) as [[m1 c]|] eqn:U; [|discriminate]. apply IH in E. rewrite E. clear E IH. unfold typed. cbn [flat_map]. fold (typed ds xs).
  assert (K : forall d, x = x -> sp_rate m1 = sp_rate m -> is_char 43 d = false -> is_char 45 d = false -> sp_rate m1 + 1000000 * (times 43 (typed ds xs) - times 45 (typed ds xs)) =
     sp_rate m + 1000000 * (times 43 ([d] ++ typed ds xs) - times 45 ([d] ++ typed ds xs))) by (intros d _ -> E1 E2; cbn [app]; rewrite !times_cons, E1, E2; lia).
  unfold spin_update in U. destruct x as [| | |n| |]; try (injection U as <- _; reflexivity).
  destruct (nth_error ds n) as [d|] eqn:En; [|destruct (throbber_try_update _ _); injection U as <- _; reflexivity].
  destruct d as [k| | | | |]; try (injection U as <- _; now apply K).
  pose proof (One k (nth_error_In _ _ En)) as P. pose proof (char_name 43 k eq_refl ltac:(discriminate) P) as C1. pose proof (char_name 45 k eq_refl ltac:(discriminate) P) as C2.
  change (key_string (Key KeyRunes [43%N] false false)) with (asc "+") in C1. change (key_string (Key KeyRunes [45%N] false false)) with (asc "-") in C2. rewrite <- bytes_eqb_true in C1, C2.
  cbn [app]. rewrite !times_cons. cbv zeta in U.
  destruct (bytes_eqb (key_string k) (asc "+")) eqn:B1.
  { injection U as <- _. rewrite (proj1 C1 eq_refl). destruct (is_char 45 (KeyMsg k)) eqn:B2; [|cbn [sp_rate]; lia]. apply bytes_eqb_true in B1. assert (B3 : bytes_eqb (key_string k) (asc "-") = true) by (apply C2; reflexivity). rewrite B1 in B3. discriminate. }
  assert (is_char 43 (KeyMsg k) = false) as -> by (destruct (is_char 43 (KeyMsg k)); [discriminate (proj2 C1 eq_refl)|reflexivity]).
  destruct (bytes_eqb (key_string k) (asc "-")) eqn:B2.
  { injection U as <- _. rewrite (proj1 C2 eq_refl). cbn [sp_rate]. lia. }
  assert (is_char 45 (KeyMsg k) = false) as -> by (destruct (is_char 45 (KeyMsg k)); [discriminate (proj2 C2 eq_refl)|reflexivity]).
  destruct (bytes_eqb (key_string k) (asc "ctrl+c")); injection U as <- _; lia.
Qed.

(** The program waiting at its loop, whatever happened. The ticks it was given are numbers 0, 1, 2 ..., each once, in this order; the frame is how many there were, and
    what a throbber of any kind shows is that frame of its set, counted around; the rate is a ninth of a second, and a millisecond more for every "+" typed and less for
    every "-". One tick is under way and it is the next one, unless the context is cancelled. *)
Theorem C104_example ds last s m : 0 <= last -> (forall k, In (KeyMsg k) ds -> one_press k) -> the_program ds last s -> st_main s = PLoop m ->
  let given := ticks_given (length ds) (history s) in
  given = seq 0 (length given) /\ th_frame (sp_state m) = zlen given /\
  (forall ty, exists f, set_frame (frame_set ty) (th_frame (sp_state m)) = Ret f /\ nth_error (frame_set ty) (length given mod length (frame_set ty)) = Some f) /\
  sp_rate m = 1000000000 / 9 + 1000000 * (times 43 (typed ds (updates (history s))) - times 45 (typed ds (updates (history s)))) /\
  (st_cancelled s = false -> ticks_coming (length ds) (st_gs s) = [length given]).
Proof.
  intros L One R E given. unfold the_program in R. rewrite (spin_first ds last L) in R. destruct (new_sound last L) as [So T0].
  pose proof (C104_in_order _ _ _ sound tag_of (numbered_user ds) T0 So (spin_sound ds) (spin_ticks ds) (spin_others ds) s m R E) as O. rewrite numbered_length in O. fold given in O.
  assert (Len : length given = tag_of m) by (rewrite O; apply seq_length).
  assert (Sm : sound m).
  { pose proof (reach_good _ _ _ sound So (spin_sound ds) s R) as G. rewrite E in G. exact G. }
  destruct Sm as (M1 & M2 & M3). assert (Fr : th_frame (sp_state m) = zlen given) by (unfold zlen; rewrite Len; unfold tag_of; lia).
  split; [rewrite Len; exact O|]. split; [exact Fr|]. split; [|split].
  - intros ty. rewrite Fr. unfold set_frame. assert (Lf : (0 < length (frame_set ty))%nat) by (destruct ty; cbn; lia).
    unfold zlen. destruct (Z.eqb_spec (Z.of_nat (length (frame_set ty))) 0); [lia|]. rewrite Z.rem_mod_nonneg by lia. rewrite <- Nat2Z.inj_mod. unfold index_at.
    pose proof (Nat.mod_upper_bound (length given) (length (frame_set ty)) ltac:(lia)) as Hm. set (i := (length given mod length (frame_set ty))%nat) in *.
    destruct (nth_error (frame_set ty) i) as [f|] eqn:Ef; [|apply nth_error_None in Ef; lia]. exists f. split; [|reflexivity].
    destruct (Z.ltb_spec (Z.of_nat i) 0); [lia|]. rewrite Nat2Z.id, Ef. reflexivity.
  - pose proof (reach_model _ _ _ _ _ R m ltac:(rewrite E; reflexivity)) as K.
    assert (Eu : rev (upd (st_log s)) = updates (history s)) by (symmetry; apply flat_map_rev; intros []; cbn; lia). rewrite Eu in K. exact (spin_rate ds One _ _ _ K).
  - intros C. pose proof (C104_one_tick _ _ _ sound tag_of (numbered_user ds) T0 So (spin_sound ds) (spin_ticks ds) (spin_others ds) s m R E C) as K. rewrite numbered_length in K. rewrite K, Len. reflexivity.
Qed.
Print Assumptions C104_example.

(** It never comes to rest: wherever it waits, it can come to show any later frame. *)
Theorem C104_spins ds last s m k : 0 <= last -> the_program ds last s -> st_main s = PLoop m -> st_cancelled s = false ->
  exists m' s', steps (new_spinning last) (spin_init ds (new_spinning last)) (spin_update ds) (numbered ds) s s' /\ st_main s' = PLoop m' /\ st_cancelled s' = false /\
    th_frame (sp_state m') = th_frame (sp_state m) + Z.of_nat k /\ sp_rate m' = sp_rate m.
Proof.
  intros L R E C. unfold the_program in R. rewrite (spin_first ds last L) in *. destruct (new_sound last L) as [So T0].
  destruct (C104_goes_on _ _ _ sound tag_of (numbered_user ds) T0 So (spin_sound ds) (spin_ticks ds) (spin_others ds) k s m R E C) as (m' & s' & S1 & E1 & C1 & K & _ & A).
  exists m', s'. split; [exact S1|]. split; [exact E1|]. split; [exact C1|].
  pose proof (reach_good _ _ _ sound So (spin_sound ds) s R) as G. rewrite E in G. pose proof (reach_good _ _ _ sound So (spin_sound ds) s' (steps_trans _ _ _ _ _ _ _ R S1)) as G'. rewrite E1 in G'.
  destruct G as (M1 & M2 & M3), G' as (M1' & M2' & M3'). split; [unfold tag_of in K; lia|].
  clear - A. revert A. generalize (seq (tag_of m) k). intros l. revert m. induction l as [|t l IH]; intros m A; cbn [map model_after] in A; [now injection A as <-|]. destruct (spin_update _ _ _) as [[m1 c]|] eqn:U; [|discriminate]. apply IH in A. rewrite A.
  unfold spin_update in U. rewrite (proj2 (nth_error_None ds _)) in U by (rewrite numbered_length; lia). destruct (throbber_try_update _ _). injection U as <- _. reflexivity.
Qed.
Print Assumptions C104_spins.

(** And it ends at Ctrl+C, not before. *)
Theorem C104_leaves ds last size coming : 0 <= last -> (forall k, In (KeyMsg k) ds -> one_press k) ->
  leaves_when_asked (spin_init ds (new_spinning last)) (spin_update ds) (fun m _ => m) ds (fun j => exists k, nth_error ds j = Some (KeyMsg k) /\ k_type k = KeyCtrlC /\ k_alt k = false) (Live (new_spinning last) size coming).
Proof.
  intros L One.
  assert (Own : forall t, own (numbered ds) (spin_cmd ds t)) by (intros t; split; [reflexivity|]; eexists; split; [reflexivity|rewrite numbered_length; lia]).
  apply leaves.
  - intros j (k & E & _). apply nth_error_Some. congruence.
  - intros c [= <-]. apply Own.
  - intros m x m' c. unfold spin_update. destruct x as [| | |n| |]; try discriminate. destruct (nth_error ds n) as [[k| | | | |]|] eqn:En; try discriminate.
    + cbv zeta. destruct (bytes_eqb _ (asc "+")); [discriminate|]. destruct (bytes_eqb _ (asc "-")); [discriminate|]. destruct (bytes_eqb _ (asc "ctrl+c")) eqn:B; [|discriminate]. intros [= _ <-]. right. split; [reflexivity|].
      exists n. split; [reflexivity|]. exists k. split; [exact En|]. apply bytes_eqb_true in B. apply quit_name; [exact (One k (nth_error_In _ _ En))|exact B].
    + destruct (throbber_try_update _ _) as [s1 [t|]]; [|discriminate]. intros [= _ <-]. left. apply Own.
  - intros m j (k & En & Q). unfold spin_update. rewrite En. cbv zeta. apply quit_name in Q; [|exact (One k (nth_error_In _ _ En))]. rewrite Q. reflexivity.
Qed.
Print Assumptions C104_leaves.

(** The program reaches its loop; there it can handle a "+", and be at its seventh frame. *)
Lemma reaches_loop {M : Type} (m0 : M) first update inputs : exists s, reachable m0 first update inputs s /\ st_main s = PLoop m0 /\ st_cancelled s = false /\ In (GRead 0) (st_gs s).
Proof.
  eexists. split.
  { eapply steps_step; [eapply steps_step; [eapply steps_step; [eapply steps_step; [eapply steps_step; [eapply steps_step; [eapply steps_step; [apply steps_refl|]|]|]|]|]|]|].
    - apply s_setup.
    - apply s_setup.
    - apply s_setup.
    - apply s_init.
    - apply s_draw0.
    - apply s_reader.
    - apply s_start. }
  split; [reflexivity|]. split; [reflexivity|]. cbn. auto.
Qed.
Definition plus_key : M_Decode.msg := KeyMsg (Key KeyRunes [43%N] false false).
Definition stop_key : M_Decode.msg := KeyMsg (Key KeyCtrlC [] false false).
Example C104_instance : (forall k, In (KeyMsg k) [plus_key; stop_key] -> one_press k) /\
  exists s m, the_program [plus_key; stop_key] 0 s /\ st_main s = PLoop m /\ st_cancelled s = false /\ th_frame (sp_state m) = 7 /\ sp_rate m = 112111111 /\
    ticks_given 2 (history s) = [0; 1; 2; 3; 4; 5; 6]%nat /\ ticks_coming 2 (st_gs s) = [7%nat] /\ set_frame (frame_set TypeLine) (th_frame (sp_state m)) = Ret [92%N].
Proof.
  assert (One : forall k, In (KeyMsg k) [plus_key; stop_key] -> one_press k).
  { intros k [E|[E|[]]]; injection E as <-; [apply (press_char 43%N false); [reflexivity|discriminate]|apply (press_named KeyCtrlC false); [vm_compute; tauto|discriminate]]. }
  split; [exact One|]. set (ds := [plus_key; stop_key]) in *. destruct (reaches_loop (new_spinning 0) (spin_init ds (new_spinning 0)) (spin_update ds) (numbered ds)) as (s & R & E & C & I).
  destruct s as [p gs x md n lg]. cbn [st_main st_cancelled st_gs] in *. subst. apply in_split in I. destruct I as (l1 & l2 & ->).
  pose proof (steps_step _ _ _ _ _ _ _ _ R (s_loop_msg _ _ _ (spin_update ds) (numbered ds) _ _ _ _ _ l1 l2 false md n lg (o_input (numbered ds) 0 (MUser 0) eq_refl) ltac:(discriminate) ltac:(discriminate))) as S1. cbn [spawn_seq fst snd app] in S1.
  assert (U : spin_update ds (new_spinning 0) (MUser 0) = Some (Spinning (sp_state (new_spinning 0)) 112111111, None)) by (vm_compute; reflexivity).
  pose proof (steps_step _ _ _ _ _ _ _ _ S1 (s_update _ _ _ _ _ _ _ _ _ _ false md (S n) _ U)) as S2. cbn [tag returned app] in S2.
  pose proof (reach_handler _ _ _ _ _ S2 eq_refl eq_refl) as I. cbn [st_gs] in I. apply in_split in I. destruct I as (k1 & k2 & I). rewrite I in S2.
  pose proof (steps_step _ _ _ _ _ _ _ _ S2 (s_send_nil _ _ _ _ _ _ k1 k2 false md _ _)) as S3.
  pose proof (steps_step _ _ _ _ _ _ _ _ S3 (s_draw _ _ _ _ _ _ _ false md _ _)) as S4.
  destruct (C104_spins ds 0 _ _ 7 (Z.le_refl 0) S4 eq_refl eq_refl) as (m' & s' & S5 & E' & C' & F & Rt). cbn [sp_state th_frame new_spinning new_throbber_state snd Z.of_nat Pos.of_succ_nat Pos.succ Z.add] in F.
  pose proof (steps_trans _ _ _ _ _ _ _ S4 S5) as R'. destruct (C104_example ds 0 s' m' (Z.le_refl 0) One R' E') as (A1 & A2 & A3 & A4 & A5). specialize (A5 C').
  change (length ds) with 2%nat in *. rewrite F in A2. assert (Ln : length (ticks_given 2 (history s')) = 7%nat) by (unfold zlen in A2; lia). rewrite Ln in *.
  exists s', m'. split; [exact R'|]. split; [exact E'|]. split; [exact C'|]. split; [exact F|]. split; [exact Rt|split; [exact A1|split; [exact A5|rewrite F; vm_compute; reflexivity]]].
Qed.
(** Ctrl+C at once: Run can return, with the model as it began. *)
Example C104_leaves_instance : let v0 := Live (new_spinning 0) (40, 12) [] in
  exists v s, reachable v0 (spin_init [stop_key] (new_spinning 0)) (live_update (spin_update [stop_key]) (fun m _ => m)) (numbered [stop_key]) s /\ st_main s = PReturned (Some v) None /\ st_modes s = plain_modes /\ lv_model v = new_spinning 0.
Proof.
  intros v0. assert (One : forall k, In (KeyMsg k) [stop_key] -> one_press k) by (intros k [E|[]]; injection E as <-; apply (press_named KeyCtrlC false); [vm_compute; tauto|discriminate]).
  destruct (reaches_loop v0 (spin_init [stop_key] (new_spinning 0)) (live_update (spin_update [stop_key]) (fun m _ => m)) (numbered [stop_key])) as (s & R & E & C & I).
  destruct (C104_leaves [stop_key] 0 (40, 12) [] (Z.le_refl 0) One s R) as (_ & _ & A & _). destruct (A v0 0%nat) as (v & s' & S1 & E1 & E2 & E3); [now exists (Key KeyCtrlC [] false false)|exact E|exact C|exact I|].
  exists v, s'. split; [exact (steps_trans _ _ _ _ _ _ _ R S1)|auto].
Qed.
