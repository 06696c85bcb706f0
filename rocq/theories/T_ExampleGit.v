(** C106: the program of examples/lazygitlike: Tab and Shift+Tab go around its five panels, on a low screen the active one has the room, and it ends at q or Ctrl+C. *)
From Verif Require Import Base P_Base M_Geom M_Solver M_Layout M_Rounded S_Solver S_Layout S_Place S_Rounded S_Geom T_Solver T_Layout T_Place T_Exact T_Apart T_Rounded T_View.
From Verif Require Import S_Keys P_Decode T_Decode T_KeyName.
From Verif Require Import M_Utf8 M_KeyTable M_Decode M_Cmd M_App P_App P_AppIds P_AppLog P_AppRun P_AppEnd T_App S_Stateful T_Stateful S_Typed S_Session S_Joint T_Joint T_Leaving T_LeavingExamples T_ExampleThrobber M_ExampleGit.
From Coq Require Import ZArith NArith QArith String List Bool Lia Lqa.
Import ListNotations.
Open Scope Z_scope.
Local Open Scope list_scope.
#[local] Existing Instance no_tolerance.

(** ** The specification *)
(** How often a key with a name, alone, is among the messages *)
Definition presses (t : Z) (ds : list M_Decode.msg) : Z :=
  zlen (filter (fun d => match d with KeyMsg (Key t' [] false false) => t' =? t | _ => false end) ds).
(** The panels of the sidebar from top to bottom *)
Definition the_panels : list string := ["Status"; "Files"; "Branches"; "Commits"; "Stash"]%string.
Definition the_git (ds : list M_Decode.msg) : state Z -> Prop := reachable PanelFiles None (git_update ds) (numbered ds).

(** ** Which panel is active *)
Lemma named_key t k : In t (map fst key_names) -> t <> KeyRunes -> t <> KeySpace -> one_press k -> key_string k = key_string (Key t [] false false) -> k = Key t [] false false.
Proof.
  intros I N Ns P E. apply C45_names_partial; [exact P| |exact E]. pose proof (press_named t false I N) as Q. destruct (Z.eqb_spec t KeySpace); [contradiction|exact Q].
Qed.
Lemma presses_cons t d ds : presses t (d :: ds) = (if match d with KeyMsg (Key t' [] false false) => t' =? t | _ => false end then 1 else 0) + presses t ds.
Proof. unfold presses. cbn [filter]. destruct (match d with KeyMsg _ => _ | _ => _ end); [rewrite zlen_cons|]; lia. Qed.
Lemma next_mod p : 0 <= p < 5 -> panel_next p = (p + 1) mod 5.
Proof. intros H. unfold panel_next, PanelInfo. apply Z.rem_mod_nonneg; lia. Qed.
Lemma prev_mod p : 0 <= p < 5 -> panel_prev p = (p - 1) mod 5.
Proof. intros H. assert (p = 0 \/ p = 1 \/ p = 2 \/ p = 3 \/ p = 4) as K by lia. destruct K as [->|[->|[->|[->| ->]]]]; reflexivity. Qed.
Lemma quit_q k : one_press k -> key_string k = asc "q" <-> k = Key KeyRunes (asc "q") false false.
Proof.
  intros P. split; [|now intros ->]. intros E. apply C45_names_partial; [exact P|apply (press_char 113%N false); [reflexivity|discriminate]|exact E].
Qed.
Lemma git_key p k n ds : one_press k -> nth_error ds n = Some (KeyMsg k) ->
  (k = Key KeyTab [] false false /\ git_update ds p (MUser n) = Some (panel_next p, None)) \/
  (k = Key KeyShiftTab [] false false /\ git_update ds p (MUser n) = Some (panel_prev p, None)) \/
  ((k = Key KeyRunes (asc "q") false false \/ k_type k = KeyCtrlC /\ k_alt k = false) /\ git_update ds p (MUser n) = Some (p, Some (quit_cmd 0))) \/
  (k <> Key KeyTab [] false false /\ k <> Key KeyShiftTab [] false false /\ k <> Key KeyRunes (asc "q") false false /\ ~ (k_type k = KeyCtrlC /\ k_alt k = false) /\ git_update ds p (MUser n) = Some (p, None)).
Proof.
  intros P En. unfold git_update. rewrite En. cbv zeta.
  destruct (bytes_eqb (key_string k) (asc "ctrl+c")) eqn:B1.
  { apply bytes_eqb_true in B1. right. right. left. split; [right; now apply quit_name|reflexivity]. }
  assert (Nc : ~ (k_type k = KeyCtrlC /\ k_alt k = false)) by (intros K; apply (quit_name k P) in K; rewrite K in B1; discriminate).
  destruct (bytes_eqb (key_string k) (asc "q")) eqn:B2.
  { apply bytes_eqb_true in B2. right. right. left. split; [left; now apply quit_q|reflexivity]. }
  cbn [orb]. destruct (bytes_eqb (key_string k) (asc "shift+tab")) eqn:B3.
  { apply bytes_eqb_true in B3. right. left. split; [|reflexivity]. apply named_key; [vm_compute; tauto|discriminate|discriminate|exact P|exact B3]. }
  destruct (bytes_eqb (key_string k) (asc "tab")) eqn:B4.
  { apply bytes_eqb_true in B4. left. split; [|reflexivity]. apply named_key; [vm_compute; tauto|discriminate|discriminate|exact P|exact B4]. }
  right. right. right. repeat split; auto; intros ->; discriminate.
Qed.
Lemma git_panel ds : (forall k, In (KeyMsg k) ds -> one_press k) -> forall xs p p', 0 <= p < 5 -> model_after (git_update ds) p xs = Some p' ->
  p' = (p + presses KeyTab (typed ds xs) - presses KeyShiftTab (typed ds xs)) mod 5.
Proof.
  intros One. induction xs as [|x xs IH]; intros p p' Hp E; cbn [model_after] in E.
  { injection E as <-. unfold presses. cbn. rewrite Z.mod_small; lia. }
  destruct (git_update ds p x) as [[p1 c]|] eqn:U; [|discriminate]. unfold typed. cbn [flat_map]. fold (typed ds xs).
  assert (Same : p1 = p -> (match x with MUser n => match nth_error ds n with Some d => [d] | None => [] end | _ => [] end = [] \/ exists d, match x with MUser n => match nth_error ds n with Some d => [d] | None => [] end | _ => [] end = [d] /\
      match d with KeyMsg (Key t' [] false false) => t' =? KeyTab | _ => false end = false /\ match d with KeyMsg (Key t' [] false false) => t' =? KeyShiftTab | _ => false end = false) ->
      p' = (p + presses KeyTab (match x with MUser n => match nth_error ds n with Some d => [d] | None => [] end | _ => [] end ++ typed ds xs) - presses KeyShiftTab (match x with MUser n => match nth_error ds n with Some d => [d] | None => [] end | _ => [] end ++ typed ds xs)) mod 5).
  { intros -> [-> | (d & -> & D1 & D2)]; cbn [app]; [apply IH; [exact Hp|exact E]|]. rewrite !presses_cons, D1, D2, !Z.add_0_l. apply IH; [exact Hp|exact E]. }
  destruct x as [| | |n| |]; try (cbn [git_update] in U; injection U as <- _; apply Same; [reflexivity|now left]).
  destruct (nth_error ds n) as [d|] eqn:En; [|unfold git_update in U; rewrite En in U; injection U as <- _; apply Same; [reflexivity|now left]].
  destruct d as [k| | | | |]; try (unfold git_update in U; rewrite En in U; injection U as <- _; apply Same; [reflexivity|right; eexists; split; [reflexivity|now split]]).
  destruct (git_key p k n ds (One k (nth_error_In _ _ En)) En) as [(-> & U')|[(-> & U')|[(K & U')|(N1 & N2 & _ & _ & U')]]]; rewrite U' in U; injection U as <- _.
  - rewrite (next_mod p Hp) in E. apply IH in E; [|apply Z.mod_pos_bound; lia]. subst p'. cbn [app]. rewrite !presses_cons. cbn [Z.eqb]. change (KeyTab =? KeyTab) with true. change (KeyTab =? KeyShiftTab) with false. cbv iota.
    rewrite <- Z.add_sub_assoc, Z.add_mod_idemp_l by lia. f_equal. lia.
  - rewrite (prev_mod p Hp) in E. apply IH in E; [|apply Z.mod_pos_bound; lia]. subst p'. cbn [app]. rewrite !presses_cons. change (KeyShiftTab =? KeyShiftTab) with true. change (KeyShiftTab =? KeyTab) with false. cbv iota.
    rewrite <- Z.add_sub_assoc, Z.add_mod_idemp_l by lia. f_equal. lia.
  - apply Same; [reflexivity|]. right. eexists. split; [reflexivity|]. destruct K as [->|[Kt Ka]]; [now split|]. destruct k as [t rs a b]. cbn [k_type k_alt] in *. subst t a. destruct rs; [destruct b|]; now split.
  - apply Same; [reflexivity|]. right. eexists. split; [reflexivity|]. destruct k as [t rs a b]. destruct rs; [|now split]. destruct a; [now split|]. destruct b; [now split|].
    split; apply Z.eqb_neq; intros ->; congruence.
Qed.

(** The program waiting at its loop, whatever happened: the active panel is as many places after Files as Tab was pressed, and as many before as Shift+Tab was, counted
    around the five; its title is that panel's name. *)
Theorem C106_panel ds s p : (forall k, In (KeyMsg k) ds -> one_press k) -> the_git ds s -> st_main s = PLoop p ->
  let typed_keys := typed ds (updates (history s)) in
  p = (1 + presses KeyTab typed_keys - presses KeyShiftTab typed_keys) mod 5 /\
  exists name, nth_error the_panels (Z.to_nat p) = Some name /\ panel_title p = Ret (asc name).
Proof.
  intros One R E K. pose proof (reach_model _ _ _ _ _ R p ltac:(rewrite E; reflexivity)) as Q.
  assert (Eu : rev (upd (st_log s)) = updates (history s)) by (symmetry; apply flat_map_rev; intros []; cbn; lia). rewrite Eu in Q. apply (git_panel ds One) in Q; [|unfold PanelFiles; lia]. fold K in Q. change PanelFiles with 1 in Q. split; [exact Q|].
  assert (Hp : 0 <= p < 5) by (rewrite Q; apply Z.mod_pos_bound; lia). clear Q Eu E R. assert (p = 0 \/ p = 1 \/ p = 2 \/ p = 3 \/ p = 4) as C by lia.
  destruct C as [->|[->|[->|[->| ->]]]]; eexists; split; reflexivity.
Qed.
Print Assumptions C106_panel.

(** It ends at q or Ctrl+C, not before. *)
Theorem C106_leaves ds v0 : (forall k, In (KeyMsg k) ds -> one_press k) ->
  leaves_when_asked None (git_update ds) (fun m _ => m) ds (fun j => exists k, nth_error ds j = Some (KeyMsg k) /\ (k = Key KeyRunes (asc "q") false false \/ k_type k = KeyCtrlC /\ k_alt k = false)) v0.
Proof.
  intros One. apply leaves.
  - intros j (k & E & _). apply nth_error_Some. congruence.
  - discriminate.
  - intros p x p' c U. destruct x as [| | |n| |]; try discriminate. destruct (nth_error ds n) as [d|] eqn:En; [|unfold git_update in U; rewrite En in U; discriminate]. destruct d as [k| | | | |]; try (unfold git_update in U; rewrite En in U; discriminate).
    destruct (git_key p k n ds (One k (nth_error_In _ _ En)) En) as [(_ & U')|[(_ & U')|[(K & U')|(_ & _ & _ & _ & U')]]]; rewrite U' in U; try discriminate. injection U as _ <-. right. split; [reflexivity|]. exists n. split; [reflexivity|]. exists k. auto.
  - intros p j (k & E & K). destruct (git_key p k j ds (One k (nth_error_In _ _ E)) E) as [(-> & U')|[(-> & U')|[(_ & U')|(_ & _ & N1 & N2 & U')]]]; [..|exact U'|exfalso; tauto]; exfalso; destruct K as [K|[K _]]; discriminate.
Qed.
Print Assumptions C106_leaves.

(** *** Instances: Shift+Tab, once: the Status panel is active. Then q: Run can return. *)
Definition back_key : M_Decode.msg := KeyMsg (Key KeyShiftTab [] false false).
Definition q_key : M_Decode.msg := KeyMsg (Key KeyRunes (asc "q") false false).
Lemma git_presses : forall k, In (KeyMsg k) [back_key; q_key] -> one_press k.
Proof. intros k [E|[E|[]]]; injection E as <-; [apply (press_named KeyShiftTab false); [vm_compute; tauto|discriminate]|apply (press_char 113%N false); [reflexivity|discriminate]]. Qed.
Example C106_panel_instance : exists s, the_git [back_key; q_key] s /\ st_main s = PLoop PanelStatus /\ presses KeyShiftTab (typed [back_key; q_key] (updates (history s))) mod 5 = 1.
Proof.
  set (ds := [back_key; q_key]) in *. destruct (reaches_loop PanelFiles None (git_update ds) (numbered ds)) as (s & R & E & C & I).
  destruct s as [p gs x md n lg]. cbn [st_main st_cancelled st_gs] in *. subst. apply in_split in I. destruct I as (l1 & l2 & ->).
  pose proof (steps_step _ _ _ _ _ _ _ _ R (s_loop_msg _ _ _ (git_update ds) (numbered ds) _ _ _ _ _ l1 l2 false md n lg (o_input (numbered ds) 0 (MUser 0) eq_refl) ltac:(discriminate) ltac:(discriminate))) as S1. cbn [spawn_seq fst snd app] in S1.
  assert (U : git_update ds PanelFiles (MUser 0) = Some (PanelStatus, None)) by (vm_compute; reflexivity).
  pose proof (steps_step _ _ _ _ _ _ _ _ S1 (s_update _ _ _ _ _ _ _ _ _ _ false md (S n) _ U)) as S2. cbn [tag returned app] in S2.
  pose proof (reach_handler _ _ _ _ _ S2 eq_refl eq_refl) as I. cbn [st_gs] in I. apply in_split in I. destruct I as (k1 & k2 & I). rewrite I in S2.
  pose proof (steps_step _ _ _ _ _ _ _ _ S2 (s_send_nil _ _ _ _ _ _ k1 k2 false md _ _)) as S3.
  pose proof (steps_step _ _ _ _ _ _ _ _ S3 (s_draw _ _ _ _ _ _ _ false md _ _)) as S4.
  eexists. split; [exact S4|]. split; [reflexivity|]. destruct (C106_panel ds _ _ git_presses S4 eq_refl) as (P & _). cbv zeta in P.
  assert (Kt : forall xs, presses KeyTab (typed ds xs) = 0).
  { intros xs. induction xs as [|x xs IH]; [reflexivity|]. unfold typed. cbn [flat_map]. fold (typed ds xs). destruct x as [| | |j| |]; try exact IH. destruct j as [|[|[|j]]]; cbn [nth_error ds app]; unfold ds in *; cbn [nth_error app]; rewrite ?presses_cons; try exact IH; cbn; exact IH. }
  rewrite Kt in P. change PanelStatus with 0 in P. set (t := presses _ _) in *. clearbody t. Z.to_euclidean_division_equations. lia.
Qed.
Example C106_leaves_instance : let v0 := Live PanelFiles (80, 24) [] in
  exists v s, reachable v0 None (live_update (git_update [q_key]) (fun m _ => m)) (numbered [q_key]) s /\ st_main s = PReturned (Some v) None /\ st_modes s = plain_modes /\ lv_model v = PanelFiles.
Proof.
  intros v0. destruct (reaches_loop v0 None (live_update (git_update [q_key]) (fun m _ => m)) (numbered [q_key])) as (s & R & E & C & I).
  destruct (C106_leaves [q_key] v0 ltac:(intros k [H|[]]; apply git_presses; right; left; exact H) s R) as (_ & _ & A & _). destruct (A v0 0%nat) as (v & s' & S1 & E1 & E2 & E3); [exists (Key KeyRunes (asc "q") false false); split; [reflexivity|now left]|exact E|exact C|exact I|].
  exists v, s'. split; [exact (steps_trans _ _ _ _ _ _ _ R S1)|auto].
Qed.
