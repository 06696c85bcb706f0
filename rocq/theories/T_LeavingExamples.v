(** C103: the programs of examples/input and examples/list end when the user asks them to, and not before. *)
From Verif Require Import S_Keys P_Decode T_Decode T_KeyName.
From Verif Require Import Base P_Base M_Style M_Uniseg M_List M_Utf8 M_KeyTable M_Decode M_Input M_Typing M_Listing M_Cmd M_App P_App P_AppIds P_AppLog P_AppRun P_AppEnd T_App S_Stateful T_Stateful S_Typed T_Typed M_Example T_ExampleRun M_ExampleList T_ExampleListRun S_Session S_Joint T_Joint T_Leaving.
From Coq Require Import ZArith NArith String List Bool Lia.
Import ListNotations.
Open Scope Z_scope.

(** What it is for a program that starts at [v0], whose reader has the messages [ds], to end when the user asks it to and not before. The user asks at the messages
    [wants]; the model Run returns is the one the message found, as its last drawing left it. *)
Definition leaves_when_asked {M : Type} (first : option cmd) (update : M -> M_Cmd.msg -> option (M * option cmd)) (redrawn : M -> Z * Z -> M) (ds : list M_Decode.msg) (wants : nat -> Prop) (v0 : live M) : Prop :=
  forall s, reachable v0 first (live_update update redrawn) (numbered ds) s ->
  (forall v, st_main s = PReturned (Some v) None -> exists j, wants j /\ In (EAccepted (WInput j) (MUser j)) (history s)) /\
  st_main s <> PCrashed /\
  (forall v j, wants j -> st_main s = PLoop v -> st_cancelled s = false -> In (GRead j) (st_gs s) ->
    exists v' s', steps v0 first (live_update update redrawn) (numbered ds) s s' /\ st_main s' = PReturned (Some v') None /\ st_modes s' = plain_modes /\ lv_model v' = redrawn (lv_model v) (lv_size v)) /\
  (forall v j, wants j -> st_main s = PLoop v -> st_cancelled s = false -> In (EUpdate (MUser j)) (history s) ->
    exists s', steps v0 first (live_update update redrawn) (numbered ds) s s' /\ st_main s' = PReturned (Some v) None /\ st_modes s' = plain_modes).

Lemma numbered_in ds j : (j < length ds)%nat -> nth_error (numbered ds) j = Some (MUser j).
Proof. intros Lj. unfold numbered. rewrite nth_error_map, (nth_error_nth' _ 0%nat) by (now rewrite seq_length). rewrite seq_nth by exact Lj. reflexivity. Qed.
Lemma numbered_user ds k x : nth_error (numbered ds) k = Some x -> x = MUser k.
Proof.
  intros E. assert (Lk : (k < length ds)%nat) by (assert (N : nth_error (numbered ds) k <> None) by congruence; apply nth_error_Some in N; unfold numbered in N; now rewrite map_length, seq_length in N).
  rewrite (numbered_in ds k Lk) in E. congruence.
Qed.
Lemma numbered_length ds : length (numbered ds) = length ds.
Proof. unfold numbered. now rewrite map_length, seq_length. Qed.
Lemma leaves {M : Type} first (update : M -> M_Cmd.msg -> option (M * option cmd)) redrawn (ds : list M_Decode.msg) (wants : nat -> Prop) (v0 : live M) :
  (forall j, wants j -> (j < length ds)%nat) ->
  (forall c, first = Some c -> own (numbered ds) c) ->
  (forall m x m' c, update m x = Some (m', Some c) -> own (numbered ds) c \/ c = quit_cmd 0 /\ exists j, x = MUser j /\ wants j) ->
  (forall m j, wants j -> update m (MUser j) = Some (m, Some (quit_cmd 0))) -> leaves_when_asked first update redrawn ds wants v0.
Proof.
  intros Wl First Only Quits s R.
  assert (H1 : forall m x m' c, live_update update redrawn m x = Some (m', Some c) -> own (numbered ds) c \/ c = quit_cmd 0 /\ exists j, x = MUser j /\ wants j).
  { intros m x m' c. unfold live_update. destruct (update _ x) as [[m1 c1]|] eqn:E; [|discriminate]. destruct (next_size _ _ _). intros [= <- ->]. exact (Only _ _ _ _ E). }
  assert (H2' : forall m j, wants j -> exists m', live_update update redrawn m (MUser j) = Some (m', Some (quit_cmd 0)) /\ lv_model m' = redrawn (lv_model m) (lv_size m)).
  { intros m j W. unfold live_update. rewrite (Quits _ j W). destruct (next_size _ _ _). eexists. split; reflexivity. }
  assert (H2 : forall m j, wants j -> exists m', live_update update redrawn m (MUser j) = Some (m', Some (quit_cmd 0))) by (intros m j W; destruct (H2' m j W) as (m' & E & _); eauto).
  assert (Wn : forall j, wants j -> (j < length (numbered ds))%nat) by (intros j W; rewrite numbered_length; auto).
  destruct (C103_not_before v0 _ (numbered ds) wants first (numbered_user ds) Wn First H1 s R) as (_ & A & B). split; [exact A|]. split; [exact B|]. split.
  - intros v j W E C I. destruct (C103_can_leave v0 _ (numbered ds) wants first H2 s v j R W E C I (numbered_in ds j (Wl j W))) as (v' & s' & U & S1 & E1 & E2 & _).
    exists v', s'. split; [exact S1|]. split; [exact E1|]. split; [exact E2|]. destruct (H2' v j W) as (v'' & U' & Ev). congruence.
  - intros v j W E C I. destruct (C103_once_handled v0 _ (numbered ds) wants first (numbered_user ds) Wn First H1 H2 s v j R W I E C) as (s' & S1 & E1 & E2 & _). eauto.
Qed.

(** examples/input: at Ctrl+C *)
Theorem C103_input u ds redrawn v0 : leaves_when_asked None (example_update u ds) redrawn ds (fun j => exists k, nth_error ds j = Some (KeyMsg k) /\ k_type k = KeyCtrlC /\ k_alt k = false) v0.
Proof.
  apply leaves.
  - intros j (k & E & _). apply nth_error_Some. congruence.
  - discriminate.
  - intros m x m' c E. destruct (C101_quits _ _ _ _ _ _ E) as ([Q|Q] & I & _); [discriminate|]. destruct (proj1 I Q) as (j & k & Ex & K). injection Q as ->. right. split; [reflexivity|]. exists j. split; [exact Ex|]. exists k. exact K.
  - intros m j (k & E & Kt & Ka).
    assert (D : exists m1 c, example_update u ds m (MUser j) = Some (m1, c)).
    { unfold example_update. rewrite E. cbn [try_update]. unfold input_key_of. rewrite Kt. change (is_update u m _) with (@Ret (input_state * bool) (m, false)). eauto. }
    destruct D as (m1 & c & D). destruct (C101_quits _ _ _ _ _ _ D) as (_ & I & Same). rewrite D. rewrite (proj2 I) by (exists j, k; auto). rewrite (Same ltac:(rewrite (proj2 I) by (exists j, k; auto); discriminate)). reflexivity.
Qed.
Print Assumptions C103_input.
(** examples/list: at q or Ctrl+C *)
Theorem C103_list ds redrawn v0 : (forall k, In (KeyMsg k) ds -> one_press k) ->
  leaves_when_asked None (listing_update ds) redrawn ds (fun j => exists k, nth_error ds j = Some (KeyMsg k) /\ (k = Key KeyRunes (asc "q") false false \/ k_type k = KeyCtrlC /\ k_alt k = false)) v0.
Proof.
  intros One. apply leaves.
  - intros j (k & E & _). apply nth_error_Some. congruence.
  - discriminate.
  - intros m x m' c E. destruct (C102_quits _ _ _ _ _ One E) as ([Q|Q] & I & _); [discriminate|]. destruct (proj1 I Q) as (j & k & Ex & K). injection Q as ->. right. split; [reflexivity|]. exists j. split; [exact Ex|]. exists k. exact K.
  - intros m j (k & E & K).
    assert (D : exists m1 c, listing_update ds m (MUser j) = Some (m1, c)).
    { unfold listing_update. rewrite E. destruct (list_try_update _ _) as [s1 [|]]; [eauto|]. cbv zeta. repeat match goal with |- context [if ?c then _ else _] => destruct c end; eauto. }
    destruct D as (m1 & c & D). destruct (C102_quits _ _ _ _ _ One D) as (_ & I & Same). rewrite D. rewrite (proj2 I) by (exists j, k; auto). rewrite (Same ltac:(rewrite (proj2 I) by (exists j, k; auto); discriminate)). reflexivity.
Qed.
Print Assumptions C103_list.

(** q in examples/list, and Ctrl+C in examples/input: there are runs that reach the loop and end, whatever the last drawing left. *)
Definition q_key : M_Decode.msg := KeyMsg (Key KeyRunes (asc "q") false false).
Example C103_list_instance (redrawn : listing -> Z * Z -> listing) : let v0 := Live (Listing (ListState 0 None) false) (34, 8) [] in
  exists v s, reachable v0 None (live_update (listing_update [q_key]) redrawn) (numbered [q_key]) s /\ st_main s = PReturned (Some v) None /\ st_modes s = plain_modes /\ lv_model v = redrawn (lv_model v0) (34, 8) /\
    In (EAccepted (WInput 0) (MUser 0)) (history s).
Proof.
  intros v0. pose proof (together_reachable _ _ _ _ _ _ _ (begun v0 [q_key] (live_update (listing_update [q_key]) redrawn) (fun _ _ b => Ret b))) as R.
  assert (One : forall k, In (KeyMsg k) [q_key] -> one_press k) by (intros k [E|[]]; injection E as <-; apply (press_char 113%N false); [reflexivity|discriminate]).
  pose proof (C103_list [q_key] redrawn v0 One) as L.
  destruct (L _ R) as (_ & _ & A & _). destruct (A v0 0%nat) as (v & s & S1 & E1 & E2 & E3); [now exists (Key KeyRunes (asc "q") false false); split; [|left]|reflexivity|reflexivity|cbn; auto|].
  exists v, s. pose proof (steps_trans _ _ _ _ _ _ _ R S1) as R'. split; [exact R'|]. split; [exact E1|]. split; [exact E2|]. split; [exact E3|].
  destruct (L s R') as (B & _). destruct (B v E1) as (j & (k & Ej & _) & I). destruct j as [|[|j]]; [exact I|discriminate|discriminate].
Qed.
Example C103_input_instance (redrawn : input_state -> Z * Z -> input_state) (m : input_state) : let ds := [KeyMsg (Key KeyCtrlC [] false false)] in let v0 := Live m (40, 12) [] in
  exists v s, reachable v0 None (live_update (example_update simple_uniseg ds) redrawn) (numbered ds) s /\ st_main s = PReturned (Some v) None /\ st_modes s = plain_modes /\ lv_model v = redrawn m (40, 12).
Proof.
  intros ds v0. pose proof (together_reachable _ _ _ _ _ _ _ (begun v0 ds (live_update (example_update simple_uniseg ds) redrawn) (fun _ _ b => Ret b))) as R.
  destruct (C103_input simple_uniseg ds redrawn v0 _ R) as (_ & _ & A & _). destruct (A v0 0%nat) as (v & s & S1 & E1 & E2 & E3); [now exists (Key KeyCtrlC [] false false)|reflexivity|reflexivity|cbn; auto|].
  exists v, s. split; [exact (steps_trans _ _ _ _ _ _ _ R S1)|auto].
Qed.
