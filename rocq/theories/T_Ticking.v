(** C104: an animation driven by commands that return ticks, in a running program: it goes on as long as the program does, by one frame a tick. *)
From Verif Require Import Base M_Cmd M_App P_App P_AppIds P_AppLog P_AppRun P_AppEnd T_App.
From Coq Require Import List Bool Arith Lia Permutation.
Import ListNotations.

(** The messages from number [N] on are ticks: the tick with the tag t is number N + t. *)
Definition msg_tick (N : nat) (x : msg) : list nat := match x with MUser k => if k <? N then [] else [k - N] | _ => [] end.
Definition tick_cmd (N t : nat) : cmd := Cmd 0 false (MUser (N + t)).
(** The ticks a goroutine is to bring *)
Definition g_tick (N : nat) (g : gor) : list nat := match g with GInit _ c | GRun _ c => msg_tick N (c_msg c) | GSend _ x => msg_tick N x | _ => [] end.
Definition ticks_coming (N : nat) (gs : list gor) : list nat := flat_map (g_tick N) gs.
(** The ticks the model was given *)
Definition ticks_given (N : nat) (evs : list event) : list nat := flat_map (fun e => match e with EUpdate x => msg_tick N x | _ => [] end) evs.

Section Ticking.
Context {M : Type}.
Variable m0 : M.
Variable update : M -> msg -> option (M * option cmd).
Variable inputs : list msg.
(** The models there are, and the tag each has *)
Variable good : M -> Prop.
Variable clock : M -> nat.
Notation N := (length inputs).
Hypothesis Hin : forall k x, nth_error inputs k = Some x -> x = MUser k.
Hypothesis H0 : clock m0 = 0.
Hypothesis G0 : good m0.
Hypothesis Hgood : forall m x m' c, good m -> update m x = Some (m', c) -> good m'.
(** The model answers the tick that has its present tag with the next one; at anything else it returns at most quit, and the tag stays. *)
Hypothesis Htick : forall m, good m -> exists m', update m (MUser (N + clock m)) = Some (m', Some (tick_cmd N (S (clock m)))) /\ clock m' = S (clock m).
Hypothesis Hother : forall m x, good m -> msg_tick N x = [] -> exists m' c, update m x = Some (m', c) /\ clock m' = clock m /\ (c = None \/ c = Some (quit_cmd 0)).
Notation first := (Some (tick_cmd N 0)).
Notation step := (step m0 first update inputs).
Notation steps := (steps m0 first update inputs).
Notation reachable := (reachable m0 first update inputs).
Notation coming := (ticks_coming N).

Lemma tick_of t : msg_tick N (MUser (N + t)) = [t].
Proof. unfold msg_tick. destruct (Nat.ltb_spec (N + t) N); [lia|]. f_equal. lia. Qed.
Lemma tick_is x t : msg_tick N x = [t] -> x = MUser (N + t).
Proof. destruct x; try discriminate. unfold msg_tick. destruct (Nat.ltb_spec n N); [discriminate|]. intros [= <-]. f_equal. lia. Qed.
Lemma tick_short x : msg_tick N x = [] \/ exists t, msg_tick N x = [t].
Proof. destruct x; unfold msg_tick; auto. destruct (n <? N); eauto. Qed.

Definition c_ok (c : cmd) : Prop := exists t, c = tick_cmd N t \/ c = quit_cmd 0.
Definition g_ok (g : gor) : Prop :=
  match g with
  | GInit _ c | GRun _ c => c_ok c
  | GSend _ x => x = MQuit \/ exists t, x = MUser (N + t)
  | GSeq _ _ _ | GSeqRun _ _ _ _ | GSeqSend _ _ _ _ | GSeqBatch _ _ _ _ | GRecover | GRecoverWait | GRecoverOps _ => False
  | _ => True
  end.
(** One tick is under way, with the tag of the model, or, the context being done, none. *)
Definition one (x : bool) (t : nat) (l : list nat) : Prop := l = [t] \/ x = true /\ l = [].
Definition phase (x : bool) (lg : list event) (gs : list gor) (p : main M) : Prop :=
  match p with
  | PSetup _ => coming gs = [] /\ ticks_given N lg = []
  | PDraw0 | PReader | PStart => one x 0 (coming gs) /\ ticks_given N lg = []
  | PLoop m | PDraw m | PSendCmd m None => one x (clock m) (coming gs) /\ ticks_given N lg = rev (seq 0 (clock m))
  | PUpdate m y => one x (clock m) (msg_tick N y ++ coming gs) /\ ticks_given N lg = rev (seq 0 (clock m))
  | PSendCmd m (Some (_, c)) => c_ok c /\ one x (clock m) (msg_tick N (c_msg c) ++ coming gs) /\ ticks_given N lg = rev (seq 0 (clock m))
  | _ => True
  end.
Definition spins (s : state M) : Prop := Forall g_ok (st_gs s) /\ phase (st_cancelled s) (st_log s) (st_gs s) (st_main s).

Lemma coming_app a b : coming (a ++ b) = coming a ++ coming b.
Proof. apply flat_map_app. Qed.
Lemma given_app a b : ticks_given N (a ++ b) = ticks_given N a ++ ticks_given N b.
Proof. apply flat_map_app. Qed.
Lemma one_perm x t l l' : Permutation l l' -> one x t l -> one x t l'.
Proof. intros P [->|[-> ->]]; [left; now apply Permutation_length_1_inv|right; split; [reflexivity|now apply Permutation_nil]]. Qed.
Lemma one_cancel x t l : one x t l -> one true t l.
Proof. intros [->|[-> ->]]; [now left|now right]. Qed.
Lemma one_drop x t a b c : x = true -> one x t (a ++ b ++ c) -> one x t (a ++ c).
Proof.
  intros -> [E|[_ E]]; [|right; split; [reflexivity|]].
  - assert (L : length (a ++ b ++ c) = 1) by (rewrite E; reflexivity). rewrite !app_length in L. destruct b as [|b0 b]; [left; exact E|]. cbn in L. destruct a, c; cbn in L; try lia. now right.
  - apply app_eq_nil in E. destruct E as [-> E]. apply app_eq_nil in E. destruct E as [_ ->]. reflexivity.
Qed.
Lemma ok_mid l1 g l2 : Forall g_ok (l1 ++ g :: l2) -> Forall g_ok l1 /\ g_ok g /\ Forall g_ok l2.
Proof. rewrite Forall_app. intros [A B]. inversion B. auto. Qed.
Lemma ok_back l1 gs l2 : Forall g_ok l1 -> Forall g_ok gs -> Forall g_ok l2 -> Forall g_ok (l1 ++ gs ++ l2).
Proof. intros. rewrite !Forall_app. auto. Qed.
(** A goroutine's own step: the tick it brings stays, or the context is done. *)
Lemma gstep_spins x g gs' evs : gstep inputs x g gs' evs -> g_ok g -> Forall g_ok gs' /\ ticks_given N evs = [] /\ (coming gs' = g_tick N g \/ x = true /\ coming gs' = []).
Proof.
  intros H G. destruct H; cbn [g_ok] in G; try contradiction; try (split; [repeat constructor|split; [reflexivity|auto]]; fail);
    try (split; [destruct back; repeat constructor|split; [reflexivity|left; destruct back; reflexivity]]; fail).
  - destruct G as (t & [-> | ->]); (split; [constructor; [|constructor]|split; [reflexivity|left; unfold ticks_coming; cbn [flat_map g_tick]; now rewrite app_nil_r]]); cbn; eauto.
  - exfalso. destruct G as (t & [-> | ->]); discriminate.
Qed.
Lemma offers_spins g w y gs' : offers inputs g w y gs' -> g_ok g -> Forall g_ok gs' /\ coming gs' = [] /\ g_tick N g = msg_tick N y /\ (forall cs, y <> MSeq cs).
Proof.
  intros H G. destruct H; cbn [g_ok] in G; try contradiction.
  - split; [constructor|]. split; [reflexivity|]. split; [reflexivity|]. destruct G as [->|(t & ->)]; discriminate.
  - split; [destruct back; repeat constructor|]. split; [destruct back; reflexivity|]. split; [reflexivity|discriminate].
  - pose proof (Hin _ _ H) as ->. split; [repeat constructor|]. split; [reflexivity|]. split; [|discriminate]. cbn [g_tick]. unfold msg_tick. destruct (Nat.ltb_spec k N) as [|Q]; [reflexivity|].
    exfalso. assert (Z : nth_error inputs k <> None) by congruence. apply nth_error_Some in Z. lia.
Qed.
Lemma phase_gs x x' lg lg' gs gs' p : ticks_given N lg' = ticks_given N lg ->
  (forall t l, one x t (l ++ coming gs) -> one x' t (l ++ coming gs')) -> (coming gs = [] -> coming gs' = []) -> phase x lg gs p -> phase x' lg' gs' p.
Proof.
  intros L O Z. destruct p as [| | | |m|m y|m [[id c]|]|m| |m e|m|r|r|r o|r e|]; cbn [phase]; rewrite ?L; intros P; auto; intuition auto;
   try (now apply (O _ [])); now apply O.
Qed.
Definition p_good (p : main M) : Prop := match p with PLoop m | PDraw m | PSendCmd m _ | PUpdate m _ => good m | _ => True end.
Lemma good_step a b : step a b -> p_good (st_main a) -> p_good (st_main b).
Proof. intros H P. destruct H; cbn [st_main p_good] in *; auto. exact (Hgood _ _ _ _ P H). Qed.
Lemma reach_good s : reachable s -> p_good (st_main s).
Proof. apply (inv_reach m0 first update inputs (fun s => p_good (st_main s))); [exact good_step|exact Logic.I]. Qed.
Lemma spins_step a b : step a b -> p_good (st_main a) -> spins a -> spins b.
Proof.
  intros H Gd [G P]. destruct H; unfold spins in *; cbn [st_gs st_main st_cancelled st_log] in *; try (split; [assumption|cbn [phase] in *; exact Logic.I || assumption]; fail);
    try (exfalso; apply ok_mid in G; cbn in G; tauto).
  - apply ok_mid in G. destruct G as (A1 & A2 & A3). destruct (gstep_spins _ _ _ _ H A2) as (B1 & B2 & B3). split; [now apply ok_back|].
    apply (phase_gs x x lg _ (l1 ++ g :: l2)); [now rewrite given_app, B2| | |exact P]; rewrite !coming_app; change (coming (g :: l2)) with (g_tick N g ++ coming l2).
    + intros t l O. destruct B3 as [->|[X ->]]; [exact O|]. cbn [app]. rewrite app_assoc in O |- *. now apply one_drop in O.
    + intros E. apply app_eq_nil in E. destruct E as [-> E]. apply app_eq_nil in E. destruct E as [E ->]. rewrite E in B3. destruct B3 as [->|[_ ->]]; reflexivity.
  - split; [exact G|]. apply (phase_gs x true lg lg gs gs); auto. intros t l O. now apply one_cancel in O.
  - destruct P as [P1 P2]. split; [constructor; [exists 0; now left|exact G]|]. cbn [phase returned app ticks_given flat_map]. split; [left|exact P2]. unfold ticks_coming in *. cbn [flat_map g_tick tick_cmd c_msg]. rewrite P1, tick_of. reflexivity.
  - split; [constructor; [exact Logic.I|exact G]|]. exact P.
  - split; [repeat constructor; exact G|]. cbn [phase] in *. rewrite H0. exact P.
  - apply ok_mid in G. destruct G as (A1 & A2 & A3). split; [apply ok_back; auto; destruct H; [destruct back|]; repeat constructor|exact Logic.I].
  - apply ok_mid in G. destruct G as (A1 & A2 & A3). destruct (offers_spins _ _ _ _ H A2) as (B1 & B2 & B3 & _). split; [now apply ok_back|]. cbn [phase] in *. destruct P as [P1 P2]. split; [|exact P2].
    rewrite !coming_app, B2. rewrite coming_app in P1. change (coming (g :: l2)) with (g_tick N g ++ coming l2) in P1. rewrite B3 in P1. exact P1.
  - apply ok_mid in G. destruct G as (A1 & A2 & A3). destruct (offers_spins _ _ _ _ H A2) as (B1 & B2 & B3 & _). split; [now apply ok_back|exact Logic.I].
  - apply ok_mid in G. destruct G as (A1 & A2 & A3). destruct (offers_spins _ _ _ _ H A2) as (B1 & B2 & B3 & _). split; [now apply ok_back|exact Logic.I].
  - apply ok_mid in G. destruct G as (A1 & A2 & A3). destruct (offers_spins _ _ _ _ H A2) as (B1 & B2 & B3 & B4).
    assert (Sp : spawn_seq n y = ([], [])) by (destruct y; try reflexivity; now destruct (B4 cs)). rewrite Sp. cbn [fst snd app]. split; [now apply ok_back|]. cbn [phase] in *. destruct P as [P1 P2]. split; [|exact P2].
    rewrite !coming_app, B2. rewrite coming_app in P1. change (coming (g :: l2)) with (g_tick N g ++ coming l2) in P1. rewrite B3 in P1. cbn [app]. eapply one_perm; [|exact P1]. rewrite !app_assoc. apply Permutation_app_tail. apply Permutation_app_comm.
  - split; [exact G|]. cbn [phase] in P. destruct P as [P1 P2].
    assert (Lg : ticks_given N (returned n c ++ EUpdate y :: lg) = msg_tick N y ++ rev (seq 0 (clock m))) by (rewrite given_app, <- P2; destruct c; reflexivity).
    destruct (tick_short y) as [E|(t & E)].
    + rewrite E in *. destruct (Hother m y Gd E) as (m1 & c1 & U & Ec & Q). rewrite H in U. injection U as <- <-. cbn [app] in *. destruct Q as [-> | ->]; cbn [tag phase]; rewrite Lg, Ec; [split; [exact P1|reflexivity]|].
      split; [exists 0; now right|]. split; [exact P1|reflexivity].
    + assert (t = clock m /\ coming gs = []) as [-> Z] by (rewrite E in P1; destruct P1 as [P1|[_ P1]]; [injection P1; auto|discriminate]).
      rewrite E in Lg. apply tick_is in E. subst y. destruct (Htick m Gd) as (m1 & U & Ec). rewrite H in U. injection U as <- ->. cbn [tag phase c_msg tick_cmd]. split; [eexists; left; reflexivity|].
      rewrite Lg, tick_of, Z, Ec. split; [left; reflexivity|]. rewrite seq_S, rev_app_distr. reflexivity.
  - destruct P as (Ok & P1 & P2). split; [constructor; [exact Ok|exact G]|]. split; [|exact P2]. exact P1.
  - apply ok_mid in G. destruct G as (A1 & A2 & A3). apply ok_mid in A3. destruct A3 as (A3 & A4 & A5). split; [constructor; [exact A2|]; rewrite !Forall_app; auto|].
    apply (phase_gs x x lg _ (l1 ++ GInit id c :: l2 ++ GHandler :: l3)); [reflexivity| | |exact P].
    + intros t l. apply one_perm. apply Permutation_app_head. unfold ticks_coming. rewrite flat_map_app. cbn [flat_map g_tick]. rewrite !flat_map_app. cbn [flat_map g_tick app]. rewrite !app_assoc. do 2 apply Permutation_app_tail. apply Permutation_app_comm.
    + unfold ticks_coming. rewrite flat_map_app. cbn [flat_map g_tick]. rewrite !flat_map_app. cbn [flat_map g_tick app]. intros E. apply app_eq_nil in E. destruct E as [-> E]. apply app_eq_nil in E. destruct E as [-> E]. exact E.
  - apply ok_mid in G. destruct G as (A1 & A2 & A3). apply ok_mid in A3. destruct A3 as (A3 & A4 & A5). split; [constructor; [exact A4|]; rewrite !Forall_app; split; [auto|]; constructor; [auto|]; rewrite Forall_app; auto|].
    apply (phase_gs x x lg _ (l1 ++ GHandler :: l2 ++ GInit id c :: l3)); [reflexivity| | |exact P].
    + intros t l. apply one_perm. apply Permutation_app_head. unfold ticks_coming. rewrite flat_map_app. cbn [flat_map g_tick app]. rewrite !flat_map_app. cbn [flat_map g_tick app]. rewrite !flat_map_app. rewrite !app_assoc. apply Permutation_app_tail. etransitivity; [apply Permutation_app_comm|]. rewrite app_assoc. reflexivity.
    + unfold ticks_coming. rewrite flat_map_app. cbn [flat_map g_tick app]. rewrite !flat_map_app. cbn [flat_map g_tick app]. rewrite !flat_map_app. intros E. apply app_eq_nil in E. destruct E as [-> E]. apply app_eq_nil in E. destruct E as [-> E]. apply app_eq_nil in E. destruct E as [-> ->]. reflexivity.
Qed.
Lemma reach_spins s : reachable s -> spins s.
Proof. apply inv_reach'; [intros a b R St; apply (spins_step a b St), (reach_good a R)|]. split; [constructor|]. split; reflexivity. Qed.

(** While the program runs there is one tick under way, no more and no fewer, and it has the tag of the model. *)
Theorem C104_one_tick s m : reachable s -> st_main s = PLoop m -> st_cancelled s = false -> ticks_coming N (st_gs s) = [clock m].
Proof. intros R E C. destruct (reach_spins s R) as [_ P]. rewrite E, C in P. destruct P as [[P|[P _]] _]; [exact P|discriminate]. Qed.
Lemma given_rev evs : ticks_given N (rev evs) = rev (ticks_given N evs).
Proof.
  induction evs as [|e r IH]; [reflexivity|]. cbn [rev]. rewrite given_app, IH. change (e :: r) with ([e] ++ r). rewrite given_app, rev_app_distr. f_equal.
  destruct e; try reflexivity. unfold ticks_given. cbn [flat_map]. rewrite app_nil_r. destruct (tick_short m) as [-> |(t & ->)]; reflexivity.
Qed.
(** The ticks the model was given are those with the tags 0, 1, 2 ... up to its own, each once, in this order. *)
Theorem C104_in_order s m : reachable s -> st_main s = PLoop m -> ticks_given N (history s) = seq 0 (clock m).
Proof. intros R E. destruct (reach_spins s R) as [_ P]. rewrite E in P. destruct P as [_ P]. unfold history. rewrite given_rev, P. apply rev_involutive. Qed.

Lemma find_tick gs t : ticks_coming N gs = [t] -> exists l1 g l2, gs = l1 ++ g :: l2 /\ g_tick N g = [t].
Proof.
  induction gs as [|g gs IH]; [discriminate|]. unfold ticks_coming. cbn [flat_map]. intros E. destruct (g_tick N g) as [|t' r] eqn:Eg.
  - destruct (IH E) as (l1 & g' & l2 & -> & Q). exists (g :: l1), g', l2. auto.
  - injection E as -> E. apply app_eq_nil in E. destruct E as [-> _]. exists [], g, gs. auto.
Qed.
Lemma with_handler (l : list gor) g l1 l2 : In GHandler (l1 ++ g :: l2) -> g <> GHandler -> (exists a b, l1 = a ++ GHandler :: b) \/ (exists a b, l2 = a ++ GHandler :: b).
Proof. intros I D. apply in_app_or in I. destruct I as [I|[I|I]]; [left|contradiction|right]; apply in_split in I; destruct I as (a & b & ->); eauto. Qed.
(** The program waits at its loop: then it can come to handle the tick, and to wait again, one tick on. *)
Lemma next_tick s m : reachable s -> st_main s = PLoop m -> st_cancelled s = false ->
  exists m' s', steps s s' /\ st_main s' = PLoop m' /\ st_cancelled s' = false /\ clock m' = S (clock m) /\ update m (MUser (N + clock m)) = Some (m', Some (tick_cmd N (S (clock m)))).
Proof.
  intros R E C. pose proof (C104_one_tick s m R E C) as T. pose proof (reach_spins s R) as [G _].
  pose proof (reach_handler _ _ _ _ _ R C) as Hd. rewrite E in Hd. specialize (Hd eq_refl).
  destruct s as [p gs x md n lg]. cbn [st_main st_cancelled st_gs] in *. subst.
  assert (Run : exists id l1 l2 n1 lg1, steps (State (PLoop m) gs false md n lg) (State (PLoop m) (l1 ++ GSend id (MUser (N + clock m)) :: l2) false md n1 lg1)).
  { assert (FromRun : forall id l1 l2 lg1, steps (State (PLoop m) (l1 ++ GRun id (tick_cmd N (clock m)) :: l2) false md n lg1) (State (PLoop m) (l1 ++ GSend id (MUser (N + clock m)) :: l2) false md n lg1)).
    { intros id l1 l2 lg1. eapply steps_step; [apply steps_refl|]. exact (s_gor _ m0 first update inputs (PLoop m) (GRun id (tick_cmd N (clock m))) [GSend id (MUser (N + clock m))] [] l1 l2 false md n lg1 (g_run inputs false id (tick_cmd N (clock m)) eq_refl)). }
    destruct (find_tick gs (clock m) T) as (l1 & g & l2 & -> & Eg). destruct (ok_mid _ _ _ G) as (_ & Og & _).
    destruct g as [id c| |id c|id y| | | | | | | | | | | | |]; try discriminate; cbn [g_tick g_ok] in *.
    - assert (c = tick_cmd N (clock m)) as -> by (destruct Og as (t & [-> | ->]); [cbn [tick_cmd c_msg] in Eg; rewrite tick_of in Eg; now injection Eg as ->|discriminate]).
      destruct (with_handler [] _ l1 l2 Hd ltac:(discriminate)) as [(a & b & ->)|(a & b & ->)].
      + exists id, [], (a ++ GHandler :: b ++ l2), n. eexists. eapply steps_trans; [|apply (FromRun id [])]. eapply steps_step; [apply steps_refl|]. rewrite <- app_assoc. cbn [app]. apply s_init_cmd'.
      + exists id, [], (l1 ++ a ++ GHandler :: b), n. eexists. eapply steps_trans; [|apply (FromRun id [])]. eapply steps_step; [apply steps_refl|]. cbn [app]. apply s_init_cmd.
    - assert (c = tick_cmd N (clock m)) as -> by (destruct Og as (t & [-> | ->]); [cbn [tick_cmd c_msg] in Eg; rewrite tick_of in Eg; now injection Eg as ->|discriminate]).
      exists id, l1, l2, n, lg. apply FromRun.
    - apply tick_is in Eg. subst y. exists id, l1, l2, n, lg. apply steps_refl. }
  destruct Run as (id & l1 & l2 & n1 & lg1 & S0). pose proof (reach_good _ R) as Gd. destruct (Htick m Gd) as (m' & U & Ec). exists m'.
  pose proof (steps_step _ _ _ _ _ _ _ _ S0 (s_loop_msg _ m0 first update inputs m _ _ _ _ l1 l2 false md n1 lg1 (o_cmd inputs id (MUser (N + clock m))) ltac:(discriminate) ltac:(discriminate))) as S1. cbn [spawn_seq fst snd app] in S1.
  pose proof (steps_step _ _ _ _ _ _ _ _ S1 (s_update _ m0 first update inputs m _ _ _ _ false md (S n1) _ U)) as S2. cbn [tag returned app] in S2.
  pose proof (reach_handler _ _ _ _ _ (steps_trans _ _ _ _ _ _ _ R S2) eq_refl eq_refl) as I. cbn [st_gs] in I. apply in_split in I. destruct I as (k1 & k2 & I). rewrite I in S2.
  pose proof (steps_step _ _ _ _ _ _ _ _ S2 (s_send_cmd _ m0 first update inputs m' (S n1) (tick_cmd N (S (clock m))) k1 k2 false md (S (S n1)) _)) as S3.
  pose proof (steps_step _ _ _ _ _ _ _ _ S3 (s_draw _ m0 first update inputs m' _ false md _ _)) as S4.
  eexists. split; [exact S4|]. split; [reflexivity|]. split; [reflexivity|]. split; [exact Ec|exact U].
Qed.
(** It goes on: wherever the program waits, it can come to have handled any number of further ticks, and nothing else. *)
Theorem C104_goes_on k : forall s m, reachable s -> st_main s = PLoop m -> st_cancelled s = false ->
  exists m' s', steps s s' /\ st_main s' = PLoop m' /\ st_cancelled s' = false /\ clock m' = clock m + k /\ ticks_given N (history s') = ticks_given N (history s) ++ seq (clock m) k /\
    model_after update m (map (fun t => MUser (N + t)) (seq (clock m) k)) = Some m'.
Proof.
  induction k as [|k IH]; intros s m R E C.
  - exists m, s. split; [apply steps_refl|]. split; [exact E|]. split; [exact C|]. split; [lia|]. cbn [seq]. rewrite app_nil_r. auto.
  - destruct (next_tick s m R E C) as (m1 & s1 & S1 & E1 & C1 & K1 & U1). pose proof (steps_trans _ _ _ _ _ _ _ R S1) as R1. destruct (IH s1 m1 R1 E1 C1) as (m2 & s2 & S2 & E2 & C2 & K2 & T2 & A2).
    exists m2, s2. pose proof (steps_trans _ _ _ _ _ _ _ S1 S2) as S12. split; [exact S12|]. split; [exact E2|]. split; [exact C2|]. split; [lia|].
    rewrite (C104_in_order s2 m2 (steps_trans _ _ _ _ _ _ _ R S12) E2), (C104_in_order s m R E). rewrite K2, K1. replace (S (clock m) + k) with (clock m + S k) by lia. split; [now rewrite seq_app|]. cbn [seq map model_after]. rewrite U1, <- K1. exact A2.
Qed.
End Ticking.
Print Assumptions C104_one_tick.
Print Assumptions C104_in_order.
Print Assumptions C104_goes_on.
