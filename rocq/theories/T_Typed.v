(** C92 (continued): what the user types ends up in the text input of a running program. *)
From Verif Require Import Base P_Base M_Geom M_Style M_Uniseg M_Utf8 M_KeyTable M_Decode S_Keys S_Mouse S_Stream T_Decode T_Stream M_Reflow M_Input S_Input P_Input T_Input M_Typing S_Typing T_Typing.
From Verif Require Import M_Cmd M_App P_App P_AppIds P_AppLog P_AppRun P_AppEnd T_App S_Joint T_Joint S_Typed.
From Coq Require Import ZArith NArith List Bool Lia.
Import ListNotations.
Local Open Scope nat_scope.

Definition read_from (ds : list M_Decode.msg) (tk : list (who * M_Cmd.msg)) : list M_Decode.msg :=
  flat_map (fun p => match p with (WInput _, MUser n) => match nth_error ds n with Some d => [d] | None => [] end | _ => [] end) tk.
Lemma numbered_at ds k x : nth_error (numbered ds) k = Some x -> x = MUser k /\ k < length ds.
Proof. unfold numbered. rewrite nth_error_map. destruct (nth_error (seq 0 (length ds)) k) as [j|] eqn:E; [|discriminate]. assert (L : k < length ds) by (assert (nth_error (seq 0 (length ds)) k <> None) by congruence; apply nth_error_Some in H; now rewrite seq_length in H). rewrite (nth_error_nth' _ 0) in E by now rewrite seq_length. rewrite seq_nth in E by exact L. injection E as <-. intros [= <-]. auto. Qed.
Lemma tries_app u l l' s : try_updates u (l ++ l') s = bind (try_updates u l s) (try_updates u l').
Proof. unfold try_updates. now rewrite ofold_app. Qed.

Section Program.
Context {M : Type}.
Variable m0 : M.
Variable init_cmd : option cmd.
Variable update : M -> M_Cmd.msg -> option (M * option cmd).
Variable u : uniseg.
Variable ds : list M_Decode.msg.
Variable text_of : M -> input_state.
Hypothesis Ho : hands_over u ds text_of update.
Notation reachable := (M_App.reachable m0 init_cmd update (numbered ds)).

Lemma texts tk : forall m m', (forall w n, In (w, MUser n) tk -> n < length ds -> exists k, w = WInput k) -> (forall k x, In (WInput k, x) tk -> nth_error (numbered ds) k = Some x) ->
  model_after update m (filter for_model (map snd tk)) = Some m' -> try_updates u (read_from ds tk) (text_of m) = Ret (text_of m').
Proof.
  induction tk as [|[w x] tk IH]; intros m m' H1 H2 E; [cbn in E; injection E as <-; reflexivity|].
  assert (I1 : forall w n, In (w, MUser n) tk -> n < length ds -> exists k, w = WInput k) by (intros w0 n0 I0; apply (H1 w0 n0); now right). assert (I2 : forall k x, In (WInput k, x) tk -> nth_error (numbered ds) k = Some x) by (intros; apply H2; now right).
  cbn [map snd filter] in E. unfold read_from in *. cbn [flat_map]. rewrite tries_app.
  assert (Step : forall m1, text_of m1 = text_of m -> model_after update m1 (filter for_model (map snd tk)) = Some m' -> try_updates u (flat_map (fun p => match p with (WInput _, MUser n) => match nth_error ds n with Some d => [d] | None => [] end | _ => [] end) tk) (text_of m) = Ret (text_of m')) by (intros m1 Et Em; rewrite <- Et; apply IH; assumption).
  destruct w as [k| | |].
  - pose proof (H2 k x (or_introl eq_refl)) as Hx. apply numbered_at in Hx. destruct Hx as [-> Lk]. cbn [for_model] in E. cbn [model_after] in E. destruct (update m (MUser k)) as [[m1 c]|] eqn:Eu; [|discriminate].
    destruct (nth_error ds k) as [d|] eqn:Ed; [|apply nth_error_None in Ed; lia]. destruct (ho_typed _ _ _ _ Ho m k d m1 c Ed Eu) as (b & Eb). unfold try_updates at 1. cbn [ofold bind]. rewrite Eb. cbn [bind]. apply IH; assumption.
  - assert (Ot : forall n, x = MUser n -> length ds <= n) by (intros n ->; destruct (Nat.le_gt_cases (length ds) n) as [L|L]; [exact L|]; destruct (H1 _ n (or_introl eq_refl) L) as [? Y]; discriminate). cbn [try_updates ofold bind].
    destruct (for_model x); [|apply (Step m); auto]. cbn [model_after] in E. destruct (update m x) as [[m1 c]|] eqn:Eu; [|discriminate]. apply (Step m1); [|exact E]. eapply (ho_other _ _ _ _ Ho); eassumption.
  - assert (Ot : forall n, x = MUser n -> length ds <= n) by (intros n ->; destruct (Nat.le_gt_cases (length ds) n) as [L|L]; [exact L|]; destruct (H1 _ n (or_introl eq_refl) L) as [? Y]; discriminate). cbn [try_updates ofold bind].
    destruct (for_model x); [|apply (Step m); auto]. cbn [model_after] in E. destruct (update m x) as [[m1 c]|] eqn:Eu; [|discriminate]. apply (Step m1); [|exact E]. eapply (ho_other _ _ _ _ Ho); eassumption.
  - assert (Ot : forall n, x = MUser n -> length ds <= n) by (intros n ->; destruct (Nat.le_gt_cases (length ds) n) as [L|L]; [exact L|]; destruct (H1 _ n (or_introl eq_refl) L) as [? Y]; discriminate). cbn [try_updates ofold bind].
    destruct (for_model x); [|apply (Step m); auto]. cbn [model_after] in E. destruct (update m x) as [[m1 c]|] eqn:Eu; [|discriminate]. apply (Step m1); [|exact E]. eapply (ho_other _ _ _ _ Ho); eassumption.
Qed.
Lemma read_reader h : (forall k x, In (WInput k, x) (taken h) -> nth_error (numbered ds) k = Some x) -> forall k, k <= length ds -> from_reader h = firstn k (numbered ds) -> read_from ds (taken h) = firstn k ds.
Proof.
  intros H k Lk E.
  assert (G : read_from ds (taken h) = flat_map (fun x => match x with MUser n => match nth_error ds n with Some d => [d] | None => [] end | _ => [] end) (from_reader h)).
  { clear. unfold read_from, taken, from_reader. induction h as [|e h IH]; [reflexivity|]. cbn [flat_map]. rewrite !flat_map_app, IH. f_equal. destruct e as [| |[] x| | | | | |]; try reflexivity. }
  rewrite G, E. unfold numbered. rewrite firstn_map. clear - Lk. replace (firstn k (seq 0 (length ds))) with (seq 0 k).
  - assert (G : forall pre, ds = pre ++ skipn (length pre) ds -> forall j, length pre + j <= length ds -> flat_map (fun x => match x with MUser n => match nth_error ds n with Some d => [d] | None => [] end | _ => [] end) (map MUser (seq (length pre) j)) = firstn j (skipn (length pre) ds)).
    { intros pre Ep j. revert pre Ep. induction j as [|j IH]; intros pre Ep L; [reflexivity|]. cbn [seq map flat_map]. destruct (skipn (length pre) ds) as [|d rest] eqn:Er; [rewrite app_nil_r in Ep; rewrite Ep in L; lia|].
      assert (En : nth_error ds (length pre) = Some d) by (rewrite Ep at 1; rewrite nth_error_app2 by lia; now rewrite Nat.sub_diag). rewrite En. cbn [firstn app]. f_equal. assert (Ln : length (pre ++ [d]) = S (length pre)) by (rewrite app_length; cbn; lia).
      assert (Es : skipn (S (length pre)) ds = rest) by (rewrite Ep; replace (S (length pre)) with (length pre + 1) by lia; rewrite skipn_app, skipn_all2 by lia; replace (length pre + 1 - length pre) with 1 by lia; reflexivity).
      specialize (IH (pre ++ [d])). rewrite Ln, Es in IH. apply IH; [rewrite <- app_assoc; exact Ep|lia]. }
    specialize (G [] eq_refl k ltac:(cbn; lia)). exact G.
  - clear - Lk. revert Lk. generalize (length ds). intros n L. replace n with (k + (n - k)) by lia. rewrite seq_app, firstn_app, seq_length, firstn_all2 by (rewrite seq_length; lia). replace (k - k) with 0 by lia. now rewrite app_nil_r.
Qed.
(** ** C92: whenever the program waits for its next message, its input is as the messages read so far, in their order, have left it, whatever commands,
    goroutines and resizes have done *)
Theorem C92_program s m : reachable s -> text_of m0 = new_input_state -> waits s m ->
  (forall w n, In (EAccepted w (MUser n)) (history s) -> n < length ds -> exists k, w = WInput k) ->
  exists k, k <= length ds /\ from_reader (history s) = firstn k (numbered ds) /\ try_updates u (firstn k ds) new_input_state = Ret (text_of m).
Proof.
  intros R E0 Wt Own. destruct (C46_reader_order m0 init_cmd update (numbered ds) s R) as (k & K).
  assert (Ln : length (numbered ds) = length ds) by (unfold numbered; now rewrite map_length, seq_length).
  exists (Nat.min k (length ds)). assert (K' : from_reader (history s) = firstn (Nat.min k (length ds)) (numbered ds)) by (rewrite K; destruct (Nat.le_gt_cases k (length ds)); [now rewrite Nat.min_l by lia|rewrite Nat.min_r by lia; rewrite !firstn_all2 by lia; reflexivity]).
  split; [lia|]. split; [exact K'|]. rewrite <- E0.
  assert (Or : forall k x, In (WInput k, x) (taken (history s)) -> nth_error (numbered ds) k = Some x).
  { intros j x I. unfold taken in I. apply in_flat_map in I. destruct I as (e & I & J). apply in_split in I. destruct I as (h1 & h2 & Eh). destruct e as [| |w y| | | | | |]; try contradiction. destruct J as [J|[]]. injection J as -> ->. exact (C46_origin m0 init_cmd update (numbered ds) s h1 _ _ h2 R Eh). }
  rewrite <- (read_reader (history s) Or _ (Nat.le_min_r _ _) K'). apply texts; [|exact Or|].
  - intros w n I L. apply (Own w n); [|exact L]. unfold taken in I. apply in_flat_map in I. destruct I as (e & I & J). destruct e as [| |w' y| | | | | |]; try contradiction. destruct J as [J|[]]. injection J as -> ->. exact I.
  - pose proof (reach_upd _ _ _ _ _ R) as U. unfold upd_inv in U. cbv zeta in U.
    assert (E1 : taken (history s) = rev (acc (st_log s))) by (apply flat_map_rev; intros []; cbn; lia). assert (E2 : updates (history s) = rev (upd (st_log s))) by (apply flat_map_rev; intros []; cbn; lia).
    assert (F : forall l : list M_Cmd.msg, filter to_model (rev l) = rev (filter to_model l)) by (induction l as [|x l IH]; [reflexivity|]; cbn [rev filter]; rewrite filter_app, IH; cbn [filter]; destruct (to_model x); [reflexivity|apply app_nil_r]).
    change for_model with to_model. rewrite E1, map_rev, F. replace (filter to_model (map snd (acc (st_log s)))) with (upd (st_log s)).
    + pose proof (reach_model _ _ _ _ _ R m) as Km. apply Km. unfold cur. destruct Wt as [-> | ->]; reflexivity.
    + destruct U as [U|[O _]]; [destruct Wt as [W|W]; rewrite W in U; symmetry; exact U|destruct Wt as [W|W]; rewrite W in O; contradiction].
Qed.
End Program.

(** ** C92: a user types while the program runs: the text is that of a plain editor after the events so far, and after all of them when every message has
    been taken *)
Theorem C92_typed_partial {M : Type} (m0 : M) init_cmd update u text_of seqs sizes reads events A : tables seqs sizes -> uniseg_ok u -> stand_alone u A -> Forall2 carries reads events -> length (last reads []) <> 256 ->
  (forall m c, In m (concat events) -> In c (brings m) -> A c) -> words_inside ed_empty (flat_map event_edits (concat events)) ->
  exists ms, read_inputs seqs sizes [] reads = Ret (ms, []) /\
  forall s m, hands_over u (map snd ms) text_of update -> text_of m0 = new_input_state -> M_App.reachable m0 init_cmd update (numbered (map snd ms)) s -> waits s m ->
    (forall w n, In (EAccepted w (MUser n)) (history s) -> n < length ms -> exists k, w = WInput k) ->
    exists done later, concat events = done ++ later /\ (length (from_reader (history s)) = length ms -> later = []) /\
      is_string (text_of m) = ed_text (edited done) /\ is_text (text_of m) = ed_clusters (edited done) /\ is_cursor (text_of m) = zlen (ed_before (edited done)).
Proof.
  intros T Hu Al F L H W. destruct (C41_whole_events_partial seqs sizes reads events T F) as (ms & held & R & S & Hh). specialize (Hh L). subst held. cbn [map] in S. rewrite app_nil_r in S. exists ms. split; [exact R|].
  intros s m Ho E0 Re Wt Own. rewrite <- (map_length snd ms) in Own. destruct (C92_program m0 init_cmd update u (map snd ms) text_of Ho s m Re E0 Wt Own) as (k & Lk & Ek & Eu).
  exists (flat_map presses (firstn k (map snd ms))), (flat_map presses (skipn k (map snd ms))).
  assert (Es : concat events = flat_map presses (firstn k (map snd ms)) ++ flat_map presses (skipn k (map snd ms))) by (rewrite <- flat_map_app, firstn_skipn; now symmetry). split; [exact Es|]. split.
  - intros El. rewrite Ek, firstn_length in El. unfold numbered in El. rewrite map_length, seq_length in El. rewrite map_length in El, Lk. rewrite skipn_all2 by (rewrite map_length; lia). reflexivity.
  - destruct (messages_edit u A (firstn k (map snd ms)) _ Hu Al eq_refl) as (s' & E' & Q).
    + intros m' c I. apply H. rewrite Es. apply in_or_app. now left.
    + rewrite Es, flat_map_app in W. apply words_app in W. apply W.
    + rewrite Eu in E'. injection E' as <-. exact Q.
Qed.

(** *** Instance: a program that is nothing but an input; any messages can reach it, all of them. *)
Definition only_input (u : uniseg) (ds : list M_Decode.msg) (s : input_state) (x : M_Cmd.msg) : option (input_state * option cmd) :=
  match x with
  | MUser n => match nth_error ds n with Some d => match try_update u s d with Ret (s', _) => Some (s', None) | Panic => None end | None => Some (s, None) end
  | _ => Some (s, None)
  end.
Lemma only_hands_over u ds : hands_over u ds (fun s => s) (only_input u ds).
Proof.
  split.
  - intros m n d m' c E H. cbn in H. rewrite E in H. destruct (try_update u m d) as [[s' b]|]; [|discriminate]. injection H as <- _. now exists b.
  - intros m x m' c H E. destruct x as [| | |n| |]; cbn in E; try (now injection E as <- _). specialize (H n eq_refl). assert (N : nth_error ds n = None) by now apply nth_error_None. rewrite N in E. now injection E as <- _.
Qed.
Definition in_use : modes := Modes true true true false.
Definition read_log (k : nat) : list M_App.event := flat_map (fun i => [EDraw; EUpdate (MUser i); EAccepted (WInput i) (MUser i)]) (rev (seq 0 k)) ++ [EDraw].
Lemma only_reaches u ds : forall k s, k <= length ds -> try_updates u (firstn k ds) new_input_state = Ret s ->
  exists n, M_App.reachable new_input_state None (only_input u ds) (numbered ds) (State (PLoop s) [GCheck false; GListen; GHandler; GRead k] false in_use n (read_log k)).
Proof.
  set (st := M_App.steps new_input_state None (only_input u ds) (numbered ds)).
  induction k as [|k IH]; intros s Lk E.
  - cbn in E. injection E as <-. exists 1. unfold M_App.reachable.
    eapply steps_step; [|exact (s_start _ _ _ _ _ [GRead 0] false in_use 1 [EDraw])]. eapply steps_step; [|exact (s_reader _ _ _ _ _ [] false in_use 1 [EDraw])]. eapply steps_step; [|exact (s_draw0 _ _ _ _ _ [] false in_use 1 [])].
    eapply steps_step; [|exact (s_init input_state new_input_state None (only_input u ds) (numbered ds) [] false in_use 0 [])].
    eapply steps_step; [|exact (s_setup input_state new_input_state None (only_input u ds) (numbered ds) (OpAlt true) [] [] false (Modes true true false false) 0 [])].
    eapply steps_step; [|exact (s_setup input_state new_input_state None (only_input u ds) (numbered ds) (OpHide true) [OpAlt true] [] false (Modes true false false false) 0 [])].
    eapply steps_step; [|exact (s_setup input_state new_input_state None (only_input u ds) (numbered ds) (OpRaw true) [OpHide true; OpAlt true] [] false plain_modes 0 [])]. apply steps_refl.
  - destruct (nth_error ds k) as [d|] eqn:Ed; [|apply nth_error_None in Ed; lia].
    assert (Ef : firstn (S k) ds = firstn k ds ++ [d]). { clear - Ed. revert k Ed. induction ds as [|x l IHl]; intros [|k] Ed; try discriminate; [injection Ed as ->; reflexivity|]. cbn [nth_error] in Ed. cbn [firstn app]. f_equal. now apply IHl. }
    rewrite Ef, tries_app in E. destruct (try_updates u (firstn k ds) new_input_state) as [s0|] eqn:E0; [|discriminate]. cbn [bind] in E. unfold try_updates in E. cbn [ofold bind] in E. destruct (try_update u s0 d) as [[s1 b]|] eqn:E1; [|discriminate]. cbn [bind] in E. injection E as ->.
    destruct (IH s0 ltac:(lia) eq_refl) as (n & R). exists (S (S n)).
    assert (Nk : nth_error (numbered ds) k = Some (MUser k)) by (unfold numbered; rewrite nth_error_map, (nth_error_nth' _ 0) by (rewrite seq_length; lia); rewrite seq_nth by lia; reflexivity).
    assert (Lg : read_log (S k) = EDraw :: EUpdate (MUser k) :: EAccepted (WInput k) (MUser k) :: read_log k) by (unfold read_log; rewrite seq_S, rev_app_distr; reflexivity). rewrite Lg.
    unfold M_App.reachable in *. eapply steps_step; [|exact (s_draw _ _ _ _ _ s _ false in_use _ _)]. eapply steps_step; [|exact (s_send_nil _ _ _ _ _ s [GCheck false; GListen] [GRead (S k)] false in_use _ _)].
    eapply steps_step; [|exact (s_update input_state new_input_state None (only_input u ds) (numbered ds) s0 (MUser k) s None _ false in_use (S n) _ ltac:(cbn [only_input]; now rewrite Ed, E1))].
    eapply steps_step; [exact R|]. exact (s_loop_msg _ _ _ _ _ s0 (GRead k) (WInput k) (MUser k) [GRead (S k)] [GCheck false; GListen; GHandler] [] false in_use n _ (o_input _ _ _ Nk) ltac:(discriminate) ltac:(discriminate)).
Qed.
Example C92_typed_instance : exists ms n, read_inputs the_seqs the_sizes [] some_reads = Ret (ms, []) /\ length ms = 7 /\
  let s := State (PLoop (IState 8 true (map (fun c => [c]) [104; 101; 108; 108; 111; 32; 121; 111]%N) 0)) [GCheck false; GListen; GHandler; GRead 7] false in_use n (read_log 7) in
  M_App.reachable new_input_state None (only_input simple_uniseg (map snd ms)) (numbered (map snd ms)) s /\ waits s (IState 8 true (map (fun c => [c]) [104; 101; 108; 108; 111; 32; 121; 111]%N) 0) /\
  length (from_reader (history s)) = length ms /\ (forall w k, In (EAccepted w (MUser k)) (history s) -> exists j, w = WInput j).
Proof.
  assert (E : exists ms, read_inputs the_seqs the_sizes [] some_reads = Ret (ms, []) /\ length ms = 7 /\ try_updates simple_uniseg (firstn 7 (map snd ms)) new_input_state = Ret (IState 8 true (map (fun c => [c]) [104; 101; 108; 108; 111; 32; 121; 111]%N) 0)) by (eexists; vm_compute; repeat split; reflexivity).
  destruct E as (ms & E & L & T). destruct (only_reaches simple_uniseg (map snd ms) 7 _ ltac:(rewrite map_length; lia) T) as (n & R). exists ms, n. split; [exact E|]. split; [exact L|]. cbv zeta. split; [exact R|]. split; [now left|]. split; [rewrite L; reflexivity|].
  intros w k I. vm_compute in I. repeat (destruct I as [I|I]; [try discriminate; injection I as <- <-; now eexists|]). destruct I.
Qed.
Print Assumptions C92_program.
Print Assumptions C92_typed_partial.
