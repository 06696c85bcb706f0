(** C95: the screen of a program whose Render changes the model. *)
From Verif Require Import Base M_Geom S_Geom M_Style M_Uniseg M_Buffer S_Buffer M_Ansi M_Backend S_Terminal S_Ansi S_Display S_Command S_Session
  P_Base T_Geom P_Buffer P_SetString T_Buffer P_Ansi P_Attr P_Draw P_Diff P_Session T_Terminal.
From Verif Require Import M_Cmd M_App P_App P_AppIds P_AppLog P_AppRun P_AppEnd T_App S_Joint T_Joint S_Stateful.
From Coq Require Import ZArith NArith List Bool Lia.
Import ListNotations.
Open Scope Z_scope.

Section Claims.
Context {M : Type}.
Variable m0 : M.
Variable init_cmd : option cmd.
Variable update : M -> msg -> option (M * option cmd).
Variable redrawn : M -> Z * Z -> M.
Variable inputs : list msg.
Variable view : M -> widget.
Notation live_update := (live_update update redrawn).
Notation live_view := (live_view view).

(** As many sizes as size messages. *)
Definition count_sizes (lg : list event) : nat := length (flat_map (fun e => match e with EAccepted _ MSize => [tt] | _ => [] end) lg).
Definition refused (s : state (live M)) : Prop := match st_main s with PLoopEnd _ (Some _) | PReturned _ (Some _) | PCrashed => True | _ => False end.
Lemma starts_sizes id i cs : forall k, flat_map (fun e => match e with EAccepted _ MSize => [tt] | _ => [] end) (starts id i k cs) = [].
Proof. induction cs as [|c cs IH]; intros k; [reflexivity|]. cbn. apply IH. Qed.
Lemma gstep_sizes x g gs evs : gstep inputs x g gs evs -> flat_map (fun e => match e with EAccepted _ MSize => [tt] | _ => [] end) evs = [].
Proof. intros G. destruct G; try reflexivity. apply starts_sizes. Qed.
Lemma resizes_app a b : resizes (a ++ b) = resizes a ++ resizes b.
Proof. apply flat_map_app. Qed.
Lemma returned_sizes n c : flat_map (fun e : event => match e with EAccepted _ MSize => [tt] | _ => [] end) (returned n c) = [].
Proof. destruct c; reflexivity. Qed.
Lemma spawn_sizes n y : flat_map (fun e : event => match e with EAccepted _ MSize => [tt] | _ => [] end) (snd (spawn_seq n y)) = [].
Proof. destruct y; reflexivity. Qed.

Lemma together_sizes m1 s h : S_Joint.together m1 init_cmd live_update inputs live_view s h -> refused s \/ length (resizes h) = count_sizes (st_log s).
Proof.
  induction 1 as [s R E|s s' h es T IH S F|s h w ht cells cur T IH].
  - right. cbn. assert (K : forall s, M_App.reachable m1 init_cmd live_update inputs s -> match st_main s with PSetup _ | PDraw0 => count_sizes (st_log s) = O | _ => True end).
    { clear. intros s R. eapply (inv_reach m1 init_cmd live_update inputs (fun s => match st_main s with PSetup _ | PDraw0 => count_sizes (st_log s) = O | _ => True end)); [|reflexivity|exact R].
      clear. intros a b St K. unfold count_sizes in *. destruct St; cbn [st_main st_log] in *; auto; try (rewrite flat_map_app, ?(gstep_sizes _ _ _ _ H), ?returned_sizes; exact K);
        try (destruct p; auto; rewrite flat_map_app, (gstep_sizes _ _ _ _ H); exact K). }
    specialize (K s R). rewrite E in K. now rewrite K.
  - rewrite resizes_app, app_length. unfold refused, count_sizes in *. destruct F as [m D L|from m w ht L Mn|L1 L2].
    + rewrite L. cbn [resizes flat_map length app]. rewrite Nat.add_0_r.
      destruct S; unfold drawing in *; cbn [st_main st_log] in *; try discriminate; destruct IH as [IH|IH]; try contradiction; auto; try (elim (cons_self _ _ L); fail). all: try (destruct (gstep_log _ _ _ _ _ lg H) as [N _]; elim (N L)). all: try (apply (f_equal (@length _)) in L; cbn in L; rewrite ?app_length in L; cbn in L; lia).
    + rewrite L, Mn. cbn [resizes flat_map length app]. destruct S; cbn [st_main st_log] in *; try discriminate; try (elim (cons_self _ _ L); fail); try (destruct (gstep_log _ _ _ _ _ lg H) as [_ N]; elim (N _ L)); (destruct IH as [IH|IH]; [contradiction|]); right; cbn [length]; lia.
    + cbn [resizes flat_map length]. rewrite Nat.add_0_r.
      destruct S; cbn [st_main st_log] in *; auto; try (destruct IH as [IH|IH]; [contradiction|]); try (right; exact IH); auto.
      all: try (left; exact Logic.I).
      all: try (rewrite ?flat_map_app, ?(gstep_sizes _ _ _ _ H), ?returned_sizes, ?spawn_sizes; cbn [flat_map app]; auto; right; exact IH).
      all: try (right; rewrite flat_map_app, spawn_sizes; cbn [flat_map app]; destruct y; auto; elim (L2 w); reflexivity).
  - rewrite resizes_app, app_nil_r. exact IH.
Qed.

Definition is_size (x : msg) : bool := match x with MSize => true | _ => false end.
Lemma lived_after xs : forall m size coming v, (length (filter is_size xs) <= length coming)%nat -> model_after live_update (Live m size coming) xs = Some v ->
  lived update redrawn m size xs (firstn (length (filter is_size xs)) coming) = Some (lv_model v, lv_size v).
Proof.
  induction xs as [|x xs IH]; intros m size coming v L E; cbn [model_after lived filter] in *; [now injection E as <-|]. unfold S_Stateful.live_update in E. cbn [lv_model lv_size lv_coming] in E.
  destruct (update (redrawn m size) x) as [[m' c]|]; [|discriminate]. destruct x; cbn [next_size is_size length] in *; try (apply IH; assumption).
  destruct coming as [|z r]; [cbn in L; lia|]. cbn [firstn next_size] in *. apply IH; [cbn [length] in L; lia|exact E].
Qed.
Lemma last_cons {A} (l : list A) : forall a d, last (a :: l) d = last l a.
Proof. induction l as [|b l IH]; intros a d; [reflexivity|]. change (last (a :: b :: l) d) with (last (b :: l) d). now rewrite !IH. Qed.
Lemma told_last h : forall size ok now, (ok = true -> now = size) -> told size ok h = true -> last (resizes h) now = final_size size h.
Proof.
  induction h as [|[w|w ht|w ht c k] h IH]; intros size ok now A T; cbn [told final_size resizes flat_map app] in *; auto.
  - eapply IH; eassumption.
  - fold (resizes h). rewrite last_cons. eapply IH; [|exact T]. intros E. apply andb_prop in E. destruct E as [E1 E2]. apply Z.eqb_eq in E1, E2. subst. now destruct size.
  - eapply IH; [|exact T]. discriminate.
Qed.
Lemma lived_size xs : forall m size coming m' size', length (filter is_size xs) = length coming -> lived update redrawn m size xs coming = Some (m', size') -> size' = last coming size.
Proof.
  induction xs as [|x xs IH]; intros m size coming m' size' L E; cbn [lived filter] in *; [destruct coming; [injection E as _ <-; reflexivity|discriminate]|].
  destruct (update (redrawn m size) x) as [[m1 c]|]; [|discriminate]. destruct x; cbn [next_size is_size] in *; try (eapply IH; eassumption).
  destruct coming as [|z r]; [discriminate|]. cbn [next_size length] in *. rewrite (IH m1 z r m' size' ltac:(lia) E). now rewrite last_cons.
Qed.
(** ** C95: Whenever a program that waits for its next message knows the size of the terminal, the screen shows what its model draws, where the model is the
    first one after all messages so far, each preceded by a draw at the size the program knew. Only models that the program can have need to be drawable. *)
Theorem C95_screen (ok : M -> Prop) u te t0 s h v : env_ok u te -> ok m0 -> (forall m w ht x m' c, ok m -> 0 <= w -> 0 <= ht -> update (redrawn m (w, ht)) x = Some (m', c) -> ok m') ->
  (forall m, ok m -> good_widget u te (view m)) -> t_attr t0 = default_attr -> 0 <= t_w t0 -> 0 <= t_h t0 ->
  S_Joint.together (Live m0 (t_w t0, t_h t0) (resizes h)) init_cmd live_update inputs live_view s h -> sizes_ok h -> st_main s = PLoop v -> told (t_w t0, t_h t0) true h = true ->
  let m := lv_model v in
  filter for_model (map snd (taken (history s))) = updates (history s) /\
  lived update redrawn m0 (t_w t0, t_h t0) (updates (history s)) (resizes h) = Some (m, final_size (t_w t0, t_h t0) h) /\ ok m /\
  let area := let (W, H) := final_size (t_w t0, t_h t0) h in new_rect W H in
  exists s0 tm t b, start u te t0 = Some s0 /\ run u te s0 h = Some (tm, t) /\ view m area (blank area) = Ret b /\ barea b = area /\ shows u te (t_cells t) b.
Proof.
  intros He O0 Ou Hv Ha HW HH T Hs Wt Td m.
  set (P := fun v : live M => ok (lv_model v) /\ (0 <= fst (lv_size v) /\ 0 <= snd (lv_size v)) /\ Forall (fun z => 0 <= fst z /\ 0 <= snd z) (lv_coming v)).
  set (v0 := Live m0 (t_w t0, t_h t0) (resizes h)) in *.
  assert (P0 : P v0).
  { split; [exact O0|]. split; [now split|]. apply Forall_forall. intros z I. cbn [lv_coming v0] in I. unfold resizes in I. apply in_flat_map in I. destruct I as (e & I & J). specialize (Hs e I). destruct e; try contradiction. destruct J as [<-|[]]. exact Hs. }
  assert (Pu : forall a x b c, P a -> live_update a x = Some (b, c) -> P b).
  { intros [a [w ht] coming] x b c (Pa & Pz & Pc) E. unfold S_Stateful.live_update in E. cbn [lv_model lv_size lv_coming fst snd] in *. destruct (update (redrawn a (w, ht)) x) as [[a' c']|] eqn:U; [|discriminate].
    pose proof (Ou a w ht x a' c' Pa (proj1 Pz) (proj2 Pz) U) as Oa. destruct (next_size x (w, ht) coming) as [z r] eqn:Nx. injection E as <- _.
    split; [exact Oa|]. cbn [lv_size lv_coming]. unfold next_size in Nx. destruct x; try (injection Nx as <- <-; now split). destruct coming as [|z' r']; injection Nx as <- <-; [now split|]. inversion Pc; subst. now split. }
  pose proof (together_models v0 init_cmd live_update inputs live_view P s h P0 Pu T) as Gm.
  destruct (screen v0 init_cmd live_update inputs live_view u te t0 s h v He) as (Eu & Em & s0 & tm & t & b & B); auto.
  { intros w I. destruct (Gm w I) as (a & Pa & ->). apply Hv, Pa. }
  { now left. }
  split; [exact Eu|].
  assert (Ct : length (filter is_size (updates (history s))) = length (resizes h)).
  { destruct (together_sizes v0 s h T) as [K|K]; [unfold refused in K; rewrite Wt in K; contradiction|]. rewrite K, <- Eu. unfold count_sizes, taken, history. rewrite <- (rev_involutive (st_log s)) at 2. generalize (rev (st_log s)). clear.
    intros l. rewrite <- (rev_length (flat_map _ (rev l))). rewrite <- flat_map_rev by (intros []; cbn; try lia; destruct m; cbn; lia). rewrite rev_involutive.
    induction l as [|e l IH]; [reflexivity|]. cbn [flat_map]. rewrite app_length, map_app, filter_app, filter_app, app_length, IH. f_equal. destruct e; try reflexivity. destruct m; reflexivity. }
  pose proof (lived_after (updates (history s)) m0 (t_w t0, t_h t0) (resizes h) v ltac:(lia) Em) as El. rewrite Ct, firstn_all in El.
  pose proof (lived_size _ _ _ _ _ _ Ct El) as Ez. rewrite (told_last h _ _ _ (fun _ => eq_refl) Td) in Ez. split; [rewrite El, Ez; reflexivity|].
  split. { assert (Q : forall l a b, P a -> model_after live_update a l = Some b -> P b). { induction l as [|x l IH]; intros a c Pa E; cbn in E; [now injection E as <-|]. destruct (live_update a x) as [[a' c']|] eqn:U; [|discriminate]. eapply IH; [|exact E]. eapply Pu; eassumption. }
    apply (Q _ _ _ P0 Em). }
  exists s0, tm, t, b. destruct B as (B1 & B2 & B3 & B4 & B5 & _). auto.
Qed.
End Claims.
Print Assumptions C95_screen.
