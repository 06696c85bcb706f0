(** C71-C73: output and its failures. *)
From Verif Require Import Base M_Geom S_Geom M_Style M_Uniseg M_Buffer S_Buffer M_Ansi M_Backend M_Utf8 M_Output S_Terminal S_Ansi S_Display S_Command S_Session S_Output
  P_Base T_Geom P_Buffer P_SetString T_Buffer P_Ansi P_Attr P_Draw P_Diff P_Session T_Terminal.
From Coq Require Import ZArith NArith List Bool Lia.
Import ListNotations.
Open Scope Z_scope.

Definition ahead (w : writer) : bytes := wr_sent w ++ wr_buf w.
Lemma begins_refl a : begins a a. Proof. exists []. now rewrite app_nil_r. Qed.
Lemma begins_app a b : begins a (a ++ b). Proof. now exists b. Qed.
Lemma begins_trans a b c : begins a b -> begins b c -> begins a c.
Proof. intros [r ->] [q ->]. exists (r ++ q). now rewrite app_assoc. Qed.
Lemma begins_firstn n (p s : bytes) : begins (s ++ firstn n p) (s ++ p).
Proof. exists (skipn n p). now rewrite <- app_assoc, firstn_skipn. Qed.
Lemma begins_more a b c : begins a (b ++ c) -> forall e, begins a (b ++ c ++ e).
Proof. intros [r E] e. exists (r ++ e). now rewrite !app_assoc, E, <- !app_assoc. Qed.

Lemma flush_ok d w w' : flush d w = (w', true) -> wr_failed w = false /\ wr_failed w' = false /\ wr_buf w' = [] /\ wr_sent w' = ahead w.
Proof.
  unfold flush, ahead, device_write. destruct w as [b f s k]. cbn. destruct f; [discriminate|]. destruct b as [|c b].
  - intros E. injection E as <-. cbn. rewrite app_nil_r. auto.
  - destruct (d k); cbn; [discriminate|]. intros E. injection E as <-. cbn. auto.
Qed.
Lemma flush_bad d w w' : flush d w = (w', false) -> wr_failed w' = true /\ begins (wr_sent w') (ahead w) /\ begins (wr_sent w) (wr_sent w').
Proof.
  unfold flush, ahead, device_write. destruct w as [b f s k]. cbn. destruct f; [intros E; injection E as <-; cbn; auto using begins_app, begins_refl|]. destruct b as [|c b]; [discriminate|].
  destruct (d k) as [n|]; cbn [fst snd]; [|discriminate]. intros E. injection E as <-. cbn [wr_failed wr_sent]. auto using begins_app, begins_firstn.
Qed.
Lemma flush_failed d w : wr_failed w = true -> flush d w = (w, false).
Proof. unfold flush. now intros ->. Qed.
Lemma rest_ok d w p w' : wr_failed w = false -> wr_buf w = [] -> write_rest d w p = (w', true) -> wr_failed w' = false /\ ahead w' = ahead w ++ p.
Proof.
  unfold write_rest, device_write, ahead. intros F B. rewrite B, app_nil_r. destruct (_ <? _).
  - destruct (d (wr_calls w)) as [n|]; cbn; [discriminate|]. intros E. injection E as <-. cbn. now rewrite app_nil_r.
  - intros E. injection E as <-. now cbn.
Qed.
Lemma rest_bad d w p w' : wr_buf w = [] -> write_rest d w p = (w', false) -> wr_failed w' = true /\ begins (wr_sent w') (ahead w ++ p) /\ begins (wr_sent w) (wr_sent w').
Proof.
  unfold write_rest, device_write, ahead. intros B. rewrite B, app_nil_r. destruct (_ <? _); [|discriminate].
  destruct (d (wr_calls w)) as [n|]; cbn; [|discriminate]. intros E. injection E as <-. cbn. auto using begins_app, begins_firstn.
Qed.
Lemma write_ok d w p w' : write d w p = (w', true) -> wr_failed w = false /\ wr_failed w' = false /\ ahead w' = ahead w ++ p.
Proof.
  unfold write. destruct (wr_failed w) eqn:F; [discriminate|]. destruct (_ <=? _).
  - intros E. injection E as <-. unfold ahead. cbn. now rewrite app_assoc.
  - destruct (wr_buf w) as [|c b] eqn:B; [intros E; destruct (rest_ok d w p w' F B E); auto|].
    rewrite <- B. set (n := Z.to_nat _). destruct (flush d _) as [w1 ok] eqn:E1. destruct ok; [|discriminate]. apply flush_ok in E1. destruct E1 as (_ & F1 & B1 & S1). intros E.
    destruct (rest_ok d w1 _ w' F1 B1 E) as [F2 A2]. split; [auto|]. split; [auto|]. rewrite A2. unfold ahead in *. cbn [wr_sent wr_buf] in S1. rewrite B1, app_nil_r, S1, <- !app_assoc, firstn_skipn. reflexivity.
Qed.
Lemma write_bad d w p w' : write d w p = (w', false) -> wr_failed w' = true /\ begins (wr_sent w') (ahead w ++ p) /\ begins (wr_sent w) (wr_sent w').
Proof.
  unfold write. destruct (wr_failed w) eqn:F; [intros E; injection E as <-; unfold ahead; rewrite <- app_assoc; auto using begins_app, begins_refl|]. destruct (_ <=? _); [discriminate|].
  destruct (wr_buf w) as [|c b] eqn:B; [apply (rest_bad d w p w' B)|]. rewrite <- B. set (n := Z.to_nat _). destruct (flush d _) as [w1 ok] eqn:E1. destruct ok; intros E.
  - apply flush_ok in E1. destruct E1 as (_ & F1 & B1 & S1). apply rest_bad in E; [|exact B1]. destruct E as (F2 & P2 & Q2). unfold ahead in *. cbn [wr_sent wr_buf] in S1. rewrite B1, app_nil_r, S1, <- !app_assoc, firstn_skipn in P2. rewrite <- app_assoc. split; [exact F2|]. split; [exact P2|]. eapply begins_trans; [|exact Q2]. rewrite S1. apply begins_app.
  - injection E as <-. apply flush_bad in E1. destruct E1 as (F1 & P1 & Q1). cbn [wr_sent] in Q1. split; [exact F1|]. split; [|exact Q1]. eapply begins_trans; [exact P1|]. unfold ahead. cbn [wr_sent wr_buf]. rewrite <- !app_assoc. exists (skipn n p). now rewrite <- !app_assoc, firstn_skipn.
Qed.
Lemma encode_app a b : encode (a ++ b) = encode a ++ encode b.
Proof. apply flat_map_app. Qed.
Lemma queue_cons d te w c l : queue d te w (c :: l) = match c with SetColors None None => queue d te w l | _ => let! s := write_ansi te c in let (w', ok) := write d w (encode s) in if ok then queue d te w' l else Ret (w', false) end.
Proof. destruct c as [| | [f|] [b|] | | | | | | | | | | | |]; reflexivity. Qed.
Lemma flush_grows d w w' ok : flush d w = (w', ok) -> begins (wr_sent w) (wr_sent w').
Proof.
  destruct ok; intros E; [apply flush_ok in E; destruct E as (_ & _ & _ & ->); apply begins_app|apply flush_bad in E; apply E].
Qed.
Lemma rest_grows d w p w' ok : write_rest d w p = (w', ok) -> begins (wr_sent w) (wr_sent w').
Proof.
  unfold write_rest. destruct (_ <? _); [destruct (device_write d w p)|]; intros E; injection E as <- _; cbn; auto using begins_app, begins_refl.
Qed.
Lemma write_grows d w p w' ok : write d w p = (w', ok) -> begins (wr_sent w) (wr_sent w').
Proof.
  unfold write. destruct (wr_failed w); [intros E; injection E as <- _; apply begins_refl|]. destruct (_ <=? _); [intros E; injection E as <- _; apply begins_refl|].
  destruct (wr_buf w) eqn:B; [apply rest_grows|]. rewrite <- B. destruct (flush d _) as [w1 ok1] eqn:E1. apply flush_grows in E1. cbn [wr_sent] in E1. destruct ok1; intros E; [apply rest_grows in E; eapply begins_trans; eauto|injection E as <- _; exact E1].
Qed.
Lemma queue_step d te w c l w' ok : queue d te w (c :: l) = Ret (w', ok) ->
  (c = SetColors None None /\ queue d te w l = Ret (w', ok)) \/
  exists s w1 ok1, write_ansi te c = Ret s /\ write d w (encode s) = (w1, ok1) /\ (if ok1 then queue d te w1 l else Ret (w1, false)) = Ret (w', ok).
Proof.
  rewrite queue_cons. intros E. assert (G : c = SetColors None None \/ (let! s := write_ansi te c in let (w', ok) := write d w (encode s) in if ok then queue d te w' l else Ret (w', false)) = Ret (w', ok)) by (destruct c as [| | [f|] [b|] | | | | | | | | | | | |]; auto).
  destruct G as [->|G]; [now left|right]. destruct (write_ansi te c) as [s|]; cbn [bind] in G; [|discriminate]. destruct (write d w (encode s)) as [w1 ok1] eqn:W. exists s, w1, ok1. auto.
Qed.
Lemma queue_grows d te l : forall w w' ok, queue d te w l = Ret (w', ok) -> begins (wr_sent w) (wr_sent w').
Proof.
  induction l as [|c l IH]; intros w w' ok E; [cbn in E; injection E as <- _; apply begins_refl|]. apply queue_step in E. destruct E as [[_ E]|(s & w1 & ok1 & _ & W & E)]; [eapply IH; exact E|]. apply write_grows in W. destruct ok1; [apply IH in E; eapply begins_trans; eauto|injection E as <- _; exact W].
Qed.
Lemma queue_failed d te l : forall w w' ok, wr_failed w = true -> queue d te w l = Ret (w', ok) -> w' = w.
Proof.
  induction l as [|c l IH]; intros w w' ok F E; [cbn in E; now injection E as <- <-|]. apply queue_step in E. destruct E as [[_ E]|(s & w1 & ok1 & _ & W & E)]; [now apply (IH w w' ok)|]. unfold write in W. rewrite F in W. injection W as <- <-. now injection E as <- _.
Qed.
Lemma queue_ok d te l : forall w w', wr_failed w = false -> queue d te w l = Ret (w', true) -> wr_failed w' = false /\ exists s, write_all te l = Ret s /\ ahead w' = ahead w ++ encode s.
Proof.
  induction l as [|c l IH]; intros w w' F E; [cbn in E; injection E as <-; split; [exact F|]; exists []; cbn; now rewrite app_nil_r|]. apply queue_step in E. cbn [write_all]. destruct E as [[-> E]|(s & w1 & ok1 & -> & W & E)].
  - destruct (IH w w' F E) as (F2 & s2 & -> & A2). split; [exact F2|]. exists s2. now cbn.
  - destruct ok1; [|discriminate]. apply write_ok in W. destruct W as (_ & F1 & A1). destruct (IH w1 w' F1 E) as (F2 & s2 & -> & A2). split; [exact F2|]. exists (s ++ s2). cbn [bind]. split; [reflexivity|]. now rewrite A2, A1, encode_app, app_assoc.
Qed.
Lemma queue_bad d te l : forall w w', wr_failed w = false -> queue d te w l = Ret (w', false) -> wr_failed w' = true /\ begins (wr_sent w') (ahead w ++ encode (written te l)).
Proof.
  induction l as [|c l IH]; intros w w' F E; [discriminate|]. apply queue_step in E. cbn [written]. destruct E as [[-> E]|(s & w1 & ok1 & -> & W & E)]; [now apply IH|]. rewrite encode_app. destruct ok1.
  - apply write_ok in W. destruct W as (_ & F1 & A1). destruct (IH w1 w' F1 E) as (F2 & P2). rewrite A1, <- app_assoc in P2. auto.
  - injection E as <-. apply write_bad in W. destruct W as (F2 & P2 & _). split; [exact F2|]. apply begins_more, P2.
Qed.
Lemma written_all te l s : write_all te l = Ret s -> written te l = s.
Proof.
  revert s. induction l as [|c l IH]; intros s; cbn; [intros E; now injection E as <-|]. destruct (write_ansi te c) as [a|]; cbn; [|discriminate]. destruct (write_all te l) as [b|]; cbn; [|discriminate]. intros E. injection E as <-. now rewrite (IH b eq_refl).
Qed.
Lemma execute_spec d te w l w' ok : execute d te w l = Ret (w', ok) ->
  begins (wr_sent w) (wr_sent w') /\ (wr_failed w = true -> w' = w /\ ok = false) /\
  (wr_failed w = false -> if ok then wr_failed w' = false /\ wr_buf w' = [] /\ exists s, write_all te l = Ret s /\ wr_sent w' = ahead w ++ encode s
                          else wr_failed w' = true /\ begins (wr_sent w') (ahead w ++ encode (written te l))).
Proof.
  unfold execute. destruct (queue d te w l) as [[w1 ok1]|] eqn:Q; cbn [bind]; [|discriminate]. pose proof (queue_grows _ _ _ _ _ _ Q) as G1. destruct ok1; intros E.
  - injection E as E. pose proof (flush_grows _ _ _ _ E) as G2. split; [eapply begins_trans; eauto|]. split.
    + intros F. pose proof (queue_failed _ _ _ _ _ _ F Q) as ->. rewrite (flush_failed d w F) in E. now injection E as <- <-.
    + intros F. destruct (queue_ok _ _ _ _ _ F Q) as (F1 & s & Ws & A1). destruct ok.
      * apply flush_ok in E. destruct E as (_ & F2 & B2 & S2). split; [exact F2|]. split; [exact B2|]. exists s. now rewrite S2, A1.
      * apply flush_bad in E. destruct E as (F2 & P2 & _). split; [exact F2|]. now rewrite (written_all _ _ _ Ws), <- A1.
  - injection E as <- <-. split; [exact G1|]. split; [intros F; split; [exact (queue_failed _ _ _ _ _ _ F Q)|reflexivity]|]. intros F. exact (queue_bad _ _ _ _ _ F Q).
Qed.
Lemma written_app te a b s : write_all te a = Ret s -> written te (a ++ b) = s ++ written te b.
Proof.
  revert s. induction a as [|c a IH]; intros s; cbn; [intros E; now injection E as <-|]. destruct (write_ansi te c) as [x|]; cbn; [|discriminate]. destruct (write_all te a) as [y|]; cbn; [|discriminate]. intros E. injection E as <-. now rewrite (IH y eq_refl), app_assoc.
Qed.
Lemma written_begins te a b : begins (encode (written te a)) (encode (written te (a ++ b))).
Proof. induction a as [|c a IH]; cbn; [now eexists|]. destruct (write_ansi te c) as [x|]; [|apply begins_refl]. rewrite !encode_app. destruct IH as [r ->]. exists r. now rewrite app_assoc. Qed.
Lemma write_all_app te a b s q : write_all te a = Ret s -> write_all te b = Ret q -> write_all te (a ++ b) = Ret (s ++ q).
Proof.
  revert s. induction a as [|c a IH]; intros s; cbn; [intros E; injection E as <-; now intros ->|]. destruct (write_ansi te c) as [x|]; cbn; [|discriminate]. destruct (write_all te a) as [y|]; cbn; [|discriminate]. intros E Q. injection E as <-. rewrite (IH y eq_refl Q). cbn. now rewrite app_assoc.
Qed.
Lemma begins_in a b c e : begins a (b ++ c) -> begins c e -> begins a (b ++ e).
Proof. intros H [r ->]. eapply begins_trans; [exact H|]. exists r. now rewrite app_assoc. Qed.

(** One operation *)
Lemma op_spec d u te t w o t' w' ok : tm_viewport t = Fullscreen -> run_op d u te t w o = Ret (t', w', ok) ->
  tm_viewport t' = Fullscreen /\ begins (wr_sent w) (wr_sent w') /\ (wr_failed w = true -> wr_sent w' = wr_sent w /\ wr_failed w' = true /\ ok = false) /\
  (wr_failed w = false -> if ok then wr_failed w' = false /\ wr_buf w' = [] /\ exists cmds s, ideal_op u te t o = Ret (t', cmds) /\ write_all te cmds = Ret s /\ wr_sent w' = ahead w ++ encode s
                          else wr_failed w' = true /\ begins (wr_sent w') (ahead w ++ encode (op_written u te t o))).
Proof.
  intros V E. destruct o as [wd|x y|c]; cbn [run_op] in E.
  - unfold draw_out in E. unfold op_written. cbn [ideal_op]. unfold terminal_draw. destruct (wd (tm_area t) (current_buffer t)) as [b|]; cbn [bind] in *; [|discriminate]. destruct (diff u _ _) as [ups|]; cbn [bind] in *; [|discriminate].
    assert (V1 : tm_viewport (set_current t b) = Fullscreen) by (unfold set_current; destruct (tm_current t); exact V).
    assert (V2 : tm_viewport (swap_buffers (set_current t b)) = Fullscreen) by (unfold swap_buffers, set_previous; destruct (tm_current (set_current t b)); exact V1).
    destruct (queue d te w (backend_draw te ups)) as [[w1 ok1]|] eqn:Q; cbn [bind] in E; [|discriminate]. pose proof (queue_grows _ _ _ _ _ _ Q) as G1. destruct ok1; cbn [negb] in E.
    2: { injection E as <- <- <-. split; [exact V1|]. split; [exact G1|]. split; [intros F; rewrite (queue_failed _ _ _ _ _ _ F Q); auto|]. intros F. destruct (queue_bad _ _ _ _ _ F Q) as [F1 P1]. split; [exact F1|]. eapply begins_in; [exact P1|apply written_begins]. }
    destruct (execute d te w1 [HideCursor]) as [[w2 ok2]|] eqn:X; cbn [bind] in E; [|discriminate]. apply execute_spec in X. destruct X as (G2 & Xf & Xo). destruct ok2; cbn [negb] in E.
    2: { injection E as <- <- <-. split; [exact V1|]. split; [eapply begins_trans; eauto|]. split; [intros F; pose proof (queue_failed _ _ _ _ _ _ F Q) as ->; destruct (Xf F) as [-> _]; auto|]. intros F. destruct (queue_ok _ _ _ _ _ F Q) as (F1 & s & Ws & A1). destruct (Xo F1) as [F2 P2]. split; [exact F2|]. rewrite (written_app _ _ _ _ Ws), encode_app, app_assoc, <- A1. exact P2. }
    destruct (flush d w2) as [w3 ok3] eqn:L. assert (F0 : wr_failed w = false) by (destruct (wr_failed w) eqn:F; [|reflexivity]; pose proof (queue_failed _ _ _ _ _ _ F Q) as ->; destruct (Xf F) as [_ K]; discriminate).
    destruct (queue_ok _ _ _ _ _ F0 Q) as (F1 & s & Ws & A1). destruct (Xo F1) as (F2 & B2 & s2 & Ws2 & S2).
    assert (L' : flush d w2 = (w2, true)) by (unfold flush; now rewrite F2, B2). rewrite L' in L. injection L as <- <-. injection E as <- <- <-.
    split; [exact V2|]. split; [eapply begins_trans; eauto|]. split; [congruence|]. intros _. split; [exact F2|]. split; [exact B2|]. eexists. exists (s ++ s2). split; [reflexivity|]. split; [now apply write_all_app|]. now rewrite S2, A1, encode_app, app_assoc.
  - unfold resize_out in E. unfold op_written. cbn [ideal_op]. unfold terminal_resize. rewrite V. destruct (buffer_resize (current_buffer t) (new_rect x y)) as [c|]; cbn [bind] in *; [|discriminate]. destruct (buffer_resize (previous_buffer _) (new_rect x y)) as [p|]; cbn [bind] in *; [|discriminate].
    set (t2 := set_previous (set_current t c) p) in *. assert (V2 : tm_viewport t2 = Fullscreen) by (unfold t2, set_previous; destruct (tm_current (set_current t c)); unfold set_current; destruct (tm_current t); exact V).
    destruct (execute d te w [ClearAll]) as [[w1 ok1]|] eqn:X; cbn [bind] in E; [|discriminate]. apply execute_spec in X. destruct X as (G2 & Xf & Xo). unfold terminal_clear. cbn [tm_viewport]. rewrite V2 in E |- *. destruct ok1; injection E as <- <- <-.
    + split; [unfold set_previous; destruct (tm_current _); reflexivity|]. split; [exact G2|]. split; [intros F; destruct (Xf F); discriminate|]. intros F. destruct (Xo F) as (F2 & B2 & s & Ws & S2). split; [exact F2|]. split; [exact B2|]. do 2 eexists. split; [reflexivity|]. split; [exact Ws|exact S2].
    + split; [reflexivity|]. split; [exact G2|]. split; [intros F; destruct (Xf F) as [-> _]; auto|]. intros F. exact (Xo F).
  - destruct (execute d te w [c]) as [[w1 ok1]|] eqn:X; cbn [bind] in E; [|discriminate]. apply execute_spec in X. destruct X as (G2 & Xf & Xo). injection E as <- <- <-. split; [exact V|]. split; [exact G2|]. split; [intros F; destruct (Xf F) as [-> ->]; auto|]. intros F. specialize (Xo F). destruct ok1; [|exact Xo]. destruct Xo as (F2 & B2 & s & Ws & S2). split; [exact F2|]. split; [exact B2|]. do 2 eexists. split; [reflexivity|]. split; [exact Ws|exact S2].
Qed.

(** ** C71: whatever the device does, there is a point in a history of operations such that the operations before it report success and all those
    after it failure; the terminal has got, in order and once, all that those before it write, of the first one after it a beginning, and nothing
    of the others. *)
Lemma ops_failed d u te l : forall t w t' w' oks, tm_viewport t = Fullscreen -> wr_failed w = true -> run_ops d u te t w l = Ret (t', w', oks) -> wr_sent w' = wr_sent w /\ oks = repeat false (length l).
Proof.
  induction l as [|o l IH]; intros t w t' w' oks V F E; [cbn in E; injection E as <- <- <-; auto|]. cbn [run_ops] in E. destruct (run_op d u te t w o) as [[[t1 w1] ok]|] eqn:O; cbn [bind] in E; [|discriminate]. destruct (run_ops d u te t1 w1 l) as [[[t2 w2] oks2]|] eqn:R; cbn [bind] in E; [|discriminate]. injection E as <- <- <-.
  destruct (op_spec _ _ _ _ _ _ _ _ _ V O) as (V1 & _ & Of & _). destruct (Of F) as (S1 & F1 & ->). destruct (IH _ _ _ _ _ V1 F1 R) as [S2 ->]. split; [congruence|reflexivity].
Qed.
Theorem C71_in_order d u te l t w t' w' oks : tm_viewport t = Fullscreen -> wr_failed w = false -> wr_buf w = [] -> run_ops d u te t w l = Ret (t', w', oks) ->
  exists n t1 s, (n <= length l)%nat /\ oks = repeat true n ++ repeat false (length l - n) /\ ideal u te t (firstn n l) = Ret (t1, s) /\
    (n = length l -> t' = t1 /\ wr_sent w' = wr_sent w ++ encode s) /\
    (forall o, nth_error l n = Some o -> begins (wr_sent w ++ encode s) (wr_sent w') /\ begins (wr_sent w') (wr_sent w ++ encode (s ++ op_written u te t1 o))).
Proof.
  revert t w t' w' oks. induction l as [|o l IH]; intros t w t' w' oks V F B E.
  - cbn in E. injection E as <- <- <-. exists 0%nat, t, []. cbn. rewrite app_nil_r. split; [lia|]. split; [reflexivity|]. split; [reflexivity|]. split; [auto|]. discriminate.
  - cbn [run_ops] in E. destruct (run_op d u te t w o) as [[[t1 w1] ok]|] eqn:O; cbn [bind] in E; [|discriminate]. destruct (run_ops d u te t1 w1 l) as [[[t2 w2] oks2]|] eqn:R; cbn [bind] in E; [|discriminate]. injection E as <- <- <-.
    destruct (op_spec _ _ _ _ _ _ _ _ _ V O) as (V1 & G1 & _ & Oo). specialize (Oo F). assert (A : ahead w = wr_sent w) by (unfold ahead; now rewrite B, app_nil_r). rewrite A in Oo. destruct ok.
    + destruct Oo as (F1 & B1 & cmds & s & Id & Ws & S1). destruct (IH _ _ _ _ _ V1 F1 B1 R) as (n & t3 & s3 & Ln & -> & I3 & H1 & H2). exists (S n), t3, (s ++ s3). cbn [length firstn ideal]. split; [lia|]. split; [reflexivity|]. split; [rewrite Id; cbn [bind]; rewrite Ws; cbn [bind]; now rewrite I3|].
      split; [intros E; destruct (H1 ltac:(lia)) as [-> ->]; split; [reflexivity|]; now rewrite S1, encode_app, app_assoc|]. intros o' Ho. cbn [nth_error] in Ho. destruct (H2 o' Ho) as [P1 P2]. rewrite S1 in P1, P2. rewrite <- (app_assoc s s3), !encode_app in *. rewrite <- !app_assoc in *. auto.
    + destruct Oo as [F1 P1]. destruct (ops_failed _ _ _ _ _ _ _ _ _ V1 F1 R) as [S2 ->]. exists 0%nat, t, []. cbn [length firstn ideal repeat app]. rewrite Nat.sub_0_r, app_nil_r, S2. split; [lia|]. split; [reflexivity|]. split; [reflexivity|]. split; [discriminate|]. intros o' Ho. cbn [nth_error] in Ho. injection Ho as <-. auto.
Qed.
Print Assumptions C71_in_order.

(** *** A draw that reports success is on the screen *)
Lemma ideal_app u te a : forall t b t1 s1 t2 s2, ideal u te t a = Ret (t1, s1) -> ideal u te t1 b = Ret (t2, s2) -> ideal u te t (a ++ b) = Ret (t2, s1 ++ s2).
Proof.
  induction a as [|o a IH]; intros t b t1 s1 t2 s2 E1 E2; [cbn in E1; injection E1 as <- <-; exact E2|]. cbn [ideal app] in *. destruct (ideal_op u te t o) as [[t' cmds]|]; cbn [bind] in *; [|discriminate]. destruct (write_all te cmds) as [s|]; cbn [bind] in *; [|discriminate]. destruct (ideal u te t' a) as [[t'' s'']|] eqn:Ia; cbn [bind] in *; [|discriminate]. injection E1 as <- <-. rewrite (IH _ _ _ _ _ _ Ia E2). cbn [bind]. now rewrite app_assoc.
Qed.
Lemma ideal_run u te l : forall tm t tm' t', run u te (tm, t) l = Some (tm', t') -> exists pieces, watch u t l pieces = Some t' /\ ideal u te tm (ops_of l) = Ret (tm', concat pieces).
Proof.
  induction l as [|e l IH]; intros tm t tm' t' E; [cbn in E; injection E as <- <-; exists []; split; reflexivity|]. cbn [run] in E. destruct (run_event u te (tm, t) e) as [[tm1 t1]|] eqn:R; [|discriminate]. destruct (IH _ _ _ _ E) as (pieces & Wt & Id). unfold ops_of. cbn [flat_map]. fold (ops_of l). cbn [run_event] in R. destruct e as [w|w h|w h cells cur]; cbn [op_of watch].
  - destruct (terminal_draw u te tm w) as [[tm2 cmds]|] eqn:D; [|discriminate]. unfold send in R. destruct (write_all te cmds) as [s|] eqn:Ws; [|discriminate]. destruct (receive u t s) as [t2|] eqn:Rc; [|discriminate]. cbn in R. injection R as -> ->. exists (s :: pieces). rewrite Rc. split; [exact Wt|]. cbn [app ideal ideal_op concat]. rewrite D. cbn [bind]. rewrite Ws. cbn [bind]. now rewrite Id.
  - destruct (terminal_resize tm (new_rect w h)) as [[tm2 cmds]|] eqn:D; [|discriminate]. unfold send in R. destruct (write_all te cmds) as [s|] eqn:Ws; [|discriminate]. destruct (receive u t s) as [t2|] eqn:Rc; [|discriminate]. cbn in R. injection R as -> ->. exists (s :: pieces). rewrite Rc. split; [exact Wt|]. cbn [app ideal ideal_op concat]. rewrite D. cbn [bind]. rewrite Ws. cbn [bind]. now rewrite Id.
  - injection R as <- <-. exists pieces. split; [exact Wt|exact Id].
Qed.
Lemma last_repeat n m : last (repeat true n ++ repeat false m) false = true -> m = 0%nat.
Proof.
  destruct m as [|m]; [reflexivity|]. intros H. exfalso. replace (repeat false (S m)) with (repeat false m ++ [false]) in H by (change [false] with (repeat false 1); rewrite <- repeat_app; f_equal; lia). rewrite app_assoc, last_last in H. discriminate.
Qed.
Theorem C71_shown d u te t0 hist w tm0 t1 w0 tm' w' oks :
  env_ok u te -> t_attr t0 = default_attr -> 0 <= t_w t0 -> 0 <= t_h t0 ->
  (forall e, In e hist -> good_event u te e) -> good_widget u te w ->
  told (t_w t0, t_h t0) true hist = true ->
  start u te t0 = Some (tm0, t1) -> wr_failed w0 = false -> wr_buf w0 = [] ->
  (* the program runs on a device that may fail, and the last draw reports success *)
  run_ops d u te tm0 w0 (ops_of (hist ++ [EvDraw w])) = Ret (tm', w', oks) -> last oks false = true ->
  let area := let (W, H) := final_size (t_w t0, t_h t0) hist in new_rect W H in
  exists pieces t b, wr_sent w' = wr_sent w0 ++ encode (concat pieces) /\ watch u t1 (hist ++ [EvDraw w]) pieces = Some t /\
    w area (blank area) = Ret b /\ shows u te (t_cells t) b.
Proof.
  intros He Ha HW HH Hg Hw Ht St F B R L area. destruct (C13_screen_shows_last_frame u te t0 hist w He Ha HW HH Hg Hw Ht) as (s0 & tm & t & b & St' & Rn & Wb & _ & Sh & _). rewrite St in St'. injection St' as <-.
  destruct (ideal_run u te _ _ _ _ _ Rn) as (pieces & Wt & Id).
  assert (V : tm_viewport tm0 = Fullscreen). { unfold start in St. destruct (send u te t0 [EnterAlternateScreen]); [|discriminate]. unfold new_terminal in St. destruct (new_buffer_empty _); cbn [bind] in St; [|discriminate]. injection St as <- _. reflexivity. }
  destruct (C71_in_order d u te _ _ _ _ _ _ V F B R) as (n & tm2 & s & Ln & Eo & I2 & H1 & _). rewrite Eo in L. apply last_repeat in L. assert (En : n = length (ops_of (hist ++ [EvDraw w]))) by lia. destruct (H1 En) as [-> S2]. rewrite En, firstn_all, Id in I2. injection I2 as <- <-.
  exists pieces, t, b. auto.
Qed.
Print Assumptions C71_shown.

(** A device that takes three bytes of its third Write and then fails, once: what was drawn before is there, the third operation gets three bytes
    through, the two after it nothing. *)
Definition hiccup (k n : nat) : device := fun i => if Nat.eqb i k then Some n else None.
Definition blank_terminal (w h : Z) : terminal := Terminal Fullscreen (new_rect w h) (blank (new_rect w h)) (blank (new_rect w h)) false 0.
Example C71_instance : exists t' w', run_ops (hiccup 2 3) simple_uniseg te_id (blank_terminal 2 1) new_writer
    (start_ops ++ [OpDraw demo_widget; OpResize 3 1; OpMode ShowCursor]) = Ret (t', w', [true; true; false; false; false]) /\
  wr_sent w' = [27; 91; 63; 50; 53; 108; 27; 91; 63; 49; 48; 52; 57; 104; 27; 91; 49]%N /\ tm_current t' = false.
Proof. do 2 eexists. vm_compute. repeat split. Qed.
Example C71_no_failure : exists t' w', run_ops (fun _ => None) simple_uniseg te_id (blank_terminal 2 1) new_writer [OpDraw demo_widget; OpResize 3 1; OpDraw demo_widget] = Ret (t', w', [true; true; true]) /\ tm_frames t' = 2.
Proof. do 2 eexists. split; vm_compute; reflexivity. Qed.

(** ** C72: after a failed write the terminal cannot be restored any more, even if the device has recovered: nothing is sent, raw mode stays. *)
Theorem C72_restore_refuted :
  (forall d te w raw w' raw' ok, wr_failed w = true -> restore_out d te w raw = Ret (w', raw', ok) -> wr_sent w' = wr_sent w /\ raw' = raw /\ ok = false) /\
  (* it happens: the device fails once, while drawing *)
  exists t' w' w'', run_ops (hiccup 2 0) simple_uniseg te_id (blank_terminal 2 1) new_writer (start_ops ++ [OpDraw demo_widget]) = Ret (t', w', [true; true; false]) /\
    restore_out (fun _ => None) te_id w' true = Ret (w'', true, false) /\
    wr_sent w'' = [27; 91; 63; 50; 53; 108; 27; 91; 63; 49; 48; 52; 57; 104]%N.
Proof.
  split.
  - intros d te w raw w' raw' ok F E. unfold restore_out in E. destruct (execute d te w [DisableBracketedPaste]) as [[w1 ok1]|] eqn:X; cbn [bind] in E; [|discriminate]. apply execute_spec in X. destruct X as (_ & Xf & _). destruct (Xf F) as [-> ->]. cbn [negb] in E. injection E as <- <- <-. auto.
  - do 3 eexists. split; [vm_compute; reflexivity|]. split; vm_compute; reflexivity.
Qed.
Lemma execute_sends d te sent k c s : d k = None -> c <> SetColors None None -> write_ansi te c = Ret s -> encode s <> [] -> zlen (encode s) <= buffer_size ->
  execute d te (Writer [] false sent k) [c] = Ret (Writer [] false (sent ++ encode s) (S k), true).
Proof.
  intros D Nn W Ne Le. unfold execute. rewrite queue_cons. assert (Q : (let! s := write_ansi te c in let (w', ok) := write d (Writer [] false sent k) (encode s) in if ok then queue d te w' [] else Ret (w', false)) = Ret (Writer (encode s) false sent k, true)).
  { rewrite W. cbn [bind]. unfold write. cbn [wr_failed wr_buf wr_sent wr_calls app]. change (buffer_size - zlen (@nil N)) with buffer_size. destruct (Z.leb_spec (zlen (encode s)) buffer_size); [reflexivity|lia]. }
  assert (Q' : match c with SetColors None None => queue d te (Writer [] false sent k) [] | _ => let! s := write_ansi te c in let (w', ok) := write d (Writer [] false sent k) (encode s) in if ok then queue d te w' [] else Ret (w', false) end = Ret (Writer (encode s) false sent k, true)) by (destruct c as [| | [f|] [b|] | | | | | | | | | | | |]; try exact Q; congruence).
  rewrite Q'. cbn [bind]. unfold flush, device_write. cbn [wr_failed wr_buf wr_sent wr_calls]. rewrite D. destruct (encode s); [congruence|reflexivity].
Qed.
(** If no write has failed and none does, restoring sends the three sequences, ends raw mode and reports success. *)
Theorem C72_restored_partial d te w raw : wr_failed w = false -> wr_buf w = [] -> (forall k, (wr_calls w <= k)%nat -> d k = None) ->
  exists w' s, restore_out d te w raw = Ret (w', false, true) /\ write_all te [DisableBracketedPaste; ShowCursor; LeaveAlternateScreen] = Ret s /\ wr_sent w' = wr_sent w ++ encode s /\ wr_buf w' = [] /\ wr_failed w' = false.
Proof.
  destruct w as [b f s k]. cbn [wr_failed wr_buf wr_calls wr_sent]. intros -> -> D. unfold restore_out.
  erewrite execute_sends; [|apply D; lia|discriminate|reflexivity|discriminate|vm_compute; discriminate]. cbn [bind negb].
  erewrite execute_sends; [|apply D; lia|discriminate|reflexivity|discriminate|vm_compute; discriminate]. cbn [bind negb].
  erewrite execute_sends; [|apply D; lia|discriminate|reflexivity|discriminate|vm_compute; discriminate]. cbn [bind].
  do 2 eexists. split; [reflexivity|]. split; [reflexivity|]. cbn [wr_sent wr_buf wr_failed]. split; [|auto]. now rewrite <- !app_assoc.
Qed.
Print Assumptions C72_restore_refuted.
Print Assumptions C72_restored_partial.

(** ** C73: the modes of the terminal *)
Lemma parse_app a b l m : parse a = Some l -> parse b = Some m -> parse (a ++ b) = Some (l ++ m).
Proof.
  unfold parse. rewrite scan_app. destruct (scan Ground a) as [o1 m1]. destruct m1; try discriminate. intros E. injection E as <-. destruct (scan Ground b) as [o2 m2]. destruct m2; try discriminate. intros E. now injection E as <-.
Qed.
Lemma mode_after_app n a b on : mode_after n (a ++ b) on = mode_after n b (mode_after n a on).
Proof. unfold mode_after. apply fold_left_app. Qed.
Definition silent (c : command) : bool := match c with MoveTo _ _ | SetAttribute _ | SetColors _ _ | Print _ | ClearAll => true | _ => false end.
Lemma silent_modes n te l on : (forall c, In c l -> silent c = true) -> mode_after n (flat_map (command_ptoks te) l) on = on.
Proof.
  induction l as [|c l IH]; intros H; [reflexivity|]. cbn [flat_map]. rewrite mode_after_app.
  assert (Hd : mode_after n (command_ptoks te c) on = on).
  { pose proof (H c (or_introl eq_refl)) as Hc. destruct c as [x y|a|[f|] [b|]|s| | | | | | | | | | |]; try discriminate; try reflexivity. cbn [command_ptoks]. clear. induction s as [|r s IHs]; [reflexivity|exact IHs]. }
  rewrite Hd. apply IH. intros k Hk. apply H. now right.
Qed.
Lemma draw_silent te l c : In c (backend_draw te l) -> silent c = true.
Proof.
  unfold backend_draw. rewrite in_app_iff. intros [I|[<-|[<-|[]]]]; [|reflexivity|reflexivity]. revert I. generalize (DrawState None 0%N (Some ColReset) (Some ColReset)). induction l as [|[p k] l IH]; intros st I; [destruct I|]. cbn [draw_cells draw_cell] in I. rewrite !in_app_iff in I. destruct I as [[I|[I|[I|I]]]|I].
  - destruct (adjacent _ _); [destruct I|destruct I as [<-|[]]; reflexivity].
  - destruct (_ =? _)%N; [destruct I|]. rewrite modifier_diff_steps in I. apply in_flat_map in I. destruct I as ([b a] & _ & I). cbn in I. destruct b; cbn in I; [destruct I as [<-|[]]; reflexivity|destruct I].
  - destruct (_ && _); [destruct I|destruct I as [<-|[]]; reflexivity].
  - destruct I as [<-|[]]; reflexivity.
  - now apply IH in I.
Qed.
(** The sequences that drawing and resizing write leave the modes alone, but for hiding the cursor. *)
Definition quiet (toks : list ptok) : Prop := forall n on, mode_after n toks on = on \/ (n = 25%N /\ mode_after n toks on = false).
Lemma quiet_app a b : quiet a -> quiet b -> quiet (a ++ b).
Proof. intros A B n on. rewrite mode_after_app. destruct (B n (mode_after n a on)) as [->|[-> ->]]; [apply A|now right]. Qed.
Lemma draw_event_quiet u te tm t size ok w : env_ok u te -> session_inv u te tm t size ok -> good_widget u te w ->
  forall tm' cmds, terminal_draw u te tm w = Ret (tm', cmds) -> exists s toks, write_all te cmds = Ret s /\ parse s = Some toks /\ quiet toks.
Proof.
  intros He HI Hw tm' cmds E. destruct (si_area _ _ _ _ _ _ HI) as (W & H & HW & HH & EA & Hok). destruct (Hw W H HW HH) as (b & Eb & Ab & Fb). rewrite <- EA in Eb, Ab. destruct (si_prev _ _ _ _ _ _ HI) as [Dp Ap].
  unfold terminal_draw in E. rewrite (si_current _ _ _ _ _ _ HI), Eb in E. cbn [bind] in E.
  assert (P1 : previous_buffer (set_current tm b) = previous_buffer tm) by (unfold set_current, previous_buffer; destruct (tm_current tm) eqn:E1; cbn; now rewrite ?E1).
  assert (C1 : current_buffer (set_current tm b) = b) by (unfold set_current, current_buffer; destruct (tm_current tm) eqn:E1; cbn; now rewrite ?E1). rewrite P1, C1 in E. pose proof (frame_displayable _ _ _ Fb) as Db.
  destruct (diff_basic u (previous_buffer tm) b (disp_wf _ _ _ Dp) (disp_wf _ _ _ Db)) as (ups & Eu & Hups & _); [congruence|]. rewrite Eu in E. cbn [bind] in E. injection E as _ <-.
  assert (Ok : forall c, In c (backend_draw te ups ++ [HideCursor]) -> command_ok c).
  { intros c Hc. rewrite in_app_iff in Hc. destruct Hc as [Hc|[<-|[]]]; [|exact I]. eapply backend_draw_ok; [|exact Hc]. intros p k Hk. destruct (Hups p k Hk) as [Hin Hl]. rewrite Ap, EA in Hin. destruct Hin as [Hx Hy]. cbn in Hx, Hy. pose proof (disp_cell _ _ _ Db _ _ Hl) as Hc'. split; [lia|]. split; [lia|]. split; [exact (frame_plain _ _ _ Fb _ _ Hl)|]. pose proof (ok_fg _ _ _ Hc') as K1. pose proof (ok_bg _ _ _ Hc') as K2. unfold shown in K1, K2. split; intros K; rewrite K in *; congruence. }
  destruct (write_all_parse te _ Ok) as (s & Ws & Ps). exists s. eexists. split; [exact Ws|]. split; [exact Ps|]. intros n on. rewrite flat_map_app, mode_after_app, (silent_modes n te (backend_draw te ups) on (draw_silent te ups)). cbn [flat_map command_ptoks app mode_after fold_left mode_step]. destruct (N.eqb_spec 25 n); [right; split; [now symmetry|reflexivity]|now left].
Qed.
Lemma events_quiet u te l : env_ok u te -> forall tm t size ok, session_inv u te tm t size ok -> (forall e, In e l -> good_event u te e) ->
  exists tm' s toks, ideal u te tm (ops_of l) = Ret (tm', s) /\ parse s = Some toks /\ quiet toks.
Proof.
  intros He. induction l as [|e l IH]; intros tm t size ok HI Hg; [exists tm, [], []; split; [reflexivity|]; split; [reflexivity|]; intros n on; now left|]. pose proof (Hg e (or_introl eq_refl)) as He'. assert (Hg' : forall e, In e l -> good_event u te e) by (intros; apply Hg; now right). unfold ops_of. cbn [flat_map]. fold (ops_of l). destruct e as [w|w h|w h cells cur]; cbn [op_of app ideal ideal_op].
  - destruct (draw_step u te tm t size ok w He HI He') as (tm1 & t1 & b & E & _ & _ & _ & _ & HI1). cbn [run_event] in E. destruct (terminal_draw u te tm w) as [[tm2 cmds]|] eqn:D; [|discriminate]. destruct (draw_event_quiet u te tm t size ok w He HI He' tm2 cmds D) as (s & toks & Ws & Ps & Qs). destruct (send u te t cmds) as [t2|]; [|discriminate]. cbn in E. injection E as -> ->. destruct (IH _ _ _ _ HI1 Hg') as (tm3 & s3 & toks3 & I3 & P3 & Q3). exists tm3, (s ++ s3), (toks ++ toks3). cbn [bind]. rewrite Ws. cbn [bind]. rewrite I3. split; [reflexivity|]. split; [now apply parse_app|now apply quiet_app].
  - destruct He' as [Hw Hh]. destruct (resize_step u te tm t size ok w h He HI Hw Hh) as (tm1 & t1 & E & HI1). cbn [run_event] in E. destruct (terminal_resize tm (new_rect w h)) as [[tm2 cmds]|] eqn:D; [|discriminate]. assert (Cm : cmds = [ClearAll]). { unfold terminal_resize in D. rewrite (si_view _ _ _ _ _ _ HI) in D. destruct (buffer_resize (current_buffer tm) _) as [c|]; cbn [bind] in D; [|discriminate]. destruct (buffer_resize (previous_buffer _) _) as [p|]; cbn [bind] in D; [|discriminate]. unfold terminal_clear in D. cbn [tm_viewport] in D. assert (V2 : tm_viewport (set_previous (set_current tm c) p) = Fullscreen) by (unfold set_previous; destruct (tm_current (set_current tm c)); unfold set_current; destruct (tm_current tm); exact (si_view _ _ _ _ _ _ HI)). rewrite V2 in D. now injection D as _ <-. } subst cmds.
    destruct (send u te t [ClearAll]) as [t2|]; [|discriminate]. cbn [option_map] in E. injection E as -> ->. destruct (IH _ _ _ _ HI1 Hg') as (tm3 & s3 & toks3 & I3 & P3 & Q3). exists tm3, ([27; 91; 50; 74]%N ++ s3), ([PCsi false [[Some 2%N]] 74%N] ++ toks3). cbn [bind]. cbn [write_all write_ansi bind app CSI]. rewrite I3. cbn [bind]. split; [reflexivity|]. split; [exact (parse_app [27; 91; 50; 74]%N s3 [PCsi false [[Some 2%N]] 74%N] toks3 eq_refl P3)|]. apply (quiet_app [PCsi false [[Some 2%N]] 74%N] toks3); [intros n on; now left|exact Q3].
  - destruct He' as [Hw Hh]. refine (IH tm (Term w h cells cur (t_attr t) (t_visible t)) (w, h) false _ Hg'). destruct (si_area _ _ _ _ _ _ HI) as (W & H & HW & HH & EA & Hok). constructor; cbn; try apply HI; auto; try discriminate. exists W, H. split; [auto|]. split; [auto|]. split; [auto|]. discriminate.
Qed.
(** The output of a program from its start to the end of a history of draws and resizes, and to the end of restoring, on a working device. *)
Definition restore_ops : list term_op := [OpMode DisableBracketedPaste; OpMode ShowCursor; OpMode LeaveAlternateScreen].
Theorem C73_modes_partial u te hist W H tm0 : env_ok u te -> 0 <= W -> 0 <= H -> new_terminal Fullscreen W H = Ret tm0 -> (forall e, In e hist -> good_event u te e) ->
  exists tm s toks s' toks', ideal u te tm0 (start_ops ++ ops_of hist) = Ret (tm, s) /\ parse s = Some toks /\ ideal u te tm0 (start_ops ++ ops_of hist ++ restore_ops) = Ret (tm, s') /\ parse s' = Some toks' /\
    forall on,
      (* while it runs: alternate screen, no cursor *)
      mode_after 1049 toks on = true /\ mode_after 25 toks on = false /\
      (* at the end: main screen, cursor shown, no bracketed pastes *)
      mode_after 1049 toks' on = false /\ mode_after 25 toks' on = true /\ mode_after 2004 toks' on = false.
Proof.
  intros He HW HH Nt Hg. destruct (start_inv u te (Term W H (fun _ => Junk) None default_attr true) He eq_refl HW HH) as (tm & t & St & HI). unfold start in St. cbn [t_w t_h] in St. destruct (send u te _ [EnterAlternateScreen]); [|discriminate]. rewrite Nt in St. injection St as <- <-.
  destruct (events_quiet u te hist He _ _ _ _ HI Hg) as (tm' & s & toks & Id & Ps & Q).
  assert (I0 : ideal u te tm0 start_ops = Ret (tm0, [27; 91; 63; 50; 53; 108; 27; 91; 63; 49; 48; 52; 57; 104]%N)) by reflexivity.
  assert (P0 : parse [27; 91; 63; 50; 53; 108; 27; 91; 63; 49; 48; 52; 57; 104]%N = Some [PCsi true [[Some 25%N]] 108%N; PCsi true [[Some 1049%N]] 104%N]) by (vm_compute; reflexivity).
  assert (I9 : ideal u te tm' restore_ops = Ret (tm', [27; 91; 63; 50; 48; 48; 52; 108; 27; 91; 63; 50; 53; 104; 27; 91; 63; 49; 48; 52; 57; 108]%N)) by reflexivity.
  assert (P9 : parse [27; 91; 63; 50; 48; 48; 52; 108; 27; 91; 63; 50; 53; 104; 27; 91; 63; 49; 48; 52; 57; 108]%N = Some [PCsi true [[Some 2004%N]] 108%N; PCsi true [[Some 25%N]] 104%N; PCsi true [[Some 1049%N]] 108%N]) by (vm_compute; reflexivity).
  do 5 eexists. split; [exact (ideal_app _ _ _ _ _ _ _ _ _ I0 Id)|]. split; [exact (parse_app _ _ _ _ P0 Ps)|]. split; [exact (ideal_app _ _ _ _ _ _ _ _ _ I0 (ideal_app _ _ _ _ _ _ _ _ _ Id I9))|]. split; [exact (parse_app _ _ _ _ P0 (parse_app _ _ _ _ Ps P9))|].
  intros on. rewrite !mode_after_app. cbn [mode_after fold_left mode_step N.eqb Pos.eqb]. change (fold_left (mode_step 1049) toks true) with (mode_after 1049 toks true). change (fold_left (mode_step 25) toks false) with (mode_after 25 toks false).
  split; [destruct (Q 1049%N true) as [->|[K _]]; [reflexivity|discriminate]|]. split; [destruct (Q 25%N false) as [->|[_ ->]]; reflexivity|]. split; [reflexivity|]. split; reflexivity.
Qed.
(** C73: pastes are never bracketed: the program does not ask the terminal for it, so that a paste arrives as if it was typed. *)
Theorem C73_paste_refuted u te hist W H tm0 : env_ok u te -> 0 <= W -> 0 <= H -> new_terminal Fullscreen W H = Ret tm0 -> (forall e, In e hist -> good_event u te e) ->
  exists tm s toks, ideal u te tm0 (start_ops ++ ops_of hist) = Ret (tm, s) /\ parse s = Some toks /\ mode_after 2004 toks false = false.
Proof.
  intros He HW HH Nt Hg. destruct (start_inv u te (Term W H (fun _ => Junk) None default_attr true) He eq_refl HW HH) as (tm & t & St & HI). unfold start in St. cbn [t_w t_h] in St. destruct (send u te _ [EnterAlternateScreen]); [|discriminate]. rewrite Nt in St. injection St as <- <-.
  destruct (events_quiet u te hist He _ _ _ _ HI Hg) as (tm' & s & toks & Id & Ps & Q).
  assert (I0 : ideal u te tm0 start_ops = Ret (tm0, [27; 91; 63; 50; 53; 108; 27; 91; 63; 49; 48; 52; 57; 104]%N)) by reflexivity.
  assert (P0 : parse [27; 91; 63; 50; 53; 108; 27; 91; 63; 49; 48; 52; 57; 104]%N = Some [PCsi true [[Some 25%N]] 108%N; PCsi true [[Some 1049%N]] 104%N]) by (vm_compute; reflexivity).
  do 3 eexists. split; [exact (ideal_app _ _ _ _ _ _ _ _ _ I0 Id)|]. split; [exact (parse_app _ _ _ _ P0 Ps)|]. rewrite mode_after_app. cbn [mode_after fold_left mode_step N.eqb Pos.eqb]. destruct (Q 2004%N false) as [K|[K _]]; [exact K|discriminate].
Qed.
Example C73_instance : env_ok simple_uniseg te_id /\ new_terminal Fullscreen 2 1 = Ret (blank_terminal 2 1) /\ (forall e, In e [EvDraw demo_widget; EvResize 3 1; EvDraw demo_widget] -> good_event simple_uniseg te_id e).
Proof.
  split; [apply simple_env_ok|]. split; [reflexivity|]. intros e [<-|[<-|[<-|[]]]]; [apply demo_widget_good|cbn; lia|apply demo_widget_good].
Qed.
Print Assumptions C73_modes_partial.
Print Assumptions C73_paste_refuted.
