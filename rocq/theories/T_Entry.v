(** C100: a running program shows what the user types. *)
From Verif Require Import S_Keys T_Decode T_Stream T_AppRuns T_KeyName P_SetString T_Output.
From Verif Require Import Base P_Base M_Geom S_Geom T_Geom M_Style M_Uniseg M_Buffer S_Buffer S_Text P_Buffer T_Buffer M_Text S_Line P_Text T_Text M_Block S_Block P_Block T_Block M_Slice M_List P_List T_List M_Utf8 M_KeyTable M_Decode M_Reflow M_Input S_Input P_Input P_InputView T_Input
  M_Typing S_Typing T_Typing S_Field T_View T_Field M_Ansi M_Backend S_Terminal S_Ansi S_Display S_Command S_Session S_Frame T_Terminal P_Frame T_Frame.
From Verif Require Import M_Cmd M_App P_App P_AppIds P_AppLog P_AppRun P_AppEnd T_App S_Joint T_Joint S_Stateful T_Stateful S_Typed T_Typed T_Sizes S_Entry.
From Coq Require Import ZArith NArith List Bool Lia.
Import ListNotations.
Open Scope Z_scope.
Local Arguments zlen : simpl never.

Lemma do_show u s o s' : is_do u s o = Ret s' -> (forall v, o <> OpShow v) -> (exists e, represents s e) -> is_show s' = is_show s.
Proof.
  intros E Ho [e R]. 
  assert (Ap : forall t s1, is_append u s t = Ret s1 -> is_show s1 = is_show s) by (intros t s1 E1; destruct (append_ok u t s e R) as (s2 & E2 & _ & _ & S); rewrite E1 in E2; injection E2 as <-; exact S).
  assert (De : forall s1, is_delete_under s = Ret s1 -> is_show s1 = is_show s) by (intros s1 E1; destruct (delete_under_ok s e R) as (s2 & E2 & _ & _ & S); rewrite E1 in E2; injection E2 as <-; exact S).
  assert (Dw : forall s1, is_delete_word s = Ret s1 -> is_show s1 = is_show s) by (intros s1 E1; destruct (delete_word_ok s e R) as (s2 & E2 & _ & _ & S); rewrite E1 in E2; injection E2 as <-; exact S).
  destruct o as [| | | |t| | | |v|k]; cbn [is_do] in E; try (injection E as <-; reflexivity); eauto.
  - now destruct (Ho v).
  - destruct k; cbn [is_update bind] in E; try (injection E as <-; reflexivity).
    all: match type of E with context [bind ?x _] => destruct x eqn:E1; cbn [bind] in E; [injection E as <-; eauto|discriminate] end.
Qed.
Lemma step_in e o c : In c (ed_clusters (ed_step e o)) -> In c (ed_clusters e) \/ exists cs, o = Type_ cs /\ In c cs.
Proof.
  destruct e as [b a]. intros Hc. cut ((In c b \/ In c a) \/ exists cs, o = Type_ cs /\ In c cs).
  { intros [H|H]; [left|now right]. unfold ed_clusters. cbn [ed_before ed_after]. rewrite in_app_iff, <- in_rev. exact H. }
  revert Hc. destruct o; unfold ed_step, ed_clusters, ed_empty; cbn [ed_before ed_after].
  - destruct b; cbn [ed_before ed_after]; rewrite in_app_iff, <- in_rev; cbn; intuition auto.
  - destruct a; cbn [ed_before ed_after]; rewrite in_app_iff, <- in_rev; cbn; intuition auto.
  - cbn. rewrite in_app_iff, <- in_rev. auto.
  - rewrite app_nil_r, <- in_rev, <- in_rev, in_app_iff, <- in_rev. auto.
  - rewrite in_app_iff, <- in_rev, in_app_iff, <- in_rev. intros [[?|?]|?]; eauto.
  - destruct b; cbn [ed_before ed_after]; rewrite in_app_iff, <- in_rev; cbn; intuition auto.
  - rewrite in_app_iff, <- in_rev. intros [Hc|?]; [|auto]. unfold without_word in Hc. do 2 apply drop_while_in in Hc. auto.
  - intros [].
Qed.

Section Program.
Context {M : Type}.
Variables (u : uniseg) (te : termenv) (A : str -> Prop).
Hypothesis (He : env_ok u te) (HA : alphabet u A).
Variable m0 : M.
Variable init_cmd : option cmd.
Variable update : M -> M_Cmd.msg -> option (M * option cmd).
Variable redrawn : M -> Z * Z -> M.
Variable view : M -> widget.
Variable ds : list M_Decode.msg.
Variable row_of : rect -> rect.
Variable i : input.
Variable place : rect -> rect.
Variable before : M -> widget.
Variable text_of : M -> input_state.
Variable at_size : Z * Z -> Prop.
Hypothesis Hf : has_field u ds row_of i place before text_of at_size update redrawn view.
(** The input is made of drawable parts, and is put into a part of the frame. *)
Hypothesis (Hk : boxed_drawn u te A (ip_block i)) (Hr : roomy (ip_block i)) (Hst : showable te (ip_style i)) (Hps : showable te (ip_placeholder_style i)) (Hcs : showable te (ip_cursor_style i))
  (Hprs : showable te (ip_prompt_style i)) (Hpr : S_Frame.drawn u A (ip_prompt i)) (Hpl : forall c, In c (ip_placeholder i) -> A c) (Hp : part_of place) (Hb : forall m, placed u te A (before m)).
Hypothesis Hone : forall d, In d ds -> keystroke A d.
Variable width : Z.
Let Hu := env_uniseg _ _ He.
Let there (size : Z * Z) : Prop := at_size size /\ has_row u row_of i place width size.
Let max_w := width - string_width u (ip_prompt i) - 1.

Lemma alone s : (forall c, In c s -> A [c]) -> clusters u s = map (fun c => [c]) s.
Proof.
  intros H. rewrite <- (al_apart u A HA (map (fun c => [c]) s)); [|intros x I; apply in_map_iff in I; destruct I as (c & <- & I); auto]. f_equal.
  clear. induction s as [|c s IH]; [reflexivity|]. cbn [map concat app]. now rewrite <- IH.
Qed.
Lemma seen_in_A g : A g -> 1 <= cwidth u g <= 1 /\ existsb is_control g = false.
Proof.
  intros H. rewrite (al_one u A HA g H). split; [lia|]. apply not_true_is_false. intros E. apply existsb_exists in E. destruct E as (r & I & E). pose proof (al_plain u A HA g H r I) as P. unfold is_control in E. congruence.
Qed.
Lemma width_in_A g : A g -> string_width u g = 1.
Proof.
  intros H. pose proof (al_apart u A HA [g]) as P. cbn [concat] in P. rewrite app_nil_r in P. unfold string_width. rewrite P by (intros s [<-|[]]; exact H). cbn. now rewrite (al_one u A HA g H).
Qed.
(** What is about to be drawn, and what is left when it has been drawn. *)
Definition fine (s : input_state) (e : editor) : Prop :=
  represents s e /\ is_show s = true /\ (forall c, In c (is_text s) -> A c) /\ (is_text s = [] \/ view_near u s max_w).
Definition kept (s : input_state) (e : editor) : Prop := view_inv u max_w s e /\ is_show s = true /\ forall c, In c (is_text s) -> A c.

Lemma kept_fine s e : 0 <= max_w -> kept s e -> fine s e.
Proof.
  intros Hm (V & S & I). destruct (step_near u max_w s e (OpKey IKOther) s Hu Hm V Logic.I eq_refl) as (R & _ & N). split; [exact R|]. auto.
Qed.
Lemma no_words k e : k_type k <> KeyCtrlW -> fold_left marked_step (meaning u (OpKey (input_key_of k))) e = ed_run e (meaning u (OpKey (input_key_of k))).
Proof.
  intros N. unfold input_key_of. destruct k as [ty rs alt paste]. cbn [k_type k_runes] in *.
  destruct (Z.eqb_spec ty KeyCtrlW) as [Y|_]; [contradiction|].
  repeat match goal with |- context [if ?x then _ else _] => destruct x; [reflexivity|] end. reflexivity.
Qed.
Lemma key_edits k e : keystroke A (KeyMsg k) -> ed_run e (meaning u (OpKey (input_key_of k))) = ed_run e (event_edits (KeyMsg k)).
Proof.
  intros (_ & _ & Ln & Ha).
  assert (Hb' : forall c, In c (brings (KeyMsg k)) -> (fun c => A [c]) c) by (intros c; apply Ha).
  destruct (msg_alike u (fun c => A [c]) (KeyMsg k) alone Hb' e) as [E _]. cbn [op_of flat_map] in E. rewrite app_nil_r in E. rewrite E. f_equal.
  destruct k as [ty rs alt paste]. cbn [presses k_runes] in *. destruct ((ty =? KeyRunes) && negb paste) eqn:Er; [|cbn [flat_map]; apply app_nil_r].
  apply andb_prop in Er. destruct Er as [Er _]. apply Z.eqb_eq in Er. subst ty. cbn [event_edits]. change ((KeyRunes =? KeyRunes) || (KeyRunes =? KeySpace)) with true. cbn iota.
  destruct rs as [|c [|c' rs]]; [reflexivity|reflexivity|cbn in Ln; lia].
Qed.
Lemma run_in os : forall e c, In c (ed_clusters (ed_run e os)) -> In c (ed_clusters e) \/ exists cs, In (Type_ cs) os /\ In c cs.
Proof.
  induction os as [|o os IH]; intros e c H; [now left|]. unfold ed_run in *. cbn [fold_left] in H. destruct (IH _ _ H) as [H'|(cs & I & J)].
  - destruct (step_in e o c H') as [?|(cs & -> & J)]; [now left|right]. exists cs. split; [now left|exact J].
  - right. exists cs. split; [now right|exact J].
Qed.
Lemma key_step s e d s' b : 1 <= max_w -> kept s e -> keystroke A d -> try_update u s d = Ret (s', b) -> fine s' (ed_run e (event_edits d)).
Proof.
  intros Hm Kp K E. destruct d as [k| | | | |]; try (cbn [try_update] in E; injection E as <- _; apply kept_fine; [lia|exact Kp]).
  destruct Kp as (V & S & I). cbn [try_update] in E. assert (D : is_do u s (OpKey (input_key_of k)) = Ret s') by (cbn [is_do]; rewrite E; reflexivity).
  assert (G : gentle u max_w (OpKey (input_key_of k))).
  { destruct K as (K1 & K2 & Kl & Ka).
    assert (T : (length (clusters u (k_runes k)) <= 1)%nat /\ forall c, In c (clusters u (k_runes k)) -> string_width u c <= max_w).
    { rewrite alone by exact Ka. rewrite map_length. split; [exact Kl|]. intros c Ic. apply in_map_iff in Ic. destruct Ic as (r & <- & Ic). rewrite width_in_A by auto. lia. }
    unfold input_key_of. destruct (Z.eqb_spec (k_type k) KeyCtrlE) as [Y|_]; [contradiction|].
    repeat match goal with |- context [if ?x then _ else _] => destruct x; [first [exact Logic.I|exact T]|] end. exact Logic.I. }
  destruct (step_near u max_w s e _ s' Hu ltac:(lia) V G D) as (R & _ & N). rewrite no_words, key_edits in R by (try exact K; apply K).
  split; [exact R|]. split; [rewrite <- S; eapply do_show; [exact D|discriminate|exists e; apply V]|]. split; [|exact N].
  intros c Ic. rewrite (proj1 R) in Ic. apply run_in in Ic. destruct Ic as [Ic|(cs & J & Ic)]; [apply I; rewrite (proj1 (proj1 V)); exact Ic|].
  destruct K as (_ & _ & _ & Ka). destruct k as [ty rs alt paste]. cbn [event_edits k_runes] in *. destruct ((ty =? KeyRunes) || (ty =? KeySpace)).
  - apply in_map_iff in J. destruct J as (r & Er & J). injection Er as <-. destruct Ic as [<-|[]]. auto.
  - repeat match type of J with context [if ?x then _ else _] => destruct x; [destruct J as [J|[]]; discriminate|] end. destruct J.
Qed.
(** Drawing the input in a frame. *)
Lemma field_renders m e w h b : fine (text_of m) e -> 0 <= w -> 0 <= h -> there (w, h) -> before m (new_rect w h) (blank (new_rect w h)) = Ret b -> wf_buffer b -> barea b = new_rect w h ->
  let area := place (new_rect w h) in let row := field_row row_of i place (w, h) in
  exists b0 b' s' f l, (let! b1 := buffer_set_style b area (ip_style i) in opt_block_render u (ip_block i) area b1) = Ret b0 /\
    input_render u row_of i area b (text_of m) = Ret (b', s') /\ s' = text_of (redrawn m (w, h)) /\ kept s' e /\
    (ed_clusters e <> [] -> 0 <= f <= zlen (ed_before e) /\ zlen (ed_before e) <= l <= zlen (ed_clusters e) /\ f < l /\ cells_width u (field_cells u i (ed_clusters e) (zlen (ed_before e)) true f l) <= width) /\
    let cells := field_cells u i (ed_clusters e) (zlen (ed_before e)) true f l in
    (forall p, py p = ry row -> rx row <= px p < rx row + rw row -> look b' p = option_map (field_cell u (ip_align i) cells (rw row) (px p - rx row)) (look b0 p)) /\
    (forall p, ~ (py p = ry row /\ rx row <= px p < rx row + rw row) -> look b' p = look b0 p).
Proof.
  intros (R & S & I & V) Zw Zh (Az & R1 & R2 & R3 & R4) Bf W Ab area row. cbn [fst snd] in R4.
  destruct (Hp (new_rect w h) (conj Zw Zh) ltac:(cbn; lia)) as (P1 & P2 & P3). fold area in P1, P2, P3, R4.
  assert (Hpad : opt_padded (ip_block i)) by (destruct (ip_block i); [now apply Hr|exact Logic.I]).
  assert (Hin : forall p, inside p area -> inside p (barea b)) by (now rewrite Ab).
  assert (Hprompt : forall g, In g (clusters u (ip_prompt i)) -> 1 <= cwidth u g /\ existsb is_control g = false) by (intros g J; destruct (seen_in_A g (Hpr g J)) as [[Q _] Q']; auto).
  assert (Hsp1 : clusters u [32%N] = [[32%N]]). { pose proof (al_apart u A HA [space]) as Q. cbn [concat app space] in Q. apply Q. intros s [<-|[]]. apply (al_space u A HA). }
  assert (Hsp2 : cwidth u [32%N] = 1) by (apply (al_one u A HA), (al_space u A HA)).
  assert (Erow : row_of (opt_block_inner (ip_block i) area) = row) by reflexivity. fold row in R1, R2, R4.
  pose proof (sw_nonneg u (ip_prompt i) Hu) as Hsw.
  destruct (list_eq_dec (list_eq_dec N.eq_dec) (is_text (text_of m)) []) as [Et|Et].
  - assert (Ec : is_cursor (text_of m) = 0).
    { destruct R as [T1 C1]. rewrite C1. rewrite Et in T1. unfold ed_clusters in T1. symmetry in T1. apply app_eq_nil in T1. destruct T1 as [T1 _]. apply (f_equal (@rev _)) in T1. rewrite rev_involutive in T1. rewrite T1. reflexivity. }
    destruct (C99_placeholder u row_of i area b (text_of m) Hu W P1 P2 Hpad Hin R4 R2 Hprompt Hsp1 Hsp2) as (b0 & b' & B1 & B2 & B3 & B4); auto.
    + rewrite Erow. lia.
    + apply (al_apart u A HA). exact Hpl.
    + intros g J. destruct (seen_in_A g (Hpl g J)) as [[Q _] Q']; auto.
    + exists b0, b', (IState 0 true [] 0), 0, 0. rewrite S in B2, B3. split; [exact B1|]. split; [exact B2|]. split; [symmetry; eapply (hf_drawn _ _ _ _ _ _ _ _ _ _ _ Hf); [exact Az|exact Bf|exact B2]|].
      destruct R as [T1 C1]. rewrite <- T1, <- C1, Et, Ec. split.
      * split; [|split; [reflexivity|intros c []]]. split; [split; [exact (eq_trans (eq_sym Et) T1)|exact (eq_trans (eq_sym Ec) C1)]|]. split; [intros c []|left; auto].
      * split; [intros Q; now destruct Q|]. rewrite Erow in B3, B4. auto.
  - destruct V as [V|V]; [contradiction|].
    assert (Hst' : clusters u (is_string (text_of m)) = is_text (text_of m)) by (apply (al_apart u A HA); exact I).
    destruct (C99_text u row_of i area b (text_of m) Hu W P1 P2 Hpad Hin R4 R2 Hprompt Hsp1 Hsp2) as (b0 & b' & f & l & B1 & B2 & F1 & F2 & F3 & Cw & B3 & B4); auto.
    + rewrite Erow, R1. lia.
    + rewrite Erow, R1. exact V.
    + intros g J. destruct (seen_in_A g (I g J)) as [Q Q']. rewrite Erow, R1. split; [lia|exact Q'].
    + exists b0, b', (IState (is_cursor (text_of m)) (is_show (text_of m)) (is_text (text_of m)) f), f, l. split; [exact B1|]. split; [exact B2|]. split; [symmetry; eapply (hf_drawn _ _ _ _ _ _ _ _ _ _ _ Hf); [exact Az|exact Bf|exact B2]|].
      assert (Ws : forall c, In c (is_text (text_of m)) -> string_width u c <= max_w) by (intros c J; rewrite width_in_A by auto; unfold max_w; lia).
      destruct (line_of_returns u i width (text_of m) Hu ltac:(lia) Et V Ws) as (ln & f' & El & G1 & G2 & G3).
      assert (Ef : f' = f).
      { unfold input_render in B2. destruct (buffer_set_style b area (ip_style i)) as [b1|]; [|discriminate]. cbn [bind] in B2. destruct (opt_block_render u (ip_block i) area b1) as [b2|]; [|discriminate]. cbn [bind] in B2.
        rewrite Erow, R1, El in B2. cbn [bind] in B2. destruct (line_render u ln row b2); [|discriminate]. cbn [bind] in B2. now injection B2. }
      subst f'. rewrite S in *. rewrite Erow in B3, B4, Cw. destruct R as [T1 C1]. split.
      * split; [|split; [reflexivity|exact I]]. split; [split; assumption|]. split; [exact Ws|]. cbn [is_cursor is_offset is_text]. fold max_w in G3. destruct (Z.eq_dec (is_cursor (text_of m)) 0); [left; lia|right; split; [lia|exact G3]].
      * rewrite <- T1, <- C1. split; [intros _; rewrite <- R1; auto|]. auto.
Qed.
Lemma entered tk : forall m size coming m' z e, 1 <= max_w -> fine (text_of m) e ->
  (forall w k, In (w, MUser k) tk -> (k < length ds)%nat -> exists j, w = WInput j) -> (forall k x, In (WInput k, x) tk -> nth_error (numbered ds) k = Some x) ->
  (forall w h, In (w, h) (size :: coming) -> 0 <= w /\ 0 <= h /\ there (w, h)) ->
  lived update redrawn m size (filter for_model (map snd tk)) coming = Some (m', z) -> fine (text_of m') (ed_run e (flat_map event_edits (read_from ds tk))).
Proof.
  induction tk as [|[w x] tk IH]; intros m size coming m' z e Hm G H1 H2 H3 E; [cbn in E; injection E as <- _; exact G|].
  assert (I1 : forall w k, In (w, MUser k) tk -> (k < length ds)%nat -> exists j, w = WInput j) by (intros; eapply H1; [right; eassumption|assumption]). assert (I2 : forall k x, In (WInput k, x) tk -> nth_error (numbered ds) k = Some x) by (intros; apply H2; now right).
  cbn [map snd filter] in E. unfold read_from. cbn [flat_map]. rewrite flat_map_app, run_app. fold (read_from ds tk).
  destruct size as [sw sh]. destruct (H3 sw sh (or_introl eq_refl)) as (Z1 & Z2 & Rm). destruct (placed_returns u te A He HA (before m) (Hb m) (new_rect sw sh) (blank (new_rect sw sh)) (wf_blank sw sh Z1 Z2)) as (b1 & E1 & W1 & A1); [now split|cbn; lia|auto|]. destruct (field_renders m e sw sh b1 G Z1 Z2 Rm E1 W1 A1) as (_ & _ & s' & _ & _ & _ & _ & -> & Kp & _).
  assert (Sz : forall size' coming', next_size x (sw, sh) coming = (size', coming') -> forall w h, In (w, h) (size' :: coming') -> 0 <= w /\ 0 <= h /\ there (w, h)).
  { intros size' coming' Nx a b I. apply H3. unfold next_size in Nx. destruct x; try (injection Nx as <- <-; exact I). destruct coming as [|c r]; injection Nx as <- <-; [exact I|now right]. }
  assert (Other : (forall k, x = MUser k -> (length ds <= k)%nat) -> fine (text_of m') (ed_run e (flat_map event_edits (read_from ds tk)))).
  { intros Ot. destruct (for_model x) eqn:Fm; [|eapply IH; eassumption]. cbn [lived] in E. destruct (update (redrawn m (sw, sh)) x) as [[m1 c]|] eqn:Eu; [|discriminate]. destruct (next_size x (sw, sh) coming) as [size' coming'] eqn:Nx.
    eapply IH; [exact Hm| |exact I1|exact I2|exact (Sz _ _ eq_refl)|exact E]. rewrite (hf_other _ _ _ _ _ _ _ _ _ _ _ Hf _ _ _ _ Ot Eu). apply kept_fine; [lia|exact Kp]. }
  destruct w as [k| | |].
  - pose proof (H2 k x (or_introl eq_refl)) as Hx. apply numbered_at in Hx. destruct Hx as [-> Lk]. cbn [for_model lived] in E. destruct (update (redrawn m (sw, sh)) (MUser k)) as [[m1 c]|] eqn:Eu; [|discriminate]. cbn [next_size] in E.
    destruct (nth_error ds k) as [d|] eqn:Ed; [|apply nth_error_None in Ed; lia]. cbn [flat_map]. rewrite app_nil_r. eapply IH; [exact Hm| |exact I1|exact I2|exact H3|exact E].
    destruct (hf_key _ _ _ _ _ _ _ _ _ _ _ Hf _ _ _ _ _ Ed Eu) as (b & Eb). eapply key_step; [exact Hm|exact Kp| |exact Eb]. apply Hone. eapply nth_error_In; exact Ed.
  - apply Other. intros k ->. destruct (Nat.le_gt_cases (length ds) k) as [L|L]; [exact L|]. destruct (H1 _ k (or_introl eq_refl) L) as [? Y]; discriminate.
  - apply Other. intros k ->. destruct (Nat.le_gt_cases (length ds) k) as [L|L]; [exact L|]. destruct (H1 _ k (or_introl eq_refl) L) as [? Y]; discriminate.
  - apply Other. intros k ->. destruct (Nat.le_gt_cases (length ds) k) as [L|L]; [exact L|]. destruct (H1 _ k (or_introl eq_refl) L) as [? Y]; discriminate.
Qed.
Lemma field_view m e w h : fine (text_of m) e -> 0 <= w -> 0 <= h -> there (w, h) ->
  exists b, view m (new_rect w h) (blank (new_rect w h)) = Ret b /\ barea b = new_rect w h /\ frame_ok u te b.
Proof.
  intros Fi Zw Zh Rm. rewrite (hf_view _ _ _ _ _ _ _ _ _ _ _ Hf m w h (proj1 Rm)).
  destruct (placed_returns u te A He HA (before m) (Hb m) (new_rect w h) (blank (new_rect w h)) (wf_blank w h Zw Zh)) as (b1 & E1 & W1 & A1); [now split|cbn; lia|auto|].
  destruct (field_renders m e w h b1 Fi Zw Zh Rm E1 W1 A1) as (b0 & b' & s' & f & l & _ & Er & _).
  assert (E : (let! b := before m (new_rect w h) (blank (new_rect w h)) in let! (b, _) := input_render u row_of i (place (new_rect w h)) b (text_of m) in Ret b) = Ret b') by (rewrite E1; cbn [bind]; rewrite Er; reflexivity).
  exists b'. split; [exact E|]. refine (C89_frames u te A He HA (fun area b => let! b := before m area b in (fun area b => let! (b, _) := input_render u row_of i (place area) b (text_of m) in Ret b) area b) w h b' _ Zw Zh E).
  apply made_then; [apply placed_made, Hb|]. apply (made_part _ _ _ place (fun area b => let! (b, _) := input_render u row_of i area b (text_of m) in Ret b)). apply made_input; try assumption. apply Fi.
Qed.
(** ** C100: Whenever such a program waits for a message, knowing the terminal's size, the text of its input and its cursor are those of a plain editor after the
    messages read so far, one by one, and the screen shows them: the row of the input shows the prompt, the text - or a stretch of it around the cursor - and the
    cursor, over the background of the input (without text, the placeholder), and everything else is as it was before the input was drawn. *)
Theorem C100_shown_partial t0 s h v : t_attr t0 = default_attr -> 0 <= t_w t0 -> 0 <= t_h t0 -> text_of m0 = new_input_state ->
  S_Joint.together (Live m0 (t_w t0, t_h t0) (resizes h)) init_cmd (live_update update redrawn) (numbered ds) (live_view view) s h -> sizes_ok h ->
  st_main s = PLoop v -> told (t_w t0, t_h t0) true h = true ->
  (forall size, In size ((t_w t0, t_h t0) :: resizes h) -> at_size size) ->
  (forall size, In size ((t_w t0, t_h t0) :: resizes h) -> has_row u row_of i place width size) ->
  (forall w k, In (EAccepted w (MUser k)) (history s) -> (k < length ds)%nat -> exists j, w = WInput j) ->
  let size := final_size (t_w t0, t_h t0) h in let frame := new_rect (fst size) (snd size) in
  let row := field_row row_of i place size in
  exists k, (k <= length ds)%nat /\ from_reader (history s) = firstn k (numbered ds) /\
  let e := edited (firstn k ds) in
  is_text (text_of (lv_model v)) = ed_clusters e /\ is_cursor (text_of (lv_model v)) = zlen (ed_before e) /\
  exists s0 tm t b b0 f l, start u te t0 = Some s0 /\ S_Session.run u te s0 h = Some (tm, t) /\ barea b = frame /\ shows u te (t_cells t) b /\
    (let! b := before (lv_model v) frame (blank frame) in let! b := buffer_set_style b (place frame) (ip_style i) in opt_block_render u (ip_block i) (place frame) b) = Ret b0 /\
    (ed_clusters e <> [] -> 0 <= f <= zlen (ed_before e) /\ zlen (ed_before e) <= l <= zlen (ed_clusters e) /\ f < l /\ cells_width u (field_cells u i (ed_clusters e) (zlen (ed_before e)) true f l) <= width) /\
    let cells := field_cells u i (ed_clusters e) (zlen (ed_before e)) true f l in
    (forall p, py p = ry row -> rx row <= px p < rx row + rw row -> look b p = option_map (field_cell u (ip_align i) cells (rw row) (px p - rx row)) (look b0 p)) /\
    (forall p, ~ (py p = ry row /\ rx row <= px p < rx row + rw row) -> look b p = look b0 p).
Proof.
  intros Ha HW HH E0 T Hs Wt Td Az Rm Own.
  set (v0 := Live m0 (t_w t0, t_h t0) (resizes h)) in *.
  assert (Nz : forall w ht, In (w, ht) ((t_w t0, t_h t0) :: resizes h) -> 0 <= w /\ 0 <= ht /\ there (w, ht)).
  { intros w ht I. assert (0 <= w /\ 0 <= ht); [|split; [tauto|split; [tauto|split; [now apply Az|now apply Rm]]]]. destruct I as [[= <- <-]|I]; [auto|]. unfold resizes in I. apply in_flat_map in I. destruct I as (e & I & J). specialize (Hs e I). destruct e; try contradiction. destruct J as [[= <- <-]|[]]. exact Hs. }
  assert (Hm : 1 <= max_w) by (destruct (Rm _ (or_introl eq_refl)) as (_ & _ & Q & _); unfold max_w; lia).
  assert (F0 : fine (text_of m0) ed_empty). { rewrite E0. split; [split; reflexivity|]. split; [reflexivity|]. split; [intros c []|now left]. }
  assert (Hsp : forall n, clusters u (repeat 32%N n) = repeat [32%N] n). { intros n. rewrite alone by (intros c I; apply repeat_spec in I; subst c; apply (al_space u A HA)). induction n as [|n IH]; [reflexivity|]. cbn [repeat map]. now rewrite IH. }
  destruct (C95_sizes m0 init_cmd update redrawn (numbered ds) view (fun m => exists e, fine (text_of m) e) u te t0 s h v He Hsp) as (Eu & El & _ & s0 & tm & t & b & B1 & B2 & B3 & B4 & B5); auto.
  { now exists ed_empty. }
  { intros m w ht x m' c [e Fi] I E. destruct (Nz w ht I) as (Zw & Zh & Rz). destruct (placed_returns u te A He HA (before m) (Hb m) (new_rect w ht) (blank (new_rect w ht)) (wf_blank w ht Zw Zh)) as (b1 & E1 & W1 & A1); [now split|cbn; lia|auto|]. destruct (field_renders m e w ht b1 Fi Zw Zh Rz E1 W1 A1) as (_ & _ & s' & _ & _ & _ & _ & -> & Kp & _).
    assert (D : (exists k d, x = MUser k /\ nth_error ds k = Some d) \/ forall k, x = MUser k -> (length ds <= k)%nat).
    { destruct x as [| | |k| |]; try (right; intros; discriminate). destruct (nth_error ds k) as [d|] eqn:Ed; [left; eauto|right]. intros j [= <-]. now apply nth_error_None. }
    destruct D as [(k & d & -> & Ed)|Ot].
    - destruct (hf_key _ _ _ _ _ _ _ _ _ _ _ Hf _ _ _ _ _ Ed E) as (bb & Eb). eexists. eapply key_step; [exact Hm|exact Kp| |exact Eb]. apply Hone. eapply nth_error_In; exact Ed.
    - exists e. rewrite (hf_other _ _ _ _ _ _ _ _ _ _ _ Hf _ _ _ _ Ot E). apply kept_fine; [lia|exact Kp]. }
  { intros m w ht [e Fi] I. destruct (Nz w ht I) as (Zw & Zh & Rz). now apply (field_view m e). }
  pose proof (together_reachable _ _ _ _ _ s h T) as R. set (up := live_update update redrawn) in *.
  destruct (C46_reader_order v0 init_cmd up (numbered ds) s R) as (k & K).
  assert (Ln : length (numbered ds) = length ds) by (unfold numbered; now rewrite map_length, seq_length).
  assert (K' : from_reader (history s) = firstn (Nat.min k (length ds)) (numbered ds)) by (rewrite K; destruct (Nat.le_gt_cases k (length ds)); [now rewrite Nat.min_l by lia|rewrite Nat.min_r by lia; rewrite !firstn_all2 by lia; reflexivity]).
  assert (Or : forall k x, In (WInput k, x) (taken (history s)) -> nth_error (numbered ds) k = Some x).
  { intros j x I. unfold taken in I. apply in_flat_map in I. destruct I as (e & I & J). apply in_split in I. destruct I as (h1 & h2 & Eh). destruct e as [| |w y| | | | | |]; try contradiction. destruct J as [J|[]]. injection J as -> ->. exact (C46_origin v0 init_cmd up (numbered ds) s h1 _ _ h2 R Eh). }
  rewrite <- Eu in El.
  pose proof (entered (taken (history s)) m0 (t_w t0, t_h t0) (resizes h) (lv_model v) (final_size (t_w t0, t_h t0) h) ed_empty Hm F0) as Se. specialize (Se ltac:(intros w j I L; apply (Own w j); [|exact L]; unfold taken in I; apply in_flat_map in I; destruct I as (e & I & J); destruct e as [| |w' y| | | | | |]; try contradiction; destruct J as [J|[]]; injection J as -> ->; exact I) Or Nz El).
  destruct (final_size (t_w t0, t_h t0) h) as [W H] eqn:Fz. cbn [fst snd].
  exists (Nat.min k (length ds)). split; [lia|]. split; [exact K'|].
  rewrite (read_reader ds (history s) Or _ (Nat.le_min_r _ _) K') in Se. fold (edited (firstn (Nat.min k (length ds)) ds)) in Se. set (e := edited (firstn (Nat.min k (length ds)) ds)) in *. split; [apply Se|]. split; [apply Se|].
  (* the frame *)
  assert (Last : (W, H) = last (resizes h) (t_w t0, t_h t0)) by (rewrite <- Fz; symmetry; apply (told_last h _ true); auto).
  assert (Zs : In (W, H) ((t_w t0, t_h t0) :: resizes h)). { rewrite Last. clear. generalize (t_w t0, t_h t0). induction (resizes h) as [|c r IH]; intros d; [now left|]. rewrite last_cons. right. apply IH. }
  destruct (Nz W H Zs) as (ZW & ZH & RmF). cbn zeta beta in B3. rewrite (hf_view _ _ _ _ _ _ _ _ _ _ _ Hf (lv_model v) W H (proj1 RmF)) in B3.
  destruct (placed_returns u te A He HA (before (lv_model v)) (Hb (lv_model v)) (new_rect W H) (blank (new_rect W H)) (wf_blank W H ZW ZH)) as (b1 & E1 & W1 & A1); [now split|cbn; lia|auto|]. rewrite E1 in B3. cbn [bind] in B3.
  destruct (field_renders (lv_model v) e W H b1 Se ZW ZH RmF E1 W1 A1) as (b0 & b' & s' & f & l & D0 & Er & _ & _ & Fl & D1 & D2). rewrite Er in B3. cbn [bind] in B3. injection B3 as <-.
  exists s0, tm, t, b', b0, f, l. split; [exact B1|]. split; [exact B2|]. split; [exact B4|]. split; [exact B5|]. split; [rewrite E1; cbn [bind]; exact D0|]. split; [exact Fl|]. split; [exact D1|exact D2].
Qed.
End Program.
Print Assumptions C100_shown_partial.

(** Texts that always fit. *)
Lemma edits_of_presses d : flat_map event_edits (presses d) = event_edits d.
Proof.
  destruct d as [[ty rs alt paste]| | | | |]; try reflexivity. cbn [presses]. destruct ((ty =? KeyRunes) && negb paste) eqn:Er; [|cbn [flat_map]; apply app_nil_r].
  apply andb_prop in Er. destruct Er as [Er _]. apply Z.eqb_eq in Er. subst ty. cbn [event_edits]. change ((KeyRunes =? KeyRunes) || (KeyRunes =? KeySpace)) with true. cbn iota.
  clear. induction rs as [|c rs IH]; [reflexivity|]. cbn [map flat_map]. rewrite IH. reflexivity.
Qed.
Section Whole.
Context {M : Type}.
Variables (u : uniseg) (te : termenv) (A : str -> Prop).
Hypothesis (He : env_ok u te) (HA : alphabet u A).
Variable m0 : M.
Variable init_cmd : option cmd.
Variable update : M -> M_Cmd.msg -> option (M * option cmd).
Variable redrawn : M -> Z * Z -> M.
Variable view : M -> widget.
Variable ds : list M_Decode.msg.
Variable row_of : rect -> rect.
Variable i : input.
Variable place : rect -> rect.
Variable before : M -> widget.
Variable text_of : M -> input_state.
Variable at_size : Z * Z -> Prop.
Hypothesis Hf : has_field u ds row_of i place before text_of at_size update redrawn view.
Hypothesis (Hk : boxed_drawn u te A (ip_block i)) (Hr : roomy (ip_block i)) (Hst : showable te (ip_style i)) (Hps : showable te (ip_placeholder_style i)) (Hcs : showable te (ip_cursor_style i))
  (Hprs : showable te (ip_prompt_style i)) (Hpr : S_Frame.drawn u A (ip_prompt i)) (Hpl : forall c, In c (ip_placeholder i) -> A c) (Hp : part_of place) (Hb : forall m, placed u te A (before m)).
(** Any messages whose characters can be drawn: keys, pastes, Ctrl+E. No word is erased back to the start of the text (C25). *)
Hypothesis Hch : forall d c, In d ds -> In c (brings d) -> A [c].
Hypothesis Hwords : words_inside ed_empty (flat_map event_edits ds).
Let Hu := env_uniseg _ _ He.
Let there' (n : Z) (size : Z * Z) : Prop := at_size size /\ fits_row u row_of i place n size.

Definition resting (s : input_state) (e : editor) : Prop := represents s e /\ is_show s = true /\ (forall c, In c (is_text s) -> A c) /\ is_offset s = 0.
Lemma rest_step s e d s' b : resting s e -> (forall c, In c (brings d) -> A [c]) -> words_inside e (event_edits d) -> try_update u s d = Ret (s', b) -> resting s' (ed_run e (event_edits d)).
Proof.
  intros (R & S & I & O) Ha Hw E. destruct d as [k| | | | |]; try (cbn [try_update] in E; injection E as <- _; exact (conj R (conj S (conj I O)))).
  cbn [try_update] in E. assert (D : is_do u s (OpKey (input_key_of k)) = Ret s') by (cbn [is_do]; rewrite E; reflexivity).
  destruct (op_ok u s e (OpKey (input_key_of k)) R) as (s1 & E1 & R1). rewrite D in E1. injection E1 as <-.
  destruct (msg_alike u (fun c => A [c]) (KeyMsg k) (alone u A HA) Ha e) as [Al Wd]. cbn [op_of flat_map] in Al, Wd. rewrite app_nil_r in Al, Wd. pose proof (edits_of_presses (KeyMsg k)) as Ep. rewrite Ep in Al, Wd.
  assert (Ne : forall g, A g -> g <> []). { intros g G. pose proof (al_apart u A HA [g]) as Q. cbn [concat] in Q. rewrite app_nil_r in Q. apply (clusters_nonempty u Hu g). rewrite Q by (intros x [<-|[]]; exact G). now left. }
  assert (Nm : no_marks e) by (intros c Ic; apply Ne, I; now rewrite (proj1 R)).
  rewrite (plain_run _ e Nm) in R1; [|intros cs Ic c Jc|apply Wd; exact Hw].
  2: { unfold input_key_of in Ic. repeat match type of Ic with context [if ?x then _ else _] => destruct x; [cbn [meaning] in Ic; try (destruct Ic as [Ic|[]]; try discriminate; injection Ic as <-; now apply (clusters_nonempty u Hu) in Jc); try destruct Ic|] end. destruct Ic. }
  rewrite Al in R1. split; [exact R1|]. split; [rewrite <- S; eapply do_show; [exact D|discriminate|now exists e]|]. split.
  - intros c Ic. rewrite (proj1 R1) in Ic. apply run_in in Ic. destruct Ic as [Ic|(cs & J & Ic)]; [apply I; rewrite (proj1 R); exact Ic|].
    destruct k as [ty rs alt paste]. cbn [event_edits brings k_runes] in *. destruct ((ty =? KeyRunes) || (ty =? KeySpace)).
    + apply in_map_iff in J. destruct J as (r & Er & J). injection Er as <-. destruct Ic as [<-|[]]. auto.
    + repeat match type of J with context [if ?x then _ else _] => destruct x; [destruct J as [J|[]]; discriminate|] end. destruct J.
  - destruct (is_do_offset u s e _ s' R D) as [Q|[Q _]]; congruence.
Qed.
(** Drawing the input in a frame with room for all of its text. *)
Lemma whole_renders m e w h b : resting (text_of m) e -> 0 <= w -> 0 <= h -> there' (zlen (ed_clusters e)) (w, h) -> before m (new_rect w h) (blank (new_rect w h)) = Ret b -> wf_buffer b -> barea b = new_rect w h ->
  let area := place (new_rect w h) in let row := field_row row_of i place (w, h) in
  exists b0 b', (let! b1 := buffer_set_style b area (ip_style i) in opt_block_render u (ip_block i) area b1) = Ret b0 /\
    input_render u row_of i area b (text_of m) = Ret (b', text_of (redrawn m (w, h))) /\ resting (text_of (redrawn m (w, h))) e /\
    let cells := field_cells u i (ed_clusters e) (zlen (ed_before e)) true 0 (zlen (ed_clusters e)) in
    (forall p, py p = ry row -> rx row <= px p < rx row + rw row -> look b' p = option_map (field_cell u (ip_align i) cells (rw row) (px p - rx row)) (look b0 p)) /\
    (forall p, ~ (py p = ry row /\ rx row <= px p < rx row + rw row) -> look b' p = look b0 p).
Proof.
  intros (R & S & I & O) Zw Zh (Az & R2 & R3 & R4) Bf W Ab area row. cbn [fst snd] in R4.
  destruct (Hp (new_rect w h) (conj Zw Zh) ltac:(cbn; lia)) as (P1 & P2 & P3). fold area in P1, P2, P3, R4.
  assert (Hpad : opt_padded (ip_block i)) by (destruct (ip_block i); [now apply Hr|exact Logic.I]).
  assert (Hin : forall p, inside p area -> inside p (barea b)) by (now rewrite Ab).
  assert (Hprompt : forall g, In g (clusters u (ip_prompt i)) -> 1 <= cwidth u g /\ existsb is_control g = false) by (intros g J; destruct (seen_in_A u A HA i 0 g (Hpr g J)) as [[Q _] Q']; auto).
  assert (Hsp1 : clusters u [32%N] = [[32%N]]). { pose proof (al_apart u A HA [space]) as Q. cbn [concat app space] in Q. apply Q. intros s [<-|[]]. apply (al_space u A HA). }
  assert (Hsp2 : cwidth u [32%N] = 1) by (apply (al_one u A HA), (al_space u A HA)).
  assert (Erow : row_of (opt_block_inner (ip_block i) area) = row) by reflexivity. fold row in R2, R3, R4.
  pose proof (sw_nonneg u (ip_prompt i) Hu) as Hsw. pose proof (zlen_nonneg (ed_clusters e)) as Hn.
  assert (Ec : 0 <= is_cursor (text_of m) <= zlen (is_text (text_of m))).
  { destruct R as [T1 C1]. rewrite C1, T1. unfold ed_clusters. rewrite zlen_app, zlen_rev. pose proof (zlen_nonneg (ed_before e)). pose proof (zlen_nonneg (ed_after e)). lia. }
  assert (Same : forall b' s', input_render u row_of i area b (text_of m) = Ret (b', s') -> s' = text_of (redrawn m (w, h))) by (intros b' s' Er; symmetry; eapply (hf_drawn _ _ _ _ _ _ _ _ _ _ _ Hf); [exact Az|exact Bf|exact Er]).
  destruct (list_eq_dec (list_eq_dec N.eq_dec) (is_text (text_of m)) []) as [Et|Et].
  - assert (Ec0 : is_cursor (text_of m) = 0) by (assert (Zt : @zlen str (is_text (text_of m)) = 0) by (rewrite Et; reflexivity); lia).
    destruct (C99_placeholder u row_of i area b (text_of m) Hu W P1 P2 Hpad Hin R4 R2 Hprompt Hsp1 Hsp2) as (b0 & b' & B1 & B2 & B3 & B4); auto.
    + rewrite Erow. lia.
    + apply (al_apart u A HA). exact Hpl.
    + intros g J. destruct (seen_in_A u A HA i 0 g (Hpl g J)) as [[Q _] Q']; auto.
    + rewrite S in B2, B3. pose proof (Same _ _ B2) as Es. exists b0, b'. split; [exact B1|]. split; [rewrite <- Es; exact B2|].
      destruct R as [T1 C1]. assert (Tn : ed_clusters e = []) by (now rewrite <- T1). rewrite <- Es. split.
      * split; [split; cbn [is_text is_cursor]; [now rewrite Tn|now rewrite <- C1, Ec0]|]. split; [reflexivity|]. split; [intros c []|reflexivity].
      * rewrite <- C1, Ec0, Tn. change (zlen (@nil str)) with 0. rewrite Erow in B3, B4. auto.
  - assert (Hst' : clusters u (is_string (text_of m)) = is_text (text_of m)) by (apply (al_apart u A HA); exact I).
    assert (Wd : widths u (is_text (text_of m)) = zlen (is_text (text_of m))).
    { clear - I HA. unfold widths. induction (is_text (text_of m)) as [|g r IH]; [reflexivity|]. cbn [map]. rewrite zsum_cons, zlen_cons, IH by (intros c J; apply I; now right). rewrite (al_one u A HA g (I g (or_introl eq_refl))). lia. }
    destruct (C99_fits u row_of i area b (text_of m) Hu W P1 P2 Hpad Hin R4 R2 Hprompt Hsp1 Hsp2) as (b0 & b' & B1 & B2 & _ & B3 & B4); auto.
    + intros g J. destruct (seen_in_A u A HA i 0 g (I g J)) as [[Q _] Q']; auto.
    + rewrite Wd, (proj1 R), Erow. lia.
    + pose proof (Same _ _ B2) as Es. exists b0, b'. split; [exact B1|]. split; [rewrite <- Es; exact B2|]. rewrite <- Es. split; [exact (conj R (conj S (conj I O)))|].
      destruct R as [T1 C1]. rewrite <- T1, <- C1. rewrite S in B3. rewrite Erow in B3, B4. auto.
Qed.
Lemma whole_entered tk : forall m size coming m' z done rest, ds = done ++ read_from ds tk ++ rest -> resting (text_of m) (edited done) ->
  (forall w k, In (w, MUser k) tk -> (k < length ds)%nat -> exists j, w = WInput j) -> (forall k x, In (WInput k, x) tk -> nth_error (numbered ds) k = Some x) ->
  (forall w h, In (w, h) (size :: coming) -> 0 <= w /\ 0 <= h /\ forall k, there' (zlen (ed_clusters (edited (firstn k ds)))) (w, h)) ->
  lived update redrawn m size (filter for_model (map snd tk)) coming = Some (m', z) -> resting (text_of m') (edited (done ++ read_from ds tk)).
Proof.
  induction tk as [|[w x] tk IH]; intros m size coming m' z done rest Eds G H1 H2 H3 E; [cbn in E; injection E as <- _; cbn [read_from flat_map]; rewrite app_nil_r; exact G|].
  assert (I1 : forall w k, In (w, MUser k) tk -> (k < length ds)%nat -> exists j, w = WInput j) by (intros; eapply H1; [right; eassumption|assumption]). assert (I2 : forall k x, In (WInput k, x) tk -> nth_error (numbered ds) k = Some x) by (intros; apply H2; now right).
  cbn [map snd filter] in E.
  assert (Fi : forall z, there' (zlen (ed_clusters (edited (firstn (length done) ds)))) z -> there' (zlen (ed_clusters (edited done))) z) by (intros z0; rewrite Eds, firstn_app, firstn_all, Nat.sub_diag; cbn [firstn]; now rewrite app_nil_r).
  destruct size as [sw sh]. destruct (H3 sw sh (or_introl eq_refl)) as (Z1 & Z2 & Rm). destruct (placed_returns u te A He HA (before m) (Hb m) (new_rect sw sh) (blank (new_rect sw sh)) (wf_blank sw sh Z1 Z2)) as (b1 & E1 & W1 & A1); [now split|cbn; lia|auto|]. destruct (whole_renders m (edited done) sw sh b1 G Z1 Z2 (Fi _ (Rm (length done))) E1 W1 A1) as (_ & _ & _ & _ & Kp & _).
  assert (Sz : forall size' coming', next_size x (sw, sh) coming = (size', coming') -> forall w h, In (w, h) (size' :: coming') -> 0 <= w /\ 0 <= h /\ forall k, there' (zlen (ed_clusters (edited (firstn k ds)))) (w, h)).
  { intros size' coming' Nx a b I. apply H3. unfold next_size in Nx. destruct x; try (injection Nx as <- <-; exact I). destruct coming as [|c r]; injection Nx as <- <-; [exact I|now right]. }
  assert (Other : (forall k, x = MUser k -> (length ds <= k)%nat) -> read_from ds ((w, x) :: tk) = read_from ds tk -> resting (text_of m') (edited (done ++ read_from ds ((w, x) :: tk)))).
  { intros Ot Er. rewrite Er in Eds |- *. destruct (for_model x) eqn:Fm; [|exact (IH m (sw, sh) coming m' z done rest Eds G I1 I2 H3 E)]. cbn [lived] in E. destruct (update (redrawn m (sw, sh)) x) as [[m1 c]|] eqn:Eu; [|discriminate]. destruct (next_size x (sw, sh) coming) as [size' coming'] eqn:Nx.
    eapply IH; [exact Eds| |exact I1|exact I2|exact (Sz _ _ eq_refl)|exact E]. rewrite (hf_other _ _ _ _ _ _ _ _ _ _ _ Hf _ _ _ _ Ot Eu). exact Kp. }
  destruct w as [k| | |].
  - pose proof (H2 k x (or_introl eq_refl)) as Hx. apply numbered_at in Hx. destruct Hx as [-> Lk]. cbn [for_model lived] in E. destruct (update (redrawn m (sw, sh)) (MUser k)) as [[m1 c]|] eqn:Eu; [|discriminate]. cbn [next_size] in E.
    unfold read_from in Eds |- *. cbn [flat_map] in Eds |- *. fold (read_from ds tk) in Eds |- *. destruct (nth_error ds k) as [d|] eqn:Ed; [|apply nth_error_None in Ed; lia].
    cbn [app] in Eds |- *. replace (done ++ d :: read_from ds tk) with ((done ++ [d]) ++ read_from ds tk) by (now rewrite <- app_assoc). assert (Eds' : ds = (done ++ [d]) ++ read_from ds tk ++ rest) by (now rewrite <- app_assoc).
    eapply IH; [exact Eds'| |exact I1|exact I2|exact H3|exact E].
    destruct (hf_key _ _ _ _ _ _ _ _ _ _ _ Hf _ _ _ _ _ Ed Eu) as (b & Eb).
    assert (Ee : edited (done ++ [d]) = ed_run (edited done) (event_edits d)) by (unfold edited; rewrite flat_map_app, run_app; cbn [flat_map]; now rewrite app_nil_r). rewrite Ee.
    eapply rest_step; [exact Kp|intros c0; apply Hch; eapply nth_error_In; exact Ed| |exact Eb].
    rewrite Eds', !flat_map_app in Hwords. apply words_app in Hwords. destruct Hwords as [Hw1 _]. apply words_app in Hw1. destruct Hw1 as [_ Hw1]. cbn [flat_map] in Hw1. rewrite app_nil_r in Hw1. exact Hw1.
  - apply Other; [|reflexivity]. intros k ->. destruct (Nat.le_gt_cases (length ds) k) as [L|L]; [exact L|]. destruct (H1 _ k (or_introl eq_refl) L) as [? Y]; discriminate.
  - apply Other; [|reflexivity]. intros k ->. destruct (Nat.le_gt_cases (length ds) k) as [L|L]; [exact L|]. destruct (H1 _ k (or_introl eq_refl) L) as [? Y]; discriminate.
  - apply Other; [|reflexivity]. intros k ->. destruct (Nat.le_gt_cases (length ds) k) as [L|L]; [exact L|]. destruct (H1 _ k (or_introl eq_refl) L) as [? Y]; discriminate.
Qed.
Lemma whole_view m e w h : resting (text_of m) e -> 0 <= w -> 0 <= h -> there' (zlen (ed_clusters e)) (w, h) ->
  exists b, view m (new_rect w h) (blank (new_rect w h)) = Ret b /\ barea b = new_rect w h /\ frame_ok u te b.
Proof.
  intros Fi Zw Zh Rm. rewrite (hf_view _ _ _ _ _ _ _ _ _ _ _ Hf m w h (proj1 Rm)).
  destruct (placed_returns u te A He HA (before m) (Hb m) (new_rect w h) (blank (new_rect w h)) (wf_blank w h Zw Zh)) as (b1 & E1 & W1 & A1); [now split|cbn; lia|auto|].
  destruct (whole_renders m e w h b1 Fi Zw Zh Rm E1 W1 A1) as (b0 & b' & _ & Er & _).
  assert (E : (let! b := before m (new_rect w h) (blank (new_rect w h)) in let! (b, _) := input_render u row_of i (place (new_rect w h)) b (text_of m) in Ret b) = Ret b') by (rewrite E1; cbn [bind]; rewrite Er; reflexivity).
  exists b'. split; [exact E|]. refine (C89_frames u te A He HA (fun area b => let! b := before m area b in (fun area b => let! (b, _) := input_render u row_of i (place area) b (text_of m) in Ret b) area b) w h b' _ Zw Zh E).
  apply made_then; [apply placed_made, Hb|]. apply (made_part _ _ _ place (fun area b => let! (b, _) := input_render u row_of i area b (text_of m) in Ret b)). apply made_input; try assumption. apply Fi.
Qed.
(** The model at every draw and at every wait has been edited by the first messages of the reader. *)
Lemma whole_reached t0 s h v s1 v1 : let v0 := Live m0 (t_w t0, t_h t0) (resizes h) in
  text_of m0 = new_input_state -> S_Joint.together v0 init_cmd (live_update update redrawn) (numbered ds) (live_view view) s h -> st_main s = PLoop v ->
  (forall w h', In (w, h') ((t_w t0, t_h t0) :: resizes h) -> 0 <= w /\ 0 <= h' /\ forall k, there' (zlen (ed_clusters (edited (firstn k ds)))) (w, h')) ->
  (forall w k, In (EAccepted w (MUser k)) (history s) -> (k < length ds)%nat -> exists j, w = WInput j) ->
  M_App.reachable v0 init_cmd (live_update update redrawn) (numbered ds) s1 -> (exists l, st_log s = l ++ st_log s1) -> S_Joint.drawing v0 s1 = Some v1 \/ st_main s1 = PLoop v1 ->
  exists k, (k <= length ds)%nat /\ resting (text_of (lv_model v1)) (edited (firstn k ds)) /\ (st_main s1 = PLoop v1 -> from_reader (history s1) = firstn k (numbered ds)).
Proof.
  intros v0 E0 T Wt Nz Own R (l & L) D. set (up := live_update update redrawn) in *.
  assert (F0 : resting (text_of m0) ed_empty). { rewrite E0. split; [split; reflexivity|]. split; [reflexivity|]. split; [intros c []|reflexivity]. }
  assert (Q : (st_main s1 = PDraw0 /\ v1 = v0) \/ (cur v0 (st_main s1) = Some v1 /\ filter to_model (map snd (acc (st_log s1))) = upd (st_log s1))).
  { pose proof (reach_upd _ _ _ _ _ R) as U. unfold upd_inv in U. cbv zeta in U. destruct D as [D|D].
    - unfold S_Joint.drawing in D. destruct (st_main s1) eqn:Em; try discriminate; injection D as <-; [left; auto|right..]; (split; [reflexivity|]); (destruct U as [U|[[] _]]; exact U).
    - rewrite D in U |- *. right. split; [reflexivity|]. destruct U as [U|[[] _]]; exact U. }
  destruct Q as [[Qm ->]|[Qc Qu]].
  - exists O. split; [lia|]. split; [exact F0|]. rewrite Qm. discriminate.
  - pose proof (reach_model _ _ _ _ _ R v1 Qc) as Em. rewrite <- Qu in Em.
    assert (E1 : taken (history s1) = rev (acc (st_log s1))) by (apply flat_map_rev; intros []; cbn; lia).
    assert (Fr : forall l : list msg, filter to_model (rev l) = rev (filter to_model l)) by (clear; induction l as [|x l IH]; [reflexivity|]; cbn [rev filter]; rewrite filter_app, IH; cbn [filter]; destruct (to_model x); [reflexivity|apply app_nil_r]).
    rewrite <- Fr, <- map_rev, <- E1 in Em. change to_model with for_model in Em.
    assert (Hh : history s = history s1 ++ rev l) by (unfold history; rewrite L; apply rev_app_distr).
    assert (Ct : (length (filter is_size (filter for_model (map snd (taken (history s1))))) <= length (resizes h))%nat).
    { destruct (together_sizes init_cmd update redrawn (numbered ds) view v0 s h T) as [K|K]; [unfold refused in K; rewrite Wt in K; contradiction|]. rewrite K, L. unfold count_sizes. rewrite flat_map_app, app_length.
      assert (Eq : length (filter is_size (filter for_model (map snd (taken (history s1))))) = length (flat_map (fun e => match e with EAccepted _ MSize => [tt] | _ => [] end) (st_log s1))).
      { unfold taken, history. rewrite <- (rev_involutive (st_log s1)) at 2. generalize (rev (st_log s1)). clear.
        intros l. rewrite <- (rev_length (flat_map _ (rev l))). rewrite <- flat_map_rev by (intros []; cbn; try lia; destruct m; cbn; lia). rewrite rev_involutive.
        induction l as [|e l IH]; [reflexivity|]. cbn [flat_map]. rewrite app_length, map_app, filter_app, filter_app, app_length, IH. f_equal. destruct e; try reflexivity. destruct m; reflexivity. }
      rewrite Eq. lia. }
    pose proof (lived_after update redrawn _ m0 (t_w t0, t_h t0) (resizes h) v1 Ct Em) as El.
    destruct (C46_reader_order v0 init_cmd up (numbered ds) s1 R) as (k & K).
    assert (Ln : length (numbered ds) = length ds) by (unfold numbered; now rewrite map_length, seq_length).
    assert (K' : from_reader (history s1) = firstn (Nat.min k (length ds)) (numbered ds)) by (rewrite K; destruct (Nat.le_gt_cases k (length ds)); [now rewrite Nat.min_l by lia|rewrite Nat.min_r by lia; rewrite !firstn_all2 by lia; reflexivity]).
    assert (Or : forall k x, In (WInput k, x) (taken (history s1)) -> nth_error (numbered ds) k = Some x).
    { intros j x I. unfold taken in I. apply in_flat_map in I. destruct I as (e & I & J). apply in_split in I. destruct I as (h1 & h2 & Eh). destruct e as [| |w y| | | | | |]; try contradiction. destruct J as [J|[]]. injection J as -> ->. exact (C46_origin v0 init_cmd up (numbered ds) s1 h1 _ _ h2 R Eh). }
    pose proof (read_reader ds (history s1) Or _ (Nat.le_min_r _ _) K') as Rr.
    exists (Nat.min k (length ds)). split; [lia|]. split; [|intros _; exact K'].
    pose proof (fun c => whole_entered (taken (history s1)) m0 (t_w t0, t_h t0) c (lv_model v1) (lv_size v1) [] (skipn (Nat.min k (length ds)) ds)) as Se. cbn [app] in Se. rewrite Rr in Se. refine (Se _ _ _ _ _ _ El).
    + symmetry. apply firstn_skipn.
    + exact F0.
    + intros w j I Lj. apply (Own w j); [|exact Lj]. rewrite Hh. apply in_or_app. left. unfold taken in I. apply in_flat_map in I. destruct I as (e & I & J). destruct e as [| |w' y| | | | | |]; try contradiction. destruct J as [J|[]]. injection J as -> ->. exact I.
    + exact Or.
    + intros w h' I. apply Nz. destruct I as [I|I]; [now left|right]. rewrite <- (firstn_skipn (length (filter is_size (filter for_model (map snd (taken (history s1)))))) (resizes h)). apply in_or_app. now left.
Qed.
(** Whatever is typed or pasted, on a terminal of any sizes, as long as the text fits: the screen shows all of it. *)
Theorem C100_whole_partial t0 s h v : t_attr t0 = default_attr -> 0 <= t_w t0 -> 0 <= t_h t0 -> text_of m0 = new_input_state ->
  S_Joint.together (Live m0 (t_w t0, t_h t0) (resizes h)) init_cmd (live_update update redrawn) (numbered ds) (live_view view) s h -> sizes_ok h ->
  st_main s = PLoop v -> told (t_w t0, t_h t0) true h = true ->
  (forall size, In size ((t_w t0, t_h t0) :: resizes h) -> at_size size) ->
  (forall size k, In size ((t_w t0, t_h t0) :: resizes h) -> fits_row u row_of i place (zlen (ed_clusters (edited (firstn k ds)))) size) ->
  (forall w k, In (EAccepted w (MUser k)) (history s) -> (k < length ds)%nat -> exists j, w = WInput j) ->
  let size := final_size (t_w t0, t_h t0) h in let frame := new_rect (fst size) (snd size) in
  let row := field_row row_of i place size in
  exists k, (k <= length ds)%nat /\ from_reader (history s) = firstn k (numbered ds) /\
  let e := edited (firstn k ds) in
  is_text (text_of (lv_model v)) = ed_clusters e /\ is_cursor (text_of (lv_model v)) = zlen (ed_before e) /\
  exists s0 tm t b b0, start u te t0 = Some s0 /\ S_Session.run u te s0 h = Some (tm, t) /\ barea b = frame /\ shows u te (t_cells t) b /\
    (let! b := before (lv_model v) frame (blank frame) in let! b := buffer_set_style b (place frame) (ip_style i) in opt_block_render u (ip_block i) (place frame) b) = Ret b0 /\
    let cells := field_cells u i (ed_clusters e) (zlen (ed_before e)) true 0 (zlen (ed_clusters e)) in
    (forall p, py p = ry row -> rx row <= px p < rx row + rw row -> look b p = option_map (field_cell u (ip_align i) cells (rw row) (px p - rx row)) (look b0 p)) /\
    (forall p, ~ (py p = ry row /\ rx row <= px p < rx row + rw row) -> look b p = look b0 p).
Proof.
  intros Ha HW HH E0 T Hs Wt Td Az Rm Own.
  set (v0 := Live m0 (t_w t0, t_h t0) (resizes h)) in *.
  assert (Nz : forall w ht, In (w, ht) ((t_w t0, t_h t0) :: resizes h) -> 0 <= w /\ 0 <= ht /\ forall k, there' (zlen (ed_clusters (edited (firstn k ds)))) (w, ht)).
  { intros w ht I. assert (0 <= w /\ 0 <= ht); [|split; [tauto|split; [tauto|intros k; split; [now apply Az|now apply Rm]]]]. destruct I as [[= <- <-]|I]; [auto|]. unfold resizes in I. apply in_flat_map in I. destruct I as (e & I & J). specialize (Hs e I). destruct e; try contradiction. destruct J as [[= <- <-]|[]]. exact Hs. }
  assert (Hsp : forall n, clusters u (repeat 32%N n) = repeat [32%N] n). { intros n. rewrite (alone u A HA) by (intros c I; apply repeat_spec in I; subst c; apply (al_space u A HA)). induction n as [|n IH]; [reflexivity|]. cbn [repeat map]. now rewrite IH. }
  destruct (C95_reached m0 init_cmd update redrawn (numbered ds) view (fun m => exists k, (k <= length ds)%nat /\ resting (text_of m) (edited (firstn k ds))) u te t0 s h v He Hsp) as (_ & _ & _ & s0 & tm & t & b & B1 & B2 & B3 & B4 & B5); auto.
  { intros s1 v1 R1 L1 D1. destruct (whole_reached t0 s h v s1 v1 E0 T Wt Nz Own R1 L1 D1) as (k & Lk & Q & _). now exists k. }
  { intros m w ht (k & _ & Q) I. destruct (Nz w ht I) as (Zw & Zh & Rz). exact (whole_view m _ w ht Q Zw Zh (Rz k)). }
  pose proof (together_reachable _ _ _ _ _ s h T) as R.
  destruct (whole_reached t0 s h v s v E0 T Wt Nz Own R (ex_intro _ [] eq_refl) (or_intror Wt)) as (k & Lk & Se & K').
  destruct (final_size (t_w t0, t_h t0) h) as [W H] eqn:Fz. cbn [fst snd].
  exists k. split; [exact Lk|]. split; [exact (K' Wt)|]. split; [apply Se|]. split; [apply Se|].
  assert (Last : (W, H) = last (resizes h) (t_w t0, t_h t0)) by (rewrite <- Fz; symmetry; apply (told_last h _ true); auto).
  assert (Zs : In (W, H) ((t_w t0, t_h t0) :: resizes h)). { rewrite Last. clear. generalize (t_w t0, t_h t0). induction (resizes h) as [|c r IH]; intros d; [now left|]. rewrite last_cons. right. apply IH. }
  destruct (Nz W H Zs) as (ZW & ZH & RmF). cbn zeta beta in B3. rewrite (hf_view _ _ _ _ _ _ _ _ _ _ _ Hf (lv_model v) W H (proj1 (RmF k))) in B3.
  destruct (placed_returns u te A He HA (before (lv_model v)) (Hb (lv_model v)) (new_rect W H) (blank (new_rect W H)) (wf_blank W H ZW ZH)) as (b1 & E1 & W1 & A1); [now split|cbn; lia|auto|]. rewrite E1 in B3. cbn [bind] in B3.
  destruct (whole_renders (lv_model v) _ W H b1 Se ZW ZH (RmF k) E1 W1 A1) as (b0 & b' & D0 & Er & _ & D1 & D2). rewrite Er in B3. cbn [bind] in B3. injection B3 as <-.
  exists s0, tm, t, b', b0. split; [exact B1|]. split; [exact B2|]. split; [exact B4|]. split; [exact B5|]. split; [rewrite E1; cbn [bind]; exact D0|]. split; [exact D1|exact D2].
Qed.
End Whole.

(** *** An instance: the user types an h into a program that shows an input and nothing else; the row is the first one of the frame. *)
Definition h_msg : M_Decode.msg := KeyMsg (Key KeyRunes [104%N] false false).
(** The user pastes hi, a message of two characters. *)
Definition hi_msg : M_Decode.msg := KeyMsg (Key KeyRunes [104%N; 105%N] false true).
Definition first_row (r : rect) : rect := Rect (rx r) (ry r) (rw r) (Z.min 1 (rh r)).
Definition typed_update (d : M_Decode.msg) (s : input_state) (x : M_Cmd.msg) : option (input_state * option cmd) :=
  match x with MUser 0 => match try_update simple_uniseg s d with Ret (s', _) => Some (s', None) | Panic => None end | _ => Some (s, None) end.
Definition typed_redrawn (s : input_state) (size : Z * Z) : input_state :=
  match input_render simple_uniseg first_row demo_field (new_rect (fst size) (snd size)) (blank (new_rect (fst size) (snd size))) s with Ret (_, s') => s'
  | Panic => match input_line_of simple_uniseg demo_field (fst size) s with Ret (_, s') => s' | Panic => s end end.
Definition typed_before (s : input_state) : widget := fun _ b => Ret b.
Definition typed_view (s : input_state) : widget := fun area b => let! b := typed_before s area b in let! (b, _) := input_render simple_uniseg first_row demo_field area b s in Ret b.
Definition typed_start : live input_state := Live new_input_state (9, 4) [].
Definition typed_end (s : input_state) : live input_state := Live s (9, 4) [].
Definition one_typed : input_state := IState 1 true [[104%N]] 0.
Definition two_typed : input_state := IState 2 true [[104%N]; [105%N]] 0.
Definition typed_state (z : input_state) : state (live input_state) := State (PLoop (typed_end z)) [GCheck false; GListen; GHandler; GRead 1] false shown_modes 3 [EDraw; EUpdate (MUser 0); EAccepted (WInput 0) (MUser 0); EDraw].
Definition typed_history (z : input_state) : list S_Session.event := [EvDraw (live_view typed_view typed_start); EvDraw (live_view typed_view (typed_end z))].
Lemma typed_together d z : typed_update d (typed_redrawn new_input_state (9, 4)) (MUser 0) = Some (z, None) ->
  together typed_start None (live_update (typed_update d) typed_redrawn) (numbered [d]) (live_view typed_view) (typed_state z) (typed_history z).
Proof.
  intros Eu. set (up := live_update (typed_update d) typed_redrawn). assert (Eup : up typed_start (MUser 0) = Some (typed_end z, None)) by (unfold up, live_update; cbn [typed_start lv_model lv_size lv_coming]; rewrite Eu; reflexivity). set (vw := live_view typed_view).
  assert (B : together typed_start None up (numbered [d]) vw (State PDraw0 [] false shown_modes 1 []) []).
  { apply t_start; [|reflexivity]. eapply steps_step; [|exact (s_init _ typed_start None up (numbered [d]) [] false shown_modes 0 [])].
    eapply steps_step; [|exact (s_setup _ typed_start None up (numbered [d]) (OpAlt true) [] [] false (Modes true true false false) 0 [])].
    eapply steps_step; [|exact (s_setup _ typed_start None up (numbered [d]) (OpHide true) [OpAlt true] [] false (Modes true false false false) 0 [])].
    eapply steps_step; [|exact (s_setup _ typed_start None up (numbered [d]) (OpRaw true) [OpHide true; OpAlt true] [] false plain_modes 0 [])]. apply steps_refl. }
  assert (C : together typed_start None up (numbered [d]) vw (State PReader [] false shown_modes 1 [EDraw]) [EvDraw (vw typed_start)]).
  { apply (t_step _ _ _ _ _ _ _ [] [EvDraw (vw typed_start)] B (s_draw0 _ _ _ _ _ _ _ _ _ _)). apply e_draw; reflexivity. }
  assert (D : together typed_start None up (numbered [d]) vw (State PStart [GRead 0] false shown_modes 1 [EDraw]) [EvDraw (vw typed_start)]).
  { apply (t_step _ _ _ _ _ _ _ _ [] C (s_reader _ _ _ _ _ _ _ _ _ _)). apply e_none; discriminate. }
  assert (E : together typed_start None up (numbered [d]) vw (State (PLoop typed_start) [GCheck false; GListen; GHandler; GRead 0] false shown_modes 1 [EDraw]) [EvDraw (vw typed_start)]).
  { apply (t_step _ _ _ _ _ _ _ _ [] D (s_start _ _ _ _ _ _ _ _ _ _)). apply e_none; discriminate. }
  assert (F : together typed_start None up (numbered [d]) vw (State (PUpdate typed_start (MUser 0)) [GCheck false; GListen; GHandler; GRead 1] false shown_modes 2 [EAccepted (WInput 0) (MUser 0); EDraw]) [EvDraw (vw typed_start)]).
  { apply (t_step _ _ _ _ _ _ _ _ [] E (s_loop_msg _ typed_start None up (numbered [d]) typed_start (GRead 0) (WInput 0) (MUser 0) [GRead 1] [GCheck false; GListen; GHandler] [] false shown_modes 1 [EDraw] (o_input (numbered [d]) 0 (MUser 0) eq_refl) ltac:(discriminate) ltac:(discriminate))). apply e_none; discriminate. }
  assert (G : together typed_start None up (numbered [d]) vw (State (PSendCmd (typed_end z) None) [GCheck false; GListen; GHandler; GRead 1] false shown_modes 3 [EUpdate (MUser 0); EAccepted (WInput 0) (MUser 0); EDraw]) [EvDraw (vw typed_start)]).
  { apply (t_step _ _ _ _ _ _ _ _ [] F (s_update _ typed_start None up (numbered [d]) typed_start (MUser 0) (typed_end z) None [GCheck false; GListen; GHandler; GRead 1] false shown_modes 2 [EAccepted (WInput 0) (MUser 0); EDraw] Eup)). apply e_none; discriminate. }
  assert (K : together typed_start None up (numbered [d]) vw (State (PDraw (typed_end z)) [GCheck false; GListen; GHandler; GRead 1] false shown_modes 3 [EUpdate (MUser 0); EAccepted (WInput 0) (MUser 0); EDraw]) [EvDraw (vw typed_start)]).
  { apply (t_step _ _ _ _ _ _ _ _ [] G (s_send_nil _ typed_start None up (numbered [d]) (typed_end z) [GCheck false; GListen] [GRead 1] false shown_modes 3 [EUpdate (MUser 0); EAccepted (WInput 0) (MUser 0); EDraw])). apply e_none; discriminate. }
  apply (t_step _ _ _ _ _ _ _ _ [EvDraw (vw (typed_end z))] K (s_draw _ _ _ _ _ _ _ _ _ _ _)). apply e_draw; reflexivity.
Qed.
Lemma rendered_state u row_of i area b s b' s' : input_render u row_of i area b s = Ret (b', s') -> exists ln, input_line_of u i (rw (row_of (opt_block_inner (ip_block i) area))) s = Ret (ln, s').
Proof.
  unfold input_render. destruct (buffer_set_style b area (ip_style i)) as [b1|]; [|discriminate]. cbn [bind]. destruct (opt_block_render u (ip_block i) area b1) as [b2|]; [|discriminate]. cbn [bind].
  destruct (input_line_of _ _ _ _) as [[ln s1]|]; [|discriminate]. cbn [bind]. destruct (line_render _ _ _ _); [|discriminate]. cbn [bind]. intros [= _ <-]. now exists ln.
Qed.
Lemma typed_meets d : has_field simple_uniseg [d] first_row demo_field (fun r => r) typed_before (fun s => s) (fun _ => True) (typed_update d) typed_redrawn typed_view.
Proof.
  constructor.
  - intros m n d' m' c Hd E. destruct n as [|[|n]]; try discriminate. injection Hd as <-. unfold typed_update in E. destruct (try_update simple_uniseg m d) as [[s' b]|]; [|discriminate]. injection E as <- _. now exists b.
  - intros m x m' c Ot E. destruct x as [| | |[|k]| |]; cbn in E; try (now injection E as <- _). specialize (Ot 0%nat eq_refl). cbn in Ot. lia.
  - reflexivity.
  - intros m w h b b' s' _ _ E. destruct (rendered_state _ _ _ _ _ _ _ _ E) as (ln & El). unfold typed_redrawn. cbn [fst snd]. destruct (input_render simple_uniseg first_row demo_field (new_rect w h) (blank (new_rect w h)) m) as [[b1 s1]|] eqn:E1.
    + destruct (rendered_state _ _ _ _ _ _ _ _ E1) as (ln1 & El1). rewrite El in El1. now injection El1.
    + change (rw (first_row (opt_block_inner (ip_block demo_field) (new_rect w h)))) with w in El. now rewrite El.
Qed.
Example C100_instance t0 : t_attr t0 = default_attr -> t_w t0 = 9 -> t_h t0 = 4 -> exists s0 tm t b, start simple_uniseg te_id t0 = Some s0 /\ S_Session.run simple_uniseg te_id s0 (typed_history one_typed) = Some (tm, t) /\
  shows simple_uniseg te_id (t_cells t) b /\
  option_map csym (look b (Pos 6 0)) = Some [62%N] /\ option_map csym (look b (Pos 7 0)) = Some [104%N] /\ option_map cmod (look b (Pos 7 0)) = Some 0%N /\
  option_map csym (look b (Pos 8 0)) = Some [32%N] /\ option_map cmod (look b (Pos 8 0)) = Some ModifierReversed.
Proof.
  intros Ha Ew Eh. assert (Sn : showable te_id new_style) by apply showable_new.
  pose proof (C100_shown_partial simple_uniseg te_id T_Frame.letter the_env letter_alphabet new_input_state None (typed_update h_msg) typed_redrawn typed_view [h_msg] first_row demo_field (fun r => r) typed_before (fun s => s) (fun _ => True) (typed_meets h_msg)) as G.
  specialize (G ltac:(discriminate) ltac:(discriminate) Sn). 
  specialize (G ltac:(repeat split; discriminate) ltac:(repeat split; discriminate) Sn ltac:(chars) ltac:(intros c I; vm_compute in I; destruct I as [<-|[<-|[]]]; eexists; split; reflexivity) ltac:(intros area H1 H2; auto) (fun _ => placed_nothing _ _ _)).
  specialize (G ltac:(intros d [<-|[]]; split; [discriminate|]; split; [discriminate|]; split; [cbn; lia|]; intros c [<-|[]]; eexists; split; reflexivity) 9 t0 (typed_state one_typed) (typed_history one_typed) (typed_end one_typed)). rewrite Ew, Eh in G. specialize (G Ha ltac:(lia) ltac:(lia) eq_refl (typed_together h_msg one_typed ltac:(vm_compute; reflexivity))).
  destruct G as (k & _ & K & Et & _ & s0 & tm & t & b & b0 & f & l & B1 & B2 & _ & B3 & B4 & Fl & B5 & _); try reflexivity.
  - intros e [<-|[<-|[]]]; exact Logic.I.
  - intros size [<-|[]]. split; [reflexivity|]. split; [cbn; lia|]. split; [vm_compute; discriminate|]. intros p Hp. cbn in Hp. unfold inside in *. cbn in *. lia.
  - intros w j [E|[E|[E|[E|[]]]]] _; try discriminate. injection E as <- <-. eauto.
  - exists s0, tm, t, b. split; [exact B1|]. split; [exact B2|]. split; [exact B3|]. 
    assert (Ek : firstn k [h_msg] = [h_msg]) by (clear - K; destruct k as [|k]; [discriminate K|now destruct k]). rewrite Ek in Fl, B5. clear K Ek Et B1 B2 B3.
    change (edited [h_msg]) with (Editor [[104%N]] []) in Fl, B5. change (ed_clusters (Editor [[104%N]] [])) with [[104%N]] in Fl, B5. cbn [ed_before] in Fl, B5. specialize (Fl ltac:(discriminate)). change (zlen [[104%N]]) with 1 in Fl, B5. assert (l = 1) by lia. assert (f = 0) by lia. subst f l.
    vm_compute in B4. injection B4 as <-.
    repeat split; rewrite B5 by (cbn; lia); vm_compute; reflexivity.
Qed.
(** Two characters pasted at once: both are shown, and the cursor behind them. *)
Example C100_whole_instance t0 : t_attr t0 = default_attr -> t_w t0 = 9 -> t_h t0 = 4 -> exists s0 tm t b, start simple_uniseg te_id t0 = Some s0 /\ S_Session.run simple_uniseg te_id s0 (typed_history two_typed) = Some (tm, t) /\
  shows simple_uniseg te_id (t_cells t) b /\
  option_map csym (look b (Pos 5 0)) = Some [62%N] /\ option_map csym (look b (Pos 6 0)) = Some [104%N] /\ option_map csym (look b (Pos 7 0)) = Some [105%N] /\
  option_map csym (look b (Pos 8 0)) = Some [32%N] /\ option_map cmod (look b (Pos 8 0)) = Some ModifierReversed.
Proof.
  intros Ha Ew Eh. assert (Sn : showable te_id new_style) by apply showable_new.
  pose proof (C100_whole_partial simple_uniseg te_id T_Frame.letter the_env letter_alphabet new_input_state None (typed_update hi_msg) typed_redrawn typed_view [hi_msg] first_row demo_field (fun r => r) typed_before (fun s => s) (fun _ => True) (typed_meets hi_msg)) as G.
  specialize (G ltac:(discriminate) ltac:(discriminate) Sn). 
  specialize (G ltac:(repeat split; discriminate) ltac:(repeat split; discriminate) Sn ltac:(chars) ltac:(intros c I; vm_compute in I; destruct I as [<-|[<-|[]]]; eexists; split; reflexivity) ltac:(intros area H1 H2; auto) (fun _ => placed_nothing _ _ _)).
  specialize (G ltac:(intros d c [<-|[]] [<-|[<-|[]]]; eexists; split; reflexivity) ltac:(repeat (split; [discriminate|]); exact Logic.I) t0 (typed_state two_typed) (typed_history two_typed) (typed_end two_typed)). rewrite Ew, Eh in G. specialize (G Ha ltac:(lia) ltac:(lia) eq_refl (typed_together hi_msg two_typed ltac:(vm_compute; reflexivity))).
  destruct G as (k & _ & K & Et & _ & s0 & tm & t & b & b0 & B1 & B2 & _ & B3 & B4 & B5 & _); try reflexivity.
  - intros e [<-|[<-|[]]]; exact Logic.I.
  - intros size k [<-|[]]. split; [cbn; lia|]. split; [|intros p Hp; cbn in Hp; unfold inside in *; cbn in *; lia].
    assert (Q : firstn k [hi_msg] = [] \/ firstn k [hi_msg] = [hi_msg]) by (clear; destruct k as [|k]; [now left|right; now destruct k]). destruct Q as [-> | ->]; vm_compute; discriminate.
  - intros w j [E|[E|[E|[E|[]]]]] _; try discriminate. injection E as <- <-. eauto.
  - exists s0, tm, t, b. split; [exact B1|]. split; [exact B2|]. split; [exact B3|]. 
    assert (Ek : firstn k [hi_msg] = [hi_msg]) by (clear - K; destruct k as [|k]; [discriminate K|now destruct k]). rewrite Ek in B5. clear K Ek Et B1 B2 B3.
    change (edited [hi_msg]) with (Editor [[105%N]; [104%N]] []) in B5. change (ed_clusters (Editor [[105%N]; [104%N]] [])) with [[104%N]; [105%N]] in B5. cbn [ed_before] in B5. change (zlen [[104%N]; [105%N]]) with 2 in B5. change (zlen [[105%N]; [104%N]]) with 2 in B5.
    vm_compute in B4. injection B4 as <-.
    repeat split; rewrite B5 by (cbn; lia); vm_compute; reflexivity.
Qed.
Print Assumptions C100_whole_partial.
