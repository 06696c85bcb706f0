(** Theorems about the terminal renderer: C12-C16, C55. *)
From Verif Require Import Base M_Geom S_Geom M_Style M_Uniseg M_Buffer S_Buffer M_Ansi M_Backend S_Terminal S_Ansi S_Display S_Command S_Session
  P_Base T_Geom P_Buffer P_SetString T_Buffer P_Ansi P_Attr P_Draw P_Diff P_Session.
From Coq Require Import ZArith NArith List Bool Lia Sorting.Sorted.
Import ListNotations.
Open Scope Z_scope.

(** ** C12: Buffer.Diff *)

(** [a] comes before [b] in reading order. *)
Definition before (a b : pos) : Prop := py a < py b \/ (py a = py b /\ px a < px b).

(** Writing a list of updates over a buffer's contents. *)
Definition overwrite (base : pos -> option cell) (ups : list (pos * cell)) : pos -> option cell :=
  fold_left (fun f pc => fun q => if pos_eq_dec q (fst pc) then Some (snd pc) else f q) ups base.

Lemma overwrite_notin ups : forall base q, (forall c, ~ In (q, c) ups) -> overwrite base ups q = base q.
Proof.
  induction ups as [|[p c] ups IH]; intros base q H; cbn; [reflexivity|]. unfold overwrite in IH. rewrite IH.
  - destruct (pos_eq_dec q p) as [->|]; auto. exfalso. apply (H c). now left.
  - intros c' Hc. apply (H c'). now right.
Qed.

Lemma overwrite_in ups : forall base q c, (forall c', In (q, c') ups -> c' = c) -> In (q, c) ups -> overwrite base ups q = Some c.
Proof.
  induction ups as [|[p c0] ups IH]; intros base q c Hu Hin; [destruct Hin|]. cbn.
  destruct (in_dec (fun a b : pos => pos_eq_dec a b) q (map fst ups)) as [Hq|Hq].
  - apply in_map_iff in Hq. destruct Hq as ([q' c'] & E & Hq). cbn in E. subst q'.
    apply IH; [intros; apply Hu; now right|]. rewrite <- (Hu c'); [exact Hq|now right].
  - assert (Hno : forall c', ~ In (q, c') ups) by (intros c' Hc; apply Hq; apply in_map_iff; now exists (q, c')).
    change (overwrite (fun q0 => if pos_eq_dec q0 p then Some c0 else base q0) ups q = Some c).
    rewrite overwrite_notin by auto. destruct Hin as [E|Hin]; [|now destruct (Hno c)]. injection E as -> ->.
    destruct (pos_eq_dec q q); congruence.
Qed.

Lemma idx_before r p q : inside p r -> inside q r -> idx r p < idx r q -> before p q.
Proof.
  unfold inside, idx, before. intros [Hpx Hpy] [Hqx Hqy] H.
  destruct (Z.lt_trichotomy (py p) (py q)) as [|[E|E]]; [auto|right; split; [auto|rewrite E in H; lia]|].
  exfalso. assert ((py p - ry r) * rw r >= (py q - ry r + 1) * rw r) by nia. nia.
Qed.

Lemma sorted_before r ups : (forall p c, In (p, c) ups -> inside p r) -> StronglySorted Z.lt (upos r ups) ->
  StronglySorted before (map fst ups).
Proof.
  induction ups as [|[p c] ups IH]; intros Hin Hs; cbn; [constructor|]. inversion Hs as [|a l Hs' Hf]; subst. constructor.
  - apply IH; auto. intros; eapply Hin; right; eauto.
  - apply Forall_forall. intros q Hq. apply in_map_iff in Hq. destruct Hq as ([q' c'] & <- & Hq). cbn.
    apply (idx_before r); [apply (Hin p c); now left|apply (Hin q' c'); now right|].
    rewrite Forall_forall in Hf. apply Hf. apply in_map_iff. now exists (q', c').
Qed.

(** Every cell of the buffer is at most one column wide and not marked to be skipped. *)
Definition one_column (u : uniseg) (b : buffer) : Prop :=
  forall p c, look b p = Some c -> string_width u (csym c) <= 1 /\ cskip c = false.

Theorem C12_diff_exact u prev next : wf_buffer prev -> wf_buffer next -> barea next = barea prev ->
  one_column u prev -> one_column u next ->
  exists ups, diff u prev next = Ret ups /\
    (* exactly the changed cells, with their new contents *)
    (forall p c, In (p, c) ups <-> look next p = Some c /\ look prev p <> Some c) /\
    (* in reading order, without repetition *)
    StronglySorted before (map fst ups) /\
    (* writing them over [prev] gives [next] *)
    (forall p, overwrite (look prev) ups p = look next p).
Proof.
  intros Hp Hn Ha Np Nn. destruct (diff_narrow u prev next Hp Hn Ha Np Nn) as (ups & E & Hs & Hiff).
  exists ups. split; [assumption|]. split; [assumption|].
  assert (Hin : forall p c, In (p, c) ups -> inside p (barea prev)).
  { intros p c H. apply Hiff in H. destruct H as [H _]. apply look_Some_inside in H. now rewrite Ha in H. }
  split; [eapply sorted_before; eauto|]. intros p.
  destruct (in_dec (fun a b : pos => pos_eq_dec a b) p (map fst ups)) as [Hq|Hq].
  - apply in_map_iff in Hq. destruct Hq as ([q c] & Eq & Hq). cbn in Eq. subst q.
    pose proof (proj1 (Hiff p c) Hq) as [Hl _]. rewrite Hl. apply overwrite_in; auto.
    intros c' Hc'. apply Hiff in Hc'. destruct Hc'. congruence.
  - rewrite overwrite_notin by (intros c Hc; apply Hq; apply in_map_iff; now exists (p, c)).
    destruct (look next p) as [c|] eqn:El.
    + destruct (look prev p) as [c'|] eqn:El'.
      * destruct (cell_eqb c c') eqn:Ec; [apply cell_eqb_eq in Ec; congruence|].
        exfalso. apply Hq. apply in_map_iff. exists (p, c). split; [reflexivity|]. apply Hiff. split; [auto|].
        rewrite El'. intros X. injection X as ->. rewrite cell_eqb_refl in Ec. discriminate.
      * exfalso. apply Hq. apply in_map_iff. exists (p, c). split; [reflexivity|]. apply Hiff. rewrite El'. split; [auto|discriminate].
    + destruct (look prev p) as [c'|] eqn:El'; [|reflexivity].
      apply look_Some_inside in El'. rewrite <- Ha in El'. destruct (look_inside next p Hn El') as [c Hc]. congruence.
Qed.
Print Assumptions C12_diff_exact.

(** For any buffers (wide or skipped cells included): no panic, updates are cells of the new buffer, in reading order. *)
Theorem C12_diff_any u prev next : wf_buffer prev -> wf_buffer next -> barea next = barea prev ->
  exists ups, diff u prev next = Ret ups /\
    (forall p c, In (p, c) ups -> look next p = Some c) /\ StronglySorted before (map fst ups).
Proof.
  intros Hp Hn Ha. destruct (diff_basic u prev next Hp Hn Ha) as (ups & E & Hin & Hs).
  exists ups. split; [auto|]. split; [intros p c H; now apply Hin|]. eapply sorted_before; [|exact Hs]. intros p c H; now apply (Hin p c).
Qed.
Print Assumptions C12_diff_any.

Definition demo_prev := Buf (Rect 0 0 3 1) [new_cell [97%N]; new_cell [98%N]; new_cell [99%N]].
Definition demo_next := Buf (Rect 0 0 3 1) [new_cell [97%N]; new_cell [120%N]; new_cell [99%N]].
Example C12_instance : wf_buffer demo_prev /\ wf_buffer demo_next /\ one_column simple_uniseg demo_prev /\ one_column simple_uniseg demo_next /\
  diff simple_uniseg demo_prev demo_next = Ret [(Pos 1 0, new_cell [120%N])].
Proof.
  split; [split; [split; cbn; lia|reflexivity]|]. split; [split; [split; cbn; lia|reflexivity]|].
  assert (G : forall b, (forall c, In c (bcells b) -> string_width simple_uniseg (csym c) <= 1 /\ cskip c = false) -> one_column simple_uniseg b).
  { intros b H p c Hl. apply H. pose proof (look_Some_inside _ _ _ Hl) as Hi. rewrite look_inside_eq in Hl by auto. now apply nth_error_In in Hl. }
  split; [|split; [|vm_compute; reflexivity]]; apply G; intros c [<-|[<-|[<-|[]]]]; split; vm_compute; congruence.
Qed.

(** ** C14: attributes are back at their defaults after a draw *)

Lemma regroup_last u run l p ps f : exists x, regroup u run (l ++ [PCsi p ps f]) = x ++ [TCsi p ps f] ++ map TText (clusters u []).
Proof.
  revert run; induction l as [|k l IH]; intros run; cbn [app regroup].
  - exists (map TText (clusters u run)). reflexivity.
  - destruct k as [r|p' ps' f']; [apply IH|]. destruct (IH []) as [x E]. rewrite E.
    exists (map TText (clusters u run) ++ TCsi p' ps' f' :: x). now rewrite <- app_assoc.
Qed.

Theorem C14_draw_restores_attributes u te t l : uniseg_ok u ->
  (forall p c, In (p, c) l -> 0 <= px p /\ 0 <= py p /\ plain (csym c) /\ conv te (cfg c) <> None /\ conv te (cbg c) <> None) ->
  exists s t', write_all te (backend_draw te l) = Ret s /\ receive u t s = Some t' /\ t_attr t' = default_attr.
Proof.
  intros Hu H. destruct (write_all_parse te (backend_draw te l) (backend_draw_ok te l H)) as (s & E & Hp).
  exists s. eexists. split; [exact E|]. unfold receive. rewrite Hp. split; [reflexivity|].
  unfold backend_draw. rewrite flat_map_app. cbn [flat_map app].
  match goal with |- context [?A ++ ?B ++ ?C ++ []] => rewrite (app_nil_r C) end.
  rewrite app_assoc. cbn [command_ptoks].
  match goal with |- context [regroup u [] (?A ++ [PCsi ?p ?ps ?f])] => destruct (regroup_last u [] A p ps f) as [x ->] end.
  assert (N : clusters u [] = []).
  { destruct (clusters u []) as [|c cl] eqn:Ec; auto. exfalso. pose proof (clusters_concat _ Hu []) as Hc. rewrite Ec in Hc. cbn in Hc.
    apply app_eq_nil in Hc. destruct Hc as [Hc _]. apply (clusters_nonempty _ Hu [] c); [rewrite Ec; now left|auto]. }
  rewrite N. cbn [map]. rewrite app_nil_r. rewrite exec_app. generalize (exec u t x). intros t''. cbn. now destruct (t_attr t'').
Qed.
Print Assumptions C14_draw_restores_attributes.

Definition te_id : termenv := Termenv (fun c => c) (fun _ => None).
Example C14_instance :
  let l := [(Pos 2 1, Cell [65%N] (Some (ColAnsi 1%N)) (Some ColReset) 5%N false)] in
  let t := Term 5 5 (fun _ => Junk) None (attr_for (TIndexed 3%N) TDefault 64%N) true in
  (forall p c, In (p, c) l -> 0 <= px p /\ 0 <= py p /\ plain (csym c) /\ conv te_id (cfg c) <> None /\ conv te_id (cbg c) <> None) /\
  t_attr t <> default_attr /\
  (exists s, write_all te_id (backend_draw te_id l) = Ret s /\ option_map t_attr (receive simple_uniseg t s) = Some default_attr).
Proof.
  cbv zeta. split; [|split].
  2: discriminate.
  2: { eexists. split. { vm_compute. reflexivity. } vm_compute. reflexivity. }
  intros p c [E|[]]. injection E as <- <-. cbn. repeat split; try lia; try discriminate. intros r [<-|[]]. reflexivity.
Qed.

(** ** C15: attribute transitions *)

(** What the transition can and cannot do: hidden is never switched; switching off one of two blink speeds loses both. *)
Definition reachable (from to : modifier) : Prop :=
  has from ModifierHidden = has to ModifierHidden /\
  ~ (has from ModifierSlowBlink = true /\ has from ModifierRapidBlink = true /\
     has to ModifierSlowBlink <> has to ModifierRapidBlink).

Theorem C15_transition_exact u te t fg bg from to : uniseg_ok u -> t_attr t = attr_for fg bg from ->
  exists t', send u te t (modifier_diff from to) = Some t' /\ t_cells t' = t_cells t /\ t_cur t' = t_cur t /\
    (t_attr t' = attr_for fg bg to <-> reachable from to).
Proof.
  intros Hu Ha. eexists. rewrite send_no_print; auto.
  2: apply modifier_diff_no_print.
  2: { intros c Hc. rewrite modifier_diff_steps in Hc. apply in_flat_map in Hc. destruct Hc as ([b a] & Hin & Hc). cbn in Hc.
       destruct b; cbn in Hc; [|destruct Hc]. destruct Hc as [<-|[]]. apply steps_simple in Hin. apply Hin. }
  split; [reflexivity|]. rewrite modifier_diff_exec. split; [reflexivity|]. split; [reflexivity|].
  cbn [set_attr t_attr]. rewrite Ha, !attr_for_bits, transition_spec. unfold reachable.
  change ModifierHidden with (2 ^ 7)%N. change ModifierSlowBlink with (2 ^ 4)%N. change ModifierRapidBlink with (2 ^ 5)%N.
  rewrite !has_bit.
  destruct (N.testbit from 7), (N.testbit to 7), (N.testbit from 4), (N.testbit from 5), (N.testbit to 4), (N.testbit to 5); cbn;
    (split; [intros E; first [discriminate E | clear E; split; [reflexivity|intros (? & ? & ?); congruence]] | intros [E1 E2]; first [discriminate E1 | reflexivity | exfalso; apply E2; repeat split; congruence]]).
Qed.
Print Assumptions C15_transition_exact.

(** In particular every set without Hidden and without both blink speeds can be reached from every other such set. *)
Corollary C15_transition_expressible u te t fg bg from to : uniseg_ok u -> t_attr t = attr_for fg bg from ->
  expressible from -> expressible to ->
  exists t', send u te t (modifier_diff from to) = Some t' /\ t_attr t' = attr_for fg bg to.
Proof.
  intros Hu Ha [H1 H1'] [H2 H2']. destruct (C15_transition_exact u te t fg bg from to Hu Ha) as (t' & E & _ & _ & Hiff).
  exists t'. split; [exact E|]. apply Hiff. split; [congruence|]. intros (A & B & _). rewrite A, B in H1'. discriminate.
Qed.

(** The full claim is false: Hidden is never sent, and dropping one of two blink speeds drops both. *)
Theorem C15_transition_refuted :
  (exists from to t', send simple_uniseg te_id (Term 1 1 (fun _ => Junk) None (attr_for TDefault TDefault from) true) (modifier_diff from to) = Some t'
     /\ a_hidden (t_attr t') <> has to ModifierHidden) /\
  (exists from to t', send simple_uniseg te_id (Term 1 1 (fun _ => Junk) None (attr_for TDefault TDefault from) true) (modifier_diff from to) = Some t'
     /\ a_slow (t_attr t') <> has to ModifierSlowBlink).
Proof.
  split.
  - exists 0%N, ModifierHidden. eexists. split; [vm_compute; reflexivity|]. vm_compute. discriminate.
  - exists 48%N, ModifierSlowBlink. eexists. split; [vm_compute; reflexivity|]. vm_compute. discriminate.
Qed.
Print Assumptions C15_transition_refuted.

Example C15_instance : reachable 3%N 2%N /\ expressible 3%N /\ expressible 2%N /\
  modifier_diff 3%N 2%N = [SetAttribute AttrNormalIntensity; SetAttribute AttrDim].
Proof. repeat split; vm_compute; try reflexivity. intros (X & _). discriminate. Qed.

(** ** C16: emitted sequences are well formed *)

Theorem C16_output_well_formed te l :
  (forall c, In c l -> match c with
                       | MoveTo column row => 0 <= column /\ 0 <= row
                       | SetAttribute a => (a < 28)%N
                       | SetColors f b => f <> None /\ b <> None
                       | Print s => plain s
                       | _ => True
                       end) ->
  exists s, write_all te l = Ret s /\ parse s = Some (flat_map (intended te) l).
Proof.
  intros H. destruct (write_all_parse te l) as (s & E & Hp).
  - intros c Hc. specialize (H c Hc). destruct c; exact H.
  - exists s. split; [exact E|]. rewrite Hp. f_equal. apply flat_map_ext_in. intros c Hc. apply intended_ptoks.
    specialize (H c Hc). destruct c; exact H.
Qed.
Print Assumptions C16_output_well_formed.

(** Cursor movement addresses the intended cell. *)
Theorem C16_move_addresses_cell u te t column row : uniseg_ok u -> 0 <= column < t_w t -> 0 <= row < t_h t ->
  exists t', send u te t [MoveTo column row] = Some t' /\ t_cur t' = Some (Pos column row) /\ t_cells t' = t_cells t /\ t_attr t' = t_attr t.
Proof.
  intros Hu Hc Hr. eexists. rewrite send_no_print; auto.
  2: intros s [E|[]]; discriminate.
  2: intros c [<-|[]]; cbn; lia.
  split; [reflexivity|]. unfold commands_tokens. cbn [flat_map command_tokens command_ptoks app exec fold_left exec_token].
  unfold num1. rewrite !Z2N.id by lia. rewrite !Z.max_r by lia. unfold move_to, on_screen; cbn [px py t_cur t_cells t_attr].
  replace (column + 1 - 1) with column by lia. replace (row + 1 - 1) with row by lia.
  replace ((0 <=? column) && (column <? t_w t) && (0 <=? row) && (row <? t_h t)) with true; [auto|].
  symmetry. rewrite !andb_true_iff, !Z.leb_le, !Z.ltb_lt. lia.
Qed.
Print Assumptions C16_move_addresses_cell.

Example C16_instance : exists s, write_all te_id [MoveTo 11 4; SetAttribute AttrUndercurled; Print [104%N; 105%N]] = Ret s /\
  s = [27; 91; 53; 59; 49; 50; 72; 27; 91; 52; 58; 51; 109; 104; 105]%N /\
  parse s = Some [PCsi false [[Some 5%N]; [Some 12%N]] 72%N; PCsi false [[Some 4%N; Some 3%N]] 109%N; PChar 104%N; PChar 105%N].
Proof. eexists. split; [vm_compute; reflexivity|]. split; vm_compute; reflexivity. Qed.

(** Text with an escape character would not be: the renderer writes cell symbols verbatim. *)
Example C16_escape_in_symbol : exists s, write_all te_id [Print [27%N; 91%N; 50%N; 74%N]] = Ret s /\ parse s = Some [PCsi false [[Some 2%N]] 74%N].
Proof. eexists. split; vm_compute; reflexivity. Qed.

(** ** C55: setting colours *)

Theorem C55_both_colours u te t f b F B : uniseg_ok u -> color_shown te f = Some F -> color_shown te b = Some B ->
  exists t', send u te t [SetColors (Some f) (Some b)] = Some t' /\ t_attr t' = set_bg B (set_fg F (t_attr t)) /\ t_cells t' = t_cells t.
Proof.
  intros Hu HF HB. eexists. rewrite send_no_print; auto.
  2: intros s [E|[]]; discriminate.
  2: intros c [<-|[]]; cbn; split; discriminate.
  split; [reflexivity|]. rewrite (colors_exec u te t f b F B HF HB). auto.
Qed.
Theorem C55_no_colours te : write_ansi te (SetColors None None) = Ret [].
Proof. reflexivity. Qed.

(** With exactly one colour absent the command dereferences nil, whatever the other colour. *)
Theorem C55_one_colour_refuted : forall te c, write_ansi te (SetColors (Some c) None) = Panic /\ write_ansi te (SetColors None (Some c)) = Panic.
Proof. split; reflexivity. Qed.
(** And NoColor (what a terminal without colours converts every colour to) resets all attributes instead of only colours. *)
Theorem C55_nocolor_resets_refuted : exists t t', a_bold (t_attr t) = true /\
  send simple_uniseg te_id t [SetColors (Some ColNone) (Some ColNone)] = Some t' /\ a_bold (t_attr t') = false.
Proof.
  exists (Term 1 1 (fun _ => Junk) None (attr_for TDefault TDefault ModifierBold) true). eexists.
  split; [reflexivity|]. split; [vm_compute; reflexivity|]. reflexivity.
Qed.
Print Assumptions C55_both_colours.
Example C55_instance : color_shown te_id (ColAnsi 9%N) = Some (TIndexed 9%N) /\ color_shown te_id (ColAnsi256 200%N) = Some (TIndexed 200%N).
Proof. split; reflexivity. Qed.

(** ** C13: the screen shows the last frame *)

Theorem C13_screen_shows_last_frame u te t0 hist w :
  env_ok u te -> t_attr t0 = default_attr -> 0 <= t_w t0 -> 0 <= t_h t0 ->
  (forall e, In e hist -> good_event u te e) -> good_widget u te w ->
  (* the program has handled the last resize *)
  told (t_w t0, t_h t0) true hist = true ->
  let area := let (W, H) := final_size (t_w t0, t_h t0) hist in new_rect W H in
  exists s0 tm t b,
    start u te t0 = Some s0 /\ run u te s0 (hist ++ [EvDraw w]) = Some (tm, t) /\
    w area (blank area) = Ret b /\ barea b = area /\
    shows u te (t_cells t) b /\ t_attr t = default_attr /\ t_visible t = false.
Proof.
  intros He Ha HW HH Hg Hw Htold. destruct (start_inv u te t0 He Ha HW HH) as (tm0 & t1 & E0 & I0).
  destruct (run_inv u te hist He tm0 t1 _ _ I0 Hg) as (tm1 & t2 & E1 & I1). rewrite Htold in I1.
  destruct (draw_step u te tm1 t2 _ _ w He I1 Hw) as (tm2 & t3 & b & E2 & Eb & Pb & A2 & V & I2).
  destruct (final_size (t_w t0, t_h t0) hist) as [W H] eqn:Ef.
  destruct (si_area _ _ _ _ _ _ I1) as (W' & H' & HW' & HH' & EA & Heq). destruct (Heq eq_refl) as [EW EH]. cbn in EW, EH. subst W' H'.
  cbv zeta. exists (tm0, t1), tm2, t3, b. split; [assumption|]. split.
  - clear - E1 E2. revert E1. generalize (tm0, t1). intros s. revert s. induction hist as [|e hist IH]; intros s; cbn [app run].
    + intros E. injection E as ->. rewrite E2. reflexivity.
    + destruct (run_event u te s e); [apply IH|discriminate].
  - rewrite <- EA. split; [assumption|]. destruct (si_prev _ _ _ _ _ _ I2) as [_ Ap]. rewrite Pb in Ap.
    split; [congruence|]. pose proof (si_shows _ _ _ _ _ _ I2 eq_refl) as Hs. rewrite Pb in Hs.
    split; [assumption|]. split; [apply (si_attr _ _ _ _ _ _ I2)|assumption].
Qed.
Print Assumptions C13_screen_shows_last_frame.

(** *** The hypotheses are met *)
Lemma simple_separate b : (forall p c, look b p = Some c -> exists r, csym c = [r]) -> separate simple_uniseg b.
Proof.
  intros H p l Hl. cbn. assert (G : forall s, In s l -> exists r, s = [r]).
  { intros s Hs. apply In_nth_error in Hs. destruct Hs as [k Hk]. destruct (Hl k s Hk) as (c & Hc & <-). eauto. }
  clear Hl. induction l as [|s l IH]; [reflexivity|]. destruct (G s (or_introl eq_refl)) as [r ->]. cbn. f_equal.
  apply IH. intros; apply G; now right.
Qed.

Definition demo_style := with_foreground (with_modifier new_style ModifierBold) (Some (ColAnsi 1%N)).
Definition demo_widget : widget := fill_render [65%N] demo_style.

Lemma simple_env_ok : env_ok simple_uniseg te_id.
Proof. constructor; [apply simple_uniseg_ok|split; reflexivity|reflexivity]. Qed.

Lemma demo_widget_good : good_widget simple_uniseg te_id demo_widget.
Proof.
  intros w h Hw Hh. set (r := new_rect w h). assert (Hs : sized r) by (split; auto).
  destruct (C10_fill_exact (blank r) r [65%N] demo_style (blank_wf r Hs)) as (b & E & Hc); [intros p Hp; exact Hp|].
  exists b. split; [exact E|]. destruct Hc as (A & W & Hin & Hout). split; [exact A|].
  assert (G : forall p c, look b p = Some c -> c = Cell [65%N] (Some (ColAnsi 1%N)) (Some ColReset) 1%N false).
  { intros p c Hl. pose proof (look_Some_inside _ _ _ Hl) as Hi. rewrite A in Hi. rewrite (Hin p Hi), (blank_look r p Hs Hi) in Hl.
    cbn in Hl. now injection Hl as <-. }
  constructor.
  - constructor; [exact W| |].
    + intros p c Hl. rewrite (G p c Hl). constructor; cbn; auto; try discriminate. split; reflexivity.
    + intros p c Hl. rewrite (G p c Hl). cbn. discriminate.
  - apply simple_separate. intros p c Hl. rewrite (G p c Hl). cbn. eauto.
  - intros p c Hl. rewrite (G p c Hl). intros x [<-|[]]. reflexivity.
Qed.

Example C13_instance :
  env_ok simple_uniseg te_id /\ good_widget simple_uniseg te_id demo_widget /\
  let hist := [EvDraw demo_widget; EvTermSize 4 3 (fun _ => Junk) None; EvDraw demo_widget; EvResize 9 9; EvResize 4 3] in
  (forall e, In e hist -> good_event simple_uniseg te_id e) /\ told (5, 2) true hist = true.
Proof.
  split; [apply simple_env_ok|]. split; [apply demo_widget_good|]. cbv zeta. split; [|reflexivity].
  intros e [<-|[<-|[<-|[<-|[<-|[]]]]]]; cbn; auto using demo_widget_good; lia.
Qed.

(** A concrete run: a wide glyph is drawn, then replaced by narrow ones shifted by one column. *)
Definition put_cells (l : list cell) : widget := fun area b => Ret (Buf area l).
Definition screen_after (te : termenv) (w h : Z) (frames : list (list cell)) : option term :=
  match start simple_uniseg te (Term w h (fun _ => Junk) None default_attr true) with
  | Some s0 => option_map snd (run simple_uniseg te s0 (map (fun l => EvDraw (put_cells l)) frames))
  | None => None
  end.
Definition wide_frame := [new_cell [19990%N]; new_cell space; new_cell [97%N]; new_cell space].
Definition narrow_frame := [new_cell [98%N]; new_cell [19990%N]; new_cell space; new_cell [97%N]].
Example C13_run :
  option_map (fun t => map (fun x => t_cells t (Pos x 0)) [0; 1; 2; 3]) (screen_after te_id 4 1 [wide_frame; narrow_frame]) =
      Some [TPart [98%N] default_attr 0; TPart [19990%N] default_attr 0; TPart [19990%N] default_attr 1; TPart [97%N] default_attr 0].
Proof. vm_compute. reflexivity. Qed.

(** *** Frames outside the hypotheses are shown wrongly *)

(** The screen after drawing one frame [l] (one row) does not show it. *)
Definition mis_shown (te : termenv) (l : list cell) : Prop :=
  exists p g, inside p (new_rect (zlen l) 1) /\
    option_map (fun t => t_cells t p) (screen_after te (zlen l) 1 [l]) = Some g /\
    g <> expected simple_uniseg te (Buf (new_rect (zlen l) 1) l) p.

(** Modifiers: Hidden is never sent; a cell with one blink speed after a cell with both does not blink. *)
Theorem C13_modifiers_refuted :
  mis_shown te_id [Cell [97%N] (Some ColReset) (Some ColReset) ModifierHidden false] /\
  mis_shown te_id [Cell [97%N] (Some ColReset) (Some ColReset) 48%N false; Cell [98%N] (Some ColReset) (Some ColReset) ModifierSlowBlink false].
Proof.
  split.
  - exists (Pos 0 0). eexists. split; [split; cbn; lia|]. split; [vm_compute; reflexivity|]. vm_compute. discriminate.
  - exists (Pos 1 0). eexists. split; [split; cbn; lia|]. split; [vm_compute; reflexivity|]. vm_compute. discriminate.
Qed.

(** A terminal without colours: a bold cell with any colour other than the default loses its bold. *)
Definition te_ascii : termenv := Termenv (fun _ => Some ColNone) (fun _ => None).
Theorem C13_ascii_profile_refuted :
  let l := [Cell [97%N] (Some (ColAnsi 1%N)) (Some ColReset) ModifierBold false] in
  option_map (fun t => t_cells t (Pos 0 0)) (screen_after te_ascii 1 1 [l]) = Some (TPart [97%N] default_attr 0).
Proof. vm_compute. reflexivity. Qed.

(** Zero-width symbols shift the rest of the row; glyphs three columns wide are overwritten by the cell they hide. *)
Theorem C13_widths_refuted :
  mis_shown te_id [new_cell [8203%N]; new_cell [97%N]] /\
  mis_shown te_id [new_cell [11834%N]; new_cell space; new_cell space].
Proof.
  split.
  - exists (Pos 1 0). eexists. split; [split; cbn; lia|]. split; [vm_compute; reflexivity|]. vm_compute. discriminate.
  - exists (Pos 0 0). eexists. split; [split; cbn; lia|]. split; [vm_compute; reflexivity|]. vm_compute. discriminate.
Qed.
Print Assumptions C13_modifiers_refuted.
Print Assumptions C13_ascii_profile_refuted.
Print Assumptions C13_widths_refuted.
