(** Whatever is drawn over an alphabet stays showable, cell by cell. *)
From Verif Require Import Base M_Geom S_Geom M_Style M_Uniseg M_Buffer S_Buffer M_Text M_Block M_Reflow M_Slice M_List M_Widget M_Tabs M_Float M_Gauge M_Scroll M_Input
  M_Solver M_Layout M_Popup M_Ansi M_Backend S_Terminal S_Display S_Session S_Frame P_Base T_Geom P_Buffer P_Text.
From Verif Require Import S_Buffer.
From Coq Require Import ZArith NArith List Bool Lia.
Import ListNotations.
Open Scope Z_scope.

Lemma has_lor a b m : has (N.lor a b) m = has a m || has b m.
Proof.
  unfold has. rewrite N.land_lor_distr_l. destruct (N.eqb_spec (N.land a m) 0) as [E|E], (N.eqb_spec (N.land b m) 0) as [F|F]; cbn [negb orb].
  - now rewrite E, F.
  - rewrite E. cbn. destruct (N.eqb_spec (N.land b m) 0); [contradiction|reflexivity].
  - rewrite F, N.lor_0_r. destruct (N.eqb_spec (N.land a m) 0); [contradiction|reflexivity].
  - destruct (N.eqb_spec (N.lor (N.land a m) (N.land b m)) 0) as [G|G]; [|reflexivity]. apply N.lor_eq_0_iff in G. tauto.
Qed.
Lemma has_ldiff a b m : has a m = false -> has (N.ldiff a b) m = false.
Proof.
  unfold has. intros H. apply negb_false_iff in H. apply N.eqb_eq in H. apply negb_false_iff, N.eqb_eq. apply N.bits_inj. intros k.
  rewrite N.land_spec, N.ldiff_spec, N.bits_0. apply (f_equal (fun x => N.testbit x k)) in H. rewrite N.land_spec, N.bits_0 in H. destruct (N.testbit a k), (N.testbit m k), (N.testbit b k); cbn in *; congruence.
Qed.

Section Frame.
Variables (u : uniseg) (te : termenv) (A : str -> Prop).
Hypothesis (Hu : uniseg_ok u) (Hc : conv te (Some ColReset) = Some ColReset) (HA : alphabet u A).
Notation showable := (showable te).
Notation drawn := (drawn u A).
Notation span_drawn := (span_drawn u te A).
Notation line_drawn := (line_drawn u te A).
Notation text_drawn := (text_drawn u te A).
Notation block_drawn := (block_drawn u te A).

Record neat (c : cell) : Prop := {
  n_sym : A (csym c); n_skip : cskip c = false; n_fg : shown te (cfg c) <> None; n_bg : shown te (cbg c) <> None;
  n_hidden : has (cmod c) ModifierHidden = false; n_rapid : has (cmod c) ModifierRapidBlink = false }.
Definition tidy (b : buffer) : Prop := wf_buffer b /\ forall p c, look b p = Some c -> neat c.
(** Drawing from [b] keeps the frame tidy and its area. *)
Definition neatly (b : buffer) (o : outcome buffer) : Prop := forall b', tidy b -> o = Ret b' -> tidy b' /\ barea b' = barea b.

Lemma shown_reset : shown te (Some ColReset) <> None.
Proof. unfold shown. rewrite Hc. discriminate. Qed.
Lemma neat_reset c : neat (cell_reset c).
Proof. constructor; cbn; auto using shown_reset. apply (al_space _ _ HA). Qed.
Lemma neat_empty : neat empty_cell.
Proof. apply (neat_reset empty_cell). Qed.
Lemma neat_symbol s c : A s -> neat c -> neat (cell_set_symbol s c).
Proof. intros Hs [? ? ? ? ? ?]. now constructor. Qed.
Lemma neat_style st c : showable st -> neat c -> neat (cell_set_style st c).
Proof.
  intros (F & B & H & R) [? ? ? ? ? ?]. constructor; cbn; auto.
  - destruct (sfg st); auto.
  - destruct (sbg st); auto.
  - apply has_ldiff. unfold bit_union. now rewrite has_lor, n_hidden0, H.
  - apply has_ldiff. unfold bit_union. now rewrite has_lor, n_rapid0, R.
Qed.
Lemma showable_new : showable new_style.
Proof. repeat split; try discriminate. Qed.
Lemma showable_patched a b : showable a -> showable b -> showable (patched a b).
Proof.
  intros (F & B & H & R) (F' & B' & H' & R'). repeat split; cbn.
  - intros c E. destruct (sfg b); auto.
  - intros c E. destruct (sbg b); auto.
  - unfold bit_union, bit_difference. now rewrite has_lor, H', (has_ldiff _ _ _ H).
  - unfold bit_union, bit_difference. now rewrite has_lor, R', (has_ldiff _ _ _ R).
Qed.
Lemma single s : A s -> clusters u s = [s].
Proof. intros Hs. rewrite <- (al_apart _ _ HA [s]); [cbn; now rewrite app_nil_r|]. intros x [<-|[]]; auto. Qed.
Lemma width_one s : A s -> string_width u s = 1.
Proof. intros Hs. unfold string_width. rewrite (single s Hs). cbn. rewrite (al_one _ _ HA s Hs). reflexivity. Qed.
Lemma drawn_one s : A s -> drawn s.
Proof. intros Hs c I. rewrite (single s Hs) in I. destruct I as [<-|[]]. exact Hs. Qed.
Lemma drawn_concat l : (forall c, In c l -> A c) -> drawn (concat l).
Proof. intros Hl c I. rewrite (al_apart _ _ HA l Hl) in I. auto. Qed.
Lemma drawn_nil : drawn [].
Proof. apply (drawn_concat []). intros c []. Qed.
Lemma drawn_spaces n : drawn (spaces n).
Proof.
  unfold spaces. replace (repeat 32%N (Z.to_nat n)) with (concat (repeat space (Z.to_nat n))) by (induction (Z.to_nat n) as [|k IH]; cbn; [reflexivity|now rewrite IH]).
  apply drawn_concat. intros c I. apply repeat_spec in I. subst c. apply (al_space _ _ HA).
Qed.

(** ** Steps *)
Lemma neatly_ret b : neatly b (Ret b).
Proof. intros b' T E. injection E as <-. auto. Qed.
Lemma neatly_panic b : neatly b Panic.
Proof. intros b' _ E. discriminate. Qed.
Lemma neatly_bind b o (k : buffer -> outcome buffer) : neatly b o -> (forall b1, o = Ret b1 -> tidy b1 -> barea b1 = barea b -> neatly b1 (k b1)) -> neatly b (bind o k).
Proof.
  intros Ho Hk b' T E. destruct o as [b1|]; [|discriminate]. cbn in E. destruct (Ho b1 T eq_refl) as [T1 A1]. destruct (Hk b1 eq_refl T1 A1 b' T1 E) as [T2 A2].
  split; [exact T2|congruence].
Qed.
Lemma neatly_upd b p f : (forall c, neat c -> neat (f c)) -> neatly b (upd_cell b p f).
Proof.
  intros Hf b' [W N] E. destruct (upd_cell_Ret b p f b' W E) as [_ (A1 & W1 & C1 & D1)]. split; [split; [exact W1|]|exact A1].
  intros q c L. destruct (Z.eq_dec (px q) (px p)) as [Ex|Ex]; [destruct (Z.eq_dec (py q) (py p)) as [Ey|Ey]|].
  - assert (q = p) by (destruct q, p; cbn in *; congruence). rewrite C1 in L by assumption. destruct (look b q) as [c0|] eqn:E0; cbn in L; [|discriminate]. injection L as <-. apply Hf, (N q c0 E0).
  - rewrite D1 in L by (intros ->; lia). eauto.
  - rewrite D1 in L by (intros ->; lia). eauto.
Qed.
Lemma neatly_fold {X} (f : buffer -> X -> outcome buffer) l : forall b, (forall b x, In x l -> neatly b (f b x)) -> neatly b (ofold f l b).
Proof.
  induction l as [|x l IH]; intros b Hf; cbn [ofold]; [apply neatly_ret|]. apply neatly_bind; [apply Hf; now left|]. intros b1 _ _ _. apply IH. intros b2 y I. apply Hf. now right.
Qed.
Lemma neatly_set_style b area st : showable st -> neatly b (buffer_set_style b area st).
Proof. intros Hs. unfold buffer_set_style. apply neatly_fold. intros b1 y _. apply neatly_fold. intros b2 x _. apply neatly_upd. intros c. now apply neat_style. Qed.
Definition fst_of {X} (o : outcome (buffer * X)) : outcome buffer := let! (b, _) := o in Ret b.
Lemma neatly_pair {X} b (o : outcome (buffer * X)) b' x : neatly b (fst_of o) -> o = Ret (b', x) -> tidy b -> tidy b' /\ barea b' = barea b.
Proof. intros H E T. apply H; [exact T|]. now rewrite E. Qed.
Lemma neatly_bind2 {X} b (o : outcome (buffer * X)) (k : buffer * X -> outcome buffer) : neatly b (fst_of o) -> (forall b1 x, tidy b1 -> neatly b1 (k (b1, x))) -> neatly b (bind o k).
Proof.
  intros Ho Hk b' T E. destruct o as [[b1 x]|]; [|discriminate]. cbn in E. destruct (neatly_pair _ _ _ _ Ho eq_refl T) as [T1 A1]. destruct (Hk b1 x T1 b' T1 E) as [T2 A2].
  split; [exact T2|congruence].
Qed.
Lemma neatly_clusters cl st y : showable st -> (forall c, In c cl -> A c) -> forall b x rem, neatly b (fst_of (set_clusters u b x y rem cl st)).
Proof.
  intros Hs. induction cl as [|c cl IH]; intros Hcl b x rem; cbn [set_clusters]; [apply neatly_ret|]. destruct (rem >? 0); [|apply neatly_ret].
  intros b' T E. unfold fst_of in E.
  destruct (upd_cell b (Pos x y) _) as [b1|] eqn:E1; [|discriminate]. cbn [bind] in E.
  destruct (ofold _ _ b1) as [b2|] eqn:E2; [|discriminate]. cbn [bind] in E.
  assert (N1 : neatly b (upd_cell b (Pos x y) (fun c0 => cell_set_style st (cell_set_symbol c c0)))) by (apply neatly_upd; intros; apply neat_style, neat_symbol; auto; apply Hcl; now left).
  destruct (N1 b1 T E1) as [T1 A1].
  assert (N2 : neatly b1 (ofold (fun b x' => upd_cell b (Pos x' y) cell_reset) (zrange (x + 1) (x + cwidth u c)) b1)) by (apply neatly_fold; intros; apply neatly_upd; intros; apply neat_reset).
  destruct (N2 b2 T1 E2) as [T2 A2]. destruct (IH (fun d I => Hcl d (or_intror I)) _ _ _ b' T2 E) as [T3 A3]. split; [exact T3|congruence].
Qed.
Lemma neatly_string b x y s n st : drawn s -> showable st -> neatly b (fst_of (set_string_n u b x y s n st)).
Proof.
  intros Hd Hs b' T E. unfold set_string_n, fst_of in E. pose proof (neatly_clusters (clusters u s) st y Hs Hd b x (Z.min n (Z.max 0 (rright (barea b) - x)))) as N.
  destruct (set_clusters u b x y _ (clusters u s) st) as [[b1 x1]|]; [|discriminate]. cbn [bind] in E. injection E as <-. apply N; [exact T|reflexivity].
Qed.

(** ** Text *)
Lemma neatly_span_loop area y gs : (forall g, In g gs -> A (fst g) /\ showable (snd g)) -> forall first x b, (first = false -> rx area < x) -> rx area <= x ->
  neatly b (span_loop u area y gs first x b).
Proof.
  induction gs as [|[sym st] gs IH]; intros Hg first x b Hf Hx; cbn [span_loop]; [apply neatly_ret|]. destruct (Hg _ (or_introl eq_refl)) as [Hsym Hst]. cbn [fst snd] in *.
  rewrite (width_one sym Hsym). destruct (x + 1 >? rright area); [apply neatly_ret|].
  assert (Hset : neatly b (upd_cell b (Pos x y) (fun c => cell_set_style st (cell_set_symbol sym c)))) by (apply neatly_upd; intros; now apply neat_style, neat_symbol).
  apply neatly_bind.
  - destruct first; [exact Hset|]. destruct (Z.eqb_spec x (rx area)) as [E|_]; [specialize (Hf eq_refl); lia|]. exact Hset.
  - intros b1 _ _ _. apply neatly_bind; [apply neatly_fold; intros; apply neatly_upd; intros; apply neat_reset|].
    intros b2 _ _ _. apply IH; [intros g I; apply Hg; now right|intros _; lia|lia].
Qed.
Lemma styled_drawn base s g : showable base -> span_drawn s -> In g (styled_graphemes u base s) -> A (fst g) /\ showable (snd g).
Proof.
  intros Hb [Hd Hs] I. unfold styled_graphemes in I. apply in_map_iff in I. destruct I as (c & <- & I). apply filter_In in I. destruct I as [I _]. cbn. split; [apply Hd; exact I|now apply showable_patched].
Qed.
Lemma neatly_span s area b : span_drawn s -> neatly b (span_render u s area b).
Proof.
  intros Hs. unfold span_render. destruct (rect_is_empty _); [apply neatly_ret|]. apply neatly_span_loop; [|discriminate|lia]. intros g I. eapply styled_drawn; eauto using showable_new.
Qed.
Lemma after_drawn spans : (forall s, In s spans -> span_drawn s) -> forall skip it, In it (spans_after_width u spans skip) -> span_drawn (sa_span it).
Proof.
  induction spans as [|s spans IH]; intros Hs skip it I; cbn [spans_after_width] in I; [destruct I|]. pose proof (Hs s (or_introl eq_refl)) as [Hd Ht].
  assert (IH' := IH (fun x I => Hs x (or_intror I))). destruct (skip >=? span_width u s); [eauto|]. destruct (span_width u s <=? _).
  - destruct I as [<-|I]; [split; assumption|eauto].
  - destruct (truncate_start_suffix u (sp_content s) (Z.max 0 (span_width u s - skip)) Hu) as (pre & suf & E1 & E2 & E3). rewrite E2 in I.
    destruct I as [<-|I]; [|eauto]. cbn. split; [|exact Ht]. intros c J. cbn in J. rewrite E3 in J. apply Hd. rewrite E1. apply in_or_app. now right.
Qed.
Lemma neatly_items items : (forall it, In it items -> span_drawn (sa_span it)) -> forall area b, neatly b (render_items u items area b).
Proof.
  induction items as [|it items IH]; intros Hi area b; cbn [render_items]; [apply neatly_ret|]. destruct (rect_is_empty _); [apply neatly_ret|].
  apply neatly_bind; [apply neatly_span, Hi; now left|]. intros b1 _ _ _. apply IH. intros x I. apply Hi. now right.
Qed.
Lemma neatly_line_with l area b al : line_drawn l -> neatly b (line_render_with u l area b al).
Proof.
  intros [Hs Hl]. unfold line_render_with. destruct (rect_is_empty _); [apply neatly_ret|]. destruct (line_width u l =? 0); [apply neatly_ret|].
  apply neatly_bind; [now apply neatly_set_style|]. intros b1 _ _ _. destruct (line_width u l <=? _); apply neatly_items; intros it I; eapply after_drawn; eauto.
Qed.
Lemma neatly_text t area b : text_drawn t -> neatly b (text_render u t area b).
Proof.
  intros [Hs Hl]. unfold text_render. apply neatly_bind; [now apply neatly_set_style|]. intros b1 _ _ _. clear Hs. revert b1. generalize (rows (intersection area (barea b))). revert Hl. generalize (tx_lines t) as ls.
  induction ls as [|l ls IH]; intros Hl rws b1; cbn [text_loop]; [apply neatly_ret|]. destruct rws as [|r rws]; [apply neatly_ret|].
  apply neatly_bind; [apply neatly_line_with, Hl; now left|]. intros b2 _ _ _. apply IH. intros x I. apply Hl. now right.
Qed.
Lemma neatly_print l b x y n : line_drawn l -> neatly b (fst_of (line_print u l b x y n)).
Proof.
  intros [Hs Hl]. unfold line_print. revert b x n. revert Hl. generalize (ln_spans l) as spans. induction spans as [|s spans IH]; intros Hl b x n; cbn [line_print_loop]; [apply neatly_ret|].
  destruct (n =? 0); [apply neatly_ret|]. intros b' T E. unfold fst_of in E. destruct (Hl s (or_introl eq_refl)) as [Hd Ht].
  pose proof (neatly_string b x y (sp_content s) n (patched (ln_style l) (sp_style s)) Hd (showable_patched _ _ Hs Ht)) as N.
  destruct (set_string_n u b x y (sp_content s) n _) as [[b1 [nx ny]]|]; [|discriminate]. cbn [bind] in E. destruct (neatly_pair _ _ _ _ N eq_refl T) as [T1 A1].
  destruct (IH (fun z I => Hl z (or_intror I)) _ _ _ b' T1 E) as [T2 A2]. split; [exact T2|congruence].
Qed.

(** ** Blocks *)
Lemma neatly_put b p sym st : A sym -> showable st -> neatly b (upd_cell b p (put sym st)).
Proof. intros. apply neatly_upd. intros. now apply neat_style, neat_symbol. Qed.
Ltac side := match goal with |- neatly _ (if _ then _ else _) => destruct (side_contains _ _); [|apply neatly_ret] end.
Lemma neatly_borders k area b : block_drawn k -> neatly b (render_borders k area b).
Proof.
  intros (_ & Hs & _ & (S1 & S2 & S3 & S4 & S5 & S6 & S7 & S8) & _). unfold render_borders.
  apply neatly_bind; [unfold render_left_side; side; apply neatly_fold; intros; now apply neatly_put|]. intros b1 _ _ _.
  apply neatly_bind; [unfold render_top_side; side; apply neatly_fold; intros; now apply neatly_put|]. intros b2 _ _ _.
  apply neatly_bind; [unfold render_right_side; side; apply neatly_fold; intros; now apply neatly_put|]. intros b3 _ _ _.
  apply neatly_bind; [unfold render_bottom_side; side; apply neatly_fold; intros; now apply neatly_put|]. intros b4 _ _ _.
  apply neatly_bind; [unfold render_bottom_right; side; now apply neatly_put|]. intros b5 _ _ _.
  apply neatly_bind; [unfold render_top_right; side; now apply neatly_put|]. intros b6 _ _ _.
  apply neatly_bind; [unfold render_bottom_left; side; now apply neatly_put|]. intros b7 _ _ _.
  unfold render_top_left; side; now apply neatly_put.
Qed.
Lemma neatly_title k t ta b : block_drawn k -> line_drawn (ti_line t) -> neatly b (draw_title u k t ta b).
Proof. intros Hk Ht. unfold draw_title. apply neatly_bind; [apply neatly_set_style, Hk|]. intros b1 _ _ _. now apply neatly_line_with. Qed.
Lemma neatly_right k ts : block_drawn k -> (forall t, In t ts -> line_drawn (ti_line t)) -> forall ta b, neatly b (right_titles u k ts ta b).
Proof.
  intros Hk. induction ts as [|t ts IH]; intros Ht ta b; cbn [right_titles]; [apply neatly_ret|]. destruct (rect_is_empty ta); [apply neatly_ret|].
  apply neatly_bind; [apply neatly_title; auto; apply Ht; now left|]. intros b1 _ _ _. apply IH. intros x I. apply Ht. now right.
Qed.
Lemma neatly_left k ts : block_drawn k -> (forall t, In t ts -> line_drawn (ti_line t)) -> forall ta b, neatly b (left_titles u k ts ta b).
Proof.
  intros Hk. induction ts as [|t ts IH]; intros Ht ta b; cbn [left_titles]; [apply neatly_ret|]. destruct (rect_is_empty ta); [apply neatly_ret|].
  apply neatly_bind; [apply neatly_title; auto; apply Ht; now left|]. intros b1 _ _ _. apply IH. intros x I. apply Ht. now right.
Qed.
Lemma neatly_position k p area b : block_drawn k -> neatly b (render_title_position u k p area b).
Proof.
  intros Hk. assert (Hf : forall a t, In t (filter_titles k p a) -> line_drawn (ti_line t)) by (intros a t I; unfold filter_titles in I; apply filter_In in I; apply Hk, I).
  unfold render_title_position. apply neatly_bind; [apply neatly_right; auto; intros t I; apply in_rev in I; eauto|]. intros b1 _ _ _.
  apply neatly_bind; [apply neatly_left; eauto|]. intros b2 _ _ _. apply neatly_left; eauto.
Qed.
Lemma neatly_block k area b : block_drawn k -> neatly b (block_render u k area b).
Proof.
  intros Hk. unfold block_render. destruct (rect_is_empty _); [apply neatly_ret|]. apply neatly_bind; [apply neatly_set_style, Hk|]. intros b1 _ _ _.
  apply neatly_bind; [now apply neatly_borders|]. intros b2 _ _ _. unfold render_titles. apply neatly_bind; [now apply neatly_position|]. intros b3 _ _ _. now apply neatly_position.
Qed.
Lemma neatly_boxed k area b : boxed_drawn u te A k -> neatly b (opt_block_render u k area b).
Proof. intros Hk. destruct k as [k|]; [apply neatly_block, Hk; reflexivity|apply neatly_ret]. Qed.

(** ** Paragraphs *)
Definition fine (g : gr) : Prop := (A (g_sym g) \/ g_sym g = [] \/ g_width g = 0) /\ showable (g_style g).
Lemma neatly_graphemes gs : Forall fine gs -> forall x y b, neatly b (draw_graphemes gs x y b).
Proof.
  induction 1 as [|g gs [Hg Hs] _ IH]; intros x y b; cbn [draw_graphemes]; [apply neatly_ret|]. destruct (Z.eqb_spec (g_width g) 0) as [E|E]; [apply IH|].
  apply neatly_bind; [|intros b1 _ _ _; apply IH]. apply neatly_upd. intros c N. apply neat_style, neat_symbol; auto. destruct (g_sym g) as [|r s] eqn:Es; [apply (al_space _ _ HA)|].
  destruct Hg as [Hg|[Hg|Hg]]; [exact Hg|discriminate|contradiction].
Qed.
Lemma neatly_render_text {S} (next : S -> option (wrapped_line * S)) (Inv : S -> Prop) :
  (forall s l s', Inv s -> next s = Some (l, s') -> Forall fine (wl_line l) /\ Inv s') ->
  forall fuel s area scroll y b, Inv s -> neatly b (render_text next fuel s area scroll y b).
Proof.
  intros Hn. induction fuel as [|fuel IH]; intros s area scroll y b Is; cbn [render_text]; [apply neatly_ret|]. destruct (next s) as [[l s']|] eqn:E; [|apply neatly_ret].
  destruct (Hn s l s' Is E) as [Hl Is']. apply neatly_bind.
  - destruct (y >=? scroll); [|apply neatly_ret]. destruct (line_offset _ _ _); [|apply neatly_panic]. cbn [bind]. now apply neatly_graphemes.
  - intros b1 _ _ _. destruct (_ >=? _); [apply neatly_ret|now apply IH].
Qed.
Lemma fine_zero : fine zero_gr.
Proof. split; [right; now left|apply showable_new]. Qed.
Lemma fine_clear l : Forall fine (clear_slice l).
Proof. unfold clear_slice. induction l; cbn; constructor; auto using fine_zero. Qed.
Definition wfine (s : wstate) : Prop := Forall fine (ws_line s) /\ Forall fine (ws_word s) /\ Forall fine (ws_space s) /\ Forall (Forall fine) (ws_out s).
Lemma flush_fine trim s : wfine s -> wfine (flush trim s).
Proof.
  intros (L & W & P & O). unfold flush, wfine. cbn. repeat split; auto using fine_clear. apply Forall_app. split; [|exact W]. destruct (_ || _); [apply Forall_app; now split|exact L].
Qed.
Lemma drop_space_fine sp : Forall fine sp -> forall w rem, Forall fine (fst (drop_space sp w rem)).
Proof. induction 1 as [|g sp Hg Hsp IH]; intros w rem; cbn; [constructor|]. destruct (_ >? _); cbn; [now constructor|apply IH]. Qed.
Lemma break_fine max s : wfine s -> wfine (break_line max s).
Proof.
  intros (L & W & P & O). unfold break_line. pose proof (drop_space_fine _ P (ws_space_w s) (Z.max 0 (max - ws_line_w s))) as D. destruct (drop_space _ _ _) as [sp w]. unfold wfine. cbn in *.
  repeat split; auto using fine_clear. apply Forall_app. split; [exact O|]. constructor; [exact L|constructor].
Qed.
Lemma wrap_step_fine max trim s g : fine g -> wfine s -> wfine (wrap_step max trim s g).
Proof.
  intros Hg Hs. unfold wrap_step. cbv zeta. destruct (_ >? max); [exact Hs|].
  match goal with |- context [if ?c then flush trim s else s] => assert (H1 : wfine (if c then flush trim s else s)) by (destruct c; [now apply flush_fine|exact Hs]); set (s1 := if c then flush trim s else s) in * end.
  clearbody s1. clear Hs.
  match goal with |- context [if ?c then break_line max s1 else s1] => assert (H2 : wfine (if c then break_line max s1 else s1)) by (destruct c; [now apply break_fine|exact H1]); set (s2 := if c then break_line max s1 else s1) in * end.
  clearbody s2. destruct H2 as (L & W & P & O).
  repeat match goal with |- wfine (if ?c then _ else _) => destruct c end; unfold wfine; cbn; repeat split; auto; apply Forall_app; split; auto.
Qed.
Lemma wrap_fold_fine max trim gs : Forall fine gs -> forall s, wfine s -> wfine (fold_left (wrap_step max trim) gs s).
Proof. induction 1 as [|g gs Hg _ IH]; intros s Hs; cbn; [exact Hs|]. apply IH. now apply wrap_step_fine. Qed.
Lemma wrap_end_fine trim s : wfine s -> Forall (Forall fine) (fst (wrap_end trim s)).
Proof.
  intros (L & W & P & O). unfold wrap_end. cbn [fst].
  assert (O1 : Forall (Forall fine) (if (zlen (ws_line s) =? 0) && (zlen (ws_word s) =? 0) && negb (zlen (ws_space s) =? 0) then ws_out s ++ [[]] else ws_out s)) by (destruct (_ && _); [apply Forall_app; split; auto|exact O]).
  set (o1 := if _ && _ then _ else _) in *. clearbody o1.
  assert (Ln : Forall fine ((if negb (zlen (ws_line s) =? 0) || negb trim then ws_line s ++ ws_space s else ws_line s) ++ ws_word s)) by (apply Forall_app; split; [|exact W]; destruct (_ || _); [apply Forall_app; now split|exact L]).
  set (ln := _ ++ ws_word s) in *. clearbody ln.
  assert (O2 : Forall (Forall fine) (if negb (zlen ln =? 0) then o1 ++ [ln] else o1)) by (destruct (negb _); [apply Forall_app; split; auto|exact O1]).
  set (o2 := if negb _ then _ else _) in *. clearbody o2. destruct (zlen o2 =? 0); [apply Forall_app; split; auto|exact O2].
Qed.
Definition wrapper_fine (w : wrapper) : Prop := Forall (fun i => Forall fine (il_graphemes i)) (ww_input w) /\ Forall (Forall fine) (ww_wrapped w).
Lemma wrap_next_fine inputs : forall w l w', Forall (fun i => Forall fine (il_graphemes i)) inputs -> ww_input w = inputs -> Forall (Forall fine) (ww_wrapped w) ->
  wrap_next inputs w = Some (l, w') -> Forall fine (wl_line l) /\ wrapper_fine w'.
Proof.
  induction inputs as [|i inputs IH]; intros w l w' Hi Ei Hw E; cbn [wrap_next] in E; destruct (ww_wrapped w) as [|line rest] eqn:Ew; try discriminate.
  - injection E as <- <-. inversion_clear Hw. split; [assumption|]. unfold wrapper_fine, replace_current. cbn. rewrite Ei. now split.
  - inversion_clear Hi. apply (IH (process_input w (il_graphemes i) inputs (il_align i)) l w'); auto.
    + unfold process_input. destruct (match rev (ww_pool w) with [] => _ | _ => _ end) as [ln pool]. destruct (wrap_end _ _) as [out word]. reflexivity.
    + unfold process_input. destruct (match rev (ww_pool w) with [] => _ | _ => _ end) as [ln pool].
      match goal with |- context [wrap_end ?t ?s] => pose proof (wrap_end_fine t s) as F; destruct (wrap_end t s) as [out word] end. cbn in *. apply F. apply wrap_fold_fine; [assumption|].
      unfold wfine. cbn. repeat split; auto using fine_clear. now rewrite Ew.
  - injection E as <- <-. inversion_clear Hw. split; [assumption|]. unfold wrapper_fine, replace_current. cbn. rewrite Ei. now split.
Qed.
Lemma wrapper_next_fine w l w' : wrapper_fine w -> wrapper_next w = Some (l, w') -> Forall fine (wl_line l) /\ wrapper_fine w'.
Proof. intros [Hi Hw] E. unfold wrapper_next in E. destruct (ww_max w =? 0); [discriminate|]. eapply wrap_next_fine; eauto. Qed.
Lemma string_width_nil : string_width u [] = 0.
Proof. unfold string_width. now rewrite (clusters_nil u Hu). Qed.
Lemma new_gr_fine s st : A s \/ s = [] -> showable st -> fine (new_gr u s st).
Proof. intros Hs Ht. split; [|exact Ht]. destruct Hs as [Hs|Hs]; [left; exact Hs|right; left; exact Hs]. Qed.
(** graphemes as they come from the text *)
Definition fresh (g : gr) : Prop := A (g_sym g) /\ showable (g_style g).
Lemma fresh_fine g : fresh g -> fine g.
Proof. intros [? ?]. split; auto. Qed.
Lemma trunc_line_fine max al gs : Forall fresh gs -> forall cur w off, Forall fine cur -> Forall fine (fst (fst (trunc_line u max al gs cur w off))).
Proof.
  induction 1 as [|g gs [Hg Hs] _ IH]; intros cur w off Hcur; cbn [trunc_line]; [exact Hcur|]. destruct (_ >? max); [now apply IH|]. destruct (_ >? max); [exact Hcur|].
  assert (Hn : forall s, A s \/ s = [] -> Forall fine (cur ++ [new_gr u s (g_style g)])) by (intros s Hs'; apply Forall_app; split; [exact Hcur|constructor; [now apply new_gr_fine|constructor]]).
  destruct (_ || _); [apply IH, Hn; now left|]. destruct (_ >? off); [|apply IH, Hn; now right]. apply IH, Hn.
  unfold trim_offset. rewrite (single _ Hg). cbn. destruct (_ >? _); [left; now rewrite app_nil_r|now right].
Qed.
Lemma trunc_lines_fine max lines : Forall (fun i => Forall fresh (il_graphemes i)) lines -> forall al cur w off, Forall fine cur -> Forall fine (fst (fst (trunc_lines u max lines al cur w off))).
Proof.
  induction 1 as [|i lines Hi _ IH]; intros al cur w off Hcur; cbn [trunc_lines]; [exact Hcur|]. pose proof (trunc_line_fine max (il_align i) _ Hi cur w off Hcur) as F.
  destruct (trunc_line _ _ _ _ _ _ _) as [[cur' w'] off']. apply IH, F.
Qed.
Lemma truncator_next_fine t l t' : Forall (fun i => Forall fresh (il_graphemes i)) (lt_input t) -> truncator_next u t = Some (l, t') -> Forall fine (wl_line l) /\ Forall (fun i => Forall fresh (il_graphemes i)) (lt_input t').
Proof.
  intros Hi E. unfold truncator_next in E. destruct (lt_max t =? 0); [discriminate|]. pose proof (trunc_lines_fine (lt_max t) _ Hi AlignLeft (clear_slice (lt_current t)) 0 (lt_offset t) (fine_clear _)) as F.
  destruct (trunc_lines _ _ _ _ _ _ _) as [[cur w] al]. destruct (lt_input t); [discriminate|]. injection E as <- <-. split; [exact F|constructor].
Qed.
Lemma paragraph_fresh p : text_drawn (pg_text p) -> Forall (fun i => Forall fresh (il_graphemes i)) (paragraph_input u p).
Proof.
  intros [Hs Hl]. apply Forall_forall. intros i I. unfold paragraph_input in I. apply in_map_iff in I. destruct I as (l & <- & I). destruct (Hl l I) as [Hls Hsp]. cbn. apply Forall_forall. intros g J.
  unfold line_graphemes in J. apply in_flat_map in J. destruct J as (s & Js & J). apply in_map_iff in J. destruct J as ((c & st) & <- & J).
  destruct (styled_drawn (patched (tx_style (pg_text p)) (ln_style l)) s (c, st) (showable_patched _ _ Hs Hls) (Hsp s Js) J) as [G1 G2]. split; assumption.
Qed.
Lemma neatly_paragraph k p area b : boxed_drawn u te A k -> showable (pg_style p) -> text_drawn (pg_text p) -> neatly b (paragraph_render u k p area b).
Proof.
  intros Hk Hs Ht. unfold paragraph_render. apply neatly_bind; [now apply neatly_set_style|]. intros b1 _ _ _. apply neatly_bind; [now apply neatly_boxed|]. intros b2 _ _ _.
  unfold paragraph_render_text. destruct (rect_is_empty _); [apply neatly_ret|]. apply neatly_bind; [now apply neatly_set_style|]. intros b3 _ _ _. pose proof (paragraph_fresh p Ht) as F.
  destruct (pg_wrap p) as [trim|].
  - apply (neatly_render_text _ wrapper_fine wrapper_next_fine). split; [|constructor]. cbn. eapply Forall_impl; [|exact F]. intros i. apply Forall_impl, fresh_fine.
  - apply (neatly_render_text _ (fun t => Forall (fun i => Forall fresh (il_graphemes i)) (lt_input t)) truncator_next_fine). exact F.
Qed.

(** ** The other widgets *)
Lemma neatly_clear area b : neatly b (clear_render area b).
Proof. unfold clear_render. apply neatly_fold. intros b1 x _. apply neatly_fold. intros b2 y _. apply neatly_upd. intros. apply neat_reset. Qed.
Lemma neatly_fill s st area b : A s -> showable st -> neatly b (fill_render s st area b).
Proof. intros Ha Hs. unfold fill_render. apply neatly_fold. intros b1 x _. apply neatly_fold. intros b2 y _. apply neatly_upd. intros. apply neat_symbol; [exact Ha|]. apply neat_style; [exact Hs|apply neat_reset]. Qed.
Lemma neatly_item l area sel : showable (ls_style l) -> showable (ls_hl_style l) -> drawn (ls_hl_symbol l) -> forall st i, text_drawn (snd i) ->
  forall cur' b', tidy (snd st) -> draw_item u l area sel st i = Ret (cur', b') -> tidy b' /\ barea b' = barea (snd st).
Proof.
  intros Hs Hh Hy [cur b] [i item] Ht cur' b' T E. cbn [snd] in *. unfold draw_item in E. cbv zeta in E.
  match type of E with bind ?o _ = _ => destruct o as [b1|] eqn:E1; [|discriminate] end. cbn [bind] in E.
  destruct (neatly_set_style _ _ _ (showable_patched _ _ Hs (proj1 Ht)) b1 T E1) as [T1 A1].
  match type of E with bind ?o _ = _ => destruct o as [b2|] eqn:E2; [|discriminate] end. cbn [bind] in E.
  destruct (neatly_text _ _ _ Ht b2 T1 E2) as [T2 A2].
  match type of E with bind ?o _ = _ => destruct o as [b3|] eqn:E3; [|discriminate] end. cbn [bind] in E.
  assert (N3 : tidy b3 /\ barea b3 = barea b2).
  { destruct (should_add _ _); [|injection E3 as <-; auto]. revert E3. match goal with |- ofold ?f ?r b2 = _ -> _ => assert (N : neatly b2 (ofold f r b2)) end; [|intros E3; exact (N b3 T2 E3)].
    apply neatly_fold. intros b0 j _. apply (neatly_string b0); [|apply showable_patched; [exact Hs|apply Ht]]. destruct (_ && _); [exact Hy|apply drawn_spaces]. }
  destruct N3 as [T3 A3].
  match type of E with bind ?o _ = _ => destruct o as [b4|] eqn:E4; [|discriminate] end. cbn [bind] in E. injection E as _ <-.
  assert (N4 : tidy b4 /\ barea b4 = barea b3).
  { destruct (match sel with Some s => s =? i | None => false end); [exact (neatly_set_style _ _ _ Hh b4 T3 E4)|injection E4 as <-; auto]. }
  destruct N4 as [T4 A4]. split; [exact T4|congruence].
Qed.
Lemma indexed_in {X} (l : list X) : forall i p, In p (indexed i l) -> In (snd p) l.
Proof. induction l as [|x l IH]; intros i p I; [destruct I|]. destruct I as [<-|I]; [now left|right; eauto]. Qed.
Lemma skip_in {X} (l r : list X) n x : skip l n = Ret r -> In x r -> In x l.
Proof.
  unfold skip. intros E I. destruct (n >=? zlen l); [injection E as <-; destruct I|]. destruct (n <? 0); [discriminate|]. injection E as <-. rewrite <- (firstn_skipn (Z.to_nat n) l). apply in_or_app. now right.
Qed.
Lemma take_in {X} (l r : list X) n x : take l n = Ret r -> In x r -> In x l.
Proof. unfold take. intros E I. destruct (_ <? 0); [discriminate|]. injection E as <-. rewrite <- (firstn_skipn (Z.to_nat (Z.min n (zlen l))) l). apply in_or_app. now left. Qed.
Lemma neatly_list l s area b : boxed_drawn u te A (ls_block l) -> showable (ls_style l) -> showable (ls_hl_style l) -> drawn (ls_hl_symbol l) ->
  (forall t, In t (ls_items l) -> text_drawn t) -> neatly b (fst_of (list_render u l area b s)).
Proof.
  intros Hk Hs Hh Hy Ht b' T E. unfold list_render, fst_of in E.
  destruct (buffer_set_style b area (ls_style l)) as [b1|] eqn:E1; [|discriminate]. cbn [bind] in E. destruct (neatly_set_style _ _ _ Hs b1 T E1) as [T1 A1].
  destruct (opt_block_render u (ls_block l) area b1) as [b2|] eqn:E2; [|discriminate]. cbn [bind] in E. destruct (neatly_boxed _ _ _ Hk b2 T1 E2) as [T2 A2].
  destruct (_ || _); [injection E as <-; split; [exact T2|congruence]|]. cbv zeta in E.
  set (s1 := match st_selected s with Some i => _ | None => s end) in E. clearbody s1.
  destruct (get_items_bounds _ _ _ _ _) as [[first last]|]; [|discriminate]. cbn [bind] in E.
  destruct (skip (ls_items l) first) as [rest|] eqn:Er; [|discriminate]. cbn [bind] in E.
  destruct (take rest (last - first)) as [sh|] eqn:Es; [|discriminate]. cbn [bind] in E.
  assert (Hsh : forall p, In p (indexed first sh) -> text_drawn (snd p)) by (intros p I; apply Ht; eapply skip_in; [exact Er|]; eapply take_in; [exact Es|]; eapply indexed_in; exact I).
  match type of E with context [ofold ?f ?l0 ?st] => destruct (ofold f l0 st) as [[cur b3]|] eqn:E3; [|discriminate] end. cbn [bind] in E. injection E as <-.
  assert (N3 : tidy (snd (cur, b3)) /\ barea (snd (cur, b3)) = barea b2).
  { eapply (ofold_inv' _ (fun st : Z * buffer => tidy (snd st) /\ barea (snd st) = barea b2)); [| |exact E3]; [cbn; auto|]. intros st i [c' b''] I [Tt At] Ei.
    destruct (neatly_item l _ _ Hs Hh Hy st i (Hsh i I) c' b'' Tt Ei) as [T4 A4]. split; [exact T4|cbn; congruence]. }
  cbn [snd] in N3. destruct N3 as [T3 A3]. split; [exact T3|congruence].
Qed.
Lemma neatly_tabs t area b : boxed_drawn u te A (tb_block t) -> showable (tb_style t) -> showable (tb_hl_style t) -> span_drawn (tb_divider t) ->
  line_drawn (tb_left t) -> line_drawn (tb_right t) -> (forall l, In l (tb_titles t) -> line_drawn l) -> neatly b (tabs_render u t area b).
Proof.
  intros Hk Hs Hh Hd HL HR Ht. unfold tabs_render. apply neatly_bind; [now apply neatly_set_style|]. intros b1 _ _ _. apply neatly_bind; [now apply neatly_boxed|]. intros b2 _ _ _.
  unfold tabs_render_inner. destruct (rect_is_empty _); [apply neatly_ret|]. generalize (opt_block_inner (tb_block t) area) as ar. intros ar. generalize (zlen (tb_titles t)) as n. intros n.
  generalize 0 as i, (rleft ar) as x. revert b2 Ht. generalize (tb_titles t) as ts. induction ts as [|l ts IH]; intros b2 Ht i x; cbn [tabs_loop]; cbv zeta; [apply neatly_ret|].
  destruct (_ =? 0); [apply neatly_ret|]. apply neatly_bind2; [now apply neatly_print|]. intros b3 [x3 y3] _. cbv beta iota zeta.
  destruct (_ =? 0); [apply neatly_ret|]. apply neatly_bind2; [apply neatly_print, Ht; now left|]. intros b4 [x4 y4] _. cbv beta iota zeta.
  apply neatly_bind; [destruct (tb_selected t) as [k|]; [destruct (k =? i)|]; try apply neatly_ret; now apply neatly_set_style|]. intros b5 _ _ _.
  destruct (_ =? 0); [apply neatly_ret|]. apply neatly_bind2; [now apply neatly_print|]. intros b6 [x6 y6] _. cbv beta iota zeta.
  destruct (_ || _); [apply neatly_ret|]. apply neatly_bind2; [apply neatly_string; apply Hd|]. intros b7 [x7 y7] _. cbv beta iota zeta. apply IH. intros z I. apply Ht. now right.
Qed.
Lemma unicode_drawn frac : (forall n, (9608 <= n <= 9615)%N -> A [n]) -> A (unicode_block frac).
Proof. intros H. unfold unicode_block. repeat match goal with |- A (if ?c then _ else _) => destruct c; [apply H; lia|] end. apply (al_space _ _ HA). Qed.
Lemma neatly_gauge g area b : boxed_drawn u te A (gg_block g) -> showable (gg_style g) -> showable (gg_gauge_style g) -> span_drawn (gauge_label g) ->
  (forall n, (9608 <= n <= 9615)%N -> A [n]) -> neatly b (gauge_render u g area b).
Proof.
  intros Hk Hs Hg [Hd Hl] Hn. unfold gauge_render. apply neatly_bind; [now apply neatly_set_style|]. intros b1 _ _ _. apply neatly_bind; [now apply neatly_boxed|]. intros b2 _ _ _.
  unfold gauge_render_inner. destruct (rect_is_empty _); [apply neatly_ret|]. apply neatly_bind; [now apply neatly_set_style|]. intros b3 _ _ _. cbv zeta. apply neatly_bind.
  - apply neatly_fold. intros b4 y _. apply neatly_bind.
    + apply neatly_fold. intros b5 x _. apply neatly_upd. intros c N.
      assert (N1 : neat (cell_set_symbol (if (x <? rleft (opt_block_inner (gg_block g) area) + (rw (opt_block_inner (gg_block g) area) - Z.min (rw (opt_block_inner (gg_block g) area)) (span_width u (gauge_label g))) / 2)
         || (x >=? rleft (opt_block_inner (gg_block g) area) + (rw (opt_block_inner (gg_block g) area) - Z.min (rw (opt_block_inner (gg_block g) area)) (span_width u (gauge_label g))) / 2 + Z.min (rw (opt_block_inner (gg_block g) area)) (span_width u (gauge_label g)))
         || negb (y =? rtop (opt_block_inner (gg_block g) area) + rh (opt_block_inner (gg_block g) area) / 2) then block_full else [32%N]) c))
        by (apply neat_symbol; [destruct (_ || _); [apply Hn; lia|apply (al_space _ _ HA)]|exact N]).
      destruct N1 as [? ? ? ? ? ?]. destruct Hg as (F & B & _ & _). constructor; cbn [cell_set_bg cell_set_fg csym cskip cfg cbg cmod]; auto.
      * unfold or_reset. destruct (sfg (gg_gauge_style g)); auto using shown_reset.
      * unfold or_reset. destruct (sbg (gg_gauge_style g)); auto using shown_reset.
    + intros b5 _ _ _. destruct (_ && _); [|apply neatly_ret]. apply neatly_upd. intros c N. apply neat_symbol; [now apply unicode_drawn|exact N].
  - intros b4 _ _ _. apply neatly_bind2; [now apply neatly_string|]. intros b5 [x5 y5] _. apply neatly_ret.
Qed.
Lemma neatly_scroll junk s st area b : drawn (sc_thumb s) -> symbol_drawn u A (sc_track s) -> symbol_drawn u A (sc_begin s) -> symbol_drawn u A (sc_end s) ->
  showable (sc_thumb_style s) -> showable (sc_track_style s) -> showable (sc_begin_style s) -> showable (sc_end_style s) -> neatly b (scroll_render u junk s area b st).
Proof.
  intros D1 D2 D3 D4 S1 S2 S3 S4. unfold scroll_render. destruct (_ || _); [apply neatly_ret|]. destruct (scrollbar_area _ _) as [bar|]; [|apply neatly_ret].
  intros b' T E. destruct (bar_symbols u junk s bar st) as [sy|] eqn:Es; [|discriminate]. cbn [bind] in E. revert b' T E.
  assert (Hsy : forall o, In o sy -> forall x t, o = Some (x, t) -> drawn x /\ showable t).
  { unfold bar_symbols in Es. destruct (part_lens _ _ _ _) as [[bf th] af]. unfold slice_repeat in Es. destruct (bf <? 0); [discriminate|]. destruct (th <? 0); [discriminate|]. destruct (af <? 0); [discriminate|]. cbn [bind] in Es. injection Es as <-.
    assert (OM : forall (o : option str) t0, symbol_drawn u A o -> showable t0 -> forall x t, option_map (fun x => (x, t0)) o = Some (x, t) -> drawn x /\ showable t) by (intros [y|] t0 Ho Ht x t E; [injection E as <- <-; split; auto|discriminate]).
    intros o I x t Eo. cbn in I. destruct I as [<-|I]; [eapply OM; [| |exact Eo]; auto|]. rewrite !in_app_iff in I. destruct I as [I|[I|[I|[<-|[]]]]].
    - apply repeat_spec in I. subst o. eapply OM; [| |exact Eo]; auto.
    - apply repeat_spec in I. subst o. injection Eo as <- <-. split; auto.
    - apply repeat_spec in I. subst o. eapply OM; [| |exact Eo]; auto.
    - eapply OM; [| |exact Eo]; auto. }
  change (neatly b (ofold (draw_symbol u) (combine (flat_map rows (columns bar)) sy) b)). apply neatly_fold. intros b1 [r o] I. unfold draw_symbol. cbn [fst snd]. destruct o as [[x t]|]; [|apply neatly_ret].
  apply in_combine_r in I. destruct (Hsy _ I x t eq_refl) as [Dx St]. unfold set_string. apply (neatly_string b1 (rx r) (ry r) x max_int t Dx St).
Qed.
Definition letters (l : list str) : Prop := forall c, In c l -> A c \/ c = [].
Lemma drawn_letters l : letters l -> drawn (concat l).
Proof.
  intros Hl. replace (concat l) with (concat (filter (fun c : str => match c with [] => false | _ => true end) l)).
  - apply drawn_concat. intros c I. apply filter_In in I. destruct I as [I N]. destruct (Hl c I) as [H| ->]; [exact H|discriminate].
  - clear Hl. induction l as [|[|r c] l IH]; cbn; [reflexivity|exact IH|now rewrite IH].
Qed.
Lemma drawn_letter c : A c \/ c = [] -> drawn c.
Proof. intros [H| ->]; [now apply drawn_one|apply drawn_nil]. Qed.
Lemma index_at_in {X} (l : list X) i x : index_at l i = Ret x -> In x l.
Proof. unfold index_at. intros E. destruct (i <? 0); [discriminate|]. destruct (nth_error l (Z.to_nat i)) eqn:N; [|discriminate]. injection E as <-. eapply nth_error_In; eauto. Qed.
Lemma neatly_input row_of i s area b : boxed_drawn u te A (ip_block i) -> showable (ip_style i) -> showable (ip_placeholder_style i) -> showable (ip_cursor_style i) ->
  showable (ip_prompt_style i) -> drawn (ip_prompt i) -> (forall c, In c (ip_placeholder i) -> A c) -> (forall c, In c (is_text s) -> A c) ->
  neatly b (fst_of (input_render u row_of i area b s)).
Proof.
  intros Hk Hs Hp Hcu Hpr Dp Pl Tx b' T E. unfold input_render, fst_of in E.
  destruct (buffer_set_style b area (ip_style i)) as [b1|] eqn:E1; [|discriminate]. cbn [bind] in E. destruct (neatly_set_style _ _ _ Hs b1 T E1) as [T1 A1].
  destruct (opt_block_render u (ip_block i) area b1) as [b2|] eqn:E2; [|discriminate]. cbn [bind] in E. destruct (neatly_boxed _ _ _ Hk b2 T1 E2) as [T2 A2].
  destruct (input_line_of u i _ s) as [[l s']|] eqn:El; [|discriminate]. cbn [bind] in E.
  assert (Hl : line_drawn l).
  { unfold input_line_of in El. destruct (get_bounds _ _ _ _) as [[first last]|]; [|discriminate]. cbn [bind is_text is_cursor is_offset is_show] in El.
    destruct (skip (is_text s) first) as [rest|] eqn:Er; [|discriminate]. cbn [bind] in El. destruct (take rest (last - first)) as [sh|] eqn:Es; [|discriminate]. cbn [bind] in El.
    assert (Hsh : forall c, In c sh -> A c) by (intros c I; apply Tx; eapply skip_in; [exact Er|]; eapply take_in; [exact Es|exact I]).
    destruct (input_split i _) as [[[bf cu] af]|] eqn:Ei; [|discriminate]. cbn [bind] in El. injection El as <- _.
    assert (Hsplit : span_drawn bf /\ span_drawn cu /\ span_drawn af).
    { unfold input_split in Ei. destruct (is_is_empty _).
      - destruct (ip_placeholder i) as [|c r] eqn:Epl; injection Ei as <- <- <-.
        + repeat split; cbn; auto using drawn_nil, showable_new; try apply drawn_nil; try discriminate.
        + split; [split; [apply drawn_nil|apply showable_new]|]. split; split; cbn; auto; [apply drawn_one, Pl; now left|apply drawn_concat; intros d I; apply Pl; now right].
      - destruct (split_at_cursor _) as [[[before under] after]|] eqn:Ec; [|discriminate]. cbn [bind] in Ei.
        assert (Hc3 : letters before /\ (A under \/ under = []) /\ letters after).
        { unfold split_at_cursor in Ec. cbn [is_text is_cursor] in Ec. destruct (_ || _); [injection Ec as <- <- <-; repeat split; [intros c []|now right|intros c I; left; auto]|].
          destruct (index_at sh _) as [un|] eqn:Eu; [|discriminate]. cbn [bind] in Ec. injection Ec as <- <- <-. repeat split.
          - intros c I. left. apply Hsh. match type of I with In _ (firstn ?n _) => rewrite <- (firstn_skipn n sh) end. apply in_or_app. now left.
          - left. apply Hsh. eapply index_at_in; exact Eu.
          - intros c I. left. apply Hsh. destruct (_ >? _); [|destruct I]. match type of I with In _ (skipn ?n _) => rewrite <- (firstn_skipn n sh) end. apply in_or_app. now right. }
        destruct Hc3 as (Hb & Hun & Ha). assert (Hbu : letters (before ++ [under])) by (intros c I; apply in_app_or in I; destruct I as [I|[<-|[]]]; auto).
        destruct after as [|c r]; injection Ei as <- <- <-.
        + split; [split; [now apply drawn_letters|apply showable_new]|]. split; split; cbn; try apply drawn_nil; apply showable_new.
        + split; [split; [now apply drawn_letters|apply showable_new]|]. split; split; cbn; try apply showable_new; [apply drawn_letter, Ha; now left|apply drawn_letters; intros d I; apply Ha; now right]. }
    destruct Hsplit as (Hb & Hcur & Ha). split; [apply showable_new|]. cbn [ln_spans]. intros x [<-|[<-|[<-|[<-|[]]]]].
    - destruct (is_empty_str (ip_prompt i)); split; cbn; auto using drawn_nil, showable_new.
    - exact Hb.
    - destruct (is_show s); [|exact Hcur]. cbv zeta. cbn [sp_content sp_style]. clear E. destruct (is_empty_str (sp_content cu)); split; cbn; try (apply drawn_one, (al_space _ _ HA)); try apply Hcur; apply showable_patched; auto; apply Hcur.
    - exact Ha. }
  unfold line_render in E. destruct (line_render_with u l _ b2 AlignNone) as [b3|] eqn:E3; [|discriminate]. cbn [bind] in E. injection E as <-.
  destruct (neatly_line_with _ _ _ _ Hl b3 T2 E3) as [T3 A3]. split; [exact T3|congruence].
Qed.
Lemma neatly_popup p r b : boxed_drawn u te A (pp_block p) -> showable (pp_style p) -> neatly b (popup_render_at u p r b).
Proof.
  intros Hk Hs. unfold popup_render_at. apply neatly_bind; [apply neatly_clear|]. intros b1 _ _ _. apply neatly_bind; [now apply neatly_set_style|]. intros b2 _ _ _. now apply neatly_boxed.
Qed.

Theorem made_neatly w : made u te A w -> forall area b, neatly b (w area b).
Proof.
  induction 1 as [| |s Hs|l Hl|t Ht|k Hk| |s st Ha Hs|k p Hk Hs Ht|l s Hk Hs Hh Hy Ht|t Hk Hs Hh Hd HL HR Ht|g Hk Hs Hg Hl Hn|junk s st|row_of i s Hk Hs Hp Hcu Hpr Dp Pl Tx|p Hk Hs|f w _ IH|w w' _ IH _ IH'|f _ IH|w w' _ IH E]; intros area b.
  - apply neatly_ret.
  - apply neatly_panic.
  - now apply neatly_span.
  - now apply neatly_line_with.
  - now apply neatly_text.
  - now apply neatly_block.
  - apply neatly_clear.
  - now apply neatly_fill.
  - now apply neatly_paragraph.
  - now apply neatly_list.
  - now apply neatly_tabs.
  - now apply neatly_gauge.
  - now apply neatly_scroll.
  - now apply neatly_input.
  - now apply neatly_popup.
  - apply IH.
  - apply neatly_bind; [apply IH|]. intros b1 _ _ _. apply IH'.
  - apply IH.
  - rewrite <- E. apply IH.
Qed.
End Frame.
