(** What the terminal shows after DefaultBackend.Draw. *)
From Verif Require Import Base M_Geom S_Geom M_Style M_Uniseg M_Buffer S_Buffer M_Ansi M_Backend S_Terminal S_Ansi S_Display
  P_Base P_Ansi P_Attr.
From Coq Require Import ZArith NArith List Bool Lia.
Import ListNotations.
Open Scope Z_scope.

Lemma color_sgr te c (bg : bool) T rest a : color_shown te c = Some T ->
  sgr (color_params te c bg ++ rest) a = sgr rest (if bg then set_bg T a else set_fg T a).
Proof.
  destruct c as [| |n|n|s]; cbn [color_shown color_params]; try discriminate.
  - intros H. injection H as <-. destruct bg; destruct a; reflexivity.
  - destruct (N.ltb_spec n 16) as [Hn|]; [|discriminate]. intros H. injection H as <-.
    destruct n as [|p]; [destruct bg; destruct a; reflexivity|].
    do 4 (destruct p as [p|p|]; try (destruct bg; destruct a; reflexivity)); exfalso; lia.
  - intros H. injection H as <-. destruct bg; reflexivity.
  - destruct (hex te s) as [[[r g] b]|]; [|discriminate]. intros H. injection H as <-. destruct bg; reflexivity.
Qed.

Lemma colors_exec u te t f b F B : color_shown te f = Some F -> color_shown te b = Some B ->
  exec u t (commands_tokens u te [SetColors (Some f) (Some b)]) = set_attr (set_bg B (set_fg F (t_attr t))) t.
Proof.
  intros HF HB. unfold commands_tokens. cbn [flat_map command_tokens command_ptoks app exec fold_left exec_token].
  f_equal.
  assert (Hne : color_params te f false ++ color_params te b true <> []).
  { intros E. apply app_eq_nil in E. destruct E as [E _]. destruct f as [| | | |s]; cbn in E; try discriminate.
    destruct (hex te s) as [[[? ?] ?]|]; discriminate. }
  destruct (color_params te f false ++ color_params te b true) eqn:E; [congruence|]. rewrite <- E.
  rewrite (color_sgr te f false F) by auto.
  rewrite <- (app_nil_r (color_params te b true)). rewrite (color_sgr te b true B) by auto. reflexivity.
Qed.

Lemma str_eqb_eq a : forall b, str_eqb a b = true -> a = b.
Proof.
  induction a as [|x a IH]; intros [|y b] H; cbn in H; try discriminate; auto.
  apply andb_prop in H. destruct H as [H1 H2]. apply N.eqb_eq in H1. subst. f_equal. auto.
Qed.
Lemma color_eqb_eq a b : color_eqb a b = true -> a = b.
Proof.
  destruct a, b; cbn; intros H; try discriminate; auto; try (apply N.eqb_eq in H; congruence).
  apply str_eqb_eq in H. congruence.
Qed.
Lemma ocolor_eqb_eq a b : ocolor_eqb a b = true -> a = b.
Proof. destruct a, b; cbn; intros H; try discriminate; auto. apply color_eqb_eq in H. congruence. Qed.
Lemma cell_eqb_eq a b : cell_eqb a b = true -> a = b.
Proof.
  destruct a as [a1 a2 a3 a4 a5], b as [b1 b2 b3 b4 b5]. unfold cell_eqb; cbn [csym cfg cbg cmod cskip]. rewrite !andb_true_iff. intros [[[[H1 H2] H3] H4] H5].
  apply str_eqb_eq in H1. apply ocolor_eqb_eq in H2, H3. apply N.eqb_eq in H4. apply eqb_prop in H5. congruence.
Qed.

Lemma str_eqb_refl a : str_eqb a a = true.
Proof. induction a; cbn; auto. now rewrite N.eqb_refl. Qed.
Lemma color_eqb_refl a : color_eqb a a = true.
Proof. destruct a; cbn; auto using N.eqb_refl, str_eqb_refl. Qed.
Lemma ocolor_eqb_refl a : ocolor_eqb a a = true.
Proof. destruct a; cbn; auto using color_eqb_refl. Qed.
Lemma cell_eqb_refl a : cell_eqb a a = true.
Proof. unfold cell_eqb. now rewrite str_eqb_refl, !ocolor_eqb_refl, N.eqb_refl, eqb_reflx. Qed.

Definition reset_ok (te : termenv) : Prop := conv te (Some ColReset) = Some ColReset.

(** [has] with the constants, as bits *)
Lemma attr_for_bits f b m : attr_for f b m =
  TAttr f b (N.testbit m 0) (N.testbit m 1) (N.testbit m 2) (N.testbit m 3) (N.testbit m 4) (N.testbit m 5) (N.testbit m 6)
    (N.testbit m 7) (N.testbit m 8).
Proof.
  unfold attr_for.
  change ModifierBold with (2 ^ 0)%N. change ModifierDim with (2 ^ 1)%N. change ModifierItalic with (2 ^ 2)%N.
  change ModifierUnderlined with (2 ^ 3)%N. change ModifierSlowBlink with (2 ^ 4)%N. change ModifierRapidBlink with (2 ^ 5)%N.
  change ModifierReversed with (2 ^ 6)%N. change ModifierHidden with (2 ^ 7)%N. change ModifierCrossedOut with (2 ^ 8)%N.
  now rewrite !has_bit.
Qed.

Lemma expressible_bits m : expressible m -> N.testbit m 7 = false /\ N.testbit m 4 && N.testbit m 5 = false.
Proof.
  unfold expressible. change ModifierHidden with (2 ^ 7)%N. change ModifierSlowBlink with (2 ^ 4)%N. change ModifierRapidBlink with (2 ^ 5)%N.
  now rewrite !has_bit.
Qed.

Lemma transition_ok from to f b : expressible from -> expressible to ->
  transition from to (attr_for f b from) = attr_for f b to.
Proof.
  intros H1 H2. apply expressible_bits in H1, H2. destruct H1 as [H1 H1'], H2 as [H2 H2'].
  rewrite !attr_for_bits. rewrite transition_spec. rewrite H1, H2.
  f_equal; destruct (N.testbit from 4), (N.testbit from 5), (N.testbit to 4), (N.testbit to 5); try reflexivity; discriminate.
Qed.

Lemma transition_same m f b h : transition m m (TAttr f b (N.testbit m 0) (N.testbit m 1) (N.testbit m 2) (N.testbit m 3) (N.testbit m 4) (N.testbit m 5) (N.testbit m 6) h (N.testbit m 8))
  = TAttr f b (N.testbit m 0) (N.testbit m 1) (N.testbit m 2) (N.testbit m 3) (N.testbit m 4) (N.testbit m 5) (N.testbit m 6) h (N.testbit m 8).
Proof. rewrite transition_spec. f_equal; [now destruct (N.testbit m 5)|now destruct (N.testbit m 4)]; destruct (N.testbit m 4), (N.testbit m 5); reflexivity. Qed.

(** The terminal's attributes are what the library believes. *)
Definition in_sync (te : termenv) (st : draw_state) (t : term) : Prop :=
  t_attr t = attr_for (shown_or_default te (ds_fg st)) (shown_or_default te (ds_bg st)) (ds_mod st) /\ expressible (ds_mod st).

Definition put (u : uniseg) (te : termenv) (f : pos -> tglyph) (pc : pos * cell) : pos -> tglyph :=
  place u (fst pc) (csym (snd pc)) (attr_of te (snd pc)) f.

(** The glyph fits on the screen at [p]. *)
Definition fits (u : uniseg) (t : term) (pc : pos * cell) : Prop :=
  0 <= px (fst pc) /\ px (fst pc) + cwidth u (csym (snd pc)) <= t_w t /\ 0 <= py (fst pc) < t_h t.

Lemma shown_color te oc : shown te oc <> None -> exists c, conv te oc = Some c /\ color_shown te c = Some (shown_or_default te oc).
Proof.
  unfold shown_or_default, shown. destruct (conv te oc) as [c|]; [|congruence]. intros H. exists c. split; auto.
  destruct (color_shown te c); congruence.
Qed.

Lemma set_colors_attr_for f b f' b' m : set_bg b' (set_fg f' (attr_for f b m)) = attr_for f' b' m.
Proof. reflexivity. Qed.

Lemma draw_cell_exec u te st p c t : in_sync te st t -> cell_ok u te c -> fits u t (p, c) ->
  (adjacent (ds_last st) p = true -> t_cur t = Some p) ->
  let (cs, st') := draw_cell te st (p, c) in
  exec u t (commands_tokens u te cs) =
    Term (t_w t) (t_h t) (put u te (t_cells t) (p, c)) (Some (Pos (px p + cwidth u (csym c)) (py p))) (attr_of te c) (t_visible t)
  /\ st' = DrawState (Some p) (cmod c) (cfg c) (cbg c).
Proof.
  intros [Hattr Hexp] Hok Hfit Hadj. cbn [draw_cell]. split; [|reflexivity].
  rewrite !commands_tokens_app, !exec_app.
  set (t1 := exec u t (commands_tokens u te (if adjacent (ds_last st) p then [] else [MoveTo (px p) (py p)]))).
  assert (E1 : t1 = Term (t_w t) (t_h t) (t_cells t) (Some p) (t_attr t) (t_visible t)).
  { unfold t1. destruct (adjacent (ds_last st) p).
    - rewrite <- Hadj by auto. now destruct t.
    - unfold commands_tokens. cbn [flat_map command_tokens command_ptoks app exec fold_left exec_token].
      destruct Hfit as (Hx & Hxw & Hy). cbn [fst snd] in *. pose proof (ok_width _ _ _ Hok) as Hw.
      unfold num1. rewrite !Z2N.id by lia. rewrite !Z.max_r by lia. unfold move_to, on_screen. cbn [px py].
      replace (px p + 1 - 1) with (px p) by lia. replace (py p + 1 - 1) with (py p) by lia.
      destruct p as [x y]; cbn [px py] in *.
      replace ((0 <=? x) && (x <? t_w t) && (0 <=? y) && (y <? t_h t)) with true; [reflexivity|].
      symmetry. rewrite !andb_true_iff, !Z.leb_le, !Z.ltb_lt. lia. }
  clearbody t1. subst t1.
  set (t1 := Term _ _ _ _ _ _).
  set (t2 := exec u t1 (commands_tokens u te (if (cmod c =? ds_mod st)%N then [] else modifier_diff (ds_mod st) (cmod c)))).
  assert (E2 : t2 = Term (t_w t) (t_h t) (t_cells t) (Some p)
     (attr_for (shown_or_default te (ds_fg st)) (shown_or_default te (ds_bg st)) (cmod c)) (t_visible t)).
  { unfold t2. destruct (N.eqb_spec (cmod c) (ds_mod st)) as [E|E].
    - cbn. unfold t1. now rewrite E, Hattr.
    - rewrite modifier_diff_exec. unfold t1; cbn [t_attr set_attr]. unfold set_attr; cbn. f_equal.
      rewrite Hattr. apply transition_ok; auto. apply Hok. }
  clearbody t2. subst t2. set (t2 := Term _ _ _ _ _ _).
  match goal with |- context [exec u t2 ?K] => set (t3 := exec u t2 K) end.
  assert (E3 : t3 = Term (t_w t) (t_h t) (t_cells t) (Some p) (attr_of te c) (t_visible t)).
  { unfold t3. destruct (ocolor_eqb (cfg c) (ds_fg st) && ocolor_eqb (cbg c) (ds_bg st)) eqn:E.
    - apply andb_prop in E. destruct E as [Ef Eb]. apply ocolor_eqb_eq in Ef, Eb.
      cbn. unfold t2, attr_of. now rewrite Ef, Eb.
    - destruct (shown_color te (cfg c) (ok_fg _ _ _ Hok)) as (f & Hf & Sf).
      destruct (shown_color te (cbg c) (ok_bg _ _ _ Hok)) as (b & Hb & Sb).
      rewrite Hf, Hb. rewrite (colors_exec u te t2 f b _ _ Sf Sb). unfold t2, set_attr; cbn [t_w t_h t_cells t_cur t_attr t_visible].
      f_equal. }
  clearbody t3. subst t3.
  unfold commands_tokens. cbn [flat_map command_tokens]. rewrite app_nil_r. rewrite (ok_single _ _ _ Hok).
  cbn [map exec fold_left exec_token]. unfold print_glyph. cbn [t_w t_h t_cells t_cur t_attr t_visible].
  destruct Hfit as (Hx & Hxw & Hy). cbn [fst snd] in *. pose proof (ok_width _ _ _ Hok) as Hw.
  replace (cwidth u (csym c) =? 0) with false by (symmetry; apply Z.eqb_neq; lia).
  unfold on_screen. cbn [t_w t_h].
  replace ((0 <=? px p) && (px p <? t_w t) && (0 <=? py p) && (py p <? t_h t) && (px p + cwidth u (csym c) <=? t_w t)) with true; [reflexivity|].
  symmetry. rewrite !andb_true_iff, !Z.leb_le, !Z.ltb_lt. lia.
Qed.

(** Consecutive updates printed without moving the cursor follow a one-column glyph. *)
Fixpoint chain (u : uniseg) (last : option (pos * cell)) (l : list (pos * cell)) : Prop :=
  match l with
  | [] => True
  | (p, c) :: l' =>
      (forall p0 c0, last = Some (p0, c0) -> px p0 + 1 = px p -> py p0 = py p -> cwidth u (csym c0) = 1)
      /\ chain u (Some (p, c)) l'
  end.

Lemma draw_cells_exec u te l : forall st t last, in_sync te st t -> ds_last st = option_map fst last ->
  (forall p0 c0, last = Some (p0, c0) -> t_cur t = Some (Pos (px p0 + cwidth u (csym c0)) (py p0))) ->
  (forall p c, In (p, c) l -> cell_ok u te c /\ fits u t (p, c)) -> chain u last l ->
  exists cur a, exec u t (commands_tokens u te (draw_cells te st l)) =
    Term (t_w t) (t_h t) (fold_left (put u te) l (t_cells t)) cur a (t_visible t).
Proof.
  induction l as [|[p c] l IH]; intros st t last Hsync Hlast Hcur Hok Hch; cbn [draw_cells fold_left].
  - exists (t_cur t), (t_attr t). now destruct t.
  - destruct (Hok p c (or_introl eq_refl)) as [Hc Hf]. destruct Hch as [Hch1 Hch2].
    pose proof (draw_cell_exec u te st p c t Hsync Hc Hf) as HE.
    destruct (draw_cell te st (p, c)) as [cs st'] eqn:E.
    destruct HE as [HE ->].
    { intros Had. rewrite Hlast in Had. destruct last as [[p0 c0]|]; cbn in Had; [|discriminate].
      apply andb_prop in Had. destruct Had as [A1 A2]. apply Z.eqb_eq in A1, A2.
      rewrite (Hcur p0 c0 eq_refl). rewrite (Hch1 p0 c0 eq_refl A1 A2). f_equal. destruct p; cbn in *. congruence. }
    rewrite commands_tokens_app, exec_app, HE.
    set (t' := Term _ _ _ _ _ _).
    destruct (IH (DrawState (Some p) (cmod c) (cfg c) (cbg c)) t' (Some (p, c))) as (cur & a & H).
    + split; [reflexivity|]. apply Hc.
    + reflexivity.
    + intros p0 c0 E0. injection E0 as <- <-. reflexivity.
    + intros p1 c1 H1. destruct (Hok p1 c1 (or_intror H1)). auto.
    + exact Hch2.
    + exists cur, a. rewrite H. reflexivity.
Qed.

Lemma draw_exec u te t l : reset_ok te -> t_attr t = default_attr ->
  (forall p c, In (p, c) l -> cell_ok u te c /\ fits u t (p, c)) -> chain u None l ->
  exists cur, exec u t (commands_tokens u te (backend_draw te l)) =
    Term (t_w t) (t_h t) (fold_left (put u te) l (t_cells t)) cur default_attr (t_visible t).
Proof.
  intros Hr Ha Hok Hch. unfold backend_draw. rewrite commands_tokens_app, exec_app.
  destruct (draw_cells_exec u te l (DrawState None 0%N (Some ColReset) (Some ColReset)) t None) as (cur & a & E); auto.
  - split; [|split; reflexivity]. rewrite Ha. unfold shown_or_default, shown. cbn [ds_fg ds_bg ds_mod]. rewrite Hr. reflexivity.
  - discriminate.
  - exists cur. rewrite E. destruct a. reflexivity.
Qed.

(** Whatever is drawn, the attributes end up at their defaults. *)
Lemma exec_reset_attr u te t cs : t_attr (exec u t (commands_tokens u te (cs ++ [SetAttribute AttrReset]))) = default_attr.
Proof.
  rewrite commands_tokens_app, exec_app, exec_attr by (cbn; first [reflexivity|discriminate]).
  cbn. now destruct (t_attr _).
Qed.

(** ** Reading text across commands *)
Definition tokens_of (l : list ptok) : list token :=
  flat_map (fun k => match k with PCsi p ps f => [TCsi p ps f] | PChar _ => [] end) l.

Definition only_csi (l : list ptok) : Prop := forall k, In k l -> match k with PCsi _ _ _ => True | PChar _ => False end.


Lemma regroup_csi u l : (forall s, concat (clusters u s) = s) -> (forall s c, In c (clusters u s) -> c <> []) ->
  forall run rest, only_csi l -> l <> [] ->
  regroup u run (l ++ rest) = map TText (clusters u run) ++ tokens_of l ++ regroup u [] rest.
Proof.
  intros Hc Hn. assert (N : clusters u [] = []).
  { destruct (clusters u []) as [|c cl] eqn:E; auto. exfalso. specialize (Hc []). rewrite E in Hc. cbn in Hc.
    apply app_eq_nil in Hc. destruct Hc as [Hc _]. apply (Hn [] c); [rewrite E; now left|auto]. }
  induction l as [|k l IH]; intros run rest H Hne; [easy|].
  pose proof (H k (or_introl eq_refl)) as Hk. destruct k as [r|p ps f]; [easy|].
  cbn [app regroup tokens_of flat_map]. f_equal. f_equal.
  destruct l as [|k' l']; [reflexivity|].
  rewrite IH by (try discriminate; intros x Hx; apply H; now right).
  rewrite N. reflexivity.
Qed.

Lemma regroup_chars u s : forall run rest, regroup u run (map PChar s ++ rest) = regroup u (run ++ s) rest.
Proof.
  induction s as [|r s IH]; intros run rest; cbn [map app regroup]; [now rewrite app_nil_r|].
  rewrite IH. now rewrite <- app_assoc.
Qed.

Lemma ptoks_csi te c : (forall s, c <> Print s) -> only_csi (command_ptoks te c).
Proof.
  intros H k Hk. destruct c as [| |[|] [|]|s'| | | | | | | | | | |]; try (now destruct (H s'));
    cbn in Hk; try tauto; destruct Hk as [<-|[]]; exact I.
Qed.

Definition no_print (l : list command) : Prop := forall s, ~ In (Print s) l.

Lemma no_print_csi te l : no_print l -> only_csi (flat_map (command_ptoks te) l).
Proof.
  intros H k Hk. apply in_flat_map in Hk. destruct Hk as (c & Hc & Hk). apply (ptoks_csi te c); auto.
  intros s ->. exact (H s Hc).
Qed.

Lemma no_print_tokens u te l : no_print l -> commands_tokens u te l = tokens_of (flat_map (command_ptoks te) l).
Proof.
  induction l as [|c l IH]; intros H; [reflexivity|]. cbn [flat_map]. unfold commands_tokens, tokens_of in *. cbn [flat_map].
  rewrite flat_map_app. rewrite <- IH by (intros s Hs; apply (H s); now right). f_equal.
  destruct c as [| | |s'| | | | | | | | | | |]; try reflexivity. exfalso. apply (H s'). now left.
Qed.

Lemma modifier_diff_no_print from to : no_print (modifier_diff from to).
Proof.
  intros s. rewrite modifier_diff_steps. intros H. apply in_flat_map in H. destruct H as ([b a] & _ & H). cbn in H.
  destruct b; cbn in H; [destruct H as [H|[]]; discriminate|destruct H].
Qed.

(** The bytes of a drawing are read as the intended glyphs, one per cell. *)
Lemma draw_regroup u te b rest : uniseg_ok u -> separate u b ->
  forall l st syms p0,
  (forall p c, In (p, c) l -> look b p = Some c) ->
  (forall k s, nth_error syms k = Some s -> exists c, look b (Pos (px p0 + Z.of_nat k) (py p0)) = Some c /\ csym c = s) ->
  (syms <> [] -> ds_last st = Some (Pos (px p0 + zlen syms - 1) (py p0))) ->
  (ds_last st = None -> syms = []) ->
  only_csi rest -> rest <> [] ->
  (l <> [] -> syms = [] -> ds_last st = None) ->
  regroup u (concat syms) (flat_map (command_ptoks te) (draw_cells te st l) ++ rest) =
  map TText syms ++ commands_tokens u te (draw_cells te st l) ++ tokens_of rest.
Proof.
  intros Hu Hsep. induction l as [|[p c] l IH]; intros st syms p0 Hl Hsyms Hlast Hnone Hrc Hrn Hempty.
  - cbn [draw_cells flat_map app]. rewrite <- (app_nil_r rest). rewrite regroup_csi; auto; try apply Hu.
    rewrite (Hsep p0 syms Hsyms). cbn [regroup]. change (@nil N) with (concat (@nil str)). rewrite (Hsep p0 []) by (intros [|k] s; discriminate). cbn [map].
    rewrite !app_nil_r. reflexivity.
  - cbn [draw_cells]. destruct (draw_cell te st (p, c)) as [cs st'] eqn:E. cbn [draw_cell] in E.
    set (pre := (if adjacent (ds_last st) p then [] else [MoveTo (px p) (py p)]) ++
      (if (cmod c =? ds_mod st)%N then [] else modifier_diff (ds_mod st) (cmod c)) ++
      (if ocolor_eqb (cfg c) (ds_fg st) && ocolor_eqb (cbg c) (ds_bg st) then [] else [SetColors (conv te (cfg c)) (conv te (cbg c))])) in *.
    assert (Ecs : cs = pre ++ [Print (csym c)]) by (injection E as <- _; unfold pre; now rewrite <- !app_assoc).
    assert (Est : st' = DrawState (Some p) (cmod c) (cfg c) (cbg c)) by (injection E as _ <-; reflexivity).
    assert (Hpre : no_print pre).
    { unfold pre. intros s Hs. rewrite !in_app_iff in Hs. destruct Hs as [Hs|[Hs|Hs]].
      - destruct (adjacent _ _); [destruct Hs|destruct Hs as [Hs|[]]; discriminate].
      - destruct (_ =? _)%N; [destruct Hs|now apply modifier_diff_no_print in Hs].
      - destruct (_ && _); [destruct Hs|destruct Hs as [Hs|[]]; discriminate]. }
    assert (Hpadj : flat_map (command_ptoks te) pre = [] -> adjacent (ds_last st) p = true).
    { unfold pre. destruct (adjacent (ds_last st) p); auto. cbn. discriminate. }
    clearbody pre. clear E. subst cs st'.
    rewrite <- app_assoc. rewrite flat_map_app, <- app_assoc. cbn [app flat_map command_ptoks]. rewrite <- app_assoc.
    rewrite !commands_tokens_app. rewrite (no_print_tokens u te pre Hpre).
    destruct (flat_map (command_ptoks te) pre) as [|k0 ks] eqn:Ek.
    + specialize (Hpadj eq_refl). cbn [app]. rewrite regroup_chars.
      unfold adjacent in Hpadj. destruct (ds_last st) as [lp|] eqn:El; [|discriminate].
      apply andb_prop in Hpadj. destruct Hpadj as [A1 A2]. apply Z.eqb_eq in A1, A2.
      assert (Hne : syms <> []). { intros Es. specialize (Hempty ltac:(discriminate) Es). discriminate. }
      specialize (Hlast Hne). injection Hlast as ->. cbn [px py] in A1, A2.
      assert (Epos : p = Pos (px p0 + zlen syms) (py p0)). { destruct p; cbn in *; f_equal; lia. }
      replace (concat syms ++ csym c) with (concat (syms ++ [csym c])) by (rewrite concat_app; cbn; now rewrite app_nil_r).
      change (commands_tokens u te (Print (csym c) :: draw_cells te (DrawState (Some p) (cmod c) (cfg c) (cbg c)) l)) with
        (map TText (clusters u (csym c)) ++ commands_tokens u te (draw_cells te (DrawState (Some p) (cmod c) (cfg c) (cbg c)) l)).
      rewrite (IH _ (syms ++ [csym c]) p0); auto.
      * rewrite map_app, <- !app_assoc. f_equal. cbn [tokens_of flat_map app].
        assert (Es : clusters u (csym c) = [csym c]).
        { pose proof (Hsep p [csym c]) as Hs1. cbn [concat app] in Hs1. rewrite app_nil_r in Hs1. apply Hs1.
          intros [|k] s; cbn; intros Es; [|now destruct k]. injection Es as <-. exists c. split; auto.
          rewrite Z.add_0_r. destruct p; cbn. apply Hl. now left. }
        rewrite Es. reflexivity.
      * intros p1 c1 H1. apply Hl. now right.
      * intros k s Hk. destruct (Nat.lt_ge_cases k (length syms)) as [Hlt|Hge].
        { rewrite nth_error_app1 in Hk by auto. now apply Hsyms. }
        rewrite nth_error_app2 in Hk by auto. destruct (k - length syms)%nat as [|j] eqn:Ej; [|now destruct j].
        cbn in Hk. injection Hk as <-. exists c. split; [|reflexivity].
        replace (Pos (px p0 + Z.of_nat k) (py p0)) with p; [apply Hl; now left|]. rewrite Epos. f_equal. unfold zlen. lia.
      * intros _. cbn [ds_last]. rewrite Epos, zlen_app. unfold zlen at 3. cbn [length]. do 2 f_equal. lia.
      * discriminate.
      * intros _ Es. destruct syms; discriminate.
    + rewrite regroup_csi; try apply Hu; [| |discriminate].
      2: { rewrite <- Ek. now apply no_print_csi. }
      rewrite (Hsep p0 syms Hsyms). rewrite <- !app_assoc. f_equal. f_equal.
      rewrite regroup_chars. cbn [app].
      replace (csym c) with (concat [csym c]) at 1 by (cbn; now rewrite app_nil_r).
      change (commands_tokens u te (Print (csym c) :: draw_cells te (DrawState (Some p) (cmod c) (cfg c) (cbg c)) l)) with
        (map TText (clusters u (csym c)) ++ commands_tokens u te (draw_cells te (DrawState (Some p) (cmod c) (cfg c) (cbg c)) l)).
      assert (Es : clusters u (csym c) = [csym c]).
      { pose proof (Hsep p [csym c]) as Hs1. cbn [concat app] in Hs1. rewrite app_nil_r in Hs1. apply Hs1.
        intros [|k] s; cbn; intros Es; [|now destruct k]. injection Es as <-. exists c. split; auto.
        rewrite Z.add_0_r. destruct p; cbn. apply Hl. now left. }
      rewrite (IH _ [csym c] p); auto.
      * rewrite Es. cbn [map app]. reflexivity.
      * intros p1 c1 H1. apply Hl. now right.
      * intros [|k] s Hk; [|now destruct k]. cbn in Hk. injection Hk as <-. exists c. split; [|reflexivity].
        cbn. rewrite Z.add_0_r. destruct p; cbn. apply Hl. now left.
      * intros _. cbn. destruct p; cbn. do 2 f_equal. lia.
      * discriminate.
      * discriminate.
Qed.
