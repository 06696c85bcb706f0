(** C105: what examples/throbber draws in its grid, letter by letter, with comparisons exact. *)
From Verif Require Import Base P_Base M_Geom M_Style M_Uniseg M_Buffer M_Text M_Block M_Options M_Solver M_Layout M_Popup M_Throbber M_View M_ThrobberGrid.
From Verif Require Import S_Geom S_Buffer S_Text S_Line S_Block S_Titles P_Buffer P_Block T_Block T_Text T_Titles T_Solver T_Layout T_Popup T_Throbber T_View T_ThrobberGrid.
From Coq Require Import ZArith NArith List Bool Lia Permutation FinFun.
Import ListNotations.
Open Scope Z_scope.
#[local] Existing Instance no_tolerance.

(** ** What a box should show *)
Definition symbol_at (b : buffer) (p : pos) : option str := option_map csym (look b p).
(** The letter of a text that starts at column [x] of line [y]. *)
Definition text_at (x y : Z) (text : str) (p : pos) : option str :=
  if (py p =? y) && (x <=? px p) then option_map (fun c => [c]) (nth_error text (Z.to_nat (px p - x))) else None.
(** The sides of a frame, thin lines: ─ │ ┌ ┐ └ ┘ *)
Definition thin : frame := Frame [9484%N] [9488%N] [9492%N] [9496%N] [9474%N] [9474%N] [9472%N] [9472%N].
(** In a box: the name of the throbber from its second column, a frame around, and the throbber's frame in the middle of what is left. *)
Definition box_symbol (name f : str) (g : rect) (p : pos) : option str :=
  match text_at (rx g + 1) (ry g) name p with
  | Some c => Some c
  | None =>
      match frame_at true true true true thin g p with
      | Some s => Some s
      | None => text_at (rx g + 1 + (rw g - 2 - zlen f + 1) / 2) (ry g + 1 + (rh g - 2) / 2) f p
      end
  end.
Definition box_shows (name f : str) (g : rect) (b b' : buffer) : Prop :=
  forall p, inside p g -> symbol_at b' p = match box_symbol name f g p with Some s => Some s | None => symbol_at b p end.

(** ** The block *)
Lemma type_titles ty : bk_titles (type_block ty) = [new_title_str (type_string ty)]. Proof. reflexivity. Qed.
Lemma name_spans ty : ln_spans (new_line_str (type_string ty)) = [new_span (type_string ty)].
Proof. destruct ty; vm_compute; reflexivity. Qed.
Lemma name_some ty : 0 < zlen (type_string ty). Proof. destruct ty; vm_compute; reflexivity. Qed.
Lemma name_cells u ty : one_column u (type_string ty) -> line_cells u (ln_spans (new_line_str (type_string ty))) = map (fun c => ([c], new_style)) (type_string ty).
Proof. intros [C _]. rewrite name_spans. unfold line_cells, span_cells. cbn [flat_map new_span sp_content sp_style]. rewrite app_nil_r, C. now rewrite map_map. Qed.
Lemma cells_one u st s : (forall c, In c s -> cwidth u [c] = 1) -> cells_width u (map (fun c => ([c], st)) s) = zlen s.
Proof.
  intros H. unfold cells_width. rewrite map_map. cbn [fst]. induction s as [|c s IH]; [reflexivity|]. cbn [map]. rewrite zsum_cons, zlen_cons, IH by (intros x I; apply H; now right). rewrite H by now left. lia.
Qed.
Lemma name_visible u ty : one_column u (type_string ty) -> forall t, In t (bk_titles (type_block ty)) -> visible_line u (ln_spans (ti_line t)).
Proof.
  intros [C W] t It. rewrite type_titles in It. destruct It as [<-|[]]. change (ti_line (new_title_str (type_string ty))) with (new_line_str (type_string ty)). rewrite name_spans. intros s c [<-|[]] I. cbn [new_span sp_content] in I. rewrite C in I. apply in_map_iff in I. destruct I as (x & <- & I). destruct (W x I) as [A B]. rewrite A. cbn [existsb]. rewrite B. split; [lia|reflexivity].
Qed.
Lemma name_width u ty : one_column u (type_string ty) -> title_width u (new_title_str (type_string ty)) = zlen (type_string ty).
Proof. intros O. unfold title_width. change (ti_line (new_title_str (type_string ty))) with (new_line_str (type_string ty)). rewrite (name_cells u ty O). apply cells_one. intros c I. apply O, I. Qed.
Lemma type_group ty p a : group (type_block ty) p a = match p, a with TitleTop, AlignLeft => [new_title_str (type_string ty)] | _, _ => [] end.
Proof. destruct p, a; reflexivity. Qed.
Lemma type_inner ty g : 2 <= rw g -> 2 <= rh g -> block_inner (type_block ty) g = Rect (rx g + 1) (ry g + 1) (rw g - 2) (rh g - 2).
Proof.
  intros W H. destruct g as [x y w h]. cbn [rx ry rw rh] in *. unfold block_inner. change (bk_borders (type_block ty)) with SideAll. change (has_title_at (type_block ty) TitleTop) with true. change (has_title_at (type_block ty) TitleBottom) with false. change (bk_padding (type_block ty)) with (Padding 0 0 0 0).
  cbn [side_intersects SideAll orb]. unfold with_width, with_height, rright, rbottom. cbn. f_equal; lia.
Qed.

Lemma nth_split_map (s : str) k c : nth_error s k = Some c -> exists l1 l2, map (fun c => ([c], new_style)) s = l1 ++ ([c], new_style) :: l2 /\ l1 = map (fun c => ([c], new_style)) (firstn k s).
Proof.
  intros H. apply nth_error_split in H. destruct H as (s1 & s2 & -> & <-). rewrite map_app. cbn [map]. rewrite firstn_app, Nat.sub_diag, firstn_all. cbn [firstn]. rewrite app_nil_r. eexists _, _. split; reflexivity.
Qed.
Lemma untitled u ty g p b : one_column u (type_string ty) -> sized g -> (py p = ry g -> px p < rx g + 1 \/ rx g + 1 + zlen (type_string ty) <= px p) ->
  option_map (fun c => titled u (type_block ty) g p (framed (frame_at (N.testbit (bk_borders (type_block ty)) 3) (N.testbit (bk_borders (type_block ty)) 0) (N.testbit (bk_borders (type_block ty)) 1) (N.testbit (bk_borders (type_block ty)) 2) (the_frame (bk_set (type_block ty))) g p) (bk_border_style (type_block ty)) (cell_set_style (bk_style (type_block ty)) c))) (look b p) =
  option_map (fun c => match frame_at true true true true thin g p with Some s => cell_set_symbol s c | None => c end) (look b p).
Proof.
  intros O Sz H. destruct (look b p) as [c|]; [|reflexivity]. cbn [option_map]. f_equal. change (bk_borders (type_block ty)) with SideAll. change (N.testbit SideAll 3) with true. change (N.testbit SideAll 0) with true. change (N.testbit SideAll 1) with true. change (N.testbit SideAll 2) with true.
  change (the_frame (bk_set (type_block ty))) with thin. change (bk_border_style (type_block ty)) with new_style. change (bk_style (type_block ty)) with new_style. rewrite set_no_style. set (c' := framed _ _ c).
  assert (Ec : c' = match frame_at true true true true thin g p with Some s => cell_set_symbol s c | None => c end) by (unfold c', framed; destruct (frame_at true true true true thin g p); [apply set_no_style|reflexivity]). rewrite <- Ec. clearbody c'. clear Ec c.
  unfold titled. change (bk_borders (type_block ty)) with SideAll. change (N.testbit SideAll 3) with true. change (N.testbit SideAll 1) with true. cbv zeta.
  assert (B : forall x, title_row u (type_block ty) TitleBottom (rw g - 1 - 1) (px p - rx g - 1) x = x) by (intros x; unfold title_row; rewrite !type_group; reflexivity). rewrite B.
  assert (T : py p = ry g -> 0 <= px p - rx g - 1 -> title_row u (type_block ty) TitleTop (rw g - 1 - 1) (px p - rx g - 1) c' = c').
  { intros Ey Ex. unfold title_row. rewrite !type_group. unfold over. cbn [slot_at group_start]. rewrite (name_width u ty O). destruct (Z.ltb_spec (px p - rx g - 1) (0 + zlen (type_string ty))); [specialize (H Ey); lia|]. now rewrite andb_false_r. }
  destruct (Z.eqb_spec (py p) (ry g)) as [Ey|Ey]; cbn [andb]; [|now destruct ((py p =? ry g + rh g - 1) && _ && _)].
  destruct (Z.leb_spec 0 (px p - rx g - 1)) as [Ex|Ex]; cbn [andb]; [rewrite (T Ey Ex)|]; destruct ((py p =? ry g + rh g - 1)); cbn [andb]; repeat match goal with |- context [if ?x then _ else _] => destruct x end; reflexivity.
Qed.
Lemma block_box u ty g b b' : uniseg_ok u -> one_column u (type_string ty) -> wf_buffer b -> sized g -> 0 <= rx g -> subrect g (barea b) -> zlen (type_string ty) + 2 <= rw g -> 2 <= rh g ->
  block_render u (type_block ty) g b = Ret b' ->
  forall p, inside p g -> symbol_at b' p = match text_at (rx g + 1) (ry g) (type_string ty) p with Some c => Some c | None => match frame_at true true true true thin g p with Some s => Some s | None => symbol_at b p end end.
Proof.
  intros Hu O W Sz Rx Sub Hw Hh E p I. pose proof (name_some ty) as Ns. unfold text_at. destruct ((py p =? ry g) && (rx g + 1 <=? px p)) eqn:Top.
  - apply andb_prop in Top. destruct Top as [Ty Tx]. apply Z.eqb_eq in Ty. apply Z.leb_le in Tx. destruct (nth_error (type_string ty) (Z.to_nat (px p - (rx g + 1)))) as [c|] eqn:Ec; cbn [option_map].
    + destruct (nth_split_map _ _ _ Ec) as (l1 & l2 & El & E1).
      destruct (C88_shown u (type_block ty) g b TitleTop AlignLeft [] (new_title_str (type_string ty)) [] l1 [c] new_style l2 Hu W Sz Rx ltac:(lia) (name_visible u ty O) Sub) as (b1 & cell & Eb & L & Cs).
      * discriminate.
      * reflexivity.
      * cbn. lia.
      * rewrite (name_width u ty O). cbn. lia.
      * intros a' o Na _. rewrite type_group. destruct a'; [reflexivity|now elim Na|reflexivity..].
      * change (ti_line (new_title_str (type_string ty))) with (new_line_str (type_string ty)). rewrite (name_cells u ty O). exact El.
      * rewrite E in Eb. injection Eb as <-. unfold symbol_at. rewrite E1 in L. rewrite cells_one in L by (intros x Ix; apply O; rewrite <- (firstn_skipn (Z.to_nat (px p - (rx g + 1))) (type_string ty)); apply in_or_app; now left).
        assert (Lk : (Z.to_nat (px p - (rx g + 1)) < length (type_string ty))%nat) by (apply nth_error_Some; congruence). unfold zlen in L. rewrite firstn_length_le in L by lia. cbn in L.
        replace (Pos _ _) with p in L; [rewrite L; cbn; now rewrite Cs|]. destruct p as [x y]. cbn [px py] in *. f_equal; lia.
    + destruct (C88_rendered u (type_block ty) g b Hu W Sz Rx (name_visible u ty O) Sub) as (b1 & Eb & L). rewrite E in Eb. injection Eb as <-. unfold symbol_at. rewrite (L p I). apply nth_error_None in Ec.
      rewrite (untitled u ty g p b O); [|exact Sz|intros _; unfold zlen; lia]. destruct (look_inside b p W (Sub p I)) as (c0 & ->). now destruct (frame_at true true true true thin g p).
  - destruct (C88_rendered u (type_block ty) g b Hu W Sz Rx (name_visible u ty O) Sub) as (b1 & Eb & L). rewrite E in Eb. injection Eb as <-. unfold symbol_at. rewrite (L p I).
    rewrite (untitled u ty g p b O); [destruct (look_inside b p W (Sub p I)) as (c0 & ->); now destruct (frame_at true true true true thin g p)|exact Sz|].
    intros Ey. rewrite Ey, Z.eqb_refl in Top. cbn [andb] in Top. apply Z.leb_gt in Top. lia.
Qed.

(** ** The box with its throbber *)
Lemma text_none x y s p : text_at x y s p = None -> ~ (py p = y /\ x <= px p < x + zlen s).
Proof.
  unfold text_at. intros H [A B]. destruct (Z.eqb_spec (py p) y); [|contradiction]. destruct (Z.leb_spec x (px p)); [|lia]. cbn [andb] in H. destruct (nth_error s (Z.to_nat (px p - x))) eqn:Q; [discriminate|]. apply nth_error_None in Q. unfold zlen in B. lia.
Qed.
Lemma text_some x y s p c : text_at x y s p = Some c -> exists k r, nth_error s k = Some r /\ c = [r] /\ p = Pos (x + Z.of_nat k) y.
Proof.
  unfold text_at. intros H. destruct (Z.eqb_spec (py p) y) as [Ey|]; [|discriminate]. destruct (Z.leb_spec x (px p)) as [Ex|]; [|discriminate]. cbn [andb] in H. destruct (nth_error s (Z.to_nat (px p - x))) as [r|] eqn:Q; [|discriminate]. injection H as <-. exists (Z.to_nat (px p - x)), r. split; [exact Q|]. split; [reflexivity|]. destruct p as [px0 py0]. cbn [px py] in *. f_equal; lia.
Qed.
Lemma no_frame g p : rx g < px p < rx g + rw g - 1 -> ry g < py p < ry g + rh g - 1 -> frame_at true true true true thin g p = None.
Proof.
  intros X Y. unfold frame_at. destruct (Z.eqb_spec (px p) (rx g)); [lia|]. destruct (Z.eqb_spec (px p) (rx g + rw g - 1)); [lia|]. destruct (Z.eqb_spec (py p) (ry g)); [lia|]. destruct (Z.eqb_spec (py p) (ry g + rh g - 1)); [lia|]. rewrite !andb_false_r. cbn [andb]. now destruct (negb _).
Qed.
Lemma type_inner_pos ty g : sized g -> 0 <= rx g -> 0 <= ry g -> 0 <= rx (block_inner (type_block ty) g) /\ 0 <= ry (block_inner (type_block ty) g).
Proof.
  intros [W H] X Y. destruct g as [x y w h]. cbn [rx ry rw rh] in *. unfold block_inner. change (bk_borders (type_block ty)) with SideAll. change (has_title_at (type_block ty) TitleTop) with true. change (has_title_at (type_block ty) TitleBottom) with false. change (bk_padding (type_block ty)) with (Padding 0 0 0 0).
  cbn [side_intersects SideAll orb]. unfold with_width, with_height, rright, rbottom. cbn. lia.
Qed.
(** The letters that are drawn take one column each. *)
Definition plain_letters (u : uniseg) : Prop := forall ty, one_column u (type_string ty) /\ forall f, In f (frame_set ty) -> one_column u f.
(** The frame that a throbber shows after [n] ticks that it took. *)
Definition frame_after (ty : throbber_type) (n : Z) : str := nth (Z.to_nat (n mod zlen (frame_set ty))) (frame_set ty) [].
Lemma one_box u r r' ty ms s acc last_id g b b1 o : uniseg_ok u -> plain_letters u -> wf_buffer b -> sized g -> 0 <= rx g -> 0 <= ry g -> subrect g (barea b) ->
  receives (snd (new_throbber_state last_id)) ms = (s, acc) -> let t := throbber_with_type new_throbber ty in
  (forall f, any_run r (throbber_rows u t f) /\ any_run r' (throbber_columns u t f)) ->
  block_render u (type_block ty) g b = Ret b1 -> throbber_render u r r' t (block_inner (type_block ty) g) b1 s = Some o ->
  exists b2, o = Ret b2 /\ changed_only (fun p => inside p g) b b2 /\
    (zlen (type_string ty) + 2 <= rw g -> 3 <= rh g -> box_shows (type_string ty) (frame_after ty (zlen acc)) g b b2).
Proof.
  intros Hu Pl W Sz Rx Ry Sub Rc t Rn Eb Et. assert (Pd : padded (type_block ty)) by (unfold padded; cbn; lia).
  destruct (C31_render_stays_inside u (type_block ty) g b Hu W Sz Rx Pd Sub) as (b1' & Eb' & Ch & _). rewrite Eb in Eb'. injection Eb' as <-. assert (Ch' := Ch). destruct Ch' as (A1 & W1 & _).
  assert (Si := block_inner_sized (type_block ty) g). assert (Ii : subrect (block_inner (type_block ty) g) g) by (intros p P; now apply (C31_inner_excludes_decoration (type_block ty) g p Sz Pd)). destruct (type_inner_pos ty g Sz Rx Ry) as [Xi Yi].
  assert (Sb : subrect (block_inner (type_block ty) g) (barea b1)) by (intros p P; rewrite A1; apply Sub, Ii, P).
  destruct (C69_exact_partial u r r' ty ms s acc last_id _ b1 Hu W1 Si Xi Yi Sb Rc) as (f & Nf & H). destruct (C32_frame_exists ty ms s acc last_id Rc) as (f' & Ef & Nf'). assert (f' = f) by congruence. subst f'. destruct (Rn f) as [R1 R2]. destruct (H R1 R2) as [Np Sh]. clear H. fold t in Np, Sh.
  assert (Et' := Et). unfold throbber_render in Et'. change (tw_set t) with (frame_set ty) in Et'. rewrite Ef in Et'. destruct (throbber_area u r r' t f (block_inner (type_block ty) g)) as [at_| |] eqn:Ea; [|now elim Np|discriminate]. clear Et'.
  destruct (Sh at_ eq_refl) as (b2 & E2 & C2 & L2). rewrite E2 in Et. injection Et as <-. exists b2. split; [reflexivity|]. split; [eapply changed_only_trans; [exact Ch|]; eapply changed_only_weaken; [|exact C2]; exact Ii|].
  intros Hw Hh p I. assert (Fa : frame_after ty (zlen acc) = f) by (unfold frame_after; now apply nth_error_nth). rewrite Fa. assert (If : In f (frame_set ty)) by (eapply nth_error_In; exact Nf).
  assert (Lf : zlen f + 2 <= rw g). { assert (Lf : zlen f <= zlen (type_string ty)); [|lia]. clear - If. destruct ty; cbn in If; repeat (destruct If as [<-|If]; [vm_compute; discriminate|]); destruct If. }
  pose proof (name_some ty) as Ns. rewrite (type_inner ty g) in L2 by lia. cbn [rx ry rw rh] in L2. specialize (L2 (proj2 (Pl ty) f If) ltac:(lia) ltac:(lia)). cbv zeta in L2. set (x := rx g + 1 + (rw g - 2 - zlen f + 1) / 2) in *. set (y := ry g + 1 + (rh g - 2) / 2) in *. destruct L2 as [L2 L3].
  assert (Bx : rx g + 1 <= x /\ x + zlen f <= rx g + rw g - 1). { unfold x. pose proof (Z.div_mod (rw g - 2 - zlen f + 1) 2 ltac:(lia)) as D. pose proof (Z.mod_pos_bound (rw g - 2 - zlen f + 1) 2 ltac:(lia)) as M. lia. }
  assert (By : ry g + 1 <= y < ry g + rh g - 1). { unfold y. pose proof (Z.div_mod (rh g - 2) 2 ltac:(lia)) as D. pose proof (Z.mod_pos_bound (rh g - 2) 2 ltac:(lia)) as M. lia. }
  pose proof (block_box u ty g b b1 Hu (proj1 (Pl ty)) W Sz Rx Sub Hw ltac:(lia) Eb p I) as B1. unfold box_symbol. fold x y. destruct (text_at x y f p) as [c|] eqn:T.
  - destruct (text_some _ _ _ _ _ T) as (k & c' & K & -> & ->). destruct (L2 k c' K) as (cell & _ & L). assert (Kl : (k < length f)%nat) by (apply nth_error_Some; congruence). unfold zlen in Bx. rewrite no_frame by (cbn [px py]; lia). unfold symbol_at at 1. rewrite L. cbn [option_map].
    unfold text_at at 1. cbn [px py]. destruct (Z.eqb_spec y (ry g)); [lia|]. cbn [andb]. reflexivity.
  - unfold symbol_at at 1. rewrite (L3 p (text_none _ _ _ _ T)). fold (symbol_at b1 p). rewrite B1. destruct (text_at (rx g + 1) (ry g) (type_string ty) p); [reflexivity|]. now destruct (frame_at true true true true thin g p).
Qed.

(** ** All of them *)
Definition spin_runs (u : uniseg) (rs : nat -> run * run) : Prop := forall i ty f, let t := throbber_with_type new_throbber ty in any_run (fst (rs i)) (throbber_rows u t f) /\ any_run (snd (rs i)) (throbber_columns u t f).
Lemma draw_types_ok u rs ms s acc last_id grid area : uniseg_ok u -> plain_letters u -> receives (snd (new_throbber_state last_id)) ms = (s, acc) -> spin_runs u rs -> 0 <= rx area -> 0 <= ry area ->
  (forall g, In g grid -> sized g /\ subrect g area /\ rx area <= rx g /\ ry area <= ry g) -> (forall i j g g' p, i <> j -> nth_error grid i = Some g -> nth_error grid j = Some g' -> inside p g -> inside p g' -> False) ->
  forall types i b o, (i + length types <= length grid)%nat -> wf_buffer b -> subrect area (barea b) -> draw_types u rs s grid i types b = Some o ->
  exists b', o = Ret b' /\ changed_only (fun p => exists k g, (i <= k)%nat /\ nth_error grid k = Some g /\ inside p g) b b' /\
    forall k ty g, nth_error types k = Some ty -> nth_error grid (i + k) = Some g -> zlen (type_string ty) + 2 <= rw g -> 3 <= rh g -> box_shows (type_string ty) (frame_after ty (zlen acc)) g b b'.
Proof.
  intros Hu Pl Rc Rn Rx Ry Gs Dj. induction types as [|ty types IH]; intros i b o Len W Sub E; cbn [draw_types] in E.
  - injection E as <-. exists b. split; [reflexivity|]. split; [split; [reflexivity|]; split; [exact W|reflexivity]|]. intros k ty g K. destruct k; discriminate.
  - cbn [length] in Len. destruct (nth_error grid i) as [g|] eqn:Gi; [|apply nth_error_None in Gi; lia]. assert (Ei : index_at grid (Z.of_nat i) = Ret g) by (unfold index_at; rewrite Nat2Z.id, Gi; destruct (Z.ltb_spec (Z.of_nat i) 0); [lia|reflexivity]). rewrite Ei in E. cbv zeta in E.
    destruct (Gs g (nth_error_In _ _ Gi)) as (Sz & Sg & Xg & Yg). assert (Sgb : subrect g (barea b)) by (intros p P; apply Sub, Sg, P).
    destruct (C31_render_stays_inside u (type_block ty) g b Hu W Sz ltac:(lia) ltac:(unfold padded; cbn; lia) Sgb) as (b1 & Eb & _). rewrite Eb in E.
    destruct (throbber_render u (fst (rs i)) (snd (rs i)) (throbber_with_type new_throbber ty) (block_inner (type_block ty) g) b1 s) as [o1|] eqn:Et; [|discriminate].
    destruct (one_box u _ _ ty ms s acc last_id g b b1 o1 Hu Pl W Sz ltac:(lia) ltac:(lia) Sgb Rc (fun f => Rn i ty f) Eb Et) as (b2 & -> & C2 & Sh2). assert (C2' := C2). destruct C2' as (A2 & W2 & L2).
    destruct (IH (S i) b2 o ltac:(lia) W2 ltac:(rewrite A2; exact Sub) E) as (b' & -> & C' & Sh'). exists b'. split; [reflexivity|]. split.
    + eapply changed_only_trans; [eapply changed_only_weaken; [|exact C2]; intros p P; exists i, g; auto|]. eapply changed_only_weaken; [|exact C']. intros p (k & g' & K & N & P). exists k, g'. split; [lia|]. auto.
    + intros k ty' g' K N Hw Hh. destruct k as [|k]; cbn [nth_error] in K.
      * injection K as <-. rewrite Nat.add_0_r in N. assert (g' = g) by congruence. subst g'. intros p P. unfold symbol_at at 1. destruct C' as (_ & _ & L'). rewrite L'; [exact (Sh2 Hw Hh p P)|]. intros (k & g' & Kk & N' & P'). exact (Dj i k g g' p ltac:(lia) Gi N' P P').
      * replace (i + S k)%nat with (S i + k)%nat in N by lia. intros p P. rewrite (Sh' k ty' g' K N Hw Hh p P). unfold symbol_at at 1. rewrite L2; [reflexivity|]. intros P'. exact (Dj i (S i + k)%nat g g' p ltac:(lia) Gi N P' P).
Qed.
(** The box of the throbber i: row [i / 3], column [i mod 3]. *)
Definition box (area : rect) (i : nat) : rect :=
  let c := (i mod 3)%nat in let l := (i / 3)%nat in
  Rect (third (rx area) (rw area) c) (third (ry area) (rh area) l) (third (rx area) (rw area) (S c) - third (rx area) (rw area) c) (third (ry area) (rh area) (S l) - third (ry area) (rh area) l).
(** ** C105: the program draws its nine throbbers without a panic, changes nothing outside its area, and each box shows the name of its throbber, a frame around it,
    and in the middle the frame of the throbber that the ticks it took bring it to. *)
Theorem C105_boxes_partial u r rows rs ms s acc last_id area b o : uniseg_ok u -> plain_letters u -> receives (snd (new_throbber_state last_id)) ms = (s, acc) ->
  grid_runs (zlen shown_types) r rows -> spin_runs u rs -> wf_buffer b -> sized area -> 0 <= rx area -> 0 <= ry area -> subrect area (barea b) ->
  render_throbbers u r rows rs s area b = Some o ->
  exists b', o = Ret b' /\ changed_only (fun p => inside p area) b b' /\
    (51 <= rw area -> 9 <= rh area -> forall i ty, nth_error shown_types i = Some ty -> box_shows (type_string ty) (frame_after ty (zlen acc)) (box area i) b b').
Proof.
  intros Hu Pl Rc Gr Rn W Sz Rx Ry Sub E. unfold render_throbbers in E. destruct (get_grid r rows area (zlen shown_types)) as [og|] eqn:Eg; [|discriminate].
  pose proof (C105_nine_partial r rows area og Sz Gr Eg) as Nine. destruct (C105_grid_partial r rows area (zlen shown_types) og ltac:(reflexivity) ltac:(vm_compute; discriminate) Sz Gr Eg) as (grid & -> & Lg & _ & In_ & Dj & _ & Pl_). injection Nine as Nine.
  change (3 * grid_rows (zlen shown_types)) with 9 in Lg. assert (Ln : length grid = 9%nat) by (unfold zlen in Lg; lia).
  assert (Bx : forall i, (i < 9)%nat -> nth_error grid i = Some (box area i)) by (intros i Hi; rewrite Nine; do 9 (destruct i as [|i]; [reflexivity|]); lia).
  assert (Mx : forall i, (i <= 9)%nat -> third (rx area) (rw area) i >= rx area) by (intros i _; pose proof (third_mono (rx area) (rw area) 0 i (proj1 Sz) ltac:(lia)) as M; rewrite third_zero in M; lia).
  assert (My : forall i, (i <= 9)%nat -> third (ry area) (rh area) i >= ry area) by (intros i _; pose proof (third_mono (ry area) (rh area) 0 i (proj2 Sz) ltac:(lia)) as M; rewrite third_zero in M; lia).
  destruct (draw_types_ok u rs ms s acc last_id grid area Hu Pl Rc Rn Rx Ry) with (types := shown_types) (i := 0%nat) (b := b) (o := o) as (b' & -> & Ch & Sh); auto.
  - intros g I. destruct (In_ g I) as [A B]. split; [exact A|]. split; [exact B|]. apply In_nth_error in I. destruct I as [i I]. assert (Hi : (i < 9)%nat) by (rewrite <- Ln; apply nth_error_Some; congruence). rewrite (Bx i Hi) in I. injection I as <-. unfold box. cbn [rx ry]. pose proof (Nat.mod_upper_bound i 3 ltac:(lia)) as M. pose proof (Nat.div_lt_upper_bound i 3 3 ltac:(lia) ltac:(lia)) as D. specialize (Mx (i mod 3)%nat ltac:(lia)). specialize (My (i / 3)%nat ltac:(lia)). lia.
  - cbn. lia.
  - exists b'. split; [reflexivity|]. split; [eapply changed_only_weaken; [|exact Ch]; intros p (k & g & _ & N & P); apply (In_ g (nth_error_In _ _ N)), P|].
    intros Hw Hh i ty I. assert (Hi : (i < 9)%nat) by (change 9%nat with (length shown_types); apply nth_error_Some; congruence). apply (Sh i ty (box area i) I (Bx i Hi)).
    + assert (Ls : zlen (type_string ty) <= 15) by (destruct ty; vm_compute; discriminate). unfold box. cbn [rw]. unfold third. set (c := (i mod 3)%nat).
      rewrite Nat2Z.inj_succ. pose proof (Z.div_mod (Z.of_nat c * rw area + 1) 3 ltac:(lia)). pose proof (Z.mod_pos_bound (Z.of_nat c * rw area + 1) 3 ltac:(lia)). pose proof (Z.div_mod (Z.succ (Z.of_nat c) * rw area + 1) 3 ltac:(lia)). pose proof (Z.mod_pos_bound (Z.succ (Z.of_nat c) * rw area + 1) 3 ltac:(lia)). nia.
    + unfold box. cbn [rh]. unfold third. set (c := (i / 3)%nat).
      rewrite Nat2Z.inj_succ. pose proof (Z.div_mod (Z.of_nat c * rh area + 1) 3 ltac:(lia)). pose proof (Z.mod_pos_bound (Z.of_nat c * rh area + 1) 3 ltac:(lia)). pose proof (Z.div_mod (Z.succ (Z.of_nat c) * rh area + 1) 3 ltac:(lia)). pose proof (Z.mod_pos_bound (Z.succ (Z.of_nat c) * rh area + 1) 3 ltac:(lia)). nia.
Qed.

(** *** Instances: the nine boxes of an area of 52 by 10 cells after two ticks; a line of it. *)
Definition some_run (l : layout) : run := Run keep_order 1000 (vars_for (l_constraints l)).
Definition some_rows : nat -> run := fun _ => some_run columns_layout.
Definition some_spin : nat -> run * run := fun _ => (Run keep_order 1000 [0; 1; 2; 3], Run keep_order 1000 [0; 1; 2; 3]).
Lemma simple_plain : plain_letters simple_uniseg.
Proof.
  assert (K : forall s, forallb (fun c => (rune_width c =? 1) && negb (is_control c)) s = true -> one_column simple_uniseg s).
  { intros s H. split; [reflexivity|]. intros c I. rewrite forallb_forall in H. specialize (H c I). apply andb_prop in H. destruct H as [A B]. split; [now apply Z.eqb_eq|now apply negb_true_iff]. }
  intros ty. split; [apply K; destruct ty; vm_compute; reflexivity|]. intros f I. apply K. revert f I. apply Forall_forall. destruct ty; repeat constructor.
Qed.
Lemma some_run_any l : any_run (some_run l) l.
Proof. split; [intros n x; apply Permutation_refl|]. split; cbn [some_run run_vars]; unfold vars_for; [apply FinFun.Injective_map_NoDup; [intros a b; apply Nat2Z.inj|apply seq_NoDup]|now rewrite map_length, seq_length]. Qed.
Example C105_instance : let '(s, acc) := receives (snd (new_throbber_state 0)) [Some (TickMsg 0 1); None; Some (TickMsg 1 1)] in
  zlen acc = 2 /\ grid_runs (zlen shown_types) (some_run (rows_layout (zlen shown_types))) some_rows /\ spin_runs simple_uniseg some_spin /\
  exists b', render_throbbers simple_uniseg (some_run (rows_layout (zlen shown_types))) some_rows some_spin s (Rect 1 1 52 10) (demo_buffer 54 12) = Some (Ret b') /\
    map (fun i => box (Rect 1 1 52 10) i) [0; 4; 8]%nat = [Rect 1 1 17 3; Rect 18 4 18 4; Rect 36 8 17 3] /\
    map (fun x => symbol_at b' (Pos x 4)) [17; 18; 19; 20; 29; 30; 31; 35; 36] = map Some [[9488]; [9484]; [80]; [97]; [115]; [9472]; [9472]; [9488]; [9484]]%N /\
    symbol_at b' (Pos 27 6) = Some [9117%N] /\ frame_after TypeParenthesis 2 = [9117%N].
Proof.
  cbv zeta. cbn [receives]. split; [reflexivity|]. split; [split; [apply some_run_any|intros i; apply (some_run_any columns_layout)]|]. split.
  - intros i ty f t. split; (split; [intros n x; apply Permutation_refl|]; split; [repeat constructor; cbn; intuition discriminate|reflexivity]).
  - eexists. split; [vm_compute; reflexivity|]. split; [vm_compute; reflexivity|]. split; [vm_compute; reflexivity|]. split; vm_compute; reflexivity.
Qed.
Print Assumptions C105_boxes_partial.
