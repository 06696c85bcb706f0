(** C59: printing a line. *)
From Verif Require Import Base P_Base M_Geom S_Geom T_Geom M_Style M_Uniseg M_Buffer S_Buffer S_Text P_Buffer P_SetString T_Buffer M_Text P_Text T_Text P_Redraw P_Print S_Wide P_Wide.
From Coq Require Import ZArith NArith List Bool Lia.
Import ListNotations.
Open Scope Z_scope.
Local Arguments zlen : simpl never.

(** Print of a line at (x, y) with room for [n] columns shows, from x on, the characters of its spans one after the other, each
    in the style of its span over that of the line, cut after [n]; it touches no other cell and reports the column after the
    last character drawn. *)
Theorem C59_line_print_partial : forall u l b x y n, wf_buffer b -> inside (Pos x y) (barea b) -> 0 <= n -> x + n <= rx (barea b) + rw (barea b) ->
  (forall s c, In s (ln_spans l) -> In c (clusters u (sp_content s)) -> cwidth u c = 1) ->
  let shown := firstn (Z.to_nat n) (flat_map (fun s => map (fun c => (c, patched (ln_style l) (sp_style s))) (clusters u (sp_content s))) (ln_spans l)) in
  exists b', line_print u l b x y n = Ret (b', (x + zlen shown, y)) /\ barea b' = barea b /\
    (forall k c st c0, nth_error shown k = Some (c, st) -> look b (Pos (x + Z.of_nat k) y) = Some c0 ->
       look b' (Pos (x + Z.of_nat k) y) = Some (cell_set_style st (cell_set_symbol c c0))) /\
    forall p, ~ (py p = y /\ x <= px p < x + zlen shown) -> look b' p = look b p.
Proof.
  intros u l b x y n W I Hn Hx Hw shown. unfold inside in I. cbn [px py] in I.
  destruct (line_print_narrow u y (rx (barea b) + rw (barea b)) (ln_style l) (ln_spans l) b x n W) as (b' & E & A & _ & L); try lia.
  { intros s Hs c Hc. now apply (Hw s). }
  assert (Ef : firstn (Z.to_nat n) (flat_map (fun s => span_cells u (patched (ln_style l) (sp_style s)) s) (ln_spans l))
               = map (fun cs => show (snd cs) (fst cs)) shown).
  { unfold shown. rewrite <- firstn_map. f_equal. clear. induction (ln_spans l) as [|s r IH]; [reflexivity|]. cbn [flat_map]. rewrite map_app, map_map.
    f_equal; exact IH. }
  rewrite Ef in *. assert (Ez : zlen (map (fun cs : str * style => show (snd cs) (fst cs)) shown) = zlen shown) by (unfold zlen; now rewrite map_length).
  rewrite Ez in E. clearbody shown. clear Ef. exists b'. split; [exact E|]. split; [exact A|]. split.
  - intros k c st c0 Hk E0. rewrite L, E0. cbn [option_map]. unfold typed. cbn [px py]. rewrite Z.eqb_refl. destruct (Z.leb_spec x (x + Z.of_nat k)); [|lia]. cbn [andb].
    replace (Z.to_nat (x + Z.of_nat k - x)) with k by lia. rewrite nth_error_map, Hk. reflexivity.
  - intros p Hp. rewrite L. unfold typed. destruct (Z.eqb_spec (py p) y); cbn [andb]; [|now destruct (look b p)].
    destruct (Z.leb_spec x (px p)); cbn [andb]; [|now destruct (look b p)].
    replace (nth_error (map (fun cs : str * style => show (snd cs) (fst cs)) shown) (Z.to_nat (px p - x))) with (@None (cell -> cell)); [now destruct (look b p)|].
    symmetry. apply nth_error_None. rewrite map_length. unfold zlen in Hp. lia.
Qed.
Print Assumptions C59_line_print_partial.

Example C59_instance :
  let l := Line new_style [new_span [97; 98]%N; new_span [99]%N] AlignNone in
  (forall s c, In s (ln_spans l) -> In c (clusters simple_uniseg (sp_content s)) -> cwidth simple_uniseg c = 1) /\
  exists b', line_print simple_uniseg l (demo_buffer 6 1) 1 0 4 = Ret (b', (4, 0)) /\ symbols b' = [space; [97%N]; [98%N]; [99%N]; space; space].
Proof.
  cbv zeta. split.
  - intros s c [<-|[<-|[]]]; vm_compute; intuition (subst; reflexivity).
  - eexists. split; vm_compute; reflexivity.
Qed.

(** A two-column character that meets the limit is drawn past it, and the column reported is past the limit too. *)
Theorem C59_wide_refuted : exists u l b b' x y n x', uniseg_ok u /\ wf_buffer b /\ line_print u l b x y n = Ret (b', (x', y)) /\ x + n < x'.
Proof.
  exists simple_uniseg, (new_line [new_span [97; 20013]%N]), (demo_buffer 4 1). eexists. exists 0, 0, 2, 3.
  split; [apply simple_uniseg_ok|]. split; [vm_compute; auto; repeat split; discriminate|]. split; [vm_compute; reflexivity|lia].
Qed.
Print Assumptions C59_wide_refuted.

(** Characters of any visible width, none of which lies across column [n]: the columns from x on show, for each character shown, the character in its style and then
    blank cells for its further columns. *)
Definition columns (u : uniseg) (l : list (str * style)) : list shown_at := flat_map (fun cs => HeadOf (fst cs) (snd cs) :: repeat TailOf (Z.to_nat (cwidth u (fst cs)) - 1)) l.
Theorem C59_any_width_partial : forall u l b x y n, wf_buffer b -> inside (Pos x y) (barea b) -> 0 <= n -> x + n <= rx (barea b) + rw (barea b) ->
  let chars := flat_map (fun s => map (fun c => (c, patched (ln_style l) (sp_style s))) (clusters u (sp_content s))) (ln_spans l) in
  (forall c st, In (c, st) chars -> 1 <= cwidth u c) -> clean_cut u (map fst chars) n ->
  let shown := firstn (Z.to_nat n) (columns u chars) in
  exists b', line_print u l b x y n = Ret (b', (x + zlen shown, y)) /\ barea b' = barea b /\
    (forall k c0, look b (Pos (x + Z.of_nat k) y) = Some c0 ->
       match nth_error shown k with
       | Some (HeadOf c st) => look b' (Pos (x + Z.of_nat k) y) = Some (cell_set_style st (cell_set_symbol c c0))
       | Some TailOf => look b' (Pos (x + Z.of_nat k) y) = Some empty_cell
       | None => look b' (Pos (x + Z.of_nat k) y) = Some c0
       end) /\
    forall p, ~ (py p = y /\ x <= px p < x + zlen shown) -> look b' p = look b p.
Proof.
  intros u l b x y n W I Hn Hx chars V F shown. unfold inside in I. cbn [px py] in I.
  set (act := fun g => match g with HeadOf c st => show st c | TailOf => fun _ => empty_cell end).
  assert (Ec : map fst chars = flat_map (fun s => clusters u (sp_content s)) (ln_spans l)).
  { unfold chars. clear. induction (ln_spans l) as [|s r IH]; [reflexivity|]. cbn [flat_map]. rewrite map_app, map_map, IH. cbn [fst]. now rewrite map_id. }
  assert (V' : visible u (map fst chars)) by (intros c Hc; apply in_map_iff in Hc; destruct Hc as ([c' st] & <- & Hc); exact (V _ _ Hc)).
  rewrite Ec in V', F.
  destruct (line_print_wide u y (rx (barea b) + rw (barea b)) (ln_style l) (ln_spans l) b x n W) as (b' & E & A & _ & L); try lia; auto.
  assert (Ef : firstn (Z.to_nat n) (flat_map (fun s => span_cols u (patched (ln_style l) (sp_style s)) s) (ln_spans l)) = map act shown).
  { unfold shown. rewrite <- firstn_map. f_equal. unfold chars, columns. clear. induction (ln_spans l) as [|s r IH]; [reflexivity|]. cbn [flat_map]. rewrite flat_map_app, map_app.
    f_equal; [|exact IH]. unfold span_cols. clear. induction (clusters u (sp_content s)) as [|c r IH]; [reflexivity|]. cbn [map flat_map]. rewrite map_app, <- IH. f_equal.
    unfold cols. cbn [map fst snd]. f_equal. clear. induction (Z.to_nat (cwidth u c) - 1)%nat as [|k IH]; cbn [repeat map]; [reflexivity|]. now rewrite <- IH. }
  rewrite Ef in *. assert (Ez : zlen (map act shown) = zlen shown) by (unfold zlen; now rewrite map_length).
  rewrite Ez in E. clearbody shown. clear Ef. exists b'. split; [exact E|]. split; [exact A|]. split.
  - intros k c0 E0. rewrite L, E0. cbn [option_map]. unfold typed. cbn [px py]. rewrite Z.eqb_refl. destruct (Z.leb_spec x (x + Z.of_nat k)); [|lia]. cbn [andb].
    replace (Z.to_nat (x + Z.of_nat k - x)) with k by lia. rewrite nth_error_map. destruct (nth_error shown k) as [[c st|]|]; reflexivity.
  - intros p Hp. rewrite L. unfold typed. destruct (Z.eqb_spec (py p) y); cbn [andb]; [|now destruct (look b p)].
    destruct (Z.leb_spec x (px p)); cbn [andb]; [|now destruct (look b p)].
    replace (nth_error (map act shown) (Z.to_nat (px p - x))) with (@None (cell -> cell)); [now destruct (look b p)|].
    symmetry. apply nth_error_None. rewrite map_length. unfold zlen in Hp. lia.
Qed.
Print Assumptions C59_any_width_partial.
(** A wide character in the middle, and the limit after the next one. *)
Example C59_any_width_instance :
  let l := Line new_style [new_span [97; 20013]%N; new_span [99; 100]%N] AlignNone in
  clean_cut simple_uniseg [[97]; [20013]; [99]; [100]]%N 4 /\
  exists b', line_print simple_uniseg l (demo_buffer 6 1) 1 0 4 = Ret (b', (5, 0)) /\ symbols b' = [space; [97%N]; [20013%N]; space; [99%N]; space].
Proof.
  cbv zeta. split; [exists [[97]; [20013]; [99]]%N, [[100]]%N; vm_compute; split; [reflexivity|]; split; [discriminate|auto]|]. eexists. split; vm_compute; reflexivity.
Qed.
