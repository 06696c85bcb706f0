(** C27, C28, C29, C58: scroll bars. *)
From Verif Require Import Base P_Base M_Geom S_Geom T_Geom M_Style M_Uniseg M_Buffer S_Buffer S_Text P_Buffer P_SetString T_Buffer M_Text P_Text T_Text P_Redraw M_Float P_Float M_Slice M_Scroll P_Scroll.
From Coq Require Import ZArith NArith List Bool Lia.
Import ListNotations.
Open Scope Z_scope.

(** ** C27 *)

(** Track before, thumb, track after: non-negative, at least one thumb cell, and together the whole track; for every state,
    viewport and track, and whatever Go's conversion of an undefined quotient yields. *)
Theorem C27_parts : forall junk track viewport st a t e, 1 <= track -> part_lens junk track viewport st = (a, t, e) ->
  0 <= a /\ 1 <= t /\ 0 <= e /\ a + t + e = track.
Proof. intros junk track viewport st a t e H E. pose proof (part_lens_sum junk track viewport st H) as P. rewrite E in P. exact P. Qed.
Print Assumptions C27_parts.
Example C27_parts_instance : part_lens 0 10 5 (ScrollState 20 7 0) = (3, 2, 5).
Proof. vm_compute. reflexivity. Qed.

Lemma triple_eq {A B C} (a a' : A) (b b' : B) (c c' : C) : (a, b, c) = (a', b', c') -> a = a' /\ b = b' /\ c = c'.
Proof. intros H. now injection H. Qed.

(** The nearest integer to n/d, halves upwards. *)
Definition is_nearest (z n d : Z) : Prop := (2 * z - 1) * d <= 2 * n < (2 * z + 1) * d.

Lemma near_spec n d : 0 < d -> is_nearest ((2 * n + d) / (2 * d)) n d.
Proof.
  intros H. unfold is_nearest. pose proof (Z.mul_div_le (2 * n + d) (2 * d) ltac:(lia)).
  pose proof (Z.mul_succ_div_gt (2 * n + d) (2 * d) ltac:(lia)). nia.
Qed.
Lemma near_mono n m d : 0 < d -> n <= m -> (2 * n + d) / (2 * d) <= (2 * m + d) / (2 * d).
Proof. intros. apply Z.div_le_mono; lia. Qed.

(** The thumb starts and ends at the cells nearest to position/total and (position+viewport)/total of the track, where
    total = (content - 1) + viewport: exactly, in spite of the floating-point arithmetic. *)
Theorem C27_thumb_placed : forall junk track viewport content position v a t e,
  1 <= track -> 0 <= viewport -> 0 <= content -> 0 < Z.max 0 (content - 1) + viewport ->
  (Z.max 0 (content - 1) + viewport) * track < 2 ^ 52 ->
  part_lens junk track viewport (ScrollState content position v) = (a, t, e) ->
  let last := Z.max 0 (content - 1) in
  let p := Z.max 0 (Z.min last position) in
  exists s f, is_nearest s (p * track) (last + viewport) /\ is_nearest f ((p + viewport) * track) (last + viewport) /\
    a = Z.min (track - 1) s /\ a + t = Z.max (a + 1) (Z.min track f).
Proof.
  intros junk track viewport content position v a t e H1 H2 H3 H4 H5 E last p.
  destruct (part_lens_exact junk track viewport content position v H1 H2 H3 H4 H5) as [E' _]. fold last in E'. fold p in E'.
  rewrite E in E'. apply triple_eq in E'. destruct E' as (-> & -> & _). eexists. eexists. split; [apply near_spec; exact H4|]. split; [apply near_spec; exact H4|].
  split; [reflexivity|]. set (x := Z.min (track - 1) _). set (z := Z.min track _). clearbody x z. lia.
Qed.
Print Assumptions C27_thumb_placed.
Example C27_thumb_placed_instance :
  part_lens 0 10 5 (ScrollState 20 7 0) = (3, 2, 5) /\ is_nearest 3 (7 * 10) 24 /\ is_nearest 5 (12 * 10) 24 /\ (19 + 5) * 10 < 2 ^ 52.
Proof. split; [vm_compute; reflexivity|]. unfold is_nearest. lia. Qed.

(** A larger position moves neither end of the thumb backwards. *)
Theorem C27_monotone : forall junk track viewport content p q v a t e a' t' e',
  1 <= track -> 0 <= viewport -> 0 <= content -> 0 < Z.max 0 (content - 1) + viewport ->
  (Z.max 0 (content - 1) + viewport) * track < 2 ^ 52 -> p <= q ->
  part_lens junk track viewport (ScrollState content p v) = (a, t, e) ->
  part_lens junk track viewport (ScrollState content q v) = (a', t', e') ->
  a <= a' /\ a + t <= a' + t'.
Proof.
  intros junk track viewport content p q v a t e a' t' e' H1 H2 H3 H4 H5 Hpq E E'.
  destruct (part_lens_exact junk track viewport content p v H1 H2 H3 H4 H5) as [F _].
  destruct (part_lens_exact junk track viewport content q v H1 H2 H3 H4 H5) as [F' _]. cbv zeta in F, F'.
  rewrite E in F. rewrite E' in F'. apply triple_eq in F. destruct F as (-> & -> & _). apply triple_eq in F'. destruct F' as (-> & -> & _). clear E E'.
  set (last := Z.max 0 (content - 1)) in *. set (D := last + viewport) in *.
  assert (Hxy : Z.max 0 (Z.min last p) <= Z.max 0 (Z.min last q)) by (clear - Hpq; lia).
  set (x := Z.max 0 (Z.min last p)) in *. set (y := Z.max 0 (Z.min last q)) in *. clearbody x y. clear H5.
  assert (A : (2 * (x * track) + D) / (2 * D) <= (2 * (y * track) + D) / (2 * D)) by (apply near_mono; [exact H4|apply Z.mul_le_mono_nonneg_r; lia]).
  assert (B : (2 * ((x + viewport) * track) + D) / (2 * D) <= (2 * ((y + viewport) * track) + D) / (2 * D)) by (apply near_mono; [exact H4|apply Z.mul_le_mono_nonneg_r; lia]).
  revert A B. generalize ((2 * (x * track) + D) / (2 * D)), ((2 * (y * track) + D) / (2 * D)), ((2 * ((x + viewport) * track) + D) / (2 * D)), ((2 * ((y + viewport) * track) + D) / (2 * D)).
  intros. lia.
Qed.
Print Assumptions C27_monotone.
Example C27_monotone_instance :
  part_lens 0 10 5 (ScrollState 20 7 0) = (3, 2, 5) /\ part_lens 0 10 5 (ScrollState 20 12 0) = (5, 2, 3).
Proof. vm_compute. auto. Qed.

(** At the first position no track is left before the thumb, at the last position none after it. *)
Theorem C27_ends : forall junk track viewport content position v a t e,
  1 <= track -> 0 <= viewport -> 0 <= content -> 0 < Z.max 0 (content - 1) + viewport ->
  (Z.max 0 (content - 1) + viewport) * track < 2 ^ 52 ->
  part_lens junk track viewport (ScrollState content position v) = (a, t, e) ->
  (position <= 0 -> a = 0) /\ (content - 1 <= position -> e = 0).
Proof.
  intros junk track viewport content position v a t e H1 H2 H3 H4 H5 E.
  assert (S := C27_parts _ _ _ _ _ _ _ H1 E).
  destruct (C27_thumb_placed junk track viewport content position v a t e H1 H2 H3 H4 H5 E) as (s & f & Hs & Hf & Ea & Et).
  set (last := Z.max 0 (content - 1)) in *. split; intros Hp.
  - replace (Z.max 0 (Z.min last position)) with 0 in Hs by lia. unfold is_nearest in Hs. assert (s = 0) by nia. lia.
  - replace (Z.max 0 (Z.min last position)) with last in * by lia. unfold is_nearest in Hf. assert (f = track) by nia. lia.
Qed.
Print Assumptions C27_ends.
Example C27_ends_instance : part_lens 0 10 5 (ScrollState 20 19 0) = (8, 2, 0) /\ part_lens 0 10 5 (ScrollState 20 0 0) = (0, 2, 8).
Proof. vm_compute. auto. Qed.

(** Without a bound on content and track the multiplication overflows and the thumb jumps back to the top. *)
Theorem C27_overflow_refuted : exists track viewport content p q a t e a' t' e',
  1 <= track /\ 0 <= viewport /\ 0 <= content < 2 ^ 63 /\ p <= q < content /\
  (forall junk, part_lens junk track viewport (ScrollState content p 0) = (a, t, e)) /\
  (forall junk, part_lens junk track viewport (ScrollState content q 0) = (a', t', e')) /\ a' < a.
Proof.
  exists 4, 10, (2 ^ 62), (2 ^ 60), (2 ^ 61). do 6 eexists.
  split; [lia|]. split; [lia|]. split; [lia|]. split; [lia|].
  split; [intros; vm_compute; reflexivity|]. split; [intros; vm_compute; reflexivity|]. lia.
Qed.
Print Assumptions C27_overflow_refuted.

(** ** C58: the picture of the bar *)

Definition opt_one_column (u : uniseg) (o : option str) : Prop := match o with None => True | Some s => one_column u s end.

(** Cell [k] of a bar of [n] cells whose track has [a] cells before a thumb of [t]. *)
Definition bar_shows (s : scroll) (a t n k : Z) : option (str * style) :=
  if k =? 0 then option_map (fun x => (x, sc_begin_style s)) (sc_begin s)
  else if k =? n - 1 then option_map (fun x => (x, sc_end_style s)) (sc_end s)
  else if (1 + a <=? k) && (k <? 1 + a + t) then Some (sc_thumb s, sc_thumb_style s)
  else option_map (fun x => (x, sc_track_style s)) (sc_track s).

Lemma nth_error_repeat {A} (x : A) n k : nth_error (repeat x n) k = if Nat.ltb k n then Some x else None.
Proof. revert k. induction n as [|n IH]; intros [|k]; cbn; try reflexivity. rewrite IH. reflexivity. Qed.

Lemma nth_error_cat {A} (l m : list A) k : nth_error (l ++ m) k = if Nat.ltb k (length l) then nth_error l k else nth_error m (k - length l).
Proof. destruct (Nat.ltb_spec k (length l)); [now rewrite nth_error_app1|now rewrite nth_error_app2]. Qed.

Lemma bar_symbols_nth u junk s bar st a t e n k :
  part_lens junk (track_len u s bar) (viewport_len s bar st) st = (a, t, e) -> 0 <= a -> 1 <= t -> 0 <= e -> a + t + e = n - 2 -> 0 <= k < n ->
  exists l, bar_symbols u junk s bar st = Ret l /\ nth_error l (Z.to_nat k) = Some (bar_shows s a t n k).
Proof.
  intros E Ha Ht He Hn Hk. unfold bar_symbols. rewrite E. unfold slice_repeat.
  destruct (Z.ltb_spec a 0); [lia|]. destruct (Z.ltb_spec t 0); [lia|]. destruct (Z.ltb_spec e 0); [lia|]. cbn [bind].
  eexists. split; [reflexivity|]. unfold bar_shows.
  destruct (Z.eqb_spec k 0) as [->|Hk0]; [reflexivity|].
  rewrite !nth_error_cat, !repeat_length. cbn [length].
  repeat match goal with |- context [Nat.ltb ?x ?y] => destruct (Nat.ltb_spec x y); try lia end;
  rewrite ?nth_error_repeat;
  repeat match goal with |- context [Nat.ltb ?x ?y] => destruct (Nat.ltb_spec x y); try lia end.
  - destruct (Z.eqb_spec k (n - 1)); [lia|]. destruct (Z.leb_spec (1 + a) k); [lia|]. reflexivity.
  - destruct (Z.eqb_spec k (n - 1)); [lia|]. destruct (Z.leb_spec (1 + a) k); [|lia]. destruct (Z.ltb_spec k (1 + a + t)); [|lia]. reflexivity.
  - destruct (Z.eqb_spec k (n - 1)); [lia|]. destruct (Z.leb_spec (1 + a) k); [|lia]. destruct (Z.ltb_spec k (1 + a + t)); [lia|]. reflexivity.
  - destruct (Z.eqb_spec k (n - 1)); [|lia]. replace (Z.to_nat k - _ - _ - _ - _)%nat with 0%nat by lia. reflexivity.
Qed.

Lemma nth_error_combine {A B} (l : list A) (m : list B) k x y :
  nth_error l k = Some x -> nth_error m k = Some y -> nth_error (combine l m) k = Some (x, y).
Proof. revert m k. induction l as [|a l IH]; intros [|b m] [|k] E F; try discriminate; cbn in *; [congruence|eauto]. Qed.

Lemma combine_fst_full {A B} (l : list A) (m : list B) : (length l <= length m)%nat -> map fst (combine l m) = l.
Proof. revert m. induction l as [|a l IH]; intros [|b m] H; cbn in *; try reflexivity; [lia|]. f_equal. apply IH. lia. Qed.

(** With one-column arrow heads and symbols, the bar shows begin, track, thumb, track and end, each in its own cell of the
    column or row the code has chosen, with the lengths C27 speaks about; nothing else changes. *)
Theorem C58_bar_picture : forall u junk s area b st begin_ end_,
  wf_buffer b -> 0 < rw area -> 0 < rh area -> (forall p, inside p area -> inside p (barea b)) ->
  ss_content st <> 0 -> sc_begin s = Some begin_ -> sc_end s = Some end_ ->
  one_column u begin_ -> one_column u end_ -> one_column u (sc_thumb s) -> opt_one_column u (sc_track s) ->
  string_width u begin_ = 1 -> string_width u end_ = 1 ->
  let n := if is_vertical (sc_orientation s) then rh area else rw area in
  2 < n ->
  exists a t e b', part_lens junk (n - 2) (if ss_viewport st =? 0 then n else ss_viewport st) st = (a, t, e) /\
    scroll_render u junk s area b st = Ret b' /\ barea b' = barea b /\ wf_buffer b' /\
    (forall k, 0 <= k < n -> let p := bar_cell (sc_orientation s) area k in look b' p = option_map (drawn (bar_shows s a t n k)) (look b p)) /\
    (forall p, (forall k, 0 <= k < n -> p <> bar_cell (sc_orientation s) area k) -> look b' p = look b p).
Proof.
  intros u junk s area b st begin_ end_ W Hw Hh Hin Hc Eb Ee Ob Oe Ot Otr Wb We n Hn.
  destruct (scrollbar_area (sc_orientation s) area) as [bar|] eqn:Ebar; [|apply scrollbar_none in Ebar; lia].
  destruct (bar_cells _ _ _ Hw Hh Ebar) as (Hside & rs & Ers & Hrs).
  assert (Hn' : side_len (sc_orientation s) area = n) by reflexivity.
  assert (Ht1 : track_len u s area = n - 2) by (unfold track_len; rewrite Hn', Eb, Ee; cbn [symbol_len]; lia).
  assert (Ht2 : track_len u s bar = n - 2) by (unfold track_len; rewrite Hside, Hn', Eb, Ee; cbn [symbol_len]; lia).
  assert (Hv : viewport_len s bar st = if ss_viewport st =? 0 then n else ss_viewport st)
    by (unfold viewport_len; rewrite Hside, Hn'; now destruct (ss_viewport st =? 0)).
  destruct (part_lens junk (n - 2) (if ss_viewport st =? 0 then n else ss_viewport st) st) as [[a t] e] eqn:Ep.
  assert (Hn2 : 1 <= n - 2) by lia. destruct (C27_parts _ _ _ _ _ _ _ Hn2 Ep) as (Pa & Pt & Pe & Psum).
  rewrite <- Hv, <- Ht2 in Ep.
  destruct (bar_symbols_nth u junk s bar st a t e n 0 Ep Pa Pt Pe Psum ltac:(lia)) as (syms & Esyms & _).
  assert (Hs : forall k, 0 <= k < n -> nth_error syms (Z.to_nat k) = Some (bar_shows s a t n k)).
  { intros k Hk. destruct (bar_symbols_nth u junk s bar st a t e n k Ep Pa Pt Pe Psum Hk) as (l & El & Hl). congruence. }
  assert (Lr : length rs = Z.to_nat n).
  { apply (f_equal (@length pos)) in Hrs. rewrite !map_length in Hrs. rewrite Hrs. unfold zrange. rewrite map_length, seq_length. lia. }
  assert (Ls : (length rs <= length syms)%nat).
  { assert (nth_error syms (Z.to_nat (n - 1)) <> None) by (rewrite Hs by lia; discriminate). apply nth_error_Some in H. lia. }
  assert (Hcells : forall k, 0 <= k < n -> exists r, nth_error rs (Z.to_nat k) = Some r /\ Pos (rx r) (ry r) = bar_cell (sc_orientation s) area k).
  { intros k Hk. destruct (nth_error rs (Z.to_nat k)) as [r|] eqn:Er; [|apply nth_error_None in Er; lia].
    exists r. split; [reflexivity|]. apply (map_nth_error (fun r => Pos (rx r) (ry r))) in Er. rewrite Hrs in Er.
    unfold zrange in Er. rewrite map_map in Er. rewrite nth_error_map in Er.
    destruct (nth_error (seq 0 (Z.to_nat (side_len (sc_orientation s) area - 0))) (Z.to_nat k)) as [j|] eqn:Ej; [|discriminate].
    assert (j = Z.to_nat k). { assert (L := Ej). rewrite nth_error_nth' with (d := 0%nat) in Ej by (apply nth_error_Some; congruence). rewrite seq_nth in Ej; [injection Ej; lia|]. rewrite <- (seq_length (Z.to_nat (side_len (sc_orientation s) area - 0)) 0). apply nth_error_Some. congruence. }
    subst j. cbn [option_map] in Er. injection Er as Er. rewrite <- Er. f_equal. lia. }
  assert (Hin2 : forall k, 0 <= k < n -> inside (bar_cell (sc_orientation s) area k) area).
  { intros k Hk. unfold n in Hk. unfold inside, bar_cell. destruct (sc_orientation s); cbn [is_vertical px py] in *; lia. }
  assert (Hidx : forall (r : rect) o, In (r, o) (combine rs syms) -> exists k, 0 <= k < n /\ Pos (rx r) (ry r) = bar_cell (sc_orientation s) area k /\ o = bar_shows s a t n k).
  { intros r o Hr. apply In_nth_error in Hr. destruct Hr as (j & Hj).
    assert (Hjl : (j < length (combine rs syms))%nat) by (apply nth_error_Some; congruence). rewrite combine_length in Hjl.
    exists (Z.of_nat j). assert (Hk : 0 <= Z.of_nat j < n) by lia. split; [exact Hk|].
    destruct (Hcells _ Hk) as (r' & Er & Epos). assert (Es := Hs _ Hk). assert (C := nth_error_combine _ _ _ _ _ Er Es).
    rewrite Nat2Z.id in C. rewrite C in Hj. injection Hj as <- <-. auto. }
  destruct (draw_symbols u (combine rs syms) b W) as (b' & E & A & W' & L & N).
  { rewrite <- (map_map fst (fun r : rect => Pos (rx r) (ry r))), combine_fst_full by exact Ls. rewrite Hrs. apply FinFun.Injective_map_NoDup; [|apply zrange_NoDup].
    intros i j. unfold bar_cell. destruct (sc_orientation s); intros X; injection X; lia. }
  { intros r o Hr. destruct (Hidx r o Hr) as (k & Hk & Epos & ->). rewrite Epos. split; [auto|].
    unfold bar_shows. rewrite Eb, Ee. cbn [option_map]. unfold opt_one_column in Otr.
    destruct (k =? 0); [auto|]. destruct (k =? n - 1); [auto|]. destruct (_ && _); [auto|]. destruct (sc_track s); cbn; auto. }
  exists a, t, e, b'. split; [reflexivity|]. split.
  { unfold scroll_render. destruct (Z.eqb_spec (ss_content st) 0); [contradiction|]. rewrite Ht1. destruct (Z.eqb_spec (n - 2) 0); [lia|]. cbn [orb].
    rewrite Ebar, Esyms, Ers. exact E. }
  split; [exact A|]. split; [exact W'|]. split.
  - intros k Hk. destruct (Hcells k Hk) as (r & Er & Epos). cbv zeta. rewrite <- Epos. apply L. eapply nth_error_In. eapply nth_error_combine; [exact Er|apply Hs; lia].
  - intros p Hp. apply N. intros Hi. apply in_map_iff in Hi. destruct Hi as ([r o] & Epos & Hr). cbn [fst] in Epos.
    destruct (Hidx r o Hr) as (k & Hk & Epos2 & _). apply (Hp k Hk). congruence.
Qed.
Print Assumptions C58_bar_picture.

Example C58_instance :
  let s := new_scroll VerticalRight in
  let area := Rect 1 0 3 5 in
  one_column simple_uniseg [9650%N] /\ one_column simple_uniseg (sc_thumb s) /\
  opt_one_column simple_uniseg (sc_track s) /\ string_width simple_uniseg [9650%N] = 1 /\
  (if is_vertical (sc_orientation s) then rh area else rw area) = 5 /\
  exists b', scroll_render simple_uniseg 0 s area (Buf (Rect 0 0 5 5) (repeat empty_cell 25)) (ScrollState 9 8 0) = Ret b' /\
    map (fun y => option_map csym (look b' (Pos 3 y))) [0; 1; 2; 3; 4] =
      [Some [9650%N]; Some [9553%N]; Some [9553%N]; Some [9608%N]; Some [9660%N]].
Proof.
  cbv zeta. split; [split; vm_compute; reflexivity|]. split; [split; vm_compute; reflexivity|].
  split; [split; vm_compute; reflexivity|]. split; [vm_compute; reflexivity|]. split; [reflexivity|].
  eexists. split; vm_compute; reflexivity.
Qed.

(** A default horizontal bar has empty arrow heads: its first cell stays as it was and its last part is lost, although the
    part lengths add up to the whole width. *)
Theorem C58_default_horizontal_refuted : exists u area st b b', uniseg_ok u /\ wf_buffer b /\ inside (Pos 0 0) area /\
  scroll_render u 0 (new_scroll HorizontalTop) area b st = Ret b' /\
  part_lens 0 (track_len u (new_scroll HorizontalTop) area) (viewport_len (new_scroll HorizontalTop) area st) st = (3, 1, 0) /\ rw area = 4 /\
  forall p, look b' p <> None -> option_map csym (look b' p) <> Some (sc_thumb (new_scroll HorizontalTop)).
Proof.
  exists simple_uniseg, (Rect 0 0 4 1), (ScrollState 100 99 1), (Buf (Rect 0 0 4 1) (repeat empty_cell 4)). eexists.
  split; [apply simple_uniseg_ok|]. split; [unfold wf_buffer, sized; cbn; lia|]. split; [unfold inside; cbn; lia|].
  split; [vm_compute; reflexivity|]. split; [vm_compute; reflexivity|]. split; [reflexivity|].
  intros [x y]. unfold look. cbn [barea rx ry rw rh px py bcells]. destruct (_ && _ && _ && _) eqn:E; [|intros X; now destruct X].
  rewrite !andb_true_iff, !Z.leb_le, !Z.ltb_lt in E. intros _.
  assert (y = 0) by lia. subst y. assert (x = 0 \/ x = 1 \/ x = 2 \/ x = 3) as [->|[->|[->| ->]]] by lia; vm_compute; discriminate.
Qed.
Print Assumptions C58_default_horizontal_refuted.

(** ** C28 *)

(** A bar on the right: it is drawn in the last column, and the inner area is the rest. *)
Theorem C28_vertical_right_partial : forall area p, 0 < rw area -> 0 < rh area ->
  (exists k, 0 <= k < rh area /\ p = bar_cell VerticalRight area k) <-> (inside p area /\ ~ inside p (scroll_inner VerticalRight area)).
Proof.
  intros area [x y] Hw Hh. unfold scroll_inner. rewrite scrollbar_area_spec by lia. unfold bar_cell, inner, pad_with_right. cbn [rw rh ptop pright pbottom pleft px py].
  destruct (Z.ltb_spec (rw area) (1 + 0)); [lia|]. destruct (Z.ltb_spec (rh area) (0 + 0)); [lia|]. cbn [orb]. unfold inside. cbn [rx ry rw rh px py].
  split.
  - intros (k & Hk & E). injection E as -> ->. lia.
  - intros [H1 H2]. exists (y - ry area). split; [lia|]. f_equal; lia.
Qed.
Print Assumptions C28_vertical_right_partial.
Example C28_vertical_right_instance :
  bar_cell VerticalRight (Rect 2 3 4 5) 1 = Pos 5 4 /\ scroll_inner VerticalRight (Rect 2 3 4 5) = Rect 2 3 3 5.
Proof. vm_compute. auto. Qed.

(** For every other orientation the bar is drawn into the area reported for the content. *)
Theorem C28_other_orientations_refuted : forall o, o <> VerticalRight ->
  exists u s area st b b' p, uniseg_ok u /\ wf_buffer b /\ sc_orientation s = o /\ (forall q, inside q area -> inside q (barea b)) /\
    scroll_render u 0 s area b st = Ret b' /\ inside p (scroll_inner o area) /\ look b' p <> look b p.
Proof.
  intros o Ho. exists simple_uniseg, (new_scroll o), (Rect 0 0 4 4), (ScrollState 10 5 0), (Buf (Rect 0 0 4 4) (repeat empty_cell 16)).
  destruct o; [contradiction| | |].
  - eexists. exists (Pos 0 1). split; [apply simple_uniseg_ok|]. split; [unfold wf_buffer, sized; cbn; lia|]. split; [reflexivity|].
    split; [auto|]. split; [vm_compute; reflexivity|]. split; [vm_compute; intuition discriminate|]. vm_compute. discriminate.
  - eexists. exists (Pos 1 0). split; [apply simple_uniseg_ok|]. split; [unfold wf_buffer, sized; cbn; lia|]. split; [reflexivity|].
    split; [auto|]. split; [vm_compute; reflexivity|]. split; [vm_compute; intuition discriminate|]. vm_compute. discriminate.
  - eexists. exists (Pos 1 3). split; [apply simple_uniseg_ok|]. split; [unfold wf_buffer, sized; cbn; lia|]. split; [reflexivity|].
    split; [auto|]. split; [vm_compute; reflexivity|]. split; [vm_compute; intuition discriminate|]. vm_compute. discriminate.
Qed.
Print Assumptions C28_other_orientations_refuted.

(** The area reported for the content, for every orientation: the whole area without one line of cells at the named side, except that a bar on the
    left takes the bottom row instead of the first column. *)
Theorem C28_content_area_partial : forall o area, 0 < rw area -> 0 < rh area ->
  scroll_inner o area = match o with
    | VerticalRight => Rect (rx area) (ry area) (rw area - 1) (rh area)
    | VerticalLeft | HorizontalBottom => Rect (rx area) (ry area) (rw area) (rh area - 1)
    | HorizontalTop => Rect (rx area) (ry area + 1) (rw area) (rh area - 1)
    end.
Proof.
  intros o area Hw Hh. unfold scroll_inner. rewrite scrollbar_area_spec by lia.
  destruct o; cbn [rw rh]; unfold inner, pad_with_right, pad_with_left, pad_with_bottom, pad_with_top; cbn [ptop pright pbottom pleft rw rh rx ry];
  match goal with |- context [?a <? ?b] => destruct (Z.ltb_spec a b); [lia|] end; match goal with |- context [?a <? ?b] => destruct (Z.ltb_spec a b); [lia|] end; cbn [orb]; f_equal; lia.
Qed.
Print Assumptions C28_content_area_partial.
Example C28_content_area_instance : scroll_inner VerticalLeft (Rect 2 3 4 5) = Rect 2 3 4 4.
Proof. vm_compute. reflexivity. Qed.

(** The bar of a horizontal scroll bar named "bottom" is drawn in the top row, and the one named "top" in the bottom row. *)
Theorem C28_horizontal_swapped_refuted : forall area, 0 < rw area -> 0 < rh area ->
  scrollbar_area HorizontalBottom area = Some (Rect (rx area) (ry area) (rw area) 1) /\
  scrollbar_area HorizontalTop area = Some (Rect (rx area) (ry area + rh area - 1) (rw area) 1).
Proof. intros. now rewrite !scrollbar_area_spec by lia. Qed.
Print Assumptions C28_horizontal_swapped_refuted.

(** ** C29 *)

Inductive scroll_op := OpNext | OpPrev | OpFirst | OpLast | OpScroll (d : direction).
Definition scroll_do (st : scroll_state) (o : scroll_op) : scroll_state :=
  match o with
  | OpNext => scroll_next st | OpPrev => scroll_prev st | OpFirst => scroll_first st | OpLast => scroll_last st
  | OpScroll d => scroll_scroll st d
  end.

(** What each operation is meant to do to a position in a content with last line [last]. *)
Definition moved (last p : Z) (o : scroll_op) : Z :=
  match o with
  | OpNext | OpScroll Forward => if p <? last then p + 1 else last
  | OpPrev | OpScroll Backward => if 0 <? p then p - 1 else 0
  | OpFirst => 0
  | OpLast => last
  end.

(** Every history of operations on a fresh state does exactly the intended moves, so the position is always a line of the
    content (or 0 when there is none). *)
Theorem C29_any_history : forall content ops, 0 <= content < 2 ^ 63 ->
  let last := Z.max 0 (content - 1) in
  let st := fold_left scroll_do ops (new_scroll_state content) in
  ss_content st = content /\ ss_position st = fold_left (moved last) ops 0 /\ 0 <= ss_position st <= last.
Proof.
  intros content ops Hc last. unfold new_scroll_state.
  assert (G : forall ops st, ss_content st = content -> 0 <= ss_position st <= last ->
    let st' := fold_left scroll_do ops st in ss_content st' = content /\ ss_position st' = fold_left (moved last) ops (ss_position st) /\ 0 <= ss_position st' <= last).
  { clear ops. induction ops as [|o ops IH]; intros st E Hp; [cbn; auto|]. cbn [fold_left].
    assert (S : ss_content (scroll_do st o) = content /\ ss_position (scroll_do st o) = moved last (ss_position st) o /\ 0 <= moved last (ss_position st) o <= last).
    { assert (W : wrap64 (content - 1) = content - 1) by (apply wrap64_small; lia).
      assert (W2 : wrap64 (ss_position st - 1) = ss_position st - 1) by (apply wrap64_small; lia).
      assert (W3 : wrap64 (ss_position st + 1) = ss_position st + 1) by (apply wrap64_small; lia).
      assert (N : ss_content (scroll_next st) = content /\ ss_position (scroll_next st) = moved last (ss_position st) OpNext /\ 0 <= moved last (ss_position st) OpNext <= last).
      { unfold scroll_next, scroll_set_position, moved. cbn [ss_content ss_position]. rewrite E, W, W3. fold last. split; [reflexivity|].
        destruct (Z.ltb_spec (ss_position st) last); lia. }
      assert (P : ss_content (scroll_prev st) = content /\ ss_position (scroll_prev st) = moved last (ss_position st) OpPrev /\ 0 <= moved last (ss_position st) OpPrev <= last).
      { unfold scroll_prev, scroll_set_position, moved. cbn [ss_content ss_position]. rewrite E, W2. split; [reflexivity|].
        destruct (Z.ltb_spec 0 (ss_position st)); lia. }
      destruct o as [| | | |d]; cbn [scroll_do scroll_scroll].
      - exact N.
      - exact P.
      - unfold scroll_first, scroll_set_position. cbn. lia.
      - unfold scroll_last, scroll_set_position. cbn [ss_content ss_position moved]. rewrite E, W. fold last. lia.
      - destruct d; [exact N|exact P]. }
    destruct S as (S1 & S2 & S3). rewrite <- S2. apply IH; [exact S1|]. now rewrite S2. }
  apply (G ops (ScrollState content 0 0)); cbn; lia.
Qed.
Print Assumptions C29_any_history.
Example C29_instance :
  let st := fold_left scroll_do [OpNext; OpNext; OpScroll Forward; OpNext; OpPrev; OpLast; OpNext] (new_scroll_state 4) in ss_position st = 3.
Proof. vm_compute. reflexivity. Qed.

(** A position set from outside is not clamped until the next move; from any position one move forward lands inside. *)
Theorem C29_next_recovers : forall st, 0 <= ss_content st < 2 ^ 63 -> 0 <= ss_position st < 2 ^ 63 - 1 ->
  0 <= ss_position (scroll_next st) <= Z.max 0 (ss_content st - 1).
Proof.
  intros st Hc Hp. unfold scroll_next, scroll_set_position. cbn [ss_position]. rewrite !wrap64_small by lia. lia.
Qed.
Print Assumptions C29_next_recovers.
Example C29_next_recovers_instance : ss_position (scroll_next (scroll_set_position (new_scroll_state 4) 100)) = 3.
Proof. vm_compute. reflexivity. Qed.
