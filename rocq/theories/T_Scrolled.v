(** C58: scroll bars with missing or empty arrow heads. *)
From Verif Require Import Base P_Base M_Geom S_Geom T_Geom M_Style M_Uniseg M_Buffer S_Buffer S_Text P_Buffer P_SetString T_Buffer M_Text P_Text T_Text P_Redraw M_Slice M_List M_Float M_Scroll P_Scroll T_Scroll P_Frame.
From Coq Require Import ZArith NArith List Bool Lia FinFun.
Import ListNotations.
Open Scope Z_scope.

(** A symbol of one column, or an empty one; the columns it takes; what it makes of a cell. *)
Definition small (u : uniseg) (s : str) : Prop := s = [] \/ one_column u s.
Definition opt_small (u : uniseg) (o : option str) : Prop := match o with None => True | Some s => small u s end.
Definition head_len (o : option str) : Z := match o with None | Some [] => 0 | Some _ => 1 end.
Definition shows_in (o : option (str * style)) (c : cell) : cell := match o with None | Some ([], _) => c | Some (s, st) => cell_set_style st (cell_set_symbol s c) end.

Lemma head_len_range o : 0 <= head_len o <= 1. Proof. destruct o as [[|x s]|]; cbn; lia. Qed.
Lemma head_width u : uniseg_ok u -> forall o, opt_small u o -> symbol_len u o = head_len o.
Proof.
  intros Hu [[|x s]|] H; cbn [symbol_len head_len]; [unfold string_width; now rewrite (clusters_nil u Hu)| |reflexivity].
  destruct H as [H|[H1 H2]]; [discriminate|]. unfold string_width. rewrite H1. cbn [map]. rewrite zsum_cons, H2. reflexivity.
Qed.
Lemma draw_all u : uniseg_ok u -> forall (l : list (rect * option (str * style))) b, wf_buffer b ->
  NoDup (map (fun e => Pos (rx (fst e)) (ry (fst e))) l) ->
  (forall r o, In (r, o) l -> inside (Pos (rx r) (ry r)) (barea b) /\ match o with None => True | Some (s, _) => small u s end) ->
  exists b', ofold (draw_symbol u) l b = Ret b' /\ barea b' = barea b /\ wf_buffer b' /\
    (forall r o, In (r, o) l -> look b' (Pos (rx r) (ry r)) = option_map (shows_in o) (look b (Pos (rx r) (ry r)))) /\
    (forall p, ~ In p (map (fun e => Pos (rx (fst e)) (ry (fst e))) l) -> look b' p = look b p).
Proof.
  intros Hu. induction l as [|[r o] l IH]; intros b W ND Hl.
  - exists b. cbn. repeat split; auto; try apply W; contradiction.
  - cbn [map fst] in ND. inversion ND as [|? ? Hn ND']; subst. destruct (Hl r o (or_introl eq_refl)) as [I Ho].
    assert (E1 : exists b1, draw_symbol u b (r, o) = Ret b1 /\ redrawn (fun q c => if pos_eqb q (Pos (rx r) (ry r)) then shows_in o c else c) b b1).
    { unfold draw_symbol. cbn [fst snd]. destruct o as [[s st]|].
      - destruct s as [|x s].
        + unfold set_string, set_string_n. rewrite (clusters_nil u Hu). cbn. exists b. split; [reflexivity|]. split; [reflexivity|]. split; [exact W|]. intros q. destruct (pos_eqb _ _); now destruct (look b q).
        + destruct Ho as [Ho|Ho]; [discriminate|]. apply (set_string_one u b (Pos (rx r) (ry r)) (x :: s) st W I Ho).
      - exists b. split; [reflexivity|]. split; [reflexivity|]. split; [exact W|]. intros q. destruct (pos_eqb _ _); now destruct (look b q). }
    destruct E1 as (b1 & E1 & (A1 & W1 & L1)). cbn [ofold]. rewrite E1. cbn [bind].
    destruct (IH b1 W1 ND') as (b' & E & A & W' & L & N).
    { intros r' o' H. rewrite A1. apply Hl. now right. }
    exists b'. split; [exact E|]. split; [congruence|]. split; [exact W'|]. split.
    + intros r' o' [H|H].
      * injection H as <- <-. rewrite N by exact Hn. rewrite L1. destruct (pos_eqb_spec (Pos (rx r) (ry r)) (Pos (rx r) (ry r))) as [_|X]; [reflexivity|now destruct X].
      * rewrite (L r' o' H). rewrite L1. destruct (pos_eqb_spec (Pos (rx r') (ry r')) (Pos (rx r) (ry r))) as [Eq|_]; [|now destruct (look b (Pos (rx r') (ry r')))].
        exfalso. apply Hn. rewrite <- Eq. apply (in_map (fun e : rect * option (str * style) => Pos (rx (fst e)) (ry (fst e))) l (r', o') H).
    + intros p Hp. cbn [map fst In] in Hp. rewrite N by tauto. rewrite L1.
      destruct (pos_eqb_spec p (Pos (rx r) (ry r))) as [->|_]; [tauto|now destruct (look b p)].
Qed.

(** Whatever the arrow heads are - missing, empty or of one column - the track and the thumb have the lengths computed from the columns the heads take, and
    the first cell of the bar is kept for the begin symbol, so that without heads the bar is cut off at its end; nothing else changes. *)
Theorem C58_any_heads : forall u junk s area b st,
  uniseg_ok u -> wf_buffer b -> 0 < rw area -> 0 < rh area -> (forall p, inside p area -> inside p (barea b)) ->
  ss_content st <> 0 -> opt_small u (sc_begin s) -> opt_small u (sc_end s) -> small u (sc_thumb s) -> opt_small u (sc_track s) ->
  let n := if is_vertical (sc_orientation s) then rh area else rw area in
  let m := n - (head_len (sc_begin s) + head_len (sc_end s)) in
  0 < m ->
  exists a t e b', part_lens junk m (if ss_viewport st =? 0 then n else ss_viewport st) st = (a, t, e) /\
    scroll_render u junk s area b st = Ret b' /\ barea b' = barea b /\ wf_buffer b' /\
    (forall k, 0 <= k < n -> let p := bar_cell (sc_orientation s) area k in look b' p = option_map (shows_in (bar_shows s a t (m + 2) k)) (look b p)) /\
    (forall p, (forall k, 0 <= k < n -> p <> bar_cell (sc_orientation s) area k) -> look b' p = look b p).
Proof.
  intros u junk s area b st Hu W Hw Hh Hin Hc Ob Oe Ot Otr n m Hn.
  pose proof (head_len_range (sc_begin s)) as Lb. pose proof (head_len_range (sc_end s)) as Le.
  destruct (scrollbar_area (sc_orientation s) area) as [bar|] eqn:Ebar; [|apply scrollbar_none in Ebar; lia].
  destruct (bar_cells _ _ _ Hw Hh Ebar) as (Hside & rs & Ers & Hrs).
  assert (Hn' : side_len (sc_orientation s) area = n) by reflexivity.
  assert (Ht1 : track_len u s area = m) by (unfold track_len; rewrite Hn', !(head_width u Hu) by assumption; unfold m; lia).
  assert (Ht2 : track_len u s bar = m) by (unfold track_len; rewrite Hside, Hn', !(head_width u Hu) by assumption; unfold m; lia).
  assert (Hv : viewport_len s bar st = if ss_viewport st =? 0 then n else ss_viewport st)
    by (unfold viewport_len; rewrite Hside, Hn'; now destruct (ss_viewport st =? 0)).
  destruct (part_lens junk m (if ss_viewport st =? 0 then n else ss_viewport st) st) as [[a t] e] eqn:Ep.
  assert (Hn2 : 1 <= m) by lia. destruct (C27_parts _ _ _ _ _ _ _ Hn2 Ep) as (Pa & Pt & Pe & Psum).
  rewrite <- Hv, <- Ht2 in Ep.
  destruct (bar_symbols_nth u junk s bar st a t e (m + 2) 0 Ep Pa Pt Pe ltac:(lia) ltac:(lia)) as (syms & Esyms & _).
  assert (Hs : forall k, 0 <= k < n -> nth_error syms (Z.to_nat k) = Some (bar_shows s a t (m + 2) k)).
  { intros k Hk. destruct (bar_symbols_nth u junk s bar st a t e (m + 2) k Ep Pa Pt Pe ltac:(lia) ltac:(unfold m in *; lia)) as (l & El & Hl). congruence. }
  assert (Lr : length rs = Z.to_nat n).
  { apply (f_equal (@length pos)) in Hrs. rewrite !map_length in Hrs. rewrite Hrs. unfold zrange. rewrite map_length, seq_length. lia. }
  assert (Ls : (length rs <= length syms)%nat).
  { assert (nth_error syms (Z.to_nat (n - 1)) <> None) by (rewrite Hs by lia; discriminate). apply nth_error_Some in H. lia. }
  assert (Hcells : forall k, 0 <= k < n -> exists r, nth_error rs (Z.to_nat k) = Some r /\ Pos (rx r) (ry r) = bar_cell (sc_orientation s) area k).
  { intros k Hk. destruct (nth_error rs (Z.to_nat k)) as [r|] eqn:Er; [|apply nth_error_None in Er; lia].
    exists r. split; [reflexivity|]. apply (map_nth_error (fun r => Pos (rx r) (ry r))) in Er. rewrite Hrs in Er.
    unfold zrange in Er. rewrite map_map in Er. rewrite nth_error_map in Er.
    destruct (nth_error (seq 0 (Z.to_nat (side_len (sc_orientation s) area - 0))) (Z.to_nat k)) as [j|] eqn:Ej; [|discriminate].
    assert (j = Z.to_nat k). { assert (L := Ej). rewrite nth_error_nth' with (d := 0%nat) in Ej by (apply nth_error_Some; congruence). rewrite seq_nth in Ej; [injection Ej; lia|]. rewrite <- (seq_length (Z.to_nat (side_len (sc_orientation s) area - 0)) 0). apply nth_error_Some. congruence. }
    subst j. cbn [option_map] in Er. injection Er as Er. rewrite <- Er. f_equal. lia. }
  assert (Hin2 : forall k, 0 <= k < n -> inside (bar_cell (sc_orientation s) area k) area).
  { intros k Hk. clear Hn Hs Ls Lr Ep. unfold n in Hk. unfold inside, bar_cell. destruct (sc_orientation s); cbn [is_vertical px py] in *; lia. }
  assert (Hidx : forall (r : rect) o, In (r, o) (combine rs syms) -> exists k, 0 <= k < n /\ Pos (rx r) (ry r) = bar_cell (sc_orientation s) area k /\ o = bar_shows s a t (m + 2) k).
  { intros r o Hr. apply In_nth_error in Hr. destruct Hr as (j & Hj).
    assert (Hjl : (j < length (combine rs syms))%nat) by (apply nth_error_Some; congruence). rewrite combine_length in Hjl.
    exists (Z.of_nat j). assert (Hk : 0 <= Z.of_nat j < n) by lia. split; [exact Hk|].
    destruct (Hcells _ Hk) as (r' & Er & Epos). assert (Es := Hs _ Hk). assert (C := nth_error_combine _ _ _ _ _ Er Es).
    rewrite Nat2Z.id in C. rewrite C in Hj. injection Hj as <- <-. auto. }
  destruct (draw_all u Hu (combine rs syms) b W) as (b' & E & A & W' & L & N).
  { rewrite <- (map_map fst (fun r : rect => Pos (rx r) (ry r))), combine_fst_full by exact Ls. rewrite Hrs. apply FinFun.Injective_map_NoDup; [|apply zrange_NoDup].
    intros i j. unfold bar_cell. destruct (sc_orientation s); intros X; injection X; lia. }
  { intros r o Hr. destruct (Hidx r o Hr) as (k & Hk & Epos & ->). rewrite Epos. split; [auto|].
    unfold bar_shows. destruct (k =? 0); [destruct (sc_begin s); cbn; auto|]. destruct (k =? m + 2 - 1); [destruct (sc_end s); cbn; auto|]. destruct (_ && _); [cbn; auto|]. destruct (sc_track s); cbn; auto. }
  exists a, t, e, b'. split; [reflexivity|]. split.
  { unfold scroll_render. destruct (Z.eqb_spec (ss_content st) 0); [contradiction|]. rewrite Ht1. destruct (Z.eqb_spec m 0); [lia|]. cbn [orb].
    rewrite Ebar, Esyms, Ers. exact E. }
  split; [exact A|]. split; [exact W'|]. split.
  - intros k Hk. destruct (Hcells k Hk) as (r & Er & Epos). cbv zeta. rewrite <- Epos. apply L. eapply nth_error_In. eapply nth_error_combine; [exact Er|apply Hs; lia].
  - intros p Hp. apply N. intros Hi. apply in_map_iff in Hi. destruct Hi as ([r o] & Epos & Hr). cbn [fst] in Epos.
    destruct (Hidx r o Hr) as (k & Hk & Epos2 & _). apply (Hp k Hk). congruence.
Qed.
Print Assumptions C58_any_heads.


(** The default horizontal bar: empty heads, so the bar starts in the second cell and its last two cells are cut off. *)
Example C58_any_heads_instance : opt_small simple_uniseg (sc_begin (new_scroll HorizontalTop)) /\ opt_small simple_uniseg (sc_end (new_scroll HorizontalTop)) /\
  small simple_uniseg (sc_thumb (new_scroll HorizontalTop)) /\ opt_small simple_uniseg (sc_track (new_scroll HorizontalTop)) /\
  omap symbols (scroll_render simple_uniseg 0 (new_scroll HorizontalTop) (Rect 0 0 5 1) (Buf (Rect 0 0 5 1) (repeat empty_cell 5)) (ScrollState 9 0 0)) =
    Ret [[32%N]; [9608%N]; [9608%N]; [9552%N]; [9552%N]].
Proof. repeat split; try (left; reflexivity); try (right; split; reflexivity); vm_compute; reflexivity. Qed.

(** A bar in which the heads leave no cell for the track is not drawn at all, and neither is one without content. *)
Theorem C58_no_room : forall u junk s area b st, uniseg_ok u -> opt_small u (sc_begin s) -> opt_small u (sc_end s) ->
  ss_content st = 0 \/ (if is_vertical (sc_orientation s) then rh area else rw area) <= head_len (sc_begin s) + head_len (sc_end s) -> scroll_render u junk s area b st = Ret b.
Proof.
  intros u junk s area b st Hu Hb He H. unfold scroll_render, track_len, side_len. rewrite !(head_width u Hu) by assumption.
  replace ((ss_content st =? 0) || _) with true; [reflexivity|]. symmetry. apply orb_true_iff. rewrite !Z.eqb_eq. lia.
Qed.
Print Assumptions C58_no_room.
Example C58_no_room_instance : scroll_render simple_uniseg 0 (new_scroll VerticalRight) (Rect 0 0 4 2) (demo_buffer 4 2) (ScrollState 9 0 0) = Ret (demo_buffer 4 2).
Proof. vm_compute. reflexivity. Qed.
