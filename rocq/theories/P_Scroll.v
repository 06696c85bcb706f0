(** Facts about scroll bars. *)
From Verif Require Import Base P_Base M_Geom S_Geom T_Geom M_Style M_Uniseg M_Buffer S_Buffer S_Text P_Buffer P_SetString T_Buffer M_Text P_Text P_Redraw M_Float P_Float M_Scroll.
From Coq Require Import ZArith NArith List Bool Lia.
Import ListNotations.
Open Scope Z_scope.

(** A symbol that fills exactly one column. *)
Definition one_column (u : uniseg) (s : str) : Prop := clusters u s = [s] /\ cwidth u s = 1.

(** What a cell becomes when a symbol is drawn in it. *)
Definition drawn (o : option (str * style)) (c : cell) : cell :=
  match o with None => c | Some (s, st) => cell_set_style st (cell_set_symbol s c) end.

Lemma set_string_one u b p s st : wf_buffer b -> inside p (barea b) -> one_column u s ->
  exists b', set_string u b (px p) (py p) s st = Ret b' /\ redrawn (fun q c => if pos_eqb q p then drawn (Some (s, st)) c else c) b b'.
Proof.
  intros W I [Hc Hw]. unfold set_string. destruct p as [x y]. cbn [px py] in *.
  assert (Hws : widths u [s] = 1) by (unfold widths; cbn; lia).
  destruct (C11_set_string_n_partial u b x y s max_int st [s] []) as (b' & E & A & W' & L1 & _ & L2); auto.
  - intros c [<-|[]]. lia.
  - rewrite Hws. unfold max_int, inside in *. cbn [px py] in I. lia.
  - rewrite E. cbn [bind]. exists b'. split; [reflexivity|]. split; [exact A|]. split; [exact W'|]. intros q.
    destruct (pos_eqb_spec q (Pos x y)) as [->|N].
    + destruct (look_inside b (Pos x y) W I) as (c & Ec). rewrite Ec. cbn [option_map drawn].
      specialize (L1 0 c s ltac:(lia)). rewrite Z.add_0_r in L1. apply L1; [exact Ec|reflexivity].
    + rewrite L2; [now destruct (look b q)|]. rewrite Hws. intros [Hy Hx]. apply N. destruct q. cbn in *. f_equal; lia.
Qed.

(** Drawing symbols one after the other into pairwise different cells. *)
Lemma draw_symbols u : forall (l : list (rect * option (str * style))) b, wf_buffer b ->
  NoDup (map (fun e => Pos (rx (fst e)) (ry (fst e))) l) ->
  (forall r o, In (r, o) l -> inside (Pos (rx r) (ry r)) (barea b) /\ match o with None => True | Some (s, _) => one_column u s end) ->
  exists b', ofold (draw_symbol u) l b = Ret b' /\ barea b' = barea b /\ wf_buffer b' /\
    (forall r o, In (r, o) l -> look b' (Pos (rx r) (ry r)) = option_map (drawn o) (look b (Pos (rx r) (ry r)))) /\
    (forall p, ~ In p (map (fun e => Pos (rx (fst e)) (ry (fst e))) l) -> look b' p = look b p).
Proof.
  induction l as [|[r o] l IH]; intros b W ND Hl.
  - exists b. cbn. repeat split; auto; try apply W; contradiction.
  - cbn [map fst] in ND. inversion ND as [|? ? Hn ND']; subst. destruct (Hl r o (or_introl eq_refl)) as [I Ho].
    assert (E1 : exists b1, draw_symbol u b (r, o) = Ret b1 /\ redrawn (fun q c => if pos_eqb q (Pos (rx r) (ry r)) then drawn o c else c) b b1).
    { unfold draw_symbol. cbn [fst snd]. destruct o as [[s st]|].
      - apply (set_string_one u b (Pos (rx r) (ry r)) s st W I Ho).
      - exists b. split; [reflexivity|]. split; [reflexivity|]. split; [exact W|]. intros q. destruct (pos_eqb _ _); now destruct (look b q). }
    destruct E1 as (b1 & E1 & (A1 & W1 & L1)). cbn [ofold]. rewrite E1. cbn [bind].
    destruct (IH b1 W1 ND') as (b' & E & A & W' & L & N).
    { intros r' o' H. rewrite A1. apply Hl. now right. }
    exists b'. split; [exact E|]. split; [congruence|]. split; [exact W'|]. split.
    + intros r' o' [H|H].
      * injection H as <- <-. rewrite N by exact Hn. rewrite L1. destruct (pos_eqb_spec (Pos (rx r) (ry r)) (Pos (rx r) (ry r))) as [_|X]; [reflexivity|now destruct X].
      * rewrite (L r' o' H). rewrite L1. destruct (pos_eqb_spec (Pos (rx r') (ry r')) (Pos (rx r) (ry r))) as [Eq|_]; [|now destruct (look b (Pos (rx r') (ry r')))].
        exfalso. apply Hn. rewrite <- Eq. apply (in_map (fun e : rect * option (str * style) => Pos (rx (fst e)) (ry (fst e))) l (r', o') H).
    + intros p Hp. cbn [map fst In] in Hp. rewrite N by tauto. rewrite L1.
      destruct (pos_eqb_spec p (Pos (rx r) (ry r))) as [->|_]; [tauto|now destruct (look b p)].
Qed.

(** The cells of a bar, in drawing order. *)
Definition bar_cell (o : orientation) (area : rect) (k : Z) : pos :=
  match o with
  | VerticalRight => Pos (rx area + rw area - 1) (ry area + k)
  | VerticalLeft => Pos (rx area) (ry area + k)
  | HorizontalBottom => Pos (rx area + k) (ry area)
  | HorizontalTop => Pos (rx area + k) (ry area + rh area - 1)
  end.

Lemma zrange_last lo hi : lo < hi -> zrange lo hi = zrange lo (hi - 1) ++ [hi - 1].
Proof.
  intros H. unfold zrange. replace (Z.to_nat (hi - lo)) with (Z.to_nat (hi - 1 - lo) + 1)%nat by lia.
  rewrite seq_app, map_app. f_equal. cbn. f_equal. lia.
Qed.
Lemma zrange_first lo hi : lo < hi -> zrange lo hi = lo :: zrange (lo + 1) hi.
Proof.
  intros H. unfold zrange. replace (Z.to_nat (hi - lo)) with (S (Z.to_nat (hi - (lo + 1)))) by lia.
  cbn [seq map]. f_equal; [lia|]. rewrite <- seq_shift, map_map. apply map_ext. intros. lia.
Qed.
Lemma zrange_empty lo hi : hi <= lo -> zrange lo hi = [].
Proof. intros H. unfold zrange. replace (Z.to_nat (hi - lo)) with 0%nat by lia. reflexivity. Qed.

(** Where the code puts the bar. *)
Lemma scrollbar_area_spec o area : 0 < rw area -> 0 < rh area ->
  scrollbar_area o area = Some (match o with
    | VerticalRight => Rect (rx area + rw area - 1) (ry area) 1 (rh area)
    | VerticalLeft => Rect (rx area) (ry area) 1 (rh area)
    | HorizontalBottom => Rect (rx area) (ry area) (rw area) 1
    | HorizontalTop => Rect (rx area) (ry area + rh area - 1) (rw area) 1
    end).
Proof.
  intros Hw Hh. destruct o; unfold scrollbar_area, columns, rows, rright, rbottom.
  - rewrite zrange_last, map_app, rev_app_distr by lia. cbn. unfold positioned, new_rect. cbn. f_equal; f_equal; lia.
  - rewrite zrange_first by lia. cbn. reflexivity.
  - rewrite zrange_first by lia. cbn. reflexivity.
  - rewrite zrange_last, map_app, rev_app_distr by lia. cbn. f_equal.
Qed.

Lemma zrange_shift a lo hi : map (fun k => a + k) (zrange lo hi) = zrange (a + lo) (a + hi).
Proof. unfold zrange. rewrite map_map. replace (a + hi - (a + lo)) with (hi - lo) by lia. apply map_ext. intros. lia. Qed.

Lemma bar_cells o area bar : 0 < rw area -> 0 < rh area -> scrollbar_area o area = Some bar ->
  side_len o bar = side_len o area /\
  exists rs, flat_map rows (columns bar) = rs /\
    map (fun r => Pos (rx r) (ry r)) rs = map (bar_cell o area) (zrange 0 (side_len o area)).
Proof.
  intros Hw Hh E. rewrite scrollbar_area_spec in E by lia. injection E as <-.
  split; [destruct o; reflexivity|]. eexists. split; [reflexivity|].
  destruct o; unfold columns, side_len, rright; cbn [rx ry rw rh is_vertical].
  - replace (rx area + rw area - 1 + 1) with (rx area + rw area - 1 + 1) by lia. rewrite zrange_first, zrange_empty by lia. cbn [map flat_map]. rewrite app_nil_r.
    unfold rows, positioned, new_rect, rbottom. cbn [rx ry rw rh]. rewrite map_map. cbn [rx ry].
    replace (ry area) with (ry area + 0) at 1 by lia. rewrite <- zrange_shift, map_map. apply map_ext. intros. cbn. f_equal.
  - rewrite zrange_first, zrange_empty by lia. cbn [map flat_map]. rewrite app_nil_r.
    unfold rows, positioned, new_rect, rbottom. cbn [rx ry rw rh]. rewrite map_map. cbn [rx ry].
    replace (ry area) with (ry area + 0) at 1 by lia. rewrite <- zrange_shift, map_map. apply map_ext. intros. reflexivity.
  - rewrite flat_map_concat_map, map_map.
    rewrite (map_ext _ (fun x => [Rect x (ry area) 1 1])).
    + rewrite <- flat_map_concat_map. replace (rx area) with (rx area + 0) at 1 by lia. rewrite <- zrange_shift.
      induction (zrange 0 (rw area)) as [|k l IH]; [reflexivity|]. cbn [map flat_map app]. rewrite IH. f_equal.
    + intros x. unfold rows, positioned, new_rect, rbottom. cbn [rx ry rw rh]. rewrite zrange_first, zrange_empty by lia. reflexivity.
  - rewrite flat_map_concat_map, map_map.
    rewrite (map_ext _ (fun x => [Rect x (ry area + rh area - 1) 1 1])).
    + rewrite <- flat_map_concat_map. replace (rx area) with (rx area + 0) at 1 by lia. rewrite <- zrange_shift.
      induction (zrange 0 (rw area)) as [|k l IH]; [reflexivity|]. cbn [map flat_map app]. rewrite IH. f_equal.
    + intros x. unfold rows, positioned, new_rect, rbottom. cbn [rx ry rw rh]. rewrite zrange_first, zrange_empty by lia. reflexivity.
Qed.

Lemma scrollbar_none o area : scrollbar_area o area = None -> rw area <= 0 \/ rh area <= 0.
Proof. intros H. destruct (Z.lt_ge_cases 0 (rw area)); [|lia]. destruct (Z.lt_ge_cases 0 (rh area)); [|lia]. rewrite scrollbar_area_spec in H by lia. discriminate. Qed.

(** The part lengths, whatever the quotients round to. *)
Lemma part_lens_sum junk track viewport st : 1 <= track ->
  let '(a, t, e) := part_lens junk track viewport st in 0 <= a /\ 1 <= t /\ 0 <= e /\ a + t + e = track.
Proof. intros H. unfold part_lens. cbv zeta. set (x := round_quotient _ _ _). set (y := round_quotient _ _ _). lia. Qed.

Lemma round_quotient_exact junk n d : 0 <= n < 2 ^ 52 -> 0 < d < 2 ^ 52 -> round_quotient junk n d = (2 * n + d) / (2 * d).
Proof.
  intros Hn Hd. unfold round_quotient. destruct (of_int_exact n Hn) as [N1 N2]. destruct (of_int_exact d ltac:(lia)) as [D1 D2].
  unfold is_zero. destruct (Z.eqb_spec (fnum (of_int d)) 0) as [E|_]; [nia|].
  unfold fdiv. rewrite (math_round_fround _ _ n d); [|lia|lia|nia|rewrite N1, D1; ring].
  unfold to_int. assert (0 <= (2 * n + d) / (2 * d) <= n + 1).
  { split; [apply Z.div_pos; lia|]. apply Z.div_le_upper_bound; nia. }
  replace (fits_int _) with true; [reflexivity|]. symmetry. unfold fits_int. apply andb_true_intro. split; [apply Z.leb_le|apply Z.ltb_lt]; lia.
Qed.

Lemma part_lens_exact junk track viewport content position v : 1 <= track -> 0 <= viewport -> 0 <= content ->
  0 < Z.max 0 (content - 1) + viewport -> (Z.max 0 (content - 1) + viewport) * track < 2 ^ 52 ->
  let last := Z.max 0 (content - 1) in
  let p := Z.max 0 (Z.min last position) in
  let near n := (2 * n + (last + viewport)) / (2 * (last + viewport)) in
  let a := Z.min (track - 1) (near (p * track)) in
  let z := Z.min track (near ((p + viewport) * track)) in
  part_lens junk track viewport (ScrollState content position v) = (a, Z.max 1 (z - a), track - a - Z.max 1 (z - a)) /\ 0 <= a.
Proof.
  intros Ht Hv Hc Hpos Hlt. cbv zeta. unfold part_lens. cbn [ss_content ss_position].
  set (last := Z.max 0 (content - 1)) in *. set (p := Z.max 0 (Z.min last position)).
  assert (HM : last + viewport < 2 ^ 52) by (set (P := 2 ^ 52) in *; nia).
  assert (W1 : wrap64 (content - 1) = content - 1) by (apply wrap64_small; lia).
  rewrite W1. fold last. fold p.
  assert (Hp : 0 <= p <= last) by lia.
  assert (Hq : 0 <= p * track <= (last + viewport) * track) by nia.
  assert (Hz : 0 <= (p + viewport) * track <= (last + viewport) * track) by nia.
  rewrite (wrap64_small (last + viewport)), (wrap64_small (p + viewport)), (wrap64_small (p * track)), (wrap64_small ((p + viewport) * track)) by lia.
  rewrite !round_quotient_exact by lia.
  set (D := last + viewport) in *.
  assert (A : 0 <= (2 * (p * track) + D) / (2 * D)) by (apply Z.div_pos; lia).
  assert (B : 0 <= (2 * ((p + viewport) * track) + D) / (2 * D)) by (apply Z.div_pos; lia).
  set (x := (2 * (p * track) + D) / (2 * D)) in *. set (y := (2 * ((p + viewport) * track) + D) / (2 * D)) in *. clearbody x y.
  rewrite (Z.max_r 0 (Z.min (track - 1) x)) by lia. rewrite (Z.max_r 0 (Z.min track y)) by lia.
  split; [|lia]. f_equal; [f_equal; lia|lia].
Qed.
