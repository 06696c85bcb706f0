(** C18, for whole texts: what every cell of the area shows. *)
From Verif Require Import Base P_Base M_Geom S_Geom T_Geom M_Style M_Uniseg M_Buffer S_Buffer P_Buffer P_SetString M_Text S_Text S_Line P_Text T_Text.
From Coq Require Import ZArith NArith List Bool Lia.
Import ListNotations.
Open Scope Z_scope.

(** What line [l] makes of a cell [o] columns from the left edge of a window of [W] columns, which had the content [c]. *)
Definition line_cell (u : uniseg) (parent : alignment) (W o : Z) (l : line) (c : cell) : cell :=
  paint (seen (cwidth u) (line_cells u (ln_spans l)) W (start_column (effective (ln_align l) parent) W (line_width u l)) o)
        (if o <? Z.min W (line_width u l) then cell_set_style (ln_style l) c else c).

(** A line drawn in one row of the buffer *)
Lemma line_row u l A y al b : uniseg_ok u -> wf_buffer b -> visible_line u (ln_spans l) -> 0 < rw A -> within A (barea b) -> ry A <= y < rbottom A ->
  exists b', line_render_with u l (Rect (rx A) y (rw A) 1) b al = Ret b' /\ barea b' = barea b /\ wf_buffer b' /\
    (forall p, py p = y -> rx A <= px p < rx A + rw A -> look b' p = option_map (line_cell u al (rw A) (px p - rx A) l) (look b p)) /\
    (forall p, ~ (py p = y /\ rx A <= px p < rx A + rw A) -> look b' p = look b p).
Proof.
  intros Hu W Hv Hw Hin Hy. set (R := Rect (rx A) y (rw A) 1). assert (HR : within R (barea b)) by (unfold within, rbottom, rright, R in *; cbn in *; lia).
  assert (EI : intersection R (barea b) = R) by (apply intersection_within; [exact HR|unfold sized, R; cbn; lia]).
  destruct (C17_line_stays_inside u l R b al Hu W) as (b' & E & (A1 & W1 & _)). exists b'. split; [exact E|]. split; [exact A1|]. split; [exact W1|].
  destruct (Z.eq_dec (line_width u l) 0) as [Z0|Nz].
  - (* nothing is drawn *)
    assert (Eb : b' = b). { unfold line_render_with in E. rewrite EI in E. destruct (rect_is_empty R); [injection E as <-; reflexivity|]. rewrite Z0 in E. cbn in E. injection E as <-. reflexivity. }
    subst b'. split; intros p; [|reflexivity]. intros Hp Hx. unfold line_cell. rewrite Z0. pose proof (visible_of u _ Hu Hv) as V. pose proof (line_cells_width u l) as Lw. rewrite Z0 in Lw.
    assert (Nil : line_cells u (ln_spans l) = []). { destruct (line_cells u (ln_spans l)) as [|[c st] m]; [reflexivity|]. exfalso. destruct (V c st (or_introl eq_refl)) as (V1 & _). assert (V2 : visible u m) by (intros c' st' I; apply (V c' st'); now right). pose proof (cells_width_nonneg u m V2). unfold cells_width in *. cbn [map zsum fold_right fst] in *. change (fold_right Z.add 0) with zsum in *. rewrite ?zsum_cons in Lw. lia. }
    rewrite Nil. cbn [seen paint]. replace (px p - rx A <? Z.min (rw A) 0) with false by (symmetry; apply Z.ltb_ge; lia). destruct (look b p); reflexivity.
  - assert (Lp : 0 < line_width u l). { pose proof (visible_of u _ Hu Hv) as V. pose proof (cells_width_nonneg u _ V) as N. rewrite line_cells_width in N. lia. }
    pose proof (C18_line_placement u l R b al Hu W Hv) as P. cbv zeta in P. rewrite EI in P. destruct (P Hw ltac:(cbn; lia) Lp) as (b2 & E2 & _ & P1 & P2). rewrite E in E2. injection E2 as <-. cbn [rx ry rw rh R] in P1, P2. split; [exact P1|exact P2].
Qed.
Lemma text_rows u al A : uniseg_ok u -> 0 < rw A -> forall lines y b, wf_buffer b -> (forall l, In l lines -> visible_line u (ln_spans l)) -> within A (barea b) -> ry A <= y <= rbottom A ->
  exists b', text_loop u lines (map (fun y => Rect (rx A) y (rw A) 1) (zrange y (rbottom A))) al b = Ret b' /\ barea b' = barea b /\ wf_buffer b' /\
    (forall p, y <= py p < rbottom A -> rx A <= px p < rx A + rw A ->
       look b' p = option_map (fun c => match nth_error lines (Z.to_nat (py p - y)) with Some l => line_cell u al (rw A) (px p - rx A) l c | None => c end) (look b p)) /\
    (forall p, ~ (y <= py p < rbottom A /\ rx A <= px p < rx A + rw A) -> look b' p = look b p).
Proof.
  intros Hu Hw. induction lines as [|l lines IH]; intros y b W Hv Hin Hy; cbn [text_loop].
  { exists b. split; [reflexivity|]. split; [reflexivity|]. split; [exact W|]. split; [|reflexivity]. intros p _ _. replace (nth_error (@nil line) (Z.to_nat (py p - y))) with (@None line) by (destruct (Z.to_nat (py p - y)); reflexivity). destruct (look b p); reflexivity. }
  destruct (Z.eq_dec y (rbottom A)) as [->|Ny].
  { rewrite zrange_nil by lia. cbn [map]. exists b. split; [reflexivity|]. split; [reflexivity|]. split; [exact W|]. split; [|reflexivity]. intros p Hp. lia. }
  rewrite zrange_cons by lia. cbn [map]. destruct (line_row u l A y al b Hu W (Hv l (or_introl eq_refl)) Hw Hin ltac:(lia)) as (b1 & E1 & A1 & W1 & C1 & D1). rewrite E1. cbn [bind].
  destruct (IH (y + 1) b1 W1 (fun l' I => Hv l' (or_intror I)) ltac:(now rewrite A1) ltac:(lia)) as (b2 & E2 & A2 & W2 & C2 & D2). exists b2. split; [exact E2|]. split; [congruence|]. split; [exact W2|]. split.
  - intros p Hp Hx. destruct (Z.eq_dec (py p) y) as [Ey|Ey].
    + rewrite D2 by lia. rewrite (C1 p Ey Hx). rewrite Ey, Z.sub_diag. reflexivity.
    + rewrite C2 by lia. rewrite D1 by lia. replace (Z.to_nat (py p - y)) with (S (Z.to_nat (py p - (y + 1)))) by lia. reflexivity.
  - intros p Hp. rewrite D2 by lia. apply D1. lia.
Qed.
(** ** C18: the k-th line of a text is in the k-th row of the visible part of the area, on the style of the text; the rows below the last line
    only get that style; nothing else changes. *)
Theorem C18_text_placement u t area b : uniseg_ok u -> wf_buffer b -> (forall l, In l (tx_lines t) -> visible_line u (ln_spans l)) ->
  let A := intersection area (barea b) in 0 < rw A -> 0 < rh A ->
  exists b', text_render u t area b = Ret b' /\ barea b' = barea b /\
    (forall p, inside p A -> look b' p = option_map (fun c => let c := cell_set_style (tx_style t) c in
       match nth_error (tx_lines t) (Z.to_nat (py p - ry A)) with Some l => line_cell u (tx_align t) (rw A) (px p - rx A) l c | None => c end) (look b p)) /\
    (forall p, ~ inside p A -> look b' p = look b p).
Proof.
  intros Hu W Hv A Hw Hh. unfold text_render. fold A. cbv zeta. pose proof (within_intersection area (barea b) Hw Hh) as Hin. fold A in Hin.
  destruct (set_style_spec b A (tx_style t) W) as (b1 & E1 & (A1 & W1 & C1 & D1)). rewrite E1. cbn [bind]. unfold rows.
  destruct (text_rows u (tx_align t) A Hu Hw (tx_lines t) (ry A) b1 W1 Hv ltac:(now rewrite A1) ltac:(unfold rbottom; lia)) as (b2 & E2 & A2 & W2 & C2 & D2). exists b2. split; [exact E2|]. split; [congruence|]. split.
  - intros p I. rewrite C2 by (unfold inside, rbottom in *; lia). rewrite C1 by (unfold within, inside, rright, rbottom in *; lia). destruct (look b p); reflexivity.
  - intros p I. rewrite D2 by (unfold inside, rbottom in *; lia). rewrite D1; [reflexivity|]. tauto.
Qed.
(** A text of two lines in an area of three rows, one of which is longer than the area. *)
Definition two_lines : text := Text new_style [new_line [new_span [97; 98; 99; 100]%N]; Line new_style [new_span [19990]%N] AlignRight] AlignCenter.
Example C18_text_instance : (forall l, In l (tx_lines two_lines) -> visible_line simple_uniseg (ln_spans l)) /\
  rendered (text_render simple_uniseg two_lines (Rect 0 0 3 3) (demo_buffer 3 3)) = [[97%N]; [98%N]; [99%N]; space; [19990%N]; space; space; space; space].
Proof. split; [|vm_compute; reflexivity]. intros l [<-|[<-|[]]] s c [<-|[]] I; cbn in I; repeat (destruct I as [<-|I]; [split; [vm_compute; discriminate|reflexivity]|]); destruct I. Qed.
Print Assumptions C18_text_placement.
