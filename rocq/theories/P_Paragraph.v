(** Drawing composed lines. *)
From Verif Require Import Base M_Geom S_Geom M_Style M_Uniseg M_Buffer S_Buffer M_Text M_Reflow S_Reflow P_Base T_Geom P_Buffer P_Text P_Reflow.
From Coq Require Import ZArith NArith List Bool Lia.
Import ListNotations.
Open Scope Z_scope.

(** What a cell showing the grapheme looks like. *)
Definition drawn (g : gr) (c : cell) : cell := cell_set_style (g_style g) (cell_set_symbol (match g_sym g with [] => [32%N] | s => s end) c).

Definition on_row (x w y : Z) (p : pos) : Prop := py p = y /\ x <= px p < x + w.

Lemma draw_graphemes_ok gs : forall x y b, wf_buffer b -> Forall (fun g => 0 <= g_width g) gs ->
  rx (barea b) <= x -> x + gr_width gs <= rx (barea b) + rw (barea b) -> ry (barea b) <= y < ry (barea b) + rh (barea b) ->
  exists b', draw_graphemes gs x y b = Ret b' /\ changed_only (on_row x (gr_width gs) y) b b' /\
    (forall pre g post, gs = pre ++ g :: post -> 0 < g_width g ->
       look b' (Pos (x + gr_width pre) y) = option_map (drawn g) (look b (Pos (x + gr_width pre) y))).
Proof.
  induction gs as [|g gs IH]; intros x y b W F Hx Hw Hy; cbn [draw_graphemes].
  - exists b. split; [reflexivity|]. split; [apply changed_only_refl; auto|]. intros pre g post X. destruct pre; discriminate.
  - inversion F as [|? ? Hg F']; subst. pose proof (gr_width_nonneg _ F') as N. rewrite gr_width_cons in *.
    destruct (Z.eqb_spec (g_width g) 0) as [Ez|Ez].
    + destruct (IH x y b W F' Hx ltac:(lia) Hy) as (b' & E & C & S). exists b'. split; [exact E|]. split.
      { eapply changed_only_weaken; [|exact C]. unfold on_row. intros; lia. }
      intros pre g' post X Hp. destruct pre as [|g0 pre]; [injection X as <- _; lia|]. injection X as <- X. rewrite gr_width_cons.
      specialize (S pre g' post X Hp). replace (x + (g_width g + gr_width pre)) with (x + gr_width pre) by lia. exact S.
    + assert (Ip : inside (Pos x y) (barea b)) by (unfold inside; cbn; lia).
      destruct (upd_cell_spec b (Pos x y) (drawn g) W Ip) as (b1 & E1 & C1). cbv zeta.
      match goal with |- context [upd_cell b (Pos x y) ?f] => change f with (drawn g) end. rewrite E1. cbn [bind].
      destruct C1 as (A1 & W1 & C1 & D1).
      destruct (IH (x + g_width g) y b1 W1 F') as (b' & E & (A2 & W2 & D2) & S); try (rewrite A1; lia).
      exists b'. split; [exact E|]. split.
      { split; [congruence|]. split; [exact W2|]. intros p Hp. rewrite D2, D1; auto; unfold on_row in *.
        - intros ->. apply Hp. cbn. lia.
        - lia. }
      intros pre g' post X Hp. destruct pre as [|g0 pre].
      * injection X as <- _. rewrite gr_width_nil, Z.add_0_r. rewrite D2 by (unfold on_row; cbn; lia). now rewrite C1.
      * injection X as <- X. rewrite gr_width_cons. assert (Hpre : 0 <= gr_width pre).
        { apply gr_width_nonneg. rewrite X in F'. apply Forall_app in F'. tauto. }
        specialize (S pre g' post X Hp). replace (x + (g_width g + gr_width pre)) with (x + g_width g + gr_width pre) by lia. rewrite S.
        f_equal. apply D1. intros Q. injection Q. lia.
Qed.

(** A composed line that can be drawn in [W] columns. *)
Definition drawable (W : Z) (l : wrapped_line) : Prop :=
  wl_width l = gr_width (wl_line l) /\ wl_width l <= W /\ wl_align l <> AlignNone /\ Forall (fun g => 0 <= g_width g) (wl_line l).

(** The column (from the left edge) at which a line of [lw] columns starts in [W] columns; centring is exact up to half a column. *)
Definition placed (al : alignment) (W lw o : Z) : Prop :=
  match al with AlignLeft => o = 0 | AlignRight => o = W - lw | AlignCenter => -1 <= 2 * o - (W - lw) <= 1 | AlignNone => False end.

Lemma line_offset_ok W l : drawable W l -> exists o, line_offset (wl_width l) W (wl_align l) = Ret o /\ placed (wl_align l) W (wl_width l) o /\ 0 <= o /\ o + wl_width l <= W.
Proof.
  intros (E & H & N & F). pose proof (gr_width_nonneg _ F). unfold line_offset. destruct (wl_align l); try congruence.
  - exists 0. split; [reflexivity|]. cbn [placed]. lia.
  - rewrite !Z.quot_div_nonneg by lia. eexists. split; [reflexivity|]. cbn [placed].
    pose proof (Z.div_mod W 2 ltac:(lia)). pose proof (Z.div_mod (wl_width l) 2 ltac:(lia)).
    pose proof (Z.mod_pos_bound W 2 ltac:(lia)). pose proof (Z.mod_pos_bound (wl_width l) 2 ltac:(lia)). lia.
  - eexists. split; [reflexivity|]. cbn [placed]. lia.
Qed.

Lemma render_text_ok {S} (next : S -> option (wrapped_line * S)) area scroll fuel : 0 < rw area -> 0 < rh area -> 0 <= scroll ->
  forall st ls, yields next st ls -> Forall (drawable (rw area)) ls -> forall y b, wf_buffer b -> within area (barea b) -> 0 <= y < rh area + scroll ->
  rh area + scroll - y <= Z.of_nat fuel ->
  exists b', render_text next fuel st area scroll y b = Ret b' /\
    changed_only (fun p => inside p area /\ ry area + y - scroll <= py p) b b' /\
    (forall n l, nth_error ls n = Some l -> scroll <= y + Z.of_nat n < scroll + rh area ->
      exists o, placed (wl_align l) (rw area) (wl_width l) o /\
      forall pre g post, wl_line l = pre ++ g :: post -> 0 < g_width g ->
        let p := Pos (rx area + o + gr_width pre) (ry area + (y + Z.of_nat n) - scroll) in
        inside p area /\ look b' p = option_map (drawn g) (look b p)).
Proof.
  intros Hw Hh Hs. induction fuel as [|fuel IH]; intros st ls Y D y b W In Hy Hf; [lia|]. cbn [render_text].
  inversion Y as [st0 E|st0 l st' ls' E Y']; subst; rewrite E.
  { exists b. split; [reflexivity|]. split; [apply changed_only_refl; auto|]. intros n l X. destruct n; discriminate. }
  inversion D as [|? ? Dl D']; subst. destruct (line_offset_ok (rw area) l Dl) as (o & Eo & Po & O1 & O2).
  assert (Row : exists b1, (if y >=? scroll then let! x := line_offset (wl_width l) (rw area) (wl_align l) in draw_graphemes (wl_line l) (rx area + x) (ry area + y - scroll) b else Ret b) = Ret b1 /\
    changed_only (fun p => inside p area /\ py p = ry area + y - scroll) b b1 /\
    (scroll <= y -> forall pre g post, wl_line l = pre ++ g :: post -> 0 < g_width g -> 
       look b1 (Pos (rx area + o + gr_width pre) (ry area + y - scroll)) = option_map (drawn g) (look b (Pos (rx area + o + gr_width pre) (ry area + y - scroll))))).
  { rewrite Z.geb_leb. destruct (Z.leb_spec scroll y) as [Hsy|Hsy].
    - rewrite Eo. cbn [bind]. destruct Dl as (D1 & D2 & D3 & D4). unfold within in In.
      destruct (draw_graphemes_ok (wl_line l) (rx area + o) (ry area + y - scroll) b W D4) as (b1 & E1 & C1 & S1); try lia.
      exists b1. split; [exact E1|]. split; [|intros _; exact S1]. eapply changed_only_weaken; [|exact C1]. unfold on_row, inside. intros p Hp. lia.
    - exists b. split; [reflexivity|]. split; [apply changed_only_refl; auto|lia]. }
  destruct Row as (b1 & -> & (A1 & W1 & C1) & S1). cbn [bind].
  assert (First : forall b', (forall p, ~ (inside p area /\ ry area + (y + 1) - scroll <= py p) -> look b' p = look b1 p) -> scroll <= y ->
    exists o, placed (wl_align l) (rw area) (wl_width l) o /\
      forall pre g post, wl_line l = pre ++ g :: post -> 0 < g_width g ->
        let p := Pos (rx area + o + gr_width pre) (ry area + y - scroll) in
        inside p area /\ look b' p = option_map (drawn g) (look b p)).
  { intros b' Hb Hsy. exists o. split; [exact Po|]. intros pre g post X Hg p. destruct Dl as (D1 & D2 & D3 & D4). rewrite X in D1, D4.
    apply Forall_app in D4. destruct D4 as [D4 D5]. inversion D5; subst. rewrite gr_width_app, gr_width_cons in D1.
    pose proof (gr_width_nonneg _ D4). pose proof (gr_width_nonneg _ H2). split; [unfold inside, p; cbn; lia|].
    rewrite Hb by (intros [_ Q]; unfold p in Q; cbn [py] in Q; lia). apply (S1 Hsy pre g post); auto. }
  rewrite Z.geb_leb. destruct (Z.leb_spec (rh area + scroll) (y + 1)) as [He|He].
  - exists b1. split; [reflexivity|]. split; [split; [auto|split; [auto|intros p Hp; apply C1; intros [Q1 Q2]; apply Hp; split; [exact Q1|lia]]]|].
    intros n l0 X Hn. destruct n as [|n]; [|lia]. injection X as <-. rewrite Z.add_0_r. apply First; [auto|lia].
  - destruct (IH st' ls' Y' D' (y + 1) b1 W1) as (b' & E2 & (A2 & W2 & C2) & S2); try (rewrite ?A1; auto; lia).
    exists b'. split; [exact E2|]. split; [split; [congruence|split; [auto|intros p Hp; rewrite C2, C1; [reflexivity| |]; intros [Q1 Q2]; apply Hp; split; [exact Q1|lia|exact Q1|lia]]]|].
    intros n l0 X Hn. destruct n as [|n].
    + injection X as <-. rewrite Z.add_0_r. apply First; [auto|lia].
    + cbn in X. destruct (S2 n l0 X ltac:(lia)) as (o' & P' & S'). exists o'. split; [exact P'|]. intros pre g post X' Hg.
      destruct (S' pre g post X' Hg) as [I1 I2]. replace (y + 1 + Z.of_nat n) with (y + Z.of_nat (Datatypes.S n)) in * by lia. split; [exact I1|].
      rewrite I2. f_equal. apply C1. intros [_ Q]. cbn [py] in Q. lia.
Qed.

Lemma line_graphemes_proper u base l : uniseg_ok u -> Forall (proper u) (line_graphemes u base l).
Proof.
  intros Hu. apply Forall_forall. intros g Hg. unfold line_graphemes in Hg. apply in_flat_map in Hg. destruct Hg as (s & _ & Hg).
  apply in_map_iff in Hg. destruct Hg as ((c & st) & <- & Hc). unfold styled_graphemes in Hc. apply in_map_iff in Hc. destruct Hc as (c' & E & Hc).
  injection E as -> _. apply filter_In in Hc. destruct Hc as [Hc _]. pose proof (clusters_nonempty _ Hu _ _ Hc) as Ne.
  apply in_split in Hc. destruct Hc as (l1 & l2 & E). pose proof (clusters_sub _ Hu (sp_content s) l1 [c] l2 E) as X. cbn in X. rewrite app_nil_r in X.
  unfold proper, new_gr. cbn. unfold string_width. rewrite X. cbn. split; [auto|]. split; [lia|auto].
Qed.
