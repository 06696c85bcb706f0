(** Theorems about paragraphs: C57. *)
From Verif Require Import Base M_Geom S_Geom M_Style M_Uniseg M_Buffer S_Buffer M_Text M_Reflow S_Reflow P_Base T_Geom P_Buffer P_SetString P_Text P_Reflow P_Paragraph T_Reflow.
From Coq Require Import ZArith NArith List Bool Lia.
Import ListNotations.
Open Scope Z_scope.

(** Row [k] of the area shows the line [scroll + k], placed as its alignment asks. *)
Definition rows_shown (area : rect) (scroll : Z) (ls : list wrapped_line) (b' : buffer) : Prop :=
  forall k l, 0 <= k < rh area -> nth_error ls (Z.to_nat (scroll + k)) = Some l ->
  exists o, placed (wl_align l) (rw area) (wl_width l) o /\
    forall pre g post, wl_line l = pre ++ g :: post -> 0 < g_width g ->
      exists c, look b' (Pos (rx area + o + gr_width pre) (ry area + k)) = Some c /\ csym c = match g_sym g with [] => [32%N] | s => s end.

Definition paragraph_ok (p : paragraph) : Prop := pg_align p <> AlignNone /\ 0 <= pg_scroll_x p /\ 0 <= pg_scroll_y p.

Lemma paragraph_generic {S} (next : S -> option (wrapped_line * S)) st ls area scroll b style0 : wf_buffer b -> within area (barea b) -> 0 < rw area -> 0 < rh area -> 0 <= scroll ->
  yields next st ls -> Forall (drawable (rw area)) ls ->
  exists b', (let! b1 := buffer_set_style b area style0 in render_text next (render_fuel area scroll) st area scroll 0 b1) = Ret b' /\
    changed_only (fun p => inside p area) b b' /\ rows_shown area scroll ls b'.
Proof.
  intros W In Hw Hh Hs Y D. destruct (set_style_spec b area style0 W) as (b1 & E1 & (A1 & W1 & C1 & D1)). rewrite E1. cbn [bind].
  destruct (render_text_ok next area scroll (render_fuel area scroll) Hw Hh Hs st ls Y D 0 b1 W1) as (b' & E & (A2 & W2 & C2) & R); try lia.
  { now rewrite A1. } { unfold render_fuel. lia. }
  exists b'. split; [exact E|]. split.
  - split; [congruence|]. split; [exact W2|]. intros p Hp. rewrite C2, D1; [reflexivity| |]; intros [Q _]; auto.
  - intros k l Hk Hl. destruct (R _ l Hl ltac:(lia)) as (o & Po & So). exists o. split; [exact Po|]. intros pre g post X Hg.
    destruct (So pre g post X Hg) as [I1 I2]. replace (ry area + (0 + Z.of_nat (Z.to_nat (scroll + k))) - scroll) with (ry area + k) in * by lia.
    destruct (look_inside b1 (Pos (rx area + o + gr_width pre) (ry area + k)) W1) as [c Hc].
    { rewrite A1. unfold within, inside in *; cbn in *. lia. }
    rewrite Hc in I2. eexists. split; [exact I2|]. reflexivity.
Qed.

Lemma area_pos area : sized area -> rect_is_empty area = false -> 0 < rw area /\ 0 < rh area.
Proof. intros [H1 H2] E. unfold rect_is_empty in E. apply orb_false_iff in E. rewrite !Z.eqb_neq in E. lia. Qed.

Lemma input_align u p : pg_align p <> AlignNone -> Forall (fun i => il_align i <> AlignNone) (paragraph_input u p).
Proof.
  intros H. apply Forall_forall. intros i Hi. apply in_map_iff in Hi. destruct Hi as (l & <- & _). cbn. destruct (ln_align l); congruence.
Qed.
Lemma input_proper u p : uniseg_ok u -> Forall (fun i => Forall (proper u) (il_graphemes i)) (paragraph_input u p).
Proof. intros Hu. apply Forall_forall. intros i Hi. apply in_map_iff in Hi. destruct Hi as (l & <- & _). now apply line_graphemes_proper. Qed.

(** Without wrapping: no panic, only cells of the area change, and the composed rows are shown. *)
Theorem C57_unwrapped_paragraph u p area b : uniseg_ok u -> wf_buffer b -> sized area -> within area (barea b) -> paragraph_ok p -> pg_wrap p = None ->
  exists b' ls, paragraph_render_text u p area b = Ret b' /\ changed_only (fun q => inside q area) b b' /\
    yields (truncator_next u) (Truncator (paragraph_input u p) (rw area) [] (pg_scroll_x p)) ls /\ rows_shown area (pg_scroll_y p) ls b'.
Proof.
  intros Hu W Sz In (Ha & Hx & Hy) Hwrap. unfold paragraph_render_text. rewrite Hwrap.
  assert (Yl : exists ls, yields (truncator_next u) (Truncator (paragraph_input u p) (rw area) [] (pg_scroll_x p)) ls /\ Forall (drawable (rw area)) ls).
  { set (lt := Truncator _ _ _ _). destruct (truncator_next u lt) as [[l lt']|] eqn:E.
    - exists [l]. assert (Y : yields (truncator_next u) lt [l]).
      { econstructor; [exact E|]. constructor. unfold truncator_next, lt in E. cbn [lt_max lt_input lt_current lt_offset] in E.
        destruct (rw area =? 0) eqn:Em; [discriminate|]. destruct (trunc_lines _ _ _ _ _ _ _) as [[cur w] al]. destruct (paragraph_input u p); [discriminate|].
        injection E as <- <-. unfold truncator_next. cbn [lt_max lt_input lt_current lt_offset trunc_lines]. now rewrite Em. }
      split; [exact Y|]. pose proof (C22_rows_fit u _ _ _ _ Hu (proj1 Sz) Hx (input_proper u p Hu) Y) as F. inversion F as [|? ? [F1 F2] _]; subst.
      constructor; [|constructor]. split; [exact F1|]. split; [exact F2|].
      unfold truncator_next, lt in E. cbn [lt_max lt_input lt_current lt_offset] in E.
      destruct (rw area =? 0) eqn:Em; [discriminate|].
      pose proof (trunc_lines_p u (rw area) (paragraph_input u p) (fun s => string_width_nonneg u s (cwidth_nonneg _ Hu)) AlignLeft (clear_slice []) 0 (pg_scroll_x p) (Forall_nil _)) as T1.
      pose proof (trunc_lines_align u (rw area) (paragraph_input u p) AlignLeft (clear_slice []) 0 (pg_scroll_x p) ltac:(discriminate) (input_align u p Ha)) as T2.
      destruct (trunc_lines _ _ _ _ _ _ _) as [[cur w] al]. destruct (paragraph_input u p); [discriminate|].
      injection E as <- <-. cbn. auto.
    - exists []. split; [now constructor|constructor]. }
  destruct Yl as (ls & Y & D). destruct (rect_is_empty area) eqn:Em.
  - exists b, ls. split; [reflexivity|]. split; [apply changed_only_refl; auto|]. split; [exact Y|].
    intros k l Hk Hl. exfalso. unfold rect_is_empty in Em. apply orb_true_iff in Em. rewrite !Z.eqb_eq in Em. destruct Em as [Em|Em]; [|lia].
    rewrite Em in Y. inversion Y as [|? ? ? ? E]; subst; [destruct (Z.to_nat _); discriminate|]. discriminate E.
  - destruct (area_pos area Sz Em) as [P1 P2].
    destruct (paragraph_generic (truncator_next u) _ ls area (pg_scroll_y p) b (pg_style p) W In P1 P2 Hy Y D) as (b' & E & C & R).
    exists b', ls. auto.
Qed.
Print Assumptions C57_unwrapped_paragraph.

(** With wrapping the same holds for texts of narrow graphemes whose words fit the width. *)
Theorem C57_wrapped_paragraph_partial u p area b trim : uniseg_ok u -> wf_buffer b -> sized area -> within area (barea b) -> paragraph_ok p -> pg_wrap p = Some trim ->
  Forall (fun i => Forall (fun g => g_width g <= 1) (il_graphemes i) /\ short_words (rw area) (il_graphemes i)) (paragraph_input u p) ->
  exists b' ls, paragraph_render_text u p area b = Ret b' /\ changed_only (fun q => inside q area) b b' /\
    yields wrapper_next (new_word_wrapper (paragraph_input u p) (rw area) trim) ls /\ rows_shown area (pg_scroll_y p) ls b'.
Proof.
  intros Hu W Sz In (Ha & Hx & Hy) Hwrap Hf. unfold paragraph_render_text. rewrite Hwrap.
  destruct (C21_wrap_ends (paragraph_input u p) (rw area) trim) as (ls & Y).
  assert (Pos : Forall (fun i => Forall (fun g => 0 <= g_width g) (il_graphemes i)) (paragraph_input u p)).
  { eapply Forall_impl; [|apply (input_proper u p Hu)]. intros i Hi. eapply Forall_impl; [|exact Hi]. intros g (_ & -> & _). apply Hu. }
  destruct (rect_is_empty area) eqn:Em.
  - exists b, ls. split; [reflexivity|]. split; [apply changed_only_refl; auto|]. split; [exact Y|].
    intros k l Hk Hl. exfalso. unfold rect_is_empty in Em. apply orb_true_iff in Em. rewrite !Z.eqb_eq in Em. destruct Em as [Em|Em]; [|lia].
    rewrite Em in Y. inversion Y as [|? ? ? ? E]; subst; [destruct (Z.to_nat _); discriminate|]. discriminate E.
  - destruct (area_pos area Sz Em) as [P1 P2].
    assert (D : Forall (drawable (rw area)) ls).
    { destruct (wrapper_yields (paragraph_input u p) (new_word_wrapper (paragraph_input u p) (rw area) trim) eq_refl) as (g & Y' & F); [cbn; lia|].
      rewrite (yields_fun _ _ _ Y _ Y'). clear Y Y'. cbn [new_word_wrapper ww_wrapped map app ww_max ww_trim] in *.
      pose proof (input_align u p Ha) as Al. revert Hf Pos Al. induction F as [|i rows is gs (line & word & E) F IH]; intros Hf Pos Al; [constructor|].
      inversion Hf as [|? ? [H1 H2] Hf']; inversion Pos as [|? ? Hp Pos']; inversion Al as [|? ? Hal Al']; subst.
      cbn [concat]. apply Forall_app. split; [|auto]. apply Forall_forall. intros r Hr. apply in_map_iff in Hr. destruct Hr as (l & <- & Hr).
      assert (H3 : Forall (fun g => 0 <= g_width g <= 1) (il_graphemes i)).
      { apply Forall_forall. intros g0 Hg. rewrite Forall_forall in H1, Hp. auto. }
      pose proof (produced_narrow (rw area) trim line word _ ltac:(lia) H3 H2) as N. rewrite Forall_forall in N.
      pose proof (produced_p (fun g => 0 <= g_width g) ltac:(cbn; lia) (rw area) trim line word _ Hp) as Q.
      split; [reflexivity|]. split; [exact (N l Hr)|]. split; [exact Hal|]. cbn [as_line wl_line].
      apply Forall_forall. intros g0 Hg. rewrite Forall_forall in Q. apply Q. apply in_concat. eauto. }
    destruct (paragraph_generic wrapper_next _ ls area (pg_scroll_y p) b (pg_style p) W In P1 P2 Hy Y D) as (b' & E & C & R).
    exists b', ls. auto.
Qed.
Print Assumptions C57_wrapped_paragraph_partial.

(** A word longer than twice the width is drawn past the right edge of the area; at the edge of the buffer that panics. *)
Definition long_word := Paragraph new_style (Some false) (new_text [new_line [new_span (repeat 97%N 15)]]) 0 0 AlignLeft.
Definition blank_buffer (w h : Z) : buffer := Buf (Rect 0 0 w h) (repeat empty_cell (Z.to_nat (w * h))).
Theorem C57_long_word_refuted :
  paragraph_render_text simple_uniseg long_word (Rect 0 0 5 9) (blank_buffer 5 9) = Panic /\
  (exists b', paragraph_render_text simple_uniseg long_word (Rect 0 0 5 9) (blank_buffer 20 9) = Ret b' /\ look b' (Pos 9 6) = Some (new_cell [97%N])).
Proof. split; [vm_compute; reflexivity|]. eexists. split; vm_compute; reflexivity. Qed.
Print Assumptions C57_long_word_refuted.

Definition demo_par (w : option bool) := Paragraph new_style w (new_text [new_line [new_span [97; 98; 32; 99; 100; 101; 32; 102]%N]]) 0 1 AlignRight.
Example C57_instance : paragraph_ok (demo_par (Some true)) /\
  Forall (fun i => Forall (fun g => g_width g <= 1) (il_graphemes i) /\ short_words 4 (il_graphemes i)) (paragraph_input simple_uniseg (demo_par (Some true))) /\
  omap (fun b => map csym (bcells b)) (paragraph_render_text simple_uniseg (demo_par (Some true)) (Rect 0 0 4 2) (blank_buffer 4 2)) =
    Ret [[32]; [99]; [100]; [101]; [32]; [32]; [32]; [102]]%N.
Proof.
  split; [split; [discriminate|cbn; lia]|]. split; [|vm_compute; reflexivity]. constructor; [|constructor]. split.
  - cbn. repeat constructor; cbn; lia.
  - apply words_ok_short; [cbn; repeat constructor; cbn; lia|vm_compute; reflexivity].
Qed.
