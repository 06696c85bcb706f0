(** Theorems about wrapping and truncating: C21, C22. *)
From Verif Require Import Base M_Geom M_Style M_Uniseg M_Buffer S_Text M_Text M_Reflow S_Reflow P_Base P_Text P_Reflow P_SetString.
From Coq Require Import ZArith NArith List Bool Lia.
Import ListNotations.
Open Scope Z_scope.

(** ** C21 *)
(** Reading a wrapper always ends. *)
Theorem C21_wrap_ends lines max trim : exists ls, yields wrapper_next (new_word_wrapper lines max trim) ls.
Proof.
  destruct (Z.eq_dec max 0) as [->|N].
  - exists []. constructor. reflexivity.
  - destruct (wrapper_yields lines (new_word_wrapper lines max trim) eq_refl N) as (g & Y & _). eauto.
Qed.
Print Assumptions C21_wrap_ends.

(** Every input line becomes at least one row with the line's alignment; its rows, together, hold exactly the non-blank graphemes
    of the line that fit a row at all, in order, once each; blanks may be left out, but nothing is added or moved. *)
Theorem C21_wrap_keeps_text lines max trim ls : max <> 0 -> yields wrapper_next (new_word_wrapper lines max trim) ls ->
  exists groups, ls = concat groups /\
    Forall2 (fun i rows => rows <> [] /\
       Forall (fun r => wl_align r = il_align i /\ wl_width r = gr_width (wl_line r)) rows /\
       ink (concat (map wl_line rows)) = ink (fitting max (il_graphemes i)) /\
       subseq (marks (concat (map wl_line rows))) (il_graphemes i)) lines groups.
Proof.
  intros N Y. destruct (wrapper_yields lines (new_word_wrapper lines max trim) eq_refl N) as (g & Y' & F).
  exists g. split; [exact (yields_fun _ _ _ Y _ Y')|]. clear Y Y'. cbn [new_word_wrapper ww_max ww_trim] in F.
  induction F as [|i rows is gs (line & word & E) F IH]; constructor; [|exact IH].
  subst rows. split.
  - intros X. apply map_eq_nil in X. now apply produced_nonempty in X.
  - split.
    + apply Forall_forall. intros r Hr. apply in_map_iff in Hr. destruct Hr as (l & <- & _). split; reflexivity.
    + rewrite map_map. cbn [wl_line as_line]. rewrite map_id. split; [apply produced_ink|apply produced_ordered].
Qed.
Print Assumptions C21_wrap_keeps_text.

(** Graphemes wider than a whole row are dropped: that is the only text lost. *)
Theorem C21_too_wide_dropped_refuted :
  exists ls, yields wrapper_next (new_word_wrapper [InputLine [Gr [97%N] 1 new_style; Gr [19990%N] 2 new_style; Gr [98%N] 1 new_style] AlignLeft] 1 false) ls /\
    map g_sym (concat (map wl_line ls)) <> [[97%N]; [19990%N]; [98%N]] /\ map g_sym (ink (concat (map wl_line ls))) = [[97%N]; [98%N]].
Proof.
  eexists. split.
  - apply (read_yields _ 20). vm_compute. reflexivity.
  - split; vm_compute; congruence.
Qed.

(** No row is wider than the width, for texts of narrow graphemes whose words fit a row. *)
Theorem C21_rows_fit_partial lines max trim ls : 1 <= max ->
  Forall (fun i => Forall (fun g => 0 <= g_width g <= 1) (il_graphemes i) /\ short_words max (il_graphemes i)) lines ->
  yields wrapper_next (new_word_wrapper lines max trim) ls -> Forall (fun l => wl_width l <= max) ls.
Proof.
  intros Hm Hl Y. destruct (wrapper_yields lines (new_word_wrapper lines max trim) eq_refl) as (g & Y' & F); [cbn; lia|].
  rewrite (yields_fun _ _ _ Y _ Y'). clear Y Y'. cbn [new_word_wrapper ww_wrapped map app ww_max ww_trim] in *.
  induction F as [|i rows is gs (line & word & E) F IH]; [constructor|]. inversion Hl as [|? ? [H1 H2] Hl']; subst.
  cbn [concat]. apply Forall_app. split; [|auto]. apply Forall_forall. intros r Hr. apply in_map_iff in Hr. destruct Hr as (l & <- & Hr).
  pose proof (produced_narrow max trim line word _ Hm H1 H2) as P. rewrite Forall_forall in P. exact (P l Hr).
Qed.
Print Assumptions C21_rows_fit_partial.

(** In general rows do overflow: a word of more than twice the width, and wide graphemes at an odd width. The first also inserts
    a row that shows nothing. *)
Definition word_of (n : nat) : list gr := repeat (Gr [97%N] 1 new_style) n.
Definition wide (r : N) : gr := Gr [r] 2 new_style.
Theorem C21_rows_fit_refuted :
  (exists ls, yields wrapper_next (new_word_wrapper [InputLine (word_of 15) AlignLeft] 5 false) ls /\ map wl_width ls = [5; 0; 0; 0; 0; 0; 10]) /\
  (exists ls, yields wrapper_next (new_word_wrapper [InputLine [wide 19990; wide 19991; wide 19992] AlignLeft] 3 false) ls /\ map wl_width ls = [2; 4]).
Proof.
  split; eexists; (split; [apply (read_yields _ 20); vm_compute; reflexivity|vm_compute; reflexivity]).
Qed.
Print Assumptions C21_rows_fit_refuted.

Definition gr_of (r : N) : gr := Gr [r] 1 new_style.
Definition demo_wrap := [InputLine (map gr_of [97; 98; 32; 99; 100; 101; 32; 102]%N) AlignLeft].
Example C21_instance : exists ls, yields wrapper_next (new_word_wrapper demo_wrap 4 true) ls /\
  map (fun l => map g_sym (marks (wl_line l))) ls = [[[97]; [98]]; [[99]; [100]; [101]]; [[102]]]%N /\
  Forall (fun i => Forall (fun g => 0 <= g_width g <= 1) (il_graphemes i) /\ short_words 4 (il_graphemes i)) demo_wrap.
Proof.
  eexists. split; [apply (read_yields _ 20); vm_compute; reflexivity|].
  split; [vm_compute; reflexivity|]. constructor; [|constructor]. split.
  - cbn. repeat constructor; cbn; lia.
  - apply words_ok_short; [cbn; repeat constructor; cbn; lia|vm_compute; reflexivity].
Qed.

(** ** C22 *)
(** No row is wider than the available width. *)
Theorem C22_rows_fit u lines max off ls : uniseg_ok u -> 0 <= max -> 0 <= off ->
  Forall (fun i => Forall (proper u) (il_graphemes i)) lines ->
  yields (truncator_next u) (Truncator lines max [] off) ls ->
  Forall (fun l => wl_width l = gr_width (wl_line l) /\ wl_width l <= max) ls.
Proof.
  intros Hu Hm Ho Hp Y. inversion Y as [|st l st' ls' E Y']; subst; [constructor|].
  unfold truncator_next in E. cbn [lt_max lt_input lt_current lt_offset] in E. destruct (max =? 0); [discriminate|].
  pose proof (trunc_lines_width u max lines AlignLeft [] 0 off Hp (cwidth_nonneg _ Hu) (clusters_nil u Hu) Ho eq_refl Hm) as T.
  cbn [clear_slice map] in E. destruct (trunc_lines _ _ _ _ _ _ _) as [[cur w] al]. destruct lines as [|i lines]; [discriminate|]. injection E as <- <-.
  inversion Y' as [|st l st' ls E' _]; subst.
  - constructor; [|constructor]. exact T.
  - unfold truncator_next in E'. cbn [lt_max lt_input lt_current lt_offset trunc_lines] in E'. destruct (max =? 0); discriminate.
Qed.
Print Assumptions C22_rows_fit.

(** A paragraph of one line: the single row holds, after the graphemes scrolled away, the longest run of graphemes that fits;
    only left-aligned lines scroll. *)
Theorem C22_single_line_partial u i max off : uniseg_ok u -> 1 <= max -> 0 <= off -> Forall (proper u) (il_graphemes i) ->
  exists l gone row rest, yields (truncator_next u) (Truncator [i] max [] off) [l] /\
    wl_align l = il_align i /\ marks (wl_line l) = row /\ wl_width l = gr_width row /\
    fitting max (il_graphemes i) = gone ++ row ++ rest /\
    (il_align i <> AlignLeft -> gone = []) /\
    gr_width gone <= off /\
    (il_align i = AlignLeft -> forall g r, row ++ rest = g :: r -> gr_width gone = off \/ off < gr_width gone + g_width g) /\
    (forall g r, rest = g :: r -> max < gr_width row + g_width g).
Proof.
  intros Hu Hm Ho Hp.
  assert (Y : forall cur w o, trunc_line u max (il_align i) (il_graphemes i) [] 0 off = (cur, w, o) ->
    yields (truncator_next u) (Truncator [i] max [] off) [WrappedLine cur w (il_align i)]).
  { intros cur w o E. econstructor.
    - unfold truncator_next. cbn [lt_max lt_input lt_current lt_offset trunc_lines clear_slice map]. rewrite E. replace (max =? 0) with false by (symmetry; apply Z.eqb_neq; lia). reflexivity.
    - constructor. unfold truncator_next. cbn. now destruct (max =? 0). }
  assert (Sub : forall row rest gone, fitting max (il_graphemes i) = gone ++ row ++ rest -> marks row = row).
  { intros row rest gone A. apply marks_all. apply Forall_forall. intros x Hx.
    assert (In x (il_graphemes i)). { assert (In x (fitting max (il_graphemes i))) by (rewrite A, !in_app_iff; auto). unfold fitting in H. apply filter_In in H. tauto. }
    rewrite Forall_forall in Hp. apply (Hp x H). }
  assert (Dec : il_align i = AlignLeft \/ il_align i <> AlignLeft) by (destruct (il_align i); auto; right; discriminate).
  destruct Dec as [Hl|Hl].
  - destruct (trunc_line_scrolled u max (il_graphemes i) [] 0 off Hp (cwidth_nonneg _ Hu) (clusters_nil u Hu) Ho ltac:(lia) eq_refl eq_refl)
      as (gone & row & rest & cur' & w' & off' & A & B & C & D & F & G & H). rewrite <- Hl in B.
    exists (WrappedLine cur' w' (il_align i)), gone, row, rest. split; [eapply Y; exact B|]. split; [reflexivity|]. split; [exact C|]. split; [exact D|].
    split; [exact A|]. split; [congruence|]. split; [exact F|]. split; [intros _; exact G|exact H].
  - destruct (trunc_line_prefix u max (il_align i) (il_graphemes i) [] 0 off Hp (or_intror Hl)) as (row & rest & A & B & D). cbn [app] in B.
    exists (WrappedLine row (0 + gr_width row) (il_align i)), [], row, rest. split; [eapply Y; exact B|]. split; [reflexivity|].
    split; [apply (Sub row rest []); exact A|]. split; [reflexivity|]. split; [exact A|]. split; [auto|]. split; [rewrite gr_width_nil; lia|].
    split; [congruence|]. intros g r X. specialize (D g r X). lia.
Qed.
Print Assumptions C22_single_line_partial.

(** With more lines the claim is false: all lines are joined into one row, whatever they are. *)
Theorem C22_one_row_per_line_refuted : forall u lines max off ls,
  yields (truncator_next u) (Truncator lines max [] off) ls -> (length ls <= 1)%nat.
Proof.
  intros u lines max off ls Y. inversion Y as [|st l st' ls' E Y']; subst; cbn; [lia|].
  unfold truncator_next in E. cbn [lt_max lt_input lt_current lt_offset] in E. destruct (max =? 0) eqn:Em; [discriminate|].
  destruct (trunc_lines _ _ _ _ _ _ _) as [[cur w] al]. destruct lines as [|i lines]; [discriminate|]. injection E as <- <-.
  inversion Y' as [|st l st' ls E' _]; subst; cbn; [lia|].
  unfold truncator_next in E'. cbn [lt_max lt_input lt_current lt_offset trunc_lines] in E'. rewrite Em in E'. discriminate.
Qed.
Print Assumptions C22_one_row_per_line_refuted.

Example C22_two_lines : exists ls, yields (truncator_next simple_uniseg) (Truncator [InputLine (map gr_of [97; 98]%N) AlignLeft; InputLine (map gr_of [99]%N) AlignLeft] 9 [] 0) ls /\
  map (fun l => map g_sym (wl_line l)) ls = [[[97]; [98]; [99]]]%N.
Proof. eexists. split; [apply (read_yields _ 20); vm_compute; reflexivity|vm_compute; reflexivity]. Qed.

Example C22_instance : Forall (proper simple_uniseg) (map gr_of [97; 98; 99; 100]%N) /\
  exists ls, yields (truncator_next simple_uniseg) (Truncator [InputLine (map gr_of [97; 98; 99; 100]%N) AlignLeft] 2 [] 1) ls /\
  map (fun l => map g_sym (marks (wl_line l))) ls = [[[98]; [99]]]%N.
Proof.
  split; [repeat constructor; discriminate|]. eexists. split; [apply (read_yields _ 20); vm_compute; reflexivity|vm_compute; reflexivity].
Qed.
