(** C77: every option of a widget is what the last builder call that names it gave. *)
From Verif Require Import Base M_Geom M_Style M_Uniseg M_Scroll M_Solver M_Layout M_Buffer M_Text M_Block M_Reflow M_List M_Float M_Gauge M_Tabs M_Input M_Popup M_Throbber M_View M_Options S_Options.
From Coq Require Import ZArith NArith List Bool Lia.
Import ListNotations.
Open Scope Z_scope.

Lemma last_cons_app {V} (l : list V) x v : last (x :: l) v = last l x.
Proof. revert x v. induction l as [|y l IH]; intros x v; [reflexivity|]. change (last (x :: y :: l) v) with (last (y :: l) v). rewrite IH. symmetry. apply IH. Qed.
Lemma last_of {W O V} (get : W -> V) (apply : W -> O -> W) (given : O -> option V) : (forall w o, get (apply w o) = match given o with Some v => v | None => get w end) ->
  forall calls w, get (fold_left apply calls w) = last_given given calls (get w).
Proof.
  intros H. unfold last_given. induction calls as [|o calls IH]; intros w; [reflexivity|]. cbn [fold_left flat_map]. rewrite IH, H. destruct (given o) as [v|]; [|reflexivity]. cbn [app]. symmetry. apply last_cons_app.
Qed.
Lemma all_of {W O V} (get : W -> list V) (apply : W -> O -> W) (given : O -> list V) : (forall w o, get (apply w o) = get w ++ given o) ->
  forall calls w, get (fold_left apply calls w) = all_given given calls (get w).
Proof.
  intros H. unfold all_given. induction calls as [|o calls IH]; intros w; cbn [fold_left flat_map]; [now rewrite app_nil_r|]. now rewrite IH, H, <- app_assoc.
Qed.
Lemma kept_of {W O V} (get : W -> V) (apply : W -> O -> W) : (forall w o, get (apply w o) = get w) -> forall calls w, get (fold_left apply calls w) = get w.
Proof. intros H calls. induction calls as [|o calls IH]; intros w; cbn [fold_left]; [reflexivity|]. now rewrite IH. Qed.
Lemma sides_union l b : fold_left bit_union l b = N.lor b (fold_right N.lor 0%N l).
Proof. revert b. induction l as [|x l IH]; intros b; cbn [fold_left fold_right]; [now rewrite N.lor_0_r|]. rewrite IH. unfold bit_union. now rewrite N.lor_assoc. Qed.
Ltac given := first [reflexivity | cbn; now rewrite app_nil_r | unfold aligned_title; cbn; match goal with t : title |- _ => destruct (ti_align t); reflexivity end
  | cbn [block_apply block_with_sides bk_borders block_given_borders sides_of]; match goal with l : list side |- _ => destruct l; [reflexivity|now rewrite sides_union] end].

Theorem C77_title calls w :
  ti_align (title_build calls w) = last_given title_given_align calls (ti_align w) /\
  ti_pos (title_build calls w) = last_given title_given_pos calls (ti_pos w) /\
  ti_line (title_build calls w) = ti_line w.
Proof.
  split; [apply (last_of (fun w => ti_align w) (title_apply) (title_given_align)); intros k c; destruct c; given|].
  split; [apply (last_of (fun w => ti_pos w) (title_apply) (title_given_pos)); intros k c; destruct c; given|].
  apply (kept_of (fun w => ti_line w) (title_apply)); intros k c; destruct c; reflexivity.
Qed.
Print Assumptions C77_title.

Theorem C77_border_set calls w :
  bs_top_left (border_set_build calls w) = last_given border_set_given_top_left calls (bs_top_left w) /\
  bs_top_right (border_set_build calls w) = last_given border_set_given_top_right calls (bs_top_right w) /\
  bs_bottom_left (border_set_build calls w) = last_given border_set_given_bottom_left calls (bs_bottom_left w) /\
  bs_bottom_right (border_set_build calls w) = last_given border_set_given_bottom_right calls (bs_bottom_right w) /\
  bs_left (border_set_build calls w) = last_given border_set_given_left calls (bs_left w) /\
  bs_right (border_set_build calls w) = last_given border_set_given_right calls (bs_right w) /\
  bs_top (border_set_build calls w) = last_given border_set_given_top calls (bs_top w) /\
  bs_bottom (border_set_build calls w) = last_given border_set_given_bottom calls (bs_bottom w).
Proof.
  split; [apply (last_of (fun w => bs_top_left w) (border_set_apply) (border_set_given_top_left)); intros k c; destruct c; given|].
  split; [apply (last_of (fun w => bs_top_right w) (border_set_apply) (border_set_given_top_right)); intros k c; destruct c; given|].
  split; [apply (last_of (fun w => bs_bottom_left w) (border_set_apply) (border_set_given_bottom_left)); intros k c; destruct c; given|].
  split; [apply (last_of (fun w => bs_bottom_right w) (border_set_apply) (border_set_given_bottom_right)); intros k c; destruct c; given|].
  split; [apply (last_of (fun w => bs_left w) (border_set_apply) (border_set_given_left)); intros k c; destruct c; given|].
  split; [apply (last_of (fun w => bs_right w) (border_set_apply) (border_set_given_right)); intros k c; destruct c; given|].
  split; [apply (last_of (fun w => bs_top w) (border_set_apply) (border_set_given_top)); intros k c; destruct c; given|].
  apply (last_of (fun w => bs_bottom w) (border_set_apply) (border_set_given_bottom)); intros k c; destruct c; given.
Qed.
Print Assumptions C77_border_set.

Theorem C77_block calls w :
  bk_titles (block_build calls w) = all_given block_given_titles calls (bk_titles w) /\
  bk_titles_style (block_build calls w) = last_given block_given_titles_style calls (bk_titles_style w) /\
  bk_titles_align (block_build calls w) = last_given block_given_titles_align calls (bk_titles_align w) /\
  bk_titles_pos (block_build calls w) = last_given block_given_titles_pos calls (bk_titles_pos w) /\
  bk_borders (block_build calls w) = last_given block_given_borders calls (bk_borders w) /\
  bk_border_style (block_build calls w) = last_given block_given_border_style calls (bk_border_style w) /\
  bk_set (block_build calls w) = last_given block_given_set calls (bk_set w) /\
  bk_style (block_build calls w) = last_given block_given_style calls (bk_style w) /\
  bk_padding (block_build calls w) = last_given block_given_padding calls (bk_padding w).
Proof.
  split; [apply (all_of (fun w => bk_titles w) (block_apply) (block_given_titles)); intros k c; destruct c; given|].
  split; [apply (last_of (fun w => bk_titles_style w) (block_apply) (block_given_titles_style)); intros k c; destruct c; given|].
  split; [apply (last_of (fun w => bk_titles_align w) (block_apply) (block_given_titles_align)); intros k c; destruct c; given|].
  split; [apply (last_of (fun w => bk_titles_pos w) (block_apply) (block_given_titles_pos)); intros k c; destruct c; given|].
  split; [apply (last_of (fun w => bk_borders w) (block_apply) (block_given_borders)); intros k c; destruct c; given|].
  split; [apply (last_of (fun w => bk_border_style w) (block_apply) (block_given_border_style)); intros k c; destruct c; given|].
  split; [apply (last_of (fun w => bk_set w) (block_apply) (block_given_set)); intros k c; destruct c; given|].
  split; [apply (last_of (fun w => bk_style w) (block_apply) (block_given_style)); intros k c; destruct c; given|].
  apply (last_of (fun w => bk_padding w) (block_apply) (block_given_padding)); intros k c; destruct c; given.
Qed.
Print Assumptions C77_block.

Theorem C77_paragraph calls w :
  pw_block (paragraph_build calls w) = last_given paragraph_given_block calls (pw_block w) /\
  pw_style (paragraph_build calls w) = last_given paragraph_given_style calls (pw_style w) /\
  pw_wrap (paragraph_build calls w) = last_given paragraph_given_wrap calls (pw_wrap w) /\
  pw_text (paragraph_build calls w) = pw_text w /\
  pw_scroll_x (paragraph_build calls w) = last_given paragraph_given_scroll_x calls (pw_scroll_x w) /\
  pw_scroll_y (paragraph_build calls w) = last_given paragraph_given_scroll_y calls (pw_scroll_y w) /\
  pw_align (paragraph_build calls w) = last_given paragraph_given_align calls (pw_align w).
Proof.
  split; [apply (last_of (fun w => pw_block w) (paragraph_apply) (paragraph_given_block)); intros k c; destruct c; given|].
  split; [apply (last_of (fun w => pw_style w) (paragraph_apply) (paragraph_given_style)); intros k c; destruct c; given|].
  split; [apply (last_of (fun w => pw_wrap w) (paragraph_apply) (paragraph_given_wrap)); intros k c; destruct c; given|].
  split; [apply (kept_of (fun w => pw_text w) (paragraph_apply)); intros k c; destruct c; reflexivity|].
  split; [apply (last_of (fun w => pw_scroll_x w) (paragraph_apply) (paragraph_given_scroll_x)); intros k c; destruct c; given|].
  split; [apply (last_of (fun w => pw_scroll_y w) (paragraph_apply) (paragraph_given_scroll_y)); intros k c; destruct c; given|].
  apply (last_of (fun w => pw_align w) (paragraph_apply) (paragraph_given_align)); intros k c; destruct c; given.
Qed.
Print Assumptions C77_paragraph.

Theorem C77_list calls w :
  ls_items (list_build calls w) = last_given list_given_items calls (ls_items w) /\
  ls_block (list_build calls w) = last_given list_given_block calls (ls_block w) /\
  ls_style (list_build calls w) = last_given list_given_style calls (ls_style w) /\
  ls_dir (list_build calls w) = last_given list_given_dir calls (ls_dir w) /\
  ls_hl_style (list_build calls w) = last_given list_given_hl_style calls (ls_hl_style w) /\
  ls_hl_symbol (list_build calls w) = last_given list_given_hl_symbol calls (ls_hl_symbol w) /\
  ls_repeat (list_build calls w) = last_given list_given_repeat calls (ls_repeat w) /\
  ls_spacing (list_build calls w) = last_given list_given_spacing calls (ls_spacing w) /\
  ls_padding (list_build calls w) = last_given list_given_padding calls (ls_padding w).
Proof.
  split; [apply (last_of (fun w => ls_items w) (list_apply) (list_given_items)); intros k c; destruct c; given|].
  split; [apply (last_of (fun w => ls_block w) (list_apply) (list_given_block)); intros k c; destruct c; given|].
  split; [apply (last_of (fun w => ls_style w) (list_apply) (list_given_style)); intros k c; destruct c; given|].
  split; [apply (last_of (fun w => ls_dir w) (list_apply) (list_given_dir)); intros k c; destruct c; given|].
  split; [apply (last_of (fun w => ls_hl_style w) (list_apply) (list_given_hl_style)); intros k c; destruct c; given|].
  split; [apply (last_of (fun w => ls_hl_symbol w) (list_apply) (list_given_hl_symbol)); intros k c; destruct c; given|].
  split; [apply (last_of (fun w => ls_repeat w) (list_apply) (list_given_repeat)); intros k c; destruct c; given|].
  split; [apply (last_of (fun w => ls_spacing w) (list_apply) (list_given_spacing)); intros k c; destruct c; given|].
  apply (last_of (fun w => ls_padding w) (list_apply) (list_given_padding)); intros k c; destruct c; given.
Qed.
Print Assumptions C77_list.

Theorem C77_tabs calls w :
  tb_block (tabs_build calls w) = last_given tabs_given_block calls (tb_block w) /\
  tb_titles (tabs_build calls w) = last_given tabs_given_titles calls (tb_titles w) /\
  tb_selected (tabs_build calls w) = last_given tabs_given_selected calls (tb_selected w) /\
  tb_style (tabs_build calls w) = last_given tabs_given_style calls (tb_style w) /\
  tb_hl_style (tabs_build calls w) = last_given tabs_given_hl_style calls (tb_hl_style w) /\
  tb_divider (tabs_build calls w) = last_given tabs_given_divider calls (tb_divider w) /\
  tb_left (tabs_build calls w) = last_given tabs_given_left calls (tb_left w) /\
  tb_right (tabs_build calls w) = last_given tabs_given_right calls (tb_right w).
Proof.
  split; [apply (last_of (fun w => tb_block w) (tabs_apply) (tabs_given_block)); intros k c; destruct c; given|].
  split; [apply (last_of (fun w => tb_titles w) (tabs_apply) (tabs_given_titles)); intros k c; destruct c; given|].
  split; [apply (last_of (fun w => tb_selected w) (tabs_apply) (tabs_given_selected)); intros k c; destruct c; given|].
  split; [apply (last_of (fun w => tb_style w) (tabs_apply) (tabs_given_style)); intros k c; destruct c; given|].
  split; [apply (last_of (fun w => tb_hl_style w) (tabs_apply) (tabs_given_hl_style)); intros k c; destruct c; given|].
  split; [apply (last_of (fun w => tb_divider w) (tabs_apply) (tabs_given_divider)); intros k c; destruct c; given|].
  split; [apply (last_of (fun w => tb_left w) (tabs_apply) (tabs_given_left)); intros k c; destruct c; given|].
  apply (last_of (fun w => tb_right w) (tabs_apply) (tabs_given_right)); intros k c; destruct c; given.
Qed.
Print Assumptions C77_tabs.

Theorem C77_input u calls w :
  ip_block (iw_input (input_build u calls w)) = last_given (input_given_block u) calls (ip_block (iw_input w)) /\
  ip_align (iw_input (input_build u calls w)) = last_given (input_given_align u) calls (ip_align (iw_input w)) /\
  ip_placeholder (iw_input (input_build u calls w)) = last_given (input_given_placeholder u) calls (ip_placeholder (iw_input w)) /\
  ip_placeholder_style (iw_input (input_build u calls w)) = last_given (input_given_placeholder_style u) calls (ip_placeholder_style (iw_input w)) /\
  ip_cursor_style (iw_input (input_build u calls w)) = last_given (input_given_cursor_style u) calls (ip_cursor_style (iw_input w)) /\
  ip_prompt (iw_input (input_build u calls w)) = last_given (input_given_prompt u) calls (ip_prompt (iw_input w)) /\
  ip_prompt_style (iw_input (input_build u calls w)) = last_given (input_given_prompt_style u) calls (ip_prompt_style (iw_input w)) /\
  iw_vertical (input_build u calls w) = last_given (input_given_vertical u) calls (iw_vertical w).
Proof.
  split; [apply (last_of (fun w => ip_block (iw_input w)) (input_apply u) (input_given_block u)); intros k c; destruct c; given|].
  split; [apply (last_of (fun w => ip_align (iw_input w)) (input_apply u) (input_given_align u)); intros k c; destruct c; given|].
  split; [apply (last_of (fun w => ip_placeholder (iw_input w)) (input_apply u) (input_given_placeholder u)); intros k c; destruct c; given|].
  split; [apply (last_of (fun w => ip_placeholder_style (iw_input w)) (input_apply u) (input_given_placeholder_style u)); intros k c; destruct c; given|].
  split; [apply (last_of (fun w => ip_cursor_style (iw_input w)) (input_apply u) (input_given_cursor_style u)); intros k c; destruct c; given|].
  split; [apply (last_of (fun w => ip_prompt (iw_input w)) (input_apply u) (input_given_prompt u)); intros k c; destruct c; given|].
  split; [apply (last_of (fun w => ip_prompt_style (iw_input w)) (input_apply u) (input_given_prompt_style u)); intros k c; destruct c; given|].
  apply (last_of (fun w => iw_vertical w) (input_apply u) (input_given_vertical u)); intros k c; destruct c; given.
Qed.
Print Assumptions C77_input.

Theorem C77_popup calls w :
  pp_block (popup_build calls w) = last_given popup_given_block calls (pp_block w) /\
  pp_horizontal (popup_build calls w) = last_given popup_given_horizontal calls (pp_horizontal w) /\
  pp_vertical (popup_build calls w) = last_given popup_given_vertical calls (pp_vertical w) /\
  pp_style (popup_build calls w) = last_given popup_given_style calls (pp_style w) /\
  pp_width (popup_build calls w) = last_given popup_given_width calls (pp_width w) /\
  pp_height (popup_build calls w) = last_given popup_given_height calls (pp_height w) /\
  pp_padding (popup_build calls w) = last_given popup_given_padding calls (pp_padding w).
Proof.
  split; [apply (last_of (fun w => pp_block w) (popup_apply) (popup_given_block)); intros k c; destruct c; given|].
  split; [apply (last_of (fun w => pp_horizontal w) (popup_apply) (popup_given_horizontal)); intros k c; destruct c; given|].
  split; [apply (last_of (fun w => pp_vertical w) (popup_apply) (popup_given_vertical)); intros k c; destruct c; given|].
  split; [apply (last_of (fun w => pp_style w) (popup_apply) (popup_given_style)); intros k c; destruct c; given|].
  split; [apply (last_of (fun w => pp_width w) (popup_apply) (popup_given_width)); intros k c; destruct c; given|].
  split; [apply (last_of (fun w => pp_height w) (popup_apply) (popup_given_height)); intros k c; destruct c; given|].
  apply (last_of (fun w => pp_padding w) (popup_apply) (popup_given_padding)); intros k c; destruct c; given.
Qed.
Print Assumptions C77_popup.

Theorem C77_layout calls w :
  l_direction (layout_build calls w) = last_given layout_given_direction calls (l_direction w) /\
  l_constraints (layout_build calls w) = all_given layout_given_constraints calls (l_constraints w) /\
  l_padding (layout_build calls w) = last_given layout_given_padding calls (l_padding w) /\
  l_flex (layout_build calls w) = last_given layout_given_flex calls (l_flex w) /\
  l_spacing (layout_build calls w) = last_given layout_given_spacing calls (l_spacing w).
Proof.
  split; [apply (last_of (fun w => l_direction w) (layout_apply) (layout_given_direction)); intros k c; destruct c; given|].
  split; [apply (all_of (fun w => l_constraints w) (layout_apply) (layout_given_constraints)); intros k c; destruct c; given|].
  split; [apply (last_of (fun w => l_padding w) (layout_apply) (layout_given_padding)); intros k c; destruct c; given|].
  split; [apply (last_of (fun w => l_flex w) (layout_apply) (layout_given_flex)); intros k c; destruct c; given|].
  apply (last_of (fun w => l_spacing w) (layout_apply) (layout_given_spacing)); intros k c; destruct c; given.
Qed.
Print Assumptions C77_layout.

Theorem C77_line calls w :
  ln_style (line_build calls w) = last_given line_given_style calls (ln_style w) /\
  ln_spans (line_build calls w) = all_given line_given_spans calls (ln_spans w) /\
  ln_align (line_build calls w) = last_given line_given_align calls (ln_align w).
Proof.
  split; [apply (last_of (fun w => ln_style w) (line_apply) (line_given_style)); intros k c; destruct c; given|].
  split; [apply (all_of (fun w => ln_spans w) (line_apply) (line_given_spans)); intros k c; destruct c; given|].
  apply (last_of (fun w => ln_align w) (line_apply) (line_given_align)); intros k c; destruct c; given.
Qed.
Print Assumptions C77_line.

Theorem C77_text calls w :
  tx_style (text_build calls w) = last_given text_given_style calls (tx_style w) /\
  tx_lines (text_build calls w) = all_given text_given_lines calls (tx_lines w) /\
  tx_align (text_build calls w) = last_given text_given_align calls (tx_align w).
Proof.
  split; [apply (last_of (fun w => tx_style w) (text_apply) (text_given_style)); intros k c; destruct c; given|].
  split; [apply (all_of (fun w => tx_lines w) (text_apply) (text_given_lines)); intros k c; destruct c; given|].
  apply (last_of (fun w => tx_align w) (text_apply) (text_given_align)); intros k c; destruct c; given.
Qed.
Print Assumptions C77_text.

Theorem C77_style calls w :
  sfg (style_build calls w) = last_given style_given_sfg calls (sfg w) /\
  sbg (style_build calls w) = last_given style_given_sbg calls (sbg w) /\
  sadd (style_build calls w) = sadd w /\
  ssub (style_build calls w) = ssub w.
Proof.
  split; [apply (last_of (fun w => sfg w) (style_apply) (style_given_sfg)); intros k c; destruct c; given|].
  split; [apply (last_of (fun w => sbg w) (style_apply) (style_given_sbg)); intros k c; destruct c; given|].
  split; [apply (kept_of (fun w => sadd w) (style_apply)); intros k c; destruct c; reflexivity|].
  apply (kept_of (fun w => ssub w) (style_apply)); intros k c; destruct c; reflexivity.
Qed.
Print Assumptions C77_style.

Lemma last_of_outcome {W O V} (get : W -> V) (apply : W -> O -> outcome W) (given : O -> option V) : (forall w o w', apply w o = Ret w' -> get w' = match given o with Some v => v | None => get w end) ->
  forall calls w w', ofold apply calls w = Ret w' -> get w' = last_given given calls (get w).
Proof.
  intros H. unfold last_given. induction calls as [|o calls IH]; intros w w' E; cbn [ofold flat_map] in *; [now injection E as <-|].
  destruct (apply w o) as [w1|] eqn:E1; [|discriminate]. cbn [bind] in E. rewrite (IH _ _ E), (H _ _ _ E1). destruct (given o) as [v|]; [|reflexivity]. cbn [app]. symmetry. apply last_cons_app.
Qed.
(** A gauge can panic on the way (C30); no call gives it a block. *)
Theorem C77_gauge calls w w' : gauge_build calls w = Ret w' ->
  gg_block w' = gg_block w /\
  gg_ratio w' = last_given gauge_given_ratio calls (gg_ratio w) /\
  gg_label w' = last_given gauge_given_label calls (gg_label w) /\
  gg_unicode w' = last_given gauge_given_unicode calls (gg_unicode w) /\
  gg_style w' = last_given gauge_given_style calls (gg_style w) /\
  gg_gauge_style w' = last_given gauge_given_gauge_style calls (gg_gauge_style w).
Proof.
  intros E.
  assert (K : forall g c g', gauge_apply g c = Ret g' -> g' = Gauge (gg_block g) (match gauge_given_ratio c with Some r => r | None => gg_ratio g end) (match gauge_given_label c with Some r => r | None => gg_label g end)
    (match gauge_given_unicode c with Some r => r | None => gg_unicode g end) (match gauge_given_style c with Some r => r | None => gg_style g end) (match gauge_given_gauge_style c with Some r => r | None => gg_gauge_style g end)).
  { intros g c g'. destruct g, c; cbn [gauge_apply]; unfold gauge_with_ratio, gauge_with_percent; cbn; intros X; try (now injection X as <-).
    - destruct (_ && _); [discriminate|]. now injection X as <-.
    - destruct (_ || _); [discriminate|]. now injection X as <-. }
  split. { rewrite (last_of_outcome gg_block gauge_apply (fun _ => None) ltac:(intros g c g' X; rewrite (K _ _ _ X); reflexivity) _ _ _ E). unfold last_given. clear. induction calls; [reflexivity|exact IHcalls]. }
  split; [apply (last_of_outcome gg_ratio gauge_apply) with (2 := E); intros g c g' X; rewrite (K _ _ _ X); reflexivity|].
  split; [apply (last_of_outcome gg_label gauge_apply) with (2 := E); intros g c g' X; rewrite (K _ _ _ X); reflexivity|].
  split; [apply (last_of_outcome gg_unicode gauge_apply) with (2 := E); intros g c g' X; rewrite (K _ _ _ X); reflexivity|].
  split; [apply (last_of_outcome gg_style gauge_apply) with (2 := E); intros g c g' X; rewrite (K _ _ _ X); reflexivity|].
  apply (last_of_outcome gg_gauge_style gauge_apply) with (2 := E); intros g c g' X; rewrite (K _ _ _ X); reflexivity.
Qed.
Print Assumptions C77_gauge.

(** A spinner has the one option. *)
Theorem C77_throbber types w : fold_left throbber_with_type types w = Throbber (tw_style w) (last (map frame_set types) (tw_set w)) (tw_vertical w) (tw_horizontal w) (tw_padding w).
Proof.
  revert w. induction types as [|t types IH]; intros w; [now destruct w|]. cbn [fold_left map]. rewrite IH. unfold throbber_with_type. cbn [tw_style tw_set tw_vertical tw_horizontal tw_padding]. f_equal. symmetry. apply last_cons_app.
Qed.
Print Assumptions C77_throbber.

(** The text of a colour says which bytes it was made of; so different bytes are different colours. *)
Theorem C77_rgb r g b : (r < 256)%N -> (g < 256)%N -> (b < 256)%N -> colour_value (hex_color r g b) = Some (r, g, b).
Proof.
  assert (D : forall n, (n < 16)%N -> digit_value (hex_digit n) = Some n).
  { intros n Hn. unfold hex_digit, digit_value. destruct (N.ltb_spec n 10).
    - replace ((48 <=? 48 + n) && (48 + n <=? 57))%N with true by (symmetry; apply andb_true_intro; split; apply N.leb_le; lia). f_equal. lia.
    - replace ((48 <=? 87 + n) && (87 + n <=? 57))%N with false by (symmetry; apply andb_false_intro2; apply N.leb_gt; lia).
      replace ((97 <=? 87 + n) && (87 + n <=? 102))%N with true by (symmetry; apply andb_true_intro; split; apply N.leb_le; lia). f_equal. lia. }
  assert (B : forall n, (n < 256)%N -> byte_value (hex_digit (n / 16)) (hex_digit (n mod 16)) = Some n).
  { intros n Hn. unfold byte_value. rewrite !D; [|apply N.mod_lt; lia|apply N.div_lt_upper_bound; lia]. f_equal. symmetry. apply N.div_mod. lia. }
  intros Hr Hg Hb. unfold hex_color, hex2. cbn [app colour_value]. now rewrite !B.
Qed.
Print Assumptions C77_rgb.

(** What the options are before any call, which with the theorems above says what they are after any. A fresh block takes nothing from its area. *)
Theorem C77_fresh :
  new_style = unstyled /\ new_block = fresh_block /\ (forall l, new_title l = fresh_title l) /\ (forall t, new_paragraph t = fresh_paragraph t) /\
  (forall items, new_list items = fresh_list items) /\ (forall titles, new_tabs titles = fresh_tabs titles) /\ new_gauge = fresh_gauge /\
  (forall o, new_scroll o = fresh_scroll o) /\ new_popup = fresh_popup /\ new_throbber = fresh_throbber /\ new_input = fresh_input /\
  (forall cs, new_layout cs = fresh_layout cs) /\
  (forall x y w h, 0 <= w -> 0 <= h -> block_inner new_block (Rect x y w h) = Rect x y w h) /\
  (forall x y w h t, 0 <= w -> 0 < h -> block_inner (block_with_title new_block t) (Rect x y w h) = match ti_pos t with Some TitleBottom => Rect x y w (h - 1) | _ => Rect x (y + 1) w (h - 1) end).
Proof.
  repeat match goal with |- _ /\ _ => split end; try reflexivity.
  - intros []; reflexivity.
  - intros x y w h Hw Hh. unfold block_inner. cbn -[Z.add Z.sub Z.max]. f_equal; lia.
  - intros x y w h t Hw Hh. unfold block_inner, has_title_at, title_pos, block_with_title. cbn -[Z.add Z.sub Z.max Z.min].
    destruct t as [a p l]. unfold with_height, rbottom.
    destruct a, p as [[]|]; cbn -[Z.add Z.sub Z.max Z.min]; f_equal; lia.
Qed.
Print Assumptions C77_fresh.

(** ** Examples *)
Example C77_block_instance : let k := block_build [Block_Rounded; Block_WithBorderSides [SideLeft; SideTop]; Block_WithTitleStr [97%N]; Block_WithTitle (title_build [Title_Bottom; Title_Right] (new_title_str [98%N])); Block_Double; Block_Bordered; Block_WithStyle (bold new_style)] new_block in
  bk_set k = double_set /\ bk_borders k = SideAll /\ bk_style k = bold new_style /\ bk_border_style k = new_style /\
  map (fun t => (line_string (ti_line t), ln_align (ti_line t), ti_pos t)) (bk_titles k) = [([97%N], AlignNone, None); ([98%N], AlignRight, Some TitleBottom)].
Proof. repeat split. Qed.
Example C77_border_set_instance : border_set_build [BorderSet_WithTopLeft [1%N]; BorderSet_WithVerticalRight [2%N]; BorderSet_WithTopLeft [3%N]] sharp_set =
  BorderSet [3%N] [9488%N] [9492%N] [9496%N] [9474%N] [2%N] [9472%N] [9472%N].
Proof. reflexivity. Qed.
Example C77_widgets_instance :
  paragraph_build [Paragraph_Right; Paragraph_Wrapped; Paragraph_WithScroll 1 2; Paragraph_Center; Paragraph_WithWrap true] (new_paragraph_str [97%N]) =
    ParagraphWidget None new_style (Some true) (new_text_str [97%N]) 2 1 AlignCenter /\
  ls_hl_symbol (list_build [List_WithHighlightSymbol [62%N]; List_WithScrollPadding 2; List_WithHighlightSymbol [42%N]] (new_list [])) = [42%N] /\
  tb_selected (tabs_build [Tabs_Select 3; Tabs_WithDividerStr [47%N]; Tabs_Unselect] (new_tabs [])) = None /\
  tb_divider (tabs_build [Tabs_Select 3; Tabs_WithDividerStr [47%N]; Tabs_Unselect] (new_tabs [])) = new_span [47%N] /\
  iw_vertical (input_build simple_uniseg [Input_Top; Input_WithPrompt [62%N]; Input_Middle] new_input) = FlexCenter /\
  pp_vertical (popup_build [Popup_Top; Popup_Right; Popup_Bottom; Popup_WithWidth (LLen 7)] new_popup) = FlexEnd /\
  layout_build [Layout_Horizontal; Layout_WithConstraints [LFill 1]; Layout_WithFlex FlexEnd; Layout_WithSpacing (SpSpace 2)] (new_layout [LLen 3]) = Layout DirHorizontal [LLen 3; LFill 1] (Padding 0 0 0 0) FlexEnd (SpSpace 2) /\
  line_build [Line_WithSpansStr [[97%N]; [98%N]]; Line_Right; Line_WithSpans [new_span [99%N]]; Line_Left] (new_line []) = Line new_style (map new_span [[97%N]; [98%N]; [99%N]]) AlignLeft /\
  tx_align (text_build [Text_WithLinesStr [[97%N]]; Text_Right] (new_text [])) = AlignRight /\
  style_build [Style_Red; Style_OnBlue; Style_BrightCyan; Style_OnRGB 255 0 171] new_style = Style (Some (ColAnsi 14%N)) (Some (ColRGB [35; 102; 102; 48; 48; 97; 98]%N)) 0%N 0%N /\
  omap gg_label (gauge_build [Gauge_WithLabelStr [97%N]; Gauge_WithPercent 5; Gauge_WithLabelStr [98%N]] new_gauge) = Ret (Some (new_span [98%N])) /\
  tw_set (fold_left throbber_with_type [TypePulse; TypeMeter] new_throbber) = frame_set TypeMeter.
Proof. repeat split; vm_compute; reflexivity. Qed.
