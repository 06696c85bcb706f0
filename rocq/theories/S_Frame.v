(** C89: what a program may draw so that its frames can be shown: texts over an alphabet of one-column graphemes, and styles
    the terminal can express. *)
From Verif Require Import Base M_Geom S_Geom M_Style M_Uniseg M_Buffer S_Buffer M_Text M_Block M_Reflow M_List M_Widget M_Tabs M_Float M_Gauge M_Scroll M_Input
  M_Solver M_Layout M_Popup M_Ansi M_Backend S_Terminal S_Display.
From Coq Require Import ZArith NArith List Bool.
Import ListNotations.
Open Scope Z_scope.

Section Drawn.
Variables (u : uniseg) (te : termenv) (A : str -> Prop).

(** An alphabet: graphemes of one column without control characters, the blank among them, that stay apart when written side by side. *)
Record alphabet : Prop := {
  al_space : A space;
  al_one : forall s, A s -> cwidth u s = 1;
  al_plain : forall s, A s -> plain s;
  al_apart : forall l, (forall s, In s l -> A s) -> clusters u (concat l) = l }.

(** A text over the alphabet. *)
Definition drawn (s : str) : Prop := forall c, In c (clusters u s) -> A c.
(** A style the terminal can express: its colours, if any, are colours of the terminal; nothing is hidden, nothing blinks rapidly. *)
Definition showable (st : style) : Prop :=
  (forall c, sfg st = Some c -> shown te (Some c) <> None) /\ (forall c, sbg st = Some c -> shown te (Some c) <> None) /\
  has (sadd st) ModifierHidden = false /\ has (sadd st) ModifierRapidBlink = false.

Definition span_drawn (s : span) : Prop := drawn (sp_content s) /\ showable (sp_style s).
Definition line_drawn (l : line) : Prop := showable (ln_style l) /\ forall s, In s (ln_spans l) -> span_drawn s.
Definition text_drawn (t : text) : Prop := showable (tx_style t) /\ forall l, In l (tx_lines t) -> line_drawn l.
Definition borders_drawn (s : border_set) : Prop :=
  A (bs_top_left s) /\ A (bs_top_right s) /\ A (bs_bottom_left s) /\ A (bs_bottom_right s) /\ A (bs_left s) /\ A (bs_right s) /\ A (bs_top s) /\ A (bs_bottom s).
Definition block_drawn (k : block) : Prop :=
  showable (bk_style k) /\ showable (bk_border_style k) /\ showable (bk_titles_style k) /\ borders_drawn (bk_set k) /\
  forall t, In t (bk_titles k) -> line_drawn (ti_line t).
Definition boxed_drawn (k : option block) : Prop := forall k0, k = Some k0 -> block_drawn k0.
Definition symbol_drawn (o : option str) : Prop := forall s, o = Some s -> drawn s.

(** Views built of the library's widgets: each drawn over the alphabet, anywhere, in any order, depending on the area in any way. *)
Inductive made : widget -> Prop :=
| made_nothing : made (fun _ b => Ret b)
| made_failure : made (fun _ _ => Panic)
| made_span s : span_drawn s -> made (span_render u s)
| made_line l : line_drawn l -> made (line_render u l)
| made_text t : text_drawn t -> made (text_render u t)
| made_block k : block_drawn k -> made (block_render u k)
| made_clear : made clear_render
| made_fill s st : A s -> showable st -> made (fill_render s st)
| made_paragraph k p : boxed_drawn k -> showable (pg_style p) -> text_drawn (pg_text p) -> made (paragraph_render u k p)
| made_list l s : boxed_drawn (ls_block l) -> showable (ls_style l) -> showable (ls_hl_style l) -> drawn (ls_hl_symbol l) ->
    (forall t, In t (ls_items l) -> text_drawn t) -> made (fun area b => let! (b, _) := list_render u l area b s in Ret b)
| made_tabs t : boxed_drawn (tb_block t) -> showable (tb_style t) -> showable (tb_hl_style t) -> span_drawn (tb_divider t) ->
    line_drawn (tb_left t) -> line_drawn (tb_right t) -> (forall l, In l (tb_titles t) -> line_drawn l) -> made (tabs_render u t)
| made_gauge g : boxed_drawn (gg_block g) -> showable (gg_style g) -> showable (gg_gauge_style g) -> span_drawn (gauge_label g) ->
    (forall n, (9608 <= n <= 9615)%N -> A [n]) -> made (gauge_render u g)
| made_scroll junk s st : drawn (sc_thumb s) -> symbol_drawn (sc_track s) -> symbol_drawn (sc_begin s) -> symbol_drawn (sc_end s) ->
    showable (sc_thumb_style s) -> showable (sc_track_style s) -> showable (sc_begin_style s) -> showable (sc_end_style s) ->
    made (fun area b => scroll_render u junk s area b st)
| made_input row_of i s : boxed_drawn (ip_block i) -> showable (ip_style i) -> showable (ip_placeholder_style i) -> showable (ip_cursor_style i) ->
    showable (ip_prompt_style i) -> drawn (ip_prompt i) -> (forall c, In c (ip_placeholder i) -> A c) -> (forall c, In c (is_text s) -> A c) ->
    made (fun area b => let! (b, _) := input_render u row_of i area b s in Ret b)
| made_popup p : boxed_drawn (pp_block p) -> showable (pp_style p) -> made (popup_render_at u p)
| made_part (f : rect -> rect) w : made w -> made (fun area b => w (f area) b)
| made_then w w' : made w -> made w' -> made (fun area b => let! b := w area b in w' area b)
| made_by (f : rect -> widget) : (forall area, made (f area)) -> made (fun area b => f area area b)
| made_same w w' : made w -> (forall area b, w area b = w' area b) -> made w'.

(** A part of every area. *)
Definition part_of (f : rect -> rect) : Prop :=
  forall area, sized area -> 0 <= rx area -> sized (f area) /\ 0 <= rx (f area) /\ forall p, inside p (f area) -> inside p area.
Definition roomy (k : option block) : Prop := forall k0, k = Some k0 -> nonneg_padding (bk_padding k0).
(** Views that cannot fail: widgets that return whatever the size, each in a part of the area it is given. *)
Inductive placed : widget -> Prop :=
| placed_nothing : placed (fun _ b => Ret b)
| placed_span s : span_drawn s -> placed (span_render u s)
| placed_line l : line_drawn l -> placed (line_render u l)
| placed_text t : text_drawn t -> placed (text_render u t)
| placed_block k : block_drawn k -> nonneg_padding (bk_padding k) -> placed (block_render u k)
| placed_clear : placed clear_render
| placed_fill s st : A s -> showable st -> placed (fill_render s st)
| placed_paragraph k p : boxed_drawn k -> roomy k -> showable (pg_style p) -> text_drawn (pg_text p) -> pg_wrap p = None -> pg_align p <> AlignNone -> 0 <= pg_scroll_x p -> 0 <= pg_scroll_y p ->
    placed (paragraph_render u k p)
| placed_list l s : boxed_drawn (ls_block l) -> roomy (ls_block l) -> showable (ls_style l) -> showable (ls_hl_style l) -> drawn (ls_hl_symbol l) ->
    (forall t, In t (ls_items l) -> text_drawn t) -> 0 <= ls_padding l -> 0 <= st_offset s -> (forall i, st_selected s = Some i -> 0 <= i) ->
    placed (fun area b => let! (b, _) := list_render u l area b s in Ret b)
| placed_tabs t : boxed_drawn (tb_block t) -> roomy (tb_block t) -> showable (tb_style t) -> showable (tb_hl_style t) -> span_drawn (tb_divider t) ->
    line_drawn (tb_left t) -> line_drawn (tb_right t) -> (forall l, In l (tb_titles t) -> line_drawn l) -> placed (tabs_render u t)
| placed_popup p : boxed_drawn (pp_block p) -> roomy (pp_block p) -> showable (pp_style p) -> placed (popup_render_at u p)
| placed_part f w : part_of f -> placed w -> placed (fun area b => w (f area) b)
| placed_then w w' : placed w -> placed w' -> placed (fun area b => let! b := w area b in w' area b)
| placed_by (f : rect -> widget) : (forall area, placed (f area)) -> placed (fun area b => f area area b).
End Drawn.
