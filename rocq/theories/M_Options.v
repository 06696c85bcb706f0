(** Model of the builder methods of the widgets, the texts, the styles and the layouts: one operation for each method. (popups and
    inputs: M_Popup.v, M_View.v.)  Appending is pure here: what sharing of backing arrays does to it is C53 (M_Builder.v). *)
From Verif Require Import Base M_Geom M_Style M_Uniseg M_Solver M_Layout M_Buffer M_Text M_Block M_Reflow M_List M_Float M_Gauge M_Tabs M_Input M_Popup M_Throbber M_View.
From Coq Require Import ZArith NArith List Bool.
Import ListNotations.
Open Scope Z_scope.

(** border.go:8-17 *)
Inductive border_type := BorderTypeSharp | BorderTypeRounded | BorderTypeDouble | BorderTypeThick | BorderTypeOther (n : Z).
(** border.go:19-32 *)
Definition border_type_set (t : border_type) : border_set :=
  match t with
  | BorderTypeSharp => sharp_set | BorderTypeRounded => rounded_set | BorderTypeDouble => double_set | BorderTypeThick => thick_set
  | BorderTypeOther _ => sharp_set
  end.
(** title.go:21-25, with the zero value of Alignment *)
Definition new_title (l : line) : title := Title AlignNone None l.
(** title.go:27-29 *)
Definition new_title_str (s : str) : title := new_title (new_line_str s).
(** widget/paragraphwidget/paragraph.go:14-21; Wrap has the one field Trim *)
Record paragraph_widget := ParagraphWidget { pw_block : option block; pw_style : style; pw_wrap : option bool; pw_text : text; pw_scroll_x : Z; pw_scroll_y : Z; pw_align : alignment }.
(** widget/paragraphwidget/paragraph.go:27-36 *)
Definition new_paragraph (t : text) : paragraph_widget := ParagraphWidget None new_style None t 0 0 AlignLeft.
(** widget/paragraphwidget/paragraph.go:23-25 *)
Definition new_paragraph_str (s : str) : paragraph_widget := new_paragraph (new_text_str s).
(** The part of a paragraph that M_Reflow.v draws. *)
Definition paragraph_of (p : paragraph_widget) : paragraph := Paragraph (pw_style p) (pw_wrap p) (pw_text p) (pw_scroll_x p) (pw_scroll_y p) (pw_align p).
(** widget/paragraphwidget/wrap.go:9-11 *)
Definition new_wrap : bool := false.
(** widget/paragraphwidget/wrap.go:13-16 *)
Definition wrap_with_trim (w : bool) (trim : bool) : bool := trim.
(** list.go:58-70 *)
Definition new_list (items : list text) : lst := Lst items None new_style TopToBottom new_style [] false WhenSelected 0.
(** span.go:29-31, 33-37 *)
Definition span_with_style (x : span) (s : style) : span := Span s (sp_content x).
Definition span_with_style_patch (x : span) (patch : style) : span := span_with_style x (patched (sp_style x) patch).
(** Sprintf("%02x"): two lower-case digits *)
Definition hex_digit (n : N) : N := if (n <? 10)%N then (48 + n)%N else (87 + n)%N.
Definition hex2 (n : N) : str := [hex_digit (n / 16); hex_digit (n mod 16)].
(** style.go:102-108: Sprintf("#%02x%02x%02x", r, g, b) of three bytes *)
Definition hex_color (r g b : N) : str := [35%N] ++ hex2 r ++ hex2 g ++ hex2 b.

(** ** title *)
(** widget/blockwidget/title.go:31-34, widget/blockwidget/title.go:36-39, widget/blockwidget/title.go:41-43, widget/blockwidget/title.go:45-47, widget/blockwidget/title.go:49-51, widget/blockwidget/title.go:53-55, widget/blockwidget/title.go:57-59 *)
Inductive title_call :=
| Title_WithPosition (p : title_position)
| Title_WithAlignment (a : alignment)
| Title_Top
| Title_Bottom
| Title_Right
| Title_Left
| Title_Center.
Definition title_apply (k : title) (c : title_call) : title :=
  match c with
  | Title_WithPosition p => Title (ti_align k) (Some p) (ti_line k)
  | Title_WithAlignment a => Title (a) (ti_pos k) (ti_line k)
  | Title_Top => Title (ti_align k) (Some TitleTop) (ti_line k)
  | Title_Bottom => Title (ti_align k) (Some TitleBottom) (ti_line k)
  | Title_Right => Title (AlignRight) (ti_pos k) (ti_line k)
  | Title_Left => Title (AlignLeft) (ti_pos k) (ti_line k)
  | Title_Center => Title (AlignCenter) (ti_pos k) (ti_line k)
  end.
Definition title_build (calls : list title_call) (k : title) : title := fold_left (title_apply) calls k.

(** ** border set *)
(** widget/blockwidget/border.go:105-108, widget/blockwidget/border.go:110-113, widget/blockwidget/border.go:115-118, widget/blockwidget/border.go:120-123, widget/blockwidget/border.go:125-128, widget/blockwidget/border.go:130-133, widget/blockwidget/border.go:135-138, widget/blockwidget/border.go:140-143 *)
Inductive border_set_call :=
| BorderSet_WithTopLeft (s : str)
| BorderSet_WithTopRight (s : str)
| BorderSet_WithBottomLeft (s : str)
| BorderSet_WithBottomRight (s : str)
| BorderSet_WithVerticalLeft (s : str)
| BorderSet_WithVerticalRight (s : str)
| BorderSet_WithHorizontalTop (s : str)
| BorderSet_WithHorizontalBottom (s : str).
Definition border_set_apply (k : border_set) (c : border_set_call) : border_set :=
  match c with
  | BorderSet_WithTopLeft s => BorderSet (s) (bs_top_right k) (bs_bottom_left k) (bs_bottom_right k) (bs_left k) (bs_right k) (bs_top k) (bs_bottom k)
  | BorderSet_WithTopRight s => BorderSet (bs_top_left k) (s) (bs_bottom_left k) (bs_bottom_right k) (bs_left k) (bs_right k) (bs_top k) (bs_bottom k)
  | BorderSet_WithBottomLeft s => BorderSet (bs_top_left k) (bs_top_right k) (s) (bs_bottom_right k) (bs_left k) (bs_right k) (bs_top k) (bs_bottom k)
  | BorderSet_WithBottomRight s => BorderSet (bs_top_left k) (bs_top_right k) (bs_bottom_left k) (s) (bs_left k) (bs_right k) (bs_top k) (bs_bottom k)
  | BorderSet_WithVerticalLeft s => BorderSet (bs_top_left k) (bs_top_right k) (bs_bottom_left k) (bs_bottom_right k) (s) (bs_right k) (bs_top k) (bs_bottom k)
  | BorderSet_WithVerticalRight s => BorderSet (bs_top_left k) (bs_top_right k) (bs_bottom_left k) (bs_bottom_right k) (bs_left k) (s) (bs_top k) (bs_bottom k)
  | BorderSet_WithHorizontalTop s => BorderSet (bs_top_left k) (bs_top_right k) (bs_bottom_left k) (bs_bottom_right k) (bs_left k) (bs_right k) (s) (bs_bottom k)
  | BorderSet_WithHorizontalBottom s => BorderSet (bs_top_left k) (bs_top_right k) (bs_bottom_left k) (bs_bottom_right k) (bs_left k) (bs_right k) (bs_top k) (s)
  end.
Definition border_set_build (calls : list border_set_call) (k : border_set) : border_set := fold_left (border_set_apply) calls k.

(** ** block *)
(** widget/blockwidget/block.go:39-41, widget/blockwidget/block.go:43-45, widget/blockwidget/block.go:47-49, widget/blockwidget/block.go:51-53, widget/blockwidget/block.go:55-58, widget/blockwidget/block.go:60-63, widget/blockwidget/block.go:65-68, widget/blockwidget/block.go:70-77, widget/blockwidget/block.go:79-82, widget/blockwidget/block.go:84-86, widget/blockwidget/block.go:88-90, widget/blockwidget/block.go:92-105, widget/blockwidget/block.go:107-110, widget/blockwidget/block.go:112-115, widget/blockwidget/block.go:117-120 *)
Inductive block_call :=
| Block_Rounded
| Block_Sharp
| Block_Thick
| Block_Double
| Block_WithTitlesStyle (s : style)
| Block_WithTitlesAlignment (a : alignment)
| Block_WithStyle (s : style)
| Block_WithTitle (t : title)
| Block_WithTitlePosition (p : title_position)
| Block_WithTitleStr (s : str)
| Block_Bordered
| Block_WithBorderSides (l : list side)
| Block_WithBorderType (t : border_type)
| Block_WithPadding (p : padding)
| Block_WithBorderStyle (s : style).
Definition block_apply (k : block) (c : block_call) : block :=
  match c with
  | Block_Rounded => Block (bk_titles k) (bk_titles_style k) (bk_titles_align k) (bk_titles_pos k) (bk_borders k) (bk_border_style k) (border_type_set BorderTypeRounded) (bk_style k) (bk_padding k)
  | Block_Sharp => Block (bk_titles k) (bk_titles_style k) (bk_titles_align k) (bk_titles_pos k) (bk_borders k) (bk_border_style k) (border_type_set BorderTypeSharp) (bk_style k) (bk_padding k)
  | Block_Thick => Block (bk_titles k) (bk_titles_style k) (bk_titles_align k) (bk_titles_pos k) (bk_borders k) (bk_border_style k) (border_type_set BorderTypeThick) (bk_style k) (bk_padding k)
  | Block_Double => Block (bk_titles k) (bk_titles_style k) (bk_titles_align k) (bk_titles_pos k) (bk_borders k) (bk_border_style k) (border_type_set BorderTypeDouble) (bk_style k) (bk_padding k)
  | Block_WithTitlesStyle s => Block (bk_titles k) (s) (bk_titles_align k) (bk_titles_pos k) (bk_borders k) (bk_border_style k) (bk_set k) (bk_style k) (bk_padding k)
  | Block_WithTitlesAlignment a => Block (bk_titles k) (bk_titles_style k) (a) (bk_titles_pos k) (bk_borders k) (bk_border_style k) (bk_set k) (bk_style k) (bk_padding k)
  | Block_WithStyle s => Block (bk_titles k) (bk_titles_style k) (bk_titles_align k) (bk_titles_pos k) (bk_borders k) (bk_border_style k) (bk_set k) (s) (bk_padding k)
  | Block_WithTitle t => block_with_title k t
  | Block_WithTitlePosition p => Block (bk_titles k) (bk_titles_style k) (bk_titles_align k) (p) (bk_borders k) (bk_border_style k) (bk_set k) (bk_style k) (bk_padding k)
  | Block_WithTitleStr s => block_with_title k (new_title_str s)
  | Block_Bordered => block_with_sides k []
  | Block_WithBorderSides l => block_with_sides k l
  | Block_WithBorderType t => Block (bk_titles k) (bk_titles_style k) (bk_titles_align k) (bk_titles_pos k) (bk_borders k) (bk_border_style k) (border_type_set t) (bk_style k) (bk_padding k)
  | Block_WithPadding p => Block (bk_titles k) (bk_titles_style k) (bk_titles_align k) (bk_titles_pos k) (bk_borders k) (bk_border_style k) (bk_set k) (bk_style k) (p)
  | Block_WithBorderStyle s => Block (bk_titles k) (bk_titles_style k) (bk_titles_align k) (bk_titles_pos k) (bk_borders k) (s) (bk_set k) (bk_style k) (bk_padding k)
  end.
Definition block_build (calls : list block_call) (k : block) : block := fold_left (block_apply) calls k.

(** ** paragraph *)
(** widget/paragraphwidget/paragraph.go:38-41, widget/paragraphwidget/paragraph.go:48-51, widget/paragraphwidget/paragraph.go:53-56, widget/paragraphwidget/paragraph.go:58-61, widget/paragraphwidget/paragraph.go:63-66, widget/paragraphwidget/paragraph.go:68-71, widget/paragraphwidget/paragraph.go:76-79, widget/paragraphwidget/paragraph.go:81-83 *)
Inductive paragraph_call :=
| Paragraph_WithStyle (s : style)
| Paragraph_WithScroll (vertical : Z) (horizontal : Z)
| Paragraph_Right
| Paragraph_Left
| Paragraph_Center
| Paragraph_WithBlock (b : block)
| Paragraph_WithWrap (trim : bool)
| Paragraph_Wrapped.
Definition paragraph_apply (k : paragraph_widget) (c : paragraph_call) : paragraph_widget :=
  match c with
  | Paragraph_WithStyle s => ParagraphWidget (pw_block k) (s) (pw_wrap k) (pw_text k) (pw_scroll_x k) (pw_scroll_y k) (pw_align k)
  | Paragraph_WithScroll vertical horizontal => ParagraphWidget (pw_block k) (pw_style k) (pw_wrap k) (pw_text k) (horizontal) (vertical) (pw_align k)
  | Paragraph_Right => ParagraphWidget (pw_block k) (pw_style k) (pw_wrap k) (pw_text k) (pw_scroll_x k) (pw_scroll_y k) (AlignRight)
  | Paragraph_Left => ParagraphWidget (pw_block k) (pw_style k) (pw_wrap k) (pw_text k) (pw_scroll_x k) (pw_scroll_y k) (AlignLeft)
  | Paragraph_Center => ParagraphWidget (pw_block k) (pw_style k) (pw_wrap k) (pw_text k) (pw_scroll_x k) (pw_scroll_y k) (AlignCenter)
  | Paragraph_WithBlock b => ParagraphWidget (Some b) (pw_style k) (pw_wrap k) (pw_text k) (pw_scroll_x k) (pw_scroll_y k) (pw_align k)
  | Paragraph_WithWrap trim => ParagraphWidget (pw_block k) (pw_style k) (Some trim) (pw_text k) (pw_scroll_x k) (pw_scroll_y k) (pw_align k)
  | Paragraph_Wrapped => ParagraphWidget (pw_block k) (pw_style k) (Some (wrap_with_trim new_wrap false)) (pw_text k) (pw_scroll_x k) (pw_scroll_y k) (pw_align k)
  end.
Definition paragraph_build (calls : list paragraph_call) (k : paragraph_widget) : paragraph_widget := fold_left (paragraph_apply) calls k.

(** ** list *)
(** widget/listwidget/list.go:72-75, widget/listwidget/list.go:77-80, widget/listwidget/list.go:187-190, widget/listwidget/list.go:192-195, widget/listwidget/list.go:197-200, widget/listwidget/list.go:202-205, widget/listwidget/list.go:207-210, widget/listwidget/list.go:212-215, widget/listwidget/list.go:217-220 *)
Inductive list_call :=
| List_WithItems (l : list text)
| List_WithScrollPadding (n : Z)
| List_WithDirection (d : list_direction)
| List_WithHighlightSpacing (h : highlight_spacing)
| List_WithRepeatHighlightSymbol (r : bool)
| List_WithHighlightStyle (s : style)
| List_WithHighlightSymbol (s : str)
| List_WithStyle (s : style)
| List_WithBlock (b : block).
Definition list_apply (k : lst) (c : list_call) : lst :=
  match c with
  | List_WithItems l => Lst (l) (ls_block k) (ls_style k) (ls_dir k) (ls_hl_style k) (ls_hl_symbol k) (ls_repeat k) (ls_spacing k) (ls_padding k)
  | List_WithScrollPadding n => Lst (ls_items k) (ls_block k) (ls_style k) (ls_dir k) (ls_hl_style k) (ls_hl_symbol k) (ls_repeat k) (ls_spacing k) (n)
  | List_WithDirection d => Lst (ls_items k) (ls_block k) (ls_style k) (d) (ls_hl_style k) (ls_hl_symbol k) (ls_repeat k) (ls_spacing k) (ls_padding k)
  | List_WithHighlightSpacing h => Lst (ls_items k) (ls_block k) (ls_style k) (ls_dir k) (ls_hl_style k) (ls_hl_symbol k) (ls_repeat k) (h) (ls_padding k)
  | List_WithRepeatHighlightSymbol r => Lst (ls_items k) (ls_block k) (ls_style k) (ls_dir k) (ls_hl_style k) (ls_hl_symbol k) (r) (ls_spacing k) (ls_padding k)
  | List_WithHighlightStyle s => Lst (ls_items k) (ls_block k) (ls_style k) (ls_dir k) (s) (ls_hl_symbol k) (ls_repeat k) (ls_spacing k) (ls_padding k)
  | List_WithHighlightSymbol s => Lst (ls_items k) (ls_block k) (ls_style k) (ls_dir k) (ls_hl_style k) (s) (ls_repeat k) (ls_spacing k) (ls_padding k)
  | List_WithStyle s => Lst (ls_items k) (ls_block k) (s) (ls_dir k) (ls_hl_style k) (ls_hl_symbol k) (ls_repeat k) (ls_spacing k) (ls_padding k)
  | List_WithBlock b => Lst (ls_items k) (Some b) (ls_style k) (ls_dir k) (ls_hl_style k) (ls_hl_symbol k) (ls_repeat k) (ls_spacing k) (ls_padding k)
  end.
Definition list_build (calls : list list_call) (k : lst) : lst := fold_left (list_apply) calls k.

(** ** tabs *)
(** widget/tabswidget/tabs.go:36-39, widget/tabswidget/tabs.go:41-44, widget/tabswidget/tabs.go:46-48, widget/tabswidget/tabs.go:50-53, widget/tabswidget/tabs.go:55-57, widget/tabswidget/tabs.go:59-62, widget/tabswidget/tabs.go:64-66, widget/tabswidget/tabs.go:68-71, widget/tabswidget/tabs.go:73-76, widget/tabswidget/tabs.go:78-81, widget/tabswidget/tabs.go:83-86, widget/tabswidget/tabs.go:88-91 *)
Inductive tabs_call :=
| Tabs_WithStyle (s : style)
| Tabs_WithPaddingLeft (l : line)
| Tabs_WithPaddingLeftStr (s : str)
| Tabs_WithPaddingRight (l : line)
| Tabs_WithPaddingRightStr (s : str)
| Tabs_WithDivider (d : span)
| Tabs_WithDividerStr (s : str)
| Tabs_WithHighlightStyle (s : style)
| Tabs_WithBlock (b : block)
| Tabs_WithTitles (l : list line)
| Tabs_Select (i : Z)
| Tabs_Unselect.
Definition tabs_apply (k : tabs) (c : tabs_call) : tabs :=
  match c with
  | Tabs_WithStyle s => Tabs (tb_block k) (tb_titles k) (tb_selected k) (s) (tb_hl_style k) (tb_divider k) (tb_left k) (tb_right k)
  | Tabs_WithPaddingLeft l => Tabs (tb_block k) (tb_titles k) (tb_selected k) (tb_style k) (tb_hl_style k) (tb_divider k) (l) (tb_right k)
  | Tabs_WithPaddingLeftStr s => Tabs (tb_block k) (tb_titles k) (tb_selected k) (tb_style k) (tb_hl_style k) (tb_divider k) (new_line_str s) (tb_right k)
  | Tabs_WithPaddingRight l => Tabs (tb_block k) (tb_titles k) (tb_selected k) (tb_style k) (tb_hl_style k) (tb_divider k) (tb_left k) (l)
  | Tabs_WithPaddingRightStr s => Tabs (tb_block k) (tb_titles k) (tb_selected k) (tb_style k) (tb_hl_style k) (tb_divider k) (tb_left k) (new_line_str s)
  | Tabs_WithDivider d => Tabs (tb_block k) (tb_titles k) (tb_selected k) (tb_style k) (tb_hl_style k) (d) (tb_left k) (tb_right k)
  | Tabs_WithDividerStr s => Tabs (tb_block k) (tb_titles k) (tb_selected k) (tb_style k) (tb_hl_style k) (new_span s) (tb_left k) (tb_right k)
  | Tabs_WithHighlightStyle s => Tabs (tb_block k) (tb_titles k) (tb_selected k) (tb_style k) (s) (tb_divider k) (tb_left k) (tb_right k)
  | Tabs_WithBlock b => Tabs (Some b) (tb_titles k) (tb_selected k) (tb_style k) (tb_hl_style k) (tb_divider k) (tb_left k) (tb_right k)
  | Tabs_WithTitles l => Tabs (tb_block k) (l) (tb_selected k) (tb_style k) (tb_hl_style k) (tb_divider k) (tb_left k) (tb_right k)
  | Tabs_Select i => Tabs (tb_block k) (tb_titles k) (Some i) (tb_style k) (tb_hl_style k) (tb_divider k) (tb_left k) (tb_right k)
  | Tabs_Unselect => Tabs (tb_block k) (tb_titles k) (None) (tb_style k) (tb_hl_style k) (tb_divider k) (tb_left k) (tb_right k)
  end.
Definition tabs_build (calls : list tabs_call) (k : tabs) : tabs := fold_left (tabs_apply) calls k.

(** ** input *)
(** widget/inputwidget/input.go:40-43, widget/inputwidget/input.go:45-48, widget/inputwidget/input.go:50-52, widget/inputwidget/input.go:54-56, widget/inputwidget/input.go:58-60, widget/inputwidget/input.go:62-64, widget/inputwidget/input.go:66-68, widget/inputwidget/input.go:70-72, widget/inputwidget/input.go:74-77, widget/inputwidget/input.go:79-82, widget/inputwidget/input.go:84-87, widget/inputwidget/input.go:89-92, widget/inputwidget/input.go:94-97, widget/inputwidget/input.go:99-102 *)
Inductive input_call :=
| Input_WithPrompt (s : str)
| Input_WithPromptStyle (s : style)
| Input_Left
| Input_Center
| Input_Right
| Input_Top
| Input_Middle
| Input_Bottom
| Input_WithVertical (f : flex)
| Input_WithBlock (b : block)
| Input_WithPlaceholder (s : str)
| Input_WithPlaceholderStyle (s : style)
| Input_WithCursorStyle (s : style)
| Input_WithAlignment (a : alignment).
Definition input_apply (u : uniseg) (k : input_widget) (c : input_call) : input_widget :=
  match c with
  | Input_WithPrompt s => input_with_prompt k s
  | Input_WithPromptStyle s => input_with_prompt_style k s
  | Input_Left => input_left k
  | Input_Center => input_center k
  | Input_Right => input_right k
  | Input_Top => input_top k
  | Input_Middle => input_middle k
  | Input_Bottom => input_bottom k
  | Input_WithVertical f => input_with_vertical k f
  | Input_WithBlock b => input_with_block k b
  | Input_WithPlaceholder s => input_with_placeholder u k s
  | Input_WithPlaceholderStyle s => input_with_placeholder_style k s
  | Input_WithCursorStyle s => input_with_cursor_style k s
  | Input_WithAlignment a => input_with_alignment k a
  end.
Definition input_build (u : uniseg) (calls : list input_call) (k : input_widget) : input_widget := fold_left (input_apply u) calls k.

(** ** popup *)
(** widget/popupwidget/popup.go:32-35, widget/popupwidget/popup.go:37-40, widget/popupwidget/popup.go:42-45, widget/popupwidget/popup.go:47-50, widget/popupwidget/popup.go:52-55, widget/popupwidget/popup.go:57-60, widget/popupwidget/popup.go:62-65, widget/popupwidget/popup.go:67-70, widget/popupwidget/popup.go:72-75, widget/popupwidget/popup.go:77-80, widget/popupwidget/popup.go:82-85 *)
Inductive popup_call :=
| Popup_WithBlock (b : block)
| Popup_WithStyle (s : style)
| Popup_WithHeight (c : lconstraint)
| Popup_WithWidth (c : lconstraint)
| Popup_WithPadding (d : padding)
| Popup_Top
| Popup_Middle
| Popup_Bottom
| Popup_Left
| Popup_Center
| Popup_Right.
Definition popup_apply (k : popup) (c : popup_call) : popup :=
  match c with
  | Popup_WithBlock b => popup_with_block k b
  | Popup_WithStyle s => popup_with_style k s
  | Popup_WithHeight c => popup_with_height k c
  | Popup_WithWidth c => popup_with_width k c
  | Popup_WithPadding d => popup_with_padding k d
  | Popup_Top => popup_top k
  | Popup_Middle => popup_middle k
  | Popup_Bottom => popup_bottom k
  | Popup_Left => popup_left k
  | Popup_Center => popup_center k
  | Popup_Right => popup_right k
  end.
Definition popup_build (calls : list popup_call) (k : popup) : popup := fold_left (popup_apply) calls k.

(** ** layout *)
(** layout.go:73-75, layout.go:77-79, layout.go:81-84, layout.go:86-89, layout.go:91-94, layout.go:96-99, layout.go:101-104 *)
Inductive layout_call :=
| Layout_Vertical
| Layout_Horizontal
| Layout_WithDirection (d : direction)
| Layout_WithPadding (p : padding)
| Layout_WithFlex (f : flex)
| Layout_WithSpacing (s : spacing)
| Layout_WithConstraints (l : list lconstraint).
Definition layout_apply (k : layout) (c : layout_call) : layout :=
  match c with
  | Layout_Vertical => Layout (DirVertical) (l_constraints k) (l_padding k) (l_flex k) (l_spacing k)
  | Layout_Horizontal => Layout (DirHorizontal) (l_constraints k) (l_padding k) (l_flex k) (l_spacing k)
  | Layout_WithDirection d => Layout (d) (l_constraints k) (l_padding k) (l_flex k) (l_spacing k)
  | Layout_WithPadding p => Layout (l_direction k) (l_constraints k) (p) (l_flex k) (l_spacing k)
  | Layout_WithFlex f => Layout (l_direction k) (l_constraints k) (l_padding k) (f) (l_spacing k)
  | Layout_WithSpacing s => Layout (l_direction k) (l_constraints k) (l_padding k) (l_flex k) (s)
  | Layout_WithConstraints l => Layout (l_direction k) (l_constraints k ++ l) (l_padding k) (l_flex k) (l_spacing k)
  end.
Definition layout_build (calls : list layout_call) (k : layout) : layout := fold_left (layout_apply) calls k.

(** ** line *)
(** widget/textwidget/line.go:135-138, widget/textwidget/line.go:140-148, widget/textwidget/line.go:162-165, widget/textwidget/line.go:167-170, widget/textwidget/line.go:172-174, widget/textwidget/line.go:176-178, widget/textwidget/line.go:180-182 *)
Inductive line_call :=
| Line_WithSpans (l : list span)
| Line_WithSpansStr (l : list str)
| Line_WithStyle (s : style)
| Line_WithAlignment (a : alignment)
| Line_Right
| Line_Center
| Line_Left.
Definition line_apply (k : line) (c : line_call) : line :=
  match c with
  | Line_WithSpans l => Line (ln_style k) (ln_spans k ++ l) (ln_align k)
  | Line_WithSpansStr l => Line (ln_style k) (ln_spans k ++ map new_span l) (ln_align k)
  | Line_WithStyle s => Line (s) (ln_spans k) (ln_align k)
  | Line_WithAlignment a => Line (ln_style k) (ln_spans k) (a)
  | Line_Right => Line (ln_style k) (ln_spans k) (AlignRight)
  | Line_Center => Line (ln_style k) (ln_spans k) (AlignCenter)
  | Line_Left => Line (ln_style k) (ln_spans k) (AlignLeft)
  end.
Definition line_build (calls : list line_call) (k : line) : line := fold_left (line_apply) calls k.

(** ** text *)
(** widget/textwidget/text.go:29-32, widget/textwidget/text.go:34-37, widget/textwidget/text.go:47-50, widget/textwidget/text.go:52-55, widget/textwidget/text.go:57-59, widget/textwidget/text.go:61-63, widget/textwidget/text.go:65-67 *)
Inductive text_call :=
| Text_WithLines (l : list line)
| Text_WithLinesStr (l : list str)
| Text_WithStyle (s : style)
| Text_WithAlignment (a : alignment)
| Text_Left
| Text_Right
| Text_Center.
Definition text_apply (k : text) (c : text_call) : text :=
  match c with
  | Text_WithLines l => Text (tx_style k) (tx_lines k ++ l) (tx_align k)
  | Text_WithLinesStr l => Text (tx_style k) (tx_lines k ++ new_lines_str l) (tx_align k)
  | Text_WithStyle s => Text (s) (tx_lines k) (tx_align k)
  | Text_WithAlignment a => Text (tx_style k) (tx_lines k) (a)
  | Text_Left => Text (tx_style k) (tx_lines k) (AlignLeft)
  | Text_Right => Text (tx_style k) (tx_lines k) (AlignRight)
  | Text_Center => Text (tx_style k) (tx_lines k) (AlignCenter)
  end.
Definition text_build (calls : list text_call) (k : text) : text := fold_left (text_apply) calls k.

(** ** style *)
(** style.go:102-104, style.go:106-108, style.go:110-112, style.go:114-116, style.go:118-120, style.go:122-124, style.go:126-128, style.go:130-132, style.go:134-136, style.go:138-140, style.go:142-144, style.go:146-148, style.go:150-152, style.go:154-156, style.go:158-160, style.go:162-164, style.go:166-168, style.go:170-172, style.go:174-176, style.go:178-180, style.go:182-184, style.go:186-188, style.go:190-192, style.go:194-196, style.go:198-200, style.go:202-204, style.go:206-208, style.go:210-212, style.go:214-216, style.go:218-220, style.go:222-224, style.go:226-228, style.go:230-232, style.go:234-236, style.go:252-256, style.go:258-262 *)
Inductive style_call :=
| Style_RGB (r : N) (g : N) (b : N)
| Style_OnRGB (r : N) (g : N) (b : N)
| Style_Black
| Style_OnBlack
| Style_Red
| Style_OnRed
| Style_Green
| Style_OnGreen
| Style_Yellow
| Style_OnYellow
| Style_Blue
| Style_OnBlue
| Style_Magenta
| Style_OnMagenta
| Style_Cyan
| Style_OnCyan
| Style_White
| Style_OnWhite
| Style_BrightBlack
| Style_OnBrightBlack
| Style_BrightRed
| Style_OnBrightRed
| Style_BrightGreen
| Style_OnBrightGreen
| Style_BrightYellow
| Style_OnBrightYellow
| Style_BrightBlue
| Style_OnBrightBlue
| Style_BrightMagenta
| Style_OnBrightMagenta
| Style_BrightCyan
| Style_OnBrightCyan
| Style_BrightWhite
| Style_OnBrightWhite
| Style_WithBackground (c : option color)
| Style_WithForeground (c : option color).
Definition style_apply (k : style) (c : style_call) : style :=
  match c with
  | Style_RGB r g b => with_foreground k (Some (ColRGB (hex_color r g b)))
  | Style_OnRGB r g b => with_background k (Some (ColRGB (hex_color r g b)))
  | Style_Black => with_foreground k (Some (ColAnsi 0%N))
  | Style_OnBlack => with_background k (Some (ColAnsi 0%N))
  | Style_Red => with_foreground k (Some (ColAnsi 1%N))
  | Style_OnRed => with_background k (Some (ColAnsi 1%N))
  | Style_Green => with_foreground k (Some (ColAnsi 2%N))
  | Style_OnGreen => with_background k (Some (ColAnsi 2%N))
  | Style_Yellow => with_foreground k (Some (ColAnsi 3%N))
  | Style_OnYellow => with_background k (Some (ColAnsi 3%N))
  | Style_Blue => with_foreground k (Some (ColAnsi 4%N))
  | Style_OnBlue => with_background k (Some (ColAnsi 4%N))
  | Style_Magenta => with_foreground k (Some (ColAnsi 5%N))
  | Style_OnMagenta => with_background k (Some (ColAnsi 5%N))
  | Style_Cyan => with_foreground k (Some (ColAnsi 6%N))
  | Style_OnCyan => with_background k (Some (ColAnsi 6%N))
  | Style_White => with_foreground k (Some (ColAnsi 7%N))
  | Style_OnWhite => with_background k (Some (ColAnsi 7%N))
  | Style_BrightBlack => with_foreground k (Some (ColAnsi 8%N))
  | Style_OnBrightBlack => with_background k (Some (ColAnsi 8%N))
  | Style_BrightRed => with_foreground k (Some (ColAnsi 9%N))
  | Style_OnBrightRed => with_background k (Some (ColAnsi 9%N))
  | Style_BrightGreen => with_foreground k (Some (ColAnsi 10%N))
  | Style_OnBrightGreen => with_background k (Some (ColAnsi 10%N))
  | Style_BrightYellow => with_foreground k (Some (ColAnsi 11%N))
  | Style_OnBrightYellow => with_background k (Some (ColAnsi 11%N))
  | Style_BrightBlue => with_foreground k (Some (ColAnsi 12%N))
  | Style_OnBrightBlue => with_background k (Some (ColAnsi 12%N))
  | Style_BrightMagenta => with_foreground k (Some (ColAnsi 13%N))
  | Style_OnBrightMagenta => with_background k (Some (ColAnsi 13%N))
  | Style_BrightCyan => with_foreground k (Some (ColAnsi 14%N))
  | Style_OnBrightCyan => with_background k (Some (ColAnsi 14%N))
  | Style_BrightWhite => with_foreground k (Some (ColAnsi 15%N))
  | Style_OnBrightWhite => with_background k (Some (ColAnsi 15%N))
  | Style_WithBackground c => with_background k c
  | Style_WithForeground c => with_foreground k c
  end.
Definition style_build (calls : list style_call) (k : style) : style := fold_left (style_apply) calls k.

(** ** gauge *)
(** gauge.go:43-103: WithRatio, WithPercent, WithLabel, WithLabelStr, WithStyle, WithGaugeStyle, WithUnicode.  There is no method for the block. *)
Inductive gauge_call := Gauge_WithRatio (r : float) | Gauge_WithPercent (n : Z) | Gauge_WithLabel (l : span) | Gauge_WithLabelStr (s : str)
| Gauge_WithStyle (s : style) | Gauge_WithGaugeStyle (s : style) | Gauge_WithUnicode (b : bool).
Definition gauge_apply (g : gauge) (c : gauge_call) : outcome gauge :=
  match c with
  | Gauge_WithRatio r => gauge_with_ratio g r
  | Gauge_WithPercent n => gauge_with_percent g n
  | Gauge_WithLabel l => Ret (Gauge (gg_block g) (gg_ratio g) (Some l) (gg_unicode g) (gg_style g) (gg_gauge_style g))
  | Gauge_WithLabelStr s => Ret (Gauge (gg_block g) (gg_ratio g) (Some (new_span s)) (gg_unicode g) (gg_style g) (gg_gauge_style g))
  | Gauge_WithStyle s => Ret (Gauge (gg_block g) (gg_ratio g) (gg_label g) (gg_unicode g) s (gg_gauge_style g))
  | Gauge_WithGaugeStyle s => Ret (Gauge (gg_block g) (gg_ratio g) (gg_label g) (gg_unicode g) (gg_style g) s)
  | Gauge_WithUnicode b => Ret (Gauge (gg_block g) (gg_ratio g) (gg_label g) b (gg_style g) (gg_gauge_style g))
  end.
Definition gauge_build (calls : list gauge_call) (g : gauge) : outcome gauge := ofold gauge_apply calls g.
(** fillwidget/fill.go:7-24 *)
Record fill_widget := Fill { fl_symbol : str; fl_style : style }.
Definition new_fill (s : str) : fill_widget := Fill s new_style.
Definition fill_with_style (f : fill_widget) (s : style) : fill_widget := Fill (fl_symbol f) s.
