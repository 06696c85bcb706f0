(** What the builder methods are for: each option is what the last call that names it gave. *)
From Verif Require Import Base M_Geom M_Style M_Uniseg M_Scroll M_Solver M_Layout M_Buffer M_Text M_Block M_Reflow M_List M_Float M_Gauge M_Tabs M_Input M_Popup M_Throbber M_View M_Options.
From Coq Require Import ZArith NArith List Bool.
Import ListNotations.
Open Scope Z_scope.

(** The value an option has after [calls], when each call gives it a value or not, and it was [v] before. *)
Definition last_given {O V} (given : O -> option V) (calls : list O) (v : V) : V :=
  last (flat_map (fun o => match given o with Some x => [x] | None => [] end) calls) v.
(** Options that collect what they are given. *)
Definition all_given {O V} (given : O -> list V) (calls : list O) (l : list V) : list V := l ++ flat_map given calls.

(** The box drawing characters of each kind of border: corners (top left, top right, bottom left, bottom right), then the sides left, right,
    top, bottom.  An unknown kind is drawn as a sharp one. *)
Definition drawn_with (t : border_type) : border_set :=
  match t with
  | BorderTypeRounded => BorderSet [9581%N] [9582%N] [9584%N] [9583%N] [9474%N] [9474%N] [9472%N] [9472%N] (* arcs *)
  | BorderTypeDouble => BorderSet [9556%N] [9559%N] [9562%N] [9565%N] [9553%N] [9553%N] [9552%N] [9552%N]  (* double lines *)
  | BorderTypeThick => BorderSet [9487%N] [9491%N] [9495%N] [9499%N] [9475%N] [9475%N] [9473%N] [9473%N]   (* heavy lines *)
  | BorderTypeSharp | BorderTypeOther _ => BorderSet [9484%N] [9488%N] [9492%N] [9496%N] [9474%N] [9474%N] [9472%N] [9472%N] (* light lines *)
  end.
(** How a colour is written: a number sign and two hexadecimal digits for each of red, green and blue. *)
Definition digit_value (c : N) : option N := if ((48 <=? c) && (c <=? 57))%N then Some (c - 48)%N else if ((97 <=? c) && (c <=? 102))%N then Some (c - 97 + 10)%N else None.
Definition byte_value (c d : N) : option N := match digit_value c, digit_value d with Some a, Some b => Some (16 * a + b)%N | _, _ => None end.
Definition colour_value (s : str) : option (N * N * N) :=
  match s with
  | [35%N; a; b; c; d; e; f] => match byte_value a b, byte_value c d, byte_value e f with Some r, Some g, Some b => Some (r, g, b) | _, _, _ => None end
  | _ => None
  end.
(** A title with an alignment of its own gives it to its line. *)
Definition aligned_title (t : title) : title :=
  match ti_align t with AlignNone => t | a => Title a (ti_pos t) (Line (ln_style (ti_line t)) (ln_spans (ti_line t)) a) end.
(** The sides named by a list of them; no list means all of them. *)
Definition sides_of (l : list side) : side := match l with [] => SideAll | _ => fold_right N.lor 0%N l end.

(** ** title *)
Definition title_given_align (c : title_call) : option (alignment) := match c with Title_WithAlignment a => Some a | Title_Right => Some AlignRight | Title_Left => Some AlignLeft | Title_Center => Some AlignCenter | _ => None end.
Definition title_given_pos (c : title_call) : option (option title_position) := match c with Title_WithPosition p => Some (Some p) | Title_Top => Some (Some TitleTop) | Title_Bottom => Some (Some TitleBottom) | _ => None end.

(** ** border set *)
Definition border_set_given_top_left (c : border_set_call) : option (str) := match c with BorderSet_WithTopLeft s => Some s | _ => None end.
Definition border_set_given_top_right (c : border_set_call) : option (str) := match c with BorderSet_WithTopRight s => Some s | _ => None end.
Definition border_set_given_bottom_left (c : border_set_call) : option (str) := match c with BorderSet_WithBottomLeft s => Some s | _ => None end.
Definition border_set_given_bottom_right (c : border_set_call) : option (str) := match c with BorderSet_WithBottomRight s => Some s | _ => None end.
Definition border_set_given_left (c : border_set_call) : option (str) := match c with BorderSet_WithVerticalLeft s => Some s | _ => None end.
Definition border_set_given_right (c : border_set_call) : option (str) := match c with BorderSet_WithVerticalRight s => Some s | _ => None end.
Definition border_set_given_top (c : border_set_call) : option (str) := match c with BorderSet_WithHorizontalTop s => Some s | _ => None end.
Definition border_set_given_bottom (c : border_set_call) : option (str) := match c with BorderSet_WithHorizontalBottom s => Some s | _ => None end.

(** ** block *)
Definition block_given_titles (c : block_call) : list title := match c with Block_WithTitle t => [aligned_title t] | Block_WithTitleStr s => [new_title_str s] | _ => [] end.
Definition block_given_titles_style (c : block_call) : option (style) := match c with Block_WithTitlesStyle s => Some s | _ => None end.
Definition block_given_titles_align (c : block_call) : option (alignment) := match c with Block_WithTitlesAlignment a => Some a | _ => None end.
Definition block_given_titles_pos (c : block_call) : option (title_position) := match c with Block_WithTitlePosition p => Some p | _ => None end.
Definition block_given_borders (c : block_call) : option (side) := match c with Block_Bordered => Some SideAll | Block_WithBorderSides l => Some (sides_of l) | _ => None end.
Definition block_given_border_style (c : block_call) : option (style) := match c with Block_WithBorderStyle s => Some s | _ => None end.
Definition block_given_set (c : block_call) : option (border_set) := match c with Block_Rounded => Some (drawn_with BorderTypeRounded) | Block_Sharp => Some (drawn_with BorderTypeSharp) | Block_Thick => Some (drawn_with BorderTypeThick) | Block_Double => Some (drawn_with BorderTypeDouble) | Block_WithBorderType t => Some (drawn_with t) | _ => None end.
Definition block_given_style (c : block_call) : option (style) := match c with Block_WithStyle s => Some s | _ => None end.
Definition block_given_padding (c : block_call) : option (padding) := match c with Block_WithPadding p => Some p | _ => None end.

(** ** paragraph *)
Definition paragraph_given_block (c : paragraph_call) : option (option block) := match c with Paragraph_WithBlock b => Some (Some b) | _ => None end.
Definition paragraph_given_style (c : paragraph_call) : option (style) := match c with Paragraph_WithStyle s => Some s | _ => None end.
Definition paragraph_given_wrap (c : paragraph_call) : option (option bool) := match c with Paragraph_WithWrap trim => Some (Some trim) | Paragraph_Wrapped => Some (Some false) | _ => None end.
Definition paragraph_given_scroll_x (c : paragraph_call) : option (Z) := match c with Paragraph_WithScroll _ horizontal => Some horizontal | _ => None end.
Definition paragraph_given_scroll_y (c : paragraph_call) : option (Z) := match c with Paragraph_WithScroll vertical _ => Some vertical | _ => None end.
Definition paragraph_given_align (c : paragraph_call) : option (alignment) := match c with Paragraph_Right => Some AlignRight | Paragraph_Left => Some AlignLeft | Paragraph_Center => Some AlignCenter | _ => None end.

(** ** list *)
Definition list_given_items (c : list_call) : option (list text) := match c with List_WithItems l => Some l | _ => None end.
Definition list_given_block (c : list_call) : option (option block) := match c with List_WithBlock b => Some (Some b) | _ => None end.
Definition list_given_style (c : list_call) : option (style) := match c with List_WithStyle s => Some s | _ => None end.
Definition list_given_dir (c : list_call) : option (list_direction) := match c with List_WithDirection d => Some d | _ => None end.
Definition list_given_hl_style (c : list_call) : option (style) := match c with List_WithHighlightStyle s => Some s | _ => None end.
Definition list_given_hl_symbol (c : list_call) : option (str) := match c with List_WithHighlightSymbol s => Some s | _ => None end.
Definition list_given_repeat (c : list_call) : option (bool) := match c with List_WithRepeatHighlightSymbol r => Some r | _ => None end.
Definition list_given_spacing (c : list_call) : option (highlight_spacing) := match c with List_WithHighlightSpacing h => Some h | _ => None end.
Definition list_given_padding (c : list_call) : option (Z) := match c with List_WithScrollPadding n => Some n | _ => None end.

(** ** tabs *)
Definition tabs_given_block (c : tabs_call) : option (option block) := match c with Tabs_WithBlock b => Some (Some b) | _ => None end.
Definition tabs_given_titles (c : tabs_call) : option (list line) := match c with Tabs_WithTitles l => Some l | _ => None end.
Definition tabs_given_selected (c : tabs_call) : option (option Z) := match c with Tabs_Select i => Some (Some i) | Tabs_Unselect => Some None | _ => None end.
Definition tabs_given_style (c : tabs_call) : option (style) := match c with Tabs_WithStyle s => Some s | _ => None end.
Definition tabs_given_hl_style (c : tabs_call) : option (style) := match c with Tabs_WithHighlightStyle s => Some s | _ => None end.
Definition tabs_given_divider (c : tabs_call) : option (span) := match c with Tabs_WithDivider d => Some d | Tabs_WithDividerStr s => Some (new_span s) | _ => None end.
Definition tabs_given_left (c : tabs_call) : option (line) := match c with Tabs_WithPaddingLeft l => Some l | Tabs_WithPaddingLeftStr s => Some (new_line_str s) | _ => None end.
Definition tabs_given_right (c : tabs_call) : option (line) := match c with Tabs_WithPaddingRight l => Some l | Tabs_WithPaddingRightStr s => Some (new_line_str s) | _ => None end.

(** ** input *)
Definition input_given_block (u : uniseg) (c : input_call) : option (option block) := match c with Input_WithBlock b => Some (Some b) | _ => None end.
Definition input_given_align (u : uniseg) (c : input_call) : option (alignment) := match c with Input_Left => Some AlignLeft | Input_Center => Some AlignCenter | Input_Right => Some AlignRight | Input_WithAlignment a => Some a | _ => None end.
Definition input_given_placeholder (u : uniseg) (c : input_call) : option (list str) := match c with Input_WithPlaceholder s => Some (clusters u s) | _ => None end.
Definition input_given_placeholder_style (u : uniseg) (c : input_call) : option (style) := match c with Input_WithPlaceholderStyle s => Some s | _ => None end.
Definition input_given_cursor_style (u : uniseg) (c : input_call) : option (style) := match c with Input_WithCursorStyle s => Some s | _ => None end.
Definition input_given_prompt (u : uniseg) (c : input_call) : option (str) := match c with Input_WithPrompt s => Some s | _ => None end.
Definition input_given_prompt_style (u : uniseg) (c : input_call) : option (style) := match c with Input_WithPromptStyle s => Some s | _ => None end.
Definition input_given_vertical (u : uniseg) (c : input_call) : option (flex) := match c with Input_Top => Some FlexStart | Input_Middle => Some FlexCenter | Input_Bottom => Some FlexEnd | Input_WithVertical f => Some f | _ => None end.

(** ** popup *)
Definition popup_given_block (c : popup_call) : option (option block) := match c with Popup_WithBlock b => Some (Some b) | _ => None end.
Definition popup_given_horizontal (c : popup_call) : option (flex) := match c with Popup_Left => Some FlexStart | Popup_Center => Some FlexCenter | Popup_Right => Some FlexEnd | _ => None end.
Definition popup_given_vertical (c : popup_call) : option (flex) := match c with Popup_Top => Some FlexStart | Popup_Middle => Some FlexCenter | Popup_Bottom => Some FlexEnd | _ => None end.
Definition popup_given_style (c : popup_call) : option (style) := match c with Popup_WithStyle s => Some s | _ => None end.
Definition popup_given_width (c : popup_call) : option (lconstraint) := match c with Popup_WithWidth c => Some c | _ => None end.
Definition popup_given_height (c : popup_call) : option (lconstraint) := match c with Popup_WithHeight c => Some c | _ => None end.
Definition popup_given_padding (c : popup_call) : option (padding) := match c with Popup_WithPadding d => Some d | _ => None end.

(** ** layout *)
Definition layout_given_direction (c : layout_call) : option (direction) := match c with Layout_Vertical => Some DirVertical | Layout_Horizontal => Some DirHorizontal | Layout_WithDirection d => Some d | _ => None end.
Definition layout_given_constraints (c : layout_call) : list lconstraint := match c with Layout_WithConstraints l => l | _ => [] end.
Definition layout_given_padding (c : layout_call) : option (padding) := match c with Layout_WithPadding p => Some p | _ => None end.
Definition layout_given_flex (c : layout_call) : option (flex) := match c with Layout_WithFlex f => Some f | _ => None end.
Definition layout_given_spacing (c : layout_call) : option (spacing) := match c with Layout_WithSpacing s => Some s | _ => None end.

(** ** line *)
Definition line_given_style (c : line_call) : option (style) := match c with Line_WithStyle s => Some s | _ => None end.
Definition line_given_spans (c : line_call) : list span := match c with Line_WithSpans l => l | Line_WithSpansStr l => map new_span l | _ => [] end.
Definition line_given_align (c : line_call) : option (alignment) := match c with Line_WithAlignment a => Some a | Line_Right => Some AlignRight | Line_Center => Some AlignCenter | Line_Left => Some AlignLeft | _ => None end.

(** ** text *)
Definition text_given_style (c : text_call) : option (style) := match c with Text_WithStyle s => Some s | _ => None end.
Definition text_given_lines (c : text_call) : list line := match c with Text_WithLines l => l | Text_WithLinesStr l => new_lines_str l | _ => [] end.
Definition text_given_align (c : text_call) : option (alignment) := match c with Text_WithAlignment a => Some a | Text_Left => Some AlignLeft | Text_Right => Some AlignRight | Text_Center => Some AlignCenter | _ => None end.

(** ** style *)
Definition style_given_sfg (c : style_call) : option (option color) := match c with Style_RGB r g b => Some (Some (ColRGB (hex_color r g b))) | Style_Black => Some (Some (ColAnsi 0%N)) | Style_Red => Some (Some (ColAnsi 1%N)) | Style_Green => Some (Some (ColAnsi 2%N)) | Style_Yellow => Some (Some (ColAnsi 3%N)) | Style_Blue => Some (Some (ColAnsi 4%N)) | Style_Magenta => Some (Some (ColAnsi 5%N)) | Style_Cyan => Some (Some (ColAnsi 6%N)) | Style_White => Some (Some (ColAnsi 7%N)) | Style_BrightBlack => Some (Some (ColAnsi 8%N)) | Style_BrightRed => Some (Some (ColAnsi 9%N)) | Style_BrightGreen => Some (Some (ColAnsi 10%N)) | Style_BrightYellow => Some (Some (ColAnsi 11%N)) | Style_BrightBlue => Some (Some (ColAnsi 12%N)) | Style_BrightMagenta => Some (Some (ColAnsi 13%N)) | Style_BrightCyan => Some (Some (ColAnsi 14%N)) | Style_BrightWhite => Some (Some (ColAnsi 15%N)) | Style_WithForeground c => Some c | _ => None end.
Definition style_given_sbg (c : style_call) : option (option color) := match c with Style_OnRGB r g b => Some (Some (ColRGB (hex_color r g b))) | Style_OnBlack => Some (Some (ColAnsi 0%N)) | Style_OnRed => Some (Some (ColAnsi 1%N)) | Style_OnGreen => Some (Some (ColAnsi 2%N)) | Style_OnYellow => Some (Some (ColAnsi 3%N)) | Style_OnBlue => Some (Some (ColAnsi 4%N)) | Style_OnMagenta => Some (Some (ColAnsi 5%N)) | Style_OnCyan => Some (Some (ColAnsi 6%N)) | Style_OnWhite => Some (Some (ColAnsi 7%N)) | Style_OnBrightBlack => Some (Some (ColAnsi 8%N)) | Style_OnBrightRed => Some (Some (ColAnsi 9%N)) | Style_OnBrightGreen => Some (Some (ColAnsi 10%N)) | Style_OnBrightYellow => Some (Some (ColAnsi 11%N)) | Style_OnBrightBlue => Some (Some (ColAnsi 12%N)) | Style_OnBrightMagenta => Some (Some (ColAnsi 13%N)) | Style_OnBrightCyan => Some (Some (ColAnsi 14%N)) | Style_OnBrightWhite => Some (Some (ColAnsi 15%N)) | Style_WithBackground c => Some c | _ => None end.

(** ** gauge *)
Definition gauge_given_ratio (c : gauge_call) : option float := match c with Gauge_WithRatio r => Some r | Gauge_WithPercent n => Some (fdiv (of_int n) (of_int 100)) | _ => None end.
Definition gauge_given_label (c : gauge_call) : option (option span) := match c with Gauge_WithLabel l => Some (Some l) | Gauge_WithLabelStr s => Some (Some (new_span s)) | _ => None end.
Definition gauge_given_unicode (c : gauge_call) : option bool := match c with Gauge_WithUnicode b => Some b | _ => None end.
Definition gauge_given_style (c : gauge_call) : option style := match c with Gauge_WithStyle s => Some s | _ => None end.
Definition gauge_given_gauge_style (c : gauge_call) : option style := match c with Gauge_WithGaugeStyle s => Some s | _ => None end.

(** ** Before any call *)
Definition unstyled : style := Style None None 0%N 0%N.
(** No frame, no padding; a light border once sides are asked for; titles at the top, to the left. *)
Definition fresh_block : block := Block [] unstyled AlignLeft TitleTop 0%N unstyled (drawn_with BorderTypeSharp) unstyled (Padding 0 0 0 0).
(** A title goes where the titles of its block go. *)
Definition fresh_title (l : line) : title := Title AlignNone None l.
(** No frame, not wrapped, not scrolled, to the left. *)
Definition fresh_paragraph (t : text) : paragraph_widget := ParagraphWidget None unstyled None t 0 0 AlignLeft.
(** From the top, nothing to mark the selected item with, no room for a mark unless something is selected. *)
Definition fresh_list (items : list text) : lst := Lst items None unstyled TopToBottom unstyled [] false WhenSelected 0.
(** Nothing selected, a selected tab reversed (modifier 64), a vertical line (U+2502) between the tabs and a blank on both sides of each. *)
Definition fresh_tabs (titles : list line) : tabs :=
  Tabs None titles None unstyled (Style None None 64%N 0%N) (Span unstyled [9474%N]) (Line unstyled [Span unstyled [32%N]] AlignNone) (Line unstyled [Span unstyled [32%N]] AlignNone).
(** Empty, with the percentage as its label. *)
Definition fresh_gauge : gauge := Gauge None (Float 0 1) None false unstyled unstyled.
(** A double line with a full block as thumb, and arrows at the ends if it is vertical. *)
Definition fresh_scroll (o : orientation) : scroll :=
  match o with
  | VerticalRight | VerticalLeft => Scroll o unstyled [9608%N] unstyled (Some [9553%N]) unstyled (Some [9650%N]) unstyled (Some [9660%N])
  | _ => Scroll o unstyled [9608%N] unstyled (Some [9552%N]) unstyled (Some []) unstyled (Some [])
  end.
(** In the middle, 60 % wide and 20 % high. *)
Definition fresh_popup : popup := Popup None FlexCenter FlexCenter unstyled (LPercentage 60) (LPercentage 20) None (Padding 0 0 0 0).
(** A turning line in the middle. *)
Definition fresh_throbber : throbber := Throbber unstyled [[124%N]; [47%N]; [45%N]; [92%N]] FlexCenter FlexCenter (Padding 0 0 0 0).
(** No prompt, no placeholder; placeholders dim and italic (modifiers 2 and 4), the cursor reversed. *)
Definition fresh_input : input_widget := InputWidget (Input None unstyled AlignLeft [] (Style None None 6%N 0%N) (Style None None 64%N 0%N) [] unstyled) FlexLegacy.
(** From top to bottom, all of the area shared out. *)
Definition fresh_layout (cs : list lconstraint) : layout := Layout DirVertical cs (Padding 0 0 0 0) FlexLegacy (SpSpace 0).
