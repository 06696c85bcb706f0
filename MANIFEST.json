{
 "claims": [
  {
   "property": "C01",
   "status": "proved",
   "theorems": [
    "C01_intersection_is_set_intersection",
    "C01_intersection_sized",
    "C01_intersection_empty",
    "C01_intersection_unique"
   ],
   "note": ""
  },
  {
   "property": "C02",
   "status": "proved",
   "theorems": [
    "C02_rows_list",
    "C02_rows_partition",
    "C02_columns_list",
    "C02_columns_partition"
   ],
   "note": ""
  },
  {
   "property": "C03",
   "status": "proved",
   "theorems": [
    "C03_inner_positions",
    "C03_inner_contained",
    "C03_inner_exact",
    "C03_indent_positions"
   ],
   "note": ""
  },
  {
   "property": "C04",
   "status": "partial",
   "theorems": [
    "C04_padding_builders_partial",
    "C04_with_left_refuted",
    "C04_new_padding"
   ],
   "note": "False of the code: Padding.WithLeft assigns Bottom. The other builders and NewPadding are proved; the false part is refuted by witness."
  },
  {
   "property": "C05",
   "status": "proved",
   "theorems": [
    "C05_cell_at_panics_iff_outside",
    "C05_cell_at_row_major",
    "C05_index_bijection"
   ],
   "note": ""
  },
  {
   "property": "C06",
   "status": "proved",
   "theorems": [
    "C06_one_cell_per_position"
   ],
   "note": ""
  },
  {
   "property": "C07",
   "status": "proved",
   "theorems": [
    "C07_set_style_exact"
   ],
   "note": ""
  },
  {
   "property": "C08",
   "status": "proved",
   "theorems": [
    "C08_patch_composes",
    "C08_patch_assoc",
    "C08_patch_identity"
   ],
   "note": ""
  },
  {
   "property": "C09",
   "status": "proved",
   "theorems": [
    "C09_last_request_wins",
    "C09_added_removed_disjoint",
    "C09_style_keeps_symbol",
    "C09_last_colour_wins"
   ],
   "note": ""
  },
  {
   "property": "C10",
   "status": "proved",
   "theorems": [
    "C10_clear_exact",
    "C10_fill_exact",
    "C10_outside_panics"
   ],
   "note": ""
  },
  {
   "property": "C11",
   "status": "partial",
   "theorems": [
    "C11_set_string_n_partial",
    "C11_only_reported_columns_change",
    "C11_narrow_text_never_panics",
    "C11_wide_at_edge_refuted",
    "C11_wide_over_limit_refuted",
    "C11_zero_width_refuted"
   ],
   "note": "Proved for texts whose shown part consists of clusters of width >= 1 and does not straddle the limit; refuted otherwise: wide cluster at the right edge panics, zero-width clusters take cells."
  },
  {
   "property": "C12",
   "status": "proved",
   "theorems": [
    "C12_diff_exact",
    "C12_diff_any"
   ],
   "note": ""
  },
  {
   "property": "C13",
   "status": "partial",
   "theorems": [
    "C13_screen_shows_last_frame",
    "C13_modifiers_refuted",
    "C13_ascii_profile_refuted",
    "C13_widths_refuted"
   ],
   "note": "Proved for every history of draws, resizes and terminal size changes on a full-screen viewport, for frames whose cells hold one grapheme of one or two columns, colours the terminal supports and modifier sets the renderer can express. Refuted for Hidden, for both blink speeds together, for colourless terminals, and for cells zero or three columns wide."
  },
  {
   "property": "C14",
   "status": "proved",
   "theorems": [
    "C14_draw_restores_attributes"
   ],
   "note": ""
  },
  {
   "property": "C15",
   "status": "partial",
   "theorems": [
    "C15_transition_exact",
    "C15_transition_expressible",
    "C15_transition_refuted"
   ],
   "note": "Exact characterisation of the transitions that work; the full claim is false (Hidden is never sent; dropping one of two blink speeds drops both)."
  },
  {
   "property": "C16",
   "status": "proved",
   "theorems": [
    "C16_output_well_formed",
    "C16_move_addresses_cell"
   ],
   "note": ""
  },
  {
   "property": "C17",
   "status": "proved",
   "theorems": [
    "C17_span_stays_inside",
    "C17_line_stays_inside",
    "C17_text_stays_inside"
   ],
   "note": ""
  },
  {
   "property": "C18",
   "status": "partial",
   "theorems": [
    "C18_zero_widths",
    "C18_after_wide_refuted",
    "C18_line_placement",
    "C18_clusters_shown",
    "C18_left_style",
    "C18_line_style_refuted",
    "C18_zero_width_refuted",
    "C18_text_placement"
   ],
   "note": "Placement and cutting proved for every line of clusters of at least one column without control characters, every alignment, area and buffer, and for whole texts line by line (C18_text_placement); in a span of clusters of one column or none, those of no width follow the one before them (C18_zero_widths). The style clause is proved for left-aligned lines and refuted for right-aligned and centred ones (the style goes to the leftmost cells); a zero-width cluster at a cut makes the span vanish, and one after a cluster of two columns goes into the column that is not drawn (both refuted)."
  },
  {
   "property": "C19",
   "status": "partial",
   "theorems": [
    "C19_text_widgets_filter_controls",
    "C19_set_string_refuted",
    "C19_set_string_plain"
   ],
   "note": "Proved for Span, Line and Text rendering; false of SetString, which copies control characters (refuted); SetString adds none of its own."
  },
  {
   "property": "C20",
   "status": "partial",
   "theorems": [
    "C20_bytes",
    "C20_round_trip_partial",
    "C20_lines_have_no_newline",
    "C20_line_count",
    "C20_round_trip_refuted"
   ],
   "note": "Round trip proved for strings without carriage return, without final newline and without stretches of 64 KiB between newlines; refuted for each of the three exceptions. No line ever contains a newline: proved for all strings."
  },
  {
   "property": "C21",
   "status": "partial",
   "theorems": [
    "C21_blank",
    "C21_wrap_ends",
    "C21_wrap_keeps_text",
    "C21_too_wide_dropped_refuted",
    "C21_rows_fit_partial",
    "C21_rows_fit_refuted"
   ],
   "note": "Text conservation and order proved for all inputs (graphemes wider than a row are dropped, shown by witness); row width proved for narrow graphemes whose words fit a row; refuted otherwise (long words, wide graphemes)."
  },
  {
   "property": "C22",
   "status": "partial",
   "theorems": [
    "C22_rows_fit",
    "C22_single_line_partial",
    "C22_one_row_per_line_refuted"
   ],
   "note": "Width bound proved for all inputs; the row of a one-line paragraph is characterised exactly; one row per line is refuted for every paragraph: all lines are joined into one row."
  },
  {
   "property": "C23",
   "status": "partial",
   "theorems": [
    "C23_window_shows_selection",
    "C23_window_keeps_offset",
    "C23_list_render",
    "C23_negative_offset_refuted",
    "C23_equal_items"
   ],
   "note": "C23_negative_offset_refuted: SetOffset accepts negative offsets and the next render panics; all other states proved. The highlight symbol must be drawable (C11). C23_equal_items says exactly which items are in view for items of one height: the view scrolls just as far as the selection needs."
  },
  {
   "property": "C24",
   "status": "partial",
   "theorems": [
    "C24_unselect",
    "C24_selected_of",
    "C24_selected_exists",
    "C24_moves_exactly",
    "C24_down_after_last_refuted",
    "C24_up_after_last_refuted",
    "C24_keys"
   ],
   "note": "Moves are exact from any selection a rendering leaves; between renderings SelectLast stores MaxInt, so moving down wraps to the first item and moving up does not move (refuted)."
  },
  {
   "property": "C25",
   "status": "partial",
   "theorems": [
    "C25_behaves_as_editor",
    "C25_any_history",
    "C25_erase_word_at_start_refuted",
    "C25_word_keys_refuted"
   ],
   "note": "Refines the plain editor for every history in which no Ctrl+W erases back to the start of the text; C25_any_history gives the exact behaviour for all histories (never panics, cursor inside). C25_erase_word_at_start_refuted: Ctrl+W at the start leaves an invisible empty cluster and later edits go wrong. Shift+Left and Shift+Right are refuted: they are reported as handled and do nothing (C25_word_keys_refuted)."
  },
  {
   "property": "C26",
   "status": "partial",
   "theorems": [
    "C26_render_shows_cursor",
    "C26_paste_shows_cursor",
    "C26_jump_exact",
    "C26_draws_inside",
    "C26_empty_text",
    "C26_step_by_step",
    "C26_paste_panics_refuted",
    "C26_end_key_panics_refuted",
    "C26_resize_panics_refuted",
    "C26_two_lefts_panic_refuted",
    "C26_narrow_area_refuted"
   ],
   "note": "Proved: cursor visible and drawing inside the area whenever the old view is near the cursor; for every history of single-step operations each followed by a rendering of constant width; for any paste into an input whose view has not moved; and, for one-column text, exactly which cursor jumps panic. Refuted with witnesses: rendering panics after a paste, after End, after narrowing, after two Lefts between renderings, and whenever the row is not wider than the prompt. The row chosen by the vertical layout is a parameter."
  },
  {
   "property": "C27",
   "status": "partial",
   "theorems": [
    "C27_parts",
    "C27_thumb_placed",
    "C27_monotone",
    "C27_ends",
    "C27_overflow_refuted"
   ],
   "note": "Parts, thumb size, monotonicity (below 2^52) and the end positions. float64 is modelled exactly as rationals rounded to 53 bits. C27_overflow_refuted: with content lengths near 2^62 the product overflows and a later position moves the thumb back."
  },
  {
   "property": "C28",
   "status": "partial",
   "theorems": [
    "C28_vertical_right_partial",
    "C28_other_orientations_refuted",
    "C28_content_area_partial",
    "C28_horizontal_swapped_refuted"
   ],
   "note": "Proved for the vertical bar on the right. Refuted for the other three orientations: the bar is drawn into the area reported for the content, and the two horizontal bars are drawn on the opposite side."
  },
  {
   "property": "C29",
   "status": "proved",
   "theorems": [
    "C29_any_history",
    "C29_next_recovers"
   ],
   "note": "Any sequence of operations; also recovers from positions set out of range."
  },
  {
   "property": "C30",
   "status": "partial",
   "theorems": [
    "C30_filled_count",
    "C30_render",
    "C30_percent",
    "C30_ratio_not_checked_refuted",
    "C30_label",
    "C30_eighths",
    "C30_rest"
   ],
   "note": "Number of filled cells, full picture of the gauge, percent. Refuted: WithRatio tests ratio < 0 && ratio > 1, so it never rejects anything, and a ratio above 1 draws outside the area."
  },
  {
   "property": "C31",
   "status": "partial",
   "theorems": [
    "C31_inner_excludes_decoration",
    "C31_inner_exact",
    "C31_border_exact",
    "C31_render_stays_inside",
    "C31_render_frame",
    "C31_area_beyond_buffer_refuted"
   ],
   "note": "Proved for areas inside the buffer; C31_area_beyond_buffer_refuted: Render intersects the area with itself instead of the buffer and panics when the area is larger."
  },
  {
   "property": "C32",
   "status": "partial",
   "theorems": [
    "C32_accepted_once",
    "C32_single_chain",
    "C32_others_ignored",
    "C32_frame_exists",
    "C32_first_tick_refuted"
   ],
   "note": "Every tick caused after the start is accepted at most once, one chain alive, others ignored, frame exists. Refuted for the starting tick: it carries tag 0 and is accepted as often as it is delivered."
  },
  {
   "property": "C33",
   "status": "proved",
   "theorems": [
    "C33_pairs"
   ],
   "note": "For every number of segments the enumeration of combin.go yields each pair i<j exactly once and nothing else."
  },
  {
   "property": "C34",
   "status": "partial",
   "theorems": [
    "C34_few_partial",
    "C34_pieces_partial",
    "C34_edges_refuted"
   ],
   "note": "Proved for every layout, area, iteration order and budget whose run is regular (ghost flags: no value was rounded to zero and at most 256 internal names were used): counts, containment, sizes, cross extent and shared edges, except that a spacer between overlapping segments is empty instead of ending where the next segment starts (C34_edges_refuted exhibits it with negative spacing). Numbers are rationals in the model, not float64. C34_few_partial needs no assumption on the run: layouts that need few names (few_names, see C38), with only zero counting as zero."
  },
  {
   "property": "C35",
   "status": "partial",
   "theorems": [
    "C35_few_partial",
    "C35_no_panic_partial",
    "C35_many_refuted"
   ],
   "note": "Proved for regular runs (see C34): whatever the order, a layout's constraints are feasible and the solver never reports failure; C35_few_partial needs no assumption on the run for layouts that need few names (few_names, see C38; at most 41 constraints), with only zero counting as zero. Refuted for more constraints (C35_many_refuted): the solver names its symbols with one byte, the names come round, and Split panics for every layout of 43 to 64 constraints without padding on a terminal of 80 by 24. Whether the solver stops is C74."
  },
  {
   "property": "C36",
   "status": "partial",
   "theorems": [
    "C36_small_optimal_partial",
    "C36_small_failure_partial",
    "C36_optimal_partial",
    "C36_failure_partial",
    "C36_all_satisfied_partial",
    "C36_small"
   ],
   "note": "Proved for every list of constraints, order and budget, for runs in which no value was rounded to zero and at most 256 names were used: the result satisfies all required constraints and no assignment has a lower penalty; a reported failure means no assignment exists. C36_small_*: the same with only zero counting as zero and a bound on the number of constraints instead of assumptions on the run. Missing: float64 rounding (C38_names_refuted shows the bound is needed). Termination is C74."
  },
  {
   "property": "C37",
   "status": "partial",
   "theorems": [
    "C37_changes_partial",
    "C37_read_partial"
   ],
   "note": "Proved for the first read after any successful sequence of additions with at most 256 names. A second read after further additions is not modelled."
  },
  {
   "property": "C38",
   "status": "partial",
   "theorems": [
    "C38_counts",
    "C38_few_partial",
    "C38_names_refuted"
   ],
   "note": "Proved: layouts whose names_for (a count of what the layout asks, in S_Layout) is at most 254 never need more than 256 names; seven constraints of any kind qualify, thirteen in a default layout with at most one Fill, fourteen lengths, percentages and ratios (C38_counts). Refuted in general: names are counted in a uint8, so 33 rows of height 3 in an area of height 99 get no height."
  },
  {
   "property": "C39",
   "status": "partial",
   "theorems": [
    "C39_per_goroutine_partial",
    "C39_global_refuted"
   ],
   "note": "Proved: under every interleaving of the loads and adds of variable creation, the variables one goroutine gets are distinct (fewer than 2^64 creations); a layout is computed by one goroutine with its own solver. Refuted across goroutines: the load and the add are separate, so two goroutines can get equal variables."
  },
  {
   "property": "C40",
   "status": "proved",
   "theorems": [
    "C40_every_byte_once",
    "C40_progress"
   ],
   "note": "Every byte read is covered by exactly one message, in order, except what is kept for the next read (an unfinished paste or, after a full read, a run of text); each message covers at least one byte, so reading never stalls or panics."
  },
  {
   "property": "C41",
   "status": "partial",
   "theorems": [
    "C41_whole_events_partial",
    "C41_text_cut_anywhere",
    "C41_cut_inside_refuted"
   ],
   "note": "Holds when reads contain whole events (characters may be grouped in any way; single other events per read; C41_whole_events_partial, C41_text_cut_anywhere) and for pastes cut anywhere (C43_any_cut). False in general: a sequence or a UTF-8 character cut by a read boundary (even by a full 256-byte read) is decoded as other keys or unknown bytes, and a focus report is recognised only at the end of a read."
  },
  {
   "property": "C42",
   "status": "proved",
   "theorems": [
    "C42_longest_wins",
    "C42_one_meaning",
    "C42_message"
   ],
   "note": "The longest entry of the sequence table wins (for every order of the map iterations), each sequence has one meaning, and the decoder delivers it unless a mouse, focus or paste sequence starts there."
  },
  {
   "property": "C43",
   "status": "partial",
   "theorems": [
    "C43_paste_verbatim",
    "C43_replacement_char_refuted",
    "C43_any_cut"
   ],
   "note": "Exactly the text as one message, for every text of scalar values without U+FFFD, also cut into reads anywhere after the opening marker. Refuted for U+FFFD, which is dropped from pastes."
  },
  {
   "property": "C44",
   "status": "proved",
   "theorems": [
    "C44_sgr_round_trip",
    "C44_x10_round_trip",
    "C44_unfinished_prefix_swallows_text",
    "C44_wheel_is_press"
   ],
   "note": "SGR for all buttons, actions, modifiers and cells; X10 for the cells it can express. Also proved: an SGR-like prefix that does not match is skipped over together with the text up to the next match (the pattern is not anchored)."
  },
  {
   "property": "C45",
   "status": "partial",
   "theorems": [
    "C45_names_partial",
    "C45_delivered",
    "C45_group_refuted"
   ],
   "note": "Names are injective on single presses and pastes; every key message delivered is one of these or a group of two or more characters read together (C45_delivered). Refuted for groups: \"u\", \"p\" read together are named \"up\"."
  },
  {
   "property": "C46",
   "status": "proved",
   "theorems": [
    "C46_updates",
    "C46_origin",
    "C46_reader_order"
   ],
   "note": "Proved for every schedule. The messages given to Update are those taken off the channel that are neither nil nor quit, in order, all but at most the last (pending, or a failed resize); every one comes from the reader, the resize listener or a command started before, a command's message at most once; the reader's messages are taken in order without gaps."
  },
  {
   "property": "C47",
   "status": "partial",
   "theorems": [
    "C47_quit_stops",
    "C47_quit_hidden",
    "C47_result_partial",
    "C47_can_finish",
    "C47_quit_command"
   ],
   "note": "Proved: nothing is taken or updated after a quit message, at most one draw, the model never sees it; if Run returns it is with the last model and the terminal restored, or the context was cancelled, or restoring failed; and if the context is not cancelled it can return. Partial because a failing last draw hangs instead (C54)."
  },
  {
   "property": "C48",
   "status": "partial",
   "theorems": [
    "C48_at_most_once",
    "C48_returned_partial",
    "C48_sequence_partial",
    "C48_batch_refuted"
   ],
   "note": "Proved: a command starts at most once and only if returned or part of a sequence; a returned command has started, or is being handed over with the handler ready, until the context is cancelled; the commands of a sequence all start in turn. Refuted for a batch outside a sequence: its commands are never started, the batch only reaches the model as a message."
  },
  {
   "property": "C49",
   "status": "proved",
   "theorems": [
    "C49_start_order",
    "C49_message_order",
    "C49_spawned"
   ],
   "note": "Proved for every schedule while the context is not cancelled (afterwards messages are dropped, but the order of starting is the same)."
  },
  {
   "property": "C50",
   "status": "proved",
   "theorems": [
    "C50_batch",
    "C50_unique"
   ],
   "note": "Proved for every list of commands."
  },
  {
   "property": "C51",
   "status": "partial",
   "theorems": [
    "C51_returns_partial",
    "C51_never",
    "C51_cancel_refuted"
   ],
   "note": "Refuted: cancel the context, let the command handler leave, let the loop take one more message: Run blocks for ever on handing over the command. Proved: in every other cancelled state (and no failed draw) Run can still return, and in these it never does."
  },
  {
   "property": "C52",
   "status": "partial",
   "theorems": [
    "C52_no_error_partial",
    "C52_cancelled_refuted",
    "C52_read_error_refuted",
    "C52_sequence_panic_refuted"
   ],
   "note": "Refuted: on cancellation and on a reader error Run returns with raw mode, alternate screen and hidden cursor left on; a panic in a command of a sequence kills the process. Proved: whenever Run returns without error (quit, recovered panic) and no restoring operation failed, all modes are put back."
  },
  {
   "property": "C53",
   "status": "partial",
   "theorems": [
    "C53_source_kept",
    "C53_derived",
    "C53_once_partial",
    "C53_siblings_refuted"
   ],
   "note": "Proved for every derivation history and every growth policy of append: a With call never changes the value it derives from nor those that one was derived from (C53_source_kept), the new value has the right elements (C53_derived), and every value keeps its elements for ever while elements are added at most once to each list (C53_once_partial). The full claim is false: adding twice to a value whose array has room changes the value derived first (C53_siblings_refuted, with a concrete run)."
  },
  {
   "property": "C54",
   "status": "partial",
   "theorems": [
    "C54_failed_draw_hangs",
    "C54_other_errors_partial",
    "C54_failed_draw_refuted"
   ],
   "note": "Refuted: after a failed draw Run never returns, whatever happens. Proved: errors of the reader or of a resize end Run with that error."
  },
  {
   "property": "C55",
   "status": "partial",
   "theorems": [
    "C55_both_colours",
    "C55_no_colours",
    "C55_one_colour_refuted",
    "C55_nocolor_resets_refuted"
   ],
   "note": "Both colours present or both absent: proved. Exactly one absent: the code dereferences nil. NoColor resets every attribute."
  },
  {
   "property": "C56",
   "status": "partial",
   "theorems": [
    "C56_row_partial",
    "C56_columns_partial",
    "C56_wide_title_refuted"
   ],
   "note": "Exact picture of the row for titles, paddings and divider of one-column characters (C56_row_partial), and for characters of any visible width when none of them lies across the right edge of the area (C56_columns_partial); refuted for a two-column character at the right edge (drawn outside or panic)."
  },
  {
   "property": "C57",
   "status": "partial",
   "theorems": [
    "C57_unwrapped_paragraph",
    "C57_wrapped_paragraph_partial",
    "C57_long_word_refuted"
   ],
   "note": "Unwrapped: proved for all paragraphs. Wrapped: proved for narrow graphemes whose words fit; refuted for long words. The block around a paragraph is covered by C31."
  },
  {
   "property": "C58",
   "status": "partial",
   "theorems": [
    "C58_bar_picture",
    "C58_default_horizontal_refuted",
    "C58_any_heads",
    "C58_no_room"
   ],
   "note": "Exact picture for one-column symbols and for missing or empty arrow heads (C58_any_heads: the bar then starts in its second cell and is cut at its end); refuted for the default horizontal symbol set with empty arrow heads."
  },
  {
   "property": "C59",
   "status": "partial",
   "theorems": [
    "C59_line_print_partial",
    "C59_wide_refuted",
    "C59_any_width_partial"
   ],
   "note": "Proved for characters of any visible width when none of them lies across the limit; refuted for a two-column character at the limit."
  },
  {
   "property": "C60",
   "status": "partial",
   "theorems": [
    "C60_few_partial",
    "C60_placed_partial",
    "C60_lengths_partial"
   ],
   "note": "Proved for every layout, area, order and budget for regular runs (see C34) when the area has room as S_Place.fits says: all six flexes, all constraint kinds, overlaps included. C60_few_partial: layouts that need few names (few_names, see C38), no assumption on the run, only zero counting as zero. Missing: layouts without room, and runs that are not regular."
  },
  {
   "property": "C61",
   "status": "partial",
   "theorems": [
    "C61_few_partial",
    "C61_same_partial"
   ],
   "note": "Proved for regular runs of layouts with room (see C60), and without assumptions on the run for layouts that need few names (few_names, see C38) and only zero counting as zero (C61_few_partial). Missing: layouts without room, where the optimum need not be unique."
  },
  {
   "property": "C62",
   "status": "partial",
   "theorems": [
    "C62_space_around_refuted"
   ],
   "note": "False of the code: only the middle spacers are constrained, so for every layout with room (regular runs) FlexSpaceAround places segments as FlexSpaceBetween does."
  },
  {
   "property": "C63",
   "status": "partial",
   "theorems": [
    "C63_same_refuted",
    "C63_halves_refuted"
   ],
   "note": "Refuted in the model: both runs are regular (no number taken for zero, no name reused), so both results are optimal and the tie is broken by map order. The Go code computes in float64, where rounding may break a tie; the constants of these layouts are small multiples of 100."
  },
  {
   "property": "C64",
   "status": "partial",
   "theorems": [
    "C64_apart_partial",
    "C64_disjoint_partial",
    "C64_few_partial"
   ],
   "note": "For runs in which no number is taken for zero and no name is reused (regular); for layouts that need few names (few_names, see C38) and exact zero tests without assumptions on the run. Missing: the same without the hypothesis regular for longer layouts. Termination is C74."
  },
  {
   "property": "C65",
   "status": "partial",
   "theorems": [
    "C65_percent_partial",
    "C65_percent_exact_partial",
    "C65_render_partial",
    "C65_placed_partial",
    "C65_builders_partial",
    "C65_exact_partial",
    "C65_float64_partial",
    "C65_placed64_partial",
    "C65_can_end_partial"
   ],
   "note": "partial: for the runs in which no number within the tolerance of the code is taken for zero wrongly (proper; without this assumption with exact arithmetic, C65_exact_partial). For sizes in cells and 32-bit numbers the same is proved in float64 with the tolerance of the code and for every order of the maps (C65_float64_partial, C65_placed64_partial), and that the layouts can always still end (C65_can_end_partial); that they do end is not proved. Sizes in percentages, which the default popup uses, are placed by C65_percent_partial and C65_percent_exact_partial, with the two roundings of the code; the float64 theorems leave percentages out. Other sizes are covered by C60."
  },
  {
   "property": "C66",
   "status": "partial",
   "theorems": [
    "C66_content_refuted"
   ],
   "note": "refuted: Content is a public field that Render and Inner never read."
  },
  {
   "property": "C67",
   "status": "partial",
   "theorems": [
    "C67_padding_refuted"
   ],
   "note": "refuted: for every area and padding a popup that fills its area is inner (inner area padding) padding."
  },
  {
   "property": "C68",
   "status": "partial",
   "theorems": [
    "C68_edges_partial",
    "C68_tiles_partial",
    "C68_few_partial"
   ],
   "note": "C68_edges_partial: edges, exact gaps, equal margins and equal gaps for every layout whose spacing is not negative and whose spaces fit; C68_tiles_partial: every cell of the area of a default layout without spacing is in exactly one segment. Missing: the run must be regular (as in C36), and the theorem is about exact numbers, not floats. C68_few_partial needs no regularity for layouts that need few names (few_names, see C38) with the solver that takes only zero for zero. Equal gaps are within two cells and equal margins within one, because of the rounding; the exact gaps need an area that does not start left of (above) zero, or no spacing."
  },
  {
   "property": "C69",
   "status": "partial",
   "theorems": [
    "C69_shows_partial",
    "C69_exact_partial",
    "C69_float64_partial"
   ],
   "note": "C69_shows_partial assumes that both solver runs of the spinner are regular (as C34 does); with exact comparisons (C69_exact_partial) and in float64 with the tolerance of the code (C69_float64_partial, 32-bit areas) that is proved and only termination of the run within its fuel is assumed. The characters of the frame are assumed to be clusters one column wide, as they are in a terminal that draws ambiguous characters narrow."
  },
  {
   "property": "C70",
   "status": "partial",
   "theorems": [
    "C70_row_partial",
    "C70_builders_partial",
    "C70_shows_partial",
    "C70_inside_partial",
    "C70_paste_partial",
    "C70_exact_partial",
    "C70_float64_partial",
    "C70_shows64_partial",
    "C70_can_end_partial"
   ],
   "note": "The older theorems assume that the solver run is regular; C70_exact_partial proves it when comparisons are exact, and C70_float64_partial, C70_shows64_partial and C70_can_end_partial hold in float64 with the tolerance of the code, for areas with 32-bit numbers and every order of the maps. The flex SpaceAround, which no method of the input sets except WithVertical, is left out: with one segment it leaves the place open. Edits of several characters after scrolling are C26's refuted case."
  },
  {
   "property": "C71",
   "status": "proved",
   "theorems": [
    "C71_in_order",
    "C71_shown"
   ],
   "note": "For the full-screen viewport, the only one app.go uses. Go's bufio.Writer is modelled from its documentation and source (buffer of 4096 bytes, first error kept); the device obeys io.Writer's contract."
  },
  {
   "property": "C72",
   "status": "partial",
   "theorems": [
    "C72_restore_refuted",
    "C72_restored_partial"
   ],
   "note": "Refuted: bufio.Writer keeps its first error, so after one failed write every restoring operation fails, nothing is sent and raw mode stays on, even if the device works again. Proved: without a failed write restoring works."
  },
  {
   "property": "C73",
   "status": "partial",
   "theorems": [
    "C73_modes_partial",
    "C73_paste_refuted"
   ],
   "note": "Refuted for pastes: nothing enables bracketed paste (EnableBracketedPaste is never called), so terminals send pastes as typed keys. The other modes are proved, for frames of plain symbols as in C13."
  },
  {
   "property": "C74",
   "status": "partial",
   "theorems": [
    "C74_solver_can_end_partial",
    "C74_can_end_partial",
    "C74_one_order_partial",
    "C74_every_order_refuted",
    "C74_exact_refuted"
   ],
   "note": "Refuted as stated (C74_every_order_refuted, C74_exact_refuted): for a layout of four constraints in one cell and one periodic order of the maps no number of rounds is enough. Proved: with only zero counting as zero, whatever happened in the first n walks over maps, some continuation ends within n+b rounds, b independent of everything, for every list of constraints that needs at most 254 names (C74_solver_can_end_partial) and every layout that needs few names (few_names, see C38) (C74_can_end_partial, with a result and no panic); one fixed order ends for all of them (C74_one_order_partial). Missing: more than 254 names, values rounded to zero, and a probability."
  },
  {
   "property": "C75",
   "status": "partial",
   "theorems": [
    "C75_float64_partial",
    "C75_tolerance_partial",
    "C75_no_panic_partial",
    "C75_pieces_partial",
    "C75_disjoint_partial",
    "C75_tiles_partial",
    "C75_placed_partial",
    "C75_same_partial",
    "C75_can_end_partial",
    "C75_ratio_refuted",
    "C75_orders_refuted"
   ],
   "note": "Proved for layouts in whole cells of few names (few_names, see C38: up to thirteen constraints) with 32-bit numbers, and for one segment with any flex (C75_float64_partial and what follows from it for float64: no panic, pieces, disjoint, tiles, placed, same for every order, can end). C75_ratio_refuted and C75_orders_refuted: with ratios a rounding error moves a segment by a cell, and which one depends on the order of the maps. Missing: more constraints than that, fractions that happen to be harmless, other flexes with several segments, and fused operations."
  },
  {
   "property": "C76",
   "status": "partial",
   "theorems": [
    "C76_paragraph",
    "C76_wrapped_partial",
    "C76_tabs",
    "C76_tabs_columns",
    "C76_input",
    "C76_list",
    "C76_list_plain",
    "C76_content_inside_refuted"
   ],
   "note": "Paragraphs that are not wrapped, lists and text inputs: every content and state. Wrapped paragraphs (C76_wrapped_partial) only when no word is longer than the content area and no grapheme is wide; tabs only when no character of theirs lies across the right edge of the content area (C76_tabs_columns). Both restrictions are needed: C76_content_inside_refuted draws over the border otherwise. A gauge has a block in its type but no method to set it."
  },
  {
   "property": "C77",
   "status": "proved",
   "theorems": [
    "C77_named_modifiers",
    "C77_title",
    "C77_border_set",
    "C77_block",
    "C77_paragraph",
    "C77_list",
    "C77_tabs",
    "C77_input",
    "C77_popup",
    "C77_layout",
    "C77_line",
    "C77_text",
    "C77_style",
    "C77_gauge",
    "C77_throbber",
    "C77_rgb",
    "C77_fresh"
   ],
   "note": "{'note': \"Appending (titles, spans, lines, constraints) is modelled as pure; C53 covers shared backing arrays. No method gives a gauge a block or a spinner a style, placement or padding. Values of Title.Position, Tabs.selected and the like are pointers to copies, modelled as values. The text of a colour, not termenv's reading of it, is modelled. C77_fresh says what every constructor without options yields.\"} The named modifiers of a style are in T_Named."
  },
  {
   "property": "C78",
   "status": "partial",
   "theorems": [
    "C78_new_buffer",
    "C78_zero_width_refuted",
    "C78_alignment_refuted"
   ],
   "note": "For lines whose characters all take at least one column: size of the buffer and every cell of it. Refuted: a character without width takes a column that is not counted, so that the call panics or loses text; the alignment of lines is ignored."
  },
  {
   "property": "C79",
   "status": "partial",
   "theorems": [
    "C79_quiet_records",
    "C79_resize",
    "C79_cursor_keys",
    "C79_editing_keys",
    "C79_back_tab",
    "C79_escape",
    "C79_control_letters",
    "C79_characters",
    "C79_space",
    "C79_page_keys_refuted",
    "C79_no_character_refuted",
    "C79_altgr_refuted",
    "C79_brackets_refuted",
    "C79_wide_characters_refuted"
   ],
   "note": "Proved for every record and history: order, repeats, sizes, cursor keys with all modifiers, editing keys, Ctrl with letters, characters without Ctrl, the space bar. Refuted: Ctrl+Page Up, keys without a character, AltGr, Ctrl with brackets, characters beyond U+FFFF. That records are what the Windows API says, and what coninput makes of them, is trusted. The code it is about is not reached from Run (C87_no_records): on Windows Run reads the bytes of the input."
  },
  {
   "property": "C80",
   "status": "partial",
   "theorems": [
    "C80_clicks",
    "C80_moves",
    "C80_wheels",
    "C80_after_wheel_refuted"
   ],
   "note": "Proved for clicks, movements and wheels after any history. Refuted for the click after a wheel record. The code it is about is not reached from Run (C87_no_records): on Windows Run reads the bytes of the input."
  },
  {
   "property": "C81",
   "status": "proved",
   "theorems": [
    "C81_name_identifies",
    "C81_none_unknown",
    "C81_delivered"
   ],
   "note": "For all events the decoder can deliver, and that it delivers no others."
  },
  {
   "property": "C82",
   "status": "partial",
   "theorems": [
    "C82_last_frame",
    "C82_rest_untouched",
    "C82_clear",
    "C82_clear_refuted",
    "C82_resize_refuted",
    "C82_start_refuted",
    "C82_inline_refuted"
   ],
   "note": "Proved for every area inside the screen; the terminal keeps its size during the history. Refuted: Clear stays inside the viewport; the viewport survives a resize; NewTerminal starts on a clean area; ViewportInline works (it panics)."
  },
  {
   "property": "C83",
   "status": "partial",
   "theorems": [
    "C83_called",
    "C83_strangers",
    "C83_alone",
    "C83_copy_erase_refuted",
    "C83_copy_type_refuted"
   ],
   "note": "The calls of an input state are modelled a second time, on arrays with capacities as Go's slices have them, for any growth of capacities. Every call follows the model on lists (M_Input), so C25 and C26 hold of the code with slices. No-copy histories: full independence. Copies share: refuted for every state with a cluster after the cursor, and for typing with doubling capacities."
  },
  {
   "property": "C84",
   "status": "partial",
   "theorems": [
    "C84_quiet",
    "C84_one_input",
    "C84_reader_refuted",
    "C84_commands_refuted"
   ],
   "note": "Proved from every state in which Run has returned, reachable or not, except the bound on swallowed input, which needs reachability. Refuted: the reader is never cancelled (cancelReader.Cancel is not called), and sequences ignore the end of the program. Closing the TTY that Run opened is not modelled."
  },
  {
   "property": "C85",
   "status": "proved",
   "theorems": [
    "C85_screen",
    "C85_every_run"
   ],
   "note": "Full. Draws that panic or whose output fails end the program (C54) and are not followed by a waiting state; frames are those the terminal can show (good_widget), as in C13. C85_every_run: every run past its first draw has a terminal beside it, so the statement is about all runs."
  },
  {
   "property": "C86",
   "status": "proved",
   "theorems": [
    "C86_one_per_constraint",
    "C86_assign_panics",
    "C86_assign",
    "C86_unwrap",
    "C86_layout"
   ],
   "note": "Full, for any arithmetic and tolerance."
  },
  {
   "property": "C87",
   "status": "partial",
   "theorems": [
    "C87_told_partial",
    "C87_first_partial",
    "C87_settles",
    "C87_sizes",
    "C87_lost_refuted",
    "C87_stale_refuted",
    "C87_windows_refuted",
    "C87_error_refuted",
    "C87_no_records"
   ],
   "note": "Proved: a change that comes when the listener is ready and the first question dealt with, or before the first question is asked, is always learnt (C87_told_partial, C87_first_partial). Refuted in between: a change after the first question and before signal.Notify is lost (C87_lost_refuted), and the answer to the first question may arrive last and be out of date (C87_stale_refuted). On Windows changes are never learnt: the listener does nothing and the records of the console are not read, since Run passes a Terminal, which is no file (C87_windows_refuted, C87_no_records). An error of the system is never reported (C87_error_refuted)."
  },
  {
   "property": "C88",
   "status": "partial",
   "theorems": [
    "C88_rendered",
    "C88_shown",
    "C88_no_alignment_refuted"
   ],
   "note": "Exact picture of the whole block for titles of visible characters (no zero-width or control characters), cut titles included. Refuted only for a block set to AlignmentNone, whose titles are not drawn although their row is reserved."
  },
  {
   "property": "C89",
   "status": "proved",
   "theorems": [
    "C89_frames",
    "C89_layouts",
    "C89_view",
    "C89_program"
   ],
   "note": "C89_frames: every view composed of the widgets, conditional on Render returning; C89_layouts: popups, throbbers and inputs with their layouts are such views; C89_view and C89_program: unconditional for the widgets that return for every size (texts, blocks, unwrapped paragraphs, lists, tabs, clear, fill, popups at a given place). Graphemes of two columns are left to C13, which states what a frame with them must look like."
  },
  {
   "property": "C90",
   "status": "partial",
   "theorems": [
    "C90_solver_partial",
    "C90_split_partial",
    "C90_even_partial",
    "C90_float64_partial",
    "C90_outcomes",
    "C90_even"
   ],
   "note": "For layouts whose constraints need at most 254 names, in exact arithmetic and, for layouts in whole cells, in float64 with the tolerance. Probability is counted: of the K^n equally likely outcomes of n draws at most one in m goes on. The hypothesis fair says that each order of up to 1024 keys has a chance of at least one in K at every walk; Go's runtime documents the order as random without promising that, and it is not modelled. C90_even shows that drawing all orders evenly is fair."
  },
  {
   "property": "C91",
   "status": "partial",
   "theorems": [
    "C91_gives_way_partial",
    "C91_cells_partial",
    "C91_honoured_partial",
    "C91_no_longer_partial",
    "C91_few_honoured_partial",
    "C91_few_cells_partial",
    "C91_heavy_fill_refuted"
   ],
   "note": "Exact sizes are stated through exact places that the edges of the segments stand for; the cells corollaries follow. Missing: layouts of more than 80 constraints or filling weights above 100000 (refuted for Fill(3000000)), negative spacing, spaces that do not fit, and the float64 solver; runs are regular (few_names variants drop that for the exact model)."
  },
  {
   "property": "C92",
   "status": "partial",
   "theorems": [
    "C92_program",
    "C92_typed_partial",
    "C92_reads_partial",
    "C92_text_partial"
   ],
   "note": "Missing: reads that cut an event in two (C41 refutes it for those), a last read of exactly 256 bytes (whose last characters may be held back), word erasures that reach the start of the text (C25), and, with editing keys, characters that combine into graphemes. Alt is ignored by the input: Alt+a types a."
  },
  {
   "property": "C93",
   "status": "partial",
   "theorems": [
    "C93_one_writer_partial",
    "C93_one_more_draw",
    "C93_one_writer_refuted",
    "C93_late_draw_refuted"
   ],
   "note": "Proved: in programs whose commands do not panic only the goroutine that called Run writes (C93_one_writer_partial); whatever happens, at most one frame is drawn after another goroutine has begun to put the terminal back (C93_one_more_draw). Refuted: a panicking command's goroutine puts the terminal back while the event loop draws, and the frame can land on the user's own screen (C93_one_writer_refuted, C93_late_draw_refuted). Handling a size message writes too and can happen once more in the same way. Data races on other memory are not modelled."
  },
  {
   "property": "C94",
   "status": "partial",
   "theorems": [
    "C94_done",
    "C94_killed",
    "C94_again_refuted"
   ],
   "note": "False of the code: Run cancels the context stored in the App, so a second Run of the same App ends with ErrKilled (or in a recovered panic or a hang), whatever the schedule. C94_done: the context is done whenever Run has returned without an error; C94_killed: with the context done, no Run returns a model without an error. A call of WithContext or NewApp in between gives a new context and hence a first run."
  },
  {
   "property": "C95",
   "status": "proved",
   "theorems": [
    "C95_reached",
    "C95_sizes",
    "C95_screen"
   ],
   "note": "Proved for the states in which the program waits for a message (C95_screen); C95_sizes only asks that models can be drawn at the sizes the program was told, C95_reached only that the models it has actually drawn can. Init's own changes are part of the first model; what Render leaves is a function of the model and the frame's size."
  },
  {
   "property": "C96",
   "status": "partial",
   "theorems": [
    "C96_follows_partial",
    "C96_together_refuted",
    "C96_no_room_refuted"
   ],
   "note": "Proved for programs whose list always has room, whose keys arrive one per message and whose other messages leave the list alone (C96_follows_partial); refuted for characters that are read together (C96_together_refuted: typing j twice quickly does nothing) and for a list without room (C96_no_room_refuted: after G, j goes to the first item)."
  },
  {
   "property": "C97",
   "status": "proved",
   "theorems": [
    "C97_list_cells"
   ],
   "note": "Axiom-free. The hypotheses keep the area inside the buffer, the offset and selection non-negative (C23, C24 say when they are), and the marker and the items' lines free of graphemes of no width. The range shown contains the selected item if it fits; which other items it contains is C23."
  },
  {
   "property": "C98",
   "status": "partial",
   "theorems": [
    "C98_wrapped_partial",
    "C98_unwrapped_partial",
    "C98_lines_joined_refuted"
   ],
   "note": "Wrapped: for graphemes of at most one column and words no wider than the area; C57 and C21 refute the general claim. Unwrapped: one line in full; several lines are joined into one row (C98_lines_joined_refuted), stated for one-column graphemes without horizontal scroll. Blanks at line breaks may be left out; which ones is not specified."
  },
  {
   "property": "C99",
   "status": "proved",
   "theorems": [
    "C99_text",
    "C99_first_view",
    "C99_fits",
    "C99_placeholder"
   ],
   "note": "Every cell, for inputs whose view is near the cursor (C26 says which jumps panic instead), for views that have not moved yet with one-column graphemes, for texts that fit (C99_fits: all of it is shown and the state stays), and for empty inputs with any placeholder. Prompt, text and placeholder must consist of visible graphemes; the row chosen by the vertical layout is a parameter."
  },
  {
   "property": "C100",
   "status": "partial",
   "theorems": [
    "C100_shown_partial",
    "C100_whole_partial"
   ],
   "note": "C100_shown_partial: keystrokes that bring at most one character of a one-column alphabet, without Ctrl+E and Ctrl+W, for rows of the same width at every size the program is told; the input must have a row with room for the prompt, the cursor and one character, and the text may be longer than the row. C100_whole_partial: any messages (pastes, Ctrl+E, Ctrl+W where it stops before the start of the text) and rows of any widths, as long as the text fits; then all of it is on the screen. Missing: texts longer than the row after jumps or on rows whose width changes (C26 says which of those panic). The instances run a program and show the cells."
  },
  {
   "property": "C101",
   "status": "partial",
   "theorems": [
    "C101_screen_partial",
    "C101_place_partial",
    "C101_place64_partial",
    "C101_example_partial",
    "C101_quits"
   ],
   "note": "C101_example_partial: every cell of the screen of examples/input, for any messages read and sizes told while the text fits the popup, over a one-column alphabet and without deleting a word back to the start of the text (C25 says what goes wrong there). The popup's width is a percentage: its place is proved with exact arithmetic in the solver and no tolerance (C101_place_partial); with float64 and the tolerance of the code it is proved for popup sizes in cells (C101_place64_partial). C101_quits is complete: Ctrl+C without Alt and nothing else makes it ask to quit. Missing: percentages in float64 and texts longer than the popup (C100 covers those for a row of constant width)."
  },
  {
   "property": "C102",
   "status": "partial",
   "theorems": [
    "C102_screen_partial",
    "C102_reads_partial",
    "C102_place64",
    "C102_example_partial",
    "C102_quits",
    "C102_screen",
    "C102_letters_partial"
   ],
   "note": "C102_screen: the list's program draws exactly the screen spelled out letter by letter in S_Screen (list_screen), at all sizes of at least thirty columns and four rows; C102_letters_partial: that is what the running program shows. C102_example_partial: the same by the pieces of the example, for any number of items, any messages read and any sizes told of at least thirty columns and four rows, over a one-column alphabet that has the characters the example writes; the popup's place is proved with float64 and the tolerance of the code (C102_place64), for every run of the solver that ends. C102_screen_partial and C102_reads_partial are the same for any list of items of one height, popup and paragraph of one line. C102_quits is complete for the keys the decoder makes. Missing: smaller screens, and that the solver ends."
  },
  {
   "property": "C103",
   "status": "proved",
   "theorems": [
    "C103_not_before",
    "C103_once_handled",
    "C103_can_leave",
    "C103_input",
    "C103_list"
   ],
   "note": "Proved for every program whose Update returns Quit exactly when the user asks and otherwise, like Init, only commands that do not panic and bring one message of the program's own; the three examples are instances (their keys as the decoder makes them). 'Can' is possibility: there is a continuation that returns; a fair schedule is not modelled. Sizes, errors and cancellation may interfere at any point."
  },
  {
   "property": "C104",
   "status": "proved",
   "theorems": [
    "C104_example",
    "C104_spins",
    "C104_leaves",
    "C104_one_tick",
    "C104_in_order",
    "C104_goes_on"
   ],
   "note": "C104_one_tick, C104_in_order, C104_goes_on: any model with a tag that answers the tick of its present tag with the next one and everything else with at most Quit. C104_example, C104_spins, C104_leaves: the program of examples/throbber, for any keys the decoder makes. Time is not modelled (a tick may come at any time or never); the drawing of the example is not."
  },
  {
   "property": "C105",
   "status": "partial",
   "theorems": [
    "C105_boxes_partial",
    "C105_grid_partial",
    "C105_nine_partial",
    "C105_terminal_partial",
    "C105_screen_partial"
   ],
   "note": "Proved with exact arithmetic in the solver: the grid (C105_grid_partial, C105_nine_partial), the boxes (C105_boxes_partial), the whole screen letter by letter (C105_screen_partial), for every area, history and map order, and that the terminal shows this screen whenever the running program waits, with names, frames and texts spelled out in a table (C105_terminal_partial). Missing: binary64 rounding in the layouts of three shares, that the solver ends, grids of more than nine rows, small screens beyond no panic and nothing outside, colours."
  },
  {
   "property": "C106",
   "status": "partial",
   "theorems": [
    "C106_panel",
    "C106_leaves",
    "C106_high_partial",
    "C106_columns_partial",
    "C106_sidebar_partial",
    "C106_right_partial"
   ],
   "note": "The active panel and the leaving are proved for every run of the program. The rows on screens of at most 30 rows, the foot and the command log are proved of the code's arithmetic (float64, tolerance 1e-8); the rows on higher screens and the two columns with exact arithmetic. All for any map order, a Split that ends, and room for the rows asked for. Not covered: the drawing of the panels."
  }
 ]
}