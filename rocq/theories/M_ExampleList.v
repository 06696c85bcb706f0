(** Model of the repository's example program examples/list/main.go: a list of items, and a popup that the space bar shows and hides. *)
From Coq Require Import String.
From Verif Require Import Base M_Geom M_Style M_Uniseg M_Buffer M_Text M_Block M_Reflow M_Widget M_List M_Listing M_Solver M_Layout M_Popup M_Options M_Ansi M_Utf8 M_KeyTable M_Decode M_Cmd.
From Coq Require Import ZArith NArith List Bool.
Import ListNotations.
Open Scope Z_scope.

(** examples/list/main.go:18-24. The field items never changes after run (line 119), and currentItem is never set: both are no part of the state here. *)
Record listing := Listing { li_list : list_state; li_popup : bool }.
(** examples/list/main.go:30-35 *)
Definition listing_item (id : Z) : text :=
  new_text [Line (bold new_style) (ln_spans (new_line_str (asc "Item #" ++ itoa (id + 1)))) AlignNone; Line (dim (italic new_style)) (ln_spans (new_line_str (asc "Description"))) AlignNone].
(** examples/list/main.go:37-45, 62-65 *)
Definition listing_items (count : Z) : list text := map listing_item (zrange 0 count).
(** examples/list/main.go:48-60: without a current item the title is the number of items *)
Definition listing_block (count : Z) : block :=
  block_build [Block_WithBorderSides []; Block_Rounded; Block_WithTitle (new_title_str (asc "List")); Block_WithTitle (title_build [Title_Bottom; Title_Right] (new_title_str (itoa count ++ asc " items")))] new_block.
(** examples/list/main.go:67-71; black and blue are the colours 0 and 4 of the terminal (style.go:110-112, 146-148) *)
Definition listing_list (count : Z) : lst :=
  list_build [List_WithHighlightSymbol (asc "> "); List_WithHighlightSpacing SpacingAlways; List_WithBlock (listing_block count);
    List_WithHighlightStyle (with_background (with_foreground new_style (Some (ColAnsi 0))) (Some (ColAnsi 4)))] (new_list (listing_items count)).
(** examples/list/main.go:76, 78-84 *)
Definition listing_paragraph : paragraph := paragraph_of (paragraph_build [Paragraph_Center] (new_paragraph_str (asc "Hello, world!"))).
Definition listing_popup : popup :=
  popup_with_width (popup_with_height (popup_center (popup_middle (popup_with_block new_popup (block_build [Block_WithBorderSides []; Block_Thick; Block_WithTitleStr (asc "Popup")] new_block)))) (LLen 3)) (LLen 30).

Section Tolerance.
Context {ar : arith} {tolr : tolerance}.
(** The runs of the solver in one Render: two in popup.Render, two in popup.Inner. *)
Record popup_runs := PopupRuns { pr_rows : run; pr_columns : run; pr_rows' : run; pr_columns' : run }.
(** examples/list/main.go:73-88, for any list, popup and paragraph. No result while the solver is busy. *)
Definition listing_render (u : uniseg) (r : popup_runs) (l : lst) (p : popup) (g : paragraph) (area : rect) (b : buffer) (m : listing) : option (outcome (buffer * listing)) :=
  match list_render u l area b (li_list m) with
  | Panic => Some Panic
  | Ret (b, s) =>
      let m := Listing s (li_popup m) in
      if li_popup m then
        match popup_render u (pr_rows r) (pr_columns r) p area b with
        | None => None
        | Some Panic => Some Panic
        | Some (Ret b) =>
            match popup_inner (pr_rows' r) (pr_columns' r) p area with
            | None => None
            | Some Panic => Some Panic
            | Some (Ret inner) => Some (let! b := paragraph_render u None g inner b in Ret (b, m))
            end
        end
      else Some (Ret (b, m))
  end.
End Tolerance.

(** examples/list/main.go:95-114. The [n]-th message of the input reader is [MUser n]; every other message is none the list or the switch knows. *)
Definition listing_update (ds : list M_Decode.msg) (m : listing) (x : M_Cmd.msg) : option (listing * option cmd) :=
  match x with
  | MUser n =>
      match nth_error ds n with
      | Some d =>
          let (s, known) := list_try_update (li_list m) d in
          let m := Listing s (li_popup m) in
          if known then Some (m, None)
          else match d with
               | KeyMsg k =>
                   let name := key_string k in
                   if bytes_eqb name (asc " ") then Some (Listing s (negb (li_popup m)), None)
                   else if bytes_eqb name (asc "q") || bytes_eqb name (asc "ctrl+c") then Some (m, Some (quit_cmd 0))
                   else Some (m, None)
               | _ => Some (m, None)
               end
      | None => Some (m, None)
      end
  | _ => Some (m, None)
  end.
