(** Model of widget/textwidget: spans, lines, texts. *)
From Verif Require Import Base M_Geom M_Style M_Uniseg M_Buffer.
From Coq Require Import ZArith NArith List Bool.
Import ListNotations.
Open Scope Z_scope.

(** alignment.go:3-10 *)
Inductive alignment := AlignNone | AlignLeft | AlignCenter | AlignRight.

(** span.go:13-16 *)
Record span := Span { sp_style : style; sp_content : str }.
(** line.go:95-99 *)
Record line := Line { ln_style : style; ln_spans : list span; ln_align : alignment }.
(** text.go:9-13 *)
Record text := Text { tx_style : style; tx_lines : list line; tx_align : alignment }.

(** span.go:18-23 *)
Definition new_span (s : str) : span := Span new_style s.
(** line.go:101-107 *)
Definition new_line (spans : list span) : line := Line new_style spans AlignNone.
(** text.go:21-27 *)
Definition new_text (lines : list line) : text := Text new_style lines AlignNone.

(** unicode.IsControl: category Cc *)
Definition is_control (r : N) : bool := (r <? 32)%N || ((127 <=? r)%N && (r <? 160)%N).

(** span.go:87-109: clusters containing a control character are dropped *)
Definition styled_graphemes (u : uniseg) (base : style) (s : span) : list (str * style) :=
  map (fun c => (c, patched base (sp_style s)))
      (filter (fun c => negb (existsb is_control c)) (clusters u (sp_content s))).

(** span.go:39-41 *)
Definition span_width (u : uniseg) (s : span) : Z := string_width u (sp_content s).
(** line.go:279-287 *)
Definition line_width (u : uniseg) (l : line) : Z := zsum (map (span_width u) (ln_spans l)).

(** span.go:55-84: the loop; [first] is [i == 0] *)
Fixpoint span_loop (u : uniseg) (area : rect) (y : Z) (gs : list (str * style)) (first : bool) (x : Z) (b : buffer) : outcome buffer :=
  match gs with
  | [] => Ret b
  | (sym, st) :: gs' =>
      let w := string_width u sym in
      let next := x + w in
      if next >? rright area then Ret b
      else
        let! b1 :=
          (if first then upd_cell b (Pos x y) (fun c => cell_set_style st (cell_set_symbol sym c))
           else if x =? rx area then upd_cell b (Pos x y) (fun c => cell_set_style st (cell_append_symbol sym c))
           else if w =? 0 then upd_cell b (Pos (x - 1) y) (fun c => cell_set_style st (cell_append_symbol sym c))
           else upd_cell b (Pos x y) (fun c => cell_set_style st (cell_set_symbol sym c))) in
        let! b2 := ofold (fun b x' => upd_cell b (Pos x' y) cell_reset) (zrange (x + 1) next) b1 in
        span_loop u area y gs' false next b2
  end.

(** span.go:47-85 *)
Definition span_render (u : uniseg) (s : span) (area : rect) (b : buffer) : outcome buffer :=
  let area := intersection area (barea b) in
  if rect_is_empty area then Ret b
  else span_loop u area (ry area) (styled_graphemes u new_style s) true (rx area) b.

(** span.go:43-45 *)
Definition span_print (u : uniseg) (s : span) (b : buffer) (x y max_width : Z) : outcome (buffer * (Z * Z)) :=
  set_string_n u b x y (sp_content s) max_width (sp_style s).

(** span.go:173-200: the loop over first graphemes. FirstGraphemeClusterInString on the rest of a string, started with
    the state left by the previous call, continues the segmentation of the whole string, so the loop runs over
    [clusters s]; on an empty rest it reports width 0, which ends the loop as well. *)
Fixpoint truncate_loop (u : uniseg) (cl : list str) (current max_width : Z) : str * Z :=
  match cl with
  | [] => ([], 0)
  | c :: cl' =>
      let w := cwidth u c in
      if w =? 0 then ([], 0)
      else if current - w <=? max_width then (concat cl', string_width u (concat cl'))
      else truncate_loop u cl' (current - w) max_width
  end.
Definition truncate_start (u : uniseg) (s : str) (max_width : Z) : str * Z :=
  let current := string_width u s in
  if current <=? max_width then (s, current)
  else truncate_loop u (clusters u s) current max_width.

(** span.go:124-128 *)
Record span_after := SpanAfter { sa_span : span; sa_width : Z; sa_offset : Z }.

(** span.go:130-171 *)
Fixpoint spans_after_width (u : uniseg) (spans : list span) (skip : Z) : list span_after :=
  match spans with
  | [] => []
  | s :: spans' =>
      let w := span_width u s in
      if skip >=? w then spans_after_width u spans' (Z.max 0 (skip - w))
      else
        let available := Z.max 0 (w - skip) in
        if w <=? available then SpanAfter s w 0 :: spans_after_width u spans' 0
        else
          let (content, actual) := truncate_start u (sp_content s) available in
          SpanAfter (Span (sp_style s) content) actual (Z.max 0 (available - actual)) :: spans_after_width u spans' 0
  end.

(** span.go:112-121: the loop *)
Fixpoint render_items (u : uniseg) (items : list span_after) (area : rect) (b : buffer) : outcome buffer :=
  match items with
  | [] => Ret b
  | it :: items' =>
      let area := indent_x area (sa_offset it) in
      if rect_is_empty area then Ret b
      else
        let! b' := span_render u (sa_span it) area b in
        render_items u items' (indent_x area (sa_width it)) b'
  end.
(** span.go:111-122 *)
Definition render_spans (u : uniseg) (spans : list span) (area : rect) (b : buffer) (skip : Z) : outcome buffer :=
  render_items u (spans_after_width u spans skip) area b.

(** line.go:214-277 *)
Definition line_render_with (u : uniseg) (l : line) (area : rect) (b : buffer) (parent : alignment) : outcome buffer :=
  let area := intersection area (barea b) in
  if rect_is_empty area then Ret b
  else
    let lw := line_width u l in
    if lw =? 0 then Ret b
    else
      let area := Rect (rx area) (ry area) (rw area) 1 in
      let! b1 := buffer_set_style b (with_width area (Z.min (rw area) lw)) (ln_style l) in
      let al := match ln_align l with AlignNone => parent | a => a end in
      if lw <=? rw area then
        let indent := match al with
                      | AlignLeft | AlignNone => 0
                      | AlignCenter => Z.quot (Z.max 0 (rw area - lw)) 2
                      | AlignRight => Z.max 0 (rw area - lw)
                      end in
        render_spans u (ln_spans l) (indent_x area indent) b1 0
      else
        let skip := match al with
                    | AlignLeft | AlignNone => 0
                    | AlignCenter => Z.quot (Z.max 0 (lw - rw area)) 2
                    | AlignRight => Z.max 0 (lw - rw area)
                    end in
        render_spans u (ln_spans l) area b1 skip.

(** line.go:210-212 *)
Definition line_render (u : uniseg) (l : line) (area : rect) (b : buffer) : outcome buffer :=
  line_render_with u l area b AlignNone.

(** line.go:185-208: Line.Print *)
Fixpoint line_print_loop (u : uniseg) (lst : style) (spans : list span) (b : buffer) (x y rem : Z) : outcome (buffer * (Z * Z)) :=
  match spans with
  | [] => Ret (b, (x, y))
  | s :: spans' =>
      if rem =? 0 then Ret (b, (x, y))
      else
        let! (b', (nx, _)) := set_string_n u b x y (sp_content s) rem (patched lst (sp_style s)) in
        line_print_loop u lst spans' b' nx y (Z.max 0 (rem - Z.max 0 (nx - x)))
  end.
Definition line_print (u : uniseg) (l : line) (b : buffer) (x y max_width : Z) : outcome (buffer * (Z * Z)) :=
  line_print_loop u (ln_style l) (ln_spans l) b x y max_width.

(** text.go:70-83: lines and rows are walked in step, stopping at the shorter *)
Fixpoint text_loop (u : uniseg) (lines : list line) (rws : list rect) (al : alignment) (b : buffer) : outcome buffer :=
  match lines, rws with
  | l :: lines', r :: rws' => let! b' := line_render_with u l r b al in text_loop u lines' rws' al b'
  | _, _ => Ret b
  end.
Definition text_render (u : uniseg) (t : text) (area : rect) (b : buffer) : outcome buffer :=
  let area := intersection area (barea b) in
  let! b1 := buffer_set_style b area (tx_style t) in
  text_loop u (tx_lines t) (rows area) (tx_align t) b1.

(** ** Splitting into lines *)

(** UTF-8 length of a code point *)
Definition utf8_len (r : N) : Z := if (r <? 128)%N then 1 else if (r <? 2048)%N then 2 else if (r <? 65536)%N then 3 else 4.
Definition byte_len (s : str) : Z := zsum (map utf8_len s).

(** bufio.ScanLines drops one trailing carriage return *)
Definition drop_cr (s : str) : str :=
  match rev s with 13%N :: t => rev t | _ => s end.

(** The pieces between newlines; a trailing newline starts no further piece. *)
Fixpoint raw_lines (s : str) (acc : str) : list str :=
  match s with
  | [] => match acc with [] => [] | _ => [rev acc] end
  | r :: s' => if (r =? 10)%N then rev acc :: raw_lines s' [] else raw_lines s' (r :: acc)
  end.

(** bufio.Scanner with the default buffer: a line of 64 KiB or more stops the scan (the error is not looked at). *)
Definition max_token : Z := 65536.
Fixpoint short_lines (l : list str) : list str :=
  match l with
  | [] => []
  | s :: l' => if byte_len s <? max_token then s :: short_lines l' else []
  end.
(** bufio.NewScanner(strings.NewReader(s)) with ScanLines: all tokens *)
Definition scan_lines (s : str) : list str := map drop_cr (short_lines (raw_lines s [])).

(** line.go:109-121 *)
Definition new_line_str (s : str) : line := new_line (map new_span (scan_lines s)).

Fixpoint join (sep : str) (l : list str) : str :=
  match l with
  | [] => []
  | [s] => s
  | s :: l' => s ++ sep ++ join sep l'
  end.

(** line.go:19-37 *)
Definition new_lines_str (l : list str) : list line :=
  match join [10%N] l with
  | [] => [new_line_str []]
  | s => map new_line_str (scan_lines s)
  end.
(** text.go:15-19 *)
Definition new_text_str (s : str) : text := new_text (new_lines_str [s]).

(** line.go:123-133 *)
Definition line_string (l : line) : str := concat (map sp_content (ln_spans l)).
(** line.go:39-53 *)
Definition lines_string (l : list line) : str := join [10%N] (map line_string l).
(** text.go:85-87 *)
Definition text_string (t : text) : str := lines_string (tx_lines t).
