(** Model of internal/reflow, internal/grapheme and the text part of widget/paragraphwidget. *)
From Verif Require Import Base M_Geom M_Style M_Uniseg M_Buffer M_Text.
From Coq Require Import ZArith NArith List Bool.
Import ListNotations.
Open Scope Z_scope.

(** span.go:202-206 with internal/grapheme/grapheme.go:20-23: a symbol, its stored width and a style *)
Record gr := Gr { g_sym : str; g_width : Z; g_style : style }.
(** The zero value, which Go's [clear] writes into every element of a slice. *)
Definition zero_gr : gr := Gr [] 0 (Style None None ModifierNone ModifierNone).
(** Go [clear(s)] on a slice: the elements are zeroed, the length stays. *)
Definition clear_slice (l : list gr) : list gr := map (fun _ => zero_gr) l.

(** internal/grapheme/grapheme.go:13-18 *)
Definition new_gr (u : uniseg) (s : str) (st : style) : gr := Gr s (string_width u s) st.

(** unicode.IsSpace *)
Definition is_space (r : N) : bool :=
  ((9 <=? r) && (r <=? 13) || (r =? 32) || (r =? 133) || (r =? 160) || (r =? 5760) || ((8192 <=? r) && (r <=? 8202))
   || (r =? 8232) || (r =? 8233) || (r =? 8239) || (r =? 8287) || (r =? 12288))%N.
(** internal/grapheme/grapheme.go:37-56 *)
Definition is_whitespace (s : str) : bool :=
  if str_eqb s [8203%N] then true
  else if forallb is_space s then negb (str_eqb s [160%N]) else false.

(** line.go:150-160 *)
Definition line_graphemes (u : uniseg) (base : style) (l : line) : list gr :=
  flat_map (fun s => map (fun cs => new_gr u (fst cs) (snd cs)) (styled_graphemes u (patched base (ln_style l)) s)) (ln_spans l).

(** reflow.go:18-21 and 12-16 *)
Record input_line := InputLine { il_graphemes : list gr; il_align : alignment }.
Record wrapped_line := WrappedLine { wl_line : list gr; wl_width : Z; wl_align : alignment }.

Definition gr_width (l : list gr) : Z := zsum (map g_width l).

(** ** wrapper.go *)

(** wrapper.go:13-24. Slices are lists: no two of the slices reachable from here share elements that are still read after
    a write through the other, because a line returned by NextLine enters the pool only at the next call. *)
Record wrapper := Wrapper {
  ww_input : list input_line; ww_max : Z; ww_wrapped : list (list gr); ww_align : alignment;
  ww_current : list gr; ww_trim : bool; ww_word : list gr; ww_pool : list (list gr)
}.

(** wrapper.go:26-38 *)
Definition new_word_wrapper (lines : list input_line) (max : Z) (trim : bool) : wrapper :=
  Wrapper lines max [] AlignLeft [] trim [] [].

(** The local variables of processInput (wrapper.go:41-53) with the fields it changes. *)
Record wstate := WState {
  ws_line : list gr; ws_line_w : Z;      (* pendingLine, lineWidth *)
  ws_word : list gr; ws_word_w : Z;      (* ww.pendingWord, wordWidth *)
  ws_space : list gr; ws_space_w : Z;    (* ww.pendingWhitespace, whitespaceWidth *)
  ws_prev : bool;                        (* nonWhitespacePrevious *)
  ws_out : list (list gr)                (* ww.wrappedLines *)
}.

(** wrapper.go:75-91: moving the pending word to the line *)
Definition flush (trim : bool) (s : wstate) : wstate :=
  let keep := negb (zlen (ws_line s) =? 0) || negb trim in
  let line := if keep then ws_line s ++ ws_space s else ws_line s in
  let line_w := if keep then ws_line_w s + ws_space_w s else ws_line_w s in
  WState (line ++ ws_word s) (line_w + ws_word_w s) (clear_slice (ws_word s)) 0 [] 0 (ws_prev s) (ws_out s).

(** wrapper.go:104-120: dropping the white space that fits the rest of the line *)
Fixpoint drop_space (sp : list gr) (w rem : Z) : list gr * Z :=
  match sp with
  | [] => ([], w)
  | g :: sp' => if g_width g >? rem then (sp, w) else drop_space sp' (w - g_width g) (rem - g_width g)
  end.

(** wrapper.go:96-125: starting a new line when the current one is full *)
Definition break_line (max : Z) (s : wstate) : wstate :=
  let (sp, w) := drop_space (ws_space s) (ws_space_w s) (Z.max 0 (max - ws_line_w s)) in
  WState (clear_slice (ws_line s)) 0 (ws_word s) (ws_word_w s) sp w (ws_prev s) (ws_out s ++ [ws_line s]).

(** wrapper.go:59-137: the loop body *)
Definition wrap_step (max : Z) (trim : bool) (s : wstate) (g : gr) : wstate :=
  let ws := is_whitespace (g_sym g) in
  let w := g_width g in
  if w >? max then s
  else
    let word_found := ws_prev s && ws in
    let empty := zlen (ws_line s) =? 0 in
    let trimmed := empty && trim && (ws_word_w s + w >? max) in
    let space_over := empty && trim && (ws_space_w s + w >? max) in
    let untrimmed := empty && negb trim && (ws_word_w s + ws_space_w s + w >? max) in
    let s1 := if word_found || trimmed || space_over || untrimmed then flush trim s else s in
    let full := (ws_line_w s1 >=? max) || ((w >? 0) && (ws_line_w s1 + ws_space_w s1 + ws_word_w s1 >=? max)) in
    let s2 := if full then break_line max s1 else s1 in
    if full && ws && (zlen (ws_space s2) =? 0) then s2
    else if ws then
      WState (ws_line s2) (ws_line_w s2) (ws_word s2) (ws_word_w s2) (ws_space s2 ++ [g]) (ws_space_w s2 + w) false (ws_out s2)
    else
      WState (ws_line s2) (ws_line_w s2) (ws_word s2 ++ [g]) (ws_word_w s2 + w) (ws_space s2) (ws_space_w s2) true (ws_out s2).

(** wrapper.go:139-157: after the loop; the result is the wrapped lines, the pending word and the line returned to the pool.
    [cap(pendingLine) > 0] holds only of non-empty lines here (appending nothing to a nil slice leaves it nil), so the
    [else if] of line 152 never returns anything to the pool. *)
Definition wrap_end (trim : bool) (s : wstate) : list (list gr) * list gr :=
  let out1 := if (zlen (ws_line s) =? 0) && (zlen (ws_word s) =? 0) && negb (zlen (ws_space s) =? 0) then ws_out s ++ [[]] else ws_out s in
  let line := (if negb (zlen (ws_line s) =? 0) || negb trim then ws_line s ++ ws_space s else ws_line s) ++ ws_word s in
  let out2 := if negb (zlen line =? 0) then out1 ++ [line] else out1 in
  let out3 := if zlen out2 =? 0 then out2 ++ [[]] else out2 in
  (out3, clear_slice (ws_word s)).

(** wrapper.go:40-158; the pool is a stack *)
Definition process_input (ww : wrapper) (symbols : list gr) (inputs : list input_line) (al : alignment) : wrapper :=
  let (line, pool) := match rev (ww_pool ww) with [] => ([], []) | l :: r => (l, rev r) end in
  let s0 := WState (clear_slice line) 0 (clear_slice (ww_word ww)) 0 [] 0 false (ww_wrapped ww) in
  let s := fold_left (wrap_step (ww_max ww) (ww_trim ww)) symbols s0 in
  let (out, word) := wrap_end (ww_trim ww) s in
  Wrapper inputs (ww_max ww) out al (ww_current ww) (ww_trim ww) word pool.

(** wrapper.go:160-167; [cap(cache) > 0] holds of the non-empty lines *)
Definition replace_current (ww : wrapper) (line : list gr) (rest : list (list gr)) : wrapper :=
  Wrapper (ww_input ww) (ww_max ww) rest (ww_align ww) line (ww_trim ww) (ww_word ww)
          (if zlen (ww_current ww) =? 0 then ww_pool ww else ww_pool ww ++ [ww_current ww]).

(** wrapper.go:175-201: the loop *)
Fixpoint wrap_next (inputs : list input_line) (ww : wrapper) : option (wrapped_line * wrapper) :=
  match ww_wrapped ww with
  | line :: rest => Some (WrappedLine line (gr_width line) (ww_align ww), replace_current ww line rest)
  | [] => match inputs with
          | [] => None
          | i :: inputs' => wrap_next inputs' (process_input ww (il_graphemes i) inputs' (il_align i))
          end
  end.
(** wrapper.go:170-202 *)
Definition wrapper_next (ww : wrapper) : option (wrapped_line * wrapper) :=
  if ww_max ww =? 0 then None else wrap_next (ww_input ww) ww.

(** ** truncator.go *)

(** truncator.go:12-17 *)
Record truncator := Truncator { lt_input : list input_line; lt_max : Z; lt_current : list gr; lt_offset : Z }.

(** truncator.go:98-116 *)
Fixpoint trim_offset_loop (u : uniseg) (cl : list str) (offset : Z) : str :=
  match cl with
  | [] => []
  | c :: cl' => if cwidth u c >? offset then concat cl else trim_offset_loop u cl' (offset - cwidth u c)
  end.
Definition trim_offset (u : uniseg) (s : str) (offset : Z) : str := trim_offset_loop u (clusters u s) offset.

(** truncator.go:52-80: the inner loop over one line; state: current line, its width, remaining horizontal offset *)
Fixpoint trunc_line (u : uniseg) (max : Z) (al : alignment) (gs : list gr) (cur : list gr) (w off : Z) : list gr * Z * Z :=
  match gs with
  | [] => (cur, w, off)
  | g :: gs' =>
      if g_width g >? max then trunc_line u max al gs' cur w off
      else if w + g_width g >? max then (cur, w, off)
      else
        let '(sym, off') :=
          if (off =? 0) || negb (match al with AlignLeft => true | _ => false end) then (g_sym g, off)
          else if g_width g >? off then (trim_offset u (g_sym g) off, 0)
          else ([], off - g_width g) in
        trunc_line u max al gs' (cur ++ [new_gr u sym (g_style g)]) (w + string_width u sym) off'
  end.
(** truncator.go:44-81: the outer loop over the remaining lines *)
Fixpoint trunc_lines (u : uniseg) (max : Z) (lines : list input_line) (al : alignment) (cur : list gr) (w off : Z) : list gr * Z * alignment :=
  match lines with
  | [] => (cur, w, al)
  | l :: lines' =>
      let '(cur', w', off') := trunc_line u max (il_align l) (il_graphemes l) cur w off in
      trunc_lines u max lines' (il_align l) cur' w' off'
  end.
(** truncator.go:33-96; after the loop lastIndex is the index of the last line, so no line is left *)
Definition truncator_next (u : uniseg) (lt : truncator) : option (wrapped_line * truncator) :=
  if lt_max lt =? 0 then None
  else
    let '(cur, w, al) := trunc_lines u (lt_max lt) (lt_input lt) AlignLeft (clear_slice (lt_current lt)) 0 (lt_offset lt) in
    match lt_input lt with
    | [] => None
    | _ => Some (WrappedLine cur w al, Truncator [] (lt_max lt) cur (lt_offset lt))
    end.

(** ** paragraph.go *)

(** paragraph.go:177-188 *)
Definition line_offset (lw tw : Z) (al : alignment) : outcome Z :=
  match al with
  | AlignCenter => Ret (Z.max 0 (Z.quot tw 2 - Z.quot lw 2))
  | AlignLeft => Ret 0
  | AlignRight => Ret (Z.max 0 (tw - lw))
  | AlignNone => Panic
  end.

(** paragraph.go:145-166: drawing one composed line from column [x] of row [y] *)
Fixpoint draw_graphemes (gs : list gr) (x y : Z) (b : buffer) : outcome buffer :=
  match gs with
  | [] => Ret b
  | g :: gs' =>
      if g_width g =? 0 then draw_graphemes gs' x y b
      else
        let sym := match g_sym g with [] => [32%N] | s => s end in
        let! b' := upd_cell b (Pos x y) (fun c => cell_set_style (g_style g) (cell_set_symbol sym c)) in
        draw_graphemes gs' (x + g_width g) y b'
  end.

(** paragraph.go:133-175 for a line composer with state [S]; the loop leaves at the latest when y reaches
    area.Height+Scroll.Y, so [fuel] iterations with fuel = max 1 (Height + Scroll.Y) are all of them *)
Fixpoint render_text {S} (next : S -> option (wrapped_line * S)) (fuel : nat) (st : S) (area : rect) (scroll y : Z) (b : buffer) : outcome buffer :=
  match fuel with
  | O => Ret b
  | Datatypes.S fuel' =>
      match next st with
      | None => Ret b
      | Some (l, st') =>
          let! b' :=
            (if y >=? scroll then
               let! x := line_offset (wl_width l) (rw area) (wl_align l) in
               draw_graphemes (wl_line l) (rx area + x) (ry area + y - scroll) b
             else Ret b) in
          if y + 1 >=? rh area + scroll then Ret b' else render_text next fuel' st' area scroll (y + 1) b'
      end
  end.

(** paragraph.go:15-22 without the block *)
Record paragraph := Paragraph { pg_style : style; pg_wrap : option bool; pg_text : text; pg_scroll_x : Z; pg_scroll_y : Z; pg_align : alignment }.

(** paragraph.go:104-117 *)
Definition paragraph_input (u : uniseg) (p : paragraph) : list input_line :=
  map (fun l => InputLine (line_graphemes u (tx_style (pg_text p)) l) (match ln_align l with AlignNone => pg_align p | a => a end)) (tx_lines (pg_text p)).

Definition render_fuel (area : rect) (scroll : Z) : nat := Z.to_nat (Z.max 1 (rh area + scroll)).

(** paragraph.go:95-131 *)
Definition paragraph_render_text (u : uniseg) (p : paragraph) (area : rect) (b : buffer) : outcome buffer :=
  if rect_is_empty area then Ret b
  else
    let! b1 := buffer_set_style b area (pg_style p) in
    match pg_wrap p with
    | Some trim => render_text wrapper_next (render_fuel area (pg_scroll_y p)) (new_word_wrapper (paragraph_input u p) (rw area) trim) area (pg_scroll_y p) 0 b1
    | None => render_text (truncator_next u) (render_fuel area (pg_scroll_y p)) (Truncator (paragraph_input u p) (rw area) [] (pg_scroll_x p)) area (pg_scroll_y p) 0 b1
    end.
