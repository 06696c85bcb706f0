(** C98: what a paragraph shows, cell by cell. *)
From Verif Require Import Base M_Geom S_Geom M_Style M_Uniseg M_Buffer S_Buffer M_Text M_Reflow S_Reflow.
From Coq Require Import ZArith NArith List Bool.
Import ListNotations.
Open Scope Z_scope.

Section Shown.
Variable u : uniseg.

(** A grapheme without control characters. *)
Definition printable (c : str) : bool := forallb (fun r => (32 <=? r)%N && ((r <? 127)%N || (160 <=? r)%N)) c.
(** The graphemes of a line of a text, each in the text's style under the line's under the span's. *)
Definition text_of (t : text) (ln : line) : list (str * style) :=
  flat_map (fun s => map (fun c => (c, patched (patched (tx_style t) (ln_style ln)) (sp_style s))) (filter printable (clusters u (sp_content s)))) (ln_spans ln).
(** The columns a run of graphemes takes; the non-blank ones; those that fit a row at all. *)
Definition columns_of (l : list (str * style)) : Z := zsum (map (fun c => cwidth u (fst c)) l).
Definition printed (l : list (str * style)) : list (str * style) := filter (fun c => negb (is_whitespace (fst c))) l.
Definition that_fit (W : Z) (l : list (str * style)) : list (str * style) := filter (fun c => cwidth u (fst c) <=? W) l.
(** No stretch without blanks is wider than [W]. *)
Definition words_within (W : Z) (l : list (str * style)) : Prop :=
  forall pre word post, l = pre ++ word ++ post -> (forall c, In c word -> is_whitespace (fst c) = false) -> columns_of word <= W.

(** The grapheme of the run that starts [o] columns after its beginning. *)
Fixpoint starts_at (l : list (str * style)) (o : Z) : option (str * style) :=
  match l with
  | [] => None
  | c :: l' => if cwidth u (fst c) =? 0 then starts_at l' o else if o =? 0 then Some c else starts_at l' (o - cwidth u (fst c))
  end.
(** Where a row of [w] columns starts in [W] columns; centring rounds both widths down. *)
Definition begins (al : alignment) (W w : Z) : Z := match al with AlignCenter => Z.div W 2 - Z.div w 2 | AlignRight => W - w | _ => 0 end.

(** The alignment of a line: its own, or else the paragraph's. *)
Definition alignment_of (p : paragraph) (ln : line) : alignment := match ln_align ln with AlignNone => pg_align p | a => a end.

(** The area shows these rows, scrolled up by the paragraph's vertical scroll, on the paragraph's style; every cell that is not the start of a grapheme
    keeps what was there. *)
Definition shows (p : paragraph) (area : rect) (rows : list (alignment * list (str * style))) (b b' : buffer) : Prop :=
  barea b' = barea b /\
  forall q, look b' q =
    if contains area q
    then option_map (fun c => let c := cell_set_style (pg_style p) c in
           match nth_error rows (Z.to_nat (py q - ry area + pg_scroll_y p)) with
           | Some (al, l) => match starts_at l (px q - rx area - begins al (rw area) (columns_of l)) with
                             | Some (s, st) => cell_set_style st (cell_set_symbol s c)
                             | None => c
                             end
           | None => c
           end) (look b q)
    else look b q.
End Shown.
