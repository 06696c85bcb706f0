(** C100: programs with a text input that is drawn. *)
From Verif Require Import Base M_Geom S_Geom M_Style M_Uniseg M_Buffer M_Utf8 M_KeyTable M_Decode M_Block M_Input M_Typing M_Backend M_Cmd S_Stateful S_Session.
From Coq Require Import ZArith NArith List Bool.
Import ListNotations.
Open Scope Z_scope.

(** A program that draws the input [i] in the part [place] of its frame, over whatever [before] has drawn, and hands the reader's messages (the [n]-th one is
    [MUser n] to the runner) to the input's TryUpdate. Render keeps the state that drawing the input leaves. It is asked to do so for frames of the sizes in [at_size]. *)
Record has_field {M : Type} (u : uniseg) (ds : list M_Decode.msg) (row_of : rect -> rect) (i : input) (place : rect -> rect) (before : M -> widget) (text_of : M -> input_state)
  (at_size : Z * Z -> Prop) (update : M -> M_Cmd.msg -> option (M * option cmd)) (redrawn : M -> Z * Z -> M) (view : M -> widget) : Prop := {
  hf_key : forall m n d m' c, nth_error ds n = Some d -> update m (MUser n) = Some (m', c) -> exists b, try_update u (text_of m) d = Ret (text_of m', b);
  hf_other : forall m x m' c, (forall n, x = MUser n -> (length ds <= n)%nat) -> update m x = Some (m', c) -> text_of m' = text_of m;
  hf_view : forall m w h, at_size (w, h) -> let area := new_rect w h in
    view m area (blank area) = let! b := before m area (blank area) in let! (b, _) := input_render u row_of i (place area) b (text_of m) in Ret b;
  hf_drawn : forall m w h b b' s', at_size (w, h) -> before m (new_rect w h) (blank (new_rect w h)) = Ret b ->
    input_render u row_of i (place (new_rect w h)) b (text_of m) = Ret (b', s') -> text_of (redrawn m (w, h)) = s' }.

(** The row of the input in a frame of the given size. *)
Definition field_row (row_of : rect -> rect) (i : input) (place : rect -> rect) (size : Z * Z) : rect := row_of (opt_block_inner (ip_block i) (place (new_rect (fst size) (snd size)))).
(** There is a row, it lies inside of the input's block, and has [width] columns: room for the prompt, the cursor and at least one character more. *)
Definition has_row (u : uniseg) (row_of : rect -> rect) (i : input) (place : rect -> rect) (width : Z) (size : Z * Z) : Prop :=
  let row := field_row row_of i place size in
  rw row = width /\ 1 <= rh row /\ string_width u (ip_prompt i) + 2 <= width /\
  forall p, inside p row -> inside p (opt_block_inner (ip_block i) (place (new_rect (fst size) (snd size)))).

(** Keystrokes: a message brings at most one character, one that can be drawn; and is neither Ctrl+E (see C26) nor Ctrl+W (see C25). *)
Definition keystroke (A : str -> Prop) (d : M_Decode.msg) : Prop :=
  match d with
  | KeyMsg k => k_type k <> KeyCtrlE /\ k_type k <> KeyCtrlW /\ (length (k_runes k) <= 1)%nat /\ forall c, In c (k_runes k) -> A [c]
  | _ => True
  end.
(** There is a row, it lies inside of the input's block, and has room for the prompt, [n] columns of text and the cursor. *)
Definition fits_row (u : uniseg) (row_of : rect -> rect) (i : input) (place : rect -> rect) (n : Z) (size : Z * Z) : Prop :=
  let row := field_row row_of i place size in
  1 <= rh row /\ string_width u (ip_prompt i) + n + 1 <= rw row /\
  forall p, inside p row -> inside p (opt_block_inner (ip_block i) (place (new_rect (fst size) (snd size)))).
