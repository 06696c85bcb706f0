(** What key presses do to the selection of a list, and programs with a list. *)
From Verif Require Import Base M_Geom M_Style M_Uniseg M_Buffer M_Utf8 M_KeyTable M_Decode M_Block M_List M_Listing M_Backend M_Cmd S_Stateful.
From Coq Require Import ZArith NArith List Bool.
Import ListNotations.
Open Scope Z_scope.

(** The selection of a list of [n] items: moved by [k] items and stopped at the ends. *)
Definition moved (n k i : Z) : option Z := Some (Z.max 0 (Z.min (n - 1) (i + k))).
(** Down and j go to the next item, up and k to the one before, g and G to the first and the last one, Ctrl+D and Ctrl+U eight items on and back. With
    nothing selected, down begins at the first item, up at the last one, and the jumps count from the first one. Everything else does nothing. *)
Definition pressed (n : Z) (m : M_Decode.msg) (sel : option Z) : option Z :=
  match m with
  | KeyMsg (Key ty rs false false) =>
      let typed c := (ty =? KeyRunes) && bytes_eqb rs [c] in
      let from i := match sel with Some j => j | None => i end in
      if (ty =? KeyDown) || typed 106%N then moved n 1 (from (-1))
      else if (ty =? KeyUp) || typed 107%N then moved n (-1) (from n)
      else if typed 103%N then Some 0
      else if typed 71%N then Some (n - 1)
      else if ty =? KeyCtrlD then moved n 8 (from 0)
      else if ty =? KeyCtrlU then moved n (-8) (from 0)
      else sel
  | _ => sel
  end.
Definition selection_after (n : Z) (ms : list M_Decode.msg) : option Z := fold_left (fun sel m => pressed n m sel) ms None.

(** States that the methods and keys lead to: neither the offset nor the selection is negative (only SetOffset can break this, see C23). *)
Definition usable (s : list_state) : Prop := 0 <= st_offset s /\ forall i, st_selected s = Some i -> 0 <= i.

(** A program that draws the list [l] in the part [place] of its frame, with whatever [before] has drawn below it, and hands the reader's messages (the
    [k]-th one is [MUser k] to the runner) to the list's TryUpdate. Render keeps the state that drawing the list leaves. *)
Record has_list {M : Type} (u : uniseg) (ds : list M_Decode.msg) (l : lst) (place : rect -> rect) (before : M -> widget) (state_of : M -> list_state)
  (update : M -> M_Cmd.msg -> option (M * option cmd)) (redrawn : M -> Z * Z -> M) (view : M -> widget) : Prop := {
  hl_key : forall m n d m' c, nth_error ds n = Some d -> update m (MUser n) = Some (m', c) -> state_of m' = fst (list_try_update (state_of m) d);
  hl_other : forall m x m' c, (forall n, x = MUser n -> (length ds <= n)%nat) -> update m x = Some (m', c) -> state_of m' = state_of m;
  hl_view : forall m area b, view m area b = let! b := before m area b in let! (b, _) := list_render u l (place area) b (state_of m) in Ret b;
  hl_drawn : forall m w h b b' s', usable (state_of m) -> 0 <= w -> 0 <= h -> list_render u l (place (new_rect w h)) b (state_of m) = Ret (b', s') -> state_of (redrawn m (w, h)) = s' }.
(** The list has at least one cell to be drawn in. *)
Definition has_room (l : lst) (place : rect -> rect) (size : Z * Z) : Prop :=
  let A := opt_block_inner (ls_block l) (place (new_rect (fst size) (snd size))) in 0 < rw A /\ 0 < rh A.
