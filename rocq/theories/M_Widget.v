(** Model of the parts of the widgets that put a block around their content. *)
From Verif Require Import Base M_Geom M_Style M_Uniseg M_Buffer M_Text M_Block M_Reflow M_List.
From Coq Require Import ZArith NArith List Bool.
Open Scope Z_scope.

(** paragraph.go:84-93; [k] is the field Block *)
Definition paragraph_render (u : uniseg) (k : option block) (p : paragraph) (area : rect) (b : buffer) : outcome buffer :=
  let! b := buffer_set_style b area (pg_style p) in
  let! b := opt_block_render u k area b in
  paragraph_render_text u p (opt_block_inner k area) b.

(** list.go:182-185: a list drawn without a state gets a new one, which is thrown away *)
Definition list_render_plain (u : uniseg) (l : lst) (area : rect) (b : buffer) : outcome buffer :=
  let! (b, _) := list_render u l area b (ListState 0 None) in Ret b.
