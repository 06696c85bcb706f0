(** C31: blocks. *)
From Verif Require Import Base P_Base M_Geom S_Geom T_Geom M_Style M_Uniseg M_Buffer S_Buffer P_Buffer P_SetString T_Buffer M_Text P_Text T_Text P_Redraw M_Block S_Block P_Block.
From Coq Require Import ZArith NArith List Bool Lia.
Import ListNotations.
Open Scope Z_scope.

(** Padding as the library's constructors are meant to be used: no negative side. *)
Definition padded (k : block) : Prop :=
  0 <= ptop (bk_padding k) /\ 0 <= pright (bk_padding k) /\ 0 <= pbottom (bk_padding k) /\ 0 <= pleft (bk_padding k).

(** The area for the content lies inside the block and holds no cell of a drawn side nor of a row with a title. *)
Theorem C31_inner_excludes_decoration k area p : sized area -> padded k -> inside p (block_inner k area) ->
  inside p area /\
  frame_at (N.testbit (bk_borders k) 3) (N.testbit (bk_borders k) 0) (N.testbit (bk_borders k) 1) (N.testbit (bk_borders k) 2)
    (the_frame (bk_set k)) area p = None /\
  (forall t, In t (bk_titles k) ->
     py p <> match (match ti_pos t with Some q => q | None => bk_titles_pos k end) with
             | TitleTop => ry area | TitleBottom => ry area + rh area - 1 end).
Proof.
  intros Hs (P1 & P2 & P3 & P4) Hp. destruct (block_inner_in k area p Hs P1 P2 P3 P4 Hp) as (I & L & R & T & B).
  split; [exact I|]. fold (has_left k) (has_top k) (has_right k) (has_bottom k). split.
  - unfold frame_at. destruct (has_left k), (has_right k), (has_top k), (has_bottom k); cbn [andb orb] in *;
    repeat match goal with H : true = true -> _ |- _ => specialize (H eq_refl) end;
    destruct (Z.eqb_spec (px p) (rx area)), (Z.eqb_spec (px p) (rx area + rw area - 1)), (Z.eqb_spec (py p) (ry area)), (Z.eqb_spec (py p) (ry area + rh area - 1));
    cbn [andb]; try contradiction; destruct (negb _); reflexivity.
  - intros t Ht. change (match ti_pos t with Some q => q | None => bk_titles_pos k end) with (title_pos k t).
    assert (Hh : has_title_at k (title_pos k t) = true).
    { apply existsb_exists. exists t. split; [auto|]. now destruct (title_pos k t). }
    destruct (title_pos k t); [apply T|apply B]; rewrite Hh; apply orb_true_r.
Qed.
Print Assumptions C31_inner_excludes_decoration.

(** The content area is the block's area without its borders, title rows and padding, and nothing else is taken away. *)
Theorem C31_inner_exact k area p : sized area -> padded k ->
  let margin (c : bool) := if c then 1 else 0 in
  let titled q := existsb (fun t => match (match ti_pos t with Some q => q | None => bk_titles_pos k end), q with
                                    | TitleTop, TitleTop | TitleBottom, TitleBottom => true | _, _ => false end) (bk_titles k) in
  inside p (block_inner k area) <->
    rx area + margin (N.testbit (bk_borders k) 3) + pleft (bk_padding k) <= px p
      < rx area + rw area - margin (N.testbit (bk_borders k) 1) - pright (bk_padding k) /\
    ry area + margin (N.testbit (bk_borders k) 0 || titled TitleTop) + ptop (bk_padding k) <= py p
      < ry area + rh area - margin (N.testbit (bk_borders k) 2 || titled TitleBottom) - pbottom (bk_padding k).
Proof.
  intros [Hw Hh] (P1 & P2 & P3 & P4) margin titled. unfold block_inner.
  fold (has_left k) (has_top k) (has_right k) (has_bottom k).
  rewrite i_top, i_right, i_bottom, i_left.
  change (has_title_at k TitleTop) with (titled TitleTop). change (has_title_at k TitleBottom) with (titled TitleBottom).
  unfold margin, inside, with_width, with_height, rright, rbottom.
  destruct (has_left k), (has_top k || titled TitleTop), (has_right k), (has_bottom k || titled TitleBottom); cbn [rx ry rw rh]; lia.
Qed.
Print Assumptions C31_inner_exact.

(** Drawing the border writes exactly the drawn sides and corners, each with its symbol and the border style. *)
Theorem C31_border_exact k area b : wf_buffer b -> 0 < rw area -> 0 < rh area -> (forall p, inside p area -> inside p (barea b)) ->
  exists b', render_borders k area b = Ret b' /\ barea b' = barea b /\
    forall p, look b' p = option_map (framed
      (frame_at (N.testbit (bk_borders k) 3) (N.testbit (bk_borders k) 0) (N.testbit (bk_borders k) 1) (N.testbit (bk_borders k) 2)
         (the_frame (bk_set k)) area p) (bk_border_style k)) (look b p).
Proof.
  intros W Hw Hh Hin. destruct (render_borders_ok k area b W Hw Hh Hin) as (b' & E & (A & _ & L)). exists b'. auto.
Qed.
Print Assumptions C31_border_exact.

(** Rendering a block into an area inside the buffer returns and changes only cells of the area; in the content area only
    the block's own style is applied. *)
Theorem C31_render_stays_inside u k area b : uniseg_ok u -> wf_buffer b -> sized area -> 0 <= rx area -> padded k ->
  (forall p, inside p area -> inside p (barea b)) ->
  exists b', block_render u k area b = Ret b' /\ changed_only (fun p => inside p area) b b' /\
    forall p, inside p (block_inner k area) -> look b' p = option_map (cell_set_style (bk_style k)) (look b p).
Proof.
  intros Hu W Hs Hx Hpad Hin. destruct (block_render_ok u k area b Hu W Hs Hx Hin) as (b' & E & C & L).
  exists b'. split; [exact E|]. split; [exact C|]. intros p Hp.
  destruct (C31_inner_excludes_decoration k area p Hs Hpad Hp) as (I & F & T).
  rewrite L; [|exact I|].
  - unfold block_frame, has_left, has_top, has_right, has_bottom. rewrite F. reflexivity.
  - intros [[Ht Hq]|[Ht Hq]]; apply existsb_exists in Ht; destruct Ht as (t & Hin' & Ht); specialize (T t Hin');
    change (match ti_pos t with Some q => q | None => bk_titles_pos k end) with (title_pos k t) in T;
    destruct (title_pos k t); try discriminate; unfold titles_area, inside, rtop, rbottom in Hq; cbn [rx ry rw rh] in Hq; lia.
Qed.
Print Assumptions C31_render_stays_inside.

(** Outside the strips where titles are written, the rendered block is its background style under its frame. *)
Theorem C31_render_frame u k area b : uniseg_ok u -> wf_buffer b -> sized area -> 0 <= rx area ->
  (forall p, inside p area -> inside p (barea b)) ->
  exists b', block_render u k area b = Ret b' /\
    forall p, inside p area ->
      ((py p = ry area /\ has_title_at k TitleTop = true) \/ (py p = ry area + rh area - 1 /\ has_title_at k TitleBottom = true) ->
       (N.testbit (bk_borders k) 3 = true /\ px p = rx area) \/ (N.testbit (bk_borders k) 1 = true /\ px p = rx area + rw area - 1)) ->
      look b' p = option_map (fun c => framed
        (frame_at (N.testbit (bk_borders k) 3) (N.testbit (bk_borders k) 0) (N.testbit (bk_borders k) 1) (N.testbit (bk_borders k) 2)
          (the_frame (bk_set k)) area p) (bk_border_style k) (cell_set_style (bk_style k) c)) (look b p).
Proof.
  intros Hu W Hs Hx Hin. destruct (block_render_ok u k area b Hu W Hs Hx Hin) as (b' & E & C & L).
  exists b'. split; [exact E|]. intros p Hp Ho. apply L; [exact Hp|].
  fold (has_left k) (has_right k) in Ho.
  unfold in_title_strip, titles_area, inside, rleft, rtop, rbottom. rewrite c_left, c_right. cbn [rx ry rw rh].
  unfold inside in Hp. intros [[Ht Hq]|[Ht Hq]];
  (destruct Ho as [[HL Hpx]|[HR Hpx]]; [rewrite Ht; lia|rewrite HL in Hq; lia|rewrite HR in Hq; destruct (has_left k); lia]).
Qed.
Print Assumptions C31_render_frame.

(** An area reaching beyond the buffer is not clipped: a bordered block panics (Render intersects the area with itself). *)
Theorem C31_area_beyond_buffer_refuted : exists u k area b,
  uniseg_ok u /\ wf_buffer b /\ sized area /\ padded k /\ block_render u k area b = Panic.
Proof.
  exists simple_uniseg, (block_with_sides new_block []), (Rect 0 0 4 3), (demo_buffer 3 3).
  split; [apply simple_uniseg_ok|]. split; [split; [split; cbn; lia|reflexivity]|]. split; [split; cbn; lia|].
  split; [repeat split; cbn; lia|]. vm_compute. reflexivity.
Qed.
Print Assumptions C31_area_beyond_buffer_refuted.

(** A bordered block with a title at the top left and one at the bottom right. *)
Definition demo_block : block :=
  block_with_title (block_with_title (block_with_sides new_block []) (Title AlignNone None (new_line_str [97%N; 98%N])))
    (Title AlignRight (Some TitleBottom) (new_line_str [99%N])).
Example C31_example :
  sized (Rect 1 0 6 4) /\ padded demo_block /\ block_inner demo_block (Rect 1 0 6 4) = Rect 2 1 4 2 /\
  (forall p, inside p (Rect 1 0 6 4) -> inside p (barea (demo_buffer 7 4))) /\
  omap symbols (block_render simple_uniseg demo_block (Rect 1 0 6 4) (demo_buffer 7 4)) = Ret
    (map (fun n => [n])
    [32; 9484; 97; 98; 9472; 9472; 9488;
     32; 9474; 32; 32; 32; 32; 9474;
     32; 9474; 32; 32; 32; 32; 9474;
     32; 9492; 9472; 9472; 9472; 99; 9496]%N).
Proof.
  split; [split; cbn; lia|]. split; [repeat split; cbn; lia|]. split; [reflexivity|]. split; [unfold inside; cbn; lia|].
  vm_compute. reflexivity.
Qed.
