(** C23, C24: lists. *)
From Verif Require Import Base P_Base M_Geom S_Geom T_Geom M_Style M_Uniseg M_Buffer S_Buffer S_Text P_Buffer P_SetString T_Buffer M_Text P_Text T_Text P_Redraw M_Block S_Block P_Block T_Block M_Slice M_List P_List.
From Coq Require Import ZArith NArith List Bool Lia.
Import ListNotations.
Open Scope Z_scope.

(** ** C23 *)

(** The items [f], ..., [l]-1 out of a list of items. *)
Definition slice {A} (l : list A) (f t : Z) : list A := firstn (Z.to_nat (t - f)) (skipn (Z.to_nat f) l).

(** The window computed for a viewport of [max_h] rows is a range of existing items that fits, and it shows the selected
    item whenever that item fits at all, whatever the scroll padding and the previous offset. *)
Theorem C23_window_shows_selection : forall hs padding selected offset max_h,
  hs <> [] -> (forall h, In h hs -> 0 <= h) -> 0 <= max_h -> 0 <= offset -> 0 <= padding ->
  (forall s, selected = Some s -> 0 <= s < zlen hs) ->
  exists f l, get_items_bounds hs padding selected offset max_h = Ret (f, l) /\
    0 <= f <= l /\ l <= zlen hs /\ zsum (slice hs f l) <= max_h /\
    forall s h, selected = Some s -> nth_error hs (Z.to_nat s) = Some h -> h <= max_h -> f <= s < l.
Proof.
  intros hs padding selected offset max_h Hne Hp Hm Ho Hpad Hsel.
  assert (HN : 0 < zlen hs) by (destruct hs; [congruence|rewrite zlen_cons; pose proof (zlen_nonneg hs); lia]).
  destruct (bounds_ok hs max_h Hp Hm padding selected offset HN Ho Hpad Hsel) as (f & l & E & H1 & H2 & H3 & H4 & _).
  exists f, l. split; [exact E|]. split; [exact H1|]. split; [exact H2|]. split; [unfold slice; rewrite psum_range by lia; exact H3|].
  intros s h Es Eh Hh. apply (H4 s Es). specialize (Hsel s Es). pose proof (psum_step hs s Hsel) as Hi.
  unfold index_at in Hi. destruct (s <? 0); [discriminate|]. rewrite Eh in Hi. injection Hi as <-. exact Hh.
Qed.
Print Assumptions C23_window_shows_selection.

(** With nothing selected the window starts at the offset, if the item there fits. *)
Theorem C23_window_keeps_offset : forall hs padding offset max_h h,
  (forall h, In h hs -> 0 <= h) -> 0 <= max_h -> 0 <= offset -> 0 <= padding ->
  nth_error hs (Z.to_nat offset) = Some h -> h <= max_h ->
  exists l, get_items_bounds hs padding None offset max_h = Ret (offset, l) /\ zsum (slice hs offset l) <= max_h.
Proof.
  intros hs padding offset max_h h Hp Hm Ho Hpad Eh Hh.
  assert (HN : offset < zlen hs) by (assert (Z.to_nat offset < length hs)%nat by (apply nth_error_Some; congruence); unfold zlen; lia).
  destruct (bounds_ok hs max_h Hp Hm padding None offset ltac:(lia) Ho Hpad ltac:(discriminate)) as (f & l & E & H1 & H2 & H3 & _ & _ & H4).
  rewrite Z.min_l in H4 by lia. assert (f = offset).
  { apply H4; [reflexivity|]. pose proof (psum_step hs offset ltac:(lia)) as Hi. unfold index_at in Hi. destruct (offset <? 0); [discriminate|].
    rewrite Eh in Hi. injection Hi as <-. exact Hh. }
  subst f. exists l. split; [exact E|]. unfold slice. rewrite psum_range by lia. exact H3.
Qed.
Print Assumptions C23_window_keeps_offset.

Definition opt_padded (k : option block) : Prop := match k with None => True | Some k => padded k end.

Lemma opt_block_ok u k area b : uniseg_ok u -> wf_buffer b -> sized area -> 0 <= rx area -> opt_padded k ->
  (forall p, inside p area -> inside p (barea b)) ->
  exists b', opt_block_render u k area b = Ret b' /\ changed_only (fun p => inside p area) b b' /\
    (forall p, inside p (opt_block_inner k area) -> inside p area) /\ sized (opt_block_inner k area).
Proof.
  intros Hu W Hs Hx Hp Hin. destruct k as [k|]; cbn [opt_block_render opt_block_inner].
  - destruct (C31_render_stays_inside u k area b Hu W Hs Hx Hp Hin) as (b' & E & C & _). exists b'. split; [exact E|]. split; [exact C|].
    split; [|apply block_inner_sized]. intros p Hq. now apply (C31_inner_excludes_decoration k area p).
  - exists b. split; [reflexivity|]. split; [now apply changed_only_refl|]. auto.
Qed.

(** Rendering a list inside the buffer returns, changes only cells of its area, remembers the window's start, and shows the
    selected item - when it fits - completely, highlighted, inside the content area, after the items above it. *)
Theorem C23_list_render : forall u l area b s,
  uniseg_ok u -> wf_buffer b -> sized area -> 0 <= rx area -> opt_padded (ls_block l) -> (forall p, inside p area -> inside p (barea b)) ->
  0 <= ls_padding l -> 0 <= st_offset s -> (forall i, st_selected s = Some i -> 0 <= i) ->
  let A := opt_block_inner (ls_block l) area in
  drawable_in u (ls_hl_symbol l) (rw A) -> drawable_in u (spaces (string_width u (ls_hl_symbol l))) (rw A) ->
  exists b' s', list_render u l area b s = Ret (b', s') /\ changed_only (fun p => inside p area) b b' /\
    (0 < rw A -> 0 < rh A -> ls_items l <> [] ->
     st_selected s' = option_map (Z.min (zlen (ls_items l) - 1)) (st_selected s) /\
     forall i item, st_selected s' = Some i -> nth_error (ls_items l) (Z.to_nat i) = Some item -> text_height item <= rh A ->
       0 <= st_offset s' <= i /\
       let row := item_row (ls_dir l) A (zsum (map text_height (slice (ls_items l) (st_offset s') i))) (text_height item) in
       (forall p, inside p row -> inside p A) /\
       (forall p, inside p row -> exists c, look b' p = Some (cell_set_style (ls_hl_style l) c))).
Proof.
  intros u l area b s Hu W Hs Hx Hk Hin Hpad Hoff Hsel A Hd1 Hd2. unfold list_render.
  destruct (set_style_redrawn b area (ls_style l) W) as (b1 & -> & R1). cbn [bind].
  assert (C1 : changed_only (fun p => inside p area) b b1).
  { eapply redrawn_only; [|exact R1]. intros p c Hp. cbn. apply contains_false in Hp. now rewrite Hp. }
  assert (A1 := redrawn_area _ _ _ R1).
  destruct (opt_block_ok u (ls_block l) area b1 Hu (redrawn_wf _ _ _ R1) Hs Hx Hk ltac:(now rewrite A1)) as (b2 & -> & C2 & HA & SA). cbn [bind].
  pose proof (changed_only_trans _ _ _ _ C1 C2) as C. clear C1 C2 R1 A1 b1. fold A in HA, SA. fold A.
  assert (A2 : barea b2 = barea b) by apply C.
  destruct (rect_is_empty A || (zlen (ls_items l) =? 0)) eqn:Ee.
  { exists b2, s. split; [reflexivity|]. split; [exact C|]. intros Hw Hh Hne. exfalso. apply orb_true_iff in Ee. unfold rect_is_empty in Ee. rewrite orb_true_iff, !Z.eqb_eq in Ee.
    destruct (ls_items l) as [|t ts]; [congruence|]. rewrite zlen_cons in Ee. pose proof (zlen_nonneg ts). lia. }
  apply orb_false_iff in Ee. destruct Ee as [Ee En]. apply not_empty_pos in Ee; [|exact SA]. destruct Ee as [Hw Hh]. apply Z.eqb_neq in En.
  set (N := zlen (ls_items l)) in *. assert (HN : 0 < N) by (unfold N; pose proof (zlen_nonneg (ls_items l)); lia).
  set (s1 := match st_selected s with Some i => if i >=? N then st_select s (Z.max 0 (N - 1)) else s | None => s end).
  assert (S1 : st_offset s1 = st_offset s /\ st_selected s1 = option_map (Z.min (N - 1)) (st_selected s)).
  { unfold s1. destruct (st_selected s) as [i|] eqn:Es; [|now rewrite Es]. rewrite Z.geb_leb. destruct (Z.leb_spec N i); cbn.
    - split; [auto|]. f_equal. lia.
    - rewrite Es. split; [auto|]. f_equal. lia. }
  destruct S1 as [So Ss].
  destruct (C23_window_shows_selection (map text_height (ls_items l)) (ls_padding l) (st_selected s1) (st_offset s1) (rh A)) as (f & k & -> & F1 & F2 & F3 & F4).
  { intros E. apply map_eq_nil in E. unfold N in HN. rewrite E in HN. cbn in HN. lia. }
  { intros h Hh'. apply in_map_iff in Hh'. destruct Hh' as (t & <- & _). apply zlen_nonneg. }
  { lia. } { lia. } { lia. }
  { rewrite zlen_map. fold N. intros i Ei. rewrite Ss in Ei. destruct (st_selected s) as [i0|] eqn:Es; [|discriminate]. cbn in Ei. injection Ei as <-.
    specialize (Hsel i0 eq_refl). lia. }
  cbn [bind st_selected]. rewrite zlen_map in F2. fold N in F2. fold (@slice Z) in F3.
  set (shown := slice (ls_items l) f k).
  assert (Eshown : (let! rest := skip (ls_items l) f in take rest (k - f)) = Ret shown).
  { unfold skip. fold N. rewrite Z.geb_leb. destruct (Z.leb_spec N f) as [Hf|Hf].
    - cbn [bind]. unfold take, shown, slice. rewrite zlen_nil. replace (Z.min (k - f) 0) with 0 by lia. cbn.
      replace (Z.to_nat (k - f)) with O by lia. reflexivity.
    - replace (f <? 0) with false by (symmetry; apply Z.ltb_ge; lia). cbn [bind]. unfold take, shown, slice.
      assert (El : zlen (skipn (Z.to_nat f) (ls_items l)) = N - f) by (unfold zlen in *; rewrite skipn_length; unfold N; lia).
      rewrite El. rewrite Z.min_l by lia. replace (k - f <? 0) with false by (symmetry; apply Z.ltb_ge; lia). reflexivity. }
  destruct (skip (ls_items l) f) as [rest|]; [|discriminate]. cbn [bind] in Eshown |- *. rewrite Eshown. cbn [bind].
  assert (Esum : zsum (map text_height shown) <= rh A).
  { unfold shown. unfold slice in F3. rewrite skipn_map, firstn_map in F3. exact F3. }
  destruct (draw_items_ok u l A (st_selected s1) shown Hu Hw Hd1 Hd2 f 0 b2) as (cur & b3 & -> & C3 & Hl).
  { apply C. } { lia. } { lia. } { intros p Hp. rewrite A2. auto. }
  { rewrite A2. assert (Hc : inside (Pos (rx A + rw A - 1) (ry A)) A) by (unfold inside; cbn; lia). apply HA, Hin in Hc. unfold inside in Hc; cbn in Hc. lia. }
  cbn [bind]. exists b3. eexists. split; [reflexivity|]. split.
  { eapply changed_only_trans; [exact C|]. eapply changed_only_weaken; [|exact C3]. cbn beta. intros p Hp. apply HA.
    assert (0 <= zsum (map text_height shown)) by (apply zsum_nonneg; intros z Hz; apply in_map_iff in Hz; destruct Hz as (t & <- & _); apply zlen_nonneg).
    revert Hp. unfold item_row, inside. destruct (ls_dir l); cbn [rx ry rw rh]; lia. }
  intros _ _ _. cbn [st_selected st_offset]. split; [exact Ss|]. intros i item Ei Eit Hit.
  destruct (F4 i (text_height item) Ei) as [Hfi Hik]; [now apply map_nth_error|exact Hit|]. split; [lia|].
  assert (Enth : nth_error shown (Z.to_nat (i - f)) = Some item).
  { unfold shown, slice. rewrite <- (firstn_skipn (Z.to_nat f) (ls_items l)) in Eit.
    assert (Hlen : length (firstn (Z.to_nat f) (ls_items l)) = Z.to_nat f) by (rewrite firstn_length; unfold N, zlen in F2; lia).
    rewrite nth_error_app2 in Eit by lia. rewrite Hlen in Eit. replace (Z.to_nat i - Z.to_nat f)%nat with (Z.to_nat (i - f)) in Eit by lia.
    rewrite <- (firstn_skipn (Z.to_nat (k - f)) (skipn _ _)) in Eit. rewrite nth_error_app1 in Eit; [exact Eit|].
    rewrite firstn_length, skipn_length. unfold N, zlen in *. lia. }
  assert (Epre : firstn (Z.to_nat (i - f)) shown = slice (ls_items l) f i).
  { unfold shown, slice. rewrite firstn_firstn. f_equal. lia. }
  cbv zeta. split.
  - intros p Hp. assert (Hle : zsum (map text_height (slice (ls_items l) f i)) + text_height item <= rh A).
    { rewrite <- Epre. apply nth_error_split in Enth. destruct Enth as (l1 & l2 & El & Hl1). rewrite El in Esum |- *. rewrite <- Hl1.
      rewrite firstn_app, Nat.sub_diag, firstn_all. cbn [firstn]. rewrite app_nil_r. rewrite map_app, zsum_app in Esum. cbn [map] in Esum. rewrite zsum_cons in Esum.
      assert (0 <= zsum (map text_height l2)) by (apply zsum_nonneg; intros z Hz; apply in_map_iff in Hz; destruct Hz as (t & <- & _); apply zlen_nonneg). lia. }
    assert (0 <= zsum (map text_height (slice (ls_items l) f i))) by (apply zsum_nonneg; intros z Hz; apply in_map_iff in Hz; destruct Hz as (t & <- & _); apply zlen_nonneg).
    revert Hp. unfold item_row, inside. destruct (ls_dir l); cbn [rx ry rw rh]; lia.
  - intros p Hp. apply (Hl (Z.to_nat (i - f)) item); [rewrite Ei; f_equal; lia|exact Enth|]. rewrite Epre. exact Hp.
Qed.
Print Assumptions C23_list_render.

(** SetOffset accepts a negative offset, and the next rendering panics. *)
Theorem C23_negative_offset_refuted : exists hs selected offset max_h,
  hs <> [] /\ (forall h, In h hs -> 0 <= h) /\ 0 <= max_h /\ get_items_bounds hs 0 selected offset max_h = Panic.
Proof.
  exists [1; 1; 1], (Some 1), (-1), 2. split; [discriminate|]. split; [cbn; intuition lia|]. split; [lia|]. vm_compute. reflexivity.
Qed.
Print Assumptions C23_negative_offset_refuted.

Example C23_example : get_items_bounds [1; 2; 1; 3; 1; 1] 1 (Some 4) 0 5 = Ret (3, 6) /\
  get_items_bounds [1; 2; 1; 3; 1; 1] 1 (Some 1) 3 4 = Ret (0, 3) /\
  get_items_bounds [1; 2; 1; 3; 1; 1] 0 (Some 3) 0 2 = Ret (3, 3).
Proof. vm_compute. auto. Qed.

Definition one_line (s : str) : text := new_text [new_line_str s].
Definition demo_list : lst :=
  Lst (map one_line [[97%N]; [98%N]; [99%N]; [100%N]]) None new_style TopToBottom (reversed new_style) [62%N] false WhenSelected 0.
Example C23_render_example :
  drawable_in simple_uniseg (ls_hl_symbol demo_list) 3 /\ drawable_in simple_uniseg (spaces 1) 3 /\
  (forall p, inside p (Rect 0 0 3 2) -> inside p (barea (demo_buffer 3 2))) /\
  omap (fun r => (symbols (fst r), map cmod (bcells (fst r)), snd r))
    (list_render simple_uniseg demo_list (Rect 0 0 3 2) (demo_buffer 3 2) (ListState 0 (Some 2))) =
  Ret ([[32%N]; [98%N]; [32%N]; [62%N]; [99%N]; [32%N]], [0; 0; 0; 64; 64; 64]%N, ListState 1 (Some 2)).
Proof.
  split; [left; intros c [<-|[]]; reflexivity|]. split; [left; intros c [<-|[]]; reflexivity|].
  split; [unfold inside; cbn; lia|]. vm_compute. reflexivity.
Qed.

(** ** C24 *)

(** What a program can do with a list state: navigation calls with [int] arguments, and rendering. *)
Definition is_int (z : Z) : Prop := min_int <= z <= max_int.
Inductive reached : list_state -> Prop :=
| R_new : reached (ListState 0 None)
| R_offset s o : reached s -> reached (st_set_offset s o)
| R_select s i : reached s -> is_int i -> reached (st_select s i)
| R_next s : reached s -> reached (st_select_next s)
| R_previous s : reached s -> reached (st_select_previous s)
| R_first s : reached s -> reached (st_select_first s)
| R_last s : reached s -> reached (st_select_last s)
| R_down s n : reached s -> is_int n -> reached (st_scroll_down s n)
| R_up s n : reached s -> is_int n -> reached (st_scroll_up s n)
| R_unselect s : reached s -> reached (st_unselect s)
| R_key s k : reached s -> reached (fst (st_update s k))
| R_render s u l area b b' s' : reached s -> list_render u l area b s = Ret (b', s') -> reached s'.

Lemma wrap64_int z : is_int (wrap64 z).
Proof. unfold is_int, wrap64, min_int, max_int. pose proof (Z.mod_pos_bound (z - -9223372036854775808) 18446744073709551616 ltac:(lia)). lia. Qed.
Lemma wrap64_id z : is_int z -> wrap64 z = z.
Proof. unfold is_int, wrap64, min_int, max_int. intros H. rewrite Z.mod_small by lia. lia. Qed.

Definition sel_ok (s : list_state) : Prop := forall i, st_selected s = Some i -> 0 <= i <= max_int.
Lemma select_ok s i : is_int i -> sel_ok (st_select s i).
Proof. unfold is_int, min_int. intros H j E. cbn in E. injection E as <-. unfold max_int in *. lia. Qed.

(** What the rendering does to the state. *)
Lemma render_state u l area b s b' s' : list_render u l area b s = Ret (b', s') ->
  (s' = s /\ (rect_is_empty (opt_block_inner (ls_block l) area) = true \/ ls_items l = [])) \/
  (ls_items l <> [] /\ forall i, st_selected s' = Some i -> exists j, st_selected s = Some j /\
     i = if j <? zlen (ls_items l) then j else zlen (ls_items l) - 1).
Proof.
  unfold list_render. destruct (buffer_set_style _ _ _); [|discriminate]. cbn [bind].
  destruct (opt_block_render _ _ _ _); [|discriminate]. cbn [bind].
  destruct (rect_is_empty _) eqn:Ee; cbn [orb].
  { intros E. injection E as _ <-. left. auto. }
  destruct (zlen (ls_items l) =? 0) eqn:En.
  { intros E. injection E as _ <-. left. apply Z.eqb_eq in En. split; [auto|right]. destruct (ls_items l); [auto|]. rewrite zlen_cons in En. pose proof (zlen_nonneg l0). lia. }
  apply Z.eqb_neq in En. intros E. right. split; [intros E0; rewrite E0 in En; now apply En|].
  set (s1 := match st_selected s with Some i => _ | None => s end) in *.
  destruct (get_items_bounds _ _ _ _ _) as [[f k]|]; [|discriminate]. cbn [bind] in E.
  destruct (skip _ _); [|discriminate]. cbn [bind] in E. destruct (take _ _); [|discriminate]. cbn [bind] in E.
  destruct (ofold _ _ _) as [[c b2]|]; [|discriminate]. cbn [bind] in E. injection E as _ <-. cbn [st_selected].
  intros i Ei. unfold s1 in Ei. destruct (st_selected s) as [j|] eqn:Ej; [|congruence]. exists j. split; [reflexivity|].
  rewrite Z.geb_leb in Ei. pose proof (zlen_nonneg (ls_items l)).
  destruct (Z.ltb_spec j (zlen (ls_items l))).
  - replace (zlen (ls_items l) <=? j) with false in Ei by (symmetry; apply Z.leb_gt; lia). congruence.
  - replace (zlen (ls_items l) <=? j) with true in Ei by (symmetry; apply Z.leb_le; lia). cbn in Ei. injection Ei as <-. lia.
Qed.

Lemma reached_ok s : reached s -> sel_ok s.
Proof.
  assert (M : is_int max_int) by (unfold is_int, min_int, max_int; lia).
  assert (Z0 : is_int 0) by (unfold is_int, min_int, max_int; lia).
  assert (K : forall s k, sel_ok s -> sel_ok (fst (st_update s k))).
  { intros s0 k H. destruct k; cbn [st_update fst]; auto; try apply select_ok; try apply wrap64_int; auto.
    all: destruct (st_selected s0) as [i|]; auto; try apply wrap64_int.
    all: pose proof (wrap64_int (i - 1)) as X; unfold is_int, min_int, max_int in *; lia. }
  induction 1; try (apply select_ok; auto using wrap64_int); auto.
  - intros i E. discriminate.
  - destruct (st_selected s); auto using wrap64_int.
  - destruct (st_selected s) as [i|]; auto. pose proof (wrap64_int (i - 1)) as X; unfold is_int, min_int, max_int in *; lia.
  - intros i E. discriminate.
  - destruct (render_state _ _ _ _ _ _ _ H0) as [[-> _]|[Hne R]]; [auto|]. intros i Ei. destruct (R i Ei) as (j & Ej & ->).
    specialize (IHreached j Ej). destruct (Z.ltb_spec j (zlen (ls_items l))); [auto|].
    assert (0 < zlen (ls_items l)) by (destruct (ls_items l); [congruence|]; rewrite zlen_cons; pose proof (zlen_nonneg l0); lia). lia.
Qed.

(** Whatever happened before, the selection a rendering works with denotes an existing item. *)
Theorem C24_selected_exists : forall s u l area b b' s' i, reached s -> list_render u l area b s = Ret (b', s') ->
  rect_is_empty (opt_block_inner (ls_block l) area) = false -> ls_items l <> [] ->
  st_selected s' = Some i -> 0 <= i < zlen (ls_items l).
Proof.
  intros s u l area b b' s' i Hr E Hne Hni Ei. pose proof (reached_ok s Hr) as Hok.
  destruct (render_state _ _ _ _ _ _ _ E) as [[_ [H|H]]|[_ R]]; [congruence|congruence|].
  destruct (R i Ei) as (j & Ej & ->). specialize (Hok j Ej).
  assert (0 < zlen (ls_items l)) by (destruct (ls_items l); [congruence|]; rewrite zlen_cons; pose proof (zlen_nonneg l0); lia).
  destruct (Z.ltb_spec j (zlen (ls_items l))); lia.
Qed.
Print Assumptions C24_selected_exists.

(** The item a state selects in a list of [n] items (what the next rendering uses, see C23_list_render). *)
Definition selects (n : Z) (s : list_state) : option Z := option_map (Z.min (n - 1)) (st_selected s).

(** From a selection inside the list (as every rendering leaves it), moving goes by exactly the requested amount and stops
    at the ends; without a selection, next starts at the first item and previous at the last. *)
Theorem C24_moves_exactly : forall n o i, 0 <= i < n -> n <= max_int ->
  let s := ListState o (Some i) in
  selects n s = Some i /\
  selects n (st_select_next s) = Some (Z.min (n - 1) (i + 1)) /\
  selects n (st_select_previous s) = Some (Z.max 0 (i - 1)) /\
  selects n (st_select_first s) = Some 0 /\
  selects n (st_select_last s) = Some (n - 1) /\
  (forall k, 0 <= k -> i + k <= max_int -> selects n (st_scroll_down s k) = Some (Z.min (n - 1) (i + k))) /\
  (forall k, 0 <= k <= max_int -> selects n (st_scroll_up s k) = Some (Z.max 0 (i - k))) /\
  selects n (st_select_next (ListState o None)) = Some 0 /\
  selects n (st_select_previous (ListState o None)) = Some (n - 1) /\
  selects n (st_unselect s) = None.
Proof.
  intros n o i Hi Hn s. unfold selects, s, st_select_next, st_select_previous, st_select_first, st_select_last, st_scroll_down, st_scroll_up, st_unselect, st_select.
  cbn [st_selected st_offset option_map].
  assert (I : forall z, - max_int <= z <= max_int -> wrap64 z = z) by (intros z Hz; apply wrap64_id; unfold is_int, min_int, max_int in *; lia).
  unfold max_int in *.
  repeat apply conj; try reflexivity; try (intros k Hk; try intros Hk'); rewrite ?I by lia; try (f_equal; lia).
Qed.
Print Assumptions C24_moves_exactly.

(** Before the next rendering the selection may lie beyond the list: after SelectLast, moving down wraps around to the first
    item, and moving up does not move. *)
Theorem C24_down_after_last_refuted : exists n s, 0 < n /\ reached s /\ selects n s = Some (n - 1) /\
  selects n (st_scroll_down s 1) = Some 0 /\ selects n (st_select_next s) = Some 0.
Proof.
  exists 5, (st_select_last (ListState 0 None)). split; [lia|]. split; [apply R_last, R_new|]. vm_compute. auto.
Qed.
Print Assumptions C24_down_after_last_refuted.
Theorem C24_up_after_last_refuted : exists n s, 1 < n /\ reached s /\ selects n s = Some (n - 1) /\ selects n (st_select_previous s) = Some (n - 1).
Proof.
  exists 5, (st_select_last (ListState 0 None)). split; [lia|]. split; [apply R_last, R_new|]. vm_compute. auto.
Qed.
Print Assumptions C24_up_after_last_refuted.

(** Keys move as their bindings say. *)
Theorem C24_keys : forall n o i, 0 <= i < n -> n <= max_int - 8 ->
  let s := ListState o (Some i) in
  let after k := selects n (fst (st_update s k)) in
  after KJ = Some (Z.min (n - 1) (i + 1)) /\ after KDown = after KJ /\
  after KK = Some (Z.max 0 (i - 1)) /\ after KUp = after KK /\
  after KLowerG = Some 0 /\ after KUpperG = Some (n - 1) /\
  after KCtrlD = Some (Z.min (n - 1) (i + 8)) /\ after KCtrlU = Some (Z.max 0 (i - 8)) /\ after KOther = Some i.
Proof.
  intros n o i Hi Hn s after. destruct (C24_moves_exactly n o i Hi ltac:(lia)) as (H0 & H1 & H2 & H3 & H4 & H5 & H6 & _).
  unfold after, s; cbn [st_update fst].
  split; [exact H1|]. split; [reflexivity|]. split; [exact H2|]. split; [reflexivity|]. split; [exact H3|]. split; [exact H4|].
  split; [apply H5; unfold max_int in *; lia|]. split; [apply H6; unfold max_int in *; lia|exact H0].
Qed.
Print Assumptions C24_keys.

Example C24_example : reached (fst (st_update (st_select_next (ListState 0 None)) KCtrlD)) /\
  selects 5 (fst (st_update (st_select_next (ListState 0 None)) KCtrlD)) = Some 4.
Proof. split; [apply R_key, R_next, R_new|reflexivity]. Qed.
