(** C102: what the program of examples/list shows. *)
From Verif Require Import S_Keys T_Decode T_Stream T_AppRuns T_KeyName P_SetString T_Output.
From Verif Require Import M_Solver M_Layout T_Layout M_Rounded S_Rounded M_Popup T_Popup T_Percent M_View M_View64 T_View64.
From Verif Require Import Base P_Base M_Geom S_Geom T_Geom M_Style M_Uniseg M_Buffer S_Buffer S_Text P_Buffer T_Buffer M_Text S_Line P_Text T_Text M_Block S_Block P_Block T_Block M_Slice M_List P_List T_List S_Items T_Items T_Window M_Utf8 M_KeyTable M_Decode M_Reflow S_Reflow S_Paragraph T_Shown M_Widget M_Input M_Ansi M_Backend
  S_Terminal S_Ansi S_Display S_Command S_Session S_Frame P_Redraw T_Terminal P_Frame T_Frame M_Listing S_Listing T_Listing.
From Verif Require Import M_Cmd M_App P_App P_AppIds P_AppLog P_AppRun P_AppEnd T_App S_Joint T_Joint S_Stateful T_Stateful S_Typed T_Typed T_Sizes T_Listed S_Titles T_Titles M_Options S_Example T_Example M_ExampleList S_ExampleList.
From Coq Require Import ZArith NArith String List Bool Lia.
Import ListNotations.
Open Scope Z_scope.
Local Arguments zlen : simpl never.

Lemma scrolls_scrolled k v : vw_first (scrolls k v) = scrolled k (vw_first v) (vw_selected v).
Proof. reflexivity. Qed.
(** The keys leave the offset of the list alone. *)
Lemma key_offset s d : st_offset (fst (list_try_update s d)) = st_offset s.
Proof. destruct d; try reflexivity. cbn [list_try_update]. destruct (list_key_of k); reflexivity. Qed.
(** The list knows a key by its name exactly if ... the space bar, q and Ctrl+C are none of its keys. *)
Lemma space_name k : one_press k -> key_string k = asc " " <-> space_bar (KeyMsg k) = true.
Proof.
  intros P. assert (Ps : one_press (Key KeySpace [32%N] false false)) by (apply (press_named KeySpace false); [vm_compute; tauto|discriminate]).
  split.
  - intros E. assert (k = Key KeySpace [32%N] false false) as ->; [|reflexivity]. apply C45_names_partial; auto.
  - destruct k as [ty rs alt pa]. cbn [space_bar]. destruct alt; [discriminate|]. destruct pa; [discriminate|]. intros E. apply Z.eqb_eq in E. subst ty. vm_compute. reflexivity.
Qed.
Lemma space_other k : key_string k = asc " " -> list_key_of k = KOther.
Proof. intros E. unfold list_key_of. rewrite E. reflexivity. Qed.

Lemma zsum_all l d : (forall x, In x l -> x = d) -> zsum l = d * zlen l.
Proof. induction l as [|x l IH]; intros H; [change (zsum []) with 0; change (zlen (@nil Z)) with 0; lia|]. rewrite zsum_cons, zlen_cons, IH by (intros; apply H; now right). rewrite (H x) by now left. lia. Qed.
Lemma slice_sum (items : list text) d f i : (forall t, In t items -> text_height t = d) -> 0 <= f <= i -> i <= zlen items -> zsum (map text_height (slice items f i)) = d * (i - f).
Proof.
  intros H Hf Hi. rewrite (zsum_all _ d).
  - unfold slice, zlen in *. rewrite map_length, firstn_length, skipn_length. rewrite Nat.min_l by lia. f_equal. lia.
  - intros x I. apply in_map_iff in I. destruct I as (t & <- & I). apply H. unfold slice in I. rewrite <- (firstn_skipn (Z.to_nat f) items). apply in_or_app. right. rewrite <- (firstn_skipn (Z.to_nat (i - f)) (skipn _ _)). apply in_or_app. now left.
Qed.

Section Program.
Context {ar : arith} {tolr : tolerance}.
Variables (u : uniseg) (te : termenv) (A : str -> Prop).
Hypothesis (He : env_ok u te) (HA : alphabet u A).
Variables (ds : list M_Decode.msg) (l : lst) (k : block) (p : popup) (pk : block) (g : paragraph) (ln : line) (d : Z).
(** The list has a block and items of [d] rows each, from the top, without scroll padding; everything in it can be drawn. *)
Hypothesis (Hlk : ls_block l = Some k) (Hk : block_drawn u te A k) (Hr : nonneg_padding (bk_padding k)) (Hst : showable te (ls_style l)) (Hh : showable te (ls_hl_style l)) (Hy : S_Frame.drawn u A (ls_hl_symbol l))
  (Ht : forall t, In t (ls_items l) -> text_drawn u te A t) (Hd : forall t, In t (ls_items l) -> text_height t = d) (Hd0 : 0 < d) (Hp : ls_padding l = 0) (Hdir : ls_dir l = TopToBottom)
  (Hn : ls_items l <> []) (Hmax : zlen (ls_items l) <= M_Buffer.max_int - 8).
(** So can the popup, which has a block, and the paragraph, which has one line and is neither wrapped nor scrolled. *)
Hypothesis (Hpk : pp_block p = Some pk) (Hpd : block_drawn u te A pk) (Hpr : nonneg_padding (bk_padding pk)) (Hps : showable te (pp_style p)).
Hypothesis (Hgs : showable te (pg_style g)) (Hgt : text_drawn u te A (pg_text g)) (Hgl : tx_lines (pg_text g) = [ln]) (Hgw : pg_wrap g = None) (Hga : pg_align g <> AlignNone) (Hgx : pg_scroll_x g = 0) (Hgy : pg_scroll_y g = 0).
Hypothesis Hone : forall k, In (KeyMsg k) ds -> one_press k.
Let n := zlen (ls_items l).
Let Hu := env_uniseg _ _ He.

(** The listing about to be drawn is this plain viewer. *)
Definition alike (m : listing) (v : viewer) : Prop :=
  usable (li_list m) /\ st_offset (li_list m) = vw_first v /\ vw_first v < n /\ selects n (li_list m) = vw_selected v /\ li_popup m = vw_popup v.
Lemma count_pos : 0 < n.
Proof. unfold n. destruct (ls_items l) as [|t r]; [contradiction|]. rewrite zlen_cons. pose proof (zlen_nonneg r). lia. Qed.
Lemma viewer_range m v : alike m v -> 0 <= vw_first v < n /\ forall i, vw_selected v = Some i -> 0 <= i < n.
Proof.
  intros ((U1 & U2) & O & F & S & _). split; [lia|]. intros i E. rewrite <- S in E. unfold selects in E. destruct (st_selected (li_list m)) as [j|] eqn:Ej; [|discriminate]. cbn in E. injection E as <-. specialize (U2 j eq_refl). pose proof count_pos. lia.
Qed.

(** The list on a frame *)
Definition list_rows (size : Z * Z) : Z := rh (block_inner k (new_rect (fst size) (snd size))) / d.
Lemma list_drawn m v W H : alike m v -> 0 <= W -> 0 <= H -> let frame := new_rect W H in let inner := block_inner k frame in
  widths u (clusters u (ls_hl_symbol l)) <= rw inner -> 0 < rw inner -> d <= rh inner ->
  let v' := scrolls (rh inner / d) v in
  exists b, list_render u l frame (blank frame) (li_list m) = Ret (b, ListState (vw_first v') (vw_selected v')) /\ barea b = frame /\ wf_buffer b /\
    forall q, inside q frame -> look b q = Some (listing_cell u l k d frame (vw_first v') (vw_selected v') q).
Proof.
  intros (U & O & F & S & Pp) HW HH frame inner Hw1 Hw2 Hh1 v'. destruct (viewer_range m v (conj U (conj O (conj F (conj S Pp))))) as [Rf Rs]. pose proof U as [U1 U2].
  assert (Sz : sized frame) by (split; cbn; lia). assert (Wb : wf_buffer (blank frame)) by now apply wf_blank.
  assert (Ei : opt_block_inner (ls_block l) frame = inner) by (rewrite Hlk; reflexivity).
  assert (Bl : blanks_apart u).
  { split; [apply (al_one u A HA), (al_space u A HA)|]. intros c. pose proof (al_apart u A HA (repeat [32%N] c)) as Q. rewrite <- Q.
    - f_equal. clear. induction c as [|c IH]; [reflexivity|]. cbn. now rewrite IH.
    - intros x I. apply repeat_spec in I. subst x. apply (al_space u A HA). }
  assert (Vi : forall item ln0, In item (ls_items l) -> In ln0 (tx_lines item) -> visible_line u (ln_spans ln0)).
  { intros item ln0 I J. apply (drawn_visible u te A _ HA). destruct (Ht item I) as [_ Q]. now apply Q. }
  assert (Mk : forall c, In c (clusters u (ls_hl_symbol l)) -> 1 <= cwidth u c) by (intros c I; rewrite (drawn_narrow u A HA _ Hy c I); lia).
  pose proof (list_cells u l frame (blank frame) (li_list m) Hu Bl Wb Sz ltac:(cbn; lia) ltac:(rewrite Hlk; exact Hr) ltac:(auto) ltac:(lia) U1 U2 Mk Vi) as G. rewrite Ei in G.
  specialize (G Hw1 Hw2 ltac:(lia) Hn). destruct G as (b0 & b' & s' & last & E0 & E & Ea & Es & Eb & F1 & F2 & F3 & F4 & F5 & F6).
  change (option_map (Z.min (zlen (ls_items l) - 1)) (st_selected (li_list m))) with (selects n (li_list m)) in Es. rewrite S in Es.
  rewrite O, Es, Hp in Eb.
  pose proof (C23_equal_items (map text_height (ls_items l)) d (vw_selected v) (vw_first v) (rh inner)) as Q. rewrite zlen_map in Q. fold n in Q.
  specialize (Q ltac:(intros x I; apply in_map_iff in I; destruct I as (t & <- & I); now apply Hd) ltac:(lia) ltac:(intros X; apply map_eq_nil in X; contradiction) ltac:(lia) Rs). cbv zeta in Q.
  rewrite Z.min_l in Q by lia. rewrite Q in Eb. clear Q.
  change (scrolled (rh inner / d) (vw_first v) (vw_selected v)) with (vw_first v') in Eb. set (first := vw_first v') in *.
  assert (Ef : first = st_offset s') by congruence. assert (El : Z.min n (first + rh inner / d) = last) by congruence. clear Eb.
  assert (Es' : s' = ListState first (vw_selected v')) by (destruct s' as [o1 s1]; cbn in Ef, Es |- *; subst; reflexivity).
  exists b'. split; [rewrite E, Es'; reflexivity|]. split; [exact Ea|].
  assert (Wf : wf_buffer b').
  { destruct (C23_list_render u l frame (blank frame) (li_list m) Hu Wb Sz ltac:(cbn; lia) ltac:(rewrite Hlk; exact Hr) ltac:(auto) ltac:(lia) U1 U2) as (b1 & s1 & E1 & C1 & _).
    - left. now apply (drawn_narrow u A HA).
    - left. apply (drawn_narrow u A HA), (drawn_spaces u A HA).
    - rewrite E in E1. injection E1 as <- <-. apply C1. }
  split; [exact Wf|]. subst last. rewrite <- Ef in F1, F5, F6. clear E Ea F3 F4 Wf.
  (* without its items *)
  assert (B0 : forall q, inside q frame -> look b0 q = Some (if contains inner q then cell_set_style (bk_style k) (cell_set_style (ls_style l) empty_cell) else edge_cell u k frame q (cell_set_style (ls_style l) empty_cell))).
  { unfold list_render in E0. cbn [without_items ls_style ls_block ls_items] in E0. destruct (C07_set_style_exact (blank frame) frame (ls_style l) Wb) as (b1 & E1 & (A1 & W1 & C1 & D1) & _). rewrite E1 in E0. cbn [bind] in E0.
    assert (L1 : forall q, inside q frame -> look b1 q = Some (cell_set_style (ls_style l) empty_cell)) by (intros q I; rewrite C1 by (split; exact I); now rewrite P_Session.blank_look).
    assert (I1 : forall q, inside q frame -> inside q (barea b1)) by (intros q I; rewrite A1; exact I).
    rewrite Hlk in E0. cbn [opt_block_render] in E0.
    destruct (C31_render_stays_inside u k frame b1 Hu W1 Sz ltac:(cbn; lia) Hr I1) as (b2 & E2 & C2 & In2). rewrite E2 in E0. cbn [bind] in E0. rewrite (orb_true_r (rect_is_empty _) : rect_is_empty _ || (zlen (@nil text) =? 0) = true) in E0. injection E0 as <-.
    destruct (C88_rendered u k frame b1 Hu W1 Sz ltac:(cbn; lia)) as (b2' & E2' & Lk2); [|exact I1|].
    - intros t I. apply (drawn_visible u te A _ HA). destruct Hk as (_ & _ & _ & _ & Tt). now apply Tt.
    - rewrite E2 in E2'. injection E2' as <-. intros q I. destruct (contains inner q) eqn:Cq.
      + apply contains_inside in Cq. rewrite (In2 q Cq), (L1 q I). reflexivity.
      + rewrite (Lk2 q I), (L1 q I). reflexivity. }
  intros q Iq. unfold listing_cell. fold inner. specialize (B0 q Iq).
  assert (Row : forall i item, first <= i < Z.min n (first + rh inner / d) -> nth_error (ls_items l) (Z.to_nat i) = Some item ->
    rows_of (ls_dir l) inner (zsum (map text_height (slice (ls_items l) first i))) (text_height item) = Rect (rx inner) (ry inner + d * (i - first)) (rw inner) d).
  { intros i item Hi Hit. rewrite Hdir. cbn [rows_of]. rewrite (slice_sum _ d); [|exact Hd|lia|fold n; lia]. now rewrite (Hd item) by (eapply nth_error_In; exact Hit). }
  pose proof (Z.mul_div_le (rh inner) d Hd0) as Md.
  destruct (contains inner q) eqn:Cq.
  - apply contains_inside in Cq. set (y := py q - ry inner). assert (Hy0 : 0 <= y < rh inner) by (unfold y, inside in *; lia).
    pose proof (Z.div_mod y d ltac:(lia)) as Dm. pose proof (Z.mod_pos_bound y d Hd0) as Mb. assert (Jp : 0 <= y / d) by (apply Z.div_pos; lia).
    destruct (Z.ltb_spec (y / d) (rh inner / d)) as [Lt|Ge].
    + destruct (nth_error (ls_items l) (Z.to_nat (first + y / d))) as [item|] eqn:Hit.
      * assert (Ln : first + y / d < n). { assert (Z.to_nat (first + y / d) < Datatypes.length (ls_items l))%nat by (apply nth_error_Some; congruence). unfold n, zlen. lia. }
        pose proof (F5 (first + y / d) item q ltac:(lia) Hit) as Q. rewrite (Row (first + y / d) item ltac:(lia) Hit) in Q. cbn [rx ry] in Q. rewrite Q, B0, Es.
        -- cbn [option_map]. change (vw_selected v') with (vw_selected v). replace (py q - (ry inner + d * (first + y / d - first))) with (y mod d); [reflexivity|]. assert (Ey : y = py q - ry inner) by reflexivity. clearbody y. replace (first + y / d - first) with (y / d) by lia. lia.
        -- unfold inside in *. cbn [rx ry rw rh]. unfold y in *. nia.
      * rewrite F6, B0; [reflexivity|]. intros i item Hi Hit' I. rewrite (Row _ _ Hi Hit') in I. unfold inside in I. cbn [rx ry rw rh] in I.
        assert (i = first + y / d); [|congruence]. assert (y / d = i - first); [|lia]. symmetry. apply (Z.div_unique_pos y d (i - first) (y - d * (i - first))); unfold y; lia.
    + rewrite F6, B0; [reflexivity|]. intros i item Hi Hit' I. rewrite (Row _ _ Hi Hit') in I. unfold inside in I. cbn [rx ry rw rh] in I.
      assert (y / d = i - first); [|lia]. symmetry. apply (Z.div_unique_pos y d (i - first) (y - d * (i - first))); unfold y; lia.
  - rewrite F6, B0; [reflexivity|]. intros i item Hi Hit' I. rewrite (Row _ _ Hi Hit') in I. apply contains_false in Cq. apply Cq. unfold inside in *. cbn [rx ry rw rh] in I. nia.
Qed.

(** The popup with the paragraph *)
Definition noted (at_ : rect) : widget := fun _ b => let! b := popup_render_at u p at_ b in paragraph_render u None g (popup_inner_at p at_) b.
Lemma note_drawn at_ b : wf_buffer b -> sized at_ -> 0 <= rx at_ -> subrect at_ (barea b) -> let content := block_inner pk at_ in
  columns_of u (text_of u (pg_text g) ln) <= rw content -> 0 < rw content -> 0 < rh content ->
  exists b', noted at_ at_ b = Ret b' /\ forall q, look b' q = if contains at_ q then Some (note_cell u p pk g ln at_ q) else look b q.
Proof.
  intros W Sz Rx Sub content Hc Hw Hht. unfold noted.
  assert (Pk : forall k0, pp_block p = Some k0 -> padded k0) by (intros k0 E0; rewrite Hpk in E0; injection E0 as <-; exact Hpr).
  assert (Ec : popup_inner_at p at_ = content) by (unfold popup_inner_at; rewrite Hpk; reflexivity). rewrite Ec.
  destruct (popup_drawn u p at_ b Hu W Sz Rx Sub Pk) as (b2 & b1 & E & A2 & W2 & C2 & O2 & (A1 & W1 & D1) & C1). rewrite Ec, Hpk in C1. rewrite E. cbn [bind].
  unfold paragraph_render. destruct (C07_set_style_exact b1 content (pg_style g) W1) as (b3 & E3 & (A3 & W3 & C3 & D3) & _). rewrite E3. cbn [bind opt_block_render opt_block_inner].
  assert (Inn : forall q, inside q content -> inside q at_) by (intros q I; exact (proj1 (C31_inner_excludes_decoration pk at_ q Sz Hpr I))).
  assert (Win : within content (barea b3)).
  { assert (I1 : inside (Pos (rx content) (ry content)) content) by (unfold inside; cbn [px py]; lia). assert (I2 : inside (Pos (rx content + rw content - 1) (ry content + rh content - 1)) content) by (unfold inside; cbn [px py]; lia).
    apply Inn, Sub in I1. apply Inn, Sub in I2. rewrite A3, A1. unfold within, inside, rright, rbottom in *. cbn [px py] in *. lia. }
  destruct (C98_unwrapped_partial u g content b3 ln Hu W3 Hw Hht Win ltac:(repeat split; [exact Hga|lia|lia]) Hgw Hgl) as (b4 & gone & row & rest & E4 & [_ Sh] & Fit & _ & G1 & _ & G2).
  exists b4. split; [exact E4|].
  set (text := text_of u (pg_text g) ln) in *.
  assert (One : forall c, In c text -> cwidth u (fst c) = 1).
  { intros c I. unfold text, text_of in I. apply in_flat_map in I. destruct I as (s & Is & I). apply in_map_iff in I. destruct I as (x & <- & I). apply filter_In in I. cbn [fst]. apply (al_one u A HA). destruct Hgt as [_ Q]. destruct (Q ln) as [_ Q']; [rewrite Hgl; now left|]. destruct (Q' s Is) as [Q'' _]. apply Q'', I. }
  assert (All : that_fit u (rw content) text = text).
  { unfold that_fit. clear - One Hw. induction text as [|c t IH]; [reflexivity|]. cbn [filter]. rewrite (One c) by now left. replace (1 <=? rw content) with true by (symmetry; apply Z.leb_le; lia). rewrite IH; [reflexivity|]. intros; apply One; now right. }
  rewrite All in Fit. assert (Len : forall t, incl t text -> columns_of u t = zlen t).
  { intros t Hi. unfold columns_of. rewrite (zsum_all _ 1); [rewrite zlen_map; lia|]. intros x I. apply in_map_iff in I. destruct I as (c & <- & I). apply One, Hi, I. }
  assert (G0 : gone = []). { rewrite Hgx, Len in G1 by (rewrite Fit; intros x I; apply in_or_app; now left). destruct gone; [reflexivity|]. rewrite zlen_cons in G1. pose proof (zlen_nonneg gone). lia. }
  subst gone. cbn [app] in Fit.
  assert (R0 : rest = []).
  { destruct rest as [|c r]; [reflexivity|]. specialize (G2 c r eq_refl). rewrite (One c) in G2 by (rewrite Fit; apply in_or_app; right; now left). rewrite Len in G2 by (rewrite Fit; intros x I; apply in_or_app; now left).
    rewrite Len in Hc by (intros x I; exact I). rewrite Fit, zlen_app, zlen_cons in Hc. pose proof (zlen_nonneg r). lia. }
  subst rest. rewrite app_nil_r in Fit. subst row.
  intros q. rewrite Sh. destruct (contains content q) eqn:Cq.
  - pose proof Cq as Iq. apply contains_inside in Iq. pose proof (Inn q Iq) as Ia. rewrite (proj2 (contains_inside at_ q) Ia). rewrite C3 by (split; [exact Iq|rewrite A1; now apply Sub]). rewrite (C1 q Iq). cbn [option_map].
    unfold note_cell. fold content. rewrite Cq. fold text. cbv zeta. rewrite set_style_twice. f_equal. rewrite Hgy, Z.add_0_r. destruct (Z.eqb_spec (py q) (ry content)) as [Ey|Ny].
    + rewrite Ey, Z.sub_diag. cbn [Z.to_nat nth_error]. destruct (starts_at _ _ _) as [[sy st]|]; reflexivity.
    + assert (Hq : 0 < py q - ry content) by (unfold inside in Iq; lia). destruct (Z.to_nat (py q - ry content)) as [|j] eqn:Ej; [lia|]. cbn [nth_error]. destruct j; reflexivity.
  - assert (Nq : ~ inside q content) by now apply contains_false. rewrite D3 by tauto. destruct (contains at_ q) eqn:Aq.
    + apply contains_inside in Aq. rewrite Hpk in O2. cbn [opt_block_render] in O2. destruct (C88_rendered u pk at_ b2 Hu W2 Sz Rx) as (b1' & E1 & Lk1).
      * intros tt It. apply (drawn_visible u te A _ HA). destruct Hpd as (_ & _ & _ & _ & Tt). now apply Tt.
      * intros q' I'. rewrite A2. now apply Sub.
      * rewrite O2 in E1. injection E1 as <-. rewrite (Lk1 q Aq), (C2 q Aq). cbn [option_map]. unfold note_cell. fold content. rewrite Cq. reflexivity.
    + apply D1. now apply contains_false.
Qed.

Variables (init_cmd : option cmd) (update : listing -> M_Cmd.msg -> option (listing * option cmd)) (redrawn : listing -> Z * Z -> listing) (view : listing -> widget).
Variables (at_of : Z * Z -> rect).
Definition popup_part (m : listing) : widget := fun area b => if li_popup m then noted (pop at_of area) area b else Ret b.
Lemma render_is W H r b m o : popup_found p (W, H) (at_of (W, H)) -> any_popup_runs p r -> listing_render u r l p g (new_rect W H) b m = Some o ->
  o = let! (b, s) := list_render u l (new_rect W H) b (li_list m) in let! b := popup_part m (new_rect W H) b in Ret (b, Listing s (li_popup m)).
Proof.
  intros (L1 & L2) (R1 & R2 & R3 & R4) E. unfold popup_part, noted. cbn [fst snd] in *. rewrite (pop_at _ _ _ L1). unfold listing_render, popup_render, popup_inner in E.
  destruct (list_render u l (new_rect W H) b (li_list m)) as [[b1 s1]|]; [|injection E as <-; reflexivity]. cbn [bind li_popup] in E |- *. destruct (li_popup m); [|injection E as <-; reflexivity].
  destruct (L2 _ _ R1 R2) as [P|P]; rewrite P in E; [|discriminate]. destruct (popup_render_at u p (at_of (W, H)) b1) as [b2|]; [|injection E as <-; reflexivity]. cbn [bind].
  destruct (L2 _ _ R3 R4) as [P'|P']; rewrite P' in E; [|discriminate]. injection E as <-. reflexivity.
Qed.
(** A size at which the list has room for an item, and the popup for the paragraph *)
Definition enough (size : Z * Z) : Prop :=
  let inner := block_inner k (new_rect (fst size) (snd size)) in let content := block_inner pk (at_of size) in
  0 <= fst size /\ 0 <= snd size /\ widths u (clusters u (ls_hl_symbol l)) <= rw inner /\ 0 < rw inner /\ d <= rh inner /\
  popup_found p size (at_of size) /\ columns_of u (text_of u (pg_text g) ln) <= rw content /\ 0 < rw content /\ 0 < rh content.
Lemma drawn_as m v W H r o : alike m v -> enough (W, H) -> any_popup_runs p r -> listing_render u r l p g (new_rect W H) (blank (new_rect W H)) m = Some o ->
  let v' := scrolls (list_rows (W, H)) v in
  exists b, o = Ret (b, Listing (ListState (vw_first v') (vw_selected v')) (vw_popup v')) /\ forall q, inside q (new_rect W H) -> look b q = Some (program_cell u l k d p pk g ln (at_of (W, H)) (new_rect W H) v' q).
Proof.
  intros Al (E1 & E2 & E3 & E4 & E5 & E6 & E7 & E8 & E9) R Er v'. cbn [fst snd] in *.
  destruct (list_drawn m v W H Al E1 E2 E3 E4 E5) as (b & D1 & D2 & D3 & D4). fold (list_rows (W, H)) in D1, D4. change (block_inner k (new_rect W H)) with (block_inner k (new_rect (fst (W, H)) (snd (W, H)))) in D1, D4. fold (list_rows (W, H)) in D1, D4. fold v' in D1, D4.
  rewrite (render_is W H r _ m o E6 R Er), D1. cbn [bind]. destruct Al as (_ & _ & _ & _ & Ep). unfold popup_part. rewrite Ep. change (vw_popup v) with (vw_popup v'). unfold program_cell. destruct (vw_popup v') eqn:Pv.
  - destruct (proj1 E6) as (Q1 & Q2 & Q3 & Q4 & Q5 & Q6). cbn [new_rect rx ry rw rh fst snd] in Q3, Q4, Q5, Q6.
    rewrite (pop_at at_of W H (proj1 E6)). assert (Sub : subrect (at_of (W, H)) (barea b)) by (rewrite D2; intros q I; unfold inside in *; cbn [new_rect rx ry rw rh]; lia).
    destruct (note_drawn (at_of (W, H)) b D3 ltac:(split; lia) ltac:(lia) Sub E7 E8 E9) as (b' & N1 & N2). change (noted (at_of (W, H)) (at_of (W, H)) b) with (noted (at_of (W, H)) (new_rect W H) b) in N1. rewrite N1. cbn [bind].
    exists b'. split; [reflexivity|]. intros q I. rewrite N2. cbn [andb]. destruct (contains (at_of (W, H)) q); [reflexivity|now apply D4].
  - cbn [bind]. exists b. split; [reflexivity|]. intros q I. cbn [andb]. now apply D4.
Qed.
(** It can be shown on a terminal. *)
Lemma drawn_good m v W H r o : alike m v -> enough (W, H) -> any_popup_runs p r -> listing_render u r l p g (new_rect W H) (blank (new_rect W H)) m = Some o ->
  exists b, omap fst o = Ret b /\ barea b = new_rect W H /\ frame_ok u te b.
Proof.
  intros Al En R Er. pose proof En as (E1 & E2 & _ & _ & _ & E6 & _). cbn [fst snd] in E1, E2. rewrite (render_is W H r _ m o E6 R Er). destruct Al as ((U1 & U2) & _).
  assert (Pl : placed u te A (fun area b => let! b := (fun area b => let! (b, _) := list_render u l area b (li_list m) in Ret b) area b in popup_part m area b)).
  { apply placed_then.
    - apply placed_list; auto; [intros k0 K0; rewrite Hlk in K0; now injection K0 as <-|intros k0 K0; rewrite Hlk in K0; now injection K0 as <-|lia].
    - unfold popup_part. destruct (li_popup m); [|apply placed_nothing]. unfold noted.
      apply (placed_then u te A (fun area b => popup_render_at u p (pop at_of area) b) (fun area b => paragraph_render u None g (popup_inner_at p (pop at_of area)) b)).
      + apply (placed_part u te A (pop at_of) (popup_render_at u p)); [apply pop_part|]. apply placed_popup; auto; intros k0 K0; rewrite Hpk in K0; now injection K0 as <-.
      + apply (placed_part u te A (fun area => popup_inner_at p (pop at_of area)) (paragraph_render u None g)); [apply inner_part; intros k0 K0; rewrite Hpk in K0; now injection K0 as <-|].
        apply placed_paragraph; auto; [discriminate|discriminate|lia|lia]. }
  destruct (C89_view u te A He HA _ Pl W H E1 E2) as (b & Eb & R'). exists b. split; [|exact R']. rewrite <- Eb. cbv beta. destruct (list_render u l (new_rect W H) (blank (new_rect W H)) (li_list m)) as [[b1 s1]|]; [|reflexivity]. cbn [bind]. destruct (popup_part m (new_rect W H) b1); reflexivity.
Qed.
(** One message, read after a draw *)
Lemma update_alike m v x m' c : alike m v -> li_list m = ListState (vw_first v) (vw_selected v) -> listing_update ds m x = Some (m', c) ->
  alike m' (match x with MUser j => match nth_error ds j with Some e => handles n e v | None => v end | _ => v end).
Proof.
  intros Al El E. assert (Same : m' = m -> alike m' v) by (intros ->; exact Al). unfold listing_update in E. destruct x as [| | |j| |]; try (apply Same; congruence).
  destruct (nth_error ds j) as [e|] eqn:Ej; [|apply Same; congruence]. pose proof (nth_error_In _ _ Ej) as Ie.
  destruct (viewer_range m v Al) as [Rf Rs]. destruct Al as (U & O & F & S & P).
  pose proof (key_offset (li_list m) e) as Ko. pose proof (usable_key _ e U) as Ku.
  destruct (list_try_update (li_list m) e) as [s known] eqn:Et. cbn [fst] in Ko, Ku.
  assert (Sel : selects n s = pressed n e (vw_selected v)).
  { destruct e as [key| | | | |]; try (cbn [list_try_update] in Et; injection Et as <- _; exact S).
    pose proof (press_moves n (li_list m) key (Hone key Ie) ltac:(pose proof count_pos; unfold n in *; lia)) as Q. rewrite El in Q. cbn [st_selected] in Q. specialize (Q Rs). rewrite <- El, Et in Q. exact Q. }
  assert (Made : forall pop, pop = (if space_bar e then negb (vw_popup v) else vw_popup v) -> alike (Listing s pop) (handles n e v)).
  { intros pop Hpop. unfold alike, handles. cbn [li_list li_popup vw_first vw_selected vw_popup]. split; [exact Ku|]. split; [congruence|]. split; [exact F|]. split; [exact Sel|exact Hpop]. }
  destruct e as [key| | | | |]; try (destruct known; injection E as <- _; apply Made; cbn [space_bar]; exact P).
  destruct (space_bar (KeyMsg key)) eqn:Sb.
  - apply (space_name key (Hone key Ie)) in Sb. assert (Kn : known = false) by (cbn [list_try_update] in Et; rewrite (space_other key Sb) in Et; cbn in Et; congruence). subst known. rewrite Sb in E. change (bytes_eqb (asc " ") (asc " ")) with true in E. cbv iota in E. injection E as <- _. apply Made. cbn [li_popup]. now rewrite P.
  - assert (Nb : bytes_eqb (key_string key) (asc " ") = false). { apply not_true_is_false. intros X. apply P_Decode.bytes_eqb_true in X. apply (space_name key (Hone key Ie)) in X. congruence. }
    destruct known; [injection E as <- _; apply Made; exact P|]. rewrite Nb in E. destruct (_ || _); injection E as <- _; apply Made; exact P.
Qed.
Lemma scrolls_alike m v K : alike m v -> 1 <= K -> let v' := scrolls K v in alike (Listing (ListState (vw_first v') (vw_selected v')) (vw_popup v')) v'.
Proof.
  intros Al HK v'. destruct (viewer_range m v Al) as [Rf Rs]. unfold alike, selects, usable. cbn [li_list li_popup st_offset st_selected].
  assert (Rf' : 0 <= vw_first v' < n). { unfold v'. cbn [scrolls vw_first]. destruct (vw_selected v) as [i|]; [|exact Rf]. specialize (Rs i eq_refl). destruct (Z.ltb_spec i (vw_first v)); [lia|]. destruct (Z.leb_spec (vw_first v + K) i); lia. }
  change (vw_selected v') with (vw_selected v). split; [split; [lia|intros i E; specialize (Rs i E); lia]|]. split; [reflexivity|]. split; [lia|]. split; [|reflexivity].
  destruct (vw_selected v) as [i|]; [|reflexivity]. cbn [option_map]. f_equal. specialize (Rs i eq_refl). lia.
Qed.

Section Told.
Variable sizes : list (Z * Z).
Hypothesis Hprog : list_program u ds l p g (fun size => In size sizes) update redrawn view.
Hypothesis Hen : forall size, In size sizes -> enough size.
Lemma rows_pos size : In size sizes -> 1 <= list_rows size.
Proof. intros I. destruct (Hen size I) as (_ & _ & _ & _ & E & _). unfold list_rows. apply Z.div_le_lower_bound; lia. Qed.
Lemma step_alike m v size x m' c : alike m v -> In size sizes -> update (redrawn m size) x = Some (m', c) ->
  alike m' (let v := scrolls (list_rows size) v in match x with MUser j => match nth_error ds j with Some e => handles n e v | None => v end | _ => v end).
Proof.
  intros Al I E. destruct size as [W H]. destruct (lp_draws _ _ _ _ _ _ _ _ _ Hprog m W H I) as (r & o & R & Er & _ & Rd). destruct (drawn_as m v W H r o Al (Hen _ I) R Er) as (b & Eo & _).
  specialize (Rd _ _ Eo). rewrite Rd in E. rewrite (lp_update _ _ _ _ _ _ _ _ _ Hprog) in E. cbv zeta.
  refine (update_alike _ _ x m' c _ _ E); [|reflexivity]. apply (scrolls_alike m v); [exact Al|now apply rows_pos].
Qed.
Lemma lives xs : forall m v size coming m' z, alike m v -> (forall s, In s (size :: coming) -> In s sizes) -> lived update redrawn m size xs coming = Some (m', z) -> alike m' (viewed n ds list_rows v size xs coming).
Proof.
  induction xs as [|x xs IH]; intros m v size coming m' z Al Hs E; cbn [lived viewed] in *; [injection E as <- _; exact Al|].
  destruct (update (redrawn m size) x) as [[m1 c]|] eqn:Eu; [|discriminate]. pose proof (step_alike m v size x m1 c Al (Hs size (or_introl eq_refl)) Eu) as Al1. cbv zeta in Al1.
  destruct (next_size x size coming) as [size' coming'] eqn:Nx. eapply IH; [exact Al1| |exact E].
  intros s0 I. apply Hs. unfold next_size in Nx. destruct x; try (injection Nx as <- <-; exact I). destruct coming as [|c0 r]; injection Nx as <- <-; [exact I|now right].
Qed.
End Told.

Lemma screen t0 s h v : let sizes := (t_w t0, t_h t0) :: resizes h in
  list_program u ds l p g (fun size => In size sizes) update redrawn view -> (forall size, In size sizes -> enough size) ->
  t_attr t0 = default_attr -> 0 <= t_w t0 -> 0 <= t_h t0 ->
  S_Joint.together (Live (Listing (ListState 0 None) false) (t_w t0, t_h t0) (resizes h)) init_cmd (live_update update redrawn) (numbered ds) (live_view view) s h -> sizes_ok h ->
  st_main s = PLoop v -> told (t_w t0, t_h t0) true h = true ->
  let size := final_size (t_w t0, t_h t0) h in let frame := new_rect (fst size) (snd size) in
  let plain := scrolls (list_rows size) (viewed (zlen (ls_items l)) ds list_rows (Viewer 0 None false) (t_w t0, t_h t0) (updates (history s)) (resizes h)) in
  filter for_model (map snd (taken (history s))) = updates (history s) /\
  exists s0 tm t b, start u te t0 = Some s0 /\ S_Session.run u te s0 h = Some (tm, t) /\ barea b = frame /\ S_Display.shows u te (t_cells t) b /\
    forall q, inside q frame -> look b q = Some (program_cell u l k d p pk g ln (at_of size) frame plain q).
Proof.
  intros sizes Lp En Ha HW HH T Hs Wt Td size frame plain.
  set (m0 := Listing (ListState 0 None) false) in *. set (v0 := Viewer 0 None false) in *.
  assert (A0 : alike m0 v0). { split; [split; [cbn; lia|discriminate]|]. split; [reflexivity|]. split; [apply count_pos|]. split; reflexivity. }
  destruct (C95_sizes m0 init_cmd update redrawn (numbered ds) view (fun m => exists v, alike m v) u te t0 s h v He) as (Eu & El & _ & s0 & tm & t & b & B1 & B2 & B3 & B4 & B5); auto.
  { intros c. pose proof (al_apart u A HA (repeat [32%N] c)) as Q. rewrite <- Q.
    - f_equal. clear. induction c as [|c IH]; [reflexivity|]. cbn. now rewrite IH.
    - intros x I. apply repeat_spec in I. subst x. apply (al_space u A HA). }
  { now exists v0. }
  { intros m w ht x m' c [v1 Al] I E. eexists. eapply (step_alike sizes Lp En); eassumption. }
  { intros m w ht [v1 Al] I. destruct (lp_draws _ _ _ _ _ _ _ _ _ Lp m w ht I) as (r & o & R & Er & Ev & _). rewrite Ev. exact (drawn_good m v1 w ht r o Al (En _ I) R Er). }
  pose proof (lives sizes Lp En (updates (history s)) m0 v0 (t_w t0, t_h t0) (resizes h) (lv_model v) _ A0 (fun s0 I => I) El) as Al.
  assert (FS : In size sizes) by (apply size_in; exact Td).
  split; [exact Eu|]. exists s0, tm, t, b. split; [exact B1|]. split; [exact B2|]. unfold frame. fold size in B3, B4. destruct size as [W H] eqn:Ez. cbn [fst snd] in *. split; [exact B4|]. split; [exact B5|].
  destruct (lp_draws _ _ _ _ _ _ _ _ _ Lp (lv_model v) W H FS) as (r & o & R & Er & Ev & _). destruct (drawn_as _ _ W H r o Al (En _ FS) R Er) as (b' & Eo & Lk). rewrite Ev, Eo in B3. cbn [omap fst] in B3. injection B3 as <-. exact Lk.
Qed.
(** ** C102: The program whenever it waits for a message, knowing the terminal's size: the screen shows, cell by cell, the list and the popup of a plain viewer
    that has been shown once before each message and has handled the messages. *)
Theorem C102_screen_partial t0 s h v : let sizes := (t_w t0, t_h t0) :: resizes h in
  list_program u ds l p g (fun size => In size sizes) update redrawn view -> (forall size, In size sizes -> enough size) ->
  t_attr t0 = default_attr -> 0 <= t_w t0 -> 0 <= t_h t0 ->
  S_Joint.together (Live (Listing (ListState 0 None) false) (t_w t0, t_h t0) (resizes h)) init_cmd (live_update update redrawn) (numbered ds) (live_view view) s h -> sizes_ok h ->
  st_main s = PLoop v -> told (t_w t0, t_h t0) true h = true ->
  let size := final_size (t_w t0, t_h t0) h in let frame := new_rect (fst size) (snd size) in
  let plain := scrolls (list_rows size) (viewed (zlen (ls_items l)) ds list_rows (Viewer 0 None false) (t_w t0, t_h t0) (updates (history s)) (resizes h)) in
  exists s0 tm t b, start u te t0 = Some s0 /\ S_Session.run u te s0 h = Some (tm, t) /\ barea b = frame /\ S_Display.shows u te (t_cells t) b /\
    forall q, inside q frame -> look b q = Some (program_cell u l k d p pk g ln (at_of size) frame plain q).
Proof. intros sizes Lp En Ha HW HH T Hs Wt Td. exact (proj2 (screen t0 s h v Lp En Ha HW HH T Hs Wt Td)). Qed.

(** The selection and the popup are those the messages of the input reader make. *)
Lemma viewed_reads room tk : forall v size coming, (forall w k, In (w, MUser k) tk -> (k < length ds)%nat -> exists j, w = WInput j) -> (forall k x, In (WInput k, x) tk -> nth_error (numbered ds) k = Some x) ->
  let v' := viewed n ds room v size (filter for_model (map snd tk)) coming in
  vw_selected v' = fold_left (fun sel e => pressed n e sel) (read_from ds tk) (vw_selected v) /\ vw_popup v' = xorb (vw_popup v) (Nat.odd (length (filter space_bar (read_from ds tk)))).
Proof.
  induction tk as [|[w x] tk IH]; intros v size coming H1 H2; [cbn; split; [reflexivity|now rewrite xorb_false_r]|].
  assert (I1 : forall w k, In (w, MUser k) tk -> (k < length ds)%nat -> exists j, w = WInput j) by (intros; eapply H1; [right; eassumption|assumption]). assert (I2 : forall k x, In (WInput k, x) tk -> nth_error (numbered ds) k = Some x) by (intros; apply H2; now right).
  cbn [map snd filter]. unfold read_from. cbn [flat_map]. rewrite fold_left_app, filter_app, app_length. fold (read_from ds tk).
  assert (Other : (match w with WInput _ => False | _ => True end) ->
    let v' := viewed n ds room v size (if for_model x then x :: filter for_model (map snd tk) else filter for_model (map snd tk)) coming in
    vw_selected v' = fold_left (fun sel e => pressed n e sel) (read_from ds tk) (vw_selected v) /\ vw_popup v' = xorb (vw_popup v) (Nat.odd (length (filter space_bar (read_from ds tk))))).
  { intros Nw. destruct (for_model x) eqn:Fm; [|now apply IH]. cbn [viewed].
    assert (Ev : match x with MUser k0 => match nth_error ds k0 with Some e => handles n e (scrolls (room size) v) | None => scrolls (room size) v end | _ => scrolls (room size) v end = scrolls (room size) v).
    { destruct x as [| | |j| |]; try reflexivity. destruct (nth_error ds j) eqn:Ej; [|reflexivity]. exfalso. destruct (H1 w j (or_introl eq_refl) ltac:(apply nth_error_Some; congruence)) as [i ->]. exact Nw. }
    cbv zeta. rewrite Ev. destruct (next_size x size coming) as [size' coming']. exact (IH (scrolls (room size) v) size' coming' I1 I2). }
  destruct w as [j| | |]; try exact (Other Logic.I).
  clear Other. pose proof (H2 j x (or_introl eq_refl)) as Hx. apply numbered_at in Hx. destruct Hx as [-> Lj]. cbn [for_model viewed next_size]. destruct (nth_error ds j) as [e|] eqn:Ej; [|apply nth_error_None in Ej; lia].
  cbv zeta. specialize (IH (handles n e (scrolls (room size) v)) size coming I1 I2). cbv zeta in IH. destruct IH as [IH1 IH2]. rewrite IH1, IH2. split; [reflexivity|]. cbn [handles scrolls vw_popup filter]. destruct (space_bar e); cbn [length Nat.add]; [|reflexivity].
  rewrite Nat.odd_succ, <- Nat.negb_odd. now destruct (vw_popup v), (Nat.odd _).
Qed.
(** ** C102: The popup is shown if the space bar was read an odd number of times; the selection is the one of C96. *)
Theorem C102_reads_partial t0 s h v : let sizes := (t_w t0, t_h t0) :: resizes h in
  list_program u ds l p g (fun size => In size sizes) update redrawn view -> (forall size, In size sizes -> enough size) ->
  t_attr t0 = default_attr -> 0 <= t_w t0 -> 0 <= t_h t0 ->
  S_Joint.together (Live (Listing (ListState 0 None) false) (t_w t0, t_h t0) (resizes h)) init_cmd (live_update update redrawn) (numbered ds) (live_view view) s h -> sizes_ok h ->
  st_main s = PLoop v -> told (t_w t0, t_h t0) true h = true ->
  (forall w k, In (EAccepted w (MUser k)) (history s) -> (k < length ds)%nat -> exists j, w = WInput j) ->
  let plain := viewed (zlen (ls_items l)) ds list_rows (Viewer 0 None false) (t_w t0, t_h t0) (updates (history s)) (resizes h) in
  exists k, (k <= length ds)%nat /\ from_reader (history s) = firstn k (numbered ds) /\
    vw_selected plain = selection_after (zlen (ls_items l)) (firstn k ds) /\ vw_popup plain = Nat.odd (length (filter space_bar (firstn k ds))).
Proof.
  intros sizes Lp En Ha HW HH T Hs Wt Td Own plain. destruct (screen t0 s h v Lp En Ha HW HH T Hs Wt Td) as [Eu _].
  pose proof (together_reachable _ _ _ _ _ s h T) as R. set (up := live_update update redrawn) in *. set (v0 := Live (Listing (ListState 0 None) false) (t_w t0, t_h t0) (resizes h)) in *.
  destruct (C46_reader_order v0 init_cmd up (numbered ds) s R) as (j & K).
  assert (Ln : length (numbered ds) = length ds) by (unfold numbered; now rewrite map_length, seq_length).
  assert (K' : from_reader (history s) = firstn (Nat.min j (length ds)) (numbered ds)) by (rewrite K; destruct (Nat.le_gt_cases j (length ds)); [now rewrite Nat.min_l by lia|rewrite Nat.min_r by lia; rewrite !firstn_all2 by lia; reflexivity]).
  assert (Or : forall k x, In (WInput k, x) (taken (history s)) -> nth_error (numbered ds) k = Some x).
  { intros i x I. unfold taken in I. apply in_flat_map in I. destruct I as (e & I & J). apply in_split in I. destruct I as (h1 & h2 & Eh). destruct e as [| |w y| | | | | |]; try contradiction. destruct J as [J|[]]. injection J as -> ->. exact (C46_origin v0 init_cmd up (numbered ds) s h1 _ _ h2 R Eh). }
  exists (Nat.min j (length ds)). split; [lia|]. split; [exact K'|].
  assert (Ow : forall w i, In (w, MUser i) (taken (history s)) -> (i < length ds)%nat -> exists j, w = WInput j).
  { intros w i I L. apply (Own w i); [|exact L]. unfold taken in I. apply in_flat_map in I. destruct I as (e & I & J). destruct e as [| |w' y| | | | | |]; try contradiction. destruct J as [J|[]]. injection J as -> ->. exact I. }
  pose proof (viewed_reads list_rows (taken (history s)) (Viewer 0 None false) (t_w t0, t_h t0) (resizes h) Ow Or) as G. cbv zeta in G. rewrite Eu in G.
  rewrite (read_reader ds (history s) Or _ (Nat.le_min_r _ _) K') in G. cbn [vw_selected vw_popup] in G. rewrite xorb_false_l in G. exact G.
Qed.
End Program.
Print Assumptions C102_screen_partial.
Print Assumptions C102_reads_partial.
