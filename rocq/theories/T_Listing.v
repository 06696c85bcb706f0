(** C96: the selection of a running program's list. *)
From Verif Require Import Base M_Geom S_Geom M_Style M_Uniseg M_Buffer S_Buffer M_Text M_Block M_Slice M_List M_Utf8 M_KeyTable M_Decode M_Listing M_Backend
  P_Base T_Geom P_Buffer T_Block P_List T_List S_Keys P_Decode T_Decode T_KeyName S_Frame S_Listing.
From Coq Require Import ZArith NArith List Bool Lia String.
Import ListNotations.
Open Scope Z_scope.

Lemma bytes_eqb_false a b : bytes_eqb a b = false <-> a <> b.
Proof. unfold bytes_eqb. destruct (list_eq_dec N.eq_dec a b); split; congruence. Qed.
Definition plain_key (ty : Z) : key := Key ty [] false false.
Definition plain_char (c : N) : key := Key KeyRunes [c] false false.
Lemma press_ctrl ty : In ty [KeyCtrlU; KeyCtrlD; KeyDown; KeyUp] -> one_press (plain_key ty).
Proof. intros I. assert (Nt : ty <> KeyRunes /\ (ty =? KeySpace) = false) by (repeat (destruct I as [<-|I]; [split; [discriminate|reflexivity]|]); destruct I). unfold plain_key. replace (@nil N) with (if ty =? KeySpace then [32%N] else []) by (now rewrite (proj2 Nt)). apply press_named; [|apply Nt].
  repeat (destruct I as [<-|I]; [vm_compute; tauto|]). destruct I. Qed.
Lemma named_runes k ty : one_press k -> k_type k = ty -> In ty [KeyCtrlU; KeyCtrlD; KeyDown; KeyUp] -> k_alt k = false -> k = plain_key ty.
Proof.
  intros P E I Al. destruct P as [r alt _ _|t alt It Nt|rs _]; cbn [k_type k_alt] in *; subst; try (repeat (destruct I as [I|I]; [discriminate I|]); destruct I; fail).
  unfold plain_key. replace (ty =? KeySpace) with false; [reflexivity|]. repeat (destruct I as [<-|I]; [reflexivity|]). destruct I.
Qed.
Lemma the_names : key_string (plain_key KeyCtrlU) = asc "ctrl+u" /\ key_string (plain_key KeyCtrlD) = asc "ctrl+d" /\ key_string (plain_char 71) = asc "G" /\ key_string (plain_char 103) = asc "g" /\
  key_string (plain_char 106) = asc "j" /\ key_string (plain_key KeyDown) = asc "down" /\ key_string (plain_char 107) = asc "k" /\ key_string (plain_key KeyUp) = asc "up".
Proof. vm_compute. auto 10. Qed.
(** What TryUpdate does with one key press. *)
Lemma press_moves n s k : one_press k -> 0 < n <= M_Buffer.max_int - 8 -> (forall i, st_selected s = Some i -> 0 <= i < n) ->
  selects n (fst (list_try_update s (KeyMsg k))) = pressed n (KeyMsg k) (st_selected s).
Proof.
  intros P Hn Hs. destruct s as [o sel]. cbn [st_selected] in *.
  assert (Eq : forall k', one_press k' -> bytes_eqb (key_string k) (key_string k') = true -> k = k') by (intros k' P' E; apply bytes_eqb_true in E; now apply C45_names_partial).
  assert (C : forall c, In c [106; 107; 103; 71]%N -> one_press (plain_char c)) by (intros c I; apply press_char; repeat (destruct I as [<-|I]; [first [reflexivity|discriminate]|]); destruct I).
  assert (Ne : forall k', bytes_eqb (key_string k) (key_string k') = false -> k <> k') by (intros k' E ->; apply bytes_eqb_false in E; now apply E).
  destruct the_names as (N1 & N2 & N3 & N4 & N5 & N6 & N7 & N8).
  cbn [list_try_update]. unfold list_key_of. cbv zeta. rewrite <- N1, <- N2, <- N3, <- N4, <- N5, <- N6, <- N7, <- N8. clear N1 N2 N3 N4 N5 N6 N7 N8.
  destruct (bytes_eqb (key_string k) (key_string (plain_key KeyCtrlU))) eqn:E1; [apply (Eq (plain_key KeyCtrlU)) in E1; [subst k|apply press_ctrl; cbn; tauto]|
  destruct (bytes_eqb (key_string k) (key_string (plain_key KeyCtrlD))) eqn:E2; [apply (Eq (plain_key KeyCtrlD)) in E2; [subst k|apply press_ctrl; cbn; tauto]|
  destruct (bytes_eqb (key_string k) (key_string (plain_char 71))) eqn:E3; [apply (Eq (plain_char 71)) in E3; [subst k|apply C; cbn; tauto]|
  destruct (bytes_eqb (key_string k) (key_string (plain_char 103))) eqn:E4; [apply (Eq (plain_char 103)) in E4; [subst k|apply C; cbn; tauto]|
  destruct (bytes_eqb (key_string k) (key_string (plain_char 106))) eqn:E5; [apply (Eq (plain_char 106)) in E5; [subst k|apply C; cbn; tauto]|
  destruct (bytes_eqb (key_string k) (key_string (plain_key KeyDown))) eqn:E6; [apply (Eq (plain_key KeyDown)) in E6; [subst k|apply press_ctrl; cbn; tauto]|
  destruct (bytes_eqb (key_string k) (key_string (plain_char 107))) eqn:E7; [apply (Eq (plain_char 107)) in E7; [subst k|apply C; cbn; tauto]|
  destruct (bytes_eqb (key_string k) (key_string (plain_key KeyUp))) eqn:E8; [apply (Eq (plain_key KeyUp)) in E8; [subst k|apply press_ctrl; cbn; tauto]|]]]]]]]].
  9:{ apply (Ne (plain_key KeyCtrlU)) in E1. apply (Ne (plain_key KeyCtrlD)) in E2. apply (Ne (plain_char 71)) in E3. apply (Ne (plain_char 103)) in E4. apply (Ne (plain_char 106)) in E5. apply (Ne (plain_key KeyDown)) in E6. apply (Ne (plain_char 107)) in E7. apply (Ne (plain_key KeyUp)) in E8.
    cbn [st_update fst]. transitivity sel. { unfold selects. cbn [st_selected]. destruct sel as [i|]; [|reflexivity]. cbn. f_equal. specialize (Hs i eq_refl). lia. }
    unfold pressed. destruct k as [ty rs [|] [|]]; try reflexivity. symmetry.
    assert (T : forall c, plain_char c <> Key ty rs false false -> (ty =? KeyRunes) && bytes_eqb rs [c] = false).
    { intros c D. apply andb_false_iff. destruct (Z.eqb_spec ty KeyRunes) as [->|]; [right|now left]. apply bytes_eqb_false. intros ->. now apply D. }
    assert (K : forall ty', In ty' [KeyCtrlU; KeyCtrlD; KeyDown; KeyUp] -> Key ty rs false false <> plain_key ty' -> (ty =? ty') = false).
    { intros ty' I D. apply Z.eqb_neq. intros ->. apply D. exact (named_runes _ ty' P eq_refl I eq_refl). }
    rewrite !T by congruence. rewrite !K by (try assumption; cbn; tauto). reflexivity. }
  all: unfold plain_key, plain_char in *; cbn [st_update fst pressed]; unfold selects, st_scroll_up, st_scroll_down, st_select_last, st_select_first, st_select_next, st_select_previous, st_select, moved; cbn [st_selected option_map].
  all: cbn -[Z.max Z.min Z.add Z.sub wrap64 M_Buffer.max_int].
  all: unfold M_Buffer.max_int in *; destruct sel as [i|]; try specialize (Hs i eq_refl); rewrite ?wrap64_id by (unfold is_int, min_int, M_Buffer.max_int; lia); try (apply f_equal; lia).
Qed.

(** ** The state *)
Lemma usable_key s d : usable s -> usable (fst (list_try_update s d)).
Proof.
  intros [H1 H2]. assert (K : forall i, usable (st_select s i)) by (intros i; split; [exact H1|]; intros j E; cbn in E; injection E as <-; lia).
  destruct d; cbn [list_try_update fst]; try (now split). destruct (list_key_of k); cbn [st_update fst]; try apply K. now split.
Qed.
Lemma offset_ok u l area b s b' s' : usable s -> 0 <= ls_padding l -> sized (opt_block_inner (ls_block l) area) -> list_render u l area b s = Ret (b', s') -> usable s'.
Proof.
  intros [H1 H2] Hp [_ Hh]. unfold list_render. destruct (buffer_set_style _ _ _); [|discriminate]. cbn [bind]. destruct (opt_block_render _ _ _ _); [|discriminate]. cbn [bind].
  destruct (rect_is_empty _ || _) eqn:Em; [intros E; injection E as _ <-; now split|]. apply orb_false_iff in Em. destruct Em as [_ Em]. apply Z.eqb_neq in Em. pose proof (zlen_nonneg (ls_items l)) as Nn.
  set (s1 := match st_selected s with Some i => _ | None => s end). assert (O1 : st_offset s1 = st_offset s) by (unfold s1; destruct (st_selected s) as [i|]; [destruct (_ >=? _)|]; reflexivity).
  assert (R1 : forall i, st_selected s1 = Some i -> 0 <= i < zlen (ls_items l)).
  { intros i E. unfold s1 in E. destruct (st_selected s) as [j|] eqn:Ej; [|congruence]. specialize (H2 j eq_refl). rewrite Z.geb_leb in E. destruct (Z.leb_spec (zlen (ls_items l)) j); [cbn in E; injection E as <-; lia|]. rewrite Ej in E. injection E as <-. lia. }
  intros E. destruct (C23_window_shows_selection (map text_height (ls_items l)) (ls_padding l) (st_selected s1) (st_offset s1) (rh (opt_block_inner (ls_block l) area))) as (f & k & Eb & Hf & _); auto.
  - intros Z0. apply map_eq_nil in Z0. rewrite Z0 in Em. now apply Em.
  - intros x I. apply in_map_iff in I. destruct I as (t & <- & _). apply zlen_nonneg.
  - now rewrite O1.
  - intros i Ei. unfold zlen. rewrite map_length. now apply R1.
  - rewrite Eb in E. cbn [bind] in E. destruct (skip _ _); [|discriminate]. cbn [bind] in E. destruct (take _ _); [|discriminate]. cbn [bind] in E. destruct (ofold _ _ _) as [[c b2]|]; [|discriminate]. cbn [bind] in E. injection E as _ <-.
    split; [cbn; lia|]. intros i Ei. cbn in Ei. specialize (R1 i Ei). lia.
Qed.
(** The state a list leaves does not depend on what it is drawn over. *)
Lemma same_state u l area s b1 b1' s1 b2 b2' s2 : list_render u l area b1 s = Ret (b1', s1) -> list_render u l area b2 s = Ret (b2', s2) -> s1 = s2.
Proof.
  unfold list_render. destruct (buffer_set_style b1 _ _) as [c1|]; [|discriminate]. destruct (buffer_set_style b2 _ _) as [c2|]; [|discriminate]. cbn [bind]. destruct (opt_block_render _ _ _ c1) as [d1|]; [|discriminate]. destruct (opt_block_render _ _ _ c2) as [d2|]; [|discriminate]. cbn [bind].
  destruct (rect_is_empty _ || _); [congruence|]. destruct (get_items_bounds _ _ _ _ _) as [[f k]|]; [|discriminate]. cbn [bind]. destruct (skip _ _); [|discriminate]. cbn [bind]. destruct (take _ _); [|discriminate]. cbn [bind].
  destruct (ofold _ _ (0, d1)) as [[? ?]|]; [|discriminate]. destruct (ofold _ _ (0, d2)) as [[? ?]|]; [|discriminate]. cbn [bind]. congruence.
Qed.
