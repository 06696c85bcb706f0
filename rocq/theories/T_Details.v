(** C20, C21, C24: details the other theorems take for granted - the length of a string in bytes, which graphemes are blank, and clearing a selection. *)
From Verif Require Import Base P_Base M_Geom S_Geom M_Style M_Uniseg M_Buffer M_Text M_Utf8 M_Reflow M_Slice M_List T_List P_Draw.
From Coq Require Import ZArith NArith List Bool Lia.
Import ListNotations.
Open Scope Z_scope.

(** The length the limits on long lines speak about is the length of the UTF-8 encoding. *)
Theorem C20_bytes : forall s, (forall r, In r s -> scalar r = true) -> byte_len s = zlen (encode s).
Proof.
  induction s as [|r s IH]; intros H; [reflexivity|]. unfold byte_len in *. cbn [map encode flat_map]. rewrite zsum_cons, IH by (intros; apply H; now right).
  change (flat_map encode_rune s) with (encode s). rewrite zlen_app. f_equal. unfold encode_rune, utf8_len. rewrite (H r (or_introl eq_refl)).
  destruct (r <? 128)%N, (r <? 2048)%N, (r <? 65536)%N; reflexivity.
Qed.
Print Assumptions C20_bytes.
Example C20_bytes_instance : byte_len [97%N; 233%N; 8364%N; 128512%N] = 10 /\ zlen (encode [97%N; 233%N; 8364%N; 128512%N]) = 10.
Proof. vm_compute. auto. Qed.

Lemma str_eqb_spec a b : reflect (a = b) (str_eqb a b).
Proof. destruct (str_eqb a b) eqn:E; constructor; [now apply str_eqb_eq|]. intros ->. rewrite str_eqb_refl in E. discriminate. Qed.

(** The characters Unicode gives the property White_Space. *)
Definition white_space : list N := [9; 10; 11; 12; 13; 32; 133; 160; 5760; 8192; 8193; 8194; 8195; 8196; 8197; 8198; 8199; 8200; 8201; 8202; 8232; 8233; 8239; 8287; 12288]%N.
(** A line may be broken at a grapheme that consists of white space, except at a no-break space, and at a zero-width space. *)
Theorem C21_blank : forall s, is_whitespace s = true <-> s = [8203%N] \/ (forall r, In r s -> In r white_space) /\ s <> [160%N].
Proof.
  assert (Sp : forall r, is_space r = true <-> In r white_space).
  { intros r. unfold is_space, white_space. rewrite !orb_true_iff, !andb_true_iff, !N.leb_le, !N.eqb_eq. cbn [In]. lia. }
  assert (All : forall s, forallb is_space s = true <-> forall r, In r s -> In r white_space).
  { intros s. rewrite forallb_forall. split; intros H r I; apply Sp, H, I. }
  intros s. unfold is_whitespace. destruct (str_eqb_spec s [8203%N]) as [->|N1]; [tauto|].
  destruct (forallb is_space s) eqn:E.
  - pose proof (proj1 (All s) E) as E'. clear E. destruct (str_eqb_spec s [160%N]) as [->|N2]; cbn [negb]; split; intros H; try discriminate; auto; destruct H as [H|[_ H]]; congruence.
  - split; [discriminate|]. intros [H|[H _]]; [contradiction|]. apply (proj2 (All s)) in H. congruence.
Qed.
Print Assumptions C21_blank.
Example C21_blank_instance : is_whitespace [12288%N] = true /\ is_whitespace [160%N] = false /\ is_whitespace [8203%N] = true /\ is_whitespace [97%N] = false.
Proof. vm_compute. auto. Qed.

(** Clearing the selection: nothing is selected, the next rendering selects nothing, and the window goes back to the first item. *)
Theorem C24_unselect : forall s, st_selected (st_unselect s) = None /\ st_offset (st_unselect s) = 0 /\
  forall u l area b b' s', list_render u l area b (st_unselect s) = Ret (b', s') -> st_selected s' = None.
Proof.
  intros s. split; [reflexivity|]. split; [reflexivity|]. intros u l area b b' s' E. destruct (render_state _ _ _ _ _ _ _ E) as [[-> _]|[_ H]]; [reflexivity|].
  destruct (st_selected s') as [i|]; [|reflexivity]. destruct (H i eq_refl) as (j & Ej & _). discriminate.
Qed.
Print Assumptions C24_unselect.
(** Asked for the selection of a list with [n] items, the state answers with an item of the list, and with the selected one if it is among them. *)
Theorem C24_selected_of : forall s n, reached s -> 0 < n ->
  match st_selected_max s (n - 1) with
  | (i, true) => 0 <= i < n /\ (forall j, st_selected s = Some j -> i = if j <? n then j else n - 1)
  | (_, false) => st_selected s = None
  end.
Proof.
  intros s n R Hn. pose proof (reached_ok s R) as O. unfold st_selected_max, sel_ok in *. destruct (st_selected s) as [j|]; [|reflexivity]. specialize (O j eq_refl).
  split; [lia|]. intros j' E. injection E as <-. destruct (Z.ltb_spec j n); lia.
Qed.
Print Assumptions C24_selected_of.
Example C24_selected_instance : st_selected_max (st_select_last (ListState 0 None)) 4 = (4, true) /\ st_selected_max (st_unselect (ListState 3 (Some 5))) 4 = (0, false).
Proof. vm_compute. auto. Qed.
