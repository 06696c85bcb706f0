(** C77 (continued): the named modifiers of a style. *)
From Verif Require Import Base M_Geom M_Style M_Uniseg M_Buffer M_Ansi S_Terminal S_Display.
From Coq Require Import ZArith NArith List Bool Lia.
Import ListNotations.
Open Scope N_scope.

(** The attributes [a] with one of them switched on. *)
Definition in_bold (a : tattr) := TAttr (a_fg a) (a_bg a) true (a_dim a) (a_italic a) (a_underline a) (a_slow a) (a_rapid a) (a_reverse a) (a_hidden a) (a_crossed a).
Definition in_dim (a : tattr) := TAttr (a_fg a) (a_bg a) (a_bold a) true (a_italic a) (a_underline a) (a_slow a) (a_rapid a) (a_reverse a) (a_hidden a) (a_crossed a).
Definition in_italic (a : tattr) := TAttr (a_fg a) (a_bg a) (a_bold a) (a_dim a) true (a_underline a) (a_slow a) (a_rapid a) (a_reverse a) (a_hidden a) (a_crossed a).
Definition in_underline (a : tattr) := TAttr (a_fg a) (a_bg a) (a_bold a) (a_dim a) (a_italic a) true (a_slow a) (a_rapid a) (a_reverse a) (a_hidden a) (a_crossed a).
Definition in_reverse (a : tattr) := TAttr (a_fg a) (a_bg a) (a_bold a) (a_dim a) (a_italic a) (a_underline a) (a_slow a) (a_rapid a) true (a_hidden a) (a_crossed a).
Definition in_crossed (a : tattr) := TAttr (a_fg a) (a_bg a) (a_bold a) (a_dim a) (a_italic a) (a_underline a) (a_slow a) (a_rapid a) (a_reverse a) (a_hidden a) true.

Lemma has_bit m k : has m (2 ^ k) = N.testbit m k.
Proof.
  unfold has. destruct (N.testbit m k) eqn:B.
  - destruct (N.land m (2 ^ k) =? 0) eqn:Z; [exfalso|reflexivity]. apply N.eqb_eq in Z. apply (f_equal (fun x => N.testbit x k)) in Z. rewrite N.land_spec, B, N.pow2_bits_true, N.bits_0 in Z. discriminate.
  - replace (N.land m (2 ^ k)) with 0; [reflexivity|]. apply N.bits_inj. intros b. rewrite N.bits_0, N.land_spec. destruct (N.eq_dec k b) as [<-|Nb]; [now rewrite B|]. rewrite N.pow2_bits_false by exact Nb. now rewrite andb_false_r.
Qed.
Lemma bit_diff a b k : N.testbit (bit_difference a b) k = N.testbit a k && negb (N.testbit b k).
Proof. unfold bit_difference. now rewrite N.ldiff_spec. Qed.
Lemma drawn_bit s c k b : N.testbit (cmod (cell_set_style (with_modifier s (2 ^ k)) c)) b = if k =? b then true else N.testbit (cmod (cell_set_style s c)) b.
Proof.
  unfold cell_set_style, with_modifier. cbn [cmod sadd ssub]. unfold bit_union. rewrite !bit_diff, !N.lor_spec. destruct (N.eqb_spec k b) as [<-|Nb].
  - rewrite N.pow2_bits_true. now rewrite !orb_true_r, andb_false_r.
  - rewrite N.pow2_bits_false by exact Nb. now rewrite orb_false_r, andb_true_r.
Qed.

(** ** C77: text in [s.Bold()] looks like text in [s], but bold, whatever [s] asked to be added and removed; likewise for the others *)
Theorem C77_named_modifiers te s c : let look st := attr_of te (cell_set_style st c) in
  look (bold s) = in_bold (look s) /\ look (dim s) = in_dim (look s) /\ look (italic s) = in_italic (look s) /\ look (underlined s) = in_underline (look s) /\
  look (reversed s) = in_reverse (look s) /\ look (crossed_out s) = in_crossed (look s).
Proof.
  cbn zeta. unfold attr_of, attr_for. change ModifierBold with (2 ^ 0). change ModifierDim with (2 ^ 1). change ModifierItalic with (2 ^ 2). change ModifierUnderlined with (2 ^ 3). change ModifierSlowBlink with (2 ^ 4).
  change ModifierRapidBlink with (2 ^ 5). change ModifierReversed with (2 ^ 6). change ModifierHidden with (2 ^ 7). change ModifierCrossedOut with (2 ^ 8). rewrite !has_bit.
  unfold bold, dim, italic, underlined, reversed, crossed_out. change ModifierBold with (2 ^ 0). change ModifierDim with (2 ^ 1). change ModifierItalic with (2 ^ 2). change ModifierUnderlined with (2 ^ 3).
  change ModifierReversed with (2 ^ 6). change ModifierCrossedOut with (2 ^ 8). repeat split; rewrite !drawn_bit; reflexivity.
Qed.
Example C77_named_instance te : let c := cell_set_style (Style (Some (ColAnsi 1)) None ModifierItalic 0) (new_cell [97]) in let s := without_modifier new_style ModifierAll in
  attr_of te (cell_set_style s c) = TAttr (shown_or_default te (Some (ColAnsi 1))) (shown_or_default te (Some ColReset)) false false false false false false false false false /\
  attr_of te (cell_set_style (crossed_out (bold s)) c) = TAttr (shown_or_default te (Some (ColAnsi 1))) (shown_or_default te (Some ColReset)) true false false false false false false false true.
Proof. split; reflexivity. Qed.
Print Assumptions C77_named_modifiers.
