(** The byte stream of the library's commands is read back as the intended control sequences. *)
From Verif Require Import Base M_Geom M_Style M_Uniseg M_Ansi S_Terminal S_Ansi S_Display P_Base.
From Coq Require Import ZArith NArith List Bool Lia.
Import ListNotations.
Open Scope Z_scope.

(** Intended parameters of a colour. *)
Definition color_params (te : termenv) (c : color) (bg : bool) : list (list (option N)) :=
  match c with
  | ColNone => [[None]]
  | ColReset => if bg then [[Some 49%N]] else [[Some 39%N]]
  | ColAnsi n => [[Some ((if (n <? 8)%N then n + 30 else n - 8 + 90) + (if bg then 10 else 0))%N]]
  | ColAnsi256 n => [[Some (if bg then 48 else 38)%N]; [Some 5%N]; [Some n]]
  | ColRGB s => match hex te s with
                | Some (r, g, b) => [[Some (if bg then 48 else 38)%N]; [Some 2%N]; [Some r]; [Some g]; [Some b]]
                | None => [[None]]
                end
  end.

(** The control sequences (or characters) a command stands for. *)
Definition command_ptoks (te : termenv) (c : command) : list ptok :=
  match c with
  | MoveTo column row => [PCsi false [[Some (Z.to_N (row + 1))]; [Some (Z.to_N (column + 1))]] 72]
  | SetAttribute a =>
      let code := nth (N.to_nat a) sgr_table 0%N in
      [PCsi false [if (4 <? a)%N && (a <? 9)%N then [Some 4%N; Some code] else [Some code]] 109]
  | SetColors (Some f) (Some b) => [PCsi false (color_params te f false ++ color_params te b true) 109]
  | SetColors _ _ => []
  | Print s => map PChar s
  | ShowCursor => [PCsi true [[Some 25%N]] 104]
  | HideCursor => [PCsi true [[Some 25%N]] 108]
  | ClearAll => [PCsi false [[Some 2%N]] 74]
  | ClearAfterCursor => [PCsi false [[None]] 74]
  | ClearBeforeCursor => [PCsi false [[Some 1%N]] 74]
  | ClearCurrentLine => [PCsi false [[Some 2%N]] 75]
  | ClearUntilNewLine => [PCsi false [[None]] 75]
  | EnterAlternateScreen => [PCsi true [[Some 1049%N]] 104]
  | LeaveAlternateScreen => [PCsi true [[Some 1049%N]] 108]
  | EnableBracketedPaste => [PCsi true [[Some 2004%N]] 104]
  | DisableBracketedPaste => [PCsi true [[Some 2004%N]] 108]
  end.

Lemma scan_app s1 : forall m s2,
  scan m (s1 ++ s2) = let (o, m') := scan m s1 in let (o', m'') := scan m' s2 in (o ++ o', m'').
Proof.
  induction s1 as [|r s1 IH]; intros m s2; cbn.
  - now destruct (scan m s2).
  - destruct (step m r) as [o m1]. rewrite IH. destruct (scan m1 s1) as [o1 m2]. destruct (scan m2 s2). now rewrite app_assoc.
Qed.

Definition digits_value (ds : str) : N := fold_left (fun v r => 10 * v + (r - 48))%N ds 0%N.

Lemma dec_digits_spec fuel : forall n acc, (1 <= fuel)%nat -> (n < 2 ^ N.of_nat fuel)%N ->
  exists ds, dec_digits fuel n acc = ds ++ acc /\ ds <> [] /\ (forall r, In r ds -> is_digit r = true) /\ digits_value ds = n.
Proof.
  induction fuel as [|f IH]; intros n acc Hf Hn; [lia|]. cbn [dec_digits].
  pose proof (N.mod_lt n 10 ltac:(lia)) as Hm.
  assert (Hd : is_digit (48 + n mod 10)%N = true).
  { unfold is_digit. apply andb_true_intro. generalize dependent (n mod 10)%N. intros k Hk. split; apply N.leb_le; lia. }
  destruct (N.ltb_spec n 10).
  - exists [(48 + n mod 10)%N]. split; [reflexivity|]. split; [discriminate|]. split.
    + intros r [<-|[]]. exact Hd.
    + unfold digits_value; cbn [fold_left]. rewrite N.mod_small by lia. lia.
  - rewrite Nat2N.inj_succ, N.pow_succ_r' in Hn.
    pose proof (N.div_mod n 10 ltac:(lia)) as Hdm.
    destruct (IH (n / 10)%N ((48 + n mod 10)%N :: acc)) as (ds & E & Hne & Hds & Hv).
    + destruct f; [cbn in Hn; lia|lia].
    + apply N.div_lt_upper_bound; lia.
    + exists (ds ++ [(48 + n mod 10)%N]). rewrite E, <- app_assoc. split; [reflexivity|].
      split; [destruct ds; discriminate|]. split.
      * intros r Hr. apply in_app_or in Hr. destruct Hr as [Hr|[<-|[]]]; auto.
      * unfold digits_value in *. rewrite fold_left_app. cbn [fold_left]. rewrite Hv. clear - Hdm. rewrite Hdm at 3. generalize (n mod 10)%N (n/10)%N. intros; lia.
Qed.

Lemma itoa_N_spec n : exists ds, itoa_N n = ds /\ ds <> [] /\ (forall r, In r ds -> is_digit r = true) /\ digits_value ds = n.
Proof.
  unfold itoa_N. destruct (dec_digits_spec (S (N.to_nat (N.log2 n))) n []) as (ds & E & H); [lia| |].
  - rewrite Nat2N.inj_succ, N2Nat.id. destruct (N.eq_dec n 0) as [->|]; [reflexivity|]. apply N.log2_spec. lia.
  - exists ds. rewrite E, app_nil_r. tauto.
Qed.

Lemma scan_digits ds : forall p ps sb v s, (forall r, In r ds -> is_digit r = true) ->
  scan (Params p ps sb (Some v)) (ds ++ s) =
  scan (Params p ps sb (Some (fold_left (fun v r => 10 * v + (r - 48))%N ds v))) s.
Proof.
  induction ds as [|d ds IH]; intros p ps sb v s Hd; cbn [app fold_left]; [reflexivity|].
  cbn [scan step]. unfold params_step. rewrite (Hd d (or_introl eq_refl)). unfold push_digit.
  rewrite IH by (intros; apply Hd; now right). now destruct (scan _ s).
Qed.

Lemma scan_itoa p ps sb n s : scan (Params p ps sb None) (itoa_N n ++ s) = scan (Params p ps sb (Some n)) s.
Proof.
  destruct (itoa_N_spec n) as (ds & -> & Hne & Hd & Hv). destruct ds as [|d ds]; [easy|].
  cbn [app scan step]. unfold params_step. rewrite (Hd d (or_introl eq_refl)). unfold push_digit.
  rewrite scan_digits by (intros; apply Hd; now right).
  unfold digits_value in Hv. cbn [fold_left] in Hv. rewrite Hv. now destruct (scan _ s).
Qed.

Lemma scan_bracket_itoa n s : scan Bracket (itoa_N n ++ s) = scan (Params false [] [] (Some n)) s.
Proof.
  rewrite <- (scan_itoa false [] [] n s).
  destruct (itoa_N_spec n) as (ds & -> & Hne & Hd & Hv). destruct ds as [|d ds]; [easy|].
  cbn [app scan step]. specialize (Hd d (or_introl eq_refl)).
  replace (d =? 63)%N with false; [reflexivity|].
  symmetry. apply N.eqb_neq. intros ->. discriminate.
Qed.

(** A character that is neither a digit nor the start of a private sequence behaves the same right after the bracket. *)
Lemma scan_bracket s : (forall r s', s = r :: s' -> (r =? 63)%N = false) -> s <> [] -> scan Bracket s = scan (Params false [] [] None) s.
Proof.
  destruct s as [|r s]; [easy|]. intros H _. cbn [scan step]. now rewrite (H r s eq_refl).
Qed.

Lemma scan_semi p ps sb cur s : scan (Params p ps sb cur) (semi :: s) = scan (Params p (ps ++ [sb ++ [cur]]) [] None) s.
Proof. cbn [scan step]. unfold params_step, semi. cbn. now destruct (scan _ s). Qed.

Lemma scan_colon p ps sb cur s : scan (Params p ps sb cur) (58%N :: s) = scan (Params p ps (sb ++ [cur]) None) s.
Proof. cbn [scan step]. unfold params_step. cbn. now destruct (scan _ s). Qed.

Lemma scan_final p ps sb cur f s : is_digit f = false -> (f =? 58)%N = false -> (f =? 59)%N = false -> is_final f = true ->
  scan (Params p ps sb cur) (f :: s) = let (o, m) := scan Ground s in (PCsi p (ps ++ [sb ++ [cur]]) f :: o, m).
Proof. intros H1 H2 H3 H4. cbn [scan step]. unfold params_step. rewrite H1, H2, H3, H4. now destruct (scan Ground s). Qed.

Lemma itoa_nonneg z : 0 <= z -> itoa z = itoa_N (Z.to_N z).
Proof. intros H. unfold itoa. destruct (Z.ltb_spec z 0); [lia|reflexivity]. Qed.

Lemma scan_csi s : scan Ground (CSI ++ s) = scan Bracket s.
Proof. cbn. now destruct (scan Bracket s). Qed.

Lemma color_scan te c bg ps s :
  exists pre last, color_params te c bg = pre ++ [[last]] /\
  scan (Params false ps [] None) (color_sequence te c bg ++ s) = scan (Params false (ps ++ pre) [] last) s.
Proof.
  destruct c as [| |n|n|sx]; cbn [color_params color_sequence].
  - exists [], None. rewrite app_nil_r. auto.
  - destruct bg; [exists [], (Some 49%N)|exists [], (Some 39%N)]; rewrite app_nil_r; (split; [reflexivity|]);
      cbn; now destruct (scan _ s).
  - eexists [], _. split; [reflexivity|]. rewrite scan_itoa, app_nil_r. reflexivity.
  - set (k := if bg then 48%N else 38%N).
    exists [[Some k]; [Some 5%N]], (Some n). split; [reflexivity|].
    replace (if bg then [52%N; 56%N] else [51%N; 56%N]) with (itoa_N k) by (now destruct bg).
    replace [semi; 53%N; semi] with ([semi] ++ itoa_N 5 ++ [semi]) by reflexivity.
    rewrite <- !app_assoc. rewrite scan_itoa. cbn [app]. rewrite scan_semi, scan_itoa, scan_semi, scan_itoa.
    now rewrite <- !app_assoc.
  - destruct (hex te sx) as [[[r g] b]|].
    + set (k := if bg then 48%N else 38%N).
      exists [[Some k]; [Some 2%N]; [Some r]; [Some g]], (Some b). split; [reflexivity|].
      replace (if bg then [52%N; 56%N] else [51%N; 56%N]) with (itoa_N k) by (now destruct bg).
      replace [semi; 50%N; semi] with ([semi] ++ itoa_N 2 ++ [semi]) by reflexivity.
      rewrite <- !app_assoc. rewrite scan_itoa. cbn [app]. rewrite scan_semi, scan_itoa, scan_semi, scan_itoa.
      rewrite scan_semi, scan_itoa, scan_semi, scan_itoa. now rewrite <- !app_assoc.
    + exists [], None. rewrite app_nil_r. auto.
Qed.

Lemma color_sequence_head te c bg s' : exists r s, color_sequence te c bg ++ semi :: s' = r :: s /\ (r =? 63)%N = false.
Proof.
  assert (D : forall n t, exists r s, itoa_N n ++ t = r :: s /\ (r =? 63)%N = false).
  { intros n t. destruct (itoa_N_spec n) as (ds & -> & Hne & Hd & _). destruct ds as [|d ds]; [easy|].
    exists d, (ds ++ t). split; [reflexivity|]. apply N.eqb_neq. intros ->. now specialize (Hd _ (or_introl eq_refl)). }
  destruct c as [| |n|n|sx]; cbn [color_sequence].
  - now exists semi, s'.
  - destruct bg; now eexists _, _.
  - apply D.
  - destruct bg; now eexists _, _.
  - destruct (hex te sx) as [[[r g] b]|]; [destruct bg; now eexists _, _|now exists semi, s'].
Qed.

(** Commands whose arguments make sense: non-negative coordinates, printable text, no nil colour. *)
Definition command_ok (c : command) : Prop :=
  match c with
  | MoveTo column row => 0 <= column /\ 0 <= row
  | SetAttribute a => (a < 28)%N
  | SetColors f b => f <> None /\ b <> None
  | Print s => plain s
  | _ => True
  end.

Lemma scan_plain s m' : plain s -> scan Ground (s ++ m') = let (o, m) := scan Ground m' in (map PChar s ++ o, m).
Proof.
  induction s as [|r s IH]; intros H; cbn [app map].
  - now destruct (scan Ground m').
  - cbn [scan step]. assert (Hr := H r (or_introl eq_refl)).
    destruct (r =? 27)%N eqn:E; [apply N.eqb_eq in E; subst; discriminate|].
    unfold is_control. rewrite Hr. rewrite IH by (intros x Hx; apply H; now right). now destruct (scan Ground m').
Qed.

Lemma write_ansi_scan te c : command_ok c -> exists s, write_ansi te c = Ret s /\
  forall rest, scan Ground (s ++ rest) = let (o, m) := scan Ground rest in (command_ptoks te c ++ o, m).
Proof.
  intros Hok. destruct c as [co ro|a|f b|s| | | | | | | | | | |]; cbn [write_ansi command_ptoks].
  2: { cbn in Hok. unfold attr_sgr.
       destruct (nth_error sgr_table (N.to_nat a)) as [code|] eqn:E.
       2: { apply nth_error_None in E. cbn in E. lia. }
       rewrite (nth_error_nth _ _ 0%N E). eexists. split; [reflexivity|]. intros rest.
       rewrite <- !app_assoc, scan_csi.
       destruct ((4 <? a)%N && (a <? 9)%N).
       - cbn [app].
         replace (52%N :: 58%N :: itoa_N code ++ 109%N :: rest) with (itoa_N 4 ++ 58%N :: itoa_N code ++ 109%N :: rest) by reflexivity.
         rewrite scan_bracket_itoa, scan_colon, scan_itoa, scan_final by reflexivity.
         destruct (scan Ground rest). reflexivity.
       - cbn [app]. rewrite scan_bracket_itoa, scan_final by reflexivity. destruct (scan Ground rest). reflexivity. }
  3: { eexists. split; [reflexivity|]. intros rest. apply scan_plain. exact Hok. }
  2: { destruct f as [f|], b as [b|]; try (destruct Hok; congruence). eexists; split; [reflexivity|].
       intros rest. rewrite <- !app_assoc. rewrite scan_csi. cbn [app].
       rewrite scan_bracket.
       2: { intros r s' Es. destruct (color_sequence_head te f false (color_sequence te b true ++ 109%N :: rest)) as (r0 & s0 & E & Hr).
            rewrite E in Es. injection Es as <- _. exact Hr. }
       2: { now destruct (color_sequence te f false). }
       destruct (color_scan te f false [] (semi :: color_sequence te b true ++ 109%N :: rest)) as (pre & last & E1 & E2).
       rewrite E2, scan_semi. cbn [app].
       destruct (color_scan te b true (pre ++ [[last]]) (109%N :: rest)) as (pre2 & last2 & E3 & E4).
       rewrite E4, scan_final by reflexivity. rewrite E1, E3.
       destruct (scan Ground rest). rewrite <- !app_assoc. reflexivity. }
  1: { destruct Hok. eexists; split; [reflexivity|]. intros rest. rewrite <- !app_assoc, scan_csi.
       rewrite !itoa_nonneg by lia. rewrite scan_bracket_itoa. cbn [app].
       rewrite scan_semi, scan_itoa, scan_final by reflexivity. now destruct (scan Ground rest). }
  all: eexists; split; [reflexivity|]; intros rest; cbn; destruct (scan Ground rest); reflexivity.
Qed.

Lemma write_all_parse te l : (forall c, In c l -> command_ok c) ->
  exists s, write_all te l = Ret s /\ parse s = Some (flat_map (command_ptoks te) l).
Proof.
  intros H. cut (exists s, write_all te l = Ret s /\
    forall rest, scan Ground (s ++ rest) = let (o, m) := scan Ground rest in (flat_map (command_ptoks te) l ++ o, m)).
  { intros (s & E & Hs). exists s. split; auto. unfold parse. specialize (Hs []). rewrite app_nil_r in Hs. cbn in Hs.
    rewrite Hs. now rewrite app_nil_r. }
  induction l as [|c l IH]; cbn [write_all flat_map].
  - exists []. split; [reflexivity|]. intros rest. cbn. now destruct (scan Ground rest).
  - destruct (write_ansi_scan te c) as (s1 & E1 & H1); [apply H; now left|].
    destruct IH as (s2 & E2 & H2); [intros; apply H; now right|].
    rewrite E1, E2. cbn. exists (s1 ++ s2). split; [reflexivity|]. intros rest.
    rewrite <- app_assoc, H1, H2. destruct (scan Ground rest). now rewrite <- app_assoc.
Qed.
