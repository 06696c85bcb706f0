(** Lemmas about SetStringN. *)
From Verif Require Import Base M_Geom S_Geom M_Style M_Uniseg M_Buffer S_Buffer S_Text P_Base T_Geom P_Buffer.
From Coq Require Import ZArith NArith List Bool Lia.
Import ListNotations.
Open Scope Z_scope.

(** Columns a cluster moves the pen by. *)
Definition adv (u : uniseg) (c : str) : Z := Z.max 1 (cwidth u c).

(** The clusters the loop of SetStringN writes: those reached while some width remains. *)
Fixpoint taken (u : uniseg) (rem : Z) (cl : list str) : list str :=
  match cl with
  | [] => []
  | c :: cl' => if rem >? 0 then c :: taken u (rem - cwidth u c) cl' else []
  end.

Definition draw_glyph (st : style) (g : option glyph) (c : cell) : cell :=
  match g with
  | Some (Head s) => cell_set_style st (cell_set_symbol s c)
  | Some Tail => cell_reset c
  | None => c
  end.

Lemma glyph_at_neg w l o : o < 0 -> glyph_at w l o = None.
Proof. destruct l; cbn; auto. intros H. replace (o <? 0) with true; auto. symmetry; apply Z.ltb_lt; lia. Qed.

Lemma glyph_at_none w l o : (forall c, In c l -> 1 <= w c) -> (glyph_at w l o = None <-> ~ (0 <= o < zsum (map w l))).
Proof.
  revert o; induction l as [|c l IH]; intros o Hw; cbn [glyph_at map].
  - cbn. split; [lia|reflexivity].
  - rewrite zsum_cons. assert (1 <= w c) by (apply Hw; now left).
    assert (0 <= zsum (map w l)). { apply zsum_nonneg. intros z Hz. apply in_map_iff in Hz. destruct Hz as [d [<- Hd]].
      specialize (Hw d (or_intror Hd)). lia. }
    destruct (Z.ltb_spec o 0); [split; [lia|reflexivity]|].
    destruct (Z.eqb_spec o 0); [split; [discriminate|lia]|].
    destruct (Z.ltb_spec o (w c)); [split; [discriminate|lia]|].
    rewrite IH by (intros; apply Hw; now right). lia.
Qed.

Lemma glyph_at_head_len w l o c : glyph_at w l o = Some (Head c) -> In c l.
Proof.
  revert o; induction l as [|a l IH]; intros o; cbn; [discriminate|].
  destruct (o <? 0); [discriminate|]. destruct (o =? 0); [intros H; injection H; auto|].
  destruct (o <? w a); [discriminate|]. intros H. right. eauto.
Qed.

Lemma set_clusters_spec u st y cl : forall b x rem, wf_buffer b ->
  ry (barea b) <= y < ry (barea b) + rh (barea b) -> rx (barea b) <= x ->
  x + zsum (map (adv u) (taken u rem cl)) <= rx (barea b) + rw (barea b) ->
  exists b', set_clusters u b x y rem cl st = Ret (b', x + zsum (map (adv u) (taken u rem cl))) /\
    barea b' = barea b /\ wf_buffer b' /\
    (forall p, py p = y -> look b' p = option_map (draw_glyph st (glyph_at (adv u) (taken u rem cl) (px p - x))) (look b p)) /\
    (forall p, py p <> y -> look b' p = look b p).
Proof.
  induction cl as [|c cl IH]; intros b x rem Hwf Hy Hx Hr; cbn [set_clusters taken].
  - exists b. cbn. rewrite Z.add_0_r. repeat split; auto; try apply Hwf.
    intros p _. destruct (look b p); reflexivity.
  - destruct (rem >? 0) eqn:E.
    2:{ exists b. cbn. rewrite Z.add_0_r. repeat split; auto; try apply Hwf.
        intros p _. destruct (look b p); reflexivity. }
    cbn [taken] in Hr. rewrite E in Hr. cbn [map] in Hr |- *. rewrite zsum_cons in Hr |- *.
    set (tk := taken u (rem - cwidth u c) cl) in *.
    assert (Htk : 0 <= zsum (map (adv u) tk)).
    { apply zsum_nonneg. intros z Hz. apply in_map_iff in Hz. destruct Hz as [d [<- _]]. unfold adv. lia. }
    assert (Ha : 1 <= adv u c) by (unfold adv; lia).
    destruct (upd_cell_spec b (Pos x y) (fun c0 => cell_set_style st (cell_set_symbol c c0)) Hwf) as [b1 [E1 (A1 & W1 & C1 & D1)]].
    { unfold inside; cbn. lia. }
    cbv zeta. rewrite E1. cbn [bind].
    assert (L : exists b2, ofold (fun b0 x' => upd_cell b0 (Pos x' y) cell_reset) (zrange (x + 1) (x + cwidth u c)) b1 = Ret b2
             /\ changed_exactly (fun p => py p = y /\ x + 1 <= px p < x + cwidth u c) (fun _ => cell_reset) b1 b2).
    { pose proof (ofold_map (fun b p => upd_cell b p cell_reset) (fun x' => Pos x' y) (zrange (x + 1) (x + cwidth u c)) b1) as M.
      cbn beta in M. rewrite <- M.
      destruct (ofold_upd_spec (fun _ => cell_reset) (map (fun x' => Pos x' y) (zrange (x + 1) (x + cwidth u c)))) with (b := b1)
        as [b2 [E2 (A2 & W2 & C2 & D2)]]; auto.
      - apply FinFun.Injective_map_NoDup; [|apply zrange_NoDup]. intros ? ? H; now injection H.
      - intros p Hp. apply in_map_iff in Hp. destruct Hp as [x' [<- Hx']]. apply zrange_In in Hx'.
        rewrite A1. unfold inside; cbn. unfold adv in *. lia.
      - exists b2. split; [exact E2|]. split; [auto|]. split; [auto|].
        assert (I : forall p, In p (map (fun x' => Pos x' y) (zrange (x + 1) (x + cwidth u c))) <-> py p = y /\ x + 1 <= px p < x + cwidth u c).
        { intros p. rewrite in_map_iff. split.
          - intros [x' [<- Hx']]. apply zrange_In in Hx'. cbn. auto.
          - intros [Hp1 Hp2]. exists (px p). rewrite zrange_In. destruct p; cbn in *; subst; auto. }
        split; intros p Hp; [apply C2, I, Hp|apply D2; intros Hin; apply Hp, I, Hin]. }
    destruct L as [b2 [E2 (A2 & W2 & C2 & D2)]]. rewrite E2. cbn [bind].
    replace (Z.max (x + 1) (x + cwidth u c)) with (x + adv u c) by (unfold adv; lia).
    destruct (IH b2 (x + adv u c) (rem - cwidth u c)) as [b' [E' (A' & W' & C' & D')]]; auto.
    { rewrite A2, A1. lia. } { rewrite A2, A1. lia. } { rewrite A2, A1. fold tk. lia. }
    fold tk in E', C'. exists b'. rewrite E'. rewrite Z.add_assoc. split; [reflexivity|].
    split; [congruence|]. split; [auto|]. split.
    + intros p Hp. rewrite C' by auto. cbn [glyph_at].
      replace (px p - (x + adv u c)) with (px p - x - adv u c) by lia.
      set (o := px p - x).
      destruct (Z.ltb_spec o 0).
      { rewrite glyph_at_neg by lia. rewrite D2 by lia. rewrite D1 by (intros ->; cbn in *; lia). reflexivity. }
      destruct (Z.eqb_spec o 0).
      { rewrite glyph_at_neg by lia. rewrite D2 by lia. rewrite C1 by (destruct p; cbn in *; f_equal; lia).
        destruct (look b p); reflexivity. }
      destruct (Z.ltb_spec o (adv u c)).
      { rewrite glyph_at_neg by lia. rewrite C2 by (unfold adv in *; lia).
        rewrite D1 by (intros ->; cbn in *; lia). destruct (look b p); reflexivity. }
      rewrite D2 by (unfold adv in *; lia). rewrite D1 by (intros ->; cbn in *; lia). reflexivity.
    + intros p Hp. rewrite D' by auto. rewrite D2 by lia. apply D1. intros ->. cbn in *; lia.
Qed.

(** Whatever happens, a returning call changed only cells of row [y] from column [x] on. *)
Lemma set_clusters_only u st y cl : forall b x rem b' x', wf_buffer b ->
  set_clusters u b x y rem cl st = Ret (b', x') ->
  x <= x' /\ changed_only (fun p => py p = y /\ x <= px p < x' /\ inside p (barea b)) b b'.
Proof.
  induction cl as [|c cl IH]; intros b x rem b' x' Hwf E; cbn [set_clusters] in E.
  - injection E as <- <-. split; [lia|]. now apply changed_only_refl.
  - destruct (rem >? 0). 2:{ injection E as <- <-. split; [lia|]. now apply changed_only_refl. }
    cbv zeta in E. destruct (upd_cell b (Pos x y) _) as [b1|] eqn:E1; [|discriminate]. cbn [bind] in E.
    apply upd_cell_Ret in E1; auto. destruct E1 as [I1 (A1 & W1 & C1 & D1)].
    destruct (ofold _ _ b1) as [b2|] eqn:E2; [|discriminate]. cbn [bind] in E.
    assert (G : changed_only (fun p => py p = y /\ x + 1 <= px p < Z.max (x+1) (x + cwidth u c) /\ inside p (barea b1)) b1 b2).
    { revert E2. apply (ofold_inv' _ (fun s => changed_only (fun p => py p = y /\ x + 1 <= px p < Z.max (x+1) (x + cwidth u c) /\ inside p (barea b1)) b1 s)).
      - now apply changed_only_refl.
      - intros s a s' Ha Hs Hu. apply zrange_In in Ha. pose proof Hs as (As & Ws & _).
        apply upd_cell_Ret in Hu; auto. destruct Hu as [Iu Cu].
        eapply changed_only_trans; [exact Hs|].
        eapply changed_only_weaken; [|eapply changed_exactly_only; exact Cu].
        intros p ->. cbn. rewrite As in Iu. split; [reflexivity|]. split; [lia|auto]. }
    apply IH in E; [|apply G]. destruct E as [Hx' H]. split; [lia|].
    destruct G as (A2 & W2 & D2). destruct H as (A3 & W3 & D3).
    split; [congruence|]. split; [auto|]. intros p Hp.
    rewrite D3, D2, D1; auto.
    + intros ->. apply Hp. cbn. split; auto. split; [lia|auto].
    + intros (? & ? & ?). apply Hp. rewrite <- A1. split; auto. split; [lia|auto].
    + intros (? & ? & HH). apply Hp. rewrite <- A1, <- A2. split; auto. split; [lia|auto].
Qed.

Lemma taken_app u pre : forall rem post, (forall c, In c pre -> 1 <= cwidth u c) ->
  widths u pre <= rem -> (post = [] \/ widths u pre = rem) -> taken u rem (pre ++ post) = pre.
Proof.
  induction pre as [|c pre IH]; intros rem post Hw Hle Hor; cbn [app taken].
  - destruct post; auto. destruct Hor as [|Hor]; [discriminate|]. cbn in Hor. subst.
    cbn. reflexivity.
  - unfold widths in *. cbn [map] in *. rewrite zsum_cons in *.
    assert (1 <= cwidth u c) by (apply Hw; now left).
    assert (0 <= zsum (map (cwidth u) pre)).
    { apply zsum_nonneg. intros z Hz. apply in_map_iff in Hz. destruct Hz as [d [<- Hd]]. specialize (Hw d (or_intror Hd)). lia. }
    destruct (rem >? 0) eqn:E; [|rewrite Z.gtb_ltb in E; apply Z.ltb_ge in E; lia].
    f_equal. apply IH; [intros; apply Hw; now right|lia|]. destruct Hor; [auto|right; lia].
Qed.

Lemma adv_eq u l : (forall c, In c l -> 1 <= cwidth u c) -> zsum (map (adv u) l) = widths u l.
Proof.
  induction l as [|c l IH]; intros H; [reflexivity|]. unfold widths in *. cbn [map]. rewrite !zsum_cons.
  rewrite IH by (intros; apply H; now right). unfold adv. specialize (H c (or_introl eq_refl)). lia.
Qed.

Lemma glyph_at_adv u l o : (forall c, In c l -> 1 <= cwidth u c) -> glyph_at (adv u) l o = glyph_at (cwidth u) l o.
Proof.
  revert o; induction l as [|c l IH]; intros o H; cbn; auto.
  assert (E : adv u c = cwidth u c). { unfold adv. specialize (H c (or_introl eq_refl)). lia. }
  rewrite E. rewrite IH by (intros; apply H; now right). reflexivity.
Qed.

Lemma simple_uniseg_ok : uniseg_ok simple_uniseg.
Proof.
  constructor.
  - intros s. cbn. induction s; cbn; auto. now f_equal.
  - intros s c H. cbn in H. apply in_map_iff in H. destruct H as [r [<- _]]. discriminate.
  - intros s l1 l2 l3 H. cbn in *.
    assert (G : forall c, In c l2 -> exists r, c = [r]).
    { intros c Hc. assert (In c (map (fun r => [r]) s)) by (rewrite H, !in_app_iff; auto).
      apply in_map_iff in H0. destruct H0 as [r [<- _]]. eauto. }
    clear H. induction l2 as [|c l2 IH]; cbn; auto.
    destruct (G c (or_introl eq_refl)) as [r ->]. cbn. f_equal. apply IH. intros; apply G. now right.
  - intros [|r c]; cbn; [lia|]. unfold rune_width.
    repeat match goal with |- context [if ?b then _ else _] => destruct b end; lia.
Qed.
