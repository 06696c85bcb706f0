(** When the symbols are walked in a fixed order, optimising ends (Bland's rule). *)
From Verif Require Import Base M_Solver P_Row P_Tableau P_Simplex P_Add P_Exact.
From Coq Require Import ZArith NArith QArith List Bool Lia Lqa Setoid Morphisms Permutation Sorted.
Import ListNotations.
Open Scope Q_scope.

(** A number for each symbol *)
Definition type_code (t : stype) : N := match t with TExternal => 0 | TSlack => 1 | TError => 2 | TDummy => 3 end.
Definition idx (x : symbol) : N := (4 * sy_value x + type_code (sy_type x))%N.
Lemma idx_inj x y : idx x = idx y -> x = y.
Proof.
  destruct x as [a t], y as [b u]. unfold idx. cbn [sy_value sy_type]. intros E. assert (t = u /\ a = b) as [-> ->]; [|reflexivity].
  destruct t, u; cbn [type_code] in E; (split; [first [reflexivity|exfalso; lia]|lia]).
Qed.
Definition ranked (l : list symbol) : Prop := StronglySorted (fun x y => (idx x <= idx y)%N) l.
Lemma ranked_find f l x : ranked l -> find f l = Some x -> forall y, In y l -> f y = true -> (idx x <= idx y)%N.
Proof.
  induction l as [|a l IH]; intros H F y I Fy; [discriminate|]. cbn in F. inversion H as [|? ? H1 H2]; subst. destruct (f a) eqn:Fa.
  - injection F as <-. destruct I as [<-|I]; [lia|]. rewrite Forall_forall in H2. now apply H2.
  - destruct I as [<-|I]; [congruence|]. now apply IH.
Qed.
Fixpoint rank_in (x : symbol) (l : list symbol) : list symbol := match l with [] => [x] | y :: l' => if (idx x <=? idx y)%N then x :: l else y :: rank_in x l' end.
Definition rank (l : list symbol) : list symbol := fold_right rank_in [] l.
Lemma rank_in_perm x l : Permutation (rank_in x l) (x :: l).
Proof. induction l as [|y l IH]; cbn; [reflexivity|]. destruct (idx x <=? idx y)%N; [reflexivity|]. rewrite IH. apply perm_swap. Qed.
Lemma rank_perm l : Permutation (rank l) l.
Proof. induction l as [|x l IH]; cbn; [reflexivity|]. rewrite rank_in_perm. now constructor. Qed.
Lemma rank_in_ranked x l : ranked l -> ranked (rank_in x l).
Proof.
  unfold ranked. induction l as [|y l IH]; cbn; intros H; [repeat constructor|]. inversion H as [|? ? H1 H2]; subst. destruct (N.leb_spec (idx x) (idx y)) as [L|L].
  - constructor; [exact H|]. constructor; [exact L|]. eapply Forall_impl; [|exact H2]. cbn. intros z Z. lia.
  - constructor; [now apply IH|]. rewrite Forall_forall in *. intros z I. apply (Permutation_in _ (rank_in_perm x l)) in I. destruct I as [<-|I]; [lia|now apply H2].
Qed.
Lemma rank_ranked l : ranked (rank l).
Proof. induction l as [|x l IH]; cbn; [constructor|now apply rank_in_ranked]. Qed.

Section Tolerance.
Context {tolr : tolerance}.

(** ** Two tableaux that Bland's rule cannot meet *)
Section Conflict.
Variables (rows0 rows1 : list (symbol * row)) (g0 g1 : row).
Hypotheses (T0 : tab rows0) (T1 : tab rows1) (O0 : objective rows0 g0) (O1 : objective rows1 g1).
Hypothesis Hs : forall v, hold rows1 v <-> hold rows0 v.
Hypothesis Hg : forall v, hold rows0 v -> ev g1 v == ev g0 v.
Hypothesis Hz : forall x, sol rows1 x == sol rows0 x.
Variables (s t : symbol) (rt : row).
Hypotheses (Os : occurs s g0) (Ds : sy_type s <> TDummy) (Cs : cf (r_cells g0) s < 0).
Hypotheses (Lt : look t rows0 = Some rt) (Et : sy_type t <> TExternal) (Ct : cf (r_cells rt) s < 0).
Hypothesis Mt : forall p q, look p rows0 = Some q -> sy_type p <> TExternal -> cf (r_cells q) s < 0 -> ratio_of q s == ratio_of rt s -> (idx t <= idx p)%N.
Hypotheses (Ot : occurs t g1) (Cg : cf (r_cells g1) t < 0).
Hypothesis Mg : forall x, occurs x g1 -> sy_type x <> TDummy -> cf (r_cells g1) x < 0 -> (idx t <= idx x)%N.
Hypothesis Fick : forall x, In x (dom rows0) -> ~ In x (dom rows1) -> (idx x <= idx t)%N.
Hypothesis Fs : (idx s <= idx t)%N.

Lemma bland_conflict : False.
Proof.
  pose (d := fun z => if sym_eqb z s then 1 else 0). pose (v := full rows0 d).
  assert (Ns : ~ In s (dom rows0)) by (now apply (ob_basic _ _ O0)).
  assert (Dn : forall z, z <> s -> d z == 0) by (intros z Z; unfold d; apply sym_eqb_no in Z; rewrite Z; reflexivity).
  assert (Dd : d s = 1) by (unfold d; now rewrite sym_eqb_refl).
  assert (EV : forall q, wf q -> ev q d == r_const q + cf (r_cells q) s).
  { intros q [Nq _]. unfold ev. rewrite (ev_cells_one _ s d) by (auto; intros z _ Z; now apply Dn). rewrite Dd. ring. }
  assert (Hv : hold rows0 v) by (now apply hold_full).
  assert (E0 : ev g0 v == r_const g0 + cf (r_cells g0) s). { unfold v. rewrite full_ev by (apply O0). apply EV. apply O0. }
  assert (K : r_const g1 == r_const g0).
  { rewrite <- (obj_sol rows1 g1 O1), <- (obj_sol rows0 g0 O0). rewrite <- (Hg (sol rows0)) by (now apply hold_sol). apply ev_ext. intros; apply Hz. }
  pose proof (Hg v Hv) as E1. rewrite E0 in E1. unfold ev in E1. rewrite K in E1.
  assert (P : 0 <= ev_cells (r_cells g1) v); [|lra]. apply ev_cells_pos. intros [j c] I. cbn [fst snd].
  assert (Oj : occurs j g1) by (apply in_dom in I; exact I).
  assert (Cj : cf (r_cells g1) j = c) by (unfold cf; rewrite (in_look _ _ _ (proj1 (ob_wf _ _ O1)) I); reflexivity).
  assert (Nj : ~ In j (dom rows1)) by (now apply (ob_basic _ _ O1)).
  assert (Zj : sol rows0 j == 0). { rewrite <- Hz. unfold sol. apply look_none in Nj. rewrite Nj. reflexivity. }
  destruct (look j rows0) as [q|] eqn:Lj.
  - assert (Vj : v j == cf (r_cells q) s). { unfold v, full. rewrite Lj. rewrite EV by (apply (tb_wf _ T0 (j, q)); now apply look_in). unfold sol in Zj. rewrite Lj in Zj. rewrite Zj. ring. }
    assert (Fj : (idx j <= idx t)%N) by (apply Fick; [apply look_in in Lj; now apply in_dom in Lj|exact Nj]).
    assert (Ej : sy_type j <> TExternal) by (now apply (ob_ext _ _ O1)).
    rewrite Vj. destruct (sym_dec j t) as [->|NE].
    + assert (q = rt) by congruence. subst q. rewrite Cj in Cg. nra.
    + assert (Lt' : (idx j < idx t)%N) by (assert (idx j <> idx t) by (intros Z; now apply idx_inj in Z); lia).
      destruct (sy_type j) eqn:Tj; [congruence| | |].
      3:{ destruct (tb_dummy _ T0 (j, q) (look_in _ _ _ Lj) Tj) as [_ Dj]. cbn [snd] in Dj. rewrite (cf_none (r_cells q) s); [lra|]. intros Z. apply Dj in Z. congruence. }
      all: assert (C0 : 0 <= c) by (apply Qnot_lt_le; intros Z; rewrite <- Cj in Z; apply Mg in Z; [lia|exact Oj|congruence]);
        assert (Q0 : 0 <= cf (r_cells q) s);
        [apply Qnot_lt_le; intros Z; assert (R : ratio_of q s == ratio_of rt s);
         [unfold ratio_of; unfold sol in Zj; rewrite Lj in Zj; rewrite Zj;
          assert (Zt : r_const rt == 0) by (pose proof (Hz t) as A; unfold sol in A; rewrite Lt in A; assert (B := ob_basic _ _ O1 t Ot); apply look_none in B; rewrite B in A; lra);
          rewrite Zt; field; split; lra
         |assert (M := Mt j q Lj ltac:(congruence) Z R); lia]
        |nra].
  - assert (Vj : v j == d j) by (unfold v, full; rewrite Lj; reflexivity). rewrite Vj. destruct (sym_dec j s) as [->|NE]; [|rewrite (Dn j NE); lra].
    rewrite Dd. assert (0 <= c); [|lra]. apply Qnot_lt_le. intros Z. rewrite <- Cj in Z. apply Mg in Z; [|exact Oj|exact Ds].
    assert (E : idx s = idx t) by lia. apply idx_inj in E. subst t. apply Ns. apply look_in in Lt. now apply in_dom in Lt.
Qed.
End Conflict.

(** ** The solution of a tableau *)
Lemma sol_unique rows v : tab rows -> hold rows v -> (forall x, ~ In x (dom rows) -> v x == 0) -> forall x, v x == sol rows x.
Proof.
  intros T H Z x. unfold sol. destruct (look x rows) as [r|] eqn:L.
  - apply look_in in L. rewrite (H _ L). cbn [snd]. apply ev_zero. intros y O. apply Z. exact (tb_basic _ T _ y L O).
  - apply Z. now apply look_none.
Qed.
Lemma sol_same rows0 rows1 : tab rows0 -> tab rows1 -> (forall v, hold rows1 v <-> hold rows0 v) -> (forall x, In x (dom rows1) <-> In x (dom rows0)) -> forall x, sol rows1 x == sol rows0 x.
Proof.
  intros T0 T1 Hs D x. symmetry. apply (sol_unique rows1 (sol rows0) T1); [apply Hs; now apply hold_sol|]. intros y N. unfold sol. rewrite D in N. apply look_none in N. rewrite N. reflexivity.
Qed.

Section Order.
Variable order : nat -> list symbol -> list symbol.
Hypothesis order_ok : forall n l, Permutation (order n l) l.
Hypothesis near : forall q, near_zero q = true -> is_zero q = true.
Variable art : bool.

(** ** One step *)
Definition ready (s : solver) : Prop := inv s /\ exact s = true /\ (art = true -> s_artificial s <> None).
Record step (s : solver) (x y : symbol) (s' : solver) : Prop := Step {
  st_ready : ready s';
  st_same : same s s';
  st_occ : occurs x (goal art s);
  st_nd : sy_type x <> TDummy;
  st_neg : cf (r_cells (goal art s)) x < 0;
  st_row : exists r, look y (s_rows s) = Some r /\ sy_type y <> TExternal /\ cf (r_cells r) x < 0 /\
    (forall p q, look p (s_rows s) = Some q -> sy_type p <> TExternal -> cf (r_cells q) x < 0 -> ratio_of r x <= ratio_of q x);
  st_dom : forall z, In z (dom (s_rows s')) <-> z = x \/ (In z (dom (s_rows s)) /\ z <> y);
  st_uses : s_uses s' = S (S (s_uses s));
  st_syms : forall P, syms P s -> syms P s'
}.
Definition least (s : solver) (x y : symbol) : Prop :=
  (forall z, occurs z (goal art s) -> sy_type z <> TDummy -> cf (r_cells (goal art s)) z < 0 -> (idx x <= idx z)%N) /\
  (forall r p q, look y (s_rows s) = Some r -> look p (s_rows s) = Some q -> sy_type p <> TExternal -> cf (r_cells q) x < 0 -> ratio_of q x == ratio_of r x -> (idx y <= idx p)%N).
Lemma leaving_least s x y r s' : ranked (order (s_uses s) (dom (s_rows s))) -> get_leaving_row order s x = (Some (y, r), s') ->
  forall p q, look p (s_rows s) = Some q -> sy_type p <> TExternal -> cf (r_cells q) x < 0 -> ratio_of q x == ratio_of r x -> (idx y <= idx p)%N.
Proof.
  unfold get_leaving_row. set (f := fun best x0 => _). intros Rk E.
  assert (K : forall l seen best, ranked (seen ++ l) -> (match best with
     | Some (y, r, k) => In y seen /\ k == ratio_of r x /\ (forall p q, In p seen -> look p (s_rows s) = Some q -> sy_type p <> TExternal -> cf (r_cells q) x < 0 -> ratio_of r x < ratio_of q x \/ (ratio_of q x == ratio_of r x /\ (idx y <= idx p)%N))
     | None => forall p q, In p seen -> look p (s_rows s) = Some q -> sy_type p <> TExternal -> ~ cf (r_cells q) x < 0 end) ->
    match fold_left f l best with
     | Some (y, r, k) => forall p q, In p (seen ++ l) -> look p (s_rows s) = Some q -> sy_type p <> TExternal -> cf (r_cells q) x < 0 -> ratio_of r x < ratio_of q x \/ (ratio_of q x == ratio_of r x /\ (idx y <= idx p)%N)
     | None => True end).
  { induction l as [|z l IH]; intros seen best Rs H; cbn [fold_left].
    { rewrite app_nil_r. destruct best as [[[? ?] ?]|]; [apply H|exact I]. }
    replace (seen ++ z :: l) with ((seen ++ [z]) ++ l) in * by (rewrite <- app_assoc; reflexivity). apply IH; [exact Rs|].
    assert (Rz : forall w, In w seen -> (idx w <= idx z)%N).
    { intros w W. clear - Rs W. rewrite <- app_assoc in Rs. cbn in Rs. induction seen as [|a seen IH]; [destruct W|]. cbn in Rs. inversion Rs as [|? ? H1 H2]; subst. destruct W as [->|W]; [|now apply IH].
      rewrite Forall_forall in H2. apply H2. apply in_app_iff. right. now left. }
    assert (Skip : (look z (s_rows s) = None \/ sy_type z = TExternal \/ exists q, look z (s_rows s) = Some q /\ ~ cf (r_cells q) x < 0) -> match best with
     | Some (y, r, k) => In y (seen ++ [z]) /\ k == ratio_of r x /\ (forall p q, In p (seen ++ [z]) -> look p (s_rows s) = Some q -> sy_type p <> TExternal -> cf (r_cells q) x < 0 -> ratio_of r x < ratio_of q x \/ (ratio_of q x == ratio_of r x /\ (idx y <= idx p)%N))
     | None => forall p q, In p (seen ++ [z]) -> look p (s_rows s) = Some q -> sy_type p <> TExternal -> ~ cf (r_cells q) x < 0 end).
    { intros Sk. destruct best as [[[y0 r0] k]|].
      - destruct H as (H1 & H2 & H3). split; [apply in_app_iff; now left|]. split; [exact H2|]. intros p q J L Tp Cp. apply in_app_iff in J. destruct J as [J|[->|[]]]; [now apply H3|].
        destruct Sk as [Sk|[Sk|(q' & Sk & Sk')]]; [congruence|congruence|]. assert (q' = q) by congruence. subst. contradiction.
      - intros p q J L Tp. apply in_app_iff in J. destruct J as [J|[->|[]]]; [now apply (H p q)|]. destruct Sk as [Sk|[Sk|(q' & Sk & Sk')]]; [congruence|congruence|]. assert (q' = q) by congruence. now subst. }
    unfold f. destruct (look z (s_rows s)) as [rz|] eqn:Lz; [|apply Skip; now left].
    destruct (is_external z) eqn:Ez; cbn [negb]; [apply is_external_ok in Ez; apply Skip; auto|]. apply is_external_no in Ez.
    rewrite cf_is. destruct (qltb (cf (r_cells rz) x) 0) eqn:Cz; [apply qltb_ok in Cz|apply qltb_no in Cz; apply Skip; right; right; exists rz; split; [reflexivity|lra]].
    assert (Rt : qdiv (qopp (r_const rz)) (cf (r_cells rz) x) == ratio_of rz x) by (unfold ratio_of; now rewrite qdiv_ok, qopp_ok). clear Skip.
    destruct best as [[[y0 r0] k]|].
    - destruct H as (H1 & H2 & H3). destruct (qltb (qdiv (qopp (r_const rz)) (cf (r_cells rz) x)) k) eqn:Lt.
      + apply qltb_ok in Lt. rewrite Rt, H2 in Lt. split; [apply in_app_iff; right; now left|]. split; [exact Rt|]. intros p q J L Tp Cp. apply in_app_iff in J. destruct J as [J|[->|[]]].
        * left. destruct (H3 p q J L Tp Cp) as [A|[A _]]; lra.
        * right. assert (q = rz) by congruence. subst. split; [reflexivity|lia].
      + apply qltb_no in Lt. rewrite Rt, H2 in Lt. split; [apply in_app_iff; now left|]. split; [exact H2|]. intros p q J L Tp Cp. apply in_app_iff in J. destruct J as [J|[->|[]]]; [now apply H3|].
        assert (q = rz) by congruence. subst. destruct (Qlt_le_dec (ratio_of r0 x) (ratio_of rz x)) as [A|A]; [now left|right]. split; [lra|]. now apply Rz.
    - split; [apply in_app_iff; right; now left|]. split; [exact Rt|]. intros p q J L Tp Cp. apply in_app_iff in J. destruct J as [J|[->|[]]]; [elim (H p q J L Tp Cp)|]. right. assert (q = rz) by congruence. subst. split; [reflexivity|lia]. }
  specialize (K (keys order s (s_rows s)) [] None Rk (fun p q F => False_ind _ F)). cbn [app] in K.
  destruct (fold_left f (keys order s (s_rows s)) None) as [[[y0 r0] k]|]; [|discriminate]. injection E as -> -> _. intros p q L Tp Cp R.
  assert (In p (keys order s (s_rows s))) as J by (apply keys_in; [exact order_ok|]; apply look_in in L; now apply in_dom in L).
  destruct (K p q J L Tp Cp) as [A|[_ A]]; [lra|exact A].
Qed.
(** Another order that meets the keys of the two maps of one round in the same order *)
Definition agrees (s : solver) (order' : nat -> list symbol -> list symbol) : Prop :=
  order' (s_uses s) (map fst (r_cells (goal art s))) = order (s_uses s) (map fst (r_cells (goal art s))) /\
  order' (S (s_uses s)) (map fst (s_rows s)) = order (S (s_uses s)) (map fst (s_rows s)).
Lemma step_alike s : ready s ->
  (forall order', order' (s_uses s) (map fst (r_cells (goal art s))) = order (s_uses s) (map fst (r_cells (goal art s))) -> forall fuel, optimize order' (S fuel) art s = Done (use s)) \/
  (exists e s1, s_uses s1 = S (S (s_uses s)) /\ forall order', agrees s order' -> forall fuel, optimize order' (S fuel) art s = Fail e s1) \/
  (exists x y s', step s x y s' /\ (forall order', agrees s order' -> forall fuel, optimize order' (S fuel) art s = optimize order' fuel art s') /\
     ((forall n l, (s_uses s <= n)%nat -> ranked (order n l)) -> least s x y)).
Proof.
  intros (Hi & Ex & Ha).
  destruct (find (fun x => negb (stype_eqb (sy_type x) TDummy) && qltb (coefficient_for (goal art s) x) 0) (keys order s (r_cells (goal art s)))) as [x|] eqn:Fd.
  2:{ left. intros order' A1 fuel. cbn [optimize]. unfold get_entering_symbol, keys. rewrite A1. unfold keys in Fd. rewrite Fd. reflexivity. }
  assert (Fd' := Fd). apply find_some in Fd'. destruct Fd' as [J P]. apply keys_in in J; [|exact order_ok]. apply andb_prop in P. destruct P as [P1 P2]. apply negb_true_iff in P1. apply qltb_ok in P2. rewrite cf_is in P2.
  assert (Nd : sy_type x <> TDummy) by (intros Z; rewrite Z in P1; discriminate).
  assert (Ob := goal_obj art s Hi Ha). assert (O : occurs x (goal art s)) by exact J.
  assert (Tx : sy_type x = TSlack \/ sy_type x = TError) by (pose proof (ob_ext _ _ Ob x O); destruct (sy_type x); tauto).
  pose proof (leaving_ok order order_ok (use s) x) as L. 
  assert (Eg : forall order', agrees s order' -> get_entering_symbol order' s (goal art s) = (Some x, use s) /\ get_leaving_row order' (use s) x = get_leaving_row order (use s) x).
  { intros order' [A1 A2]. split; [unfold get_entering_symbol, keys; rewrite A1; unfold keys in Fd; now rewrite Fd|]. unfold get_leaving_row, keys. cbn [use s_uses s_rows]. rewrite A2. reflexivity. }
  assert (Lu : s_uses (snd (get_leaving_row order (use s) x)) = S (S (s_uses s))) by (unfold get_leaving_row; destruct (fold_left _ _ _) as [[[? ?] ?]|]; reflexivity).
  destruct (get_leaving_row order (use s) x) as [[[y r]|] s1] eqn:Lv; cbn [s_rows use] in L; cbn [snd] in Lu.
  2:{ right. left. exists EUnbounded, s1. split; [exact Lu|]. intros order' A fuel. destruct (Eg order' A) as [E1 E2]. cbn [optimize]. rewrite E1, E2. reflexivity. }
  right. right. destruct L as (L1 & L2 & L3 & L4 & ->). exists x, y. assert (Lk := L1). apply look_in in L1.
  assert (Or : occurs x r) by (apply cf_occurs; lra).
  assert (Pr : 0 <= - r_const r / cf (r_cells r) x). { pose proof (tb_pos _ (proj1 Hi) _ L1 L2) as Z. cbn [snd] in Z. setoid_replace (- r_const r / cf (r_cells r) x) with (r_const r / - cf (r_cells r) x) by (field; lra). apply Qle_shift_div_l; lra. }
  set (r' := solve_for_symbols r y x). set (s0 := with_rows (use (use s)) (drop_key y (s_rows s))). set (s2 := substitute s0 x r').
  set (s3 := if is_external x && negb (is_zero (r_const r')) then var_changed s2 (var_for s2 x) else s2).
  assert (F3 : frame s2 s3 /\ s_rows s3 = s_rows s2 /\ s_objective s3 = s_objective s2 /\ s_artificial s3 = s_artificial s2 /\ s_exact s3 = s_exact s2 /\ s_uses s3 = s_uses s2) by (unfold s3; destruct (is_external x && _); repeat split).
  exists (with_rows s3 (put_at x r' (s_rows s3))). split; [|split; [intros order' A fuel; destruct (Eg order' A) as [E1 E2]; cbn [optimize]; rewrite E1, E2; reflexivity|]].
  clear Eg.
  2:{ intros Rk. split.
      - intros z Oz Dz Cz. apply (ranked_find _ _ _ (Rk (s_uses s) (map fst (r_cells (goal art s))) ltac:(lia)) Fd z); [apply keys_in; [exact order_ok|exact Oz]|].
        apply andb_true_intro. split; [apply negb_true_iff; destruct (stype_eqb (sy_type z) TDummy) eqn:D; [apply stype_eqb_ok in D; congruence|reflexivity]|]. apply qltb_ok. now rewrite cf_is.
      - intros r0 p q Ly Lp Tp Cp Rp. assert (r0 = r) by congruence. subst r0. refine (leaving_least (use s) x y r _ _ Lv p q Lp Tp Cp Rp). apply Rk. cbn. lia. }
  destruct (substitute_fields s0 x r') as (_ & G1 & _ & G3 & G4 & _). fold s2 in G1, G3, G4. change (s_rows s0) with (drop_key y (s_rows s)) in G1. change (s_artificial s0) with (s_artificial s) in G3. change (s_uses s0) with (S (S (s_uses s))) in G4.
  assert (Xr : r_exact r = true) by exact (exact_in _ _ (rows_of_exact s Ex) L1).
  assert (X2 : exact s2 = true).
  { apply substitute_keeps; [exact near| |now apply solves_keeps]. apply with_rows_keeps; [exact Ex|]. apply drop_keeps. now apply rows_of_exact. }
  assert (Sy : forall P, syms P s -> syms P (with_rows s3 (put_at x r' (s_rows s3)))).
  { intros P (A & B & C). destruct (A _ L1) as [Py Pr0]. cbn [fst snd] in Py, Pr0.
    assert (Px : P x). { unfold goal in J. destruct art; [|now apply B]. destruct (s_artificial s) as [a|]; [exact (C a x eq_refl J)|destruct J]. }
    assert (Pr' : forall z, occurs z r' -> P z) by (intros z Z; apply solves_occurs in Z; destruct Z as [->|Z]; auto).
    assert (S2 : syms P s2). { apply syms_substitute; [|exact Pr']. split; [|split; assumption]. intros p I. cbn in I. apply drop_in in I. apply A. tauto. }
    assert (S3 : syms P s3) by (unfold s3; destruct (_ && _); [now apply syms_changed|exact S2]).
    apply syms_rows; [exact S3|]. intros p I. apply put_in' in I. destruct I as [->|I]; [split; [exact Px|exact Pr']|now apply S3]. }
  destruct F3 as (F3 & F4 & F5 & F6 & F7 & F8). 
  assert (X3 : exact s3 = true) by (unfold s3; destruct (_ && _); exact X2).
  clearbody s3.
  destruct (pivot_step s y r x s0 Hi L1 L2 Tx Or Pr) with (s2 := with_rows s3 (put_at x r' (s_rows s3))) as (S1 & S2 & S3 & S4).
  - intros [p q] I NE Tp. cbn [fst snd] in *. pose proof (tb_pos _ (proj1 Hi) _ I Tp) as Z. cbn [snd] in Z. destruct (Qlt_le_dec (cf (r_cells q) x) 0) as [C|C].
    + assert (K := L4 p q (in_look _ _ _ (tb_nodup _ (proj1 Hi)) I) Tp C). unfold ratio_of in K. set (k := - r_const r / cf (r_cells r) x) in *.
      assert (M : r_const q + cf (r_cells q) x * (- r_const q / cf (r_cells q) x) == 0) by (field; lra). set (m := - r_const q / cf (r_cells q) x) in *. nra.
    + nra.
  - repeat split.
  - reflexivity.
  - reflexivity.
  - reflexivity.
  - reflexivity.
  - fold r' s2. destruct F3 as (? & ? & ?). repeat split; assumption.
  - cbn [with_rows s_rows]. fold r' s2. now rewrite F4.
  - fold r' s2. exact F5.
  - fold r' s2. exact F6.
  - fold r' s2. exact F7.
  - set (s4 := with_rows s3 (put_at x r' (s_rows s3))) in *.
    assert (X4 : exact s4 = true) by (apply with_rows_keeps; [exact X3|]; apply put_keeps; [now apply rows_of_exact|now apply solves_keeps]).
    constructor.
    + split; [exact S1|]. split; [exact X4|]. intros Z1 Z2. change (s_artificial s4) with (s_artificial s3) in Z2. rewrite F6, G3 in Z2. apply (Ha Z1). destruct (s_artificial s); [discriminate|reflexivity].
    + now apply S4.
    + exact O.
    + exact Nd.
    + exact P2.
    + exists r. auto.
    + intros z. cbn [s4 s_rows with_rows]. rewrite put_dom, F4, G1, subst_dom, drop_dom. tauto.
    + cbn [s4 s_uses with_rows]. now rewrite F8, G4.
    + exact Sy.
Qed.

Lemma step_cases s : ready s ->
  (exists res, res <> NoFuel /\ forall fuel, optimize order (S fuel) art s = res) \/
  (exists x y s', step s x y s' /\ (forall fuel, optimize order (S fuel) art s = optimize order fuel art s') /\
     ((forall n l, (s_uses s <= n)%nat -> ranked (order n l)) -> least s x y)).
Proof.
  intros R. assert (A : agrees s order) by (split; reflexivity). destruct (step_alike s R) as [F|[(e & s1 & _ & F)|(x & y & s' & St & F & L)]].
  - left. exists (Done (use s)). split; [discriminate|]. apply F. reflexivity.
  - left. exists (Fail e s1). split; [discriminate|]. now apply F.
  - right. exists x, y, s'. split; [exact St|]. split; [now apply F|exact L].
Qed.

(** ** No cycle *)
Lemma step_value s x y s' : ready s -> step s x y s' -> exists k, 0 <= k /\ r_const (goal art s') == r_const (goal art s) + cf (r_cells (goal art s)) x * k /\ (k == 0 -> forall z, sol (s_rows s') z == sol (s_rows s) z).
Proof.
  intros (Hi & Ex & Ha) St. destruct (st_ready _ _ _ _ St) as (Hi' & Ex' & Ha'). assert (Ob := goal_obj art s Hi Ha). assert (Ob' := goal_obj art s' Hi' Ha').
  exists (sol (s_rows s') x). set (k := sol (s_rows s') x).
  assert (Hs : hold (s_rows s) (sol (s_rows s'))) by (apply (proj1 (st_same _ _ _ _ St)); apply hold_sol, Hi').
  assert (Z : forall z, ~ In z (dom (s_rows s)) -> z <> x -> sol (s_rows s') z == 0).
  { intros z N NE. unfold sol. assert (N' : ~ In z (dom (s_rows s'))) by (rewrite (st_dom _ _ _ _ St); tauto). apply look_none in N'. now rewrite N'. }
  split; [|split].
  - apply (proper_sol _ (proj1 Hi')). exact (ob_ext _ _ Ob x (st_occ _ _ _ _ St)).
  - rewrite <- (obj_sol _ _ Ob'), (goal_same art s s' _ (st_same _ _ _ _ St) Hs). unfold ev. rewrite (ev_cells_one _ x).
    + reflexivity.
    + apply (ob_wf _ _ Ob).
    + intros z I NE. apply Z; [|exact NE]. now apply (ob_basic _ _ Ob).
  - intros K z. apply (sol_unique _ _ (proj1 Hi) Hs). intros w W. destruct (sym_dec w x) as [->|NE]; [exact K|now apply Z].
Qed.

Section Cycle.
Variables (st : nat -> solver) (ex ey : nat -> symbol) (i j : nat).
Hypothesis ij : (i < j)%nat.
Hypothesis first_ready : ready (st i).
Hypothesis steps : forall k, (i <= k < j)%nat -> step (st k) (ex k) (ey k) (st (S k)) /\ least (st k) (ex k) (ey k).
Hypothesis again : forall x, In x (dom (s_rows (st j))) <-> In x (dom (s_rows (st i))).

Lemma all_ready k : (i <= k <= j)%nat -> ready (st k).
Proof using ij first_ready steps. intros H. destruct (Nat.eq_dec k i) as [->|]; [exact first_ready|]. destruct k as [|k]; [lia|]. destruct (steps k) as [A _]; [lia|]. exact (st_ready _ _ _ _ A). Qed.
Lemma all_same a : forall b, (i <= a <= b)%nat -> (b <= j)%nat -> same (st a) (st b).
Proof using ij steps. induction b as [|b IH]; intros H1 H2; [replace a with O by lia; apply same_refl|]. destruct (Nat.eq_dec a (S b)) as [->|]; [apply same_refl|]. apply (same_trans _ (st b)); [apply IH; lia|]. apply (steps b). lia. Qed.
Lemma leaves z a : forall b, (i <= a <= b)%nat -> (b <= j)%nat -> In z (dom (s_rows (st a))) -> ~ In z (dom (s_rows (st b))) -> exists k, (a <= k < b)%nat /\ ey k = z.
Proof using ij steps.
  induction b as [|b IH]; intros H1 H2 Ia Nb; [elim Nb; now replace O with a by lia|]. destruct (Nat.eq_dec a (S b)) as [->|NE]; [contradiction|].
  destruct (steps b ltac:(lia)) as [B _]. rewrite (st_dom _ _ _ _ B) in Nb. destruct (sym_dec (ey b) z) as [E|E]; [exists b; split; [lia|exact E]|].
  destruct IH as (k & K1 & K2); [lia|lia|exact Ia| |exists k; split; [lia|exact K2]]. intros Z. apply Nb. right. split; [exact Z|congruence].
Qed.
Lemma enters z a : forall b, (i <= a <= b)%nat -> (b <= j)%nat -> ~ In z (dom (s_rows (st a))) -> In z (dom (s_rows (st b))) -> exists k, (a <= k < b)%nat /\ ex k = z.
Proof using ij steps.
  induction b as [|b IH]; intros H1 H2 Na Ib; [elim Na; now replace a with O by lia|]. destruct (Nat.eq_dec a (S b)) as [->|NE]; [contradiction|].
  destruct (steps b ltac:(lia)) as [B _]. rewrite (st_dom _ _ _ _ B) in Ib. destruct Ib as [->|[Ib _]]; [exists b; split; [lia|reflexivity]|].
  destruct IH as (k & K1 & K2); [lia|lia|exact Na|exact Ib|exists k; split; [lia|exact K2]].
Qed.
Lemma value_down a : forall b, (i <= a <= b)%nat -> (b <= j)%nat -> r_const (goal art (st b)) <= r_const (goal art (st a)).
Proof using ij first_ready steps.
  induction b as [|b IH]; intros H1 H2; [replace a with O by lia; lra|]. destruct (Nat.eq_dec a (S b)) as [->|NE]; [lra|].
  destruct (steps b ltac:(lia)) as [B _]. destruct (step_value _ _ _ _ (all_ready b ltac:(lia)) B) as (k & K0 & K1 & _). pose proof (st_neg _ _ _ _ B). assert (r_const (goal art (st b)) <= r_const (goal art (st a))) by (apply IH; lia). nra.
Qed.
Lemma sol_back x : sol (s_rows (st j)) x == sol (s_rows (st i)) x.
Proof using ij first_ready steps again.
  apply sol_same; [apply (all_ready i); lia|apply (all_ready j); lia|apply (all_same i j); lia|exact again].
Qed.
Lemma value_back : r_const (goal art (st j)) == r_const (goal art (st i)).
Proof using ij first_ready steps again.
  destruct (all_ready i ltac:(lia)) as (Ii & _ & Ai). destruct (all_ready j ltac:(lia)) as (Ij & _ & Aj).
  rewrite <- (obj_sol _ _ (goal_obj art _ Ii Ai)), <- (obj_sol _ _ (goal_obj art _ Ij Aj)).
  assert (Sm : same (st i) (st j)) by (apply all_same; lia). rewrite (goal_same art _ _ _ Sm); [|apply Sm; apply hold_sol, Ij]. apply ev_ext. intros x _. apply sol_back.
Qed.
Lemma sol_still : forall k, (i <= k <= j)%nat -> forall x, sol (s_rows (st k)) x == sol (s_rows (st i)) x.
Proof using ij first_ready steps again.
  induction k as [|k IH]; intros H x; [replace i with O by lia; reflexivity|]. destruct (Nat.eq_dec (S k) i) as [->|NE]; [reflexivity|]. rewrite <- IH by lia.
  destruct (steps k ltac:(lia)) as [B _]. destruct (step_value _ _ _ _ (all_ready k ltac:(lia)) B) as (c & C0 & C1 & C2). apply C2.
  pose proof (st_neg _ _ _ _ B). pose proof (value_down i k ltac:(lia) ltac:(lia)). pose proof (value_down (S k) j ltac:(lia) ltac:(lia)). pose proof value_back. nra.
Qed.
Lemma greatest (l : list symbol) : l <> [] -> exists x, In x l /\ forall y, In y l -> (idx y <= idx x)%N.
Proof.
  induction l as [|a l IH]; [congruence|]. intros _. destruct l as [|b l]; [exists a; split; [now left|intros y [<-|[]]; lia]|].
  destruct IH as (x & X1 & X2); [discriminate|]. destruct (N.le_gt_cases (idx a) (idx x)) as [L|L].
  - exists x. split; [now right|]. intros y [<-|Y]; [exact L|now apply X2].
  - exists a. split; [now left|]. intros y [<-|Y]; [lia|]. specialize (X2 y Y). lia.
Qed.
Lemma no_cycle : False.
Proof using ij first_ready steps again order_ok.
  destruct (greatest (map ex (seq i (j - i)) ++ map ey (seq i (j - i)))) as (t & T1 & T2).
  { intros Z. apply (f_equal (@length symbol)) in Z. rewrite app_length, !map_length, seq_length in Z. cbn in Z. lia. }
  assert (Mx : forall k, (i <= k < j)%nat -> (idx (ex k) <= idx t)%N) by (intros k K; apply T2, in_app_iff; left; apply in_map, in_seq; lia).
  assert (My : forall k, (i <= k < j)%nat -> (idx (ey k) <= idx t)%N) by (intros k K; apply T2, in_app_iff; right; apply in_map, in_seq; lia).
  assert (Dec : forall z k, In z (dom (s_rows (st k))) \/ ~ In z (dom (s_rows (st k)))) by (intros z k; destruct (in_dec sym_dec z (dom (s_rows (st k)))); auto).
  assert (EL : (exists k, (i <= k < j)%nat /\ ex k = t) /\ (exists k, (i <= k < j)%nat /\ ey k = t)).
  { apply in_app_iff in T1. destruct T1 as [T1|T1]; apply in_map_iff in T1; destruct T1 as (k & E & K); apply in_seq in K; assert (Kk : (i <= k < j)%nat) by lia; clear K; destruct (steps k Kk) as [B _].
    - split; [exists k; auto|]. destruct (Dec t i) as [D|D].
      + destruct (leaves t i k) as (m & M1 & M2); [lia|lia|exact D| |exists m; split; [lia|exact M2]]. rewrite <- E. destruct (all_ready k ltac:(lia)) as (Ik & _ & Ak). apply (ob_basic _ _ (goal_obj art _ Ik Ak)). exact (st_occ _ _ _ _ B).
      + destruct (leaves t (S k) j) as (m & M1 & M2); [lia|lia| |now rewrite again|exists m; split; [lia|exact M2]]. rewrite (st_dom _ _ _ _ B). now left.
    - split; [|exists k; auto]. destruct (st_row _ _ _ _ B) as (r & R & _). assert (Ik : In t (dom (s_rows (st k)))) by (rewrite <- E; apply look_in in R; now apply in_dom in R).
      destruct (Dec t i) as [D|D].
      + destruct (enters t (S k) j) as (m & M1 & M2); [lia|lia| |now rewrite again|exists m; split; [lia|exact M2]]. rewrite (st_dom _ _ _ _ B). intros [Z|[_ Z]]; [|congruence].
        destruct (all_ready k ltac:(lia)) as (Ir & _ & Ak). apply (ob_basic _ _ (goal_obj art _ Ir Ak) (ex k)); [exact (st_occ _ _ _ _ B)|now rewrite <- Z].
      + destruct (enters t i k) as (m & M1 & M2); [lia|lia|exact D|exact Ik|exists m; split; [lia|exact M2]]. }
  destruct EL as [(k1 & K1 & E1) (k0 & K0 & E0)]. destruct (steps k1 K1) as [B1 [L1 _]], (steps k0 K0) as [B0 [_ L0]]. rewrite E1 in B1, L1. rewrite E0 in B0, L0.
  destruct (all_ready k1 ltac:(lia)) as (I1 & _ & A1). destruct (all_ready k0 ltac:(lia)) as (I0 & _ & A0). destruct (st_row _ _ _ _ B0) as (rt & R1 & R2 & R3 & R4).
  assert (Sm : (forall v, hold (s_rows (st k1)) v <-> hold (s_rows (st k0)) v) /\ (forall v, hold (s_rows (st k0)) v -> ev (goal art (st k1)) v == ev (goal art (st k0)) v)).
  { destruct (Nat.le_ge_cases k0 k1) as [L|L].
    - assert (Sm : same (st k0) (st k1)) by (apply all_same; lia). split; [apply Sm|]. intros v V. now apply goal_same.
    - assert (Sm : same (st k1) (st k0)) by (apply all_same; lia). split; [intros v; symmetry; apply Sm|]. intros v V. symmetry. apply goal_same; [exact Sm|]. now apply Sm. }
  refine (bland_conflict (s_rows (st k0)) (s_rows (st k1)) (goal art (st k0)) (goal art (st k1)) (proj1 I0) (goal_obj art _ I0 A0) (goal_obj art _ I1 A1) (proj2 Sm) _ (ex k0) t rt (st_occ _ _ _ _ B0) (st_nd _ _ _ _ B0) (st_neg _ _ _ _ B0) R1 R2 R3 _ (st_occ _ _ _ _ B1) (st_neg _ _ _ _ B1) L1 _ (Mx k0 K0)).
  - intros x. rewrite (sol_still k1), (sol_still k0) by lia. reflexivity.
  - intros p q Lp Tp Cp Rp. now apply (L0 rt p q).
  - intros x X0 X1. destruct (Nat.le_ge_cases k0 k1) as [L|L].
    + destruct (leaves x k0 k1) as (m & M1 & <-); [lia|lia|exact X0|exact X1|]. apply My. lia.
    + destruct (enters x k1 k0) as (m & M1 & <-); [lia|lia|exact X1|exact X0|]. apply Mx. lia.
Qed.
End Cycle.

(** ** Long runs *)
Definition fixed_from (n0 : nat) : Prop := forall n l, (n0 <= n)%nat -> ranked (order n l).
Lemma run_long n : forall s, ready s ->
  (exists k res, (k <= n)%nat /\ res <> NoFuel /\ forall fuel, optimize order (k + S fuel) art s = res) \/
  (exists st ex ey, st O = s /\ (forall k, (k < n)%nat -> step (st k) (ex k) (ey k) (st (S k)) /\ (fixed_from (s_uses s) -> least (st k) (ex k) (ey k))) /\
     forall fuel, optimize order (n + fuel) art s = optimize order fuel art (st n)).
Proof.
  induction n as [|n IH]; intros s R.
  { right. exists (fun _ => s), (fun _ => Sym 0 TSlack), (fun _ => Sym 0 TSlack). split; [reflexivity|]. split; [intros k K; lia|reflexivity]. }
  destruct (step_cases s R) as [(res & Rn & F)|(x & y & s' & St & F & L)].
  { left. exists O, res. split; [lia|]. split; [exact Rn|]. intros fuel. apply F. }
  destruct (IH s' (st_ready _ _ _ _ St)) as [(k & res & K & Rn & G)|(st & ex & ey & E0 & Es & G)].
  - left. exists (S k), res. split; [lia|]. split; [exact Rn|]. intros fuel. rewrite <- (G fuel). apply (F (k + S fuel)%nat).
  - right. exists (fun k => match k with O => s | S k => st k end), (fun k => match k with O => x | S k => ex k end), (fun k => match k with O => y | S k => ey k end).
    split; [reflexivity|]. split; [|intros fuel; rewrite <- (G fuel); apply (F (n + fuel)%nat)].
    intros [|k] K; [rewrite E0; split; [exact St|exact L]|]. destruct (Es k) as [A B]; [lia|]. split; [exact A|]. intros Fx. apply B. intros m l Hm. apply Fx. rewrite (st_uses _ _ _ _ St) in Hm. lia.
Qed.
Definition signature (u : list symbol) (s : solver) : list bool := map (fun x => existsb (sym_eqb x) (dom (s_rows s))) u.
Fixpoint words (n : nat) : list (list bool) := match n with O => [[]] | S n => map (cons true) (words n) ++ map (cons false) (words n) end.
Lemma words_all n : forall l, length l = n -> In l (words n).
Proof. induction n as [|n IH]; intros [|b l] H; try discriminate; cbn; [now left|]. apply in_app_iff. destruct b; [left|right]; apply in_map, IH; cbn in H; lia. Qed.
Lemma words_length n : length (words n) = (2 ^ n)%nat.
Proof. induction n as [|n IH]; [reflexivity|]. cbn [words]. rewrite app_length, !map_length, IH. cbn. lia. Qed.
Lemma repeated {A} (d : forall x y : A, {x = y} + {x <> y}) (f : nat -> A) : forall n, ~ NoDup (map f (seq 0 n)) -> exists a b, (a < b < n)%nat /\ f a = f b.
Proof.
  induction n as [|n IH]; intros H; [elim H; constructor|]. rewrite seq_S, map_app in H. cbn in H.
  destruct (in_dec d (f n) (map f (seq 0 n))) as [I|I].
  - apply in_map_iff in I. destruct I as (a & E & K). apply in_seq in K. exists a, n. split; [lia|exact E].
  - destruct IH as (a & b & K & E); [|exists a, b; split; [lia|exact E]]. intros D. apply H. apply NoDup_Add with (a := f n) (l := map f (seq 0 n)); [|split; assumption].
    replace (map f (seq 0 n)) with (map f (seq 0 n) ++ []) at 1 by apply app_nil_r. apply Add_app.
Qed.
Lemma signature_dom u s s' : syms (fun x => In x u) s -> syms (fun x => In x u) s' -> signature u s = signature u s' -> forall x, In x (dom (s_rows s')) <-> In x (dom (s_rows s)).
Proof.
  intros [H _] [H' _] E. assert (K : forall x, In x u -> existsb (sym_eqb x) (dom (s_rows s)) = existsb (sym_eqb x) (dom (s_rows s'))).
  { unfold signature in E. clear - E. induction u as [|a u IH]; intros x []; cbn in E; injection E as E1 E2; [now subst|auto]. }
  assert (M : forall x r, existsb (sym_eqb x) (dom (s_rows r)) = true <-> In x (dom (s_rows r))).
  { intros x r. rewrite existsb_exists. split; [intros (y & Y & Z); apply sym_eqb_ok in Z; now subst|intros I; exists x; split; [exact I|apply sym_eqb_refl]]. }
  intros x. split; intros I.
  - assert (U : In x u) by (unfold dom in I; apply in_map_iff in I; destruct I as (p & <- & I); now apply H'). apply M. rewrite (K x U). now apply M.
  - assert (U : In x u) by (unfold dom in I; apply in_map_iff in I; destruct I as (p & <- & I); now apply H). apply M. rewrite <- (K x U). now apply M.
Qed.
(** When the order is that of the numbers from now on, optimising ends within a number of steps that the symbols bound. *)
Lemma optimize_ends u s : ready s -> fixed_from (s_uses s) -> syms (fun x => In x u) s -> exists k res, (k <= 2 ^ length u)%nat /\ res <> NoFuel /\ forall fuel, optimize order (k + S fuel) art s = res.
Proof using order_ok near.
  intros R Fx Su. set (n := (2 ^ length u)%nat). destruct (run_long n s R) as [(k & res & Kn & Rn & F)|(st & ex & ey & E0 & Es & _)]; [exists k, res; auto|]. exfalso.
  assert (Sy : forall k, (k <= n)%nat -> syms (fun x => In x u) (st k)).
  { induction k as [|k IH]; intros K; [now rewrite E0|]. destruct (Es k) as [A _]; [lia|]. apply (st_syms _ _ _ _ A). apply IH. lia. }
  destruct (repeated (list_eq_dec bool_dec) (fun k => signature u (st k)) (S n)) as (a & b & K & E).
  { intros Nd. apply NoDup_incl_length with (l' := words (length u)) in Nd.
    - rewrite map_length, seq_length, words_length in Nd. unfold n in Nd. lia.
    - intros w W. apply in_map_iff in W. destruct W as (k & <- & _). apply words_all. unfold signature. now rewrite map_length. }
  apply (no_cycle st ex ey a b); [lia| | |].
  - destruct a as [|a]; [rewrite E0; exact R|]. destruct (Es a) as [A _]; [lia|]. exact (st_ready _ _ _ _ A).
  - intros k Kk. destruct (Es k) as [A B]; [lia|]. split; [exact A|now apply B].
  - apply (signature_dom u); [apply Sy; lia|apply Sy; lia|exact E].
Qed.
(** When it is so after some number of uses, optimising ends too. *)
Lemma optimize_ends' u n0 s : ready s -> fixed_from n0 -> syms (fun x => In x u) s -> exists res, res <> NoFuel /\ forall fuel, (n0 + 2 ^ length u < fuel)%nat -> optimize order fuel art s = res.
Proof using order_ok near.
  intros R Fx Su. destruct (run_long n0 s R) as [(k & res & K & Rn & F)|(st & ex & ey & E0 & Es & F)].
  { exists res. split; [exact Rn|]. intros fuel H. rewrite <- (F (fuel - S k)%nat). f_equal. lia. }
  assert (K : forall k, (k <= n0)%nat -> ready (st k) /\ syms (fun x => In x u) (st k) /\ (k <= s_uses (st k))%nat).
  { induction k as [|k IH]; intros K; [rewrite E0; split; [exact R|split; [exact Su|lia]]|]. destruct (Es k) as [A _]; [lia|]. destruct IH as (I1 & I2 & I3); [lia|].
    split; [exact (st_ready _ _ _ _ A)|]. split; [now apply (st_syms _ _ _ _ A)|]. rewrite (st_uses _ _ _ _ A). lia. }
  destruct (K n0 ltac:(lia)) as (K1 & K2 & K3). destruct (optimize_ends u (st n0) K1) as (k & res & Kk & Rn & G); [intros m l Hm; apply Fx; lia|exact K2|].
  exists res. split; [exact Rn|]. intros fuel H. rewrite <- (G (fuel - n0 - S k)%nat), <- F. f_equal. lia.
Qed.
End Order.
End Tolerance.
