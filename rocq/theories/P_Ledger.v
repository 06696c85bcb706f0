(** Constraints between differences: the system they make, and how they are added whether results are rounded or not. *)
From Verif Require Import Base M_Solver S_Solver P_Row P_Tableau P_Simplex P_Add P_Art P_Create P_System P_Step P_Exact P_Bland P_Network P_Alike P_Netted P_Same.
From Coq Require Import ZArith NArith QArith Qabs List Bool Lia Lqa Setoid Morphisms Permutation.
Import ListNotations.
Open Scope Q_scope.
#[local] Existing Instance no_tolerance.

(** ** Equations *)
Definition symof (s : solver) (x : variable) : symbol := match find_var x (s_vars s) with Some y => y | None => Sym 0 TExternal end.
Definition terms_of (s : solver) (c : constr) : list (symbol * Q) := map (fun t => (symof s (fst t), snd t)) (e_terms (c_expr c)).
Definition eqn_of (s : solver) (p : constr * marks) : eqn := Eqn (terms_of s (fst p)) (e_const (c_expr (fst p))) (snd p).
Lemma symof_ext s x : vinv s -> ext (symof s x).
Proof. intros V. unfold symof. destruct (find_var x (s_vars s)) as [y|] eqn:E; [|reflexivity]. apply find_var_in in E. exact (proj1 (vi_types _ V _ _ E)). Qed.
Lemma terms_sum s c v : ev_cells (terms_of s c) v == term_sum (e_terms (c_expr c)) (fun x => v (symof s x)).
Proof. unfold terms_of. induction (e_terms (c_expr c)) as [|t ts IH]; [reflexivity|]. cbn [map ev_cells term_sum fold_right fst snd]. fold (term_sum ts (fun x => v (symof s x))). now rewrite IH. Qed.
Lemma terms_vals s c v : known s (e_terms (c_expr c)) -> ev_cells (terms_of s c) v == term_sum (e_terms (c_expr c)) (vals s v).
Proof.
  intros K. rewrite terms_sum. apply term_sum_cong. intros t J. destruct (Qeq_dec (snd t) 0) as [Z|Z]; [rewrite Z; lra|]. pose proof (K t J Z) as Kt. unfold symof, vals. destruct (find_var (fst t) (s_vars s)); [reflexivity|congruence].
Qed.
Lemma eqn_balance s c mk v : known s (e_terms (c_expr c)) -> lin (eqn_of s (c, mk)) v + q_const (eqn_of s (c, mk)) == balance s c mk v.
Proof. intros K. unfold lin, balance. cbn [eqn_of q_terms q_marks q_const fst snd]. rewrite (terms_vals s c v K), eval_sum. lra. Qed.

(** ** The two kinds of constraints *)
Definition border_c (A : variable) (c : constr) : Prop := e_terms (c_expr c) = [(A, 1)] /\ c_op c = REq /\ qltb (c_strength c) required = false.
Definition vval (x : variable -> Q) (o : option variable) : Q := match o with Some v => x v | None => 0 end.
(** Differences of any two variables, or multiples by 0, 1 and -1 of the same two. *)
Inductive vmode := VApart | VAround (a b : variable).
Definition diff_c (vm : vmode) (As : list variable) (c : constr) : Prop :=
  (c_op c = REq -> qltb (c_strength c) required = true) /\
  match vm with
  | VApart => exists p q, forall x, (forall A, In A As -> x A == 0) -> term_sum (e_terms (c_expr c)) x == vval x p - vval x q
  | VAround a b => exists al be, sgn_q al /\ sgn_q be /\ forall x, (forall A, In A As -> x A == 0) -> term_sum (e_terms (c_expr c)) x == al * x a + be * x b
  end.
Definition smode (s : solver) (vm : vmode) : netmode := match vm with VApart => Apart | VAround a b => Around (find_var a (s_vars s)) (find_var b (s_vars s)) end.
Record network (vm : vmode) (As : list variable) (L : ledger) : Prop := Network {
  nw_mode : match vm with VApart => True | VAround a b => ~ In a As /\ ~ In b As /\ a <> b end;
  nw_nodup : NoDup As;
  nw_split : exists B R, L = B ++ R /\ Forall2 (fun A p => border_c A (fst p)) As B /\ Forall (fun p => diff_c vm As (fst p)) R;
  nw_plain : forall c mk, In (c, mk) L -> plain c
}.
Lemma mark_units c mk m : mark_ok c mk -> In m mk -> unit_q (snd m).
Proof.
  unfold mark_ok. intros M J. destruct (c_op c), (qltb (c_strength c) required);
    repeat match goal with H : exists _, _ |- _ => destruct H | H : _ /\ _ |- _ => destruct H end; subst mk; cbn [In] in J;
    repeat (destruct J as [<-|J]; [cbn [snd]; (left; reflexivity) || (right; reflexivity)|]); destruct J.
Qed.
Lemma diff_own c mk : mark_ok c mk -> (c_op c = REq -> qltb (c_strength c) required = true) -> own_marks mk.
Proof.
  intros M H. assert (Mu := fun m => mark_units c mk m M). split.
  - unfold mark_ok in M. destruct (c_op c), (qltb (c_strength c) required); repeat match goal with H : exists _, _ |- _ => destruct H | H : _ /\ _ |- _ => destruct H end; subst mk; discriminate.
  - intros m J. split; [now apply Mu|]. clear Mu. unfold mark_ok, ext in *. destruct (c_op c), (qltb (c_strength c) required); try (specialize (H eq_refl); discriminate H);
      repeat match goal with H : exists _, _ |- _ => destruct H | H : _ /\ _ |- _ => destruct H end; subst mk; cbn [In] in J; repeat (destruct J as [<-|J]; [cbn [fst]; split; congruence|]); destruct J.
Qed.
Lemma border_mark A c mk : border_c A c -> mark_ok c mk -> exists d, mk = [(d, 1)] /\ sy_type d = TDummy.
Proof. intros (_ & Eo & Es) M. unfold mark_ok in M. rewrite Eo, Es in M. exact M. Qed.
Lemma diff_diff s vm As c : diff_c vm As c -> vinv s -> known s (e_terms (c_expr c)) -> fit_terms (smode s vm) (map (symof s) As) (terms_of s c).
Proof.
  intros (_ & H) V K. split.
  - destruct vm as [|a b]; cbn [smode].
    + destruct H as (p & q & H). exists (option_map (symof s) p), (option_map (symof s) q). split.
      * intros x [Z|Z]; [destruct p|destruct q]; try discriminate; injection Z as <-; now apply symof_ext.
      * intros v Z. rewrite terms_sum, H; [destruct p, q; reflexivity|]. intros A J. apply Z. now apply in_map.
    + destruct H as (al & be & Sa & Sb & H). exists al, be. split; [exact Sa|]. split; [exact Sb|]. intros v Z. rewrite (terms_vals s c v K), H; [reflexivity|]. intros A J. unfold vals. destruct (find_var A (s_vars s)) as [y|] eqn:E; [|reflexivity]. apply Z. apply in_map_iff. exists A. split; [|exact J]. unfold symof. now rewrite E.
  - intros x J. unfold terms_of, dom in J. rewrite map_map in J. apply in_map_iff in J. destruct J as (t & <- & _). now apply symof_ext.
Qed.
Lemma forall2_same {A B} (P : A -> B -> Prop) : (forall a a' b, P a b -> P a' b -> a = a') -> forall l m, Forall2 P l m -> NoDup l -> forall a b b', P a b -> P a b' -> In b m -> In b' m -> b = b'.
Proof.
  intros Inj. induction 1 as [|x y l m H1 H2 IH]; intros ND a b b' Ha Hb J J'; [destruct J|]. apply NoDup_cons_iff in ND. destruct ND as [N ND].
  assert (Pin : forall z w, P w z -> In z m -> In w l). { clear - H2 Inj. induction H2 as [|u t l m H1 H2 IH]; intros z w Hz J; [destruct J|]. destruct J as [->|J]; [left; exact (Inj _ _ _ H1 Hz)|right; now apply (IH z)]. }
  destruct J as [->|J], J' as [->|J']; [reflexivity| | |now apply (IH ND a)].
  - assert (x = a) by exact (Inj _ _ _ H1 Ha). subst a. elim N. now apply (Pin b').
  - assert (x = a) by exact (Inj _ _ _ H1 Hb). subst a. elim N. now apply (Pin b).
Qed.
Lemma forall2_right {A B} (P : A -> B -> Prop) l m b : Forall2 P l m -> In b m -> exists a, In a l /\ P a b.
Proof. induction 1 as [|x y l m H1 H2 IH]; intros J; [destruct J|]. destruct J as [->|J]; [exists x; split; [now left|exact H1]|]. destruct (IH J) as (a & I & Q). exists a. split; [now right|exact Q]. Qed.
Lemma forall2_left {A B} (P : A -> B -> Prop) l m a : Forall2 P l m -> In a l -> exists b, In b m /\ P a b.
Proof. induction 1 as [|x y l m H1 H2 IH]; intros J; [destruct J|]. destruct J as [->|J]; [exists y; split; [now left|exact H1]|]. destruct (IH J) as (b & I & Q). exists b. split; [now right|exact Q]. Qed.
Lemma find_inj s a b y : vinv s -> find_var a (s_vars s) = Some y -> find_var b (s_vars s) = Some y -> a = b.
Proof.
  intros V H1 H2. apply find_var_in in H1, H2. apply (vi_back _ V) in H1, H2. congruence.
Qed.

Section System.
Variables (sv : solver) (vm : vmode) (As : list variable) (L : ledger).
Hypothesis V : vinv sv.
Hypothesis Nw : network vm As L.
Hypothesis Ok : forall c mk, In (c, mk) L -> mark_ok c mk.
Hypothesis Nd : NoDup (mark_syms L).
Hypothesis Kn : forall c mk, In (c, mk) L -> known sv (e_terms (c_expr c)).
Lemma marks_all : all_marks (map (eqn_of sv) L) = mark_syms L.
Proof. unfold all_marks, mark_syms. induction L as [|p l IH]; [reflexivity|]. cbn [map flat_map]. f_equal. clear - p. induction l as [|q l IH]; [reflexivity|]. cbn [map flat_map]. now rewrite IH. Qed.
Lemma border_ground A p : border_c A (fst p) -> In p L -> exists d, ground_eq (eqn_of sv p) (symof sv A) d.
Proof.
  intros B J. destruct p as [c mk]. destruct (border_mark A c mk B (Ok _ _ J)) as (d & -> & Td). exists d. split; [|split; [reflexivity|split; [now apply symof_ext|exact Td]]].
  destruct B as (Et & _). cbn [eqn_of q_terms fst]. unfold terms_of. cbn [fst] in Et. now rewrite Et.
Qed.
Lemma border_known A : In A As -> exists y, find_var A (s_vars sv) = Some y.
Proof.
  intros J. destruct (nw_split _ _ _ Nw) as (B & R & EL & Hb & _). destruct (forall2_left _ _ _ _ Hb J) as ([c mk] & Jp & Et & _). cbn [fst] in Et.
  assert (Jl : In (c, mk) L) by (rewrite EL; apply in_app_iff; now left). pose proof (Kn _ _ Jl (A, 1)) as K. rewrite Et in K. specialize (K (or_introl eq_refl) ltac:(cbn; lra)). cbn [fst] in K. destruct (find_var A (s_vars sv)) as [y|]; [now exists y|congruence].
Qed.
Lemma smode_ok : mode_ok (smode sv vm) (map (symof sv) As).
Proof.
  pose proof (nw_mode _ _ _ Nw) as M.
  assert (Q : forall o x, ~ In o As -> find_var o (s_vars sv) = Some x -> ext x /\ ~ In x (map (symof sv) As)).
  { intros o x No E. split; [apply find_var_in in E; exact (proj1 (vi_types _ V _ _ E))|]. intros J. apply in_map_iff in J. destruct J as (A & Ea & J). destruct (border_known A J) as (y & Ey). unfold symof in Ea. rewrite Ey in Ea. subst y. now rewrite (find_inj sv o A x V E Ey) in No. }
  clear Nw Kn. destruct vm as [|a b]; [exact Logic.I|]. cbn [smode mode_ok]. destruct M as (Ma & Mb & Mab). split.
  - intros x [E|E]; [exact (Q a x Ma E)|exact (Q b x Mb E)].
  - intros x E1 E2. apply Mab. exact (find_inj sv a b x V E1 E2).
Qed.
Lemma net_of : net (smode sv vm) (map (symof sv) As) (map (eqn_of sv) L).
Proof.
  destruct (nw_split _ _ _ Nw) as (B & R & EL & Hb & Hd). split; [exact smode_ok| | | |].
  - intros e J. apply in_map_iff in J. destruct J as ([c mk] & <- & J). assert (J' := J). rewrite EL in J'. apply in_app_iff in J'. destruct J' as [J'|J'].
    + left. destruct (forall2_right _ _ _ _ Hb J') as (A & JA & Bc). destruct (border_ground A _ Bc J) as (d & Gd). exists (symof sv A), d. split; [exact Gd|]. now apply in_map.
    + right. rewrite Forall_forall in Hd. specialize (Hd _ J'). cbn [fst] in Hd. split; [exact (diff_diff sv vm As c Hd V (Kn _ _ J))|]. apply (diff_own c mk); [now apply Ok|apply Hd].
  - intros A J. apply in_map_iff in J. destruct J as (A0 & <- & J). destruct (forall2_left _ _ _ _ Hb J) as (p & Jp & Bp). assert (Jl : In p L) by (rewrite EL; apply in_app_iff; now left). destruct (border_ground A0 p Bp Jl) as (d & Gd). exists (eqn_of sv p), d. split; [now apply in_map|exact Gd].
  - intros e e' A d d' J J' Ge Ge'. apply in_map_iff in J, J'. destruct J as (p & <- & J), J' as (p' & <- & J').
    assert (Bd : forall p A d, In p L -> ground_eq (eqn_of sv p) A d -> In p B /\ exists A0, border_c A0 (fst p) /\ find_var A0 (s_vars sv) = Some A).
    { intros [c mk] A0 d0 Jp (G1 & G2 & _ & G3). assert (Jp' := Jp). rewrite EL in Jp'. apply in_app_iff in Jp'. destruct Jp' as [Jb|Jr].
      - split; [exact Jb|]. destruct (forall2_right _ _ _ _ Hb Jb) as (A1 & _ & Bc). exists A1. split; [exact Bc|]. destruct Bc as (Et & _). cbn [fst] in Et. cbn [eqn_of q_terms fst] in G1. unfold terms_of in G1. rewrite Et in G1. cbn [map fst snd] in G1. injection G1 as G1.
        pose proof (Kn _ _ Jp (A1, 1)) as K. rewrite Et in K. specialize (K (or_introl eq_refl) ltac:(cbn; lra)). cbn [fst] in K. unfold symof in G1. destruct (find_var A1 (s_vars sv)); [now f_equal|congruence].
      - exfalso. rewrite Forall_forall in Hd. specialize (Hd _ Jr). cbn [fst] in Hd. destruct (diff_own c mk (Ok _ _ Jp) (proj1 Hd)) as [_ Ow]. cbn [eqn_of q_marks snd] in G2. subst mk. destruct (Ow (d0, 1) (or_introl eq_refl)) as (_ & _ & Nt). now apply Nt. }
    destruct (Bd p A d J Ge) as (Jb & A0 & B0 & F0). destruct (Bd p' A d' J' Ge') as (Jb' & A1 & B1 & F1). assert (A0 = A1) by exact (find_inj sv A0 A1 A V F0 F1). subst A1. f_equal.
    refine (forall2_same (fun A p => border_c A (fst p)) _ As B Hb (nw_nodup _ _ _ Nw) A0 p p' B0 B1 Jb Jb'). intros a a' b (H1 & _) (H2 & _). congruence.
  - rewrite marks_all. exact Nd.
Qed.
(** What the objective adds up. *)
Definition costs_of (l : ledger) : list (symbol * Q) := flat_map (fun p => map (fun m => (fst m, c_strength (fst p))) (filter (fun m : symbol * Q => stype_eqb (sy_type (fst m)) TError) (snd p))) l.
Lemma costs_total l v : ev_cells (costs_of l) v == total l v.
Proof.
  induction l as [|[c mk] l IH]; [reflexivity|]. cbn [costs_of flat_map total fold_right fst snd]. fold (costs_of l) (total l v). rewrite ev_app, IH. apply Qplus_comp; [|reflexivity]. clear IH.
  induction mk as [|m mk IH]; [cbn; lra|]. cbn [filter errors fold_right]. fold (errors mk v). destruct (stype_eqb (sy_type (fst m)) TError); cbn [map ev_cells fst snd]; rewrite IH; lra.
Qed.
Lemma costs_in l p : In p (costs_of l) -> sy_type (fst p) = TError /\ exists c mk, In (c, mk) l /\ snd p = c_strength c.
Proof.
  intros J. apply in_flat_map in J. destruct J as ([c mk] & J & K). apply in_map_iff in K. destruct K as (m & <- & K). apply filter_In in K. destruct K as [_ K]. apply stype_eqb_ok in K. cbn [fst snd]. split; [exact K|]. exists c, mk. auto.
Qed.
Lemma costs_sum l : (forall c mk, In (c, mk) l -> mark_ok c mk /\ plain c) -> sum_costs (costs_of l) <= inject_Z (Z.of_nat (length l)) * 2002002000.
Proof.
  induction l as [|[c mk] l IH]; intros H; [change (0 <= 0 * 2002002000); lra|]. destruct (H c mk (or_introl eq_refl)) as [M P]. specialize (IH (fun c' mk' J => H c' mk' (or_intror J))).
  assert (Ap : forall a b, sum_costs (a ++ b) == sum_costs a + sum_costs b). { clear. induction a as [|p a IH]; intros b; [cbn [app]; change (sum_costs []) with 0; lra|]. cbn [app]. change (sum_costs (p :: a ++ b)) with (snd p + sum_costs (a ++ b)). change (sum_costs (p :: a)) with (snd p + sum_costs a). rewrite IH. lra. }
  cbn [costs_of flat_map fst snd]. fold (costs_of l). rewrite Ap. cbn [length]. rewrite Nat2Z.inj_succ. unfold Z.succ. rewrite inject_Z_plus. change (inject_Z 1) with 1.
  assert (Q : sum_costs (map (fun m : symbol * Q => (fst m, c_strength c)) (filter (fun m : symbol * Q => stype_eqb (sy_type (fst m)) TError) mk)) <= 2002002000); [|lra].
  destruct (pl_strength _ P) as (_ & P1 & P2). unfold required in P2. clear - M P1 P2. unfold mark_ok in M.
  assert (Le : (length mk <= 2)%nat) by (destruct (c_op c), (qltb (c_strength c) required); repeat match goal with H : exists _, _ |- _ => destruct H | H : _ /\ _ |- _ => destruct H end; subst mk; cbn; lia).
  destruct mk as [|m1 [|m2 [|m3 mk]]]; [| | |cbn in Le; lia]; cbn [filter]; repeat match goal with |- context [stype_eqb ?a ?b] => destruct (stype_eqb a b) end; unfold sum_costs; cbn [map fold_right fst snd]; lra.
Qed.
End System.

(** The equations written with the symbols of [sv], which knows the variables of [s]. *)
Lemma netted_at s sv vm As L : good s L -> exact s = true -> extends s sv -> vinv sv -> network vm As L -> (length L <= 127)%nat -> netted s (smode sv vm) (map (symof sv) As) (map (eqn_of sv) L) (costs_of L).
Proof.
  intros G E X V Nw Hl. destruct (g_sem _ _ G E) as (Kn & Hh & Ho). 
  assert (Kn' : forall c mk, In (c, mk) L -> known sv (e_terms (c_expr c))) by (intros c mk J; apply (known_ext s sv _ X); exact (Kn _ _ J)).
  assert (In' : forall e, In e (map (eqn_of sv) L) -> exists c mk, In (c, mk) L /\ e = eqn_of sv (c, mk) /\ plain c). { intros e J. apply in_map_iff in J. destruct J as ([c mk] & <- & J). exists c, mk. split; [exact J|]. split; [reflexivity|]. exact (nw_plain _ _ _ Nw _ _ J). }
  assert (Bl : forall c mk v, In (c, mk) L -> lin (eqn_of sv (c, mk)) v + q_const (eqn_of sv (c, mk)) == balance s c mk v) by (intros c mk v J; rewrite (eqn_balance sv c mk v (Kn' _ _ J)); exact (balance_ext s sv c mk v X (Kn _ _ J))).
  split.
  - apply net_of; try apply G; assumption.
  - intros e t J Jt. destruct (In' e J) as (c & mk & _ & -> & P). cbn [eqn_of q_terms fst] in Jt. unfold terms_of in Jt. apply in_map_iff in Jt. destruct Jt as (u & <- & Ju). cbn [snd]. exact (pl_terms _ P u Ju).
  - intros e J. destruct (In' e J) as (c & mk & _ & -> & P). cbn [eqn_of q_terms fst]. unfold terms_of. rewrite map_length. apply P.
  - rewrite map_length. exact Hl.
  - intros e J. destruct (In' e J) as (c & mk & _ & -> & P). apply P.
  - intros v. rewrite Hh. split.
    + intros S0 e J. destruct (In' e J) as (c & mk & Jc & -> & P). rewrite (Bl _ _ _ Jc). now apply S0.
    + intros S0 c mk Jc. rewrite <- (Bl _ _ _ Jc). apply S0. now apply in_map.
  - intros p J. apply costs_in in J. destruct J as (Tp & c & mk & J & ->). destruct (pl_strength _ (nw_plain _ _ _ Nw _ _ J)) as (I0 & P1 & _). split; [exact I0|]. split; [exact P1|congruence].
  - eapply Qle_trans; [apply costs_sum|].
    + intros c mk J. split; [exact (g_ok _ _ G _ _ J)|exact (nw_plain _ _ _ Nw _ _ J)].
    + apply (Qle_trans _ (127 * 2002002000)); [|discriminate]. apply Qmult_le_compat_r; [|discriminate]. change 127 with (inject_Z 127). rewrite <- Zle_Qle. lia.
  - intros v H. now rewrite costs_total, Ho.
  - rewrite (g_art _ _ G). discriminate.
Qed.
Lemma netted_of s vm As L : good s L -> exact s = true -> network vm As L -> (length L <= 127)%nat -> netted s (smode s vm) (map (symof s) As) (map (eqn_of s) L) (costs_of L).
Proof. intros G E Nw Hl. apply netted_at; try assumption; [intros v x H; exact H|apply G]. Qed.

(** ** The row of a new constraint *)
Lemma ev_mult l k v : ev_cells (map (fun p : symbol * Q => (fst p, k * snd p)) l) v == k * ev_cells l v.
Proof. induction l as [|p l IH]; cbn [map ev_cells fst snd]; [lra|]. rewrite IH. lra. Qed.
Section Created.
Variables (s : solver) (vm : vmode) (As : list variable) (L : ledger) (c : constr) (r : row) (t : tag) (s1 : solver) (mk : marks).
Hypothesis G : good s L.
Hypothesis E : exact s = true.
Hypothesis Nw : network vm As L.
Hypothesis Hl : (length L <= 127)%nat.
Hypothesis P : plain c.
Hypothesis Cr : created s c r t s1 mk.
Hypothesis R1 : s_rows s1 = s_rows s.
Hypothesis Xr : r_exact r = true.
Hypothesis Dt : fit_terms (smode s1 vm) (map (symof s1) As) (terms_of s1 c).
Let rows := s_rows s.
Let gs := map (symof s1) As.
Let es := map (eqn_of s1) L.
Lemma fresh_mark m : In m (dom mk) -> ~ In m (dom rows) /\ (forall p, In p rows -> ~ occurs m (snd p)) /\ ~ occurs m (s_objective s).
Proof.
  intros J. apply (cr_fresh _ _ _ _ _ _ Cr) in J. destruct J as [J _]. destruct (g_syms _ _ G) as (S1 & S2 & _). unfold below in *. split; [|split].
  - intros I0. apply in_map_iff in I0. destruct I0 as (p & <- & I0). apply S1 in I0. destruct I0 as [I0 _]. lia.
  - intros p I0 O. apply S1 in I0. destruct I0 as [_ I0]. apply I0 in O. lia.
  - intros O. apply S2 in O. lia.
Qed.
Lemma fresh_col m x : In m (dom mk) -> col rows m x = if sym_eqb x m then 1 else 0.
Proof.
  intros J. destruct (fresh_mark m J) as (H1 & H2 & _). unfold col. destruct (look x rows) as [q|] eqn:Lx; [|reflexivity]. apply look_in in Lx. rewrite cf_none by (exact (H2 _ Lx)).
  destruct (sym_eqb x m) eqn:Ex; [|reflexivity]. apply sym_eqb_ok in Ex. subst x. elim H1. now apply in_dom in Lx.
Qed.
Lemma col_marks y : ~ In y (dom rows) -> ev_cells mk (col rows y) == cf mk y.
Proof.
  intros Ny. rewrite (ev_cells_one mk y); [rewrite (col_same rows y Ny); lra|apply Cr|]. intros z J N. rewrite (col_other rows y z); [reflexivity| |exact N]. exact (proj1 (fresh_mark z J)).
Qed.
Lemma mark_cf y : In y (dom mk) -> unit_q (cf mk y).
Proof. intros J. apply look_dom in J. destruct J as (q & J). unfold cf. rewrite J. apply look_in in J. exact (mark_units c mk _ (cr_marks _ _ _ _ _ _ Cr) J). Qed.
Lemma created_simple : (forall y, sy_type y <> TDummy -> simple (cf (r_cells r) y)) /\ forall y, In y (dom mk) -> unit_q (cf (r_cells r) y).
Proof.
  assert (Nt := netted_at s s1 vm As L G E (cr_ext _ _ _ _ _ _ Cr) (cr_vars _ _ _ _ _ _ Cr) Nw Hl). fold gs es in Nt. assert (T := tab_tab0 _ (proj1 (g_inv _ _ G))). fold rows in T.
  destruct (cr_exact _ _ _ _ _ _ Cr Xr) as (Kn & k & Uk & Er). destruct (cr_fits _ _ _ _ _ _ Cr) as [W Fi]. rewrite R1 in Fi. fold rows in Fi, Er.
  set (l := map (fun p : symbol * Q => (fst p, k * snd p)) (terms_of s1 c ++ mk)).
  assert (El : forall v, ev_cells l v == k * (ev_cells (terms_of s1 c) v + ev_cells mk v)) by (intros v; unfold l; rewrite ev_mult, ev_app; reflexivity).
  assert (Ev : forall v, hold rows v -> ev r v == k * e_const (c_expr c) + ev_cells l v). { intros v H. rewrite (Er v H), <- (eqn_balance s1 c mk v Kn), El. unfold lin. cbn [eqn_of q_terms q_marks q_const fst snd]. lra. }
  assert (Nb : forall x, occurs x r -> ~ In x (dom rows)) by (intros x O; now apply Fi).
  assert (Cf : forall y, cf (r_cells r) y == if in_dec sym_dec y (dom rows) then 0 else k * (ev_cells (terms_of s1 c) (col rows y) + cf mk y)).
  { intros y. rewrite (row_cf rows T r l _ y W Nb Ev). destruct (in_dec sym_dec y (dom rows)) as [J|J]; [reflexivity|]. rewrite El, (col_marks y J). reflexivity. }
  assert (Hn := nt_net _ _ _ _ _ Nt). assert (Hh := nt_hold _ _ _ _ _ Nt). fold rows in Hh. fold gs in Dt.
  assert (Mz : forall y, In y (dom mk) -> ev_cells (terms_of s1 c) (col rows y) == 0).
  { intros y J. apply ev_cells_zero. intros x Jx. rewrite (fresh_col y x J). destruct (sym_eqb x y) eqn:Ex; [|reflexivity]. apply sym_eqb_ok in Ex. subst y. elim (mark_types c mk x (cr_marks _ _ _ _ _ _ Cr) J). exact (proj2 Dt x Jx). }
  assert (Um : forall y, In y (dom mk) -> unit_q (cf (r_cells r) y)).
  { intros y J. specialize (Cf y). destruct (in_dec sym_dec y (dom rows)) as [I0|I0]; [elim (proj1 (fresh_mark y J) I0)|]. rewrite (Mz y J) in Cf. pose proof (mark_cf y J) as U. unfold unit_q in *. destruct Uk as [Uk|Uk], U as [U|U]; rewrite Uk, U in Cf; [left|right|right|left]; rewrite Cf; reflexivity. }
  split; [|exact Um]. intros y Ty. destruct (in_dec sym_dec y (dom mk)) as [J|J]; [specialize (Um y J); left; now right|]. specialize (Cf y). destruct (in_dec sym_dec y (dom rows)) as [I0|I0]; [left; left; exact Cf|].
  rewrite (cf_none mk y J) in Cf. pose proof (col_fit rows (smode s1 vm) gs es T Hn Hh y (terms_of s1 c) I0 Ty Dt) as S0. unfold simple, sgn_q, half_q in *. destruct Uk as [Uk|Uk]; rewrite Uk in Cf; lra.
Qed.
End Created.
