(** C90: maps walked at random: splitting a layout ends, sooner or later. *)
From Verif Require Import Base P_Base M_Geom M_Solver M_Layout M_Rounded S_Solver S_Layout S_Rounded S_Chance P_Row P_Tableau P_Simplex P_System P_Step P_Exact P_Count P_Bland P_Ends P_Walks P_Chance P_Layout T_Solver T_Layout T_Exact T_Ends T_Rounded.
From Coq Require Import ZArith NArith QArith List Bool Lia Permutation.
Import ListNotations.
Open Scope Z_scope.

Lemma names_few : exists names : list symbol, (length names <= 1024)%nat /\ forall x, (sy_value x < 256)%N -> In x names.
Proof.
  exists (flat_map (fun n => map (Sym (N.of_nat n)) [TExternal; TSlack; TError; TDummy]) (seq 0 256)). split; [apply Nat.leb_le; vm_compute; reflexivity|].
  intros x H. apply in_flat_map. exists (N.to_nat (sy_value x)). split; [apply in_seq; lia|]. rewrite N2Nat.id. destruct x as [v t]. cbn [sy_value]. destruct t; cbn; tauto.
Qed.
Lemma follows_app walk p w order : follows walk (p ++ w) order -> follows walk p order.
Proof. intros F k c l H. apply F. rewrite nth_error_app1; [exact H|]. apply nth_error_Some. congruence. Qed.

Section Exact.
#[local] Existing Instance no_tolerance.
(** What adding the constraints gives is settled by the draws. *)
Definition settled (walk : nat -> list symbol -> list symbol) (cs : list constr) (ds : list nat) : Prop :=
  exists res, res <> NoFuel /\ forall order fuel, follows walk ds order -> (length ds <= fuel)%nat -> add_constraints order fuel new_solver cs = res.
Lemma settled_more walk cs p w : settled walk cs p -> settled walk cs (p ++ w).
Proof. intros (res & Rn & F). exists res. split; [exact Rn|]. intros order fuel H L. apply F; [now apply follows_app in H|]. rewrite app_length in L. lia. Qed.
Lemma settles : exists b, forall K N walk cs n p, fair K N walk -> (1024 <= N)%nat -> (forall c, In c cs -> 0 <= c_strength c)%Q -> (names_needed cs <= 254)%nat -> draws K n p -> exists w, draws K b w /\ settled walk cs (p ++ w).
Proof.
  destruct names_few as (names & Few & Hn). exists (127 * per_constraint names + 2 ^ length names + 1)%nat. intros K N walk cs n p Fa HN St H [Lp Fp].
  assert (Nr : forall q, near_zero q = true -> is_zero q = true) by (intros q Z; exact Z).
  set (first := fun k l => walk (nth k p O) l). assert (Oo : any_order first) by (intros k l; apply (fair_keys _ _ _ Fa)).
  pose proof (adds_closes (then_ranked n first) (then_ranked_ok n first Oo) Nr n (then_ranked_fixed n first) names Hn (variables cs) cs 0 new_solver [] good_new eq_refl St) as C.
  destruct C as (res & t & Rn & _ & U & Nt & F).
  - intros c I v J. unfold variables. apply nodup_In. apply in_flat_map. eauto.
  - repeat split; [constructor|intros v []|cbn; lia].
  - rewrite Nat.add_0_r, symbols_two. exact H.
  - cbn [new_solver s_uses Nat.max] in U.
    assert (Lc : (length cs <= 127)%nat) by (unfold names_needed in H; lia). assert (Lc' : (length cs * per_constraint names <= 127 * per_constraint names)%nat) by (now apply Nat.mul_le_mono_r). set (m := per_constraint names) in *. clearbody m. set (e := (2 ^ length names)%nat) in *. clearbody e.
    destruct (choose K (127 * m + e + 1) (fun k c => walk c (t k) = rank (t k))) with (n := n) as (w & [Lw Fw] & W).
    { intros k. apply (fair_every _ _ _ Fa); [|apply rank_perm]. destruct (Nt k) as [N1 N2]. pose proof (NoDup_incl_length N1 N2). lia. }
    exists w. split; [split; assumption|]. exists res. split; [exact Rn|]. intros order fuel Fo L. rewrite app_length in L. apply F; [|lia]. cbn [new_solver s_uses]. intros k Hk.
    unfold then_ranked. destruct (Nat.ltb_spec k n) as [Kn|Kn].
    + apply Fo. rewrite nth_error_app1 by lia. apply nth_error_nth'. lia.
    + rewrite (Fo k (nth (k - n) w O)); [|rewrite nth_error_app2 by lia; rewrite Lp; apply nth_error_nth'; lia]. specialize (W (k - n)%nat ltac:(lia)). replace (n + (k - n))%nat with k in W by lia. exact W.
Qed.

(** ** C90: draw the order of each walk over a map, giving every order of the keys a chance. For every [m] there is a number of walks, the same for all
    layouts and areas, after which the chance that the work goes on is at most one in [m]; what the draws are then settles the segments. *)
Theorem C90_solver_partial K N walk m : fair K N walk -> (1024 <= N)%nat -> exists n, forall cs, (forall c, In c cs -> 0 <= c_strength c)%Q -> (names_needed cs <= 254)%nat ->
  all_but_one_in m K n (fun ds => exists res, res <> NoFuel /\ forall order fuel, follows walk ds order -> (n <= fuel)%nat -> add_constraints order fuel new_solver cs = res).
Proof.
  intros Fa HN. destruct settles as (b & B). assert (HK : (0 < K)%nat) by (destruct (fair_every _ _ _ Fa [] [] ltac:(cbn; lia) (perm_nil _)) as (c & C & _); lia).
  destruct (sooner_or_later m K b HK) as (n & _ & G). exists n. intros cs St H. destruct (G (settled walk cs)) as (bad & B1 & B2); [apply settled_more|intros k p D; now apply (B K N walk cs k)|].
  exists bad. split; [exact B1|]. intros ds D Nb. destruct (B2 ds D Nb) as (res & Rn & F). exists res. split; [exact Rn|]. intros order fuel Fo L. apply F; [exact Fo|]. destruct D as [-> _]. exact L.
Qed.
Theorem C90_split_partial K N walk m : fair K N walk -> (1024 <= N)%nat -> exists n, forall vs l area, vars_ok vs l -> few_names l ->
  all_but_one_in m K n (fun ds => exists segs sps, forall order fuel, any_order order -> follows walk ds order -> (n <= fuel)%nat -> M_Layout.split order fuel vs l area = Splits segs sps).
Proof.
  intros Fa HN. destruct (C90_solver_partial K N walk m Fa HN) as (n & C). exists n. intros vs l area V H. destruct (problem_ok vs l area V) as (rest & E & _). pose proof (problem_strengths vs l area _ V E) as St. pose proof (few_needed vs l area _ V H E) as Nm.
  destruct (C _ St Nm) as (bad & B1 & B2). exists bad. split; [exact B1|]. intros ds D Nb. destruct (B2 ds D Nb) as (res & Rn & F). clear B2.
  assert (Ex : exists order, any_order order /\ follows walk ds order).
  { exists (fun k l => match nth_error ds k with Some c => walk c l | None => l end). split; [intros k x; destruct (nth_error ds k); [apply (fair_keys _ _ _ Fa)|reflexivity]|]. intros k c x Hk. now rewrite Hk. }
  destruct Ex as (o0 & O0 & F0). pose proof (F o0 n F0 (le_n n)) as R0. destruct res as [s|e s|]; [| |congruence].
  - destruct (M_Layout.split o0 n vs l area) as [segs sps| |] eqn:Sp.
    2,3: rewrite (split_done _ _ _ _ _ _ _ E R0) in Sp; discriminate.
    exists segs, sps. intros order fuel Oo Fo L. rewrite <- Sp. rewrite (split_done _ _ _ _ _ _ _ E R0), (split_done _ _ _ _ _ _ _ E (F order fuel Fo L)). reflexivity.
  - exfalso. exact (C35_few_partial o0 n vs l area O0 V H (split_fail _ _ _ _ _ _ _ _ E R0)).
Qed.
(** In particular when all orders of the keys are equally likely. *)
Theorem C90_even_partial m : exists n, forall vs l area, vars_ok vs l -> few_names l ->
  all_but_one_in m (Factorial.fact 1024) n (fun ds => exists segs sps, forall order fuel, any_order order -> follows even_walk ds order -> (n <= fuel)%nat -> M_Layout.split order fuel vs l area = Splits segs sps).
Proof. exact (C90_split_partial (Factorial.fact 1024) 1024 even_walk m (even_fair 1024) (le_n _)). Qed.
(** And for the program as it is, in float64, with its tolerance, for layouts in whole cells. *)
Theorem C90_float64_partial K N walk m : fair K N walk -> (1024 <= N)%nat -> exists n, forall vs l area, vars_ok vs l -> whole_layout l area ->
  all_but_one_in m K n (fun ds => exists segs sps, forall order fuel, any_order order -> follows walk ds order -> (n <= fuel)%nat -> split64 order fuel vs l area = Splits segs sps).
Proof.
  intros Fa HN. destruct (C90_split_partial K N walk m Fa HN) as (n & C). exists n. intros vs l area V W. destruct (C vs l area V (proj2 (proj2 W))) as (bad & B1 & B2). exists bad. split; [exact B1|]. intros ds D Nb.
  destruct (B2 ds D Nb) as (segs & sps & F). exists segs, sps. intros order fuel Oo Fo L. rewrite (C75_float64_partial order fuel vs l area Oo V W). now apply F.
Qed.
End Exact.
(** The draws are counted rightly: there are [K ^ n] different ones; and [even_walk] draws each order of the keys as often as any other. *)
Theorem C90_outcomes K n : exists all, NoDup all /\ length all = (K ^ n)%nat /\ forall ds, In ds all <-> draws K n ds.
Proof. exists (outcomes K n). split; [apply outcomes_nodup|]. split; [apply outcomes_length|]. apply outcomes_ok. Qed.
Theorem C90_even N : fair (Factorial.fact N) N even_walk /\ forall l l', NoDup l -> (length l <= N)%nat -> Permutation l' l ->
  exists cs, NoDup cs /\ (length cs * Factorial.fact (length l) = Factorial.fact N)%nat /\ forall c, In c cs <-> (c < Factorial.fact N)%nat /\ even_walk c l = l'.
Proof.
  split; [apply even_fair|]. intros l l' Nd L P. destruct (even_every l l' P) as (i & I & E). exists (filter (fun c => c mod Factorial.fact (length l) =? i)%nat (seq 0 (Factorial.fact N))).
  split; [apply NoDup_filter, seq_NoDup|]. split; [now apply even_likely|]. intros c. rewrite filter_In, in_seq. split.
  - intros [A B]. apply Nat.eqb_eq in B. split; [lia|]. unfold even_walk. rewrite B. exact E.
  - intros [A B]. split; [lia|]. apply Nat.eqb_eq. apply (even_once l _ _ Nd); [apply Nat.mod_upper_bound, Factorial.fact_neq_0|exact I|]. rewrite E. exact B.
Qed.

(** A case: the row for which some ways to walk never end (C74_every_order_refuted) is among the layouts, and drawing all orders of up to 1024 keys evenly is fair. *)
Example C90_instance : fair (Factorial.fact 1024) 1024 even_walk /\ vars_ok (vars_for (l_constraints narrow_row)) narrow_row /\ few_names narrow_row /\ whole_layout crowd (Rect 3 0 40 2) /\
  map (fun c => even_walk c [Sym 1 TSlack; Sym 2 TError]) [0; 1; 2; 3]%nat = [[Sym 1 TSlack; Sym 2 TError]; [Sym 2 TError; Sym 1 TSlack]; [Sym 1 TSlack; Sym 2 TError]; [Sym 2 TError; Sym 1 TSlack]].
Proof.
  split; [apply even_fair|]. split; [apply vars_for_ok|]. split; [unfold few_names; cbn; lia|]. split; [exact (proj1 C75_instance)|reflexivity].
Qed.

Print Assumptions C90_solver_partial.
Print Assumptions C90_split_partial.
Print Assumptions C90_even_partial.
Print Assumptions C90_float64_partial.
Print Assumptions C90_outcomes.
Print Assumptions C90_even.
