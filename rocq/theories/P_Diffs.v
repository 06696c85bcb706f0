(** The constraints of layouts in whole cells are a system of differences, whether results are rounded or not. *)
From Verif Require Import Base P_Base M_Geom M_Combin M_Solver M_Layout S_Solver S_Layout S_Rounded P_Row P_Tableau P_Simplex P_Create P_System P_Step P_Count P_Network P_Alike P_Netted P_Same P_Ledger P_Addsame P_Layout T_Layout.
From Coq Require Import ZArith NArith QArith Qabs List Bool Lia Lqa Setoid.
Import ListNotations.
Open Scope Q_scope.

Definition strength_ok (st : Q) : Prop := intq st /\ 0 <= st <= required.
Definition fine (vm : vmode) (As : list variable) (c : constr) : Prop := plain c /\ diff_c vm As c.
Definition agree (vm : vmode) (As : list variable) (l' l : list constr) : Prop := l' = l /\ forall c, In c l -> fine vm As c.
Lemma agree_nil vm As : agree vm As [] [].
Proof. split; [reflexivity|intros c []]. Qed.
Lemma agree_cons vm As c' c l' l : c' = c -> fine vm As c -> agree vm As l' l -> agree vm As (c' :: l') (c :: l).
Proof. intros -> F [-> A]. split; [reflexivity|]. intros d [<-|J]; [exact F|now apply A]. Qed.
Lemma agree_app vm As l' l m' m : agree vm As l' l -> agree vm As m' m -> agree vm As (l' ++ m') (l ++ m).
Proof. intros [-> A] [-> B]. split; [reflexivity|]. intros d J. apply in_app_iff in J. destruct J; auto. Qed.
Lemma agree_flat {A} vm As (f' f : A -> list constr) l : (forall x, In x l -> agree vm As (f' x) (f x)) -> agree vm As (flat_map f' l) (flat_map f l).
Proof. induction l as [|x l IH]; intros H; [apply agree_nil|]. cbn [flat_map]. apply agree_app; [apply H; now left|apply IH; intros y J; apply H; now right]. Qed.
Lemma agree_map {A} vm As (f' f : A -> constr) l : (forall x, In x l -> f' x = f x /\ fine vm As (f x)) -> agree vm As (map f' l) (map f l).
Proof. induction l as [|x l IH]; intros H; [apply agree_nil|]. cbn [map]. destruct (H x (or_introl eq_refl)) as [E Fi]. apply agree_cons; [exact E|exact Fi|apply IH; intros y J; apply H; now right]. Qed.

(** The variables that a system of differences can mention. *)
Definition reach (vm : vmode) (As : list variable) (v : variable) : Prop := match vm with VApart => True | VAround a b => In v As \/ v = a \/ v = b end.
Definition near (vm : vmode) (As : list variable) (e : element) : Prop := reach vm As (el_start e) /\ reach vm As (el_end e).
Lemma reach_val a b As p : (forall v, p = Some v -> reach (VAround a b) As v) -> exists ca cb, (ca == 0 /\ cb == 0 \/ ca == 1 /\ cb == 0 \/ ca == 0 /\ cb == 1) /\ forall x, (forall A, In A As -> x A == 0) -> vval x p == ca * x a + cb * x b.
Proof.
  intros H. destruct p as [v|]; [|exists 0, 0; split; [left; split; reflexivity|intros x _; cbn [vval]; lra]]. destruct (H v eq_refl) as [J|[->| ->]]; cbn [vval].
  - exists 0, 0. split; [left; split; reflexivity|]. intros x Z. rewrite (Z v J). lra.
  - exists 1, 0. split; [right; left; split; reflexivity|]. intros x _. lra.
  - exists 0, 1. split; [right; right; split; reflexivity|]. intros x _. lra.
Qed.
Lemma diff_of vm As c p q : (c_op c = REq -> qltb (c_strength c) required = true) -> (forall x, (forall A, In A As -> x A == 0) -> term_sum (e_terms (c_expr c)) x == vval x p - vval x q) ->
  (forall v, p = Some v \/ q = Some v -> reach vm As v) -> diff_c vm As c.
Proof.
  intros H E R. split; [exact H|]. destruct vm as [|a b]; [exists p, q; exact E|].
  destruct (reach_val a b As p) as (pa & pb & P1 & P2); [intros v J; apply R; now left|]. destruct (reach_val a b As q) as (qa & qb & Q1 & Q2); [intros v J; apply R; now right|].
  exists (pa - qa), (pb - qb). split; [unfold sgn_q; lra|]. split; [unfold sgn_q; lra|]. intros x Z. rewrite (E x Z), (P2 x Z), (Q2 x Z). ring.
Qed.

Section Floats.
Variable F : floats.
Local Notation ar' := (fl_ar F).
Lemma times_same n : int32 n -> @qmul ar' (inject_Z n) multiplier = qmul (inject_Z n) multiplier /\ whole K38 (qmul (inject_Z n) multiplier).
Proof.
  unfold int32. intros H. assert (S0 : whole K38 (inject_Z n * multiplier)). { unfold multiplier. change 100 with (inject_Z 100). rewrite <- inject_Z_mult. apply whole_z. unfold K38. lia. }
  split; [apply (fl_mul F); apply (whole_okq K38); [unfold K38; lia|exact S0]|]. eapply whole_eq; [symmetry; apply qmul_ok|exact S0].
Qed.
Lemma small_ok q : whole K38 q -> okq q.
Proof. apply whole_okq. unfold K38. lia. Qed.
Lemma const_same op st e k : e_const e = 0 -> whole K38 k -> @rel_const ar' op st e k = rel_const op st e k.
Proof.
  intros E H. unfold rel_const, e_sub_const. rewrite E. assert (O : whole K38 (qopp k)) by (eapply whole_eq; [symmetry; apply qopp_ok|now apply whole_opp]). rewrite (fl_opp F) by (now apply small_ok). rewrite (fl_add F); [reflexivity|]. apply small_ok. eapply whole_eq; [|exact O]. lra.
Qed.
Lemma const_plain op st e k : (forall t, In t (e_terms e) -> unit_q (snd t)) -> (length (e_terms e) <= 4)%nat -> e_const e = 0 -> whole K38 k -> strength_ok st -> plain (rel_const op st e k).
Proof.
  intros H1 H2 E H St. split; try assumption. cbn [rel_const c_expr e_sub_const e_const]. rewrite E. eapply whole_eq; [symmetry; apply qadd_ok|]. eapply whole_eq; [|apply whole_opp; exact H]. rewrite (qopp_ok k). lra.
Qed.
Lemma size_unit e t : In t (e_terms (el_size e)) -> unit_q (snd t).
Proof. intros [<-|[<-|[]]]; [left|right]; reflexivity. Qed.
Lemma size_sum e x : term_sum (e_terms (el_size e)) x == x (el_end e) - x (el_start e).
Proof. unfold el_size, v_sub. cbn [e_terms term_sum fold_right fst snd]. lra. Qed.
Lemma size_diff vm As e op st k : near vm As e -> (op = REq -> qltb st required = true) -> diff_c vm As (rel_const op st (el_size e) k).
Proof. intros [N1 N2] H. apply (diff_of vm As _ (Some (el_end e)) (Some (el_start e))); [exact H| |intros v [J|J]; injection J as <-; assumption]. intros x _. cbn [rel_const c_expr e_sub_const e_terms vval]. exact (size_sum e x). Qed.
Lemma size_fine vm As e op st k : near vm As e -> strength_ok st -> (op = REq -> qltb st required = true) -> whole K38 k -> @rel_const ar' op st (el_size e) k = rel_const op st (el_size e) k /\ fine vm As (rel_const op st (el_size e) k).
Proof. intros Ne St H K. split; [now apply const_same|]. split; [apply const_plain; [apply size_unit|cbn; lia|reflexivity|exact K|exact St]|now apply size_diff]. Qed.
(** The size of an element is that of the area, or a constant. *)
Lemma negate_unit ts : (forall t, In t ts -> unit_q (snd t)) -> map (fun t : variable * Q => (fst t, @qopp ar' (snd t))) ts = map (fun t : variable * Q => (fst t, qopp (snd t))) ts /\ (forall t, In t (map (fun t : variable * Q => (fst t, qopp (snd t))) ts) -> unit_q (snd t)).
Proof.
  intros H. split.
  - apply map_ext_in. intros t J. rewrite (fl_opp F); [reflexivity|]. apply (whole_okq 1); [lia|]. apply whole_unit. now apply H.
  - intros t J. apply in_map_iff in J. destruct J as (u & <- & J). cbn [snd]. specialize (H u J). assert (E := qopp_ok (snd u)). unfold unit_q in *. lra.
Qed.
Lemma zero_add : @qadd ar' 0 (@qopp ar' 0) = qadd 0 (qopp 0).
Proof. assert (Z0 : okq 0) by (apply (whole_okq 0); [lia|apply whole_zero; lia]). rewrite (fl_opp F) by exact Z0. apply (fl_add F). exact Z0. Qed.
Lemma expr_same e f st : e_const e = 0 -> (forall t, In t (e_terms f) -> unit_q (snd t)) -> whole K38 (e_const f) -> @rel_expr ar' REq st e f = rel_expr REq st e f.
Proof.
  intros E H K. unfold rel_expr, e_sub, e_negate. cbn [e_terms e_const]. rewrite E. rewrite (proj1 (negate_unit _ H)). assert (O : whole K38 (qopp (e_const f))) by (eapply whole_eq; [symmetry; apply qopp_ok|now apply whole_opp]).
  rewrite (fl_opp F) by (now apply small_ok). rewrite (fl_add F); [reflexivity|]. apply small_ok. eapply whole_eq; [|exact O]. lra.
Qed.
Lemma expr_fine vm As e f st : near vm As e -> strength_ok st -> qltb st required = true -> (forall t, In t (e_terms f) -> unit_q (snd t)) -> (length (e_terms f) <= 2)%nat -> whole K38 (e_const f) ->
  (forall x, (forall A, In A As -> x A == 0) -> term_sum (e_terms f) x == 0) -> @has_size ar' e f st = has_size e f st /\ fine vm As (has_size e f st).
Proof.
  intros [Na1 Na2] St Lt H Le K Z. split; [now apply expr_same|]. assert (O : whole K38 (qopp (e_const f))) by (eapply whole_eq; [symmetry; apply qopp_ok|now apply whole_opp]). split.
  - split; [| | |exact St]; cbn [has_size rel_expr c_expr e_sub e_terms e_negate].
    + intros t J. apply in_app_iff in J. destruct J as [J|J]; [now apply (size_unit e)|]. now apply (proj2 (negate_unit _ H)).
    + rewrite app_length, map_length. cbn [el_size v_sub e_terms length]. lia.
    + cbn [e_const e_negate el_size v_sub]. eapply whole_eq; [symmetry; apply qadd_ok|]. eapply whole_eq; [|exact O]. change (e_const (el_size e)) with 0. change (e_const (e_negate f)) with (qopp (e_const f)). lra.
  - apply (diff_of vm As _ (Some (el_end e)) (Some (el_start e))); [intros _; exact Lt| |intros v [J|J]; injection J as <-; assumption]. intros x Hx. cbn [has_size rel_expr c_expr e_sub e_terms e_negate vval]. rewrite <- (size_sum e x).
    assert (Ap : forall l m, term_sum (l ++ m) x == term_sum l x + term_sum m x). { clear. intros l m. induction l as [|p l IH]; [cbn [app]; change (term_sum [] x) with 0; lra|]. change (term_sum ((p :: l) ++ m) x) with (snd p * x (fst p) + term_sum (l ++ m) x). change (term_sum (p :: l) x) with (snd p * x (fst p) + term_sum l x). rewrite IH. lra. }
    assert (Ng : forall l, term_sum (map (fun t : variable * Q => (fst t, qopp (snd t))) l) x == - term_sum l x). { clear. induction l as [|p l IH]; [reflexivity|]. change (term_sum (p :: l) x) with (snd p * x (fst p) + term_sum l x). cbn [map]. match goal with |- term_sum (?a :: ?b) x == _ => change (term_sum (a :: b) x) with (snd a * x (fst a) + term_sum b x) end. rewrite IH. cbn [fst snd]. rewrite (qopp_ok (snd p)). lra. }
    rewrite Ap, Ng, (Z x Hx). lra.
Qed.
Lemma area_zero As area x : In (el_start area) As -> In (el_end area) As -> (forall A, In A As -> x A == 0) -> term_sum (e_terms (el_size area)) x == 0.
Proof. intros H1 H2 H. rewrite size_sum, (H _ H1), (H _ H2). lra. Qed.
Lemma area_fine vm As area e st : near vm As e -> strength_ok st -> qltb st required = true -> In (el_start area) As -> In (el_end area) As -> @has_size ar' e (el_size area) st = has_size e (el_size area) st /\ fine vm As (has_size e (el_size area) st).
Proof. intros Ne St Lt H1 H2. apply expr_fine; [exact Ne|exact St|exact Lt|apply size_unit|cbn; lia|apply whole_zero; unfold K38; lia|]. intros x Hx. now apply (area_zero As). Qed.
Lemma given_fine vm As e k st : near vm As e -> strength_ok st -> qltb st required = true -> whole K38 k -> @has_size ar' e (Expr [] k) st = has_size e (Expr [] k) st /\ fine vm As (has_size e (Expr [] k) st).
Proof. intros Ne St Lt K. apply expr_fine; [exact Ne|exact St|exact Lt|intros t []|cbn; lia|exact K|]. intros x _. reflexivity. Qed.
Lemma st_int z : (0 <= z <= 1001001000)%Z -> strength_ok (inject_Z z).
Proof. intros H. split; [apply int_z|]. split; [change 0 with (inject_Z 0)|change required with (inject_Z 1001001000)]; rewrite <- Zle_Qle; lia. Qed.
Ltac strength := first [exact (st_int 100100100 ltac:(lia)) | exact (st_int 100000000 ltac:(lia)) | exact (st_int 10000000 ltac:(lia)) | exact (st_int 10000 ltac:(lia)) | exact (st_int 1000 ltac:(lia)) | exact (st_int 100 ltac:(lia)) | exact (st_int 10 ltac:(lia)) | exact (st_int 1001000999 ltac:(lia)) | exact (st_int 1001001000 ltac:(lia))].
Lemma empty_fine vm As e : near vm As e -> @is_empty ar' e = is_empty e /\ fine vm As (is_empty e).
Proof. intros Ne. apply size_fine; [exact Ne|strength|reflexivity|apply whole_zero; unfold K38; lia]. Qed.
Lemma int_fine vm As e op n st : near vm As e -> int32 n -> strength_ok st -> (op = REq -> qltb st required = true) ->
  @rel_const ar' op st (el_size e) (@qmul ar' (inject_Z n) multiplier) = rel_const op st (el_size e) (qmul (inject_Z n) multiplier) /\ fine vm As (rel_const op st (el_size e) (qmul (inject_Z n) multiplier)).
Proof. intros Ne H St Lt. destruct (times_same n H) as [E K]. rewrite E. now apply size_fine. Qed.

Section Layout.
Variables (l : layout) (vs : list variable).
Hypothesis Wh : in_whole_cells l.
Hypothesis Hc : forall c, In c (l_constraints l) -> int32 (asked c).
Hypothesis Hs : int32 (spaced (l_spacing l)).
Hypothesis Lv : length vs = (2 * length (l_constraints l) + 2)%nat.
Let area := Element (hd 0%Z vs) (last vs 0%Z).
Let As := [hd 0%Z vs; last vs 0%Z].
Let vm := match l_flex l, vs with FlexCenter, [_; a; b; _] => VAround a b | _, _ => VApart end.
Lemma vm_reach v : In v vs -> reach vm As v.
Proof using.
  unfold vm, As. clear. intros J. destruct (l_flex l); try exact Logic.I. destruct vs as [|v0 [|a [|b [|v3 [|? ?]]]]]; try exact Logic.I. cbn [reach hd last In] in *. intuition congruence.
Qed.
Definition from_vs (e : element) : Prop := In (el_start e) vs /\ In (el_end e) vs.
Lemma vm_near e : from_vs e -> near vm As e.
Proof using. intros [H1 H2]. split; now apply vm_reach. Qed.
Lemma elements_from w e : incl w vs -> In e (new_elements w) -> from_vs e.
Proof using.
  assert (H : forall n w, (length w <= n)%nat -> incl w vs -> In e (new_elements w) -> from_vs e).
  { clear. induction n as [|n IH]; intros w Hn H J; (destruct w as [|a [|b w]]; [destruct J|destruct J|]); cbn [length] in Hn; [lia|]. cbn [new_elements] in J. destruct J as [<-|J].
    - split; apply H; [now left|right; now left].
    - apply (IH w); [lia| |exact J]. intros x K. apply H. right. now right. }
  intros H1 H2. exact (H (length w) w (le_n _) H1 H2).
Qed.
Lemma As1 : In (el_start area) As. Proof. now left. Qed.
Lemma As2 : In (el_end area) As. Proof. right. now left. Qed.
Lemma segment_agree fl c seg : from_vs seg -> int32 (asked c) -> in_cells c -> agree vm As (@segment_constraints ar' area fl c seg) (segment_constraints area fl c seg).
Proof.
  intros Fs. apply vm_near in Fs. intros H W. destruct c; try destruct W; cbn [segment_constraints asked] in *.
  - assert (A : agree vm As (match fl with FlexLegacy => [@has_int_size ar' seg n min_size_eq] | _ => [@has_size ar' seg (el_size area) fill_grow] end) (match fl with FlexLegacy => [has_int_size seg n min_size_eq] | _ => [has_size seg (el_size area) fill_grow] end)).
    { destruct fl; (apply agree_cons; [| |apply agree_nil]); first [apply (area_fine vm As area seg fill_grow Fs); [strength|reflexivity|apply As1|apply As2] | apply (int_fine vm As seg REq n min_size_eq Fs H); [strength|reflexivity]]. }
    apply agree_cons; [| |exact A]; apply (int_fine vm As seg RGe n min_size_gte Fs H); try discriminate; strength.
  - apply agree_cons; [| |apply agree_cons; [| |apply agree_nil]]; first [apply (int_fine vm As seg RLe n max_size_lte Fs H); [strength|discriminate] | apply (int_fine vm As seg REq n max_size_eq Fs H); [strength|reflexivity]].
  - apply agree_cons; [| |apply agree_nil]; apply (int_fine vm As seg REq n length_size_eq Fs H); first [strength|reflexivity].
  - apply agree_cons; [| |apply agree_nil]; apply (area_fine vm As area seg fill_grow Fs); first [strength|reflexivity|apply As1|apply As2].
Qed.
Lemma sizes_agree fl segs : (forall e, In e segs -> from_vs e) -> agree vm As (@size_constraints ar' area segs (l_constraints l) fl) (size_constraints area segs (l_constraints l) fl).
Proof.
  intros Fs. unfold size_constraints. apply agree_flat. intros [c seg] J. assert (Js := in_combine_r _ _ _ _ J). apply in_combine_l in J. cbn [fst snd]. apply segment_agree; [now apply Fs|now apply Hc|now apply (proj1 Wh)].
Qed.
Lemma spaced_int : int32 (match l_spacing l with SpSpace n => n | SpOverlap n => (- n)%Z | SpOther => 0%Z end).
Proof. unfold int32 in *. destruct (l_spacing l); cbn [spaced] in Hs; lia. Qed.
Lemma ends_agree spacers (f' f : element -> element -> list constr) : (forall a b, In a spacers -> In b spacers -> agree vm As (f' a b) (f a b)) -> agree vm As (ends spacers f') (ends spacers f).
Proof. intros H. unfold ends. destruct spacers as [|a [|b r]]; [apply agree_nil|apply agree_nil|apply H; [now left|apply last_in; discriminate]]. Qed.
Lemma centre_fine a b : near vm As a -> near vm As b -> (exists a1 b2, vm = VAround (el_end a) (el_start b) /\ a = Element a1 (el_end a) /\ b = Element (el_start b) b2 /\ In a1 As /\ In b2 As) ->
  @has_size ar' a (el_size b) spacer_size_eq = has_size a (el_size b) spacer_size_eq /\ fine vm As (has_size a (el_size b) spacer_size_eq).
Proof.
  intros Na Nb (a1 & b2 & Ev & Ea & Eb & J1 & J2). split; [apply expr_same; [reflexivity|apply size_unit|apply whole_zero; unfold K38; lia]|]. split.
  - split; [| | |strength]; cbn [has_size rel_expr c_expr e_sub e_terms e_negate].
    + intros t J. apply in_app_iff in J. destruct J as [J|J]; [now apply (size_unit a)|]. exact (proj2 (negate_unit _ (size_unit b)) t J).
    + cbn. lia.
    + apply (whole_eq _ 0); [reflexivity|apply whole_zero; unfold K38; lia].
  - split; [reflexivity|]. rewrite Ev. exists 1, 1. split; [unfold sgn_q; lra|]. split; [unfold sgn_q; lra|]. intros x Z. rewrite Ea, Eb. cbn [el_start el_end].
    change (term_sum (e_terms (c_expr (has_size (Element a1 (el_end a)) (el_size (Element (el_start b) b2)) spacer_size_eq))) x) with (1 * x (el_end a) + (-(1) * x a1 + (qopp 1 * x b2 + (qopp (-(1)) * x (el_start b) + 0)))). change (qopp 1) with (-(1)). change (qopp (-(1))) with 1. rewrite (Z _ J1), (Z _ J2). lra.
Qed.
Lemma flex_agree space : let spacers := new_elements vs in int32 space -> (length spacers = length (l_constraints l) + 1)%nat ->
  exists fx', @flex_constraints ar' area spacers (l_flex l) space = Ret fx' /\ exists fx, flex_constraints area spacers (l_flex l) space = Ret fx /\ agree vm As fx' fx.
Proof.
  intros spacers Sp Ls. destruct (times_same space Sp) as [Es Ks].
  assert (Fs : forall e, In e spacers -> near vm As e) by (intros e J; apply vm_near; apply (elements_from vs); [apply incl_refl|exact J]).
  assert (Mi : forall e, In e (middle spacers) -> In e spacers). { intros e J. unfold middle in J. destruct (_ <? _)%nat; [|destruct J]. destruct spacers as [|a r]; [destruct J|]. right. cbn [tl] in J. rewrite removelast_firstn_len in J. rewrite <- (firstn_skipn (Init.Nat.pred (length r)) r). apply in_app_iff. now left. }
  assert (Fx : agree vm As (map (fun s => @has_size ar' s (Expr [] (@qmul ar' (inject_Z space) multiplier)) spacer_size_eq) (middle spacers)) (map (fun s => has_size s (Expr [] (qmul (inject_Z space) multiplier)) spacer_size_eq) (middle spacers))).
  { apply agree_map. intros s J. rewrite Es. apply (given_fine vm As s _ spacer_size_eq); [apply Fs; now apply Mi|strength|reflexivity|exact Ks]. }
  assert (Lm : (length (middle spacers) = length (l_constraints l) - 1)%nat). { unfold middle. destruct (Nat.ltb_spec 2 (length spacers)); [|cbn [length]; lia]. destruct spacers as [|a r]; [cbn in *; lia|]. cbn [tl length] in *. rewrite removelast_firstn_len, firstn_length. lia. }
  assert (Em : forall a, In a spacers -> @is_empty ar' a = is_empty a /\ fine vm As (is_empty a)) by (intros a J; apply empty_fine; now apply Fs).
  assert (Ga : forall a, In a spacers -> @has_size ar' a (el_size area) grow = has_size a (el_size area) grow /\ fine vm As (has_size a (el_size area) grow)) by (intros a J; apply area_fine; [now apply Fs|strength|reflexivity|apply As1|apply As2]).
  destruct Wh as [_ [[Fl _]|L1]].
  - rewrite Fl. unfold flex_constraints. eexists. split; [reflexivity|]. eexists. split; [reflexivity|].
    apply agree_app; [exact Fx|]. apply ends_agree. intros a b Ja Jb. apply agree_cons; [now apply Em|now apply Em|]. apply agree_cons; [now apply Em|now apply Em|apply agree_nil].
  - assert (M0 : middle spacers = []) by (apply length_zero_iff_nil; lia).
    assert (Ce : l_flex l = FlexCenter -> agree vm As (ends spacers (fun a b => [@has_size ar' a (el_size area) grow; @has_size ar' b (el_size area) grow; @has_size ar' a (el_size b) spacer_size_eq])) (ends spacers (fun a b => [has_size a (el_size area) grow; has_size b (el_size area) grow; has_size a (el_size b) spacer_size_eq]))).
    { intros Fc. assert (Sh : spacers = [] \/ (exists e, spacers = [e]) \/ exists v0 a b v3, spacers = [Element v0 a; Element b v3] /\ vs = [v0; a; b; v3]).
      { unfold spacers. clear - Lv L1. destruct vs as [|v0 [|a [|b [|v3 [|? ?]]]]]; cbn [length] in Lv; try lia; [right; left; exists (Element v0 a); reflexivity|]. right. right. exists v0, a, b, v3. split; reflexivity. }
      destruct Sh as [->|[(e & ->)|(v0 & a & b & v3 & Es2 & Ev)]]; [apply agree_nil|apply agree_nil|].
      assert (Ja : In (Element v0 a) spacers) by (rewrite Es2; now left). assert (Jb : In (Element b v3) spacers) by (rewrite Es2; right; now left). rewrite Es2. cbn [ends last].
      apply agree_cons; [now apply Ga|now apply Ga|]. apply agree_cons; [now apply Ga|now apply Ga|].
      assert (Ct : @has_size ar' (Element v0 a) (el_size (Element b v3)) spacer_size_eq = has_size (Element v0 a) (el_size (Element b v3)) spacer_size_eq /\ fine vm As (has_size (Element v0 a) (el_size (Element b v3)) spacer_size_eq)).
      { apply centre_fine; [now apply Fs|now apply Fs|]. exists v0, v3. cbn [el_start el_end]. split; [unfold vm; rewrite Fc, Ev; reflexivity|]. split; [reflexivity|]. split; [reflexivity|]. unfold As. rewrite Ev. cbn [hd last]. split; [now left|right; now left]. }
      apply agree_cons; [apply Ct|apply Ct|apply agree_nil]. }
    assert (Go : forall fl, l_flex l = fl -> exists fx', @flex_constraints ar' area spacers fl space = Ret fx' /\ exists fx, flex_constraints area spacers fl space = Ret fx /\ agree vm As fx' fx); [|exact (Go _ eq_refl)].
    unfold flex_constraints. rewrite M0. cbn [map flat_map length Nat.leb app bind]. intros fl Efl.
    destruct fl; (eexists; split; [reflexivity|]; eexists; split; [reflexivity|]); try apply agree_nil; try (apply Ce; exact Efl);
      apply ends_agree; intros a b Ja Jb; (apply agree_cons; [now apply Em|now apply Em|]); (apply agree_cons; [first [now apply Em|now apply Ga]|first [now apply Em|now apply Ga]|apply agree_nil]).
Qed.
Lemma fills_few segs : fill_constraints segs (l_constraints l) (l_flex l) = Ret [] /\ @fill_constraints ar' segs (l_constraints l) (l_flex l) = Ret [].
Proof.
  assert (H : (length (filter (fun p : lconstraint * element => fills (l_flex l) (fst p)) (combine (l_constraints l) segs)) < 2)%nat).
  { destruct Wh as [_ [[Fl Le]|L1]].
    - rewrite Fl. apply (Nat.le_lt_trans _ (length (filter is_fill (l_constraints l)))); [|lia]. clear. generalize segs. induction (l_constraints l) as [|c cs IH]; intros sg; [cbn; lia|]. destruct sg as [|s sg]; [cbn [combine filter length]; lia|]. cbn [combine filter fst]. specialize (IH sg). destruct c; cbn [fills is_fill length]; lia.
    - apply (Nat.le_lt_trans _ (length (combine (l_constraints l) segs))); [clear; induction (combine (l_constraints l) segs) as [|p q IH]; [apply le_n|]; cbn [filter]; destruct (fills _ _); cbn [length]; lia|]. rewrite combine_length. lia. }
  unfold fill_constraints. apply Nat.ltb_lt in H. rewrite H. split; reflexivity.
Qed.
Lemma neighbours_none segs : (length segs = length (l_constraints l))%nat -> match l_flex l with FlexLegacy => [] | _ => neighbours segs end = [] /\ match l_flex l with FlexLegacy => [] | _ => @neighbours ar' segs end = [].
Proof.
  intros Ls. destruct Wh as [_ [[-> _]|L1]]; [split; reflexivity|]. destruct segs as [|a [|b r]]; cbn [length] in Ls; try lia; destruct (l_flex l); split; reflexivity.
Qed.

Lemma hard_agree w : incl w vs -> agree vm As (in_area_constraints w area) (in_area_constraints w area) /\ agree vm As (variable_constraints w) (variable_constraints w).
Proof.
  intros Iw. assert (Pl : forall op a b, plain (rel_var op required (e_var a) b)). { intros op a b. split; cbn; [intros t [<-|[<-|[]]]; [left|right]; reflexivity|lia|apply whole_zero; unfold K38; lia|split; [exists 1001001000%Z; reflexivity|split; discriminate]]. }
  split.
  - unfold in_area_constraints. apply agree_flat. intros v Jv. apply agree_cons; [reflexivity| |apply agree_cons; [reflexivity| |apply agree_nil]]; (split; [apply Pl|]); apply (diff_of vm As _ (Some v) None); try discriminate; try (intros u [J|J]; [injection J as <-; apply vm_reach; now apply Iw|discriminate]); intros x Hx; cbn [rel_var e_sub_var e_var c_expr e_terms app vval].
    + change (term_sum [(v, 1); (el_start area, - (1))] x) with (1 * x v + (-(1) * x (el_start area) + 0)). rewrite (Hx _ As1). lra.
    + change (term_sum [(v, 1); (el_end area, - (1))] x) with (1 * x v + (-(1) * x (el_end area) + 0)). rewrite (Hx _ As2). lra.
  - unfold variable_constraints. apply agree_map. intros e Je. assert (Fe : from_vs e) by (apply (elements_from (tl w)); [intros u J; apply Iw; destruct w; [destruct J|now right]|exact Je]). split; [reflexivity|]. split; [apply Pl|]. apply (diff_of vm As _ (Some (el_start e)) (Some (el_end e))); [discriminate| |intros u [J|J]; injection J as <-; apply vm_reach; apply Fe]. intros x _. cbn [rel_var e_sub_var e_var c_expr e_terms app vval].
    change (term_sum [(el_start e, 1); (el_end e, - (1))] x) with (1 * x (el_start e) + (-(1) * x (el_end e) + 0)). lra.
Qed.
Lemma border_same v k : whole K38 k -> @rel_const ar' REq required (e_var v) k = rel_const REq required (e_var v) k /\ plain (rel_const REq required (e_var v) k) /\ border_c v (rel_const REq required (e_var v) k).
Proof.
  intros K. split; [now apply const_same|]. split; [|split; [reflexivity|split; reflexivity]]. apply const_plain; [intros t [<-|[]]; left; reflexivity|cbn; lia|reflexivity|exact K|strength].
Qed.
Lemma new_elements_length w : (length (new_elements w) = length w / 2)%nat.
Proof.
  assert (H : forall n w, (length w <= n)%nat -> (length (new_elements w) = length w / 2)%nat).
  { clear. induction n as [|n IH]; intros w H; [destruct w; [reflexivity|cbn in H; lia]|]. destruct w as [|a [|b w]]; [reflexivity|reflexivity|]. cbn [new_elements length] in *. rewrite IH by lia. replace (S (S (length w))) with (length w + 1 * 2)%nat by lia. rewrite Nat.div_add by lia. lia. }
  now apply (H (length w)).
Qed.
Hypothesis Nd : NoDup vs.
Lemma constraints_same lo hi : int32 lo -> int32 hi -> exists cs, layout_constraints l (qmul (inject_Z lo) multiplier) (qmul (inject_Z hi) multiplier) vs = Ret cs /\
  @layout_constraints ar' l (@qmul ar' (inject_Z lo) multiplier) (@qmul ar' (inject_Z hi) multiplier) vs = Ret cs /\
  (exists b1 b2 ds, cs = b1 :: b2 :: ds /\ border_c (hd 0%Z vs) b1 /\ border_c (last vs 0%Z) b2 /\ forall c, In c ds -> diff_c vm As c) /\ hd 0%Z vs <> last vs 0%Z /\ match vm with VApart => True | VAround a b => a <> hd 0%Z vs /\ a <> last vs 0%Z /\ b <> hd 0%Z vs /\ b <> last vs 0%Z /\ a <> b end /\ (forall c, In c cs -> plain c).
Proof.
  intros Hlo Hhi. destruct (times_same lo Hlo) as [El Kl]. destruct (times_same hi Hhi) as [Eh Kh]. rewrite El, Eh. clear El Eh. set (n := length (l_constraints l)) in *.
  assert (Lsp : length (new_elements vs) = (n + 1)%nat). { rewrite new_elements_length, Lv. replace (2 * n + 2)%nat with ((n + 1) * 2)%nat by lia. apply Nat.div_mul. lia. }
  assert (Lsg : length (new_elements (tl vs)) = n). { rewrite new_elements_length. destruct vs as [|v w]; [cbn in Lv; lia|]. cbn [tl length] in *. assert (length w = 1 + n * 2)%nat as -> by lia. rewrite Nat.div_add by lia. reflexivity. }
  unfold layout_constraints. set (space := match l_spacing l with SpSpace n => n | SpOverlap n => (- n)%Z | SpOther => 0%Z end). fold area.
  destruct (flex_agree space spaced_int Lsp) as (fx' & E1 & fx & E2 & Afx). rewrite E1, E2. destruct (fills_few (new_elements (tl vs))) as [F1 F2]. rewrite F1, F2. cbn [bind].
  destruct (neighbours_none (new_elements (tl vs)) Lsg) as [G1 G2]. rewrite G1, G2. destruct (hard_agree vs (incl_refl vs)) as [A1 A2]. assert (A3 := sizes_agree (l_flex l) (new_elements (tl vs)) (fun e J => elements_from (tl vs) e ltac:(intros u K; destruct vs; [destruct K|now right]) J)).
  destruct (border_same (el_start area) _ Kl) as (B1 & B2 & B3). destruct (border_same (el_end area) _ Kh) as (C1 & C2 & C3).
  assert (Ag := agree_app vm As _ _ _ _ A1 (agree_app vm As _ _ _ _ A2 (agree_app vm As _ _ _ _ Afx (agree_app vm As _ _ _ _ A3 (agree_nil vm As))))).
  destruct Ag as [Eq Fi]. set (ds := in_area_constraints vs area ++ variable_constraints vs ++ fx ++ size_constraints area (new_elements (tl vs)) (l_constraints l) (l_flex l) ++ []) in *.
  set (lo' := @qmul exact_arith (inject_Z lo) multiplier) in *. set (hi' := @qmul exact_arith (inject_Z hi) multiplier) in *.
  exists (area_constraints area lo' hi' ++ ds). split; [reflexivity|]. split; [f_equal; unfold area_constraints; rewrite B1, C1; f_equal; exact Eq|]. split; [|split; [|split]].
  - exists (rel_const REq required (e_var (el_start area)) lo'), (rel_const REq required (e_var (el_end area)) hi'), ds. split; [reflexivity|]. split; [exact B3|]. split; [exact C3|]. intros c J. now apply Fi.
  - intros Z. destruct vs as [|v [|w r]]; [cbn in Lv; lia|cbn in Lv; lia|]. apply NoDup_cons_iff in Nd. destruct Nd as [N1 _]. apply N1. cbn [hd] in Z. change (last (v :: w :: r) 0%Z) with (last (w :: r) 0%Z) in Z. rewrite Z. apply last_in. discriminate.
  - unfold vm. clear - Nd. destruct (l_flex l); try exact Logic.I. destruct vs as [|v0 [|a [|b [|v3 [|? ?]]]]]; try exact Logic.I. cbn [hd last]. rewrite !NoDup_cons_iff in Nd. cbn [In] in Nd. intuition congruence.
  - intros c [<-|[<-|J]]; [exact B2|exact C2|now apply Fi].
Qed.
End Layout.
End Floats.
