(** C85: every run of a program has a terminal on which it draws: the theorems about the program and its screen together speak of all its runs. *)
From Verif Require Import Base P_Base M_Geom M_Buffer M_Backend M_Cmd M_App P_App P_AppIds P_AppLog P_AppRun P_AppEnd T_App S_Terminal S_Session S_Joint T_Joint S_Stateful T_Stateful.
From Coq Require Import ZArith List Bool Lia.
Import ListNotations.

Section Runs.
Context {M : Type}.
Variable m0 : M.
Variable init_cmd : option cmd.
Variable update : M -> msg -> option (M * option cmd).
Variable inputs : list msg.
Variable view : M -> widget.

(** Before the first draw; or the run has failed. *)
Definition alone (s : state M) : Prop := match st_main s with PSetup _ | PLoopEnd _ (Some _) | PReturned _ (Some _) | PCrashed => True | _ => False end.
(** A terminal that keeps its size: only draws, and size messages that tell this size. *)
Definition calm (W H : Z) (h : list S_Session.event) : Prop := forall e, In e h -> (exists m, e = EvDraw (view m)) \/ e = EvResize W H.
Definition accompanied (W H : Z) (s : state M) : Prop := exists h, S_Joint.together m0 init_cmd update inputs view s h /\ calm W H h.
Lemma goes_along W H a b es : step m0 init_cmd update inputs a b -> S_Joint.effect m0 view a b es -> calm W H es -> accompanied W H a -> accompanied W H b.
Proof.
  intros St F C (h & T & Ch). exists (h ++ es). split; [exact (t_step _ _ _ _ _ _ _ _ _ T St F)|]. intros e I. apply in_app_or in I. destruct I; auto.
Qed.
Lemma drawing_along W H a b m : step m0 init_cmd update inputs a b -> S_Joint.drawing m0 a = Some m -> st_log b = EDraw :: st_log a -> accompanied W H a -> accompanied W H b.
Proof. intros St D L. apply (goes_along W H a b [EvDraw (view m)] St (e_draw _ _ _ _ _ D L)). intros e [<-|[]]. left. now exists m. Qed.
Lemma quiet_along W H a b : step m0 init_cmd update inputs a b -> st_log b <> EDraw :: st_log a -> (forall from, st_log b <> EAccepted from MSize :: st_log a) -> accompanied W H a -> accompanied W H b.
Proof. intros St L1 L2. apply (goes_along W H a b [] St (e_none _ _ _ _ L1 L2)). intros e []. Qed.

(** Whatever the program and its goroutines do, a terminal of any size can be there that only the program writes to. *)
Theorem C85_every_run W H s : reachable m0 init_cmd update inputs s -> alone s \/ accompanied W H s.
Proof.
  intros R. assert (K : reachable m0 init_cmd update inputs s /\ (alone s \/ accompanied W H s)); [|exact (proj2 K)].
  eapply (inv_reach m0 init_cmd update inputs (fun s => reachable m0 init_cmd update inputs s /\ (alone s \/ accompanied W H s))); [|split; [apply steps_refl|left; exact Logic.I]|exact R].
  clear. intros a b St (R & K). split; [exact (steps_step _ _ _ _ _ _ _ _ R St)|].
  destruct K as [K|K].
  - unfold alone in *. assert (St' := St). destruct St; cbn [st_main] in *; try contradiction; auto.
    right. exists []. split; [apply t_start; [exact (steps_step _ _ _ _ _ _ _ _ R St')|reflexivity]|intros e []].
  - assert (St' := St). unfold alone. destruct St; cbn [st_main st_log] in *; try (left; exact Logic.I); right; revert K.
    all: try (apply (quiet_along W H _ _ St'); cbn [st_log]; [intros E; elim (cons_self _ _ E)|intros from E; elim (cons_self _ _ E)]; fail).
    all: try (apply (quiet_along W H _ _ St'); cbn [st_log]; [|intros from]; discriminate; fail).
    all: try (eapply (drawing_along W H _ _ _ St'); reflexivity).
    1: (destruct (gstep_log _ _ _ _ _ lg H0) as [N1 N2]; apply (quiet_along W H _ _ St'); assumption).
    + intros _. exists []. split; [apply t_start; [exact (steps_step _ _ _ _ _ _ _ _ R St')|reflexivity]|intros e []].
    + assert (D : y = MSize \/ y <> MSize) by (destruct y; (now left) || (right; discriminate)). destruct D as [->|D].
      * apply (goes_along W H _ _ [EvResize W H] St'); [apply (e_size _ _ _ _ w m W H); reflexivity|]. intros e [<-|[]]. now right.
      * apply (quiet_along W H _ _ St'); cbn [st_log]; [destruct y; discriminate|]. intros from. destruct y; try discriminate. congruence.
    + destruct c; apply (quiet_along W H _ _ St'); cbn [st_log returned app]; first [discriminate|intros from; discriminate].
Qed.
(** Such a terminal has been told its size. *)
Lemma calm_told W H h : calm W H h -> told (W, H) true h = true /\ final_size (W, H) h = (W, H) /\ forall z, In z (resizes h) -> z = (W, H).
Proof.
  induction h as [|e h IH]; intros C; [split; [reflexivity|]; split; [reflexivity|intros z []]|]. destruct IH as (A1 & A2 & A3); [intros x I; apply C; now right|].
  destruct (C e (or_introl eq_refl)) as [[m ->]| ->]; cbn [told final_size resizes flat_map app]; [auto|]. cbn [fst snd]. rewrite !Z.eqb_refl. cbn [andb]. split; [exact A1|]. split; [exact A2|]. intros z [<-|I]; auto.
Qed.
Lemma calm_sizes W H h : (0 <= W)%Z -> (0 <= H)%Z -> calm W H h -> sizes_ok h.
Proof. intros HW HH C e I. destruct (C e I) as [[m ->]| ->]; cbn; auto. Qed.
End Runs.
Print Assumptions C85_every_run.
