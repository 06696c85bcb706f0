(** C63: what a layout without room gives depends on the order in which the solver walks its maps. *)
From Verif Require Import Base M_Geom M_Solver M_Layout S_Solver S_Layout S_Place T_Solver T_Layout.
From Coq Require Import ZArith NArith QArith List Bool Lia Permutation.
Import ListNotations.
Open Scope Z_scope.
#[local] Existing Instance code_tolerance.

(** Four panes of five columns and one that fills the rest, in ten columns. *)
Definition crowded : layout := Layout DirHorizontal [LLen 5; LLen 5; LFill 1; LLen 5; LLen 5] (Padding 0 0 0 0) FlexStart (SpSpace 0).
(** ** C63 Two runs that differ only in the order of the maps: the first two panes share the area, or the last two do. Each run meets
    the hypotheses of C34-C36, so each answer is best: the code picks one of them by chance. *)
Theorem C63_same_refuted :
  exists order order' segs sps segs' sps',
    any_order order /\ any_order order' /\
    let vs := vars_for (l_constraints crowded) in let area := Rect 0 0 10 1 in
    regular order 1000 vs crowded area /\ regular order' 1000 vs crowded area /\
    M_Layout.split order 1000 vs crowded area = Splits segs sps /\ M_Layout.split order' 1000 vs crowded area = Splits segs' sps' /\
    map rw segs = [5; 5; 0; 0; 0] /\ map rw segs' = [0; 0; 0; 5; 5] /\ segs <> segs'.
Proof.
  exists keep_order, (fun _ l => rev l). do 4 eexists. split; [intros n l; apply Permutation_refl|]. split; [intros n l; apply Permutation_sym, Permutation_rev|]. cbv zeta.
  split; [apply regular_run_ok; vm_compute; reflexivity|]. split; [apply regular_run_ok; vm_compute; reflexivity|]. split; [vm_compute; reflexivity|]. split; [vm_compute; reflexivity|]. split; [reflexivity|]. split; [reflexivity|discriminate].
Qed.
(** The same with percentages, centred, a space between neighbours. *)
Definition halves : layout := Layout DirVertical [LPercentage 50; LPercentage 50; LFill 1; LPercentage 50; LPercentage 50] (Padding 0 0 0 0) FlexCenter (SpSpace 1).
Theorem C63_halves_refuted :
  let vs := vars_for (l_constraints halves) in let area := Rect 0 0 80 10 in
  exists segs sps segs' sps',
    regular keep_order 1000 vs halves area /\ regular (fun _ l => rev l) 1000 vs halves area /\
    M_Layout.split keep_order 1000 vs halves area = Splits segs sps /\ M_Layout.split (fun _ l => rev l) 1000 vs halves area = Splits segs' sps' /\
    map rh segs = [3; 3; 0; 0; 0] /\ map rh segs' = [0; 0; 0; 3; 3].
Proof.
  cbv zeta. do 4 eexists. split; [apply regular_run_ok; vm_compute; reflexivity|]. split; [apply regular_run_ok; vm_compute; reflexivity|]. split; [vm_compute; reflexivity|]. split; [vm_compute; reflexivity|]. split; reflexivity.
Qed.
Print Assumptions C63_same_refuted.
Print Assumptions C63_halves_refuted.
