(** Model of examples/lazygitlike: its panels, its Update, and how it divides the screen. *)
From Verif Require Import Base M_Geom M_Utf8 M_KeyTable M_Decode M_Cmd M_Solver M_Layout.
From Coq Require Import ZArith NArith String List Bool.
Import ListNotations.
Open Scope Z_scope.

(** examples/lazygitlike/main.go:14-24: Panel, an int *)
Definition PanelStatus : Z := 0.
Definition PanelFiles : Z := 1.
Definition PanelBranches : Z := 2.
Definition PanelCommits : Z := 3.
Definition PanelStash : Z := 4.
Definition PanelInfo : Z := 5.
Definition PanelCommandLog : Z := 6.
(** examples/lazygitlike/main.go:26-28 *)
Definition panel_next (p : Z) : Z := Z.rem (p + 1) PanelInfo.
(** examples/lazygitlike/main.go:30-36 *)
Definition panel_prev (p : Z) : Z := if p - 1 <? 0 then PanelStash else p - 1.
(** examples/lazygitlike/main.go:38-57 *)
Definition panel_title (p : Z) : outcome (list N) :=
  if p =? PanelBranches then Ret (asc "Branches")
  else if p =? PanelCommits then Ret (asc "Commits")
  else if p =? PanelFiles then Ret (asc "Files")
  else if p =? PanelStash then Ret (asc "Stash")
  else if p =? PanelStatus then Ret (asc "Status")
  else if p =? PanelCommandLog then Ret (asc "Command log")
  else if p =? PanelInfo then Ret (asc "Info")
  else Panic.

(** examples/lazygitlike/main.go:315-331 (Update); the messages of the reader are [MUser 0], [MUser 1] ... Simplification: the model here is the active panel only. The size
    the program was last told, which its drawing reads, is an argument of what draws below. *)
Definition git_update (ds : list M_Decode.msg) (p : Z) (x : M_Cmd.msg) : option (Z * option cmd) :=
  match x with
  | MUser n =>
      match nth_error ds n with
      | Some (KeyMsg k) =>
          let name := key_string k in
          if bytes_eqb name (asc "ctrl+c") || bytes_eqb name (asc "q") then Some (p, Some (quit_cmd 0))
          else if bytes_eqb name (asc "shift+tab") then Some (panel_prev p, None)
          else if bytes_eqb name (asc "tab") then Some (panel_next p, None)
          else Some (p, None)
      | _ => Some (p, None)
      end
  | _ => Some (p, None)
  end.

(** examples/lazygitlike/main.go:114-117 *)
Definition HeightMedium : Z := 30.
Definition HeightSmall : Z := 22.
(** examples/lazygitlike/main.go:120-130, 132-142 and 144-154: the constraint of Files, Branches and Commits; [panel] is which *)
Definition list_constraint (panel height active : Z) : lconstraint :=
  if (HeightMedium <? height) || (active =? panel) then LFill 1 else if HeightSmall <? height then LLen 3 else LLen 1.
(** examples/lazygitlike/main.go:156-170 *)
Definition status_constraint (height active : Z) : lconstraint :=
  if HeightMedium <? height then LLen 3 else if active =? PanelStatus then LFill 1 else if HeightSmall <? height then LLen 3 else LLen 1.
(** examples/lazygitlike/main.go:172-184 *)
Definition stash_constraint (height active : Z) : lconstraint :=
  if (HeightMedium <? height) || ((HeightSmall <? height) && negb (active =? PanelStash)) then LLen 3 else if active =? PanelStash then LFill 1 else LLen 1.
(** examples/lazygitlike/main.go:186-217 (drawSidebar) *)
Definition sidebar_layout (height active : Z) : layout :=
  new_layout [status_constraint height active; list_constraint PanelFiles height active; list_constraint PanelBranches height active; list_constraint PanelCommits height active; stash_constraint height active].
(** examples/lazygitlike/main.go:271-277 *)
Definition log_height (height : Z) : Z := if height <=? 40 then 3 else 10.
(** examples/lazygitlike/main.go:254-269 (drawRight) *)
Definition right_layout (height : Z) : layout := new_layout [LFill 1; LLen (log_height height)].
(** examples/lazygitlike/main.go:64-79 (Render) *)
Definition frame_layout : layout := new_layout [LFill 1; LLen 1].
(** examples/lazygitlike/main.go:98-112 (drawPrimary): the sidebar and the right side *)
Definition git_columns : layout := Layout DirHorizontal [LFill 1; LFill 2] (Padding 0 0 0 0) FlexLegacy (SpSpace 0).
