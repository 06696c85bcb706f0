(** Popups, spinners and inputs with the arithmetic of float64 and the tolerance of the code, as they are run. *)
From Verif Require Import Base M_Geom M_Style M_Uniseg M_Buffer M_Text M_Block M_Solver M_Layout M_Float M_Rounded M_Popup M_Input M_Throbber M_View.
From Coq Require Import ZArith List.

(** widget/popupwidget/popup.go:91-93, 107-108 *)
Definition popup_area64 : run -> run -> popup -> rect -> place := @popup_area float64 code_tolerance.
(** widget/popupwidget/popup.go:87-116 *)
Definition popup_render64 : uniseg -> run -> run -> popup -> rect -> buffer -> option (outcome buffer) := @popup_render float64 code_tolerance.
Definition popup_inner64 : run -> run -> popup -> rect -> option (outcome rect) := @popup_inner float64 code_tolerance.
(** widget/throbberwidget/throbber.go:33-47 *)
Definition throbber_area64 : uniseg -> run -> run -> throbber -> str -> rect -> place := @throbber_area float64 code_tolerance.
Definition throbber_render64 : uniseg -> run -> run -> throbber -> rect -> buffer -> throbber_state -> option (outcome buffer) := @throbber_render float64 code_tolerance.
(** widget/inputwidget/input.go:104-154 *)
Definition input_draw64 : uniseg -> run -> input_widget -> rect -> buffer -> input_state -> option (outcome (buffer * input_state)) := @input_draw float64 code_tolerance.
