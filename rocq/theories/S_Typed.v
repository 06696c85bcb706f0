(** A program with a text input among other things. *)
From Verif Require Import Base M_Uniseg M_Decode M_Input M_Typing M_Cmd.
From Coq Require Import List Bool.
Import ListNotations.

(** The messages the reader delivers: the [n]-th one is [MUser n] in the model of the program runner, which does not look into messages. *)
Definition numbered (ds : list M_Decode.msg) : list M_Cmd.msg := map MUser (seq 0 (length ds)).
(** A program that hands the reader's messages to its input: Update gives them to TryUpdate, and leaves the text alone when it handles anything else. What
    it does besides, and the commands it returns, are its own affair. *)
Record hands_over {M : Type} (u : uniseg) (ds : list M_Decode.msg) (text_of : M -> input_state) (update : M -> M_Cmd.msg -> option (M * option cmd)) : Prop := {
  ho_typed : forall m n d m' c, nth_error ds n = Some d -> update m (MUser n) = Some (m', c) -> exists b, try_update u (text_of m) d = Ret (text_of m', b);
  ho_other : forall m x m' c, (forall n, x = MUser n -> length ds <= n) -> update m x = Some (m', c) -> text_of m' = text_of m }.
