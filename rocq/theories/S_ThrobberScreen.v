(** C105: what the screen of examples/throbber is made of: the help in its last line, and the throbbers in the order in which they are shown, row by row: the name of each
    and its frames in turn. Code points: 9615 ... 9608 are blocks from an eighth of a cell to a whole one, from the left, and 9601 ... 9608 from below; 10367 ... 10494 are
    braille cells with one dot missing; 9115 ... 9120 are the pieces of tall parentheses; 9648 and 9649 are a black and a white parallelogram; 9619, 9618 and 9617 are shades. *)
From Verif Require Import Base M_Style M_Utf8 M_KeyTable.
From Coq Require Import NArith String List.
Import ListNotations.

Definition the_help : str := asc """+"" - increment FPS | ""-"" - decrement FPS".
Definition the_throbbers : list (str * list str) :=
  [(asc "Line", [[124]; [47]; [45]; [92]]);
   (asc "HorizontalBlock", [[9615]; [9614]; [9613]; [9612]; [9611]; [9610]; [9609]; [9608]]);
   (asc "VerticalBlock", [[9601]; [9602]; [9603]; [9604]; [9605]; [9606]; [9607]; [9608]]);
   (asc "BrailleEight", [[10487]; [10479]; [10463]; [10367]; [10431]; [10491]; [10493]; [10494]]);
   (asc "Parenthesis", [[9115]; [9116]; [9117]; [9118]; [9119]; [9120]]);
   (asc "Canadian", [[5392]; [7111]; [5393]; [7111]]);
   (asc "Ellipsis", [[]; [46]; [46; 46]; [46; 46; 46]]);
   (asc "Meter", [[9649; 9649; 9649]; [9648; 9649; 9649]; [9648; 9648; 9649]; [9648; 9648; 9648]; [9648; 9648; 9649]; [9648; 9649; 9649]; [9649; 9649; 9649]]);
   (asc "Pulse", [[9608]; [9619]; [9618]; [9617]])]%N.
