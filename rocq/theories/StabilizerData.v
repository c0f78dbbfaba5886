(** GENERATED by tools/gen_stabilizer.py from dataprocessors/PseudoEntropicStabilizer.cpp; do not
    edit.  Matrices of the pseudo-entropic stabilizer, as written. *)
From Coq Require Import QArith List.
Import ListNotations.
Open Scope Q_scope.

(** dataprocessors/PseudoEntropicStabilizer.cpp:26-30 *)
Definition stab_n : list (list Q) :=
  [[8#1; 2#1; 2#1; 2#1; 2#1; (-4)#1; (-4)#1; (-4)#1; (-4)#1];
   [1#1; 13#1; (-1)#1; 1#1; (-1)#1; 5#1; (-1)#1; (-1)#1; 5#1];
   [1#1; (-1)#1; 13#1; (-1)#1; 1#1; 5#1; 5#1; (-1)#1; (-1)#1];
   [1#1; 1#1; (-1)#1; 13#1; (-1)#1; (-1)#1; 5#1; 5#1; (-1)#1];
   [1#1; (-1)#1; 1#1; (-1)#1; 13#1; (-1)#1; (-1)#1; 5#1; 5#1];
   [(-1)#1; 5#1; 5#1; (-1)#1; (-1)#1; 5#1; (-1)#1; 2#1; (-1)#1];
   [(-1)#1; (-1)#1; 5#1; 5#1; (-1)#1; (-1)#1; 5#1; (-1)#1; 2#1];
   [(-1)#1; (-1)#1; (-1)#1; 5#1; 5#1; 2#1; (-1)#1; 5#1; (-1)#1];
   [(-1)#1; 5#1; (-1)#1; (-1)#1; 5#1; (-1)#1; 2#1; (-1)#1; 5#1]].

(** dataprocessors/PseudoEntropicStabilizer.cpp:32-37 *)
Definition stab_d : list (list Q) :=
  [[9#1; 9#1; 9#1; 9#1; 9#1; 9#1; 9#1; 9#1; 9#1];
   [18#1; 18#1; 9#1; 18#1; 9#1; 9#1; 9#1; 9#1; 9#1];
   [18#1; 9#1; 18#1; 9#1; 18#1; 9#1; 9#1; 9#1; 9#1];
   [18#1; 18#1; 9#1; 18#1; 9#1; 9#1; 9#1; 9#1; 9#1];
   [18#1; 9#1; 18#1; 9#1; 18#1; 9#1; 9#1; 9#1; 9#1];
   [36#1; 36#1; 36#1; 36#1; 36#1; 9#1; 9#1; 9#1; 9#1];
   [36#1; 36#1; 36#1; 36#1; 36#1; 9#1; 9#1; 9#1; 9#1];
   [36#1; 36#1; 36#1; 36#1; 36#1; 9#1; 9#1; 9#1; 9#1];
   [36#1; 36#1; 36#1; 36#1; 36#1; 9#1; 9#1; 9#1; 9#1]].

(** dataprocessors/PseudoEntropicStabilizer.cpp:39-50 *)
Definition stab_nd_d2q9_with_e : list (list Q) :=
  [[4#9; 4#9; 4#9; 4#9; 4#9; 4#9; 4#9; 4#9; 4#9];
   [1#9; 25#36; (-5)#36; 1#36; (-5)#36; 4#9; (-2)#9; (-2)#9; 4#9];
   [1#9; (-5)#36; 25#36; (-5)#36; 1#36; 4#9; 4#9; (-2)#9; (-2)#9];
   [1#9; 1#36; (-5)#36; 25#36; (-5)#36; (-2)#9; 4#9; 4#9; (-2)#9];
   [1#9; (-5)#36; 1#36; (-5)#36; 25#36; (-2)#9; (-2)#9; 4#9; 4#9];
   [1#36; 1#9; 1#9; (-1)#18; (-1)#18; 4#9; (-2)#9; 1#9; (-2)#9];
   [1#36; (-1)#18; 1#9; 1#9; (-1)#18; (-2)#9; 4#9; (-2)#9; 1#9];
   [1#36; (-1)#18; (-1)#18; 1#9; 1#9; 1#9; (-2)#9; 4#9; (-2)#9];
   [1#36; 1#9; (-1)#18; (-1)#18; 1#9; (-2)#9; 1#9; (-2)#9; 4#9]].

(** dataprocessors/PseudoEntropicStabilizer.cpp:52-114 *)
Definition stab_nd_d3q19 : list (list Q) :=
  [[5#6; 1#3; 1#3; 1#3; 1#3; 1#3; 1#3; (-1)#6; (-1)#6; (-1)#6; (-1)#6; (-1)#6; (-1)#6; (-1)#6; (-1)#6; (-1)#6; (-1)#6; (-1)#6; (-1)#6];
   [1#18; 7#18; (-1)#36; 1#18; (-1)#36; (-1)#36; (-1)#36; 11#36; (-1)#36; (-1)#36; 11#36; 11#36; 11#36; (-1)#36; (-1)#36; (-1)#9; (-1)#9; (-1)#9; (-1)#9];
   [1#18; (-1)#36; 7#18; (-1)#36; 1#18; (-1)#36; (-1)#36; 11#36; 11#36; (-1)#36; (-1)#36; (-1)#9; (-1)#9; (-1)#9; (-1)#9; 11#36; 11#36; (-1)#36; (-1)#36];
   [1#18; 1#18; (-1)#36; 7#18; (-1)#36; (-1)#36; (-1)#36; (-1)#36; 11#36; 11#36; (-1)#36; (-1)#36; (-1)#36; 11#36; 11#36; (-1)#9; (-1)#9; (-1)#9; (-1)#9];
   [1#18; (-1)#36; 1#18; (-1)#36; 7#18; (-1)#36; (-1)#36; (-1)#36; (-1)#36; 11#36; 11#36; (-1)#9; (-1)#9; (-1)#9; (-1)#9; (-1)#36; (-1)#36; 11#36; 11#36];
   [1#18; (-1)#36; (-1)#36; (-1)#36; (-1)#36; 7#18; 1#18; (-1)#9; (-1)#9; (-1)#9; (-1)#9; 11#36; (-1)#36; (-1)#36; 11#36; 11#36; (-1)#36; (-1)#36; 11#36];
   [1#18; (-1)#36; (-1)#36; (-1)#36; (-1)#36; 1#18; 7#18; (-1)#9; (-1)#9; (-1)#9; (-1)#9; (-1)#36; 11#36; 11#36; (-1)#36; (-1)#36; 11#36; 11#36; (-1)#36];
   [(-1)#72; 11#72; 11#72; (-1)#72; (-1)#72; (-1)#18; (-1)#18; 41#72; (-7)#72; 17#72; (-7)#72; 1#9; 1#9; (-1)#18; (-1)#18; 1#9; 1#9; (-1)#18; (-1)#18];
   [(-1)#72; (-1)#72; 11#72; 11#72; (-1)#72; (-1)#18; (-1)#18; (-7)#72; 41#72; (-7)#72; 17#72; (-1)#18; (-1)#18; 1#9; 1#9; 1#9; 1#9; (-1)#18; (-1)#18];
   [(-1)#72; (-1)#72; (-1)#72; 11#72; 11#72; (-1)#18; (-1)#18; 17#72; (-7)#72; 41#72; (-7)#72; (-1)#18; (-1)#18; 1#9; 1#9; (-1)#18; (-1)#18; 1#9; 1#9];
   [(-1)#72; 11#72; (-1)#72; (-1)#72; 11#72; (-1)#18; (-1)#18; (-7)#72; 17#72; (-7)#72; 41#72; 1#9; 1#9; (-1)#18; (-1)#18; (-1)#18; (-1)#18; 1#9; 1#9];
   [(-1)#72; 11#72; (-1)#18; (-1)#72; (-1)#18; 11#72; (-1)#72; 1#9; (-1)#18; (-1)#18; 1#9; 41#72; (-7)#72; 17#72; (-7)#72; 1#9; (-1)#18; (-1)#18; 1#9];
   [(-1)#72; 11#72; (-1)#18; (-1)#72; (-1)#18; (-1)#72; 11#72; 1#9; (-1)#18; (-1)#18; 1#9; (-7)#72; 41#72; (-7)#72; 17#72; (-1)#18; 1#9; 1#9; (-1)#18];
   [(-1)#72; (-1)#72; (-1)#18; 11#72; (-1)#18; (-1)#72; 11#72; (-1)#18; 1#9; 1#9; (-1)#18; 17#72; (-7)#72; 41#72; (-7)#72; (-1)#18; 1#9; 1#9; (-1)#18];
   [(-1)#72; (-1)#72; (-1)#18; 11#72; (-1)#18; 11#72; (-1)#72; (-1)#18; 1#9; 1#9; (-1)#18; (-7)#72; 17#72; (-7)#72; 41#72; 1#9; (-1)#18; (-1)#18; 1#9];
   [(-1)#72; (-1)#18; 11#72; (-1)#18; (-1)#72; 11#72; (-1)#72; 1#9; 1#9; (-1)#18; (-1)#18; 1#9; (-1)#18; (-1)#18; 1#9; 41#72; (-7)#72; 17#72; (-7)#72];
   [(-1)#72; (-1)#18; 11#72; (-1)#18; (-1)#72; (-1)#72; 11#72; 1#9; 1#9; (-1)#18; (-1)#18; (-1)#18; 1#9; 1#9; (-1)#18; (-7)#72; 41#72; (-7)#72; 17#72];
   [(-1)#72; (-1)#18; (-1)#72; (-1)#18; 11#72; (-1)#72; 11#72; (-1)#18; (-1)#18; 1#9; 1#9; (-1)#18; 1#9; 1#9; (-1)#18; 17#72; (-7)#72; 41#72; (-7)#72];
   [(-1)#72; (-1)#18; (-1)#72; (-1)#18; 11#72; 11#72; (-1)#72; (-1)#18; (-1)#18; 1#9; 1#9; 1#9; (-1)#18; (-1)#18; 1#9; (-7)#72; 17#72; (-7)#72; 41#72]].
