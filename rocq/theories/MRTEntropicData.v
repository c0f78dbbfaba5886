(** GENERATED by tools/gen_mrt_entropic.py from collision/MRTEntropic.cpp; do not edit.
    Moment transform and inverse of the entropic MRT model for D3Q19. *)
From Coq Require Import QArith List.
Import ListNotations.
Open Scope Q_scope.

(** collision/MRTEntropic.cpp:172-201 *)
Definition MRTEntropic_tm : list (list Q) :=
  [[1#1; 1#1; 1#1; 1#1; 1#1; 1#1; 1#1; 1#1; 1#1; 1#1; 1#1; 1#1; 1#1; 1#1; 1#1; 1#1; 1#1; 1#1; 1#1];
   [(-30)#1; (-11)#1; (-11)#1; (-11)#1; (-11)#1; (-11)#1; (-11)#1; 8#1; 8#1; 8#1; 8#1; 8#1; 8#1; 8#1; 8#1; 8#1; 8#1; 8#1; 8#1];
   [12#1; (-4)#1; (-4)#1; (-4)#1; (-4)#1; (-4)#1; (-4)#1; 1#1; 1#1; 1#1; 1#1; 1#1; 1#1; 1#1; 1#1; 1#1; 1#1; 1#1; 1#1];
   [0#1; 1#1; (-1)#1; 0#1; 0#1; 0#1; 0#1; 1#1; (-1)#1; 1#1; (-1)#1; 1#1; (-1)#1; 1#1; (-1)#1; 0#1; 0#1; 0#1; 0#1];
   [0#1; (-4)#1; 4#1; 0#1; 0#1; 0#1; 0#1; 1#1; (-1)#1; 1#1; (-1)#1; 1#1; (-1)#1; 1#1; (-1)#1; 0#1; 0#1; 0#1; 0#1];
   [0#1; 0#1; 0#1; 1#1; (-1)#1; 0#1; 0#1; 1#1; 1#1; (-1)#1; (-1)#1; 0#1; 0#1; 0#1; 0#1; 1#1; (-1)#1; 1#1; (-1)#1];
   [0#1; 0#1; 0#1; (-4)#1; 4#1; 0#1; 0#1; 1#1; 1#1; (-1)#1; (-1)#1; 0#1; 0#1; 0#1; 0#1; 1#1; (-1)#1; 1#1; (-1)#1];
   [0#1; 0#1; 0#1; 0#1; 0#1; 1#1; (-1)#1; 0#1; 0#1; 0#1; 0#1; 1#1; 1#1; (-1)#1; (-1)#1; 1#1; 1#1; (-1)#1; (-1)#1];
   [0#1; 0#1; 0#1; 0#1; 0#1; (-4)#1; 4#1; 0#1; 0#1; 0#1; 0#1; 1#1; 1#1; (-1)#1; (-1)#1; 1#1; 1#1; (-1)#1; (-1)#1];
   [0#1; 2#1; 2#1; (-1)#1; (-1)#1; (-1)#1; (-1)#1; 1#1; 1#1; 1#1; 1#1; 1#1; 1#1; 1#1; 1#1; (-2)#1; (-2)#1; (-2)#1; (-2)#1];
   [0#1; (-4)#1; (-4)#1; 2#1; 2#1; 2#1; 2#1; 1#1; 1#1; 1#1; 1#1; 1#1; 1#1; 1#1; 1#1; (-2)#1; (-2)#1; (-2)#1; (-2)#1];
   [0#1; 0#1; 0#1; 1#1; 1#1; (-1)#1; (-1)#1; 1#1; 1#1; 1#1; 1#1; (-1)#1; (-1)#1; (-1)#1; (-1)#1; 0#1; 0#1; 0#1; 0#1];
   [0#1; 0#1; 0#1; (-2)#1; (-2)#1; 2#1; 2#1; 1#1; 1#1; 1#1; 1#1; (-1)#1; (-1)#1; (-1)#1; (-1)#1; 0#1; 0#1; 0#1; 0#1];
   [0#1; 0#1; 0#1; 0#1; 0#1; 0#1; 0#1; 1#1; (-1)#1; (-1)#1; 1#1; 0#1; 0#1; 0#1; 0#1; 0#1; 0#1; 0#1; 0#1];
   [0#1; 0#1; 0#1; 0#1; 0#1; 0#1; 0#1; 0#1; 0#1; 0#1; 0#1; 0#1; 0#1; 0#1; 0#1; 1#1; (-1)#1; (-1)#1; 1#1];
   [0#1; 0#1; 0#1; 0#1; 0#1; 0#1; 0#1; 0#1; 0#1; 0#1; 0#1; 1#1; (-1)#1; (-1)#1; 1#1; 0#1; 0#1; 0#1; 0#1];
   [0#1; 0#1; 0#1; 0#1; 0#1; 0#1; 0#1; 1#1; (-1)#1; 1#1; (-1)#1; (-1)#1; 1#1; (-1)#1; 1#1; 0#1; 0#1; 0#1; 0#1];
   [0#1; 0#1; 0#1; 0#1; 0#1; 0#1; 0#1; (-1)#1; (-1)#1; 1#1; 1#1; 0#1; 0#1; 0#1; 0#1; 1#1; (-1)#1; 1#1; (-1)#1];
   [0#1; 0#1; 0#1; 0#1; 0#1; 0#1; 0#1; 0#1; 0#1; 0#1; 0#1; 1#1; 1#1; (-1)#1; (-1)#1; (-1)#1; (-1)#1; 1#1; 1#1]].

(** collision/MRTEntropic.cpp:203-221 *)
Definition MRTEntropic_invm : list (list Q) :=
  [[2520#47880; (-600)#47880; 2280#47880; 0#47880; 0#47880; 0#47880; 0#47880; 0#47880; 0#47880; 0#47880; 0#47880; 0#47880; 0#47880; 0#47880; 0#47880; 0#47880; 0#47880; 0#47880; 0#47880];
   [2520#47880; (-220)#47880; (-760)#47880; 4788#47880; (-4788)#47880; 0#47880; 0#47880; 0#47880; 0#47880; 2660#47880; (-2660)#47880; 0#47880; 0#47880; 0#47880; 0#47880; 0#47880; 0#47880; 0#47880; 0#47880];
   [2520#47880; (-220)#47880; (-760)#47880; (-4788)#47880; 4788#47880; 0#47880; 0#47880; 0#47880; 0#47880; 2660#47880; (-2660)#47880; 0#47880; 0#47880; 0#47880; 0#47880; 0#47880; 0#47880; 0#47880; 0#47880];
   [2520#47880; (-220)#47880; (-760)#47880; 0#47880; 0#47880; 4788#47880; (-4788)#47880; 0#47880; 0#47880; (-1330)#47880; 1330#47880; 3990#47880; (-3990)#47880; 0#47880; 0#47880; 0#47880; 0#47880; 0#47880; 0#47880];
   [2520#47880; (-220)#47880; (-760)#47880; 0#47880; 0#47880; (-4788)#47880; 4788#47880; 0#47880; 0#47880; (-1330)#47880; 1330#47880; 3990#47880; (-3990)#47880; 0#47880; 0#47880; 0#47880; 0#47880; 0#47880; 0#47880];
   [2520#47880; (-220)#47880; (-760)#47880; 0#47880; 0#47880; 0#47880; 0#47880; 4788#47880; (-4788)#47880; (-1330)#47880; 1330#47880; (-3990)#47880; 3990#47880; 0#47880; 0#47880; 0#47880; 0#47880; 0#47880; 0#47880];
   [2520#47880; (-220)#47880; (-760)#47880; 0#47880; 0#47880; 0#47880; 0#47880; (-4788)#47880; 4788#47880; (-1330)#47880; 1330#47880; (-3990)#47880; 3990#47880; 0#47880; 0#47880; 0#47880; 0#47880; 0#47880; 0#47880];
   [2520#47880; 160#47880; 190#47880; 4788#47880; 1197#47880; 4788#47880; 1197#47880; 0#47880; 0#47880; 1330#47880; 665#47880; 3990#47880; 1995#47880; 11970#47880; 0#47880; 0#47880; 5985#47880; (-5985)#47880; 0#47880];
   [2520#47880; 160#47880; 190#47880; (-4788)#47880; (-1197)#47880; 4788#47880; 1197#47880; 0#47880; 0#47880; 1330#47880; 665#47880; 3990#47880; 1995#47880; (-11970)#47880; 0#47880; 0#47880; (-5985)#47880; (-5985)#47880; 0#47880];
   [2520#47880; 160#47880; 190#47880; 4788#47880; 1197#47880; (-4788)#47880; (-1197)#47880; 0#47880; 0#47880; 1330#47880; 665#47880; 3990#47880; 1995#47880; (-11970)#47880; 0#47880; 0#47880; 5985#47880; 5985#47880; 0#47880];
   [2520#47880; 160#47880; 190#47880; (-4788)#47880; (-1197)#47880; (-4788)#47880; (-1197)#47880; 0#47880; 0#47880; 1330#47880; 665#47880; 3990#47880; 1995#47880; 11970#47880; 0#47880; 0#47880; (-5985)#47880; 5985#47880; 0#47880];
   [2520#47880; 160#47880; 190#47880; 4788#47880; 1197#47880; 0#47880; 0#47880; 4788#47880; 1197#47880; 1330#47880; 665#47880; (-3990)#47880; (-1995)#47880; 0#47880; 0#47880; 11970#47880; (-5985)#47880; 0#47880; 5985#47880];
   [2520#47880; 160#47880; 190#47880; (-4788)#47880; (-1197)#47880; 0#47880; 0#47880; 4788#47880; 1197#47880; 1330#47880; 665#47880; (-3990)#47880; (-1995)#47880; 0#47880; 0#47880; (-11970)#47880; 5985#47880; 0#47880; 5985#47880];
   [2520#47880; 160#47880; 190#47880; 4788#47880; 1197#47880; 0#47880; 0#47880; (-4788)#47880; (-1197)#47880; 1330#47880; 665#47880; (-3990)#47880; (-1995)#47880; 0#47880; 0#47880; (-11970)#47880; (-5985)#47880; 0#47880; (-5985)#47880];
   [2520#47880; 160#47880; 190#47880; (-4788)#47880; (-1197)#47880; 0#47880; 0#47880; (-4788)#47880; (-1197)#47880; 1330#47880; 665#47880; (-3990)#47880; (-1995)#47880; 0#47880; 0#47880; 11970#47880; 5985#47880; 0#47880; (-5985)#47880];
   [2520#47880; 160#47880; 190#47880; 0#47880; 0#47880; 4788#47880; 1197#47880; 4788#47880; 1197#47880; (-2660)#47880; (-1330)#47880; 0#47880; 0#47880; 0#47880; 11970#47880; 0#47880; 0#47880; 5985#47880; (-5985)#47880];
   [2520#47880; 160#47880; 190#47880; 0#47880; 0#47880; (-4788)#47880; (-1197)#47880; 4788#47880; 1197#47880; (-2660)#47880; (-1330)#47880; 0#47880; 0#47880; 0#47880; (-11970)#47880; 0#47880; 0#47880; (-5985)#47880; (-5985)#47880];
   [2520#47880; 160#47880; 190#47880; 0#47880; 0#47880; 4788#47880; 1197#47880; (-4788)#47880; (-1197)#47880; (-2660)#47880; (-1330)#47880; 0#47880; 0#47880; 0#47880; (-11970)#47880; 0#47880; 0#47880; 5985#47880; 5985#47880];
   [2520#47880; 160#47880; 190#47880; 0#47880; 0#47880; (-4788)#47880; (-1197)#47880; (-4788)#47880; (-1197)#47880; (-2660)#47880; (-1330)#47880; 0#47880; 0#47880; 0#47880; 11970#47880; 0#47880; 0#47880; (-5985)#47880; 5985#47880]].
