(** GENERATED by tools/gen_mrt.py from collision_advanced/AuxiliaryMRTFunctions.cpp; do not edit.
    Moment transforms and inverse transforms of the MRT models, every matrix over a
    common denominator. *)
From Coq Require Import QArith List.
Import ListNotations.
Open Scope Q_scope.

(** AuxiliaryMRTFunctions.cpp:14-28 *)
Definition MRTDellarD2Q9_M : list (list Q) :=
  [[2#2; 2#2; 2#2; 2#2; 2#2; 2#2; 2#2; 2#2; 2#2];
   [0#2; 2#2; 0#2; (-2)#2; 0#2; 2#2; (-2)#2; (-2)#2; 2#2];
   [0#2; 0#2; 2#2; 0#2; (-2)#2; 2#2; 2#2; (-2)#2; (-2)#2];
   [(-3)#2; 6#2; (-3)#2; 6#2; (-3)#2; 6#2; 6#2; 6#2; 6#2];
   [0#2; 0#2; 0#2; 0#2; 0#2; 18#2; (-18)#2; 18#2; (-18)#2];
   [(-3)#2; (-3)#2; 6#2; (-3)#2; 6#2; 6#2; 6#2; 6#2; 6#2];
   [2#2; (-4)#2; (-4)#2; (-4)#2; (-4)#2; 8#2; 8#2; 8#2; 8#2];
   [0#2; (-4)#2; 0#2; 4#2; 0#2; 8#2; (-8)#2; (-8)#2; 8#2];
   [0#2; 0#2; (-4)#2; 0#2; 4#2; 8#2; 8#2; (-8)#2; (-8)#2]].

(** AuxiliaryMRTFunctions.cpp:30-43 *)
Definition MRTDellarD2Q9_T : list (list Q) :=
  [[96#216; 0#216; 0#216; (-32)#216; 0#216; (-32)#216; 24#216; 0#216; 0#216];
   [24#216; 72#216; 0#216; 16#216; 0#216; (-8)#216; (-12)#216; (-18)#216; 0#216];
   [24#216; 0#216; 72#216; (-8)#216; 0#216; 16#216; (-12)#216; 0#216; (-18)#216];
   [24#216; (-72)#216; 0#216; 16#216; 0#216; (-8)#216; (-12)#216; 18#216; 0#216];
   [24#216; 0#216; (-72)#216; (-8)#216; 0#216; 16#216; (-12)#216; 0#216; 18#216];
   [6#216; 18#216; 18#216; 4#216; 6#216; 4#216; 6#216; 9#216; 9#216];
   [6#216; (-18)#216; 18#216; 4#216; (-6)#216; 4#216; 6#216; (-9)#216; 9#216];
   [6#216; (-18)#216; (-18)#216; 4#216; 6#216; 4#216; 6#216; (-9)#216; (-9)#216];
   [6#216; 18#216; (-18)#216; 4#216; (-6)#216; 4#216; 6#216; 9#216; (-9)#216]].

(** AuxiliaryMRTFunctions.cpp:50-62 *)
Definition MRTLallemandD2Q9_M : list (list Q) :=
  [[1#1; 1#1; 1#1; 1#1; 1#1; 1#1; 1#1; 1#1; 1#1];
   [0#1; 1#1; 0#1; (-1)#1; 0#1; 1#1; (-1)#1; (-1)#1; 1#1];
   [0#1; 0#1; 1#1; 0#1; (-1)#1; 1#1; 1#1; (-1)#1; (-1)#1];
   [0#1; 1#1; (-1)#1; 1#1; (-1)#1; 0#1; 0#1; 0#1; 0#1];
   [0#1; 0#1; 0#1; 0#1; 0#1; 1#1; (-1)#1; 1#1; (-1)#1];
   [(-4)#1; (-1)#1; (-1)#1; (-1)#1; (-1)#1; 2#1; 2#1; 2#1; 2#1];
   [0#1; (-2)#1; 0#1; 2#1; 0#1; 1#1; (-1)#1; (-1)#1; 1#1];
   [0#1; 0#1; (-2)#1; 0#1; 2#1; 1#1; 1#1; (-1)#1; (-1)#1];
   [4#1; (-2)#1; (-2)#1; (-2)#1; (-2)#1; 1#1; 1#1; 1#1; 1#1]].

(** AuxiliaryMRTFunctions.cpp:63-76 *)
Definition MRTLallemandD2Q9_T : list (list Q) :=
  [[4#36; 0#36; 0#36; 0#36; 0#36; (-4)#36; 0#36; 0#36; 4#36];
   [4#36; 6#36; 0#36; 9#36; 0#36; (-1)#36; (-6)#36; 0#36; (-2)#36];
   [4#36; 0#36; 6#36; (-9)#36; 0#36; (-1)#36; 0#36; (-6)#36; (-2)#36];
   [4#36; (-6)#36; 0#36; 9#36; 0#36; (-1)#36; 6#36; 0#36; (-2)#36];
   [4#36; 0#36; (-6)#36; (-9)#36; 0#36; (-1)#36; 0#36; 6#36; (-2)#36];
   [4#36; 6#36; 6#36; 0#36; 9#36; 2#36; 3#36; 3#36; 1#36];
   [4#36; (-6)#36; 6#36; 0#36; (-9)#36; 2#36; (-3)#36; 3#36; 1#36];
   [4#36; (-6)#36; (-6)#36; 0#36; 9#36; 2#36; (-3)#36; (-3)#36; 1#36];
   [4#36; 6#36; (-6)#36; 0#36; (-9)#36; 2#36; 3#36; (-3)#36; 1#36]].

(** AuxiliaryMRTFunctions.cpp:83-135 *)
Definition MRTDHumieresD3Q19_M : list (list Q) :=
  [[1#1; 1#1; 1#1; 1#1; 1#1; 1#1; 1#1; 1#1; 1#1; 1#1; 1#1; 1#1; 1#1; 1#1; 1#1; 1#1; 1#1; 1#1; 1#1];
   [(-30)#1; (-11)#1; (-11)#1; (-11)#1; (-11)#1; (-11)#1; (-11)#1; 8#1; 8#1; 8#1; 8#1; 8#1; 8#1; 8#1; 8#1; 8#1; 8#1; 8#1; 8#1];
   [12#1; (-4)#1; (-4)#1; (-4)#1; (-4)#1; (-4)#1; (-4)#1; 1#1; 1#1; 1#1; 1#1; 1#1; 1#1; 1#1; 1#1; 1#1; 1#1; 1#1; 1#1];
   [0#1; 1#1; 0#1; (-1)#1; 0#1; 0#1; 0#1; 1#1; (-1)#1; (-1)#1; 1#1; 1#1; 1#1; (-1)#1; (-1)#1; 0#1; 0#1; 0#1; 0#1];
   [0#1; (-4)#1; 0#1; 4#1; 0#1; 0#1; 0#1; 1#1; (-1)#1; (-1)#1; 1#1; 1#1; 1#1; (-1)#1; (-1)#1; 0#1; 0#1; 0#1; 0#1];
   [0#1; 0#1; 0#1; 0#1; 0#1; (-1)#1; 1#1; 0#1; 0#1; 0#1; 0#1; (-1)#1; 1#1; 1#1; (-1)#1; (-1)#1; 1#1; 1#1; (-1)#1];
   [0#1; 0#1; 0#1; 0#1; 0#1; 4#1; (-4)#1; 0#1; 0#1; 0#1; 0#1; (-1)#1; 1#1; 1#1; (-1)#1; (-1)#1; 1#1; 1#1; (-1)#1];
   [0#1; 0#1; 1#1; 0#1; (-1)#1; 0#1; 0#1; 1#1; 1#1; (-1)#1; (-1)#1; 0#1; 0#1; 0#1; 0#1; 1#1; 1#1; (-1)#1; (-1)#1];
   [0#1; 0#1; (-4)#1; 0#1; 4#1; 0#1; 0#1; 1#1; 1#1; (-1)#1; (-1)#1; 0#1; 0#1; 0#1; 0#1; 1#1; 1#1; (-1)#1; (-1)#1];
   [0#1; 2#1; (-1)#1; 2#1; (-1)#1; (-1)#1; (-1)#1; 1#1; 1#1; 1#1; 1#1; 1#1; 1#1; 1#1; 1#1; (-2)#1; (-2)#1; (-2)#1; (-2)#1];
   [0#1; (-4)#1; 2#1; (-4)#1; 2#1; 2#1; 2#1; 1#1; 1#1; 1#1; 1#1; 1#1; 1#1; 1#1; 1#1; (-2)#1; (-2)#1; (-2)#1; (-2)#1];
   [0#1; 0#1; (-1)#1; 0#1; (-1)#1; 1#1; 1#1; (-1)#1; (-1)#1; (-1)#1; (-1)#1; 1#1; 1#1; 1#1; 1#1; 0#1; 0#1; 0#1; 0#1];
   [0#1; 0#1; 2#1; 0#1; 2#1; (-2)#1; (-2)#1; (-1)#1; (-1)#1; (-1)#1; (-1)#1; 1#1; 1#1; 1#1; 1#1; 0#1; 0#1; 0#1; 0#1];
   [0#1; 0#1; 0#1; 0#1; 0#1; 0#1; 0#1; 0#1; 0#1; 0#1; 0#1; (-1)#1; 1#1; (-1)#1; 1#1; 0#1; 0#1; 0#1; 0#1];
   [0#1; 0#1; 0#1; 0#1; 0#1; 0#1; 0#1; 0#1; 0#1; 0#1; 0#1; 0#1; 0#1; 0#1; 0#1; (-1)#1; 1#1; (-1)#1; 1#1];
   [0#1; 0#1; 0#1; 0#1; 0#1; 0#1; 0#1; 1#1; (-1)#1; 1#1; (-1)#1; 0#1; 0#1; 0#1; 0#1; 0#1; 0#1; 0#1; 0#1];
   [0#1; 0#1; 0#1; 0#1; 0#1; 0#1; 0#1; (-1)#1; 1#1; 1#1; (-1)#1; 1#1; 1#1; (-1)#1; (-1)#1; 0#1; 0#1; 0#1; 0#1];
   [0#1; 0#1; 0#1; 0#1; 0#1; 0#1; 0#1; 0#1; 0#1; 0#1; 0#1; 1#1; (-1)#1; (-1)#1; 1#1; (-1)#1; 1#1; 1#1; (-1)#1];
   [0#1; 0#1; 0#1; 0#1; 0#1; 0#1; 0#1; 1#1; 1#1; (-1)#1; (-1)#1; 0#1; 0#1; 0#1; 0#1; (-1)#1; (-1)#1; 1#1; 1#1]].

(** AuxiliaryMRTFunctions.cpp:137-207 *)
Definition MRTDHumieresD3Q19_T : list (list Q) :=
  [[2520#47880; (-600)#47880; 2280#47880; 0#47880; 0#47880; 0#47880; 0#47880; 0#47880; 0#47880; 0#47880; 0#47880; 0#47880; 0#47880; 0#47880; 0#47880; 0#47880; 0#47880; 0#47880; 0#47880];
   [2520#47880; (-220)#47880; (-760)#47880; 4788#47880; (-4788)#47880; 0#47880; 0#47880; 0#47880; 0#47880; 2660#47880; (-2660)#47880; 0#47880; 0#47880; 0#47880; 0#47880; 0#47880; 0#47880; 0#47880; 0#47880];
   [2520#47880; (-220)#47880; (-760)#47880; 0#47880; 0#47880; 0#47880; 0#47880; 4788#47880; (-4788)#47880; (-1330)#47880; 1330#47880; (-3990)#47880; 3990#47880; 0#47880; 0#47880; 0#47880; 0#47880; 0#47880; 0#47880];
   [2520#47880; (-220)#47880; (-760)#47880; (-4788)#47880; 4788#47880; 0#47880; 0#47880; 0#47880; 0#47880; 2660#47880; (-2660)#47880; 0#47880; 0#47880; 0#47880; 0#47880; 0#47880; 0#47880; 0#47880; 0#47880];
   [2520#47880; (-220)#47880; (-760)#47880; 0#47880; 0#47880; 0#47880; 0#47880; (-4788)#47880; 4788#47880; (-1330)#47880; 1330#47880; (-3990)#47880; 3990#47880; 0#47880; 0#47880; 0#47880; 0#47880; 0#47880; 0#47880];
   [2520#47880; (-220)#47880; (-760)#47880; 0#47880; 0#47880; (-4788)#47880; 4788#47880; 0#47880; 0#47880; (-1330)#47880; 1330#47880; 3990#47880; (-3990)#47880; 0#47880; 0#47880; 0#47880; 0#47880; 0#47880; 0#47880];
   [2520#47880; (-220)#47880; (-760)#47880; 0#47880; 0#47880; 4788#47880; (-4788)#47880; 0#47880; 0#47880; (-1330)#47880; 1330#47880; 3990#47880; (-3990)#47880; 0#47880; 0#47880; 0#47880; 0#47880; 0#47880; 0#47880];
   [2520#47880; 160#47880; 190#47880; 4788#47880; 1197#47880; 0#47880; 0#47880; 4788#47880; 1197#47880; 1330#47880; 665#47880; (-3990)#47880; (-1995)#47880; 0#47880; 0#47880; 11970#47880; (-5985)#47880; 0#47880; 5985#47880];
   [2520#47880; 160#47880; 190#47880; (-4788)#47880; (-1197)#47880; 0#47880; 0#47880; 4788#47880; 1197#47880; 1330#47880; 665#47880; (-3990)#47880; (-1995)#47880; 0#47880; 0#47880; (-11970)#47880; 5985#47880; 0#47880; 5985#47880];
   [2520#47880; 160#47880; 190#47880; (-4788)#47880; (-1197)#47880; 0#47880; 0#47880; (-4788)#47880; (-1197)#47880; 1330#47880; 665#47880; (-3990)#47880; (-1995)#47880; 0#47880; 0#47880; 11970#47880; 5985#47880; 0#47880; (-5985)#47880];
   [2520#47880; 160#47880; 190#47880; 4788#47880; 1197#47880; 0#47880; 0#47880; (-4788)#47880; (-1197)#47880; 1330#47880; 665#47880; (-3990)#47880; (-1995)#47880; 0#47880; 0#47880; (-11970)#47880; (-5985)#47880; 0#47880; (-5985)#47880];
   [2520#47880; 160#47880; 190#47880; 4788#47880; 1197#47880; (-4788)#47880; (-1197)#47880; 0#47880; 0#47880; 1330#47880; 665#47880; 3990#47880; 1995#47880; (-11970)#47880; 0#47880; 0#47880; 5985#47880; 5985#47880; 0#47880];
   [2520#47880; 160#47880; 190#47880; 4788#47880; 1197#47880; 4788#47880; 1197#47880; 0#47880; 0#47880; 1330#47880; 665#47880; 3990#47880; 1995#47880; 11970#47880; 0#47880; 0#47880; 5985#47880; (-5985)#47880; 0#47880];
   [2520#47880; 160#47880; 190#47880; (-4788)#47880; (-1197)#47880; 4788#47880; 1197#47880; 0#47880; 0#47880; 1330#47880; 665#47880; 3990#47880; 1995#47880; (-11970)#47880; 0#47880; 0#47880; (-5985)#47880; (-5985)#47880; 0#47880];
   [2520#47880; 160#47880; 190#47880; (-4788)#47880; (-1197)#47880; (-4788)#47880; (-1197)#47880; 0#47880; 0#47880; 1330#47880; 665#47880; 3990#47880; 1995#47880; 11970#47880; 0#47880; 0#47880; (-5985)#47880; 5985#47880; 0#47880];
   [2520#47880; 160#47880; 190#47880; 0#47880; 0#47880; (-4788)#47880; (-1197)#47880; 4788#47880; 1197#47880; (-2660)#47880; (-1330)#47880; 0#47880; 0#47880; 0#47880; (-11970)#47880; 0#47880; 0#47880; (-5985)#47880; (-5985)#47880];
   [2520#47880; 160#47880; 190#47880; 0#47880; 0#47880; 4788#47880; 1197#47880; 4788#47880; 1197#47880; (-2660)#47880; (-1330)#47880; 0#47880; 0#47880; 0#47880; 11970#47880; 0#47880; 0#47880; 5985#47880; (-5985)#47880];
   [2520#47880; 160#47880; 190#47880; 0#47880; 0#47880; 4788#47880; 1197#47880; (-4788)#47880; (-1197)#47880; (-2660)#47880; (-1330)#47880; 0#47880; 0#47880; 0#47880; (-11970)#47880; 0#47880; 0#47880; 5985#47880; 5985#47880];
   [2520#47880; 160#47880; 190#47880; 0#47880; 0#47880; (-4788)#47880; (-1197)#47880; (-4788)#47880; (-1197)#47880; (-2660)#47880; (-1330)#47880; 0#47880; 0#47880; 0#47880; 11970#47880; 0#47880; 0#47880; (-5985)#47880; 5985#47880]].
