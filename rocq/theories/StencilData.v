(** GENERATED by tools/gen_stencils.py from the stencil sources; do not edit.
    Literal tables of the stencils in /repo/src/library/natrium/stencils.
    Each entry is the exact decimal (or quotient) written in the source
    (all entries of one table over a common denominator).
    [X_dir]: rows of directionsArray (with scaling = 1);
    [X_wt]: the vector returned by makeWeights; [X_opp]: the switch of
    getIndexOfOppositeDirection. *)
From Coq Require Import QArith List.
Import ListNotations.
Open Scope Q_scope.

(** stencils/D2Q9.cpp:48-  makeDirections, directionsArray *)
Definition D2Q9_dir : list (list Q) :=
  [[0#1; 0#1];
   [1#1; 0#1];
   [0#1; 1#1];
   [(-1)#1; 0#1];
   [0#1; (-1)#1];
   [1#1; 1#1];
   [(-1)#1; 1#1];
   [(-1)#1; (-1)#1];
   [1#1; (-1)#1]].
(** stencils/D2Q9.cpp:40-  makeWeights *)
Definition D2Q9_wt : list Q :=
  [16#36;
   4#36;
   4#36;
   4#36;
   4#36;
   1#36;
   1#36;
   1#36;
   1#36].
(** stencils/D3Q15.cpp:54-  makeDirections, directionsArray *)
Definition D3Q15_dir : list (list Q) :=
  [[0#1; 0#1; 0#1];
   [1#1; 0#1; 0#1];
   [(-1)#1; 0#1; 0#1];
   [0#1; 1#1; 0#1];
   [0#1; (-1)#1; 0#1];
   [0#1; 0#1; 1#1];
   [0#1; 0#1; (-1)#1];
   [1#1; 1#1; 1#1];
   [(-1)#1; (-1)#1; (-1)#1];
   [1#1; 1#1; (-1)#1];
   [(-1)#1; (-1)#1; 1#1];
   [1#1; (-1)#1; 1#1];
   [(-1)#1; 1#1; (-1)#1];
   [1#1; (-1)#1; (-1)#1];
   [(-1)#1; 1#1; 1#1]].
(** stencils/D3Q15.cpp:44-  makeWeights *)
Definition D3Q15_wt : list Q :=
  [16#72;
   8#72;
   8#72;
   8#72;
   8#72;
   8#72;
   8#72;
   1#72;
   1#72;
   1#72;
   1#72;
   1#72;
   1#72;
   1#72;
   1#72].
(** stencils/D3Q19.cpp:47-  makeDirections, directionsArray *)
Definition D3Q19_dir : list (list Q) :=
  [[0#1; 0#1; 0#1];
   [1#1; 0#1; 0#1];
   [0#1; 0#1; 1#1];
   [(-1)#1; 0#1; 0#1];
   [0#1; 0#1; (-1)#1];
   [0#1; (-1)#1; 0#1];
   [0#1; 1#1; 0#1];
   [1#1; 0#1; 1#1];
   [(-1)#1; 0#1; 1#1];
   [(-1)#1; 0#1; (-1)#1];
   [1#1; 0#1; (-1)#1];
   [1#1; (-1)#1; 0#1];
   [1#1; 1#1; 0#1];
   [(-1)#1; 1#1; 0#1];
   [(-1)#1; (-1)#1; 0#1];
   [0#1; (-1)#1; 1#1];
   [0#1; 1#1; 1#1];
   [0#1; 1#1; (-1)#1];
   [0#1; (-1)#1; (-1)#1]].
(** stencils/D3Q19.cpp:37-  makeWeights *)
Definition D3Q19_wt : list Q :=
  [12#36;
   2#36;
   2#36;
   2#36;
   2#36;
   2#36;
   2#36;
   1#36;
   1#36;
   1#36;
   1#36;
   1#36;
   1#36;
   1#36;
   1#36;
   1#36;
   1#36;
   1#36;
   1#36].
(** stencils/D3Q27.cpp:71-  makeDirections, directionsArray *)
Definition D3Q27_dir : list (list Q) :=
  [[0#1; 0#1; 0#1];
   [1#1; 0#1; 0#1];
   [(-1)#1; 0#1; 0#1];
   [0#1; 1#1; 0#1];
   [0#1; (-1)#1; 0#1];
   [0#1; 0#1; 1#1];
   [0#1; 0#1; (-1)#1];
   [0#1; 1#1; 1#1];
   [0#1; (-1)#1; (-1)#1];
   [0#1; 1#1; (-1)#1];
   [0#1; (-1)#1; 1#1];
   [1#1; 0#1; 1#1];
   [(-1)#1; 0#1; (-1)#1];
   [1#1; 0#1; (-1)#1];
   [(-1)#1; 0#1; 1#1];
   [1#1; 1#1; 0#1];
   [(-1)#1; (-1)#1; 0#1];
   [1#1; (-1)#1; 0#1];
   [(-1)#1; 1#1; 0#1];
   [1#1; 1#1; 1#1];
   [(-1)#1; (-1)#1; (-1)#1];
   [1#1; 1#1; (-1)#1];
   [(-1)#1; (-1)#1; 1#1];
   [1#1; (-1)#1; 1#1];
   [(-1)#1; 1#1; (-1)#1];
   [1#1; (-1)#1; (-1)#1];
   [(-1)#1; 1#1; 1#1]].
(** stencils/D3Q27.cpp:37-  makeWeights *)
Definition D3Q27_wt : list Q :=
  [64#216;
   16#216;
   16#216;
   16#216;
   16#216;
   16#216;
   16#216;
   4#216;
   4#216;
   4#216;
   4#216;
   4#216;
   4#216;
   4#216;
   4#216;
   4#216;
   4#216;
   4#216;
   4#216;
   1#216;
   1#216;
   1#216;
   1#216;
   1#216;
   1#216;
   1#216;
   1#216].
(** stencils/RD3Q27.cpp:71-  makeDirections, directionsArray *)
Definition RD3Q27_dir : list (list Q) :=
  [[0#2; 0#2; 0#2];
   [2#2; 0#2; 0#2];
   [(-2)#2; 0#2; 0#2];
   [0#2; 2#2; 0#2];
   [0#2; (-2)#2; 0#2];
   [0#2; 0#2; 2#2];
   [0#2; 0#2; (-2)#2];
   [0#2; 2#2; 2#2];
   [0#2; (-2)#2; (-2)#2];
   [0#2; 2#2; (-2)#2];
   [0#2; (-2)#2; 2#2];
   [2#2; 0#2; 2#2];
   [(-2)#2; 0#2; (-2)#2];
   [2#2; 0#2; (-2)#2];
   [(-2)#2; 0#2; 2#2];
   [2#2; 2#2; 0#2];
   [(-2)#2; (-2)#2; 0#2];
   [2#2; (-2)#2; 0#2];
   [(-2)#2; 2#2; 0#2];
   [1#2; 1#2; 1#2];
   [(-1)#2; (-1)#2; (-1)#2];
   [1#2; 1#2; (-1)#2];
   [(-1)#2; (-1)#2; 1#2];
   [1#2; (-1)#2; 1#2];
   [(-1)#2; 1#2; (-1)#2];
   [1#2; (-1)#2; (-1)#2];
   [(-1)#2; 1#2; 1#2]].
(** stencils/RD3Q27.cpp:37-  makeWeights *)
Definition RD3Q27_wt : list Q :=
  [100#300;
   10#300;
   10#300;
   10#300;
   10#300;
   10#300;
   10#300;
   1#300;
   1#300;
   1#300;
   1#300;
   1#300;
   1#300;
   1#300;
   1#300;
   1#300;
   1#300;
   1#300;
   1#300;
   16#300;
   16#300;
   16#300;
   16#300;
   16#300;
   16#300;
   16#300;
   16#300].
(** stencils/D3V27.cpp:75-  makeDirections, directionsArray *)
Definition D3V27_dir : list (list Q) :=
  [[0#2000000000000000; 0#2000000000000000; 0#2000000000000000];
   [4717418076404206#2000000000000000; 0#2000000000000000; 0#2000000000000000];
   [(-4717418076404206)#2000000000000000; 0#2000000000000000; 0#2000000000000000];
   [0#2000000000000000; 4717418076404206#2000000000000000; 0#2000000000000000];
   [0#2000000000000000; (-4717418076404206)#2000000000000000; 0#2000000000000000];
   [0#2000000000000000; 0#2000000000000000; 4717418076404206#2000000000000000];
   [0#2000000000000000; 0#2000000000000000; (-4717418076404206)#2000000000000000];
   [0#2000000000000000; 6284260766775172#2000000000000000; 6284260766775172#2000000000000000];
   [0#2000000000000000; (-6284260766775172)#2000000000000000; (-6284260766775172)#2000000000000000];
   [0#2000000000000000; 6284260766775172#2000000000000000; (-6284260766775172)#2000000000000000];
   [0#2000000000000000; (-6284260766775172)#2000000000000000; 6284260766775172#2000000000000000];
   [6284260766775172#2000000000000000; 0#2000000000000000; 6284260766775172#2000000000000000];
   [(-6284260766775172)#2000000000000000; 0#2000000000000000; (-6284260766775172)#2000000000000000];
   [6284260766775172#2000000000000000; 0#2000000000000000; (-6284260766775172)#2000000000000000];
   [(-6284260766775172)#2000000000000000; 0#2000000000000000; 6284260766775172#2000000000000000];
   [6284260766775172#2000000000000000; 6284260766775172#2000000000000000; 0#2000000000000000];
   [(-6284260766775172)#2000000000000000; (-6284260766775172)#2000000000000000; 0#2000000000000000];
   [6284260766775172#2000000000000000; (-6284260766775172)#2000000000000000; 0#2000000000000000];
   [(-6284260766775172)#2000000000000000; 6284260766775172#2000000000000000; 0#2000000000000000];
   [2239672572127601#2000000000000000; 2239672572127601#2000000000000000; 2239672572127601#2000000000000000];
   [(-2239672572127601)#2000000000000000; (-2239672572127601)#2000000000000000; (-2239672572127601)#2000000000000000];
   [2239672572127601#2000000000000000; 2239672572127601#2000000000000000; (-2239672572127601)#2000000000000000];
   [(-2239672572127601)#2000000000000000; (-2239672572127601)#2000000000000000; 2239672572127601#2000000000000000];
   [2239672572127601#2000000000000000; (-2239672572127601)#2000000000000000; 2239672572127601#2000000000000000];
   [(-2239672572127601)#2000000000000000; 2239672572127601#2000000000000000; (-2239672572127601)#2000000000000000];
   [2239672572127601#2000000000000000; (-2239672572127601)#2000000000000000; (-2239672572127601)#2000000000000000];
   [(-2239672572127601)#2000000000000000; 2239672572127601#2000000000000000; 2239672572127601#2000000000000000]].
(** stencils/D3V27.cpp:37-  makeWeights *)
Definition D3V27_wt : list Q :=
  [3124789719865490600#10000000000000000000;
   290351301539061340#10000000000000000000;
   290351301539061340#10000000000000000000;
   290351301539061340#10000000000000000000;
   290351301539061340#10000000000000000000;
   290351301539061340#10000000000000000000;
   290351301539061340#10000000000000000000;
   5195469396656799#10000000000000000000;
   5195469396656799#10000000000000000000;
   5195469396656799#10000000000000000000;
   5195469396656799#10000000000000000000;
   5195469396656799#10000000000000000000;
   5195469396656799#10000000000000000000;
   5195469396656799#10000000000000000000;
   5195469396656799#10000000000000000000;
   5195469396656799#10000000000000000000;
   5195469396656799#10000000000000000000;
   5195469396656799#10000000000000000000;
   5195469396656799#10000000000000000000;
   633844604767532500#10000000000000000000;
   633844604767532500#10000000000000000000;
   633844604767532500#10000000000000000000;
   633844604767532500#10000000000000000000;
   633844604767532500#10000000000000000000;
   633844604767532500#10000000000000000000;
   633844604767532500#10000000000000000000;
   633844604767532500#10000000000000000000].
(** stencils/D2Q19V.cpp:78-  makeDirections, directionsArray *)
Definition D2Q19V_dir : list (list Q) :=
  [[0#10000000000000000; 0#10000000000000000];
   [13674696367526190#10000000000000000; 7751962781211810#10000000000000000];
   [13674696367526190#10000000000000000; (-7751962781211810)#10000000000000000];
   [(-13674696367526190)#10000000000000000; 7751962781211810#10000000000000000];
   [(-13674696367526190)#10000000000000000; (-7751962781211810)#10000000000000000];
   [26987507639352253#10000000000000000; 18663975507141328#10000000000000000];
   [26987507639352253#10000000000000000; (-18663975507141328)#10000000000000000];
   [(-26987507639352253)#10000000000000000; 18663975507141328#10000000000000000];
   [(-26987507639352253)#10000000000000000; (-18663975507141328)#10000000000000000];
   [11056292146689430#10000000000000000; 25175897644357486#10000000000000000];
   [11056292146689430#10000000000000000; (-25175897644357486)#10000000000000000];
   [(-11056292146689430)#10000000000000000; 25175897644357486#10000000000000000];
   [(-11056292146689430)#10000000000000000; (-25175897644357486)#10000000000000000];
   [29213306655318734#10000000000000000; 0#10000000000000000];
   [(-29213306655318734)#10000000000000000; 0#10000000000000000];
   [0#10000000000000000; 14869982213169028#10000000000000000];
   [0#10000000000000000; (-14869982213169028)#10000000000000000];
   [0#10000000000000000; 38358342053914734#10000000000000000];
   [0#10000000000000000; (-38358342053914734)#10000000000000000]].
(** stencils/D2Q19V.cpp:40-  makeWeights *)
Definition D2Q19V_wt : list Q :=
  [3168437267921905000#10000000000000000000;
   1024247123210936000#10000000000000000000;
   1024247123210936000#10000000000000000000;
   1024247123210936000#10000000000000000000;
   1024247123210936000#10000000000000000000;
   24053353289394580#10000000000000000000;
   24053353289394580#10000000000000000000;
   24053353289394580#10000000000000000000;
   24053353289394580#10000000000000000000;
   95351069854382500#10000000000000000000;
   95351069854382500#10000000000000000000;
   95351069854382500#10000000000000000000;
   95351069854382500#10000000000000000000;
   68651042101046310#10000000000000000000;
   68651042101046310#10000000000000000000;
   1055887837506289100#10000000000000000000;
   1055887837506289100#10000000000000000000;
   3939393722285871#10000000000000000000;
   3939393722285871#10000000000000000000].
(** stencils/D2Q19H.cpp:77-  makeDirections, directionsArray *)
Definition D2Q19H_dir : list (list Q) :=
  [[0#10000000000000000; 0#10000000000000000];
   [13674696367526190#10000000000000000; 7751962781211810#10000000000000000];
   [13674696367526190#10000000000000000; (-7751962781211810)#10000000000000000];
   [(-13674696367526190)#10000000000000000; 7751962781211810#10000000000000000];
   [(-13674696367526190)#10000000000000000; (-7751962781211810)#10000000000000000];
   [26987507639352253#10000000000000000; 18663975507141328#10000000000000000];
   [26987507639352253#10000000000000000; (-18663975507141328)#10000000000000000];
   [(-26987507639352253)#10000000000000000; 18663975507141328#10000000000000000];
   [(-26987507639352253)#10000000000000000; (-18663975507141328)#10000000000000000];
   [11056292146689430#10000000000000000; 25175897644357486#10000000000000000];
   [11056292146689430#10000000000000000; (-25175897644357486)#10000000000000000];
   [(-11056292146689430)#10000000000000000; 25175897644357486#10000000000000000];
   [(-11056292146689430)#10000000000000000; (-25175897644357486)#10000000000000000];
   [29213306655318734#10000000000000000; 0#10000000000000000];
   [(-29213306655318734)#10000000000000000; 0#10000000000000000];
   [0#10000000000000000; 14869982213169028#10000000000000000];
   [0#10000000000000000; (-14869982213169028)#10000000000000000];
   [0#10000000000000000; 38358342053914734#10000000000000000];
   [0#10000000000000000; (-38358342053914734)#10000000000000000]].
(** stencils/D2Q19H.cpp:39-  makeWeights *)
Definition D2Q19H_wt : list Q :=
  [3168437267921905000#10000000000000000000;
   1024247123210936000#10000000000000000000;
   1024247123210936000#10000000000000000000;
   1024247123210936000#10000000000000000000;
   1024247123210936000#10000000000000000000;
   24053353289394580#10000000000000000000;
   24053353289394580#10000000000000000000;
   24053353289394580#10000000000000000000;
   24053353289394580#10000000000000000000;
   95351069854382500#10000000000000000000;
   95351069854382500#10000000000000000000;
   95351069854382500#10000000000000000000;
   95351069854382500#10000000000000000000;
   68651042101046310#10000000000000000000;
   68651042101046310#10000000000000000000;
   1055887837506289100#10000000000000000000;
   1055887837506289100#10000000000000000000;
   3939393722285871#10000000000000000000;
   3939393722285871#10000000000000000000].
(** stencils/D3Q45.cpp:93-  makeDirections, directionsArray *)
Definition D3Q45_dir : list (list Q) :=
  [[0#100000000000000000; 0#100000000000000000; 0#100000000000000000];
   [6386083877343968#100000000000000000; (-122391212782436650)#100000000000000000; (-122391212782436650)#100000000000000000];
   [(-122391212782436650)#100000000000000000; 6386083877343968#100000000000000000; (-122391212782436650)#100000000000000000];
   [(-122391212782436650)#100000000000000000; (-122391212782436650)#100000000000000000; 6386083877343968#100000000000000000];
   [157669942725077440#100000000000000000; (-50696100249776650)#100000000000000000; (-50696100249776650)#100000000000000000];
   [(-50696100249776650)#100000000000000000; 157669942725077440#100000000000000000; (-50696100249776650)#100000000000000000];
   [(-50696100249776650)#100000000000000000; (-50696100249776650)#100000000000000000; 157669942725077440#100000000000000000];
   [50696100249776650#100000000000000000; 50696100249776650#100000000000000000; (-157669942725077440)#100000000000000000];
   [50696100249776650#100000000000000000; (-157669942725077440)#100000000000000000; 50696100249776650#100000000000000000];
   [(-157669942725077440)#100000000000000000; 50696100249776650#100000000000000000; 50696100249776650#100000000000000000];
   [122391212782436650#100000000000000000; 122391212782436650#100000000000000000; (-6386083877343968)#100000000000000000];
   [122391212782436650#100000000000000000; (-6386083877343968)#100000000000000000; 122391212782436650#100000000000000000];
   [(-6386083877343968)#100000000000000000; 122391212782436650#100000000000000000; 122391212782436650#100000000000000000];
   [292398761059125740#100000000000000000; 47449786780807950#100000000000000000; 47449786780807950#100000000000000000];
   [47449786780807950#100000000000000000; 292398761059125740#100000000000000000; 47449786780807950#100000000000000000];
   [47449786780807950#100000000000000000; 47449786780807950#100000000000000000; 292398761059125740#100000000000000000];
   [173205080756887870#100000000000000000; 173205080756887870#100000000000000000; 173205080756887870#100000000000000000];
   [240309212754017700#100000000000000000; 88922421140593690#100000000000000000; (-156026553137723670)#100000000000000000];
   [240309212754017700#100000000000000000; (-156026553137723670)#100000000000000000; 88922421140593690#100000000000000000];
   [156026553137723670#100000000000000000; (-88922421140593690)#100000000000000000; (-240309212754017700)#100000000000000000];
   [156026553137723670#100000000000000000; (-240309212754017700)#100000000000000000; (-88922421140593690)#100000000000000000];
   [88922421140593690#100000000000000000; 240309212754017700#100000000000000000; (-156026553137723670)#100000000000000000];
   [88922421140593690#100000000000000000; (-156026553137723670)#100000000000000000; 240309212754017700#100000000000000000];
   [(-88922421140593690)#100000000000000000; 156026553137723670#100000000000000000; (-240309212754017700)#100000000000000000];
   [(-88922421140593690)#100000000000000000; (-240309212754017700)#100000000000000000; 156026553137723670#100000000000000000];
   [(-156026553137723670)#100000000000000000; 240309212754017700#100000000000000000; 88922421140593690#100000000000000000];
   [(-156026553137723670)#100000000000000000; 88922421140593690#100000000000000000; 240309212754017700#100000000000000000];
   [(-240309212754017700)#100000000000000000; 156026553137723670#100000000000000000; (-88922421140593690)#100000000000000000];
   [(-240309212754017700)#100000000000000000; (-88922421140593690)#100000000000000000; 156026553137723670#100000000000000000];
   [(-173205080756887870)#100000000000000000; (-173205080756887870)#100000000000000000; (-173205080756887870)#100000000000000000];
   [(-47449786780807950)#100000000000000000; (-47449786780807950)#100000000000000000; (-292398761059125740)#100000000000000000];
   [(-47449786780807950)#100000000000000000; (-292398761059125740)#100000000000000000; (-47449786780807950)#100000000000000000];
   [(-292398761059125740)#100000000000000000; (-47449786780807950)#100000000000000000; (-47449786780807950)#100000000000000000];
   [273675071630169240#100000000000000000; 273675071630169240#100000000000000000; (-14279717659756475)#100000000000000000];
   [273675071630169240#100000000000000000; (-14279717659756475)#100000000000000000; 273675071630169240#100000000000000000];
   [(-14279717659756475)#100000000000000000; 273675071630169240#100000000000000000; 273675071630169240#100000000000000000];
   [(-352560709941770730)#100000000000000000; 113359926352644450#100000000000000000; 113359926352644450#100000000000000000];
   [113359926352644450#100000000000000000; (-352560709941770730)#100000000000000000; 113359926352644450#100000000000000000];
   [113359926352644450#100000000000000000; 113359926352644450#100000000000000000; (-352560709941770730)#100000000000000000];
   [(-113359926352644450)#100000000000000000; (-113359926352644450)#100000000000000000; 352560709941770730#100000000000000000];
   [(-113359926352644450)#100000000000000000; 352560709941770730#100000000000000000; (-113359926352644450)#100000000000000000];
   [352560709941770730#100000000000000000; (-113359926352644450)#100000000000000000; (-113359926352644450)#100000000000000000];
   [14279717659756475#100000000000000000; (-273675071630169240)#100000000000000000; (-273675071630169240)#100000000000000000];
   [(-273675071630169240)#100000000000000000; 14279717659756475#100000000000000000; (-273675071630169240)#100000000000000000];
   [(-273675071630169240)#100000000000000000; (-273675071630169240)#100000000000000000; 14279717659756475#100000000000000000]].
(** stencils/D3Q45.cpp:39-  makeWeights *)
Definition D3Q45_wt : list Q :=
  [2074074074074061800#10000000000000000000;
   578703703703704700#10000000000000000000;
   578703703703704700#10000000000000000000;
   578703703703704700#10000000000000000000;
   578703703703704700#10000000000000000000;
   578703703703704700#10000000000000000000;
   578703703703704700#10000000000000000000;
   578703703703704700#10000000000000000000;
   578703703703704700#10000000000000000000;
   578703703703704700#10000000000000000000;
   578703703703704700#10000000000000000000;
   578703703703704700#10000000000000000000;
   578703703703704700#10000000000000000000;
   46296296296295800#10000000000000000000;
   46296296296295800#10000000000000000000;
   46296296296295800#10000000000000000000;
   46296296296295800#10000000000000000000;
   46296296296295800#10000000000000000000;
   46296296296295800#10000000000000000000;
   46296296296295800#10000000000000000000;
   46296296296295800#10000000000000000000;
   46296296296295800#10000000000000000000;
   46296296296295800#10000000000000000000;
   46296296296295800#10000000000000000000;
   46296296296295800#10000000000000000000;
   46296296296295800#10000000000000000000;
   46296296296295800#10000000000000000000;
   46296296296295800#10000000000000000000;
   46296296296295800#10000000000000000000;
   46296296296295800#10000000000000000000;
   46296296296295800#10000000000000000000;
   46296296296295800#10000000000000000000;
   46296296296295800#10000000000000000000;
   4629629629629939#10000000000000000000;
   4629629629629939#10000000000000000000;
   4629629629629939#10000000000000000000;
   4629629629629939#10000000000000000000;
   4629629629629939#10000000000000000000;
   4629629629629939#10000000000000000000;
   4629629629629939#10000000000000000000;
   4629629629629939#10000000000000000000;
   4629629629629939#10000000000000000000;
   4629629629629939#10000000000000000000;
   4629629629629939#10000000000000000000;
   4629629629629939#10000000000000000000].
(** stencils/D3Q77.cpp:126-  makeDirections, directionsArray *)
Definition D3Q77_dir : list (list Q) :=
  [[0#1250000000000000; 0#1250000000000000; 0#1250000000000000];
   [3571212517341015#1250000000000000; 0#1250000000000000; 0#1250000000000000];
   [(-3571212517341015)#1250000000000000; 0#1250000000000000; 0#1250000000000000];
   [0#1250000000000000; 3571212517341015#1250000000000000; 0#1250000000000000];
   [0#1250000000000000; (-3571212517341015)#1250000000000000; 0#1250000000000000];
   [0#1250000000000000; 0#1250000000000000; 3571212517341015#1250000000000000];
   [0#1250000000000000; 0#1250000000000000; (-3571212517341015)#1250000000000000];
   [1694532724967833#1250000000000000; 0#1250000000000000; 0#1250000000000000];
   [(-1694532724967833)#1250000000000000; 0#1250000000000000; 0#1250000000000000];
   [0#1250000000000000; 1694532724967833#1250000000000000; 0#1250000000000000];
   [0#1250000000000000; (-1694532724967833)#1250000000000000; 0#1250000000000000];
   [0#1250000000000000; 0#1250000000000000; 1694532724967833#1250000000000000];
   [0#1250000000000000; 0#1250000000000000; (-1694532724967833)#1250000000000000];
   [3571212517341015#1250000000000000; 3571212517341015#1250000000000000; 0#1250000000000000];
   [3571212517341015#1250000000000000; (-3571212517341015)#1250000000000000; 0#1250000000000000];
   [(-3571212517341015)#1250000000000000; 3571212517341015#1250000000000000; 0#1250000000000000];
   [(-3571212517341015)#1250000000000000; (-3571212517341015)#1250000000000000; 0#1250000000000000];
   [3571212517341015#1250000000000000; 0#1250000000000000; 3571212517341015#1250000000000000];
   [3571212517341015#1250000000000000; 0#1250000000000000; (-3571212517341015)#1250000000000000];
   [(-3571212517341015)#1250000000000000; 0#1250000000000000; 3571212517341015#1250000000000000];
   [(-3571212517341015)#1250000000000000; 0#1250000000000000; (-3571212517341015)#1250000000000000];
   [0#1250000000000000; 3571212517341015#1250000000000000; 3571212517341015#1250000000000000];
   [0#1250000000000000; 3571212517341015#1250000000000000; (-3571212517341015)#1250000000000000];
   [0#1250000000000000; (-3571212517341015)#1250000000000000; 3571212517341015#1250000000000000];
   [0#1250000000000000; (-3571212517341015)#1250000000000000; (-3571212517341015)#1250000000000000];
   [1694532724967833#1250000000000000; 1694532724967833#1250000000000000; 0#1250000000000000];
   [1694532724967833#1250000000000000; (-1694532724967833)#1250000000000000; 0#1250000000000000];
   [(-1694532724967833)#1250000000000000; 1694532724967833#1250000000000000; 0#1250000000000000];
   [(-1694532724967833)#1250000000000000; (-1694532724967833)#1250000000000000; 0#1250000000000000];
   [1694532724967833#1250000000000000; 0#1250000000000000; 1694532724967833#1250000000000000];
   [1694532724967833#1250000000000000; 0#1250000000000000; (-1694532724967833)#1250000000000000];
   [(-1694532724967833)#1250000000000000; 0#1250000000000000; 1694532724967833#1250000000000000];
   [(-1694532724967833)#1250000000000000; 0#1250000000000000; (-1694532724967833)#1250000000000000];
   [0#1250000000000000; 1694532724967833#1250000000000000; 1694532724967833#1250000000000000];
   [0#1250000000000000; 1694532724967833#1250000000000000; (-1694532724967833)#1250000000000000];
   [0#1250000000000000; (-1694532724967833)#1250000000000000; 1694532724967833#1250000000000000];
   [0#1250000000000000; (-1694532724967833)#1250000000000000; (-1694532724967833)#1250000000000000];
   [3571212517341015#1250000000000000; 1694532724967833#1250000000000000; 0#1250000000000000];
   [3571212517341015#1250000000000000; (-1694532724967833)#1250000000000000; 0#1250000000000000];
   [(-3571212517341015)#1250000000000000; 1694532724967833#1250000000000000; 0#1250000000000000];
   [(-3571212517341015)#1250000000000000; (-1694532724967833)#1250000000000000; 0#1250000000000000];
   [3571212517341015#1250000000000000; 0#1250000000000000; 1694532724967833#1250000000000000];
   [3571212517341015#1250000000000000; 0#1250000000000000; (-1694532724967833)#1250000000000000];
   [(-3571212517341015)#1250000000000000; 0#1250000000000000; 1694532724967833#1250000000000000];
   [(-3571212517341015)#1250000000000000; 0#1250000000000000; (-1694532724967833)#1250000000000000];
   [1694532724967833#1250000000000000; 3571212517341015#1250000000000000; 0#1250000000000000];
   [1694532724967833#1250000000000000; (-3571212517341015)#1250000000000000; 0#1250000000000000];
   [(-1694532724967833)#1250000000000000; 3571212517341015#1250000000000000; 0#1250000000000000];
   [(-1694532724967833)#1250000000000000; (-3571212517341015)#1250000000000000; 0#1250000000000000];
   [1694532724967833#1250000000000000; 0#1250000000000000; 3571212517341015#1250000000000000];
   [1694532724967833#1250000000000000; 0#1250000000000000; (-3571212517341015)#1250000000000000];
   [(-1694532724967833)#1250000000000000; 0#1250000000000000; 3571212517341015#1250000000000000];
   [(-1694532724967833)#1250000000000000; 0#1250000000000000; (-3571212517341015)#1250000000000000];
   [0#1250000000000000; 3571212517341015#1250000000000000; 1694532724967833#1250000000000000];
   [0#1250000000000000; 3571212517341015#1250000000000000; (-1694532724967833)#1250000000000000];
   [0#1250000000000000; (-3571212517341015)#1250000000000000; 1694532724967833#1250000000000000];
   [0#1250000000000000; (-3571212517341015)#1250000000000000; (-1694532724967833)#1250000000000000];
   [0#1250000000000000; 1694532724967833#1250000000000000; 3571212517341015#1250000000000000];
   [0#1250000000000000; 1694532724967833#1250000000000000; (-3571212517341015)#1250000000000000];
   [0#1250000000000000; (-1694532724967833)#1250000000000000; 3571212517341015#1250000000000000];
   [0#1250000000000000; (-1694532724967833)#1250000000000000; (-3571212517341015)#1250000000000000];
   [3571212517341015#1250000000000000; 3571212517341015#1250000000000000; 3571212517341015#1250000000000000];
   [3571212517341015#1250000000000000; 3571212517341015#1250000000000000; (-3571212517341015)#1250000000000000];
   [3571212517341015#1250000000000000; (-3571212517341015)#1250000000000000; 3571212517341015#1250000000000000];
   [3571212517341015#1250000000000000; (-3571212517341015)#1250000000000000; (-3571212517341015)#1250000000000000];
   [(-3571212517341015)#1250000000000000; 3571212517341015#1250000000000000; 3571212517341015#1250000000000000];
   [(-3571212517341015)#1250000000000000; 3571212517341015#1250000000000000; (-3571212517341015)#1250000000000000];
   [(-3571212517341015)#1250000000000000; (-3571212517341015)#1250000000000000; 3571212517341015#1250000000000000];
   [(-3571212517341015)#1250000000000000; (-3571212517341015)#1250000000000000; (-3571212517341015)#1250000000000000];
   [1694532724967833#1250000000000000; 1694532724967833#1250000000000000; 1694532724967833#1250000000000000];
   [1694532724967833#1250000000000000; 1694532724967833#1250000000000000; (-1694532724967833)#1250000000000000];
   [1694532724967833#1250000000000000; (-1694532724967833)#1250000000000000; 1694532724967833#1250000000000000];
   [1694532724967833#1250000000000000; (-1694532724967833)#1250000000000000; (-1694532724967833)#1250000000000000];
   [(-1694532724967833)#1250000000000000; 1694532724967833#1250000000000000; 1694532724967833#1250000000000000];
   [(-1694532724967833)#1250000000000000; 1694532724967833#1250000000000000; (-1694532724967833)#1250000000000000];
   [(-1694532724967833)#1250000000000000; (-1694532724967833)#1250000000000000; 1694532724967833#1250000000000000];
   [(-1694532724967833)#1250000000000000; (-1694532724967833)#1250000000000000; (-1694532724967833)#1250000000000000]].
(** stencils/D3Q77.cpp:40-  makeWeights *)
Definition D3Q77_wt : list Q :=
  [12148148148148114000#100000000000000000000;
   91946650158335650#100000000000000000000;
   91946650158335650#100000000000000000000;
   91946650158335650#100000000000000000000;
   91946650158335650#100000000000000000000;
   91946650158335650#100000000000000000000;
   91946650158335650#100000000000000000000;
   8056201497989846000#100000000000000000000;
   8056201497989846000#100000000000000000000;
   8056201497989846000#100000000000000000000;
   8056201497989846000#100000000000000000000;
   8056201497989846000#100000000000000000000;
   8056201497989846000#100000000000000000000;
   4224310326716467#100000000000000000000;
   4224310326716467#100000000000000000000;
   4224310326716467#100000000000000000000;
   4224310326716467#100000000000000000000;
   4224310326716467#100000000000000000000;
   4224310326716467#100000000000000000000;
   4224310326716467#100000000000000000000;
   4224310326716467#100000000000000000000;
   4224310326716467#100000000000000000000;
   4224310326716467#100000000000000000000;
   4224310326716467#100000000000000000000;
   4224310326716467#100000000000000000000;
   1643923837821421500#100000000000000000000;
   1643923837821421500#100000000000000000000;
   1643923837821421500#100000000000000000000;
   1643923837821421500#100000000000000000000;
   1643923837821421500#100000000000000000000;
   1643923837821421500#100000000000000000000;
   1643923837821421500#100000000000000000000;
   1643923837821421500#100000000000000000000;
   1643923837821421500#100000000000000000000;
   1643923837821421500#100000000000000000000;
   1643923837821421500#100000000000000000000;
   1643923837821421500#100000000000000000000;
   250000000000000530#100000000000000000000;
   250000000000000530#100000000000000000000;
   250000000000000530#100000000000000000000;
   250000000000000530#100000000000000000000;
   250000000000000530#100000000000000000000;
   250000000000000530#100000000000000000000;
   250000000000000530#100000000000000000000;
   250000000000000530#100000000000000000000;
   250000000000000530#100000000000000000000;
   250000000000000530#100000000000000000000;
   250000000000000530#100000000000000000000;
   250000000000000530#100000000000000000000;
   250000000000000530#100000000000000000000;
   250000000000000530#100000000000000000000;
   250000000000000530#100000000000000000000;
   250000000000000530#100000000000000000000;
   250000000000000530#100000000000000000000;
   250000000000000530#100000000000000000000;
   250000000000000530#100000000000000000000;
   250000000000000530#100000000000000000000;
   250000000000000530#100000000000000000000;
   250000000000000530#100000000000000000000;
   250000000000000530#100000000000000000000;
   250000000000000530#100000000000000000000;
   4224310326716467#100000000000000000000;
   4224310326716467#100000000000000000000;
   4224310326716467#100000000000000000000;
   4224310326716467#100000000000000000000;
   4224310326716467#100000000000000000000;
   4224310326716467#100000000000000000000;
   4224310326716467#100000000000000000000;
   4224310326716467#100000000000000000000;
   1643923837821427000#100000000000000000000;
   1643923837821427000#100000000000000000000;
   1643923837821427000#100000000000000000000;
   1643923837821427000#100000000000000000000;
   1643923837821427000#100000000000000000000;
   1643923837821427000#100000000000000000000;
   1643923837821427000#100000000000000000000;
   1643923837821427000#100000000000000000000].
(** stencils/D2Q777.cpp:824-  makeDirections, directionsArray *)
Definition D2Q777_dir : list (list Q) :=
  [[0#10000000000000000; 0#10000000000000000];
   [0#10000000000000000; (-51336190999916760)#10000000000000000];
   [0#10000000000000000; (-47260768208715460)#10000000000000000];
   [0#10000000000000000; (-43217850056545455)#10000000000000000];
   [0#10000000000000000; (-39203767788867454)#10000000000000000];
   [0#10000000000000000; (-35215145174049827)#10000000000000000];
   [0#10000000000000000; (-31248850583236660)#10000000000000000];
   [0#10000000000000000; (-27301956753090653)#10000000000000000];
   [0#10000000000000000; (-19455483447849033)#10000000000000000];
   [0#10000000000000000; (-15550785670754994)#10000000000000000];
   [0#10000000000000000; (-11655203235633913)#10000000000000000];
   [0#10000000000000000; (-7766397181201957)#10000000000000000];
   [0#10000000000000000; (-3882080458814402)#10000000000000000];
   [0#10000000000000000; 3882080458814402#10000000000000000];
   [0#10000000000000000; 7766397181201957#10000000000000000];
   [0#10000000000000000; 11655203235633913#10000000000000000];
   [0#10000000000000000; 15550785670754994#10000000000000000];
   [0#10000000000000000; 19455483447849033#10000000000000000];
   [0#10000000000000000; 23371706551408840#10000000000000000];
   [0#10000000000000000; 27301956753090653#10000000000000000];
   [0#10000000000000000; 31248850583236660#10000000000000000];
   [0#10000000000000000; 35215145174049827#10000000000000000];
   [0#10000000000000000; 39203767788867454#10000000000000000];
   [0#10000000000000000; 43217850056545455#10000000000000000];
   [0#10000000000000000; 47260768208715460#10000000000000000];
   [0#10000000000000000; 51336190999916760#10000000000000000];
   [0#10000000000000000; 55448137519845860#10000000000000000];
   [0#10000000000000000; 59601047848812980#10000000000000000];
   [0#10000000000000000; (-55448137519845860)#10000000000000000];
   [0#10000000000000000; (-59601047848812980)#10000000000000000];
   [0#10000000000000000; (-23371706551408840)#10000000000000000];
   [(-3882080458814402)#10000000000000000; 27301956753090653#10000000000000000];
   [(-3882080458814402)#10000000000000000; 39203767788867454#10000000000000000];
   [(-3882080458814402)#10000000000000000; 43217850056545455#10000000000000000];
   [(-3882080458814402)#10000000000000000; 47260768208715460#10000000000000000];
   [(-3882080458814402)#10000000000000000; 51336190999916760#10000000000000000];
   [(-3882080458814402)#10000000000000000; 55448137519845860#10000000000000000];
   [(-3882080458814402)#10000000000000000; 59601047848812980#10000000000000000];
   [3882080458814402#10000000000000000; (-59601047848812980)#10000000000000000];
   [3882080458814402#10000000000000000; (-51336190999916760)#10000000000000000];
   [3882080458814402#10000000000000000; (-47260768208715460)#10000000000000000];
   [3882080458814402#10000000000000000; (-43217850056545455)#10000000000000000];
   [3882080458814402#10000000000000000; (-39203767788867454)#10000000000000000];
   [3882080458814402#10000000000000000; (-35215145174049827)#10000000000000000];
   [3882080458814402#10000000000000000; (-31248850583236660)#10000000000000000];
   [3882080458814402#10000000000000000; (-27301956753090653)#10000000000000000];
   [3882080458814402#10000000000000000; (-23371706551408840)#10000000000000000];
   [3882080458814402#10000000000000000; (-19455483447849033)#10000000000000000];
   [3882080458814402#10000000000000000; (-15550785670754994)#10000000000000000];
   [3882080458814402#10000000000000000; (-11655203235633913)#10000000000000000];
   [3882080458814402#10000000000000000; (-7766397181201957)#10000000000000000];
   [(-3882080458814402)#10000000000000000; 35215145174049827#10000000000000000];
   [(-3882080458814402)#10000000000000000; 31248850583236660#10000000000000000];
   [(-3882080458814402)#10000000000000000; 23371706551408840#10000000000000000];
   [(-3882080458814402)#10000000000000000; 19455483447849033#10000000000000000];
   [(-3882080458814402)#10000000000000000; (-59601047848812980)#10000000000000000];
   [(-3882080458814402)#10000000000000000; (-55448137519845860)#10000000000000000];
   [(-3882080458814402)#10000000000000000; (-51336190999916760)#10000000000000000];
   [(-3882080458814402)#10000000000000000; (-47260768208715460)#10000000000000000];
   [(-3882080458814402)#10000000000000000; (-43217850056545455)#10000000000000000];
   [(-3882080458814402)#10000000000000000; (-39203767788867454)#10000000000000000];
   [(-3882080458814402)#10000000000000000; (-35215145174049827)#10000000000000000];
   [(-3882080458814402)#10000000000000000; (-31248850583236660)#10000000000000000];
   [(-3882080458814402)#10000000000000000; (-27301956753090653)#10000000000000000];
   [3882080458814402#10000000000000000; (-3882080458814402)#10000000000000000];
   [(-3882080458814402)#10000000000000000; (-23371706551408840)#10000000000000000];
   [(-3882080458814402)#10000000000000000; (-15550785670754994)#10000000000000000];
   [(-3882080458814402)#10000000000000000; (-11655203235633913)#10000000000000000];
   [(-3882080458814402)#10000000000000000; (-7766397181201957)#10000000000000000];
   [(-3882080458814402)#10000000000000000; (-3882080458814402)#10000000000000000];
   [(-3882080458814402)#10000000000000000; 0#10000000000000000];
   [(-3882080458814402)#10000000000000000; 3882080458814402#10000000000000000];
   [(-3882080458814402)#10000000000000000; 7766397181201957#10000000000000000];
   [(-3882080458814402)#10000000000000000; 11655203235633913#10000000000000000];
   [(-3882080458814402)#10000000000000000; 15550785670754994#10000000000000000];
   [(-3882080458814402)#10000000000000000; (-19455483447849033)#10000000000000000];
   [3882080458814402#10000000000000000; 0#10000000000000000];
   [3882080458814402#10000000000000000; (-55448137519845860)#10000000000000000];
   [3882080458814402#10000000000000000; 7766397181201957#10000000000000000];
   [3882080458814402#10000000000000000; 3882080458814402#10000000000000000];
   [3882080458814402#10000000000000000; 55448137519845860#10000000000000000];
   [3882080458814402#10000000000000000; 51336190999916760#10000000000000000];
   [3882080458814402#10000000000000000; 47260768208715460#10000000000000000];
   [3882080458814402#10000000000000000; 43217850056545455#10000000000000000];
   [3882080458814402#10000000000000000; 39203767788867454#10000000000000000];
   [3882080458814402#10000000000000000; 59601047848812980#10000000000000000];
   [3882080458814402#10000000000000000; 31248850583236660#10000000000000000];
   [3882080458814402#10000000000000000; 27301956753090653#10000000000000000];
   [3882080458814402#10000000000000000; 23371706551408840#10000000000000000];
   [3882080458814402#10000000000000000; 19455483447849033#10000000000000000];
   [3882080458814402#10000000000000000; 15550785670754994#10000000000000000];
   [3882080458814402#10000000000000000; 35215145174049827#10000000000000000];
   [3882080458814402#10000000000000000; 11655203235633913#10000000000000000];
   [(-7766397181201957)#10000000000000000; 15550785670754994#10000000000000000];
   [(-7766397181201957)#10000000000000000; 19455483447849033#10000000000000000];
   [(-7766397181201957)#10000000000000000; 23371706551408840#10000000000000000];
   [(-7766397181201957)#10000000000000000; 27301956753090653#10000000000000000];
   [(-7766397181201957)#10000000000000000; 31248850583236660#10000000000000000];
   [(-7766397181201957)#10000000000000000; 43217850056545455#10000000000000000];
   [(-7766397181201957)#10000000000000000; 39203767788867454#10000000000000000];
   [(-7766397181201957)#10000000000000000; 47260768208715460#10000000000000000];
   [(-7766397181201957)#10000000000000000; 51336190999916760#10000000000000000];
   [(-7766397181201957)#10000000000000000; 55448137519845860#10000000000000000];
   [(-7766397181201957)#10000000000000000; 11655203235633913#10000000000000000];
   [(-7766397181201957)#10000000000000000; 35215145174049827#10000000000000000];
   [(-7766397181201957)#10000000000000000; 7766397181201957#10000000000000000];
   [(-7766397181201957)#10000000000000000; (-19455483447849033)#10000000000000000];
   [(-7766397181201957)#10000000000000000; 0#10000000000000000];
   [(-7766397181201957)#10000000000000000; (-3882080458814402)#10000000000000000];
   [(-7766397181201957)#10000000000000000; (-7766397181201957)#10000000000000000];
   [(-7766397181201957)#10000000000000000; (-11655203235633913)#10000000000000000];
   [(-7766397181201957)#10000000000000000; (-15550785670754994)#10000000000000000];
   [(-7766397181201957)#10000000000000000; 59601047848812980#10000000000000000];
   [(-7766397181201957)#10000000000000000; (-27301956753090653)#10000000000000000];
   [(-7766397181201957)#10000000000000000; (-31248850583236660)#10000000000000000];
   [(-7766397181201957)#10000000000000000; (-35215145174049827)#10000000000000000];
   [(-7766397181201957)#10000000000000000; (-39203767788867454)#10000000000000000];
   [(-7766397181201957)#10000000000000000; (-43217850056545455)#10000000000000000];
   [(-7766397181201957)#10000000000000000; (-47260768208715460)#10000000000000000];
   [(-7766397181201957)#10000000000000000; (-51336190999916760)#10000000000000000];
   [(-7766397181201957)#10000000000000000; 3882080458814402#10000000000000000];
   [7766397181201957#10000000000000000; 59601047848812980#10000000000000000];
   [7766397181201957#10000000000000000; 27301956753090653#10000000000000000];
   [7766397181201957#10000000000000000; 51336190999916760#10000000000000000];
   [(-7766397181201957)#10000000000000000; (-55448137519845860)#10000000000000000];
   [7766397181201957#10000000000000000; (-59601047848812980)#10000000000000000];
   [7766397181201957#10000000000000000; (-55448137519845860)#10000000000000000];
   [7766397181201957#10000000000000000; (-51336190999916760)#10000000000000000];
   [7766397181201957#10000000000000000; (-47260768208715460)#10000000000000000];
   [7766397181201957#10000000000000000; (-43217850056545455)#10000000000000000];
   [7766397181201957#10000000000000000; (-39203767788867454)#10000000000000000];
   [7766397181201957#10000000000000000; (-35215145174049827)#10000000000000000];
   [7766397181201957#10000000000000000; (-31248850583236660)#10000000000000000];
   [7766397181201957#10000000000000000; (-27301956753090653)#10000000000000000];
   [7766397181201957#10000000000000000; (-23371706551408840)#10000000000000000];
   [7766397181201957#10000000000000000; (-19455483447849033)#10000000000000000];
   [7766397181201957#10000000000000000; (-15550785670754994)#10000000000000000];
   [7766397181201957#10000000000000000; 55448137519845860#10000000000000000];
   [7766397181201957#10000000000000000; (-11655203235633913)#10000000000000000];
   [7766397181201957#10000000000000000; (-3882080458814402)#10000000000000000];
   [7766397181201957#10000000000000000; 0#10000000000000000];
   [7766397181201957#10000000000000000; 3882080458814402#10000000000000000];
   [7766397181201957#10000000000000000; 7766397181201957#10000000000000000];
   [7766397181201957#10000000000000000; 11655203235633913#10000000000000000];
   [7766397181201957#10000000000000000; 15550785670754994#10000000000000000];
   [7766397181201957#10000000000000000; 19455483447849033#10000000000000000];
   [7766397181201957#10000000000000000; 23371706551408840#10000000000000000];
   [7766397181201957#10000000000000000; 31248850583236660#10000000000000000];
   [7766397181201957#10000000000000000; 35215145174049827#10000000000000000];
   [7766397181201957#10000000000000000; 39203767788867454#10000000000000000];
   [7766397181201957#10000000000000000; 43217850056545455#10000000000000000];
   [7766397181201957#10000000000000000; 47260768208715460#10000000000000000];
   [7766397181201957#10000000000000000; (-7766397181201957)#10000000000000000];
   [(-7766397181201957)#10000000000000000; (-59601047848812980)#10000000000000000];
   [(-7766397181201957)#10000000000000000; (-23371706551408840)#10000000000000000];
   [(-11655203235633913)#10000000000000000; 31248850583236660#10000000000000000];
   [(-11655203235633913)#10000000000000000; 51336190999916760#10000000000000000];
   [(-11655203235633913)#10000000000000000; 47260768208715460#10000000000000000];
   [(-11655203235633913)#10000000000000000; 43217850056545455#10000000000000000];
   [(-11655203235633913)#10000000000000000; 39203767788867454#10000000000000000];
   [(-11655203235633913)#10000000000000000; 35215145174049827#10000000000000000];
   [11655203235633913#10000000000000000; (-55448137519845860)#10000000000000000];
   [(-11655203235633913)#10000000000000000; 27301956753090653#10000000000000000];
   [(-11655203235633913)#10000000000000000; 23371706551408840#10000000000000000];
   [(-11655203235633913)#10000000000000000; 19455483447849033#10000000000000000];
   [(-11655203235633913)#10000000000000000; 15550785670754994#10000000000000000];
   [(-11655203235633913)#10000000000000000; 11655203235633913#10000000000000000];
   [(-11655203235633913)#10000000000000000; 7766397181201957#10000000000000000];
   [(-11655203235633913)#10000000000000000; 3882080458814402#10000000000000000];
   [(-11655203235633913)#10000000000000000; 0#10000000000000000];
   [(-11655203235633913)#10000000000000000; (-3882080458814402)#10000000000000000];
   [(-11655203235633913)#10000000000000000; (-7766397181201957)#10000000000000000];
   [(-11655203235633913)#10000000000000000; (-11655203235633913)#10000000000000000];
   [(-11655203235633913)#10000000000000000; (-15550785670754994)#10000000000000000];
   [(-11655203235633913)#10000000000000000; (-19455483447849033)#10000000000000000];
   [(-11655203235633913)#10000000000000000; (-23371706551408840)#10000000000000000];
   [(-11655203235633913)#10000000000000000; (-27301956753090653)#10000000000000000];
   [(-11655203235633913)#10000000000000000; (-31248850583236660)#10000000000000000];
   [(-11655203235633913)#10000000000000000; (-35215145174049827)#10000000000000000];
   [(-11655203235633913)#10000000000000000; (-39203767788867454)#10000000000000000];
   [(-11655203235633913)#10000000000000000; (-43217850056545455)#10000000000000000];
   [(-11655203235633913)#10000000000000000; (-47260768208715460)#10000000000000000];
   [(-11655203235633913)#10000000000000000; (-51336190999916760)#10000000000000000];
   [(-11655203235633913)#10000000000000000; 55448137519845860#10000000000000000];
   [(-11655203235633913)#10000000000000000; (-55448137519845860)#10000000000000000];
   [(-11655203235633913)#10000000000000000; 59601047848812980#10000000000000000];
   [11655203235633913#10000000000000000; 55448137519845860#10000000000000000];
   [11655203235633913#10000000000000000; (-51336190999916760)#10000000000000000];
   [11655203235633913#10000000000000000; (-47260768208715460)#10000000000000000];
   [11655203235633913#10000000000000000; (-43217850056545455)#10000000000000000];
   [11655203235633913#10000000000000000; (-39203767788867454)#10000000000000000];
   [11655203235633913#10000000000000000; (-35215145174049827)#10000000000000000];
   [11655203235633913#10000000000000000; (-31248850583236660)#10000000000000000];
   [11655203235633913#10000000000000000; (-27301956753090653)#10000000000000000];
   [11655203235633913#10000000000000000; (-23371706551408840)#10000000000000000];
   [11655203235633913#10000000000000000; (-19455483447849033)#10000000000000000];
   [11655203235633913#10000000000000000; (-15550785670754994)#10000000000000000];
   [11655203235633913#10000000000000000; (-11655203235633913)#10000000000000000];
   [11655203235633913#10000000000000000; (-7766397181201957)#10000000000000000];
   [11655203235633913#10000000000000000; (-3882080458814402)#10000000000000000];
   [11655203235633913#10000000000000000; 0#10000000000000000];
   [11655203235633913#10000000000000000; 3882080458814402#10000000000000000];
   [11655203235633913#10000000000000000; 7766397181201957#10000000000000000];
   [11655203235633913#10000000000000000; 11655203235633913#10000000000000000];
   [11655203235633913#10000000000000000; 15550785670754994#10000000000000000];
   [11655203235633913#10000000000000000; 19455483447849033#10000000000000000];
   [11655203235633913#10000000000000000; 23371706551408840#10000000000000000];
   [11655203235633913#10000000000000000; 27301956753090653#10000000000000000];
   [11655203235633913#10000000000000000; 31248850583236660#10000000000000000];
   [11655203235633913#10000000000000000; 35215145174049827#10000000000000000];
   [11655203235633913#10000000000000000; 39203767788867454#10000000000000000];
   [11655203235633913#10000000000000000; 43217850056545455#10000000000000000];
   [11655203235633913#10000000000000000; 47260768208715460#10000000000000000];
   [11655203235633913#10000000000000000; 51336190999916760#10000000000000000];
   [11655203235633913#10000000000000000; 59601047848812980#10000000000000000];
   [(-11655203235633913)#10000000000000000; (-59601047848812980)#10000000000000000];
   [11655203235633913#10000000000000000; (-59601047848812980)#10000000000000000];
   [15550785670754994#10000000000000000; (-43217850056545455)#10000000000000000];
   [15550785670754994#10000000000000000; (-31248850583236660)#10000000000000000];
   [15550785670754994#10000000000000000; (-35215145174049827)#10000000000000000];
   [15550785670754994#10000000000000000; (-39203767788867454)#10000000000000000];
   [15550785670754994#10000000000000000; (-47260768208715460)#10000000000000000];
   [15550785670754994#10000000000000000; (-51336190999916760)#10000000000000000];
   [(-15550785670754994)#10000000000000000; 59601047848812980#10000000000000000];
   [(-15550785670754994)#10000000000000000; 51336190999916760#10000000000000000];
   [(-15550785670754994)#10000000000000000; 47260768208715460#10000000000000000];
   [(-15550785670754994)#10000000000000000; 43217850056545455#10000000000000000];
   [(-15550785670754994)#10000000000000000; 39203767788867454#10000000000000000];
   [(-15550785670754994)#10000000000000000; 35215145174049827#10000000000000000];
   [(-15550785670754994)#10000000000000000; 31248850583236660#10000000000000000];
   [(-15550785670754994)#10000000000000000; 27301956753090653#10000000000000000];
   [(-15550785670754994)#10000000000000000; 23371706551408840#10000000000000000];
   [(-15550785670754994)#10000000000000000; 19455483447849033#10000000000000000];
   [(-15550785670754994)#10000000000000000; 15550785670754994#10000000000000000];
   [(-15550785670754994)#10000000000000000; 11655203235633913#10000000000000000];
   [(-15550785670754994)#10000000000000000; 7766397181201957#10000000000000000];
   [(-15550785670754994)#10000000000000000; 3882080458814402#10000000000000000];
   [15550785670754994#10000000000000000; (-27301956753090653)#10000000000000000];
   [(-15550785670754994)#10000000000000000; 0#10000000000000000];
   [15550785670754994#10000000000000000; (-23371706551408840)#10000000000000000];
   [15550785670754994#10000000000000000; (-15550785670754994)#10000000000000000];
   [15550785670754994#10000000000000000; 59601047848812980#10000000000000000];
   [15550785670754994#10000000000000000; 55448137519845860#10000000000000000];
   [15550785670754994#10000000000000000; 51336190999916760#10000000000000000];
   [15550785670754994#10000000000000000; 47260768208715460#10000000000000000];
   [15550785670754994#10000000000000000; 43217850056545455#10000000000000000];
   [15550785670754994#10000000000000000; 39203767788867454#10000000000000000];
   [15550785670754994#10000000000000000; 35215145174049827#10000000000000000];
   [15550785670754994#10000000000000000; 31248850583236660#10000000000000000];
   [15550785670754994#10000000000000000; 27301956753090653#10000000000000000];
   [15550785670754994#10000000000000000; 23371706551408840#10000000000000000];
   [15550785670754994#10000000000000000; 19455483447849033#10000000000000000];
   [15550785670754994#10000000000000000; 15550785670754994#10000000000000000];
   [15550785670754994#10000000000000000; 11655203235633913#10000000000000000];
   [15550785670754994#10000000000000000; 7766397181201957#10000000000000000];
   [15550785670754994#10000000000000000; 3882080458814402#10000000000000000];
   [15550785670754994#10000000000000000; 0#10000000000000000];
   [15550785670754994#10000000000000000; (-3882080458814402)#10000000000000000];
   [15550785670754994#10000000000000000; (-7766397181201957)#10000000000000000];
   [15550785670754994#10000000000000000; (-11655203235633913)#10000000000000000];
   [15550785670754994#10000000000000000; (-19455483447849033)#10000000000000000];
   [(-15550785670754994)#10000000000000000; (-3882080458814402)#10000000000000000];
   [(-15550785670754994)#10000000000000000; 55448137519845860#10000000000000000];
   [(-15550785670754994)#10000000000000000; (-11655203235633913)#10000000000000000];
   [(-15550785670754994)#10000000000000000; (-7766397181201957)#10000000000000000];
   [15550785670754994#10000000000000000; (-59601047848812980)#10000000000000000];
   [(-15550785670754994)#10000000000000000; (-59601047848812980)#10000000000000000];
   [(-15550785670754994)#10000000000000000; (-55448137519845860)#10000000000000000];
   [(-15550785670754994)#10000000000000000; (-51336190999916760)#10000000000000000];
   [(-15550785670754994)#10000000000000000; (-47260768208715460)#10000000000000000];
   [(-15550785670754994)#10000000000000000; (-43217850056545455)#10000000000000000];
   [15550785670754994#10000000000000000; (-55448137519845860)#10000000000000000];
   [(-15550785670754994)#10000000000000000; (-35215145174049827)#10000000000000000];
   [(-15550785670754994)#10000000000000000; (-31248850583236660)#10000000000000000];
   [(-15550785670754994)#10000000000000000; (-27301956753090653)#10000000000000000];
   [(-15550785670754994)#10000000000000000; (-23371706551408840)#10000000000000000];
   [(-15550785670754994)#10000000000000000; (-39203767788867454)#10000000000000000];
   [(-15550785670754994)#10000000000000000; (-15550785670754994)#10000000000000000];
   [(-15550785670754994)#10000000000000000; (-19455483447849033)#10000000000000000];
   [19455483447849033#10000000000000000; (-15550785670754994)#10000000000000000];
   [19455483447849033#10000000000000000; (-19455483447849033)#10000000000000000];
   [19455483447849033#10000000000000000; (-23371706551408840)#10000000000000000];
   [19455483447849033#10000000000000000; (-27301956753090653)#10000000000000000];
   [19455483447849033#10000000000000000; (-39203767788867454)#10000000000000000];
   [19455483447849033#10000000000000000; (-35215145174049827)#10000000000000000];
   [19455483447849033#10000000000000000; (-11655203235633913)#10000000000000000];
   [19455483447849033#10000000000000000; (-43217850056545455)#10000000000000000];
   [19455483447849033#10000000000000000; (-47260768208715460)#10000000000000000];
   [19455483447849033#10000000000000000; (-51336190999916760)#10000000000000000];
   [19455483447849033#10000000000000000; (-55448137519845860)#10000000000000000];
   [19455483447849033#10000000000000000; (-31248850583236660)#10000000000000000];
   [19455483447849033#10000000000000000; (-7766397181201957)#10000000000000000];
   [19455483447849033#10000000000000000; 3882080458814402#10000000000000000];
   [19455483447849033#10000000000000000; 0#10000000000000000];
   [19455483447849033#10000000000000000; 7766397181201957#10000000000000000];
   [19455483447849033#10000000000000000; 11655203235633913#10000000000000000];
   [19455483447849033#10000000000000000; 15550785670754994#10000000000000000];
   [19455483447849033#10000000000000000; 23371706551408840#10000000000000000];
   [19455483447849033#10000000000000000; 27301956753090653#10000000000000000];
   [19455483447849033#10000000000000000; 31248850583236660#10000000000000000];
   [19455483447849033#10000000000000000; 35215145174049827#10000000000000000];
   [19455483447849033#10000000000000000; 39203767788867454#10000000000000000];
   [19455483447849033#10000000000000000; 43217850056545455#10000000000000000];
   [19455483447849033#10000000000000000; 47260768208715460#10000000000000000];
   [19455483447849033#10000000000000000; 51336190999916760#10000000000000000];
   [19455483447849033#10000000000000000; 55448137519845860#10000000000000000];
   [19455483447849033#10000000000000000; (-3882080458814402)#10000000000000000];
   [19455483447849033#10000000000000000; 19455483447849033#10000000000000000];
   [(-19455483447849033)#10000000000000000; (-35215145174049827)#10000000000000000];
   [(-19455483447849033)#10000000000000000; (-51336190999916760)#10000000000000000];
   [(-19455483447849033)#10000000000000000; 55448137519845860#10000000000000000];
   [(-19455483447849033)#10000000000000000; 51336190999916760#10000000000000000];
   [(-19455483447849033)#10000000000000000; 47260768208715460#10000000000000000];
   [(-19455483447849033)#10000000000000000; 43217850056545455#10000000000000000];
   [(-19455483447849033)#10000000000000000; 39203767788867454#10000000000000000];
   [(-19455483447849033)#10000000000000000; 35215145174049827#10000000000000000];
   [(-19455483447849033)#10000000000000000; 31248850583236660#10000000000000000];
   [(-19455483447849033)#10000000000000000; 27301956753090653#10000000000000000];
   [(-19455483447849033)#10000000000000000; 23371706551408840#10000000000000000];
   [(-19455483447849033)#10000000000000000; 19455483447849033#10000000000000000];
   [(-19455483447849033)#10000000000000000; 15550785670754994#10000000000000000];
   [(-19455483447849033)#10000000000000000; (-55448137519845860)#10000000000000000];
   [(-19455483447849033)#10000000000000000; 7766397181201957#10000000000000000];
   [(-19455483447849033)#10000000000000000; 11655203235633913#10000000000000000];
   [(-19455483447849033)#10000000000000000; 0#10000000000000000];
   [(-19455483447849033)#10000000000000000; (-47260768208715460)#10000000000000000];
   [(-19455483447849033)#10000000000000000; (-43217850056545455)#10000000000000000];
   [(-19455483447849033)#10000000000000000; (-39203767788867454)#10000000000000000];
   [(-19455483447849033)#10000000000000000; (-31248850583236660)#10000000000000000];
   [(-19455483447849033)#10000000000000000; 3882080458814402#10000000000000000];
   [(-19455483447849033)#10000000000000000; (-27301956753090653)#10000000000000000];
   [(-19455483447849033)#10000000000000000; (-19455483447849033)#10000000000000000];
   [(-19455483447849033)#10000000000000000; (-15550785670754994)#10000000000000000];
   [(-19455483447849033)#10000000000000000; (-11655203235633913)#10000000000000000];
   [(-19455483447849033)#10000000000000000; (-7766397181201957)#10000000000000000];
   [(-19455483447849033)#10000000000000000; (-3882080458814402)#10000000000000000];
   [(-19455483447849033)#10000000000000000; (-23371706551408840)#10000000000000000];
   [23371706551408840#10000000000000000; (-27301956753090653)#10000000000000000];
   [23371706551408840#10000000000000000; (-35215145174049827)#10000000000000000];
   [23371706551408840#10000000000000000; (-31248850583236660)#10000000000000000];
   [23371706551408840#10000000000000000; (-39203767788867454)#10000000000000000];
   [(-23371706551408840)#10000000000000000; 47260768208715460#10000000000000000];
   [23371706551408840#10000000000000000; (-47260768208715460)#10000000000000000];
   [23371706551408840#10000000000000000; (-51336190999916760)#10000000000000000];
   [23371706551408840#10000000000000000; (-55448137519845860)#10000000000000000];
   [23371706551408840#10000000000000000; (-23371706551408840)#10000000000000000];
   [23371706551408840#10000000000000000; (-43217850056545455)#10000000000000000];
   [23371706551408840#10000000000000000; (-19455483447849033)#10000000000000000];
   [23371706551408840#10000000000000000; 35215145174049827#10000000000000000];
   [23371706551408840#10000000000000000; (-11655203235633913)#10000000000000000];
   [(-23371706551408840)#10000000000000000; 15550785670754994#10000000000000000];
   [(-23371706551408840)#10000000000000000; 11655203235633913#10000000000000000];
   [(-23371706551408840)#10000000000000000; 7766397181201957#10000000000000000];
   [(-23371706551408840)#10000000000000000; 3882080458814402#10000000000000000];
   [(-23371706551408840)#10000000000000000; 0#10000000000000000];
   [(-23371706551408840)#10000000000000000; (-3882080458814402)#10000000000000000];
   [(-23371706551408840)#10000000000000000; (-7766397181201957)#10000000000000000];
   [(-23371706551408840)#10000000000000000; (-11655203235633913)#10000000000000000];
   [(-23371706551408840)#10000000000000000; (-15550785670754994)#10000000000000000];
   [(-23371706551408840)#10000000000000000; (-19455483447849033)#10000000000000000];
   [(-23371706551408840)#10000000000000000; 51336190999916760#10000000000000000];
   [23371706551408840#10000000000000000; (-15550785670754994)#10000000000000000];
   [(-23371706551408840)#10000000000000000; (-23371706551408840)#10000000000000000];
   [(-23371706551408840)#10000000000000000; (-27301956753090653)#10000000000000000];
   [(-23371706551408840)#10000000000000000; (-55448137519845860)#10000000000000000];
   [(-23371706551408840)#10000000000000000; (-51336190999916760)#10000000000000000];
   [(-23371706551408840)#10000000000000000; (-47260768208715460)#10000000000000000];
   [(-23371706551408840)#10000000000000000; (-43217850056545455)#10000000000000000];
   [(-23371706551408840)#10000000000000000; (-39203767788867454)#10000000000000000];
   [(-23371706551408840)#10000000000000000; (-35215145174049827)#10000000000000000];
   [(-23371706551408840)#10000000000000000; 23371706551408840#10000000000000000];
   [(-23371706551408840)#10000000000000000; 19455483447849033#10000000000000000];
   [(-23371706551408840)#10000000000000000; 31248850583236660#10000000000000000];
   [23371706551408840#10000000000000000; (-7766397181201957)#10000000000000000];
   [23371706551408840#10000000000000000; (-3882080458814402)#10000000000000000];
   [23371706551408840#10000000000000000; 0#10000000000000000];
   [23371706551408840#10000000000000000; 3882080458814402#10000000000000000];
   [23371706551408840#10000000000000000; 7766397181201957#10000000000000000];
   [23371706551408840#10000000000000000; 11655203235633913#10000000000000000];
   [23371706551408840#10000000000000000; 15550785670754994#10000000000000000];
   [23371706551408840#10000000000000000; 19455483447849033#10000000000000000];
   [23371706551408840#10000000000000000; 23371706551408840#10000000000000000];
   [(-23371706551408840)#10000000000000000; 27301956753090653#10000000000000000];
   [(-23371706551408840)#10000000000000000; (-31248850583236660)#10000000000000000];
   [23371706551408840#10000000000000000; 31248850583236660#10000000000000000];
   [(-23371706551408840)#10000000000000000; 43217850056545455#10000000000000000];
   [23371706551408840#10000000000000000; 39203767788867454#10000000000000000];
   [23371706551408840#10000000000000000; 43217850056545455#10000000000000000];
   [23371706551408840#10000000000000000; 47260768208715460#10000000000000000];
   [23371706551408840#10000000000000000; 51336190999916760#10000000000000000];
   [23371706551408840#10000000000000000; 55448137519845860#10000000000000000];
   [(-23371706551408840)#10000000000000000; 55448137519845860#10000000000000000];
   [(-23371706551408840)#10000000000000000; 39203767788867454#10000000000000000];
   [(-23371706551408840)#10000000000000000; 35215145174049827#10000000000000000];
   [23371706551408840#10000000000000000; 27301956753090653#10000000000000000];
   [(-27301956753090653)#10000000000000000; 19455483447849033#10000000000000000];
   [(-27301956753090653)#10000000000000000; 15550785670754994#10000000000000000];
   [(-27301956753090653)#10000000000000000; 23371706551408840#10000000000000000];
   [(-27301956753090653)#10000000000000000; (-7766397181201957)#10000000000000000];
   [(-27301956753090653)#10000000000000000; 7766397181201957#10000000000000000];
   [27301956753090653#10000000000000000; 31248850583236660#10000000000000000];
   [27301956753090653#10000000000000000; 27301956753090653#10000000000000000];
   [27301956753090653#10000000000000000; 23371706551408840#10000000000000000];
   [27301956753090653#10000000000000000; 19455483447849033#10000000000000000];
   [27301956753090653#10000000000000000; 15550785670754994#10000000000000000];
   [27301956753090653#10000000000000000; 11655203235633913#10000000000000000];
   [(-27301956753090653)#10000000000000000; (-55448137519845860)#10000000000000000];
   [(-27301956753090653)#10000000000000000; (-51336190999916760)#10000000000000000];
   [(-27301956753090653)#10000000000000000; (-47260768208715460)#10000000000000000];
   [(-27301956753090653)#10000000000000000; (-43217850056545455)#10000000000000000];
   [(-27301956753090653)#10000000000000000; (-39203767788867454)#10000000000000000];
   [(-27301956753090653)#10000000000000000; (-35215145174049827)#10000000000000000];
   [(-27301956753090653)#10000000000000000; (-31248850583236660)#10000000000000000];
   [(-27301956753090653)#10000000000000000; (-27301956753090653)#10000000000000000];
   [(-27301956753090653)#10000000000000000; (-23371706551408840)#10000000000000000];
   [(-27301956753090653)#10000000000000000; (-19455483447849033)#10000000000000000];
   [(-27301956753090653)#10000000000000000; (-15550785670754994)#10000000000000000];
   [(-27301956753090653)#10000000000000000; (-11655203235633913)#10000000000000000];
   [(-27301956753090653)#10000000000000000; (-3882080458814402)#10000000000000000];
   [(-27301956753090653)#10000000000000000; 0#10000000000000000];
   [(-27301956753090653)#10000000000000000; 3882080458814402#10000000000000000];
   [(-27301956753090653)#10000000000000000; 11655203235633913#10000000000000000];
   [(-27301956753090653)#10000000000000000; 27301956753090653#10000000000000000];
   [27301956753090653#10000000000000000; 55448137519845860#10000000000000000];
   [27301956753090653#10000000000000000; 43217850056545455#10000000000000000];
   [27301956753090653#10000000000000000; (-55448137519845860)#10000000000000000];
   [27301956753090653#10000000000000000; (-51336190999916760)#10000000000000000];
   [27301956753090653#10000000000000000; (-47260768208715460)#10000000000000000];
   [27301956753090653#10000000000000000; (-43217850056545455)#10000000000000000];
   [27301956753090653#10000000000000000; (-39203767788867454)#10000000000000000];
   [27301956753090653#10000000000000000; (-35215145174049827)#10000000000000000];
   [27301956753090653#10000000000000000; (-31248850583236660)#10000000000000000];
   [27301956753090653#10000000000000000; (-27301956753090653)#10000000000000000];
   [27301956753090653#10000000000000000; 35215145174049827#10000000000000000];
   [27301956753090653#10000000000000000; (-23371706551408840)#10000000000000000];
   [27301956753090653#10000000000000000; (-19455483447849033)#10000000000000000];
   [27301956753090653#10000000000000000; (-15550785670754994)#10000000000000000];
   [(-27301956753090653)#10000000000000000; 31248850583236660#10000000000000000];
   [27301956753090653#10000000000000000; (-11655203235633913)#10000000000000000];
   [27301956753090653#10000000000000000; (-3882080458814402)#10000000000000000];
   [27301956753090653#10000000000000000; 0#10000000000000000];
   [27301956753090653#10000000000000000; 3882080458814402#10000000000000000];
   [27301956753090653#10000000000000000; 7766397181201957#10000000000000000];
   [(-27301956753090653)#10000000000000000; 35215145174049827#10000000000000000];
   [(-27301956753090653)#10000000000000000; 39203767788867454#10000000000000000];
   [(-27301956753090653)#10000000000000000; 43217850056545455#10000000000000000];
   [(-27301956753090653)#10000000000000000; 47260768208715460#10000000000000000];
   [(-27301956753090653)#10000000000000000; 51336190999916760#10000000000000000];
   [(-27301956753090653)#10000000000000000; 55448137519845860#10000000000000000];
   [27301956753090653#10000000000000000; 51336190999916760#10000000000000000];
   [27301956753090653#10000000000000000; 47260768208715460#10000000000000000];
   [27301956753090653#10000000000000000; (-7766397181201957)#10000000000000000];
   [27301956753090653#10000000000000000; 39203767788867454#10000000000000000];
   [(-31248850583236660)#10000000000000000; 27301956753090653#10000000000000000];
   [(-31248850583236660)#10000000000000000; 23371706551408840#10000000000000000];
   [31248850583236660#10000000000000000; 43217850056545455#10000000000000000];
   [31248850583236660#10000000000000000; 39203767788867454#10000000000000000];
   [31248850583236660#10000000000000000; 35215145174049827#10000000000000000];
   [31248850583236660#10000000000000000; 31248850583236660#10000000000000000];
   [31248850583236660#10000000000000000; 27301956753090653#10000000000000000];
   [31248850583236660#10000000000000000; 23371706551408840#10000000000000000];
   [31248850583236660#10000000000000000; 19455483447849033#10000000000000000];
   [31248850583236660#10000000000000000; 11655203235633913#10000000000000000];
   [31248850583236660#10000000000000000; 7766397181201957#10000000000000000];
   [31248850583236660#10000000000000000; 3882080458814402#10000000000000000];
   [31248850583236660#10000000000000000; 47260768208715460#10000000000000000];
   [31248850583236660#10000000000000000; 0#10000000000000000];
   [31248850583236660#10000000000000000; (-7766397181201957)#10000000000000000];
   [31248850583236660#10000000000000000; (-11655203235633913)#10000000000000000];
   [31248850583236660#10000000000000000; (-15550785670754994)#10000000000000000];
   [31248850583236660#10000000000000000; (-19455483447849033)#10000000000000000];
   [31248850583236660#10000000000000000; (-23371706551408840)#10000000000000000];
   [31248850583236660#10000000000000000; (-27301956753090653)#10000000000000000];
   [31248850583236660#10000000000000000; (-31248850583236660)#10000000000000000];
   [31248850583236660#10000000000000000; (-35215145174049827)#10000000000000000];
   [31248850583236660#10000000000000000; (-39203767788867454)#10000000000000000];
   [31248850583236660#10000000000000000; (-43217850056545455)#10000000000000000];
   [31248850583236660#10000000000000000; (-3882080458814402)#10000000000000000];
   [31248850583236660#10000000000000000; 51336190999916760#10000000000000000];
   [(-31248850583236660)#10000000000000000; (-51336190999916760)#10000000000000000];
   [(-31248850583236660)#10000000000000000; (-47260768208715460)#10000000000000000];
   [(-31248850583236660)#10000000000000000; 31248850583236660#10000000000000000];
   [(-31248850583236660)#10000000000000000; 35215145174049827#10000000000000000];
   [(-31248850583236660)#10000000000000000; 39203767788867454#10000000000000000];
   [(-31248850583236660)#10000000000000000; 43217850056545455#10000000000000000];
   [(-31248850583236660)#10000000000000000; 47260768208715460#10000000000000000];
   [(-31248850583236660)#10000000000000000; 51336190999916760#10000000000000000];
   [(-31248850583236660)#10000000000000000; 19455483447849033#10000000000000000];
   [(-31248850583236660)#10000000000000000; 15550785670754994#10000000000000000];
   [(-31248850583236660)#10000000000000000; 11655203235633913#10000000000000000];
   [(-31248850583236660)#10000000000000000; 7766397181201957#10000000000000000];
   [(-31248850583236660)#10000000000000000; 3882080458814402#10000000000000000];
   [(-31248850583236660)#10000000000000000; 0#10000000000000000];
   [(-31248850583236660)#10000000000000000; (-3882080458814402)#10000000000000000];
   [(-31248850583236660)#10000000000000000; (-7766397181201957)#10000000000000000];
   [(-31248850583236660)#10000000000000000; (-11655203235633913)#10000000000000000];
   [(-31248850583236660)#10000000000000000; (-15550785670754994)#10000000000000000];
   [(-31248850583236660)#10000000000000000; (-19455483447849033)#10000000000000000];
   [(-31248850583236660)#10000000000000000; (-23371706551408840)#10000000000000000];
   [(-31248850583236660)#10000000000000000; (-27301956753090653)#10000000000000000];
   [(-31248850583236660)#10000000000000000; (-31248850583236660)#10000000000000000];
   [(-31248850583236660)#10000000000000000; (-35215145174049827)#10000000000000000];
   [(-31248850583236660)#10000000000000000; (-39203767788867454)#10000000000000000];
   [(-31248850583236660)#10000000000000000; (-43217850056545455)#10000000000000000];
   [31248850583236660#10000000000000000; (-47260768208715460)#10000000000000000];
   [31248850583236660#10000000000000000; (-51336190999916760)#10000000000000000];
   [31248850583236660#10000000000000000; 15550785670754994#10000000000000000];
   [(-35215145174049827)#10000000000000000; 27301956753090653#10000000000000000];
   [35215145174049827#10000000000000000; 27301956753090653#10000000000000000];
   [35215145174049827#10000000000000000; 31248850583236660#10000000000000000];
   [35215145174049827#10000000000000000; 35215145174049827#10000000000000000];
   [35215145174049827#10000000000000000; 39203767788867454#10000000000000000];
   [35215145174049827#10000000000000000; 43217850056545455#10000000000000000];
   [35215145174049827#10000000000000000; 47260768208715460#10000000000000000];
   [(-35215145174049827)#10000000000000000; (-11655203235633913)#10000000000000000];
   [(-35215145174049827)#10000000000000000; (-15550785670754994)#10000000000000000];
   [(-35215145174049827)#10000000000000000; 23371706551408840#10000000000000000];
   [(-35215145174049827)#10000000000000000; (-19455483447849033)#10000000000000000];
   [(-35215145174049827)#10000000000000000; (-23371706551408840)#10000000000000000];
   [(-35215145174049827)#10000000000000000; (-27301956753090653)#10000000000000000];
   [(-35215145174049827)#10000000000000000; (-31248850583236660)#10000000000000000];
   [(-35215145174049827)#10000000000000000; (-35215145174049827)#10000000000000000];
   [(-35215145174049827)#10000000000000000; (-39203767788867454)#10000000000000000];
   [(-35215145174049827)#10000000000000000; (-43217850056545455)#10000000000000000];
   [35215145174049827#10000000000000000; (-47260768208715460)#10000000000000000];
   [(-35215145174049827)#10000000000000000; (-47260768208715460)#10000000000000000];
   [(-35215145174049827)#10000000000000000; 31248850583236660#10000000000000000];
   [(-35215145174049827)#10000000000000000; 35215145174049827#10000000000000000];
   [(-35215145174049827)#10000000000000000; 47260768208715460#10000000000000000];
   [35215145174049827#10000000000000000; 23371706551408840#10000000000000000];
   [(-35215145174049827)#10000000000000000; (-7766397181201957)#10000000000000000];
   [35215145174049827#10000000000000000; 19455483447849033#10000000000000000];
   [35215145174049827#10000000000000000; 15550785670754994#10000000000000000];
   [(-35215145174049827)#10000000000000000; 19455483447849033#10000000000000000];
   [(-35215145174049827)#10000000000000000; 15550785670754994#10000000000000000];
   [(-35215145174049827)#10000000000000000; 11655203235633913#10000000000000000];
   [(-35215145174049827)#10000000000000000; 7766397181201957#10000000000000000];
   [(-35215145174049827)#10000000000000000; 3882080458814402#10000000000000000];
   [(-35215145174049827)#10000000000000000; 0#10000000000000000];
   [(-35215145174049827)#10000000000000000; (-3882080458814402)#10000000000000000];
   [35215145174049827#10000000000000000; (-43217850056545455)#10000000000000000];
   [35215145174049827#10000000000000000; (-39203767788867454)#10000000000000000];
   [35215145174049827#10000000000000000; (-35215145174049827)#10000000000000000];
   [(-35215145174049827)#10000000000000000; 43217850056545455#10000000000000000];
   [35215145174049827#10000000000000000; (-31248850583236660)#10000000000000000];
   [35215145174049827#10000000000000000; (-23371706551408840)#10000000000000000];
   [35215145174049827#10000000000000000; (-19455483447849033)#10000000000000000];
   [35215145174049827#10000000000000000; (-15550785670754994)#10000000000000000];
   [35215145174049827#10000000000000000; (-11655203235633913)#10000000000000000];
   [35215145174049827#10000000000000000; (-7766397181201957)#10000000000000000];
   [35215145174049827#10000000000000000; (-3882080458814402)#10000000000000000];
   [35215145174049827#10000000000000000; 0#10000000000000000];
   [35215145174049827#10000000000000000; 3882080458814402#10000000000000000];
   [35215145174049827#10000000000000000; 7766397181201957#10000000000000000];
   [35215145174049827#10000000000000000; 11655203235633913#10000000000000000];
   [35215145174049827#10000000000000000; (-27301956753090653)#10000000000000000];
   [(-35215145174049827)#10000000000000000; 39203767788867454#10000000000000000];
   [(-39203767788867454)#10000000000000000; (-43217850056545455)#10000000000000000];
   [39203767788867454#10000000000000000; (-35215145174049827)#10000000000000000];
   [39203767788867454#10000000000000000; 23371706551408840#10000000000000000];
   [39203767788867454#10000000000000000; 27301956753090653#10000000000000000];
   [39203767788867454#10000000000000000; 31248850583236660#10000000000000000];
   [39203767788867454#10000000000000000; 35215145174049827#10000000000000000];
   [39203767788867454#10000000000000000; 39203767788867454#10000000000000000];
   [39203767788867454#10000000000000000; 43217850056545455#10000000000000000];
   [39203767788867454#10000000000000000; 47260768208715460#10000000000000000];
   [39203767788867454#10000000000000000; 11655203235633913#10000000000000000];
   [39203767788867454#10000000000000000; (-39203767788867454)#10000000000000000];
   [39203767788867454#10000000000000000; 7766397181201957#10000000000000000];
   [39203767788867454#10000000000000000; (-3882080458814402)#10000000000000000];
   [39203767788867454#10000000000000000; (-7766397181201957)#10000000000000000];
   [39203767788867454#10000000000000000; (-11655203235633913)#10000000000000000];
   [39203767788867454#10000000000000000; (-15550785670754994)#10000000000000000];
   [39203767788867454#10000000000000000; (-19455483447849033)#10000000000000000];
   [39203767788867454#10000000000000000; (-23371706551408840)#10000000000000000];
   [39203767788867454#10000000000000000; (-27301956753090653)#10000000000000000];
   [39203767788867454#10000000000000000; (-31248850583236660)#10000000000000000];
   [39203767788867454#10000000000000000; 3882080458814402#10000000000000000];
   [39203767788867454#10000000000000000; 0#10000000000000000];
   [(-39203767788867454)#10000000000000000; 47260768208715460#10000000000000000];
   [(-39203767788867454)#10000000000000000; 43217850056545455#10000000000000000];
   [(-39203767788867454)#10000000000000000; (-39203767788867454)#10000000000000000];
   [(-39203767788867454)#10000000000000000; (-35215145174049827)#10000000000000000];
   [(-39203767788867454)#10000000000000000; (-31248850583236660)#10000000000000000];
   [(-39203767788867454)#10000000000000000; (-27301956753090653)#10000000000000000];
   [(-39203767788867454)#10000000000000000; (-23371706551408840)#10000000000000000];
   [(-39203767788867454)#10000000000000000; (-19455483447849033)#10000000000000000];
   [(-39203767788867454)#10000000000000000; (-15550785670754994)#10000000000000000];
   [39203767788867454#10000000000000000; 15550785670754994#10000000000000000];
   [39203767788867454#10000000000000000; (-47260768208715460)#10000000000000000];
   [(-39203767788867454)#10000000000000000; (-47260768208715460)#10000000000000000];
   [(-39203767788867454)#10000000000000000; (-11655203235633913)#10000000000000000];
   [(-39203767788867454)#10000000000000000; (-7766397181201957)#10000000000000000];
   [39203767788867454#10000000000000000; (-43217850056545455)#10000000000000000];
   [(-39203767788867454)#10000000000000000; 0#10000000000000000];
   [(-39203767788867454)#10000000000000000; 39203767788867454#10000000000000000];
   [(-39203767788867454)#10000000000000000; 35215145174049827#10000000000000000];
   [(-39203767788867454)#10000000000000000; 31248850583236660#10000000000000000];
   [(-39203767788867454)#10000000000000000; 27301956753090653#10000000000000000];
   [(-39203767788867454)#10000000000000000; 23371706551408840#10000000000000000];
   [(-39203767788867454)#10000000000000000; 19455483447849033#10000000000000000];
   [(-39203767788867454)#10000000000000000; (-3882080458814402)#10000000000000000];
   [(-39203767788867454)#10000000000000000; 15550785670754994#10000000000000000];
   [(-39203767788867454)#10000000000000000; 11655203235633913#10000000000000000];
   [(-39203767788867454)#10000000000000000; 7766397181201957#10000000000000000];
   [(-39203767788867454)#10000000000000000; 3882080458814402#10000000000000000];
   [39203767788867454#10000000000000000; 19455483447849033#10000000000000000];
   [43217850056545455#10000000000000000; (-39203767788867454)#10000000000000000];
   [43217850056545455#10000000000000000; (-35215145174049827)#10000000000000000];
   [43217850056545455#10000000000000000; (-31248850583236660)#10000000000000000];
   [43217850056545455#10000000000000000; (-43217850056545455)#10000000000000000];
   [43217850056545455#10000000000000000; (-23371706551408840)#10000000000000000];
   [43217850056545455#10000000000000000; (-15550785670754994)#10000000000000000];
   [(-43217850056545455)#10000000000000000; 39203767788867454#10000000000000000];
   [(-43217850056545455)#10000000000000000; 35215145174049827#10000000000000000];
   [(-43217850056545455)#10000000000000000; 31248850583236660#10000000000000000];
   [(-43217850056545455)#10000000000000000; 27301956753090653#10000000000000000];
   [(-43217850056545455)#10000000000000000; 23371706551408840#10000000000000000];
   [(-43217850056545455)#10000000000000000; 19455483447849033#10000000000000000];
   [(-43217850056545455)#10000000000000000; 15550785670754994#10000000000000000];
   [(-43217850056545455)#10000000000000000; 11655203235633913#10000000000000000];
   [(-43217850056545455)#10000000000000000; 7766397181201957#10000000000000000];
   [(-43217850056545455)#10000000000000000; 3882080458814402#10000000000000000];
   [(-43217850056545455)#10000000000000000; 43217850056545455#10000000000000000];
   [43217850056545455#10000000000000000; (-19455483447849033)#10000000000000000];
   [(-43217850056545455)#10000000000000000; (-7766397181201957)#10000000000000000];
   [(-43217850056545455)#10000000000000000; (-11655203235633913)#10000000000000000];
   [(-43217850056545455)#10000000000000000; (-15550785670754994)#10000000000000000];
   [(-43217850056545455)#10000000000000000; (-19455483447849033)#10000000000000000];
   [(-43217850056545455)#10000000000000000; (-23371706551408840)#10000000000000000];
   [(-43217850056545455)#10000000000000000; (-27301956753090653)#10000000000000000];
   [(-43217850056545455)#10000000000000000; (-31248850583236660)#10000000000000000];
   [(-43217850056545455)#10000000000000000; (-35215145174049827)#10000000000000000];
   [(-43217850056545455)#10000000000000000; (-39203767788867454)#10000000000000000];
   [(-43217850056545455)#10000000000000000; (-43217850056545455)#10000000000000000];
   [(-43217850056545455)#10000000000000000; (-3882080458814402)#10000000000000000];
   [43217850056545455#10000000000000000; (-27301956753090653)#10000000000000000];
   [(-43217850056545455)#10000000000000000; 0#10000000000000000];
   [43217850056545455#10000000000000000; 27301956753090653#10000000000000000];
   [43217850056545455#10000000000000000; 23371706551408840#10000000000000000];
   [43217850056545455#10000000000000000; 11655203235633913#10000000000000000];
   [43217850056545455#10000000000000000; 31248850583236660#10000000000000000];
   [43217850056545455#10000000000000000; 35215145174049827#10000000000000000];
   [43217850056545455#10000000000000000; 39203767788867454#10000000000000000];
   [43217850056545455#10000000000000000; 43217850056545455#10000000000000000];
   [43217850056545455#10000000000000000; 7766397181201957#10000000000000000];
   [43217850056545455#10000000000000000; 3882080458814402#10000000000000000];
   [43217850056545455#10000000000000000; 19455483447849033#10000000000000000];
   [43217850056545455#10000000000000000; 0#10000000000000000];
   [43217850056545455#10000000000000000; (-7766397181201957)#10000000000000000];
   [43217850056545455#10000000000000000; (-11655203235633913)#10000000000000000];
   [43217850056545455#10000000000000000; (-3882080458814402)#10000000000000000];
   [43217850056545455#10000000000000000; 15550785670754994#10000000000000000];
   [(-47260768208715460)#10000000000000000; (-19455483447849033)#10000000000000000];
   [(-47260768208715460)#10000000000000000; (-15550785670754994)#10000000000000000];
   [(-47260768208715460)#10000000000000000; (-11655203235633913)#10000000000000000];
   [(-47260768208715460)#10000000000000000; (-7766397181201957)#10000000000000000];
   [(-47260768208715460)#10000000000000000; (-3882080458814402)#10000000000000000];
   [(-47260768208715460)#10000000000000000; 0#10000000000000000];
   [47260768208715460#10000000000000000; 0#10000000000000000];
   [(-47260768208715460)#10000000000000000; (-23371706551408840)#10000000000000000];
   [(-47260768208715460)#10000000000000000; (-27301956753090653)#10000000000000000];
   [(-47260768208715460)#10000000000000000; (-31248850583236660)#10000000000000000];
   [(-47260768208715460)#10000000000000000; (-35215145174049827)#10000000000000000];
   [(-47260768208715460)#10000000000000000; (-39203767788867454)#10000000000000000];
   [47260768208715460#10000000000000000; 15550785670754994#10000000000000000];
   [47260768208715460#10000000000000000; 19455483447849033#10000000000000000];
   [47260768208715460#10000000000000000; 23371706551408840#10000000000000000];
   [47260768208715460#10000000000000000; 27301956753090653#10000000000000000];
   [47260768208715460#10000000000000000; 31248850583236660#10000000000000000];
   [47260768208715460#10000000000000000; 35215145174049827#10000000000000000];
   [47260768208715460#10000000000000000; 39203767788867454#10000000000000000];
   [(-47260768208715460)#10000000000000000; 3882080458814402#10000000000000000];
   [(-47260768208715460)#10000000000000000; 7766397181201957#10000000000000000];
   [(-47260768208715460)#10000000000000000; 35215145174049827#10000000000000000];
   [(-47260768208715460)#10000000000000000; 15550785670754994#10000000000000000];
   [47260768208715460#10000000000000000; 3882080458814402#10000000000000000];
   [47260768208715460#10000000000000000; 7766397181201957#10000000000000000];
   [47260768208715460#10000000000000000; 11655203235633913#10000000000000000];
   [47260768208715460#10000000000000000; (-7766397181201957)#10000000000000000];
   [47260768208715460#10000000000000000; (-11655203235633913)#10000000000000000];
   [47260768208715460#10000000000000000; (-15550785670754994)#10000000000000000];
   [47260768208715460#10000000000000000; (-19455483447849033)#10000000000000000];
   [(-47260768208715460)#10000000000000000; 11655203235633913#10000000000000000];
   [47260768208715460#10000000000000000; (-27301956753090653)#10000000000000000];
   [47260768208715460#10000000000000000; (-23371706551408840)#10000000000000000];
   [47260768208715460#10000000000000000; (-35215145174049827)#10000000000000000];
   [47260768208715460#10000000000000000; (-39203767788867454)#10000000000000000];
   [(-47260768208715460)#10000000000000000; 39203767788867454#10000000000000000];
   [47260768208715460#10000000000000000; (-3882080458814402)#10000000000000000];
   [(-47260768208715460)#10000000000000000; 31248850583236660#10000000000000000];
   [(-47260768208715460)#10000000000000000; 27301956753090653#10000000000000000];
   [(-47260768208715460)#10000000000000000; 23371706551408840#10000000000000000];
   [(-47260768208715460)#10000000000000000; 19455483447849033#10000000000000000];
   [47260768208715460#10000000000000000; (-31248850583236660)#10000000000000000];
   [51336190999916760#10000000000000000; (-31248850583236660)#10000000000000000];
   [51336190999916760#10000000000000000; (-27301956753090653)#10000000000000000];
   [(-51336190999916760)#10000000000000000; (-3882080458814402)#10000000000000000];
   [51336190999916760#10000000000000000; (-19455483447849033)#10000000000000000];
   [51336190999916760#10000000000000000; (-11655203235633913)#10000000000000000];
   [(-51336190999916760)#10000000000000000; (-19455483447849033)#10000000000000000];
   [(-51336190999916760)#10000000000000000; (-23371706551408840)#10000000000000000];
   [(-51336190999916760)#10000000000000000; (-27301956753090653)#10000000000000000];
   [(-51336190999916760)#10000000000000000; (-31248850583236660)#10000000000000000];
   [(-51336190999916760)#10000000000000000; 31248850583236660#10000000000000000];
   [(-51336190999916760)#10000000000000000; 27301956753090653#10000000000000000];
   [(-51336190999916760)#10000000000000000; 23371706551408840#10000000000000000];
   [51336190999916760#10000000000000000; (-15550785670754994)#10000000000000000];
   [(-51336190999916760)#10000000000000000; 19455483447849033#10000000000000000];
   [(-51336190999916760)#10000000000000000; 15550785670754994#10000000000000000];
   [51336190999916760#10000000000000000; (-23371706551408840)#10000000000000000];
   [(-51336190999916760)#10000000000000000; 11655203235633913#10000000000000000];
   [(-51336190999916760)#10000000000000000; 7766397181201957#10000000000000000];
   [(-51336190999916760)#10000000000000000; 3882080458814402#10000000000000000];
   [(-51336190999916760)#10000000000000000; 0#10000000000000000];
   [51336190999916760#10000000000000000; 31248850583236660#10000000000000000];
   [51336190999916760#10000000000000000; 27301956753090653#10000000000000000];
   [51336190999916760#10000000000000000; 23371706551408840#10000000000000000];
   [51336190999916760#10000000000000000; 19455483447849033#10000000000000000];
   [51336190999916760#10000000000000000; 15550785670754994#10000000000000000];
   [51336190999916760#10000000000000000; 11655203235633913#10000000000000000];
   [51336190999916760#10000000000000000; 7766397181201957#10000000000000000];
   [51336190999916760#10000000000000000; 3882080458814402#10000000000000000];
   [(-51336190999916760)#10000000000000000; (-7766397181201957)#10000000000000000];
   [51336190999916760#10000000000000000; 0#10000000000000000];
   [51336190999916760#10000000000000000; (-3882080458814402)#10000000000000000];
   [51336190999916760#10000000000000000; (-7766397181201957)#10000000000000000];
   [(-51336190999916760)#10000000000000000; (-15550785670754994)#10000000000000000];
   [(-51336190999916760)#10000000000000000; (-11655203235633913)#10000000000000000];
   [55448137519845860#10000000000000000; 0#10000000000000000];
   [55448137519845860#10000000000000000; 7766397181201957#10000000000000000];
   [55448137519845860#10000000000000000; 3882080458814402#10000000000000000];
   [55448137519845860#10000000000000000; (-3882080458814402)#10000000000000000];
   [55448137519845860#10000000000000000; (-7766397181201957)#10000000000000000];
   [55448137519845860#10000000000000000; (-15550785670754994)#10000000000000000];
   [55448137519845860#10000000000000000; (-19455483447849033)#10000000000000000];
   [55448137519845860#10000000000000000; (-23371706551408840)#10000000000000000];
   [55448137519845860#10000000000000000; (-27301956753090653)#10000000000000000];
   [55448137519845860#10000000000000000; 11655203235633913#10000000000000000];
   [55448137519845860#10000000000000000; (-11655203235633913)#10000000000000000];
   [55448137519845860#10000000000000000; 19455483447849033#10000000000000000];
   [(-55448137519845860)#10000000000000000; (-3882080458814402)#10000000000000000];
   [(-55448137519845860)#10000000000000000; 3882080458814402#10000000000000000];
   [(-55448137519845860)#10000000000000000; 0#10000000000000000];
   [55448137519845860#10000000000000000; 23371706551408840#10000000000000000];
   [(-55448137519845860)#10000000000000000; 15550785670754994#10000000000000000];
   [(-55448137519845860)#10000000000000000; (-7766397181201957)#10000000000000000];
   [(-55448137519845860)#10000000000000000; (-11655203235633913)#10000000000000000];
   [(-55448137519845860)#10000000000000000; (-15550785670754994)#10000000000000000];
   [(-55448137519845860)#10000000000000000; (-19455483447849033)#10000000000000000];
   [(-55448137519845860)#10000000000000000; (-23371706551408840)#10000000000000000];
   [(-55448137519845860)#10000000000000000; (-27301956753090653)#10000000000000000];
   [55448137519845860#10000000000000000; 27301956753090653#10000000000000000];
   [55448137519845860#10000000000000000; 15550785670754994#10000000000000000];
   [(-55448137519845860)#10000000000000000; 19455483447849033#10000000000000000];
   [(-55448137519845860)#10000000000000000; 23371706551408840#10000000000000000];
   [(-55448137519845860)#10000000000000000; 27301956753090653#10000000000000000];
   [(-55448137519845860)#10000000000000000; 7766397181201957#10000000000000000];
   [(-55448137519845860)#10000000000000000; 11655203235633913#10000000000000000];
   [59601047848812980#10000000000000000; 3882080458814402#10000000000000000];
   [59601047848812980#10000000000000000; (-15550785670754994)#10000000000000000];
   [59601047848812980#10000000000000000; (-7766397181201957)#10000000000000000];
   [59601047848812980#10000000000000000; (-3882080458814402)#10000000000000000];
   [59601047848812980#10000000000000000; 0#10000000000000000];
   [59601047848812980#10000000000000000; 7766397181201957#10000000000000000];
   [59601047848812980#10000000000000000; (-11655203235633913)#10000000000000000];
   [(-59601047848812980)#10000000000000000; (-15550785670754994)#10000000000000000];
   [(-59601047848812980)#10000000000000000; 15550785670754994#10000000000000000];
   [(-59601047848812980)#10000000000000000; 11655203235633913#10000000000000000];
   [(-59601047848812980)#10000000000000000; 7766397181201957#10000000000000000];
   [(-59601047848812980)#10000000000000000; 3882080458814402#10000000000000000];
   [(-59601047848812980)#10000000000000000; 0#10000000000000000];
   [(-59601047848812980)#10000000000000000; (-3882080458814402)#10000000000000000];
   [(-59601047848812980)#10000000000000000; (-7766397181201957)#10000000000000000];
   [(-59601047848812980)#10000000000000000; (-11655203235633913)#10000000000000000];
   [59601047848812980#10000000000000000; 11655203235633913#10000000000000000];
   [59601047848812980#10000000000000000; 15550785670754994#10000000000000000]].
(** stencils/D2Q777.cpp:39-  makeWeights *)
Definition D2Q777_wt : list Q :=
  [2398092469723329300000000#100000000000000000000000000;
   4788226925310768000#100000000000000000000000000;
   35404151622046910000#100000000000000000000000000;
   218818989543305060000#100000000000000000000000000;
   1136523162239264800000#100000000000000000000000000;
   4983526328859412000000#100000000000000000000000000;
   18522095728571976000000#100000000000000000000000000;
   58549590474315590000000#100000000000000000000000000;
   363989495472978640000000#100000000000000000000000000;
   719049392398156750000000#100000000000000000000000000;
   1219027784526768700000000#100000000000000000000000000;
   1775782645700940700000000#100000000000000000000000000;
   2224669854265958300000000#100000000000000000000000000;
   2224669854265958300000000#100000000000000000000000000;
   1775782645700940700000000#100000000000000000000000000;
   1219027784526768700000000#100000000000000000000000000;
   719049392398156750000000#100000000000000000000000000;
   363989495472978640000000#100000000000000000000000000;
   157871070587042970000000#100000000000000000000000000;
   58549590474315590000000#100000000000000000000000000;
   18522095728571976000000#100000000000000000000000000;
   4983526328859412000000#100000000000000000000000000;
   1136523162239264800000#100000000000000000000000000;
   218818989543305060000#100000000000000000000000000;
   35404151622046910000#100000000000000000000000000;
   4788226925310768000#100000000000000000000000000;
   538001317403687500#100000000000000000000000000;
   49866657268216180#100000000000000000000000000;
   538001317403687500#100000000000000000000000000;
   49866657268216180#100000000000000000000000000;
   157871070587042970000000#100000000000000000000000000;
   54315465542850680000000#100000000000000000000000000;
   1054333329356734300000#100000000000000000000000000;
   202994678363712700000#100000000000000000000000000;
   32843833098110640000#100000000000000000000000000;
   4441957193315570000#100000000000000000000000000;
   499094729454465100#100000000000000000000000000;
   46260455156848840#100000000000000000000000000;
   46260455156848840#100000000000000000000000000;
   4441957193315570000#100000000000000000000000000;
   32843833098110640000#100000000000000000000000000;
   202994678363712700000#100000000000000000000000000;
   1054333329356734300000#100000000000000000000000000;
   4623133149253965000000#100000000000000000000000000;
   17182635167498888000000#100000000000000000000000000;
   54315465542850680000000#100000000000000000000000000;
   146454324022045440000000#100000000000000000000000000;
   337666903203959200000000#100000000000000000000000000;
   667049968753284300000000#100000000000000000000000000;
   1130871473051328600000000#100000000000000000000000000;
   1647363548110097000000000#100000000000000000000000000;
   4623133149253965000000#100000000000000000000000000;
   17182635167498888000000#100000000000000000000000000;
   146454324022045440000000#100000000000000000000000000;
   337666903203959200000000#100000000000000000000000000;
   46260455156848840#100000000000000000000000000;
   499094729454465100#100000000000000000000000000;
   4441957193315570000#100000000000000000000000000;
   32843833098110640000#100000000000000000000000000;
   202994678363712700000#100000000000000000000000000;
   1054333329356734300000#100000000000000000000000000;
   4623133149253965000000#100000000000000000000000000;
   17182635167498888000000#100000000000000000000000000;
   54315465542850680000000#100000000000000000000000000;
   2063788624902654400000000#100000000000000000000000000;
   146454324022045440000000#100000000000000000000000000;
   667049968753284300000000#100000000000000000000000000;
   1130871473051328600000000#100000000000000000000000000;
   1647363548110097000000000#100000000000000000000000000;
   2063788624902654400000000#100000000000000000000000000;
   2224669854265958300000000#100000000000000000000000000;
   2063788624902654400000000#100000000000000000000000000;
   1647363548110097000000000#100000000000000000000000000;
   1130871473051328600000000#100000000000000000000000000;
   667049968753284300000000#100000000000000000000000000;
   337666903203959200000000#100000000000000000000000000;
   2224669854265958300000000#100000000000000000000000000;
   499094729454465100#100000000000000000000000000;
   1647363548110097000000000#100000000000000000000000000;
   2063788624902654400000000#100000000000000000000000000;
   499094729454465100#100000000000000000000000000;
   4441957193315570000#100000000000000000000000000;
   32843833098110640000#100000000000000000000000000;
   202994678363712700000#100000000000000000000000000;
   1054333329356734300000#100000000000000000000000000;
   46260455156848840#100000000000000000000000000;
   17182635167498888000000#100000000000000000000000000;
   54315465542850680000000#100000000000000000000000000;
   146454324022045440000000#100000000000000000000000000;
   337666903203959200000000#100000000000000000000000000;
   667049968753284300000000#100000000000000000000000000;
   4623133149253965000000#100000000000000000000000000;
   1130871473051328600000000#100000000000000000000000000;
   532454627393816600000000#100000000000000000000000000;
   269533488570158700000000#100000000000000000000000000;
   116903209924612650000000#100000000000000000000000000;
   43355853867128830000000#100000000000000000000000000;
   13715574596089003000000#100000000000000000000000000;
   162035021204018470000#100000000000000000000000000;
   841593113452579000000#100000000000000000000000000;
   26216702996214780000#100000000000000000000000000;
   3545672397956289000#100000000000000000000000000;
   398388892368247260#100000000000000000000000000;
   902687620148212400000000#100000000000000000000000000;
   3690291213083730000000#100000000000000000000000000;
   1314963473921605800000000#100000000000000000000000000;
   269533488570158700000000#100000000000000000000000000;
   1775782645700940700000000#100000000000000000000000000;
   1647363548110097000000000#100000000000000000000000000;
   1314963473921605800000000#100000000000000000000000000;
   902687620148212400000000#100000000000000000000000000;
   532454627393816600000000#100000000000000000000000000;
   36926159309541286#100000000000000000000000000;
   43355853867128830000000#100000000000000000000000000;
   13715574596089003000000#100000000000000000000000000;
   3690291213083730000000#100000000000000000000000000;
   841593113452579000000#100000000000000000000000000;
   162035021204018470000#100000000000000000000000000;
   26216702996214780000#100000000000000000000000000;
   3545672397956289000#100000000000000000000000000;
   1647363548110097000000000#100000000000000000000000000;
   36926159309541286#100000000000000000000000000;
   43355853867128830000000#100000000000000000000000000;
   3545672397956289000#100000000000000000000000000;
   398388892368247260#100000000000000000000000000;
   36926159309541286#100000000000000000000000000;
   398388892368247260#100000000000000000000000000;
   3545672397956289000#100000000000000000000000000;
   26216702996214780000#100000000000000000000000000;
   162035021204018470000#100000000000000000000000000;
   841593113452579000000#100000000000000000000000000;
   3690291213083730000000#100000000000000000000000000;
   13715574596089003000000#100000000000000000000000000;
   43355853867128830000000#100000000000000000000000000;
   116903209924612650000000#100000000000000000000000000;
   269533488570158700000000#100000000000000000000000000;
   532454627393816600000000#100000000000000000000000000;
   398388892368247260#100000000000000000000000000;
   902687620148212400000000#100000000000000000000000000;
   1647363548110097000000000#100000000000000000000000000;
   1775782645700940700000000#100000000000000000000000000;
   1647363548110097000000000#100000000000000000000000000;
   1314963473921605800000000#100000000000000000000000000;
   902687620148212400000000#100000000000000000000000000;
   532454627393816600000000#100000000000000000000000000;
   269533488570158700000000#100000000000000000000000000;
   116903209924612650000000#100000000000000000000000000;
   13715574596089003000000#100000000000000000000000000;
   3690291213083730000000#100000000000000000000000000;
   841593113452579000000#100000000000000000000000000;
   162035021204018470000#100000000000000000000000000;
   26216702996214780000#100000000000000000000000000;
   1314963473921605800000000#100000000000000000000000000;
   36926159309541286#100000000000000000000000000;
   116903209924612650000000#100000000000000000000000000;
   9415378933823506000000#100000000000000000000000000;
   2434010253677343200#100000000000000000000000000;
   17997072698307126000#100000000000000000000000000;
   111232753283336130000#100000000000000000000000000;
   577731396941390400000#100000000000000000000000000;
   2533287242464506000000#100000000000000000000000000;
   273483429979147100#100000000000000000000000000;
   29762646128941384000000#100000000000000000000000000;
   80250959397239260000000#100000000000000000000000000;
   185027605840667630000000#100000000000000000000000000;
   365516008597271350000000#100000000000000000000000000;
   619671158727122200000000#100000000000000000000000000;
   902687620148212400000000#100000000000000000000000000;
   1130871473051328600000000#100000000000000000000000000;
   1219027784526768700000000#100000000000000000000000000;
   1130871473051328600000000#100000000000000000000000000;
   902687620148212400000000#100000000000000000000000000;
   619671158727122200000000#100000000000000000000000000;
   365516008597271350000000#100000000000000000000000000;
   185027605840667630000000#100000000000000000000000000;
   80250959397239260000000#100000000000000000000000000;
   29762646128941384000000#100000000000000000000000000;
   9415378933823506000000#100000000000000000000000000;
   2533287242464506000000#100000000000000000000000000;
   577731396941390400000#100000000000000000000000000;
   111232753283336130000#100000000000000000000000000;
   17997072698307126000#100000000000000000000000000;
   2434010253677343200#100000000000000000000000000;
   273483429979147100#100000000000000000000000000;
   273483429979147100#100000000000000000000000000;
   25348830997514673#100000000000000000000000000;
   273483429979147100#100000000000000000000000000;
   2434010253677343200#100000000000000000000000000;
   17997072698307126000#100000000000000000000000000;
   111232753283336130000#100000000000000000000000000;
   577731396941390400000#100000000000000000000000000;
   2533287242464506000000#100000000000000000000000000;
   9415378933823506000000#100000000000000000000000000;
   29762646128941384000000#100000000000000000000000000;
   80250959397239260000000#100000000000000000000000000;
   185027605840667630000000#100000000000000000000000000;
   365516008597271350000000#100000000000000000000000000;
   619671158727122200000000#100000000000000000000000000;
   902687620148212400000000#100000000000000000000000000;
   1130871473051328600000000#100000000000000000000000000;
   1219027784526768700000000#100000000000000000000000000;
   1130871473051328600000000#100000000000000000000000000;
   902687620148212400000000#100000000000000000000000000;
   619671158727122200000000#100000000000000000000000000;
   365516008597271350000000#100000000000000000000000000;
   185027605840667630000000#100000000000000000000000000;
   80250959397239260000000#100000000000000000000000000;
   29762646128941384000000#100000000000000000000000000;
   9415378933823506000000#100000000000000000000000000;
   2533287242464506000000#100000000000000000000000000;
   577731396941390400000#100000000000000000000000000;
   111232753283336130000#100000000000000000000000000;
   17997072698307126000#100000000000000000000000000;
   2434010253677343200#100000000000000000000000000;
   25348830997514673#100000000000000000000000000;
   25348830997514673#100000000000000000000000000;
   25348830997514673#100000000000000000000000000;
   65611173656887720000#100000000000000000000000000;
   5553706476175508000000#100000000000000000000000000;
   1494271644654302400000#100000000000000000000000000;
   340777638715849150000#100000000000000000000000000;
   10615659751911937000#100000000000000000000000000;
   1435712636096314500#100000000000000000000000000;
   14952129687382232#100000000000000000000000000;
   1435712636096314500#100000000000000000000000000;
   10615659751911937000#100000000000000000000000000;
   65611173656887720000#100000000000000000000000000;
   340777638715849150000#100000000000000000000000000;
   1494271644654302400000#100000000000000000000000000;
   5553706476175508000000#100000000000000000000000000;
   17555639737517988000000#100000000000000000000000000;
   47336413760540430000000#100000000000000000000000000;
   109139421796088030000000#100000000000000000000000000;
   215601372856072130000000#100000000000000000000000000;
   365516008597271350000000#100000000000000000000000000;
   532454627393816600000000#100000000000000000000000000;
   667049968753284300000000#100000000000000000000000000;
   17555639737517988000000#100000000000000000000000000;
   719049392398156750000000#100000000000000000000000000;
   47336413760540430000000#100000000000000000000000000;
   215601372856072130000000#100000000000000000000000000;
   14952129687382232#100000000000000000000000000;
   161315514423495370#100000000000000000000000000;
   1435712636096314500#100000000000000000000000000;
   10615659751911937000#100000000000000000000000000;
   65611173656887720000#100000000000000000000000000;
   340777638715849150000#100000000000000000000000000;
   1494271644654302400000#100000000000000000000000000;
   5553706476175508000000#100000000000000000000000000;
   17555639737517988000000#100000000000000000000000000;
   47336413760540430000000#100000000000000000000000000;
   109139421796088030000000#100000000000000000000000000;
   215601372856072130000000#100000000000000000000000000;
   365516008597271350000000#100000000000000000000000000;
   532454627393816600000000#100000000000000000000000000;
   667049968753284300000000#100000000000000000000000000;
   719049392398156750000000#100000000000000000000000000;
   667049968753284300000000#100000000000000000000000000;
   532454627393816600000000#100000000000000000000000000;
   365516008597271350000000#100000000000000000000000000;
   109139421796088030000000#100000000000000000000000000;
   667049968753284300000000#100000000000000000000000000;
   161315514423495370#100000000000000000000000000;
   365516008597271350000000#100000000000000000000000000;
   532454627393816600000000#100000000000000000000000000;
   14952129687382232#100000000000000000000000000;
   14952129687382232#100000000000000000000000000;
   161315514423495370#100000000000000000000000000;
   1435712636096314500#100000000000000000000000000;
   10615659751911937000#100000000000000000000000000;
   65611173656887720000#100000000000000000000000000;
   161315514423495370#100000000000000000000000000;
   1494271644654302400000#100000000000000000000000000;
   5553706476175508000000#100000000000000000000000000;
   17555639737517988000000#100000000000000000000000000;
   47336413760540430000000#100000000000000000000000000;
   340777638715849150000#100000000000000000000000000;
   215601372856072130000000#100000000000000000000000000;
   109139421796088030000000#100000000000000000000000000;
   109139421796088030000000#100000000000000000000000000;
   55247391202541430000000#100000000000000000000000000;
   23962133261436075000000#100000000000000000000000000;
   8886828246182839000000#100000000000000000000000000;
   172504812737496830000#100000000000000000000000000;
   756414215473150700000#100000000000000000000000000;
   185027605840667630000000#100000000000000000000000000;
   33212986825718040000#100000000000000000000000000;
   5373745778887520500#100000000000000000000000000;
   726771100263316550#100000000000000000000000000;
   81659414954986620#100000000000000000000000000;
   2811337913138495800000#100000000000000000000000000;
   269533488570158700000000#100000000000000000000000000;
   337666903203959200000000#100000000000000000000000000;
   363989495472978640000000#100000000000000000000000000;
   269533488570158700000000#100000000000000000000000000;
   185027605840667630000000#100000000000000000000000000;
   109139421796088030000000#100000000000000000000000000;
   23962133261436075000000#100000000000000000000000000;
   8886828246182839000000#100000000000000000000000000;
   2811337913138495800000#100000000000000000000000000;
   756414215473150700000#100000000000000000000000000;
   172504812737496830000#100000000000000000000000000;
   33212986825718040000#100000000000000000000000000;
   5373745778887520500#100000000000000000000000000;
   726771100263316550#100000000000000000000000000;
   81659414954986620#100000000000000000000000000;
   337666903203959200000000#100000000000000000000000000;
   55247391202541430000000#100000000000000000000000000;
   756414215473150700000#100000000000000000000000000;
   726771100263316550#100000000000000000000000000;
   81659414954986620#100000000000000000000000000;
   726771100263316550#100000000000000000000000000;
   5373745778887520500#100000000000000000000000000;
   33212986825718040000#100000000000000000000000000;
   172504812737496830000#100000000000000000000000000;
   756414215473150700000#100000000000000000000000000;
   2811337913138495800000#100000000000000000000000000;
   8886828246182839000000#100000000000000000000000000;
   23962133261436075000000#100000000000000000000000000;
   55247391202541430000000#100000000000000000000000000;
   109139421796088030000000#100000000000000000000000000;
   81659414954986620#100000000000000000000000000;
   269533488570158700000000#100000000000000000000000000;
   185027605840667630000000#100000000000000000000000000;
   363989495472978640000000#100000000000000000000000000;
   5373745778887520500#100000000000000000000000000;
   33212986825718040000#100000000000000000000000000;
   172504812737496830000#100000000000000000000000000;
   2811337913138495800000#100000000000000000000000000;
   337666903203959200000000#100000000000000000000000000;
   8886828246182839000000#100000000000000000000000000;
   55247391202541430000000#100000000000000000000000000;
   109139421796088030000000#100000000000000000000000000;
   185027605840667630000000#100000000000000000000000000;
   269533488570158700000000#100000000000000000000000000;
   337666903203959200000000#100000000000000000000000000;
   23962133261436075000000#100000000000000000000000000;
   3854432907534856300000#100000000000000000000000000;
   328075187578784300000#100000000000000000000000000;
   1219345425209025000000#100000000000000000000000000;
   74819520362525740000#100000000000000000000000000;
   2330723852547430000#100000000000000000000000000;
   2330723852547430000#100000000000000000000000000;
   315218249694820040#100000000000000000000000000;
   35417668429424116#100000000000000000000000000;
   10392958254514071000000#100000000000000000000000000;
   14405277769777599000#100000000000000000000000000;
   23962133261436075000000#100000000000000000000000000;
   328075187578784300000#100000000000000000000000000;
   80250959397239260000000#100000000000000000000000000;
   47336413760540430000000#100000000000000000000000000;
   80250959397239260000000#100000000000000000000000000;
   116903209924612650000000#100000000000000000000000000;
   146454324022045440000000#100000000000000000000000000;
   157871070587042970000000#100000000000000000000000000;
   146454324022045440000000#100000000000000000000000000;
   116903209924612650000000#100000000000000000000000000;
   80250959397239260000000#100000000000000000000000000;
   47336413760540430000000#100000000000000000000000000;
   23962133261436075000000#100000000000000000000000000;
   315218249694820040#100000000000000000000000000;
   47336413760540430000000#100000000000000000000000000;
   10392958254514071000000#100000000000000000000000000;
   3854432907534856300000#100000000000000000000000000;
   35417668429424116#100000000000000000000000000;
   315218249694820040#100000000000000000000000000;
   2330723852547430000#100000000000000000000000000;
   14405277769777599000#100000000000000000000000000;
   74819520362525740000#100000000000000000000000000;
   328075187578784300000#100000000000000000000000000;
   10392958254514071000000#100000000000000000000000000;
   23962133261436075000000#100000000000000000000000000;
   1219345425209025000000#100000000000000000000000000;
   116903209924612650000000#100000000000000000000000000;
   146454324022045440000000#100000000000000000000000000;
   157871070587042970000000#100000000000000000000000000;
   146454324022045440000000#100000000000000000000000000;
   116903209924612650000000#100000000000000000000000000;
   80250959397239260000000#100000000000000000000000000;
   47336413760540430000000#100000000000000000000000000;
   23962133261436075000000#100000000000000000000000000;
   10392958254514071000000#100000000000000000000000000;
   3854432907534856300000#100000000000000000000000000;
   1219345425209025000000#100000000000000000000000000;
   1219345425209025000000#100000000000000000000000000;
   14405277769777599000#100000000000000000000000000;
   74819520362525740000#100000000000000000000000000;
   14405277769777599000#100000000000000000000000000;
   2330723852547430000#100000000000000000000000000;
   315218249694820040#100000000000000000000000000;
   35417668429424116#100000000000000000000000000;
   35417668429424116#100000000000000000000000000;
   74819520362525740000#100000000000000000000000000;
   328075187578784300000#100000000000000000000000000;
   3854432907534856300000#100000000000000000000000000;
   8886828246182839000000#100000000000000000000000000;
   17555639737517988000000#100000000000000000000000000;
   3854432907534856300000#100000000000000000000000000;
   43355853867128830000000#100000000000000000000000000;
   43355853867128830000000#100000000000000000000000000;
   452218224828951100000#100000000000000000000000000;
   1429492226838761500000#100000000000000000000000000;
   3854432907534856300000#100000000000000000000000000;
   8886828246182839000000#100000000000000000000000000;
   17555639737517988000000#100000000000000000000000000;
   29762646128941384000000#100000000000000000000000000;
   13135338693700308#100000000000000000000000000;
   116904885493169060#100000000000000000000000000;
   864394765728351900#100000000000000000000000000;
   5342480487102386000#100000000000000000000000000;
   27748290173881510000#100000000000000000000000000;
   121673133691275620000#100000000000000000000000000;
   452218224828951100000#100000000000000000000000000;
   1429492226838761500000#100000000000000000000000000;
   3854432907534856300000#100000000000000000000000000;
   8886828246182839000000#100000000000000000000000000;
   17555639737517988000000#100000000000000000000000000;
   29762646128941384000000#100000000000000000000000000;
   54315465542850680000000#100000000000000000000000000;
   58549590474315590000000#100000000000000000000000000;
   54315465542850680000000#100000000000000000000000000;
   29762646128941384000000#100000000000000000000000000;
   1429492226838761500000#100000000000000000000000000;
   13135338693700308#100000000000000000000000000;
   5342480487102386000#100000000000000000000000000;
   13135338693700308#100000000000000000000000000;
   116904885493169060#100000000000000000000000000;
   864394765728351900#100000000000000000000000000;
   5342480487102386000#100000000000000000000000000;
   27748290173881510000#100000000000000000000000000;
   121673133691275620000#100000000000000000000000000;
   452218224828951100000#100000000000000000000000000;
   1429492226838761500000#100000000000000000000000000;
   121673133691275620000#100000000000000000000000000;
   3854432907534856300000#100000000000000000000000000;
   8886828246182839000000#100000000000000000000000000;
   17555639737517988000000#100000000000000000000000000;
   452218224828951100000#100000000000000000000000000;
   29762646128941384000000#100000000000000000000000000;
   54315465542850680000000#100000000000000000000000000;
   58549590474315590000000#100000000000000000000000000;
   54315465542850680000000#100000000000000000000000000;
   43355853867128830000000#100000000000000000000000000;
   121673133691275620000#100000000000000000000000000;
   27748290173881510000#100000000000000000000000000;
   5342480487102386000#100000000000000000000000000;
   864394765728351900#100000000000000000000000000;
   116904885493169060#100000000000000000000000000;
   13135338693700308#100000000000000000000000000;
   116904885493169060#100000000000000000000000000;
   864394765728351900#100000000000000000000000000;
   43355853867128830000000#100000000000000000000000000;
   27748290173881510000#100000000000000000000000000;
   452218224828951100000#100000000000000000000000000;
   1219345425209025000000#100000000000000000000000000;
   1690087568649129000#100000000000000000000000000;
   8778139740025811000#100000000000000000000000000;
   38491156156143665000#100000000000000000000000000;
   143058716254575620000#100000000000000000000000000;
   452218224828951100000#100000000000000000000000000;
   1219345425209025000000#100000000000000000000000000;
   2811337913138495800000#100000000000000000000000000;
   9415378933823506000000#100000000000000000000000000;
   13715574596089003000000#100000000000000000000000000;
   17182635167498888000000#100000000000000000000000000;
   273450291767975530#100000000000000000000000000;
   18522095728571976000000#100000000000000000000000000;
   13715574596089003000000#100000000000000000000000000;
   9415378933823506000000#100000000000000000000000000;
   5553706476175508000000#100000000000000000000000000;
   2811337913138495800000#100000000000000000000000000;
   1219345425209025000000#100000000000000000000000000;
   452218224828951100000#100000000000000000000000000;
   143058716254575620000#100000000000000000000000000;
   38491156156143665000#100000000000000000000000000;
   8778139740025811000#100000000000000000000000000;
   1690087568649129000#100000000000000000000000000;
   17182635167498888000000#100000000000000000000000000;
   36982726312869807#100000000000000000000000000;
   36982726312869807#100000000000000000000000000;
   273450291767975530#100000000000000000000000000;
   143058716254575620000#100000000000000000000000000;
   38491156156143665000#100000000000000000000000000;
   8778139740025811000#100000000000000000000000000;
   1690087568649129000#100000000000000000000000000;
   273450291767975530#100000000000000000000000000;
   36982726312869807#100000000000000000000000000;
   2811337913138495800000#100000000000000000000000000;
   5553706476175508000000#100000000000000000000000000;
   9415378933823506000000#100000000000000000000000000;
   13715574596089003000000#100000000000000000000000000;
   17182635167498888000000#100000000000000000000000000;
   18522095728571976000000#100000000000000000000000000;
   17182635167498888000000#100000000000000000000000000;
   13715574596089003000000#100000000000000000000000000;
   9415378933823506000000#100000000000000000000000000;
   5553706476175508000000#100000000000000000000000000;
   2811337913138495800000#100000000000000000000000000;
   1219345425209025000000#100000000000000000000000000;
   452218224828951100000#100000000000000000000000000;
   143058716254575620000#100000000000000000000000000;
   38491156156143665000#100000000000000000000000000;
   8778139740025811000#100000000000000000000000000;
   1690087568649129000#100000000000000000000000000;
   273450291767975530#100000000000000000000000000;
   36982726312869807#100000000000000000000000000;
   5553706476175508000000#100000000000000000000000000;
   121673133691275620000#100000000000000000000000000;
   121673133691275620000#100000000000000000000000000;
   38491156156143665000#100000000000000000000000000;
   10356370733819231000#100000000000000000000000000;
   2361832654030802800#100000000000000000000000000;
   454732338060877300#100000000000000000000000000;
   73574111084947950#100000000000000000000000000;
   2533287242464506000000#100000000000000000000000000;
   1494271644654302400000#100000000000000000000000000;
   328075187578784300000#100000000000000000000000000;
   756414215473150700000#100000000000000000000000000;
   328075187578784300000#100000000000000000000000000;
   121673133691275620000#100000000000000000000000000;
   38491156156143665000#100000000000000000000000000;
   10356370733819231000#100000000000000000000000000;
   2361832654030802800#100000000000000000000000000;
   454732338060877300#100000000000000000000000000;
   73574111084947950#100000000000000000000000000;
   73574111084947950#100000000000000000000000000;
   38491156156143665000#100000000000000000000000000;
   10356370733819231000#100000000000000000000000000;
   73574111084947950#100000000000000000000000000;
   328075187578784300000#100000000000000000000000000;
   3690291213083730000000#100000000000000000000000000;
   756414215473150700000#100000000000000000000000000;
   1494271644654302400000#100000000000000000000000000;
   756414215473150700000#100000000000000000000000000;
   1494271644654302400000#100000000000000000000000000;
   2533287242464506000000#100000000000000000000000000;
   3690291213083730000000#100000000000000000000000000;
   4623133149253965000000#100000000000000000000000000;
   4983526328859412000000#100000000000000000000000000;
   4623133149253965000000#100000000000000000000000000;
   454732338060877300#100000000000000000000000000;
   2361832654030802800#100000000000000000000000000;
   10356370733819231000#100000000000000000000000000;
   454732338060877300#100000000000000000000000000;
   38491156156143665000#100000000000000000000000000;
   328075187578784300000#100000000000000000000000000;
   756414215473150700000#100000000000000000000000000;
   1494271644654302400000#100000000000000000000000000;
   2533287242464506000000#100000000000000000000000000;
   3690291213083730000000#100000000000000000000000000;
   4623133149253965000000#100000000000000000000000000;
   4983526328859412000000#100000000000000000000000000;
   4623133149253965000000#100000000000000000000000000;
   3690291213083730000000#100000000000000000000000000;
   2533287242464506000000#100000000000000000000000000;
   121673133691275620000#100000000000000000000000000;
   2361832654030802800#100000000000000000000000000;
   103704445551446840#100000000000000000000000000;
   2361832654030802800#100000000000000000000000000;
   74819520362525740000#100000000000000000000000000;
   27748290173881510000#100000000000000000000000000;
   8778139740025811000#100000000000000000000000000;
   2361832654030802800#100000000000000000000000000;
   538630146507804000#100000000000000000000000000;
   103704445551446840#100000000000000000000000000;
   16779018685017350#100000000000000000000000000;
   577731396941390400000#100000000000000000000000000;
   538630146507804000#100000000000000000000000000;
   841593113452579000000#100000000000000000000000000;
   1054333329356734300000#100000000000000000000000000;
   841593113452579000000#100000000000000000000000000;
   577731396941390400000#100000000000000000000000000;
   340777638715849150000#100000000000000000000000000;
   172504812737496830000#100000000000000000000000000;
   74819520362525740000#100000000000000000000000000;
   27748290173881510000#100000000000000000000000000;
   8778139740025811000#100000000000000000000000000;
   1054333329356734300000#100000000000000000000000000;
   1136523162239264800000#100000000000000000000000000;
   16779018685017350#100000000000000000000000000;
   103704445551446840#100000000000000000000000000;
   538630146507804000#100000000000000000000000000;
   2361832654030802800#100000000000000000000000000;
   8778139740025811000#100000000000000000000000000;
   27748290173881510000#100000000000000000000000000;
   74819520362525740000#100000000000000000000000000;
   172504812737496830000#100000000000000000000000000;
   340777638715849150000#100000000000000000000000000;
   340777638715849150000#100000000000000000000000000;
   16779018685017350#100000000000000000000000000;
   16779018685017350#100000000000000000000000000;
   577731396941390400000#100000000000000000000000000;
   841593113452579000000#100000000000000000000000000;
   103704445551446840#100000000000000000000000000;
   1136523162239264800000#100000000000000000000000000;
   538630146507804000#100000000000000000000000000;
   2361832654030802800#100000000000000000000000000;
   8778139740025811000#100000000000000000000000000;
   27748290173881510000#100000000000000000000000000;
   74819520362525740000#100000000000000000000000000;
   172504812737496830000#100000000000000000000000000;
   1054333329356734300000#100000000000000000000000000;
   340777638715849150000#100000000000000000000000000;
   577731396941390400000#100000000000000000000000000;
   841593113452579000000#100000000000000000000000000;
   1054333329356734300000#100000000000000000000000000;
   172504812737496830000#100000000000000000000000000;
   103704445551446840#100000000000000000000000000;
   454732338060877300#100000000000000000000000000;
   1690087568649129000#100000000000000000000000000;
   19966598781854822#100000000000000000000000000;
   14405277769777599000#100000000000000000000000000;
   65611173656887720000#100000000000000000000000000;
   103704445551446840#100000000000000000000000000;
   454732338060877300#100000000000000000000000000;
   1690087568649129000#100000000000000000000000000;
   5342480487102386000#100000000000000000000000000;
   14405277769777599000#100000000000000000000000000;
   33212986825718040000#100000000000000000000000000;
   65611173656887720000#100000000000000000000000000;
   111232753283336130000#100000000000000000000000000;
   162035021204018470000#100000000000000000000000000;
   202994678363712700000#100000000000000000000000000;
   19966598781854822#100000000000000000000000000;
   33212986825718040000#100000000000000000000000000;
   162035021204018470000#100000000000000000000000000;
   111232753283336130000#100000000000000000000000000;
   65611173656887720000#100000000000000000000000000;
   33212986825718040000#100000000000000000000000000;
   14405277769777599000#100000000000000000000000000;
   5342480487102386000#100000000000000000000000000;
   1690087568649129000#100000000000000000000000000;
   454732338060877300#100000000000000000000000000;
   103704445551446840#100000000000000000000000000;
   19966598781854822#100000000000000000000000000;
   202994678363712700000#100000000000000000000000000;
   5342480487102386000#100000000000000000000000000;
   218818989543305060000#100000000000000000000000000;
   5342480487102386000#100000000000000000000000000;
   14405277769777599000#100000000000000000000000000;
   111232753283336130000#100000000000000000000000000;
   1690087568649129000#100000000000000000000000000;
   454732338060877300#100000000000000000000000000;
   103704445551446840#100000000000000000000000000;
   19966598781854822#100000000000000000000000000;
   162035021204018470000#100000000000000000000000000;
   202994678363712700000#100000000000000000000000000;
   33212986825718040000#100000000000000000000000000;
   218818989543305060000#100000000000000000000000000;
   162035021204018470000#100000000000000000000000000;
   111232753283336130000#100000000000000000000000000;
   202994678363712700000#100000000000000000000000000;
   65611173656887720000#100000000000000000000000000;
   5373745778887520500#100000000000000000000000000;
   10615659751911937000#100000000000000000000000000;
   17997072698307126000#100000000000000000000000000;
   26216702996214780000#100000000000000000000000000;
   32843833098110640000#100000000000000000000000000;
   35404151622046910000#100000000000000000000000000;
   35404151622046910000#100000000000000000000000000;
   2330723852547430000#100000000000000000000000000;
   864394765728351900#100000000000000000000000000;
   273450291767975530#100000000000000000000000000;
   73574111084947950#100000000000000000000000000;
   16779018685017350#100000000000000000000000000;
   10615659751911937000#100000000000000000000000000;
   5373745778887520500#100000000000000000000000000;
   2330723852547430000#100000000000000000000000000;
   864394765728351900#100000000000000000000000000;
   273450291767975530#100000000000000000000000000;
   73574111084947950#100000000000000000000000000;
   16779018685017350#100000000000000000000000000;
   32843833098110640000#100000000000000000000000000;
   26216702996214780000#100000000000000000000000000;
   73574111084947950#100000000000000000000000000;
   10615659751911937000#100000000000000000000000000;
   32843833098110640000#100000000000000000000000000;
   26216702996214780000#100000000000000000000000000;
   17997072698307126000#100000000000000000000000000;
   26216702996214780000#100000000000000000000000000;
   17997072698307126000#100000000000000000000000000;
   10615659751911937000#100000000000000000000000000;
   5373745778887520500#100000000000000000000000000;
   17997072698307126000#100000000000000000000000000;
   864394765728351900#100000000000000000000000000;
   2330723852547430000#100000000000000000000000000;
   73574111084947950#100000000000000000000000000;
   16779018685017350#100000000000000000000000000;
   16779018685017350#100000000000000000000000000;
   32843833098110640000#100000000000000000000000000;
   273450291767975530#100000000000000000000000000;
   864394765728351900#100000000000000000000000000;
   2330723852547430000#100000000000000000000000000;
   5373745778887520500#100000000000000000000000000;
   273450291767975530#100000000000000000000000000;
   36982726312869807#100000000000000000000000000;
   116904885493169060#100000000000000000000000000;
   4441957193315570000#100000000000000000000000000;
   726771100263316550#100000000000000000000000000;
   2434010253677343200#100000000000000000000000000;
   726771100263316550#100000000000000000000000000;
   315218249694820040#100000000000000000000000000;
   116904885493169060#100000000000000000000000000;
   36982726312869807#100000000000000000000000000;
   36982726312869807#100000000000000000000000000;
   116904885493169060#100000000000000000000000000;
   315218249694820040#100000000000000000000000000;
   1435712636096314500#100000000000000000000000000;
   726771100263316550#100000000000000000000000000;
   1435712636096314500#100000000000000000000000000;
   315218249694820040#100000000000000000000000000;
   2434010253677343200#100000000000000000000000000;
   3545672397956289000#100000000000000000000000000;
   4441957193315570000#100000000000000000000000000;
   4788226925310768000#100000000000000000000000000;
   36982726312869807#100000000000000000000000000;
   116904885493169060#100000000000000000000000000;
   315218249694820040#100000000000000000000000000;
   726771100263316550#100000000000000000000000000;
   1435712636096314500#100000000000000000000000000;
   2434010253677343200#100000000000000000000000000;
   3545672397956289000#100000000000000000000000000;
   4441957193315570000#100000000000000000000000000;
   3545672397956289000#100000000000000000000000000;
   4788226925310768000#100000000000000000000000000;
   4441957193315570000#100000000000000000000000000;
   3545672397956289000#100000000000000000000000000;
   1435712636096314500#100000000000000000000000000;
   2434010253677343200#100000000000000000000000000;
   538001317403687500#100000000000000000000000000;
   398388892368247260#100000000000000000000000000;
   499094729454465100#100000000000000000000000000;
   499094729454465100#100000000000000000000000000;
   398388892368247260#100000000000000000000000000;
   161315514423495370#100000000000000000000000000;
   81659414954986620#100000000000000000000000000;
   35417668429424116#100000000000000000000000000;
   13135338693700308#100000000000000000000000000;
   273483429979147100#100000000000000000000000000;
   273483429979147100#100000000000000000000000000;
   81659414954986620#100000000000000000000000000;
   499094729454465100#100000000000000000000000000;
   499094729454465100#100000000000000000000000000;
   538001317403687500#100000000000000000000000000;
   35417668429424116#100000000000000000000000000;
   161315514423495370#100000000000000000000000000;
   398388892368247260#100000000000000000000000000;
   273483429979147100#100000000000000000000000000;
   161315514423495370#100000000000000000000000000;
   81659414954986620#100000000000000000000000000;
   35417668429424116#100000000000000000000000000;
   13135338693700308#100000000000000000000000000;
   13135338693700308#100000000000000000000000000;
   161315514423495370#100000000000000000000000000;
   81659414954986620#100000000000000000000000000;
   35417668429424116#100000000000000000000000000;
   13135338693700308#100000000000000000000000000;
   398388892368247260#100000000000000000000000000;
   273483429979147100#100000000000000000000000000;
   46260455156848840#100000000000000000000000000;
   14952129687382232#100000000000000000000000000;
   36926159309541286#100000000000000000000000000;
   46260455156848840#100000000000000000000000000;
   49866657268216180#100000000000000000000000000;
   36926159309541286#100000000000000000000000000;
   25348830997514673#100000000000000000000000000;
   14952129687382232#100000000000000000000000000;
   14952129687382232#100000000000000000000000000;
   25348830997514673#100000000000000000000000000;
   36926159309541286#100000000000000000000000000;
   46260455156848840#100000000000000000000000000;
   49866657268216180#100000000000000000000000000;
   46260455156848840#100000000000000000000000000;
   36926159309541286#100000000000000000000000000;
   25348830997514673#100000000000000000000000000;
   25348830997514673#100000000000000000000000000;
   14952129687382232#100000000000000000000000000].
(** stencils/D2Q9.h:67-  getIndexOfOppositeDirection (default: return 0) *)
Definition D2Q9_opp : list nat :=
  [0;3;4;1;2;7;8;5;6]%nat.
(** stencils/D3Q15.h:89-  getIndexOfOppositeDirection (default: return 0) *)
Definition D3Q15_opp : list nat :=
  [0;2;1;4;3;6;5;8;7;10;9;12;11;14;13]%nat.
(** stencils/D3Q19.h:90-  getIndexOfOppositeDirection (default: return 0) *)
Definition D3Q19_opp : list nat :=
  [0;3;4;1;2;6;5;9;10;7;8;13;14;11;12;17;18;15;16]%nat.
(** stencils/D3Q27.h:99-  getIndexOfOppositeDirection (default: return 0) *)
Definition D3Q27_opp : list nat :=
  [0;2;1;4;3;6;5;8;7;10;9;12;11;14;13;16;15;18;17;20;19;22;21;24;23;26;25]%nat.
(** stencils/RD3Q27.h:99-  getIndexOfOppositeDirection (default: return 0) *)
Definition RD3Q27_opp : list nat :=
  [0;2;1;4;3;6;5;8;7;10;9;12;11;14;13;16;15;18;17;20;19;22;21;24;23;26;25]%nat.
(** stencils/D3V27.h:66-  getIndexOfOppositeDirection (default: return 0) *)
Definition D3V27_opp : list nat :=
  [0;2;1;4;3;6;5;8;7;10;9;12;11;14;13;16;15;18;17;20;19;22;21;24;23;26;25]%nat.
(** stencils/D2Q19V.h:68-  getIndexOfOppositeDirection (default: return 0) *)
Definition D2Q19V_opp : list nat :=
  [0;4;3;2;1;8;7;6;5;12;11;10;9;14;13;16;15;18;17]%nat.
(** stencils/D2Q19H.h:67-  getIndexOfOppositeDirection (default: return 0) *)
Definition D2Q19H_opp : list nat :=
  [0;4;3;2;1;8;7;6;5;12;11;10;9;14;13;16;15;18;17]%nat.
(** stencils/D3Q45.h:67-  getIndexOfOppositeDirection (default: return 0) *)
Definition D3Q45_opp : list nat :=
  [0;12;11;10;9;8;7;6;5;4;3;2;1;32;31;30;29;28;27;26;25;24;23;22;21;20;19;18;17;16;15;14;13;44;43;42;41;40;39;38;37;36;35;34;33]%nat.
(** stencils/D3Q77.h:67-  getIndexOfOppositeDirection (default: return 0) *)
Definition D3Q77_opp : list nat :=
  [0;2;1;4;3;6;5;8;7;10;9;12;11;16;15;14;13;20;19;18;17;24;23;22;21;28;27;26;25;32;31;30;29;36;35;34;33;40;39;38;37;44;43;42;41;48;47;46;45;52;51;50;49;56;55;54;53;60;59;58;57;68;67;66;65;64;63;62;61;76;75;74;73;72;71;70;69]%nat.
(** stencils/D2Q777.h:67-  getIndexOfOppositeDirection (no default case) *)
Definition D2Q777_opp : list nat :=
  [0;25;24;23;22;21;20;19;17;16;15;14;13;12;11;10;9;8;30;7;6;5;4;3;2;1;28;29;26;27;18;45;42;41;40;39;77;38;37;35;34;33;32;51;52;31;53;54;74;73;72;43;44;46;47;85;80;81;82;83;84;91;86;87;71;88;90;92;78;79;76;64;50;49;48;89;70;36;68;69;56;57;58;59;60;55;62;63;65;75;66;61;67;136;135;134;133;132;129;130;128;127;126;138;131;152;145;140;141;142;143;144;125;122;147;148;149;150;151;123;139;153;113;119;137;112;102;101;100;98;99;104;97;96;95;94;93;124;103;120;107;108;109;110;111;106;154;114;115;116;117;118;105;121;146;192;187;188;189;190;191;183;193;194;195;196;197;198;199;200;201;202;203;204;205;206;207;208;209;210;211;212;213;161;186;216;184;156;157;158;159;160;155;162;163;164;165;166;167;168;169;170;171;172;173;174;175;176;177;178;179;180;181;182;215;214;185;226;229;228;227;225;224;265;222;221;217;220;219;218;237;239;260;240;259;258;257;230;256;231;233;266;267;268;269;270;276;272;273;274;275;278;277;263;264;261;238;236;235;234;232;255;271;253;254;223;241;242;243;244;245;262;247;248;249;250;246;252;251;320;319;318;317;314;315;323;313;312;311;310;316;322;335;324;334;333;332;336;330;328;308;327;326;325;309;321;329;331;300;304;289;288;287;286;283;284;290;282;281;280;279;305;291;285;293;303;302;301;299;306;298;307;296;295;294;292;297;382;393;372;392;342;341;360;391;370;385;371;369;351;361;349;373;374;375;376;377;378;379;380;343;350;381;394;390;389;388;387;386;348;345;347;339;352;353;354;355;356;357;358;359;362;337;384;383;346;368;367;366;365;364;344;340;338;363;435;436;434;442;451;412;413;414;415;416;417;423;449;450;424;452;433;400;401;402;403;404;405;441;440;439;438;432;406;409;448;447;446;445;444;443;437;422;411;397;395;396;431;421;420;419;418;398;430;429;428;427;426;425;407;408;399;410;472;471;503;502;501;500;499;498;497;495;494;493;480;492;490;489;488;487;454;453;481;482;483;484;491;479;478;465;473;474;475;476;504;505;470;469;468;467;477;466;464;463;462;506;461;460;459;458;457;456;455;485;486;496;555;519;520;521;522;523;525;554;532;545;531;529;508;509;510;511;512;528;513;544;542;524;518;553;517;515;546;547;548;549;550;551;552;543;556;527;540;526;516;533;534;535;536;537;538;539;530;514;507;541;564;596;585;584;583;582;581;557;590;591;595;592;605;604;603;602;600;599;598;597;601;594;589;593;563;562;561;560;559;606;588;587;579;565;566;568;580;578;567;558;576;575;574;573;577;572;571;570;569;586;613;614;615;623;617;619;607;608;609;636;611;624;612;650;649;651;610;618;645;640;652;647;639;638;641;642;643;644;646;616;648;630;629;626;631;632;633;634;625;635;628;637;621;620;622;627;666;665;678;677;676;659;658;667;668;669;670;671;654;653;660;661;662;663;664;689;679;686;681;657;656;655;673;683;675;693;680;691;692;674;688;687;672;694;684;685;682;690;704;705;722;708;711;718;717;716;715;695;696;710;709;698;707;706;699;726;725;724;703;702;701;700;727;728;723;697;721;714;713;712;719;720;743;746;741;742;757;745;754;755;756;747;758;749;731;732;729;750;734;730;738;753;740;744;752;751;748;735;736;737;733;739;772;767;769;770;771;773;768;776;760;765;761;762;763;759;764;775;774;766]%nat.
(** stencils/D2Q25H.h:67-  getIndexOfOppositeDirection (default: return 0) *)
Definition D2Q25H_opp : list nat :=
  [0;3;4;1;2;7;8;5;6;11;12;9;10;15;16;13;14;19;20;17;18;23;24;21;22]%nat.
(** stencils/D3Q13.h:93-  getIndexOfOppositeDirection (default: return 0) *)
Definition D3Q13_opp : list nat :=
  [0;2;1;4;3;6;5;8;7;10;9;12;11]%nat.
(** stencils/D3Q21.h:68-  getIndexOfOppositeDirection (default: return 0) *)
Definition D3Q21_opp : list nat :=
  [0;2;1;4;3;6;5;8;7;10;9;12;11;14;13;16;15;18;17;20;19]%nat.
