(** Generated by tools/gen_cavity.py from analysis/cavity-convergence/CompareToGhia.cpp and CompareToBotella.cpp:
    positions and reference velocities in units of 10^-7. *)
From Coq Require Import ZArith List.
Import ListNotations.
Local Open Scope Z_scope.

(** CompareToGhia.cpp, constructor: m_x. *)
Definition ghia_x : list Z := [10000000; 9688000; 9609000; 9531000; 9453000; 9063000; 8594000; 8047000; 5000000; 2344000; 2266000; 1563000; 938000; 781000; 703000; 625000; 0].
(** CompareToGhia.cpp, constructor: m_y. *)
Definition ghia_y : list Z := [10000000; 9766000; 9688000; 9609000; 9531000; 8516000; 7344000; 6172000; 5000000; 4531000; 2813000; 1719000; 1016000; 703000; 625000; 547000; 0].
(** CompareToGhia.cpp, makeReferenceU: the cases of the switch. *)
Definition ghia_u : list (Z * list Z) :=
  [(100, [10000000; 8412300; 7887100; 7372200; 6871700; 2315100; 33200; (-1364100); (-2058100); (-2109000); (-1566200); (-1015000); (-643400); (-477500); (-419200); (-371700); 0]);
   (400, [10000000; 7583700; 6843900; 6175600; 5589200; 2909300; 1625600; 213500; (-1147700); (-1711900); (-3272600); (-2429900); (-1461200); (-1033800); (-926600); (-818600); 0]);
   (1000, [10000000; 6592800; 5749200; 5111700; 4660400; 3330400; 1871900; 570200; (-608000); (-1064800); (-2780500); (-3828900); (-2973000); (-2222000); (-2019600); (-1810900); 0]);
   (3200, [10000000; 5323600; 4829600; 4654700; 4610100; 3468200; 1979100; 715600; (-427200); (-8663600); (-2442700); (-3432300); (-4193300); (-3782700); (-3534400); (-3240700); 0]);
   (5000, [10000000; 4822300; 4612000; 4599200; 4603600; 3355600; 2008700; 818300; (-303900); (-740400); (-2285500); (-3305000); (-4043500); (-4364300); (-4290100); (-4116500); 0]);
   (7500, [10000000; 4724400; 4704800; 4732300; 4716700; 3422800; 2059100; 834200; (-380000); (-750300); (-2317600); (-3239300); (-3832400); (-4302500); (-4359000); (-4315400); 0]);
   (10000, [10000000; 4722100; 4778300; 4807000; 4780400; 3463500; 2067300; 834400; 311100; (-754000); (-2318600); (-3270900); (-3800000); (-4165700); (-4253700); (-4273500); 0])].
(** CompareToGhia.cpp, makeReferenceV: the cases of the switch. *)
Definition ghia_v : list (Z * list Z) :=
  [(100, [0; (-590600); (-739100); (-886400); (-1031300); (-1691400); (-2244500); (-2453300); 545400; 1752700; 1750700; 1607700; 1231700; 1089000; 1009100; 923300; 0]);
   (400, [0; (-1214600); (-1566300); (-1925400); (-2284700); (-2382700); (-4499300); (-3859800); 518600; 3017400; 3020300; 2812400; 2296500; 2092000; 1971300; 1836000; 0]);
   (1000, [0; (-2138800); (-2766900); (-3371400); (-3918800); (-5155000); (-4266500); (-3196600); 252600; 3223600; 3307500; 3709500; 3262700; 3035300; 2901200; 2748500; 0]);
   (3200, [0; (-3901700); (-4742500); (-5235700); (-5405300); (-4430700); (-3740100); (-3118400); 99900; 2818800; 2903000; 3711900; 4276800; 4190600; 4091700; 3956000; 0]);
   (5000, [0; (-4977400); (-5506900); (-5540800); (-5287600); (-4144200); (-3621400); (-3001800); 94500; 2728000; 2806600; 3536800; 4295100; 4364800; 4332900; 4244700; 0]);
   (7500, [0; (-5385800); (-5521600); (-5234700); (-4859000); (-4105000); (-3621300); (-3044800); 82400; 2734800; 2811700; 3506000; 4182400; 4356400; 4403000; 4397900; 0]);
   (10000, [0; (-5430200); (-5298700); (-4909900); (-4586300); (-4149600); (-3673700); (-3071900); 83100; 2722400; 2800300; 3507000; 4148700; 4312400; 4373300; 4398300; 0])].
(** CompareToBotella.cpp, constructor: m_x. *)
Definition botella_x : list Z := [10000000; 9375000; 9297000; 9219000; 9062000; 8437000; 7734000; 7656000; 5000000; 1953000; 1406000; 937000; 547000; 469000; 391000; 312000; 0].
(** CompareToBotella.cpp, constructor: m_y. *)
Definition botella_y : list Z := [10000000; 9766000; 9688000; 9609000; 9531000; 8516000; 7344000; 6172000; 5000000; 4531000; 2813000; 1719000; 1016000; 703000; 625000; 547000; 0].
(** CompareToBotella.cpp, makeReferenceU: the cases of the switch. *)
Definition botella_u : list (Z * list Z) :=
  [(1000, [10000000; 6644227; 5808359; 5169277; 4723329; 3372212; 1886747; 570178; (-620561); (-1081999); (-2803696); (-3885691); (-3004561); (-2228955); (-2023300); (-1812881); 0])].
(** CompareToBotella.cpp, makeReferenceV: the cases of the switch. *)
Definition botella_v : list (Z * list Z) :=
  [(1000, [0; (-2279225); (-2936869); (-3553213); (-4103754); (-5264392); (-4264545); (-3202137); 257995; 3253592; 3339924; 3769189; 3330442; 3099097; 2962703; 2807056; 0])].
