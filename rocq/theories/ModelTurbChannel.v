(** The turbulent channel of examples/step-turbulentChannel: TurbulentChannelFlow3D.{h,cpp} and the set-up
    part of step-turbulent-channel.cpp.  Doubles are real numbers, ints are checked integers. *)
From Verif Require Import Prelude.
Local Open Scope R_scope.

(** ** The object *)

(** TurbulentChannelFlow3D.h:208-217 and m_characteristicLength of ProblemDescription.h:213-217
    (refinement level and repetitions enter separately below). *)
Record channel := {
  ch_visc : R; ch_retau : R; ch_ucl : R; ch_height : R; ch_length : R; ch_width : R;
  ch_periodic : bool; ch_density : R; ch_charlen : R }.

(** TurbulentChannelFlow3D.cpp:26-32: the constructor; is_periodic is not a member there, it is kept here
    for the boundaries and the force made from it (lines 87-110). *)
Definition construct (visc retau ucl height length width : R) (is_periodic : bool) (density : R) : channel :=
  {| ch_visc := visc; ch_retau := retau; ch_ucl := ucl; ch_height := height; ch_length := length;
     ch_width := width; ch_periodic := is_periodic; ch_density := density; ch_charlen := height / 2 |}.

(** TurbulentChannelFlow3D.h:139: the default of the last argument. *)
Definition default_density : R := 8 / 10.

(** TurbulentChannelFlow3D.cpp:94-110: the first component of the external force, none if not periodic
    (the other components are zero). *)
Definition body_force (c : channel) : option R :=
  if ch_periodic c
  then Some ((ch_retau c * ch_visc c / (ch_height c / 2)) ^ 2 * 1 / (ch_height c / 2))
  else None.

(** TurbulentChannelFlow3D.cpp:139-181: the boundaries. *)
Inductive side :=
| Periodic (id1 id2 direction : nat)
| Wall (id : nat) (u v w temperature : R).
Definition boundaries (c : channel) : list side :=
  if ch_periodic c
  then [Periodic 0 1 0; Periodic 4 5 2; Wall 2 0 0 0 (85/100); Wall 3 0 0 0 (85/100)]
  else [].

(** TurbulentChannelFlow3D.h:116-123: the coordinate normal to the walls of a vertex of the unit cube. *)
Definition trans (height density y : R) : R := (- density * sin (2 * y * PI) / (2 * PI) + y) * height.
(** TurbulentChannelFlow3D.h:124-127, 197-201. *)
Definition transform (c : channel) (x y z : R) : R * R * R :=
  (ch_length c * x, trans (ch_height c) (ch_density c) y, ch_width c * z).

(** ** The main program *)

(** C++ conversion of a double to bool. *)
Definition to_bool (d : R) : bool := if Req_EM_T d 0 then false else true.

(** step-turbulent-channel.cpp:114-117, 127-140: the object made from the command line.  The grid density is
    the ninth argument of the constructor. *)
Definition main_channel (delta retau ucl recl lx lz grid_density : R) : channel :=
  let height := 2 * delta in
  let c := construct (ucl * delta / recl) retau ucl height (lx * delta) (lz * delta)
                     (to_bool grid_density) default_density in
  {| ch_visc := ch_visc c; ch_retau := ch_retau c; ch_ucl := ch_ucl c; ch_height := ch_height c;
     ch_length := ch_length c; ch_width := ch_width c; ch_periodic := ch_periodic c;
     ch_density := ch_density c; ch_charlen := 1 |}.

(** step-turbulent-channel.cpp:143-151: the coordinates at which the turbulence monitor writes its table. *)
Definition rms_coords (delta : R) : list R :=
  let height := 2 * delta in
  map (trans height default_density) [height / 2; height / 8; height / 32].

(** step-turbulent-channel.cpp:152-153: the distance of the first point from the wall in wall units. *)
Definition first_yplus (delta retau ucl recl : R) (rep_y ref_level : nat) : R :=
  let height := 2 * delta in
  let visc := ucl * delta / recl in
  let utau := retau * visc / delta in
  trans height default_density (height / INR rep_y / 2 ^ ref_level) / (visc / utau).

(** ** Initial fields *)

(** TurbulentChannelFlow3D.cpp:189-225: the mean velocity in wall units (meanVelocityMethodID = 1;
    the method 2 of lines 226-321 cannot be chosen). *)
Definition u_plus (c : channel) (y : R) : R :=
  let height := ch_charlen c in
  let mindist := Rmin y (height - y) in
  let h_half := height / 2 in
  let yplus := ch_retau c * (mindist / h_half) in
  if Rle_dec yplus 5 then yplus
  else if Rlt_dec yplus 30 then -305/100 + 5 * ln yplus
  else ch_ucl c / (ch_retau c * ch_visc c / h_half).
(** TurbulentChannelFlow3D.cpp:324. *)
Definition mean_u (c : channel) (y : R) : R :=
  u_plus c y * (ch_retau c * ch_visc c / (ch_charlen c / 2)).
(** TurbulentChannelFlow3D.cpp:326-349: MeanVelocityProfile::value; beyond the third component the function
    ends without a value. *)
Definition mean_profile (c : channel) (x y z : R) (component : nat) : outcome R :=
  match component with
  | 0%nat => Ok (mean_u c y + 6/100 * ch_ucl c * sin (4 * x) + 5/100 * cos x * cos y)
  | 1%nat => Ok (2/100 * ch_ucl c * sin (2 * z) + 5/100 * cos x * cos y)
  | 2%nat => Ok (12/100 * ch_ucl c * sin (6 * PI * y) + 5/100 * cos x * cos y)
  | _ => UB
  end.

(** TurbulentChannelFlow3D.cpp:411-422. *)
Definition temperature0 (c : channel) (y : R) : R :=
  if Rlt_dec (ch_height c / 2) y
  then 85/100 + 39/100 * tanh ((ch_height c - y) * 20)
  else 85/100 + 39/100 * tanh (y * 20).

(** TurbulentChannelFlow3D.cpp:352-409: IncompressibleU::value for a field [f] (component, point) in the
    place of m_initialU; [h] is m_increment. *)
Definition shifted (h : R) (d : nat) (g : R -> R -> R -> R) (x y z : R) : R :=
  match d with
  | 0%nat => g (x + h) y z
  | 1%nat => g x (y + h) z
  | _ => g x y (z + h)
  end.
Definition grad_at (h : R) (f : nat -> R -> R -> R -> R) (i d : nat) (x y z : R) : R :=
  (shifted h d (f i) x y z - f i x y z) / h.
Definition incompressible_u (h : R) (f : nat -> R -> R -> R -> R) (component : nat) (x y z : R) : R :=
  match component with
  | 0%nat => grad_at h f 2 1 x y z - grad_at h f 1 2 x y z
  | 1%nat => grad_at h f 0 2 x y z - grad_at h f 2 0 x y z
  | _ => grad_at h f 1 0 x y z - grad_at h f 0 1 x y z
  end.

(** ** Synthetic turbulence *)

(** Result of an int operation: undefined outside the 32-bit range. *)
Definition int32 (z : Z) : outcome Z :=
  if ((-2147483648 <=? z) && (z <=? 2147483647))%Z then Ok z else UB.

(** TurbulentChannelFlow3D.cpp:725-733. *)
Definition ia : Z := 16807.
Definition im : Z := 2147483647.
Definition iq : Z := 127773.
Definition ir : Z := 2836.
Definition ntab : nat := 32.
Definition rnmx : R := 1 - 12 / 100000000.

(** TurbulentChannelFlow3D.cpp:741-742 and 753-754: one step without the final correction. *)
Definition schrage (idum : Z) : outcome Z :=
  let k := Z.quot idum iq in
  obind (int32 (k * iq)) (fun a =>
  obind (int32 (idum - a)) (fun b =>
  obind (int32 (ia * b)) (fun c =>
  obind (int32 (ir * k)) (fun d =>
  int32 (c - d))))).

(** Element access of std::vector without range check. *)
Fixpoint put {A} (l : list A) (i : nat) (v : A) : outcome (list A) :=
  match l, i with
  | [], _ => UB
  | _ :: r, O => Ok (v :: r)
  | x :: r, S j => obind (put r j v) (fun r' => Ok (x :: r'))
  end.
Definition at_index {A} (l : list A) (i : nat) : outcome A :=
  match nth_error l i with Some v => Ok v | None => UB end.

(** TurbulentChannelFlow3D.cpp:740-749: the loop filling the table, [n] rounds left. *)
Fixpoint fill (n : nat) (idum : Z) (iv : list Z) : outcome (Z * list Z) :=
  match n with
  | O => Ok (idum, iv)
  | S j =>
      obind (schrage idum) (fun s =>
      obind (if (s <? 0)%Z then int32 (s + im) else Ok s) (fun i' =>
      obind (if (n <=? ntab)%nat then put iv j i' else Ok iv) (fun iv' =>
      fill j i' iv')))
  end.

(** State of the generator between calls: iy, iv, iseed. *)
Record rng := { g_iy : Z; g_iv : list Z; g_seed : Z }.

(** TurbulentChannelFlow3D.cpp:738-751. *)
Definition start (idum iy : Z) (iv : list Z) : outcome (Z * Z * list Z) :=
  if ((idum <=? 0) || (iy =? 0))%Z then
    obind (int32 (- idum)) (fun m =>
    obind (fill (ntab + 8) (Z.max m 1) iv) (fun r =>
    obind (at_index (snd r) 0) (fun y => Ok (fst r, y, snd r))))
  else Ok (idum, iy, iv).

(** TurbulentChannelFlow3D.cpp:753-764, with ndiv = 1 + (im-1)/32 = 1073741839/16; floor of a quotient of
    reals. *)
Definition draw (idum iy : Z) (iv : list Z) : outcome (R * rng) :=
  obind (schrage idum) (fun s =>
  obind (if (s <=? 0)%Z then int32 (s + im) else Ok s) (fun i' =>
  let j := (16 * iy / 1073741839)%Z in
  if (j <? 0)%Z then UB else
  obind (at_index iv (Z.to_nat j)) (fun y =>
  obind (put iv (Z.to_nat j) i') (fun iv' =>
  Ok (Rmin (1 / IZR im * IZR y) rnmx, {| g_iy := y; g_iv := iv'; g_seed := i' |}))))).

(** TurbulentChannelFlow3D.cpp:723-765. *)
Definition randf_2 (idum : Z) (g : rng) : outcome (R * rng) :=
  obind (start idum (g_iy g) (g_iv g)) (fun r => draw (fst (fst r)) (snd (fst r)) (snd r)).

(** TurbulentChannelFlow3D.cpp:697-707; [out] has size [nmd] in every call. *)
Fixpoint randf_1 (nmd : nat) (alow ahigh : R) (idum : Z) (g : rng) : outcome (list R * rng) :=
  match nmd with
  | O => Ok ([], g)
  | S n =>
      obind (randf_2 idum g) (fun r =>
      obind (randf_1 n alow ahigh (g_seed (snd r)) (snd r)) (fun t =>
      Ok ((fst r * (ahigh - alow) + alow) :: fst t, snd t)))
  end.

(** The four angles of every mode: fi, psi, alfa, teta. *)
Record mode := { mo_fi : R; mo_psi : R; mo_alfa : R; mo_teta : R }.
Fixpoint zip4 (a b c d : list R) : list mode :=
  match a, b, c, d with
  | x :: a', y :: b', z :: c', w :: d' =>
      {| mo_fi := x; mo_psi := y; mo_alfa := z; mo_teta := acos (1 - w / (1/2)) |} :: zip4 a' b' c' d'
  | _, _, _, _ => []
  end.
(** TurbulentChannelFlow3D.cpp:679-692; the vectors of size [nmodes] are returned as one list. *)
Definition angles (nmodes : nat) (g : rng) : outcome (list mode * rng) :=
  obind (randf_1 nmodes 0 (2 * PI) (g_seed g) g) (fun a =>
  obind (randf_1 nmodes 0 (2 * PI) (g_seed (snd a)) (snd a)) (fun b =>
  obind (randf_1 nmodes 0 (2 * PI) (g_seed (snd b)) (snd b)) (fun c =>
  obind (randf_1 nmodes 0 1 (g_seed (snd c)) (snd c)) (fun d =>
  Ok (zip4 (fst a) (fst b) (fst c) (fst d), snd d))))).

(** TurbulentChannelFlow3D.cpp:502-506: seed -50, iy = 0, iv of 32 zeros. *)
Definition fresh_rng (seed : Z) : rng := {| g_iy := 0; g_iv := repeat 0%Z ntab; g_seed := seed |}.

(** TurbulentChannelFlow3D.cpp:532-535: the loop writing [count] entries from index [m] of wnrf. *)
Fixpoint faces (count m : nat) (wnr1 dkl : R) (wnrf : list R) : outcome (list R) :=
  match count with
  | O => Ok wnrf
  | S n => obind (put wnrf m (wnr1 + dkl * INR m)) (faces n (S m) wnr1 dkl)
  end.
(** TurbulentChannelFlow3D.cpp:538-542: pairs (wnr[m], dkn[m]). *)
Fixpoint centres (count m : nat) (wnrf : list R) : outcome (list (R * R)) :=
  match count with
  | O => Ok []
  | S n => obind (at_index wnrf (S m)) (fun b => obind (at_index wnrf m) (fun a =>
           obind (centres n (S m) wnrf) (fun r => Ok ((1/2 * (b + a), b - a) :: r))))
  end.

(** TurbulentChannelFlow3D.cpp:547-549 and 553-555: direction of the wave and of the velocity of a mode. *)
Definition k_dir (m : mode) (i : nat) : R :=
  match i with
  | 0%nat => sin (mo_teta m) * cos (mo_fi m)
  | 1%nat => sin (mo_teta m) * sin (mo_fi m)
  | _ => cos (mo_teta m)
  end.
Definition s_dir (m : mode) (i : nat) : R :=
  match i with
  | 0%nat => cos (mo_fi m) * cos (mo_teta m) * cos (mo_alfa m) - sin (mo_fi m) * sin (mo_alfa m)
  | 1%nat => sin (mo_fi m) * cos (mo_teta m) * cos (mo_alfa m) + cos (mo_fi m) * sin (mo_alfa m)
  | _ => - sin (mo_teta m) * cos (mo_alfa m)
  end.

(** The scalars of TurbulentChannelFlow3D.cpp:453-497 that the loop needs. *)
Record spectrum := { sp_urms : R; sp_amp : R; sp_wnre : R; sp_wnreta : R; sp_wnrn : R; sp_wnr1 : R }.
Definition spectrum_of (c : channel) (ref_level rep_y : nat) : spectrum :=
  let height := ch_charlen c in
  let urms := 15/100 * ch_ucl c in
  let tke := 3/2 * urms ^ 2 in
  let sli := 5/32 * height in
  let epsm := Rpower tke (3/2) / sli in
  let amp := 1452762113 / 1000000000 in
  let cell := height / (3 * 2 ^ ref_level * INR rep_y) in
  let wnre := 9 * PI * amp / (55 * sli) in
  {| sp_urms := urms; sp_amp := amp; sp_wnre := wnre;
     sp_wnreta := Rpower (epsm / ch_visc c ^ 3) (1/4);
     sp_wnrn := 2 * PI / cell; sp_wnr1 := wnre / 1 |}.

(** TurbulentChannelFlow3D.cpp:574-599: the amplitude of a mode with wave number [w] and step [dk]
    (0 where the mode is skipped) and its contribution. *)
Definition amplitude (s : spectrum) (m : mode) (w dk : R) : R :=
  let rk := sqrt ((k_dir m 0 * w) ^ 2 + (k_dir m 1 * w) ^ 2 + (k_dir m 2 * w) ^ 2) in
  if Rlt_dec rk (sp_wnrn s) then
    let e := sp_amp s / sp_wnre s * (w / sp_wnre s) ^ 3 / Rpower (1 + (w / sp_wnre s) ^ 2) (17/6)
             * exp (-2 * (w / sp_wnreta s) ^ 2) in
    2 * (sp_urms s * sqrt (e * dk))
  else 0.
Definition contribution (s : spectrum) (m : mode) (w dk x y z : R) (i : nat) : R :=
  amplitude s m w dk
  * cos (k_dir m 0 * w * x + k_dir m 1 * w * y + k_dir m 2 * w * z + mo_psi m) * s_dir m i.
(** TurbulentChannelFlow3D.cpp:559-600, 637-657 (fBlend = 1). *)
Fixpoint mode_sum (s : spectrum) (ms : list mode) (ws : list (R * R)) (x y z : R) (i : nat) : R :=
  match ms, ws with
  | m :: ms', w :: ws' => contribution s m (fst w) (snd w) x y z i + mode_sum s ms' ws' x y z i
  | _, _ => 0
  end.

(** TurbulentChannelFlow3D.cpp:440-659 with the vector wnrf of [size] elements; the code has
    size = nmodes = 12 (lines 471, 510).  The running maximum of lines 603-607 is left out. *)
Definition synthetic (size : nat) (s : spectrum) (x y z : R) (i : nat) : outcome R :=
  let nmodes := 12%nat in
  obind (angles nmodes (fresh_rng (-50))) (fun a =>
  let dkl := (sp_wnrn s - sp_wnr1 s) / INR nmodes in
  obind (faces (S nmodes) 0 (sp_wnr1 s) dkl (repeat 0 size)) (fun wnrf =>
  obind (centres nmodes 0 wnrf) (fun ws =>
  Ok (mode_sum s (fst a) ws x y z i)))).
Definition initial_velocity (c : channel) (ref_level rep_y : nat) (x y z : R) (i : nat) : outcome R :=
  synthetic 12 (spectrum_of c ref_level rep_y) x y z i.
