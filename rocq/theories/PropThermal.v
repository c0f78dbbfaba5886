(** C57 (boundary with prescribed velocity and temperature), C58 (wall with prescribed temperature). *)
From Verif Require Import Prelude ModelStencils SpecCollision ModelEquilibria SpecSetup SpecNear ModelSemiLagrangian ModelWalls SpecWalls
  ModelThermalWalls SpecThermal ProofWalls6 ProofWalls7 ProofWalls8 ProofWalls10 ProofWalls11 ProofPhysical ProofThermal ProofThermalNode ProofThermalNode2 ProofThermalNode3
  ProofThermalFields ProofThermalWitness.
Local Open Scope R_scope.

(** ** C57: the populations a boundary of prescribed velocity [u] and temperature [T] assigns are those of the
    quartic equilibrium of density 1, for every stencil and every scaling. *)
Theorem C57_equilibrium_value : forall t s u T cfg, s <> 0 ->
  equilibrium_populations QuarticEquilibrium cfg (stencil_of t s) s 1 u T (sl_equilibrium (stencil_of t s) u T).
Proof. exact equilibrium_value. Qed.
Print Assumptions C57_equilibrium_value.
Example C57_equilibrium_value_ex : sl_equilibrium (stencil_of Stencil_D2Q9 1) (fun _ => 0) 2 6 = 5 / 72.
Proof. exact hot_value. Qed.

(** After a streaming step every population that came from such a boundary has that value, whatever other
    boundaries were crossed on other paths; the second population is in the ratio of heat capacities. *)
Theorem C57_stream : forall (cell : Type) (M : mesh cell) st scaling opp dt same rebalance bc, keeps_order rebalance ->
  forall gamma z cells hs f g t f' g' t' a i (U : point) T, decides same -> NoDup cells ->
  (forall h, In h hs -> In (hit_cell h) cells) ->
  stream_fg M st scaling opp dt bc gamma z (hit_list M same rebalance hs) cells (f, g, t) = Ok (f', g', t') ->
  hits_for a i hs <> [] ->
  (forall h, In h (hits_for a i hs) -> exists u, bc (hit_boundary h) = EquilibriumBC u T /\ forall x, u (t - hit_dt h) x = U) ->
  (forall h Tw, In h hs -> hit_index h = i -> bc (hit_boundary h) <> ThermalBC Tw) ->
  f' a i = sl_equilibrium st U T a /\ g' a i = f' a i * (2 / (gamma - 1) - INR (st_D st)) /\ t' = t + dt.
Proof. exact @equilibrium_stream. Qed.
Print Assumptions C57_stream.
Example C57_stream_ex : keeps_order keep1 /\ decides same1 /\ exists f' g' z hs,
  assemble O4 e9 opp9 (1 / 2) 1 corner_node dofs1 9 one_shape [tt] = Some (Ok z) /\
  all_hits O4 e9 opp9 (1 / 2) 1 corner_node dofs1 9 [tt] = Some (Ok hs) /\
  stream_fg O4 (stencil_of Stencil_D2Q9 1) 1 opp9 (1 / 2) hot_boundary (14 / 10) z (hit_list O4 same1 keep1 hs) [tt]
    (fun a _ => w9 a, fun a _ => 3 * w9 a, 0) = Ok (f', g', 0 + 1 / 2) /\
  hits_for 6 0 hs <> [].
Proof. exact (conj keep1_ok (conj same1_ok equilibrium_setting)). Qed.

(** The second population ignores the prescribed temperature: at temperature 2 it is half of what the equilibrium
    at this temperature needs. *)
Theorem C57_temperature_refuted : exists f' g' z hs,
  assemble O4 e9 opp9 (1 / 2) 1 corner_node dofs1 9 one_shape [tt] = Some (Ok z) /\
  all_hits O4 e9 opp9 (1 / 2) 1 corner_node dofs1 9 [tt] = Some (Ok hs) /\
  stream_fg O4 (stencil_of Stencil_D2Q9 1) 1 opp9 (1 / 2) hot_boundary (14 / 10) z (hit_list O4 same1 keep1 hs) [tt]
    (fun a _ => w9 a, fun a _ => 3 * w9 a, 0) = Ok (f', g', 0 + 1 / 2) /\
  hits_for 6 0 hs <> [] /\ 0 < f' 6%nat 0%nat /\ g' 6%nat 0%nat = 1 / 2 * (f' 6%nat 0%nat * 2 * (2 / (14 / 10 - 1) - 2)).
Proof. exact boundary_temperature_refuted. Qed.
Print Assumptions C57_temperature_refuted.

(** ** C58: a node at a thermal wall.  It keeps its populations if its temperature is that of the wall up to 1e-5.
    Otherwise mass and momentum stay up to round-off of the stencil and the second population is that of the
    equilibrium at wall temperature; the energy is that at wall temperature only if the second population had the
    equilibrium share before. *)
Theorem C58_thermal_wall : forall t s Tw f g f' g', s <> 0 -> thermal_node (stencil_of t s) s Tw f g = Ok (f', g') ->
  let st := stencil_of t s in
  let m := mass st f in
  let v := node_flow st f in
  let T := node_temperature (14 / 10) st f g in
  let N := high_tol t * m * (expansion_size st v T + expansion_size st v Tw) in
  t = Stencil_D3Q45 /\ dense st f /\
  (Rabs (T - Tw) <= 1 / 10 ^ 5 /\ f' = f /\ g' = g \/
   1 / 10 ^ 5 < Rabs (T - Tw) /\
   (forall cfg, exists ew, equilibrium_populations QuarticEquilibrium cfg st s m v Tw ew /\ forall i, (i < st_Q st)%nat -> g' i = 2 * Tw * ew i) /\
   Rabs (mass st f' - m) <= N /\
   (forall a, (a < st_D st)%nat -> Rabs (momentum st f' a - momentum st f a) <= N * Rabs (st_cs st)) /\
   Rabs (energy2 st f' g' - (m * dot (st_D st) v v + 5 * m * st_cs2 st * Tw + st_cs2 st * (2 * m * T - mass st g))) <= N * st_cs2 st * (3 + 2 * Rabs Tw)).
Proof. exact thermal_wall. Qed.
Print Assumptions C58_thermal_wall.
Example C58_thermal_wall_ex : exists f g f' g', thermal_node (stencil_of Stencil_D3Q45 1) 1 1 f g = Ok (f', g') /\
  node_temperature (14 / 10) (stencil_of Stencil_D3Q45 1) f g = 2.
Proof. destruct temperature_refuted as (f & g & f' & g' & H & T & _). exists f, g, f', g'. split; assumption. Qed.

(** The other stencils are refused. *)
Theorem C58_stencil : forall t s Tw f g, t <> Stencil_D3Q45 -> thermal_node (stencil_of t s) s Tw f g = Throw.
Proof. exact thermal_stencil. Qed.
Print Assumptions C58_stencil.
Example C58_stencil_ex : Stencil_D2Q9 <> Stencil_D3Q45.
Proof. discriminate. Qed.

(** Fluid at rest at wall temperature stays. *)
Theorem C58_rest : forall s, s <> 0 -> forall cfg f g rho Tw, 1 / 10 ^ 9 <= rho -> 0 <= Tw <= 10 ->
  let st := stencil_of Stencil_D3Q45 s in
  equilibrium_populations QuarticEquilibrium cfg st s rho (fun _ => 0) Tw f ->
  (forall i, (i < st_Q st)%nat -> g i = f i * Tw * (2 / (14 / 10 - 1) - 3)) ->
  thermal_node st s Tw f g = Ok (f, g).
Proof. exact thermal_fixed. Qed.
Print Assumptions C58_rest.
Example C58_rest_ex : forall cfg, exists f, equilibrium_populations QuarticEquilibrium cfg (stencil_of Stencil_D3Q45 1) 1 1 (fun _ => 0) 1 f.
Proof. intros cfg. destruct (isothermal_refuted cfg) as (f & _ & H & _). exists f. exact H. Qed.

(** The wall does not impose its temperature: a node of temperature 2 at a wall of temperature 1 has a negative
    temperature afterwards. *)
Theorem C58_temperature_refuted : exists f g f' g', thermal_node (stencil_of Stencil_D3Q45 1) 1 1 f g = Ok (f', g') /\
  node_temperature (14 / 10) (stencil_of Stencil_D3Q45 1) f g = 2 /\ 1 / 2 <= mass (stencil_of Stencil_D3Q45 1) f' /\
  node_temperature (14 / 10) (stencil_of Stencil_D3Q45 1) f' g' < 0.
Proof. exact temperature_refuted. Qed.
Print Assumptions C58_temperature_refuted.

(** With the heat capacity ratio 5/3, fluid at rest at wall temperature is heated: the energy doubles. *)
Theorem C58_gamma_refuted : forall cfg, let st := stencil_of Stencil_D3Q45 1 in exists f g f' g',
  equilibrium_populations QuarticEquilibrium cfg st 1 1 (fun _ => 0) 1 f /\
  (forall i, g i = f i * 1 * (2 / (5 / 3 - 1) - 3)) /\ thermal_node st 1 1 f g = Ok (f', g') /\
  energy2 st f g <= 301 / 100 * st_cs2 st /\ 6 * st_cs2 st <= energy2 st f' g'.
Proof. exact gamma_refuted. Qed.
Print Assumptions C58_gamma_refuted.

(** In a simulation without g the wall replaces the mass of the node by 2 Tw times the mass. *)
Theorem C58_isothermal : forall t s Tw f f', s <> 0 -> thermal_node_f (stencil_of t s) s Tw f = Ok f' ->
  let st := stencil_of t s in
  let m := mass st f in
  let v := node_flow st f in
  let N := high_tol t * m * expansion_size st v Tw in
  Rabs (node_temperature (14 / 10) st f f - Tw) <= 1 / 10 ^ 5 /\ f' = f \/
  1 / 10 ^ 5 < Rabs (node_temperature (14 / 10) st f f - Tw) /\ Rabs (mass st f' - 2 * Tw * m) <= 2 * Rabs Tw * N.
Proof. exact thermal_f. Qed.
Print Assumptions C58_isothermal.
Theorem C58_isothermal_refuted : forall cfg, let st := stencil_of Stencil_D3Q45 1 in exists f f',
  equilibrium_populations QuarticEquilibrium cfg st 1 1 (fun _ => 0) 1 f /\
  thermal_node_f st 1 1 f = Ok f' /\ mass st f <= 101 / 100 /\ 199 / 100 <= mass st f'.
Proof. exact isothermal_refuted. Qed.
Print Assumptions C58_isothermal_refuted.

(** What a thermal wall writes to g at a node is carried away within the same step: the populations g at the node
    after the step are the streamed old ones unless a node upstream is at a thermal wall. *)
Theorem C58_late : forall (cell : Type) (M : mesh cell) st scaling opp dt same rebalance bc, keeps_order rebalance ->
  forall gamma z cells hs f g t f' g' t' a i, decides same -> NoDup cells -> (forall h, In h hs -> In (hit_cell h) cells) ->
  stream_fg M st scaling opp dt bc gamma z (hit_list M same rebalance hs) cells (f, g, t) = Ok (f', g', t') -> (1 <= a)%nat ->
  (forall h u T, In h (hits_for a i hs) -> bc (hit_boundary h) <> EquilibriumBC u T) ->
  (forall b j v h Tw, In ((a - 1)%nat, b, i, j, v) z -> In h hs -> hit_index h = j -> bc (hit_boundary h) <> ThermalBC Tw) ->
  g' a i = multiply z g a i.
Proof. exact @thermal_late. Qed.
Print Assumptions C58_late.
Example C58_late_ex : forall Tw opp g, exists f' g',
  stream_fg box (stencil_of Stencil_D3Q45 1) 1 opp (1 / 2) (fun _ => ThermalBC Tw) (14 / 10) from_inside (hit_list box same1 keep1 [wall_hit]) [tt]
    (fun a _ => rest a, g, 0) = Ok (f', g', 0 + 1 / 2) /\ hit_index wall_hit = 0%nat /\
  g' 1%nat 0%nat = g 1%nat 1%nat.
Proof. intros Tw opp g. destruct (late_example Tw opp g) as (f' & g' & H1 & H2). exists f', g'. auto. Qed.
