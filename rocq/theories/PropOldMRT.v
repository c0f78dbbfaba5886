(** C139: relaxation by the MRT collision classes. *)
From Verif Require Import Prelude ModelStencils SpecStencils SpecCollision ModelConfigNames ModelEquilibria ModelCollision ModelOldCollision SpecOldCollision SpecOldMRT ProofOldRefuted ProofOldMRT.
Local Open Scope R_scope.

(** ** At density one the shear stress decays with the rate of the viscosity, its trace with 8/5 or the same rate. *)
Theorem C139_viscosity_partial : forall c s nu dt m rho_old f u o, c = MRTStandard \/ c = MRTEntropic -> s <> 0 -> make_old c Stencil_D2Q9 s nu dt = Ok m ->
  old_node c m false rho_old f u = Ok o -> mass (D2Q9 s) f = 1 ->
  stress (D2Q9 s) (no_f o) 0 1 = (1 - viscous_rate s nu dt) * stress (D2Q9 s) f 0 1 /\
  stress (D2Q9 s) (no_f o) 0 0 - stress (D2Q9 s) (no_f o) 1 1 = (1 - viscous_rate s nu dt) * (stress (D2Q9 s) f 0 0 - stress (D2Q9 s) f 1 1) /\
  stress (D2Q9 s) (no_f o) 0 0 + stress (D2Q9 s) (no_f o) 1 1 =
    (1 - match c with MRTStandard => 8/5 | _ => viscous_rate s nu dt end) * (stress (D2Q9 s) f 0 0 + stress (D2Q9 s) f 1 1).
Proof. exact made_stress. Qed.
Print Assumptions C139_viscosity_partial.
Example C139_viscosity_partial_ex : exists m o, make_old MRTStandard Stencil_D2Q9 1 (1/3) 1 = Ok m /\ old_node MRTStandard m false 1 half_corner zero = Ok o /\
  mass (D2Q9 1) half_corner = 1 /\ stress (D2Q9 1) half_corner 0 1 = -1/4 /\
  moment3 (D2Q9 1) half_corner 0 1 1 - st_cs2 (D2Q9 1) * momentum (D2Q9 1) half_corner 0 = -1/6.
Proof. exact (half_example MRTStandard (or_introl eq_refl)). Qed.

(** At other densities not. *)
Theorem C139_density_refuted : forall c, c = MRTStandard \/ c = MRTEntropic -> exists m f o, make_old c Stencil_D2Q9 1 (1/6) 1 = Ok m /\ old_node c m false 2 f zero = Ok o /\
  mass (D2Q9 1) f = 2 /\ stress (D2Q9 1) (no_f o) 0 1 <> (1 - viscous_rate 1 (1/6) 1) * stress (D2Q9 1) f 0 1.
Proof. exact corner_refutes. Qed.
Print Assumptions C139_density_refuted.

(** Where the momentum flux relaxes to at every density: rho j j and j j instead of j j / rho. *)
Theorem C139_flux : forall c s nu dt m rho_old f u o, c = MRTStandard \/ c = MRTEntropic -> s <> 0 -> make_old c Stencil_D2Q9 s nu dt = Ok m ->
  old_node c m false rho_old f u = Ok o ->
  let om := viscous_rate s nu dt in let k := match c with MRTStandard => mass (D2Q9 s) f | _ => 1 end in
  moment2 (D2Q9 s) (no_f o) 0 1 = (1 - om) * moment2 (D2Q9 s) f 0 1 + om * (k * (momentum (D2Q9 s) f 0 * momentum (D2Q9 s) f 1)) /\
  moment2 (D2Q9 s) (no_f o) 0 0 - moment2 (D2Q9 s) (no_f o) 1 1 = (1 - om) * (moment2 (D2Q9 s) f 0 0 - moment2 (D2Q9 s) f 1 1) +
    om * (k * (momentum (D2Q9 s) f 0 * momentum (D2Q9 s) f 0 - momentum (D2Q9 s) f 1 * momentum (D2Q9 s) f 1)).
Proof. exact made_flux. Qed.
Print Assumptions C139_flux.
Example C139_flux_ex : exists o, old_node MRTEntropic (unit_model Stencil_D2Q9) false 2 corner zero = Ok o /\ momentum (D2Q9 1) corner 0 * momentum (D2Q9 1) corner 1 = 1.
Proof.
  destruct (corner_runs MRTEntropic (or_intror eq_refl)) as [o H]. exists o. split; [exact H|]. destruct corner_facts as (_ & A & B & _). rewrite A, B. lra.
Qed.

(** The trace of the entropic class at every density. *)
Theorem C139_trace : forall s nu dt m rho_old f u o, s <> 0 -> make_old MRTEntropic Stencil_D2Q9 s nu dt = Ok m -> old_node MRTEntropic m false rho_old f u = Ok o ->
  stress (D2Q9 s) (no_f o) 0 0 + stress (D2Q9 s) (no_f o) 1 1 = (1 - viscous_rate s nu dt) * (stress (D2Q9 s) f 0 0 + stress (D2Q9 s) f 1 1).
Proof. exact made_trace. Qed.
Print Assumptions C139_trace.

(** ** The third moments of MRTStandard relax with the rate that has the product 3/16 with the viscosity. *)
Theorem C139_magic : forall s nu dt m rho_old f u o, s <> 0 -> make_old MRTStandard Stencil_D2Q9 s nu dt = Ok m -> old_node MRTStandard m false rho_old f u = Ok o ->
  mass (D2Q9 s) f = 1 ->
  exists q, (1 / viscous_rate s nu dt - 1/2) * (1 / q - 1/2) = 3/16 /\
  forall a, (a < 2)%nat -> moment3 (D2Q9 s) (no_f o) a (1 - a) (1 - a) - st_cs2 (D2Q9 s) * momentum (D2Q9 s) (no_f o) a =
    (1 - q) * (moment3 (D2Q9 s) f a (1 - a) (1 - a) - st_cs2 (D2Q9 s) * momentum (D2Q9 s) f a).
Proof. exact made_magic. Qed.
Print Assumptions C139_magic.

(** MRTEntropic sets them to equilibrium. *)
Theorem C139_third : forall s nu dt m rho_old f u o, s <> 0 -> make_old MRTEntropic Stencil_D2Q9 s nu dt = Ok m -> old_node MRTEntropic m false rho_old f u = Ok o ->
  forall a, (a < 2)%nat -> moment3 (D2Q9 s) (no_f o) a (1 - a) (1 - a) = st_cs2 (D2Q9 s) * momentum (D2Q9 s) (no_f o) a.
Proof. exact made_third. Qed.
Print Assumptions C139_third.
Example C139_third_ex : exists m o, make_old MRTEntropic Stencil_D2Q9 1 (1/3) 1 = Ok m /\ old_node MRTEntropic m false 1 half_corner zero = Ok o /\
  mass (D2Q9 1) half_corner = 1 /\ stress (D2Q9 1) half_corner 0 1 = -1/4 /\
  moment3 (D2Q9 1) half_corner 0 1 1 - st_cs2 (D2Q9 1) * momentum (D2Q9 1) half_corner 0 = -1/6.
Proof. exact (half_example MRTEntropic (or_intror eq_refl)). Qed.
