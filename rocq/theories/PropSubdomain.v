(** C159: enstrophy of a quarter of the domain. *)
From Verif Require Import Prelude ModelSubdomain ProofSubdomain.
Local Open Scope R_scope.

(** Refuted: the value is the integral of the squared vorticity.  Whenever a process owns a cell with centre in the
    quarter, a variable that was never set chooses the quadrature point, for all velocities. *)
Theorem C159_defined_refuted :
  (forall ux uy n_q cells c, (0 < n_q)%nat -> In c cells -> e_owned c = true -> 1 / 2 <= e_x c -> e_y c <= 1 / 2 -> subdomain_calculate ux uy n_q cells = UB) /\
  exists ux uy n_q cells, (forall k, ux k = 0 /\ uy k = 0) /\ subdomain_calculate ux uy n_q cells = UB.
Proof.
  assert (H : forall ux uy n_q cells c, (0 < n_q)%nat -> In c cells -> e_owned c = true -> 1 / 2 <= e_x c -> e_y c <= 1 / 2 -> subdomain_calculate ux uy n_q cells = UB).
  { intros ux uy n_q cells c Hq Hc Ho Hx Hy. apply (loop_undefined ux uy n_q cells Hq 0). exists c. split; [exact Hc|]. unfold in_quarter. rewrite Ho.
    destruct (Rlt_dec (e_x c) (1 / 2)); [lra|]. destruct (Rlt_dec (1 / 2) (e_y c)); [lra|]. reflexivity. }
  split; [exact H|].
  set (c := {| e_owned := true; e_x := 3 / 4; e_y := 1 / 4; e_dofs := [0%nat]; e_grad := fun _ _ => (0, 0); e_jxw := fun _ => 1 |}).
  exists (fun _ => 0), (fun _ => 0), 1%nat, [c]. split; [intros; split; reflexivity|]. apply (H _ _ 1%nat [c] c); [lia|left; reflexivity|reflexivity|cbn; lra|cbn; lra].
Qed.
Print Assumptions C159_defined_refuted.
Example C159_defined_refuted_ex : subdomain_calculate (fun _ => 1) (fun _ => 2) 4
  [{| e_owned := true; e_x := 9 / 10; e_y := 1 / 10; e_dofs := [0%nat; 1%nat]; e_grad := fun _ _ => (1, 1); e_jxw := fun _ => 1 |}] = UB.
Proof. eapply (proj1 C159_defined_refuted); [lia|left; reflexivity|reflexivity|cbn; lra|cbn; lra]. Qed.

(** What remains: processes without such cells contribute zero. *)
Theorem C159_elsewhere_partial : forall ux uy n_q cells,
  (forall c, In c cells -> e_owned c = false \/ e_x c < 1 / 2 \/ 1 / 2 < e_y c) -> subdomain_calculate ux uy n_q cells = Ok 0.
Proof.
  intros ux uy n_q cells H. apply loop_empty. intros c Hc. unfold in_quarter. destruct (H c Hc) as [->|[Q|Q]]; [reflexivity| |].
  - destruct (Rlt_dec (e_x c) (1 / 2)); [|lra]. destruct (e_owned c); reflexivity.
  - destruct (Rlt_dec (1 / 2) (e_y c)); [|lra]. destruct (e_owned c); [|reflexivity]. destruct (Rlt_dec (e_x c) (1 / 2)); reflexivity.
Qed.
Print Assumptions C159_elsewhere_partial.
Example C159_elsewhere_partial_ex : subdomain_calculate (fun _ => 1) (fun _ => 2) 4
  [{| e_owned := true; e_x := 1 / 10; e_y := 1 / 10; e_dofs := [0%nat]; e_grad := fun _ _ => (1, 1); e_jxw := fun _ => 1 |}] = Ok 0.
Proof. apply C159_elsewhere_partial. intros c [<-|[]]. right. left. cbn. lra. Qed.
