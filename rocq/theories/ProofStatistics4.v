(** Reynolds averages of a run; examples for the tables. *)
From Coq Require Import NArith Permutation Psatz.
From Verif Require Import Prelude BigSum ModelRun SpecRun ProofRun ModelErrors ModelStatistics SpecStatistics
  ProofStatistics ProofStatistics2 ProofStatistics3 ProofStatisticsEx.
Local Open Scope R_scope.

Lemma mean_map {A B} (f : A -> B) l g : mean_of (map f l) g = mean_of l (fun x => g (f x)).
Proof. unfold mean_of. rewrite suml_map, map_length. reflexivity. Qed.

Lemma reynolds_run : forall X D (c : run_config) (o : solver_ops X D) fuel s0 s tr (V : nat -> nat -> field),
  run c o fuel s0 = Some (Ok (s, tr)) ->
  let a := sv_start s0 in let b := sv_i s in
  let r := reynolds_of_outputs V (map fst (reports_of tr)) in
  re_size r = (b - a + 1)%nat /\
  forall d i, re_average r d i = mean_of (seq a (b - a + 1)) (fun k => V k d i).
Proof.
  intros X D c o fuel s0 s tr V R. cbv zeta. destruct (run_reports _ _ _ _ _ _ R) as [L [_ [E _]]]. cbv zeta in L, E. rewrite E.
  rewrite map_app, map_map. cbn [map fst]. rewrite map_id.
  replace (seq (sv_start s0) (sv_i s - sv_start s0) ++ [sv_i s]) with (seq (sv_start s0) (sv_i s - sv_start s0 + 1)).
  2:{ rewrite seq_app. replace (sv_start s0 + (sv_i s - sv_start s0))%nat with (sv_i s) by lia. reflexivity. }
  unfold reynolds_of_outputs. split.
  - destruct (reynolds_steps (map V (seq (sv_start s0) (sv_i s - sv_start s0 + 1))) reynolds_init) as [S _]. rewrite S, map_length, seq_length. reflexivity.
  - intros d i. rewrite reynolds_mean.
    + apply mean_map.
    + rewrite Nat.add_comm. discriminate.
Qed.

(** Two lines of results_table.txt, the second one after the solver has moved on. *)
Definition view (k : N) (r : R) : solver_view :=
  {| vi_iteration := k; vi_time := r; vi_rho := fun _ => r; vi_u := swing; vi_f := fun _ _ => r; vi_res_rho := 0; vi_res_u := 0 |}.

Lemma two_lines : exists r1 r2, stats_lines (plane_setting square) stats_init [view 10 1; view 20 2] = Ok [r1; r2] /\
  nth_error r1 3 = Some (Some 1) /\ nth_error r2 3 = Some (Some 2).
Proof.
  destruct (lines_summary (plane_setting square) [view 10 1; view 20 2]) as [rows [E F]].
  - left. reflexivity.
  - discriminate.
  - intros v w [<-|[<-|[]]] [<-|[<-|[]]]; cbn [view vi_iteration]; intros H; try reflexivity; discriminate.
  - intros v [<-|[<-|[]]]; cbn [view vi_iteration]; discriminate.
  - inversion F as [|v1 r1 l1 l1' [L1 P1] F1 Ev Er]. subst. inversion F1 as [|v2 r2 l2 l2' [L2 P2] F2]. subst. inversion F2. subst.
    exists r1, r2. split; [exact E|].
    assert (M : forall k, integral 4 [square] (at_point 4 (fun _ => k)) = k).
    { intros k. rewrite (integral_ext 4 [square] _ (fun _ _ => k)).
      - rewrite integral_const. unfold square. rewrite square_volume. ring.
      - intros c q Hc Hq. apply (at_point_const 4 4 [square]); auto. apply square_unity. }
    split.
    + destruct r1 as [|x0 [|x1 [|x2 [|x3 r1]]]]; try discriminate. cbn [nth_error]. f_equal.
      specialize (P1 CMass x3 ltac:(simpl; auto 10)). cbn [promised] in P1. rewrite P1. f_equal. apply M.
    + destruct r2 as [|x0 [|x1 [|x2 [|x3 r2]]]]; try discriminate. cbn [nth_error]. f_equal.
      specialize (P2 CMass x3 ltac:(simpl; auto 10)). cbn [promised] in P2. rewrite P2. f_equal. apply M.
Qed.

Lemma turb_columns dim n planes it t u : length (turb_row dim n planes it t u) = length (turb_header dim n) /\
  forall k col, nth_error (turb_header dim n) k = Some col ->
  nth_error (turb_row dim n planes it t u) k =
    Some match col with
         | TIteration => Some (IZR (Z.of_N it))
         | TTime => Some t
         | TAverage p d => option_map fst (plane_calculate (planes p) u d)
         | TRms p d => option_map snd (plane_calculate (planes p) u d)
         end.
Proof.
  rewrite turb_row_meaning, map_length. split; [reflexivity|]. intros k col H. rewrite (map_nth_error _ _ _ H). destruct col; reflexivity.
Qed.
