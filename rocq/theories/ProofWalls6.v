(** A channel of one cell with D2Q9: paths between parallel walls. *)
From Coq Require Import Permutation.
From Verif Require Import Prelude BigSum ModelStencils ModelSemiLagrangian SpecSemiLagrangian ProofSemiLagrangian ProofSemiLagrangian2
  ProofSemiLagrangian3 ProofSemiLagrangian4 ProofSemiLagrangian5 ModelWalls SpecWalls ProofWalls ProofWalls2 ProofWalls3.
Local Open Scope R_scope.

(** ** Crossings in two dimensions, exactly *)
Lemma cross_formula pi po k : crossed_unit 2 pi po = Ok (Some k) ->
  exists d s, (d < 2)%nat /\ (s = 0 \/ s = 1)%nat /\ cr_face k = (2 * d + s)%nat /\
    cr_lambda k = (INR s - snap (pi d)) / (snap (po d) - snap (pi d)) /\
    forall i, cr_point k i = snap (snap (pi i) + (snap (po i) - snap (pi i)) * cr_lambda k).
Proof.
  unfold crossed_unit. destruct (all_inside 2 (snap_point pi)); [|discriminate]. cbn [Nat.sub directions].
  assert (D0 : forall f l, direction0 (snap_point pi) (snap_point po) = Ok (Some f, l) -> exists s, (s = 0 \/ s = 1)%nat /\ f = s /\
     l = (INR s - snap (pi 0%nat)) / (snap (po 0%nat) - snap (pi 0%nat))).
  { intros f l H. unfold direction0, checked_lambda in H. unfold snap_point in H.
    repeat match type of H with context [match ?x with left _ => _ | right _ => _ end] => destruct x; cbn [obind] in H end; try discriminate;
      injection H as <- <-; [exists 0%nat|exists 1%nat]; (split; [auto|split; [reflexivity|cbn [INR]; reflexivity]]). }
  destruct (direction0 (snap_point pi) (snap_point po)) as [[f0 l0]| |] eqn:E0; try discriminate. cbn [obind].
  destruct (direction 1 (snap_point pi) (snap_point po) (f0, l0)) as [[f l]| |] eqn:E1; try discriminate. cbn [obind fst snd].
  assert (D1 : (f, l) = (f0, l0) \/ exists s, (s = 0 \/ s = 1)%nat /\ f = Some (2 + s)%nat /\ l = (INR s - snap (pi 1%nat)) / (snap (po 1%nat) - snap (pi 1%nat))).
  { unfold direction, checked_lambda in E1. unfold snap_point in E1. cbn [snd] in E1.
    repeat match type of E1 with context [match ?x with left _ => _ | right _ => _ end] => destruct x; cbn [obind] in E1 end; try discriminate;
      injection E1 as <- <-; auto; right; [exists 0%nat|exists 1%nat]; (split; [auto|split; [reflexivity|cbn [INR]; reflexivity]]). }
  destruct f as [f|]; [|discriminate]. destruct (Req_EM_T _ 0); [|discriminate]. intros H. injection H as <-. cbn [cr_face cr_lambda cr_point].
  destruct D1 as [D1|(s & Hs & Ef & El)].
  - injection D1 as <- <-. destruct (D0 f l eq_refl) as (s & Hs & -> & El). exists 0%nat, s.
    split; [lia|]. split; [exact Hs|]. split; [lia|]. split; [exact El|]. reflexivity.
  - injection Ef as ->. exists 1%nat, s. split; [lia|]. split; [exact Hs|]. split; [lia|]. split; [exact El|]. reflexivity.
Qed.

Lemma snap_far x : tol <= Rabs x -> tol <= Rabs (x - 1) -> snap x = x.
Proof.
  intros H0 H1. unfold snap. destruct (Rlt_dec (Rabs x) tol); [lra|]. destruct (Rlt_dec (Rabs (x - 1)) tol); [lra|reflexivity].
Qed.
Lemma snap_zero : snap 0 = 0.
Proof. unfold snap. rewrite Rabs_R0. unfold tol. destruct (Rlt_dec 0 _); [|lra]. replace (0 - 1) with (-1) by ring. rewrite Rabs_left by lra. destruct (Rlt_dec _ _); [lra|reflexivity]. Qed.
Lemma snap_one : snap 1 = 1.
Proof.
  unfold snap. rewrite Rabs_R1. unfold tol. destruct (Rlt_dec 1 _); [lra|]. replace (1 - 1) with 0 by ring. rewrite Rabs_R0. destruct (Rlt_dec 0 _); [reflexivity|lra].
Qed.
(** Values kept by the removal of round-off. *)
Definition stable (x : R) : Prop := snap x = x.
Lemma stable_mid x : 1 / 100 <= x <= 99 / 100 -> stable x.
Proof. intros H. unfold stable. apply snap_far; unfold tol; [rewrite Rabs_pos_eq by lra; lra|rewrite Rabs_left by lra; lra]. Qed.
Lemma stable_low x : x <= - (1 / 100) -> stable x.
Proof. intros H. unfold stable. apply snap_far; unfold tol; rewrite Rabs_left by lra; lra. Qed.
Lemma stable_high x : 101 / 100 <= x -> stable x.
Proof. intros H. unfold stable. apply snap_far; unfold tol; rewrite Rabs_pos_eq by lra; lra. Qed.

(** ** The stencil *)
Definition e9 : nat -> point := st_e (D2Q9 1).
Definition w9 : nat -> R := st_w (D2Q9 1).
Definition cs9 : R := st_cs2 (D2Q9 1).
Definition opp9 (a : nat) : nat := match st_opp (D2Q9 1) a with Some b => b | None => 0%nat end.

Lemma e9_val : forall a, (1 <= a < 9)%nat ->
  (e9 a 0%nat, e9 a 1%nat) = nth a [(0, 0); (1, 0); (0, 1); (-1, 0); (0, -1); (1, 1); (-1, 1); (-1, -1); (1, -1)] (0, 0).
Proof.
  intros a Ha. unfold e9, D2Q9, tbl, tblQ. cbn [st_e]. do 9 (destruct a as [|a]; [try lia; cbn; unfold Q2R; cbn; f_equal; lra|]). lia.
Qed.
Lemma opp9_opp a : (1 <= a < 9)%nat -> (1 <= opp9 a < 9)%nat /\ opp9 (opp9 a) = a.
Proof. intros Ha. do 9 (destruct a as [|a]; [try lia; cbn; lia|]). lia. Qed.
Lemma e9_cases a : (1 <= a < 9)%nat -> (e9 a 1%nat = 0 /\ (e9 a 0%nat = 1 \/ e9 a 0%nat = -1) \/ e9 a 1%nat = 1 \/ e9 a 1%nat = -1) /\ -1 <= e9 a 0%nat <= 1 /\
  (forall i, (i < 2)%nat -> e9 (opp9 a) i = - e9 a i).
Proof.
  intros Ha. assert (E := e9_val a Ha). assert (E' := e9_val (opp9 a) (proj1 (opp9_opp a Ha))).
  destruct a as [|a]; [lia|].
  do 8 (destruct a as [|a]; [cbn [nth opp9 st_opp D2Q9 opp_default0 StencilData.D2Q9_opp] in E, E'; injection E as E0 E1; injection E' as E0' E1';
    split; [lra|]; split; [lra|]; intros i Hi; destruct i as [|[|i]]; [| |lia];
    cbn [nth opp9 st_opp D2Q9 opp_default0 StencilData.D2Q9_opp]; lra|]). lia.
Qed.

(** ** The channel: [0, 10] x [0, 1] *)
Definition width (i : nat) : R := if Nat.eqb i 0 then 10 else 1.
Definition chan (kind : nat -> behind unit) : mesh unit :=
  mkMesh 2 (fun _ x => Some (fun i => x i / width i)) (fun _ u => fun i => u i * width i) (fun _ _ => (fun _ => 0, fun _ => 0))
    (fun _ f => kind f) (fun _ => true).

Section Chan.
  Variable kind : nat -> behind unit.
  Variable dt : R.
  Notation C := (chan kind).

  (** One pass that hits the lower ([s] = 0) or upper ([s] = 1) wall.  [X], [Y]: current point, [r]: time left,
      [t]: time to the wall. *)
  Lemma chan_face el X Y r a s t : let p := currentPoint el in let q := departurePoint el in
    p 0%nat = X -> p 1%nat = Y -> q 0%nat = X - r * e9 a 0%nat -> q 1%nat = Y - r * e9 a 1%nat -> (1 <= a < 9)%nat ->
    3 <= X <= 7 -> 0 <= Y <= 1 -> stable Y -> 0 <= r <= 2 -> 0 <= t < r ->
    Y - t * e9 a 1%nat = INR s -> (s = 0%nat /\ Y - r * e9 a 1%nat <= - (1 / 100) \/ s = 1%nat /\ 101 / 100 <= Y - r * e9 a 1%nat) ->
    exists k, findFace C (currentCell el) p q = Ok (Some k) /\ cr_face k = (2 + s)%nat /\
      cr_point k 0%nat = X - t * e9 a 0%nat /\ cr_point k 1%nat = INR s.
  Proof.
    intros p q Hp0 Hp1 Hq0 Hq1 Ha HX HY HsY Hr Ht Hw Hs. destruct (e9_cases a Ha) as (_ & Hx & _). set (ex := e9 a 0%nat) in *. set (ey := e9 a 1%nat) in *.
    assert (Bx : -2 <= r * ex <= 2) by nra. assert (Btx : -2 <= t * ex <= 2) by nra.
    assert (Hin : nearly_inside 2 (fun i => p i / width i)).
    { intros i Hi. destruct i as [|[|i]]; [| |lia]; unfold width; cbn [Nat.eqb]; rewrite ?Hp0, ?Hp1; lra. }
    assert (Hout : ~ nearly_inside 2 (fun i => q i / width i)).
    { intros H. assert (H1 := H 1%nat ltac:(lia)). cbn beta in H1. unfold width in H1. cbn [Nat.eqb] in H1. rewrite Hq1 in H1. destruct Hs as [[_ Hs]|[_ Hs]]; lra. }
    destruct (only_face _ _ 1 s Hin Hout) as (k & E & Ef & Ep & _).
    { apply beyond_lt2; [|right; reflexivity|]; cbn [Nat.eqb]; unfold width; cbn [Nat.eqb]; rewrite ?Hq0, ?Hq1; [lra|]. destruct Hs as [[-> Hs]|[-> Hs]]; [left|right]; split; auto; lra. }
    destruct (cross_formula _ _ _ E) as (d & s' & Hd & Hs' & Ef' & El & Epk).
    assert (d = 1%nat /\ s' = s) as [-> ->] by lia.
    unfold findFace, faceCrossedFirst. cbn [to_unit chan dim]. fold p q. rewrite E. cbn [obind option_map]. eexists. split; [reflexivity|].
    cbn [cr_face cr_point to_real chan]. split; [lia|].
    assert (S0 : snap (p 0%nat / width 0) = p 0%nat / width 0). { apply stable_mid. unfold width. cbn [Nat.eqb]. rewrite Hp0. lra. }
    assert (S1 : snap (q 0%nat / width 0) = q 0%nat / width 0). { apply stable_mid. unfold width. cbn [Nat.eqb]. rewrite Hq0. lra. }
    assert (S2 : snap (p 1%nat / width 1) = Y). { unfold width. cbn [Nat.eqb]. rewrite Hp1. unfold Rdiv. rewrite Rinv_1, Rmult_1_r. exact HsY. }
    assert (S3 : snap (q 1%nat / width 1) = Y - r * ey).
    { unfold width. cbn [Nat.eqb]. rewrite Hq1. unfold Rdiv. rewrite Rinv_1, Rmult_1_r. destruct Hs as [[_ Hs]|[_ Hs]]; [apply stable_low|apply stable_high]; lra. }
    rewrite S2, S3 in El.
    assert (Hey : ey <> 0). { intros Z. rewrite Z in *. destruct Hs as [[_ Hs]|[_ Hs]]; lra. }
    assert (L : cr_lambda k = t / r).
    { rewrite El, <- Hw. field. split; [lra|]. intros Z. destruct Hs as [[-> Hs]|[-> Hs]]; cbn [INR] in Hw; nra. }
    rewrite Ep. split; [|unfold width; cbn [Nat.eqb]; ring]. rewrite Epk, S0, S1, L.
    replace (p 0%nat / width 0 + (q 0%nat / width 0 - p 0%nat / width 0) * (t / r)) with ((X - t * ex) / 10).
    2:{ unfold width. cbn [Nat.eqb]. rewrite Hp0, Hq0. field. lra. }
    rewrite (stable_mid ((X - t * ex) / 10)) by lra. unfold width. cbn [Nat.eqb]. field.
  Qed.

  Lemma chan_hit el X Y r a s t b : let p := currentPoint el in let q := departurePoint el in
    p 0%nat = X -> p 1%nat = Y -> q 0%nat = X - r * e9 a 0%nat -> q 1%nat = Y - r * e9 a 1%nat -> (1 <= a < 9)%nat ->
    3 <= X <= 7 -> 0 <= Y <= 1 -> stable Y -> 0 <= r <= 2 -> 0 <= t < r ->
    Y - t * e9 a 1%nat = INR s -> (s = 0%nat /\ Y - r * e9 a 1%nat <= - (1 / 100) \/ s = 1%nat /\ 101 / 100 <= Y - r * e9 a 1%nat) ->
    currentDirection el = a -> kind (2 + s) = BounceBack b -> (lifeTimeCounter el < 50)%nat ->
    exists el', step C e9 opp9 dt el = Ok (ContinueHit el' b) /\ dest el' = dest el /\ currentDirection el' = opp9 a /\
      lifeTimeCounter el' = S (lifeTimeCounter el) /\ hit_do_nothing el' = hit_do_nothing el /\
      currentPoint el' 0%nat = X - t * e9 a 0%nat /\ currentPoint el' 1%nat = INR s /\
      departurePoint el' 0%nat = X - t * e9 a 0%nat - (r - t) * e9 (opp9 a) 0%nat /\
      departurePoint el' 1%nat = INR s - (r - t) * e9 (opp9 a) 1%nat /\ dist 2 (currentPoint el') (departurePoint el') / norm C (e9 (currentDirection el')) = r - t.
  Proof.
    intros p q Hp0 Hp1 Hq0 Hq1 Ha HX HY HsY Hr Ht Hw Hs Hdir Hk Hlife.
    destruct (chan_face el X Y r a s t Hp0 Hp1 Hq0 Hq1 Ha HX HY HsY Hr Ht Hw Hs) as (k & FF & Ef & Ep0 & Ep1).
    destruct (e9_cases a Ha) as (Hc & _ & Hopp). assert (O0 := Hopp 0%nat ltac:(lia)). assert (O1 := Hopp 1%nat ltac:(lia)).
    unfold step. cbn [lifeTimeCounter currentCell currentPoint departurePoint dest_index dest_direction currentDirection hit_do_nothing].
    destruct (Nat.ltb_spec 50 (S (lifeTimeCounter el))) as [L|L]; [lia|]. rewrite FF. cbn [obind]. rewrite Ef. cbn [face_behind chan]. rewrite Hk.
    eexists. split; [reflexivity|].
    cbn [lifeTimeCounter currentCell currentPoint departurePoint dest dest_index dest_direction currentDirection hit_do_nothing]. rewrite Hdir.
    split; [reflexivity|]. split; [reflexivity|]. split; [reflexivity|]. split; [reflexivity|]. split; [exact Ep0|]. split; [exact Ep1|].
    set (N := norm C (e9 (opp9 a))).
    assert (EN : N = sqrt (e9 a 0%nat * e9 a 0%nat + e9 a 1%nat * e9 a 1%nat)).
    { unfold N, norm, dot. cbn [dim chan sumf]. f_equal. rewrite O0, O1. ring. }
    assert (PN : 0 < N). { rewrite EN. apply sqrt_lt_R0. destruct Hc as [[Hc1 Hc2]|Hc]; [rewrite Hc1; destruct Hc2 as [-> | ->]; lra|]. destruct Hc as [Hc|Hc]; rewrite Hc; nra. }
    set (m := norm C (fun i => departurePoint el i - cr_point k i)).
    assert (Em : m = (r - t) * N).
    { unfold m, norm, dot. cbn [dim chan sumf]. fold q. rewrite Hq0, Hq1, Ep0, Ep1, <- Hw, EN.
      rewrite <- (sqrt_Rsqr (r - t)) at 1 by lra. rewrite <- sqrt_mult_alt by apply Rle_0_sqr. f_equal. unfold Rsqr. ring. }
    assert (Em2 : m / N = r - t) by (rewrite Em; field; lra).
    assert (Dep : forall i, e9 (opp9 a) i * m / N = (r - t) * e9 (opp9 a) i) by (intros i; rewrite <- Em2; field; lra).
    rewrite !Dep, Ep0, Ep1. split; [reflexivity|]. split; [reflexivity|].
    unfold dist, dot. cbn [sumf]. rewrite !Dep, Ep0, Ep1.
    replace (sqrt _) with ((r - t) * N); [field; lra|]. rewrite EN. rewrite <- (sqrt_Rsqr (r - t)) at 1 by lra. rewrite <- sqrt_mult_alt by apply Rle_0_sqr.
    f_equal. unfold Rsqr. rewrite O0, O1. ring.
  Qed.

  Lemma chan_found el X Y : let q := departurePoint el in located C (currentCell el) (currentPoint el) -> hit_do_nothing el = false ->
    q 0%nat = X -> q 1%nat = Y -> 0 <= X <= 10 -> 0 <= Y <= 1 -> (lifeTimeCounter el < 50)%nat ->
    exists el', step C e9 opp9 dt el = Ok (Found el') /\ dest el' = dest el /\ currentDirection el' = currentDirection el /\ departurePoint el' = departurePoint el.
  Proof.
    intros q (u & Eu & Hu) Hdn Hq0 Hq1 HX HY Hlife.
    assert (F : findFace C (currentCell el) (currentPoint el) q = Ok None).
    { unfold findFace, faceCrossedFirst. cbn [to_unit chan dim] in *. injection Eu as <-.
      destruct (crossed_unit_spec 2 _ (fun i => q i / width i) ltac:(lia) Hu) as (r & E & Hn & _). rewrite E. cbn [obind].
      rewrite (proj2 Hn); [reflexivity|]. intros i Hi. unfold width. destruct i as [|[|i]]; [| |lia]; cbn [Nat.eqb]; rewrite ?Hq0, ?Hq1; lra. }
    unfold step. cbn [lifeTimeCounter currentCell currentPoint departurePoint dest_index dest_direction currentDirection hit_do_nothing].
    destruct (Nat.ltb_spec 50 (S (lifeTimeCounter el))) as [L|L]; [lia|]. fold q. rewrite F. cbn [obind]. rewrite Hdn.
    eexists. split; [reflexivity|]. split; [reflexivity|]. split; reflexivity.
  Qed.

  Lemma chan_located p X Y : p 0%nat = X -> p 1%nat = Y -> 0 <= X <= 10 -> 0 <= Y <= 1 -> located C tt p.
  Proof.
    intros H0 H1 HX HY. eexists. split; [reflexivity|]. cbn [dim chan]. intros i Hi. unfold width. destruct i as [|[|i]]; [| |lia]; cbn [Nat.eqb]; rewrite ?H0, ?H1; lra.
  Qed.
End Chan.
