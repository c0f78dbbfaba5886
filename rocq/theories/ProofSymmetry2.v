(** The multiple-relaxation-time collisions commute with the symmetries of D2Q9 and D3Q19. *)
From Coq Require Import QArith Qreals.
From Verif Require Import Prelude StencilData MRTData ModelStencils SpecStencils SpecCollision BigSum ProofStencils
  ProofWick ModelConfigNames ModelEquilibria ModelCollision SpecSetup ProofEquilibria ProofQuartic ProofEqMoments ProofRelax
  ProofCollideNode ProofForces ProofFixed SpecSymmetry ProofSymmetry.
Open Scope R_scope.

(** ** The collision matrix *)
Definition collision_matrix (n : nat) (M T : nat -> nat -> R) (om : nat -> R) (i k : nat) : R :=
  sumf n (fun j => T i j * om j * M j k).

Lemma mrt_matrix n basis M T om f feq i : make_M n basis = Ok M -> make_T n basis = Ok T -> (i < n)%nat ->
  relax_MRT n M T om f feq i = f i - sumf n (fun k => collision_matrix n M T om i k * (f k - feq k)).
Proof.
  intros HM HT Hi. unfold relax_MRT.
  transitivity (matvec n T (matvec n M f) i - sumf n (fun j => T i j * (om j * (matvec n M f j - matvec n M feq j)))).
  { set (m := matvec n M f). set (me := matvec n M feq). unfold matvec. rewrite <- sumf_minus. apply sumf_ext. intros j _. ring. }
  rewrite (proj1 (mrt_inverse n basis M T HM HT f i Hi)). f_equal.
  transitivity (sumf n (fun j => sumf n (fun k => T i j * om j * M j k * (f k - feq k)))).
  - apply sumf_ext. intros j _. unfold matvec. rewrite <- sumf_minus, <- sumf_scal, <- sumf_scal. apply sumf_ext. intros k _. ring.
  - rewrite sumf_swap. apply sumf_ext. intros k _. unfold collision_matrix. rewrite <- sumf_scal_r. reflexivity.
Qed.

Lemma sy_mrt L A pi basis M T om f f' feq feq' : symmetry L A pi ->
  make_M (st_Q L) basis = Ok M -> make_T (st_Q L) basis = Ok T ->
  (forall i k, (i < st_Q L)%nat -> (k < st_Q L)%nat ->
     collision_matrix (st_Q L) M T om (pi i) (pi k) = collision_matrix (st_Q L) M T om i k) ->
  turned_populations L pi f f' -> turned_populations L pi feq feq' ->
  turned_populations L pi (relax_MRT (st_Q L) M T om f feq) (relax_MRT (st_Q L) M T om f' feq').
Proof.
  intros Sy HM HT Hk Hf He i Hi. rewrite !(mrt_matrix (st_Q L) basis) by (try assumption; apply (sy_range L A pi Sy); assumption).
  rewrite (Hf i Hi). f_equal. rewrite (sy_sum L A pi Sy). apply sumf_ext. intros k Hk'. rewrite (Hk i k Hi Hk'), (Hf k Hk'), (He k Hk'). reflexivity.
Qed.

(** ** Moments with the same rate *)
Definition znum0 (t : list (list Q)) (i j : nat) : Z := QArith_base.Qnum (nth j (nth i t []) 0%Q).
Definition zsum (n : nat) (f : nat -> Z) : Z := fold_right (fun j s => (f j + s)%Z) 0%Z (seq 0 n).
Definition zproj (n : nat) (cls : list nat) (M T : list (list Q)) (c i k : nat) : Z :=
  zsum n (fun j => if Nat.eqb (nth j cls 0%nat) c then (znum0 T i j * znum0 M j k)%Z else 0%Z).
Definition dens_ok (n : nat) (d : positive) (t : list (list Q)) : bool :=
  forallb (fun i => forallb (fun j => Pos.eqb (QArith_base.Qden (nth j (nth i t []) 0%Q)) d) (seq 0 n)) (seq 0 n).

Lemma dens_ok_sound n d t : dens_ok n d t = true -> forall i j, (i < n)%nat -> (j < n)%nat -> matR t i j = IZR (znum0 t i j) / IZR (Z.pos d).
Proof.
  unfold dens_ok. intros H i j Hi Hj. rewrite forallb_forall in H. specialize (H i ltac:(apply in_seq; lia)).
  rewrite forallb_forall in H. specialize (H j ltac:(apply in_seq; lia)). apply Pos.eqb_eq in H.
  unfold matR, znum0, Q2R. rewrite H. reflexivity.
Qed.

Lemma zsum_IZR n f : IZR (zsum n f) = sumf n (fun j => IZR (f j)).
Proof.
  rewrite sumf_suml. unfold zsum. induction (seq 0 n) as [|x l IH]; [reflexivity|]. cbn [fold_right suml]. rewrite plus_IZR, IH. reflexivity.
Qed.

(** The common refinement of the groups of moments that share a rate. *)
Lemma matrix_classes n C cls r M T dM dT om i k : dens_ok n dM M = true -> dens_ok n dT T = true ->
  (forall j, (j < n)%nat -> (nth j cls 0 < C)%nat /\ om j = r (nth j cls 0%nat)) -> (i < n)%nat -> (k < n)%nat ->
  collision_matrix n (matR M) (matR T) om i k =
  sumf C (fun c => r c * (IZR (zproj n cls M T c i k) / (IZR (Z.pos dT) * IZR (Z.pos dM)))).
Proof.
  intros HM HT Hom Hi Hk. unfold collision_matrix.
  transitivity (sumf n (fun j => sumf C (fun c => delta (nth j cls 0%nat) c * (r c * (matR T i j * matR M j k))))).
  { apply sumf_ext. intros j Hj. destruct (Hom j Hj) as [Hc E].
    rewrite (sumf_delta C (nth j cls 0%nat) (fun c => r c * (matR T i j * matR M j k)) Hc), E. ring. }
  rewrite sumf_swap. apply sumf_ext. intros c _. unfold zproj. rewrite zsum_IZR. unfold Rdiv. rewrite <- sumf_scal_r, <- sumf_scal.
  apply sumf_ext. intros j Hj. rewrite (dens_ok_sound n dM M HM j k Hj Hk), (dens_ok_sound n dT T HT i j Hi Hj). unfold delta.
  destruct (Nat.eqb (nth j cls 0%nat) c); [rewrite mult_IZR; field; split; apply IZR_neq; lia|ring].
Qed.

(** ** Enumerating the symmetries of an integer lattice *)
Section Enumerate.
Variables D n : nat.
Variable dir : list (list Q).
Variable axes : list nat.      (* the directions along the axes *)

Definition zcomb (cols : list nat) (i a : nat) : Z := zsum D (fun b => (znum0 dir (nth b cols 0%nat) a * znum0 dir i b)%Z).
Definition zrow_is (j : nat) (f : nat -> Z) : bool := forallb (fun a => Z.eqb (znum0 dir j a) (f a)) (seq 0 D).
Definition image (cols : list nat) (i : nat) : option nat := find (fun j => zrow_is j (zcomb cols i)) (seq 0 n).
Definition units : list nat := filter (fun j => Z.eqb (zsum D (fun a => (znum0 dir j a * znum0 dir j a)%Z)) 1) (seq 0 n).
Fixpoint tuples (d : nat) : list (list nat) :=
  match d with O => [[]] | S d => flat_map (fun x => map (cons x) (tuples d)) units end.
Fixpoint all_some (l : list (option nat)) : option (list nat) :=
  match l with
  | [] => Some []
  | None :: _ => None
  | Some x :: l => match all_some l with Some r => Some (x :: r) | None => None end
  end.
Definition fits (tab : list (list Z)) (p : list nat) : bool :=
  forallb (fun i => let ri := nth i tab [] in let rp := nth (nth i p 0%nat) tab [] in
    forallb (fun k => Z.eqb (nth (nth k p 0%nat) rp 0%Z) (nth k ri 0%Z)) (seq 0 n)) (seq 0 n).
Definition check_cols (tabs : list (list (list Z))) (cols : list nat) : bool :=
  match all_some (map (image cols) (seq 0 n)) with
  | None => true
  | Some p => forallb (fun tab => fits tab p) tabs
  end.
Definition check_all (tabs : list (list (list Z))) : bool := forallb (check_cols tabs) (tuples D).
Definition lattice_ok : bool :=
  forallb (fun i => forallb (fun a => Pos.eqb (QArith_base.Qden (tblQ dir i a)) 1) (seq 0 D)) (seq 0 n) &&
  forallb (fun i => forallb (fun j => negb (zrow_is j (znum0 dir i)) || Nat.eqb i j) (seq 0 n)) (seq 0 n) &&
  Nat.eqb (length axes) D &&
  forallb (fun b => Nat.ltb (nth b axes 0%nat) n && zrow_is (nth b axes 0%nat) (fun a => if Nat.eqb b a then 1 else 0)%Z) (seq 0 D).

Lemma all_some_spec l : forall r, (forall i, (i < length l)%nat -> nth i l None = Some (r i)) -> all_some l = Some (map r (seq 0 (length l))).
Proof.
  induction l as [|x l IH]; intros r H; [reflexivity|]. pose proof (H O ltac:(cbn; lia)) as H0. cbn [nth] in H0. subst x.
  cbn [all_some length seq map]. rewrite (IH (fun i => r (S i))); [|intros i Hi; apply (H (S i)); cbn; lia].
  rewrite <- seq_shift, map_map. reflexivity.
Qed.

Lemma tuples_In d l : length l = d -> (forall x, In x l -> In x units) -> In l (tuples d).
Proof.
  revert l. induction d as [|d IH]; intros [|x l] Hl Hu; cbn in Hl; try discriminate; [left; reflexivity|].
  cbn [tuples]. apply in_flat_map. exists x. split; [apply Hu; left; reflexivity|]. apply in_map. apply IH; [lia|]. intros y Hy. apply Hu. right. assumption.
Qed.

Lemma zrow_is_true j f : zrow_is j f = true <-> forall a, (a < D)%nat -> znum0 dir j a = f a.
Proof.
  unfold zrow_is. rewrite forallb_forall. split; intros H a Ha.
  - apply Z.eqb_eq. apply H. apply in_seq. lia.
  - apply Z.eqb_eq. apply H. apply in_seq in Ha. lia.
Qed.

Variable L : stencil.
Variable A : nat -> nat -> R.
Variable pi : nat -> nat.
Hypothesis HD : st_D L = D.
Hypothesis Hn : st_Q L = n.
Hypothesis Hdir : forall i a, (i < n)%nat -> (a < D)%nat -> st_e L i a = tbl dir i a.
Hypothesis Hok : lattice_ok = true.
Hypothesis Sy : symmetry L A pi.

Lemma e_int i a : (i < n)%nat -> (a < D)%nat -> st_e L i a = IZR (znum0 dir i a).
Proof.
  intros Hi Ha. rewrite (Hdir i a Hi Ha). pose proof Hok as Hok'. unfold lattice_ok in Hok'. rewrite !andb_true_iff in Hok'. destruct Hok' as [[[H _] _] _].
  rewrite forallb_forall in H. specialize (H i ltac:(apply in_seq; lia)). rewrite forallb_forall in H. specialize (H a ltac:(apply in_seq; lia)).
  apply Pos.eqb_eq in H. unfold tbl, Q2R. rewrite H. unfold tblQ, znum0. field.
Qed.

Lemma rows_distinct i j : (i < n)%nat -> (j < n)%nat -> (forall a, (a < D)%nat -> znum0 dir j a = znum0 dir i a) -> j = i.
Proof.
  intros Hi Hj H. pose proof Hok as Hok'. unfold lattice_ok in Hok'. rewrite !andb_true_iff in Hok'. destruct Hok' as [[[_ K] _] _].
  rewrite forallb_forall in K. specialize (K i ltac:(apply in_seq; lia)). rewrite forallb_forall in K. specialize (K j ltac:(apply in_seq; lia)).
  rewrite (proj2 (zrow_is_true j (znum0 dir i)) H) in K. cbn in K. symmetry. apply Nat.eqb_eq. assumption.
Qed.

Lemma axis b : (b < D)%nat -> (nth b axes 0 < n)%nat /\ forall a, (a < D)%nat -> st_e L (nth b axes 0%nat) a = delta b a.
Proof.
  intros Hb. pose proof Hok as Hok'. unfold lattice_ok in Hok'. rewrite !andb_true_iff in Hok'. destruct Hok' as [_ K].
  rewrite forallb_forall in K. specialize (K b ltac:(apply in_seq; lia)). apply andb_prop in K. destruct K as [K1 K2].
  apply Nat.ltb_lt in K1. split; [assumption|]. intros a Ha. rewrite (e_int _ a K1 Ha), (proj1 (zrow_is_true _ _) K2 a Ha).
  unfold delta. destruct (Nat.eqb b a); reflexivity.
Qed.

Lemma column a b : (a < D)%nat -> (b < D)%nat -> A a b = st_e L (pi (nth b axes 0%nat)) a.
Proof.
  intros Ha Hb. destruct (axis b Hb) as [H1 H2]. rewrite (sy_direction L A pi Sy) by (rewrite ?Hn, ?HD; assumption).
  unfold turned. rewrite HD. rewrite (sumf_ext D _ (fun c => delta b c * A a c)).
  - symmetry. apply (sumf_delta D b (fun c => A a c)). assumption.
  - intros c Hc. rewrite (H2 c Hc). ring.
Qed.

Lemma pi_range i : (i < n)%nat -> (pi i < n)%nat.
Proof. intros Hi. rewrite <- Hn. apply (sy_range L A pi Sy). rewrite Hn. assumption. Qed.

Lemma pi_comb i a : (i < n)%nat -> (a < D)%nat -> znum0 dir (pi i) a = zcomb (map pi axes) i a.
Proof.
  intros Hi Ha. apply eq_IZR. rewrite <- (e_int (pi i) a (pi_range i Hi) Ha).
  rewrite (sy_direction L A pi Sy) by (rewrite ?Hn, ?HD; assumption). unfold turned, zcomb. rewrite zsum_IZR, HD.
  apply sumf_ext. intros b Hb. destruct (axis b Hb) as [H1 _]. rewrite (column a b Ha Hb), mult_IZR, <- (e_int i b Hi Hb).
  assert (Hl : length axes = D).
  { pose proof Hok as Hok'. unfold lattice_ok in Hok'. rewrite !andb_true_iff in Hok'. destruct Hok' as [[_ K] _]. apply Nat.eqb_eq. assumption. }
  rewrite (nth_indep (map pi axes) 0%nat (pi 0%nat)) by (rewrite map_length; lia). rewrite map_nth, <- (e_int _ a (pi_range _ H1) Ha). reflexivity.
Qed.

Lemma image_pi i : (i < n)%nat -> image (map pi axes) i = Some (pi i).
Proof.
  intros Hi. unfold image. destruct (find _ (seq 0 n)) as [j|] eqn:E.
  - apply find_some in E. destruct E as [Hj Hz]. apply in_seq in Hj. rewrite zrow_is_true in Hz. f_equal.
    apply rows_distinct; [apply pi_range; assumption|lia|]. intros a Ha. rewrite (Hz a Ha), (pi_comb i a Hi Ha). reflexivity.
  - exfalso. pose proof (find_none _ _ E (pi i) ltac:(apply in_seq; pose proof (pi_range i Hi); lia)) as H. cbv beta in H.
    rewrite (proj2 (zrow_is_true _ _)) in H; [discriminate|]. intros a Ha. apply pi_comb; assumption.
Qed.

Lemma axes_units x : In x (map pi axes) -> In x units.
Proof.
  intros H. apply in_map_iff in H. destruct H as (y & <- & Hy). apply (In_nth _ _ 0%nat) in Hy. destruct Hy as (b & Hb & <-).
  assert (Hl : length axes = D).
  { pose proof Hok as Hok'. unfold lattice_ok in Hok'. rewrite !andb_true_iff in Hok'. destruct Hok' as [[_ K] _]. apply Nat.eqb_eq. assumption. }
  rewrite Hl in Hb. destruct (axis b Hb) as [H1 H2]. unfold units. apply filter_In. split.
  - apply in_seq. pose proof (pi_range _ H1). lia.
  - apply Z.eqb_eq. apply eq_IZR. rewrite zsum_IZR.
    transitivity (sumf D (fun a => st_e L (pi (nth b axes 0%nat)) a * st_e L (pi (nth b axes 0%nat)) a)).
    { apply sumf_ext. intros a Ha. rewrite mult_IZR, (e_int _ a (pi_range _ H1) Ha). reflexivity. }
    pose proof (sy_ee L A pi Sy (nth b axes 0%nat) (nth b axes 0%nat)) as E. rewrite HD, Hn in E. rewrite (E H1 H1).
    rewrite (sumf_ext D _ (fun a => delta b a * delta b a)) by (intros a Ha; rewrite (H2 a Ha); reflexivity).
    rewrite (sumf_delta D b (fun a => delta b a)) by assumption. apply delta_refl.
Qed.

Lemma check_all_sound tabs : check_all tabs = true -> forall tab, In tab tabs -> forall i k, (i < n)%nat -> (k < n)%nat ->
  nth (pi k) (nth (pi i) tab []) 0%Z = nth k (nth i tab []) 0%Z.
Proof.
  intros H tab Htab i k Hi Hk. unfold check_all in H. rewrite forallb_forall in H.
  assert (Hl : length axes = D).
  { pose proof Hok as Hok'. unfold lattice_ok in Hok'. rewrite !andb_true_iff in Hok'. destruct Hok' as [[_ K] _]. apply Nat.eqb_eq. assumption. }
  assert (Hl' : length (map pi axes) = D) by (rewrite map_length; assumption).
  specialize (H (map pi axes) (tuples_In D (map pi axes) Hl' axes_units)). unfold check_cols in H.
  assert (E : all_some (map (image (map pi axes)) (seq 0 n)) = Some (map pi (seq 0 n))).
  { rewrite (all_some_spec _ pi); [rewrite map_length, seq_length; reflexivity|]. rewrite map_length, seq_length. intros j Hj.
    rewrite (nth_indep _ None (image (map pi axes) 0%nat)) by (rewrite map_length, seq_length; assumption).
    rewrite map_nth, seq_nth by assumption. apply image_pi. assumption. }
  rewrite E, forallb_forall in H. specialize (H tab Htab). unfold fits in H. rewrite forallb_forall in H.
  specialize (H i ltac:(apply in_seq; lia)). cbv zeta in H. rewrite forallb_forall in H. specialize (H k ltac:(apply in_seq; lia)).
  apply Z.eqb_eq in H. assert (Hp : forall j, (j < n)%nat -> nth j (map pi (seq 0 n)) 0%nat = pi j).
  { intros j Hj. rewrite (nth_indep _ 0%nat (pi 0%nat)) by (rewrite map_length, seq_length; assumption). rewrite map_nth, seq_nth by assumption. reflexivity. }
  rewrite !Hp in H by assumption. exact H.
Qed.
End Enumerate.

Definition ztab (n : nat) (cls : list nat) (M T : list (list Q)) (c : nat) : list (list Z) :=
  map (fun i => map (zproj n cls M T c i) (seq 0 n)) (seq 0 n).
Lemma ztab_nth n cls M T c i k : (i < n)%nat -> (k < n)%nat -> nth k (nth i (ztab n cls M T c) []) 0%Z = zproj n cls M T c i k.
Proof.
  intros Hi Hk. unfold ztab. rewrite (nth_indep _ [] (map (zproj n cls M T c 0%nat) (seq 0 n))) by (rewrite map_length, seq_length; assumption).
  rewrite (map_nth (fun i => map (zproj n cls M T c i) (seq 0 n))), seq_nth by assumption.
  rewrite (nth_indep _ 0%Z (zproj n cls M T c (0 + i) 0%nat)) by (rewrite map_length, seq_length; assumption).
  rewrite (map_nth (zproj n cls M T c (0 + i)%nat)), seq_nth by assumption. reflexivity.
Qed.

Lemma matrix_commutes D n dir axes L A pi C cls r M T dM dT om :
  st_D L = D -> st_Q L = n -> (forall i a, (i < n)%nat -> (a < D)%nat -> st_e L i a = tbl dir i a) -> lattice_ok D n dir axes = true ->
  symmetry L A pi -> dens_ok n dM M = true -> dens_ok n dT T = true ->
  (forall j, (j < n)%nat -> (nth j cls 0 < C)%nat /\ om j = r (nth j cls 0%nat)) ->
  check_all D n dir (map (ztab n cls M T) (seq 0 C)) = true ->
  forall i k, (i < n)%nat -> (k < n)%nat ->
  collision_matrix n (matR M) (matR T) om (pi i) (pi k) = collision_matrix n (matR M) (matR T) om i k.
Proof.
  intros HD Hn Hdir Hok Sy HM HT Hom Hc i k Hi Hk. pose proof (pi_range n L A pi Hn Sy) as Hr.
  rewrite !(matrix_classes n C cls r M T dM dT om) by (try assumption; apply Hr; assumption).
  apply sumf_ext. intros c Hcc. f_equal. f_equal. f_equal.
  pose proof (check_all_sound D n dir axes L A pi HD Hn Hdir Hok Sy _ Hc (ztab n cls M T c)) as H.
  specialize (H ltac:(apply in_map; apply in_seq; lia) i k Hi Hk). rewrite !ztab_nth in H by (try assumption; apply Hr; assumption). exact H.
Qed.

Definition cls9 : list nat := [0; 0; 0; 0; 0; 0; 1; 1; 1]%nat.
Definition cls19 : list nat := [0; 1; 2; 0; 3; 0; 3; 0; 3; 4; 2; 4; 2; 4; 4; 4; 5; 5; 5]%nat.

Lemma ok9 : lattice_ok 2 9 D2Q9_dir [1; 2]%nat = true. Proof. vm_compute. reflexivity. Qed.
Lemma ok19 : lattice_ok 3 19 D3Q19_dir [1; 6; 2]%nat = true. Proof. vm_compute. reflexivity. Qed.
Lemma dellar_all : check_all 2 9 D2Q9_dir (map (ztab 9 cls9 MRTDellarD2Q9_M MRTDellarD2Q9_T) (seq 0 2)) = true. Proof. vm_compute. reflexivity. Qed.
Lemma lallemand_all : check_all 2 9 D2Q9_dir (map (ztab 9 cls9 MRTLallemandD2Q9_M MRTLallemandD2Q9_T) (seq 0 2)) = true. Proof. vm_compute. reflexivity. Qed.
Lemma dhumieres_all : check_all 3 19 D3Q19_dir (map (ztab 19 cls19 MRTDHumieresD3Q19_M MRTDHumieresD3Q19_T) (seq 0 6)) = true. Proof. vm_compute. reflexivity. Qed.
