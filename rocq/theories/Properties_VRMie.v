(** C81: SAFT-VR-Mie. *)
From Coq Require Import Reals ZArith String List Lia Lra Bool Permutation.
From Coquelicot Require Import Coquelicot.
From Verif Require Import Json_model Vec_spec Vec_proofs Cubic_model Cubic_spec Cubic_proofs2 Terms_model Ideal_model Ideal_proofs Util_model Assoc_model Numerics_model.
From Verif Require Import LKP_spec LKP_proofs VRMie_model VRMie_spec VRMie_proofs VRMie_proofs2 VRMie_proofs3.
From Verif Require Derivs_spec Properties_SoftSAFT.
Import ListNotations.
Local Open Scope R_scope.

(** ** The pair potential *)
(** The potential that goes into the diameter is the Mie potential: zero at the diameter sigma,
    repulsive inside, attractive outside, nowhere deeper than epsilon, and that deep at one distance *)
Theorem C81_potential : forall v i, 3 < nth i (v_la v) 0 < nth i (v_lr v) 0 -> 0 < nth i (v_sigma v) 0 -> 0 < nth i (v_eps v) 0 ->
  (forall r, 0 < r -> exists u, uii v i r = Some u /\ - nth i (v_eps v) 0 <= u /\ (r < nth i (v_sigma v) 0 -> 0 < u) /\ (r = nth i (v_sigma v) 0 -> u = 0) /\ (nth i (v_sigma v) 0 < r -> u < 0)) /\
  uii v i (mie_rmin (nth i (v_lr v) 0) (nth i (v_la v) 0) (nth i (v_sigma v) 0)) = Some (- nth i (v_eps v) 0).
Proof.
  intros v i L S E. set (lr := nth i (v_lr v) 0) in *. set (la := nth i (v_la v) 0) in *. set (s := nth i (v_sigma v) 0) in *. set (e := nth i (v_eps v) 0) in *. split.
  - intros r H. exists (mie lr la s e r). split; [now apply uii_val|]. split; [apply mie_bound; try assumption; lra|].
    assert (CP : 0 < mie_C lr la * e) by (apply Rmult_lt_0_compat; [apply mie_C_pos; lra|exact E]). unfold mie. split; [|split].
    + intro H1. apply Rmult_lt_0_compat; [exact CP|]. assert (1 < s / r) by (apply (Rmult_lt_reg_r r); [lra|]; unfold Rdiv; rewrite Rmult_assoc, Rinv_l; lra).
      assert (Rpower (s / r) la < Rpower (s / r) lr) by (apply Rpower_lt; lra). lra.
    + intros ->. replace (s / s) with 1 by (field; lra). unfold Rpower. rewrite ln_1, !Rmult_0_r. ring.
    + intro H1. assert (Q : 0 < s / r < 1). { split; [now apply Rdiv_lt_0_compat|]. apply (Rmult_lt_reg_r r); [lra|]. unfold Rdiv. rewrite Rmult_assoc, Rinv_l; lra. }
      assert (Rpower (s / r) lr < Rpower (s / r) la). { unfold Rpower. apply exp_increasing. assert (ln (s / r) < 0) by (rewrite <- ln_1; apply ln_increasing; lra).
        assert (0 < (la - lr) * ln (s / r)); [|lra]. replace ((la - lr) * ln (s / r)) with ((lr - la) * (- ln (s / r))) by ring. apply Rmult_lt_0_compat; lra. }
      assert (0 < mie_C lr la * e * (Rpower (s / r) la - Rpower (s / r) lr)) by (apply Rmult_lt_0_compat; lra). lra.
  - rewrite uii_val; [|assumption|assumption|]. 2:{ unfold mie_rmin. apply Rmult_lt_0_compat; [assumption|apply exp_pos]. }
    f_equal. apply mie_at_min; [fold lr la; lra|assumption].
Qed.
(** The effective diameter lies between the cutoff distance and sigma; the check that it is not
    larger than sigma never fails, so an exception is one of the search for the cutoff *)
Theorem C81_diameter : forall v i T, 3 < nth i (v_la v) 0 < nth i (v_lr v) 0 -> 0 < nth i (v_sigma v) 0 -> 0 < nth i (v_eps v) 0 -> 0 < T ->
  (forall j, j_cutoff v i T = ok j -> exists d, dii v i T = ok d /\ nth i (v_sigma v) 0 / j <= d <= nth i (v_sigma v) 0) /\
  (forall d, dii v i T = ok d -> 0 < d <= nth i (v_sigma v) 0) /\
  (forall e, dii v i T = throws e <-> j_cutoff v i T = throws e).
Proof.
  intros v i T L S E HT. split; [|split].
  - intros j H. destruct (dii_bounds v i T j L S E HT H) as (d & D & B & _). exists d. auto.
  - intros d D. destruct (j_cutoff v i T) as [[j|e]|] eqn:J.
    + destruct (dii_bounds v i T j L S E HT J) as (d' & D' & B & P). rewrite D in D'. injection D' as <-. lra.
    + unfold dii in D. rewrite J in D. discriminate D.
    + unfold dii in D. rewrite J in D. discriminate D.
  - intro e. split; intro H.
    + destruct (j_cutoff v i T) as [[j|e']|] eqn:J.
      * destruct (dii_bounds v i T j L S E HT J) as (d' & D' & _). rewrite D' in H. discriminate H.
      * unfold dii in H. rewrite J in H. unfold obind at 1 in H. exact H.
      * unfold dii in H. rewrite J in H. discriminate H.
    + unfold dii. rewrite H. reflexivity.
Qed.
(** the search for the cutoff gives up with its own exception only, and with a number not below one *)
Theorem C81_cutoff : forall v i T, (forall j, j_cutoff v i T = ok j -> 1 <= j) /\ (forall e, j_cutoff v i T = throws e -> e = IterationFailure).
Proof.
  intros v i T. unfold j_cutoff. destruct (opt_bind _ _) as [y|]; unfold fin, obind, ok, throws; [|split; intros; discriminate].
  destruct (Rlt_dec y 1); split; intros z H; try discriminate; injection H as <-; auto. lra.
Qed.
Lemma clog_pos' : forall x, 0 < x -> clog x = Some (ln x).
Proof. intros x H. unfold clog. destruct (Rlt_dec 0 x); [reflexivity|contradiction]. Qed.
Lemma ln_eps : - ln EPS = 52 * ln 2.
Proof. unfold EPS. rewrite ln_Rinv by (apply pow_lt; lra). rewrite ln_pow by lra. replace (INR 52) with 52 by (cbn; ring). ring. Qed.
Lemma ln_eps_bounds : 0 < - ln EPS < 52.
Proof. rewrite ln_eps. assert (0 < ln 2) by (rewrite <- ln_1; apply ln_increasing; lra). assert (ln 2 < 1). { rewrite <- (ln_exp 1). apply ln_increasing; [lra|]. pose proof (exp_ineq1 1 ltac:(lra)). lra. } lra. Qed.
(** The residual of which the search finds the root, as a function of sigma / r: that of -u/T - ln eps
    with the machine precision eps.  The two derivatives used by Halley's method are derivatives *)
Definition residual (kappa lr la T j : R) : R := - (kappa * (Rpower j lr - Rpower j la)) / T - ln EPS.
Lemma residual_1 : forall kappa lr la T y, 0 < y -> T <> 0 -> is_derive (residual kappa lr la T) y (- (kappa * (lr * Rpower y lr - la * Rpower y la) / y) / T).
Proof.
  intros kappa lr la T y Hy HT. unfold residual, Rpower. generalize (ln EPS). intro e. auto_derive; [split; [exact Hy|split; [exact Hy|exact I]]|]. field. lra.
Qed.
Lemma residual_2 : forall kappa lr la T y, 0 < y -> T <> 0 ->
  is_derive (fun y => - (kappa * (lr * Rpower y lr - la * Rpower y la) / y) / T) y (- (kappa * (lr * (lr - 1) * Rpower y lr - la * (la - 1) * Rpower y la) / (y * y)) / T).
Proof.
  intros kappa lr la T y Hy HT. unfold Rpower. auto_derive; [repeat split; try exact Hy; lra|]. field. lra.
Qed.
Theorem C81_cutoff_derivatives : forall kappa lr la T j, 0 < j -> T <> 0 ->
  exists f g h, fgh kappa lr la T j = Some (f, g, h) /\ f = residual kappa lr la T j /\ is_derive_n (residual kappa lr la T) 1 j g /\ is_derive_n (residual kappa lr la T) 2 j h.
Proof.
  intros kappa lr la T j Hj HT. unfold fgh. rewrite !cpow_pos by exact Hj. cbn [opt_bind]. rewrite (cdiv_nz _ j) by lra. cbn [opt_bind]. rewrite (cdiv_nz _ (j * j)) by (apply Rmult_integral_contrapositive; split; lra). cbn [opt_bind].
  rewrite !(cdiv_nz _ T) by exact HT. cbn [opt_bind]. eexists _, _, _. split; [reflexivity|]. split; [reflexivity|]. split.
  - now apply residual_1.
  - cbn [is_derive_n]. apply (is_derive_ext_loc (fun y => - (kappa * (lr * Rpower y lr - la * Rpower y la) / y) / T)); [|now apply residual_2].
    exists (mkposreal j Hj). intros y Hy. cbn in Hy. unfold ball in Hy; cbn in Hy. unfold AbsRing_ball, abs, minus, plus, opp in Hy. cbn in Hy. assert (0 < y). { revert Hy. unfold Rabs. destruct (Rcase_abs _); lra. }
    symmetry. apply is_derive_unique. now apply residual_1.
Qed.
(** One step is Halley's, for at most four of them, with the derivatives of the residual *)
Theorem C81_cutoff_step : forall kappa lr la T j n g h, 0 < j -> T <> 0 ->
  is_derive_n (residual kappa lr la T) 1 j g -> is_derive_n (residual kappa lr la T) 2 j h ->
  let f := residual kappa lr la T j in let den := 2 * g ^ 2 - f * h in
  (den < EPS -> halley (S n) kappa lr la T j = Some j) /\
  (EPS <= den -> halley (S n) kappa lr la T j = halley n kappa lr la T (j - 2 * f * g / den)).
Proof.
  intros kappa lr la T j n g h Hj HT G H f den. destruct (C81_cutoff_derivatives kappa lr la T j Hj HT) as (f' & g' & h' & E & F & G' & H').
  assert (g' = g) by (transitivity (Derive_n (residual kappa lr la T) 1 j); [symmetry|]; now apply is_derive_n_unique). assert (h' = h) by (transitivity (Derive_n (residual kappa lr la T) 2 j); [symmetry|]; now apply is_derive_n_unique).
  subst g' h'. fold f in F. subst f'. cbn [halley]. rewrite E. cbn [opt_bind]. assert (D : 2 * g * g - f * h = den) by (unfold den; ring). rewrite D. destruct (Rlt_dec den EPS); split; intro X; try reflexivity; lra.
Qed.
(** from a root nothing but the root is returned *)
Theorem C81_cutoff_root : forall kappa lr la T j n, 0 < j -> T <> 0 -> residual kappa lr la T j = 0 -> halley n kappa lr la T j = Some j.
Proof.
  intros kappa lr la T j n Hj HT H. destruct (C81_cutoff_derivatives kappa lr la T j Hj HT) as (f & g & h & E & F & _). rewrite H in F. subst f. induction n as [|n IH]; [reflexivity|]. cbn [halley]. rewrite E. cbn [opt_bind].
  destruct (Rlt_dec _ EPS); [reflexivity|]. replace (j - 2 * 0 * g / (2 * g * g - 0 * h)) with j by (unfold Rdiv; ring). exact IH.
Qed.
(** The first guess is the root for the repulsive part alone, in which there is no attraction *)
Theorem C81_cutoff_guess : forall v i T e, 3 < nth i (v_la v) 0 < nth i (v_lr v) 0 -> 0 < T -> eps_ij v i i = Some e -> 0 < e ->
  let lr := nth i (v_lr v) 0 in let la := nth i (v_la v) 0 in let C := mie_C lr la in
  exists j0, 0 < j0 /\ C * e * Rpower j0 lr / T = - ln EPS /\
  forall j, j_cutoff v i T = ok j <-> halley 4 (C * e) lr la T j0 = Some j /\ 1 <= j.
Proof.
  intros v i T e L HT E He lr la C. assert (CP : 0 < C) by (apply mie_C_pos; unfold lr, la; lra). assert (LE : 0 < - ln EPS) by apply ln_eps_bounds. assert (CE : 0 < C * e) by now apply Rmult_lt_0_compat.
  assert (QP : 0 < - ln EPS * T / (C * e)) by (apply Rdiv_lt_0_compat; [now apply Rmult_lt_0_compat|exact CE]).
  exists (exp (ln (- ln EPS * T / (C * e)) / lr)). split; [apply exp_pos|]. split.
  - unfold Rpower. rewrite ln_exp. replace (lr * (ln (- ln EPS * T / (C * e)) / lr)) with (ln (- ln EPS * T / (C * e))) by (field; unfold lr; lra). rewrite exp_ln by exact QP. field. lra.
  - intro j. unfold j_cutoff. rewrite C_self by exact L. cbn [opt_bind]. rewrite E. cbn [opt_bind]. fold lr la C. rewrite cdiv_nz by lra. cbn [opt_bind]. rewrite clog_pos' by exact QP. cbn [opt_bind]. rewrite cdiv_nz by (unfold lr; lra). cbn [opt_bind].
    destruct (halley 4 _ lr la T _) as [y|]; unfold fin, obind, ok.
    + destruct (Rlt_dec y 1) as [Y|Y]; split; [discriminate| |intro X; injection X as <-; split; [reflexivity|lra]|].
      * intros [X Y']. injection X as <-. lra.
      * intros [X _]. injection X as <-. reflexivity.
    + split; [discriminate|]. intros [X _]. discriminate.
Qed.
(** The diameter is that of Barker and Henderson: the cutoff distance, inside which the molecules
    are taken to be hard, and the integral of 1 - exp(-u/T) beyond it, by the ten-point rule of C07 *)
Theorem C81_barker_henderson : forall v i T j, 3 < nth i (v_la v) 0 < nth i (v_lr v) 0 -> 0 < nth i (v_sigma v) 0 -> 0 < nth i (v_eps v) 0 -> 0 < T -> j_cutoff v i T = ok j ->
  let s := nth i (v_sigma v) 0 in
  exists q, quad 10 (fun r => 1 - exp (- mie (nth i (v_lr v) 0) (nth i (v_la v) 0) s (nth i (v_eps v) 0) r / T)) (s / j) s = Val q /\ dii v i T = ok (s / j + q).
Proof.
  intros v i T j L S E HT H s. eexists. split; [reflexivity|]. destruct (C81_cutoff v i T) as [J _]. specialize (J j H). assert (Ds : exists d, dii v i T = ok d) by (destruct (C81_diameter v i T L S E HT) as (X & _); destruct (X j H) as (d & D & _); eauto).
  destruct Ds as [d Dd]. unfold dii in Dd |- *. rewrite H in Dd |- *. unfold ok at 1 in Dd. unfold ok at 1. unfold obind at 1 in Dd. unfold obind at 1. fold s in Dd |- *. rewrite cdiv_nz in Dd |- * by lra. unfold opt_bind at 1 in Dd. unfold opt_bind at 1.
  assert (Q : forall x w acc, oquad (integrand v i T) (s / j) s x w = Some acc -> True) by trivial.
  assert (RC : 0 < s / j <= s). { unfold s in *. split; [apply Rdiv_lt_0_compat; lra|]. apply (Rmult_le_reg_r j); [lra|]. unfold Rdiv. rewrite Rmult_assoc, Rinv_l by lra. assert (nth i (v_sigma v) 0 * 1 <= nth i (v_sigma v) 0 * j) by (apply Rmult_le_compat_l; lra). lra. }
  assert (G : forall x w acc, List.Forall (fun xi => -1 <= xi <= 1) x -> length x = length w ->
    exists q, oquad (integrand v i T) (s / j) s x w = Some q /\ quad_sum (fun r => 1 - exp (- mie (nth i (v_lr v) 0) (nth i (v_la v) 0) s (nth i (v_eps v) 0) r / T)) (s / j) s x w acc = acc + q).
  { set (a := s / j) in *. induction x as [|xi x IH]; intros [|wi w] acc X Lw; try discriminate Lw; [exists 0; split; [reflexivity|cbn; ring]|]. apply Forall_inv in X as X1. apply Forall_inv_tail in X.
    assert (Y : a <= (s - a) / 2 * xi + (a + s) / 2). { assert (0 <= (s - a) / 2) by lra. assert ((s - a) / 2 * -1 <= (s - a) / 2 * xi) by (apply Rmult_le_compat_l; lra). lra. }
    cbn [oquad quad_sum]. set (y := (s - a) / 2 * xi + (a + s) / 2) in *. unfold integrand at 1. rewrite uii_val by (try assumption; lra). cbn [opt_bind]. rewrite cdiv_nz by lra. cbn [opt_bind]. fold s.
    destruct (IH w (acc + wi * (1 - exp (- mie (nth i (v_lr v) 0) (nth i (v_la v) 0) s (nth i (v_eps v) 0) y / T))) X ltac:(cbn in Lw; lia)) as (q & -> & ->). cbn [opt_bind]. eexists. split; [reflexivity|]. ring. }
  destruct (G (map dec gl10_x) (map dec gl10_w) 0 gl10_points) as (q & Eq & Es); [rewrite !map_length; reflexivity|]. rewrite Eq in Dd |- *. rewrite Es. unfold opt_bind, fin, ok, obind in Dd |- *.
  destruct (Rlt_dec s (s / j + (s - s / j) / 2 * q)); [discriminate Dd|]. do 3 f_equal. ring.
Qed.

(** ** The residual Helmholtz energy *)
Lemma physical_bounds : forall v i, physical (mix_of v) -> (i < length (v_m v))%nat -> 3 < nth i (v_la v) 0 < nth i (v_lr v) 0 /\ 0 < nth i (v_sigma v) 0 /\ 0 < nth i (v_eps v) 0.
Proof. intros v i [P _] Hi. destruct (P i Hi) as (A & B & C & D). cbn in *. lra. Qed.
Lemma diameters_pos : forall v T d, physical (mix_of v) -> 0 < T -> diameters v T = ok d -> length d = length (v_m v) /\ forall i, (i < length (v_m v))%nat -> 0 < nth i d 0 <= nth i (v_sigma v) 0.
Proof.
  intros v T d P HT H. apply oall_val in H. destruct H as [L H]. split; [exact L|]. intros i Hi. destruct (physical_bounds v i P Hi) as (A & B & C). apply (C81_diameter v i T A B C HT). now apply H.
Qed.
(** It is the published one wherever the formulas are finite: hard spheres of the calculated
    diameters, three orders of perturbation, and chains by the contact value, in which the
    derivatives with respect to density, coded by hand, are derivatives *)
Theorem C81_alphar : forall v T rho x d, physical (mix_of v) -> square (v_k v) (length (v_m v)) -> length x = length (v_m v) -> 0 < T -> diameters v T = ok d ->
  let rn := rho * N_A / 10 ^ 30 in
  regular (mix_of v) T rn (fractions x) (fractions d) ->
  vrmie_alphar v T rho x = ok (mono (mix_of v) T rn (fractions x) (fractions d) + chain (mix_of v) T rn (fractions x) (fractions d)) /\
  exists o, core_calcs v T rho x = ok o /\ o_eta o = D_mean (mix_of v) (fractions x) (fractions d) 3 * rho_s (mix_of v) rn (fractions x).
Proof.
  intros v T rho x d P Q Lx HT Hd rn Rg. destruct (diameters_pos v T d P HT Hd) as [Ld Pd].
  assert (Pd' : forall i, (i < length (v_m v))%nat -> 0 < nth i d 0) by (intros; now apply Pd).
  destruct (core_val v P Q T rho x d Lx Ld Pd' Rg) as (o & Co & M & Ch & Et & _).
  assert (CC : core_calcs v T rho x = ok o).
  { unfold core_calcs. rewrite Lx, Nat.eqb_refl. cbn [negb]. rewrite Hd. unfold ok at 1, obind. rewrite (state_val v T rho x d Rg). cbn [opt_bind]. rewrite Co. reflexivity. }
  split; [|exists o; auto]. unfold vrmie_alphar. rewrite CC. unfold ok at 1, obind. rewrite M, Ch. reflexivity.
Qed.
(** wrong number of mole fractions *)
Theorem C81_size : forall v T rho x, length x <> length (v_m v) -> vrmie_alphar v T rho x = throws InvalidArgument.
Proof. intros v T rho x H. unfold vrmie_alphar, core_calcs. apply Nat.eqb_neq in H. rewrite H. reflexivity. Qed.
(** exceptions: only that one and the failure to find a diameter *)
Theorem C81_exceptions : forall v T rho x e, physical (mix_of v) -> 0 < T -> vrmie_alphar v T rho x = throws e ->
  (e = InvalidArgument /\ length x <> length (v_m v)) \/ (e = IterationFailure /\ exists i, (i < length (v_m v))%nat /\ j_cutoff v i T = throws IterationFailure).
Proof.
  intros v T rho x e P HT H. unfold vrmie_alphar, core_calcs in H. destruct (Nat.eqb (length x) (length (v_m v))) eqn:L.
  2:{ cbn [negb obind throws] in H. injection H as <-. left. split; [reflexivity|]. now apply Nat.eqb_neq. }
  right. cbn [negb] in H. destruct (diameters v T) as [[d|e']|] eqn:D; [|
    |discriminate H].
  { exfalso. unfold obind in H. destruct (fin _) as [[o|e']|] eqn:F; try discriminate. unfold fin in F. destruct (opt_bind _ _); discriminate F. }
  unfold obind in H. injection H as ->. unfold diameters in D.
  assert (G : forall n a, oall (map (fun i => dii v i T) (seq a n)) = throws e -> exists i, (a <= i < a + n)%nat /\ dii v i T = throws e).
  { clear. induction n as [|n IH]; intros a D; cbn [seq map oall] in D; [discriminate|]. destruct (dii v a T) as [[d|e']|] eqn:Ea; [| |discriminate].
    - unfold obind in D at 1. destruct (oall _) as [[t|e'']|] eqn:Et in D; try discriminate. unfold obind in D. injection D as ->. destruct (IH (S a) Et) as (i & I & J). exists i. split; [lia|exact J].
    - unfold obind in D. injection D as ->. exists a. split; [lia|exact Ea]. }
  destruct (G _ _ D) as (i & I & J). assert (Hi : (i < length (v_m v))%nat) by lia. destruct (physical_bounds v i P Hi) as (A & B & C).
  destruct (C81_diameter v i T A B C HT) as (_ & _ & X). apply X in J. destruct (C81_cutoff v i T) as [_ Y]. pose proof (Y e J) as ->. split; [reflexivity|]. exists i. auto.
Qed.

(** ** Hard spheres *)
(** one component: the Carnahan-Starling equation *)
Theorem C81_carnahan_starling : forall s rho, 0 < s -> PI / 6 * s ^ 3 * rho < 1 ->
  let eta := PI / 6 * s ^ 3 * rho in
  a_HS rho (fun l => PI / 6 * s ^ l * rho) (fun l => PI / 6 * s ^ l) = Some ((4 * eta - 3 * eta ^ 2) / (1 - eta) ^ 2).
Proof.
  intros s rho Hs H eta. pose proof PI_RGT_0 as Pp. rewrite (aHS_val rho (fun l => PI / 6 * s ^ l) (fun l => PI / 6 * s ^ l)); [|reflexivity|cbn; ring| |exact H].
  2:{ apply Rmult_integral_contrapositive. split; [lra|]. apply pow_nonzero. lra. }
  f_equal. unfold BMCSL. cbv zeta. replace ((PI / 6 * s ^ 2) ^ 3 / ((PI / 6 * s ^ 3) ^ 2 * (PI / 6 * s ^ 0)) - 1) with 0 by (field; split; lra).
  assert (6 - PI * s ^ 3 * rho <> 0) by lra. unfold eta. replace (1 - PI / 6 * s ^ 3 * rho) with ((6 - PI * s ^ 3 * rho) / 6) by field. field. repeat split; [assumption|lra|lra].
Qed.
(** the branch for zero density is not another equation: both are continuous in the density *)
Theorem C81_hard_spheres : forall (D : nat -> R), D 0%nat = PI / 6 -> 0 < D 3%nat -> forall rho, D 3%nat * rho < 1 -> a_HS rho (fun l => D l * rho) D = Some (BMCSL D rho).
Proof. intros D D0 D3 rho H. apply aHS_val; [reflexivity|assumption|lra|assumption]. Qed.

(** ** Low densities *)
Lemma shape_bound : forall l z, 1 <= l -> 0 <= z < 1 / 3000 -> z_eff (shape l) z < 1.
Proof.
  intros l z Hl Hz. unfold z_eff, shape. cbn [sumn nth Nat.add].
  assert (I1 : 0 < / l <= 1) by (split; [apply Rinv_0_lt_compat; lra|rewrite <- Rinv_1; apply Rinv_le_contravar; lra]).
  assert (l2 : 1 <= l ^ 2) by (cbn; assert (1 * 1 <= l * l) by (apply Rmult_le_compat; lra); lra). assert (l3 : 1 <= l ^ 3) by (cbn in *; assert (1 * 1 <= l * (l * (l * 1))) by (apply Rmult_le_compat; lra); lra).
  assert (I2 : 0 < / l ^ 2 <= 1) by (split; [apply Rinv_0_lt_compat; lra|rewrite <- Rinv_1; apply Rinv_le_contravar; lra]).
  assert (I3 : 0 < / l ^ 3 <= 1) by (split; [apply Rinv_0_lt_compat; lra|rewrite <- Rinv_1; apply Rinv_le_contravar; lra]).
  unfold Rdiv. set (q1 := / l) in *. set (q2 := / l ^ 2) in *. set (q3 := / l ^ 3) in *. clearbody q1 q2 q3.
  assert (Z : forall n, 0 <= z ^ n) by (intro; apply pow_le; lra). assert (Zn : forall n, z ^ (S n) <= z). { induction n as [|n IH]; [cbn; lra|]. cbn [pow] in *. assert (z * (z * z ^ n) <= 1 * (z * z ^ n)) by (apply Rmult_le_compat_r; [|lra]; apply Rmult_le_pos; [lra|apply (Z n)]). lra. }
  assert (B : forall c m n, c <= m -> 0 <= m -> c * z ^ (S n) <= m * z). { intros c m n Hc Hm. apply Rle_trans with (m * z ^ (S n)); [apply Rmult_le_compat_r; [apply (Z (S n))|exact Hc]|apply Rmult_le_compat_l; auto]. }
  pose proof (B (0.81096 + 1.7888 * q1 - 37.578 * q2 + 92.284 * q3) 95 0%nat ltac:(lra) ltac:(lra)). pose proof (B (1.0205 - 19.341 * q1 + 151.26 * q2 - 463.50 * q3) 153 1%nat ltac:(lra) ltac:(lra)).
  pose proof (B (-1.9057 + 22.845 * q1 - 228.14 * q2 + 973.92 * q3) 997 2%nat ltac:(lra) ltac:(lra)). pose proof (B (1.0885 - 6.1962 * q1 + 106.98 * q2 - 677.64 * q3) 109 3%nat ltac:(lra) ltac:(lra)). lra.
Qed.
(** For every physical mixture, at low density, the formulas are finite as soon as the rational
    functions f_k of the exponents are *)
Lemma regular_low : forall v T rho x d, physical (mix_of v) -> length x = length (v_m v) -> composition x -> 0 < T -> diameters v T = ok d -> 0 <= rho ->
  (forall i j k, (i < length (v_m v))%nat -> (j < length (v_m v))%nat -> (1 <= k <= 6)%nat -> f_den k (mix_alpha (mix_of v) i j) <> 0) ->
  (forall i, (i < length (v_m v))%nat -> PI / 6 * rho_s (mix_of v) (rho * N_A / 10 ^ 30) (fractions x) * nth i (v_sigma v) 0 ^ 3 < 1 / 3000) ->
  regular (mix_of v) T (rho * N_A / 10 ^ 30) (fractions x) (fractions d).
Proof.
  intros v T rho x d P Lx C HT Hd Hr F Hs. destruct (diameters_pos v T d P HT Hd) as [Ld Pd]. set (c := mix_of v) in *. set (N := length (v_m v)) in *. set (rn := rho * N_A / 10 ^ 30) in *.
  destruct (Properties_SoftSAFT.has_part x C) as (k0 & Hk & Xk). pose proof C as [C1 C2]. pose proof P as [Pa _]. pose proof PI_RGT_0 as Pp.
  assert (MB : 0 < mbar c (fractions x)).
  { unfold mbar. change (c_n c) with N. apply Properties_SoftSAFT.sumn_pos1.
    - intros i Hi. apply Rmult_le_pos; [apply C1; lia|]. apply Rlt_le. apply (Pa i Hi).
    - exists k0. split; [lia|]. apply Rmult_lt_0_compat; [exact Xk|]. apply (Pa k0). change (c_n c) with N. lia. }
  assert (XS : forall i, (i < N)%nat -> 0 <= x_s c (fractions x) i).
  { intros i Hi. unfold x_s. apply Rmult_le_pos; [|apply Rlt_le; now apply Rinv_0_lt_compat]. apply Rmult_le_pos; [apply Rlt_le; apply (Pa i Hi)|apply C1; lia]. }
  assert (XK : 0 < x_s c (fractions x) k0).
  { unfold x_s. apply Rdiv_lt_0_compat; [|exact MB]. apply Rmult_lt_0_compat; [|exact Xk]. apply (Pa k0). change (c_n c) with N. lia. }
  assert (XT : sumn N (x_s c (fractions x)) = 1).
  { unfold x_s. rewrite (sumn_ext _ _ (fun i => (fractions x i * c_m c i) * / mbar c (fractions x))) by (intros; unfold Rdiv; ring). rewrite sumn_scal_r. change (sumn N (fun i => fractions x i * c_m c i)) with (mbar c (fractions x)). apply Rinv_r. lra. }
  assert (RS : 0 <= rho_s c rn (fractions x)).
  { unfold rho_s. apply Rmult_le_pos; [|lra]. unfold rn. apply Rmult_le_pos; [apply Rmult_le_pos; [exact Hr|unfold N_A; lra]|]. apply Rlt_le, Rinv_0_lt_compat, pow_lt. lra. }
  set (rs := rho_s c rn (fractions x)) in *.
  (* the largest diameter *)
  assert (MX : exists s, (forall i, (i < N)%nat -> 0 < nth i d 0 <= s) /\ PI / 6 * rs * s ^ 3 < 1 / 3000).
  { assert (G : forall n, (n <= N)%nat -> exists s, 0 <= s /\ (forall i, (i < n)%nat -> nth i d 0 <= s) /\ PI / 6 * rs * s ^ 3 < 1 / 3000).
    { induction n as [|n IH]; intro Hn. { exists 0. split; [lra|]. split; [intros; lia|]. rewrite pow_i by lia. lra. }
      destruct IH as (s & S0 & S1 & S2); [lia|]. destruct (Rle_dec (nth n (v_sigma v) 0) s) as [L|L].
      - exists s. split; [exact S0|]. split; [|exact S2]. intros i Hi. destruct (Nat.eq_dec i n) as [->|]; [|apply S1; lia]. destruct (Pd n); [lia|]. lra.
      - exists (nth n (v_sigma v) 0). split; [lra|]. split; [|apply Hs; lia]. intros i Hi. destruct (Nat.eq_dec i n) as [->|]; [apply Pd; lia|]. specialize (S1 i ltac:(lia)). lra. }
    destruct (G N ltac:(lia)) as (s & S0 & S1 & S2). exists s. split; [|exact S2]. intros i Hi. split; [apply Pd; exact Hi|now apply S1]. }
  destruct MX as (s & SD & SZ).
  assert (K0 : (k0 < N)%nat) by lia. assert (S0 : 0 < s) by (destruct (SD k0 K0); lra). assert (S3 : 0 < s ^ 3) by now apply pow_lt.
  assert (DD : 0 <= double c (fractions x) (fun i j => d_ij (fractions d) i j ^ 3) <= s ^ 3).
  { unfold double. change (c_n c) with N. assert (B : forall i j, (i < N)%nat -> (j < N)%nat -> 0 <= d_ij (fractions d) i j ^ 3 <= s ^ 3).
    { intros i j Hi Hj. destruct (SD i Hi), (SD j Hj). unfold d_ij, fractions. split; [apply pow_le; lra|]. apply pow_incr. lra. }
    split.
    - apply sumn_pos. intros i Hi. apply sumn_pos. intros j Hj. apply Rmult_le_pos; [apply Rmult_le_pos; auto|apply (B i j Hi Hj)].
    - apply Rle_trans with (sumn N (fun i => sumn N (fun j => x_s c (fractions x) i * x_s c (fractions x) j * s ^ 3))).
      + apply sumn_le. intros i Hi. apply sumn_le. intros j Hj. apply Rmult_le_compat_l; [apply Rmult_le_pos; auto|apply (B i j Hi Hj)].
      + rewrite (sumn_ext N _ (fun i => x_s c (fractions x) i * s ^ 3)).
        * rewrite sumn_scal_r, XT. lra.
        * intros i Hi. rewrite (sumn_ext N _ (fun j => (x_s c (fractions x) i * s ^ 3) * x_s c (fractions x) j)) by (intros; ring). rewrite sumn_scal, XT. ring. }
  assert (ZX : 0 <= zeta_x c rn (fractions x) (fractions d) < 1 / 3000).
  { unfold zeta_x. fold rs. assert (0 <= PI / 6 * rs) by (apply Rmult_le_pos; lra). split; [apply Rmult_le_pos; lra|]. apply Rle_lt_trans with (PI / 6 * rs * s ^ 3); [|exact SZ]. apply Rmult_le_compat_l; lra. }
  assert (D3 : 0 < D_mean c (fractions x) (fractions d) 3 <= PI / 6 * s ^ 3).
  { unfold D_mean. change (c_n c) with N. split.
    - apply Rmult_lt_0_compat; [lra|]. apply Properties_SoftSAFT.sumn_pos1.
      + intros i Hi. apply Rmult_le_pos; [auto|]. apply pow_le. unfold fractions. apply Rlt_le. apply (SD i Hi).
      + exists k0. split; [exact K0|]. apply Rmult_lt_0_compat; [exact XK|]. apply pow_lt. apply (SD k0 K0).
    - apply Rmult_le_compat_l; [lra|]. apply Rle_trans with (sumn N (fun i => x_s c (fractions x) i * s ^ 3)).
      + apply sumn_le. intros i Hi. apply Rmult_le_compat_l; [auto|]. apply pow_incr. unfold fractions. destruct (SD i Hi). lra.
      + rewrite sumn_scal_r, XT. lra. }
  split; [lra|]. split; [lra|]. split; [lra|]. split.
  { apply Rle_lt_trans with (PI / 6 * s ^ 3 * rs); [apply Rmult_le_compat_r; lra|]. lra. }
  split; [lra|]. set (z := zeta_x c rn (fractions x) (fractions d)) in *. split.
  { assert (0 <= z ^ 2) by (apply pow_le; lra). assert (0 <= z ^ 4) by (apply pow_le; lra). assert (z ^ 3 <= z). { cbn. assert (z * z <= 1 * 1) by (apply Rmult_le_compat; lra). assert (z * (z * z) <= z * 1) by (apply Rmult_le_compat_l; lra). lra. } lra. }
  intros i j Hi Hj. split; [intros k Hk2; now apply F|]. intros l Il. apply Rlt_not_eq. apply shape_bound; [|exact ZX]. pose proof (mix_l_order v P i j Hi Hj) as LL. fold c in LL. cbn [In] in Il. decompose [or] Il; lra.
Qed.
(** so, up to a packing of 1/3000, no further assumption is needed *)
Theorem C81_low_density : forall v T rho x d, physical (mix_of v) -> square (v_k v) (length (v_m v)) -> length x = length (v_m v) -> composition x -> 0 < T -> diameters v T = ok d -> 0 <= rho ->
  (forall i j k, (i < length (v_m v))%nat -> (j < length (v_m v))%nat -> (1 <= k <= 6)%nat -> f_den k (mix_alpha (mix_of v) i j) <> 0) ->
  let rn := rho * N_A / 10 ^ 30 in
  (forall i, (i < length (v_m v))%nat -> PI / 6 * (rn * mbar (mix_of v) (fractions x)) * nth i (v_sigma v) 0 ^ 3 < 1 / 3000) ->
  vrmie_alphar v T rho x = ok (mono (mix_of v) T rn (fractions x) (fractions d) + chain (mix_of v) T rn (fractions x) (fractions d)).
Proof. intros v T rho x d P Q Lx C HT Hd Hr F rn Hs. apply (C81_alphar v T rho x d P Q Lx HT Hd). now apply regular_low. Qed.

(** ** The limit of zero density *)
Lemma suth_zero : forall x l, 0 < x -> 4 < l -> suth x l 0 = - x ^ 3 / (l - 3).
Proof.
  intros x l Hx Hl. unfold suth, sutherland, a1_term, B_term, intI. replace (z_eff (shape l) 0) with 0 by (unfold z_eff; cbn [sumn Nat.add pow]; ring).
  assert (E : Rpower x l * Rpower x (3 - l) = x ^ 3). { rewrite <- Rpower_plus. replace (l + (3 - l)) with (INR 3) by (cbn; ring). now apply Rpower_pow. }
  replace (Rpower x l * (-1 / (l - 3) * (1 - 0 / 2) / (1 - 0) ^ 3 + ((1 - 0 / 2) / (1 - 0) ^ 3 * (- (Rpower x (3 - l) - 1) / (l - 3)) - 9 * 0 * (1 + 0) / (2 * (1 - 0) ^ 3) * intJ x l)))
    with (- (Rpower x l * Rpower x (3 - l)) / (l - 3)) by (field; lra). now rewrite E.
Qed.
Lemma derive_times : forall F, continuous F 0 -> Derive (fun z => z * F z) 0 = F 0.
Proof.
  intros F C. apply is_derive_unique. apply is_derive_Reals. intros eps He. apply continuity_pt_filterlim in C. destruct (C eps He) as (a & Ha & H). exists (mkposreal a Ha). intros h Hh Hb. cbn in Hb.
  replace (((0 + h) * F (0 + h) - 0 * F 0) / h - F 0) with (F h - F 0) by (replace (0 + h) with h by ring; field; exact Hh).
  apply (H h). split; [split; [exact I|auto]|]. unfold dist; cbn. unfold R_dist. now rewrite Rminus_0_r.
Qed.
Lemma suth_cont : forall x l, 4 < l -> continuous (fun z => suth x l z) 0.
Proof.
  intros x l Hl. apply (ex_derive_continuous (K := R_AbsRing) (V := R_NormedModule)). unfold suth, sutherland, a1_term, B_term.
  assert (Z : z_eff (shape l) 0 = 0) by (unfold z_eff; cbn [sumn Nat.add pow]; ring).
  apply @ex_derive_mult; [apply ex_derive_const|]. apply @ex_derive_plus.
  - eexists. apply (is_derive_comp (fun u => -1 / (l - 3) * (1 - u / 2) / (1 - u) ^ 3) (z_eff (shape l))); [|apply dzeff_is]. apply a1_shape; lra.
  - auto_derive. split; [|split; [|exact I]]; lra.
Qed.
Lemma KHS_cont : continuous K_HS 0.
Proof. apply (ex_derive_continuous (K := R_AbsRing) (V := R_NormedModule)). unfold K_HS. auto_derive. lra. Qed.
(** At zero density the residual Helmholtz energy is zero: the terms of every order vanish and the
    contact value is one, whatever the chains *)
Theorem C81_zero_density : forall v T x d, physical (mix_of v) -> square (v_k v) (length (v_m v)) -> length x = length (v_m v) -> composition x -> 0 < T -> diameters v T = ok d ->
  (forall i j k, (i < length (v_m v))%nat -> (j < length (v_m v))%nat -> (1 <= k <= 6)%nat -> f_den k (mix_alpha (mix_of v) i j) <> 0) ->
  vrmie_alphar v T 0 x = ok 0.
Proof.
  intros v T x d P Q Lx C HT Hd F. destruct (diameters_pos v T d P HT Hd) as [Ld Pd]. set (c := mix_of v) in *.
  assert (R0 : rho_s c (0 * N_A / 10 ^ 30) (fractions x) = 0) by (unfold rho_s, Rdiv; ring).
  rewrite (C81_low_density v T 0 x d P Q Lx C HT Hd (Rle_refl 0) F). 2:{ intros i Hi. fold (rho_s (mix_of v) (0 * N_A / 10 ^ 30) (fractions x)). fold c. rewrite R0. lra. }
  fold c. set (rn := 0 * N_A / 10 ^ 30) in *. f_equal. f_equal. set (fx := fractions x) in *. set (fd := fractions d) in *.
  assert (ZX : zeta_x c rn fx fd = 0) by (unfold zeta_x; rewrite R0; ring). assert (ZB : zeta_bar c rn fx = 0) by (unfold zeta_bar; rewrite R0; ring).
  assert (DZ : forall q, (forall i j, q i j = 0) -> double c fx q = 0).
  { intros q Hq. unfold double. rewrite (sumn_ext _ _ (fun _ => 0)); [apply sumn_zero|]. intros. rewrite (sumn_ext _ _ (fun _ => 0)); [apply sumn_zero|]. intros. rewrite Hq. ring. }
  assert (M : mono c T rn fx fd = 0).
  { unfold mono. rewrite !DZ.
    - unfold BMCSL. rewrite R0, !Rmult_0_r. rewrite Rminus_0_r, ln_1. unfold Rdiv. rewrite !Rmult_0_l, !Rmult_0_r. ring.
    - intros. unfold A3. rewrite ZB. ring.
    - intros. unfold A2. rewrite R0. ring.
    - intros. unfold A1. rewrite R0. ring. }
  assert (G : forall i, (i < c_n c)%nat -> g_Mie c T rn fx fd i = 1).
  { intros i Hi. pose proof (mix_l_order v P i i Hi Hi) as L. fold c in L. set (la := mix_la c i i) in *. set (lr := mix_lr c i i) in *.
    assert (X : 0 < ratio c fd i i). { unfold ratio, mix_sigma, d_ij. destruct (physical_bounds v i P Hi) as (_ & S & _). change (c_sigma c i) with (nth i (v_sigma v) 0). change (fd i) with (nth i d 0). destruct (Pd i Hi). apply Rdiv_lt_0_compat; lra. }
    assert (H1 : g_HS c rn fx fd i = 1). { unfold g_HS. rewrite ZX. rewrite Rminus_0_r, ln_1. transitivity (exp 0); [f_equal; field|apply exp_0]. }
    assert (G1 : g_1 c rn fx fd i = 0).
    { unfold g_1. fold la lr. rewrite ZX. rewrite derive_times. 2:{ apply @continuous_minus; apply suth_cont; lra. } rewrite !suth_zero by lra. set (x3 := ratio c fd i i ^ 3). field. lra. }
    assert (G2 : g_2MCA c rn fx fd i = 0).
    { unfold g_2MCA. fold la lr. rewrite ZX. rewrite derive_times.
      2:{ unfold second. fold la lr. apply @continuous_mult; [exact KHS_cont|]. apply @continuous_plus; [apply @continuous_minus|]; [apply suth_cont; lra| |apply suth_cont; lra]. apply @continuous_mult; [apply continuous_const|]. apply suth_cont; lra. }
      unfold second. fold la lr. rewrite !suth_zero by lra. replace (K_HS 0) with 1 by (unfold K_HS; field). set (x3 := ratio c fd i i ^ 3). field. lra. }
    unfold g_Mie. rewrite G1, G2, H1, !Rmult_0_r, Rplus_0_r. unfold Rdiv. rewrite Rmult_0_l, exp_0. ring. }
  rewrite M. unfold chain. rewrite (sumn_ext _ _ (fun _ => 0)); [rewrite sumn_zero; ring|]. intros i Hi. rewrite (G i Hi), ln_1. ring.
Qed.
(** monomers have no chain term *)
Theorem C81_monomers : forall v T rho x d, physical (mix_of v) -> square (v_k v) (length (v_m v)) -> length x = length (v_m v) -> 0 < T -> diameters v T = ok d ->
  (forall i, (i < length (v_m v))%nat -> nth i (v_m v) 0 = 1) -> let rn := rho * N_A / 10 ^ 30 in
  regular (mix_of v) T rn (fractions x) (fractions d) -> vrmie_alphar v T rho x = ok (mono (mix_of v) T rn (fractions x) (fractions d)).
Proof.
  intros v T rho x d P Q Lx HT Hd H1 rn Rg. destruct (C81_alphar v T rho x d P Q Lx HT Hd Rg) as [-> _]. f_equal. f_equal. fold rn. replace (chain _ _ _ _ _) with 0; [ring|].
  unfold chain. rewrite (sumn_ext _ _ (fun _ => 0)); [rewrite sumn_zero; ring|]. intros i Hi. change (c_m (mix_of v) i) with (nth i (v_m v) 0). rewrite H1 by exact Hi. ring.
Qed.

(** ** Components *)
(** Splitting, merging and reordering components changes nothing, when the interaction parameters
    are symmetric *)
Definition symmetric (k : list (list R)) (n : nat) : Prop := forall i j, (i < n)%nat -> (j < n)%nat -> kat k i j = kat k j i.
Theorem C81_copies : forall r x' x v, lumped r x' x -> length (v_m v) = length x -> square (v_k v) (length x) -> symmetric (v_k v) (length x) ->
  forall T rho a, vrmie_alphar v T rho x = ok a -> vrmie_alphar (pick_vr r v) T rho x' = ok a.
Proof.
  intros r x' x v HL Lm Q Sy T rho a H. pose proof HL as (Lr & Hr & _). unfold vrmie_alphar in *. unfold core_calcs in *. rewrite Lm, Nat.eqb_refl in H. cbn [negb] in H.
  replace (length x' =? length (v_m (pick_vr r v)))%nat with true by (symmetry; apply Nat.eqb_eq; unfold pick_vr; cbn [v_m]; rewrite pick_length; exact Lr). cbn [negb].
  destruct (diameters v T) as [[d|e]|] eqn:Hd; [|discriminate H|discriminate H].
  rewrite (diameters_pick r v (length x) Q Sy Hr T d Lm Hd). unfold ok at 1, obind. unfold obind in H.
  destruct (vstate_of v T rho x d) as [s|] eqn:Es; [|discriminate H]. cbn [opt_bind] in H. destruct (core_of v s) as [o|] eqn:Eo; [|discriminate H].
  assert (Ld : length d = length x) by (apply oall_val in Hd; rewrite <- Lm; apply Hd).
  destruct (state_pick r v (length x) Hr x' x HL eq_refl Lm T rho d s Es) as (-> & _). cbn [opt_bind].
  rewrite (core_pick r v (length x) Q Sy Hr x' x HL eq_refl Lm T rho d s o Ld Es Eo). exact H.
Qed.
Theorem C81_order : forall r x v, Permutation r (seq 0 (length x)) -> length (v_m v) = length x -> square (v_k v) (length x) -> symmetric (v_k v) (length x) ->
  forall T rho a, vrmie_alphar v T rho x = ok a -> vrmie_alphar (pick_vr r v) T rho (pick 0 r x) = ok a.
Proof. intros r x v Hr Lm Q Sy T rho a. apply C81_copies; try assumption. now apply perm_lumped. Qed.
Theorem C81_division : forall x j y v, (j < length x)%nat -> length (v_m v) = length x -> square (v_k v) (length x) -> symmetric (v_k v) (length x) ->
  forall T rho a, vrmie_alphar v T rho x = ok a -> vrmie_alphar (pick_vr (seq 0 (length x) ++ [j]) v) T rho (Derivs_spec.replace j (nth j x 0 - y) x ++ [y]) = ok a.
Proof. intros x j y v Hj Lm Q Sy T rho a. apply C81_copies; try assumption. now apply split_lumped. Qed.
(** a mixture of which all but one mole fraction vanish is the pure fluid *)
Theorem C81_pure : forall v i, (i < length (v_m v))%nat -> square (v_k v) (length (v_m v)) -> symmetric (v_k v) (length (v_m v)) ->
  forall T rho a, vrmie_alphar v T rho (pure (length (v_m v)) i) = ok a -> vrmie_alphar (pick_vr [i] v) T rho [1] = ok a.
Proof. intros v i Hi Q Sy T rho a. apply C81_copies; rewrite ?pure_length; try assumption; [now apply pure_lumped|reflexivity]. Qed.

(** ** What the matrix of interaction parameters does *)
(** What is below the diagonal is never looked at: whatever is given there, the
    result is the same, so that a matrix which is not symmetric is not noticed *)
Lemma osum_ext' : forall n f g, (forall i, (i < n)%nat -> f i = g i) -> osum n f = osum n g.
Proof. induction n as [|n IH]; intros f g H; [reflexivity|]. cbn [osum]. rewrite (IH f g), (H n) by (auto with arith). reflexivity. Qed.
Theorem C81_lower_triangle_refuted : forall v k', square (v_k v) (length (v_m v)) -> square k' (length (v_m v)) -> (forall i j, (i <= j < length (v_m v))%nat -> kat k' i j = kat (v_k v) i j) ->
  forall T rho x, vrmie_alphar {| v_m := v_m v; v_eps := v_eps v; v_sigma := v_sigma v; v_lr := v_lr v; v_la := v_la v; v_k := k'; v_flag := v_flag v |} T rho x = vrmie_alphar v T rho x.
Proof.
  intros v k' Q Q' K T rho x. set (v' := {| v_m := v_m v; v_eps := v_eps v; v_sigma := v_sigma v; v_lr := v_lr v; v_la := v_la v; v_k := k'; v_flag := v_flag v |}). set (n := length (v_m v)) in *.
  assert (U : forall i j, (i <= j < n)%nat -> eps_upper v' i j = eps_upper v i j).
  { intros i j Hij. unfold eps_upper. rewrite (kentry_square v n), (kentry_square v' n) by (assumption || lia). unfold v'. cbn [v_k v_flag v_eps v_sigma sigma_ij]. rewrite K by exact Hij. reflexivity. }
  assert (E : forall i j, (i < n)%nat -> (j < n)%nat -> eps_ij v' i j = eps_ij v i j).
  { intros i j Hi Hj. unfold eps_ij. destruct (Nat.leb_spec i j); apply U; lia. }
  unfold vrmie_alphar, core_calcs. change (v_m v') with (v_m v).
  assert (ED : diameters v' T = diameters v T).
  { unfold diameters. change (v_m v') with (v_m v). f_equal. apply map_ext_in. intros i Hi. apply in_seq in Hi. unfold dii. assert (J : j_cutoff v' i T = j_cutoff v i T) by (unfold j_cutoff; rewrite E by lia; reflexivity). rewrite J. reflexivity. }
  rewrite ED. change (vstate_of v' T rho x) with (vstate_of v T rho x).
  assert (EC : forall s, core_of v' s = core_of v s).
  { intro s. assert (S : forall i j, (i < n)%nat -> (j < n)%nat -> same_pair v s i j v' s i j). { intros i j Hi Hj. unfold same_pair. rewrite E by assumption. repeat split. }
    assert (Up : forall p p', (forall i j, (i < n)%nat -> (j < n)%nat -> p' i j = p i j) -> upper_sum v' s p' = upper_sum v s p).
    { intros p p' Hp. unfold upper_sum. change (v_m v') with (v_m v). fold n. apply osum_ext'. intros i Hi. apply osum_ext'. intros j Hj. rewrite Hp by lia. reflexivity. }
    unfold core_of. rewrite (Up (a1_pair v s)) by (intros; apply a1_same; now apply S). rewrite (Up (a2_pair v s)) by (intros; apply a2_same; now apply S). rewrite (Up (a3_pair v s)) by (intros; apply a3_same; now apply S).
    change (v_m v') with (v_m v). fold n. rewrite (osum_ext' n (chain_i v' s) (chain_i v s)); [reflexivity|]. intros i Hi. unfold chain_i. rewrite (gMie_same v s i v' s i) by now apply S. reflexivity. }
  destruct (negb _); [reflexivity|]. destruct (diameters v T) as [[d|]|]; [|reflexivity|reflexivity]. unfold obind. destruct (vstate_of v T rho x d) as [s|]; [|reflexivity]. cbn [opt_bind]. rewrite EC. reflexivity.
Qed.
(** The diagonal is: k_ii is not zero by itself, and changes the energy of the pure fluid in the
    perturbation terms, not in the potential from which the diameter is computed *)
Theorem C81_diagonal_refuted : forall v i k, kentry v i i = Some k -> v_flag v <> FlLafitte -> 0 < nth i (v_eps v) 0 ->
  eps_ij v i i = Some ((1 - k) * nth i (v_eps v) 0) /\ (forall r, 3 < nth i (v_la v) 0 < nth i (v_lr v) 0 -> 0 < nth i (v_sigma v) 0 -> 0 < r ->
    uii v i r = Some (mie (nth i (v_lr v) 0) (nth i (v_la v) 0) (nth i (v_sigma v) 0) (nth i (v_eps v) 0) r)).
Proof.
  intros v i k K Fl E. split; [|intros; now apply uii_val]. unfold eps_ij. rewrite Nat.leb_refl. unfold eps_upper. rewrite K. cbn [opt_bind]. rewrite csqrt_val by (apply Rlt_le, Rmult_lt_0_compat; assumption).
  cbn [opt_bind]. rewrite sqrt_square by lra. destruct (v_flag v); congruence || reflexivity.
Qed.

(** ** A mixture that meets the hypotheses: a Lennard-Jones fluid and one of dimers, so hot that the
    first guess of the cutoff is good enough *)
Definition two_lj : vrmie := {| v_m := [1; 2]; v_eps := [1; 1]; v_sigma := [3; 4]; v_lr := [12; 12]; v_la := [6; 6]; v_k := [[0; 0]; [0; 0]]; v_flag := FlLB |}.
Definition big : R := 10 ^ 20.
Definition hot : R := 4 * big ^ 12 / (- ln EPS).
Lemma big_pos : 10 ^ 20 <= big /\ 0 < big. Proof. unfold big. split; [apply Rle_refl|apply pow_lt; lra]. Qed.
Lemma hot_pos : 0 < hot.
Proof. unfold hot. pose proof ln_eps_bounds. apply Rdiv_lt_0_compat; [|lra]. apply Rmult_lt_0_compat; [lra|]. apply pow_lt. apply big_pos. Qed.
Lemma C_lj : mie_C 12 6 = 4.
Proof. unfold mie_C. replace (6 / (12 - 6)) with 1 by field. rewrite Rpower_1 by lra. field. Qed.
Lemma lj_physical : physical (mix_of two_lj).
Proof.
  split.
  - intros i Hi. cbn [c_n mix_of two_lj v_m length] in Hi. cbn [c_m c_sigma c_eps c_la c_lr mix_of two_lj v_m v_sigma v_eps v_la v_lr]. destruct i as [|[|i]]; [| |lia]; cbn [nth]; lra.
  - intros i j Hi Hj. cbn [c_n mix_of two_lj v_m length] in Hi, Hj. unfold c_k, mix_of, kat, two_lj. cbn [v_k]. destruct i as [|[|i]]; [| |lia]; (destruct j as [|[|j]]; [| |lia]); reflexivity.
Qed.
Lemma lj_square : square (v_k two_lj) 2.
Proof. split; [reflexivity|]. intros row [<-|[<-|[]]]; reflexivity. Qed.
Lemma halley_stop : forall n kappa lr la T j f g h, fgh kappa lr la T j = Some (f, g, h) -> 2 * g * g - f * h < EPS -> halley (S n) kappa lr la T j = Some j.
Proof. intros n kappa lr la T j f g h H D. cbn [halley]. rewrite H. cbn [opt_bind]. destruct (Rlt_dec _ EPS); [reflexivity|contradiction]. Qed.
Lemma lj_cutoff : forall i, (i < 2)%nat -> j_cutoff two_lj i hot = ok big.
Proof.
  intros i Hi. pose proof ln_eps_bounds as LE. pose proof big_pos as [B1 B0]. pose proof hot_pos as H0. set (L := - ln EPS) in *.
  assert (E : nth i (v_lr two_lj) 0 = 12 /\ nth i (v_la two_lj) 0 = 6 /\ eps_ij two_lj i i = Some 1).
  { unfold eps_ij. rewrite Nat.leb_refl. unfold eps_upper. rewrite (kentry_square two_lj 2 i i lj_square Hi Hi). cbn [opt_bind].
    assert (nth i (v_eps two_lj) 0 = 1 /\ kat (v_k two_lj) i i = 0) as [Ee Ek] by (destruct i as [|[|i]]; [| |lia]; split; reflexivity). change (v_flag two_lj) with FlLB. cbv iota. rewrite Ee, Ek.
    rewrite csqrt_val by lra. cbn [opt_bind]. rewrite Rmult_1_l, sqrt_1. split; [|split; [|f_equal; ring]]; destruct i as [|[|i]]; [| |lia| | |lia]; reflexivity. }
  destruct E as (Er & Ea & Ee). unfold j_cutoff. rewrite C_self by (rewrite Er, Ea; lra). rewrite Ee, Er, Ea, C_lj. cbn [opt_bind]. fold L. rewrite cdiv_nz by lra. cbn [opt_bind].
  replace (L * hot / (4 * 1)) with (big ^ 12) by (unfold hot; fold L; field; lra).
  rewrite (clog_pos' _) by (apply pow_lt; exact B0). cbn [opt_bind]. rewrite cdiv_nz by lra. cbn [opt_bind]. rewrite ln_pow by exact B0. replace (INR 12) with 12 by (cbn; ring). replace (12 * ln big / 12) with (ln big) by field. rewrite exp_ln by exact B0.
  assert (Fg : fgh (4 * 1) 12 6 hot big = Some (- (4 * 1 * (big ^ 12 - big ^ 6)) / hot - ln EPS, - (4 * 1 * (12 * big ^ 12 - 6 * big ^ 6) / big) / hot, - (4 * 1 * (12 * (12 - 1) * big ^ 12 - 6 * (6 - 1) * big ^ 6) / (big * big)) / hot)).
  { unfold fgh. rewrite !cpow_pos by exact B0. cbn [opt_bind]. rewrite (cdiv_nz _ big) by lra. cbn [opt_bind]. rewrite (cdiv_nz _ (big * big)) by (apply Rmult_integral_contrapositive; split; lra). cbn [opt_bind]. rewrite !(cdiv_nz _ hot) by lra. cbn [opt_bind].
    replace (Rpower big 12) with (big ^ 12) by (rewrite <- Rpower_pow by exact B0; f_equal; cbn; ring). replace (Rpower big 6) with (big ^ 6) by (rewrite <- Rpower_pow by exact B0; f_equal; cbn; ring). reflexivity. }
  rewrite (halley_stop 3 _ _ _ _ _ _ _ _ Fg).
  { unfold fin, obind, ok. destruct (Rlt_dec big 1) as [X|_]; [|reflexivity]. lra. }
  match goal with |- ?a < EPS => set (den := a) end.
  assert (Hden : den = L ^ 2 * / big ^ 2 * (2 * (12 - 6 * / big ^ 6) ^ 2 + / big ^ 6 * (132 - 30 * / big ^ 6))).
  { unfold den. replace (ln EPS) with (- L) by (unfold L; ring). unfold hot. fold L. field. lra. }
  rewrite Hden. assert (P2 : 10 ^ 40 <= big ^ 2). { replace (10 ^ 40) with ((10 ^ 20) ^ 2) by ring. apply pow_incr. split; [apply pow_le; lra|exact B1]. }
    assert (P6 : 1 <= big ^ 6) by (apply pow_R1_Rle; apply Rle_trans with (10 ^ 20); [apply pow_R1_Rle; lra|exact B1]).
    assert (I6 : 0 < / big ^ 6 <= 1) by (split; [apply Rinv_0_lt_compat; lra|rewrite <- Rinv_1; apply Rinv_le_contravar; lra]).
    assert (I2 : 0 < / big ^ 2 <= / 10 ^ 40) by (split; [apply Rinv_0_lt_compat, pow_lt; exact B0|apply Rinv_le_contravar; [apply pow_lt; lra|exact P2]]).
    set (e := / big ^ 6) in *. assert (U : 0 <= 2 * (12 - 6 * e) ^ 2 + e * (132 - 30 * e) <= 420).
    { assert (0 <= (12 - 6 * e) ^ 2 <= 144). { split; [apply pow2_ge_0|]. replace 144 with (12 ^ 2) by ring. apply pow_incr. lra. } assert (0 <= e * (132 - 30 * e) <= 1 * 132) by (split; [apply Rmult_le_pos; lra|apply Rmult_le_compat; lra]). lra. }
    assert (L2 : 0 <= L ^ 2 <= 2704). { split; [apply pow2_ge_0|]. replace 2704 with (52 ^ 2) by ring. apply pow_incr. lra. }
    apply Rle_lt_trans with (2704 * / 10 ^ 40 * 420).
    - apply Rmult_le_compat; [apply Rmult_le_pos; lra|lra| |lra]. apply Rmult_le_compat; lra.
    - unfold EPS. lra.
Qed.
Example C81_barker_henderson_met : exists q, quad 10 (fun r => 1 - exp (- mie 12 6 3 1 r / hot)) (3 / big) 3 = Val q /\ dii two_lj 0 hot = ok (3 / big + q).
Proof.
  pose proof hot_pos. apply (C81_barker_henderson two_lj 0 hot big); cbn; try lra. apply lj_cutoff. lia.
Qed.
Lemma lj_diameters : exists d, diameters two_lj hot = ok d.
Proof.
  assert (D : forall i, (i < 2)%nat -> exists d, dii two_lj i hot = ok d).
  { intros i Hi. destruct (physical_bounds two_lj i lj_physical Hi) as (A & B & C). destruct (C81_diameter two_lj i hot A B C hot_pos) as (X & _ & _). destruct (X big (lj_cutoff i Hi)) as (d & Ed & _). exists d. exact Ed. }
  destruct (D O ltac:(lia)) as (d0 & E0). destruct (D 1%nat ltac:(lia)) as (d1 & E1). exists [d0; d1]. unfold diameters. cbn [two_lj v_m length seq map oall]. fold two_lj. rewrite E0, E1. reflexivity.
Qed.
Lemma lj_den : forall i j k, (i < 2)%nat -> (j < 2)%nat -> (1 <= k <= 6)%nat -> f_den k (mix_alpha (mix_of two_lj) i j) <> 0.
Proof.
  intros i j k Hi Hj Hk. assert (A : mix_alpha (mix_of two_lj) i j = 8 / 9).
  { unfold mix_alpha, mix_C, mix_la, mix_lr, mix_l. cbn [c_la c_lr mix_of two_lj v_la v_lr]. replace (nth i [6; 6] 0) with 6 by (destruct i as [|[|i]]; [| |lia]; reflexivity). replace (nth j [6; 6] 0) with 6 by (destruct j as [|[|j]]; [| |lia]; reflexivity).
    replace (nth i [12; 12] 0) with 12 by (destruct i as [|[|i]]; [| |lia]; reflexivity). replace (nth j [12; 12] 0) with 12 by (destruct j as [|[|j]]; [| |lia]; reflexivity).
    rewrite !sqrt_square by lra. replace (3 + (12 - 3)) with 12 by ring. replace (3 + (6 - 3)) with 6 by ring. rewrite C_lj. field. }
  rewrite A. unfold f_den. destruct k as [|[|[|[|[|[|[|k]]]]]]]; try lia; cbn [table_f nth sumn Nat.add pow]; lra.
Qed.
(** published, positive density, with chains *)
Example C81_low_density_met : exists d, diameters two_lj hot = ok d /\
  vrmie_alphar two_lj hot 1 [1 / 2; 1 / 2] = ok (mono (mix_of two_lj) hot (1 * N_A / 10 ^ 30) (fractions [1 / 2; 1 / 2]) (fractions d) + chain (mix_of two_lj) hot (1 * N_A / 10 ^ 30) (fractions [1 / 2; 1 / 2]) (fractions d)).
Proof.
  destruct lj_diameters as (d & Hd). exists d. split; [exact Hd|]. apply C81_low_density; try exact Hd; [exact lj_physical|exact lj_square|reflexivity| |exact hot_pos|lra|exact lj_den|].
  - split; [|cbn; lra]. intros i Hi. cbn in Hi. destruct i as [|[|i]]; [| |lia]; cbn; lra.
  - intros i Hi. replace (mbar (mix_of two_lj) (fractions [1 / 2; 1 / 2])) with (3 / 2) by (unfold mbar; cbn; field). pose proof PI_4. pose proof PI_RGT_0. unfold N_A.
    assert (S : 0 <= nth i (v_sigma two_lj) 0 ^ 3 <= 64) by (cbn in Hi; destruct i as [|[|i]]; [| |lia]; cbn; lra).
    set (s := nth i (v_sigma two_lj) 0 ^ 3) in *. clearbody s. assert (A : 0 <= 1 * (6.02214076 * 10 ^ 23) / 10 ^ 30 * (3 / 2) <= 1 / 1000000) by (split; lra). set (a := 1 * (6.02214076 * 10 ^ 23) / 10 ^ 30 * (3 / 2)) in *. clearbody a.
    assert (PI / 6 * a * s <= 4 / 6 * (1 / 1000000) * 64); [|lra]. apply Rmult_le_compat; [apply Rmult_le_pos; lra|lra| |lra]. apply Rmult_le_compat; lra.
Qed.
Example C81_zero_density_met : vrmie_alphar two_lj hot 0 [1 / 2; 1 / 2] = ok 0.
Proof.
  destruct lj_diameters as (d & Hd). apply (C81_zero_density two_lj hot [1 / 2; 1 / 2] d lj_physical lj_square eq_refl); [|exact hot_pos|exact Hd|exact lj_den].
  split; [|cbn; lra]. intros i Hi. cbn in Hi. destruct i as [|[|i]]; [| |lia]; cbn; lra.
Qed.
Example C81_order_met : exists a, vrmie_alphar two_lj hot 1 [1 / 2; 1 / 2] = ok a /\ vrmie_alphar (pick_vr [1; 0]%nat two_lj) hot 1 (pick 0 [1; 0]%nat [1 / 2; 1 / 2]) = ok a.
Proof.
  destruct C81_low_density_met as (d & _ & E). eexists. split; [exact E|]. apply C81_order; [apply perm_swap|reflexivity|exact lj_square| |exact E]. intros i j Hi Hj. apply lj_physical; assumption.
Qed.
Print Assumptions C81_potential.
Print Assumptions C81_diameter.
Print Assumptions C81_cutoff.
Print Assumptions C81_cutoff_derivatives.
Print Assumptions C81_cutoff_step.
Print Assumptions C81_cutoff_root.
Print Assumptions C81_cutoff_guess.
Print Assumptions C81_barker_henderson.
Print Assumptions C81_alphar.
Print Assumptions C81_size.
Print Assumptions C81_exceptions.
Print Assumptions C81_carnahan_starling.
Print Assumptions C81_hard_spheres.
Print Assumptions C81_low_density.
Print Assumptions C81_zero_density.
Print Assumptions C81_monomers.
Print Assumptions C81_copies.
Print Assumptions C81_order.
Print Assumptions C81_division.
Print Assumptions C81_pure.
Print Assumptions C81_lower_triangle_refuted.
Print Assumptions C81_diagonal_refuted.
