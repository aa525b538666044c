(** C22, C23: isochoric derivatives and fugacity coefficients. *)
From Coq Require Import Reals ZArith List Lia Lra.
From Coquelicot Require Import Coquelicot.
From Verif Require Import Json_model Derivs_model Derivs_spec Derivs_proofs Derivs_proofs2 Pure_proofs
  Vec_spec Vec_proofs Iso_model Iso_spec Iso_proofs.
Import ListNotations.
Open Scope R_scope.

(** The differentiation library is exact, the gas constant does not depend on the
    composition. *)
Definition const_R (Rgas : list R -> R) (Rg : R) : Prop := 0 < Rg /\ forall x, Rgas x = Rg.

(** ** C22 *)
(** Residual pressure and Euler's relation (any gas constant): the residual pressure is
    p - rho R T, and it is -Psi_r + sum rho_i dPsi_r/drho_i. *)
Theorem C22_residual_pressure : forall ad alphar Rgas T rho g, AD_exact ad ->
  positive rho -> 0 < Rgas (fractions rho) * T -> gradient_at (Psi_r alphar Rgas T) rho g ->
  get_pr ad alphar Rgas T rho = p_of alphar Rgas T rho - total rho * Rgas (fractions rho) * T /\
  get_pr ad alphar Rgas T rho =
    - get_Psir alphar Rgas T rho +
    sumn (length rho) (fun i => nth i rho 0 * nth i (build_Psir_gradient ad alphar Rgas T rho) 0).
Proof.
  intros ad alphar Rgas T rho g Had P HRT H. assert (HRT' : Rgas (fractions rho) * T <> 0) by lra.
  rewrite (get_pr_ok ad Had alphar Rgas T rho g P HRT' H), (p_of_ok alphar Rgas T rho g P HRT' H), get_Psir_eq.
  split; [ring|]. unfold euler. rewrite (sumn_ext _ (fun i => nth i rho 0 * nth i (build_Psir_gradient ad alphar Rgas T rho) 0)
    (fun i => nth i rho 0 * nth i g 0)); [ring|]. intros i Hi. now rewrite (gradient_ok ad Had alphar Rgas T rho g).
Qed.

(** p = -Psi + sum rho_i mu_i with the chemical potentials the library returns. *)
Theorem C22_pressure_from_chemical_potentials : forall ad alphar Rgas Rg T rho g, AD_exact ad -> const_R Rgas Rg ->
  positive rho -> 0 < T -> gradient_at (Psi_r alphar Rgas T) rho g ->
  p_of alphar Rgas T rho =
    - Psi alphar Rgas T rho + sumn (length rho) (fun i => nth i rho 0 * nth i (get_chempotVLE ad alphar Rgas T rho) 0).
Proof.
  intros ad alphar Rgas Rg T rho g Had (HR0 & HR) P HT H.
  assert (HRT : Rgas (fractions rho) * T <> 0) by (rewrite HR; apply Rmult_integral_contrapositive; split; lra).
  rewrite (p_of_ok alphar Rgas T rho g P HRT H). unfold euler, Psi. rewrite HR.
  rewrite (sumn_ext _ (fun i => nth i rho 0 * nth i (get_chempotVLE ad alphar Rgas T rho) 0)
    (fun i => nth i rho 0 * nth i g 0 + (Rg * T * nth i rho 0 + Rg * T * (nth i rho 0 * ln (nth i rho 0))))).
  - rewrite !sumn_plus, !sumn_scal. fold (total rho). ring.
  - intros i Hi. rewrite (chempot_nth ad Had alphar Rgas Rg HR T rho g i H Hi). ring.
Qed.

(** The chemical potentials are the gradient of the Helmholtz energy density and the
    Hessian returned is its Hessian. *)
Theorem C22_chemical_potentials_are_gradient : forall ad alphar Rgas Rg T rho g, AD_exact ad -> const_R Rgas Rg ->
  positive rho -> gradient_at (Psi_r alphar Rgas T) rho g ->
  gradient_at (Psi alphar Rgas T) rho (get_chempotVLE ad alphar Rgas T rho).
Proof. intros ad alphar Rgas Rg T rho g Had (_ & HR) P H. exact (chempot_is_gradient ad Had alphar Rgas Rg HR T rho g P H). Qed.

Theorem C22_hessian : forall ad alphar Rgas Rg T rho i, AD_exact ad -> const_R Rgas Rg ->
  positive rho -> smooth_rho alphar Rgas T rho -> (i < length rho)%nat ->
  length (build_Psi_Hessian ad alphar Rgas T rho) = length rho /\
  gradient_at (fun y => nth i (get_chempotVLE ad alphar Rgas T y) 0) rho (nth i (build_Psi_Hessian ad alphar Rgas T rho) []).
Proof.
  intros ad alphar Rgas Rg T rho i Had (_ & HR) P (G & H & Ht) Hi. split.
  - unfold build_Psi_Hessian. now rewrite map_length, seq_length.
  - exact (Psi_Hessian_row ad Had alphar Rgas Rg HR T rho G H i P Ht Hi).
Qed.

(** The concentration derivatives of the pressure are the true ones. *)
Theorem C22_pressure_gradient : forall ad alphar Rgas Rg T rho, AD_exact ad -> const_R Rgas Rg ->
  positive rho -> 0 < T -> smooth_rho alphar Rgas T rho ->
  gradient_at (p_of alphar Rgas T) rho (get_dpdrhovec_constT ad alphar Rgas T rho).
Proof.
  intros ad alphar Rgas Rg T rho Had (HR0 & HR) P HT Hs.
  apply (dpdrho_ok ad Had alphar Rgas Rg HR); auto; lra.
Qed.

(** ... and so is the temperature derivative. *)
Theorem C22_pressure_temperature : forall ad alphar Rgas Rg T rho, AD_exact ad -> const_R Rgas Rg ->
  positive rho -> 0 < T -> smooth_T alphar Rgas T rho ->
  is_derive (fun t => p_of alphar Rgas t rho) T (get_dpdT_constrhovec ad alphar Rgas T rho).
Proof. intros ad alphar Rgas Rg T rho Had (HR0 & HR) P HT Hs. apply (dpdT_ok ad Had alphar Rgas Rg HR); auto; lra. Qed.

Theorem C22_chemical_potential_temperature : forall ad alphar Rgas Rg T rho i, AD_exact ad -> const_R Rgas Rg ->
  positive rho -> smooth_T alphar Rgas T rho -> (i < length rho)%nat ->
  is_derive (fun t => nth i (get_chempotVLE ad alphar Rgas t rho) 0) T (nth i (get_dchempotdT ad alphar Rgas T rho) 0).
Proof. intros ad alphar Rgas Rg T rho i Had (HR0 & HR) P Hs Hi. now apply (dchempotdT_ok ad Had alphar Rgas Rg HR). Qed.

(** Gibbs-Duhem: dp = s dT + sum rho_i dmu_i, s = -(dPsi/dT) at constant concentrations. *)
Theorem C22_gibbs_duhem : forall ad alphar Rgas Rg T rho dPsi, AD_exact ad -> const_R Rgas Rg ->
  positive rho -> smooth_rho alphar Rgas T rho -> smooth_T alphar Rgas T rho ->
  is_derive (fun t => Psi alphar Rgas t rho) T dPsi ->
  get_dpdT_constrhovec ad alphar Rgas T rho =
    - dPsi + sumn (length rho) (fun j => nth j rho 0 * nth j (get_dchempotdT ad alphar Rgas T rho) 0) /\
  forall i, (i < length rho)%nat ->
    nth i (get_dpdrhovec_constT ad alphar Rgas T rho) 0 =
    sumn (length rho) (fun j => nth j rho 0 * nth i (nth j (build_Psi_Hessian ad alphar Rgas T rho) []) 0).
Proof.
  intros ad alphar Rgas Rg T rho dPsi Had (HR0 & HR) P (G & H & Ht) Hs D. split.
  - exact (gibbs_duhem_T ad Had alphar Rgas Rg HR T rho dPsi Hs D).
  - intros i Hi. exact (gibbs_duhem_rho ad Had alphar Rgas Rg HR T rho G H i P Ht Hi).
Qed.

(** Partial molar volumes: they add up to the molar volume, and each is dV/dn_i at
    constant temperature, pressure and other amounts.  [n] are the amounts, V(t) the
    volume when the i-th amount is t. *)
Theorem C22_partial_molar_volumes_add_up : forall ad alphar Rgas Rg T rho, AD_exact ad -> const_R Rgas Rg ->
  positive rho -> 0 < T -> smooth_rho alphar Rgas T rho ->
  sumn (length rho) (fun i => nth i (get_dpdrhovec_constT ad alphar Rgas T rho) 0 * nth i rho 0) <> 0 ->
  sumn (length rho) (fun i => nth i (fractions rho) 0 * nth i (get_partial_molar_volumes ad alphar Rgas T rho) 0) = 1 / total rho.
Proof.
  intros ad alphar Rgas Rg T rho Had (HR0 & HR) P HT (G & H & Ht) HS. pose proof (total_pos rho P) as Hp.
  set (dp := get_dpdrhovec_constT ad alphar Rgas T rho) in *. set (S := sumn _ _) in HS.
  rewrite (sumn_ext _ _ (fun i => nth i dp 0 * nth i rho 0 * / (S * total rho))).
  - rewrite sumn_scal_r. fold S. field. split; [lra|exact HS].
  - intros i Hi. rewrite (pmv_simple ad Had alphar Rgas Rg HR ltac:(lra) T rho G H i ltac:(lra) P Ht Hi HS), fractions_nth by auto.
    fold dp S. field. split; [lra|exact HS].
Qed.

Theorem C22_partial_molar_volumes_meaning : forall ad alphar Rgas Rg T rho i n V V', AD_exact ad -> const_R Rgas Rg ->
  positive rho -> 0 < T -> smooth_rho alphar Rgas T rho -> (i < length rho)%nat ->
  length n = length rho -> 0 < V (nth i n 0) -> rho = map (fun m => m / V (nth i n 0)) n ->
  is_derive V (nth i n 0) V' ->
  locally (nth i n 0) (fun t => p_of alphar Rgas T (map (fun m => m / V t) (replace i t n)) = p_of alphar Rgas T rho) ->
  sumn (length rho) (fun i => nth i (get_dpdrhovec_constT ad alphar Rgas T rho) 0 * nth i rho 0) <> 0 ->
  V' = nth i (get_partial_molar_volumes ad alphar Rgas T rho) 0.
Proof.
  intros ad alphar Rgas Rg T rho i n V V' Had (HR0 & HR) P HT Hs Hi Hn HV Hrho HdV Hp HS.
  apply (pmv_meaning ad Had alphar Rgas Rg HR ltac:(lra) T rho i n V V'); auto; try lra.
  eapply filter_imp; [|exact Hp]. intros t Ht. now rewrite upd_replace.
Qed.

(** Residual entropy: s+ = -s^r/R with s^r = -(d(R T alphar)/dT) at constant density. *)
Theorem C22_residual_entropy : forall ad alphar Rg T rho a, AD_exact ad -> 0 < T -> Rg <> 0 ->
  is_derive (fun t => Rg * t * alphar t (total rho) (fractions rho)) T a ->
  get_splus ad alphar T rho = - (- a) / Rg.
Proof.
  intros ad alphar Rg T rho a Had HT HR D.
  assert (D' : is_derive (fun t => alphar t (total rho) (fractions rho)) T ((a / Rg - alphar T (total rho) (fractions rho)) / T)).
  { apply (is_derive_loc (fun t => / Rg * (Rg * t * alphar t (total rho) (fractions rho) * / t))).
    - eapply filter_imp; [|apply (locally_pos T HT)]. intros t Ht. field. split; lra.
    - eapply is_derive_eq; [|apply is_derive_lin, (is_derive_mult' (fun t => Rg * t * alphar t (total rho) (fractions rho)) (fun t => / t)); [exact D|]].
      2: { auto_derive; [lra|reflexivity]. }
      eqR. field. split; lra. }
  destruct (splus_ok ad Had alphar T rho _ ltac:(lra) D') as (_ & ->). field. split; lra.
Qed.

(** The isochoric Ar01 = sum rho_i dalphar/drho_i is the density derivative at constant
    composition. *)
Theorem C22_Ar01_both_ways : forall ad alphar T rho g, AD_exact ad -> positive rho ->
  gradient_at (fun y => alphar T (total y) (fractions y)) rho g ->
  iso_Ar01 ad alphar T rho = get_Agenxy ad alphar 0 1 T (total rho) (fractions rho).
Proof.
  intros ad alphar T rho g Had P H. apply (iso_Ar01_ok ad Had alphar T rho g P).
  eapply gradient_ext; [| | |exact H]; auto.
  - intros y _. unfold iso_Ar00. now rewrite vsum_total, molefrac_fractions.
  - apply (proj1 H).
Qed.

(** Derivatives along a direction. *)
Theorem C22_directional_derivatives : forall ad alphar Rgas T rho v, AD_exact ad ->
  smooth_rho alphar Rgas T rho ->
  let D := get_Psir_sigma_derivs ad alphar Rgas T rho v in
  nth 0 D 0 = Psi_r alphar Rgas T rho /\
  nth 1 D 0 = sumn (length rho) (fun i => nth i (build_Psir_gradient ad alphar Rgas T rho) 0 * nth i v 0) /\
  nth 2 D 0 = sumn (length rho) (fun i => sumn (length rho) (fun j =>
     nth j (nth i (build_Psir_Hessian ad alphar Rgas T rho) []) 0 * nth i v 0 * nth j v 0)).
Proof. intros ad alphar Rgas T rho v Had (G & H & Ht). exact (sigma_12 ad Had alphar Rgas T rho v G H Ht). Qed.

(** ** C23 *)
(** ln phi_i is the residual chemical potential at the same T and p, over RT: the
    chemical potential less that of the ideal gas at density p/(RT). *)
Theorem C23_residual_chemical_potential : forall ad alphar Rgas Rg T rho g i, AD_exact ad -> const_R Rgas Rg ->
  positive rho -> 0 < T -> gradient_at (Psi_r alphar Rgas T) rho g -> (i < length rho)%nat ->
  0 < p_of alphar Rgas T rho ->
  Rg * T * nth i (get_ln_fugacity_coefficients ad alphar Rgas T rho) 0 =
  nth i (get_chempotVLE ad alphar Rgas T rho) 0 -
  Rg * T * (1 + ln (nth i (fractions rho) 0 * (p_of alphar Rgas T rho / (Rg * T)))).
Proof.
  intros ad alphar Rgas Rg T rho g i Had (HR0 & HR) P HT H Hi Hpp. pose proof (total_pos rho P) as Hp.
  pose proof (proj2 P i Hi) as Hri.
  rewrite (lnphi_nth ad Had alphar Rgas Rg HR T rho g i H Hi), (Z_ok ad Had alphar Rgas Rg HR ltac:(lra) T rho g ltac:(lra) P H).
  rewrite (chempot_nth ad Had alphar Rgas Rg HR T rho g i H Hi), fractions_nth by auto.
  assert (HRT : 0 < Rg * T) by (now apply Rmult_lt_0_compat).
  replace (nth i rho 0 / total rho * (p_of alphar Rgas T rho / (Rg * T))) with
    (nth i rho 0 * (p_of alphar Rgas T rho / (total rho * Rg * T))) by (field; repeat split; lra).
  assert (HZ : 0 < p_of alphar Rgas T rho / (total rho * Rg * T)).
  { apply Rdiv_lt_0_compat; auto. apply Rmult_lt_0_compat; auto. now apply Rmult_lt_0_compat. }
  rewrite ln_mult by auto. field. split; lra.
Qed.

Theorem C23_fugacity : forall ad alphar Rgas Rg T rho g i, AD_exact ad -> const_R Rgas Rg ->
  positive rho -> 0 < T -> gradient_at (Psi_r alphar Rgas T) rho g -> (i < length rho)%nat ->
  0 < p_of alphar Rgas T rho ->
  nth i (fractions rho) 0 * nth i (get_fugacity_coefficients ad alphar Rgas T rho) 0 * p_of alphar Rgas T rho =
  nth i rho 0 * (Rg * T) * exp (nth i g 0 / (Rg * T)).
Proof.
  intros ad alphar Rgas Rg T rho g i Had (HR0 & HR) P HT H Hi Hpp.
  apply (fugacity_ok ad Had alphar Rgas Rg HR ltac:(lra)); auto. now apply Rmult_lt_0_compat.
Qed.

(** Equal fugacities in two phases exactly when equal chemical potentials. *)
Theorem C23_equal_fugacity_iff_equal_chemical_potential :
  forall ad alphar Rgas Rg T rho rho' g g' i, AD_exact ad -> const_R Rgas Rg ->
  positive rho -> positive rho' -> 0 < T ->
  gradient_at (Psi_r alphar Rgas T) rho g -> gradient_at (Psi_r alphar Rgas T) rho' g' ->
  (i < length rho)%nat -> (i < length rho')%nat ->
  0 < p_of alphar Rgas T rho -> 0 < p_of alphar Rgas T rho' ->
  let f y := nth i (fractions y) 0 * nth i (get_fugacity_coefficients ad alphar Rgas T y) 0 * p_of alphar Rgas T y in
  f rho = f rho' <->
  nth i (get_chempotVLE ad alphar Rgas T rho) 0 = nth i (get_chempotVLE ad alphar Rgas T rho') 0.
Proof.
  intros ad alphar Rgas Rg T rho rho' g g' i Had HC P P' HT H H' Hi Hi' Hp Hp' f. pose proof HC as (HR0 & HR).
  unfold f. rewrite (C23_fugacity ad alphar Rgas Rg T rho g i), (C23_fugacity ad alphar Rgas Rg T rho' g' i) by auto.
  rewrite (chempot_nth ad Had alphar Rgas Rg HR T rho g i H Hi), (chempot_nth ad Had alphar Rgas Rg HR T rho' g' i H' Hi').
  pose proof (proj2 P i Hi) as Hr. pose proof (proj2 P' i Hi') as Hr'.
  assert (HRT : 0 < Rg * T) by (now apply Rmult_lt_0_compat).
  assert (E : forall r (q : R), 0 < r -> r * (Rg * T) * exp (q / (Rg * T)) = exp ((q + Rg * T * (1 + ln r)) / (Rg * T) + (ln (Rg * T) - 1))).
  { intros r q Hr0. replace ((q + Rg * T * (1 + ln r)) / (Rg * T) + (ln (Rg * T) - 1)) with (ln r + ln (Rg * T) + q / (Rg * T)) by (field; split; lra).
    rewrite !exp_plus, !exp_ln by auto. reflexivity. }
  rewrite !E by auto. split.
  - intro X. apply exp_inv in X. apply Rplus_eq_reg_r in X.
    apply Rmult_eq_reg_r in X; [exact X|]. apply Rinv_neq_0_compat. lra.
  - intros ->. reflexivity.
Qed.

(** No residual Helmholtz energy: the fugacity coefficients are 1. *)
Theorem C23_ideal_gas : forall ad alphar Rgas Rg T rho i, AD_exact ad -> const_R Rgas Rg ->
  positive rho -> 0 < T -> (forall r x, alphar T r x = 0) -> (i < length rho)%nat ->
  nth i (get_ln_fugacity_coefficients ad alphar Rgas T rho) 0 = 0 /\
  nth i (get_fugacity_coefficients ad alphar Rgas T rho) 0 = 1.
Proof.
  intros ad alphar Rgas Rg T rho i Had (HR0 & HR) P HT Ha Hi. pose proof (total_pos rho P) as Hp.
  assert (G0 : gradient_at (Psi_r alphar Rgas T) rho (repeat 0 (length rho))).
  { eapply gradient_ext; [| | |apply (gradient_const 0)]; auto.
    - intros y _. unfold Psi_r. rewrite Ha. ring.
    - apply repeat_length. }
  assert (E : nth i (get_ln_fugacity_coefficients ad alphar Rgas T rho) 0 = 0).
  { rewrite (lnphi_nth ad Had alphar Rgas Rg HR T rho _ i G0 Hi).
    rewrite (Ar01_ok ad Had alphar Rgas T rho _ P ltac:(rewrite HR; apply Rmult_integral_contrapositive; split; lra) G0).
    rewrite nth_repeat. unfold euler, Psi_r. rewrite Ha.
    rewrite (sumn_0 _ (fun j => nth j rho 0 * nth j (repeat 0 (length rho)) 0)) by (intros; rewrite nth_repeat; ring).
    replace (1 + (0 - total rho * (Rgas (fractions rho) * T * 0)) / (Rgas (fractions rho) * T * total rho)) with 1.
    - rewrite ln_1. unfold Rdiv. ring.
    - rewrite HR. field. repeat split; lra. }
  split; auto. unfold get_fugacity_coefficients. rewrite (nth_map0 exp).
  - rewrite E. apply exp_0.
  - unfold get_ln_fugacity_coefficients. now rewrite each_length.
Qed.

(** The two halves that the library also offers add up. *)
Theorem C23_split : forall ad alphar Rgas T rho i, (i < length rho)%nat ->
  nth i (get_ln_fugacity_coefficients ad alphar Rgas T rho) 0 =
  nth i (get_ln_fugacity_coefficients1 ad alphar Rgas T rho) 0 + get_ln_fugacity_coefficients2 ad alphar T rho.
Proof.
  intros. unfold get_ln_fugacity_coefficients, get_ln_fugacity_coefficients1, get_ln_fugacity_coefficients2.
  rewrite !each_nth by auto. ring.
Qed.

(** Temperature derivative at constant concentrations. *)
Theorem C23_temperature_derivative : forall ad alphar Rgas Rg T rho i, AD_exact ad -> const_R Rgas Rg ->
  positive rho -> 0 < T -> smooth_T alphar Rgas T rho -> (i < length rho)%nat -> 0 < p_of alphar Rgas T rho ->
  is_derive (fun t => nth i (get_ln_fugacity_coefficients ad alphar Rgas t rho) 0) T
    (nth i (get_d_lnphi_dT ad alphar Rgas T rho) 0).
Proof. intros ad alphar Rgas Rg T rho i Had (HR0 & HR) P HT Hs Hi Hp. apply (dlnphi_dT_ok ad Had alphar Rgas Rg HR); auto; lra. Qed.

(** Density and molar-volume derivatives at constant T and mole fractions. *)
Theorem C23_density_derivative : forall ad alphar Rgas Rg T rho i, AD_exact ad -> const_R Rgas Rg ->
  positive rho -> 0 < T -> smooth_rho alphar Rgas T rho -> (i < length rho)%nat -> 0 < p_of alphar Rgas T rho ->
  is_derive (fun r => nth i (get_ln_fugacity_coefficients ad alphar Rgas T (map (Rmult r) (fractions rho))) 0) (total rho)
    (nth i (get_d_lnphi_drho ad alphar Rgas T rho) 0).
Proof.
  intros ad alphar Rgas Rg T rho i Had (HR0 & HR) P HT Hs Hi Hp. apply (dlnphi_drho_ok ad Had alphar Rgas Rg HR); auto; try lra.
  now apply Rmult_lt_0_compat.
Qed.
Theorem C23_volume_derivative : forall ad alphar Rgas Rg T rho i, AD_exact ad -> const_R Rgas Rg ->
  positive rho -> 0 < T -> smooth_rho alphar Rgas T rho -> (i < length rho)%nat -> 0 < p_of alphar Rgas T rho ->
  is_derive (fun v => nth i (get_ln_fugacity_coefficients ad alphar Rgas T (map (Rmult (1 / v)) (fractions rho))) 0) (1 / total rho)
    (nth i (get_d_lnphi_dv ad alphar Rgas T rho) 0).
Proof.
  intros ad alphar Rgas Rg T rho i Had (HR0 & HR) P HT Hs Hi Hp. apply (dlnphi_dv_ok ad Had alphar Rgas Rg HR); auto; try lra.
  now apply Rmult_lt_0_compat.
Qed.
(** Mole-fraction derivatives (every mole fraction independent) at constant T, rho. *)
Theorem C23_molefraction_derivative : forall ad alphar Rgas Rg T rho i j, AD_exact ad -> const_R Rgas Rg ->
  positive rho -> 0 < T -> smooth_rho alphar Rgas T rho -> (i < length rho)%nat -> (j < length rho)%nat ->
  smooth_rx alphar T (total rho) (fractions rho) j -> 0 < p_of alphar Rgas T rho ->
  is_derive (fun s => nth i (get_ln_fugacity_coefficients_Trhomolefracs ad alphar Rgas T (total rho) (replace j s (fractions rho))) 0)
    (nth j (fractions rho) 0)
    (nth j (nth i (get_d_lnphi_dmolefracs ad alphar Rgas T rho) []) 0).
Proof.
  intros ad alphar Rgas Rg T rho i j Had (HR0 & HR) P HT Hs Hi Hj Hx Hp. apply (dlnphi_dx_ok ad Had alphar Rgas Rg HR); auto; try lra.
  now apply Rmult_lt_0_compat.
Qed.

(** ** A concrete mixture: alphar = rho T (x_1 + 2 x_2), R = 8, at T = 1, rho = (1, 2). *)
Definition ex_alphar (T r : R) (x : list R) : R := r * T * (nth 0 x 0 + 2 * nth 1 x 0).
Definition ex_R (x : list R) : R := 8.
Lemma ex_constR : const_R ex_R 8. Proof. split; [lra|reflexivity]. Qed.
Lemma ex_Psir : forall T a b, a + b <> 0 -> Psi_r ex_alphar ex_R T [a; b] = 8 * T ^ 2 * ((a + b) * (a + 2 * b)).
Proof.
  intros T a b H. unfold Psi_r, ex_alphar, ex_R, fractions, total. simpl. field. lra.
Qed.
Definition ex_poly (T : R) (y : list R) : R := 8 * T ^ 2 * ((nth 0 y 0 + nth 1 y 0) * (nth 0 y 0 + 2 * nth 1 y 0)).
Definition ex_grad (T : R) (y : list R) : list R :=
  [8 * T ^ 2 * (2 * nth 0 y 0 + 3 * nth 1 y 0); 8 * T ^ 2 * (3 * nth 0 y 0 + 4 * nth 1 y 0)].
Lemma lin2 : forall p q y, length y = 2%nat -> gradient_at (fun y => p * nth 0 y 0 + q * nth 1 y 0) y [p; q].
Proof.
  intros p q y Hy. pose proof (gradient_lin (fun i => match i with O => p | _ => q end) y) as H. rewrite Hy in H. simpl in H.
  eapply gradient_ext; [| | |exact H]; auto. intros z _. cbv beta. ring.
Qed.
Lemma ex_poly_grad : forall T y, length y = 2%nat -> gradient_at (ex_poly T) y (ex_grad T y).
Proof.
  intros T y Hy. pose proof (gradient_mult _ _ _ _ _ (lin2 (8 * T ^ 2) (8 * T ^ 2) y Hy) (lin2 1 2 y Hy)) as H.
  eapply gradient_ext; [| | |exact H].
  - intros z _. unfold ex_poly. ring.
  - now rewrite Hy.
  - rewrite Hy. intros [|[|i]] Hi; [| |lia]; simpl; ring.
Qed.
Lemma ex_near : forall T y, length y = 2%nat -> positive y -> near y (fun z => Psi_r ex_alphar ex_R T z = ex_poly T z).
Proof.
  intros T y Hy P. eapply near_imp; [|apply (positive_near y P)]. intros [|a [|b [|]]] Hz Pz; try (rewrite Hy in Hz; discriminate).
  pose proof (total_pos _ Pz) as Ht. unfold total in Ht. simpl in Ht. rewrite ex_Psir by lra. unfold ex_poly. simpl. ring.
Qed.
Lemma near_sym : forall x (f g : list R -> R), near x (fun y => f y = g y) -> near x (fun y => g y = f y).
Proof. intros x f g H. eapply near_imp; [|exact H]. auto. Qed.
Lemma ex_gradient : forall T y, length y = 2%nat -> positive y -> gradient_at (Psi_r ex_alphar ex_R T) y (ex_grad T y).
Proof. intros T y Hy P. eapply gradient_ext_near; [apply near_sym, ex_near; auto|now apply ex_poly_grad]. Qed.
Lemma ex_positive : positive [1; 2].
Proof. split; simpl; [lia|]. intros [|[|i]] Hi; simpl; try lra; lia. Qed.
Lemma ex_smooth_rho : forall T, smooth_rho ex_alphar ex_R T [1; 2].
Proof.
  intro T. exists (ex_grad T), [[8 * T ^ 2 * 2; 8 * T ^ 2 * 3]; [8 * T ^ 2 * 3; 8 * T ^ 2 * 4]]. constructor.
  - eapply near_imp; [|apply (positive_near _ ex_positive)]. intros y Hy Py. apply ex_gradient; auto.
  - reflexivity.
  - intros [|[|j]] Hj; simpl in Hj; [| |lia].
    + eapply gradient_ext; [| | |apply (lin2 (8 * T ^ 2 * 2) (8 * T ^ 2 * 3) [1; 2] eq_refl)]; auto. intros z _. simpl. ring.
    + eapply gradient_ext; [| | |apply (lin2 (8 * T ^ 2 * 3) (8 * T ^ 2 * 4) [1; 2] eq_refl)]; auto. intros z _. simpl. ring.
  - intros [|[|i]] [|[|j]] Hi Hj; simpl in *; try lia; ring.
Qed.
Lemma ex_smooth_T : smooth_T ex_alphar ex_R 1 [1; 2].
Proof.
  exists (fun T => ex_grad T [1; 2]), (16 * 15), (fun i => match i with O => 16 * 8 | _ => 16 * 11 end). split; [|split].
  - apply filter_forall. intro t. apply ex_gradient; [reflexivity|apply ex_positive].
  - apply (is_derive_ext (fun T => 8 * T ^ 2 * 15)).
    + intro t. rewrite ex_Psir by lra. eqR. ring.
    + auto_derive; auto. ring.
  - intros [|[|i]] Hi; simpl in Hi; [| |lia]; unfold ex_grad; simpl; auto_derive; auto; ring.
Qed.
Lemma ex_p : p_of ex_alphar ex_R 1 [1; 2] = 144.
Proof.
  rewrite (p_of_ok ex_alphar ex_R 1 [1; 2] (ex_grad 1 [1; 2])).
  - unfold euler. rewrite ex_Psir by lra. unfold total, ex_R. simpl. ring.
  - apply ex_positive.
  - unfold ex_R. lra.
  - apply ex_gradient; [reflexivity|apply ex_positive].
Qed.
(** The theorems give for every exact differentiation library the numbers computed by
    hand: pressure derivatives (72, 96), temperature derivative 264, first partial molar volume 3/11. *)
Example C22_hypotheses_met : forall ad, AD_exact ad ->
  nth 0 (get_dpdrhovec_constT ad ex_alphar ex_R 1 [1; 2]) 0 = 72 /\
  nth 1 (get_dpdrhovec_constT ad ex_alphar ex_R 1 [1; 2]) 0 = 96 /\
  get_dpdT_constrhovec ad ex_alphar ex_R 1 [1; 2] = 264 /\
  nth 0 (get_partial_molar_volumes ad ex_alphar ex_R 1 [1; 2]) 0 = 3 / 11.
Proof.
  intros ad Had. pose proof ex_constR as HC.
  pose proof (C22_pressure_gradient ad _ _ 8 1 _ Had HC ex_positive ltac:(lra) (ex_smooth_rho 1)) as D.
  assert (D' : gradient_at (p_of ex_alphar ex_R 1) [1; 2] [72; 96]).
  { apply (gradient_ext_near (fun y => 8 * (nth 0 y 0 + nth 1 y 0) + ex_poly 1 y)).
    - eapply near_imp; [|apply (near_and _ _ _ (ex_near 1 [1; 2] eq_refl ex_positive) (positive_near _ ex_positive))].
      intros [|a [|b [|]]] Hz (Ez & Pz); try discriminate.
      rewrite (p_of_ok ex_alphar ex_R 1 _ (ex_grad 1 [a; b]) Pz) by (unfold ex_R; try lra; apply ex_gradient; auto).
      unfold euler. rewrite Ez. unfold total, ex_R, ex_poly. simpl. ring.
    - pose proof (gradient_plus _ _ _ _ _ (lin2 8 8 [1; 2] eq_refl) (ex_poly_grad 1 [1; 2] eq_refl)) as H.
      eapply gradient_ext; [| | |exact H]; auto.
      + intros; cbv beta; ring.
      + intros [|[|i]] Hi; simpl in Hi; [| |lia]; simpl; ring. }
  pose proof (gradient_unique _ _ _ _ D D') as E. rewrite E.
  split; [reflexivity|]. split; [reflexivity|]. split.
  - pose proof (C22_pressure_temperature ad _ _ 8 1 _ Had HC ex_positive ltac:(lra) ex_smooth_T) as DT.
    assert (DT' : is_derive (fun t => p_of ex_alphar ex_R t [1; 2]) 1 264).
    { apply (is_derive_loc (fun t => 24 * t + 120 * t ^ 2)); [|auto_derive; auto; ring].
      eapply filter_imp; [|apply (locally_pos 1); lra]. intros t Ht.
      rewrite (p_of_ok ex_alphar ex_R t [1; 2] (ex_grad t [1; 2]) ex_positive); [|unfold ex_R; lra|apply ex_gradient; [reflexivity|apply ex_positive]].
      unfold euler. rewrite ex_Psir by lra. unfold total, ex_R, ex_grad. simpl. ring. }
    pose proof (is_derive_unique _ _ _ DT) as U1. pose proof (is_derive_unique _ _ _ DT') as U2. now rewrite <- U1, <- U2.
  - destruct (ex_smooth_rho 1) as (G & H & Ht).
    rewrite (pmv_simple ad Had ex_alphar ex_R 8 (fun _ => eq_refl) ltac:(lra) 1 [1; 2] G H 0 ltac:(lra) ex_positive Ht ltac:(simpl; lia)).
    + rewrite E. simpl. field.
    + rewrite E. simpl. lra.
Qed.
Example C23_hypotheses_met : forall ad, AD_exact ad ->
  is_derive (fun t => nth 0 (get_ln_fugacity_coefficients ad ex_alphar ex_R t [1; 2]) 0) 1
    (nth 0 (get_d_lnphi_dT ad ex_alphar ex_R 1 [1; 2]) 0) /\
  smooth_rx ex_alphar 1 (total [1; 2]) (fractions [1; 2]) 1.
Proof.
  intros ad Had. split.
  - apply (C23_temperature_derivative ad ex_alphar ex_R 8); auto using ex_constR, ex_positive, ex_smooth_T; try lra.
    all: try (rewrite ex_p; lra). simpl; lia.
  - exists (fun r => 2 * r), (fun s => nth 0 (fractions [1; 2]) 0 + 2 * s), 2. unfold ex_alphar. simpl. split; [|split; [|split]].
    + apply filter_forall. intro r. auto_derive; auto. ring.
    + auto_derive; auto. ring.
    + apply filter_forall. intro s. auto_derive; auto. ring.
    + auto_derive; auto. ring.
Qed.

(** ** Finding: with a composition-dependent gas constant (the multi-fluid models offer a
    mole-fraction weighted one) the concentration derivatives of the pressure are not
    the true ones: the term rho T dR/drho_i is missing.  Ideal gas with R = 8 x_1 + 9 |x_2|. *)
Theorem C22_pressure_gradient_composition_dependent_R_refuted :
  ~ (forall ad alphar Rgas T rho, AD_exact ad -> (forall x, positive x -> 0 < Rgas x) ->
     positive rho -> 0 < T -> smooth_rho alphar Rgas T rho ->
     gradient_at (p_of alphar Rgas T) rho (get_dpdrhovec_constT ad alphar Rgas T rho)).
Proof.
  intro C.
  set (ad0 := partialN).
  assert (Had : AD_exact ad0) by (intros f o x H; reflexivity).
  set (a0 := fun (_ _ : R) (_ : list R) => 0).
  set (Rg := fun x => 8 * nth 0 x 0 + 9 * Rabs (nth 1 x 0)).
  assert (HRg : forall x, positive x -> 0 < Rg x).
  { intros x (Hl & Hp). unfold Rg. pose proof (Hp 0%nat ltac:(lia)). pose proof (Rabs_pos (nth 1 x 0)). lra. }
  assert (Z : forall T y, Psi_r a0 Rg T y = 0) by (intros; unfold Psi_r, a0; ring).
  assert (Gz : forall T y, gradient_at (Psi_r a0 Rg T) y (repeat 0 (length y))).
  { intros T y. refine (gradient_ext (fun _ => 0) _ _ (repeat 0 (length y)) _ _ _ _ (gradient_const 0 y)); auto.
    apply repeat_length. }
  assert (Hs : twice_at (Psi_r a0 Rg 1) [1; 2] (fun y => repeat 0 (length y)) [[0; 0]; [0; 0]]).
  { constructor.
    - exists 1. split; [lra|]. intros y _ _. apply Gz.
    - reflexivity.
    - intros j Hj. assert (Ej : nth j [[0; 0]; [0; 0]] [] = repeat 0 (length [1; 2])) by (destruct j as [|[|j]]; simpl in *; try reflexivity; lia).
      rewrite Ej. refine (gradient_ext (fun _ => 0) _ _ (repeat 0 2) _ _ _ _ (gradient_const 0 [1; 2])); auto. intros y _. now rewrite nth_repeat.
    - intros [|[|i]] [|[|j]] Hi Hj; simpl in *; try lia; reflexivity. }
  specialize (C ad0 a0 Rg 1 [1; 2] Had HRg ex_positive ltac:(lra) (ex_intro _ _ (ex_intro _ _ Hs))).
  pose proof (partial_derive_at _ _ _ 0 C ltac:(simpl; lia)) as D. simpl in D.
  assert (D' : is_derive (fun t => p_of a0 Rg 1 [t; 2]) 1 8).
  { apply (is_derive_loc (fun t => 8 * t + 18)); [|auto_derive; auto; ring].
    eapply filter_imp; [|apply (locally_pos 1); lra]. intros t Ht.
    assert (Pt : positive [t; 2]) by (split; simpl; [lia|]; intros [|[|i]] Hi; simpl; try lra; lia).
    etransitivity; [apply (p_of_ok a0 Rg 1 [t; 2] (repeat 0 2) Pt)|].
    - pose proof (HRg _ (fractions_pos _ Pt)). lra.
    - apply (Gz 1 [t; 2]).
    - unfold euler. rewrite Z. unfold Rg, fractions, total. simpl.
      rewrite Rabs_right by (apply Rle_ge; left; apply Rdiv_lt_0_compat; lra). eqR. field. lra. }
  assert (E : nth 0 (get_dpdrhovec_constT ad0 a0 Rg 1 [1; 2]) 0 = 26 / 3).
  { unfold get_dpdrhovec_constT. rewrite (nth_map0 (fun h => Rg (molefrac_of [1; 2]) * 1 + h)) by (unfold mat_vec; rewrite map_length, hessian_len; simpl; lia).
    rewrite mat_vec_nth by (simpl; lia). rewrite (sumn_0 (length [1; 2])).
    - unfold Rg, molefrac_of. simpl. rewrite Rabs_right by lra. field.
    - intros j Hj. rewrite (hessian_ok ad0 Had a0 Rg 1 [1; 2] _ _ 0 j Hs) by (auto; simpl; lia).
      destruct j as [|[|j]]; [simpl; ring|simpl; ring|simpl in Hj; lia]. }
  assert (D2 : is_derive (fun t => p_of a0 Rg 1 [t; 2]) 1 (26 / 3)) by (rewrite <- E; exact D).
  pose proof (is_derive_unique _ _ _ D2) as U1. pose proof (is_derive_unique _ _ _ D') as U2. rewrite U1 in U2. lra.
Qed.

Print Assumptions C22_residual_pressure.
Print Assumptions C22_pressure_from_chemical_potentials.
Print Assumptions C22_chemical_potentials_are_gradient.
Print Assumptions C22_hessian.
Print Assumptions C22_pressure_gradient.
Print Assumptions C22_pressure_temperature.
Print Assumptions C22_chemical_potential_temperature.
Print Assumptions C22_gibbs_duhem.
Print Assumptions C22_partial_molar_volumes_add_up.
Print Assumptions C22_partial_molar_volumes_meaning.
Print Assumptions C22_residual_entropy.
Print Assumptions C22_Ar01_both_ways.
Print Assumptions C22_directional_derivatives.
Print Assumptions C23_residual_chemical_potential.
Print Assumptions C23_fugacity.
Print Assumptions C23_equal_fugacity_iff_equal_chemical_potential.
Print Assumptions C23_ideal_gas.
Print Assumptions C23_split.
Print Assumptions C23_temperature_derivative.
Print Assumptions C23_density_derivative.
Print Assumptions C23_volume_derivative.
Print Assumptions C23_molefraction_derivative.
Print Assumptions C22_pressure_gradient_composition_dependent_R_refuted.
