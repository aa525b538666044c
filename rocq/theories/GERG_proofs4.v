(** The ideal gas of the GERG models. *)
From Coq Require Import Reals ZArith String List Lia Lra Bool.
From Coquelicot Require Import Coquelicot.
From Verif Require Import Json_model Vec_spec Vec_proofs Cubic_model Cubic_spec Terms_model Ideal_model Ideal_proofs Util_model Assoc_model Multi_proofs2 LKP_proofs.
From Verif Require Import GERG_tables GERG_reference GERG_model GERG_spec GERG_proofs GERG_proofs2 GERG_proofs3.
Import ListNotations.
Local Open Scope R_scope.

(** * Hyperbolic functions *)
Lemma cosh_pos : forall y, 0 < cosh y. Proof. intro y. unfold cosh. pose proof (exp_pos y). pose proof (exp_pos (- y)). lra. Qed.
Lemma sinh_sq : forall y, cosh y ^ 2 - sinh y ^ 2 = 1.
Proof. intro y. unfold cosh, sinh. assert (E : exp y * exp (- y) = 1) by (rewrite <- exp_plus; replace (y + - y) with 0 by ring; apply exp_0). replace (((exp y + exp (- y)) / 2) ^ 2 - ((exp y - exp (- y)) / 2) ^ 2) with (exp y * exp (- y)) by field. exact E. Qed.
Lemma sinh_odd : forall y, sinh (- y) = - sinh y. Proof. intro y. unfold sinh. rewrite Ropp_involutive. field. Qed.
Lemma cosh_even : forall y, cosh (- y) = cosh y. Proof. intro y. unfold cosh. rewrite Ropp_involutive. field. Qed.
Lemma sinh_pos : forall y, 0 < y -> 0 < sinh y. Proof. intros y H. unfold sinh. assert (exp (- y) < exp y) by (apply exp_increasing; lra). lra. Qed.
Lemma sinh_nz : forall y, y <> 0 -> sinh y <> 0.
Proof. intros y H. destruct (Rtotal_order y 0) as [L|[E|G]]; [|contradiction|apply Rgt_not_eq, sinh_pos, G]. assert (0 < sinh (- y)) by (apply sinh_pos; lra). rewrite sinh_odd in H0. lra. Qed.
Lemma d_sinh : forall a t, is_derive (fun t => sinh (a * t)) t (a * cosh (a * t)).
Proof. intros a t. unfold sinh, cosh. auto_derive; [exact Logic.I|]. field. Qed.
Lemma d_cosh : forall a t, is_derive (fun t => cosh (a * t)) t (a * sinh (a * t)).
Proof. intros a t. unfold sinh, cosh. auto_derive; [exact Logic.I|]. field. Qed.
Lemma d_ln : forall (f : R -> R) t d, is_derive f t d -> 0 < f t -> is_derive (fun t => ln (f t)) t (d / f t).
Proof. intros f t d H P. replace (d / f t) with (scal d (/ f t)) by (unfold scal; cbn; unfold mult; cbn; field; lra). apply (is_derive_comp ln f t); [|exact H]. apply is_derive_Reals, derivable_pt_lim_ln, P. Qed.
Lemma d_lnsinh : forall a t, a <> 0 -> 0 < t -> is_derive (fun t => ln (Rabs (sinh (a * t)))) t (a * cosh (a * t) / sinh (a * t)).
Proof.
  intros a t Ha Ht. assert (N : sinh (a * t) <> 0) by (apply sinh_nz; apply Rmult_integral_contrapositive; split; lra).
  pose proof (is_derive_Rabs (fun t => sinh (a * t)) t _ (d_sinh a t) N) as D. pose proof (d_ln _ t _ D (Rabs_pos_lt _ N)) as D'. cbn in D'. replace (a * cosh (a * t) / sinh (a * t)) with (sign (sinh (a * t)) * (a * cosh (a * t)) / Rabs (sinh (a * t))); [exact D'|].
  destruct (Rtotal_order (sinh (a * t)) 0) as [L|[E|G]]; [|contradiction|].
  - rewrite sign_eq_m1 by exact L. rewrite Rabs_left by exact L. field. exact N.
  - rewrite sign_eq_1 by exact G. rewrite Rabs_right by lra. field. exact N.
Qed.
Lemma d_lncosh : forall a t, is_derive (fun t => ln (cosh (a * t))) t (a * sinh (a * t) / cosh (a * t)).
Proof. intros a t. exact (d_ln (fun t => cosh (a * t)) t _ (d_cosh a t) (cosh_pos _)). Qed.
Lemma d_coth : forall a t, a <> 0 -> 0 < t -> is_derive (fun t => a * cosh (a * t) / sinh (a * t)) t (- (a ^ 2 / sinh (a * t) ^ 2)).
Proof.
  intros a t Ha Ht. assert (N : sinh (a * t) <> 0) by (apply sinh_nz; apply Rmult_integral_contrapositive; split; lra). pose proof (sinh_sq (a * t)) as Q.
  replace (- (a ^ 2 / sinh (a * t) ^ 2)) with ((a * (a * sinh (a * t)) * sinh (a * t) - a * cosh (a * t) * (a * cosh (a * t))) / sinh (a * t) ^ 2).
  - apply (is_derive_div (fun t => a * cosh (a * t)) (fun t => sinh (a * t))); [|apply d_sinh|exact N]. apply (is_derive_scal (fun t => cosh (a * t))). apply d_cosh.
  - unfold Rdiv. rewrite <- Ropp_mult_distr_l_reverse. f_equal. replace (- a ^ 2) with (- a ^ 2 * (cosh (a * t) ^ 2 - sinh (a * t) ^ 2)) by (rewrite Q; ring). ring.
Qed.
Lemma d_tanh : forall a t, is_derive (fun t => a * sinh (a * t) / cosh (a * t)) t (a ^ 2 / cosh (a * t) ^ 2).
Proof.
  intros a t. pose proof (cosh_pos (a * t)) as P. pose proof (sinh_sq (a * t)) as Q.
  replace (a ^ 2 / cosh (a * t) ^ 2) with ((a * (a * cosh (a * t)) * cosh (a * t) - a * sinh (a * t) * (a * sinh (a * t))) / cosh (a * t) ^ 2).
  - apply (is_derive_div (fun t => a * sinh (a * t)) (fun t => cosh (a * t))); [|apply d_cosh|lra]. apply (is_derive_scal (fun t => sinh (a * t))). apply d_sinh.
  - unfold Rdiv. f_equal. transitivity (a ^ 2 * (cosh (a * t) ^ 2 - sinh (a * t) ^ 2)); [ring|rewrite Q; ring].
Qed.
Lemma le_sinh : forall y, 0 <= y -> y <= sinh y /\ sinh y <= y * cosh y.
Proof.
  intros y Hy. destruct (Req_EM_T y 0) as [->|N]; [unfold sinh; rewrite Ropp_0, exp_0; lra|].
  assert (D1 : forall t, derivable_pt_lim sinh t (cosh t)) by exact derivable_pt_lim_sinh.
  assert (C : forall t, 1 <= cosh t). { intro t. pose proof (sinh_sq t). pose proof (cosh_pos t). pose proof (pow2_ge_0 (sinh t)). nra. }
  destruct (MVT_gen sinh 0 y cosh) as (z & _ & E).
  - intros t _. apply is_derive_Reals, D1.
  - intros t _. apply derivable_continuous_pt. exists (cosh t). apply D1.
  - replace (sinh 0) with 0 in E by (unfold sinh; rewrite Ropp_0, exp_0; field). split; [pose proof (C z); nra|].
    destruct (MVT_gen (fun t => t * cosh t - sinh t) 0 y (fun t => t * sinh t)) as (w & Hw & E').
    + intros t _. unfold cosh, sinh. auto_derive; [exact Logic.I|]. field.
    + intros t _. apply continuity_pt_filterlim. apply (ex_derive_continuous (K := R_AbsRing) (V := R_NormedModule) (fun t => t * cosh t - sinh t)). unfold cosh, sinh. auto_derive. exact Logic.I.
    + rewrite Rmin_left, Rmax_right in Hw by lra. replace (0 * cosh 0 - sinh 0) with 0 in E' by (unfold sinh; rewrite Ropp_0, exp_0; field). assert (0 <= w * sinh w). { apply Rmult_le_pos; [lra|]. destruct (Req_EM_T w 0) as [->|]; [unfold sinh; rewrite Ropp_0, exp_0; lra|apply Rlt_le, sinh_pos; lra]. } assert (0 <= w * sinh w * (y - 0)) by (apply Rmult_le_pos; lra). lra.
Qed.
(** y / sinh y decreases *)
Lemma ratio_decr : forall u v, 0 < u -> u <= v -> v / sinh v <= u / sinh u.
Proof.
  intros u v Hu Huv. destruct (Req_EM_T u v) as [->|N]; [lra|].
  destruct (MVT_gen (fun t => t / sinh t) u v (fun t => (sinh t - t * cosh t) / sinh t ^ 2)) as (w & Hw & E).
  - intros t Ht. rewrite Rmin_left, Rmax_right in Ht by lra. assert (P : 0 < sinh t) by (apply sinh_pos; lra). replace ((sinh t - t * cosh t) / sinh t ^ 2) with ((1 * sinh t - t * cosh t) / sinh t ^ 2) by (f_equal; ring). apply (is_derive_div (fun t => t) sinh); [apply (@is_derive_id R_AbsRing)|apply is_derive_Reals, derivable_pt_lim_sinh|lra].
  - intros t Ht. rewrite Rmin_left, Rmax_right in Ht by lra. assert (P : 0 < sinh t) by (apply sinh_pos; lra). apply continuity_pt_filterlim. apply (ex_derive_continuous (K := R_AbsRing) (V := R_NormedModule) (fun t => t / sinh t)). eexists. apply (is_derive_div (fun t => t) sinh); [apply (@is_derive_id R_AbsRing)|apply is_derive_Reals, derivable_pt_lim_sinh|lra].
  - rewrite Rmin_left, Rmax_right in Hw by lra. assert (P : 0 < sinh w) by (apply sinh_pos; lra). destruct (le_sinh w ltac:(lra)) as [_ L]. assert (0 < sinh w ^ 2) by (apply pow_lt; exact P). assert ((sinh w - w * cosh w) / sinh w ^ 2 <= 0). { apply Rmult_le_reg_r with (sinh w ^ 2); [exact H|]. unfold Rdiv. rewrite Rmult_assoc, Rinv_l by lra. lra. } nra.
Qed.
(** the two functions of the heat capacity *)
Definition eS (y : R) : R := y ^ 2 / sinh y ^ 2.
Definition eC (y : R) : R := y ^ 2 / cosh y ^ 2.
Lemma eS_even : forall y, eS (- y) = eS y. Proof. intro y. unfold eS. rewrite sinh_odd. replace ((- y) ^ 2) with (y ^ 2) by ring. replace ((- sinh y) ^ 2) with (sinh y ^ 2) by ring. reflexivity. Qed.
Lemma eC_even : forall y, eC (- y) = eC y. Proof. intro y. unfold eC. rewrite cosh_even. replace ((- y) ^ 2) with (y ^ 2) by ring. reflexivity. Qed.
Lemma eS_abs : forall y, eS (Rabs y) = eS y. Proof. intro y. unfold Rabs. destruct (Rcase_abs y); [apply eS_even|reflexivity]. Qed.
Lemma eC_abs : forall y, eC (Rabs y) = eC y. Proof. intro y. unfold Rabs. destruct (Rcase_abs y); [apply eC_even|reflexivity]. Qed.
Lemma eC_nonneg : forall y, 0 <= eC y. Proof. intro y. unfold eC. pose proof (cosh_pos y). apply Rmult_le_pos; [apply pow2_ge_0|]. apply Rlt_le, Rinv_0_lt_compat, pow_lt. exact H. Qed.
Lemma eS_nonneg : forall y, 0 <= eS y.
Proof. intro y. unfold eS. destruct (Req_EM_T y 0) as [->|N]; [unfold Rdiv; rewrite pow_i by lia; rewrite Rmult_0_l; lra|]. apply Rmult_le_pos; [apply pow2_ge_0|]. apply Rlt_le, Rinv_0_lt_compat. replace (sinh y ^ 2) with (Rsqr (sinh y)) by (unfold Rsqr; ring). apply Rsqr_pos_lt, sinh_nz, N. Qed.
Lemma sq_div : forall a b, b <> 0 -> a ^ 2 / b ^ 2 = (a / b) ^ 2. Proof. intros. field. assumption. Qed.
Lemma eC_le_eS : forall y, y <> 0 -> eC y <= eS y.
Proof.
  intros y N. rewrite <- eC_abs, <- eS_abs. set (z := Rabs y). assert (Hz : 0 < z) by (apply Rabs_pos_lt, N). unfold eC, eS. pose proof (sinh_pos z Hz) as Sp. pose proof (cosh_pos z) as Cp. pose proof (sinh_sq z) as Q. apply Rmult_le_compat_l; [apply pow2_ge_0|]. apply Rinv_le_contravar; [now apply pow_lt|]. lra.
Qed.
Lemma eS_decr : forall u v, 0 < Rabs u -> Rabs u <= Rabs v -> eS v <= eS u.
Proof.
  intros u v Hu Huv. rewrite <- (eS_abs u), <- (eS_abs v). pose proof (ratio_decr _ _ Hu Huv) as H. set (a := Rabs u) in *. set (b := Rabs v) in *. unfold eS. pose proof (sinh_pos a Hu). pose proof (sinh_pos b ltac:(lra)). rewrite !sq_div by lra. apply pow_incr. split; [|exact H]. apply Rmult_le_pos; [lra|]. apply Rlt_le, Rinv_0_lt_compat. lra.
Qed.
Lemma eC_le1 : forall y, eC y <= 1.
Proof.
  intro y. rewrite <- eC_abs. set (z := Rabs y). assert (Hz : 0 <= z) by apply Rabs_pos. unfold eC. pose proof (cosh_pos z) as Cp. rewrite sq_div by lra. destruct (le_sinh z Hz) as [L _]. pose proof (sinh_sq z) as Q. assert (z <= cosh z) by nra.
  replace 1 with (1 ^ 2) by ring. apply pow_incr. split; [apply Rmult_le_pos; [lra|apply Rlt_le, Rinv_0_lt_compat; lra]|]. apply Rmult_le_reg_r with (cosh z); [lra|]. unfold Rdiv. rewrite Rmult_assoc, Rinv_l by lra. lra.
Qed.

(** * A pure fluid *)
Section Pure.
Variable c : icoef.
Let n k := nth k (i_n0 c) 0.
Let th k := nth k (i_th0 c) 0.
Hypothesis H4 : n 4%nat <> 0 -> th 4%nat <> 0.
Hypothesis H6 : n 6%nat <> 0 -> th 6%nat <> 0.
Variables Tc rhoc : R.
Hypothesis PT : 0 < Tc.
Hypothesis Pr : 0 < rhoc.
Definition gsum (tau : R) : R := n 3%nat * ln tau + n 4%nat * ln (Rabs (sinh (th 4%nat * tau))) - n 5%nat * ln (cosh (th 5%nat * tau)) + n 6%nat * ln (Rabs (sinh (th 6%nat * tau))) - n 7%nat * ln (cosh (th 7%nat * tau)).
Definition gsum1 (tau : R) : R := n 3%nat / tau + n 4%nat * (th 4%nat * cosh (th 4%nat * tau) / sinh (th 4%nat * tau)) - n 5%nat * (th 5%nat * sinh (th 5%nat * tau) / cosh (th 5%nat * tau))
  + n 6%nat * (th 6%nat * cosh (th 6%nat * tau) / sinh (th 6%nat * tau)) - n 7%nat * (th 7%nat * sinh (th 7%nat * tau) / cosh (th 7%nat * tau)).
Definition gsum2 (tau : R) : R := - (n 3%nat / tau ^ 2) + n 4%nat * (- (th 4%nat ^ 2 / sinh (th 4%nat * tau) ^ 2)) - n 5%nat * (th 5%nat ^ 2 / cosh (th 5%nat * tau) ^ 2)
  + n 6%nat * (- (th 6%nat ^ 2 / sinh (th 6%nat * tau) ^ 2)) - n 7%nat * (th 7%nat ^ 2 / cosh (th 7%nat * tau) ^ 2).
Lemma plus_d : forall (f g : R -> R) t a b, is_derive f t a -> is_derive g t b -> is_derive (fun t => f t + g t) t (a + b).
Proof. intros. apply (is_derive_plus (K := R_AbsRing) (V := R_NormedModule)); assumption. Qed.
Lemma minus_d : forall (f g : R -> R) t a b, is_derive f t a -> is_derive g t b -> is_derive (fun t => f t - g t) t (a - b).
Proof. intros. apply (is_derive_minus (K := R_AbsRing) (V := R_NormedModule)); assumption. Qed.
Lemma scal_d : forall k (f : R -> R) t a, (k <> 0 -> is_derive f t a) -> is_derive (fun t => k * f t) t (k * a).
Proof.
  intros k f t a H. destruct (Req_EM_T k 0) as [->|N].
  - apply (is_derive_ext (fun _ => 0)); [intro; symmetry; apply Rmult_0_l|]. rewrite Rmult_0_l. apply (is_derive_const (K := R_AbsRing) (V := R_NormedModule)).
  - apply (is_derive_scal f). auto.
Qed.
Lemma gsum_d : forall tau, 0 < tau -> is_derive gsum tau (gsum1 tau).
Proof.
  intros tau Ht. unfold gsum, gsum1. apply minus_d; [apply plus_d; [apply minus_d; [apply plus_d|]|]|]; apply scal_d; intro N.
  - replace (/ tau) with (/ tau) by reflexivity. apply is_derive_Reals, derivable_pt_lim_ln, Ht.
  - apply d_lnsinh; auto.
  - apply d_lncosh.
  - apply d_lnsinh; auto.
  - apply d_lncosh.
Qed.
Lemma gsum1_d : forall tau, 0 < tau -> is_derive gsum1 tau (gsum2 tau).
Proof.
  intros tau Ht. unfold gsum1, gsum2. apply minus_d; [apply plus_d; [apply minus_d; [apply plus_d|]|]|]; [|apply scal_d; intro N..].
  - auto_derive; [lra|]. field. lra.
  - apply d_coth; auto.
  - apply d_tanh.
  - apply d_coth; auto.
  - apply d_tanh.
Qed.
Let r := Rstar / gerg_R.
Lemma r_pos : 0 < r. Proof. unfold r, Rstar, gerg_R. lra. Qed.
(** the integration constants *)
Definition tau0 : R := Tc / T0.
Definition rho0 : R := p0 / (gerg_R * T0).
Definition n2_of : R := (- 1 - r * tau0 * gsum1 tau0) / (r * tau0).
Definition n1_of : R := (r * tau0 * gsum1 tau0 - (ln (rho0 / rhoc) + r * gsum tau0)) / r.
Lemma tau0_pos : 0 < tau0. Proof. unfold tau0, T0. apply Rdiv_lt_0_compat; lra. Qed.
Lemma rho0_pos : 0 < rho0. Proof. unfold rho0, p0, gerg_R, T0. lra. Qed.
Lemma tanh_nz : forall y, y <> 0 -> tanh y <> 0.
Proof. intros y H. unfold tanh. apply Rmult_integral_contrapositive. split; [apply sinh_nz, H|]. apply Rinv_neq_0_compat. pose proof (cosh_pos y). lra. Qed.
Lemma recalc_val : constants c Tc rhoc = Some (n1_of, n2_of).
Proof.
  pose proof tau0_pos as Pt. pose proof rho0_pos as Pq. pose proof r_pos as Rp. unfold constants, recalc. rewrite cdiv_nz by (unfold T0; lra). cbn [opt_bind]. fold tau0. rewrite clog_val by exact Pt. cbn [opt_bind]. fold rho0. rewrite cdiv_nz by lra. cbn [opt_bind]. rewrite clog_val by (apply Rdiv_lt_0_compat; lra). cbn [opt_bind]. fold r.
  assert (LS : forall k, (n k <> 0 -> th k <> 0) -> (if is0 (nth k (i_n0 c) 0) then Some 0 else l <-- clog (Rabs (sinh (nth k (i_th0 c) 0 * tau0))); Some (nth k (i_n0 c) 0 * l)) = Some (n k * ln (Rabs (sinh (th k * tau0))))).
  { intros k Hk. fold (n k) (th k). unfold is0. destruct (Req_EM_T (n k) 0) as [->|N]; [now rewrite Rmult_0_l|]. rewrite clog_val; [reflexivity|]. apply Rabs_pos_lt, sinh_nz. apply Rmult_integral_contrapositive. split; [auto|lra]. }
  assert (LC : forall k, (if is0 (nth k (i_n0 c) 0) then Some 0 else l <-- clog (Rabs (cosh (nth k (i_th0 c) 0 * tau0))); Some (nth k (i_n0 c) 0 * l)) = Some (n k * ln (cosh (th k * tau0)))).
  { intros k. fold (n k) (th k). pose proof (cosh_pos (th k * tau0)) as P. unfold is0. destruct (Req_EM_T (n k) 0) as [->|N]; [now rewrite Rmult_0_l|]. rewrite Rabs_right by lra. rewrite clog_val by exact P. reflexivity. }
  assert (HT : forall k, (n k <> 0 -> th k <> 0) -> (if is0 (nth k (i_n0 c) 0) then Some 0 else h <-- cdiv (nth k (i_n0 c) 0 * nth k (i_th0 c) 0 * tau0) (tanh (nth k (i_th0 c) 0 * tau0)); Some h) = Some (tau0 * (n k * (th k * cosh (th k * tau0) / sinh (th k * tau0))))).
  { intros k Hk. fold (n k) (th k). unfold is0. destruct (Req_EM_T (n k) 0) as [->|N]; [f_equal; ring|]. assert (Y : th k * tau0 <> 0) by (apply Rmult_integral_contrapositive; split; [auto|lra]). rewrite cdiv_nz by (apply tanh_nz, Y). cbn [opt_bind]. f_equal. unfold tanh. pose proof (sinh_nz _ Y). pose proof (cosh_pos (th k * tau0)). field. split; lra. }
  rewrite (LS 4%nat H4). cbn [opt_bind]. rewrite (LS 6%nat H6). cbn [opt_bind]. rewrite (LC 5%nat). cbn [opt_bind]. rewrite (LC 7%nat). cbn [opt_bind]. rewrite (HT 4%nat H4). cbn [opt_bind]. rewrite (HT 6%nat H6). cbn [opt_bind].
  assert (TC : forall k, n k * th k * tau0 * tanh (th k * tau0) = tau0 * (n k * (th k * sinh (th k * tau0) / cosh (th k * tau0)))). { intro k. unfold tanh. pose proof (cosh_pos (th k * tau0)). field. lra. }
  fold (n 3%nat) (n 5%nat) (th 5%nat) (n 7%nat) (th 7%nat). rewrite !TC.
  assert (E3 : n 3%nat = tau0 * (n 3%nat / tau0)) by (field; lra).
  unfold solve2. replace (0 * (r * tau0 - r * tau0) - r * tau0 * (0 - r)) with (r * (r * tau0)) by ring. assert (ND : r * (r * tau0) <> 0). { assert (0 < r * (r * tau0)) by (apply Rmult_lt_0_compat; [lra|apply Rmult_lt_0_compat; lra]). lra. }
  rewrite cdiv_nz by exact ND. cbn [opt_bind]. rewrite cdiv_nz by exact ND. cbn [opt_bind]. f_equal. f_equal.
  - unfold n1_of, gsum1, gsum. rewrite E3 at 1. generalize (ln (rho0 / rhoc)) (ln tau0) (n 4%nat * ln (Rabs (sinh (th 4%nat * tau0)))) (n 6%nat * ln (Rabs (sinh (th 6%nat * tau0)))) (n 5%nat * ln (cosh (th 5%nat * tau0))) (n 7%nat * ln (cosh (th 7%nat * tau0))).
    generalize (n 4%nat * (th 4%nat * cosh (th 4%nat * tau0) / sinh (th 4%nat * tau0))) (n 6%nat * (th 6%nat * cosh (th 6%nat * tau0) / sinh (th 6%nat * tau0))) (n 5%nat * (th 5%nat * sinh (th 5%nat * tau0) / cosh (th 5%nat * tau0))) (n 7%nat * (th 7%nat * sinh (th 7%nat * tau0) / cosh (th 7%nat * tau0))). intros. field. split; lra.
  - unfold n2_of, gsum1. rewrite E3 at 1. 
    generalize (n 4%nat * (th 4%nat * cosh (th 4%nat * tau0) / sinh (th 4%nat * tau0))) (n 6%nat * (th 6%nat * cosh (th 6%nat * tau0) / sinh (th 6%nat * tau0))) (n 5%nat * (th 5%nat * sinh (th 5%nat * tau0) / cosh (th 5%nat * tau0))) (n 7%nat * (th 7%nat * sinh (th 7%nat * tau0) / cosh (th 7%nat * tau0))). intros. field. split; lra.
Qed.
Lemma ln_0 : ln 0 = 0. Proof. unfold ln. destruct (Rlt_dec 0 0) as [L|L]; [exfalso; exact (Rlt_irrefl 0 L)|reflexivity]. Qed.
Lemma ideal_val : forall T rho, 0 < T -> 0 < rho -> ideal_pure c Tc rhoc T rho = Some (gerg_ideal r n1_of n2_of n th Tc rhoc T rho).
Proof.
  intros T rho HT Hr. unfold ideal_pure. rewrite recalc_val. cbn [opt_bind fst snd]. rewrite cdiv_nz by lra. cbn [opt_bind]. set (tau := Tc / T). assert (Pt : 0 < tau) by (apply Rdiv_lt_0_compat; lra). rewrite clog_val by exact Pt. cbn [opt_bind].
  assert (LS : forall k, (if is0 (nth k (i_th0 c) 0) then Some 0 else l <-- clog (Rabs (sinh (nth k (i_th0 c) 0 * tau))); Some (nth k (i_n0 c) 0 * l)) = Some (n k * ln (Rabs (sinh (th k * tau))))).
  { intros k. fold (n k) (th k). unfold is0. destruct (Req_EM_T (th k) 0) as [->|N].
    - f_equal. rewrite Rmult_0_l. replace (sinh 0) with 0 by (unfold sinh; rewrite Ropp_0, exp_0; field). rewrite Rabs_R0, ln_0. ring.
    - rewrite clog_val; [reflexivity|]. apply Rabs_pos_lt, sinh_nz. apply Rmult_integral_contrapositive. split; lra. }
  assert (LC : forall k, (if is0 (nth k (i_th0 c) 0) then Some 0 else l <-- clog (Rabs (cosh (nth k (i_th0 c) 0 * tau))); Some (nth k (i_n0 c) 0 * l)) = Some (n k * ln (cosh (th k * tau)))).
  { intros k. fold (n k) (th k). pose proof (cosh_pos (th k * tau)) as P. unfold is0. destruct (Req_EM_T (th k) 0) as [->|N].
    - f_equal. rewrite Rmult_0_l. replace (cosh 0) with 1 by (unfold cosh; rewrite Ropp_0, exp_0; field). rewrite ln_1. ring.
    - rewrite Rabs_right by lra. rewrite clog_val by exact P. reflexivity. }
  rewrite (LS 4%nat). cbn [opt_bind]. rewrite (LS 6%nat). cbn [opt_bind]. rewrite (LC 5%nat). cbn [opt_bind]. rewrite (LC 7%nat). cbn [opt_bind]. rewrite cdiv_nz by lra. cbn [opt_bind]. rewrite clog_val by (apply Rdiv_lt_0_compat; lra). cbn [opt_bind]. f_equal. unfold gerg_ideal. fold tau r (n 3%nat). ring.
Qed.
Definition aid (T rho : R) : R := gerg_ideal r n1_of n2_of n th Tc rhoc T rho.
Lemma aid_gsum : forall T rho, aid T rho = ln (rho / rhoc) + r * (n1_of + n2_of * (Tc / T) + gsum (Tc / T)).
Proof. intros. unfold aid, gerg_ideal, gsum. ring. Qed.
Definition aid1 (T : R) : R := - (r * Tc / T ^ 2 * (n2_of + gsum1 (Tc / T))).
Definition aid_cv (T : R) : R := - (r * (Tc / T) ^ 2 * gsum2 (Tc / T)).
Lemma tau_d : forall T, 0 < T -> is_derive (fun T => Tc / T) T (- (Tc / T ^ 2)).
Proof. intros T H. auto_derive; [lra|]. field. lra. Qed.
Lemma comp_d : forall (f : R -> R) (g : R -> R) t a b, is_derive f (g t) a -> is_derive g t b -> is_derive (fun t => f (g t)) t (b * a).
Proof. intros f g t a b F G. exact (is_derive_comp f g t a b F G). Qed.
Lemma aid_T : forall T rho, 0 < T -> is_derive (fun T => aid T rho) T (aid1 T).
Proof.
  intros T rho HT. apply (is_derive_ext (fun T => ln (rho / rhoc) + r * (n1_of + n2_of * (Tc / T) + gsum (Tc / T)))); [intro; symmetry; apply aid_gsum|].
  assert (Pt : 0 < Tc / T) by (apply Rdiv_lt_0_compat; lra). replace (aid1 T) with (0 + r * (0 + n2_of * (- (Tc / T ^ 2)) + - (Tc / T ^ 2) * gsum1 (Tc / T))) by (unfold aid1, Rdiv; ring).
  apply plus_d; [apply (is_derive_const (K := R_AbsRing) (V := R_NormedModule))|]. apply (scal_d r (fun T => n1_of + n2_of * (Tc / T) + gsum (Tc / T))). intros _. apply plus_d; [apply plus_d; [apply (is_derive_const (K := R_AbsRing) (V := R_NormedModule))|]|].
  - apply (scal_d n2_of (fun T => Tc / T)). intros _. now apply tau_d.
  - apply (comp_d gsum (fun T => Tc / T)); [now apply gsum_d|now apply tau_d].
Qed.
Lemma aid_u : forall T, 0 < T -> is_derive (fun T => - T ^ 2 * aid1 T) T (aid_cv T).
Proof.
  intros T HT. assert (Pt : 0 < Tc / T) by (apply Rdiv_lt_0_compat; lra). apply (is_derive_ext_loc (fun T => r * Tc * (n2_of + gsum1 (Tc / T)))).
  - exists (mkposreal T HT). intros t Hb. cbn in Hb. unfold ball in Hb. cbn in Hb. unfold AbsRing_ball, abs, minus, plus, opp in Hb. cbn in Hb. apply Rabs_def2 in Hb. unfold aid1. match goal with |- ?a = ?b => change (@eq R a b) end. field. lra.
  - replace (aid_cv T) with (r * Tc * (0 + - (Tc / T ^ 2) * gsum2 (Tc / T))) by (unfold aid_cv; field; lra). apply (scal_d (r * Tc) (fun T => n2_of + gsum1 (Tc / T))). intros _. apply plus_d; [apply (is_derive_const (K := R_AbsRing) (V := R_NormedModule))|]. apply (comp_d gsum1 (fun T => Tc / T)); [now apply gsum1_d|now apply tau_d].
Qed.
Lemma aid_rho : forall T rho, 0 < rho -> is_derive (fun rho => aid T rho) rho (1 / rho).
Proof.
  intros T rho Hr. apply (is_derive_ext (fun rho => ln (rho / rhoc) + r * (n1_of + n2_of * (Tc / T) + gsum (Tc / T)))); [intro; symmetry; apply aid_gsum|]. replace (1 / rho) with (1 / rho + 0) by ring. apply plus_d; [|apply (is_derive_const (K := R_AbsRing) (V := R_NormedModule))].
  replace (1 / rho) with (/ rhoc / (rho / rhoc)) by (field; lra). apply (d_ln (fun rho => rho / rhoc)); [|apply Rdiv_lt_0_compat; lra]. auto_derive; [exact Logic.I|]. field. lra.
Qed.
Lemma aid_reference : aid T0 rho0 = - 1 /\ aid1 T0 = 1 / T0.
Proof.
  pose proof r_pos as Rp. pose proof tau0_pos as Pt. assert (PT0 : 0 < T0) by (unfold T0; lra). assert (ET : Tc = tau0 * T0) by (unfold tau0; field; lra). split.
  - rewrite aid_gsum. fold tau0. unfold n1_of, n2_of. field. split; lra.
  - unfold aid1. fold tau0. unfold n2_of. rewrite ET at 1. field. repeat split; lra.
Qed.
(** conditions under which the heat capacity is positive *)
Hypothesis C3 : Rmax 0 (- n 5%nat) < n 3%nat.
Hypothesis C4 : 0 <= n 4%nat.
Hypothesis C6 : 0 <= n 6%nat.
Hypothesis C7 : 0 <= n 7%nat \/ (- n 7%nat <= n 6%nat /\ th 6%nat <> 0 /\ Rabs (th 6%nat) <= Rabs (th 7%nat)).
Lemma aid_cv_pos : forall T, 0 < T -> 0 < aid_cv T.
Proof.
  intros T HT. pose proof r_pos as Rp. unfold aid_cv. set (tau := Tc / T). assert (Pt : 0 < tau) by (apply Rdiv_lt_0_compat; lra).
  assert (S' : forall k, (n k <> 0 -> th k <> 0) -> tau ^ 2 * (n k * (th k ^ 2 / sinh (th k * tau) ^ 2)) = n k * eS (th k * tau)). { intros k Hk. unfold eS. destruct (Req_EM_T (n k) 0) as [->|N]; [ring|]. assert (sinh (th k * tau) <> 0) by (apply sinh_nz, Rmult_integral_contrapositive; split; [auto|lra]). field. assumption. }
  assert (C' : forall k, tau ^ 2 * (n k * (th k ^ 2 / cosh (th k * tau) ^ 2)) = n k * eC (th k * tau)). { intros k. unfold eC. pose proof (cosh_pos (th k * tau)). field. lra. }
  replace (- (r * tau ^ 2 * gsum2 tau)) with (r * (n 3%nat + n 4%nat * eS (th 4%nat * tau) + n 5%nat * eC (th 5%nat * tau) + n 6%nat * eS (th 6%nat * tau) + n 7%nat * eC (th 7%nat * tau))).
  2:{ rewrite <- !C', <- (S' 4%nat H4), <- (S' 6%nat H6). unfold gsum2. replace (n 3%nat) with (tau ^ 2 * (n 3%nat / tau ^ 2)) at 1 by (field; lra). ring. }
  apply Rmult_lt_0_compat; [exact Rp|]. assert (A4 : 0 <= n 4%nat * eS (th 4%nat * tau)) by (apply Rmult_le_pos; [exact C4|apply eS_nonneg]).
  assert (A5 : 0 < n 3%nat + n 5%nat * eC (th 5%nat * tau)). { pose proof (eC_nonneg (th 5%nat * tau)). pose proof (eC_le1 (th 5%nat * tau)). pose proof (Rmax_l 0 (- n 5%nat)). pose proof (Rmax_r 0 (- n 5%nat)). destruct (Rle_dec 0 (n 5%nat)); nra. }
  assert (A6 : 0 <= n 6%nat * eS (th 6%nat * tau)) by (apply Rmult_le_pos; [exact C6|apply eS_nonneg]).
  assert (A7 : 0 <= n 6%nat * eS (th 6%nat * tau) + n 7%nat * eC (th 7%nat * tau)).
  { destruct C7 as [P|(P & N6 & P67)]; [assert (0 <= n 7%nat * eC (th 7%nat * tau)) by (apply Rmult_le_pos; [exact P|apply eC_nonneg]); lra|].
    assert (N7 : th 7%nat <> 0). { intro E. rewrite E, Rabs_R0 in P67. pose proof (Rabs_pos_lt _ N6). lra. }
    assert (E1 : eC (th 7%nat * tau) <= eS (th 7%nat * tau)) by (apply eC_le_eS, Rmult_integral_contrapositive; split; lra).
    assert (E2 : eS (th 7%nat * tau) <= eS (th 6%nat * tau)). { apply eS_decr; [apply Rabs_pos_lt, Rmult_integral_contrapositive; split; lra|]. rewrite !Rabs_mult. apply Rmult_le_compat_r; [apply Rabs_pos|exact P67]. }
    pose proof (eC_nonneg (th 7%nat * tau)). destruct (Rle_dec 0 (n 7%nat)); nra. }
  lra.
Qed.
End Pure.
