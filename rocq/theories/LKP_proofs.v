(** Lemmas about LKP_model.v *)
From Coq Require Import Reals String List Bool Lia Lra Psatz.
From Coquelicot Require Import Coquelicot.
From Verif Require Import Json_model Vec_spec Vec_proofs Cubic_model Cubic_spec Cubic_proofs2 Terms_model Ideal_model Ideal_proofs Assoc_model LKP_model LKP_spec.
Import ListNotations.
Open Scope R_scope.

(** Parameters of real fluids *)
Definition lkp_physical (m : lkp) : Prop :=
  let N := length (k_Tc m) in
  length (k_pc m) = N /\ length (k_w m) = N /\ length (k_mat m) = N /\ 0 < k_R m /\
  forall i, (i < N)%nat -> 0 < nth i (k_Tc m) 0 /\ 0 < nth i (k_pc m) 0 /\ nth i (k_w m) 0 < 3.4.
Definition vci (m : lkp) (i : nat) : R := (0.2905 - 0.085 * nth i (k_w m) 0) * k_R m * nth i (k_Tc m) 0 / nth i (k_pc m) 0.
Definition Tci (m : lkp) (i : nat) : R := nth i (k_Tc m) 0.
Definition wi (m : lkp) (i : nat) : R := nth i (k_w m) 0.
Definition kij (m : lkp) (i j : nat) : R := nth j (nth i (k_mat m) []) 0.

(** The rest of the function, after the three sums *)
Definition lkp_core (omega v ts T rho : R) : option R :=
  p <-- cpow v 0.25; ip <-- cdiv 1 p; tau <-- cdiv (ip * ts) T;
  a0 <-- lkp_func lkp_simple tau (v * rho) (0.2905 - 0.085 * omega);
  a1 <-- lkp_func lkp_ref tau (v * rho) (0.2905 - 0.085 * omega);
  Some ((1 - omega / lomega lkp_ref) * a0 + omega / lomega lkp_ref * a1).

Lemma vci_pos : forall m i, lkp_physical m -> (i < length (k_Tc m))%nat -> 0 < vci m i.
Proof.
  intros m i (Lp & Lw & Lk & HR & H) Hi. destruct (H i Hi) as (A & B & C). unfold vci.
  apply Rdiv_lt_0_compat; [|exact B]. repeat apply Rmult_lt_0_compat; try assumption. lra.
Qed.
Lemma cdiv_nz : forall a b, b <> 0 -> cdiv a b = Some (a / b).
Proof. intros a b H. unfold cdiv. destruct (Req_EM_T b 0); [contradiction|reflexivity]. Qed.
Lemma cpow_pos : forall a b, 0 < a -> cpow a b = Some (Rpower a b).
Proof. intros a b H. unfold cpow. destruct (Req_EM_T a 0); [lra|]. destruct (Rlt_dec 0 a); [reflexivity|contradiction]. Qed.
Lemma third_cbrt : forall v, 0 < v -> cbrt v = third v.
Proof. intros v H. unfold cbrt, third. destruct (Rlt_dec 0 v); [reflexivity|contradiction]. Qed.
Lemma third_pos : forall v, 0 < third v.
Proof. intro v. unfold third, Rpower. apply exp_pos. Qed.
Lemma third_cube : forall v, 0 < v -> third v ^ 3 = v.
Proof. intros v H. rewrite <- third_cbrt by auto. apply cbrt_cube; auto. Qed.
Lemma pair_pos : forall v i j, 0 < pair_volume v i j.
Proof. intros v i j. unfold pair_volume. apply pow_lt. pose proof (third_pos (v i)). pose proof (third_pos (v j)). lra. Qed.
Lemma vij_val : forall m i j, lkp_physical m -> (i < length (k_Tc m))%nat -> (j < length (k_Tc m))%nat -> lkp_vij m i j = Some (pair_volume (vci m) i j).
Proof.
  intros m i j P Hi Hj. unfold lkp_vij, lkp_vc. pose proof (vci_pos m i P Hi) as Vi. pose proof (vci_pos m j P Hj) as Vj.
  destruct P as (Lp & Lw & Lk & HR & H).
  rewrite !cdiv_nz by (apply Rgt_not_eq; apply H; assumption). cbn [opt_bind].
  fold (vci m i). fold (vci m j). rewrite !third_cbrt by assumption. f_equal. unfold pair_volume. field.
Qed.
Lemma Tij_val : forall m i j, lkp_physical m -> (i < length (k_Tc m))%nat -> (j < length (k_Tc m))%nat ->
  lkp_Tij m i j = Some (kij m i j * sqrt (Tci m i * Tci m j)).
Proof.
  intros m i j (Lp & Lw & Lk & HR & H) Hi Hj. unfold lkp_Tij, csqrt, kij, Tci.
  destruct (H i Hi) as (A & _). destruct (H j Hj) as (B & _).
  destruct (Rle_dec 0 (nth i (k_Tc m) 0 * nth j (k_Tc m) 0)) as [_|N]; [reflexivity|]. exfalso. apply N. apply Rlt_le. now apply Rmult_lt_0_compat.
Qed.
Definition tsum (m : lkp) (x : list R) : R :=
  quadratic_mean x (fun i j => Rpower (pair_volume (vci m) i j) (1 / 4) * (kij m i j * sqrt (Tci m i * Tci m j))).
Lemma quarter : 0.25 = 1 / 4. Proof. lra. Qed.
Lemma mixture_core : forall m T rho x, lkp_physical m -> length x = length (k_Tc m) ->
  lkp_mixture m T rho x = lkp_core (mix_w (wi m) x) (mix_volume (vci m) x) (tsum m x) T rho.
Proof.
  intros m T rho x P L. unfold lkp_mixture.
  assert (V : lkp_vmix m x = Some (mix_volume (vci m) x)).
  { unfold lkp_vmix, mix_volume, quadratic_mean. apply osum_val. intros i Hi. apply osum_val. intros j Hj.
    rewrite vij_val by (auto; lia). reflexivity. }
  assert (S : lkp_Tsum m x = Some (tsum m x)).
  { unfold lkp_Tsum, tsum, quadratic_mean. apply osum_val. intros i Hi. apply osum_val. intros j Hj.
    rewrite vij_val by (auto; lia). cbn [opt_bind]. rewrite cpow_pos by apply pair_pos. cbn [opt_bind].
    rewrite Tij_val by (auto; lia). cbn [opt_bind]. rewrite quarter. f_equal. ring. }
  rewrite V, S. reflexivity.
Qed.

(** The real function *)
Definition func (p : lkp_fluid) (tau delta Zc : R) : R :=
  let B := nb (lb p) 1 - nb (lb p) 2 * tau - nb (lb p) 3 * tau ^ 2 - nb (lb p) 4 * tau ^ 3 in
  let C := nb (lc p) 1 - nb (lc p) 2 * tau + nb (lc p) 3 * tau ^ 3 in
  let D := nb (ld p) 1 + nb (ld p) 2 * tau in
  let dz := delta / Zc in
  let g := nb (lc p) 4 * tau ^ 3 / (2 * lgamma p) in
  B / Zc * delta + 1 / 2 * C * dz ^ 2 + 1 / 5 * D * dz ^ 5 - g * (lgamma p * dz ^ 2 + lbeta p + 1) * exp (- lgamma p * dz ^ 2) + g * (lbeta p + 1).
Lemma func_val : forall p tau delta Zc, lgamma p <> 0 -> Zc <> 0 -> lkp_func p tau delta Zc = Some (func p tau delta Zc).
Proof. intros p tau delta Zc G Z. unfold lkp_func. rewrite !cdiv_nz by lra. reflexivity. Qed.
Definition core (omega v tc T rho : R) : R :=
  (1 - omega / 0.3978) * func lkp_simple (tc / T) (v * rho) (0.2905 - 0.085 * omega)
  + omega / 0.3978 * func lkp_ref (tc / T) (v * rho) (0.2905 - 0.085 * omega).
Lemma core_val : forall omega v ts T rho, 0 < v -> T <> 0 -> 0.2905 - 0.085 * omega <> 0 ->
  lkp_core omega v ts T rho = Some (core omega v (ts / Rpower v (1 / 4)) T rho).
Proof.
  intros omega v ts T rho V HT Z. unfold lkp_core. rewrite cpow_pos by auto. cbn [opt_bind]. rewrite quarter.
  assert (P : 0 < Rpower v (1 / 4)) by apply exp_pos.
  rewrite cdiv_nz by lra. cbn [opt_bind]. rewrite cdiv_nz by auto. cbn [opt_bind].
  rewrite !func_val by (cbn [lgamma lkp_simple lkp_ref]; auto; lra). cbn [opt_bind lomega lkp_ref].
  unfold core. replace (1 / Rpower v (1 / 4) * ts / T) with (ts / Rpower v (1 / 4) / T) by (field; split; lra). reflexivity.
Qed.
Lemma func_zero : forall p tau Zc, func p tau 0 Zc = 0.
Proof.
  intros. unfold func. replace (0 / Zc) with 0 by (unfold Rdiv; ring).
  replace (- lgamma p * 0 ^ 2) with 0 by ring. rewrite exp_0. ring.
Qed.
(** Its derivative is the compressibility factor *)
Definition constants (p : lkp_fluid) (q : LK) : Prop :=
  nb (lb p) 1 = LKb1 q /\ nb (lb p) 2 = LKb2 q /\ nb (lb p) 3 = LKb3 q /\ nb (lb p) 4 = LKb4 q /\
  nb (lc p) 1 = LKc1 q /\ nb (lc p) 2 = LKc2 q /\ nb (lc p) 3 = LKc3 q /\ nb (lc p) 4 = LKc4 q /\
  nb (ld p) 1 = LKd1 q /\ nb (ld p) 2 = LKd2 q /\ lbeta p = LKbeta q /\ lgamma p = LKgamma q /\ lgamma p <> 0.
Lemma simple_constants : constants lkp_simple simple_fluid.
Proof. unfold constants. cbn [lkp_simple simple_fluid nb nth lb lc ld lbeta lgamma LKb1 LKb2 LKb3 LKb4 LKc1 LKc2 LKc3 LKc4 LKd1 LKd2 LKbeta LKgamma]. repeat split; lra. Qed.
Lemma ref_constants : constants lkp_ref octane.
Proof. unfold constants. cbn [lkp_ref octane nb nth lb lc ld lbeta lgamma LKb1 LKb2 LKb3 LKb4 LKc1 LKc2 LKc3 LKc4 LKd1 LKd2 LKbeta LKgamma]. repeat split; lra. Qed.
Lemma func_derive : forall p q Tr v Zc rho, constants p q -> Tr <> 0 -> v <> 0 -> Zc <> 0 -> rho <> 0 ->
  is_derive (fun r => func p (/ Tr) (v * r) Zc) rho ((LK_Z q Tr (Zc / (v * rho)) - 1) / rho).
Proof.
  intros p q Tr v Zc rho (E1 & E2 & E3 & E4 & E5 & E6 & E7 & E8 & E9 & E10 & E11 & E12 & G) HT HV HZ HR.
  unfold func, LK_Z. rewrite <- E1, <- E2, <- E3, <- E4, <- E5, <- E6, <- E7, <- E8, <- E9, <- E10, <- E11, <- E12.
  generalize (nb (lb p) 1) (nb (lb p) 2) (nb (lb p) 3) (nb (lb p) 4) (nb (lc p) 1) (nb (lc p) 2) (nb (lc p) 3) (nb (lc p) 4) (nb (ld p) 1) (nb (ld p) 2) (lbeta p).
  intros b1 b2 b3 b4 c1 c2 c3 c4 d1 d2 be. revert G. generalize (lgamma p). intros g G. clear - HT HV HZ HR G.
  auto_derive; [trivial|].
  replace (- (g / (Zc / (v * rho)) ^ 2)) with (- g * (v * rho / Zc * (v * rho / Zc * 1))) by (field; auto).
  set (e := exp _). field. auto.
Qed.
