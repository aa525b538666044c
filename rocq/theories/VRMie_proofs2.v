(** More lemmas about the SAFT-VR-Mie model: the potential, the diameter, the perturbation terms. *)
From Coq Require Import Reals ZArith String List Lia Lra Bool.
From Coquelicot Require Import Coquelicot.
From Verif Require Import Json_model Vec_spec Vec_proofs Cubic_model Terms_model Ideal_model Ideal_proofs Util_model Assoc_model Numerics_model LKP_proofs VRMie_model VRMie_spec VRMie_proofs.
Import ListNotations.
Local Open Scope R_scope.

(** ** The potential *)
Lemma lam_self : forall l i, 3 <= nth i l 0 -> lam l i i = Some (nth i l 0).
Proof. intros l i H. unfold lam. rewrite csqrt_val by (apply Rle_0_sqr). cbn [opt_bind]. f_equal. rewrite sqrt_square by lra. lra. Qed.
Lemma mie_C_pos : forall lr la, 0 < la < lr -> 0 < mie_C lr la.
Proof. intros lr la H. unfold mie_C. apply Rmult_lt_0_compat; [apply Rdiv_lt_0_compat; lra|apply exp_pos]. Qed.
Lemma C_self : forall v i, 3 < nth i (v_la v) 0 < nth i (v_lr v) 0 -> C_ij v i i = Some (mie_C (nth i (v_lr v) 0) (nth i (v_la v) 0)).
Proof.
  intros v i H. unfold C_ij, lr_ij, la_ij. rewrite !lam_self by lra. cbn [opt_bind]. rewrite !cdiv_nz by lra. cbn [opt_bind].
  rewrite cpow_pos; [reflexivity|]. apply Rdiv_lt_0_compat; lra.
Qed.
Lemma Rpower_ge1 : forall s p, 1 <= s -> 0 <= p -> 1 <= Rpower s p.
Proof.
  intros s p Hs Hp. rewrite <- (Rpower_O s) by lra. apply Rle_Rpower; assumption.
Qed.
Lemma mie_repulsive : forall lr la sigma eps r, 0 < la < lr -> 0 < eps -> 0 < r <= sigma -> 0 <= mie lr la sigma eps r.
Proof.
  intros lr la sigma eps r L E H. unfold mie. pose proof (mie_C_pos lr la L). apply Rmult_le_pos; [apply Rlt_le; now apply Rmult_lt_0_compat|].
  assert (1 <= sigma / r) by (apply (Rmult_le_reg_r r); [lra|]; unfold Rdiv; rewrite Rmult_assoc, Rinv_l; lra).
  assert (Rpower (sigma / r) la <= Rpower (sigma / r) lr) by (apply Rle_Rpower; lra). lra.
Qed.
Lemma uii_val : forall v i r, 3 < nth i (v_la v) 0 < nth i (v_lr v) 0 -> 0 < nth i (v_sigma v) 0 -> 0 < r ->
  uii v i r = Some (mie (nth i (v_lr v) 0) (nth i (v_la v) 0) (nth i (v_sigma v) 0) (nth i (v_eps v) 0) r).
Proof.
  intros v i r L S H. unfold uii. rewrite cdiv_nz by lra. cbn [opt_bind]. assert (0 < nth i (v_sigma v) 0 / r) by now apply Rdiv_lt_0_compat.
  rewrite !cpow_pos by assumption. cbn [opt_bind]. rewrite C_self by assumption. reflexivity.
Qed.
Lemma exp_convex : forall la lr h, 0 < la < lr -> 0 <= la * exp (lr * h) - lr * exp (la * h) + (lr - la).
Proof.
  intros la lr h L.
  assert (T : forall c y, exp c * (1 + (y - c)) <= exp y). { intros c y. replace y with (c + (y - c)) at 2 by ring. rewrite exp_plus. apply Rmult_le_compat_l; [apply Rlt_le, exp_pos|]. 
    destruct (Req_dec (y - c) 0) as [->|N]; [rewrite exp_0; lra|]. apply Rlt_le. apply exp_ineq1. exact N. }
  pose proof (T (la * h) (lr * h)) as A. pose proof (T (la * h) 0) as B. rewrite exp_0 in B.
  assert (A' : la * (exp (la * h) * (1 + (lr * h - la * h))) <= la * exp (lr * h)) by (apply Rmult_le_compat_l; lra).
  assert (B' : (lr - la) * (exp (la * h) * (1 + (0 - la * h))) <= (lr - la) * 1) by (apply Rmult_le_compat_l; lra).
  assert (E : la * (exp (la * h) * (1 + (lr * h - la * h))) + (lr - la) * (exp (la * h) * (1 + (0 - la * h))) = lr * exp (la * h)) by ring. lra.
Qed.
Lemma mie_shifted : forall lr la sigma eps r, 0 < la < lr -> 0 < sigma -> 0 < r ->
  mie lr la sigma eps r = eps * (la * exp (lr * (ln (mie_rmin lr la sigma) - ln r)) - lr * exp (la * (ln (mie_rmin lr la sigma) - ln r))) / (lr - la).
Proof.
  intros lr la sigma eps r L S H. unfold mie, mie_C, mie_rmin. assert (Q : 0 < lr / la) by (apply Rdiv_lt_0_compat; lra).
  rewrite ln_mult by (auto; apply exp_pos). unfold Rpower. rewrite ln_exp.
  set (q := ln (lr / la)). replace (ln (sigma / r)) with (ln sigma - ln r) by (symmetry; apply ln_div; assumption).
  set (w := ln sigma - ln r). replace (ln sigma + / (lr - la) * q - ln r) with (w + / (lr - la) * q) by (unfold w; ring).
  rewrite !Rmult_plus_distr_l, !exp_plus.
  assert (E1 : lr * (/ (lr - la) * q) = q + la / (lr - la) * q) by (field; lra). rewrite E1, exp_plus.
  assert (E2 : exp q = lr / la) by (unfold q; apply exp_ln; exact Q). rewrite E2.
  replace (la * (/ (lr - la) * q)) with (la / (lr - la) * q) by (field; lra). field. lra.
Qed.
Lemma mie_bound : forall lr la sigma eps r, 0 < la < lr -> 0 < sigma -> 0 < eps -> 0 < r -> - eps <= mie lr la sigma eps r.
Proof.
  intros lr la sigma eps r L S E H. rewrite mie_shifted by assumption. set (h := _ - ln r). pose proof (exp_convex la lr h L) as X.
  apply (Rmult_le_reg_r (lr - la)); [lra|]. unfold Rdiv. rewrite Rmult_assoc, Rinv_l by lra.
  assert (0 <= eps * (la * exp (lr * h) - lr * exp (la * h) + (lr - la))) by (apply Rmult_le_pos; lra). lra.
Qed.
Lemma mie_at_min : forall lr la sigma eps, 0 < la < lr -> 0 < sigma -> mie lr la sigma eps (mie_rmin lr la sigma) = - eps.
Proof.
  intros lr la sigma eps L S. assert (0 < mie_rmin lr la sigma) by (unfold mie_rmin; apply Rmult_lt_0_compat; [assumption|apply exp_pos]).
  rewrite mie_shifted by assumption. replace (ln (mie_rmin lr la sigma) - ln (mie_rmin lr la sigma)) with 0 by ring. rewrite !Rmult_0_r, exp_0. field. lra.
Qed.

(** ** The diameter *)
Lemma quad_bounds : forall F a b x w, a <= b -> (forall y, a <= y <= b -> exists f, F y = Some f /\ 0 <= f <= 1) ->
  List.Forall (fun xi => -1 <= xi <= 1) x -> List.Forall (fun wi => 0 <= wi) w -> length x = length w ->
  exists q, oquad F a b x w = Some q /\ 0 <= q <= fold_right Rplus 0 w.
Proof.
  intros F a b x. induction x as [|xi x IH]; intros [|wi w] AB P X W L; try discriminate L.
  - exists 0. cbn. split; [reflexivity|lra].
  - apply Forall_inv in X as X1. apply Forall_inv_tail in X. apply Forall_inv in W as W1. apply Forall_inv_tail in W.
    destruct (IH w AB P X W ltac:(cbn in L; lia)) as (q & Q & B).
    assert (Y : a <= (b - a) / 2 * xi + (a + b) / 2 <= b).
    { assert (0 <= (b - a) / 2) by lra. assert ((b - a) / 2 * -1 <= (b - a) / 2 * xi) by (apply Rmult_le_compat_l; lra). assert ((b - a) / 2 * xi <= (b - a) / 2 * 1) by (apply Rmult_le_compat_l; lra). lra. }
    destruct (P _ Y) as (f & Ff & Bf). exists (wi * f + q). cbn [oquad fold_right]. rewrite Ff. cbn [opt_bind]. rewrite Q. cbn [opt_bind]. split; [reflexivity|].
    assert (0 <= wi * f) by (apply Rmult_le_pos; lra). assert (wi * f <= wi * 1) by (apply Rmult_le_compat_l; lra). lra.
Qed.
Lemma gl10_points : List.Forall (fun xi => -1 <= xi <= 1) (map dec gl10_x).
Proof. unfold gl10_x. repeat (apply Forall_cons; [unfold dec; lra|]). apply Forall_nil. Qed.
Lemma gl10_weights : List.Forall (fun wi => 0 <= wi) (map dec gl10_w).
Proof. unfold gl10_w. repeat (apply Forall_cons; [unfold dec; lra|]). apply Forall_nil. Qed.
Lemma gl10_total : fold_right Rplus 0 (map dec gl10_w) <= 2.
Proof. unfold gl10_w. cbn [map fold_right]. unfold dec. lra. Qed.
Lemma integrand_bounds : forall v i T r, 3 < nth i (v_la v) 0 < nth i (v_lr v) 0 -> 0 < nth i (v_sigma v) 0 -> 0 < nth i (v_eps v) 0 -> 0 < T ->
  0 < r <= nth i (v_sigma v) 0 -> exists f, integrand v i T r = Some f /\ 0 <= f <= 1.
Proof.
  intros v i T r L S E HT H. unfold integrand. rewrite uii_val by (try assumption; lra). cbn [opt_bind]. rewrite cdiv_nz by lra. cbn [opt_bind]. eexists. split; [reflexivity|].
  pose proof (mie_repulsive (nth i (v_lr v) 0) (nth i (v_la v) 0) (nth i (v_sigma v) 0) (nth i (v_eps v) 0) r ltac:(lra) E H) as M.
  set (u := mie _ _ _ _ _) in *. assert (P := exp_pos (- u / T)). split; [|lra].
  assert (exp (- u / T) <= exp 0); [|rewrite exp_0 in *; lra].
  assert (X : - u / T <= 0). { apply (Rmult_le_reg_r T); [exact HT|]. unfold Rdiv. rewrite Rmult_assoc, Rinv_l by lra. lra. }
  destruct X as [X|X]; [apply Rlt_le; now apply exp_increasing|rewrite X; lra].
Qed.
Lemma dii_bounds : forall v i T j, 3 < nth i (v_la v) 0 < nth i (v_lr v) 0 -> 0 < nth i (v_sigma v) 0 -> 0 < nth i (v_eps v) 0 -> 0 < T ->
  j_cutoff v i T = ok j -> exists d, dii v i T = ok d /\ nth i (v_sigma v) 0 / j <= d <= nth i (v_sigma v) 0 /\ 0 < d.
Proof.
  intros v i T j L S E HT H. unfold dii. rewrite H. unfold ok at 1, obind at 1.
  assert (J : 1 <= j).
  { unfold j_cutoff in H. destruct (fin _) as [[y|e]|]; try discriminate. cbn [obind] in H. destruct (Rlt_dec y 1); [discriminate|]. injection H as <-. lra. }
  set (s := nth i (v_sigma v) 0) in *. set (rc := s / j).
  assert (RC : 0 < rc <= s). { unfold rc. split; [apply Rdiv_lt_0_compat; lra|]. apply (Rmult_le_reg_r j); [lra|]. unfold Rdiv. rewrite Rmult_assoc, Rinv_l by lra. assert (s * 1 <= s * j) by (apply Rmult_le_compat_l; lra). lra. }
  rewrite cdiv_nz by lra. fold rc. unfold opt_bind at 1.
  destruct (quad_bounds (integrand v i T) rc s (map dec gl10_x) (map dec gl10_w)) as (q & Q & B).
  - lra.
  - intros y Hy. apply integrand_bounds; try assumption. fold s. lra.
  - exact gl10_points.
  - exact gl10_weights.
  - reflexivity.
  - rewrite Q. unfold opt_bind, fin, ok, obind. pose proof gl10_total as G.
    assert (D : rc + (s - rc) / 2 * q <= s). { assert ((s - rc) / 2 * q <= (s - rc) / 2 * 2) by (apply Rmult_le_compat_l; lra). lra. }
    assert (0 <= (s - rc) / 2 * q) by (apply Rmult_le_pos; lra).
    destruct (Rlt_dec s (rc + (s - rc) / 2 * q)); [lra|]. eexists. split; [reflexivity|]. lra.
Qed.

(** ** The perturbation terms *)
Lemma zeff_val : forall c z, zeff_of c z = z_eff c z.
Proof. intros. unfold zeff_of, z_eff, POW4, POW3, POW2. cbn [sumn Nat.add]. ring. Qed.
Lemma POW3_pow : forall x, POW3 x = x ^ 3. Proof. intro. unfold POW3, POW2. ring. Qed.
Lemma POW4_pow : forall x, POW4 x = x ^ 4. Proof. intro. unfold POW4, POW2. ring. Qed.
Lemma POW2_pow : forall x, POW2 x = x ^ 2. Proof. intro. unfold POW2. ring. Qed.
Lemma pow_nz_inv : forall x n, x ^ S n <> 0 -> x <> 0. Proof. intros x n H E. apply H. rewrite E. cbn. ring. Qed.
Lemma Bhat_l_val : forall x z l b, 0 < x -> Bhat_l x z l = Some b -> l <> 3 /\ l <> 4 /\ z <> 1 /\ I_ x l = Some (intI x l) /\ J_ x l = Some (intJ x l) /\ b = B_term x l z.
Proof.
  intros x z l b Hx H. unfold Bhat_l, Bhat, I_, J_ in *. rewrite !cpow_pos in * by exact Hx. cbn [opt_bind] in *.
  destruct (cdiv (- (Rpower x (3 - l) - 1)) (l - 3)) as [i|] eqn:Ei; [|discriminate]. cbn [opt_bind] in H.
  destruct (cdiv _ ((l - 3) * (l - 4))) as [j|] eqn:Ej in H; [|discriminate]. cbn [opt_bind] in H. rewrite Ej.
  apply cdiv_some in Ei. destruct Ei as [N3 ->]. apply cdiv_some in Ej. destruct Ej as [N4 ->].
  destruct (cdiv _ (POW3 (1 - z))) as [q1|] eqn:E1 in H; [|discriminate]. cbn [opt_bind] in H. destruct (cdiv _ (2 * POW3 (1 - z))) as [q2|] eqn:E2 in H; [|discriminate]. cbn [opt_bind] in H.
  apply cdiv_some in E1. apply cdiv_some in E2. destruct E1 as [N1 ->]. destruct E2 as [_ ->]. injection H as <-. rewrite POW3_pow in *.
  apply pow_nz_inv in N1. assert (l - 4 <> 0) by (intro Z; apply N4; rewrite Z; ring).
  split; [lra|]. split; [lra|]. split; [lra|]. split; [reflexivity|]. split; [reflexivity|]. unfold B_term, intI, intJ. reflexivity.
Qed.
Lemma a1S_val : forall c z l a, a1S (zeff_of c z) l = Some a -> l <> 3 /\ z_eff c z <> 1 /\ a = a1_term c l z.
Proof.
  intros c z l a H. rewrite zeff_val in H. unfold a1S in H. destruct (cdiv (-1) (l - 3)) as [q|] eqn:E; [|discriminate]. cbn [opt_bind] in H. apply cdiv_some in E. destruct E as [N ->].
  apply cdiv_some in H. destruct H as [N3 ->]. rewrite POW3_pow in *. apply pow_nz_inv in N3. split; [lra|]. split; [lra|]. reflexivity.
Qed.
Lemma one_term_val : forall c x z l t, 0 < x -> one_term x z l (zeff_of c z) = Some t -> l <> 3 /\ l <> 4 /\ z <> 1 /\ z_eff c z <> 1 /\ t = sutherland c x l z.
Proof.
  intros c x z l t Hx H. unfold one_term in H. rewrite cpow_pos in H by exact Hx. cbn [opt_bind] in H.
  destruct (Bhat_l x z l) as [b|] eqn:B; [|discriminate]. cbn [opt_bind] in H. destruct (a1S _ l) as [a|] eqn:A; [|discriminate]. cbn [opt_bind] in H. injection H as <-.
  destruct (Bhat_l_val x z l b Hx B) as (N3 & N4 & N1 & _ & _ & ->). destruct (a1S_val c z l a A) as (_ & Ne & ->). repeat split; try assumption. unfold sutherland. ring.
Qed.
Lemma one_term_def : forall c x z l, 0 < x -> l <> 3 -> l <> 4 -> z <> 1 -> z_eff c z <> 1 -> one_term x z l (zeff_of c z) = Some (sutherland c x l z).
Proof.
  intros c x z l Hx N3 N4 N1 Ne. assert (X : exists t, one_term x z l (zeff_of c z) = Some t).
  { unfold one_term, Bhat_l, Bhat, I_, J_, a1S. rewrite !cpow_pos by exact Hx. cbn [opt_bind]. rewrite zeff_val, !POW3_pow.
    assert ((1 - z) ^ 3 <> 0) by (apply pow_nonzero; lra). assert ((1 - z_eff c z) ^ 3 <> 0) by (apply pow_nonzero; lra).
    assert ((l - 3) * (l - 4) <> 0) by (apply Rmult_integral_contrapositive; split; lra).
    rewrite (cdiv_nz _ (l - 3)) by lra. cbn [opt_bind]. rewrite (cdiv_nz _ ((l - 3) * (l - 4))) by assumption. cbn [opt_bind]. rewrite (cdiv_nz _ ((1 - z) ^ 3)) by assumption. cbn [opt_bind].
    rewrite (cdiv_nz _ (2 * (1 - z) ^ 3)) by lra. cbn [opt_bind]. rewrite (cdiv_nz _ (l - 3)) by lra. cbn [opt_bind]. rewrite (cdiv_nz _ ((1 - z_eff c z) ^ 3)) by assumption. eexists. reflexivity. }
  destruct X as (t & X). rewrite X. f_equal. apply (one_term_val c x z l t Hx X).
Qed.
Lemma dzeff_is : forall c z, is_derive (z_eff c) z (dzeff_of c z).
Proof.
  intros c z. apply (is_derive_ext (fun z => nth 0 c 0 * z + nth 1 c 0 * z ^ 2 + nth 2 c 0 * z ^ 3 + nth 3 c 0 * z ^ 4)).
  - intro t. change (nth 0 c 0 * t + nth 1 c 0 * t ^ 2 + nth 2 c 0 * t ^ 3 + nth 3 c 0 * t ^ 4 = z_eff c t). unfold z_eff. cbn [sumn Nat.add]. ring.
  - auto_derive; [exact I|]. unfold dzeff_of, POW3, POW2. ring.
Qed.
Lemma a1_shape : forall l u, l <> 3 -> u <> 1 -> is_derive (fun u => - 1 / (l - 3) * (1 - u / 2) / (1 - u) ^ 3) u ((2 * u - 5) / (2 * (l - 3) * (u - 1) ^ 4)).
Proof.
  intros l u N3 N. assert (A : l - 3 <> 0) by lra. assert (B : 1 - u <> 0) by lra. auto_derive.
  - repeat (apply Rmult_integral_contrapositive; split); try assumption; apply R1_neq_R0.
  - field. repeat split; lra.
Qed.
Lemma rho_da1_is : forall c x z l B D, 0 < x -> Bhat_l x z l = Some B -> rho_da1 x z l (zeff_of c z) (dzeff_of c z) B = Some D ->
  is_derive (fun y => y * sutherland c x l y) z D.
Proof.
  intros c x z l B D Hx HB H. destruct (Bhat_l_val x z l B Hx HB) as (N3 & N4 & N1 & Ei & Ej & EB). unfold rho_da1 in H. rewrite Ei, Ej in H. cbn [opt_bind] in H.
  unfold rho_da1S in H. destruct (cdiv _ (2 * (l - 3) * POW4 (zeff_of c z - 1))) as [q|] eqn:Eq in H; [|discriminate]. cbn [opt_bind] in H.
  destruct (a1S (zeff_of c z) l) as [a|] eqn:A; [|discriminate]. cbn [opt_bind] in H. destruct (a1S_val c z l a A) as (_ & Ne & Ea).
  unfold rho_dB in H. destruct (cdiv _ (2 * POW4 (1 - z))) as [dd|] eqn:Ed in H; [|discriminate]. cbn [opt_bind] in H. rewrite cpow_pos in H by exact Hx. cbn [opt_bind] in H. injection H as <-.
  apply cdiv_some in Eq. apply cdiv_some in Ed. destruct Eq as [_ Eq]. destruct Ed as [_ Ed]. rewrite zeff_val in Eq.
  set (iI := intI x l) in *. set (iJ := intJ x l) in *.
  assert (DB : is_derive (B_term x l) z dd).
  { apply (is_derive_ext (fun z => (1 - z / 2) / (1 - z) ^ 3 * iI - 9 * z * (1 + z) / (2 * (1 - z) ^ 3) * iJ)); [intro; reflexivity|].
    assert (1 - z <> 0) by lra. auto_derive.
    - repeat split; try (apply Rmult_integral_contrapositive; split; [lra|]); repeat (apply Rmult_integral_contrapositive; split); try lra.
    - rewrite Ed. unfold POW4, POW2. field. lra. }
  assert (DS : is_derive (a1_term c l) z q).
  { unfold a1_term. pose proof (dzeff_is c z) as Dz. set (w := z_eff c) in *.
    assert (W : is_derive (fun u => - 1 / (l - 3) * (1 - u / 2) / (1 - u) ^ 3) (w z) ((2 * w z - 5) / (2 * (l - 3) * (w z - 1) ^ 4))).
    { apply a1_shape; lra. }
    pose proof (is_derive_comp (fun u => - 1 / (l - 3) * (1 - u / 2) / (1 - u) ^ 3) w z _ _ W Dz) as X.
    replace q with (scal (dzeff_of c z) ((2 * w z - 5) / (2 * (l - 3) * (w z - 1) ^ 4))); [exact X|].
    rewrite Eq, POW4_pow. change (dzeff_of c z * ((2 * w z - 5) / (2 * (l - 3) * (w z - 1) ^ 4)) = (2 * w z - 5) * dzeff_of c z / (2 * (l - 3) * (w z - 1) ^ 4)).
    assert (w z - 1 <> 0) by (intro; apply Ne; lra). field. split; [assumption|lra]. }
  unfold sutherland. pose proof (is_derive_plus _ _ z _ _ DS DB) as X1. pose proof (is_derive_scal _ z (Rpower x l) _ X1) as X2.
  pose proof (is_derive_mult (fun y => y) (fun y => Rpower x l * (a1_term c l y + B_term x l y)) z 1 _ (is_derive_id z) X2 ltac:(intros; apply Rmult_comm)) as X3.
  eapply is_derive_ext; [|replace (Rpower x l * (a + q * z + (B + dd * z))) with (plus (mult 1 (Rpower x l * (a1_term c l z + B_term x l z))) (mult z (scal (Rpower x l) (plus q dd)))); [exact X3|]].
  - intro t. reflexivity.
  - subst a B. unfold plus, mult, scal. cbn. unfold mult. cbn. ring.
Qed.
Lemma KHS_val : forall z K, KHS z = Some K -> K = K_HS z /\ 1 + 4 * z + 4 * z ^ 2 - 4 * z ^ 3 + z ^ 4 <> 0.
Proof.
  intros z K H. unfold KHS in H. apply cdiv_some in H. destruct H as [N ->]. replace (1 + 4 * z + 4 * z * z - 4 * z * z * z + z * z * z * z) with (1 + 4 * z + 4 * z ^ 2 - 4 * z ^ 3 + z ^ 4) in * by ring.
  split; [reflexivity|exact N].
Qed.
Lemma dKHS_is : forall z K dK, KHS z = Some K -> rho_dKHS z = Some dK -> exists K', is_derive K_HS z K' /\ dK = z * K'.
Proof.
  intros z K dK HK H. destruct (KHS_val z K HK) as [_ N]. unfold rho_dKHS in H. destruct (cdiv _ _) as [q|] eqn:E in H; [|discriminate]. cbn [opt_bind] in H. injection H as <-.
  apply cdiv_some in E. destruct E as [_ E]. exists q. split; [|ring]. unfold K_HS. auto_derive.
  - replace (z * (z * (z * (z * 1)))) with (z ^ 4) by ring. intro Z. apply N. rewrite <- Z. ring.
  - rewrite E. unfold POW4, POW3, POW2. field. intro Z. apply N. rewrite <- Z. ring.
Qed.
