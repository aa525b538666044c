(** The SAFT-VR-Mie model calculates the published residual Helmholtz energy. *)
From Coq Require Import Reals ZArith String List Lia Lra Bool.
From Coquelicot Require Import Coquelicot.
From Verif Require Import Json_model Vec_spec Vec_proofs Cubic_model Terms_model Ideal_model Ideal_proofs Util_model Assoc_model Numerics_model LKP_proofs VRMie_model VRMie_spec VRMie_proofs VRMie_proofs2.
Import ListNotations.
Local Open Scope R_scope.

Section Values.
Variable v : vrmie.
Let c := mix_of v.
Let N := length (v_m v).
Hypothesis P : physical c.
Hypothesis Q : square (v_k v) N.
Lemma mix_l_order : forall i j, (i < N)%nat -> (j < N)%nat -> 4 < mix_la c i j < mix_lr c i j.
Proof.
  intros i j Hi Hj. destruct P as [Pa _]. destruct (Pa i Hi) as (_ & _ & _ & L1). destruct (Pa j Hj) as (_ & _ & _ & L2). unfold mix_la, mix_lr, mix_l. cbn [c mix_of c_la c_lr] in *.
  set (a := nth i (v_la v) 0) in *. set (b := nth j (v_la v) 0) in *. set (a' := nth i (v_lr v) 0) in *. set (b' := nth j (v_lr v) 0) in *.
  assert (1 < sqrt ((a - 3) * (b - 3))). { rewrite <- sqrt_1 at 1. apply sqrt_lt_1; try lra. - apply Rmult_le_pos; lra. - assert (1 * 1 < (a - 3) * (b - 3)); [|lra]. apply Rmult_le_0_lt_compat; lra. }
  assert (sqrt ((a - 3) * (b - 3)) < sqrt ((a' - 3) * (b' - 3))). { apply sqrt_lt_1; [apply Rmult_le_pos; lra|apply Rmult_le_pos; lra|]. apply Rmult_le_0_lt_compat; lra. }
  lra.
Qed.
Lemma lr_val : forall i j, (i < N)%nat -> (j < N)%nat -> lr_ij v i j = Some (mix_lr c i j).
Proof.
  intros i j Hi Hj. destruct P as [Pa _]. destruct (Pa i Hi) as (_ & _ & _ & L1). destruct (Pa j Hj) as (_ & _ & _ & L2). cbn [c mix_of c_la c_lr] in *. unfold lr_ij, lam. rewrite csqrt_val by (apply Rmult_le_pos; lra). reflexivity.
Qed.
Lemma la_val : forall i j, (i < N)%nat -> (j < N)%nat -> la_ij v i j = Some (mix_la c i j).
Proof.
  intros i j Hi Hj. destruct P as [Pa _]. destruct (Pa i Hi) as (_ & _ & _ & L1). destruct (Pa j Hj) as (_ & _ & _ & L2). cbn [c mix_of c_la c_lr] in *. unfold la_ij, lam. rewrite csqrt_val by (apply Rmult_le_pos; lra). reflexivity.
Qed.
Lemma C_val : forall i j, (i < N)%nat -> (j < N)%nat -> C_ij v i j = Some (mix_C c i j).
Proof.
  intros i j Hi Hj. pose proof (mix_l_order i j Hi Hj) as L. unfold C_ij. rewrite lr_val, la_val by assumption. cbn [opt_bind]. rewrite !cdiv_nz by lra. cbn [opt_bind].
  rewrite cpow_pos by (apply Rdiv_lt_0_compat; lra). reflexivity.
Qed.
Lemma alpha_val : forall i j, (i < N)%nat -> (j < N)%nat -> alpha_ij v i j = Some (mix_alpha c i j).
Proof.
  intros i j Hi Hj. pose proof (mix_l_order i j Hi Hj) as L. unfold alpha_ij. rewrite C_val, lr_val, la_val by assumption. cbn [opt_bind]. rewrite !cdiv_nz by lra. reflexivity.
Qed.
Lemma sigma_pos : forall i j, (i < N)%nat -> (j < N)%nat -> 0 < mix_sigma c i j.
Proof. intros i j Hi Hj. destruct P as [Pa _]. destruct (Pa i Hi) as (_ & S1 & _). destruct (Pa j Hj) as (_ & S2 & _). unfold mix_sigma. lra. Qed.
Lemma eps_val : forall i j, (i < N)%nat -> (j < N)%nat -> eps_ij v i j = Some (mix_eps c i j).
Proof.
  intros i j Hi Hj. pose proof P as [Pa Pk].
  assert (Sy : forall a b, (a < N)%nat -> (b < N)%nat -> kat (v_k v) a b = kat (v_k v) b a) by exact Pk.
  rewrite <- (eps_upper_full v N Q Sy) by assumption.
  unfold eps_upper. rewrite (kentry_square v N) by assumption. cbn [opt_bind]. destruct (Pa i Hi) as (_ & S1 & E1 & _). destruct (Pa j Hj) as (_ & S2 & E2 & _).
  pose proof (sigma_pos i j Hi Hj) as S12. unfold mix_eps. cbn [c mix_of c_lafitte c_k c_sigma c_eps] in *.
  destruct (v_flag v).
  - rewrite csqrt_val by (apply Rmult_le_pos; lra). reflexivity.
  - rewrite csqrt_val by (apply Rmult_le_pos; lra). reflexivity.
  - unfold sigma_ij. replace ((nth i (v_sigma v) 0 + nth i (v_sigma v) 0) / 2) with (nth i (v_sigma v) 0) by field. replace ((nth j (v_sigma v) 0 + nth j (v_sigma v) 0) / 2) with (nth j (v_sigma v) 0) by field.
    rewrite csqrt_val. 2:{ apply Rmult_le_pos; [|lra]. apply Rmult_le_pos; [|lra]. apply Rmult_le_pos; apply pow_le; lra. }
    cbn [opt_bind]. change ((nth i (v_sigma v) 0 + nth j (v_sigma v) 0) / 2) with (mix_sigma c i j). rewrite cdiv_nz by (apply pow_nonzero; lra). f_equal. unfold mix_sigma. cbn [c mix_of c_sigma]. unfold Rdiv. ring.
Qed.
Lemma cij_val : forall l, l <> 0 -> cij l = Some (shape l).
Proof.
  intros l H. unfold cij. rewrite cdiv_nz by exact H. cbn [opt_bind]. f_equal. unfold vA, shape. cbn [map sumn nth].
  assert (E1 : (1 / l) ^ 1 = / l) by (field; exact H). assert (E2 : (1 / l) ^ 2 = / l ^ 2) by (field; exact H). assert (E3 : (1 / l) ^ 3 = / l ^ 3) by (field; exact H).
  rewrite E1, E2, E3. unfold Rdiv. generalize (/ l) (/ l ^ 2) (/ l ^ 3). intros q1 q2 q3. rewrite pow_O.
  apply f_equal2; [lra|]. apply f_equal2; [lra|]. apply f_equal2; [lra|]. apply f_equal2; [lra|]. reflexivity.
Qed.
Lemma fk_val : forall k i j, (1 <= k <= 6)%nat -> (i < N)%nat -> (j < N)%nat -> f_den k (mix_alpha c i j) <> 0 -> fk v k i j = Some (f_ k (mix_alpha c i j)).
Proof.
  intros k i j Hk Hi Hj Nz. unfold fk. rewrite alpha_val by assumption. cbn [opt_bind]. set (a := mix_alpha c i j) in *.
  assert (En : sumn 4 (fun n => phi_at n (k - 1) * a ^ n) = f_num k a) by (destruct k as [|[|[|[|[|[|[|k]]]]]]]; try lia; reflexivity).
  assert (Ed : 1 + sumn 3 (fun n => phi_at (n + 4) (k - 1) * a ^ (n + 1)) = f_den k a) by (destruct k as [|[|[|[|[|[|[|k]]]]]]]; try lia; reflexivity).
  rewrite En, Ed. apply cdiv_nz. exact Nz.
Qed.
Section State.
Variables (T rho : R) (x d : list R).
Hypothesis Lx : length x = N.
Hypothesis Ld : length d = N.
Hypothesis Pd : forall i, (i < N)%nat -> 0 < nth i d 0.
Let rn := rho * N_A / 10 ^ 30.
Let fx := fractions x.
Let fd := fractions d.
Hypothesis Rg : regular c T rn fx fd.
Lemma ten30 : (10 : R) ^ 30 <> 0. Proof. apply pow_nonzero. lra. Qed.
Lemma dmat_val : forall i j, dmat d i j = d_ij fd i j.
Proof. intros i j. unfold dmat, d_ij, fd, fractions. destruct (Nat.eqb i j) eqn:E; [|reflexivity]. apply Nat.eqb_eq in E. subst. field. Qed.
Lemma d_pos : forall i j, (i < N)%nat -> (j < N)%nat -> 0 < d_ij fd i j.
Proof. intros i j Hi Hj. pose proof (Pd i Hi). pose proof (Pd j Hj). unfold d_ij, fd, fractions. lra. Qed.
Definition the_state : vstate :=
  {| s_T := T; s_rhos := rho_s c rn fx; s_mbar := mbar c fx; s_xs := map (x_s c fx) (seq 0 N); s_x := x; s_d := d;
     s_z := zeta_x c rn fx fd; s_zb := zeta_bar c rn fx; s_K := K_HS (zeta_x c rn fx fd);
     s_dK := zeta_x c rn fx fd * Derive K_HS (zeta_x c rn fx fd) |}.
Lemma xs_val : forall i, (i < N)%nat -> nth i (map (x_s c fx) (seq 0 N)) 0 = x_s c fx i.
Proof. intros i Hi. rewrite (nth_indep _ 0 (x_s c fx O)) by (rewrite map_length, seq_length; exact Hi). rewrite (map_nth (x_s c fx) (seq 0 N) O i), seq_nth by exact Hi. reflexivity. Qed.
Lemma state_val : vstate_of v T rho x d = Some the_state.
Proof.
  destruct Rg as (NT & Nm & Z1 & D1 & D3 & ND & _). unfold vstate_of. cbv zeta. fold N.
  change (sumn N (fun i => nth i x 0 * nth i (v_m v) 0)) with (mbar c fx).
  rewrite cdiv_nz by exact ten30. unfold opt_bind at 1. replace (rho * N_A * mbar c fx / 10 ^ 30) with (rho_s c rn fx) by (unfold rho_s, rn; field; exact ten30).
  assert (Ex : osequence (map (fun i => cdiv (nth i (v_m v) 0 * nth i x 0) (mbar c fx)) (seq 0 N)) = Some (map (x_s c fx) (seq 0 N))).
  { apply oseq_val. rewrite map_length, seq_length. split; [reflexivity|]. intros i Hi. rewrite nth_error_map, (nth_error_nth' (seq 0 N) O) by (rewrite seq_length; exact Hi).
    rewrite seq_nth by exact Hi. cbn [option_map Nat.add]. apply cdiv_nz. exact Nm. }
  rewrite Ex. cbn [opt_bind].
  assert (Ez : PI / 6 * sumn N (fun i => sumn N (fun j => nth i (map (x_s c fx) (seq 0 N)) 0 * nth j (map (x_s c fx) (seq 0 N)) 0 * dmat d i j ^ 3 * rho_s c rn fx)) = zeta_x c rn fx fd).
  { unfold zeta_x, double. change (c_n c) with N. rewrite Rmult_assoc. f_equal. rewrite <- sumn_scal. apply sumn_ext. intros i Hi. rewrite <- sumn_scal. apply sumn_ext. intros j Hj. rewrite !xs_val by assumption. rewrite dmat_val. ring. }
  assert (Eb : PI / 6 * rho_s c rn fx * sumn N (fun i => sumn N (fun j => nth i (map (x_s c fx) (seq 0 N)) 0 * nth j (map (x_s c fx) (seq 0 N)) 0 * sigma_ij v i j ^ 3)) = zeta_bar c rn fx).
  { unfold zeta_bar, double. change (c_n c) with N. f_equal. apply sumn_ext. intros i Hi. apply sumn_ext. intros j Hj. rewrite !xs_val by assumption. reflexivity. }
  rewrite Ez, Eb. set (z := zeta_x c rn fx fd) in *.
  assert (EK : KHS z = Some (K_HS z)). { unfold KHS. replace (1 + 4 * z + 4 * z * z - 4 * z * z * z + z * z * z * z) with (1 + 4 * z + 4 * z ^ 2 - 4 * z ^ 3 + z ^ 4) by ring. apply cdiv_nz. exact ND. }
  rewrite EK. cbn [opt_bind].
  assert (Eq : exists dK, rho_dKHS z = Some dK).
  { unfold rho_dKHS. rewrite cdiv_nz; [eexists; reflexivity|]. unfold POW4, POW3, POW2. replace (z * z * (z * z) - 4 * (z * z * z) + 4 * (z * z) + 4 * z + 1) with (1 + 4 * z + 4 * z ^ 2 - 4 * z ^ 3 + z ^ 4) by ring.
    apply Rmult_integral_contrapositive. split; exact ND. }
  destruct Eq as (dK & Eq). rewrite Eq. cbn [opt_bind]. destruct (dKHS_is z _ dK EK Eq) as (K' & HK & ->). apply is_derive_unique in HK. unfold the_state. rewrite <- HK. reflexivity.
Qed.
Lemma x0_val : forall i j, (i < N)%nat -> (j < N)%nat -> x0 v the_state i j = Some (ratio c fd i j) /\ 0 < ratio c fd i j.
Proof.
  intros i j Hi Hj. pose proof (d_pos i j Hi Hj). pose proof (sigma_pos i j Hi Hj). unfold x0, the_state. cbn [s_d]. rewrite dmat_val. change (sigma_ij v i j) with (mix_sigma c i j).
  split; [apply cdiv_nz; lra|now apply Rdiv_lt_0_compat].
Qed.
Lemma zeff_ok : forall i j l, (i < N)%nat -> (j < N)%nat -> In l [mix_la c i j; mix_lr c i j; 2 * mix_la c i j; 2 * mix_lr c i j; mix_la c i j + mix_lr c i j] ->
  4 < l /\ cij l = Some (shape l) /\ one_term (ratio c fd i j) (s_z the_state) l (zeff_of (shape l) (s_z the_state)) = Some (suth (ratio c fd i j) l (zeta_x c rn fx fd)).
Proof.
  intros i j l Hi Hj I. pose proof (mix_l_order i j Hi Hj) as L. pose proof Rg as (_ & _ & Z1 & _ & _ & _ & F). destruct (F i j Hi Hj) as [_ Fz]. specialize (Fz l I).
  assert (4 < l) by (cbn [In] in I; decompose [or] I; lra).
  split; [assumption|]. split; [apply cij_val; lra|]. unfold the_state. cbn [s_z]. apply one_term_def; try lra. apply (x0_val i j Hi Hj).
Qed.
Lemma a1_val : forall i j, (i < N)%nat -> (j < N)%nat -> a1_pair v the_state i j = Some (A1 c rn fx fd i j).
Proof.
  intros i j Hi Hj. unfold a1_pair. destruct (x0_val i j Hi Hj) as [-> _]. rewrite la_val, lr_val by assumption. cbn [opt_bind].
  destruct (zeff_ok i j (mix_la c i j) Hi Hj ltac:(cbn; auto)) as (_ & -> & Ta). destruct (zeff_ok i j (mix_lr c i j) Hi Hj ltac:(cbn; auto)) as (_ & -> & Tr). cbn [opt_bind].
  rewrite eps_val, C_val by assumption. cbn [opt_bind]. rewrite Ta, Tr. cbn [opt_bind]. f_equal. unfold the_state. cbn [s_rhos s_d]. rewrite dmat_val. reflexivity.
Qed.
Lemma second_val : forall i j, (i < N)%nat -> (j < N)%nat -> second_terms v the_state i j =
  Some (suth (ratio c fd i j) (2 * mix_la c i j) (zeta_x c rn fx fd), suth (ratio c fd i j) (mix_la c i j + mix_lr c i j) (zeta_x c rn fx fd), suth (ratio c fd i j) (2 * mix_lr c i j) (zeta_x c rn fx fd)).
Proof.
  intros i j Hi Hj. unfold second_terms. destruct (x0_val i j Hi Hj) as [-> _]. rewrite la_val, lr_val by assumption. cbn [opt_bind]. rewrite (Rplus_comm (mix_lr c i j)).
  destruct (zeff_ok i j (2 * mix_la c i j) Hi Hj ltac:(cbn; auto)) as (_ & -> & Ta). destruct (zeff_ok i j (2 * mix_lr c i j) Hi Hj ltac:(cbn; auto)) as (_ & -> & Tr).
  destruct (zeff_ok i j (mix_la c i j + mix_lr c i j) Hi Hj ltac:(cbn; auto 6)) as (_ & -> & Tm). cbn [opt_bind]. rewrite Ta, Tm, Tr. reflexivity.
Qed.
Lemma a2_val : forall i j, (i < N)%nat -> (j < N)%nat -> a2_pair v the_state i j = Some (A2 c rn fx fd i j).
Proof.
  intros i j Hi Hj. unfold a2_pair. pose proof Rg as (_ & _ & _ & _ & _ & _ & F). destruct (F i j Hi Hj) as [Ff _].
  rewrite !fk_val by (try assumption; try lia; apply Ff; lia). rewrite eps_val, C_val, second_val by assumption. cbn [opt_bind]. f_equal.
  unfold the_state. cbn [s_rhos s_d s_K s_zb]. rewrite dmat_val. unfold A2, second, chi, POW3, POW2.
  replace 0.5 with (/ 2) by lra. field.
Qed.
Lemma a3_val : forall i j, (i < N)%nat -> (j < N)%nat -> a3_pair v the_state i j = Some (A3 c rn fx i j).
Proof.
  intros i j Hi Hj. unfold a3_pair. pose proof Rg as (_ & _ & _ & _ & _ & _ & F). destruct (F i j Hi Hj) as [Ff _].
  rewrite !fk_val by (try assumption; try lia; apply Ff; lia). rewrite eps_val by assumption. cbn [opt_bind]. unfold the_state. cbn [s_zb]. unfold A3. rewrite POW3_pow, POW2_pow. reflexivity.
Qed.
(** the derivative of one term exists and is the one calculated *)
Lemma slope_val : forall i j l, (i < N)%nat -> (j < N)%nat -> In l [mix_la c i j; mix_lr c i j; 2 * mix_la c i j; 2 * mix_lr c i j; mix_la c i j + mix_lr c i j] ->
  exists B D, Bhat_l (ratio c fd i j) (s_z the_state) l = Some B /\
    rho_da1 (ratio c fd i j) (s_z the_state) l (zeff_of (shape l) (s_z the_state)) (dzeff_of (shape l) (s_z the_state)) B = Some D /\
    is_derive (fun y => y * suth (ratio c fd i j) l y) (zeta_x c rn fx fd) D.
Proof.
  intros i j l Hi Hj Il. destruct (zeff_ok i j l Hi Hj Il) as (L & _ & One). destruct (x0_val i j Hi Hj) as [_ X]. pose proof Rg as (_ & _ & Z1 & _ & _ & _ & F). destruct (F i j Hi Hj) as [_ Fz]. specialize (Fz l Il).
  unfold one_term in One. rewrite cpow_pos in One by exact X. cbn [opt_bind] in One. destruct (Bhat_l _ _ l) as [B|] eqn:EB in One; [|discriminate]. cbn [opt_bind] in One.
  destruct (a1S _ l) as [a|] eqn:Ea in One; [|discriminate]. clear One. cbn [s_z the_state] in *.
  destruct (Bhat_l_val _ _ _ _ X EB) as (N3 & N4 & N1 & Ei & Ej & _).
  assert (HD : exists D, rho_da1 (ratio c fd i j) (zeta_x c rn fx fd) l (zeff_of (shape l) (zeta_x c rn fx fd)) (dzeff_of (shape l) (zeta_x c rn fx fd)) B = Some D).
  { unfold rho_da1, rho_da1S, rho_dB. rewrite Ei, Ej, Ea. cbn [opt_bind]. rewrite zeff_val, !POW4_pow.
    rewrite cdiv_nz. 2:{ repeat (apply Rmult_integral_contrapositive; split); first [lra | apply pow_nonzero; intro; apply Fz; lra]. }
    cbn [opt_bind]. rewrite cdiv_nz. 2:{ apply Rmult_integral_contrapositive; split; [lra|]. apply pow_nonzero. lra. }
    cbn [opt_bind]. rewrite cpow_pos by exact X. eexists. reflexivity. }
  destruct HD as (D & HD). exists B, D. split; [exact EB|]. split; [exact HD|]. exact (rho_da1_is (shape l) _ _ l B D X EB HD).
Qed.
Lemma gdHS_val : forall i, (i < N)%nat -> gdHS the_state (ratio c fd i i) = Some (g_HS c rn fx fd i).
Proof.
  intros i Hi. pose proof Rg as (_ & _ & Z1 & _). unfold gdHS. cbn [s_z the_state]. cbv zeta. set (z := zeta_x c rn fx fd) in *.
  unfold clog. destruct (Rlt_dec 0 (1 - z)) as [_|N0]; [|exfalso; apply N0; lra]. cbn [opt_bind]. rewrite !POW3_pow, !POW2_pow, !POW4_pow.
  assert ((1 - z) ^ 3 <> 0) by (apply pow_nonzero; lra). assert ((1 - z) ^ 2 <> 0) by (apply pow_nonzero; lra).
  rewrite !cdiv_nz by lra. cbn [opt_bind]. f_equal. unfold g_HS. fold z. cbv zeta. f_equal. unfold Rdiv. ring.
Qed.
Lemma g1_val : forall i, (i < N)%nat -> g1 v the_state i = Some (g_1 c rn fx fd i).
Proof.
  intros i Hi. unfold g1. destruct (x0_val i i Hi Hi) as [-> X]. rewrite la_val, lr_val by assumption. cbn [opt_bind].
  set (la := mix_la c i i). set (lr := mix_lr c i i). assert (Ia : In la [la; lr; 2 * la; 2 * lr; la + lr]) by (cbn; auto). assert (Ir : In lr [la; lr; 2 * la; 2 * lr; la + lr]) by (cbn; auto).
  destruct (zeff_ok i i la Hi Hi Ia) as (_ & -> & Ta). destruct (zeff_ok i i lr Hi Hi Ir) as (_ & -> & Tr). cbn [opt_bind]. rewrite C_val by assumption. cbn [opt_bind]. rewrite Ta, Tr. cbn [opt_bind].
  destruct (slope_val i i la Hi Hi Ia) as (Ba & Da & EBa & EDa & IDa). destruct (slope_val i i lr Hi Hi Ir) as (Br & Dr & EBr & EDr & IDr).
  rewrite EBa, EBr. cbn [opt_bind]. rewrite EDa, EDr. cbn [opt_bind]. f_equal. unfold g_1. fold la lr.
  assert (E : Derive (fun z => z * (suth (ratio c fd i i) la z - suth (ratio c fd i i) lr z)) (zeta_x c rn fx fd) = Da - Dr).
  { apply is_derive_unique. pose proof (is_derive_minus _ _ _ _ _ IDa IDr) as M. eapply is_derive_ext; [|exact M]. intro t. cbn beta.
    change (t * suth (ratio c fd i i) la t - t * suth (ratio c fd i i) lr t = t * (suth (ratio c fd i i) la t - suth (ratio c fd i i) lr t)). ring. }
  rewrite E. ring.
Qed.
Lemma g2_val : forall i, (i < N)%nat -> g2MCA v the_state i = Some (g_2MCA c rn fx fd i).
Proof.
  intros i Hi. unfold g2MCA. destruct (x0_val i i Hi Hi) as [-> X]. rewrite la_val, lr_val by assumption. cbn [opt_bind]. rewrite (second_val i i Hi Hi). rewrite (Rplus_comm (mix_lr c i i) (mix_la c i i)).
  set (la := mix_la c i i). set (lr := mix_lr c i i).
  assert (Ia : In (2 * la) [la; lr; 2 * la; 2 * lr; la + lr]) by (cbn; auto). assert (Ir : In (2 * lr) [la; lr; 2 * la; 2 * lr; la + lr]) by (cbn; auto). assert (Im : In (la + lr) [la; lr; 2 * la; 2 * lr; la + lr]) by (cbn; auto 6).
  destruct (zeff_ok i i _ Hi Hi Ia) as (_ & -> & _). destruct (zeff_ok i i _ Hi Hi Ir) as (_ & -> & _). destruct (zeff_ok i i _ Hi Hi Im) as (_ & -> & _). cbn [opt_bind]. rewrite C_val by assumption. cbn [opt_bind].
  destruct (slope_val i i _ Hi Hi Ia) as (Ba & Da & EBa & EDa & IDa). destruct (slope_val i i _ Hi Hi Ir) as (Br & Dr & EBr & EDr & IDr). destruct (slope_val i i _ Hi Hi Im) as (Bm & Dm & EBm & EDm & IDm).
  rewrite EBa, EBr, EBm. cbn [opt_bind]. rewrite EDa, EDm, EDr. cbn [opt_bind]. f_equal. unfold g_2MCA, second. fold la lr. cbn [s_K s_dK the_state].
  set (z := zeta_x c rn fx fd) in *. set (xr := ratio c fd i i) in *.
  pose proof Rg as (_ & _ & _ & _ & _ & ND & _). fold z in ND.
  assert (DK : is_derive K_HS z (Derive K_HS z)).
  { apply Derive_correct. unfold K_HS. auto_derive. replace (z * (z * (z * (z * 1)))) with (z ^ 4) by ring. intro Zz. apply ND. rewrite <- Zz. ring. }
  assert (E : Derive (fun z => z * (K_HS z * (suth xr (2 * la) z - 2 * suth xr (la + lr) z + suth xr (2 * lr) z))) z =
     Derive K_HS z * (z * (suth xr (2 * la) z - 2 * suth xr (la + lr) z + suth xr (2 * lr) z)) + K_HS z * (Da - 2 * Dm + Dr)).
  { apply is_derive_unique.
    pose proof (is_derive_scal _ _ 2 _ IDm) as IDm2. pose proof (is_derive_plus _ _ _ _ _ (is_derive_minus _ _ _ _ _ IDa IDm2) IDr) as Sm.
    pose proof (is_derive_mult K_HS _ z _ _ DK Sm ltac:(intros; apply Rmult_comm)) as M.
    match type of M with is_derive ?f ?a ?l => match goal with |- is_derive ?g ?b ?k => replace k with l; [eapply is_derive_ext; [|exact M]|] end end.
    - intro t. change (K_HS t * (t * suth xr (2 * la) t - 2 * (t * suth xr (la + lr) t) + t * suth xr (2 * lr) t) = t * (K_HS t * (suth xr (2 * la) t - 2 * suth xr (la + lr) t + suth xr (2 * lr) t))). ring.
    - change (Derive K_HS z * (z * suth xr (2 * la) z - 2 * (z * suth xr (la + lr) z) + z * suth xr (2 * lr) z) + K_HS z * (Da - 2 * Dm + Dr) =
        Derive K_HS z * (z * (suth xr (2 * la) z - 2 * suth xr (la + lr) z + suth xr (2 * lr) z)) + K_HS z * (Da - 2 * Dm + Dr)). ring. }
  rewrite E. unfold POW2. replace 0.5 with (/ 2) by lra. field.
Qed.
Lemma gMie_val : forall i, (i < N)%nat -> gMie v the_state i = Some (g_Mie c T rn fx fd i) /\ 0 < g_Mie c T rn fx fd i.
Proof.
  intros i Hi. pose proof Rg as (NT & _). split.
  - unfold gMie. destruct (x0_val i i Hi Hi) as [-> X]. cbn [opt_bind]. rewrite gdHS_val by assumption. cbn [opt_bind]. rewrite g1_val, g2_val by assumption. cbn [opt_bind]. rewrite eps_val by assumption. cbn [opt_bind].
    cbn [s_T s_zb the_state]. rewrite cdiv_nz by exact NT. cbn [opt_bind]. rewrite alpha_val by assumption. cbn [opt_bind].
    assert (0 < g_HS c rn fx fd i) by apply exp_pos. rewrite cdiv_nz by lra. cbn [opt_bind]. f_equal. unfold g_Mie. f_equal. f_equal. f_equal. unfold gamma_c, POW2.
    change (phi_at 0 6) with 10. change (phi_at 1 6) with 10. change (phi_at 2 6) with 0.57. change (phi_at 3 6) with (- 6.7). change (phi_at 4 6) with (- 8).
    set (zb := zeta_bar c rn fx). replace (- 8 * (zb * zb)) with (- (8 * zb ^ 2)) by ring. replace (- 6.7 * zb + - (8 * zb ^ 2)) with (- 6.7 * zb - 8 * zb ^ 2) by ring. ring.
  - unfold g_Mie. apply Rmult_lt_0_compat; [apply exp_pos|apply exp_pos].
Qed.
Lemma chain_val : osum N (chain_i v the_state) = Some (chain c T rn fx fd).
Proof.
  rewrite (osum_val _ _ (fun i => - (fx i * (c_m c i - 1) * ln (g_Mie c T rn fx fd i)))).
  - f_equal. unfold chain. change (c_n c) with N. generalize N. intro n. induction n as [|n IHn]; cbn [sumn]; [ring|]. rewrite IHn. ring.
  - intros i Hi. unfold chain_i. destruct (gMie_val i Hi) as [-> G]. cbn [opt_bind]. unfold clog. destruct (Rlt_dec 0 _) as [_|N0]; [|contradiction]. reflexivity.
Qed.
Lemma D0_val : D_mean c fx fd 0 = PI / 6.
Proof.
  pose proof Rg as (_ & Nm & _). unfold D_mean, x_s. rewrite (sumn_ext _ _ (fun i => (fx i * c_m c i) * / mbar c fx)) by (intros; cbn [pow]; unfold Rdiv; ring).
  rewrite sumn_scal_r. fold (mbar c fx). rewrite Rinv_r by exact Nm. ring.
Qed.
Lemma D_val : forall l, D_of the_state l = D_mean c fx fd l.
Proof. intro l. unfold D_of, D_mean. cbn [the_state s_d s_xs]. rewrite Ld. f_equal. apply sumn_ext. intros i Hi. rewrite xs_val by exact Hi. reflexivity. Qed.
Lemma aHS_val : forall (rh : R) (D D' : nat -> R), (forall l, D' l = D l) -> D 0%nat = PI / 6 -> D 3%nat <> 0 -> D 3%nat * rh < 1 -> a_HS rh (fun l => D' l * rh) D' = Some (BMCSL D rh).
Proof.
  intros rh D D' E D0 D3 H. unfold a_HS. rewrite !E. pose proof PI_RGT_0 as Pp. cbv zeta. unfold clog, BMCSL. cbv zeta. rewrite !POW2_pow, !POW3_pow.
  destruct (Rlt_dec 0 (1 - D 3%nat * rh)) as [U|U]; [|exfalso; apply U; lra].
  assert (U0 : 1 - D 3%nat * rh <> 0) by lra. assert (Q2 : (1 - D 3%nat * rh) ^ 2 <> 0) by (apply pow_nonzero; exact U0). rewrite D0 in *. assert (PI / 6 <> 0) by lra.
  destruct (Req_EM_T rh 0) as [Z|Z].
  - set (p6 := PI / 6) in *. clearbody p6. repeat (rewrite cdiv_nz by (repeat (apply Rmult_integral_contrapositive; split); first [assumption|lra]); cbn [opt_bind]). f_equal. field. repeat split; assumption || lra.
  - assert (Z3 : D 3%nat * rh <> 0) by (apply Rmult_integral_contrapositive; split; assumption).
    rewrite (cdiv_nz 6) by (apply Rmult_integral_contrapositive; split; [lra|assumption]). cbn [opt_bind]. rewrite cdiv_nz by exact U0. cbn [opt_bind].
    rewrite cdiv_nz by (apply Rmult_integral_contrapositive; split; assumption). cbn [opt_bind]. rewrite cdiv_nz by (apply pow_nonzero; exact Z3). cbn [opt_bind]. f_equal. field. repeat split; assumption || lra.
Qed.
Lemma core_val : exists o, core_of v the_state = Some o /\ o_mono o = mono c T rn fx fd /\ o_chain o = chain c T rn fx fd /\ o_eta o = D_mean c fx fd 3 * rho_s c rn fx /\
  o_a1 o = double c fx (A1 c rn fx fd) /\ o_a2 o = double c fx (A2 c rn fx fd) /\ o_a3 o = double c fx (A3 c rn fx).
Proof.
  pose proof Rg as (NT & Nm & Z1 & D1 & D3 & ND & _). unfold core_of.
  assert (U : forall p q, (forall i j, p i j = p j i) -> (forall i j, (i < N)%nat -> (j < N)%nat -> p i j = Some (q i j)) -> upper_sum v the_state p = Some (double c fx q)).
  { intros p q Sy Pq. rewrite (upper_val v the_state p q Sy Pq). f_equal. unfold double. change (c_n c) with N. apply sumn_ext. intros i Hi. apply sumn_ext. intros j Hj. cbn [the_state s_xs]. rewrite !xs_val by assumption. reflexivity. }
  rewrite (U _ _ (a1_sym v the_state) a1_val), (U _ _ (a2_sym v the_state) a2_val), (U _ _ (a3_sym v the_state) a3_val). cbn [opt_bind]. fold N. rewrite chain_val. cbn [opt_bind].
  rewrite (aHS_val (s_rhos the_state) (D_mean c fx fd) (D_of the_state) D_val D0_val D3 D1). cbn [opt_bind]. cbv zeta. cbn [the_state s_T].
  rewrite !cdiv_nz by (repeat (apply Rmult_integral_contrapositive; split); exact NT). cbn [opt_bind]. eexists. split; [reflexivity|]. cbn [o_mono o_chain o_eta o_a1 o_a2 o_a3 the_state s_mbar s_rhos].
  split; [|split; [reflexivity|split; [|repeat split]]].
  - unfold mono. f_equal. replace (T ^ 2) with (T * T) by ring. replace (T ^ 3) with (T * T * T) by ring. reflexivity.
  - change {| s_T := T; s_rhos := rho_s c rn fx; s_mbar := mbar c fx; s_xs := map (x_s c fx) (seq 0 N); s_x := x; s_d := d; s_z := zeta_x c rn fx fd; s_zb := zeta_bar c rn fx; s_K := K_HS (zeta_x c rn fx fd); s_dK := zeta_x c rn fx fd * Derive K_HS (zeta_x c rn fx fd) |} with the_state.
    rewrite D_val. reflexivity.
Qed.
End State.
End Values.
