(** The plain formulas the PC-SAFT functions compute, and when they are defined. *)
From Coq Require Import Reals ZArith String List Lra Lia Psatz.
From Verif Require Import Util_model Json_model Cubic_model Vec_spec Vec_proofs Terms_model Ideal_model Ideal_proofs Assoc_model Assoc_proofs3 PCSAFT_model PCSAFT_spec.
Import ListNotations.
Open Scope R_scope.

Lemma clog_pos : forall x, 0 < x -> clog x = Some (ln x).
Proof. intros. unfold clog. destruct (Rlt_dec 0 x); [reflexivity|contradiction]. Qed.
Lemma csqrt_pos : forall x, 0 <= x -> csqrt x = Some (sqrt x).
Proof. intros. unfold csqrt. destruct (Rle_dec 0 x); [reflexivity|contradiction]. Qed.
Lemma Some_eq : forall (a b : R), a = b -> Some a = Some b.
Proof. intros; subst; reflexivity. Qed.

(** ** the diameters *)
Lemma exp_le1 : forall y, y <= 0 -> exp y <= 1.
Proof. intros y H. destruct (Req_dec y 0) as [->|]. - rewrite exp_0. lra. - rewrite <- exp_0. left. apply exp_increasing. lra. Qed.
Lemma diameter_pos : forall T s e, 0 < T -> 0 < s -> 0 <= e -> 0 < diameter T s e.
Proof.
  intros T s e HT Hs He. unfold diameter. assert (exp (- 3 * e / T) <= 1).
  { apply exp_le1. apply Rmult_le_reg_r with T; auto. unfold Rdiv. rewrite Rmult_assoc, Rinv_l, Rmult_0_l; lra. }
  apply Rmult_lt_0_compat; auto. lra.
Qed.
Lemma seg_d_val : forall T s e, T <> 0 -> seg_d T s e = Some (diameter T s e).
Proof. intros. unfold seg_d, diameter. rewrite cdiv_nz by auto. reflexivity. Qed.

(** ** C1: its denominator is positive for every chain length *)
Definition ZA (eta : R) := (8 * eta - 2 * eta ^ 2) / (1 - eta) ^ 4.
Definition ZB (eta : R) := (20 * eta - 27 * eta ^ 2 + 12 * eta ^ 3 - 2 * eta ^ 4) / ((1 - eta) * (2 - eta)) ^ 2.
Lemma ZB_nonneg : forall eta, 0 <= eta < 1 -> 0 <= ZB eta.
Proof.
  intros e H. unfold ZB. apply Rmult_le_pos.
  - replace (20 * e - 27 * e ^ 2 + 12 * e ^ 3 - 2 * e ^ 4) with (e * (20 - 27 * e + 12 * e ^ 2 - 2 * e ^ 3)) by ring.
    apply Rmult_le_pos; [lra|]. assert (0 <= e * e) by nra. assert (e * e * e <= e * e) by nra. nra.
  - left. apply Rinv_0_lt_compat. apply pow_lt. nra.
Qed.
Lemma ZA_ge : forall eta, 0 <= eta < 1 -> ZB eta <= ZA eta.
Proof.
  intros e H. apply Rminus_le.
  assert (P1 : 0 < 1 - e) by lra. assert (P2 : 0 < 2 - e) by lra.
  replace (ZB e - ZA e) with (- (e * (12 + 27 * e - 70 * e ^ 2 + 51 * e ^ 3 - 16 * e ^ 4 + 2 * e ^ 5) / ((1 - e) ^ 4 * (2 - e) ^ 2))).
  2: { unfold ZA, ZB. field. lra. }
  assert (0 <= 12 + 27 * e - 70 * e ^ 2 + 51 * e ^ 3 - 16 * e ^ 4 + 2 * e ^ 5).
  { replace (12 + 27 * e - 70 * e ^ 2 + 51 * e ^ 3 - 16 * e ^ 4 + 2 * e ^ 5)
      with ((1 - e) * (12 + 39 * e - 31 * e ^ 2 + 20 * e ^ 3) + (4 * e ^ 4 + 2 * e ^ 5)) by ring.
    assert (0 <= e * e) by nra. assert (0 <= e * e * e) by nra. assert (0 <= e ^ 4) by (apply pow_le; lra). assert (0 <= e ^ 5) by (apply pow_le; lra).
    assert (0 <= 12 + 39 * e - 31 * e ^ 2 + 20 * e ^ 3) by nra. nra. }
  assert (0 <= e * (12 + 27 * e - 70 * e ^ 2 + 51 * e ^ 3 - 16 * e ^ 4 + 2 * e ^ 5) / ((1 - e) ^ 4 * (2 - e) ^ 2)).
  { apply Rmult_le_pos; [apply Rmult_le_pos; lra|]. left. apply Rinv_0_lt_compat. apply Rmult_lt_0_compat; apply pow_lt; lra. }
  lra.
Qed.
Lemma chain_Z_pos : forall eta m, 0 <= eta < 1 -> 0 < m -> 0 < chain_Z eta m.
Proof.
  intros eta m H Hm. pose proof (ZB_nonneg eta H). pose proof (ZA_ge eta H).
  assert (E : chain_Z eta m = 1 + m * (ZA eta - ZB eta) + ZB eta) by (unfold chain_Z, ZA, ZB; ring).
  rewrite E. nra.
Qed.
Lemma C1_val : forall eta m, eta <> 1 -> eta <> 2 -> chain_Z eta m <> 0 -> C1 eta m = Some (/ chain_Z eta m).
Proof.
  intros eta m H1 H2 Hz. unfold C1. assert (N1 : 1 - eta <> 0) by lra. assert (N2 : 2 - eta <> 0) by lra.
  rewrite cdiv_nz by (repeat apply Rmult_integral_contrapositive_currified; auto).
  cbn [opt_bind]. rewrite cdiv_nz by (repeat apply Rmult_integral_contrapositive_currified; auto). cbn [opt_bind].
  match goal with |- cdiv 1 ?q = _ => replace q with (chain_Z eta m) end.
  - rewrite cdiv_nz by auto. apply Some_eq. unfold Rdiv. ring.
  - unfold chain_Z. field. split; lra.
Qed.
Lemma C1_some : forall eta m c, C1 eta m = Some c -> eta <> 1 /\ eta <> 2 /\ chain_Z eta m <> 0.
Proof.
  intros eta m c H. unfold C1, cdiv in H.
  destruct (Req_EM_T ((1 - eta) * (1 - eta) * (1 - eta) * (1 - eta)) 0) as [|N1]; [discriminate|]. cbn [opt_bind] in H.
  destruct (Req_EM_T ((1 - eta) * (2 - eta) * (1 - eta) * (2 - eta)) 0) as [|N2]; [discriminate|]. cbn [opt_bind] in H.
  match type of H with (if Req_EM_T ?q 0 then _ else _) = _ => destruct (Req_EM_T q 0) as [|N3]; [discriminate|] end.
  assert (A : eta <> 1) by (intros ->; apply N1; ring). assert (B : eta <> 2) by (intros ->; apply N2; ring).
  split; [auto|]. split; [auto|]. intros E. apply N3. rewrite <- E. unfold chain_Z. field. split; lra.
Qed.

(** ** the hard-sphere term: one formula, from the ratios D, whatever the density *)
Definition hs (D : nat -> R) (r : R) : R :=
  let U := 1 - D 3%nat * r in
  3 * D 1%nat / D 0%nat * (D 2%nat * r) / U + D 2%nat ^ 3 * r / (D 3%nat * D 0%nat * U ^ 2) - ln U + D 2%nat ^ 3 / (D 3%nat ^ 2 * D 0%nat) * ln U.
Lemma hs_zero_val : forall D r, 0 < D 0%nat -> 0 < D 3%nat -> D 3%nat * r < 1 -> hs_zero (fun n => D n * r) D = Some (hs D r).
Proof.
  intros D r H0 H3 HU. unfold hs_zero, hs. set (U := 1 - D 3%nat * r) in *. assert (PU : 0 < U) by (unfold U; lra).
  rewrite cdiv_nz by lra. cbn [opt_bind]. rewrite cdiv_nz by lra. cbn [opt_bind]. rewrite cdiv_nz by (apply Rgt_not_eq; repeat apply Rmult_lt_0_compat; assumption). cbn [opt_bind].
  rewrite clog_pos by auto. cbn [opt_bind]. rewrite cdiv_nz by (apply Rgt_not_eq; repeat apply Rmult_lt_0_compat; assumption). cbn [opt_bind].
  apply Some_eq. field. repeat split; apply Rgt_not_eq; auto.
Qed.
Lemma hs_general_val : forall D r, 0 < D 0%nat -> 0 < D 3%nat -> D 3%nat * r < 1 -> r <> 0 -> hs_general (fun n => D n * r) = Some (hs D r).
Proof.
  intros D r H0 H3 HU Hr. unfold hs_general, hs. set (U := 1 - D 3%nat * r) in *. assert (PU : 0 < U) by (unfold U; lra).
  assert (NE : D 3%nat * r <> 0) by (apply Rmult_integral_contrapositive_currified; lra).
  assert (D 3%nat * r * (D 3%nat * r) <> 0) by (apply Rmult_integral_contrapositive_currified; auto).
  rewrite cdiv_nz by (apply Rmult_integral_contrapositive_currified; lra). cbn [opt_bind]. rewrite cdiv_nz by lra. cbn [opt_bind].
  rewrite cdiv_nz by auto. cbn [opt_bind]. rewrite cdiv_nz by lra. cbn [opt_bind]. rewrite cdiv_nz by lra. cbn [opt_bind].
  rewrite cdiv_nz by auto. cbn [opt_bind]. fold U. rewrite clog_pos by auto. cbn [opt_bind].
  apply Some_eq. field. repeat split; lra.
Qed.
Lemma hs_val : forall D r, 0 < D 0%nat -> 0 < D 3%nat -> D 3%nat * r < 1 -> get_alphar_hs (fun n => D n * r) D = Some (hs D r).
Proof.
  intros D r H0 H3 HU. unfold get_alphar_hs. destruct (Req_EM_T (D 3%nat * r) 0) as [E|NE].
  - apply hs_zero_val; auto.
  - apply hs_general_val; auto. intros ->. apply NE. ring.
Qed.
Lemma hs_BMCSL : forall D r, 0 < D 0%nat -> 0 < D 3%nat -> D 3%nat * r < 1 -> r <> 0 ->
  hs D r = BMCSL (D 0%nat * r) (D 1%nat * r) (D 2%nat * r) (D 3%nat * r).
Proof.
  intros D r H0 H3 HU Hr. unfold hs, BMCSL. set (U := 1 - D 3%nat * r) in *. assert (PU : 0 < U) by (unfold U; lra).
  field. repeat split; lra.
Qed.
Lemma hs_0 : forall D, hs D 0 = 0.
Proof. intros. unfold hs. rewrite !Rmult_0_r, Rminus_0_r, ln_1. unfold Rdiv. ring. Qed.

(** ** the contact value *)
Lemma gii_val : forall z d i, z 3%nat < 1 -> d i <> 0 -> gij_HS z d i i = Some (contact (d i) (z 2%nat) (z 3%nat)).
Proof.
  intros z d i H Hd. unfold gij_HS. assert (P : 0 < 1 - z 3%nat) by lra. rewrite cdiv_nz by lra. cbn [opt_bind].
  rewrite cdiv_nz by lra. cbn [opt_bind]. rewrite cdiv_nz by (apply pow_nonzero; lra). cbn [opt_bind]. rewrite cdiv_nz by (apply pow_nonzero; lra).
  cbn [opt_bind]. apply Some_eq. unfold contact. field. repeat split; lra.
Qed.
Lemma contact_pos : forall d x2 x3, 0 < d -> 0 <= x2 -> x3 < 1 -> 0 < contact d x2 x3.
Proof.
  intros d x2 x3 Hd H2 H3. unfold contact. assert (P : 0 < / (1 - x3)) by (apply Rinv_0_lt_compat; lra).
  assert (A : 0 <= d / 2 * (3 * x2 / (1 - x3) ^ 2)).
  { apply Rmult_le_pos; [lra|]. apply Rmult_le_pos; [lra|]. left. apply Rinv_0_lt_compat. apply pow_lt; lra. }
  assert (B : 0 <= (d / 2) ^ 2 * (2 * x2 ^ 2 / (1 - x3) ^ 3)).
  { apply Rmult_le_pos; [apply pow_le; lra|]. apply Rmult_le_pos; [assert (0 <= x2 ^ 2) by (apply pow_le; lra); lra|]. left. apply Rinv_0_lt_compat. apply pow_lt; lra. }
  unfold Rdiv in *. lra.
Qed.

(** ** the integrals and the pair sums *)
Lemma integral_val : forall c m eta, m <> 0 -> integral c m eta = Some (power_series c m eta).
Proof.
  intros. unfold integral, power_series. apply osum_val. intros n Hn. unfold universal. rewrite !cdiv_nz by auto. reflexivity.
Qed.
Lemma pair_ekT_val : forall s T i j, T <> 0 -> 0 <= nth i (peps s) 0 -> 0 <= nth j (peps s) 0 -> pair_ekT s T i j = Some (pair_energy s i j / T).
Proof.
  intros s T i j HT Hi Hj. unfold pair_ekT, pair_energy, nt. rewrite csqrt_pos by (apply Rmult_le_pos; auto). cbn [opt_bind].
  rewrite cdiv_nz by auto. reflexivity.
Qed.

Lemma pair_sigma3_val : forall s i j, pair_sigma3 s i j = pair_size s i j ^ 3.
Proof.
  intros. unfold pair_sigma3, pair_size, nt.
  replace (0.5 * nth i (psigma s) 0 + 0.5 * nth j (psigma s) 0) with ((nth i (psigma s) 0 + nth j (psigma s) 0) / 2) by lra. ring.
Qed.

(** ** moments *)
Section State.
Variables (s : mixture) (T rho : R) (x : list R).
Hypothesis (HC : chains s) (HA : amounts s x) (HT : 0 < T).
Lemma L_x : length x = length (pm s). Proof. apply HA. Qed.
Lemma m_pos : forall i, (i < length x)%nat -> 0 < nth i (pm s) 0.
Proof. intros i Hi. apply HC. rewrite <- L_x. auto. Qed.
Lemma eps_nonneg : forall i, (i < length x)%nat -> 0 <= nth i (peps s) 0.
Proof. intros i Hi. apply HC. rewrite <- L_x. auto. Qed.
Lemma diam_pos : forall i, (i < length x)%nat -> 0 < diam s T i.
Proof. intros i Hi. apply diameter_pos; auto; apply HC; rewrite <- L_x; auto. Qed.
Lemma sum_present : forall f, (forall i, (i < length x)%nat -> 0 < f i) -> 0 < sumn (length x) (fun i => nth i x 0 * f i).
Proof.
  intros f Hf. destruct HA as [_ [Hn [i [Hi Pi]]]].
  apply Rlt_le_trans with (nth i x 0 * f i). { apply Rmult_lt_0_compat; auto. }
  apply (sumn_term (length x) (fun i => nth i x 0 * f i) i); auto. intros j Hj. apply Rmult_le_pos; auto. left; auto.
Qed.
Lemma moment_pos : forall n, 0 < moment s T x n.
Proof.
  intros n. unfold moment. rewrite (sumn_ext _ _ (fun i => nth i x 0 * (nth i (pm s) 0 * diam s T i ^ n))) by (intros; ring).
  apply sum_present. intros i Hi. apply Rmult_lt_0_compat; [apply m_pos; auto|]. apply pow_lt. apply diam_pos; auto.
Qed.
Lemma chain_pos : 0 < chain s x.
Proof. unfold chain. apply sum_present. exact m_pos. Qed.
Lemma chain_moment : moment s T x 0 = chain s x.
Proof. unfold moment, chain. apply sumn_ext. intros. simpl. ring. Qed.

Definition DD (n : nat) : R := PI / 6 * moment s T x n.
Lemma DD_pos : forall n, 0 < DD n.
Proof. intros n. unfold DD. pose proof PI_RGT_0. pose proof (moment_pos n). apply Rmult_lt_0_compat; lra. Qed.
Lemma xi_DD : forall n, xi s T rho x n = DD n * numdens rho.
Proof. intros. unfold xi, DD. ring. Qed.

(** ** the whole hard-chain and dispersion evaluation *)
Definition hc_plain : R :=
  chain s x * hs DD (numdens rho)
  - sumn (length x) (fun i => nth i x 0 * ((nth i (pm s) 0 - 1) * ln (contact (diam s T i) (xi s T rho x 2) (xi s T rho x 3)))).
Hypothesis (Hr : 0 <= rho) (He : packing s T rho x < 1).
Lemma numdens_nonneg : 0 <= numdens rho.
Proof. unfold numdens, N_A. apply Rmult_le_pos; [apply Rmult_le_pos; [auto|]|]; lra. Qed.
Lemma xi_nonneg : forall n, 0 <= xi s T rho x n.
Proof. intros. rewrite xi_DD. apply Rmult_le_pos; [left; apply DD_pos|apply numdens_nonneg]. Qed.
Lemma pair_sum_val : forall (p : nat) w, (forall k i j, w k i j = nth i x 0 * nth j x 0 * (nth i (pm s) 0 * nth j (pm s) 0 * k ^ p * pair_size s i j ^ 3)) ->
  osum (length (pm s)) (fun i => osum (length (pm s)) (fun j => k <-- pair_ekT s T i j; Some (w k i j))) = Some (pair_mean s T x p).
Proof.
  intros p w Hw. unfold pair_mean. rewrite <- L_x. apply osum_val. intros i Hi. apply osum_val. intros j Hj.
  rewrite pair_ekT_val by (try (apply eps_nonneg; auto); lra). cbn [opt_bind]. rewrite Hw. reflexivity.
Qed.
Lemma hardchain_val : hardchain s T rho x = Some {| h_eta := packing s T rho x; h_hc := hc_plain; h_disp := disp_doc s T rho x |}.
Proof.
  pose proof chain_pos as Pm. pose proof L_x as L.
  unfold hardchain.
  rewrite (osequence_build _ (diam s T)) by (intros; cbn [Nat.add]; apply seg_d_val; lra). cbn [opt_bind].
  rewrite (pair_sum_val 1) by (intros; unfold pair_weight, nt; rewrite pair_sigma3_val; ring). cbn [opt_bind].
  rewrite (pair_sum_val 2) by (intros; unfold pair_weight, nt; rewrite pair_sigma3_val; ring). cbn [opt_bind].
  assert (EN : rho * N_A * / 10 ^ 30 = numdens rho) by reflexivity. rewrite !EN.
  assert (Em : sumn (length (pm s)) (fun i => nt x i * nt (pm s) i) = chain s x) by (unfold chain; rewrite L; reflexivity).
  rewrite !Em.
  assert (ED : forall n, PI / 6 * sumn (length (pm s)) (fun i => nt x i * nt (pm s) i * nt (map (diam s T) (seq 0 (length (pm s)))) i ^ n) = DD n).
  { intros n. unfold DD, moment. rewrite L. f_equal. apply sumn_ext. intros i Hi. unfold nt. rewrite (nth_map_seq' _ _ _ Hi). reflexivity. }
  assert (E3 : DD 3 * numdens rho = packing s T rho x) by (unfold packing; rewrite xi_DD; reflexivity).
  rewrite !integral_val by lra. cbn [opt_bind].
  rewrite ED, E3.
  rewrite (osum_val (length (pm s)) _ (fun i => nth i x 0 * (nth i (pm s) 0 - 1) * ln (contact (diam s T i) (DD 2 * numdens rho) (DD 3 * numdens rho)))).
  2: { intros i Hi. rewrite gii_val.
       2: { rewrite ED, E3. auto. }
       2: { unfold nt. rewrite (nth_map_seq' _ _ _ Hi). apply Rgt_not_eq. apply diam_pos. rewrite L; auto. }
       cbn [opt_bind]. rewrite !ED. rewrite clog_pos.
       2: { apply contact_pos. - unfold nt. rewrite (nth_map_seq' _ _ _ Hi). apply diam_pos. rewrite L; auto.
            - rewrite <- xi_DD. apply xi_nonneg. - rewrite E3; auto. }
       cbn [opt_bind]. unfold nt. rewrite (nth_map_seq' _ _ _ Hi). reflexivity. }
  cbn [opt_bind].
  match goal with |- opt_bind (get_alphar_hs ?z ?D) _ = _ =>
    replace (get_alphar_hs z D) with (get_alphar_hs (fun n => DD n * numdens rho) DD)
      by (unfold get_alphar_hs, hs_zero, hs_general; cbv beta; rewrite !ED; reflexivity) end.
  rewrite hs_val; [|apply DD_pos|apply DD_pos|rewrite E3; auto]. cbn [opt_bind].
  assert (Pe : 0 <= packing s T rho x) by apply xi_nonneg.
  rewrite C1_val; [|lra|lra|]. 2: { apply Rgt_not_eq. apply chain_Z_pos; auto. }
  cbn [opt_bind]. f_equal. f_equal.
  unfold hc_plain. f_equal. rewrite L. apply sumn_ext. intros i Hi. rewrite !xi_DD. ring.
Qed.
End State.
