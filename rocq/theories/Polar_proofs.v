From Coq Require Import Reals ZArith String List Bool Lia Lra.
From Verif Require Import Json_model Vec_spec Vec_proofs Cubic_model Terms_model Ideal_model Ideal_proofs Util_model Assoc_model GERG_tables Polar_tables Polar_model Polar_spec.
Import ListNotations.
Local Open Scope R_scope.

Lemma cdiv_nz : forall a b, b <> 0 -> cdiv a b = Some (a / b). Proof. intros a b H. unfold cdiv. destruct (Req_EM_T b 0); [contradiction|reflexivity]. Qed.
Lemma csqrt_nn : forall a, 0 <= a -> csqrt a = Some (sqrt a). Proof. intros a H. unfold csqrt. destruct (Rle_dec 0 a); [reflexivity|contradiction]. Qed.
Lemma clog_p : forall a, 0 < a -> clog a = Some (ln a). Proof. intros a H. unfold clog. destruct (Rlt_dec 0 a); [reflexivity|contradiction]. Qed.
(** odd powers of square roots *)
Lemma cpow_half : forall y n, 0 <= y -> (0 < n)%nat -> cpow y (INR n / 2) = Some (sqrt y ^ n).
Proof.
  intros y n H Hn. unfold cpow. destruct (Req_EM_T y 0) as [->|E].
  - assert (0 < INR n) by (apply lt_0_INR; lia). destruct (Req_EM_T (INR n / 2) 0); [lra|]. destruct (Rlt_dec 0 (INR n / 2)); [|lra]. rewrite sqrt_0, pow_ne_zero by lia. reflexivity.
  - destruct (Rlt_dec 0 y) as [P|P]; [|lra]. f_equal. rewrite <- Rpower_sqrt by exact P. rewrite <- Rpower_pow by (apply exp_pos). rewrite Rpower_mult. f_equal. field.
Qed.
Lemma cpow_32 : forall y, 0 <= y -> cpow y (3 / 2) = Some (sqrt y ^ 3). Proof. intros y H. replace (3 / 2) with (INR 3 / 2) by (cbn; lra). apply cpow_half; [exact H|lia]. Qed.
Lemma cpow_112 : forall y, 0 <= y -> cpow y (11 / 2) = Some (sqrt y ^ 11). Proof. intros y H. replace (11 / 2) with (INR 11 / 2) by (cbn; lra). apply cpow_half; [exact H|lia]. Qed.
Lemma cpow_152 : forall y, 0 <= y -> cpow y (15 / 2) = Some (sqrt y ^ 15). Proof. intros y H. replace (15 / 2) with (INR 15 / 2) by (cbn; lra). apply cpow_half; [exact H|lia]. Qed.
Lemma cpow_pos3 : forall y, 0 < y -> cpow y (1 / 3) = Some (Rpower y (1 / 3)). Proof. intros y H. unfold cpow. destruct (Req_EM_T y 0); [lra|]. destruct (Rlt_dec 0 y); [reflexivity|contradiction]. Qed.
Lemma osum2 : forall N f g, (forall i j, (i < N)%nat -> (j < N)%nat -> f i j = Some (g i j)) -> osum N (fun i => osum N (f i)) = Some (sumn N (fun i => sumn N (g i))).
Proof. intros N f g H. apply osum_val. intros i Hi. apply osum_val. intros j Hj. now apply H. Qed.
Lemma osum3 : forall N f g, (forall i j k, (i < N)%nat -> (j < N)%nat -> (k < N)%nat -> f i j k = Some (g i j k)) -> osum N (fun i => osum N (fun j => osum N (f i j))) = Some (sumn N (fun i => sumn N (fun j => sumn N (g i j)))).
Proof. intros N f g H. apply osum_val. intros i Hi. apply osum_val. intros j Hj. apply osum_val. intros k Hk. now apply H. Qed.
Lemma sum2_ext : forall N x f g, (forall i j, (i < N)%nat -> (j < N)%nat -> f i j = g i j) -> sum2 N x f = sum2 N x g.
Proof. intros N x f g H. unfold sum2. apply sumn_ext. intros i Hi. apply sumn_ext. intros j Hj. now rewrite H. Qed.
Lemma sum3_ext : forall N x f g, (forall i j k, (i < N)%nat -> (j < N)%nat -> (k < N)%nat -> f i j k = g i j k) -> sum3 N x f = sum3 N x g.
Proof. intros N x f g H. unfold sum3. apply sumn_ext. intros i Hi. apply sumn_ext. intros j Hj. apply sumn_ext. intros k Hk. now rewrite H. Qed.
Lemma sum2_plus : forall N x f g, sum2 N x (fun i j => f i j + g i j) = sum2 N x f + sum2 N x g.
Proof. intros. unfold sum2. rewrite <- sumn_plus. apply sumn_ext. intros i Hi. rewrite <- sumn_plus. apply sumn_ext. intros; ring. Qed.
Lemma sum3_plus : forall N x f g, sum3 N x (fun i j k => f i j k + g i j k) = sum3 N x f + sum3 N x g.
Proof. intros. unfold sum3. rewrite <- sumn_plus. apply sumn_ext. intros i Hi. rewrite <- sumn_plus. apply sumn_ext. intros j Hj. rewrite <- sumn_plus. apply sumn_ext. intros; ring. Qed.
Lemma sum2_scal : forall N x f k, sum2 N x (fun i j => k * f i j) = k * sum2 N x f.
Proof. intros. unfold sum2. rewrite <- sumn_scal. apply sumn_ext. intros i Hi. rewrite <- sumn_scal. apply sumn_ext. intros; ring. Qed.
Lemma sum3_scal : forall N x f k, sum3 N x (fun i j l => k * f i j l) = k * sum3 N x f.
Proof. intros. unfold sum3. rewrite <- sumn_scal. apply sumn_ext. intros i Hi. rewrite <- sumn_scal. apply sumn_ext. intros j Hj. rewrite <- sumn_scal. apply sumn_ext. intros; ring. Qed.

Lemma dens : forall a b c, 0 < a -> 0 < b -> 0 < c -> 0 < a * b * c /\ 0 < a * POW2 (b * c) /\ 0 < POW2 (a * b) * POW3 c /\ 0 < POW3 (a * b * c).
Proof. intros a b c A B C. unfold POW3, POW2. repeat split; repeat apply Rmult_lt_0_compat; assumption. Qed.
(** * Integrals of triplets *)
Section Triplets.
Variables (K : nat * nat -> R -> R -> option R) (N : nat) (Tr : nat -> nat -> R) (rs : R) (V : nat * nat -> nat -> nat -> R).
Hypothesis HK : K_at K N Tr rs V.
Lemma kijk_val : forall k i j l, In k [(222, 333); (233, 344); (444, 555)]%nat -> (i < N)%nat -> (j < N)%nat -> (l < N)%nat -> get_Kijk K k rs (Tr i j) (Tr i l) (Tr j l) = Some (triplet V k i j l).
Proof.
  intros k i j l Hk Hi Hj Hl. assert (Hk' : In k triplet_orders) by (cbn in *; tauto). assert (Sg : sign k = 1) by (cbn in Hk; destruct Hk as [<-|[<-|[<-|[]]]]; reflexivity).
  destruct (HK k i j Hk' Hi Hj) as [E1 P1], (HK k i l Hk' Hi Hl) as [E2 P2], (HK k j l Hk' Hj Hl) as [E3 P3]. unfold get_Kijk. rewrite E1, E2, E3. cbn [opt_bind]. rewrite Sg, Rmult_1_l in P1, P2, P3. unfold triplet. rewrite Sg, !Rmult_1_l.
  rewrite cpow_pos3 by (repeat apply Rmult_lt_0_compat; assumption). reflexivity.
Qed.
Lemma kneg_val : forall i j l, (i < N)%nat -> (j < N)%nat -> (l < N)%nat -> get_Kijk_neg K (334, 445)%nat rs (Tr i j) (Tr i l) (Tr j l) = Some (triplet V (334, 445)%nat i j l).
Proof.
  intros i j l Hi Hj Hl. set (k := (334, 445)%nat). assert (Hk' : In k triplet_orders) by (cbn; tauto). assert (Sg : sign k = -1) by reflexivity.
  destruct (HK k i j Hk' Hi Hj) as [E1 P1], (HK k i l Hk' Hi Hl) as [E2 P2], (HK k j l Hk' Hj Hl) as [E3 P3]. unfold get_Kijk_neg. rewrite E1, E2, E3. cbn [opt_bind]. rewrite Sg in P1, P2, P3. unfold triplet. rewrite Sg.
  assert (Q : 0 < - (V k i j * V k i l * V k j l)) by (replace (- (V k i j * V k i l * V k j l)) with ((-1 * V k i j) * (-1 * V k i l) * (-1 * V k j l)) by ring; apply Rmult_lt_0_compat; [apply Rmult_lt_0_compat|]; assumption).
  rewrite cpow_pos3 by exact Q. cbn [opt_bind]. f_equal. replace (-1 * V k i j * V k i l * V k j l) with (- (V k i j * V k i l * V k j l)) by ring. ring.
Qed.
Lemma triplet_sign : forall k i j l, In k triplet_orders -> 0 < sign k * triplet V k i j l.
Proof. intros k i j l Hk. unfold triplet. rewrite <- Rmult_assoc. assert (Sg : sign k * sign k = 1) by (unfold sign; destruct (Nat.eqb _ _); lra). rewrite Sg, Rmult_1_l. apply exp_pos. Qed.
End Triplets.

(** * Gubbins and Twu *)
Section GT.
Variables (J : nat -> R -> R -> option R) (K : nat * nat -> R -> R -> option R) (g : gtwu) (T rhoN rs : R) (x : list R).
Variables (Jv : nat -> nat -> nat -> R) (V : nat * nat -> nat -> nat -> R).
Let N := length x.
Hypothesis HT : 0 < T.
Hypothesis Sg : forall i, (i < N)%nat -> 0 < nth i (t_sigma g) 0.
Hypothesis Ep : forall i, (i < N)%nat -> 0 < nth i (t_eps g) 0.
Hypothesis Mu : forall i, (i < N)%nat -> 0 <= nth i (t_mu2 g) 0.
Hypothesis Qu : forall i, (i < N)%nat -> 0 <= nth i (t_Q2 g) 0.
Hypothesis HJ : J_at J N (reduced_T T (t_eps g)) rs Jv.
Hypothesis HK : K_at K N (reduced_T T (t_eps g)) rs V.
Let sg i := nth i (t_sigma g) 0.
Let ep i := nth i (t_eps g) 0.
Let mu2 i := nth i (t_mu2 g) 0.
Let Q2 i := nth i (t_Q2 g) 0.
Let S i j := mean_diameter (t_sigma g) i j.
(** the strengths of the moments *)
Definition gt_a (i : nat) : R := nth i (t_sigma g) 0 ^ 3 * nth i (t_mu2 g) 0 * (nth i (t_eps g) 0 / T).
Definition gt_b (i : nat) : R := nth i (t_sigma g) 0 ^ 5 * nth i (t_Q2 g) 0 * (nth i (t_eps g) 0 / T).
Definition gt_q (i : nat) : R := sqrt (gt_b i).
Lemma Sp : forall i j, (i < N)%nat -> (j < N)%nat -> 0 < S i j. Proof. intros i j Hi Hj. unfold S, mean_diameter. pose proof (Sg i Hi). pose proof (Sg j Hj). lra. Qed.
Lemma T_val : forall i j, (i < N)%nat -> (j < N)%nat -> Tstar g T i j = Some (reduced_T T (t_eps g) i j) /\ 0 < reduced_T T (t_eps g) i j.
Proof.
  intros i j Hi Hj. assert (P : 0 < nth i (t_eps g) 0 * nth j (t_eps g) 0) by (apply Rmult_lt_0_compat; auto). pose proof (sqrt_lt_R0 _ P) as Q. unfold Tstar. rewrite csqrt_nn by lra. cbn [opt_bind]. split; [apply cdiv_nz; lra|]. unfold reduced_T. now apply Rdiv_lt_0_compat.
Qed.
Lemma T_self : forall i, (i < N)%nat -> reduced_T T (t_eps g) i i = T / ep i. Proof. intros i Hi. unfold reduced_T. rewrite sqrt_square; [reflexivity|]. apply Rlt_le, Ep, Hi. Qed.
Lemma ep_T : forall i, (i < N)%nat -> 0 < ep i / T. Proof. intros i Hi. apply Rdiv_lt_0_compat; [apply Ep, Hi|exact HT]. Qed.
Lemma a_nonneg : forall i, (i < N)%nat -> 0 <= gt_a i. Proof. intros i Hi. unfold gt_a. pose proof (Sg i Hi). pose proof (Mu i Hi). pose proof (ep_T i Hi). apply Rmult_le_pos; [apply Rmult_le_pos; [apply pow_le; lra|assumption]|unfold ep in *; lra]. Qed.
Lemma b_nonneg : forall i, (i < N)%nat -> 0 <= gt_b i. Proof. intros i Hi. unfold gt_b. pose proof (Sg i Hi). pose proof (Qu i Hi). pose proof (ep_T i Hi). apply Rmult_le_pos; [apply Rmult_le_pos; [apply pow_le; lra|assumption]|unfold ep in *; lra]. Qed.
Lemma q_sq : forall i, (i < N)%nat -> gt_q i ^ 2 = gt_b i. Proof. intros i Hi. unfold gt_q. rewrite <- Rsqr_pow2. apply Rsqr_sqrt, b_nonneg, Hi. Qed.
(** the square roots in the third order *)
Lemma q_root : forall i, (i < N)%nat -> gt_q i = sqrt (sg i) ^ 5 * sqrt (Q2 i) / sqrt (T / ep i).
Proof.
  intros i Hi. pose proof (Sg i Hi) as P1. pose proof (Qu i Hi) as P2. pose proof (Ep i Hi) as P3. unfold gt_q, gt_b. assert (P4 : 0 < T / ep i) by (apply Rdiv_lt_0_compat; [exact HT|exact P3]). assert (sqrt (T / ep i) <> 0) by (apply Rgt_not_eq, sqrt_lt_R0, P4).
  replace (nth i (t_eps g) 0 / T) with (/ (T / ep i)) by (unfold ep in *; field; split; lra). rewrite sqrt_mult; [|apply Rmult_le_pos; [apply pow_le; lra|exact P2]|apply Rlt_le, Rinv_0_lt_compat, P4]. rewrite sqrt_mult; [|apply pow_le; lra|exact P2].
  rewrite sqrt_inv. unfold Rdiv. f_equal. f_equal. unfold sg. replace (nth i (t_sigma g) 0 ^ 5) with ((nth i (t_sigma g) 0 ^ 2) ^ 2 * nth i (t_sigma g) 0) by ring. rewrite sqrt_mult by (try apply pow_le; try apply pow2_ge_0; lra). rewrite sqrt_pow2 by (apply pow_le; lra).
  rewrite <- (sqrt_sqrt (nth i (t_sigma g) 0)) at 1 by lra. ring.
Qed.
Lemma sum2_val : forall num p n, In n pair_orders -> gt_sum2 J g T rs x num p n = Some (sum2 N (fun i => nth i x 0) (fun i j => num i j * (ep i / T) * (ep j / T) * Jv n i j / S i j ^ p)).
Proof.
  intros num p n Hn. unfold gt_sum2. fold N. apply osum2. intros i j Hi Hj. destruct (T_val i i Hi Hi) as [E1 P1], (T_val j j Hj Hj) as [E2 P2], (T_val i j Hi Hj) as [E3 P3]. rewrite E1, E2, E3. cbn [opt_bind]. rewrite cdiv_nz by (apply Rmult_integral_contrapositive; split; lra). cbn [opt_bind].
  pose proof (Sp i j Hi Hj) as PS. change ((nth i (t_sigma g) 0 + nth j (t_sigma g) 0) / 2) with (S i j). rewrite cdiv_nz by (apply pow_nonzero; lra). cbn [opt_bind]. rewrite (HJ n i j Hn Hi Hj). cbn [opt_bind]. f_equal. rewrite (T_self i Hi), (T_self j Hj). pose proof (Ep i Hi). pose proof (Ep j Hj). unfold ep in *. field. repeat split; try lra. apply pow_nonzero; lra.
Qed.
Lemma alpha2_val : gt_alpha2 J g T rhoN rs x = Some (order2 N (fun i => nth i x 0) gt_a gt_q (fun _ => 0) S Jv rhoN).
Proof.
  unfold gt_alpha2. rewrite !sum2_val by (cbn; tauto). cbn [opt_bind]. f_equal. unfold order2. symmetry.
  rewrite (sum2_ext N _ _ (fun i j => 2 / 3 * PI * (sg i ^ 3 * sg j ^ 3 * mu2 i * mu2 j * (ep i / T) * (ep j / T) * Jv 6%nat i j / S i j ^ 3)
    + 2 * PI * (sg i ^ 3 * sg j ^ 5 * mu2 i * Q2 j * (ep i / T) * (ep j / T) * Jv 8%nat i j / S i j ^ 5) + 14 / 5 * PI * (sg i ^ 5 * sg j ^ 5 * Q2 i * Q2 j * (ep i / T) * (ep j / T) * Jv 10%nat i j / S i j ^ 7))).
  - rewrite !sum2_plus, !sum2_scal. unfold sg, mu2, Q2. match goal with |- - rhoN * (_ * ?A + _ * ?B + _ * ?C) = _ => generalize A B C end. intros. field.
  - intros i j Hi Hj. rewrite !q_sq by assumption. unfold zz, gt_a, gt_b. pose proof (Sp i j Hi Hj). unfold sg, mu2, Q2, ep. field. split; lra.
Qed.
Lemma sumA_val : forall num num' p n, In n pair_orders -> (forall i j, (i < N)%nat -> (j < N)%nat -> num i j = Some (num' i j)) ->
  gt_sumA J g T rs x num p n = Some (sum2 N (fun i => nth i x 0) (fun i j => num' i j / sqrt (T / ep i) ^ 3 / sqrt (T / ep j) ^ 3 * Jv n i j / S i j ^ p)).
Proof.
  intros num num' p n Hn H. unfold gt_sumA. fold N. apply osum2. intros i j Hi Hj. destruct (T_val i i Hi Hi) as [E1 P1], (T_val j j Hj Hj) as [E2 P2], (T_val i j Hi Hj) as [E3 P3]. rewrite E1, E2, E3. cbn [opt_bind]. rewrite cpow_32 by (apply Rlt_le, Rmult_lt_0_compat; assumption). cbn [opt_bind].
  rewrite (T_self i Hi) in *. rewrite (T_self j Hj) in *. rewrite sqrt_mult by lra. pose proof (sqrt_lt_R0 _ P1) as Q1. pose proof (sqrt_lt_R0 _ P2) as Q2'. rewrite cdiv_nz by (apply pow_nonzero, Rmult_integral_contrapositive; split; lra). cbn [opt_bind]. rewrite (H i j Hi Hj). cbn [opt_bind].
  pose proof (Sp i j Hi Hj) as PS. change ((nth i (t_sigma g) 0 + nth j (t_sigma g) 0) / 2) with (S i j). rewrite cdiv_nz by (apply pow_nonzero; lra). cbn [opt_bind]. rewrite (HJ n i j Hn Hi Hj). cbn [opt_bind]. f_equal. field. repeat split; try lra. apply pow_nonzero; lra.
Qed.
Lemma sumB_val : forall guard num den k kv, (forall i j l, (i < N)%nat -> (j < N)%nat -> (l < N)%nat -> k (reduced_T T (t_eps g) i j) (reduced_T T (t_eps g) i l) (reduced_T T (t_eps g) j l) = Some (kv i j l)) ->
  (forall i j l, (i < N)%nat -> (j < N)%nat -> (l < N)%nat -> den i j l <> 0) ->
  gt_sumB g T x guard num den k = Some (sum3 N (fun i => nth i x 0) (fun i j l => num i j l * guard i j l * (ep i / T) * (ep j / T) * (ep l / T) * kv i j l / den i j l)).
Proof.
  intros guard num den k kv Hk Hd. unfold gt_sumB. fold N. apply osum3. intros i j l Hi Hj Hl. destruct (T_val i i Hi Hi) as [E1 P1], (T_val j j Hj Hj) as [E2 P2], (T_val l l Hl Hl) as [E3 P3], (T_val i j Hi Hj) as [E4 P4], (T_val i l Hi Hl) as [E5 P5], (T_val j l Hj Hl) as [E6 P6]. rewrite E1, E2, E3, E4, E5, E6. cbn [opt_bind].
  rewrite cdiv_nz by (apply Rgt_not_eq, Rmult_lt_0_compat; [apply Rmult_lt_0_compat|]; assumption). cbn [opt_bind]. pose proof (Hd i j l Hi Hj Hl) as D. destruct (Rlt_dec 0 (Rabs (guard i j l))) as [P|P].
  - rewrite (Hk i j l Hi Hj Hl). cbn [opt_bind]. rewrite cdiv_nz by exact D. cbn [opt_bind]. f_equal. rewrite (T_self i Hi), (T_self j Hj), (T_self l Hl). pose proof (Ep i Hi). pose proof (Ep j Hj). pose proof (Ep l Hl). unfold ep in *. field. repeat split; lra || exact D.
  - assert (Z : guard i j l = 0). { destruct (Req_EM_T (guard i j l) 0); [assumption|]. exfalso. apply P. now apply Rabs_pos_lt. } rewrite Z. f_equal. unfold Rdiv. ring.
Qed.
Lemma alpha3_val : gt_alpha3 J K g T rhoN rs x = Some (order3 N (fun i => nth i x 0) gt_a gt_q (fun _ => 0) (fun _ => 0) S Jv (triplet V) rhoN 1 1).
Proof.
  unfold gt_alpha3.
  rewrite (sumA_val _ (fun i j => (sqrt (sg i) * sqrt (sg j)) ^ 11 * mu2 i * mu2 j * (sqrt (Q2 i) * sqrt (Q2 j))) 8 11) by (cbn; tauto || (intros i j Hi Hj; pose proof (Sg i Hi); pose proof (Sg j Hj); pose proof (Qu i Hi); pose proof (Qu j Hj); rewrite cpow_112 by (apply Rmult_le_pos; lra); cbn [opt_bind]; rewrite csqrt_nn by (now apply Rmult_le_pos); cbn [opt_bind]; rewrite !sqrt_mult by lra; reflexivity)).
  cbn [opt_bind].
  rewrite (sumA_val _ (fun i j => sqrt (sg i) ^ 11 * sqrt (sg j) ^ 15 * mu2 i * sqrt (Q2 i) * sqrt (Q2 j) ^ 3) 10 13) by (cbn; tauto || (intros i j Hi Hj; pose proof (Sg i Hi); pose proof (Sg j Hj); pose proof (Qu i Hi); pose proof (Qu j Hj); rewrite cpow_112, cpow_152 by lra; cbn [opt_bind]; rewrite csqrt_nn by assumption; cbn [opt_bind]; rewrite cpow_32 by assumption; reflexivity)).
  cbn [opt_bind].
  rewrite (sumA_val _ (fun i j => (sqrt (sg i) * sqrt (sg j)) ^ 15 * sqrt (Q2 i) ^ 3 * sqrt (Q2 j) ^ 3) 12 15) by (cbn; tauto || (intros i j Hi Hj; pose proof (Sg i Hi); pose proof (Sg j Hj); pose proof (Qu i Hi); pose proof (Qu j Hj); rewrite cpow_152 by (apply Rmult_le_pos; lra); cbn [opt_bind]; rewrite !cpow_32 by assumption; cbn [opt_bind]; rewrite !sqrt_mult by lra; reflexivity)).
  cbn [opt_bind].
  assert (D : forall i j l, (i < N)%nat -> (j < N)%nat -> (l < N)%nat -> 0 < S i j /\ 0 < S i l /\ 0 < S j l) by (intros; repeat split; now apply Sp).
  rewrite (sumB_val _ _ (fun i j l => S i j * S i l * S j l) _ (triplet V (222, 333)%nat)); [|intros; apply (kijk_val K N _ rs V HK); cbn; tauto || assumption|intros i j l Hi Hj Hl; destruct (D i j l Hi Hj Hl) as (? & ? & ?); apply Rgt_not_eq; now apply dens]. cbn [opt_bind].
  rewrite (sumB_val _ _ (fun i j l => S i j * POW2 (S i l * S j l)) _ (triplet V (233, 344)%nat)); [|intros; apply (kijk_val K N _ rs V HK); cbn; tauto || assumption|intros i j l Hi Hj Hl; destruct (D i j l Hi Hj Hl) as (? & ? & ?); apply Rgt_not_eq; now apply dens]. cbn [opt_bind].
  rewrite (sumB_val _ _ (fun i j l => POW2 (S i j * S i l) * POW3 (S j l)) _ (triplet V (334, 445)%nat)); [|intros; apply (kneg_val K N _ rs V HK); assumption|intros i j l Hi Hj Hl; destruct (D i j l Hi Hj Hl) as (? & ? & ?); apply Rgt_not_eq; now apply dens]. cbn [opt_bind].
  rewrite (sumB_val _ _ (fun i j l => POW3 (S i j * S i l * S j l)) _ (triplet V (444, 555)%nat)); [|intros; apply (kijk_val K N _ rs V HK); cbn; tauto || assumption|intros i j l Hi Hj Hl; destruct (D i j l Hi Hj Hl) as (? & ? & ?); apply Rgt_not_eq; now apply dens]. cbn [opt_bind].
  f_equal. unfold order3. symmetry.
  set (A1 := fun i j => (sqrt (sg i) * sqrt (sg j)) ^ 11 * mu2 i * mu2 j * (sqrt (Q2 i) * sqrt (Q2 j)) / sqrt (T / ep i) ^ 3 / sqrt (T / ep j) ^ 3 * Jv 11%nat i j / S i j ^ 8).
  set (A3 := fun i j => sqrt (sg i) ^ 11 * sqrt (sg j) ^ 15 * mu2 i * sqrt (Q2 i) * sqrt (Q2 j) ^ 3 / sqrt (T / ep i) ^ 3 / sqrt (T / ep j) ^ 3 * Jv 13%nat i j / S i j ^ 10).
  set (A4 := fun i j => (sqrt (sg i) * sqrt (sg j)) ^ 15 * sqrt (Q2 i) ^ 3 * sqrt (Q2 j) ^ 3 / sqrt (T / ep i) ^ 3 / sqrt (T / ep j) ^ 3 * Jv 15%nat i j / S i j ^ 12).
  rewrite (sum2_ext N _ _ (fun i j => 8 / 5 * PI * A1 i j + 48 / 35 * PI * A3 i j + 144 / 245 * PI * A4 i j)).
  2: { intros i j Hi Hj. unfold A1, A3, A4. rewrite !q_root by assumption. unfold gt_a. pose proof (Sg i Hi) as P1. pose proof (Sg j Hj) as P2. pose proof (Ep i Hi) as P3. pose proof (Ep j Hj) as P4. pose proof (Sp i j Hi Hj). unfold sg, mu2, Q2, ep.
    assert (R1 : 0 < T / nth i (t_eps g) 0) by (now apply Rdiv_lt_0_compat). assert (R2 : 0 < T / nth j (t_eps g) 0) by (now apply Rdiv_lt_0_compat). pose proof (sqrt_lt_R0 _ R1). pose proof (sqrt_lt_R0 _ R2).
    replace (nth i (t_eps g) 0 / T) with (/ (sqrt (T / nth i (t_eps g) 0) ^ 2)) by (rewrite <- Rsqr_pow2, Rsqr_sqrt by lra; field; split; lra). replace (nth j (t_eps g) 0 / T) with (/ (sqrt (T / nth j (t_eps g) 0) ^ 2)) by (rewrite <- Rsqr_pow2, Rsqr_sqrt by lra; field; split; lra).
    replace (nth i (t_sigma g) 0 ^ 3) with (sqrt (nth i (t_sigma g) 0) ^ 6) by (rewrite <- (sqrt_sqrt (nth i (t_sigma g) 0)) at 2 by lra; ring). replace (nth j (t_sigma g) 0 ^ 3) with (sqrt (nth j (t_sigma g) 0) ^ 6) by (rewrite <- (sqrt_sqrt (nth j (t_sigma g) 0)) at 2 by lra; ring).
    unfold Rdiv. field. repeat split; lra. }
  set (B1 := fun i j l => nth i (t_sigma g) 0 ^ 3 * nth j (t_sigma g) 0 ^ 3 * nth l (t_sigma g) 0 ^ 3 * (nth i (t_mu2 g) 0 * nth j (t_mu2 g) 0 * nth l (t_mu2 g) 0) * (ep i / T) * (ep j / T) * (ep l / T) * triplet V (222, 333)%nat i j l / (S i j * S i l * S j l)).
  set (B2 := fun i j l => nth i (t_sigma g) 0 ^ 3 * nth j (t_sigma g) 0 ^ 3 * nth l (t_sigma g) 0 ^ 5 * (nth i (t_mu2 g) 0 * nth j (t_mu2 g) 0 * nth l (t_Q2 g) 0) * (ep i / T) * (ep j / T) * (ep l / T) * triplet V (233, 344)%nat i j l / (S i j * POW2 (S i l * S j l))).
  set (B3 := fun i j l => nth i (t_sigma g) 0 ^ 3 * nth j (t_sigma g) 0 ^ 5 * nth l (t_sigma g) 0 ^ 5 * (nth i (t_mu2 g) 0 * nth j (t_Q2 g) 0 * nth l (t_Q2 g) 0) * (ep i / T) * (ep j / T) * (ep l / T) * triplet V (334, 445)%nat i j l / (POW2 (S i j * S i l) * POW3 (S j l))).
  set (B4 := fun i j l => POW5 (nth i (t_sigma g) 0 * nth j (t_sigma g) 0 * nth l (t_sigma g) 0) * (nth i (t_Q2 g) 0 * nth j (t_Q2 g) 0 * nth l (t_Q2 g) 0) * (ep i / T) * (ep j / T) * (ep l / T) * triplet V (444, 555)%nat i j l / POW3 (S i j * S i l * S j l)).
  rewrite (sum3_ext N _ _ (fun i j l => 32 / 135 * PI ^ 3 * sqrt (14 * PI / 5) * B1 i j l + 64 / 105 * PI ^ 3 * sqrt (3 * PI) * B2 i j l + - (32 / 45) * PI ^ 3 * sqrt (22 * PI / 7) * B3 i j l + 32 / 2025 * PI ^ 3 * sqrt (2002 * PI) * B4 i j l)).
  2: { intros i j l Hi Hj Hl. rewrite !q_sq by assumption. unfold B1, B2, B3, B4, zz, gt_a, gt_b, POW5, POW3, POW2. destruct (D i j l Hi Hj Hl) as (? & ? & ?). unfold sg, mu2, Q2, ep. field. repeat split; lra. }
  rewrite !sum2_plus, !sum3_plus, !sum2_scal, !sum3_scal.
  assert (R22 : sqrt (22 * PI / 7) = 3 * sqrt (22 * PI / 63)). { pose proof PI_RGT_0. replace (22 * PI / 7) with (3 ^ 2 * (22 * PI / 63)) by field. rewrite sqrt_mult by lra. now rewrite sqrt_pow2 by lra. }
  rewrite R22. unfold POW3 at 1 2 3 4. unfold POW2 at 1 2 3 4. generalize (sum2 N (fun i => nth i x 0) A1) (sum2 N (fun i => nth i x 0) A3) (sum2 N (fun i => nth i x 0) A4). intros s1 s3 s4.
  match goal with |- context [sum3 ?n ?y B1] => generalize (sum3 n y B1) (sum3 n y B2) (sum3 n y B3) (sum3 n y B4) end. intros b1 b2 b3 b4. field.
Qed.
End GT.
