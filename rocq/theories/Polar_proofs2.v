From Coq Require Import Reals ZArith String List Bool Lia Lra.
From Verif Require Import Json_model Vec_spec Vec_proofs Cubic_model Terms_model Ideal_model Ideal_proofs Util_model Assoc_model GERG_tables Polar_tables Polar_model Polar_spec Polar_proofs.
Import ListNotations.
Local Open Scope R_scope.

Lemma k_B_pos : 0 < k_B. Proof. unfold k_B. apply Rmult_lt_0_compat; [lra|]. apply Rinv_0_lt_compat, pow_lt. lra. Qed.
Lemma k_e_pos : 0 < k_e. Proof. unfold k_e. apply Rinv_0_lt_compat. pose proof PI_RGT_0. apply Rmult_lt_0_compat; [lra|]. apply Rmult_lt_0_compat; [lra|]. apply Rinv_0_lt_compat, pow_lt. lra. Qed.
Lemma k_e_coulomb : k_e = coulomb. Proof. unfold k_e, coulomb. do 2 f_equal. lra. Qed.
Lemma k_B_boltzmann : k_B = boltzmann. Proof. unfold k_B, boltzmann. lra. Qed.

(** * Gray and Gubbins *)
Section GG.
Variables (J : nat -> R -> R -> option R) (K : nat * nat -> R -> R -> option R) (g : gray) (T rhoN rs : R) (x mp : list R) (S E : nat -> nat -> R).
Variables (Jv : nat -> nat -> nat -> R) (V : nat * nat -> nat -> nat -> R).
Let N := length x.
Hypothesis HT : 0 < T.
Hypothesis HS : forall i j, (i < N)%nat -> (j < N)%nat -> y_S g i j = Some (S i j) /\ 0 < S i j.
Hypothesis HE : forall i j, (i < N)%nat -> (j < N)%nat -> y_E g i j = Some (E i j) /\ 0 < E i j.
Hypothesis HJ : J_at J N (fun i j => T / E i j) rs Jv.
Hypothesis HK : K_at K N (fun i j => T / E i j) rs V.
Let Q i := nth i (y_Q g) 0.
Let m i := nth i mp 0.
Definition gg_iso i := match y_polar g with Some (s, a) => 1 / 3 * (nth i s 0 + 2 * nth i a 0) | None => 0 end.
Definition gg_gamma i := match y_polar g with Some (s, a) => nth i s 0 - nth i a 0 | None => 0 end.
Definition gg_s : R := sqrt (k_e / (k_B * T)).
Definition gg_a (i : nat) : R := k_e / (k_B * T) * nth i mp 0 ^ 2.
Definition gg_q (i : nat) : R := gg_s * nth i (y_Q g) 0.
Definition gg_al (i : nat) : R := k_e * gg_iso i.
Definition gg_ga (i : nat) : R := k_e * gg_gamma i.
Lemma kT : 0 < k_B * T. Proof. apply Rmult_lt_0_compat; [exact k_B_pos|exact HT]. Qed.
Lemma keb : 0 < k_e / (k_B * T). Proof. apply Rdiv_lt_0_compat; [exact k_e_pos|exact kT]. Qed.
Lemma s_pos : 0 < gg_s. Proof. apply sqrt_lt_R0, keb. Qed.
Lemma s_sq : gg_s * gg_s = k_e / (k_B * T). Proof. apply sqrt_sqrt, Rlt_le, keb. Qed.
Lemma beta_s : 1 / (k_B * T) = gg_s * gg_s / k_e. Proof. rewrite s_sq. pose proof kT. pose proof k_e_pos. pose proof k_B_pos. pose proof HT. field. repeat split; lra. Qed.
Lemma a_s : forall i, gg_a i = gg_s * gg_s * m i ^ 2. Proof. intro i. unfold gg_a. now rewrite <- s_sq. Qed.
Lemma In_val : forall n i j, In n pair_orders -> (i < N)%nat -> (j < N)%nat -> get_In J g T rs n i j = Some (4 * PI / S i j ^ (n - 3) * Jv n i j).
Proof.
  intros n i j Hn Hi Hj. destruct (HS i j Hi Hj) as [E1 P1], (HE i j Hi Hj) as [E2 P2]. unfold get_In. rewrite E1, E2. cbn [opt_bind]. rewrite cdiv_nz by lra. cbn [opt_bind]. rewrite cdiv_nz by (apply pow_nonzero; lra). cbn [opt_bind]. rewrite (HJ n i j Hn Hi Hj). reflexivity.
Qed.
Lemma ggK_val : forall kf c den kv i j k, (i < N)%nat -> (j < N)%nat -> (k < N)%nat -> kf (T / E i j) (T / E i k) (T / E j k) = Some kv -> den (S i j) (S i k) (S j k) <> 0 ->
  gg_K g T kf c den i j k = Some (c / den (S i j) (S i k) (S j k) * kv).
Proof.
  intros kf c den kv i j k Hi Hj Hk Hf Hd. destruct (HS i j Hi Hj) as [E1 P1], (HE i j Hi Hj) as [E2 P2], (HS i k Hi Hk) as [E3 P3], (HE i k Hi Hk) as [E4 P4], (HS j k Hj Hk) as [E5 P5], (HE j k Hj Hk) as [E6 P6].
  unfold gg_K. rewrite E2, E4, E6. cbn [opt_bind]. rewrite !cdiv_nz by lra. cbn [opt_bind]. rewrite E1, E3, E5. cbn [opt_bind]. rewrite cdiv_nz by exact Hd. cbn [opt_bind]. rewrite Hf. reflexivity.
Qed.
Lemma Immm_val : forall i j k, (i < N)%nat -> (j < N)%nat -> (k < N)%nat -> Immm K g T rs i j k = Some (64 * POW3 PI / 5 * sqrt (14 * PI / 5) / (S i j * S i k * S j k) * triplet V (222, 333)%nat i j k).
Proof. intros i j k Hi Hj Hk. unfold Immm. rewrite (ggK_val _ _ _ (triplet V (222, 333)%nat i j k)) by (assumption || (apply (kijk_val K N _ rs V HK); cbn; tauto || assumption) || (apply Rgt_not_eq; apply dens; now apply HS)). reflexivity. Qed.
Lemma ImmQ_val : forall i j k, (i < N)%nat -> (j < N)%nat -> (k < N)%nat -> ImmQ K g T rs i j k = Some (2048 * POW3 PI / 7 * sqrt (3 * PI) / (S i j * POW2 (S i k * S j k)) * triplet V (233, 344)%nat i j k).
Proof. intros i j k Hi Hj Hk. unfold ImmQ. rewrite (ggK_val _ _ _ (triplet V (233, 344)%nat i j k)) by (assumption || (apply (kijk_val K N _ rs V HK); cbn; tauto || assumption) || (apply Rgt_not_eq; apply dens; now apply HS)). reflexivity. Qed.
Lemma ImQQ_val : forall i j k, (i < N)%nat -> (j < N)%nat -> (k < N)%nat -> ImQQ K g T rs i j k = Some (- 4096 * POW3 PI / 9 * sqrt (22 * PI / 7) / (POW2 (S i j * S i k) * POW3 (S j k)) * triplet V (334, 445)%nat i j k).
Proof. intros i j k Hi Hj Hk. unfold ImQQ. rewrite (ggK_val _ _ _ (triplet V (334, 445)%nat i j k)) by (assumption || (apply (kneg_val K N _ rs V HK); assumption) || (apply Rgt_not_eq; apply dens; now apply HS)). reflexivity. Qed.
Lemma IQQQ_val : forall i j k, (i < N)%nat -> (j < N)%nat -> (k < N)%nat -> IQQQ K g T rs i j k = Some (8192 * POW3 PI / 81 * sqrt (2002 * PI) / POW3 (S i j * S i k * S j k) * triplet V (444, 555)%nat i j k).
Proof. intros i j k Hi Hj Hk. unfold IQQQ. rewrite (ggK_val _ _ _ (triplet V (444, 555)%nat i j k)) by (assumption || (apply (kijk_val K N _ rs V HK); cbn; tauto || assumption) || (apply Rgt_not_eq; apply dens; now apply HS)). reflexivity. Qed.
Lemma beta_val : cdiv 1 (k_B * T) = Some (gg_s * gg_s / k_e). Proof. pose proof kT. rewrite cdiv_nz by lra. now rewrite beta_s. Qed.
Lemma gg_alpha2_val : gg_alpha2 J g T rhoN rs x mp = Some (order2 N (fun i => nth i x 0) gg_a gg_q gg_al S Jv rhoN).
Proof.
  unfold gg_alpha2. rewrite beta_val. cbn [opt_bind]. fold N. set (b := gg_s * gg_s / k_e).
  rewrite (osum2 N _ (fun i j => nth i x 0 * nth j x 0 * (/ (k_e * k_e) * (4 * PI * (3 / 2 * (zz gg_a gg_al i * zz gg_a gg_al j - gg_al i * gg_al j) * Jv 6%nat i j / S i j ^ 3 + 3 / 2 * zz gg_a gg_al i * gg_q j ^ 2 * Jv 8%nat i j / S i j ^ 5 + 7 / 10 * gg_q i ^ 2 * gg_q j ^ 2 * Jv 10%nat i j / S i j ^ 7))))).
  - cbn [opt_bind]. f_equal. unfold order2. pose proof (sum2_scal N (fun i => nth i x 0) (fun i j => 4 * PI * (3 / 2 * (zz gg_a gg_al i * zz gg_a gg_al j - gg_al i * gg_al j) * Jv 6%nat i j / S i j ^ 3 + 3 / 2 * zz gg_a gg_al i * gg_q j ^ 2 * Jv 8%nat i j / S i j ^ 5 + 7 / 10 * gg_q i ^ 2 * gg_q j ^ 2 * Jv 10%nat i j / S i j ^ 7)) (/ (k_e * k_e))) as Z. unfold sum2 in Z at 1. cbn beta in Z. rewrite Z. pose proof k_e_pos. field. lra.
  - intros i j Hi Hj. rewrite !In_val by (cbn; tauto || assumption). cbn [opt_bind]. f_equal. unfold zz, gg_q, gg_al. rewrite !a_s. fold (gg_iso i). fold (gg_iso j). unfold POW2, b, m. destruct (HS i j Hi Hj) as [_ PS]. pose proof k_e_pos. cbn [Nat.sub]. field. split; lra.
Qed.
Lemma gg_alpha3_val : gg_alpha3 J K g T rhoN rs x mp = Some (order3 N (fun i => nth i x 0) gg_a gg_q gg_al gg_ga S Jv (triplet V) rhoN (y_C3 g) (y_C3b g)).
Proof.
  unfold gg_alpha3. rewrite beta_val. cbn [opt_bind]. fold N. set (b := gg_s * gg_s / k_e). unfold order3.
  match goal with |- _ = Some (_ * (_ * sum2 _ _ ?f + _ * sum3 _ _ ?h)) => set (F := f); set (H := h) end.
  rewrite (osum2 N _ (fun i j => nth i x 0 * nth j x 0 * (/ (k_e * k_e * k_e) * F i j))).
  - cbn [opt_bind]. rewrite (osum3 N _ (fun i j k => nth i x 0 * nth j x 0 * nth k x 0 * (/ (k_e * k_e * k_e) * H i j k))).
    + cbn [opt_bind]. f_equal. pose proof (sum2_scal N (fun i => nth i x 0) F (/ (k_e * k_e * k_e))) as Z2. pose proof (sum3_scal N (fun i => nth i x 0) H (/ (k_e * k_e * k_e))) as Z3. unfold sum2 in Z2 at 1. unfold sum3 in Z3 at 1. cbn beta in Z2, Z3. rewrite Z2, Z3. pose proof k_e_pos. field. lra.
    + intros i j k Hi Hj Hk. rewrite Immm_val, ImmQ_val, ImQQ_val, IQQQ_val by assumption. cbn [opt_bind]. f_equal. unfold H, zz, gg_q, gg_al. rewrite !a_s. fold (gg_iso i). fold (gg_iso j). fold (gg_iso k). unfold POW3, POW2, b, m. destruct (HS i j Hi Hj) as [_ P1], (HS i k Hi Hk) as [_ P2], (HS j k Hj Hk) as [_ P3]. pose proof k_e_pos.
      generalize (sqrt (14 * PI / 5)) (sqrt (3 * PI)) (sqrt (22 * PI / 7)) (sqrt (2002 * PI)). intros r1 r2 r3 r4. field. repeat split; lra.
  - intros i j Hi Hj. rewrite !In_val by (cbn; tauto || assumption). cbn [opt_bind]. f_equal. unfold F, gg_q, gg_ga. rewrite !a_s. fold (gg_gamma i). fold (gg_gamma j). unfold POW3, POW2, b, m. destruct (HS i j Hi Hj) as [_ PS]. pose proof k_e_pos. cbn [Nat.sub]. field. split; lra.
Qed.

(** gradients with respect to the effective dipoles *)
Let beta := 1 / (k_B * T).
Definition gg_I (Jv : nat -> nat -> nat -> R) (S : nat -> nat -> R) (n i j : nat) : R := 4 * PI / S i j ^ (n - 3) * Jv n i j.
Definition gg_z1 (i : nat) : R := 1 / 3 * (POW2 (nth i mp 0) * (1 / (k_B * T))) + gg_iso i.
Lemma beta_val' : cdiv 1 (k_B * T) = Some beta. Proof. pose proof kT. now rewrite cdiv_nz by lra. Qed.
Lemma grad2_val : forall i, (i < N)%nat -> gg_grad2 J g T rhoN rs x mp i =
  Some (- k_e * k_e * (nth i mp 0 * sumn N (fun j => rhoN * nth j x 0 * (2 * gg_z1 i * gg_I Jv S 6 i j + beta * nth j (y_Q g) 0 ^ 2 * gg_I Jv S 8 i j))) * nth i x 0 * beta).
Proof.
  intros i Hi. unfold gg_grad2. rewrite beta_val'. cbn [opt_bind]. fold N. rewrite (osum_val N _ (fun j => rhoN * nth j x 0 * (2 * gg_z1 i * gg_I Jv S 6 i j + beta * nth j (y_Q g) 0 ^ 2 * gg_I Jv S 8 i j))); [reflexivity|].
  intros j Hj. rewrite !In_val by (cbn; tauto || assumption). reflexivity.
Qed.
Lemma grad3_val : forall i, (i < N)%nat -> gg_grad3 J K g T rhoN rs x mp i =
  Some (- y_C3 g * (- nth i mp 0 * (
     sumn (Datatypes.S i) (fun i => sumn N (fun j => rhoN * nth j x 0 * (8 / 5 * (beta * POW2 (nth j mp 0) + gg_gamma j) * beta * Q i * Q j * gg_I Jv S 11 i j + 24 / 35 * beta * beta * Q i * Q j ^ 3 * gg_I Jv S 13 i j)))
   + sumn (Datatypes.S i) (fun i => sumn N (fun j => sumn N (fun k => POW2 rhoN * nth j x 0 * nth k x 0 *
       (gg_z1 j * gg_z1 k * (64 * POW3 PI / 5 * sqrt (14 * PI / 5) / (S i j * S i k * S j k) * triplet V (222, 333)%nat i j k)
        + y_C3b g * 1 / 40 * gg_z1 j * beta * Q k ^ 2 * (2048 * POW3 PI / 7 * sqrt (3 * PI) / (S i j * POW2 (S i k * S j k)) * triplet V (233, 344)%nat i j k)
        + 1 / 320 * POW2 beta * Q j ^ 2 * Q k ^ 2 * (- 4096 * POW3 PI / 9 * sqrt (22 * PI / 7) / (POW2 (S i j * S i k) * POW3 (S j k)) * triplet V (334, 445)%nat i j k))))))) * k_e * k_e * k_e * nth i x 0 * beta).
Proof.
  intros i0 Hi0. unfold gg_grad3. rewrite beta_val'. cbn [opt_bind]. fold N.
  match goal with |- _ = Some (- _ * (- _ * (sumn _ ?f + sumn _ ?h)) * _ * _ * _ * _ * _) => set (F := f); set (H := h) end.
  rewrite (osum_val (Datatypes.S i0) _ F).
  - cbn [opt_bind]. rewrite (osum_val (Datatypes.S i0) _ H); [reflexivity|].
    intros i Hi. unfold H. apply osum_val. intros j Hj. apply osum_val. intros k Hk. rewrite Immm_val, ImmQ_val, ImQQ_val by (assumption || lia). reflexivity.
  - intros i Hi. unfold F. apply osum_val. intros j Hj. rewrite !In_val by (cbn; tauto || assumption || lia). reflexivity.
Qed.
End GG.
