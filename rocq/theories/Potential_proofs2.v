(** Lemmas about the equations of state in simulation units, continued. *)
From Coq Require Import Reals ZArith String List Bool Lia Lra.
From Coquelicot Require Import Coquelicot.
From Verif Require Import Json_model Vec_spec Vec_proofs Cubic_model Terms_model Ideal_model Ideal_proofs Util_model Assoc_model Potential_model Potential_spec Potential_proofs
  Derivs_proofs2 Properties_Ideal.
Import ListNotations.
Open Scope R_scope.

Definition lsum {A} (g : A -> R) (l : list A) : R := fold_right (fun a s => g a + s) 0 l.
Lemma osum_list_val : forall A (f : A -> option R) g l, (forall a, In a l -> f a = Some (g a)) -> osum_list f l = Some (lsum g l).
Proof.
  intros A f g l H. induction l as [|a l IH]; [reflexivity|]. cbn [osum_list lsum fold_right]. rewrite (H a) by now left. cbn [opt_bind].
  rewrite IH by (intros; apply H; now right). reflexivity.
Qed.
Lemma osum_list_some : forall A (f : A -> option R) l v, osum_list f l = Some v -> forall a, In a l -> exists w, f a = Some w.
Proof.
  intros A f l. induction l as [|a l IH]; intros v H b [].
  - subst. cbn in H. destruct (f b) as [w|]; [now exists w|discriminate].
  - cbn in H. destruct (f a) as [w|]; [|discriminate]. cbn in H. destruct (osum_list f l) as [s|]; [|discriminate]. now apply (IH s).
Qed.
Lemma lsum_zero : forall A (g : A -> R) l, (forall a, In a l -> g a = 0) -> lsum g l = 0.
Proof. intros A g l H. induction l as [|a l IH]; [reflexivity|]. cbn [lsum fold_right]. fold (lsum g l). rewrite (H a), IH; [ring| |now left]. intros b Hb. apply H. now right. Qed.
(** * exp-6 *)
Definition e6 (a T rho : R) (c : nat * R * R * R) : R := let '(p, q, r, A) := c in A * rho ^ p * Rpower T (- q) * Rpower a r.
Lemma exp6_val : forall a T rho, 0 < T -> 0 < a -> osum_list (exp6_term a T rho) exp6_c = Some (lsum (e6 a T rho) exp6_c).
Proof.
  intros a T rho HT Ha. apply osum_list_val. intros [[[p q] r] A] _. unfold exp6_term, e6. now rewrite !cpow_pos.
Qed.
Lemma exp6_orders : List.Forall (fun c => (1 <= fst (fst (fst c)))%nat) exp6_c.
Proof. repeat constructor. Qed.
(** * Kolafa and Nezbeda *)
Lemma powers_val : forall T l, 0 < T -> osum_list (fun c => p <-- cpow T (fst c / 2); Some (snd c * p)) l = Some (lsum (fun c => snd c * Rpower T (fst c / 2)) l).
Proof. intros T l HT. apply osum_list_val. intros c _. now rewrite cpow_pos. Qed.
Lemma powers'_val : forall T l, 0 < T -> osum_list (fun c => p <-- cpow T (fst c / 2); Some (fst c / 2 * snd c * p)) l = Some (lsum (fun c => fst c / 2 * snd c * Rpower T (fst c / 2)) l).
Proof. intros T l HT. apply osum_list_val. intros c _. now rewrite cpow_pos. Qed.
Lemma is_derive_inv_power : forall k T, 0 < T -> is_derive (fun b => Rpower (1 / b) k) (1 / T) (- T * (k * Rpower T k)).
Proof.
  intros k T HT. unfold Rpower. pose proof (Rdiv_lt_0_compat 1 T Rlt_0_1 HT) as P. pose proof (Rinv_0_lt_compat _ P) as P'.
  auto_derive; [split; [lra|split; [lra|exact I]]|]. unfold Rdiv in *. rewrite !Rmult_1_l in *. rewrite !Rinv_inv. field. lra.
Qed.
Lemma is_derive_powers : forall l T, 0 < T ->
  is_derive (fun b => lsum (fun c : R * R => snd c * Rpower (1 / b) (fst c / 2)) l) (1 / T) (- T * lsum (fun c => fst c / 2 * snd c * Rpower T (fst c / 2)) l).
Proof.
  intros l T HT. induction l as [|c l IH]; cbn [lsum fold_right].
  - rewrite Rmult_0_r. apply is_derive_Reals, derivable_pt_lim_const.
  - rewrite Rmult_plus_distr_l. apply (is_derive_plus (fun b => snd c * Rpower (1 / b) (fst c / 2)) (fun b => lsum (fun c => snd c * Rpower (1 / b) (fst c / 2)) l)); [|exact IH].
    replace (- T * (fst c / 2 * snd c * Rpower T (fst c / 2))) with (snd c * (- T * (fst c / 2 * Rpower T (fst c / 2)))) by ring.
    apply is_derive_scal. now apply is_derive_inv_power.
Qed.
Lemma is_derive_ln_inv : forall T, 0 < T -> is_derive (fun b => ln (1 / b)) (1 / T) (- T).
Proof.
  intros T HT. pose proof (Rdiv_lt_0_compat 1 T Rlt_0_1 HT) as P. pose proof (Rinv_0_lt_compat _ P) as P'.
  auto_derive; [split; [lra|split; [lra|exact I]]|]. unfold Rdiv in *. rewrite !Rmult_1_l in *. rewrite !Rinv_inv. field. lra.
Qed.
Lemma near_inverse : forall T, 0 < T -> exists r, 0 < r /\ forall b, Rabs (b - 1 / T) < r -> 0 < 1 / b.
Proof.
  intros T HT. pose proof (Rdiv_lt_0_compat 1 T Rlt_0_1 HT) as P. exists (1 / T). split; [exact P|]. intros b Hb. apply Rabs_def2 in Hb. apply Rdiv_lt_0_compat; lra.
Qed.
Lemma zhs_derive : forall c rho, c * rho < 1 ->
  is_derive (fun r => 5 / 3 * ln (1 - c * r) + c * r * (34 - 33 * (c * r) + 4 * (c * r) ^ 2) / (6 * (1 - c * r) ^ 2)) rho
    (c * (4 - 2 * (c * rho) + (c * rho) ^ 2 / 3 - 2 / 3 * (c * rho) ^ 3) / (1 - c * rho) ^ 3).
Proof.
  intros c rho H. assert (0 < 1 - c * rho) by lra. auto_derive; [repeat split; try lra; apply Rgt_not_eq; apply Rmult_lt_0_compat; [lra|]; nra|].
  field. lra.
Qed.
Lemma z_minus_one : forall z, z < 1 -> z_hard_spheres z - 1 = z * (4 - 2 * z + z ^ 2 / 3 - 2 / 3 * z ^ 3) / (1 - z) ^ 3.
Proof. intros z H. unfold z_hard_spheres. field. lra. Qed.
Lemma get_ahs_val : forall T rho d, get_dhBH T = Some d -> PI / 6 * rho * d ^ 3 < 1 ->
  get_ahs T rho = Some (T * (5 / 3 * ln (1 - PI / 6 * d ^ 3 * rho) + PI / 6 * d ^ 3 * rho * (34 - 33 * (PI / 6 * d ^ 3 * rho) + 4 * (PI / 6 * d ^ 3 * rho) ^ 2) / (6 * (1 - PI / 6 * d ^ 3 * rho) ^ 2))).
Proof.
  intros T rho d Hd H. unfold get_ahs. rewrite Hd. cbn [opt_bind]. replace (PI / 6 * rho * d ^ 3) with (PI / 6 * d ^ 3 * rho) in * by ring.
  rewrite clog_pos by lra. cbn [opt_bind]. rewrite cdiv_nz; [reflexivity|]. apply Rmult_integral_contrapositive_currified; [lra|]. apply pow_nonzero. lra.
Qed.
Definition knsum (T rho : R) : R := lsum (fun c : R * nat * R => let '(i, j, C) := c in C * Rpower T (i / 2) * rho ^ j) kn_Cij.
Lemma kn_C_val : forall T rho, 0 < T ->
  osum_list (fun c : R * nat * R => let '(i, j, C) := c in p <-- cpow T (i / 2); Some (C * p * rho ^ j)) kn_Cij = Some (knsum T rho).
Proof. intros T rho HT. apply osum_list_val. intros [[i j] C] _. now rewrite cpow_pos. Qed.
Lemma kn_orders : List.Forall (fun c => (2 <= snd (fst c))%nat) kn_Cij.
Proof. repeat (constructor; [cbn; lia|]). constructor. Qed.
Lemma is_derive_high : forall (T : R) (l : list (R * nat * R)), List.Forall (fun c => (2 <= snd (fst c))%nat) l ->
  is_derive (fun rho => lsum (fun c : R * nat * R => let '(i, j, C) := c in C * Rpower T (i / 2) * rho ^ j) l) 0 0.
Proof.
  intros T l H. induction H as [|[[i j] C] l Hj H IH]; cbn [lsum fold_right].
  - apply is_derive_Reals, derivable_pt_lim_const.
  - cbn in Hj. assert (D : is_derive (fun rho => C * Rpower T (i / 2) * rho ^ j) 0 0).
    { assert (Z : C * Rpower T (i / 2) * (INR j * 0 ^ pred j) = 0) by (rewrite pow_i by lia; ring). rewrite <- Z at 2. apply is_derive_scal, is_derive_Reals, derivable_pt_lim_pow. }
    evar_last; [apply (is_derive_plus _ _ _ _ _ D IH)|]. apply Rplus_0_r.
Qed.
(** * Johnson *)
Lemma G_derive : forall n (rho : R), is_derive (fun r => get_G n (exp (- johnson_gamma * r ^ 2)) r) rho (exp (- johnson_gamma * rho ^ 2) * rho ^ (2 * n + 1)).
Proof.
  assert (E : forall rho : R, is_derive (fun r => exp (- johnson_gamma * r ^ 2)) rho (- (2) * johnson_gamma * rho * exp (- johnson_gamma * rho ^ 2))) by (intro rho; auto_derive; [exact I|]; replace (rho * (rho * 1)) with (rho ^ 2) by ring; ring).
  induction n as [|n IH]; intro rho; cbn [get_G].
  - apply (is_derive_ext (fun r => / (2 * johnson_gamma) * (1 - exp (- johnson_gamma * r ^ 2)))); [intro r; asR; unfold Rdiv; ring|].
    evar_last.
    + apply is_derive_scal. apply (is_derive_minus (fun _ => 1) (fun r => exp (- johnson_gamma * r ^ 2))); [apply is_derive_Reals, derivable_pt_lim_const|apply E].
    + asR. change minus with Rminus. cbn [Nat.mul Nat.add]. unfold johnson_gamma. asR. unfold minus, plus, opp; cbn -[exp pow]. field.
  - set (m := S n) in *. set (G := fun r => get_G n (exp (- johnson_gamma * r ^ 2)) r) in *.
    assert (P : is_derive (fun r => exp (- johnson_gamma * r ^ 2) * r ^ (2 * m)) rho
      (- (2) * johnson_gamma * rho * exp (- johnson_gamma * rho ^ 2) * rho ^ (2 * m) + exp (- johnson_gamma * rho ^ 2) * (INR (2 * m) * rho ^ pred (2 * m)))).
    { apply (is_derive_mult (fun r => exp (- johnson_gamma * r ^ 2)) (fun r => r ^ (2 * m))); [apply E|apply is_derive_Reals, derivable_pt_lim_pow|apply Rmult_comm]. }
    assert (Q : is_derive (fun r => exp (- johnson_gamma * r ^ 2) * r ^ (2 * m) - 2 * INR m * G r) rho
      (- (2) * johnson_gamma * rho * exp (- johnson_gamma * rho ^ 2) * rho ^ (2 * m) + exp (- johnson_gamma * rho ^ 2) * (INR (2 * m) * rho ^ pred (2 * m))
        - 2 * INR m * (exp (- johnson_gamma * rho ^ 2) * rho ^ (2 * n + 1)))).
    { apply (is_derive_minus (fun r => exp (- johnson_gamma * r ^ 2) * r ^ (2 * m)) (fun r => 2 * INR m * G r)); [exact P|]. apply is_derive_scal. apply IH. }
    apply (is_derive_ext (fun r => - / (2 * johnson_gamma) * (exp (- johnson_gamma * r ^ 2) * r ^ (2 * m) - 2 * INR m * G r))).
    { intro r. unfold G. asR. unfold Rdiv. ring. }
    evar_last; [apply is_derive_scal, Q|].
    replace (pred (2 * m)) with (2 * n + 1)%nat by lia. rewrite mult_INR. replace (INR 2) with 2 by (cbn; ring). rewrite (pow_add rho (2 * m) 1). unfold johnson_gamma. asR. field.
Qed.
Lemma G_zero : forall n, get_G n 1 0 = 0.
Proof.
  induction n as [|n IH]; cbn [get_G]; [unfold johnson_gamma; field|]. rewrite IH, pow_i by lia. unfold johnson_gamma. field.
Qed.
(** * The network *)
Lemma tanh_bound : forall x, Rabs (tanh x) <= 1.
Proof.
  intro x. unfold tanh, sinh, cosh. pose proof (exp_pos x). pose proof (exp_pos (- x)).
  replace ((exp x - exp (- x)) / 2 / ((exp x + exp (- x)) / 2)) with ((exp x - exp (- x)) / (exp x + exp (- x))) by (field; lra).
  apply Rabs_le. split.
  - apply (Rmult_le_reg_r (exp x + exp (- x))); [lra|]. unfold Rdiv. rewrite Rmult_assoc, Rinv_l by lra. lra.
  - apply (Rmult_le_reg_r (exp x + exp (- x))); [lra|]. unfold Rdiv. rewrite Rmult_assoc, Rinv_l by lra. lra.
Qed.
Lemma layer_bound : forall x Wb i, Rabs (nth i (layer x Wb) 0) <= 1.
Proof.
  intros x Wb i. unfold layer. destruct (lt_dec i (length (snd Wb))) as [H|H].
  - rewrite (nth_indep _ 0 (tanh (sumn (length x) (fun i => nth i x 0 * fst Wb i 0%nat) + nth 0 (snd Wb) 0))) by (rewrite map_length, seq_length; exact H).
    rewrite (map_nth (fun j => tanh (sumn (length x) (fun i => nth i x 0 * fst Wb i j) + nth j (snd Wb) 0)) _ 0%nat). apply tanh_bound.
  - rewrite nth_overflow by (rewrite map_length, seq_length; lia). rewrite Rabs_R0. lra.
Qed.
Lemma fold_bound : forall ls x i, ls <> [] -> Rabs (nth i (fold_left layer ls x) 0) <= 1.
Proof.
  intros ls. induction ls as [|a ls IH]; intros x i H; [congruence|]. cbn [fold_left]. destruct ls as [|b ls]; [apply layer_bound|]. apply IH. discriminate.
Qed.
Lemma sumn_nth_le : forall (l : list R) n, sumn n (fun i => Rabs (nth i l 0)) <= sumn (length l) (fun i => Rabs (nth i l 0)).
Proof.
  intros l n. induction n as [|n IH]; cbn [sumn]; [apply sumn_pos; intros; apply Rabs_pos|]. destruct (lt_dec n (length l)) as [H|H].
  - clear IH. assert (K : forall m, (n < m)%nat -> sumn (S n) (fun i => Rabs (nth i l 0)) <= sumn m (fun i => Rabs (nth i l 0))).
    { intros m Hm. induction Hm as [|m Hm IH]; [lra|]. cbn [sumn] in *. pose proof (Rabs_pos (nth m l 0)). lra. }
    apply (K (length l) H).
  - rewrite (nth_overflow l) by lia. rewrite Rabs_R0. lra.
Qed.
Lemma evaluate_bound : forall n x, layers n <> [] -> Rabs (evaluate n x) <= sumn (length (last n)) (fun i => Rabs (nth i (last n) 0)).
Proof.
  intros n x H. unfold evaluate. set (y := fold_left layer (layers n) x). eapply Rle_trans; [apply sumn_abs|]. eapply Rle_trans; [|apply (sumn_nth_le (last n) (length y))].
  apply sumn_le. intros i _. rewrite Rabs_mult. pose proof (fold_bound (layers n) x i H) as B. fold y in B. pose proof (Rabs_pos (nth i (last n) 0)). pose proof (Rabs_pos (nth i y 0)). nra.
Qed.
