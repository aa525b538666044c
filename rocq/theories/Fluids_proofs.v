(** Proofs about the fluids with equations of other kinds. *)
From Coq Require Import Reals ZArith String List Bool Lia Lra Psatz.
From Coquelicot Require Import Coquelicot.
From Verif Require Import Json_model Vec_spec Vec_proofs Cubic_model Cubic_spec Terms_model Terms_spec Terms_proofs Multi_model Multi_spec Multi_proofs Multi_proofs2
  Properties_Terms Properties_Multi Assoc_model PCSAFT_model Fluids_model Fluids_spec.
Import ListNotations.
Local Open Scope R_scope.

Definition LJ_n := [0.005208073; 2.186252; - 2.161016; 1.4527; - 2.041792; 0.18695286; - 0.6208625; - 0.568839; - 0.80055922; 0.10901431; - 0.4974561; - 0.090988445].
Definition LJ_t := [1; 0.32; 0.505; 0.672; 0.843; 0.898; 1.205; 1.786; 2.77; 1.786; 2.59; 1.294].
Definition LJ_d := [4; 1; 1; 2; 2; 3; 1; 1; 3; 2; 2; 5].
Definition LJ_l := [0; 0; 0; 0; 0; 0; 1; 2; 2; 1; 2; 1].
Definition LJ_li : list Z := [0; 0; 0; 0; 0; 0; 1; 2; 2; 1; 2; 1]%Z.
Lemma zero_0 : is_zero 0 = true. Proof. unfold is_zero. destruct (Req_EM_T 0 0); [reflexivity|lra]. Qed.
Lemma zero_not : forall x, x <> 0 -> is_zero x = false. Proof. intros x H. unfold is_zero. destruct (Req_EM_T x 0); [contradiction|reflexivity]. Qed.
Lemma zero_1 : is_zero 1 = false. Proof. apply zero_not. lra. Qed.
Lemma zero_2 : is_zero 2 = false. Proof. apply zero_not. lra. Qed.
Lemma LJ_cast : cast_int LJ_l = Some LJ_li.
Proof. unfold LJ_l. cbn [cast_int]. rewrite int_0, int_1, int_2. reflexivity. Qed.
Lemma LJ_zeros : count_zeros LJ_l = 6%nat.
Proof. unfold count_zeros, LJ_l. cbn [filter]. rewrite zero_0, zero_1, zero_2. reflexivity. Qed.
Lemma LJ_ints : all_integers LJ_l LJ_li = true.
Proof.
  unfold all_integers, LJ_l, LJ_li. cbn [combine forallb fst snd].
  assert (H : forall x, is_zero (x - x) = true) by (intros x; replace (x - x) with 0 by ring; apply zero_0).
  rewrite !H. reflexivity.
Qed.
Lemma power_built : exists ts, build_power_fluid LJ_power = Some (Val ts).
Proof.
  assert (En : eigorzero LJ_power 12 "n" = ok LJ_n) by reflexivity.
  assert (Et : eigorzero LJ_power 12 "t" = ok LJ_t) by reflexivity.
  assert (Ed : eigorzero LJ_power 12 "d" = ok LJ_d) by reflexivity.
  assert (El : toeig LJ_power "l" = ok LJ_l) by reflexivity.
  assert (EN : j_size (index LJ_power "n") = 12%nat) by reflexivity.
  assert (EE : j_empty (index LJ_power "l") = false) by reflexivity.
  unfold build_power_fluid. cbv zeta. rewrite EN, En, Et, Ed. cbn [obind ok]. rewrite EE, El. cbn [obind ok].
  change (Nat.ltb (length LJ_l) 12) with false. cbv iota. rewrite LJ_cast. cbn [ub obind ok]. rewrite LJ_ints. cbn [negb].
  change (firstn 12 LJ_l) with LJ_l. rewrite LJ_zeros. change (length LJ_l - 6)%nat with 6%nat.
  change (nth 0 LJ_l 0) with 0. rewrite zero_0. unfold split_power.
  assert (S : list_sum LJ_l = 9) by (unfold list_sum, LJ_l; cbn [fold_right]; ring). rewrite S.
  rewrite zero_not by lra. replace (positive 9) with true by (unfold positive; destruct (Rlt_dec 0 9); [reflexivity|lra]).
  cbn [andb]. unfold head, tail. cbn [ub obind ok]. eexists. reflexivity.
Qed.
Lemma nat_of : forall k : nat, (Z.of_nat k < 2 ^ 31)%Z -> natural (INR k).
Proof. intros k H. exists k. auto. Qed.
Ltac nats := idtac; match goal with
  | |- natural 1 => exact (nat_of 1 ltac:(reflexivity))
  | |- natural 2 => replace 2 with (INR 2) by (simpl; ring); exact (nat_of 2 ltac:(reflexivity))
  | |- natural 3 => replace 3 with (INR 3) by (simpl; ring); exact (nat_of 3 ltac:(reflexivity))
  | |- natural 4 => replace 4 with (INR 4) by (simpl; ring); exact (nat_of 4 ltac:(reflexivity))
  | |- natural 5 => replace 5 with (INR 5) by (simpl; ring); exact (nat_of 5 ltac:(reflexivity))
  end.
Ltac all_of tac := repeat (apply Forall_cons; [tac|]); apply Forall_nil.
Lemma power_value : forall ts tau delta, build_power_fluid LJ_power = Some (Val ts) -> 0 < tau -> 0 <= delta ->
  terms_alphar ts tau delta = Some (Val (file_power LJ_n LJ_t LJ_d LJ_l tau delta)).
Proof.
  intros ts tau delta E Ht Hd. apply C33_fluid_partial with (j := LJ_power); auto.
  - eexists. split; reflexivity.
  - eexists. split; reflexivity.
  - eexists. split; reflexivity.
  - eexists. split; reflexivity.
  - right. intros i k [Hi Hk] Z. unfold LJ_l in *.
    assert (K : (k < 6)%nat). { do 6 (destruct k as [|k]; [lia|]). do 6 (destruct k as [|k]; [cbn in Z; exfalso; lra|]). cbn in Hk. lia. }
    do 6 (destruct i as [|i]; [reflexivity|]). lia.
  - unfold LJ_d. all_of nats.
  - unfold LJ_l. all_of ltac:(idtac; lra).
Qed.
Definition LJ_gterm : term :=
  Gaussian [- 1.4667177; 1.891469; - 0.1383701; - 0.3869645; 0.1265702; 0.605781; 1.179189; - 0.47732679; - 9.9218575; - 0.5747932; 0.003772923]
    [2.83; 2.548; 4.65; 1.385; 1.46; 1.351; 0.66; 1.496; 1.83; 1.616; 4.97] [1; 1; 2; 3; 3; 2; 1; 2; 3; 1; 1]
    [2.067; 1.522; 8.82; 1.722; 0.679; 1.883; 3.925; 2.461; 28.2; 0.753; 0.82] [0.625; 0.638; 3.91; 0.156; 0.157; 0.153; 1.16; 1.73; 383; 0.112; 0.119]
    [0.71; 0.86; 1.94; 1.48; 1.49; 1.945; 3.02; 1.11; 1.17; 1.33; 0.24] [0.2053; 0.409; 0.6; 1.203; 1.829; 1.397; 1.39; 0.539; 0.934; 2.369; 2.43].
Lemma gaussian_built : build_gaussian LJ_gaussian = Some (Val LJ_gterm).
Proof. reflexivity. Qed.
Lemma gaussian_value : forall tau delta, 0 < tau -> 0 <= delta -> term_alphar LJ_gterm tau delta = Some (Val (textbook LJ_gterm tau delta)).
Proof.
  intros tau delta Ht Hd. apply C34_terms; auto. repeat split; try reflexivity. all_of nats.
Qed.

Lemma rpk : forall x (k : nat) r, 0 <= x -> INR k = r -> rpow x r = x ^ k. Proof. intros x k r H <-. apply rpow_nat. exact H. Qed.
Lemma Thol_value : forall T rho, 0 < T -> 0 <= rho ->
  file_power LJ_n LJ_t LJ_d LJ_l (1.32 / T) (rho / 0.31) + textbook LJ_gterm (1.32 / T) (rho / 0.31) = Thol T rho.
Proof.
  intros T rho HT Hr. unfold Thol. cbv zeta.
  assert (D : 0 <= rho / 0.31) by (apply Rmult_le_pos; lra).
  set (tau := 1.32 / T). set (delta := rho / 0.31) in *. clearbody tau delta.
  unfold file_power, textbook, LJ_gterm, power_sum, LJ_n, LJ_t, LJ_d, LJ_l, total, polynomial_rows, exponential_rows, gaussian_rows.
  cbn [length sumn nth map fold_right].
  rewrite (rpk delta 1 1), (rpk delta 2 2), (rpk delta 3 3), (rpk delta 4 4), (rpk delta 5 5) by (auto; simpl; ring).
  repeat (match goal with |- context [Rlt_dec 0 ?x] => destruct (Rlt_dec 0 x); [try (exfalso; lra)|try (exfalso; lra)] end).
  rewrite exp_0. ring.
Qed.
(** * One fluid *)
Lemma one_fluid_alphar : forall m b Tc vc e T rho, mf_red m = GERGreducing b [Tc] [vc] -> mf_eos m = [e] ->
  mf_alphar m T rho [1] = e (Tc / T) (rho / (1 / vc)).
Proof.
  intros m b Tc vc e T rho ER EE. unfold mf_alphar. rewrite EE. cbn [length Nat.eqb negb]. rewrite ER.
  destruct (C29_reducing b [Tc] [vc] 0 ltac:(simpl; lia) eq_refl) as [R1 R2].
  change (pure (length [Tc]) 0) with [1] in R1, R2. rewrite R1, R2. cbn [nth].
  unfold alphar_taudelta. rewrite EE. cbn [length Nat.eqb negb]. reflexivity.
Qed.
Lemma LJ_built : exists m ts b, build_LJ126_Thol = ok m /\ build_power_fluid LJ_power = Some (Val ts) /\
  mf_red m = GERGreducing b [1.32] [1 / 0.31] /\ mf_eos m = [terms_alphar (ts ++ [LJ_gterm])] /\ mf_R m = MoleFractionWeighted [1].
Proof.
  destruct power_built as [ts E].
  assert (E1 : get_EOS1 LJ_file = ok (ts ++ [LJ_gterm])).
  { unfold get_EOS1, LJ_file. cbn [cindex lookup String.eqb Ascii.eqb Bool.eqb obind ok cindex0].
    unfold ok. cbn [obind]. unfold get_EOS_terms. cbn [j_empty length Nat.eqb j_values].
    change (check_types [LJ_power; LJ_gaussian]) with (Val tt). cbn [obind build_fluid_terms].
    change (build_fluid_term LJ_power) with (build_power_fluid LJ_power). rewrite E. cbn [obind].
    change (build_fluid_term LJ_gaussian) with (one (build_gaussian LJ_gaussian)). unfold one. rewrite gaussian_built. reflexivity. }
  unfold build_LJ126_Thol, build_multifluid. change (omap get_Tcvc1 [LJ_file]) with (ok [(1.32, 1 / 0.31)]). cbn [obind ok].
  cbn [omap]. rewrite E1. unfold ok at 1 2 3. cbn [obind]. change (get_R1 LJ_file) with (ok 1). unfold ok at 1 2 3. cbn [obind].
  do 3 eexists. split; [reflexivity|]. split; [exact E|]. split; [reflexivity|]. split; reflexivity.
Qed.
Lemma LJ_alphar : exists m, build_LJ126_Thol = ok m /\ mf_R m = MoleFractionWeighted [1] /\ length (mf_eos m) = 1%nat /\
  forall T rho, 0 < T -> 0 <= rho -> mf_alphar m T rho [1] = ok (Thol T rho).
Proof.
  destruct LJ_built as (m & ts & b & B & E & ER & EE & EG). exists m. split; [exact B|]. split; [exact EG|]. split; [rewrite EE; reflexivity|].
  intros T rho HT Hr. rewrite (one_fluid_alphar m b 1.32 (1 / 0.31) _ T rho ER EE).
  replace (rho / (1 / (1 / 0.31))) with (rho / 0.31) by (unfold Rdiv; rewrite !Rmult_1_l, Rinv_inv; reflexivity).
  assert (P : 0 < 1.32 / T) by (apply Rdiv_lt_0_compat; lra).
  assert (D : 0 <= rho / 0.31) by (apply Rmult_le_pos; lra).
  rewrite <- Thol_value by auto. rewrite <- (Rplus_0_r (textbook _ _ _)).
  apply terms_app; [apply power_value; auto|]. cbn [terms_alphar]. rewrite gaussian_value by auto. reflexivity.
Qed.
(** * Virial coefficient *)
Lemma d_row : forall c d g g', (1 <= d)%nat -> is_derive g 0 g' ->
  is_derive (fun rho => c * (rho / 0.31) ^ d * g (rho / 0.31)) 0 (linear d (c * g 0) / 0.31).
Proof.
  intros c d g g' Hd Hg.
  assert (H : is_derive (fun x => c * x ^ d * g x) 0 (linear d (c * g 0))).
  { assert (P : is_derive (fun x => c * x ^ d) 0 (linear d c)).
    { destruct d as [|[|d]]; [lia| |]; cbn [linear].
      - auto_derive; [exact I|]. cbn. ring.
      - auto_derive; [exact I|]. simpl. ring. }
    assert (Q := is_derive_mult _ _ 0 _ _ P Hg ltac:(intros; apply Rmult_comm)). cbv beta in Q.
    match type of Q with is_derive _ _ ?l => replace (linear d (c * g 0)) with l end; [exact Q|].
    unfold plus, mult; simpl. rewrite pow_i by lia. destruct d as [|[|d]]; [lia| |]; cbn [linear]; ring. }
  assert (L : is_derive (fun rho => rho / 0.31) 0 (/ 0.31)) by (unfold Rdiv; generalize (/ 0.31); intros k; auto_derive; [exact Logic.I|ring]).
  replace 0 with (0 / 0.31) in H at 1 by (unfold Rdiv; ring).
  assert (C := is_derive_comp (fun x => c * x ^ d * g x) (fun rho => rho / 0.31) 0 _ _ H L).
  replace (linear d (c * g 0) / 0.31) with (scal (/ 0.31) (linear d (c * g 0))); [exact C|].
  unfold scal; simpl; unfold mult; simpl. unfold Rdiv. ring.
Qed.
Lemma d_total : forall A (f : A -> R -> R) (g : A -> R) l, (forall a, In a l -> is_derive (f a) 0 (g a / 0.31)) ->
  is_derive (fun rho => total (fun a => f a rho) l) 0 (total g l / 0.31).
Proof.
  intros A f g l. unfold total. induction l as [|a l IH]; intros H; cbn [map fold_right].
  - replace (0 / 0.31) with 0 by (unfold Rdiv; ring). exact (is_derive_const (0 : R) (0 : R)).
  - replace ((g a + fold_right Rplus 0 (map g l)) / 0.31) with (plus (g a / 0.31) (fold_right Rplus 0 (map g l) / 0.31)) by (unfold plus; simpl; unfold Rdiv; ring).
    apply (is_derive_plus (f a) (fun rho => fold_right Rplus 0 (map (fun b => f b rho) l))).
    + apply H. left. reflexivity.
    + apply IH. intros b Ib. apply H. right. exact Ib.
Qed.
Lemma Thol_virial : forall T, is_derive (fun rho => Thol T rho) 0 (Thol_B T).
Proof.
  intros T. unfold Thol, Thol_B. cbv zeta. set (tau := 1.32 / T).
  rewrite !Rdiv_plus_distr.
  apply (is_derive_plus (fun rho => total (fun '(n, t, d) => n * Rpower tau t * (rho / 0.31) ^ d) polynomial_rows +
    total (fun '(n, t, d, l) => n * Rpower tau t * (rho / 0.31) ^ d * exp (- (rho / 0.31) ^ l)) exponential_rows)).
  apply (is_derive_plus (fun rho => total (fun '(n, t, d) => n * Rpower tau t * (rho / 0.31) ^ d) polynomial_rows)).
  - apply (d_total _ (fun a rho => (fun '(n, t, d) => n * Rpower tau t * (rho / 0.31) ^ d) a)).
    assert (Q : forall c d, (1 <= d)%nat -> is_derive (fun rho => c * (rho / 0.31) ^ d) 0 (linear d c / 0.31)).
    { intros c d Hd. apply is_derive_ext with (f := fun rho => c * (rho / 0.31) ^ d * (fun _ => 1) (rho / 0.31)); [intros; cbv beta; change (@eq R (c * (t / 0.31) ^ d * 1) (c * (t / 0.31) ^ d)); ring|].
      replace (linear d c) with (linear d (c * (fun _ : R => 1) 0)) by (cbv beta; f_equal; ring). apply (d_row c d (fun _ => 1) 0); auto. exact (is_derive_const (1 : R) (0 : R)). }
    intros [[n t] d] I. apply Q. unfold polynomial_rows in I. cbn [In] in I.
    repeat (destruct I as [I|I]; [injection I as <- <- <-; lia|]). destruct I.
  - apply (d_total _ (fun a rho => (fun '(n, t, d, l) => n * Rpower tau t * (rho / 0.31) ^ d * exp (- (rho / 0.31) ^ l)) a)).
    intros [[[n t] d] l] I.
    assert (J : (1 <= d)%nat /\ (1 <= l)%nat).
    { unfold exponential_rows in I. cbn [In] in I. repeat (destruct I as [I|I]; [injection I as <- <- <- <-; lia|]). destruct I. }
    destruct J as [J1 J2].
    replace (linear d (n * Rpower tau t)) with (linear d (n * Rpower tau t * (fun x => exp (- x ^ l)) 0))
      by (cbv beta; rewrite pow_i by lia; rewrite Ropp_0, exp_0; f_equal; ring).
    apply (d_row (n * Rpower tau t) d (fun x => exp (- x ^ l)) (- (INR l * 0 ^ (pred l)) * exp (- 0 ^ l))); auto.
    auto_derive; [exact Logic.I|]. ring.
  - apply (d_total _ (fun a rho => (fun '(n, t, d, eta, beta, gamma, epsilon) =>
      n * Rpower tau t * (rho / 0.31) ^ d * exp (- eta * (rho / 0.31 - epsilon) ^ 2 - beta * (tau - gamma) ^ 2)) a)).
    intros [[[[[[n t] d] eta] beta] gamma] epsilon] I.
    assert (J1 : (1 <= d)%nat).
    { unfold gaussian_rows in I. cbn [In] in I. repeat (destruct I as [I|I]; [injection I as <- <- <- <- <- <- <-; lia|]). destruct I. }
    replace (- eta * epsilon ^ 2 - beta * (tau - gamma) ^ 2) with (- eta * (0 - epsilon) ^ 2 - beta * (tau - gamma) ^ 2) by ring.
    eapply (d_row (n * Rpower tau t) d (fun x => exp (- eta * (x - epsilon) ^ 2 - beta * (tau - gamma) ^ 2))); auto.
    auto_derive; [exact Logic.I|]. reflexivity.
Qed.
Lemma B_critical : Thol_B 1.32 < 0.
Proof.
  assert (E1 : forall x, exp (- x) * (1 + x) <= 1).
  { intros x. assert (E : exp (- x) * exp x = 1) by (rewrite <- exp_plus, <- exp_0; f_equal; ring).
    rewrite <- E at 2. apply Rmult_le_compat_l; [left; apply exp_pos|]. apply exp_ineq1_le. }
  unfold Thol_B. cbv zeta. replace (1.32 / 1.32) with 1 by (symmetry; apply Rinv_r; lra).
  assert (P1 : forall t, Rpower 1 t = 1) by (intros t; unfold Rpower; rewrite ln_1, Rmult_0_r; apply exp_0).
  unfold total, polynomial_rows, exponential_rows, gaussian_rows. cbn [map fold_right linear]. rewrite !P1.
  apply Ropp_lt_cancel. rewrite Ropp_0.
  match goal with |- 0 < - (?a / 0.31) => assert (a < 0); [|replace (- (a / 0.31)) with (- a / 0.31) by (unfold Rdiv; ring); apply Rdiv_lt_0_compat; lra] end.
  repeat match goal with |- context [exp (- ?a * ?e ^ 2 - ?b * ?g ^ 2)] =>
    replace (- a * e ^ 2 - b * g ^ 2) with (- (a * e ^ 2 + b * g ^ 2)) by ring;
    let x := fresh "x" in set (x := exp (- (a * e ^ 2 + b * g ^ 2)));
    assert (x * (1 + (a * e ^ 2 + b * g ^ 2)) <= 1) by apply E1; assert (0 < x) by apply exp_pos;
    assert (1 + - (a * e ^ 2 + b * g ^ 2) <= x) by apply exp_ineq1_le; clearbody x end.
  lra.
Qed.
