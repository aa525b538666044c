(** Proofs for C19 (critical point), C20 (pure VLE), C21 (Clapeyron), C47 (tracing). *)
From Coq Require Import Reals ZArith List Bool Lia Lra.
From Coquelicot Require Import Coquelicot.
From Verif Require Import Json_model Derivs_model Derivs_spec Derivs_proofs Derivs_proofs2
  Smooth_spec Smooth_proofs Pure_model Pure_spec.
Import ListNotations.
Open Scope R_scope.

Lemma is_derive_loc : forall (f g : R -> R) (x l : R) , locally x (fun t => g t = f t) -> is_derive f x l -> is_derive g x l.
Proof.
  intros f g x l H D. apply (is_derive_ext_loc f); auto.
  eapply filter_imp; [|exact H]. intros t E; symmetry; exact E.
Qed.

Section Pure.
Variable m : amodel.
Variable alphar : R -> R -> list R -> R.
Variable z : list R.
Variable dom : R -> R -> Prop.
Hypothesis OD : open_dom dom.
Variable D : nat -> nat -> R -> R -> R.
Let Rg := get_R m z.
Let al T r := alphar T r z.

Section Crit.
Hypothesis AC : accessors_of m alphar z dom 4.
Hypothesis SF : smooth_family alphar z dom 1 4 D.

Lemma acc : forall i j T rho, (i <= 1)%nat -> (j <= 4)%nat -> dom (1 / T) rho ->
  get_A m i j T rho z = (1 / T) ^ i * rho ^ j * D i j (1 / T) rho.
Proof. intros. rewrite AC by auto. now apply (fam_Lambda alphar z dom OD 1 4 D SF). Qed.

Lemma Dr : forall i j u r, (i <= 1)%nat -> (j < 4)%nat -> dom u r ->
  is_derive (fun r => D i j u r) r (D i (S j) u r).
Proof. intros. now apply (sf_r _ _ _ _ _ _ SF). Qed.
Lemma DT : forall j T r, (j <= 4)%nat -> dom (1 / T) r ->
  is_derive (fun t => D 0%nat j (1 / t) r) T (- (1 / T) * (1 / T) * D 1%nat j (1 / T) r).
Proof. intros. apply (fam_T alphar z dom OD 1 4 D SF); auto. Qed.

Lemma p_form : forall T rho, dom (1 / T) rho ->
  pressure Rg al T rho = rho * Rg * T * (1 + rho * D 0%nat 1%nat (1 / T) rho).
Proof. intros. apply (pressure_eq alphar z dom OD 1 4 D SF); auto. Qed.

(** first density derivative *)
Definition P1 T rho := Rg * T * (1 + 2 * (rho * D 0%nat 1%nat (1 / T) rho) + rho ^ 2 * D 0%nat 2%nat (1 / T) rho).
Definition P2 T rho := Rg * T * (2 * D 0%nat 1%nat (1 / T) rho + 4 * (rho * D 0%nat 2%nat (1 / T) rho) + rho ^ 2 * D 0%nat 3%nat (1 / T) rho).

Lemma is_p1 : forall T rho, dom (1 / T) rho -> is_derive (fun r => pressure Rg al T r) rho (P1 T rho).
Proof.
  intros T rho Hd. apply (is_derive_loc (fun r => (Rg * T) * (r * (1 + r * D 0%nat 1%nat (1 / T) r)))).
  - eapply filter_imp; [|apply (od_r _ OD _ _ Hd)]. intros r Hr. rewrite p_form by auto. ring.
  - eapply is_derive_eq; [|apply is_derive_lin, is_derive_mult'; [apply is_derive_id'|
      apply is_derive_plus'; [apply is_derive_cst | apply is_derive_mult'; [apply is_derive_id' | apply Dr; auto; lia]]]].
    unfold P1. cbv beta. ring.
Qed.
Lemma is_p2 : forall T rho, dom (1 / T) rho -> is_derive (fun r => P1 T r) rho (P2 T rho).
Proof.
  intros T rho Hd. unfold P1.
  eapply is_derive_eq; [|apply is_derive_lin, is_derive_plus'; [apply is_derive_plus'; [apply is_derive_cst|
      apply is_derive_lin, is_derive_mult'; [apply is_derive_id'|apply Dr; auto; lia]] |
      apply is_derive_mult'; [apply (is_derive_pow (fun r => r) 2 rho 1), is_derive_id' | apply Dr; auto; lia]]].
  unfold P2. cbv beta. simpl. ring.
Qed.
Lemma is_p3 : forall T rho, dom (1 / T) rho -> is_derive (fun r => P2 T r) rho
  (Rg * T * (6 * D 0%nat 2%nat (1 / T) rho + 6 * (rho * D 0%nat 3%nat (1 / T) rho) + rho ^ 2 * D 0%nat 4%nat (1 / T) rho)).
Proof.
  intros T rho Hd. unfold P2.
  eapply is_derive_eq; [|apply is_derive_lin, is_derive_plus'; [apply is_derive_plus'; [
      apply is_derive_lin, Dr; auto; lia |
      apply is_derive_lin, is_derive_mult'; [apply is_derive_id'|apply Dr; auto; lia]] |
      apply is_derive_mult'; [apply (is_derive_pow (fun r => r) 2 rho 1), is_derive_id' | apply Dr; auto; lia]]].
  cbv beta. simpl. ring.
Qed.
Lemma is_p1T : forall T rho, dom (1 / T) rho -> is_derive (fun t => P1 t rho) T
  (Rg * (1 + 2 * (rho * D 0%nat 1%nat (1 / T) rho) + rho ^ 2 * D 0%nat 2%nat (1 / T) rho)
   - Rg * (1 / T) * (2 * (rho * D 1%nat 1%nat (1 / T) rho) + rho ^ 2 * D 1%nat 2%nat (1 / T) rho)).
Proof.
  intros T rho Hd. unfold P1. pose proof (dom_T dom OD T rho Hd) as HT.
  eapply is_derive_eq; [|apply is_derive_mult'; [apply is_derive_lin, is_derive_id' |
     apply is_derive_plus'; [apply is_derive_plus'; [apply is_derive_cst|
        apply is_derive_lin, is_derive_lin, DT; auto; lia] | apply is_derive_lin, DT; auto; lia]]].
  cbv beta. field. lra.
Qed.
Lemma is_p2T : forall T rho, dom (1 / T) rho -> is_derive (fun t => P2 t rho) T
  (Rg * (2 * D 0%nat 1%nat (1 / T) rho + 4 * (rho * D 0%nat 2%nat (1 / T) rho) + rho ^ 2 * D 0%nat 3%nat (1 / T) rho)
   - Rg * (1 / T) * (2 * D 1%nat 1%nat (1 / T) rho + 4 * (rho * D 1%nat 2%nat (1 / T) rho) + rho ^ 2 * D 1%nat 3%nat (1 / T) rho)).
Proof.
  intros T rho Hd. unfold P2. pose proof (dom_T dom OD T rho Hd) as HT.
  eapply is_derive_eq; [|apply is_derive_mult'; [apply is_derive_lin, is_derive_id' |
     apply is_derive_plus'; [apply is_derive_plus'; [apply is_derive_lin, DT; auto; lia|
        apply is_derive_lin, is_derive_lin, DT; auto; lia] | apply is_derive_lin, DT; auto; lia]]].
  cbv beta. field. lra.
Qed.

Lemma crit_values : forall T rho, dom (1 / T) rho ->
  let '(r, J) := critical_conditions m z T rho in
  fst r = P1 T rho /\ snd r = P2 T rho /\ m01 J = P2 T rho /\
  m00 J = Rg * (1 + 2 * (rho * D 0%nat 1%nat (1 / T) rho) + rho ^ 2 * D 0%nat 2%nat (1 / T) rho)
   - Rg * (1 / T) * (2 * (rho * D 1%nat 1%nat (1 / T) rho) + rho ^ 2 * D 1%nat 2%nat (1 / T) rho) /\
  m10 J = Rg * (2 * D 0%nat 1%nat (1 / T) rho + 4 * (rho * D 0%nat 2%nat (1 / T) rho) + rho ^ 2 * D 0%nat 3%nat (1 / T) rho)
   - Rg * (1 / T) * (2 * D 1%nat 1%nat (1 / T) rho + 4 * (rho * D 1%nat 2%nat (1 / T) rho) + rho ^ 2 * D 1%nat 3%nat (1 / T) rho) /\
  m11 J = Rg * T * (6 * D 0%nat 2%nat (1 / T) rho + 6 * (rho * D 0%nat 3%nat (1 / T) rho) + rho ^ 2 * D 0%nat 4%nat (1 / T) rho).
Proof.
  intros T rho Hd. unfold critical_conditions. cbn [fst snd m00 m01 m10 m11].
  pose proof (dom_T dom OD T rho Hd) as HT. pose proof (proj2 (od_pos _ OD _ _ Hd)) as Hr.
  rewrite !acc by (auto; lia). unfold P1, P2. fold Rg.
  repeat split; simpl; field; lra.
Qed.

Lemma crit_ok : forall T rho, dom (1 / T) rho ->
  let p := pressure Rg al in
  let '(r, J) := critical_conditions m z T rho in
  fst r = Derive (fun r => p T r) rho /\
  snd r = Derive_n (fun r => p T r) 2 rho /\
  is_derive (fun t => Derive (fun r => p t r) rho) T (m00 J) /\
  is_derive (fun r => Derive (fun r => p T r) r) rho (m01 J) /\
  is_derive (fun t => Derive_n (fun r => p t r) 2 rho) T (m10 J) /\
  is_derive (fun r => Derive_n (fun r => p T r) 2 r) rho (m11 J).
Proof.
  intros T rho Hd p. pose proof (crit_values T rho Hd) as V.
  destruct (critical_conditions m z T rho) as [r J]. destruct V as (V0 & V1 & V01 & V00 & V10 & V11).
  assert (E1 : forall t r, dom (1 / t) r -> Derive (fun r => p t r) r = P1 t r).
  { intros t r' H. apply is_derive_unique. now apply is_p1. }
  assert (E2 : forall t r, dom (1 / t) r -> Derive_n (fun r => p t r) 2 r = P2 t r).
  { intros t r' H. change (Derive (fun r => Derive (fun r => p t r) r) r' = P2 t r'). apply is_derive_unique.
    apply (is_derive_loc (fun r => P1 t r)); [|now apply is_p2].
    eapply filter_imp; [|apply (od_r _ OD _ _ H)]. intros r'' H''. now apply E1. }
  rewrite V0, V1, V00, V01, V10, V11.
  split; [symmetry; now apply E1|]. split; [symmetry; now apply E2|]. split; [|split; [|split]].
  - apply (is_derive_loc (fun t => P1 t rho)); [|now apply is_p1T].
    eapply filter_imp; [|apply (dom_T_loc dom OD _ _ Hd)]. intros t H. now apply E1.
  - apply (is_derive_loc (fun r => P1 T r)); [|now apply is_p2].
    eapply filter_imp; [|apply (od_r _ OD _ _ Hd)]. intros t H. now apply E1.
  - apply (is_derive_loc (fun t => P2 t rho)); [|now apply is_p2T].
    eapply filter_imp; [|apply (dom_T_loc dom OD _ _ Hd)]. intros t H. now apply E2.
  - apply (is_derive_loc (fun r => P2 T r)); [|now apply is_p3].
    eapply filter_imp; [|apply (od_r _ OD _ _ Hd)]. intros t H. now apply E2.
Qed.

(** Brho in terms of the pressure surface *)
Lemma Brho_ok : forall T rho, dom (1 / T) rho ->
  let '(r, J) := critical_conditions m z T rho in
  get_Brho_critical_extrap m T rho z = sqrt (6 * m00 J * T / m11 J).
Proof.
  intros T rho Hd. unfold critical_conditions, get_Brho_critical_extrap. cbn [m00 m11].
  f_equal. f_equal. f_equal. f_equal. ring.
Qed.
End Crit.

Section VLE.
Hypothesis AC : accessors_of m alphar z dom 2.
Hypothesis SF : smooth_family alphar z dom 1 2 D.
Variable ig : R -> R.
Hypothesis HR : Rg <> 0.
Let a := molar_a Rg ig al.

Lemma acc2 : forall i j T rho, (i <= 1)%nat -> (j <= 2)%nat -> dom (1 / T) rho ->
  get_A m i j T rho z = (1 / T) ^ i * rho ^ j * D i j (1 / T) rho.
Proof. intros. rewrite AC by auto. now apply (fam_Lambda alphar z dom OD 1 2 D SF). Qed.

Lemma a_r : forall T rho, dom (1 / T) rho ->
  is_derive (fun r => a T r) rho (Rg * T * (/ rho + D 0%nat 1%nat (1 / T) rho)).
Proof.
  intros T rho Hd. pose proof (proj2 (od_pos _ OD _ _ Hd)) as Hr.
  unfold a, molar_a. apply is_derive_lin.
  apply is_derive_plus'; [|apply (alpha_rho alphar z dom OD 1 2 D SF); auto].
  eapply is_derive_eq; [|apply is_derive_plus'; [apply is_derive_cst | apply is_derive_ln; exact Hr]].
  ring.
Qed.
Lemma p_of_a : forall T rho, dom (1 / T) rho ->
  th_p a T rho = rho * Rg * T * (1 + rho * D 0%nat 1%nat (1 / T) rho).
Proof.
  intros T rho Hd. unfold th_p. pose proof (proj2 (od_pos _ OD _ _ Hd)) as Hr.
  assert (E : Derive (fun r => a T r) rho = Rg * T * (/ rho + D 0%nat 1%nat (1 / T) rho))
    by (apply is_derive_unique; now apply a_r).
  rewrite E. field. lra.
Qed.
Lemma mu_of_a : forall T rho, dom (1 / T) rho ->
  chempot a T rho = Rg * T * (ig T + ln rho + D 0%nat 0%nat (1 / T) rho + 1 + rho * D 0%nat 1%nat (1 / T) rho).
Proof.
  intros T rho Hd. unfold chempot. rewrite p_of_a by auto. unfold a, molar_a, al.
  pose proof (proj2 (od_pos _ OD _ _ Hd)) as Hr.
  rewrite (alpha_at_T alphar z dom OD 1 2 D SF T rho Hd). field. lra.
Qed.

Lemma vle_ok : forall T rhoL rhoV, dom (1 / T) rhoL -> dom (1 / T) rhoV ->
  let '(y, J) := vle_call m T z (rhoL, rhoV) in
  fst y = (th_p a T rhoL - th_p a T rhoV) / (Rg * T) /\
  snd y = (chempot a T rhoL - chempot a T rhoV) / (Rg * T) /\
  is_derive (fun r => fst (fst (vle_call m T z (r, rhoV)))) rhoL (m00 J) /\
  is_derive (fun r => fst (fst (vle_call m T z (rhoL, r)))) rhoV (m01 J) /\
  is_derive (fun r => snd (fst (vle_call m T z (r, rhoV)))) rhoL (m10 J) /\
  is_derive (fun r => snd (fst (vle_call m T z (rhoL, r)))) rhoV (m11 J).
Proof.
  intros T rhoL rhoV HL HV.
  pose proof (dom_T dom OD T rhoL HL) as HT.
  pose proof (proj2 (od_pos _ OD _ _ HL)) as HrL. pose proof (proj2 (od_pos _ OD _ _ HV)) as HrV.
  assert (Fp : forall r, dom (1 / T) r -> is_derive (fun r => r * (1 + r * D 0%nat 1%nat (1 / T) r)) r
      (1 + 2 * (r * D 0%nat 1%nat (1 / T) r) + r ^ 2 * D 0%nat 2%nat (1 / T) r)).
  { intros r Hr. eapply is_derive_eq; [|apply is_derive_mult'; [apply is_derive_id'|
      apply is_derive_plus'; [apply is_derive_cst | apply is_derive_mult'; [apply is_derive_id' | apply (sf_r _ _ _ _ _ _ SF); auto; lia]]]].
    cbv beta. ring. }
  assert (Fm : forall r, dom (1 / T) r -> is_derive (fun r => r * D 0%nat 1%nat (1 / T) r + D 0%nat 0%nat (1 / T) r + 1 * ln r) r
      ((2 * (r * D 0%nat 1%nat (1 / T) r) + r ^ 2 * D 0%nat 2%nat (1 / T) r) / r + 1 / r)).
  { intros r Hr. pose proof (proj2 (od_pos _ OD _ _ Hr)) as Hr'.
    eapply is_derive_eq; [|apply is_derive_plus'; [apply is_derive_plus'; [
      apply is_derive_mult'; [apply is_derive_id' | apply (sf_r _ _ _ _ _ _ SF); auto; lia] |
      apply (sf_r _ _ _ _ _ _ SF); auto; lia] | apply is_derive_lin, is_derive_ln; exact Hr']].
    cbv beta. field. lra. }
  assert (Fc : forall (f : R -> R) x l c, is_derive f x l -> is_derive (fun r => f r - c) x l).
  { intros f x l c H. eapply is_derive_eq; [|apply is_derive_minus'; [exact H|apply is_derive_cst]]. eqR. ring. }
  assert (Fc' : forall (f : R -> R) x l c, is_derive f x l -> is_derive (fun r => c - f r) x (- l)).
  { intros f x l c H. eapply is_derive_eq; [|apply is_derive_minus'; [apply is_derive_cst|exact H]]. eqR. ring. }
  assert (RR : get_R m z / get_R m z = 1) by (fold Rg; field; auto).
  unfold vle_call. cbn [fst snd m00 m01 m10 m11]. rewrite RR.
  split; [|split; [|split; [|split; [|split]]]].
  - rewrite !p_of_a, !acc2 by (auto; lia). simpl. field. split; lra.
  - rewrite !mu_of_a, !acc2 by (auto; lia). simpl. field. split; lra.
  - apply Fc. apply (is_derive_loc (fun r => r * (1 + r * D 0%nat 1%nat (1 / T) r))).
    + eapply filter_imp; [|apply (od_r _ OD _ _ HL)]. intros r Hr. rewrite acc2 by (auto; lia). simpl. ring.
    + eapply is_derive_eq; [|now apply Fp]. rewrite !acc2 by (auto; lia). simpl. ring.
  - apply Fc'. apply (is_derive_loc (fun r => r * (1 + r * D 0%nat 1%nat (1 / T) r))).
    + eapply filter_imp; [|apply (od_r _ OD _ _ HV)]. intros r Hr. rewrite acc2 by (auto; lia). simpl. ring.
    + eapply is_derive_eq; [|now apply Fp]. rewrite !acc2 by (auto; lia). simpl. ring.
  - apply Fc. apply (is_derive_loc (fun r => r * D 0%nat 1%nat (1 / T) r + D 0%nat 0%nat (1 / T) r + 1 * ln r)).
    + eapply filter_imp; [|apply (od_r _ OD _ _ HL)]. intros r Hr. rewrite !acc2 by (auto; lia). simpl. ring.
    + eapply is_derive_eq; [|now apply Fm]. rewrite !acc2 by (auto; lia). simpl. field. lra.
  - apply Fc'. apply (is_derive_loc (fun r => r * D 0%nat 1%nat (1 / T) r + D 0%nat 0%nat (1 / T) r + 1 * ln r)).
    + eapply filter_imp; [|apply (od_r _ OD _ _ HV)]. intros r Hr. rewrite !acc2 by (auto; lia). simpl. ring.
    + eapply is_derive_eq; [|now apply Fm]. rewrite !acc2 by (auto; lia). simpl. field. lra.
Qed.

Lemma vle_zero_iff : forall T rhoL rhoV, dom (1 / T) rhoL -> dom (1 / T) rhoV ->
  (fst (vle_call m T z (rhoL, rhoV)) = (0, 0) <->
   th_p a T rhoL = th_p a T rhoV /\ chempot a T rhoL = chempot a T rhoV).
Proof.
  intros T rhoL rhoV HL HV. pose proof (vle_ok T rhoL rhoV HL HV) as V.
  pose proof (dom_T dom OD T rhoL HL) as HT.
  destruct (vle_call m T z (rhoL, rhoV)) as [[y0 y1] J]. cbn [fst snd] in V. destruct V as (V0 & V1 & _).
  assert (H0 : Rg * T <> 0) by (apply Rmult_integral_contrapositive; split; auto; lra).
  assert (Q : forall x y, (x - y) / (Rg * T) = 0 <-> x = y).
  { intros x y; split; intro H.
    - apply Rmult_eq_compat_r with (r := Rg * T) in H. unfold Rdiv in H. rewrite Rmult_assoc, Rinv_l in H by auto. lra.
    - subst. unfold Rdiv. ring. }
  cbn [fst]. split.
  - intro E; injection E as E0 E1. split; apply Q; congruence.
  - intros [E0 E1]. apply Q in E0. apply Q in E1. congruence.
Qed.

(** Clapeyron *)
Lemma th_s_al : forall T rho, dom (1 / T) rho -> forall ig' , is_derive ig T ig' ->
  th_s a T rho = - (Rg * (ig T + ln rho + D 0%nat 0%nat (1 / T) rho) + Rg * T * (ig' - (1 / T) * (1 / T) * D 1%nat 0%nat (1 / T) rho)).
Proof.
  intros T rho Hd ig' Hi. unfold th_s. f_equal. apply is_derive_unique.
  unfold a, molar_a, al.
  eapply is_derive_eq; [|apply is_derive_mult'; [apply is_derive_lin, is_derive_id' |
    apply is_derive_plus'; [apply is_derive_plus'; [exact Hi|apply is_derive_cst] | apply (alpha_T alphar z dom OD 1 2 D SF); auto]]].
  cbv beta. rewrite (alpha_at_T alphar z dom OD 1 2 D SF T rho Hd). ring.
Qed.

Lemma dpsatdT_entropy : forall T rhoL rhoV ig', dom (1 / T) rhoL -> dom (1 / T) rhoV -> is_derive ig T ig' ->
  chempot a T rhoL = chempot a T rhoV -> 
  dpsatdT_pure m T rhoL rhoV z = (th_s a T rhoV - th_s a T rhoL) / (1 / rhoV - 1 / rhoL).
Proof.
  intros T rhoL rhoV ig' HL HV Hi Hmu. unfold dpsatdT_pure. f_equal.
  pose proof (dom_T dom OD T rhoL HL) as HT.
  rewrite (th_s_al T rhoL HL ig' Hi), (th_s_al T rhoV HV ig' Hi).
  rewrite !mu_of_a in Hmu by auto. rewrite !acc2 by (auto; lia). fold Rg. simpl.
  assert (HRT : Rg * T <> 0) by (apply Rmult_integral_contrapositive; split; auto; lra).
  apply Rmult_eq_reg_l in Hmu; auto.
  assert (E : rhoV * D 0%nat 1%nat (1 / T) rhoV - rhoL * D 0%nat 1%nat (1 / T) rhoL =
     ln rhoL + D 0%nat 0%nat (1 / T) rhoL - (ln rhoV + D 0%nat 0%nat (1 / T) rhoV)) by lra.
  transitivity (Rg * ((rhoV * D 0%nat 1%nat (1 / T) rhoV - rhoL * D 0%nat 1%nat (1 / T) rhoL) +
     1 / T * D 1%nat 0%nat (1 / T) rhoV - 1 / T * D 1%nat 0%nat (1 / T) rhoL)); [ring|].
  rewrite E. field. lra.
Qed.

Lemma along : forall (rh : R -> R) T dr lT lr, dom (1 / T) (rh T) ->
  differentiable_pt_lim al T (rh T) lT lr -> is_derive rh T dr ->
  is_derive (fun t => al t (rh t)) T
    (- (1 / T) * (1 / T) * D 1%nat 0%nat (1 / T) (rh T) + D 0%nat 1%nat (1 / T) (rh T) * dr).
Proof.
  intros rh T dr lT lr Hd Hdiff Hr.
  destruct (differentiable_pt_lim_unique _ _ _ _ _ Hdiff) as [E1 E2].
  assert (F1 : Derive (fun t => al t (rh T)) T = - (1 / T) * (1 / T) * D 1%nat 0%nat (1 / T) (rh T)).
  { apply is_derive_unique. apply (alpha_T alphar z dom OD 1 2 D SF); auto. }
  assert (F2 : Derive (fun r => al T r) (rh T) = D 0%nat 1%nat (1 / T) (rh T)).
  { apply is_derive_unique. apply (alpha_rho alphar z dom OD 1 2 D SF); auto. }
  rewrite F1 in E1. rewrite F2 in E2. subst lT lr.
  apply is_derive_Reals.
  eapply (derivable_pt_lim_comp_2d al (fun t => t) rh T) in Hdiff.
  2: { apply derivable_pt_lim_id. }
  2: { apply is_derive_Reals. exact Hr. }
  rewrite Rmult_1_r in Hdiff. exact Hdiff.
Qed.

Lemma mu_along : forall (rh psat : R -> R) T dr d lT lr ig', dom (1 / T) (rh T) ->
  differentiable_pt_lim al T (rh T) lT lr -> is_derive rh T dr -> is_derive psat T d -> is_derive ig T ig' ->
  locally T (fun t => th_p a t (rh t) = psat t) ->
  is_derive (fun t => chempot a t (rh t)) T (- th_s a T (rh T) + d / rh T).
Proof.
  intros rh psat T dr d lT lr ig' Hd Hdiff Hr Hp Hig Hloc.
  pose proof (proj2 (od_pos _ OD _ _ Hd)) as Hpos. pose proof (dom_T dom OD T _ Hd) as HT.
  apply (is_derive_loc (fun t => (Rg * t) * (ig t + ln (rh t) + al t (rh t)) + psat t * (1 / rh t))).
  - eapply filter_imp; [|exact Hloc]. intros t Ht. unfold chempot. rewrite Ht. unfold a, molar_a, Rdiv. ring.
  - assert (Hln : is_derive (fun t => ln (rh t)) T (dr * / rh T)).
    { apply (is_derive_comp ln rh T (/ rh T) dr); [now apply is_derive_ln|exact Hr]. }
    assert (Hinv : is_derive (fun t => 1 / rh t) T (- (1 / rh T) * (1 / rh T) * dr)).
    { eapply is_derive_eq; [|apply (is_derive_comp (fun x => 1 / x) rh T (- (1 / rh T) * (1 / rh T)) dr);
        [now apply recip_T | exact Hr]]. unfold scal; simpl; unfold mult; simpl. ring. }
    eapply is_derive_eq; [|apply is_derive_plus'; [apply is_derive_mult'; [apply is_derive_lin, is_derive_id' |
       apply is_derive_plus'; [apply is_derive_plus'; [exact Hig|exact Hln] | exact (along rh T dr lT lr Hd Hdiff Hr)]] |
       apply is_derive_mult'; [exact Hp | exact Hinv]]].
    cbv beta. rewrite (th_s_al T (rh T) Hd ig' Hig).
    rewrite <- (locally_singleton _ _ Hloc). rewrite p_of_a by auto.
    unfold al. rewrite (alpha_at_T alphar z dom OD 1 2 D SF T _ Hd). field. split; lra.
Qed.

Lemma clapeyron : forall (rL rV psat : R -> R) T dL dV d lTL lrL lTV lrV ig',
  dom (1 / T) (rL T) -> dom (1 / T) (rV T) -> rL T <> rV T ->
  differentiable_pt_lim al T (rL T) lTL lrL -> differentiable_pt_lim al T (rV T) lTV lrV ->
  is_derive rL T dL -> is_derive rV T dV -> is_derive psat T d -> is_derive ig T ig' ->
  locally T (fun t => th_p a t (rL t) = psat t /\ th_p a t (rV t) = psat t /\
                      chempot a t (rL t) = chempot a t (rV t)) ->
  dpsatdT_pure m T (rL T) (rV T) z = d.
Proof.
  intros rL rV psat T dL dV d lTL lrL lTV lrV ig' HL HV Hne HdL HdV HrL HrV Hp Hig Hloc.
  pose proof (proj2 (od_pos _ OD _ _ HL)) as HpL. pose proof (proj2 (od_pos _ OD _ _ HV)) as HpV.
  assert (L1 : is_derive (fun t => chempot a t (rL t)) T (- th_s a T (rL T) + d / rL T)).
  { apply (mu_along rL psat T dL d lTL lrL ig'); auto. eapply filter_imp; [|exact Hloc]. intros t Ht; cbv beta in *; intuition auto. }
  assert (L2 : is_derive (fun t => chempot a t (rV t)) T (- th_s a T (rV T) + d / rV T)).
  { apply (mu_along rV psat T dV d lTV lrV ig'); auto. eapply filter_imp; [|exact Hloc]. intros t Ht; cbv beta in *; intuition auto. }
  assert (L3 : is_derive (fun t => chempot a t (rL t)) T (- th_s a T (rV T) + d / rV T)).
  { apply (is_derive_loc (fun t => chempot a t (rV t))); auto. eapply filter_imp; [|exact Hloc]. intros t Ht; cbv beta in *; intuition auto. }
  pose proof (is_derive_unique _ _ _ L1) as U1. pose proof (is_derive_unique _ _ _ L3) as U3.
  rewrite U1 in U3.
  assert (Hmu : chempot a T (rL T) = chempot a T (rV T)) by (destruct (locally_singleton _ _ Hloc) as (_ & _ & H); exact H).
  rewrite (dpsatdT_entropy T (rL T) (rV T) ig' HL HV Hig Hmu).
  assert (E : th_s a T (rV T) - th_s a T (rL T) = d * (1 / rV T - 1 / rL T)).
  { transitivity (d / rV T - d / rL T); [lra|]. field. split; lra. }
  rewrite E. field. repeat split; try lra.
Qed.

(** Density slope along a saturation curve *)
Lemma p_along_slope : forall (rh psat : R -> R) T dr d lT lr, dom (1 / T) (rh T) ->
  differentiable_pt_lim (th_p a) T (rh T) lT lr -> is_derive rh T dr -> is_derive psat T d ->
  locally T (fun t => th_p a t (rh t) = psat t) ->
  lr <> 0 ->
  dr = trace_drhodT m z d T (rh T).
Proof.
  intros rh psat T dr d lT lr Hd Hdiff Hr Hp Hloc Hlr.
  pose proof (proj2 (od_pos _ OD _ _ Hd)) as Hpos. pose proof (dom_T dom OD T _ Hd) as HT.
  destruct (differentiable_pt_lim_unique _ _ _ _ _ Hdiff) as [E1 E2].
  assert (F1 : Derive (fun t => th_p a t (rh T)) T = Rg * rh T * (1 + rh T * D 0%nat 1%nat (1 / T) (rh T)
              - 1 / T * (rh T * D 1%nat 1%nat (1 / T) (rh T)))).
  { apply is_derive_unique.
    apply (is_derive_loc (fun t => (rh T * Rg * t) * (1 + rh T * D 0%nat 1%nat (1 / t) (rh T)))).
    - eapply filter_imp; [|apply (dom_T_loc dom OD _ _ Hd)]. intros t Ht. now apply p_of_a.
    - eapply is_derive_eq; [|apply is_derive_mult'; [apply is_derive_lin, is_derive_id' |
        apply is_derive_plus'; [apply is_derive_cst | apply is_derive_lin, (fam_T alphar z dom OD 1 2 D SF); auto]]].
      cbv beta. field. lra. }
  assert (F2 : Derive (fun r => th_p a T r) (rh T) = Rg * T * (1 + 2 * (rh T * D 0%nat 1%nat (1 / T) (rh T))
              + rh T ^ 2 * D 0%nat 2%nat (1 / T) (rh T))).
  { apply is_derive_unique.
    apply (is_derive_loc (fun r => (Rg * T) * (r * (1 + r * D 0%nat 1%nat (1 / T) r)))).
    - eapply filter_imp; [|apply (od_r _ OD _ _ Hd)]. intros t Ht. rewrite p_of_a by auto. ring.
    - eapply is_derive_eq; [|apply is_derive_lin, is_derive_mult'; [apply is_derive_id'|
      apply is_derive_plus'; [apply is_derive_cst | apply is_derive_mult'; [apply is_derive_id' | apply (sf_r _ _ _ _ _ _ SF); auto; lia]]]].
      cbv beta. ring. }
  assert (C : is_derive (fun t => th_p a t (rh t)) T (lT + lr * dr)).
  { apply is_derive_Reals. eapply (derivable_pt_lim_comp_2d (th_p a) (fun t => t) rh T) in Hdiff.
    2: { apply derivable_pt_lim_id. }
    2: { apply is_derive_Reals. exact Hr. }
    rewrite Rmult_1_r in Hdiff. exact Hdiff. }
  assert (C' : is_derive (fun t => th_p a t (rh t)) T d).
  { apply (is_derive_loc psat); auto. }
  pose proof (is_derive_unique _ _ _ C) as U. pose proof (is_derive_unique _ _ _ C') as U'. rewrite U in U'.
  unfold trace_drhodT. rewrite !acc2 by (auto; lia). fold Rg.
  replace (Rg * T * (1 + 2 * ((1 / T) ^ 0 * rh T ^ 1 * D 0%nat 1%nat (1 / T) (rh T)) + (1 / T) ^ 0 * rh T ^ 2 * D 0%nat 2%nat (1 / T) (rh T))) with lr.
  2: { rewrite <- E2, F2. simpl. ring. }
  replace (Rg * rh T * (1 + (1 / T) ^ 0 * rh T ^ 1 * D 0%nat 1%nat (1 / T) (rh T) - (1 / T) ^ 1 * rh T ^ 1 * D 1%nat 1%nat (1 / T) (rh T))) with lT.
  2: { rewrite <- E1, F1. simpl. ring. }
  apply Rmult_eq_reg_l with lr; auto. field_simplify; auto. lra.
Qed.

End VLE.
End Pure.

(** ** Loops *)

Section Loops.
Variable m : amodel.
Variable linsolve : mat2 -> R * R -> R * R.
Hypothesis LS : linsolve_ok linsolve.

Lemma linsolve_zero : forall J, m00 J * m11 J - m01 J * m10 J <> 0 -> linsolve J (0, 0) = (0, 0).
Proof.
  intros J H. destruct (LS J (0, 0) H) as [E0 E1]. cbn [fst snd] in *.
  destruct (linsolve J (0, 0)) as [x y]. cbn [fst snd] in *. f_equal.
  - apply (Rmult_eq_reg_l (m00 J * m11 J - m01 J * m10 J)); auto.
    transitivity (m11 J * (m00 J * x + m01 J * y) - m01 J * (m10 J * x + m11 J * y)); [ring|]. rewrite E0, E1. ring.
  - apply (Rmult_eq_reg_l (m00 J * m11 J - m01 J * m10 J)); auto.
    transitivity (m00 J * (m10 J * x + m11 J * y) - m10 J * (m00 J * x + m01 J * y)); [ring|]. rewrite E0, E1. ring.
Qed.

Lemma critical_fixed : forall z n T rho,
  fst (critical_conditions m z T rho) = (0, 0) ->
  (let J := snd (critical_conditions m z T rho) in m00 J * m11 J - m01 J * m10 J <> 0) ->
  critical_loop m linsolve z n (T, rho) = (T, rho).
Proof.
  intros z n T rho H0 HJ. induction n as [|n IH]; [reflexivity|].
  cbn [critical_loop fst snd]. destruct (critical_conditions m z T rho) as [r J]. cbn [fst snd] in *. subst r.
  cbn [fst snd]. rewrite Ropp_0, linsolve_zero by exact HJ. cbn [fst snd]. rewrite !Rplus_0_r. exact IH.
Qed.

(** One step solves the linearised system. *)
Lemma critical_step : forall z T rho,
  let '(r, J) := critical_conditions m z T rho in
  m00 J * m11 J - m01 J * m10 J <> 0 ->
  let x' := critical_loop m linsolve z 1 (T, rho) in
  fst r + m00 J * (fst x' - T) + m01 J * (snd x' - rho) = 0 /\
  snd r + m10 J * (fst x' - T) + m11 J * (snd x' - rho) = 0.
Proof.
  intros z T rho. cbn [critical_loop fst snd]. destruct (critical_conditions m z T rho) as [r J].
  intro HJ. destruct (LS J (- fst r, - snd r) HJ) as [E0 E1]. cbn [fst snd] in *. split; lra.
Qed.

Variable eps : R.

Lemma vle_loop_fixed : forall T z n x, 0 < eps ->
  fst (vle_call m T z x) = (0, 0) -> vle_loop m linsolve eps T z n x = x.
Proof.
  intros T z [|n] x He H; [reflexivity|]. cbn [vle_loop].
  destruct (vle_call m T z x) as [r J]. cbn [fst] in H. subst r.
  assert (E : small2 eps (0, 0) = true).
  { unfold small2. cbn [fst snd]. rewrite Rabs_R0. destruct (Rlt_dec 0 eps); [reflexivity|lra]. }
  cbv zeta. rewrite E. match goal with |- (if ?b then _ else _) = _ => destruct b end; reflexivity.
Qed.

(** The outcome: after [k] plain Newton steps the loop stopped, either because the
    budget was used up, or because the next step or the residual was tiny. *)
Fixpoint newton_iter (T : R) (z : list R) (k : nat) (x : R * R) : R * R :=
  match k with
  | O => x
  | S k' => let '(r, J) := vle_call m T z x in
            let v := linsolve J (- fst r, - snd r) in
            newton_iter T z k' (fst x + fst v, snd x + snd v)
  end.
Lemma vle_loop_outcome : forall T z n x, exists k, (k <= n)%nat /\
  vle_loop m linsolve eps T z n x = newton_iter T z k x /\
  (k = n \/
   let y := newton_iter T z k x in
   let '(r, J) := vle_call m T z y in
   (Rabs (fst r) < eps /\ Rabs (snd r) < eps) \/
   (let v := linsolve J (- fst r, - snd r) in Rabs (fst v) < eps /\ Rabs (snd v) < eps)).
Proof.
  intros T z n. induction n as [|n IH]; intro x.
  - exists 0%nat. repeat split; auto.
  - cbn [vle_loop]. destruct (vle_call m T z x) as [r J] eqn:E. cbn [fst snd].
    set (v := linsolve J (- fst r, - snd r)).
    assert (SM : forall w, small2 eps w = true -> Rabs (fst w) < eps /\ Rabs (snd w) < eps).
    { intros w H. unfold small2 in H. apply andb_prop in H as [H1 H2].
      destruct (Rlt_dec (Rabs (fst w)) eps), (Rlt_dec (Rabs (snd w)) eps); try discriminate; auto. }
    destruct (small2 eps (fst x + fst v - fst x, snd x + snd v - snd x)) eqn:S1.
    + exists 0%nat. split; [lia|]. split; [reflexivity|]. right. cbn [newton_iter]. rewrite E. right. fold v.
      apply SM in S1. cbn [fst snd] in S1.
      replace (fst x + fst v - fst x) with (fst v) in S1 by ring.
      replace (snd x + snd v - snd x) with (snd v) in S1 by ring. exact S1.
    + destruct (small2 eps r) eqn:S2.
      * exists 0%nat. split; [lia|]. split; [reflexivity|]. right. cbn [newton_iter]. rewrite E. left. now apply SM.
      * destruct (IH (fst x + fst v, snd x + snd v)) as (k & Hk & EL & EC).
        exists (S k). split; [lia|]. cbn [newton_iter]. rewrite E. fold v. split; [exact EL|].
        destruct EC as [EC|EC]; [left; lia|right; exact EC].
Qed.

(** *** tracing *)
Lemma linspaced_last : forall N a b, (1 <= N)%nat -> exists l, linspaced N a b = l ++ [b].
Proof.
  intros [|[|N]] a b H; [lia|exists []; reflexivity|].
  exists (map (fun k => a + INR k * ((b - a) / INR (S (S N) - 1))) (seq 0 (S N))).
  unfold linspaced. rewrite (seq_S (S N) 0), map_app. cbn [map]. do 2 f_equal.
  replace (S (S N) - 1)%nat with (S N) by lia. change (0 + S N)%nat with (S N).
  field. apply not_0_INR. lia.
Qed.

Lemma trace_loop_app : forall polish z wd dT l1 l2 x,
  trace_loop m polish z wd dT (l1 ++ l2) x =
  match trace_loop m polish z wd dT l1 x with Err e => Err e | Val y => trace_loop m polish z wd dT l2 y end.
Proof.
  intros polish z wd dT. induction l1 as [|T l1 IH]; intros l2 x; [reflexivity|].
  cbn [app trace_loop]. destruct (polish T x); [|reflexivity]. cbv zeta.
  destruct (trivial2 _); [reflexivity|]. apply IH.
Qed.

Lemma trace_result : forall polish z wd N Tclose T x y, (1 <= N)%nat ->
  pure_trace_from m polish z wd N Tclose T x = Val y ->
  exists guess p, polish T guess = Some p /\ fst y <> snd y /\
    (wd = false -> y = p) /\
    (wd = true ->
       let d := dpsatdT_pure m T (fst p) (snd p) z in
       let dT := (T - Tclose) / INR (N - 1) in
       y = (fst p + dT * trace_drhodT m z d T (fst p), snd p + dT * trace_drhodT m z d T (snd p))).
Proof.
  intros polish z wd N Tclose T x y HN H. unfold pure_trace_from in H.
  destruct (trivial2 x); [discriminate|].
  destruct (linspaced_last N Tclose T HN) as (l & E). rewrite E, trace_loop_app in H.
  destruct (trace_loop m polish z wd _ l x) as [g|]; [|discriminate].
  cbn [trace_loop] in H. destruct (polish T g) as [p|] eqn:P; [|discriminate]. cbv zeta in H.
  exists g, p. split; auto.
  unfold trivial2 in H at 1. destruct (Req_EM_T _ _) as [|NE] in H; [discriminate|].
  injection H as <-. split; [exact NE|]. split; intros ->; [reflexivity|]. cbv zeta.
  replace (- (Tclose - T)) with (T - Tclose) by ring. reflexivity.
Qed.
End Loops.
