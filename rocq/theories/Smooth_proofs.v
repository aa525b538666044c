From Coq Require Import Reals ZArith List Lia Lra.
From Coquelicot Require Import Coquelicot.
From Verif Require Import Derivs_model Derivs_spec Derivs_proofs Derivs_proofs2 Smooth_spec.
Import ListNotations.
Open Scope R_scope.

Section Fam.
Variable alpha : R -> R -> list R -> R.
Variable z : list R.
Variable dom : R -> R -> Prop.
Hypothesis OD : open_dom dom.
Variables imax jmax : nat.
Variable D : nat -> nat -> R -> R -> R.
Hypothesis SF : smooth_family alpha z dom imax jmax D.

Let g u r := alpha (1 / u) r z.

Lemma fam_Derive_n_r : forall j u r, (j <= jmax)%nat -> dom u r ->
  ex_derive_n (fun r => g u r) j r /\ Derive_n (fun r => g u r) j r = D 0%nat j u r.
Proof.
  induction j as [|j IH]; intros u r Hj Hd.
  - split; [exact I|]. simpl. symmetry. apply (sf_0 _ _ _ _ _ _ SF u r Hd).
  - assert (L : locally r (fun r' => Derive_n (fun r => g u r) j r' = D 0%nat j u r')).
    { eapply filter_imp; [|apply (od_r _ OD u r Hd)]. intros r' Hr'. apply IH; auto; lia. }
    assert (DD : is_derive (Derive_n (fun r => g u r) j) r (D 0%nat (S j) u r)).
    { apply (is_derive_ext_loc (fun r => D 0%nat j u r)).
      - eapply filter_imp; [|exact L]. intros r' H; symmetry; exact H.
      - apply (sf_r _ _ _ _ _ _ SF); auto; lia. }
    split; [eexists; exact DD|]. simpl. apply is_derive_unique. exact DD.
Qed.

Lemma fam_Derive_n_u : forall i j u r, (i <= imax)%nat -> (j <= jmax)%nat -> dom u r ->
  ex_derive_n (fun u => Derive_n (fun r => g u r) j r) i u /\
  Derive_n (fun u => Derive_n (fun r => g u r) j r) i u = D i j u r.
Proof.
  induction i as [|i IH]; intros j u r Hi Hj Hd.
  - split; [exact I|]. simpl. apply fam_Derive_n_r; auto.
  - assert (L : locally u (fun u' => Derive_n (fun u => Derive_n (fun r => g u r) j r) i u' = D i j u' r)).
    { eapply filter_imp; [|apply (od_u _ OD u r Hd)]. intros u' Hu'. apply IH; auto; lia. }
    assert (DD : is_derive (Derive_n (fun u => Derive_n (fun r => g u r) j r) i) u (D (S i) j u r)).
    { apply (is_derive_ext_loc (fun u => D i j u r)).
      - eapply filter_imp; [|exact L]. intros r' H; symmetry; exact H.
      - apply (sf_u _ _ _ _ _ _ SF); auto; lia. }
    split; [eexists; exact DD|]. simpl. apply is_derive_unique. exact DD.
Qed.

Lemma fam_defined : forall i j u r, (i <= imax)%nat -> (j <= jmax)%nat -> dom u r ->
  definedN (in_Trecip_rho alpha z) [i; j] [u; r].
Proof.
  intros i j u r Hi Hj Hd. cbn [definedN]. split.
  - apply (fam_Derive_n_u i j u r Hi Hj Hd).
  - eapply filter_imp; [|apply (od_u _ OD u r Hd)]. intros u' Hu'. split.
    + apply (fam_Derive_n_r j u' r Hj Hu').
    + exists (mkposreal 1 Rlt_0_1). intros; exact I.
Qed.

Lemma fam_Lambda : forall i j T rho, (i <= imax)%nat -> (j <= jmax)%nat -> dom (1 / T) rho ->
  Lambda alpha i j T rho z = (1 / T) ^ i * rho ^ j * D i j (1 / T) rho.
Proof.
  intros i j T rho Hi Hj Hd. unfold Lambda. f_equal.
  apply (fam_Derive_n_u i j (1 / T) rho Hi Hj Hd).
Qed.

(** D i j composed with 1/T *)
Lemma fam_T : forall i j T rho, (i < imax)%nat -> (j <= jmax)%nat -> dom (1 / T) rho ->
  is_derive (fun t => D i j (1 / t) rho) T (- (1 / T) * (1 / T) * D (S i) j (1 / T) rho).
Proof.
  intros i j T rho Hi Hj Hd.
  apply (is_derive_recip (fun u => D i j u rho)).
  - destruct (od_pos _ OD _ _ Hd) as [H _]. intro E. subst. unfold Rdiv in H. rewrite Rinv_0 in H. lra.
  - now apply (sf_u _ _ _ _ _ _ SF).
Qed.
Lemma dom_T : forall T rho, dom (1 / T) rho -> 0 < T.
Proof.
  intros T rho Hd. destruct (od_pos _ OD _ _ Hd) as [H _].
  destruct (Rlt_le_dec 0 T); auto. exfalso.
  destruct (Req_dec T 0) as [->|HT]; [unfold Rdiv in H; rewrite Rinv_0 in H; lra|].
  assert (/ T < 0) by (apply Rinv_lt_0_compat; lra). unfold Rdiv in H. lra.
Qed.
Lemma dom_T_loc : forall T rho, dom (1 / T) rho -> locally T (fun t => dom (1 / t) rho).
Proof.
  intros T rho Hd. pose proof (dom_T T rho Hd) as HT.
  assert (C : continuous (fun t => 1 / t) T).
  { apply (ex_derive_continuous (fun t => 1 / t)). auto_derive. lra. }
  exact (C (fun u => dom u rho) (od_u _ OD _ _ Hd)).
Qed.

Lemma alpha_at_T : forall T rho, dom (1 / T) rho -> alpha T rho z = D 0%nat 0%nat (1 / T) rho.
Proof.
  intros T rho Hd. rewrite (sf_0 _ _ _ _ _ _ SF _ _ Hd). f_equal. field.
  pose proof (dom_T T rho Hd). lra.
Qed.
Lemma alpha_rho : forall T rho, (1 <= jmax)%nat -> dom (1 / T) rho ->
  is_derive (fun r => alpha T r z) rho (D 0%nat 1%nat (1 / T) rho).
Proof.
  intros T rho Hj Hd. apply (is_derive_ext_loc (fun r => D 0%nat 0%nat (1 / T) r)).
  - eapply filter_imp; [|apply (od_r _ OD _ _ Hd)]. intros r Hr. symmetry. now apply alpha_at_T.
  - apply (sf_r _ _ _ _ _ _ SF); auto; lia.
Qed.
Lemma alpha_T : forall T rho, (1 <= imax)%nat -> dom (1 / T) rho ->
  is_derive (fun t => alpha t rho z) T (- (1 / T) * (1 / T) * D 1%nat 0%nat (1 / T) rho).
Proof.
  intros T rho Hj Hd. apply (is_derive_ext_loc (fun t => D 0%nat 0%nat (1 / t) rho)).
  - eapply filter_imp; [|apply (dom_T_loc _ _ Hd)]. intros r Hr. symmetry. now apply alpha_at_T.
  - apply fam_T; auto; lia.
Qed.
Lemma pressure_eq : forall Rg T rho, (1 <= jmax)%nat -> dom (1 / T) rho ->
  pressure Rg (fun T r => alpha T r z) T rho = rho * Rg * T * (1 + rho * D 0%nat 1%nat (1 / T) rho).
Proof.
  intros. unfold pressure. do 3 f_equal. apply is_derive_unique. now apply alpha_rho.
Qed.
End Fam.
