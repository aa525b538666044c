(** C24: the derivatives used to trace phase envelopes. *)
From Coq Require Import Reals ZArith List Lia Lra.
From Coquelicot Require Import Coquelicot.
From Verif Require Import Json_model Derivs_model Derivs_spec Derivs_proofs Derivs_proofs2 Pure_proofs
  Vec_spec Vec_proofs Iso_model Iso_spec Iso_proofs Properties_Iso Trace_model Trace_spec Trace_proofs.
Import ListNotations.
Open Scope R_scope.

Section C24.
Variable ad : (list R -> R) -> list nat -> list R -> R.
Variable alphar : R -> R -> list R -> R.
Variable Rgas : list R -> R.
Variable Rg : R.
Variable solve : list (list R) -> list R -> list R.
Notation mu := (get_chempotVLE ad alphar Rgas).
Notation p := (p_of alphar Rgas).
Notation Hess := (build_Psi_Hessian ad alphar Rgas).

(** A two-phase state of a binary mixture at which the linear systems are regular:
    neither phase on its stability limit, different compositions. *)
Record regular_state (T : R) (rhoL rhoV : list R) : Prop := {
  rs_ad : AD_exact ad; rs_R : const_R Rgas Rg; rs_solve : solves2 solve;
  rs_T : 0 < T; rs_nL : length rhoL = 2%nat; rs_nV : length rhoV = 2%nat;
  rs_L : positive rhoL; rs_V : positive rhoV;
  rs_sL : smooth_joint alphar Rgas T rhoL; rs_sV : smooth_joint alphar Rgas T rhoV;
  rs_HL : det2 (Hess T rhoL) <> 0; rs_HV : det2 (Hess T rhoV) <> 0; rs_x : cross rhoL rhoV <> 0 }.

(** Both phases moving: the chemical potentials stay equal to first order, the pressures
    change at the rates [pL], [pV]. *)
Definition moves_along (T dT : R) (rhoL dL rhoV dV : list R) (pL pV : R) : Prop :=
  forall tau cL cV, path T rhoL dT dL tau cL -> path T rhoV dT dV tau cV ->
    (forall i, (i < 2)%nat -> is_derive (fun s => nth i (mu (tau s) (cL s)) 0 - nth i (mu (tau s) (cV s)) 0) 0 0) /\
    is_derive (fun s => p (tau s) (cL s)) 0 pL /\ is_derive (fun s => p (tau s) (cV s)) 0 pV.

Lemma moves_intro : forall T dT rhoL dL rhoV dV pL pV, AD_exact ad -> const_R Rgas Rg -> 0 < T ->
  length rhoL = 2%nat -> length rhoV = 2%nat -> positive rhoL -> positive rhoV ->
  smooth_joint alphar Rgas T rhoL -> smooth_joint alphar Rgas T rhoV ->
  (forall i, (i < 2)%nat -> sumn 2 (fun j => nth j (nth i (Hess T rhoL) []) 0 * nth j dL 0) + dT * nth i (get_dchempotdT ad alphar Rgas T rhoL) 0 =
     sumn 2 (fun j => nth j (nth i (Hess T rhoV) []) 0 * nth j dV 0) + dT * nth i (get_dchempotdT ad alphar Rgas T rhoV) 0) ->
  sumn 2 (fun i => nth i rhoL 0 * sumn 2 (fun j => nth j (nth i (Hess T rhoL) []) 0 * nth j dL 0)) + dT * get_dpdT_constrhovec ad alphar Rgas T rhoL = pL ->
  sumn 2 (fun i => nth i rhoV 0 * sumn 2 (fun j => nth j (nth i (Hess T rhoV) []) 0 * nth j dV 0)) + dT * get_dpdT_constrhovec ad alphar Rgas T rhoV = pV ->
  moves_along T dT rhoL dL rhoV dV pL pV.
Proof.
  intros T dT rhoL dL rhoV dV pL pV Had (HR0 & HR) HT NL NV PL PV SL SV E1 E2 E3 tau cL cV QL QV.
  split; [|split].
  - intros i Hi. pose proof (mu_along ad Had alphar Rgas Rg HR T rhoL dT dL tau cL i QL SL (proj2 PL i ltac:(lia)) ltac:(lia)) as D1.
    pose proof (mu_along ad Had alphar Rgas Rg HR T rhoV dT dV tau cV i QV SV (proj2 PV i ltac:(lia)) ltac:(lia)) as D2.
    eapply is_derive_eq; [|apply is_derive_minus'; [exact D1|exact D2]]. eqR. rewrite NL, NV, E1 by auto. ring.
  - eapply is_derive_eq; [|apply (p_along_mu ad Had alphar Rgas Rg HR HR0 T rhoL dT dL tau cL QL SL HT PL)]. rewrite NL. exact E2.
  - eapply is_derive_eq; [|apply (p_along_mu ad Had alphar Rgas Rg HR HR0 T rhoV dT dV tau cV QV SV HT PV)]. rewrite NV. exact E3.
Qed.
Lemma path_line : forall T rho dT d, length d = length rho ->
  path T rho dT d (fun s => T + dT * s) (fun s => each rho (fun i => nth i rho 0 + nth i d 0 * s)).
Proof.
  intros T rho dT d Hd. constructor.
  - ring.
  - apply list_ext; rewrite each_length; auto. intros i Hi. rewrite each_nth by auto. ring.
  - intro. apply each_length.
  - auto_derive; auto. ring.
  - intros i Hi. apply (is_derive_ext (fun s => nth i rho 0 + nth i d 0 * s)); [intro; now rewrite each_nth|].
    auto_derive; auto. ring.
Qed.

Lemma is_derive_eq_unique : forall (f : R -> R) (x a b : R), is_derive f x a -> is_derive f x b -> a = b.
Proof. intros f x a b A B. pose proof (is_derive_unique _ _ _ A) as U. pose proof (is_derive_unique _ _ _ B) as V. now rewrite <- U, <- V. Qed.
Lemma moves_elim : forall T dT rhoL dL rhoV dV pL pV, AD_exact ad -> const_R Rgas Rg -> 0 < T ->
  length rhoL = 2%nat -> length rhoV = 2%nat -> length dL = 2%nat -> length dV = 2%nat -> positive rhoL -> positive rhoV ->
  smooth_joint alphar Rgas T rhoL -> smooth_joint alphar Rgas T rhoV -> moves_along T dT rhoL dL rhoV dV pL pV ->
  (forall i, (i < 2)%nat -> sumn 2 (fun j => nth j (nth i (Hess T rhoL) []) 0 * nth j dL 0) + dT * nth i (get_dchempotdT ad alphar Rgas T rhoL) 0 =
     sumn 2 (fun j => nth j (nth i (Hess T rhoV) []) 0 * nth j dV 0) + dT * nth i (get_dchempotdT ad alphar Rgas T rhoV) 0) /\
  sumn 2 (fun i => nth i rhoL 0 * sumn 2 (fun j => nth j (nth i (Hess T rhoL) []) 0 * nth j dL 0)) + dT * get_dpdT_constrhovec ad alphar Rgas T rhoL = pL /\
  sumn 2 (fun i => nth i rhoV 0 * sumn 2 (fun j => nth j (nth i (Hess T rhoV) []) 0 * nth j dV 0)) + dT * get_dpdT_constrhovec ad alphar Rgas T rhoV = pV.
Proof.
  intros T dT rhoL dL rhoV dV pL pV Had (HR0 & HR) HT NL NV ML MV PL PV SL SV M.
  pose proof (path_line T rhoL dT dL ltac:(lia)) as QL. pose proof (path_line T rhoV dT dV ltac:(lia)) as QV.
  destruct (M _ _ _ QL QV) as (M1 & M2 & M3). split; [|split].
  - intros i Hi. pose proof (mu_along ad Had alphar Rgas Rg HR T rhoL dT dL _ _ i QL SL (proj2 PL i ltac:(lia)) ltac:(lia)) as D1.
    pose proof (mu_along ad Had alphar Rgas Rg HR T rhoV dT dV _ _ i QV SV (proj2 PV i ltac:(lia)) ltac:(lia)) as D2.
    pose proof (is_derive_eq_unique _ _ _ _ (is_derive_minus' _ _ _ _ _ D1 D2) (M1 i Hi)) as E. rewrite NL, NV in E. match type of E with @eq _ ?a ?b => change (@eq R a b) in E end. cbv beta in E. lra.
  - pose proof (p_along_mu ad Had alphar Rgas Rg HR HR0 T rhoL dT dL _ _ QL SL HT PL) as D. rewrite NL in D. exact (is_derive_eq_unique _ _ _ _ D M2).
  - pose proof (p_along_mu ad Had alphar Rgas Rg HR HR0 T rhoV dT dV _ _ QV SV HT PV) as D. rewrite NV in D. exact (is_derive_eq_unique _ _ _ _ D M3).
Qed.

(** Isotherm: the phases stay in equilibrium and both pressures change at unit rate. *)
Theorem C24_isotherm : forall T rhoL rhoV, regular_state T rhoL rhoV ->
  exists dL dV, get_drhovecdp_Tsat ad alphar Rgas solve T rhoL rhoV = Some (Val (dL, dV)) /\
    length dL = 2%nat /\ length dV = 2%nat /\ moves_along T 0 rhoL dL rhoV dV 1 1.
Proof.
  intros T rhoL rhoV []. destruct rs_R0 as (HR0 & HR).
  destruct (isotherm_system ad alphar Rgas Rg HR solve rs_solve0 T rhoL rhoV) as (dL & dV & E & LL & LV & E1 & E2 & E3); auto.
  exists dL, dV. split; auto. split; auto. split; auto. apply moves_intro; auto; [split; auto|..].
  - intros i Hi. rewrite E1 by auto. ring.
  - rewrite E2. ring.
  - rewrite Rmult_0_l, Rplus_0_r. rewrite <- E3. apply sumn_ext. intros i Hi. now rewrite E1.
Qed.
(** ... and they are the only ones: any differentiable two-phase curve through the state
    with these properties has them as derivatives. *)
Theorem C24_isotherm_unique : forall T rhoL rhoV dL dV, regular_state T rhoL rhoV ->
  length dL = 2%nat -> length dV = 2%nat -> moves_along T 0 rhoL dL rhoV dV 1 1 ->
  get_drhovecdp_Tsat ad alphar Rgas solve T rhoL rhoV = Some (Val (dL, dV)).
Proof.
  intros T rhoL rhoV dL dV [] LL LV M. pose proof rs_R0 as (HR0 & HR).
  destruct (isotherm_system ad alphar Rgas Rg HR solve rs_solve0 T rhoL rhoV) as (dL' & dV' & E & LL' & LV' & E1 & E2 & E3); auto.
  destruct (moves_elim T 0 rhoL dL rhoV dV 1 1) as (M1 & M2 & M3); auto.
  rewrite Rmult_0_l, Rplus_0_r in M2, M3.
  destruct (system_unique ad alphar Rgas Rg HR T rhoL rhoV dL dL' dV dV') as (-> & ->); auto.
  - now rewrite M2, E2.
  - rewrite E3, <- M3. apply sumn_ext. intros i Hi. specialize (M1 i Hi). rewrite !Rmult_0_l, !Rplus_0_r in M1. now rewrite M1.
  - intros i Hi. rewrite E1 by auto. specialize (M1 i Hi). lra.
Qed.

(** Isobar: unit rate in temperature, constant pressures. *)
Theorem C24_isobar : forall T rhoL rhoV, regular_state T rhoL rhoV ->
  exists dL dV, get_drhovecdT_psat ad alphar Rgas solve T rhoL rhoV = Some (Val (dL, dV)) /\
    length dL = 2%nat /\ length dV = 2%nat /\ moves_along T 1 rhoL dL rhoV dV 0 0.
Proof.
  intros T rhoL rhoV []. pose proof rs_R0 as (HR0 & HR).
  destruct (isobar_system ad alphar Rgas Rg HR solve rs_solve0 T rhoL rhoV) as (dL & dV & E & LL & LV & E1 & E2 & E3); auto.
  exists dL, dV. split; auto. split; auto. split; auto. apply moves_intro; auto.
  - intros i Hi. rewrite !Rmult_1_l. now apply E1.
  - now rewrite Rmult_1_l.
  - now rewrite Rmult_1_l.
Qed.
Theorem C24_isobar_unique : forall T rhoL rhoV dL dV, regular_state T rhoL rhoV ->
  length dL = 2%nat -> length dV = 2%nat -> moves_along T 1 rhoL dL rhoV dV 0 0 ->
  get_drhovecdT_psat ad alphar Rgas solve T rhoL rhoV = Some (Val (dL, dV)).
Proof.
  intros T rhoL rhoV dL dV [] LL LV M. pose proof rs_R0 as (HR0 & HR).
  destruct (isobar_system ad alphar Rgas Rg HR solve rs_solve0 T rhoL rhoV) as (dL' & dV' & E & LL' & LV' & E1 & E2 & E3); auto.
  destruct (moves_elim T 1 rhoL dL rhoV dV 0 0) as (M1 & M2 & M3); auto.
  rewrite Rmult_1_l in M2, M3.
  set (hL d i := sumn 2 (fun j => nth j (nth i (Hess T rhoL) []) 0 * nth j d 0)) in *.
  set (hV d i := sumn 2 (fun j => nth j (nth i (Hess T rhoV) []) 0 * nth j d 0)) in *.
  assert (D : forall i, (i < 2)%nat -> hL dL i - hV dV i = hL dL' i - hV dV' i).
  { intros i Hi. specialize (M1 i Hi). specialize (E1 i Hi). unfold hL, hV. lra. }
  destruct (system_unique ad alphar Rgas Rg HR T rhoL rhoV dL dL' dV dV') as (-> & ->); auto.
  - fold (hL dL) (hL dL'). apply (Rplus_eq_reg_r (get_dpdT_constrhovec ad alphar Rgas T rhoL)). etransitivity; [exact M2|symmetry; exact E2].
  - assert (K : sumn 2 (fun i => nth i rhoV 0 * hV dV i) = sumn 2 (fun i => nth i rhoV 0 * hV dV' i)).
    { apply (Rplus_eq_reg_r (get_dpdT_constrhovec ad alphar Rgas T rhoV)). etransitivity; [exact M3|symmetry; exact E3]. }
    change (sumn 2 (fun i => nth i rhoV 0 * hL dL i) = sumn 2 (fun i => nth i rhoV 0 * hL dL' i)).
    assert (L : forall f g : nat -> R, (forall i, (i < 2)%nat -> f i - g i = hV dV i - hV dV' i) ->
      sumn 2 (fun i => nth i rhoV 0 * f i) - sumn 2 (fun i => nth i rhoV 0 * g i) =
      sumn 2 (fun i => nth i rhoV 0 * hV dV i) - sumn 2 (fun i => nth i rhoV 0 * hV dV' i)).
    { intros f g X. clearbody hV. rewrite !sum2. pose proof (X 0%nat ltac:(lia)). pose proof (X 1%nat ltac:(lia)).
      replace (f 0%nat) with (g 0%nat + (hV dV 0%nat - hV dV' 0%nat)) by lra.
      replace (f 1%nat) with (g 1%nat + (hV dV 1%nat - hV dV' 1%nat)) by lra. ring. }
    specialize (L (hL dL) (hL dL')). rewrite K in L. enough (sumn 2 (fun i => nth i rhoV 0 * hL dL i) - sumn 2 (fun i => nth i rhoV 0 * hL dL' i) = 0) by lra.
    rewrite L; [ring|]. intros i Hi. specialize (D i Hi). lra.
Qed.

(** Isopleth: unit rate in temperature, equal pressure changes, constant mole fractions
    of the first phase.  The composition condition is weaker than in [regular_state]. *)
Theorem C24_isopleth : forall T rhoL rhoV, AD_exact ad -> const_R Rgas Rg -> solves2 solve -> 0 < T ->
  length rhoL = 2%nat -> length rhoV = 2%nat -> positive rhoL -> positive rhoV ->
  smooth_joint alphar Rgas T rhoL -> smooth_joint alphar Rgas T rhoV -> det2 (Hess T rhoV) <> 0 ->
  sumn 2 (fun i => (nth i rhoV 0 - nth i rhoL 0) * sumn 2 (fun j => nth j (nth i (Hess T rhoL) []) 0 * nth j rhoL 0)) <> 0 ->
  exists dL dV p', get_drhovecdT_xsat ad alphar Rgas solve T rhoL rhoV = Some (Val (dL, dV)) /\
    length dL = 2%nat /\ length dV = 2%nat /\ moves_along T 1 rhoL dL rhoV dV p' p' /\
    get_dpsat_dTsat_isopleth ad alphar Rgas solve T rhoL rhoV = Some (Val p') /\
    forall tau c, path T rhoL 1 dL tau c -> forall i, (i < 2)%nat -> is_derive (fun s => nth i (fractions (c s)) 0) 0 0.
Proof.
  intros T rhoL rhoV Had HC Hs HT NL NV PL PV SL SV DV Dx. pose proof HC as (HR0 & HR).
  destruct (isopleth_system ad alphar Rgas Rg HR solve Hs T rhoL rhoV) as (k & dV & E & LV & E1 & E2); auto.
  set (dL := map (Rmult k) (fractions rhoL)) in *.
  assert (LL : length dL = 2%nat) by (unfold dL; now rewrite map_length, fractions_length).
  destruct (isopleth_slope ad Had alphar Rgas Rg HR HR0 solve T rhoL rhoV k dV _ _ NL PL SL HT E (path_line T rhoL 1 dL ltac:(lia))) as (v & Ev & Dv).
  exists dL, dV, v. repeat (split; [auto; fail|]). split; [|split; [exact Ev|]].
  - assert (Ep : sumn 2 (fun i => nth i rhoL 0 * sumn 2 (fun j => nth j (nth i (Hess T rhoL) []) 0 * nth j dL 0)) +
      1 * get_dpdT_constrhovec ad alphar Rgas T rhoL = v).
    { pose proof (p_along_mu ad Had alphar Rgas Rg HR HR0 T rhoL 1 dL _ _ (path_line T rhoL 1 dL ltac:(lia)) SL HT PL) as D. rewrite NL in D.
      exact (is_derive_eq_unique _ _ _ _ D Dv). }
    apply moves_intro; auto.
    + intros i Hi. rewrite !Rmult_1_l. now apply E1.
    + rewrite <- Ep, !Rmult_1_l. symmetry. exact E2.
  - intros tau c P i Hi. pose proof (total_pos _ PL) as Hp. pose proof (total_along _ _ _ _ _ _ P) as DS.
    pose proof (path_drho _ _ _ _ _ _ P i ltac:(lia)) as Di.
    apply (is_derive_ext (fun s => nth i (c s) 0 * / total (c s))).
    { intro s. rewrite fractions_nth by (rewrite (path_len _ _ _ _ _ _ P); lia). reflexivity. }
    eapply is_derive_eq; [|apply (is_derive_mult' (fun s => nth i (c s) 0) (fun s => / total (c s)));
      [exact Di|apply (is_derive_inv (fun s => total (c s)) 0 _ DS); rewrite (path_rho _ _ _ _ _ _ P); lra]].
    eqR. rewrite (path_rho _ _ _ _ _ _ P).
    assert (Ed : sumn (length rhoL) (fun i => nth i dL 0) = k).
    { change (sumn (length rhoL) (fun i => nth i dL 0)) with (sumn (length rhoL) (fun i => nth i dL 0)).
      replace (length rhoL) with (length dL) by lia. fold (total dL). unfold dL. rewrite total_scale, total_fractions by lra. ring. }
    rewrite Ed. unfold dL. rewrite (nth_map0 (Rmult k)) by (rewrite fractions_length; lia). rewrite fractions_nth by lia. field. lra.
Qed.

(** Three-phase line: unit rate in temperature, all three phases stay in equilibrium. *)
Theorem C24_three_phases : forall T rhoV rho1 rho2, AD_exact ad -> const_R Rgas Rg -> solves2 solve -> 0 < T ->
  length rhoV = 2%nat -> length rho1 = 2%nat -> length rho2 = 2%nat -> positive rhoV -> positive rho1 -> positive rho2 ->
  smooth_joint alphar Rgas T rhoV -> smooth_joint alphar Rgas T rho1 -> smooth_joint alphar Rgas T rho2 ->
  det2 (Hess T rhoV) <> 0 -> det2 (Hess T rho1) <> 0 -> det2 (Hess T rho2) <> 0 ->
  cross (vsub rho1 rhoV) (vsub rho2 rhoV) <> 0 ->
  exists dV d1 d2 p', get_drhovecdT_VLLE_binary ad alphar Rgas solve T rhoV rho1 rho2 = Some (dV, d1, d2) /\
    length dV = 2%nat /\ length d1 = 2%nat /\ length d2 = 2%nat /\
    moves_along T 1 rhoV dV rho1 d1 p' p' /\ moves_along T 1 rhoV dV rho2 d2 p' p'.
Proof.
  intros T rhoV rho1 rho2 Had HC Hs HT NV N1 N2 PV P1 P2 SV S1 S2 DV D1 D2 Dx. pose proof HC as (HR0 & HR).
  destruct (VLLE_system ad alphar Rgas Rg HR solve Hs T rhoV rho1 rho2) as (dV & d1 & d2 & E & LV & L1 & L2 & A & B & C); auto.
  cbv zeta in A, B, C. eexists dV, d1, d2, _. split; [exact E|]. repeat (split; [auto; fail|]). split.
  - refine (moves_intro _ _ _ _ _ _ _ _ Had HC HT NV N1 PV P1 SV S1 _ eq_refl _).
    + intros i Hi. rewrite !Rmult_1_l. exact (proj1 (A i Hi)).
    + rewrite !Rmult_1_l. symmetry. exact B.
  - refine (moves_intro _ _ _ _ _ _ _ _ Had HC HT NV N2 PV P2 SV S2 _ eq_refl _).
    + intros i Hi. rewrite !Rmult_1_l. exact (proj2 (A i Hi)).
    + rewrite !Rmult_1_l. symmetry. exact C.
Qed.

(** Infinite dilution: component [j] is absent from both phases.  Its chemical potential
    is minus infinity; what stays equal is its activity rho_j exp(mu^r_j/RT), and the
    chemical potential of the other component [o]. *)
Definition dilute_moves_along (j o : nat) (T dT : R) (rhoL dL rhoV dV : list R) (p' : R) : Prop :=
  forall tau cL cV, path T rhoL dT dL tau cL -> path T rhoV dT dV tau cV ->
    let act c s := nth j (c s) 0 * exp (nth j (build_Psir_gradient ad alphar Rgas (tau s) (c s)) 0 / (Rg * tau s)) in
    is_derive (fun s => act cL s - act cV s) 0 0 /\
    is_derive (fun s => nth o (mu (tau s) (cL s)) 0 - nth o (mu (tau s) (cV s)) 0) 0 0 /\
    is_derive (fun s => p (tau s) (cL s)) 0 p' /\ is_derive (fun s => p (tau s) (cV s)) 0 p'.
Record dilute_state (j o : nat) (T : R) (rhoL rhoV : list R) : Prop := {
  ds_ad : AD_exact ad; ds_R : const_R Rgas Rg; ds_solve : solves2 solve; ds_T : 0 < T;
  ds_jo : ((j = 0 /\ o = 1) \/ (j = 1 /\ o = 0))%nat;
  ds_L : diluted j o rhoL; ds_V : diluted j o rhoV;
  ds_sL : smooth_joint alphar Rgas T rhoL; ds_sV : smooth_joint alphar Rgas T rhoV;
  ds_HL : nth o (nth o (Hess T rhoL) []) 0 <> 0; ds_HV : nth o (nth o (Hess T rhoV) []) 0 <> 0;
  ds_x : K_of ad alphar Rgas Rg T rhoL rhoV j * nth o rhoL 0 <> nth o rhoV 0 }.
Lemma dilute_intro : forall j o T dT rhoL dL rhoV dV p', dilute_state j o T rhoL rhoV -> length dL = 2%nat -> length dV = 2%nat ->
  nth j dV 0 = K_of ad alphar Rgas Rg T rhoL rhoV j * nth j dL 0 ->
  sumn 2 (fun k => nth k (nth o (Hess T rhoL) []) 0 * nth k dL 0) + dT * nth o (get_dchempotdT ad alphar Rgas T rhoL) 0 =
  sumn 2 (fun k => nth k (nth o (Hess T rhoV) []) 0 * nth k dV 0) + dT * nth o (get_dchempotdT ad alphar Rgas T rhoV) 0 ->
  nth o rhoL 0 * sumn 2 (fun k => nth k (nth o (Hess T rhoL) []) 0 * nth k dL 0) + Rg * T * nth j dL 0 + dT * get_dpdT_constrhovec ad alphar Rgas T rhoL = p' ->
  nth o rhoV 0 * sumn 2 (fun k => nth k (nth o (Hess T rhoV) []) 0 * nth k dV 0) + Rg * T * nth j dV 0 + dT * get_dpdT_constrhovec ad alphar Rgas T rhoV = p' ->
  dilute_moves_along j o T dT rhoL dL rhoV dV p'.
Proof.
  intros j o T dT rhoL dL rhoV dV p' [] ML MV EK E1 E2 E3 tau cL cV QL QV act. destruct ds_R0 as (HR0 & HR).
  assert (Hj : (j < 2)%nat) by (destruct ds_jo0 as [(-> & _)|(-> & _)]; lia). assert (Ho : (o < 2)%nat) by (destruct ds_jo0 as [(_ & ->)|(_ & ->)]; lia).
  destruct ds_L0 as (NL & ZL & PL). destruct ds_V0 as (NV & ZV & PV).
  assert (TP : forall rho, length rho = 2%nat -> nth j rho 0 = 0 -> 0 < nth o rho 0 -> 0 < total rho).
  { intros rho N Z P. unfold total. rewrite N, sum2. destruct ds_jo0 as [(-> & ->)|(-> & ->)]; lra. }
  assert (PE : forall rho d pp, length rho = 2%nat -> nth j rho 0 = 0 -> 0 < nth o rho 0 ->
    nth o rho 0 * sumn 2 (fun k => nth k (nth o (Hess T rho) []) 0 * nth k d 0) + Rg * T * nth j d 0 + dT * get_dpdT_constrhovec ad alphar Rgas T rho = pp ->
    sumn (length rho) (fun i => nth i rho 0 * sumn (length rho) (fun k => nth k (nth i (build_Psir_Hessian ad alphar Rgas T rho) []) 0 * nth k d 0)) +
     Rg * T * sumn (length rho) (fun i => nth i d 0) + dT * get_dpdT_constrhovec ad alphar Rgas T rho = pp).
  { intros rho d pp N Z P E. rewrite <- E. pose proof (Hess_row ad alphar Rgas Rg HR T rho d o ltac:(lia)) as HH. rewrite N in *. rewrite HH.
    rewrite (sum2 (fun i => nth i rho 0 * _)), (sum2 (fun i => nth i d 0)). destruct ds_jo0 as [(-> & ->)|(-> & ->)]; rewrite Z; field; lra. }
  split; [|split; [|split]].
  - pose proof (fug_along ad ds_ad0 alphar Rgas Rg HR0 T rhoL dT dL tau cL j QL ds_sL0 ds_T0 ltac:(lia) ZL) as D1.
    pose proof (fug_along ad ds_ad0 alphar Rgas Rg HR0 T rhoV dT dV tau cV j QV ds_sV0 ds_T0 ltac:(lia) ZV) as D2.
    eapply is_derive_eq; [|apply is_derive_minus'; [exact D1|exact D2]]. eqR. rewrite EK. unfold K_of.
    replace (exp ((nth j (build_Psir_gradient ad alphar Rgas T rhoL) 0 - nth j (build_Psir_gradient ad alphar Rgas T rhoV) 0) / (Rg * T)))
      with (exp (nth j (build_Psir_gradient ad alphar Rgas T rhoL) 0 / (Rg * T)) * / exp (nth j (build_Psir_gradient ad alphar Rgas T rhoV) 0 / (Rg * T))).
    + field. apply Rgt_not_eq, exp_pos.
    + rewrite <- exp_Ropp, <- exp_plus. f_equal. field. split; lra.
  - pose proof (mu_along ad ds_ad0 alphar Rgas Rg HR T rhoL dT dL tau cL o QL ds_sL0 PL ltac:(lia)) as D1.
    pose proof (mu_along ad ds_ad0 alphar Rgas Rg HR T rhoV dT dV tau cV o QV ds_sV0 PV ltac:(lia)) as D2.
    eapply is_derive_eq; [|apply is_derive_minus'; [exact D1|exact D2]]. eqR. rewrite NL, NV, E1 by auto. ring.
  - eapply is_derive_eq; [|apply (p_along ad ds_ad0 alphar Rgas Rg HR HR0 T rhoL dT dL tau cL QL ds_sL0 ds_T0 (TP _ NL ZL PL))]. now apply PE.
  - eapply is_derive_eq; [|apply (p_along ad ds_ad0 alphar Rgas Rg HR HR0 T rhoV dT dV tau cV QV ds_sV0 ds_T0 (TP _ NV ZV PV))]. now apply PE.
Qed.
Theorem C24_isotherm_infinite_dilution : forall j o T rhoL rhoV, dilute_state j o T rhoL rhoV ->
  exists dL dV, get_drhovecdp_Tsat ad alphar Rgas solve T rhoL rhoV = Some (Val (dL, dV)) /\
    length dL = 2%nat /\ length dV = 2%nat /\ dilute_moves_along j o T 0 rhoL dL rhoV dV 1.
Proof.
  intros j o T rhoL rhoV D. pose proof D as []. destruct ds_R0 as (HR0 & HR).
  destruct (isotherm_dilute ad alphar Rgas Rg HR HR0 solve ds_solve0 T rhoL rhoV j o) as (dL & dV & E & LL & LV & E1 & E2 & E3 & E4); auto.
  exists dL, dV. repeat (split; [auto; fail|]). apply dilute_intro; auto; rewrite ?Rmult_0_l, ?Rplus_0_r; auto.
Qed.
Theorem C24_isobar_infinite_dilution : forall j o T rhoL rhoV, dilute_state j o T rhoL rhoV ->
  exists dL dV, get_drhovecdT_psat ad alphar Rgas solve T rhoL rhoV = Some (Val (dL, dV)) /\
    length dL = 2%nat /\ length dV = 2%nat /\ dilute_moves_along j o T 1 rhoL dL rhoV dV 0.
Proof.
  intros j o T rhoL rhoV D. pose proof D as []. destruct ds_R0 as (HR0 & HR).
  destruct (isobar_dilute ad alphar Rgas Rg HR HR0 solve ds_solve0 T rhoL rhoV j o) as (dL & dV & E & LL & LV & E1 & E2 & E3 & E4); auto.
  exists dL, dV. repeat (split; [auto; fail|]). apply dilute_intro; auto; rewrite ?Rmult_1_l; auto.
Qed.
End C24.

(** ** Examples: R = 8, alphar = rho T (x1 + 2 x2), phases (1, 2) and (2, 1); for infinite
    dilution (0, 2) and (0, 3).  The phases move off equilibrium here; the theorems do not
    need the state itself to be one. *)
Lemma lin3 : forall p q r y, length y = 3%nat -> gradient_at (fun z => p * nth 0 z 0 + q * nth 1 z 0 + r * nth 2 z 0) y [p; q; r].
Proof.
  intros p q r y Hy. pose proof (gradient_lin (fun i => match i with O => p | S O => q | _ => r end) y) as H. rewrite Hy in H. simpl in H.
  eapply gradient_ext; [| | |exact H]; auto. intros z _. cbv beta. ring.
Qed.
Definition ex_P (z : list R) : R := 8 * nth 0 z 0 ^ 2 * ((nth 1 z 0 + nth 2 z 0) * (nth 1 z 0 + 2 * nth 2 z 0)).
Definition ex_G (z : list R) : list R :=
  let T := nth 0 z 0 in let a := nth 1 z 0 in let b := nth 2 z 0 in
  [16 * T * ((a + b) * (a + 2 * b)); 8 * T ^ 2 * (2 * a + 3 * b); 8 * T ^ 2 * (3 * a + 4 * b)].
Definition ex_H (z : list R) : list (list R) :=
  let T := nth 0 z 0 in let a := nth 1 z 0 in let b := nth 2 z 0 in
  [[16 * ((a + b) * (a + 2 * b)); 16 * T * (2 * a + 3 * b); 16 * T * (3 * a + 4 * b)];
   [16 * T * (2 * a + 3 * b); 16 * T ^ 2; 24 * T ^ 2]; [16 * T * (3 * a + 4 * b); 24 * T ^ 2; 32 * T ^ 2]].
Lemma ex_P_grad : forall z, length z = 3%nat -> gradient_at ex_P z (ex_G z).
Proof.
  intros [|T [|a [|b [|]]]] E; try discriminate.
  pose proof (gradient_mult _ _ _ _ _ (gradient_mult _ _ _ _ _ (lin3 8 0 0 [T; a; b] eq_refl) (lin3 1 0 0 [T; a; b] eq_refl))
    (gradient_mult _ _ _ _ _ (lin3 0 1 1 [T; a; b] eq_refl) (lin3 0 1 2 [T; a; b] eq_refl))) as H.
  eapply gradient_ext; [| | |exact H].
  - intros z _. cbv beta. unfold ex_P. ring.
  - reflexivity.
  - intros [|[|[|i]]] Hi; simpl in Hi; try lia; simpl; ring.
Qed.
Lemma ex_P_hess : forall z j, length z = 3%nat -> (j < 3)%nat -> gradient_at (fun y => nth j (ex_G y) 0) z (nth j (ex_H z) []).
Proof.
  intros [|T [|a [|b [|]]]] j E Hj; try discriminate. destruct j as [|[|[|j]]]; [| | |lia].
  - pose proof (gradient_mult _ _ _ _ _ (lin3 16 0 0 [T; a; b] eq_refl)
      (gradient_mult _ _ _ _ _ (lin3 0 1 1 [T; a; b] eq_refl) (lin3 0 1 2 [T; a; b] eq_refl))) as H.
    eapply gradient_ext; [| | |exact H]; [intros z _; cbn [nth ex_G]; ring|reflexivity|]. intros [|[|[|i]]] Hi; simpl in Hi; try lia; simpl; ring.
  - pose proof (gradient_mult _ _ _ _ _ (gradient_mult _ _ _ _ _ (lin3 8 0 0 [T; a; b] eq_refl) (lin3 1 0 0 [T; a; b] eq_refl))
      (lin3 0 2 3 [T; a; b] eq_refl)) as H.
    eapply gradient_ext; [| | |exact H]; [intros z _; cbn [nth ex_G]; ring|reflexivity|]. intros [|[|[|i]]] Hi; simpl in Hi; try lia; simpl; ring.
  - pose proof (gradient_mult _ _ _ _ _ (gradient_mult _ _ _ _ _ (lin3 8 0 0 [T; a; b] eq_refl) (lin3 1 0 0 [T; a; b] eq_refl))
      (lin3 0 3 4 [T; a; b] eq_refl)) as H.
    eapply gradient_ext; [| | |exact H]; [intros z _; cbn [nth ex_G]; ring|reflexivity|]. intros [|[|[|i]]] Hi; simpl in Hi; try lia; simpl; ring.
Qed.
Lemma ex_P_near : forall z, length z = 3%nat -> 0 < nth 1 z 0 + nth 2 z 0 ->
  near z (fun y => 0 < nth 1 y 0 + nth 2 y 0 /\ ex_P y = Psi_r ex_alphar ex_R (hd 0 y) (tl y)).
Proof.
  intros z Ez Hp. exists ((nth 1 z 0 + nth 2 z 0) / 2). split; [lra|]. intros y Ey Hy. rewrite Ez in *.
  pose proof (Hy 1%nat ltac:(lia)) as H1. pose proof (Hy 2%nat ltac:(lia)) as H2. apply Rabs_def2 in H1. apply Rabs_def2 in H2.
  destruct y as [|t [|a [|b [|]]]]; try discriminate. cbn [nth hd tl] in *. split; [lra|]. rewrite ex_Psir by lra. reflexivity.
Qed.
Lemma ex_P_gradient : forall z, length z = 3%nat -> 0 < nth 1 z 0 + nth 2 z 0 ->
  gradient_at (fun y => Psi_r ex_alphar ex_R (hd 0 y) (tl y)) z (ex_G z).
Proof.
  intros z Ez Hp. apply (gradient_ext_near ex_P); [|now apply ex_P_grad].
  eapply near_imp; [|apply (ex_P_near z Ez Hp)]. intros y _ (_ & E). exact E.
Qed.
Lemma ex_twice : forall T a b, 0 < a + b ->
  twice_at (fun y => Psi_r ex_alphar ex_R (hd 0 y) (tl y)) [T; a; b] ex_G (ex_H [T; a; b]).
Proof.
  intros T a b Hp. constructor.
  - eapply near_imp; [|apply (ex_P_near [T; a; b] eq_refl Hp)]. intros y Ey (P & _). now apply ex_P_gradient.
  - reflexivity.
  - intros j Hj. now apply ex_P_hess.
  - intros [|[|[|i]]] [|[|[|j]]] Hi Hj; simpl in *; try lia; ring.
Qed.
Lemma ex_joint : forall T a b, 0 < a + b -> smooth_joint ex_alphar ex_R T [a; b].
Proof. intros T a b Hp. exists ex_G, (ex_H [T; a; b]). now apply ex_twice. Qed.
Lemma ex_Hess : forall ad T a b i j, AD_exact ad -> 0 < a + b -> (i < 2)%nat -> (j < 2)%nat ->
  nth j (nth i (build_Psi_Hessian ad ex_alphar ex_R T [a; b]) []) 0 =
  nth (S j) (nth (S i) (ex_H [T; a; b]) []) 0 + if Nat.eqb i j then 8 * T / nth i [a; b] 0 else 0.
Proof.
  intros ad T a b i j Had Hp Hi Hj. pose proof (twice_tail _ _ _ _ _ (ex_twice T a b Hp)) as Ht. cbn [hd tl] in Ht.
  rewrite (Hess_entry ad ex_alphar ex_R 8) by auto. rewrite (hessian_ok ad Had ex_alphar ex_R T [a; b] _ _ i j Ht) by auto.
  f_equal. destruct i as [|[|i]]; [| |lia]; destruct j as [|[|j]]; try lia; reflexivity.
Qed.
Definition cramer2 (M : list (list R)) (v : list R) : list R :=
  let a := nth 0 (nth 0 M []) 0 in let b := nth 1 (nth 0 M []) 0 in let c := nth 0 (nth 1 M []) 0 in let d := nth 1 (nth 1 M []) 0 in
  let p := nth 0 v 0 in let q := nth 1 v 0 in [(p * d - b * q) / (a * d - b * c); (a * q - p * c) / (a * d - b * c)].
Lemma cramer2_ok : solves2 cramer2.
Proof. intros a b c d p q H. eexists _, _. split; [reflexivity|]. cbn [nth]. split; field; auto. Qed.
Lemma pos2 : forall a b, 0 < a -> 0 < b -> positive [a; b].
Proof. intros a b Ha Hb. split; simpl; [lia|]. intros [|[|i]] Hi; simpl; try lra; lia. Qed.
Example C24_regular_state_met : regular_state partialN ex_alphar ex_R 8 cramer2 1 [1; 2] [2; 1].
Proof.
  assert (Had : AD_exact partialN) by (intros f o x H; reflexivity).
  constructor; auto using ex_constR, cramer2_ok; try lra; try (apply pos2; lra); try (apply ex_joint; lra).
  - unfold det2. rewrite !ex_Hess by (auto; lra). simpl. lra.
  - unfold det2. rewrite !ex_Hess by (auto; lra). simpl. lra.
  - unfold cross. simpl. lra.
Qed.
Example C24_isopleth_met : exists dL dV p',
  get_drhovecdT_xsat partialN ex_alphar ex_R cramer2 1 [1; 2] [2; 1] = Some (Val (dL, dV)) /\
  moves_along partialN ex_alphar ex_R 1 1 [1; 2] dL [2; 1] dV p' p'.
Proof.
  assert (Had : AD_exact partialN) by (intros f o x H; reflexivity).
  destruct (C24_isopleth partialN ex_alphar ex_R 8 cramer2 1 [1; 2] [2; 1]) as (dL & dV & p' & E & _ & _ & M & _);
    auto using ex_constR, cramer2_ok; try lra; try (apply pos2; lra); try (apply ex_joint; lra).
  - unfold det2. rewrite !ex_Hess by (auto; lra). simpl. lra.
  - rewrite !sum2. rewrite !ex_Hess by (auto; lra). simpl. lra.
  - now exists dL, dV, p'.
Qed.
Example C24_three_phases_met : exists dV d1 d2 p',
  get_drhovecdT_VLLE_binary partialN ex_alphar ex_R cramer2 1 [1; 2] [2; 1] [1; 1] = Some (dV, d1, d2) /\
  moves_along partialN ex_alphar ex_R 1 1 [1; 2] dV [2; 1] d1 p' p' /\ moves_along partialN ex_alphar ex_R 1 1 [1; 2] dV [1; 1] d2 p' p'.
Proof.
  assert (Had : AD_exact partialN) by (intros f o x H; reflexivity).
  destruct (C24_three_phases partialN ex_alphar ex_R 8 cramer2 1 [1; 2] [2; 1] [1; 1]) as (dV & d1 & d2 & p' & E & _ & _ & _ & M & M');
    auto using ex_constR, cramer2_ok; try lra; try (apply pos2; lra); try (apply ex_joint; lra).
  1-3: unfold det2; rewrite !ex_Hess by (auto; lra); simpl; lra.
  - unfold cross, vsub, each. simpl. lra.
  - now exists dV, d1, d2, p'.
Qed.
Example C24_dilute_state_met : dilute_state partialN ex_alphar ex_R 8 cramer2 0 1 1 [0; 2] [0; 3].
Proof.
  assert (Had : AD_exact partialN) by (intros f o x H; reflexivity).
  constructor; auto using ex_constR, cramer2_ok; try lra; try (apply ex_joint; lra).
  - repeat split; simpl; lra.
  - repeat split; simpl; lra.
  - rewrite ex_Hess by (auto; lra). simpl. lra.
  - rewrite ex_Hess by (auto; lra). simpl. lra.
  - unfold K_of.
    assert (G : forall b, 0 < b -> nth 0 (build_Psir_gradient partialN ex_alphar ex_R 1 [0; b]) 0 = 24 * b).
    { intros b Hb. pose proof (ex_P_gradient [1; 0; b] eq_refl ltac:(simpl; lra)) as Hg. apply gradient_tail in Hg. cbn [hd tl] in Hg.
      rewrite (gradient_ok partialN Had ex_alphar ex_R 1 [0; b] _ 0 Hg) by (simpl; lia). simpl. ring. }
    rewrite !G by lra. cbn [nth]. pose proof (exp_increasing ((24 * 2 - 24 * 3) / (8 * 1)) 0 ltac:(lra)) as I. rewrite exp_0 in I. lra.
Qed.

(** ** Mixtures of other than two components are refused by the isobar and isopleth
    derivatives, and by the isopleth slope. *)
Theorem C24_binary_only : forall ad alphar Rgas solve T rhoL rhoV, length rhoL <> 2%nat -> 
  get_drhovecdT_psat ad alphar Rgas solve T rhoL rhoV = Some (Err StdInvalidArgument) /\
  get_drhovecdT_xsat ad alphar Rgas solve T rhoL rhoV = Some (Err StdInvalidArgument) /\
  get_dpsat_dTsat_isopleth ad alphar Rgas solve T rhoL rhoV = Some (Err StdInvalidArgument).
Proof.
  intros ad alphar Rgas solve T rhoL rhoV H. assert (E : Nat.eqb (length rhoL) 2 = false) by (now apply Nat.eqb_neq).
  unfold get_dpsat_dTsat_isopleth, get_drhovecdT_psat, get_drhovecdT_xsat. rewrite E. auto.
Qed.
Print Assumptions C24_isotherm.
Print Assumptions C24_isotherm_unique.
Print Assumptions C24_isobar.
Print Assumptions C24_isobar_unique.
Print Assumptions C24_isopleth.
Print Assumptions C24_three_phases.
Print Assumptions C24_isotherm_infinite_dilution.
Print Assumptions C24_isobar_infinite_dilution.
Print Assumptions C24_binary_only.
