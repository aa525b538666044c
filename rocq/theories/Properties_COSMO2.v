(** C88: the combinatorial activity coefficients of COSMO-SAC, the factory; and of the residual ones
    (C87) the Gibbs-Duhem equation. *)
From Coq Require Import Reals ZArith String List Bool Lra Lia Permutation.
From Coquelicot Require Import Coquelicot.
From Verif Require Import Json_model Vec_spec Vec_proofs Derivs_spec Cubic_model Cubic_spec Cubic_proofs2 Terms_model Terms_proofs2 Ideal_model Ideal_proofs Assoc_model Assoc_proofs3 COSMO_model COSMO_spec COSMO_proofs COSMO_proofs2 Properties_COSMO.
Import ListNotations.
Local Open Scope R_scope.

(** * C87: Gibbs-Duhem.  Symmetric factors; shares [p] that add up to one and coefficients [G] that
    solve the equations, along a path *)
Lemma const_d : forall (a t : R), is_derive (fun _ : R => a) t 0.
Proof. intros. exact (is_derive_const (K := R_AbsRing) (V := R_NormedModule) a t). Qed.
Lemma minus_d : forall (f g : R -> R) t a b, is_derive f t a -> is_derive g t b -> is_derive (fun t => f t - g t) t (a - b).
Proof. intros. apply (is_derive_minus (K := R_AbsRing) (V := R_NormedModule)); assumption. Qed.
Lemma scal_d : forall k (f : R -> R) t a, is_derive f t a -> is_derive (fun t => k * f t) t (k * a).
Proof. intros. apply (is_derive_scal f t k a H). Qed.
Lemma mult_d : forall (f g : R -> R) (t a b : R), is_derive f t a -> is_derive g t b -> is_derive (fun t => f t * g t) t (a * g t + f t * b).
Proof. intros f g t a b H1 H2. exact (is_derive_mult f g t a b H1 H2 Rmult_comm). Qed.
Lemma sum_d : forall n (f : nat -> R -> R) (g : nat -> R) (t : R), (forall i, (i < n)%nat -> is_derive (f i) t (g i)) -> is_derive (fun t => sumn n (fun i => f i t)) t (sumn n g).
Proof. intros n f g t H. now apply is_derive_sumn. Qed.
Section Duhem.
Variables (n : nat) (F : nat -> nat -> R).
Hypothesis Fsym : forall i j, F i j = F j i.
Lemma shares_duhem : forall (p G : R -> nat -> R) (p' g : nat -> R) (t : R), locally t (fun s => solves n F (p s) (G s) /\ sumn n (p s) = 1) ->
  (forall j, (j < n)%nat -> is_derive (fun s => p s j) t (p' j)) -> (forall j, (j < n)%nat -> is_derive (fun s => G s j) t (g j)) ->
  sumn n (fun j => p t j * (g j / G t j)) = 0.
Proof.
  intros p G p' g t HL Dp DG. pose proof (locally_singleton _ _ HL) as [S1 _].
  assert (P0 : sumn n p' = 0).
  { assert (D1 : is_derive (fun s => sumn n (p s)) t (sumn n p')) by (apply (sum_d n (fun j s => p s j) p'); exact Dp).
    assert (D2 : is_derive (fun s => sumn n (p s)) t 0). { apply is_derive_ext_loc with (fun _ : R => 1); [|apply const_d]. revert HL. apply filter_imp. intros s [_ H]. now symmetry. }
    rewrite <- (is_derive_unique _ _ _ D1). exact (is_derive_unique _ _ _ D2). }
  assert (Eq : forall i, (i < n)%nat -> g i / G t i + G t i * sumn n (fun j => F i j * (p' j * G t j + p t j * g j)) = 0).
  { intros i Hi. destruct (S1 i Hi) as [Gi Bi].
    assert (DS : is_derive (fun s => sumn n (fun j => F i j * p s j * G s j)) t (sumn n (fun j => F i j * (p' j * G t j + p t j * g j)))).
    { apply (sum_d n (fun j s => F i j * p s j * G s j) (fun j => F i j * (p' j * G t j + p t j * g j))). intros j Hj. apply is_derive_ext with (fun s => F i j * (p s j * G s j)); [intros s; change (@eq R (F i j * (p s j * G s j)) (F i j * p s j * G s j)); ring|].
      apply scal_d. exact (mult_d (fun s => p s j) (fun s => G s j) t _ _ (Dp j Hj) (DG j Hj)). }
    pose proof (mult_d (fun s => G s i) _ t _ _ (DG i Hi) DS) as D1. cbv beta in D1.
    assert (D2 : is_derive (fun s => G s i * (sumn n (fun j => F i j * p s j * G s j))) t 0). { apply is_derive_ext_loc with (fun _ : R => 1); [|apply const_d]. revert HL. apply filter_imp. intros s [H _]. symmetry. exact (proj2 (H i Hi)). }
    pose proof (is_derive_unique _ _ _ D1) as U1. rewrite (is_derive_unique _ _ _ D2) in U1. rewrite U1. f_equal. unfold Rdiv. f_equal. apply Rmult_eq_reg_l with (G t i); [|lra]. rewrite Bi. apply Rinv_r. lra. }
  assert (Sum : sumn n (fun i => p t i * (g i / G t i)) + sumn n (fun i => sumn n (fun j => F i j * p t i * G t i * (p' j * G t j + p t j * g j))) = 0).
  { rewrite <- sumn_plus. apply sumn_0. intros i Hi. rewrite (sumn_ext n _ (fun j => p t i * G t i * (F i j * (p' j * G t j + p t j * g j)))) by (intros j Hj; ring). rewrite sumn_scal.
    transitivity (p t i * (g i / G t i + G t i * sumn n (fun j => F i j * (p' j * G t j + p t j * g j)))); [ring|]. rewrite Eq by assumption. ring. }
  rewrite sumn_swap in Sum. rewrite (sumn_ext n (fun i => sumn n _) (fun j => p' j + p t j * (g j / G t j))) in Sum.
  - rewrite sumn_plus, P0 in Sum. lra.
  - intros j Hj. destruct (S1 j Hj) as [Gj Bj]. rewrite (sumn_ext n _ (fun i => F j i * p t i * G t i * (p' j * G t j + p t j * g j))) by (intros i Hi; rewrite (Fsym i j); ring). rewrite sumn_scal_r.
    assert (B' : sumn n (fun i => F j i * p t i * G t i) = / G t j) by (apply Rmult_eq_reg_l with (G t j); [rewrite Bj, Rinv_r; lra|lra]). rewrite B'. field. lra.
Qed.
End Duhem.
(** The exact residual coefficients of the components of a mixture with amounts [a s]: along every
    path at constant temperature sum_i a_i d ln gamma_i = 0, and so they are the derivatives of
    sum_i a_i ln gamma_i. *)
Definition exact_residual (c : cosmo) (A : list R) (ps : list profiles) (G Gp : nat -> R) (i : nat) : R :=
  residual (nth i A 0) (k_AEFF (c_const c)) (share_pure (nth i A 0) (nth i ps no_profiles)) G Gp.
Theorem C87_gibbs_duhem : forall c T A V ps (a : R -> list R) (a' : nat -> R) (G : R -> nat -> R) (g : nat -> R) (Gp : nat -> nat -> R) t,
  proper_fluids A V ps -> k_AEFF (c_const c) <> 0 -> locally t (fun s => is_composition (a s) /\ length (a s) = length ps /\ solves 153 (factor c T) (share_mix (a s) A ps) (G s)) ->
  (forall i, (i < length ps)%nat -> is_derive (fun s => nth i (a s) 0) t (a' i)) -> (forall j, (j < 153)%nat -> is_derive (fun s => G s j) t (g j)) ->
  exists d : nat -> R, (forall i, (i < length ps)%nat -> is_derive (fun s => exact_residual c A ps (G s) (Gp i) i) t (d i)) /\ sumn (length ps) (fun i => nth i (a t) 0 * d i) = 0 /\
    is_derive (fun s => sumn (length ps) (fun i => nth i (a s) 0 * exact_residual c A ps (G s) (Gp i) i)) t (sumn (length ps) (fun i => a' i * exact_residual c A ps (G t) (Gp i) i)).
Proof.
  intros c T A V ps a a' G g Gp t PF K HL Da DG. pose proof (locally_singleton _ _ HL) as (Ct & Lt & St). pose proof PF as (_ & _ & PF').
  pose (u := fun j => g j / G t j). pose (d := fun i => nth i A 0 / k_AEFF (c_const c) * sumn 153 (fun j => share_pure (nth i A 0) (nth i ps no_profiles) j * u j)). exists d.
  assert (Dd : forall i, (i < length ps)%nat -> is_derive (fun s => exact_residual c A ps (G s) (Gp i) i) t (d i)).
  { intros i Hi. unfold exact_residual, residual, d. apply scal_d. apply (sum_d 153 (fun j s => share_pure (nth i A 0) (nth i ps no_profiles) j * (ln (G s j) - ln (Gp i j))) (fun j => share_pure (nth i A 0) (nth i ps no_profiles) j * u j)). intros j Hj. apply scal_d.
    destruct (St j Hj) as [Gj _]. assert (D : is_derive (fun s => ln (G s j)) t (g j * / G t j)). { apply (is_derive_comp ln (fun s => G s j) t (/ G t j) (g j)); [|exact (DG j Hj)]. apply is_derive_Reals, derivable_pt_lim_ln. exact Gj. }
    replace (u j) with (g j * / G t j - 0) by (unfold u, Rdiv; ring). apply minus_d; [exact D|apply const_d]. }
  (* shares *)
  pose (S := fun s => sumn (length ps) (fun i => nth i (a s) 0 * nth i A 0)). pose (B := fun i j => nth (j mod 51) (profile (nth i ps no_profiles) (kind_of (j / 51))) 0).
  assert (St0 : 0 < S t) by (unfold S; rewrite <- Lt; now apply (area_pos (a t) A V ps)).
  assert (Dp : forall j, (j < 153)%nat -> exists p', is_derive (fun s => share_mix (a s) A ps j) t p').
  { intros j Hj. exists ((sumn (length ps) (fun i => a' i * B i j) * S t - sumn (length ps) (fun i => nth i (a t) 0 * B i j) * sumn (length ps) (fun i => a' i * nth i A 0)) / S t ^ 2).
    apply is_derive_ext_loc with (fun s => sumn (length ps) (fun i => nth i (a s) 0 * B i j) / S s). { revert HL. apply filter_imp. intros s (_ & L & _). unfold share_mix, S, B. rewrite L. reflexivity. }
    apply (is_derive_div (fun s => sumn (length ps) (fun i => nth i (a s) 0 * B i j)) S t); [| |lra].
    - apply (sum_d (length ps) (fun i s => nth i (a s) 0 * B i j) (fun i => a' i * B i j)). intros i Hi. apply is_derive_ext with (fun s => B i j * nth i (a s) 0); [intros s; change (@eq R (B i j * nth i (a s) 0) (nth i (a s) 0 * B i j)); ring|]. rewrite Rmult_comm. apply scal_d. now apply Da.
    - unfold S. apply (sum_d (length ps) (fun i s => nth i (a s) 0 * nth i A 0) (fun i => a' i * nth i A 0)). intros i Hi. apply is_derive_ext with (fun s => nth i A 0 * nth i (a s) 0); [intros s; change (@eq R (nth i A 0 * nth i (a s) 0) (nth i (a s) 0 * nth i A 0)); ring|]. rewrite Rmult_comm. apply scal_d. now apply Da. }
  assert (GD : sumn 153 (fun j => share_mix (a t) A ps j * u j) = 0).
  { apply (shares_duhem 153 (factor c T) (factor_sym c T) (fun s => share_mix (a s) A ps) G (fun j => Derive (fun s => share_mix (a s) A ps j) t) g t); [| |assumption].
    - revert HL. apply filter_imp. intros s (Cs & Ls & Ss). split; [assumption|]. apply (C87_shares (a s) A V ps PF Cs Ls).
    - intros j Hj. destruct (Dp j Hj) as [p' D]. apply Derive_correct. exists p'. exact D. }
  assert (Z : sumn (length ps) (fun i => nth i (a t) 0 * d i) = 0).
  { transitivity (S t / k_AEFF (c_const c) * sumn 153 (fun j => share_mix (a t) A ps j * u j)); [|rewrite GD; ring].
    rewrite (sumn_ext (length ps) _ (fun i => / k_AEFF (c_const c) * sumn 153 (fun j => nth i (a t) 0 * B i j * u j))).
    - rewrite sumn_scal, sumn_swap. unfold Rdiv. rewrite (Rmult_comm (S t)), Rmult_assoc. f_equal. rewrite <- sumn_scal. apply sumn_ext. intros j Hj. rewrite sumn_scal_r. unfold share_mix. rewrite Lt. fold (S t). rewrite <- Rmult_assoc. f_equal. unfold B. field. lra.
    - intros i Hi. unfold d. rewrite <- !Rmult_assoc, <- !sumn_scal. apply sumn_ext. intros j Hj. unfold share_pure. fold (B i j). destruct (PF' i Hi) as (a0 & _). field. split; first [assumption|lra]. }
  split; [exact Dd|]. split; [exact Z|].
  replace (sumn (length ps) (fun i => a' i * exact_residual c A ps (G t) (Gp i) i)) with (sumn (length ps) (fun i => a' i * exact_residual c A ps (G t) (Gp i) i + nth i (a t) 0 * d i)) by (rewrite sumn_plus, Z; ring).
  apply (sum_d (length ps) (fun i s => nth i (a s) 0 * exact_residual c A ps (G s) (Gp i) i)). intros i Hi. exact (mult_d (fun s => nth i (a s) 0) _ t _ _ (Da i Hi) (Dd i Hi)).
Qed.
Definition no_interactions : constants := {| k_AEFF := 7.25; k_OH_OH := 0; k_OT_OT := 0; k_OH_OT := 0; k_A_ES := 0; k_B_ES := 0; k_R := 0.002; k_tol := 1e-8; k_fast := true |}.
Definition free_cosmo : cosmo := {| c_A := [2; 1]; c_V := [1; 1]; c_profiles := [odd_fluid; one_segment]; c_const := no_interactions; c_left := 20; c_w := 6 |}.
Example C87_gibbs_duhem_met : proper_fluids [2; 1] [1; 1] [odd_fluid; one_segment] /\
  locally 1 (fun s => is_composition [s; 1] /\ length [s; 1] = 2%nat /\ solves 153 (factor free_cosmo 300) (share_mix [s; 1] [2; 1] [odd_fluid; one_segment]) (fun _ => 1)) /\
  forall i, (i < 2)%nat -> is_derive (fun s => nth i [s; 1] 0) 1 (if Nat.eqb i 0 then 1 else 0).
Proof.
  assert (PF : proper_fluids [2; 1] [1; 1] [odd_fluid; one_segment]).
  { split; [reflexivity|]. split; [reflexivity|]. intros i Hi. cbn [length] in Hi. assert (D : i = 0%nat \/ i = 1%nat) by lia. destruct D as [-> | ->]; [exact (proj2 (proj2 odd_proper) 0%nat ltac:(cbn; lia))|exact (proj2 (proj2 one_proper) 0%nat ltac:(cbn; lia))]. }
  split; [exact PF|]. split.
  - apply (filter_imp (fun s => 0 < s)). 2: { apply (open_gt 0 1). lra. } intros s Hs. assert (C : is_composition [s; 1]) by (split; [repeat (constructor; [lra|]); constructor|exists 1; split; [right; now left|lra]]). split; [exact C|]. split; [reflexivity|].
    intros i Hi. split; [lra|]. rewrite Rmult_1_l. destruct (C87_shares [s; 1] [2; 1] [1; 1] [odd_fluid; one_segment] PF C eq_refl) as [S _]. transitivity (sumn 153 (share_mix [s; 1] [2; 1] [odd_fluid; one_segment])); [|exact S]. apply sumn_ext. intros j Hj.
    replace (factor free_cosmo 300 i j) with 1; [now rewrite Rmult_1_l, Rmult_1_r|]. symmetry. unfold factor. rewrite DELTAW_eq. unfold exchange_energy. cbn [free_cosmo c_const no_interactions k_A_ES k_B_ES].
    replace (bonding no_interactions (kind_of (i / 51)) (kind_of (j / 51))) with 0 by (destruct (kind_of (i / 51)), (kind_of (j / 51)); reflexivity). match goal with |- exp (- ?a / ?b) = 1 => replace a with 0 end; [unfold Rdiv; rewrite Ropp_0, Rmult_0_l; apply exp_0|]. unfold Rdiv. destruct (Rlt_dec _ _); ring.
  - intros i Hi. clear PF. destruct i as [|[|i]]; [cbn [nth Nat.eqb]; apply (is_derive_id (K := R_AbsRing))|cbn [nth Nat.eqb]; apply const_d|exfalso; lia].
Qed.

(** * C88: the combinatorial part *)
Definition sizes (x A V : list R) : Prop := length A = length x /\ length V = length x /\ all_pos A /\ all_pos V /\ is_composition x.
Lemma all_pos_nth : forall l i, all_pos l -> (i < length l)%nat -> 0 < nth i l 0.
Proof. intros l i H Hi. unfold all_pos in H. rewrite Forall_forall in H. apply H. now apply nth_In. Qed.
Lemma mean_pos : forall x l, is_composition x -> all_pos l -> length l = length x -> 0 < mean x (fun i => nth i l 0).
Proof.
  intros x l C P L. destruct (comp_nth x C) as [X (i & Hi & Xi)]. unfold mean. apply sumn_pos_lt with i; [|assumption|].
  - intros j Hj. apply Rmult_le_pos; [auto|]. left. apply all_pos_nth; [assumption|lia].
  - apply Rmult_lt_0_compat; [assumption|]. apply all_pos_nth; [assumption|lia].
Qed.
(** The volume and surface fractions over the mole fractions. *)
Definition volume_ratio (x V : list R) (i : nat) : R := nth i V 0 / mean x (fun j => nth j V 0).
Definition surface_ratio (x A : list R) (i : nat) : R := nth i A 0 / mean x (fun j => nth j A 0).
Lemma comb_value : forall c x, sizes x (c_A c) (c_V c) -> lngamma_comb c x = ok (map (fun i =>
    let q i := nth i (c_A c) 0 / q0 in let r i := nth i (c_V c) 0 / r0 in let l i := 5 * (r i - q i) - (r i - 1) in
    ln (volume_ratio x (c_V c) i) + 5 * q i * ln (surface_ratio x (c_A c) i / volume_ratio x (c_V c) i) + l i - volume_ratio x (c_V c) i * mean x l) (seq 0 (length x))).
Proof.
  intros c x (LA & LV & PA & PV & C). unfold lngamma_comb. rewrite LA, LV, !Nat.eqb_refl. cbn [negb]. cbv zeta.
  pose proof (mean_pos x _ C PA LA) as MA. pose proof (mean_pos x _ C PV LV) as MV.
  assert (E : forall l k, k <> 0 -> sumn (length x) (fun i => nth i x 0 * (nth i l 0 / k)) = mean x (fun i => nth i l 0) / k).
  { intros l k K. unfold mean. unfold Rdiv. rewrite <- sumn_scal_r. apply sumn_ext. intros i Hi. ring. }
  rewrite (osequence_build _ (fun i =>
    let q i := nth i (c_A c) 0 / q0 in let r i := nth i (c_V c) 0 / r0 in let l i := 5 * (r i - q i) - (r i - 1) in
    ln (volume_ratio x (c_V c) i) + 5 * q i * ln (surface_ratio x (c_A c) i / volume_ratio x (c_V c) i) + l i - volume_ratio x (c_V c) i * mean x l)); [reflexivity|].
  intros i Hi. rewrite Nat.add_0_l. cbv zeta. rewrite !E by (unfold q0, r0; lra). pose proof (all_pos_nth _ i PA ltac:(lia)) as Ai. pose proof (all_pos_nth _ i PV ltac:(lia)) as Vi.
  assert (Q0 : 0 < q0) by (unfold q0; lra). assert (R0 : 0 < r0) by (unfold r0; lra).
  assert (Y1 : nth i (c_V c) 0 / r0 / (mean x (fun i => nth i (c_V c) 0) / r0) = volume_ratio x (c_V c) i) by (unfold volume_ratio; field; lra).
  assert (Y2 : nth i (c_A c) 0 / q0 / (mean x (fun i => nth i (c_A c) 0) / q0) = surface_ratio x (c_A c) i) by (unfold surface_ratio; field; lra).
  assert (P1 : 0 < volume_ratio x (c_V c) i) by now apply Rdiv_lt_0_compat. assert (P2 : 0 < surface_ratio x (c_A c) i) by now apply Rdiv_lt_0_compat.
  assert (P3 : 0 < surface_ratio x (c_A c) i / volume_ratio x (c_V c) i) by now apply Rdiv_lt_0_compat.
  unfold cdiv at 1. destruct (Req_EM_T _ 0) as [Z|_]; [exfalso; assert (0 < mean x (fun i => nth i (c_V c) 0) / r0) by (apply Rdiv_lt_0_compat; assumption); lra|]. cbn [opt_bind]. rewrite Y1.
  unfold cdiv at 1. destruct (Req_EM_T _ 0) as [Z|_]; [exfalso; assert (0 < mean x (fun i => nth i (c_A c) 0) / q0) by (apply Rdiv_lt_0_compat; assumption); lra|]. cbn [opt_bind]. rewrite Y2.
  unfold cdiv. destruct (Req_EM_T _ 0) as [Z|_]; [lra|]. cbn [opt_bind]. unfold clog. destruct (Rlt_dec 0 (volume_ratio x (c_V c) i)) as [_|N]; [|contradiction]. cbn [opt_bind]. destruct (Rlt_dec 0 _) as [_|N]; [|contradiction]. cbn [opt_bind].
  unfold z_coordination. replace (10 / 2) with 5 by field. reflexivity.
Qed.
(** The coefficients are those of Flory-Huggins and Staverman-Guggenheim with 10 neighbours. *)
Theorem C88_formula : forall c x, sizes x (c_A c) (c_V c) -> sumn (length x) (fun i => nth i x 0) = 1 -> exists l, lngamma_comb c x = ok l /\ length l = length x /\
  forall i, (i < length x)%nat -> nth i l 0 = combinatorial 10 (nth i (c_A c) 0 / 79.53) (volume_ratio x (c_V c) i) (surface_ratio x (c_A c) i).
Proof.
  intros c x S S1. eexists. split; [now apply comb_value|]. split; [now rewrite map_length, seq_length|]. intros i Hi. rewrite nth_map_seq' by assumption. cbv zeta. destruct S as (LA & LV & PA & PV & C).
  pose proof (mean_pos x _ C PA LA) as MA. pose proof (mean_pos x _ C PV LV) as MV. pose proof (all_pos_nth _ i PA ltac:(lia)) as Ai. pose proof (all_pos_nth _ i PV ltac:(lia)) as Vi.
  assert (P1 : 0 < volume_ratio x (c_V c) i) by now apply Rdiv_lt_0_compat. assert (P2 : 0 < surface_ratio x (c_A c) i) by now apply Rdiv_lt_0_compat.
  assert (ML : mean x (fun j => 5 * (nth j (c_V c) 0 / r0 - nth j (c_A c) 0 / q0) - (nth j (c_V c) 0 / r0 - 1)) = 4 / r0 * mean x (fun j => nth j (c_V c) 0) - 5 / q0 * mean x (fun j => nth j (c_A c) 0) + 1).
  { unfold mean. rewrite (sumn_ext _ _ (fun j => (4 / r0 * (nth j x 0 * nth j (c_V c) 0) - 5 / q0 * (nth j x 0 * nth j (c_A c) 0)) + nth j x 0)) by (intros j Hj; unfold Rdiv; ring). rewrite sumn_plus, sumn_minus, !sumn_scal, S1. ring. }
  rewrite ML. unfold combinatorial. replace (volume_ratio x (c_V c) i / surface_ratio x (c_A c) i) with (/ (surface_ratio x (c_A c) i / volume_ratio x (c_V c) i)) by (field; lra).
  rewrite ln_Rinv by now apply Rdiv_lt_0_compat. set (L1 := ln (volume_ratio x (c_V c) i)). set (L2 := ln (surface_ratio x (c_A c) i / volume_ratio x (c_V c) i)). clearbody L1 L2. change 79.53 with q0. assert (Q0 : 0 < q0) by (unfold q0; lra). assert (R0 : 0 < r0) by (unfold r0; lra).
  unfold volume_ratio, surface_ratio in *. field. repeat split; lra.
Qed.
(** Wrong numbers of mole fractions. *)
Theorem C88_sizes : forall c x, (length (c_A c) <> length (c_V c) -> lngamma_comb c x = None) /\ (length (c_A c) = length (c_V c) -> length x <> length (c_A c) -> lngamma_comb c x = throws InvalidArgument).
Proof.
  intros c x. unfold lngamma_comb. split.
  - intros H. destruct (Nat.eqb_spec (length (c_A c)) (length (c_V c))); [contradiction|reflexivity].
  - intros H N. destruct (Nat.eqb_spec (length (c_A c)) (length (c_V c))); [|contradiction]. destruct (Nat.eqb_spec (length x) (length (c_A c))); [contradiction|reflexivity].
Qed.
(** Molecules of one size: no combinatorial part; so for a pure fluid. *)
Lemma mean_const : forall x l, sumn (length x) (fun i => nth i x 0) = 1 -> (forall i, (i < length x)%nat -> nth i l 0 = nth 0 l 0) -> mean x (fun i => nth i l 0) = nth 0 l 0.
Proof. intros x l S H. unfold mean. rewrite (sumn_ext _ _ (fun i => nth i x 0 * nth 0 l 0)) by (intros i Hi; now rewrite (H i Hi)). rewrite sumn_scal_r, S. ring. Qed.
Theorem C88_equal_sizes : forall c x l, sizes x (c_A c) (c_V c) -> sumn (length x) (fun i => nth i x 0) = 1 ->
  (forall i, (i < length x)%nat -> nth i (c_A c) 0 = nth 0 (c_A c) 0 /\ nth i (c_V c) 0 = nth 0 (c_V c) 0) -> lngamma_comb c x = ok l -> forall i, (i < length x)%nat -> nth i l 0 = 0.
Proof.
  intros c x l S S1 H E i Hi. destruct (C88_formula c x S S1) as (l' & E' & _ & V). rewrite E in E'. injection E' as <-. rewrite V by assumption. destruct S as (LA & LV & PA & PV & C). pose proof (all_pos_nth _ i PA ltac:(lia)) as Ai. pose proof (all_pos_nth _ i PV ltac:(lia)) as Vi.
  assert (W1 : volume_ratio x (c_V c) i = 1). { unfold volume_ratio. rewrite mean_const; [|assumption|intros j Hj; now apply H]. destruct (H i Hi) as [_ <-]. field. lra. }
  assert (W2 : surface_ratio x (c_A c) i = 1). { unfold surface_ratio. rewrite mean_const; [|assumption|intros j Hj; now apply H]. destruct (H i Hi) as [<- _]. field. lra. }
  rewrite W1, W2. unfold combinatorial. replace (1 / 1) with 1 by field. rewrite ln_1. ring.
Qed.
Theorem C88_pure : forall c l, length (c_A c) = 1%nat -> length (c_V c) = 1%nat -> all_pos (c_A c) -> all_pos (c_V c) -> lngamma_comb c [1] = ok l -> l = [0].
Proof.
  intros c l LA LV PA PV E. assert (S : sizes [1] (c_A c) (c_V c)). { repeat split; try assumption; [constructor; [lra|constructor]|exists 1; split; [now left|lra]]. }
  assert (S1 : sumn (length [1]) (fun i => nth i [1] 0) = 1) by (cbn; ring). destruct (C88_formula c [1] S S1) as (l' & E' & L & _). rewrite E in E'. injection E' as <-.
  pose proof (C88_equal_sizes c [1] l S S1) as Q. assert (Z : nth 0 l 0 = 0). { apply Q; [|assumption|cbn; lia]. intros i Hi. cbn [length] in Hi. replace i with 0%nat by lia. auto. }
  destruct l as [|a [|b l]]; try discriminate. cbn in Z. now subst.
Qed.
(** Copies: order, division and absence of components. *)
Theorem C88_copies : forall c r x' x l, sizes x (c_A c) (c_V c) -> is_composition x' -> lumped r x' x -> lngamma_comb c x = ok l ->
  lngamma_comb {| c_A := pick 0 r (c_A c); c_V := pick 0 r (c_V c); c_profiles := pick no_profiles r (c_profiles c); c_const := c_const c; c_left := c_left c; c_w := c_w c |} x' = ok (pick 0 r l).
Proof.
  intros c r x' x l S C' HL E. pose proof HL as (Lr & _). pose proof (fun i => lumped_lt r x' x i HL) as LT. pose proof (comb_value c x S) as V. rewrite E in V. injection V as ->. set (c' := Build_cosmo _ _ _ _ _ _). pose proof S as (LA & LV & PA & PV & C).
  assert (AP : forall q, all_pos q -> length q = length x -> all_pos (pick 0 r q)). { intros q P L. unfold all_pos. apply Forall_forall. intros v Hv. unfold pick in Hv. apply in_map_iff in Hv. destruct Hv as (i & <- & Hi). apply all_pos_nth; [assumption|]. destruct HL as (_ & HI & _). rewrite L. now apply HI. }
  assert (S' : sizes x' (c_A c') (c_V c')). { unfold c'. cbn [c_A c_V]. repeat split; try (apply AP; assumption); try apply C'; unfold pick; rewrite map_length; lia. }
  rewrite (comb_value c' x' S'). apply (f_equal ok).
  assert (ME : forall f g, (forall i, (i < length r)%nat -> f i = g (nth i r 0%nat)) -> mean x' f = mean x g). { intros f g H. unfold mean. rewrite Lr. now apply lump_mean. }
  rewrite Lr. apply list_ext; [unfold pick; rewrite !map_length, seq_length; reflexivity|]. rewrite map_length, seq_length. intros i Hi. rewrite pick_nth' by assumption. rewrite !nth_map_seq' by (assumption || now apply LT).
  cbv zeta. assert (NA : nth i (c_A c') 0 = nth (nth i r 0%nat) (c_A c) 0) by (unfold c'; cbn [c_A]; now apply pick_nth'). assert (NV : nth i (c_V c') 0 = nth (nth i r 0%nat) (c_V c) 0) by (unfold c'; cbn [c_V]; now apply pick_nth').
  assert (VR : volume_ratio x' (c_V c') i = volume_ratio x (c_V c) (nth i r 0%nat)). { unfold volume_ratio. rewrite NV. f_equal. apply ME. intros j Hj. unfold c'. cbn [c_V]. now apply pick_nth'. }
  assert (SR : surface_ratio x' (c_A c') i = surface_ratio x (c_A c) (nth i r 0%nat)). { unfold surface_ratio. rewrite NA. f_equal. apply ME. intros j Hj. unfold c'. cbn [c_A]. now apply pick_nth'. }
  rewrite VR, SR, NA, NV. f_equal. f_equal. apply ME. intros j Hj. unfold c'. cbn [c_A c_V]. now rewrite !pick_nth'.
Qed.
Theorem C88_order : forall c r x l, sizes x (c_A c) (c_V c) -> Permutation r (seq 0 (length x)) -> lngamma_comb c x = ok l ->
  lngamma_comb {| c_A := pick 0 r (c_A c); c_V := pick 0 r (c_V c); c_profiles := pick no_profiles r (c_profiles c); c_const := c_const c; c_left := c_left c; c_w := c_w c |} (pick 0 r x) = ok (pick 0 r l).
Proof.
  intros c r x l S P E. apply (C88_copies c r (pick 0 r x) x l S); [|now apply perm_lumped|assumption]. destruct S as (_ & _ & _ & _ & C).
  destruct (comp_nth x C) as [X (i & Hi & Xi)]. split.
  - apply Forall_forall. intros q Hq. unfold pick in Hq. apply in_map_iff in Hq. destruct Hq as (m & <- & _). auto.
  - exists (nth i x 0). split; [|assumption]. unfold pick. apply in_map_iff. exists i. split; [reflexivity|]. apply (Permutation_in _ (Permutation_sym P)). apply in_seq. lia.
Qed.
Theorem C88_divided : forall c x i s l, sizes x (c_A c) (c_V c) -> (i < length x)%nat -> 0 < s < nth i x 0 -> lngamma_comb c x = ok l ->
  let r := (seq 0 (length x) ++ [i])%list in
  lngamma_comb {| c_A := pick 0 r (c_A c); c_V := pick 0 r (c_V c); c_profiles := pick no_profiles r (c_profiles c); c_const := c_const c; c_left := c_left c; c_w := c_w c |} (replace i (nth i x 0 - s) x ++ [s]) = ok (pick 0 r l).
Proof.
  intros c x i s l S Hi Hs E r. apply (C88_copies c r _ x l S); [|now apply split_lumped|assumption]. destruct S as (_ & _ & _ & _ & C). destruct (comp_nth x C) as [X _]. split.
  - apply Forall_app. split; [|constructor; [lra|constructor]]. apply Forall_forall. intros q Hq. unfold replace in Hq. apply in_map_iff in Hq. destruct Hq as (m & <- & _). destruct (Nat.eqb m i); [lra|auto].
  - exists s. split; [apply in_or_app; right; now left|lra].
Qed.

(** Gibbs-Duhem *)
Definition coefficient (c : cosmo) (x : list R) (i : nat) : R := match lngamma_comb c x with Some (Val l) => nth i l 0 | _ => 0 end.
Theorem C88_gibbs_duhem : forall c (x : R -> list R) (x' : nat -> R) t, locally t (fun s => sizes (x s) (c_A c) (c_V c) /\ sumn (length (x s)) (fun i => nth i (x s) 0) = 1) ->
  (forall i, (i < length (c_A c))%nat -> is_derive (fun s => nth i (x s) 0) t (x' i)) ->
  exists d : nat -> R, (forall i, (i < length (c_A c))%nat -> is_derive (fun s => coefficient c (x s) i) t (d i)) /\ sumn (length (c_A c)) (fun i => nth i (x t) 0 * d i) = 0 /\
    is_derive (fun s => sumn (length (c_A c)) (fun i => nth i (x s) 0 * coefficient c (x s) i)) t (sumn (length (c_A c)) (fun i => x' i * coefficient c (x t) i)).
Proof.
  intros c x x' t HL Dx. set (n := length (c_A c)) in *. pose proof (locally_singleton _ _ HL) as [St S1]. pose proof St as (LA & LV & PA & PV & C). assert (Ln : length (x t) = n) by (unfold n; lia).
  pose (M := fun (B : list R) s => sumn n (fun i => nth i (x s) 0 * nth i B 0)). pose (D := fun B : list R => sumn n (fun i => x' i * nth i B 0)).
  assert (DM : forall B, is_derive (M B) t (D B)).
  { intros B. apply (sum_d n (fun i s => nth i (x s) 0 * nth i B 0) (fun i => x' i * nth i B 0)). intros i Hi. apply is_derive_ext with (fun s => nth i B 0 * nth i (x s) 0); [intros s; apply Rmult_comm|]. rewrite Rmult_comm. apply scal_d. now apply Dx. }
  assert (MA : 0 < M (c_A c) t) by (unfold M; rewrite <- Ln; now apply mean_pos). assert (MV : 0 < M (c_V c) t) by (unfold M; rewrite <- Ln; now apply (mean_pos (x t) (c_V c))).
  pose (e := - (D (c_V c) / M (c_V c) t)). pose (h := e + D (c_A c) / M (c_A c) t). pose (q := fun i => nth i (c_A c) 0 / 79.53).
  pose (phi := fun i s => nth i (c_V c) 0 / M (c_V c) s). pose (w := fun i s => nth i (c_V c) 0 / nth i (c_A c) 0 * (M (c_A c) s / M (c_V c) s)).
  pose (d := fun i => e * (1 - phi i t) - 5 * q i * (h * (1 - w i t))). exists d.
  assert (Dd : forall i, (i < n)%nat -> is_derive (fun s => coefficient c (x s) i) t (d i)).
  { intros i Hi. assert (Ai : 0 < nth i (c_A c) 0) by (apply all_pos_nth; assumption). assert (Vi : 0 < nth i (c_V c) 0) by (apply all_pos_nth; [assumption|lia]).
    apply is_derive_ext_loc with (fun s => (ln (phi i s) - phi i s + 1) - 5 * q i * (ln (w i s) - w i s + 1)).
    - assert (PA' : locally t (fun s => 0 < M (c_A c) s)). { apply (ex_derive_continuous (M (c_A c)) t (ex_intro _ _ (DM (c_A c)))). now apply (open_gt 0). }
      generalize (filter_and _ _ HL PA'). apply filter_imp. intros s [[Ss Ts] MAs]. destruct (C88_formula c (x s) Ss Ts) as (l & El & _ & Vl). assert (Ls : length (x s) = n) by (unfold n; destruct Ss as (? & _); lia). unfold coefficient. rewrite El. unfold ok. cbv iota beta. rewrite Vl by lia.
      unfold combinatorial, volume_ratio, surface_ratio, mean. rewrite Ls. fold (M (c_V c) s) (M (c_A c) s) (phi i s) (q i). 
      assert (MVs : 0 < M (c_V c) s) by (unfold M; rewrite <- Ls; apply (mean_pos (x s) (c_V c)); apply Ss).
      replace (phi i s / (nth i (c_A c) 0 / M (c_A c) s)) with (w i s) by (unfold w, phi; field; lra). replace (10 / 2) with 5 by field. change (@eq R ((ln (phi i s) - phi i s + 1) - 5 * q i * (ln (w i s) - w i s + 1)) (ln (phi i s) + 1 - phi i s - 5 * q i * (ln (w i s) + 1 - w i s))). ring.
    - assert (LM : forall (f : R -> R) f', 0 < f t -> is_derive f t f' -> is_derive (fun s => ln (f s) - f s + 1) t (f' / f t * (1 - f t))).
      { intros f f' F Df. replace (f' / f t * (1 - f t)) with ((f' * / f t - f') + 0) by (field; lra). apply (is_derive_plus (K := R_AbsRing) (V := R_NormedModule)); [|apply const_d]. apply minus_d; [|assumption]. apply (is_derive_comp ln f t (/ f t) f'); [|exact Df]. apply is_derive_Reals, derivable_pt_lim_ln. exact F. }
      assert (Dphi : is_derive (phi i) t (e * phi i t)). { replace (e * phi i t) with ((0 * M (c_V c) t - nth i (c_V c) 0 * D (c_V c)) / M (c_V c) t ^ 2) by (unfold e, phi; field; lra). apply (is_derive_div (fun _ => nth i (c_V c) 0) (M (c_V c)) t); [apply const_d|apply DM|lra]. }
      assert (Dw : is_derive (w i) t (h * w i t)). { replace (h * w i t) with (nth i (c_V c) 0 / nth i (c_A c) 0 * ((D (c_A c) * M (c_V c) t - M (c_A c) t * D (c_V c)) / M (c_V c) t ^ 2)) by (unfold h, e, w; field; lra). unfold w. apply scal_d. apply (is_derive_div (M (c_A c)) (M (c_V c)) t); [apply DM|apply DM|lra]. }
      assert (P1 : 0 < phi i t) by now apply Rdiv_lt_0_compat. assert (P2 : 0 < w i t) by (unfold w; apply Rmult_lt_0_compat; now apply Rdiv_lt_0_compat).
      unfold d. replace (e * (1 - phi i t)) with (e * phi i t / phi i t * (1 - phi i t)) by (field; lra). replace (h * (1 - w i t)) with (h * w i t / w i t * (1 - w i t)) by (field; lra).
      apply minus_d; [now apply LM|]. apply scal_d. now apply LM. }
  assert (Z : sumn n (fun i => nth i (x t) 0 * d i) = 0).
  { rewrite (sumn_ext n _ (fun i => (e * nth i (x t) 0 - e / M (c_V c) t * (nth i (x t) 0 * nth i (c_V c) 0)) - (5 * h / 79.53 * (nth i (x t) 0 * nth i (c_A c) 0) - 5 * h / 79.53 * (M (c_A c) t / M (c_V c) t) * (nth i (x t) 0 * nth i (c_V c) 0)))).
    - rewrite !sumn_minus, !sumn_scal. rewrite <- Ln at 1. rewrite S1. fold (M (c_V c) t) (M (c_A c) t). field. lra.
    - intros i Hi. assert (Ai : 0 < nth i (c_A c) 0) by (apply all_pos_nth; assumption). unfold d, phi, w, q. field. lra. }
  split; [exact Dd|]. split; [exact Z|].
  replace (sumn n (fun i => x' i * coefficient c (x t) i)) with (sumn n (fun i => x' i * coefficient c (x t) i + nth i (x t) 0 * d i)) by (rewrite sumn_plus, Z; ring).
  apply (sum_d n (fun i s => nth i (x s) 0 * coefficient c (x s) i)). intros i Hi. exact (mult_d (fun s => nth i (x s) 0) _ t _ _ (Dx i Hi) (Dd i Hi)).
Qed.

(** * From JSON *)
Definition one_kind (s p : list R) : json := JObj [("sigma / e/A^2", JArr (map JNum s)); ("p(sigma)*A / A^2", JArr (map JNum p))]%string.
Definition three_kinds (s : list R) (p : profiles) : json := JObj [("nhb", one_kind s (s_nhb p)); ("oh", one_kind s (s_oh p)); ("ot", one_kind s (s_ot p))]%string.
(** The constants of COSMO-SAC 2010 with the given electrostatic constants and way. *)
Definition with_constants (a b : R) (fast : bool) : constants :=
  {| k_AEFF := 7.25; k_OH_OH := 4013.78; k_OT_OT := 932.31; k_OH_OT := 3016.43; k_A_ES := a; k_B_ES := b; k_R := 1.38064903e-23 * 6.022140758e23 / 4184; k_tol := 1e-8; k_fast := fast |}.
Definition model_of (o : option cosmo) : outcome cosmo := match o with Some c => ok c | None => None end.
Definition optional {A} (l : list (string * json)) (k : string) (wrap : A -> json) (d v : A) : Prop := (lookup k l = None /\ v = d) \/ lookup k l = Some (wrap v).
Lemma profiles_read : forall s ps, map_res (fun p => bind (read_profile p "nhb") (fun a => bind (read_profile p "oh") (fun b => bind (read_profile p "ot") (fun c => Val {| s_nhb := a; s_oh := b; s_ot := c |})))) (map (three_kinds s) ps) = Val ps.
Proof.
  intros s ps. induction ps as [|p ps IH]; [reflexivity|]. cbn [map map_res]. unfold three_kinds at 1 2 3, read_profile at 1 2 3, doubles, one_kind. cbn [j_at lookup String.eqb Ascii.eqb Bool.eqb bind]. rewrite !valarray_nums. cbn [bind]. rewrite IH. destruct p. reflexivity.
Qed.
Lemma optional_read : forall {A} l k (f : json -> res A) wrap d v, (forall a, f (wrap a) = Val a) -> optional l k wrap d v -> value (JObj l) k f d = Val v.
Proof. intros A l k f wrap d v W [[H ->]|H]; unfold value, j_contains, j_at; rewrite H; [reflexivity|]. cbn [bind]. apply W. Qed.
Lemma doubles_read : forall l k v, lookup k l = Some (JArr (map JNum v)) -> doubles (JObj l) k = Val v.
Proof. intros l k v H. unfold doubles, j_at. rewrite H. cbn [bind]. apply valarray_nums. Qed.
Theorem C88_json : forall l A V s ps, lookup "A_COSMOSAC / A^2" l = Some (JArr (map JNum A)) -> lookup "V_COSMOSAC / A^3" l = Some (JArr (map JNum V)) -> lookup "profiles" l = Some (JArr (map (three_kinds s) ps)) ->
  (lookup "constants" l = None -> cosmo_factory (JObj l) = model_of (make_cosmo A V ps (with_constants 6525.69 1.4859e8 true))) /\
  (forall q a b fast, lookup "constants" l = Some (JObj q) -> optional q "A_ES / kcal A^4 /(mol e^2)" JNum 6525.69 a -> optional q "B_ES / kcal A^4 K^2/(mol e^2)" JNum 1.4859e8 b -> optional q "fast_Gamma" JBool true fast ->
    cosmo_factory (JObj l) = model_of (make_cosmo A V ps (with_constants a b fast))).
Proof.
  intros l A V s ps HA HV HP. unfold cosmo_factory. rewrite (doubles_read l _ A HA), (doubles_read l _ V HV). cbn [j_at]. rewrite HP. cbn [bind obind j_values]. rewrite profiles_read. cbn [obind]. unfold read_constants, j_contains, j_at. split.
  - intros HC. rewrite HC. cbn [obind]. unfold default_constants, with_constants. destruct (make_cosmo _ _ _ _); reflexivity.
  - intros q a b fast HC Oa Ob Of. rewrite HC. cbn [bind]. cbv zeta. rewrite (optional_read q _ j_double JNum _ a) by (first [reflexivity|assumption]). cbn [bind]. rewrite (optional_read q _ j_double JNum _ b) by (first [reflexivity|assumption]). cbn [bind]. rewrite (optional_read q _ j_bool JBool _ fast) by (first [reflexivity|assumption]). cbn [bind obind]. unfold default_constants, with_constants. cbn [k_AEFF k_OH_OH k_OT_OT k_OH_OT k_R k_tol]. destruct (make_cosmo _ _ _ _); reflexivity.
Qed.
Theorem C88_json_missing : forall l key, In key ["A_COSMOSAC / A^2"; "V_COSMOSAC / A^3"; "profiles"]%string -> lookup key l = None -> cosmo_factory (JObj l) = throws JsonError.
Proof.
  intros l key I H. unfold cosmo_factory. change (doubles (JObj l)) with (fun k => bind (j_at (JObj l) k) (j_valarray j_double)). cbv beta. cbn [j_at].
  assert (D : forall j, (exists v, j_double j = Val v) \/ j_double j = Err JsonError) by (intros []; cbn; eauto).
  assert (GD : forall j, (exists v, j_valarray j_double j = Val v) \/ j_valarray j_double j = Err JsonError).
  { intros j. destruct j; cbn; eauto. match goal with |- context [map_res _ ?m] => induction m as [|a m IH] end; cbn; [eauto|]. destruct (D a) as [[v ->]| ->]; cbn; eauto. destruct IH as [[t ->]| ->]; cbn; eauto. }
  cbn [In] in I. decompose [or] I; subst; try contradiction; rewrite ?H; cbn [bind obind]; try reflexivity;
  repeat match goal with
  | |- context [match lookup ?a l with _ => _ end] => destruct (lookup a l); cbn [bind obind]; try reflexivity
  | |- context [j_valarray j_double ?j] => destruct (GD j) as [[? ->]| ->]; cbn [bind obind]; try reflexivity
  end.
Qed.

(** Two molecules *)
Example C88_met : sizes [0.3; 0.7] [43.2; 88.1] [25.7; 86.5] /\ sumn (length [0.3; 0.7]) (fun i => nth i [0.3; 0.7] 0) = 1 /\
  (locally 0.3 (fun s => sizes [s; 1 - s] [43.2; 88.1] [25.7; 86.5] /\ sumn (length [s; 1 - s]) (fun i => nth i [s; 1 - s] 0) = 1)) /\
  (forall i, (i < 2)%nat -> is_derive (fun s => nth i [s; 1 - s] 0) 0.3 (if Nat.eqb i 0 then 1 else -1)).
Proof.
  assert (S : forall s, 0 < s < 1 -> sizes [s; 1 - s] [43.2; 88.1] [25.7; 86.5]).
  { intros s Hs. repeat split; try (repeat (constructor; [lra|]); constructor). exists s. split; [now left|lra]. }
  split; [replace 0.7 with (1 - 0.3) by lra; apply S; lra|]. split; [cbn; lra|]. split.
  - apply (filter_imp (fun s => 0 < s < 1)). { intros s Hs. split; [now apply S|cbn; ring]. } apply filter_and; [apply (open_gt 0)|apply (open_lt 1)]; lra.
  - intros i Hi. destruct i as [|[|i]]; [cbn [nth Nat.eqb]; apply (is_derive_id (K := R_AbsRing))|cbn [nth Nat.eqb]|exfalso; lia]. replace (-1) with (0 - 1) by ring. apply minus_d; [apply const_d|apply (is_derive_id (K := R_AbsRing))].
Qed.
Print Assumptions C87_gibbs_duhem.
Print Assumptions C88_formula.
Print Assumptions C88_sizes.
Print Assumptions C88_equal_sizes.
Print Assumptions C88_pure.
Print Assumptions C88_copies.
Print Assumptions C88_order.
Print Assumptions C88_divided.
Print Assumptions C88_gibbs_duhem.
Print Assumptions C88_json.
Print Assumptions C88_json_missing.
