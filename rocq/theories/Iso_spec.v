(** Specification vocabulary for the isochoric derivatives (C22, C23): the residual
    Helmholtz energy density, the pressure, the chemical potentials and the fugacities
    of a mixture at temperature T and molar concentrations rho_1..rho_N. *)
From Coq Require Import Reals List.
From Coquelicot Require Import Coquelicot.
From Verif Require Import Derivs_spec Vec_spec.
Import ListNotations.
Open Scope R_scope.

(** total density and mole fractions *)
Definition total (rho : list R) : R := sumn (length rho) (fun i => nth i rho 0).
Definition fractions (rho : list R) : list R := map (fun r => r / total rho) rho.

Definition positive (rho : list R) : Prop := (1 <= length rho)%nat /\ forall i, (i < length rho)%nat -> 0 < nth i rho 0.

Section Mixture.
Variable alphar : R -> R -> list R -> R.
Variable Rgas : list R -> R.

(** residual Helmholtz energy per volume *)
Definition Psi_r (T : R) (rho : list R) : R :=
  total rho * (Rgas (fractions rho) * T * alphar T (total rho) (fractions rho)).
(** ... with the ideal-gas mixing part R T sum rho_i ln rho_i *)
Definition Psi (T : R) (rho : list R) : R :=
  Psi_r T rho + Rgas (fractions rho) * T * sumn (length rho) (fun i => nth i rho 0 * ln (nth i rho 0)).
(** p = rho^2 (da/drho)_{T,x} with a = R T (ln rho + alphar) *)
Definition p_of (T : R) (rho : list R) : R :=
  th_p (fun T r => Rgas (fractions rho) * T * (ln r + alphar T r (fractions rho))) T (total rho).

(** Psi_r is twice differentiable in the concentrations. *)
Definition smooth_rho (T : R) (rho : list R) : Prop := exists G H, twice_at (Psi_r T) rho G H.
(** Psi_r and its concentration gradient are differentiable in temperature. *)
Definition smooth_T (T : R) (rho : list R) : Prop :=
  exists (G : R -> list R) (dF : R) (dG : nat -> R), locally T (fun t => gradient_at (Psi_r t) rho (G t)) /\
    is_derive (fun t => Psi_r t rho) T dF /\
    forall i, (i < length rho)%nat -> is_derive (fun t => nth i (G t) 0) T (dG i).
(** alphar has a second derivative in the density and in the i-th mole fraction (the
    others kept), the same in either order. *)
Definition smooth_rx (T rho : R) (x : list R) (i : nat) : Prop :=
  exists (fx fr : R -> R) (m : R),
    locally rho (fun r => is_derive (fun s => alphar T r (replace i s x)) (nth i x 0) (fx r)) /\
    is_derive fx rho m /\
    locally (nth i x 0) (fun s => is_derive (fun r => alphar T r (replace i s x)) rho (fr s)) /\
    is_derive fr (nth i x 0) m.
End Mixture.
