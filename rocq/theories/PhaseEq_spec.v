(** Specification vocabulary for C25: equilibrium of several phases. *)
From Coq Require Import Reals List.
From Coquelicot Require Import Coquelicot.
From Verif Require Import Vec_spec Iso_spec PhaseEq_model.
Import ListNotations.
Open Scope R_scope.

Section Spec.
Variable alphar : R -> R -> list R -> R.   (* residual Helmholtz energy / RT *)
Variable Rgas : list R -> R.
Variable Rg : R.
Variable aig : R -> R -> list R -> R.      (* ideal-gas Helmholtz energy / RT *)
Variable Rig : list R -> R.

(** fugacity of component i; [g] the derivatives of the residual Helmholtz energy density
    in the concentrations *)
Definition fugacity (T : R) (rho g : list R) (i : nat) : R := nth i rho 0 * (Rg * T) * exp (nth i g 0 / (Rg * T)).
(** Helmholtz energy per volume and the molar entropy, energy, enthalpy of one phase *)
Definition helmholtz (T : R) (rho : list R) : R := Psi_r aig Rig T rho + Psi_r alphar Rgas T rho.
Definition entropy (T : R) (rho : list R) : R := - Derive (fun t => helmholtz t rho) T / total rho.
Definition energy (T : R) (rho : list R) : R := helmholtz T rho / total rho + T * entropy T rho.
Definition enthalpy (T : R) (rho : list R) : R := energy T rho + p_of alphar Rgas T rho / total rho.

(** molar property of the whole system *)
Definition overall (u : unpacked) (f : list R -> R) : R :=
  sumn (length (u_betas u)) (fun ph => nth ph (u_betas u) 0 * f (nth ph (u_rhovecs u) [])).

Definition spec_holds (u : unpacked) (s : spec) : Prop :=
  match s with
  | TSpecification T => u_T u = T
  | BetaSpecification b k => nth k (u_betas u) 0 = b
  | PSpecification p => p_of alphar Rgas (u_T u) (nth 0 (u_rhovecs u) []) = p
  | MolarVolumeSpecification v => overall u (fun rho => 1 / total rho) = v
  | MolarEntropySpecification s => overall u (entropy (u_T u)) = s
  | MolarInternalEnergySpecification e => overall u (energy (u_T u)) = e
  | MolarEnthalpySpecification h => overall u (enthalpy (u_T u)) = h
  end.

(** [G ph]: the true residual chemical potentials of phase ph *)
Definition equilibrium (z : list R) (specs : list spec) (u : unpacked) (G : nat -> list R) : Prop :=
  let T := u_T u in
  let phase ph := nth ph (u_rhovecs u) [] in
  (forall ph i, (ph < length (u_rhovecs u))%nat -> (i < length z)%nat ->
     fugacity T (phase ph) (G ph) i = fugacity T (phase 0%nat) (G 0%nat) i) /\
  (forall ph, (ph < length (u_rhovecs u))%nat -> p_of alphar Rgas T (phase ph) = p_of alphar Rgas T (phase 0%nat)) /\
  (forall i, (i < length z)%nat -> overall u (fun rho => nth i (fractions rho) 0) = nth i z 0) /\
  overall u (fun _ => 1) = 1 /\
  (forall s, In s specs -> spec_holds u s).
End Spec.

(** A state of [Nph] phases of [Nc] components, positive concentrations and temperature,
    at which the energy densities are twice differentiable. *)
Definition well_shaped (Nc Nph : nat) (u : unpacked) : Prop :=
  (1 <= Nc)%nat /\ (1 <= Nph)%nat /\ length (u_rhovecs u) = Nph /\ length (u_betas u) = Nph /\
  forall ph, (ph < Nph)%nat -> length (nth ph (u_rhovecs u) []) = Nc.
Definition physical (u : unpacked) : Prop :=
  0 < u_T u /\ forall ph, (ph < length (u_rhovecs u))%nat -> positive (nth ph (u_rhovecs u) []).

(** A differentiable curve through the point x with velocity d. *)
Record curve (x d : list R) (X : R -> list R) : Prop := {
  cv_0 : X 0 = x; cv_len : forall s, length (X s) = length x;
  cv_d : forall j, (j < length x)%nat -> is_derive (fun s => nth j (X s) 0) 0 (nth j d 0) }.
