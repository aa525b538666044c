(** Specification vocabulary for C19-C21, C47: thermodynamics of a pure fluid with
    residual Helmholtz energy alphar(T, rho). *)
From Coq Require Import Reals List.
From Coquelicot Require Import Coquelicot.
From Verif Require Import Derivs_spec Smooth_spec Pure_model.
Import ListNotations.
Open Scope R_scope.

(** On the states [dom], the derivative accessors of a model up to the orders used
    (one in 1/T, [jmax] in rho) are the scaled derivatives of [alphar].  C17 says so
    for the accessors of the library; see [accessors_of_ad] in Properties_Pure. *)
Definition accessors_of (m : amodel) (alphar : R -> R -> list R -> R) (z : list R)
  (dom : R -> R -> Prop) (jmax : nat) : Prop :=
  forall i j T rho, (i <= 1)%nat -> (j <= jmax)%nat -> dom (1 / T) rho ->
    get_A m i j T rho z = Lambda alphar i j T rho z.

(** Molar Helmholtz energy: residual part, ideal gas in density, and an arbitrary
    function of temperature for the rest of the ideal gas. *)
Definition molar_a (Rg : R) (ig : R -> R) (alphar : R -> R -> R) (T rho : R) : R :=
  Rg * T * (ig T + ln rho + alphar T rho).
(** Chemical potential (molar Gibbs energy). *)
Definition chempot (a : R -> R -> R) (T rho : R) : R := a T rho + th_p a T rho / rho.

(** The linear solver returns a solution whenever the matrix is regular, and zero
    for a zero right-hand side of a regular matrix follows. *)
Definition linsolve_ok (linsolve : mat2 -> R * R -> R * R) : Prop :=
  forall J b, m00 J * m11 J - m01 J * m10 J <> 0 ->
    m00 J * fst (linsolve J b) + m01 J * snd (linsolve J b) = fst b /\
    m10 J * fst (linsolve J b) + m11 J * snd (linsolve J b) = snd b.
