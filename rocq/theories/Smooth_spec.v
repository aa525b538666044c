(** Families of partial derivatives of a function of (1/T, rho), used to state the
    smoothness hypotheses of C19-C21. *)
From Coq Require Import Reals List.
From Coquelicot Require Import Coquelicot.
From Verif Require Import Derivs_spec.
Import ListNotations.
Open Scope R_scope.

(** A domain of (1/T, rho) pairs, open in each variable, with positive members. *)
Record open_dom (dom : R -> R -> Prop) : Prop := {
  od_u : forall u r, dom u r -> locally u (fun u' => dom u' r);
  od_r : forall u r, dom u r -> locally r (fun r' => dom u r');
  od_pos : forall u r, dom u r -> 0 < u /\ 0 < r }.

(** [D i j] is the i-th derivative in 1/T of the j-th derivative in rho of [alpha],
    for i <= imax and j <= jmax, and the two orders of differentiation agree. *)
Record smooth_family (alpha : R -> R -> list R -> R) (z : list R) (dom : R -> R -> Prop)
  (imax jmax : nat) (D : nat -> nat -> R -> R -> R) : Prop := {
  sf_0 : forall u r, dom u r -> D 0%nat 0%nat u r = alpha (1 / u) r z;
  sf_u : forall i j u r, (i < imax)%nat -> (j <= jmax)%nat -> dom u r ->
    is_derive (fun u => D i j u r) u (D (S i) j u r);
  sf_r : forall i j u r, (i <= imax)%nat -> (j < jmax)%nat -> dom u r ->
    is_derive (fun r => D i j u r) r (D i (S j) u r) }.

(** Pressure from a residual Helmholtz energy alphar. *)
Definition pressure (Rg : R) (alphar : R -> R -> R) (T rho : R) : R :=
  rho * Rg * T * (1 + rho * Derive (fun r => alphar T r) rho).
