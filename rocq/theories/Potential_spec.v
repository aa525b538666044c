(** What is expected of the equations of state in simulation units. *)
From Coq Require Import Reals List.
From Coquelicot Require Import Coquelicot.
From Verif Require Import Vec_spec.
Open Scope R_scope.

(** A quantity that may be undefined is continuous at x: it is defined there, and close to its
    value there at every point close to x *)
Definition continuous_at (f : R -> option R) (x : R) : Prop :=
  exists v, f x = Some v /\
  forall eps, 0 < eps -> exists d, 0 < d /\ forall y, Rabs (y - x) < d -> exists w, f y = Some w /\ Rabs (w - v) < eps.
(** It is defined around x and has the derivative d there *)
Definition derivative_at (f : R -> option R) (x d : R) : Prop :=
  exists F : R -> R, is_derive F x d /\ exists r, 0 < r /\ forall y, Rabs (y - x) < r -> f y = Some (F y).
(** The residual energy of Carnahan and Starling at the packing fraction eta *)
Definition carnahan_starling (eta : R) : R := (4 * eta - 3 * eta ^ 2) / (1 - eta) ^ 2.
(** The compressibility factor of hard spheres of Kolafa and Nezbeda, their equation 4 *)
Definition z_hard_spheres (z : R) : R := (1 + z + z ^ 2 - 2 / 3 * z ^ 3 * (1 + z)) / (1 - z) ^ 3.
(** The pressure of the modified Benedict-Webb-Rubin equation, less the ideal part, over rho^2 *)
Definition mbwr (a b : nat -> R) (gamma rho : R) : R :=
  sumn 8 (fun k => a (k + 1)%nat * rho ^ k) + exp (- gamma * rho ^ 2) * sumn 6 (fun k => b (k + 1)%nat * rho ^ (2 * k + 1)).
