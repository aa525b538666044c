(** Specification vocabulary for C24: states moving along a phase envelope. *)
From Coq Require Import Reals List.
From Coquelicot Require Import Coquelicot.
From Verif Require Import Vec_spec Iso_spec.
Import ListNotations.
Open Scope R_scope.

(** The residual Helmholtz energy density is twice differentiable in temperature and
    concentrations together. *)
Definition smooth_joint (alphar : R -> R -> list R -> R) (Rgas : list R -> R) (T : R) (rho : list R) : Prop :=
  exists G H, twice_at (fun y => Psi_r alphar Rgas (hd 0 y) (tl y)) (T :: rho) G H.

(** A phase whose temperature [tau s] and concentrations [c s] pass through (T, rho) at
    s = 0 at the rates [dT], [drho]. *)
Record path (T : R) (rho : list R) (dT : R) (drho : list R) (tau : R -> R) (c : R -> list R) : Prop := {
  path_T : tau 0 = T;
  path_rho : c 0 = rho;
  path_len : forall s, length (c s) = length rho;
  path_dT : is_derive tau 0 dT;
  path_drho : forall i, (i < length rho)%nat -> is_derive (fun s => nth i (c s) 0) 0 (nth i drho 0) }.

(** [solve] solves regular 2 x 2 systems. *)
Definition solves2 (solve : list (list R) -> list R -> list R) : Prop :=
  forall a b c d p q, a * d - b * c <> 0 ->
    exists x y, solve [[a; b]; [c; d]] [p; q] = [x; y] /\ a * x + b * y = p /\ c * x + d * y = q.

(** determinant of a 2 x 2 matrix; two concentration vectors are not proportional *)
Definition det2 (M : list (list R)) : R :=
  nth 0 (nth 0 M []) 0 * nth 1 (nth 1 M []) 0 - nth 1 (nth 0 M []) 0 * nth 0 (nth 1 M []) 0.
Definition cross (a b : list R) : R := nth 0 a 0 * nth 1 b 0 - nth 1 a 0 * nth 0 b 0.
