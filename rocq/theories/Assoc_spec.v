(** What the association term should do, without reference to the code. *)
From Coq Require Import Reals String List Bool.
From Verif Require Import Vec_spec.
Import ListNotations.
Open Scope R_scope.

(** The fraction of the sites of one kind that are not bonded *)
Definition fraction (v : R) : Prop := 0 < v <= 1.

(** The law of mass action: [K i j] collects density, mole fraction, number of sites and
    association strength *)
Definition mass_action (n : nat) (K : nat -> nat -> R) (X : nat -> R) : Prop :=
  forall i, (i < n)%nat -> X i * (1 + sumn n (fun j => K i j * X j)) = 1.

(** Number of distinct sites of one molecule, and of all molecules together *)
Definition distinct (m : list string) : nat := length (nodup string_dec m).
Fixpoint total_distinct (mols : list (list string)) : nat :=
  match mols with [] => 0%nat | m :: l => (distinct m + total_distinct l)%nat end.
(** How often a site occurs on a molecule *)
Definition occurrences (s : string) (m : list string) : nat := count_occ string_dec m s.

(** The contribution of one site with non-bonded fraction [X] to a/(RT) *)
Definition bond_energy (X : R) : R := ln X - X / 2 + 1 / 2.
(** a sum over the sites of a molecule, each counted as often as it occurs *)
Fixpoint over_sites (f : string -> R) (m : list string) : R :=
  match m with [] => 0 | s :: m' => f s + over_sites f m' end.

(** One pass of damped successive substitution, and [m] passes *)
Definition substituted (n : nat) (K : nat -> nat -> R) (X : nat -> R) (i : nat) : R :=
  1 / (1 + sumn n (fun j => K i j * X j)).
Fixpoint passes (n : nat) (K : nat -> nat -> R) (alpha : R) (m : nat) (X : nat -> R) : nat -> R :=
  match m with
  | 0%nat => X
  | S m' => passes n K alpha m' (fun i => alpha * X i + (1 - alpha) * substituted n K X i)
  end.

(** The loop stops at [X] when one more pass changes every entry by less than the tolerance *)
Definition settled (n : nat) (K : nat -> nat -> R) (alpha rtol atol : R) (X : nat -> R) : Prop :=
  forall i, (i < n)%nat -> let Xnew := alpha * X i + (1 - alpha) * substituted n K X i in Rabs (Xnew - X i) < rtol * Xnew + atol.
