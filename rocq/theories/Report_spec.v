(** What can be recalculated from a report of the association calculations, without reference to the code. *)
From Coq Require Import Reals String List.
From Verif Require Import Vec_spec Assoc_spec.
Import ListNotations.
Open Scope R_scope.

(** Tables: the component of each site, how often it occurs, and its fraction that is not bonded *)
Definition energy_of_table (component : nat -> nat) (count : nat -> nat) (X x : list R) : R :=
  sumn (length X) (fun k => nth (component k) x 0 * (INR (count k) * bond_energy (nth k X 0))).
(** The coefficients of the law of mass action: number density times strength times number of partner sites *)
Definition coefficient_of_table (avogadro : R) (component : nat -> nat) (D : list (list nat)) (Delta : list (list R)) (rho : R) (x : list R) (i j : nat) : R :=
  rho * avogadro * (nth j (nth i Delta []) 0 * INR (nth j (nth i D []) 0%nat)) * nth (component j) x 0.
