(** What the theorems about the criticality conditions of mixtures speak of. *)
From Coq Require Import Reals List.
From Coquelicot Require Import Coquelicot.
From Verif Require Import Vec_spec.
Import ListNotations.
Open Scope R_scope.

(** the state reached from [rho] by going [s] times the vector [v] *)
Definition moved (rho v : list R) (s : R) : list R := map (fun i => nth i rho 0 + s * nth i v 0) (seq 0 (length rho)).
Definition inner (n : nat) (a b : list R) : R := sumn n (fun i => nth i a 0 * nth i b 0).
Definition entry (H : list (list R)) (i j : nat) : R := nth j (nth i H []) 0.
(** [v] is an eigenvector of [H] for [l] *)
Definition eigenpair (n : nat) (H : list (list R)) (l : R) (v : list R) : Prop :=
  length v = n /\ forall i, (i < n)%nat -> sumn n (fun j => entry H i j * nth j v 0) = l * nth i v 0.
(** What a solver has to return for the symmetric matrix [H]: all eigenvalues in increasing
    order and an orthonormal family of eigenvectors. *)
Definition decomposes (eigen : list (list R) -> list R * list (list R)) (n : nat) (H : list (list R)) : Prop :=
  let '(vals, vecs) := eigen H in
    length vals = n /\ length vecs = n /\
    (forall k, (k < n)%nat -> eigenpair n H (nth k vals 0) (nth k vecs [])) /\
    (forall j k, (j < n)%nat -> (k < n)%nat -> inner n (nth j vecs []) (nth k vecs []) = if Nat.eqb j k then 1 else 0) /\
    (forall j k, (j <= k)%nat -> (k < n)%nat -> nth j vals 0 <= nth k vals 0).
