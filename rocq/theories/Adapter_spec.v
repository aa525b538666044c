(** What the statements about the adapters use. *)
From Coq Require Import Reals List Factorial.
From Coquelicot Require Import Coquelicot.
Local Open Scope R_scope.

(** Derivatives up to order [p] around [x], the last one bounded by [M]. *)
Definition smooth (f : R -> R) (p : nat) (M x w : R) : Prop :=
  forall t, Rabs (t - x) <= w -> (forall k, (k <= p)%nat -> ex_derive_n f k t) /\ Rabs (Derive_n f p t) <= M.
