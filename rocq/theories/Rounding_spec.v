(** Specification of integer powers in binary64 arithmetic. *)
From Coq Require Import Reals ZArith.
From Flocq Require Import Core Binary Bits.
Local Open Scope R_scope.

(** The real number that a finite double is. *)
Definition real (x : binary64) : R := B2R 53 1024 x.
Definition finite (x : binary64) : Prop := is_finite 53 1024 x = true.
(** [v] is [t] up to [k] units of 2^-52 relative error. *)
Definition within (k : R) (v : binary64) (t : R) : Prop := finite v /\ Rabs (real v - t) <= k * / 2 ^ 52 * Rabs t.
(** Far from overflow and underflow. *)
Definition moderate (t : R) : Prop := / 2 ^ 1000 <= Rabs t <= 2 ^ 1000.
