(** What the publications say.  Written without reference to the code. *)
From Coq Require Import Reals List.
Import ListNotations.
Open Scope R_scope.

(** * R. Tillner-Roth and D. G. Friend, J. Phys. Chem. Ref. Data 27 (1998) 63: ammonia and water.
    [x] is the mole fraction of ammonia. *)
(** Reducing temperature in K and reducing volume in m^3/mol *)
Definition TR_T (x : R) : R :=
  (1 - x) ^ 2 * 647.096 + x ^ 2 * 405.4 + 2 * x * (1 - Rpower x 1.125455) * (0.9648407 / 2 * (647.096 + 405.4)).
Definition TR_V (x : R) : R :=
  (1 - x) ^ 2 * (0.018015268 / 322) + x ^ 2 * (0.01703026 / 225)
  + 2 * x * (1 - Rpower x 0.8978069) * (1.2395117 / 2 * (0.018015268 / 322 + 0.01703026 / 225)).
(** a tau^t delta^d exp(-delta^e) *)
Definition TR_term (tau delta : R) (q : R * R * nat * nat) : R :=
  let '(a, t, d, e) := q in a * Rpower tau t * delta ^ d * exp (- delta ^ e).
Fixpoint total {A} (f : A -> R) (l : list A) : R := match l with [] => 0 | a :: l' => f a + total f l' end.
Definition TR_2_6 : list (R * R * nat * nat) :=
  [(0.0525801, 0.5, 5%nat, 1%nat); (3.552874e-10, 6.5, 15%nat, 1%nat); (5.451379e-6, 1.75, 12%nat, 1%nat); (- 5.998546e-13, 15, 12%nat, 1%nat); (- 3.687808e-6, 6, 15%nat, 2%nat)].
Definition TR_7_13 : list (R * R * nat * nat) :=
  [(0.2586192, - 1, 4%nat, 1%nat); (- 1.368072e-8, 4, 15%nat, 1%nat); (0.01226146, 3.5, 4%nat, 1%nat); (- 0.07181443, 0, 5%nat, 1%nat); (0.09970849, - 1, 6%nat, 2%nat); (1.0584086e-3, 8, 10%nat, 2%nat); (- 0.1963687, 7.5, 6%nat, 2%nat)].
Definition TR_departure (tau delta x : R) : R :=
  x * (1 - Rpower x 0.5248379) *
  (- 0.01855822 * Rpower tau 1.5 * delta ^ 4 + total (TR_term tau delta) TR_2_6
   + x * total (TR_term tau delta) TR_7_13 + x ^ 2 * TR_term tau delta (- 0.7777897, 4, 2%nat, 2%nat)).

(** * M. L. Huber and J. F. Ely, Int. J. Refrigeration 17 (1994) 18: shape factors, equations 30 and 31.
    [dw] is the difference of the acentric factors and [Tri] the temperature over the critical one *)
Definition HE_theta (dw c0 c1 Tri : R) : R := 1 + dw * (c0 + c1 * ln Tri).
Definition HE_phi (Zr Z dw c0 c1 Tri : R) : R := Zr / Z * (1 + dw * (c0 + c1 * ln Tri)).

(** * The polynomial extended corresponding states of a binary mixture, as in the comment at the head of
    multifluid_ecs_mutant.hpp with the exponents as in its code: the coefficients a of the powers of
    the first mole fraction, for the powers 1, delta, tau, delta^2, tau delta and tau^2 *)
Definition PE_coeff (a : nat -> R) (x : R) : R := a 0%nat + a 1%nat * x + a 2%nat * x ^ 2.
Definition PE_f (a : nat -> nat -> R) (x tau delta : R) : R :=
  PE_coeff (a 0%nat) x + PE_coeff (a 1%nat) x * delta + PE_coeff (a 2%nat) x * tau + PE_coeff (a 3%nat) x * delta ^ 2
  + PE_coeff (a 4%nat) x * (tau * delta) + PE_coeff (a 5%nat) x * tau ^ 2.
Definition PE_YT (T0 T1 : R) : R := sqrt (T0 * T1).
Definition PE_Yv (v0 v1 : R) : R := ((Rpower v0 (1 / 3) + Rpower v1 (1 / 3)) / 2) ^ 3.
Definition PE_reduce (y0 y1 y01 f x0 x1 : R) : R := x0 ^ 2 * y0 + x1 ^ 2 * y1 + 2 * x0 * x1 * y01 * f.
