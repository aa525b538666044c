(** Specification for C85 and C86: the perturbation theory of polar fluids of Gubbins, Gray and Twu,
    for linear molecules with dipoles, quadrupoles and polarizabilities. *)
From Coq Require Import Reals List.
From Verif Require Import Vec_spec.
Import ListNotations.
Local Open Scope R_scope.

(** ** The expansion in dimensionless form
    [x] the fractions, [a i] = mu^2/(4 pi eps0 k T), [q i]^2 = Q^2/(4 pi eps0 k T), [al i] the mean
    polarizability and [ga i] its anisotropy, all as volumes (to the power 5/3 for q^2); [S i j] the
    diameters of pairs; [Jv n i j] and [Kv k i j l] the values of the integrals *)
Section Expansion.
Variables (N : nat) (x a q al ga : nat -> R) (S : nat -> nat -> R) (Jv : nat -> nat -> nat -> R) (Kv : nat * nat -> nat -> nat -> nat -> R).
Variables (rho c c' : R).
(** a third of the dipole strength and the polarizability *)
Definition zz (i : nat) : R := a i / 3 + al i.
Definition sum2 (f : nat -> nat -> R) : R := sumn N (fun i => sumn N (fun j => x i * x j * f i j)).
Definition sum3 (f : nat -> nat -> nat -> R) : R := sumn N (fun i => sumn N (fun j => sumn N (fun k => x i * x j * x k * f i j k))).
(** second order: Gray et al., with integrals over r^-6, r^-8 and r^-10 *)
Definition order2 : R := - rho * sum2 (fun i j => 4 * PI *
  (3 / 2 * (zz i * zz j - al i * al j) * Jv 6%nat i j / S i j ^ 3 + 3 / 2 * zz i * q j ^ 2 * Jv 8%nat i j / S i j ^ 5 + 7 / 10 * q i ^ 2 * q j ^ 2 * Jv 10%nat i j / S i j ^ 7)).
(** third order: pairs and triplets; [c] and [c'] are the adjustable factors of Paricaud, 1 in the theory *)
Definition order3 : R := c * (
  rho * sum2 (fun i j => 4 * PI *
    ((2 / 5 * a i * a j + 4 / 5 * ga i * a j + 4 / 25 * ga i * ga j) * q i * q j * Jv 11%nat i j / S i j ^ 8
     + 12 / 35 * (a i + ga i) * q i * q j ^ 3 * Jv 13%nat i j / S i j ^ 10 + 36 / 245 * q i ^ 3 * q j ^ 3 * Jv 15%nat i j / S i j ^ 12)) +
  rho ^ 2 * sum3 (fun i j k =>
    1 / 2 * (zz i * zz j * zz k - al i * al j * al k) * (64 * PI ^ 3 / 5 * sqrt (14 * PI / 5)) * Kv (222, 333)%nat i j k / (S i j * S i k * S j k)
    + c' * (3 / 160 * zz i * zz j * q k ^ 2 * (2048 * PI ^ 3 / 7 * sqrt (3 * PI)) * Kv (233, 344)%nat i j k / (S i j * S i k ^ 2 * S j k ^ 2)
            - 3 / 640 * zz i * q j ^ 2 * q k ^ 2 * (4096 * PI ^ 3 / 9 * sqrt (22 * PI / 7)) * Kv (334, 445)%nat i j k / (S i j ^ 2 * S i k ^ 2 * S j k ^ 3))
    + 1 / 6400 * q i ^ 2 * q j ^ 2 * q k ^ 2 * (8192 * PI ^ 3 / 81 * sqrt (2002 * PI)) * Kv (444, 555)%nat i j k / (S i j * S i k * S j k) ^ 3)).
End Expansion.
(** the Pade approximant of the series *)
Definition pade (a2 a3 : R) : R := a2 / (1 - a3 / a2).

(** ** Values of the integrals
    [V] gives the values at the temperatures [Tr i j] of the pairs; the integral for 334, 445 is
    negative, the others are positive; an integral of a triplet is the geometric mean of those of its
    pairs *)
Definition sign (k : nat * nat) : R := if Nat.eqb (fst k) 334 then -1 else 1.
Definition pair_orders : list nat := [6; 8; 10; 11; 13; 15]%nat.
Definition triplet_orders : list (nat * nat) := [(222, 333); (233, 344); (334, 445); (444, 555)]%nat.
Definition J_at (J : nat -> R -> R -> option R) (N : nat) (Tr : nat -> nat -> R) (rs : R) (V : nat -> nat -> nat -> R) : Prop :=
  forall n i j, In n pair_orders -> (i < N)%nat -> (j < N)%nat -> J n (Tr i j) rs = Some (V n i j).
Definition K_at (K : nat * nat -> R -> R -> option R) (N : nat) (Tr : nat -> nat -> R) (rs : R) (V : nat * nat -> nat -> nat -> R) : Prop :=
  forall k i j, In k triplet_orders -> (i < N)%nat -> (j < N)%nat -> K k (Tr i j) rs = Some (V k i j) /\ 0 < sign k * V k i j.
Definition triplet (V : nat * nat -> nat -> nat -> R) (k : nat * nat) (i j l : nat) : R := sign k * Rpower (sign k * V k i j * V k i l * V k j l) (1 / 3).
(** temperatures relative to the energy parameters of pairs, and arithmetic means of diameters *)
Definition reduced_T (T : R) (eps : list R) (i j : nat) : R := T / sqrt (nth i eps 0 * nth j eps 0).
Definition mean_diameter (sigma : list R) (i j : nat) : R := (nth i sigma 0 + nth j sigma 0) / 2.
(** Coulomb's constant and Boltzmann's constant in SI units *)
Definition coulomb : R := / (4 * PI * 8.8541878128e-12).
Definition boltzmann : R := 1.380649e-23.

(** orders of the integrals published in the three sources *)
Definition luckas_pairs : list nat := seq 4 12.
Definition twu_pairs : list nat := seq 4 33.
Definition gottschalk_pairs : list nat := seq 4 33.
Definition luckas_triplets : list (nat * nat) := [(222, 333); (233, 344); (334, 445); (444, 555)]%nat.
Definition twu_triplets : list (nat * nat) := [(222, 333); (233, 344); (334, 445); (444, 555); (666, 777)]%nat.
(** of Gottschalk's those with exponents of one digit *)
Definition gottschalk_triplets : list (nat * nat) :=
  [(222, 333); (233, 344); (244, 355); (255, 366); (334, 445); (345, 456); (356, 467); (446, 557); (457, 568); (558, 669); (444, 555); (455, 566); (466, 577); (556, 667); (567, 678); (668, 779); (666, 777); (677, 788); (778, 889); (888, 999); (222, 336); (222, 366); (222, 666); (233, 644); (244, 655); (244, 356); (244, 656); (244, 366); (244, 666); (255, 666); (334, 446); (345, 466); (446, 567); (446, 667); (457, 668); (455, 666); (466, 677); (444, 556); (444, 566); (444, 666)]%nat.

(** strengths of components of diameter [sigma] and energy [eps] over k with reduced squared moments
    [mu2] = mu^2/(4 pi eps0 k eps sigma^3) and [Q2] = Q^2/(4 pi eps0 k eps sigma^5), at temperature [T] *)
Definition dipole (sigma eps mu2 : list R) (T : R) (i : nat) : R := nth i sigma 0 ^ 3 * nth i mu2 0 * (nth i eps 0 / T).
Definition quadrupole (sigma eps Q2 : list R) (T : R) (i : nat) : R := sqrt (nth i sigma 0 ^ 5 * nth i Q2 0 * (nth i eps 0 / T)).
Definition none (i : nat) : R := 0.
(** and of components with moments in SI units *)
Definition dipole_SI (mu : list R) (T : R) (i : nat) : R := coulomb * nth i mu 0 ^ 2 / (boltzmann * T).
Definition quadrupole_SI (Q : list R) (T : R) (i : nat) : R := sqrt (coulomb / (boltzmann * T)) * nth i Q 0.
(** mean and anisotropy of the polarizabilities along the axis and across *)
Definition mean_polarizability (p : option (list R * list R)) (i : nat) : R := match p with Some (s, a) => (nth i s 0 + 2 * nth i a 0) / 3 | None => 0 end.
Definition anisotropy (p : option (list R * list R)) (i : nat) : R := match p with Some (s, a) => nth i s 0 - nth i a 0 | None => 0 end.
