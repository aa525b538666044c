(** Specification of the fluids with equations of other kinds. *)
From Coq Require Import Reals String List.
From Verif Require Import Json_model Multi_model.
Import ListNotations.
Local Open Scope R_scope.

(** The equation of Thol and others for the Lennard-Jones fluid (J. Phys. Chem. Ref. Data 45, 023101,
    2016), in units of the potential: rows (n, t, d), (n, t, d, l) and
    (n, t, d, eta, beta, gamma, epsilon). *)
Definition polynomial_rows : list (R * R * nat) :=
  [(0.005208073, 1, 4%nat);
   (2.186252, 0.32, 1%nat);
   ((- 2.161016), 0.505, 1%nat);
   (1.4527, 0.672, 2%nat);
   ((- 2.041792), 0.843, 2%nat);
   (0.18695286, 0.898, 3%nat)].
Definition exponential_rows : list (R * R * nat * nat) :=
  [((- 0.6208625), 1.205, 1%nat, 1%nat);
   ((- 0.568839), 1.786, 1%nat, 2%nat);
   ((- 0.80055922), 2.77, 3%nat, 2%nat);
   (0.10901431, 1.786, 2%nat, 1%nat);
   ((- 0.4974561), 2.59, 2%nat, 2%nat);
   ((- 0.090988445), 1.294, 5%nat, 1%nat)].
Definition gaussian_rows : list (R * R * nat * R * R * R * R) :=
  [((- 1.4667177), 2.83, 1%nat, 2.067, 0.625, 0.71, 0.2053);
   (1.891469, 2.548, 1%nat, 1.522, 0.638, 0.86, 0.409);
   ((- 0.1383701), 4.65, 2%nat, 8.82, 3.91, 1.94, 0.6);
   ((- 0.3869645), 1.385, 3%nat, 1.722, 0.156, 1.48, 1.203);
   (0.1265702, 1.46, 3%nat, 0.679, 0.157, 1.49, 1.829);
   (0.605781, 1.351, 2%nat, 1.883, 0.153, 1.945, 1.397);
   (1.179189, 0.66, 1%nat, 3.925, 1.16, 3.02, 1.39);
   ((- 0.47732679), 1.496, 2%nat, 2.461, 1.73, 1.11, 0.539);
   ((- 9.9218575), 1.83, 3%nat, 28.2, 383, 1.17, 0.934);
   ((- 0.5747932), 1.616, 1%nat, 0.753, 0.112, 1.33, 2.369);
   (0.003772923, 4.97, 1%nat, 0.82, 0.119, 0.24, 2.43)].
Definition total {A} (f : A -> R) (l : list A) : R := fold_right Rplus 0 (map f l).
Definition Thol (T rho : R) : R :=
  let tau := 1.32 / T in
  let delta := rho / 0.31 in
  total (fun '(n, t, d) => n * Rpower tau t * delta ^ d) polynomial_rows +
  total (fun '(n, t, d, l) => n * Rpower tau t * delta ^ d * exp (- delta ^ l)) exponential_rows +
  total (fun '(n, t, d, eta, beta, gamma, epsilon) =>
    n * Rpower tau t * delta ^ d * exp (- eta * (delta - epsilon) ^ 2 - beta * (tau - gamma) ^ 2)) gaussian_rows.
(** Its second virial coefficient: the parts that are linear in the density. *)
Definition linear (d : nat) (v : R) : R := match d with 1%nat => v | _ => 0 end.
Definition Thol_B (T : R) : R :=
  let tau := 1.32 / T in
  (total (fun '(n, t, d) => linear d (n * Rpower tau t)) polynomial_rows +
   total (fun '(n, t, d, l) => linear d (n * Rpower tau t)) exponential_rows +
   total (fun '(n, t, d, eta, beta, gamma, epsilon) =>
     linear d (n * Rpower tau t * exp (- eta * epsilon ^ 2 - beta * (tau - gamma) ^ 2))) gaussian_rows) / 0.31.

(** What the file of a fluid says: its reducing point, and the documents of its terms. *)
Definition first_EOS (j e : json) : Prop :=
  exists l ms, j = JObj ms /\ lookup "EOS" ms = Some (JArr (e :: l)).
Definition member (j : json) (k : string) (v : json) : Prop := exists ms, j = JObj ms /\ lookup k ms = Some v.
Definition reducing_point (j : json) (T0 rho0 : R) : Prop :=
  exists e s r, first_EOS j e /\ member e "STATES" s /\ member s "reducing" r /\
    member r "T" (JNum T0) /\ member r "rhomolar" (JNum rho0).
Definition residual_terms (j : json) (l : list json) : Prop :=
  exists e a, first_EOS j e /\ member e "alphar" a /\ (a = JArr l \/ exists ms, a = JObj ms /\ l = map snd ms).
(** One of its terms is of the PC-SAFT type. *)
Definition uses_PCSAFT (j : json) : Prop :=
  exists l el, residual_terms j l /\ In el l /\ member el "type" (JStr "ResidualHelmholtzPCSAFTGrossSadowski2001").
