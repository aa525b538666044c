(** What the publication on SAFT-VR-Mie (Lafitte et al. 2013) says, in ordinary real functions. *)
From Coq Require Import Reals String List Lra.
From Coquelicot Require Import Coquelicot.
From Verif Require Import Vec_spec Cubic_spec VRMie_model.
Import ListNotations.
Local Open Scope R_scope.

(** The Mie potential with exponents [lr] and [la], depth [eps] and contact distance [sigma] *)
Definition mie_C (lr la : R) : R := lr / (lr - la) * Rpower (lr / la) (la / (lr - la)).
Definition mie (lr la sigma eps r : R) : R := mie_C lr la * eps * (Rpower (sigma / r) lr - Rpower (sigma / r) la).
(** the distance of its minimum *)
Definition mie_rmin (lr la sigma : R) : R := sigma * Rpower (lr / la) (/ (lr - la)).
(** The perturbation integrals of one Sutherland term of exponent [l], at the ratio [x] of the
    contact distance to the hard-sphere diameter, at the packing fraction [z] (Eqs. A12-A18, divided
    by 2 pi d^3 eps rho); [c]: the coefficients of the effective packing fraction *)
Definition z_eff (c : list R) (z : R) : R := sumn 4 (fun n => nth n c 0 * z ^ (n + 1)).
Definition intI (x l : R) : R := - (Rpower x (3 - l) - 1) / (l - 3).
Definition intJ (x l : R) : R := - (Rpower x (4 - l) * (l - 3) - Rpower x (3 - l) * (l - 4) - 1) / ((l - 3) * (l - 4)).
Definition B_term (x l z : R) : R := (1 - z / 2) / (1 - z) ^ 3 * intI x l - 9 * z * (1 + z) / (2 * (1 - z) ^ 3) * intJ x l.
Definition a1_term (c : list R) (l z : R) : R := - 1 / (l - 3) * (1 - z_eff c z / 2) / (1 - z_eff c z) ^ 3.
Definition sutherland (c : list R) (x l z : R) : R := Rpower x l * (a1_term c l z + B_term x l z).
(** isothermal compressibility of hard spheres (Eq. A21) *)
Definition K_HS (z : R) : R := (1 - z) ^ 4 / (1 + 4 * z + 4 * z ^ 2 - 4 * z ^ 3 + z ^ 4).
(** The Boublik-Mansoori-Carnahan-Starling-Leland equation for hard spheres, in terms of the density
    [rho] and of the mean powers of the diameter, [D l] = pi / 6 times the mean of d^l *)
Definition BMCSL (D : nat -> R) (rho : R) : R :=
  let z l := D l * rho in
  3 * D 1%nat * z 2%nat / (D 0%nat * (1 - z 3%nat)) + D 2%nat ^ 2 * z 2%nat / (D 3%nat * D 0%nat * (1 - z 3%nat) ^ 2)
  + (D 2%nat ^ 3 / (D 3%nat ^ 2 * D 0%nat) - 1) * ln (1 - z 3%nat).

(** * Mixtures *)
Record mie_mix := { c_n : nat; c_m : nat -> R; c_sigma : nat -> R; c_eps : nat -> R; c_lr : nat -> R; c_la : nat -> R; c_k : nat -> nat -> R; c_lafitte : bool }.
(** Table II of the publication: the coefficients of the functions f_1 ... f_6, and those of gamma_c *)
Definition table_f (k : nat) : list R :=
  match k with
  | 1%nat => [7.5365557; - 37.60463; 71.745953; - 46.83552; - 2.467982; - 0.50272; 8.0956883]
  | 2%nat => [- 359.44; 1825.6; - 3168.0; 1884.2; - 0.82376; - 3.1935; 3.7090]
  | 3%nat => [1550.9; - 5070.1; 6534.6; - 3288.7; - 2.7171; 2.0883; 0]
  | 4%nat => [- 1.19932; 9.063632; - 17.9482; 11.34027; 20.52142; - 56.6377; 40.53683]
  | 5%nat => [- 1911.28; 21390.175; - 51320.7; 37064.54; 1103.742; - 3264.61; 2556.181]
  | _ => [9236.9; - 129430; 357230; - 315530; 1390.2; - 4518.2; 4241.6]
  end.
Definition f_num (k : nat) (a : R) : R := sumn 4 (fun n => nth n (table_f k) 0 * a ^ n).
Definition f_den (k : nat) (a : R) : R := 1 + sumn 3 (fun n => nth (n + 4) (table_f k) 0 * a ^ (n + 1)).
Definition f_ (k : nat) (a : R) : R := f_num k a / f_den k a.
(** Eq. A18: the coefficients of the effective packing fraction for the exponent [l] *)
Definition shape (l : R) : list R :=
  [0.81096 + 1.7888 / l - 37.578 / l ^ 2 + 92.284 / l ^ 3; 1.0205 - 19.341 / l + 151.26 / l ^ 2 - 463.50 / l ^ 3;
   - 1.9057 + 22.845 / l - 228.14 / l ^ 2 + 973.92 / l ^ 3; 1.0885 - 6.1962 / l + 106.98 / l ^ 2 - 677.64 / l ^ 3].
Definition suth (x l z : R) : R := sutherland (shape l) x l z.
Section Mixture.
Variable c : mie_mix.
(** combining rules, Eqs. A45-A55 *)
Definition mix_l (l : nat -> R) (i j : nat) : R := 3 + sqrt ((l i - 3) * (l j - 3)).
Definition mix_lr := mix_l (c_lr c).
Definition mix_la := mix_l (c_la c).
Definition mix_sigma (i j : nat) : R := (c_sigma c i + c_sigma c j) / 2.
Definition mix_eps (i j : nat) : R :=
  (1 - c_k c i j) * (if c_lafitte c then sqrt (c_sigma c i ^ 3 * c_sigma c j ^ 3 * c_eps c i * c_eps c j) / mix_sigma i j ^ 3 else sqrt (c_eps c i * c_eps c j)).
Definition mix_C (i j : nat) : R := mie_C (mix_lr i j) (mix_la i j).
Definition mix_alpha (i j : nat) : R := mix_C i j * (1 / (mix_la i j - 3) - 1 / (mix_lr i j - 3)).
(** the state: temperature, segments per volume (1 / Angstrom^3), mole fractions, diameters *)
Variables (T rhoN : R) (x d : nat -> R).
Definition mbar : R := sumn (c_n c) (fun i => x i * c_m c i).
Definition rho_s : R := rhoN * mbar.
Definition x_s (i : nat) : R := c_m c i * x i / mbar.
Definition double (q : nat -> nat -> R) : R := sumn (c_n c) (fun i => sumn (c_n c) (fun j => x_s i * x_s j * q i j)).
Definition d_ij (i j : nat) : R := (d i + d j) / 2.
Definition zeta_x : R := PI / 6 * rho_s * double (fun i j => d_ij i j ^ 3).
Definition zeta_bar : R := PI / 6 * rho_s * double (fun i j => mix_sigma i j ^ 3).
Definition D_mean (l : nat) : R := PI / 6 * sumn (c_n c) (fun i => x_s i * d i ^ l).
Definition ratio (i j : nat) : R := mix_sigma i j / d_ij i j.
(** Eqs. A11, A20, A26 *)
Definition A1 (i j : nat) : R :=
  2 * PI * rho_s * d_ij i j ^ 3 * mix_eps i j * mix_C i j * (suth (ratio i j) (mix_la i j) zeta_x - suth (ratio i j) (mix_lr i j) zeta_x).
Definition second (i j : nat) (z : R) : R :=
  suth (ratio i j) (2 * mix_la i j) z - 2 * suth (ratio i j) (mix_la i j + mix_lr i j) z + suth (ratio i j) (2 * mix_lr i j) z.
Definition chi (i j : nat) : R := f_ 1 (mix_alpha i j) * zeta_bar + f_ 2 (mix_alpha i j) * zeta_bar ^ 5 + f_ 3 (mix_alpha i j) * zeta_bar ^ 8.
Definition A2 (i j : nat) : R := PI * K_HS zeta_x * (1 + chi i j) * rho_s * d_ij i j ^ 3 * mix_eps i j ^ 2 * mix_C i j ^ 2 * second i j zeta_x.
Definition A3 (i j : nat) : R := - mix_eps i j ^ 3 * f_ 4 (mix_alpha i j) * zeta_bar * exp (f_ 5 (mix_alpha i j) * zeta_bar + f_ 6 (mix_alpha i j) * zeta_bar ^ 2).
(** the contact value: hard spheres (Eqs. A29-A33), first and second order (Eqs. A34-A37).  The
    derivatives with respect to the density are derivatives *)
Definition g_HS (i : nat) : R :=
  let z := zeta_x in
  exp (- ln (1 - z) + (42 * z - 39 * z ^ 2 + 9 * z ^ 3 - 2 * z ^ 4) / (6 * (1 - z) ^ 3) + (z ^ 4 + 6 * z ^ 2 - 12 * z) / (2 * (1 - z) ^ 3) * ratio i i
       - 3 * z ^ 2 / (8 * (1 - z) ^ 2) * ratio i i ^ 2 + (- z ^ 4 + 3 * z ^ 2 + 3 * z) / (6 * (1 - z) ^ 3) * ratio i i ^ 3).
Definition g_1 (i : nat) : R :=
  mix_C i i * (3 * Derive (fun z => z * (suth (ratio i i) (mix_la i i) z - suth (ratio i i) (mix_lr i i) z)) zeta_x
  - (mix_la i i * suth (ratio i i) (mix_la i i) zeta_x - mix_lr i i * suth (ratio i i) (mix_lr i i) zeta_x)).
Definition g_2MCA (i : nat) : R :=
  mix_C i i ^ 2 * (3 / 2 * Derive (fun z => z * (K_HS z * second i i z)) zeta_x
  - K_HS zeta_x * (mix_la i i * suth (ratio i i) (2 * mix_la i i) zeta_x - (mix_la i i + mix_lr i i) * suth (ratio i i) (mix_la i i + mix_lr i i) zeta_x + mix_lr i i * suth (ratio i i) (2 * mix_lr i i) zeta_x)).
Definition gamma_c (i : nat) : R :=
  10 * (1 - tanh (10 * (0.57 - mix_alpha i i))) * zeta_bar * (exp (mix_eps i i / T) - 1) * exp (- 6.7 * zeta_bar - 8 * zeta_bar ^ 2).
Definition g_Mie (i : nat) : R := g_HS i * exp ((mix_eps i i / T * g_1 i + (mix_eps i i / T) ^ 2 * ((1 + gamma_c i) * g_2MCA i)) / g_HS i).
(** the residual Helmholtz energy over R T *)
Definition mono : R := mbar * (BMCSL D_mean rho_s + double A1 / T + double A2 / T ^ 2 + double A3 / T ^ 3).
Definition chain : R := - sumn (c_n c) (fun i => x i * (c_m c i - 1) * ln (g_Mie i)).
(** where these formulas are finite *)
Definition regular : Prop :=
  T <> 0 /\ mbar <> 0 /\ zeta_x < 1 /\ D_mean 3 * rho_s < 1 /\ D_mean 3 <> 0 /\ 1 + 4 * zeta_x + 4 * zeta_x ^ 2 - 4 * zeta_x ^ 3 + zeta_x ^ 4 <> 0 /\
  (forall i j, (i < c_n c)%nat -> (j < c_n c)%nat ->
    (forall k, (1 <= k <= 6)%nat -> f_den k (mix_alpha i j) <> 0) /\
    (forall l, In l [mix_la i j; mix_lr i j; 2 * mix_la i j; 2 * mix_lr i j; mix_la i j + mix_lr i j] -> z_eff (shape l) zeta_x <> 1)).
End Mixture.
(** Physical mixtures: positive sizes and energies, attraction falling off faster than r^-4 but not
    as fast as the repulsion, symmetric interaction parameters *)
Definition physical (c : mie_mix) : Prop :=
  (forall i, (i < c_n c)%nat -> 0 < c_m c i /\ 0 < c_sigma c i /\ 0 < c_eps c i /\ 4 < c_la c i < c_lr c i) /\
  (forall i j, (i < c_n c)%nat -> (j < c_n c)%nat -> c_k c i j = c_k c j i).

(** * The mixture that an object of the model stands for *)
(** interaction parameters: a square matrix and its elements *)
Definition kat (k : list (list R)) (i j : nat) : R := nth j (nth i k []) 0.
(** the model in which component i is a copy of component r_i *)
Definition pick_vr (r : list nat) (v : vrmie) : vrmie :=
  {| v_m := pick 0 r (v_m v); v_eps := pick 0 r (v_eps v); v_sigma := pick 0 r (v_sigma v); v_lr := pick 0 r (v_lr v); v_la := pick 0 r (v_la v);
     v_k := map (fun i => map (kat (v_k v) i) r) r; v_flag := v_flag v |}.
Definition square (k : list (list R)) (n : nat) : Prop := length k = n /\ (forall row, In row k -> length row = n).
(** the mixture of a model *)
Definition mix_of (v : vrmie) : mie_mix :=
  {| c_n := length (v_m v); c_m := fun i => nth i (v_m v) 0; c_sigma := fun i => nth i (v_sigma v) 0; c_eps := fun i => nth i (v_eps v) 0;
     c_lr := fun i => nth i (v_lr v) 0; c_la := fun i => nth i (v_la v) 0; c_k := kat (v_k v); c_lafitte := match v_flag v with FlLafitte => true | _ => false end |}.
Definition fractions (x : list R) : nat -> R := fun i => nth i x 0.
