(** What the documentation and the papers it cites say of PC-SAFT, in plain real arithmetic
    (Gross and Sadowski, Ind. Eng. Chem. Res. 40 (2001), appendix; Boublik, Mansoori et al.
    for the hard-sphere mixture; Gross and Vrabec for the polar terms). *)
From Coq Require Import Reals ZArith String List Lra Lia.
From Verif Require Import Util_model Json_model Vec_spec Cubic_spec Assoc_model PCSAFT_model.
Import ListNotations.
Open Scope R_scope.

(** temperature dependent segment diameter (A.9) *)
Definition diameter (T sigma eps : R) : R := sigma * (1 - 0.12 * exp (- 3 * eps / T)).
Definition diam (s : mixture) (T : R) (i : nat) : R := diameter T (nth i (psigma s) 0) (nth i (peps s) 0).
(** the mean number of segments and the moments of the diameters *)
Definition chain (s : mixture) (x : list R) : R := sumn (length x) (fun i => nth i x 0 * nth i (pm s) 0).
Definition moment (s : mixture) (T : R) (x : list R) (n : nat) : R :=
  sumn (length x) (fun i => nth i x 0 * nth i (pm s) 0 * diam s T i ^ n).
(** molecules per cubic Angstrom *)
Definition numdens (rho : R) : R := rho * N_A / 10 ^ 30.
(** the reduced densities (A.8); the one of order three is the packing fraction *)
Definition xi (s : mixture) (T rho : R) (x : list R) (n : nat) : R := PI / 6 * numdens rho * moment s T x n.
Definition packing (s : mixture) (T rho : R) (x : list R) : R := xi s T rho x 3.
(** hard-sphere mixture (A.6), contact value (A.7) *)
Definition BMCSL (x0 x1 x2 x3 : R) : R :=
  (3 * x1 * x2 / (1 - x3) + x2 ^ 3 / (x3 * (1 - x3) ^ 2) + (x2 ^ 3 / x3 ^ 2 - x0) * ln (1 - x3)) / x0.
Definition contact (d x2 x3 : R) : R := 1 / (1 - x3) + d / 2 * (3 * x2 / (1 - x3) ^ 2) + (d / 2) ^ 2 * (2 * x2 ^ 2 / (1 - x3) ^ 3).
(** compressibility factor Z + rho dZ/drho of the hard chains (A.11) *)
Definition chain_Z (eta m : R) : R :=
  1 + m * ((8 * eta - 2 * eta ^ 2) / (1 - eta) ^ 4) + (1 - m) * ((20 * eta - 27 * eta ^ 2 + 12 * eta ^ 3 - 2 * eta ^ 4) / ((1 - eta) * (2 - eta)) ^ 2).
(** the integrals (A.16)-(A.19) *)
Definition table (c : list (list R)) (i n : nat) : R := nth n (nth i c []) 0.
Definition power_series (c : list (list R)) (m eta : R) : R :=
  sumn 7 (fun n => (table c 0 n + (m - 1) / m * table c 1 n + (m - 1) / m * ((m - 2) / m) * table c 2 n) * eta ^ n).
(** Lorentz-Berthelot pairs (A.14), (A.15) and the two averages (A.12), (A.13) *)
Definition pair_energy (s : mixture) (i j : nat) : R :=
  sqrt (nth i (peps s) 0 * nth j (peps s) 0) * (1 - table (pkmat s) i j).
Definition pair_size (s : mixture) (i j : nat) : R := (nth i (psigma s) 0 + nth j (psigma s) 0) / 2.
Definition pair_mean (s : mixture) (T : R) (x : list R) (p : nat) : R :=
  sumn (length x) (fun i => sumn (length x) (fun j =>
    nth i x 0 * nth j x 0 * (nth i (pm s) 0 * nth j (pm s) 0 * (pair_energy s i j / T) ^ p * pair_size s i j ^ 3))).
(** hard chain (A.4) and dispersion (A.10) *)
Definition hc_doc (s : mixture) (T rho : R) (x : list R) : R :=
  let X := xi s T rho x in
  chain s x * BMCSL (X 0%nat) (X 1%nat) (X 2%nat) (X 3%nat)
  - sumn (length x) (fun i => nth i x 0 * ((nth i (pm s) 0 - 1) * ln (contact (diam s T i) (X 2%nat) (X 3%nat)))).
Definition disp_doc (s : mixture) (T rho : R) (x : list R) : R :=
  let eta := packing s T rho x in let mb := chain s x in
  - 2 * PI * numdens rho * power_series (pa s) mb eta * pair_mean s T x 1
  - PI * numdens rho * mb * / chain_Z eta mb * power_series (pb s) mb eta * pair_mean s T x 2.

(** A mixture of chains of positive lengths and sizes at a positive temperature, with
    fractions that are not negative, some of them present, below close packing *)
Definition chains (s : mixture) : Prop :=
  length (psigma s) = length (pm s) /\ length (peps s) = length (pm s) /\
  (forall i, (i < length (pm s))%nat -> 0 < nth i (pm s) 0 /\ 0 < nth i (psigma s) 0 /\ 0 <= nth i (peps s) 0).
Definition amounts (s : mixture) (x : list R) : Prop :=
  length x = length (pm s) /\ (forall i, (i < length x)%nat -> 0 <= nth i x 0) /\ (exists i, (i < length x)%nat /\ 0 < nth i x 0).
Definition state (s : mixture) (T rho : R) (x : list R) : Prop :=
  chains s /\ amounts s x /\ 0 < T /\ 0 <= rho /\ packing s T rho x < 1.

(** The mixture whose components number 0, 1, ... are copies of the components number
    [nth 0 r], [nth 1 r], ... of the mixture [s] *)
Definition copies (r : list nat) (s : mixture) : mixture :=
  {| pm := pick 0 r (pm s); psigma := pick 0 r (psigma s); peps := pick 0 r (peps s);
     pkmat := map (fun row => pick 0 r row) (pick [] r (pkmat s)); pa := pa s; pb := pb s;
     pdip := option_map (fun p => (pick 0 r (fst p), pick 0 r (snd p))) (pdip s);
     pquad := option_map (fun p => (pick 0 r (fst p), pick 0 r (snd p))) (pquad s);
     pnames := pick EmptyString r (pnames s); pbib := pick EmptyString r (pbib s) |}.

(** * The polar contributions of Gross, Vrabec and coworkers *)
Definition poly (c : list (list R)) (m : R) (n : nat) : R := table c 0 n + (m - 1) / m * table c 1 n + (m - 1) / m * ((m - 2) / m) * table c 2 n.
Definition J_pair (a b : list (list R)) (N : nat) (eta m Tstar : R) : R := sumn N (fun n => (poly a m n + poly b m n / Tstar) * eta ^ n).
Definition J_triple (c : list (list R)) (N : nat) (eta m : R) : R := sumn N (fun n => poly c m n * eta ^ n).
Definition pair_sum (x : list R) (f : nat -> nat -> R) : R :=
  sumn (length x) (fun i => sumn (length x) (fun j => nth i x 0 * nth j x 0 * f i j)).
Definition triple_sum (x : list R) (f : nat -> nat -> nat -> R) : R :=
  sumn (length x) (fun i => sumn (length x) (fun j => sumn (length x) (fun k => nth i x 0 * nth j x 0 * nth k x 0 * f i j k))).
(** the segments of a pair and of a triple, not more than two *)
Definition m2 (m : list R) (i j : nat) : R := Rmin (sqrt (nth i m 0 * nth j m 0)) 2.
Definition m3 (m : list R) (i j k : nat) : R := Rmin (Rpower (nth i m 0 * nth j m 0 * nth k m 0) (1 / 3)) 2.
Definition sg2 (sigma : list R) (i j : nat) : R := (nth i sigma 0 + nth j sigma 0) / 2.
Definition Ts (eps : list R) (T : R) (i j : nat) : R := T / sqrt (nth i eps 0 * nth j eps 0).
Section PolarDoc.
Variables (m sigma eps : list R) (T rhoN eta : R) (x : list R).
Let e i := nth i eps 0 / T.
Let s i := nth i sigma 0.
Definition A2DD (mu n : list R) : R := - PI * rhoN * pair_sum x (fun i j =>
  e i * e j * (s i ^ 3 * s j ^ 3 / sg2 sigma i j ^ 3) * nth i n 0 * nth j n 0 * nth i mu 0 * nth j mu 0 * J_pair JDD_2ij_a JDD_2ij_b 5 eta (m2 m i j) (Ts eps T i j)).
Definition A3DD (mu n : list R) : R := - (4 / 3) * PI ^ 2 * rhoN ^ 2 * triple_sum x (fun i j k =>
  e i * e j * e k * (s i ^ 3 * s j ^ 3 * s k ^ 3 / (sg2 sigma i j * sg2 sigma i k * sg2 sigma j k)) * nth i n 0 * nth j n 0 * nth k n 0 * nth i mu 0 * nth j mu 0 * nth k mu 0
  * J_triple JDD_3ijk_c 5 eta (m3 m i j k)).
Definition A2QQ (Q n : list R) : R := - PI * (3 / 4) ^ 2 * rhoN * pair_sum x (fun i j =>
  e i * e j * (s i ^ 5 * s j ^ 5 / sg2 sigma i j ^ 7) * nth i n 0 * nth j n 0 * nth i Q 0 * nth j Q 0 * J_pair JQQ_2ij_a JQQ_2ij_b 5 eta (m2 m i j) (Ts eps T i j)).
(** with the table of constants of the integral as a parameter *)
Definition A3QQ (c : list (list R)) (Q n : list R) : R := - (4 / 3) * PI ^ 2 * (3 / 4) ^ 3 * rhoN ^ 2 * triple_sum x (fun i j k =>
  e i * e j * e k * (s i ^ 5 * s j ^ 5 * s k ^ 5 / (sg2 sigma i j ^ 3 * sg2 sigma i k ^ 3 * sg2 sigma j k ^ 3)) * nth i n 0 * nth j n 0 * nth k n 0 * nth i Q 0 * nth j Q 0 * nth k Q 0
  * J_triple c 5 eta (m3 m i j k)).
Definition A2DQ (mu nmu Q nQ : list R) : R := - (9 / 4) * PI * rhoN * pair_sum x (fun i j =>
  e i * e j * (s i ^ 3 * s j ^ 5 / sg2 sigma i j ^ 5) * nth i nmu 0 * nth j nQ 0 * nth i mu 0 * nth j Q 0 * J_pair JDQ_2ij_a JDQ_2ij_b 4 eta (m2 m i j) (Ts eps T i j)).
Definition A3DQ (mu nmu Q nQ : list R) : R := - rhoN ^ 2 * triple_sum x (fun i j k =>
  e i * e j * e k * (s i ^ 4 * s j ^ 4 * s k ^ 4 / (sg2 sigma i j ^ 2 * sg2 sigma i k ^ 2 * sg2 sigma j k ^ 2))
  * (nth i nmu 0 * nth j nmu 0 * nth k nQ 0 * nth i mu 0 * nth j mu 0 * nth k Q 0 + 1.19374 * nth i nmu 0 * nth j nQ 0 * nth k nQ 0 * nth i mu 0 * nth j Q 0 * nth k Q 0)
  * J_triple JDQ_3ijk_c 4 eta (m3 m i j k)).
(** components of positive length, size and energy, at a positive temperature *)
Definition segments : Prop := 0 < T /\ forall i, (i < length x)%nat -> 0 < nth i m 0 /\ 0 < nth i sigma 0 /\ 0 < nth i eps 0.
End PolarDoc.
Definition nonneg (n : list R) : Prop := forall i, 0 <= nth i n 0.
(** The Pade approximant of a perturbation series *)
Definition Pade (a2 a3 : R) : R := a2 / (1 - a3 / a2).

(** * The JSON description of a mixture *)
Definition moments (o : list (string * json)) (kp kn : string) (p n : R) : Prop :=
  match lookup kp o, lookup kn o with
  | Some a, Some b => a = JNum p /\ b = JNum n
  | _, _ => p = 0 /\ n = 0
  end.
Definition describes (j : json) (c : coeffs) : Prop := exists o, j = JObj o /\
  lookup "name" o = Some (JStr (c_name c)) /\ lookup "m" o = Some (JNum (c_m c)) /\ lookup "sigma_Angstrom" o = Some (JNum (c_sigma c)) /\
  lookup "epsilon_over_k" o = Some (JNum (c_eps c)) /\ lookup "BibTeXKey" o = Some (JStr (c_bibtex c)) /\
  moments o "(mu^*)^2" "nmu" (c_mustar2 c) (c_nmu c) /\ moments o "(Q^*)^2" "nQ" (c_Qstar2 c) (c_nQ c).
Definition zeros (N : nat) : list (list R) := repeat (repeat 0 N) N.
Definition matrix_json (k : list (list R)) : json := JArr (map (fun row => JArr (map JNum row)) k).
(** the interaction parameters: an array of arrays of numbers, with a row for each component;
    zeros if there is none, or if it is not a non-empty array *)
Definition interactions (o : list (string * json)) (N : nat) (k : list (list R)) : Prop :=
  match lookup "kmat" o with
  | Some (JArr (r :: l)) => JArr (r :: l) = matrix_json k /\ length k = N /\ List.Forall (fun row => length row = N) k
  | _ => k = zeros N
  end.
Definition constants (o : list (string * json)) (a b : list (list R)) : Prop :=
  (lookup "ab" o = None /\ a = GrossSadowski2001_a /\ b = GrossSadowski2001_b) \/
  (lookup "ab" o = Some (JStr "Liang-IECR-2012") /\ a = LiangIECR2012_a /\ b = LiangIECR2012_b) \/
  (lookup "ab" o = Some (JStr "Liang-IECR-2014") /\ a = LiangIECR2014_a /\ b = LiangIECR2014_b).
(** a polar contribution is there if some component has both a moment and polar segments *)
Definition polar_part (f n : coeffs -> R) (cs : list coeffs) (p : option (list R * list R)) : Prop :=
  (p = None /\ forall c, In c cs -> f c * n c = 0) \/ (p = Some (map f cs, map n cs) /\ exists c, In c cs /\ f c * n c <> 0).
Definition mixture_of (cs : list coeffs) (k a b : list (list R)) (s : mixture) : Prop :=
  pm s = map c_m cs /\ psigma s = map c_sigma cs /\ peps s = map c_eps cs /\ pnames s = map c_name cs /\ pbib s = map c_bibtex cs /\
  pkmat s = k /\ pa s = a /\ pb s = b /\ polar_part c_mustar2 c_nmu cs (pdip s) /\ polar_part c_Qstar2 c_nQ cs (pquad s).
(** the fluids known by name: Gross and Sadowski, table 2 *)
Definition known (name : string) (c : coeffs) : Prop :=
  c_name c = name /\ c_bibtex c = "Gross-IECR-2001"%string /\ c_mustar2 c = 0 /\ c_nmu c = 0 /\ c_Qstar2 c = 0 /\ c_nQ c = 0 /\
  ((name = "Methane"%string /\ c_m c = 1 /\ c_sigma c = 3.7039 /\ c_eps c = 150.03) \/
   (name = "Ethane"%string /\ c_m c = 1.6069 /\ c_sigma c = 3.5206 /\ c_eps c = 191.42) \/
   (name = "Propane"%string /\ c_m c = 2.002 /\ c_sigma c = 3.6184 /\ c_eps c = 208.11)).
