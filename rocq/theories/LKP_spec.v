(** What the published equation says: B. I. Lee and M. G. Kesler, AIChE J. 21 (1975) 510, with the
    mixing rules of U. Ploecker, H. Knapp and J. Prausnitz, Ind. Eng. Chem. Process Des. Dev. 17
    (1978) 324.  Written without reference to the code. *)
From Coq Require Import Reals List.
From Verif Require Import Vec_spec Cubic_spec.
Import ListNotations.
Open Scope R_scope.

(** The constants of one of the two reference fluids *)
Record LK := { LKb1 : R; LKb2 : R; LKb3 : R; LKb4 : R; LKc1 : R; LKc2 : R; LKc3 : R; LKc4 : R; LKd1 : R; LKd2 : R; LKbeta : R; LKgamma : R }.
(** Compressibility factor at the reduced temperature [Tr] and the ideal reduced volume [Vr] *)
Definition LK_Z (p : LK) (Tr Vr : R) : R :=
  let B := LKb1 p - LKb2 p / Tr - LKb3 p / Tr ^ 2 - LKb4 p / Tr ^ 3 in
  let C := LKc1 p - LKc2 p / Tr + LKc3 p / Tr ^ 3 in
  let D := LKd1 p + LKd2 p / Tr in
  1 + B / Vr + C / Vr ^ 2 + D / Vr ^ 5
  + LKc4 p / (Tr ^ 3 * Vr ^ 2) * (LKbeta p + LKgamma p / Vr ^ 2) * exp (- (LKgamma p / Vr ^ 2)).

(** The fluids with the constants in the source.  (In print, d1 of the simple fluid is 0.155488e-4,
    see DESIGN.md.) *)
Definition simple_fluid : LK :=
  {| LKb1 := 0.1181193; LKb2 := 0.265728; LKb3 := 0.154790; LKb4 := 0.030323; LKc1 := 0.0236744; LKc2 := 0.0186984;
     LKc3 := 0; LKc4 := 0.042724; LKd1 := 0.155428e-4; LKd2 := 0.623689e-4; LKbeta := 0.65392; LKgamma := 0.060167 |}.
Definition octane : LK :=
  {| LKb1 := 0.2026579; LKb2 := 0.331511; LKb3 := 0.027655; LKb4 := 0.203488; LKc1 := 0.0313385; LKc2 := 0.0503618;
     LKc3 := 0.016901; LKc4 := 0.041577; LKd1 := 0.48736e-4; LKd2 := 0.0740336e-4; LKbeta := 1.226; LKgamma := 0.03754 |}.
Definition octane_w : R := 0.3978.

(** The pseudocritical constants of a mixture: of component i the critical temperature [Tc i], the
    critical volume [v i] and the acentric factor [w i]; [k i j] is the interaction parameter *)
Definition third (v : R) : R := Rpower v (1 / 3).
Definition pair_volume (v : nat -> R) (i j : nat) : R := ((third (v i) + third (v j)) / 2) ^ 3.
Definition mix_volume (v : nat -> R) (x : list R) : R := quadratic_mean x (pair_volume v).
Definition mix_temperature (Tc v : nat -> R) (k : nat -> nat -> R) (x : list R) : R :=
  quadratic_mean x (fun i j => Rpower (pair_volume v i j) (1 / 4) * (k i j * sqrt (Tc i * Tc j))) / Rpower (mix_volume v x) (1 / 4).
Definition mix_w (w : nat -> R) (x : list R) : R := mean x w.
(** The compressibility factor of the mixture *)
Definition LKP_Z (Tc v w : nat -> R) (k : nat -> nat -> R) (x : list R) (T rho : R) : R :=
  let wm := mix_w w x in
  let Tr := T / mix_temperature Tc v k x in
  let Vr := (0.2905 - 0.085 * wm) / (mix_volume v x * rho) in
  LK_Z simple_fluid Tr Vr + wm / octane_w * (LK_Z octane Tr Vr - LK_Z simple_fluid Tr Vr).
(** Mole fractions: not negative and with the sum one *)
Definition composition (x : list R) : Prop := (forall i, (i < length x)%nat -> 0 <= nth i x 0) /\ sumn (length x) (fun i => nth i x 0) = 1.
(** Constants of real fluids: as many critical pressures and acentric factors as critical
    temperatures, all positive but the acentric factors, which are less than 3.4 *)
Definition fluids (Tc pc w : list R) (Rg : R) : Prop :=
  length pc = length Tc /\ length w = length Tc /\ 0 < Rg /\
  forall i, (i < length Tc)%nat -> 0 < nth i Tc 0 /\ 0 < nth i pc 0 /\ nth i w 0 < 3.4.
Definition square (n : nat) (k : list (list R)) : Prop := length k = n /\ List.Forall (fun row => length row = n) k.
Definition entry (k : list (list R)) (i j : nat) : R := nth j (nth i k []) 0.
(** The critical volumes, with the critical compressibility factor 0.2905 - 0.085 w *)
Definition critical_volume (Tc pc w : list R) (Rg : R) (i : nat) : R := (0.2905 - 0.085 * nth i w 0) * Rg * nth i Tc 0 / nth i pc 0.
(** The matrix for a mixture of copies, and the transposed one *)
Definition pick_k (r : list nat) (k : list (list R)) : list (list R) := map (fun i => pick 0 r (nth i k [])) r.
Definition transposed (n : nat) (k : list (list R)) : list (list R) := map (fun i => map (fun j => entry k j i) (seq 0 n)) (seq 0 n).
