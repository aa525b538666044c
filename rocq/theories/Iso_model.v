(** Model of [IsochoricDerivatives], [include/teqp/derivs.hpp] lines 955-1500.

    [ad] is the external algorithmic-differentiation library, as in [Derivs_model];
    gradients and Hessians seed the components one (two) at a time.  The complex step
    of [get_pr] is an exact derivative.  Doubles are reals; division by zero and the
    logarithm of a non-positive number are those of Coq's reals, so the theorems
    speak about positive states. *)
From Coq Require Import Reals ZArith List.
From Verif Require Import Json_model Derivs_model.
Import ListNotations.
Open Scope R_scope.

Section Iso.
Variable ad : (list R -> R) -> list nat -> list R -> R.
Variable alphar : R -> R -> list R -> R.   (* model.alphar(T, rho, molefrac) *)
Variable Rgas : list R -> R.               (* model.R(molefrac) *)

(** [rhovec.sum()] and [rhovec / rhotot]. *)
Definition vsum (v : list R) : R := fold_right Rplus 0 v.
Definition molefrac_of (rhovec : list R) : list R := map (fun r => r / vsum rhovec) rhovec.
(** one value for each component *)
Definition each (v : list R) (f : nat -> R) : list R := map f (seq 0 (length v)).
(** [a.matrix().dot(b.matrix())] and [M*v] *)
Definition vdot (a b : list R) : R := vsum (each a (fun i => nth i a 0 * nth i b 0)).
Definition mat_vec (M : list (list R)) (v : list R) : list R := map (fun row => vdot row v) M.

(** lines 980-984 *)
Definition iso_Ar00 (T : R) (rhovec : list R) : R := alphar T (vsum rhovec) (molefrac_of rhovec).
(** lines 986-990 ([derivT] of a function of T alone) *)
Definition iso_Ar10 (T : R) (rhovec : list R) : R :=
  - T * ad (fun l => match l with [t] => alphar t (vsum rhovec) (molefrac_of rhovec) | _ => 0 end) [1%nat] [T].
(** lines 962-966 *)
Definition get_splus (T : R) (rhovec : list R) : R :=
  alphar T (vsum rhovec) (molefrac_of rhovec) - iso_Ar10 T rhovec.
(** lines 971-978 *)
Definition get_pr (T : R) (rhovec : list R) : R :=
  let rhotot := vsum rhovec in
  let molefrac := molefrac_of rhovec in
  let Ar01 := ad (fun l => match l with [r] => alphar T r molefrac | _ => 0 end) [1%nat] [rhotot] * rhotot in
  Ar01 * rhotot * Rgas molefrac * T.
(** lines 992-1004: sum of rho_i times the derivative in the i-th concentration *)
Definition iso_Ar01 (T : R) (rhovec : list R) : R :=
  vsum (each rhovec (fun i => nth i rhovec 0 *
    ad (fun l => match l with [r] => iso_Ar00 T (upd i r rhovec) | _ => 0 end) [1%nat] [nth i rhovec 0])).

(** lines 1009-1013 *)
Definition get_Psir (T : R) (rhovec : list R) : R :=
  alphar T (vsum rhovec) (molefrac_of rhovec) * Rgas (molefrac_of rhovec) * T * vsum rhovec.
(** lines 1018-1024 *)
Definition get_dPsirdT (T : R) (rhovec : list R) : R :=
  let rhotot := vsum rhovec in
  let molefrac := molefrac_of rhovec in
  ad (fun l => match l with [t] => rhotot * Rgas molefrac * t * alphar t rhotot molefrac | _ => 0 end) [1%nat] [T].

(** [autodiff::hessian]: the entries with i <= j are computed, the others copied;
    lines 1031-1045, 1052-1072. *)
Definition hess_entry (f : list R -> R) (rho : list R) (i j : nat) : R :=
  if Nat.eqb i j then
    ad (fun l => match l with [a] => f (upd i a rho) | _ => 0 end) [2%nat] [nth i rho 0]
  else
    ad (fun l => match l with [a; b] => f (upd j b (upd i a rho)) | _ => 0 end) [1%nat; 1%nat]
       [nth i rho 0; nth j rho 0].
Definition build_Psir_Hessian (T : R) (rho : list R) : list (list R) :=
  map (fun i => each rho (fun j => hess_entry (get_Psir T) rho (Nat.min i j) (Nat.max i j))) (seq 0 (length rho)).
(** lines 1079-1087 *)
Definition build_Psi_Hessian (T : R) (rho : list R) : list (list R) :=
  map (fun i => each rho (fun j =>
    nth j (nth i (build_Psir_Hessian T rho) []) 0 +
    (if Nat.eqb i j then Rgas (molefrac_of rho) * T / nth i rho 0 else 0))) (seq 0 (length rho)).
(** lines 1118-1127 *)
Definition build_Psir_gradient (T : R) (rho : list R) : list R :=
  each rho (fun i => ad (fun l => match l with [r] => get_Psir T (upd i r rho) | _ => 0 end) [1%nat] [nth i rho 0]).

(** lines 1197-1202, rhorefideal = 1 *)
Definition get_chempotVLE (T : R) (rho : list R) : list R :=
  each rho (fun i => nth i (build_Psir_gradient T rho) 0 + Rgas (molefrac_of rho) * T * (1 + ln (nth i rho 0 / 1))).

(** lines 1220-1230, 1207-1213 *)
Definition get_ln_fugacity_coefficients (T : R) (rhovec : list R) : list R :=
  let rhotot := vsum rhovec in
  let molefrac := molefrac_of rhovec in
  let Z := 1 + get_Agenxy ad alphar 0 1 T rhotot molefrac in
  let RT := Rgas molefrac * T in
  each rhovec (fun i => nth i (build_Psir_gradient T rhovec) 0 / RT - ln Z).
Definition get_fugacity_coefficients (T : R) (rhovec : list R) : list R :=
  map exp (get_ln_fugacity_coefficients T rhovec).
(** lines 1232-1242 *)
Definition get_ln_fugacity_coefficients_Trhomolefracs (T rhotot : R) (molefrac : list R) : list R :=
  let Z := 1 + get_Agenxy ad alphar 0 1 T rhotot molefrac in
  let rhovec := map (fun x => rhotot * x) molefrac in
  let RT := Rgas molefrac * T in
  each molefrac (fun i => nth i (build_Psir_gradient T rhovec) 0 / RT - ln Z).
(** lines 1244-1253, 1255-1262 *)
Definition get_ln_fugacity_coefficients1 (T : R) (rhovec : list R) : list R :=
  each rhovec (fun i => nth i (build_Psir_gradient T rhovec) 0 / (Rgas (molefrac_of rhovec) * T)).
Definition get_ln_fugacity_coefficients2 (T : R) (rhovec : list R) : R :=
  - ln (1 + get_Agenxy ad alphar 0 1 T (vsum rhovec) (molefrac_of rhovec)).

(** lines 1264-1280 *)
Definition build_d2PsirdTdrhoi (T : R) (rho : list R) : list R :=
  each rho (fun i => ad (fun l => match l with [t; r] => get_Psir t (upd i r rho) | _ => 0 end)
                        [1%nat; 1%nat] [T; nth i rho 0]).
(** lines 1282-1296 *)
Definition build_d2alphardrhodxi (T rhomolar : R) (molefrac : list R) : list R :=
  each molefrac (fun i => ad (fun l => match l with [r; x] => alphar T r (upd i x molefrac) | _ => 0 end)
                             [1%nat; 1%nat] [rhomolar; nth i molefrac 0]).
(** lines 1307-1317 *)
Definition get_d_lnphi_dT (T : R) (rhovec : list R) : list R :=
  let rhotot := vsum rhovec in
  let molefrac := molefrac_of rhovec in
  let Z := 1 + get_Agenxy ad alphar 0 1 T rhotot molefrac in
  let dZdT_Z := get_Agenxy ad alphar 1 1 T rhotot molefrac / (- T) / Z in
  each rhovec (fun i => 1 / (Rgas molefrac * T) *
    (nth i (build_d2PsirdTdrhoi T rhovec) 0 - 1 / T * nth i (build_Psir_gradient T rhovec) 0) - dZdT_Z).
(** lines 1325-1334 *)
Definition get_lnZ_Z_dZdrho (T : R) (rhovec : list R) : R * R * R :=
  let rhotot := vsum rhovec in
  let molefrac := molefrac_of rhovec in
  let Ar01 := get_Agenxy ad alphar 0 1 T rhotot molefrac in
  let Ar02 := get_Agenxy ad alphar 0 2 T rhotot molefrac in
  let Z := 1 + Ar01 in
  (ln Z, Z, (Ar01 + Ar02) / rhotot).
(** lines 1344-1351 *)
Definition get_d_lnphi_drho (T : R) (rhovec : list R) : list R :=
  let molefrac := molefrac_of rhovec in
  let '(_, Z, dZdrho) := get_lnZ_Z_dZdrho T rhovec in
  map (fun hx => 1 / (Rgas molefrac * T) * hx - dZdrho / Z) (mat_vec (build_Psir_Hessian T rhovec) molefrac).
(** lines 1361-1365 *)
Definition get_d_lnphi_dv (T : R) (rhovec : list R) : list R :=
  map (fun d => d * (- vsum rhovec * vsum rhovec)) (get_d_lnphi_drho T rhovec).
(** lines 1375-1394; entry (i, j) is the derivative of ln phi_i in x_j *)
Definition get_d_lnphi_dmolefracs (T : R) (rhovec : list R) : list (list R) :=
  let rhotot := vsum rhovec in
  let molefrac := molefrac_of rhovec in
  let Z := 1 + get_Agenxy ad alphar 0 1 T rhotot molefrac in
  let d2 := build_d2alphardrhodxi T rhotot molefrac in
  map (fun row => each rhovec (fun j => rhotot / (Rgas molefrac * T) * nth j row 0 - rhotot * nth j d2 0 / Z))
      (build_Psir_Hessian T rhovec).

(** lines 1413-1418 *)
Definition get_dchempotdT (T : R) (rhovec : list R) : list R :=
  each rhovec (fun i => nth i (build_d2PsirdTdrhoi T rhovec) 0 +
    Rgas (molefrac_of rhovec) * (1 + ln (nth i rhovec 0 / 1))).
(** lines 1423-1428 *)
Definition get_dpdT_constrhovec (T : R) (rhovec : list R) : R :=
  vsum rhovec * Rgas (molefrac_of rhovec) - get_dPsirdT T rhovec + vdot rhovec (build_d2PsirdTdrhoi T rhovec).
(** lines 1433-1439 *)
Definition get_dpdrhovec_constT (T : R) (rhovec : list R) : list R :=
  let RT := Rgas (molefrac_of rhovec) * T in
  map (fun h => RT + h) (mat_vec (build_Psir_Hessian T rhovec) rhovec).
(** lines 1479-1491 *)
Definition get_partial_molar_volumes (T : R) (rhovec : list R) : list R :=
  let rhotot := vsum rhovec in
  let molefrac := molefrac_of rhovec in
  let RT := Rgas molefrac * T in
  let ders := get_Agen0n ad alphar 2 T rhotot molefrac in
  let denominator := - (rhotot * rhotot) * RT * (1 + 2 * nth 1 ders 0 + nth 2 ders 0) in
  map (fun dp => - rhotot * dp / denominator) (get_dpdrhovec_constT T rhovec).
(** lines 1493-1507: the derivatives of orders 0 to 4 along a direction *)
Definition get_Psir_sigma_derivs (T : R) (rhovec v : list R) : list R :=
  map (fun k => ad (fun l => match l with
                             | [s] => get_Psir T (each rhovec (fun i => nth i rhovec 0 + s * nth i v 0))
                             | _ => 0 end) [k] [0]) (seq 0 5).
End Iso.
