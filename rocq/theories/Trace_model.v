(** Model of the derivatives used to trace phase envelopes:
    [include/teqp/algorithms/VLE.hpp] lines 524-790 and
    [include/teqp/algorithms/VLLE.hpp] lines 481-517.

    [solve A b] is [A.colPivHouseholderQr().solve(b)] ([linsolve], VLE.hpp lines 54-57),
    an external function.  [None]: an access out of bounds or vectors of unequal size
    (the [assert]s of the code are off in release builds), or an infinite matrix entry
    reaching the solver. *)
From Coq Require Import Reals ZArith List Bool.
From Verif Require Import Json_model Derivs_model Iso_model.
Import ListNotations.
Open Scope R_scope.

Section Trace.
Variable ad : (list R -> R) -> list nat -> list R -> R.
Variable alphar : R -> R -> list R -> R.
Variable Rgas : list R -> R.
Variable solve : list (list R) -> list R -> list R.

Notation Hess := (build_Psi_Hessian ad alphar Rgas).
Notation dmudT := (get_dchempotdT ad alphar Rgas).
Notation dpdT := (get_dpdT_constrhovec ad alphar Rgas).
Notation murgrad := (build_Psir_gradient ad alphar Rgas).

Definition is0 (x : R) : bool := if Req_EM_T x 0 then true else false.
(** [(rhovec != 0).all()] *)
Definition all_nonzero (v : list R) : bool := forallb (fun x => negb (is0 x)) v.
(** coefficient-wise difference *)
Definition vsub (a b : list R) : list R := each a (fun i => nth i a 0 - nth i b 0).
Definition row (M : list (list R)) (i : nat) : list R := nth i M [].

(** lines 533-541: [A] starts as the zero matrix; entries (0..1, 0..1) are set *)
Definition normal_A (N : nat) (Hliq : list (list R)) (rhovecL rhovecV : list R) : list (list R) :=
  map (fun i => map (fun j =>
    match i, j with
    | O, O => vdot (row Hliq 0) rhovecV | O, S O => vdot (row Hliq 1) rhovecV
    | S O, O => vdot (row Hliq 0) rhovecL | S O, S O => vdot (row Hliq 1) rhovecL
    | _, _ => 0 end) (seq 0 N)) (seq 0 N).

(** A row of the Hessian times the concentrations, coefficient by coefficient, with the
    j-th product replaced (it is infinity times zero in the code); lines 566-571. *)
Definition fixed_dot (r rho : list R) (j : nat) (v : R) : R :=
  vsum (each r (fun k => if Nat.eqb k j then v else nth k r 0 * nth k rho 0)).
(** lines 558-576 and 654-676: the rows of zero liquid concentrations are replaced.  The
    isobaric variant tests [rhovec[j] == 0] of the phase at hand and that the row of the
    Hessian is not finite, which is [rhovecL[j] == 0]. *)
Definition dilute_A (isobar : bool) (T : R) (Hliq : list (list R)) (rhovecL rhovecV : list R) : list (list R) :=
  let murL := murgrad T rhovecL in
  let murV := murgrad T rhovecV in
  let RL := Rgas (molefrac_of rhovecL) in
  map (fun i => each rhovecL (fun j =>
    let is_liq := Nat.eqb i 1 in
    let rhovec := if is_liq then rhovecL else rhovecV in
    if is0 (nth j rhovecL 0) && (negb isobar || is0 (nth j rhovec 0)) then
      fixed_dot (row Hliq j) rhovec j
        (if is_liq then RL * T else RL * T * exp (- (nth j murV 0 - nth j murL 0) / (RL * T)))
    else vdot (row Hliq j) rhovec)) (seq 0 (length rhovecL)).
(** lines 580-588 and 680-690: diag(rhovecL) times the Hessians, with the diagonal
    entries of the zero concentrations replaced. *)
Definition starL (T : R) (H : list (list R)) (rhovecL : list R) : list (list R) :=
  map (fun i => each rhovecL (fun k =>
    if is0 (nth i rhovecL 0) && Nat.eqb i k then Rgas (molefrac_of rhovecL) * T
    else nth i rhovecL 0 * nth k (row H i) 0)) (seq 0 (length rhovecL)).
Definition starV (T : R) (H : list (list R)) (rhovecL rhovecV : list R) : list (list R) :=
  let murL := murgrad T rhovecL in
  let murV := murgrad T rhovecV in
  let RV := Rgas (molefrac_of rhovecV) in
  map (fun i => each rhovecL (fun k =>
    if is0 (nth i rhovecL 0) && Nat.eqb i k then RV * T / exp (- (nth i murV 0 - nth i murL 0) / (RV * T))
    else nth i rhovecL 0 * nth k (row H i) 0)) (seq 0 (length rhovecL)).
(** a vapour concentration is zero but the liquid one is not *)
Definition only_vapor_zero (rhovecL rhovecV : list R) : bool :=
  existsb (fun i => is0 (nth i rhovecV 0) && negb (is0 (nth i rhovecL 0))) (seq 0 (length rhovecL)).
Definition only_liquid_zero (rhovecL rhovecV : list R) : bool :=
  existsb (fun i => is0 (nth i rhovecL 0) && negb (is0 (nth i rhovecV 0))) (seq 0 (length rhovecL)).

(** VLE.hpp lines 524-593 *)
Definition get_drhovecdp_Tsat (T : R) (rhovecL rhovecV : list R) : outcome (list R * list R) :=
  let N := length rhovecL in
  let Hliq := Hess T rhovecL in
  let Hvap := Hess T rhovecV in
  if negb (Nat.eqb (length rhovecV) N) then None else
  let b := repeat 1 N in
  if all_nonzero rhovecL && all_nonzero rhovecV then
    if Nat.ltb N 2 then None else
    let drhodp_liq := solve (normal_A N Hliq rhovecL rhovecV) b in
    Some (Val (drhodp_liq, solve Hvap (mat_vec Hliq drhodp_liq)))
  else if only_vapor_zero rhovecL rhovecV then None
  else
    let drhodp_liq := solve (dilute_A false T Hliq rhovecL rhovecV) b in
    Some (Val (drhodp_liq, solve (starV T Hvap rhovecL rhovecV) (mat_vec (starL T Hliq rhovecL) drhodp_liq))).

(** VLE.hpp lines 598-697 *)
Definition get_drhovecdT_psat (T : R) (rhovecL rhovecV : list R) : outcome (list R * list R) :=
  let N := length rhovecL in
  if negb (Nat.eqb N 2) then Some (Err StdInvalidArgument) else
  if negb (Nat.eqb (length rhovecV) N) then None else
  let Hliq := Hess T rhovecL in
  let Hvap := Hess T rhovecV in
  if all_nonzero rhovecL && all_nonzero rhovecV then
    let DELTAdmu_dT := vsub (dmudT T rhovecV) (dmudT T rhovecL) in
    let b := [vdot DELTAdmu_dT rhovecV - dpdT T rhovecV; - dpdT T rhovecL] in
    let liq := solve (normal_A N Hliq rhovecL rhovecV) b in
    Some (Val (liq, solve Hvap (vsub (mat_vec Hliq liq) DELTAdmu_dT)))
  else if only_vapor_zero rhovecL rhovecV || only_liquid_zero rhovecL rhovecV then None
  else
    let RV := Rgas (molefrac_of rhovecV) in
    let DELTAdmu_dT_res := vsub (build_d2PsirdTdrhoi ad alphar Rgas T rhovecV) (build_d2PsirdTdrhoi ad alphar Rgas T rhovecL) in
    let ideal := each rhovecV (fun i => if is0 (nth i rhovecV 0) then 0 else RV * ln (nth i rhovecV 0 / nth i rhovecL 0)) in
    let rhoV_ideal := each rhovecV (fun i => if is0 (nth i rhovecV 0) then 0
                        else nth i rhovecV 0 * (RV * ln (nth i rhovecV 0 / nth i rhovecL 0))) in
    let DELTAdmu_dT_rhoV := vdot rhovecV DELTAdmu_dT_res + vsum rhoV_ideal in
    let b := [DELTAdmu_dT_rhoV - dpdT T rhovecV; - dpdT T rhovecL] in
    let liq := solve (dilute_A true T Hliq rhovecL rhovecV) b in
    let diag := each rhovecL (fun i => nth i rhovecL 0 * (nth i DELTAdmu_dT_res 0 + nth i ideal 0)) in
    Some (Val (liq, solve (starV T Hvap rhovecL rhovecV) (vsub (mat_vec (starL T Hliq rhovecL) liq) diag))).

(** VLE.hpp lines 712-736 *)
Definition get_drhovecdT_xsat (T : R) (rhovecL rhovecV : list R) : outcome (list R * list R) :=
  let N := length rhovecL in
  if negb (Nat.eqb N 2) then Some (Err StdInvalidArgument) else
  if negb (Nat.eqb (length rhovecV) N) then None else
  let molefracL := molefrac_of rhovecL in
  let deltas := vsub (dmudT T rhovecV) (dmudT T rhovecL) in
  let deltabeta := dpdT T rhovecV - dpdT T rhovecL in
  let deltarho := vsub rhovecV rhovecL in
  let Hliq := Hess T rhovecL in
  let Hvap := Hess T rhovecV in
  if all_nonzero rhovecL && all_nonzero rhovecV then
    let num := vdot deltas rhovecV - deltabeta in
    let den := vdot (mat_vec Hliq deltarho) molefracL in
    let liq := map (Rmult (num / den)) molefracL in
    Some (Val (liq, solve Hvap (vsub (mat_vec Hliq liq) deltas)))
  else Some (Err StdInvalidArgument).

(** VLE.hpp lines 763-779 *)
Definition get_dpsat_dTsat_isopleth (T : R) (rhovecL rhovecV : list R) : outcome R :=
  match get_drhovecdT_xsat T rhovecL rhovecV with
  | Some (Val (liq, _)) =>
      let drhoLdT_sat := vsum liq in
      let rhoL := vsum rhovecL in
      let molefracL := molefrac_of rhovecL in
      let RT := Rgas molefracL * T in
      let derivs := get_Agen0n ad alphar 2 T rhoL molefracL in
      let dpdrho := RT * (1 + 2 * nth 1 derivs 0 + nth 2 derivs 0) in
      let dpdT := Rgas molefracL * rhoL * (1 + nth 1 derivs 0 - get_Agenxy ad alphar 1 1 T rhoL molefracL) in
      Some (Val (dpdT + dpdrho * drhoLdT_sat))
  | Some (Err e) => Some (Err e)
  | None => None
  end.

(** VLLE.hpp lines 481-517 *)
Definition get_drhovecdT_VLLE_binary (T : R) (rhovecV rhovecL1 rhovecL2 : list R) : option (list R * list R * list R) :=
  if negb (Nat.eqb (length rhovecV) 2 && Nat.eqb (length rhovecL1) 2 && Nat.eqb (length rhovecL2) 2) then None else
  let PSIV := Hess T rhovecV in
  let mu' rho := each rho (fun i => nth i (build_d2PsirdTdrhoi ad alphar Rgas T rho) 0 + Rgas (molefrac_of rho) * ln (nth i rho 0)) in
  let dmudTV := mu' rhovecV in
  let dmudTL1 := mu' rhovecL1 in
  let dmudTL2 := mu' rhovecL2 in
  let LHS := [mat_vec PSIV (vsub rhovecL1 rhovecV); mat_vec PSIV (vsub rhovecL2 rhovecV)] in
  let RHS := [vdot (vsub dmudTL1 dmudTV) rhovecL1 - (dpdT T rhovecL1 - dpdT T rhovecV);
              vdot (vsub dmudTL2 dmudTV) rhovecL2 - (dpdT T rhovecL2 - dpdT T rhovecV)] in
  let V := solve LHS RHS in
  let AV := mat_vec PSIV V in
  Some (V, solve (Hess T rhovecL1) (vsub AV (vsub dmudTL1 dmudTV)),
           solve (Hess T rhovecL2) (vsub AV (vsub dmudTL2 dmudTV))).
End Trace.
