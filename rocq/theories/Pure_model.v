(** Model of [algorithms/critical_pure.hpp] and [algorithms/VLE_pure.hpp].
    The model object is given by its gas constant and its derivative accessors
    (C17 says what these are); Eigen's linear solver is external. *)
From Coq Require Import Reals ZArith List Bool.
From Verif Require Import Json_model.
Import ListNotations.
Open Scope R_scope.

Record amodel := {
  get_R : list R -> R;
  get_A : nat -> nat -> R -> R -> list R -> R  (* get_Ar_{ij}(T, rho, z) *) }.

(** A 2x2 matrix (J00, J01, J10, J11). *)
Record mat2 := mkmat2 { m00 : R; m01 : R; m10 : R; m11 : R }.

Section Crit.
Variable m : amodel.

(** critical_pure.hpp lines 25-38: the composition used.  A length that was not
    given makes [std::optional::value] throw. *)
Definition bad_optional_access := OtherError 1.
Definition critical_z (index len : option nat) : res (list R) :=
  match index with
  | None => Val [1]
  | Some i =>
      match len with
      | None => Err bad_optional_access
      | Some n => if Nat.ltb i n then Val (map (fun k => if Nat.eqb k i then 1 else 0) (seq 0 n))
                  else Err InvalidArgument
      end
  end.

(** [get_pure_critical_conditions_Jacobian], lines 39-78. *)
Definition critical_conditions (z : list R) (T rho : R) : (R * R) * mat2 :=
  let Rg := get_R m z in
  let ders n := get_A m 0 n T rho z in
  let dpdrho := Rg * T * (1 + 2 * ders 1%nat + ders 2%nat) in
  let d2pdrho2 := Rg * T / rho * (2 * ders 1%nat + 4 * ders 2%nat + ders 3%nat) in
  let Ar11 := get_A m 1 1 T rho z in
  let Ar12 := get_A m 1 2 T rho z in
  let Ar13 := get_A m 1 3 T rho z in
  let d3pdrho3 := Rg * T / (rho * rho) * (6 * ders 2%nat + 6 * ders 3%nat + ders 4%nat) in
  let d_dpdrho_dT := Rg * (- (Ar12 + 2 * Ar11) + ders 2%nat + 2 * ders 1%nat + 1) in
  let d_d2pdrho2_dT := Rg / rho * (- (Ar13 + 4 * Ar12 + 2 * Ar11) + ders 3%nat + 4 * ders 2%nat + 2 * ders 1%nat) in
  ((dpdrho, d2pdrho2), mkmat2 d_dpdrho_dT d2pdrho2 d_d2pdrho2_dT d3pdrho3).

(** colPivHouseholderQr().solve *)
Variable linsolve : mat2 -> R * R -> R * R.

(** [solve_pure_critical], lines 125-156; the flags are the (optional) entries
    "maxsteps", "alternative_pure_index", "alternative_length", already converted
    to [int]. *)
Definition opt_nonneg (lo : Z) (i : option Z) : res (option nat) :=
  match i with
  | None => Val None
  | Some i => if (i <? lo)%Z then Err InvalidArgument else Val (Some (Z.to_nat i))
  end.
Fixpoint critical_loop (z : list R) (n : nat) (x : R * R) : R * R :=
  match n with
  | O => x
  | S n' =>
      let '(r, J) := critical_conditions z (fst x) (snd x) in
      let v := linsolve J (- fst r, - snd r) in
      critical_loop z n' (fst x + fst v, snd x + snd v)
  end.
Definition solve_pure_critical (T0 rho0 : R) (maxsteps index len : option Z) : res (R * R) :=
  let n := Z.to_nat (match maxsteps with Some k => k | None => 10%Z end) in
  bind (opt_nonneg 0 index) (fun i =>
  bind (opt_nonneg 2 len) (fun l =>
  match n with
  | O => Val (T0, rho0)      (* the composition is only built inside the loop *)
  | S _ => bind (critical_z i l) (fun z => Val (critical_loop z n (T0, rho0)))
  end)).

(** [get_Brho_critical_extrap], lines 194-210, and [extrapolate_from_critical], 212-223. *)
Definition get_Brho_critical_extrap (Tc rhoc : R) (z : list R) : R :=
  let Rg := get_R m z in
  let ders n := get_A m 0 n Tc rhoc z in
  let d3pdrho3 := Rg * Tc / (rhoc * rhoc) * (6 * ders 2%nat + 6 * ders 3%nat + ders 4%nat) in
  let Ar11 := get_A m 1 1 Tc rhoc z in
  let Ar12 := get_A m 1 2 Tc rhoc z in
  let d2pdrhodT := Rg * (1 + 2 * ders 1%nat + ders 2%nat - 2 * Ar11 - Ar12) in
  sqrt (6 * d2pdrhodT * Tc / d3pdrho3).
Definition extrapolate_from_critical (Tc rhoc T : R) (z : list R) : R * R :=
  let Brho := get_Brho_critical_extrap Tc rhoc z in
  let drhohat_dT := Brho / Tc in
  let dT := T - Tc in
  let drhohat := dT * drhohat_dT in
  (- drhohat / sqrt (1 - T / Tc) + rhoc, drhohat / sqrt (1 - T / Tc) + rhoc).

(** ** VLE_pure.hpp *)

(** [IsothermPureVLEResiduals::call], lines 59-91, with R0 = Rr = get_R (lines 34-44). *)
Definition vle_call (T : R) (z : list R) (x : R * R) : (R * R) * mat2 :=
  let R0_over_Rr := get_R m z / get_R m z in
  let rhoL := fst x in let rhoV := snd x in
  let derL n := get_A m 0 n T rhoL z in
  let pRTL := rhoL * (R0_over_Rr + derL 1%nat) in
  let dpRTLdrhoL := R0_over_Rr + 2 * derL 1%nat + derL 2%nat in
  let hatmurL := derL 1%nat + derL 0%nat + R0_over_Rr * ln rhoL in
  let dhatmurLdrho := (2 * derL 1%nat + derL 2%nat) / rhoL + R0_over_Rr / rhoL in
  let derV n := get_A m 0 n T rhoV z in
  let pRTV := rhoV * (R0_over_Rr + derV 1%nat) in
  let dpRTVdrhoV := R0_over_Rr + 2 * derV 1%nat + derV 2%nat in
  let hatmurV := derV 1%nat + derV 0%nat + R0_over_Rr * ln rhoV in
  let dhatmurVdrho := (2 * derV 1%nat + derV 2%nat) / rhoV + R0_over_Rr / rhoV in
  ((pRTL - pRTV, hatmurL - hatmurV),
   mkmat2 dpRTLdrhoL (- dpRTVdrhoV) dhatmurLdrho (- dhatmurVdrho)).

(** [do_pure_VLE_T], lines 106-136; [eps] is the machine epsilon. *)
Variable eps : R.
Definition small2 (v : R * R) : bool :=
  (if Rlt_dec (Rabs (fst v)) eps then true else false) &&
  (if Rlt_dec (Rabs (snd v)) eps then true else false).
Fixpoint vle_loop (T : R) (z : list R) (maxiter : nat) (x : R * R) : R * R :=
  match maxiter with
  | O => x
  | S n =>
      let '(r0, J) := vle_call T z x in
      let v := linsolve J (- fst r0, - snd r0) in
      let xnew := (fst x + fst v, snd x + snd v) in
      if small2 (fst xnew - fst x, snd xnew - snd x) then x
      else if small2 r0 then x
      else vle_loop T z n xnew
  end.
(** [pure_VLE_T], lines 138-143 (the default composition is [1]). *)
Definition pure_VLE_T (T rhoL rhoV : R) (maxiter : Z) (z : list R) : R * R :=
  vle_loop T z (Z.to_nat maxiter) (rhoL, rhoV).

(** [dpsatdT_pure], lines 158-170. *)
Definition dpsatdT_pure (T rhoL rhoV : R) (z : list R) : R :=
  let Rg := get_R m z in
  let hV := get_A m 0 1 T rhoV z + get_A m 1 0 T rhoV z in
  let hL := get_A m 0 1 T rhoL z + get_A m 1 0 T rhoL z in
  Rg * (hV - hL) / (1 / rhoV - 1 / rhoL).

(** The density slope used by [pure_trace_VLE], lines 219-223. *)
Definition trace_drhodT (z : list R) (dpsatdT T rho : R) : R :=
  let Rg := get_R m z in
  let dpdrho := Rg * T * (1 + 2 * get_A m 0 1 T rho z + get_A m 0 2 T rho z) in
  let dpdT := Rg * rho * (1 + get_A m 0 1 T rho z - get_A m 1 1 T rho z) in
  - dpdT / dpdrho + dpsatdT / dpdrho.

(** The body of the loop of [pure_trace_VLE], lines 210-239, over the temperature
    grid.  [polish T x] is [pure_VLE_T] at T from the guess x; [None] stands for a
    density that is not finite. *)
Variable polish : R -> R * R -> option (R * R).
Definition trivial2 (x : R * R) : bool := if Req_EM_T (fst x) (snd x) then true else false.
Fixpoint trace_loop (z : list R) (with_deriv : bool) (dT : R) (grid : list R) (x : R * R) : res (R * R) :=
  match grid with
  | [] => Val x
  | T :: grid' =>
      match polish T x with
      | None => Err IterationFailure
      | Some x1 =>
          let x2 :=
            if with_deriv then
              let d := dpsatdT_pure T (fst x1) (snd x1) z in
              (fst x1 + dT * trace_drhodT z d T (fst x1), snd x1 + dT * trace_drhodT z d T (snd x1))
            else x1 in
          if trivial2 x2 then Err IterationFailure else trace_loop z with_deriv dT grid' x2
      end
  end.
(** [Eigen::ArrayXd::LinSpaced(N, a, b)]; one point gives [b]. *)
Definition linspaced (N : nat) (a b : R) : list R :=
  match N with
  | 1%nat => [b]
  | _ => map (fun k => a + INR k * ((b - a) / INR (N - 1))) (seq 0 N)
  end.
(** [pure_trace_VLE] from the polished near-critical pair, lines 200-240.
    [Nstep = 1] divides by zero when the step is computed (a zero here; an infinity in
    floating point). *)
Definition pure_trace_from (z : list R) (with_deriv : bool) (Nstep : nat) (Tclose T : R) (x : R * R) : res (R * R) :=
  if trivial2 x then Err IterationFailure else
  trace_loop z with_deriv (- (Tclose - T) / INR (Nstep - 1)) (linspaced Nstep Tclose T) x.

End Crit.
