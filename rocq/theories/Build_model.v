(** Model of the builder of ancillary curves, [algorithms/ancillary_builder.hpp] lines 14-147.

    The calls of the model are those of [Pure_model] ([solve_pure_critical],
    [extrapolate_from_critical], [pure_VLE_T], [dpsatdT_pure]) and the curves those of
    [Multi_model].  Eigen's QR solver is a function.  The entries of the flags are given as
    values of their types (defaults: verify true, Npts 1000, Theta_nearcrit 0.01).  [None]
    is an access to an empty array or a result that is not finite.  Not modelled: what
    "verify" prints. *)
From Coq Require Import Reals ZArith String List Bool.
From Verif Require Import Json_model Cubic_model Terms_model Ideal_model Assoc_model Multi_model Pure_model.
Import ListNotations.
Open Scope R_scope.

(** A point of the loop of lines 47-63: temperature after line 54, densities after lines
    52-53, pressure of line 56; line 55 is [theta_of]. *)
Record node := { nd_T : R; nd_rhoL : R; nd_rhoV : R; nd_p : R }.

Section Build.
Variable m : amodel.
Variable linsolve : mat2 -> R * R -> R * R.
Variable eps : R.
(** [A.colPivHouseholderQr().solve(b)]: the least-squares solution *)
Variable lstsq : list (list R) -> list R -> list R.

(** lines 47-63: point [i], then the rest *)
Fixpoint build_nodes (Tclosec dT : R) (n i : nat) (x : R * R) : list node :=
  match n with
  | O => []
  | S n =>
      let T := Tclosec - dT * INR i in
      let x := pure_VLE_T m linsolve eps T (fst x) (snd x) 10 [1] in
      let d := dpsatdT_pure m T (fst x) (snd x) [1] in
      let rhoL := fst x + trace_drhodT m [1] d T (fst x) * dT in
      let rhoV := snd x + trace_drhodT m [1] d T (snd x) * dT in
      let T := T + dT in
      {| nd_T := T; nd_rhoL := rhoL; nd_rhoV := rhoV; nd_p := rhoL * get_R m [1] * T * (1 + get_A m 0 1 T rhoL [1]) |}
      :: build_nodes Tclosec dT n (S i) (rhoL, rhoV)
  end.
Definition theta_of (Tc : R) (q : node) : R := (Tc - nd_T q) / Tc.
(** lines 70-83 *)
Definition exponents : list R := linspaced 10 0 4.5.
Definition fit_matrix (Tc : R) (nodes : list node) : option (list (list R)) :=
  osequence (map (fun q => osequence (map (cpow (theta_of Tc q)) exponents)) nodes).
Definition fit_rhoL (rhoc : R) (nodes : list node) : list R := map (fun q => nd_rhoL q / rhoc - 1) nodes.
Definition fit_log (f : node -> R) (red Tc : R) (nodes : list node) : option (list R) :=
  osequence (map (fun q => r <-- cdiv (f q) red; l <-- clog r; Some (l * (1 - theta_of Tc q))) nodes).
(** lines 95-127 *)
Definition curve (Tc Tmin red : R) (type : string) (tau : bool) (n : list R) : json :=
  JObj [("T_r", JNum Tc); ("Tmax", JNum Tc); ("Tmin", JNum Tmin); ("type", JStr type); ("description", JStr "I'm a description");
        ("n", JArr (map JNum n)); ("t", JArr (map JNum exponents)); ("reducing_value", JNum red); ("using_tau_r", JBool tau)]%string.
Definition curves (Tc Tmin rhoc pc : R) (cL cV cp : list R) : json :=
  JObj [("rhoL", curve Tc Tmin rhoc "rhoLnoexp" false cL); ("rhoV", curve Tc Tmin rhoc "type" true cV); ("pS", curve Tc Tmin pc "type" true cp)]%string.
(** line 32 *)
Definition build_dT (Tc Tmin : R) (Npts : Z) : R := (Tc - Tmin) / IZR (Npts - 1).
(** lines 65-128 *)
Definition fit_curves (Tc Tmin rhoc pc : R) (nodes : list node) : outcome ancillaries :=
  match fit_matrix Tc nodes, fit_log nd_rhoV rhoc Tc nodes, fit_log nd_p pc Tc nodes with
  | Some A, Some bV, Some bp =>
      match make_ancillaries (curves Tc Tmin rhoc pc (lstsq A (fit_rhoL rhoc nodes)) (lstsq A bV) (lstsq A bp)) with
      | Val a => ok a
      | Err e => throws e
      end
  | _, _, _ => None
  end.
(** lines 19-147.  The curves are evaluated at the nodes when verifying, where a temperature
    above [T_r] throws; with [theta <= 0] the square root of the extrapolation makes all
    densities not a number. *)
Definition build_ancillaries (Tguess rhoguess Tmin : R) (verify : bool) (Npts : Z) (theta : R) : outcome ancillaries :=
  match solve_pure_critical m linsolve Tguess rhoguess None None None with
  | Err e => throws e
  | Val (Tc, rhoc) =>
      let Tclosec := (1 - theta) * Tc in
      let x := extrapolate_from_critical m Tc rhoc Tclosec [1] in
      let pc := rhoc * get_R m [1] * Tc * (1 + get_A m 0 1 Tc rhoc [1]) in
      if (Npts <=? 1)%Z then None else
      let nodes := build_nodes Tclosec (build_dT Tc Tmin Npts) (Z.to_nat Npts) 0 x in
      if verify && existsb (fun q => if Rlt_dec Tc ((1 - theta_of Tc q) * Tc) then true else false) nodes then throws InvalidArgument
      else if Rle_dec theta 0 then None
      else fit_curves Tc Tmin rhoc pc nodes
  end.
End Build.
