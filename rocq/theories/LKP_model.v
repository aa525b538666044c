(** Model of the equation of state of Lee and Kesler with the mixing rules of Ploecker,
    [include/teqp/models/LKP.hpp].

    Doubles are reals.  [None] is a value that is not finite, [Some (Err _)] an exception.
    [powi] with a fixed positive exponent is the power (Properties_Util.v). *)
From Coq Require Import Reals String List Bool.
From Verif Require Import Json_model Vec_spec Cubic_model Terms_model Ideal_model Assoc_model.
Import ListNotations.
Open Scope R_scope.

(** [LKPFluidParameters], lines 14-17; the vectors carry a zero in front *)
Record lkp_fluid := { lb : list R; lc : list R; ld : list R; lbeta : R; lgamma : R; lomega : R }.
(** lines 21-28 *)
Definition lkp_simple : lkp_fluid :=
  {| lb := [0; 0.1181193; 0.265728; 0.154790; 0.303230e-1]; lc := [0; 0.236744e-1; 0.186984e-1; 0; 0.427240e-1];
     ld := [0; 0.155428e-4; 0.623689e-4]; lbeta := 0.653920; lgamma := 0.601670e-1; lomega := 0 |}.
Definition lkp_ref : lkp_fluid :=
  {| lb := [0; 0.2026579; 0.331511; 0.276550e-1; 0.203488]; lc := [0; 0.313385e-1; 0.503618e-1; 0.169010e-1; 0.41577e-1];
     ld := [0; 0.487360e-4; 0.740336e-5]; lbeta := 1.226; lgamma := 0.03754; lomega := 0.3978 |}.

(** [LKPMix], lines 29-31 *)
Record lkp := { k_Tc : list R; k_pc : list R; k_w : list R; k_R : R; k_mat : list (list R) }.
(** The constructor, lines 33-50 *)
Definition make_lkp (Tc pc w : list R) (Rg : R) (kmat : list (list R)) : res lkp :=
  let N := length Tc in
  if negb (Nat.eqb (length pc) N && Nat.eqb (length w) N) then Err InvalidArgument
  else if negb (Nat.eqb (length kmat) N) then Err InvalidArgument
  else if forallb (fun row => Nat.eqb (length row) N) kmat
  then Val {| k_Tc := Tc; k_pc := pc; k_w := w; k_R := Rg; k_mat := kmat |}
  else Err InvalidArgument.

(** [alphar_func], lines 56-62 *)
Definition nb (l : list R) (i : nat) : R := nth i l 0.
Definition lkp_func (p : lkp_fluid) (tau delta Zc : R) : option R :=
  let B := nb (lb p) 1 - nb (lb p) 2 * tau - nb (lb p) 3 * tau ^ 2 - nb (lb p) 4 * tau ^ 3 in
  let C := nb (lc p) 1 - nb (lc p) 2 * tau + nb (lc p) 3 * tau ^ 3 in
  let D := nb (ld p) 1 + nb (ld p) 2 * tau in
  dz <-- cdiv delta Zc;
  bz <-- cdiv B Zc;
  g <-- cdiv (nb (lc p) 4 * tau ^ 3) (2 * lgamma p);
  Some (bz * delta + 1 / 2 * C * dz ^ 2 + 1 / 5 * D * dz ^ 5
        - g * (lgamma p * dz ^ 2 + lbeta p + 1) * exp (- lgamma p * dz ^ 2) + g * (lbeta p + 1)).

(** [v_ci], lines 80 and 82 *)
Definition lkp_vc (m : lkp) (i : nat) : option R :=
  cdiv ((0.2905 - 0.085 * nth i (k_w m) 0) * k_R m * nth i (k_Tc m) 0) (nth i (k_pc m) 0).
(** [v_c_ij] and [T_c_ij], lines 83-84 *)
Definition lkp_vij (m : lkp) (i j : nat) : option R :=
  vi <-- lkp_vc m i; vj <-- lkp_vc m j; Some (1 / 8 * (cbrt vi + cbrt vj) ^ 3).
Definition lkp_Tij (m : lkp) (i j : nat) : option R :=
  s <-- csqrt (nth i (k_Tc m) 0 * nth j (k_Tc m) 0); Some (nth j (nth i (k_mat m) []) 0 * s).
(** The loops, lines 74-88 *)
Definition lkp_omega (m : lkp) (x : list R) : R := sumn (length x) (fun i => nth i x 0 * nth i (k_w m) 0).
Definition lkp_vmix (m : lkp) (x : list R) : option R :=
  osum (length x) (fun i => osum (length x) (fun j => v <-- lkp_vij m i j; Some (nth i x 0 * nth j x 0 * v))).
Definition lkp_Tsum (m : lkp) (x : list R) : option R :=
  osum (length x) (fun i => osum (length x) (fun j =>
    v <-- lkp_vij m i j; p <-- cpow v 0.25; T <-- lkp_Tij m i j; Some (nth i x 0 * nth j x 0 * p * T))).
(** [alphar], lines 65-98 *)
Definition lkp_mixture (m : lkp) (T rho : R) (x : list R) : option R :=
  let omega := lkp_omega m x in
  vc <-- lkp_vmix m x;
  ts <-- lkp_Tsum m x;
  p <-- cpow vc 0.25;
  ip <-- cdiv 1 p;
  let Zc := 0.2905 - 0.085 * omega in
  tau <-- cdiv (ip * ts) T;
  let delta := vc * rho in
  a0 <-- lkp_func lkp_simple tau delta Zc;
  a1 <-- lkp_func lkp_ref tau delta Zc;
  Some ((1 - omega / lomega lkp_ref) * a0 + omega / lomega lkp_ref * a1).
Definition lkp_alphar (m : lkp) (T rho : R) (x : list R) : outcome R :=
  if negb (Nat.eqb (length x) (length (k_w m))) then throws InvalidArgument else fin (lkp_mixture m T rho x).

(** [make_LKPMix], lines 102-104; the arguments of the constructor are converted in an order the
    language leaves open, every failure is the same kind of exception *)
Definition lkp_of_json (j : json) : res lkp :=
  bind (bind (j_at j "Tcrit / K") (j_valarray j_double)) (fun Tc =>
  bind (bind (j_at j "pcrit / Pa") (j_valarray j_double)) (fun pc =>
  bind (bind (j_at j "acentric") (j_valarray j_double)) (fun w =>
  bind (bind (j_at j "R / J/mol/K") j_double) (fun Rg =>
  bind (bind (j_at j "kmat") (j_valarray (j_valarray j_double))) (fun k => make_lkp Tc pc w Rg k))))).
