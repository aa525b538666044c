(** Model of the vapor-liquid equilibrium solvers of [algorithms/VLE.hpp], lines 76-522.

    [None]: memory outside an array or uninitialised memory is used (the assertions of the
    matrix library are off in release builds). *)
From Coq Require Import Reals ZArith String List Bool.
From Verif Require Import Json_model Cubic_model Float_model.
Import ListNotations.
Open Scope R_scope.

(** [VLE_return_code], VLE_types.hpp line 40 *)
Inductive vle_code := unset | xtol_satisfied | functol_satisfied | maxfev_met | maxiter_met | notfinite_step.

(** The calls of the [AbstractModel]: [get_R], [build_Psir_fgradHessian_autodiff] (value,
    gradient and Hessian of the residual Helmholtz energy density),
    [build_d2PsirdTdrhoi_autodiff] and [get_dpdT_constrhovec]. *)
Record eos := {
  e_R : list fl -> fl;
  e_fgh : fl -> list fl -> outcome (fl * list fl * list (list fl));
  e_d2 : fl -> list fl -> outcome (list fl);
  e_dpdT : fl -> list fl -> outcome fl }.

(** Array expressions: an element, the coefficient-wise operations, [.sum()], a matrix
    times a vector. *)
Definition el (v : list fl) (i : nat) : fl := nth i v NaN.
Definition zip (f : fl -> fl -> fl) (a b : list fl) : list fl := map (fun p => f (fst p) (snd p)) (combine a b).
Definition fsum (v : list fl) : fl := fold_right fadd (Fin 0) v.
Definition fdot (a b : list fl) : fl := fsum (zip fmul a b).
Definition el2 (H : list (list fl)) (i j : nat) : fl := el (nth i H []) j.

(** [pL], [pV]: lines 100-101, 213-214, 450-451 *)
Definition phase_p (RT : fl) (rho : list fl) (psi : fl) (grad : list fl) : fl :=
  fadd (fsub (fmul (fsum rho) RT) psi) (fdot rho grad).
(** [dpdrhovecL], [dpdrhovecV]: lines 102-103, 246-247, 452-453 *)
Definition phase_dp (RT : fl) (rho : list fl) (hess : list (list fl)) : list fl := map (fun row => fadd RT (fdot row rho)) hess.
(** [index0nonzero], [index1nonzero]: lines 105-106, 216-217, 249-250 *)
Definition nonzero (L V : list fl) (i : nat) : bool := flt (Fin 0) (el L i) && flt (Fin 0) (el V i).
(** [r(0)], [r(1)]: lines 108-117, 219-230 *)
Definition mu_r (RT : fl) (L V gL gV : list fl) (i : nat) : fl :=
  if nonzero L V i
  then fsub (fadd (el gL i) (fmul RT (flog (el L i)))) (fadd (el gV i) (fmul RT (flog (el V i))))
  else fsub (el gL i) (el gV i).
(** the diagonal entries of the first two rows of [J]: lines 122-129, 253-260 *)
Definition mu_diag (RT : fl) (L V rho : list fl) (hess : list (list fl)) (i : nat) : fl :=
  fadd (el2 hess i i) (if nonzero L V i then fdiv RT (el rho i) else Fin 0).
Definition mu_rows (RT : fl) (L V : list fl) (hL hV : list (list fl)) : list (list fl) :=
  [ [mu_diag RT L V L hL 0; el2 hL 0 1; fopp (mu_diag RT L V V hV 0); fopp (el2 hV 0 1)];
    [el2 hL 1 0; mu_diag RT L V L hL 1; fopp (el2 hV 1 0); fopp (mu_diag RT L V V hV 1)] ].

(** The step that keeps densities positive, lines 149-156 and 356-363.  [minc] is
    [minCoeff] (Eigen leaves open what it returns if an entry is NaN).  A zero
    concentration is the positive zero, so that its negative in [dxmax] is the negative
    zero and dividing by it reverses the sign. *)
Definition ratio (d x : fl) : fl := if feq x (Fin 0) then fopp (fdiv d (Fin 0)) else fdiv d (fopp x).
Definition limit (minc : list fl -> fl) (x dx : list fl) : list fl :=
  if existsb (fun v => flt v (Fin 0)) (zip fadd x dx)
  then let f := minc (zip ratio dx x) in map (fun d => fmul d (fdiv f (Fin 2))) dx
  else dx.

(** [(dx.abs() < atol + rtol*x.abs()).all()] (lines 168-169, 174-175, 497-498, 503-504) *)
Definition small (atol rtol : fl) (dx x : list fl) : bool :=
  forallb (fun p => flt (fabs (fst p)) (fadd atol (fmul rtol (fabs (snd p))))) (combine dx x).
(** [((x - dx).abs() < std::numeric_limits<double>::min()).all()] (lines 183, 512) *)
Definition stalled (x dx : list fl) : bool := forallb (fun v => flt (fabs v) (Fin (/ 2 ^ 1022))) (zip fsub x dx).
(** [(!dx.isFinite()).all()] (lines 143, 489) *)
Definition no_finite (dx : list fl) : bool := forallb (fun d => negb (isfinite d)) dx.

Section VLE.
Variable m : eos.
Variable qr : list (list fl) -> list fl -> list fl.   (* J.colPivHouseholderQr().solve(.) *)
Variable minc : list fl -> fl.                        (* minCoeff *)

(** ** Temperature and liquid composition given: [mix_VLE_Tx], lines 76-193 *)
Section Tx.
Variables (T RT : fl) (xspec : list fl).

(** lines 96-138 for two components *)
Definition tx_assemble (x : list fl) : outcome (list fl * list (list fl)) :=
  let L := firstn 2 x in
  let V := skipn 2 x in
  obind (e_fgh m T L) (fun '(psiL, gL, hL) =>
  obind (e_fgh m T V) (fun '(psiV, gV, hV) =>
    let rhoL := fsum L in
    let dpL := phase_dp RT L hL in
    let dpV := phase_dp RT V hV in
    ok ([ mu_r RT L V gL gV 0; mu_r RT L V gL gV 1;
          fsub (phase_p RT L psiL gL) (phase_p RT V psiV gV);
          fsub (fdiv (el L 0) (fsum L)) (el xspec 0) ],
        mu_rows RT L V hL hV ++
        [ [el dpL 0; el dpL 1; fopp (el dpV 0); fopp (el dpV 1)];
          [fdiv (fsub rhoL (el L 0)) (fmul rhoL rhoL); fdiv (fopp (el L 0)) (fmul rhoL rhoL); Fin 0; Fin 0] ]))).

(** lines 158-164 *)
Definition freeze (dx : list fl) : list fl :=
  map (fun i => if feq (el xspec (Nat.modulo i 2)) (Fin 0) then Fin 0 else el dx i) (seq 0 4).

Variables (atol reltol axtol relxtol : fl).
(** lines 94-190; the argument counts the passes that remain *)
Fixpoint tx_loop (n : nat) (x : list fl) : outcome (vle_code * list fl) :=
  match n with
  | O => ok (unset, x)
  | S k =>
    obind (tx_assemble x) (fun '(r, J) =>
      let dx0 := qr J (map fopp r) in
      if no_finite dx0 then ok (notfinite_step, x) else
      let dx := freeze (limit minc x dx0) in
      let x' := zip fadd x dx in
      if small axtol relxtol dx x' then ok (xtol_satisfied, x')
      else if small atol reltol r r then ok (functol_satisfied, x')
      else if stalled x' dx then ok (xtol_satisfied, x')
      else match k with O => ok (maxiter_met, x') | S _ => tx_loop k x' end)
  end.
End Tx.

(** lines 76-93 and 191-193.  With a single component the first pass writes outside [r];
    with more than two it solves with uninitialised rows. *)
Definition mix_VLE_Tx (T : fl) (L0 V0 xspec : list fl) (atol reltol axtol relxtol : fl) (maxiter : Z)
  : outcome (vle_code * list fl * list fl) :=
  let N := length L0 in
  if negb (Nat.eqb (length V0) N && Nat.eqb (length xspec) N) then throws InvalidArgument
  else if Nat.eqb N 0 then None
  else
    let x := L0 ++ V0 in
    let RT := fmul (e_R m xspec) T in
    obind (if (maxiter <=? 0)%Z then ok (unset, x)
           else if negb (Nat.eqb N 2) then None
           else tx_loop T RT xspec atol reltol axtol relxtol (Z.to_nat maxiter) x)
          (fun '(code, x) => ok (code, firstn N x, skipn N x)).

(** ** Temperature and pressure given: [mix_VLE_Tp], lines 195-386 *)
Section Tp.
Variables (T p : fl).
Definition tp_RT (L : list fl) : fl := fmul (e_R m (map (fun r => fdiv r (fsum L)) L)) T.
(** [operator()], lines 203-234, for two components *)
Definition tp_residual (x : list fl) : outcome (list fl) :=
  let L := firstn 2 x in
  let V := skipn 2 x in
  let RT := tp_RT L in
  obind (e_fgh m T L) (fun '(psiL, gL, _) =>
  obind (e_fgh m T V) (fun '(psiV, gV, _) =>
    ok [ mu_r RT L V gL gV 0; mu_r RT L V gL gV 1;
         fdiv (fsub (phase_p RT V psiV gV) p) p; fdiv (fsub (phase_p RT L psiL gL) p) p ])).
(** [df], lines 235-271 *)
Definition tp_jacobian (x : list fl) : outcome (list (list fl)) :=
  let L := firstn 2 x in
  let V := skipn 2 x in
  let RT := tp_RT L in
  obind (e_fgh m T L) (fun '(_, _, hL) =>
  obind (e_fgh m T V) (fun '(_, _, hV) =>
    let dpL := phase_dp RT L hL in
    let dpV := phase_dp RT V hV in
    ok (mu_rows RT L V hL hV ++
        [ [Fin 0; Fin 0; fdiv (el dpV 0) p; fdiv (el dpV 1) p];
          [fdiv (el dpL 0) p; fdiv (el dpL 1) p; Fin 0; Fin 0] ]))).
(** lines 351-367: every pass is carried out *)
Fixpoint tp_loop (n : nat) (x : list fl) : outcome (list fl) :=
  match n with
  | O => ok x
  | S k =>
    obind (tp_residual x) (fun rv =>
    obind (tp_jacobian x) (fun J =>
      tp_loop k (zip fadd x (limit minc x (qr J (map fopp rv))))))
  end.
End Tp.
(** [MixVLEReturn], VLE_types.hpp lines 42-50 *)
Record tp_return := { tp_success : bool; tp_message : string; tp_L : list fl; tp_V : list fl; tp_code : vle_code;
  tp_num_iter : Z; tp_num_fev : Z; tp_T : fl; tp_r : list fl; tp_initial_r : list fl }.
(** lines 287-386; only [maxiter] of the options is used, and [powell] is false (lines
    324-349 are not reached).  Sizes other than two are outside the model. *)
Definition mix_VLE_Tp (T p : fl) (L0 V0 : list fl) (maxiter : Z) : outcome tp_return :=
  let N := length L0 in
  if negb (Nat.eqb (length V0) N) then throws InvalidArgument
  else if negb (Nat.eqb N 2) then None
  else
    let x := L0 ++ V0 in
    obind (tp_residual T p x) (fun initial_r =>
    obind (tp_loop T p (Z.to_nat maxiter) x) (fun x =>
    let niter := Z.max 0 (maxiter - 1) in
    obind (tp_residual T p x) (fun final_r =>
      ok {| tp_success := false; tp_message := ""; tp_L := firstn N x; tp_V := skipn N x; tp_code := unset;
            tp_num_iter := niter; tp_num_fev := niter; tp_T := T; tp_r := final_r; tp_initial_r := initial_r |}))).

(** ** Pressure and bulk composition given: [mixture_VLE_px], lines 399-522 *)
Section Px.
Variables (p_spec : fl) (xspec : list fl).
Notation N := (length xspec).
(** one entry, one row of N entries *)
Definition each_i (f : nat -> fl) : list fl := map f (seq 0 N).
Definition delta (i j : nat) : fl := if Nat.eqb i j then Fin 1 else Fin 0.
(** lines 430-484: the unknowns are T and [x] (both concentration vectors) *)
Definition px_assemble (T : fl) (x : list fl) : outcome (list fl * list (list fl)) :=
  let L := firstn N x in
  let V := skipn N x in
  let RL := e_R m xspec in
  let RLT := fmul RL T in
  let RVT := RLT in
  obind (e_fgh m T L) (fun '(psiL, gL, hL) =>
  obind (e_fgh m T V) (fun '(psiV, gV, hV) =>
  obind (e_d2 m T L) (fun dL =>
  obind (e_d2 m T V) (fun dV =>
  obind (e_dpdT m T L) (fun dpdTL =>
  obind (e_dpdT m T V) (fun dpdTV =>
    let Htot hess rho RT i j := fadd (el2 hess i j) (if Nat.eqb i j then fdiv RT (el rho i) else Fin 0) in
    let rhoL := fsum L in
    let dpL := phase_dp RLT L hL in
    let dpV := phase_dp RVT V hV in
    let dmudT i := fadd (fsub (el dL i) (el dV i)) (fmul RL (flog (fdiv (el L i) (el V i)))) in
    ok (each_i (fun i => fsub (fadd (el gL i) (fmul RLT (flog (el L i)))) (fadd (el gV i) (fmul RVT (flog (el V i))))) ++
        [ fsub (fdiv (phase_p RLT L psiL gL) p_spec) (Fin 1); fsub (fdiv (phase_p RVT V psiV gV) p_spec) (Fin 1) ] ++
        map (fun i => fsub (fdiv (el L i) (fsum L)) (el xspec i)) (seq 0 (N - 1)),
        map (fun i => dmudT i :: each_i (Htot hL L RLT i) ++ each_i (fun j => fopp (Htot hV V RVT i j))) (seq 0 N) ++
        [ fdiv dpdTL p_spec :: each_i (fun j => fdiv (el dpL j) p_spec) ++ each_i (fun _ => Fin 0);
          fdiv dpdTV p_spec :: each_i (fun _ => Fin 0) ++ each_i (fun j => fdiv (el dpV j) p_spec) ] ++
        map (fun i => Fin 0 :: each_i (fun j => fdiv (fsub (fmul rhoL (delta i j)) (el L i)) (fmul rhoL rhoL)) ++ each_i (fun _ => Fin 0))
            (seq 0 (N - 1))))))))).

Variables (T0 atol reltol axtol relxtol : fl).
(** lines 428-519: the first entry of the array [x] of the code stays at [T0] *)
Fixpoint px_loop (n : nat) (T : fl) (x : list fl) : outcome (vle_code * fl * list fl) :=
  match n with
  | O => ok (unset, T, x)
  | S k =>
    obind (px_assemble T x) (fun '(r, J) =>
      let dx := qr J (map fopp r) in
      if no_finite dx then ok (notfinite_step, T, x) else
      let T' := fadd T (el dx 0) in
      let x' := zip fadd x (skipn 1 dx) in
      if small axtol relxtol dx (T0 :: x') then ok (xtol_satisfied, T', x')
      else if small atol reltol r r then ok (functol_satisfied, T', x')
      else if stalled (T0 :: x') dx then ok (xtol_satisfied, T', x')
      else match k with O => ok (maxiter_met, T', x') | S _ => px_loop k T' x' end)
  end.
End Px.
(** lines 399-427 and 520-522; without components the address of an element outside the
    array is taken *)
Definition mixture_VLE_px (p_spec : fl) (xspec : list fl) (T0 : fl) (L0 V0 : list fl)
  (atol reltol axtol relxtol : fl) (maxiter : Z) : outcome (vle_code * fl * list fl * list fl) :=
  let N := length L0 in
  if negb (Nat.eqb (length V0) N && Nat.eqb (length xspec) N) then throws InvalidArgument
  else if existsb (fun r => feq r (Fin 0)) V0 then throws InvalidArgument
  else if existsb (fun r => feq r (Fin 0)) L0 then throws InvalidArgument
  else if Nat.eqb N 0 then None
  else obind (px_loop p_spec xspec T0 atol reltol axtol relxtol (Z.to_nat maxiter) T0 (L0 ++ V0))
             (fun '(code, T, x) => ok (code, T, firstn N x, skipn N x)).
End VLE.
