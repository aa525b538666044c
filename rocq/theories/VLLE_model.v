(** Model of the vapor-liquid-liquid equilibrium code of [algorithms/VLLE.hpp], lines 30-461
    ([get_drhovecdT_VLLE_binary] is in [Trace_model], the tracer in [Tracer_model]).

    [None]: memory outside an array or uninitialised memory is used (the assertions of the
    matrix library are off in release builds). *)
From Coq Require Import Reals ZArith String List Bool.
From Verif Require Import Json_model Cubic_model Float_model VLE_model.
Import ListNotations.
Open Scope R_scope.

(** [VLLE_return_code], VLLE_types.hpp *)
Inductive vlle_code := vlle_unset | vlle_xtol_satisfied | vlle_functol_satisfied | vlle_maxiter_met.

(** [(dx.array() < xtol_threshold).all()], lines 92-93 and 230-231 *)
Definition below (axtol relxtol : fl) (dx x : list fl) : bool :=
  forallb (fun p => flt (fst p) (fadd axtol (fmul relxtol (fabs (snd p))))) (combine dx x).

(** What both solvers compute of one phase: lines 48-67 and 158-179.  [build_Psi_Hessian_autodiff]
    (derivs.hpp 1076-1084) adds R T / rho_i to the diagonal of the residual Hessian; the model
    takes for that Hessian the one that [build_Psir_fgradHessian_autodiff] returned. *)
Record phase := { ph_rho : list fl; ph_RT : fl; ph_R : fl; ph_psi : fl; ph_g : list fl; ph_h : list (list fl) }.
Definition eval_phase (m : eos) (T : fl) (rho : list fl) : outcome phase :=
  obind (e_fgh m T rho) (fun '(psi, g, h) =>
    let R := e_R m (map (fun r => fdiv r (fsum rho)) rho) in
    ok {| ph_rho := rho; ph_RT := fmul R T; ph_R := R; ph_psi := psi; ph_g := g; ph_h := h |}).
(** [Psirgrad + RT*log(rhovec)] *)
Definition ph_mu (q : phase) (i : nat) : fl := fadd (el (ph_g q) i) (fmul (ph_RT q) (flog (el (ph_rho q) i))).
Definition ph_p (q : phase) : fl := phase_p (ph_RT q) (ph_rho q) (ph_psi q) (ph_g q).
Definition ph_dp (q : phase) (j : nat) : fl := el (phase_dp (ph_RT q) (ph_rho q) (ph_h q)) j.
Definition ph_H (q : phase) (i j : nat) : fl :=
  fadd (el2 (ph_h q) i j) (if Nat.eqb i j then fdiv (ph_RT q) (el (ph_rho q) i) else Fin 0).

(** ** The iteration of [mix_VLLE_T] (lines 46-115) and of [mix_VLLE_p] (lines 154-254) *)
Section Loop.
Variable assemble : list fl -> outcome (list fl * list (list fl)).
Variable qr : list (list fl) -> list fl -> list fl.   (* J.colPivHouseholderQr().solve(.) *)
Variables (atol reltol axtol relxtol : fl).
(** the argument counts the passes that remain *)
Fixpoint vlle_loop (n : nat) (x : list fl) : outcome (vlle_code * list fl) :=
  match n with
  | O => ok (vlle_unset, x)
  | S k =>
    obind (assemble x) (fun '(r, J) =>
      let dx := qr J (map fopp r) in
      let x' := zip fadd x dx in
      if below axtol relxtol dx x' then ok (vlle_xtol_satisfied, x')
      else if small atol reltol r r then ok (vlle_functol_satisfied, x')
      else if stalled x' dx then ok (vlle_xtol_satisfied, x')
      else match k with O => ok (vlle_maxiter_met, x') | S _ => vlle_loop k x' end)
  end.
End Loop.

Section VLLE.
Variable m : eos.
Variable qr : list (list fl) -> list fl -> list fl.

(** ** Temperature given: [mix_VLLE_T], lines 30-118 *)
(** lines 48-89 for two components *)
Definition vlle_T_assemble (T : fl) (x : list fl) : outcome (list fl * list (list fl)) :=
  obind (eval_phase m T (firstn 2 x)) (fun V =>
  obind (eval_phase m T (firstn 2 (skipn 2 x))) (fun L1 =>
  obind (eval_phase m T (skipn 4 x)) (fun L2 =>
    ok ([ fsub (ph_mu V 0) (ph_mu L1 0); fsub (ph_mu V 1) (ph_mu L1 1);
          fsub (ph_mu L1 0) (ph_mu L2 0); fsub (ph_mu L1 1) (ph_mu L2 1);
          fsub (ph_p V) (ph_p L1); fsub (ph_p L1) (ph_p L2) ],
        [ [ph_H V 0 0; ph_H V 0 1; fopp (ph_H L1 0 0); fopp (ph_H L1 0 1); Fin 0; Fin 0];
          [ph_H V 1 0; ph_H V 1 1; fopp (ph_H L1 1 0); fopp (ph_H L1 1 1); Fin 0; Fin 0];
          [Fin 0; Fin 0; ph_H L1 0 0; ph_H L1 0 1; fopp (ph_H L2 0 0); fopp (ph_H L2 0 1)];
          [Fin 0; Fin 0; ph_H L1 1 0; ph_H L1 1 1; fopp (ph_H L2 1 0); fopp (ph_H L2 1 1)];
          [ph_dp V 0; ph_dp V 1; fopp (ph_dp L1 0); fopp (ph_dp L1 1); Fin 0; Fin 0];
          [Fin 0; Fin 0; ph_dp L1 0; ph_dp L1 1; fopp (ph_dp L2 0); fopp (ph_dp L2 1)] ])))).
(** Lines 30-45 and 116-118.  The residual has 3N entries of which 2N+2 are written: with one
    component the last is outside the vector, with three or more the rest is uninitialised. *)
Definition mix_VLLE_T (T : fl) (V0 L10 L20 : list fl) (atol reltol axtol relxtol : fl) (maxiter : Z)
  : outcome (vlle_code * list fl * list fl * list fl) :=
  let N := length V0 in
  if negb (Nat.eqb (length L10) N && Nat.eqb (length L20) N) then None
  else if Nat.eqb N 0 then None
  else
    let x := V0 ++ L10 ++ L20 in
    obind (if (maxiter <=? 0)%Z then ok (vlle_unset, x)
           else if negb (Nat.eqb N 2) then None
           else vlle_loop (vlle_T_assemble T) qr atol reltol axtol relxtol (Z.to_nat maxiter) x)
          (fun '(code, x) => ok (code, firstn N x, firstn N (skipn N x), skipn (2 * N) x)).

(** ** Pressure given: [mix_VLLE_p], lines 135-260 *)
(** lines 155-225 for two components; the temperature is the last unknown *)
Definition vlle_p_assemble (p : fl) (x : list fl) : outcome (list fl * list (list fl)) :=
  let T := el x 6 in
  let rV := firstn 2 x in
  let rL1 := firstn 2 (skipn 2 x) in
  let rL2 := firstn 2 (skipn 4 x) in
  obind (eval_phase m T rV) (fun V =>
  obind (eval_phase m T rL1) (fun L1 =>
  obind (eval_phase m T rL2) (fun L2 =>
  obind (e_d2 m T rV) (fun dV =>
  obind (e_d2 m T rL1) (fun dL1 =>
  obind (e_d2 m T rL2) (fun dL2 =>
  obind (e_dpdT m T rV) (fun tV =>
  obind (e_dpdT m T rL1) (fun tL1 =>
  obind (e_dpdT m T rL2) (fun tL2 =>
    let dmu d d' (q q' : phase) i := fsub (fadd (fsub (el d i) (el d' i)) (fmul (ph_R q) (flog (el (ph_rho q) i)))) (fmul (ph_R q') (flog (el (ph_rho q') i))) in
    ok ([ fsub (ph_mu V 0) (ph_mu L1 0); fsub (ph_mu V 1) (ph_mu L1 1);
          fsub (ph_mu L1 0) (ph_mu L2 0); fsub (ph_mu L1 1) (ph_mu L2 1);
          fsub (ph_p V) (ph_p L1); fsub (ph_p L1) (ph_p L2); fsub (ph_p V) p ],
        [ [ph_H V 0 0; ph_H V 0 1; fopp (ph_H L1 0 0); fopp (ph_H L1 0 1); Fin 0; Fin 0; dmu dV dL1 V L1 0%nat];
          [ph_H V 1 0; ph_H V 1 1; fopp (ph_H L1 1 0); fopp (ph_H L1 1 1); Fin 0; Fin 0; dmu dV dL1 V L1 1%nat];
          [Fin 0; Fin 0; ph_H L1 0 0; ph_H L1 0 1; fopp (ph_H L2 0 0); fopp (ph_H L2 0 1); dmu dL1 dL2 L1 L2 0%nat];
          [Fin 0; Fin 0; ph_H L1 1 0; ph_H L1 1 1; fopp (ph_H L2 1 0); fopp (ph_H L2 1 1); dmu dL1 dL2 L1 L2 1%nat];
          [ph_dp V 0; ph_dp V 1; fopp (ph_dp L1 0); fopp (ph_dp L1 1); Fin 0; Fin 0; fsub tV tL1];
          [Fin 0; Fin 0; ph_dp L1 0; ph_dp L1 1; fopp (ph_dp L2 0); fopp (ph_dp L2 1); fsub tL1 tL2];
          [ph_dp V 0; ph_dp V 1; Fin 0; Fin 0; Fin 0; Fin 0; tV] ])))))))))).
(** lines 135-153 and 255-260; [T] is -1 until the first pass.  For one component the last
    pressure equation is outside the residual, for three or more part of it is uninitialised. *)
Definition mix_VLLE_p (p T0 : fl) (V0 L10 L20 : list fl) (atol reltol axtol relxtol : fl) (maxiter : Z)
  : outcome (vlle_code * fl * list fl * list fl * list fl) :=
  let N := length V0 in
  if negb (Nat.eqb (length L10) N && Nat.eqb (length L20) N) then None
  else if Nat.eqb N 0 then None
  else
    let x := V0 ++ L10 ++ L20 ++ [T0] in
    obind (if (maxiter <=? 0)%Z then ok (vlle_unset, Fin (-1), x)
           else if negb (Nat.eqb N 2) then None
           else obind (vlle_loop (vlle_p_assemble p) qr atol reltol axtol relxtol (Z.to_nat maxiter) x)
                      (fun '(code, x) => ok (code, el x 6, x)))
          (fun '(code, T, x) => ok (code, T, firstn N x, firstn N (skipn N x), firstn N (skipn (2 * N) x))).
End VLLE.

(** ** Intersections of polylines: lines 262-306 *)
(** [SelfIntersectionSolution], VLLE_types.hpp *)
Record crossing := { cr_j : nat; cr_k : nat; cr_s : R; cr_t : R; cr_x : R; cr_y : R }.
Section Crossings.
Variable qr2 : R -> R -> R -> R -> R -> R -> option (R * R).
(** [qr2 a b c d e f]: what the solver returns for the matrix with the rows (a, b) and
    (c, d) and the right-hand side (e, f); [None] if it is not finite *)
(** the loop body, lines 271-280 and 294-303 *)
Definition segments_cross (j k : nat) (x1 y1 x2 y2 : list R) : list crossing :=
  let px i := nth i x1 0 in let py i := nth i y1 0 in
  let qx i := nth i x2 0 in let qy i := nth i y2 0 in
  match qr2 (px (S j) - px j) (qx k - qx (S k)) (py (S j) - py j) (qy k - qy (S k)) (qx k - px j) (qy k - py j) with
  | Some (s, t) =>
      if (if Rlt_dec 0 s then true else false) && (if Rlt_dec s 1 then true else false) &&
         (if Rlt_dec 0 t then true else false) && (if Rlt_dec t 1 then true else false)
      then [ {| cr_j := j; cr_k := k; cr_s := s; cr_t := t; cr_x := px j + s * (px (S j) - px j); cr_y := py j + s * (py (S j) - py j) |} ]
      else []
  | None => []
  end.
(** Lines 262-285.  Without points [x.size() - 1] is the largest unsigned number; [y] is
    read at the indices of [x]. *)
Definition get_self_intersections (x y : list R) : option (list crossing) :=
  if Nat.eqb (length x) 0 || (Nat.ltb 1 (length x) && Nat.ltb (length y) (length x)) then None
  else Some (flat_map (fun j => flat_map (fun k => segments_cross j k x y x y) (seq (S j) (length x - 1 - S j))) (seq 0 (length x - 1))).
(** lines 287-306; nothing is read of a line with a single point, or of the other line if
    there is no segment to compare it with *)
Definition get_cross_intersections (x1 y1 x2 y2 : list R) : option (list crossing) :=
  if Nat.eqb (length x1) 0 then None
  else if Nat.eqb (length x1) 1 then Some []
  else if Nat.eqb (length x2) 0 || Nat.ltb (length y1) (length x1) || (Nat.ltb 1 (length x2) && Nat.ltb (length y2) (length x2)) then None
  else Some (flat_map (fun j => flat_map (fun k => segments_cross j k x1 y1 x2 y2) (seq 0 (length x2 - 1))) (seq 0 (length x1 - 1))).
End Crossings.

(** ** From traces to three-phase states: [find_VLLE_gen_binary], lines 310-461 *)
(** [avg_values], lines 319-324: for vectors of equal lengths; otherwise the operators of
    [std::valarray] are undefined *)
Definition avg_values (v1 v2 : list R) (w : R) : option (list R) :=
  if Nat.eqb (length v1) (length v2) then Some (map (fun p => fst p * w + snd p * (1 - w)) (combine v1 v2)) else None.
(** one point of a trace, as far as it is read: rhoL, rhoV, temperature, liquid pressure *)
Record trace_point := { tp_rhoL : list R; tp_rhoV : list R; tp_Temp : R; tp_pL : R }.
Inductive vlle_key := key_T | key_P | key_other.
(** what one intersection gives: the first guess and the polished values; the temperature
    only for [key_P] *)
Record vlle_solution := { vs_guess : list (list R); vs_guess_T : option R; vs_polished : list (list R); vs_polished_T : option R; vs_code : vlle_code }.
Section Finder.
Variable qr2 : R -> R -> R -> R -> R -> R -> option (R * R).
(** [mix_VLLE_T] and [mix_VLLE_p] with the tolerances 1e-10 and [opt.max_steps] passes: T
    (resp. p and the first value of T), rhoV, rhoL1, rhoL2.  [Err]: an exception. *)
Variable polish_T : R -> list R -> list R -> list R -> res (vlle_code * list R * list R * list R).
Variable polish_p : R -> R -> list R -> list R -> list R -> res (vlle_code * R * list R * list R * list R).
Variable threshold : R.                                (* opt.rho_trivial_threshold *)
Variable key : vlle_key.
(** [ykey], line 316 *)
Definition y_of (q : trace_point) : R := match key with key_T => tp_pL q | _ => tp_Temp q end.
(** lines 331-336, 396-407: the mole fraction in the vapor.  Reading the first element of an
    empty vector is undefined; the total is taken to be non-zero. *)
Definition x_of (q : trace_point) : option R :=
  match tp_rhoV q with [] => None | a :: l => let s := fold_right Rplus 0 (a :: l) in if Req_EM_T s 0 then None else Some (a / s) end.
Fixpoint xs_of (l : list trace_point) : option (list R) :=
  match l with
  | [] => Some []
  | q :: l => match x_of q, xs_of l with Some a, Some v => Some (a :: v) | _, _ => None end
  end.
Definition tp0 := {| tp_rhoL := []; tp_rhoV := []; tp_Temp := 0; tp_pL := 0 |}.
(** [process_intersection]: lines 340-373 (both traces the same) and 410-443 *)
Definition process_intersection (tr1 tr2 : list trace_point) (i : crossing) : option (res vlle_solution) :=
  let a := nth (cr_j i) tr1 tp0 in let b := nth (S (cr_j i)) tr1 tp0 in
  let c := nth (cr_k i) tr2 tp0 in let d := nth (S (cr_k i)) tr2 tp0 in
  match avg_values (tp_rhoL a) (tp_rhoL b) (cr_s i), avg_values (tp_rhoL c) (tp_rhoL d) (cr_t i), avg_values (tp_rhoV a) (tp_rhoV b) (cr_s i) with
  | Some rhoL1, Some rhoL2, Some rhoV =>
    Some (match key with
    | key_T => match polish_T (tp_Temp (nth 0 tr1 tp0)) rhoV rhoL1 rhoL2 with
               | Val (code, V, L1, L2) => Val {| vs_guess := [rhoV; rhoL1; rhoL2]; vs_guess_T := None; vs_polished := [V; L1; L2]; vs_polished_T := None; vs_code := code |}
               | Err e => Err e
               end
    | key_P => match polish_p (tp_pL (nth 0 tr1 tp0)) (cr_y i) rhoV rhoL1 rhoL2 with
               | Val (code, T, V, L1, L2) => Val {| vs_guess := [rhoV; rhoL1; rhoL2]; vs_guess_T := Some (cr_y i); vs_polished := [V; L1; L2]; vs_polished_T := Some T; vs_code := code |}
               | Err e => Err e
               end
    | key_other => Err InvalidArgument
    end)
  | _, _, _ => None
  end.
(** lines 379-383, 449-453; a zero total of the second liquid gives no number *)
Definition non_trivial (s : vlle_solution) : option bool :=
  match vs_polished s with
  | [_; L1; L2] =>
      let t := fold_right Rplus 0 L2 in
      if Req_EM_T t 0 then None
      else Some (if Rlt_dec threshold (Rabs (100 * (fold_right Rplus 0 L1 / t - 1))) then true else false)
  | _ => None
  end.
(** lines 376-391 and 446-461: exceptions are swallowed *)
Fixpoint keep_solutions (tr1 tr2 : list trace_point) (l : list crossing) : option (list vlle_solution) :=
  match l with
  | [] => Some []
  | i :: l =>
    match process_intersection tr1 tr2 i, keep_solutions tr1 tr2 l with
    | Some (Err _), Some v => Some v
    | Some (Val s), Some v => match non_trivial s with Some true => Some (s :: v) | Some false => Some v | None => None end
    | _, _ => None
    end
  end.
(** lines 326-461; the traces are arrays of points that hold the four quantities *)
Definition find_VLLE_gen_binary (traces : list (list trace_point)) : outcome (list vlle_solution) :=
  match traces with
  | [] => throws InvalidArgument
  | [tr] =>
    match xs_of tr with
    | Some x => match get_self_intersections qr2 x (map y_of tr) with
                | Some l => match keep_solutions tr tr l with Some v => ok v | None => None end
                | None => None
                end
    | None => None
    end
  | [tr1; tr2] =>
    match xs_of tr1, xs_of tr2 with
    | Some x1, Some x2 =>
      match get_cross_intersections qr2 x1 (map y_of tr1) x2 (map y_of tr2) with
      | Some l => match keep_solutions tr1 tr2 l with Some v => ok v | None => None end
      | None => None
      end
    | _, _ => None
    end
  | _ => throws InvalidArgument
  end.
End Finder.
