(** Model of the tracer of critical curves of binary mixtures: [trace_critical_arclength_binary]
    of [algorithms/critical_tracing.hpp] (lines 390-725), its polishers
    [critical_polish_fixedmolefrac], [critical_polish_fixedrho], [critical_polish_fixedT]
    (lines 333-388) and [NewtonRaphson] of [algorithms/rootfinding.hpp].

    Functions of this file stand for the calls of the model (the tangent of the critical
    curve, pressures, criticality conditions, stability; [Err] is an exception), which are
    modelled in [Critical_model].  The controlled stepper of the integration library and
    Eigen's QR solver are functions too.  The starting state has two concentrations.  Not
    modelled: the file and the console output, [verbosity], the overflow of [retry_count]. *)
From Coq Require Import Reals ZArith List Bool.
From Verif Require Import Json_model Cubic_model Float_model VLE_model Tracer_model.
Import ListNotations.
Open Scope R_scope.

(** ** [NewtonRaphson], rootfinding.hpp lines 5-29 *)
Section Newton.
Variable qr : list (list fl) -> list fl -> list fl.
Variable f : list fl -> res (list fl).
(** [std::max(1e-6*x[i], 1e-8)] *)
Definition newton_dri (a : fl) : fl := let m := fmul (Fin 1e-6) a in if flt m (Fin 1e-8) then Fin 1e-8 else m.
Definition add_at (i : nat) (h : fl) (x : list fl) : list fl := map (fun j => if Nat.eqb j i then fadd (el x j) h else el x j) (seq 0 (length x)).
(** lines 12-17: the columns *)
Definition newton_columns (x r0 : list fl) : res (list (list fl)) :=
  map_res (fun i => let dri := newton_dri (el x i) in bind (f (add_at i dri x)) (fun r => Val (zip (fun a b => fdiv (fsub a b) dri) r r0))) (seq 0 (length x)).
Definition transposed (n : nat) (cols : list (list fl)) : list (list fl) := map (fun i => map (fun c => el c i) cols) (seq 0 n).
Fixpoint newton (iters : nat) (x : list fl) (tol : fl) : res (list fl) :=
  match iters with
  | O => Val x
  | S iters =>
    bind (f x) (fun r0 => bind (newton_columns x r0) (fun cols =>
    let v := qr (transposed (length r0) cols) (map fopp r0) in
    let x' := zip fadd x v in
    let err := fsqrt (norm2 r0) in
    if negb (isfinite err) then Err StdInvalidArgument
    else if flt err tol then Val x' else newton iters x' tol))
  end.
End Newton.

(** ** The polishers; [conds] are [derivs.tot[2]] and [derivs.tot[3]] of [get_derivs] *)
Section Polishers.
Variable qr : list (list fl) -> list fl -> list fl.
Variable conds : fl -> list fl -> res (list fl).
(** lines 334-353; the residuals are evaluated before and after, which may throw *)
Definition molefrac_resid (z0 : fl) (x : list fl) : res (list fl) := conds (el x 0) [fmul z0 (el x 1); fmul (fsub (Fin 1) z0) (el x 1)].
Definition critical_polish_fixedmolefrac (z0 T : fl) (rho : list fl) : res (fl * list fl) :=
  let x0 := [T; fadd (el rho 0) (el rho 1)] in
  bind (molefrac_resid z0 x0) (fun _ => bind (newton qr (molefrac_resid z0) 30 x0 (Fin 1e-10)) (fun x => bind (molefrac_resid z0 x) (fun _ =>
  if negb (isfinite (el x 0)) || negb (isfinite (el x 1)) then Err StdInvalidArgument
  else Val (el x 0, [fmul (el x 1) z0; fmul (el x 1) (fsub (Fin 1) z0)])))).
(** lines 354-374: the test looks at the temperature that was given *)
Definition fixedrho_resid (i : nat) (rhoval : fl) (x : list fl) : res (list fl) :=
  bind (conds (el x 0) [el x 1; el x 2]) (fun r => Val [el r 0; el r 1; fsub (el [el x 1; el x 2] i) rhoval]).
Definition critical_polish_fixedrho (i : nat) (T : fl) (rho : list fl) : res (fl * list fl) :=
  let resid := fixedrho_resid i (el rho i) in
  let x0 := [T; el rho 0; el rho 1] in
  bind (resid x0) (fun _ => bind (newton qr resid 30 x0 (Fin 1e-10)) (fun x => bind (resid x) (fun _ =>
  if negb (isfinite T) || negb (isfinite (el x 1)) || negb (isfinite (el x 2)) then Err StdInvalidArgument
  else Val (el x 0, tl x)))).
(** lines 375-388: the test looks at the second concentration only *)
Definition critical_polish_fixedT (T : fl) (rho : list fl) : res (list fl) :=
  bind (conds T rho) (fun _ => bind (newton qr (conds T) 30 rho (Fin 1e-10)) (fun x => bind (conds T x) (fun _ =>
  if negb (isfinite T) || negb (isfinite (el x 1)) then Err StdInvalidArgument else Val x))).
(** lines 596-616: in this order *)
Definition crit_polishers : list (fl -> fl -> list fl -> res (fl * list fl)) :=
  [critical_polish_fixedmolefrac;
   fun _ T rho => bind (critical_polish_fixedT T rho) (fun rhonew => Val (T, rhonew));
   fun _ => critical_polish_fixedrho 0;
   fun _ => critical_polish_fixedrho 1].
End Polishers.

(** [TCABOptions], critical_tracing_types.hpp lines 5-25, and its default values *)
Record coptions := { c_init_dt : fl; c_max_dt : fl; c_T_tol : fl; c_init_c : fl; c_small_T_count : Z; c_order : Z; c_max_steps : Z; c_skip_dircheck : Z;
  c_polish : bool; c_reltol_T : fl; c_reltol_rho : fl; c_terminate_negative : bool; c_calc_stability : bool; c_stability_rel_drho : fl;
  c_polish_throws : bool; c_endpoint : bool }.
Definition default_coptions : coptions := {| c_init_dt := Fin 10; c_max_dt := Fin 10000000000; c_T_tol := Fin 1e-6; c_init_c := Fin 1; c_small_T_count := 5; c_order := 5;
  c_max_steps := 1000; c_skip_dircheck := 1; c_polish := false; c_reltol_T := Fin 0.01; c_reltol_rho := Fin 0.05; c_terminate_negative := true; c_calc_stability := false;
  c_stability_rel_drho := Fin 0.001; c_polish_throws := false; c_endpoint := false |}.

(** A recorded point, lines 491-509: "T / K", "rho0 / mol/m^3" and "rho1 / mol/m^3" are [cp_x],
    "dT/dt", "drho0/dt" and "drho1/dt" are [cp_dx]. *)
Record cpoint := { cp_x : list fl; cp_t : fl; cp_c : fl; cp_splus : fl; cp_p : fl; cp_dx : list fl; cp_conds : list fl; cp_stable : option bool }.
(** the variables of the loop: x0, t, dt, last_drhodt, counter_T_converged *)
Record cstate := { cs_x : list fl; cs_t : fl; cs_dt : fl; cs_last : list fl; cs_count : Z }.

Section Trace.
Variable stepper : stepper_type.
Variable drhodT : fl -> list fl -> res (list fl).       (* get_drhovec_dT_crit *)
Variable pressure : fl -> list fl -> res fl.            (* rho*R*T + get_pr *)
Variable conds : fl -> list fl -> res (list fl).        (* get_criticality_conditions *)
Variable splus : fl -> list fl -> res fl.               (* get_splus *)
Variable stable : fl -> list fl -> fl -> res bool.      (* is_locally_stable *)
Variable polishers : list (fl -> fl -> list fl -> res (fl * list fl)).
Variable solve_pure : nat -> fl -> fl -> res (fl * fl). (* solve_pure_critical with alternative_pure_index and alternative_length 2 *)
Variable o : coptions.

Definition any_negative (v : list fl) : bool := existsb (fun a => flt a (Fin 0)) v.
(** [xprime], lines 414-440.  ([minCoeff] of a vector with a NaN is not specified by Eigen;
    here NaN entries are passed over.) *)
Definition crit_deriv (c : fl) (last X : list fl) : res (list fl) :=
  let T := el X 0 in let rho := tl X in
  if c_terminate_negative o && any_negative rho then Err StdInvalidArgument else
  bind (drhodT T rho) (fun d =>
    let dTdt := fdiv (Fin 1) (fsqrt (norm2 d)) in
    let drhodt := map (fun a => fmul c (fmul a dTdt)) d in
    let dx := fmul c dTdt :: drhodt in
    Val (match last with [] => dx | _ => if flt (fdot drhodt last) (Fin 0) then map (fun a => fmul a (Fin (-1))) dx else dx end)).
(** [store_point], lines 478-513 *)
Definition crit_store (c : fl) (s : cstate) : res cpoint :=
  let T := el (cs_x s) 0 in let rho := tl (cs_x s) in
  bind (pressure T rho) (fun p => bind (conds T rho) (fun cr => bind (splus T rho) (fun sp => bind (crit_deriv c (cs_last s) (cs_x s)) (fun dx =>
  bind (if c_calc_stability o then bind (stable T rho (c_stability_rel_drho o)) (fun b => Val (Some b)) else Val None) (fun st =>
  Val {| cp_x := cs_x s; cp_t := cs_t s; cp_c := c; cp_splus := sp; cp_p := p; cp_dx := dx; cp_conds := cr; cp_stable := st |}))))).
(** lines 545-586 *)
Definition crit_attempt (c : fl) (s : cstate) : res try_result :=
  let sys x (_ : fl) := crit_deriv c (cs_last s) x in
  if (c_order o =? 5)%Z then
    Val (match stepper sys (cs_x s) (cs_t s) (cs_dt s) with Taken x t dt => Taken x t (fmin dt (c_max_dt o)) | r => r end)
  else if (c_order o =? 1)%Z then
    Val (match sys (cs_x s) (cs_t s) with
         | Val d => Taken (zip (fun a b => fadd a (fmul (cs_dt s) b)) (cs_x s) d) (fadd (cs_t s) (cs_dt s)) (cs_dt s)
         | Err _ => Threw
         end)
  else Err StdInvalidArgument.
(** lines 588-594, 668-673 *)
Definition out_of_range (rho : list fl) : bool := let z0 := frac0 rho in flt z0 (Fin 0) || flt (Fin 1) z0.
(** lines 621-630 *)
Definition change_refused (T : fl) (rho : list fl) (Tnew : fl) (rhonew : list fl) : bool :=
  flt (fmul (c_reltol_T o) T) (fabs (fsub T Tnew)) ||
  existsb (fun p => flt (fmul (c_reltol_rho o) (fst p)) (fabs (fsub (fst p) (snd p)))) (combine rho rhonew).
Fixpoint first_polished (ps : list (fl -> fl -> list fl -> res (fl * list fl))) (z0 T : fl) (rho : list fl) : option (list fl) :=
  match ps with
  | [] => None
  | p :: ps =>
    match p z0 T rho with
    | Val (Tnew, rhonew) => if change_refused T rho Tnew rhonew then first_polished ps z0 T rho else Some (Tnew :: rhonew)
    | Err _ => first_polished ps z0 T rho
    end
  end.
(** lines 618-656; [None] ends the loop *)
Definition crit_polished (X : list fl) : res (option (list fl)) :=
  if c_polish o then
    match first_polished polishers (frac0 (tl X)) (el X 0) (tl X) with
    | Some X => Val (Some X)
    | None => if c_polish_throws o then Err IterationFailure else Val None
    end
  else Val (Some X).
(** The loop, lines 533-687: the points and the variables at its end.  One argument counts
    passes: [None] if the loop is still running after so many. *)
Fixpoint crit_loop (c : fl) (fuel : nat) (iter : Z) (retry : nat) (s : cstate) (data : list cpoint) : option (res (list cpoint * cstate)) :=
  match fuel with
  | O => None
  | S fuel =>
    if (iter <? c_max_steps o)%Z then
      match bind (crit_deriv c (cs_last s) (cs_x s)) (fun _ => if (iter =? 0)%Z && Nat.eqb retry 0 then bind (crit_store c s) (fun q => Val (data ++ [q])) else Val data) with
      | Err e => Some (Err e)
      | Val data =>
        match crit_attempt c s with
        | Err e => Some (Err e)
        | Val Threw => Some (Val (data, s))
        | Val (Refused dt) => crit_loop c fuel iter (S retry) {| cs_x := cs_x s; cs_t := cs_t s; cs_dt := dt; cs_last := cs_last s; cs_count := cs_count s |} data
        | Val (Taken x t dt) =>
          if out_of_range (tl x) then Some (Val (data, {| cs_x := x; cs_t := t; cs_dt := dt; cs_last := cs_last s; cs_count := cs_count s |})) else
          match crit_polished x with
          | Err e => Some (Err e)
          | Val None => Some (Val (data, {| cs_x := x; cs_t := t; cs_dt := dt; cs_last := cs_last s; cs_count := cs_count s |}))
          | Val (Some x') =>
            match (if (c_skip_dircheck o <=? iter)%Z then bind (crit_deriv c (cs_last s) (cs_x s)) (fun d => Val (tl d)) else Val (cs_last s)) with
            | Err e => Some (Err e)
            | Val last =>
              let count := if flt (fabs (fsub (el x' 0) (el (cs_x s) 0))) (c_T_tol o) then (cs_count s + 1)%Z else 0%Z in
              let s' := {| cs_x := x'; cs_t := t; cs_dt := dt; cs_last := last; cs_count := count |} in
              if out_of_range (tl x') then Some (Val (data, s')) else
              match crit_store c s' with
              | Err e => Some (Err e)
              | Val q => if (c_small_T_count o <? count)%Z then Some (Val (data ++ [q], s')) else crit_loop c fuel (iter + 1) 0 s' (data ++ [q])
              end
            end
          end
        end
      end
    else Some (Val (data, s))
  end.
(** lines 688-722: the pure fluid at the end.  The condition holds if any concentration keeps
    its sign, and the step is the one that takes the *largest* concentration to zero. *)
Definition larger (rho : list fl) : nat := if flt (el rho 0) (el rho 1) then 1%nat else 0%nat.
Definition endpoint (c : fl) (s : cstate) : res (option cpoint) :=
  bind (crit_deriv c (cs_last s) (cs_x s)) (fun dx =>
  let T := el (cs_x s) 0 in let rho := tl (cs_x s) in let drho := tl dx in
  let step := zip (fun r d => fadd r (fmul d (cs_dt s))) rho drho in
  if existsb (fun p => flt (Fin 0) (fmul (fst p) (snd p))) (combine step rho) then
    let i := larger rho in
    let size := fdiv (fopp (el rho i)) (el drho i) in
    let newrho := zip (fun r d => fadd r (fmul d size)) rho drho in
    let newT := fadd T (fmul (el dx 0) size) in
    bind (solve_pure i newT (fsum newrho)) (fun '(TT, rr) =>
    let s := {| cs_x := TT :: (if Nat.eqb i 0 then [rr; Fin 0] else [Fin 0; rr]); cs_t := cs_t s; cs_dt := cs_dt s; cs_last := cs_last s; cs_count := cs_count s |} in
    bind (crit_store c s) (fun q => Val (Some q)))
  else Val None).

Definition trace_critical_arclength_binary (fuel : nat) (T0 : fl) (rho0 : list fl) : option (res (list cpoint)) :=
  let x0 := T0 :: rho0 in
  match crit_deriv (c_init_c o) [] x0 with
  | Err e => Some (Err e)
  | Val d =>
    let c := initial_c rho0 (tl d) (c_init_dt o) (c_init_c o) in
    match crit_loop c fuel 0 0 {| cs_x := x0; cs_t := Fin 0; cs_dt := c_init_dt o; cs_last := []; cs_count := 0 |} [] with
    | None => None
    | Some (Err e) => Some (Err e)
    | Some (Val (data, s)) =>
      Some (if c_endpoint o then bind (endpoint c s) (fun q => Val (data ++ match q with Some q => [q] | None => [] end)) else Val data)
    end
  end.
End Trace.
