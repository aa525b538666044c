(** Model of the tracers of phase envelopes: [trace_VLE_isotherm_binary] and
    [trace_VLE_isobar_binary] of [algorithms/VLE.hpp] (lines 792-1283), [trace_VLLE_binary] of
    [algorithms/VLLE.hpp] (lines 519-648).

    Functions of this file stand for the calls of the model (derivatives of the envelope,
    pressures, criticality conditions, polishing; [Err] is an exception).  Those for the
    derivatives and for polishing are modelled in [Trace_model], [VLE_model] and
    [VLLE_model].  The controlled stepper of the integration library is a function too.
    Not modelled: console output and its verbosity, the overflow of [retry_count]. *)
From Coq Require Import Reals ZArith String List Bool.
From Verif Require Import Json_model Cubic_model Float_model VLE_model.
Import ListNotations.
Open Scope R_scope.

(** [std::sqrt] *)
Definition fsqrt (a : fl) : fl :=
  match a with
  | Fin r => if Rlt_dec r 0 then NaN else Fin (sqrt r)
  | Inf false => Inf false
  | _ => NaN
  end.

(** [controlled_stepper.try_step(xprime, x, t, dt)]: an exception of [xprime]; a step that is
    refused with a new [dt], [x] and [t] unchanged; a step that is taken *)
Inductive try_result := Threw | Refused (dt : fl) | Taken (x : list fl) (t dt : fl).
Definition stepper_type := (list fl -> fl -> res (list fl)) -> list fl -> fl -> fl -> try_result.

(** A recorded point ("rhoL / mol/m^3", "rhoV / mol/m^3" and for isobars "T / K" are [pt_x]). *)
Record point := { pt_x : list fl; pt_t : fl; pt_dt : fl; pt_c : fl; pt_p : fl * fl; pt_frac : fl * fl; pt_drho : list fl; pt_crit : option (list fl * list fl) }.
(** the variables of the loop: x0, t, dt, last_drhodt, previous_drhodt *)
Record tstate := { st_x : list fl; st_t : fl; st_dt : fl; st_last : list fl; st_prev : list fl }.

(** ** The loop, VLE.hpp lines 884-1019 and 1143-1281 *)
Section Loop.
Variable stepper : stepper_type.
(** [xprime]: given previous_drhodt and the state *)
Variable deriv : list fl -> list fl -> res (list fl).
(** both pressures; the first mole fractions; the criticality conditions if they are wanted *)
Variable pressures : list fl -> res (fl * fl).
Variable fractions : list fl -> fl * fl.
Variable crits : list fl -> res (option (list fl * list fl)).
Variable stop : list fl -> res bool.
(** what is left in x0 after polishing *)
Variable polish : list fl -> res (list fl).
Variables (c max_dt : fl) (max_steps order : Z).
(** [store_point], lines 886-924 and 1145-1184: an exception of [xprime] leaves last_drhodt *)
Definition store (s : tstate) : res (tstate * point) :=
  bind (pressures (st_x s)) (fun pp =>
    let last := match deriv (st_prev s) (st_x s) with Val d => d | Err _ => st_last s end in
    bind (crits (st_x s)) (fun cr =>
      Val ({| st_x := st_x s; st_t := st_t s; st_dt := st_dt s; st_last := last; st_prev := st_prev s |},
           {| pt_x := st_x s; pt_t := st_t s; pt_dt := st_dt s; pt_c := c; pt_p := pp; pt_frac := fractions (st_x s); pt_drho := last; pt_crit := cr |}))).
(** lines 932-963 and 1192-1223: the step; [eul.do_step] adds [dt] times the derivative *)
Definition attempt (s : tstate) : res try_result :=
  let sys x (_ : fl) := deriv (st_prev s) x in
  if (order =? 5)%Z then
    Val (match stepper sys (st_x s) (st_t s) (st_dt s) with Taken x t dt => Taken x t (fmin dt max_dt) | r => r end)
  else if (order =? 1)%Z then
    Val (match sys (st_x s) (st_t s) with
         | Val d => Taken (zip (fun a b => fadd a (fmul (st_dt s) b)) (st_x s) d) (fadd (st_t s) (st_dt s)) (st_dt s)
         | Err _ => Threw
         end)
  else Err InvalidArgument.
(** One argument counts passes: [None] if the loop is still running after so many. *)
Fixpoint trace_loop (fuel : nat) (istep : Z) (retry : nat) (s : tstate) (data : list point) : option (res (list point)) :=
  match fuel with
  | O => None
  | S fuel =>
    if (istep <? max_steps)%Z then
      match (if (istep =? 0)%Z && Nat.eqb retry 0 then bind (store s) (fun '(s, q) => Val (s, data ++ [q])) else Val (s, data)) with
      | Err e => Some (Err e)
      | Val (s, data) =>
        match attempt s with
        | Err e => Some (Err e)
        | Val Threw => Some (Val data)
        | Val (Refused dt) => trace_loop fuel istep (S retry) {| st_x := st_x s; st_t := st_t s; st_dt := dt; st_last := st_last s; st_prev := st_prev s |} data
        | Val (Taken x t dt) =>
          match stop x with
          | Err e => Some (Err e)
          | Val true => Some (Val data)
          | Val false =>
            match bind (polish x) (fun x => store {| st_x := x; st_t := t; st_dt := dt; st_last := st_prev s; st_prev := st_last s |}) with
            | Err e => Some (Err e)
            | Val (s, q) => trace_loop fuel (istep + 1) 0 s (data ++ [q])
            end
          end
        end
      end
    else Some (Val data)
  end.
End Loop.

(** ** Parts common to both *)
Definition norm2 (v : list fl) : fl := fsum (map (fun a => fmul a a) v).
Definition frac0 (v : list fl) : fl := fdiv (el v 0) (fsum v).
Definition flip (n : nat) (v : list fl) : list fl := map (fun a => fmul a (Fin (-1))) (firstn n v) ++ skipn n v.
(** lines 868-880, 1127-1139: [c] after the first guess *)
Definition initial_c (x d : list fl) (dt c : fl) : fl :=
  if existsb (fun v => flt v (Fin 0)) (zip (fun a b => fadd a (fmul b dt)) x d) then fmul c (Fin (-1)) else c.
(** lines 984, 1242 *)
Definition outside (L V : list fl) : bool :=
  let x := map (fun r => fdiv r (fsum L)) L in let y := map (fun r => fdiv r (fsum V)) V in
  existsb (fun v => flt v (Fin 0)) x || existsb (fun v => flt (Fin 1) v) x || existsb (fun v => flt v (Fin 0)) y || existsb (fun v => flt (Fin 1) v) y ||
  existsb (fun v => negb (isfinite v)) L || existsb (fun v => negb (isfinite v)) V.
(** lines 1002, 1261 *)
Definition polish_rejected (reltol : fl) (L Lnew : list fl) : bool :=
  existsb (fun p => flt (fmul reltol (fst p)) (fabs (fsub (fst p) (snd p)))) (combine L Lnew).

(** [TVLEOptions] and [PVLEOptions], VLE_types.hpp *)
Record toptions := { o_init_dt : fl; o_max_dt : fl; o_init_c : fl; o_p_term : fl; o_crit_term : fl; o_max_steps : Z; o_order : Z; o_revision : Z;
  o_polish : bool; o_polish_throws : bool; o_polish_reltol : fl; o_crit : bool }.
Inductive traced := Rows (l : list point) | WithMeta (l : list point).

(** ** [trace_VLE_isotherm_binary], lines 792-1041; the state is rhoL, rhoV *)
Section Isotherm.
Variable stepper : stepper_type.
Variable drhodp : list fl -> list fl -> res (list fl * list fl).    (* get_drhovecdp_Tsat at T *)
Variable pressure : list fl -> res fl.                              (* rho*R*T + get_pr at T *)
Variable crit : list fl -> res (list fl).                           (* get_criticality_conditions at T *)
Variable solve_Tx : list fl -> list fl -> list fl -> res (list fl * list fl).   (* mix_VLE_Tx(T, rhoL, rhoV, x, 1e-10, 1e-8, 1e-10, 1e-8, 10) *)
Variable o : toptions.
Definition liq (X : list fl) := firstn 2 X.
Definition vap (X : list fl) := skipn 2 X.
(** lines 835-864 *)
Definition isotherm_deriv (c : fl) (prev X : list fl) : res (list fl) :=
  bind (drhodp (liq X) (vap X)) (fun '(dL, dV) =>
    let dpdt := fdiv (Fin 1) (fsqrt (fadd (norm2 dL) (norm2 dV))) in
    let d := map (fun a => fmul (fmul c a) dpdt) (dL ++ dV) in
    Val (if flt (fdot (firstn 2 d) (firstn 2 prev)) (Fin 0) then flip 4 d else d)).
Definition isotherm_pressures (X : list fl) : res (fl * fl) := bind (pressure (liq X)) (fun pL => bind (pressure (vap X)) (fun pV => Val (pL, pV))).
Definition both_crits (L V : list fl) : res (list fl * list fl) := bind (crit L) (fun a => bind (crit V) (fun b => Val (a, b))).
Definition isotherm_crits (X : list fl) : res (option (list fl * list fl)) :=
  if o_crit o then bind (both_crits (liq X) (vap X)) (fun p => Val (Some p)) else Val None.
(** lines 964-990 *)
Definition isotherm_stop (X : list fl) : res bool :=
  bind (pressure (liq X)) (fun p =>
  bind (if o_crit o then bind (both_crits (liq X) (vap X)) (fun '(a, b) => Val (flt (el a 0) (o_crit_term o) || flt (el b 0) (o_crit_term o))) else Val false) (fun unstable =>
  Val (unstable || flt (o_p_term o) p || outside (liq X) (vap X)))).
(** lines 994-1014 *)
Definition isotherm_polish (X : list fl) : res (list fl) :=
  if o_polish o then
    bind (solve_Tx (liq X) (vap X) (map (fun r => fdiv r (fsum (liq X))) (liq X))) (fun '(L, V) =>
      if polish_rejected (o_polish_reltol o) (liq X) L then (if o_polish_throws o then Err IterationFailure else Val X)
      else Val (L ++ V))
  else Val X.
Definition isotherm_loop (c : fl) := trace_loop stepper (isotherm_deriv c) isotherm_pressures (fun X => (frac0 (liq X), frac0 (vap X))) isotherm_crits isotherm_stop isotherm_polish
  c (o_max_dt o) (o_max_steps o) (o_order o).
Definition zeros (n : nat) : list fl := repeat (Fin 0) n.

Definition trace_VLE_isotherm_binary (fuel : nat) (L0 V0 : list fl) : option (res traced) :=
  if negb (Nat.eqb (length L0) 2) then Some (Err InvalidArgument)
  else if negb (Nat.eqb (length L0) (length V0)) then Some (Err InvalidArgument)
  else
    let x0 := L0 ++ V0 in
    match isotherm_deriv (o_init_c o) (zeros 4) x0 with
    | Err e => Some (Err e)
    | Val d =>
      let c := initial_c x0 d (o_init_dt o) (o_init_c o) in
      match isotherm_loop c fuel 0 0 {| st_x := x0; st_t := Fin 0; st_dt := o_init_dt o; st_last := zeros 4; st_prev := zeros 4 |} [] with
      | None => None
      | Some (Err e) => Some (Err e)
      | Some (Val data) =>
          Some (if (o_revision o =? 1)%Z then Val (Rows data) else if (o_revision o =? 2)%Z then Val (WithMeta data) else Err InvalidArgument)
      end
    end.
End Isotherm.

(** ** [trace_VLE_isobar_binary], lines 1047-1283; the state is T, rhoL, rhoV.  There is no
    [p_termination] and no [revision]. *)
Section Isobar.
Variable stepper : stepper_type.
Variable drhodT : fl -> list fl -> list fl -> res (list fl * list fl).    (* get_drhovecdT_psat *)
Variable pressure : fl -> list fl -> res fl.
Variable crit : fl -> list fl -> res (list fl).
Variable solve_px : list fl -> fl -> list fl -> list fl -> res (fl * list fl * list fl).   (* mixture_VLE_px(p, x, T, rhoL, rhoV) *)
Variable o : toptions.
Definition Temp (X : list fl) : fl := el X 0.
Definition liqp (X : list fl) := firstn 2 (skipn 1 X).
Definition vapp (X : list fl) := skipn 3 X.
(** lines 1093-1123: dT/dt without the factor c; the test uses the first two entries of the
    state, and all but the last are reversed *)
Definition isobar_deriv (c : fl) (prev X : list fl) : res (list fl) :=
  bind (drhodT (Temp X) (liqp X) (vapp X)) (fun '(dL, dV) =>
    let dTdt := fdiv (Fin 1) (fsqrt (fadd (norm2 dL) (norm2 dV))) in
    let d := dTdt :: map (fun a => fmul (fmul c a) dTdt) (dL ++ dV) in
    Val (if flt (fdot (firstn 2 d) (firstn 2 prev)) (Fin 0) then flip 4 d else d)).
Definition isobar_pressures (X : list fl) : res (fl * fl) := bind (pressure (Temp X) (liqp X)) (fun pL => bind (pressure (Temp X) (vapp X)) (fun pV => Val (pL, pV))).
Definition isobar_crits (X : list fl) : res (option (list fl * list fl)) :=
  if o_crit o then bind (both_crits (crit (Temp X)) (liqp X) (vapp X)) (fun p => Val (Some p)) else Val None.
(** lines 1224-1248 *)
Definition isobar_stop (X : list fl) : res bool :=
  bind (if o_crit o then bind (both_crits (crit (Temp X)) (liqp X) (vapp X)) (fun '(a, b) => Val (flt (el a 0) (o_crit_term o) || flt (el b 0) (o_crit_term o))) else Val false) (fun unstable =>
  Val (unstable || outside (liqp X) (vapp X))).
(** lines 1252-1274 *)
Definition isobar_polish (X : list fl) : res (list fl) :=
  if o_polish o then
    bind (solve_px (map (fun r => fdiv r (fsum (liqp X))) (liqp X)) (Temp X) (liqp X) (vapp X)) (fun '(T, L, V) =>
      if polish_rejected (o_polish_reltol o) (liqp X) L then (if o_polish_throws o then Err IterationFailure else Val X)
      else Val (T :: L ++ V))
  else Val X.
Definition isobar_loop (c : fl) := trace_loop stepper (isobar_deriv c) isobar_pressures (fun X => (frac0 (liqp X), frac0 (vapp X))) isobar_crits isobar_stop isobar_polish
  c (o_max_dt o) (o_max_steps o) (o_order o).
Definition trace_VLE_isobar_binary (fuel : nat) (T0 : fl) (L0 V0 : list fl) : option (res (list point)) :=
  if negb (Nat.eqb (length L0) 2) then Some (Err InvalidArgument)
  else if negb (Nat.eqb (length L0) (length V0)) then Some (Err InvalidArgument)
  else
    let x0 := T0 :: L0 ++ V0 in
    match isobar_deriv (o_init_c o) (zeros 5) x0 with
    | Err e => Some (Err e)
    | Val d =>
      let c := initial_c x0 d (o_init_dt o) (o_init_c o) in
      isobar_loop c fuel 0 0 {| st_x := x0; st_t := Fin 0; st_dt := o_init_dt o; st_last := zeros 5; st_prev := zeros 5 |} []
    end.
End Isobar.

(** ** [trace_VLLE_binary], VLLE.hpp lines 519-648; the state is rhoV, rhoL1, rhoL2 *)
(** [VLLETracerOptions], VLLE_types.hpp *)
Record voptions := { v_init_dT : fl; v_max_dT : fl; v_T_limit : fl; v_max_steps : Z; v_max_retries : Z; v_polish : bool;
  v_composition : bool; v_composition_tol : fl }.
Record vpoint := { vp_T : fl; vp_x : list fl; vp_crit : list (list fl); vp_p : fl }.
Section Three.
Variable stepper : stepper_type.
Variable drhodT3 : list fl -> fl -> res (list fl).                  (* get_drhovecdT_VLLE_binary *)
Variable polish3 : fl -> list fl -> res (list fl).                  (* mix_VLLE_T with the tolerances 1e-10, max_polish_steps *)
Variable crit : fl -> list fl -> res (list fl).
Variable pressure : fl -> list fl -> res fl.                        (* rho*R*T*(1 + get_Ar01) of the vapor *)
Variable o : voptions.
Definition ph (k : nat) (x : list fl) : list fl := firstn 2 (skipn (2 * k) x).
(** line 618-622 *)
Definition compositions_meet (x : list fl) : bool :=
  let c0 := frac0 (ph 1 x) in let c1 := frac0 (ph 2 x) in let c2 := frac0 (ph 0 x) in
  existsb (fun d => flt (fabs d) (v_composition_tol o)) [fsub c0 c1; fsub c0 c2; fsub c1 c2].
(** lines 588-628: what is evaluated at an accepted state, and whether it ends the trace; the
    retry counter is zero there *)
Definition vlle_entry (T : fl) (x : list fl) : res (bool * vpoint) :=
  bind (crit T (ph 0 x)) (fun cV => bind (crit T (ph 1 x)) (fun cL1 => bind (crit T (ph 2 x)) (fun cL2 =>
  bind (pressure T (ph 0 x)) (fun p =>
    Val (negb (isfinite p) ||
         (flt (Fin 0) (v_init_dT o) && flt (v_T_limit o) T) || (flt (v_init_dT o) (Fin 0) && flt T (v_T_limit o)) ||
         (v_composition o && compositions_meet x) || (v_max_retries o <? 0)%Z,
         {| vp_T := T; vp_x := x; vp_crit := [cV; cL1; cL2]; vp_p := p |}))))).
Fixpoint vlle_trace_loop (fuel : nat) (iter : Z) (x : list fl) (T dT : fl) (data : list vpoint) : option (res (list vpoint)) :=
  match fuel with
  | O => None
  | S fuel =>
    if (iter <? v_max_steps o)%Z then
      match stepper drhodT3 x T dT with
      | Threw => Some (Val data)
      | Refused dT => vlle_trace_loop fuel iter x T dT data
      | Taken x T dT =>
        match bind (if v_polish o then polish3 T x else Val x) (fun x => bind (vlle_entry T x) (fun r => Val (x, r))) with
        | Err e => Some (Err e)
        | Val (_, (true, _)) => Some (Val data)
        | Val (x, (false, q)) => vlle_trace_loop fuel (iter + 1) x T (fmin dT (v_max_dT o)) (data ++ [q])
        end
      end
    else Some (Val data)
  end.
Definition trace_VLLE_binary (fuel : nat) (Tinit : fl) (V L1 L2 : list fl) : option (res (list vpoint)) :=
  vlle_trace_loop fuel 0 (V ++ L1 ++ L2) Tinit (v_init_dT o) [].
End Three.
