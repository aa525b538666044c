(** What the theorems about the tracers speak of. *)
From Coq Require Import Reals ZArith List.
From Verif Require Import Json_model Float_model VLE_model VLE_spec Tracer_model.
Import ListNotations.
Open Scope R_scope.

(** ** Tracers of two phases *)
Section Run.
Variable stepper : stepper_type.
Variable deriv : list fl -> list fl -> res (list fl).
Variable pressures : list fl -> res (fl * fl).
Variable fractions : list fl -> fl * fl.
Variable crits : list fl -> res (option (list fl * list fl)).
Variable stop : list fl -> res bool.
Variable polish : list fl -> res (list fl).
Variables (c max_dt : fl) (order : Z).
(** the stepper refuses steps from [x] at [t], beginning with [dt], until it is asked for [dt'] *)
Inductive refusals (sys : list fl -> fl -> res (list fl)) (x : list fl) (t : fl) : fl -> fl -> Prop :=
  | none : forall dt, refusals sys x t dt dt
  | more : forall dt dt1 dt', stepper sys x t dt = Refused dt1 -> refusals sys x t dt1 dt' -> refusals sys x t dt dt'.
(** from the point [q] a step leads to [x] at the parameter [t], with the step size [dt] for
    the next one; [old] is the derivative with respect to which directions are compared *)
Definition moves (old : list fl) (q : point) (x : list fl) (t dt : fl) : Prop :=
  (order = 5%Z /\ exists dt1 dt2, refusals (fun x _ => deriv old x) (pt_x q) (pt_t q) (pt_dt q) dt1 /\
     stepper (fun x _ => deriv old x) (pt_x q) (pt_t q) dt1 = Taken x t dt2 /\ dt = fmin dt2 max_dt) \/
  (order = 1%Z /\ exists d, deriv old (pt_x q) = Val d /\ x = zip (fun a b => fadd a (fmul (pt_dt q) b)) (pt_x q) d /\ t = fadd (pt_t q) (pt_dt q) /\ dt = pt_dt q).
(** the derivative cannot be evaluated during the step *)
Definition step_throws (old : list fl) (q : point) : Prop :=
  (order = 5%Z /\ exists dt1, refusals (fun x _ => deriv old x) (pt_x q) (pt_t q) (pt_dt q) dt1 /\ stepper (fun x _ => deriv old x) (pt_x q) (pt_t q) dt1 = Threw) \/
  (order = 1%Z /\ exists e, deriv old (pt_x q) = Err e).
(** what is recorded of a state besides its parameter and step size: [old] is recorded if the
    derivative cannot be evaluated *)
Definition recorded (old prev : list fl) (q : point) : Prop :=
  pt_c q = c /\ pressures (pt_x q) = Val (pt_p q) /\ pt_frac q = fractions (pt_x q) /\ crits (pt_x q) = Val (pt_crit q) /\
  (deriv prev (pt_x q) = Val (pt_drho q) \/ (exists e, deriv prev (pt_x q) = Err e) /\ pt_drho q = old).
(** The next point: the state after the step meets no criterion for stopping, and is polished
    before it is recorded. *)
Definition follows (old : list fl) (q q' : point) : Prop :=
  exists x, moves old q x (pt_t q') (pt_dt q') /\ stop x = Val false /\ polish x = Val (pt_x q') /\ recorded old (pt_drho q) q'.
(** at most [n] further points, each following the one before; why there are no more *)
Inductive run : nat -> list fl -> point -> list point -> Prop :=
  | run_full : forall old q, run 0 old q []
  | run_throws : forall n old q, step_throws old q -> run n old q []
  | run_stops : forall n old q x t dt, moves old q x t dt -> stop x = Val true -> run n old q []
  | run_next : forall n old q q' l, follows old q q' -> run n (pt_drho q) q' l -> run (S n) old q (q' :: l).
End Run.
(** consecutive elements *)
Inductive consecutive {A : Type} : list A -> A -> A -> Prop :=
  | here : forall a b l, consecutive (a :: b :: l) a b
  | later : forall a b c l, consecutive l a b -> consecutive (c :: l) a b.

(** A stepper that refuses at most [k] steps in a row. *)
Fixpoint accepts_within (stepper : stepper_type) (k : nat) (sys : list fl -> fl -> res (list fl)) (x : list fl) (t dt : fl) : Prop :=
  match stepper sys x t dt with
  | Refused dt' => match k with O => False | S k => accepts_within stepper k sys x t dt' end
  | _ => True
  end.
Definition patient (stepper : stepper_type) (k : nat) : Prop := forall sys x t dt, accepts_within stepper k sys x t dt.

(** ** The tracer of three phases *)
Section Run3.
Variable stepper : stepper_type.
Variable drhodT3 : list fl -> fl -> res (list fl).
Variable polish3 : fl -> list fl -> res (list fl).
Variable o : voptions.
(** a step, with refusals before it, and polishing lead from [x] at [T] with the step size
    [dT] to [x'] at [T']; [dT'] is the next step size *)
Definition moves3 (x : list fl) (T dT : fl) (x' : list fl) (T' dT' : fl) : Prop :=
  exists dT1 dT2 y, refusals stepper drhodT3 x T dT dT1 /\ stepper drhodT3 x T dT1 = Taken y T' dT2 /\ dT' = fmin dT2 (v_max_dT o) /\
    (if v_polish o then polish3 T' y else Val y) = Val x'.
End Run3.
Definition first_fraction (v : list fl) : fl := fdiv (el v 0) (fsum v).
Section Ends3.
Variable stepper : stepper_type.
Variable drhodT3 : list fl -> fl -> res (list fl).
Variable polish3 : fl -> list fl -> res (list fl).
Variable crit : fl -> list fl -> res (list fl).
Variable pressure : fl -> list fl -> res fl.
Variable o : voptions.
(** vapor and the two liquids of a state *)
Definition phase3 (k : nat) (x : list fl) : list fl := firstn 2 (skipn (2 * k) x).
Definition evaluated3 (q : vpoint) : Prop :=
  pressure (vp_T q) (phase3 0 (vp_x q)) = Val (vp_p q) /\ exists a b c, vp_crit q = [a; b; c] /\
  crit (vp_T q) (phase3 0 (vp_x q)) = Val a /\ crit (vp_T q) (phase3 1 (vp_x q)) = Val b /\ crit (vp_T q) (phase3 2 (vp_x q)) = Val c.
(** the criteria for stopping: the pressure is not a finite number, the temperature is beyond
    the limit, two of the compositions have met, or the number of retries is negative *)
Definition final3 (q : vpoint) : Prop :=
  isfinite (vp_p q) = false \/ less (Fin 0) (v_init_dT o) /\ less (v_T_limit o) (vp_T q) \/ less (v_init_dT o) (Fin 0) /\ less (vp_T q) (v_T_limit o) \/
  v_composition o = true /\ (exists i j, (i < j < 3)%nat /\ less (fabs (fsub (first_fraction (phase3 i (vp_x q))) (first_fraction (phase3 j (vp_x q))))) (v_composition_tol o)) \/
  (v_max_retries o < 0)%Z.
Inductive run3 : nat -> list fl -> fl -> fl -> list vpoint -> Prop :=
  | run3_full : forall x T dT, run3 0 x T dT []
  | run3_throws : forall n x T dT dT1, refusals stepper drhodT3 x T dT dT1 -> stepper drhodT3 x T dT1 = Threw -> run3 n x T dT []
  | run3_stops : forall n x T dT q dT', moves3 stepper drhodT3 polish3 o x T dT (vp_x q) (vp_T q) dT' -> evaluated3 q -> final3 q -> run3 n x T dT []
  | run3_next : forall n x T dT q dT' l, moves3 stepper drhodT3 polish3 o x T dT (vp_x q) (vp_T q) dT' -> evaluated3 q -> ~ final3 q ->
      run3 n (vp_x q) (vp_T q) dT' l -> run3 (S n) x T dT (q :: l).
End Ends3.
