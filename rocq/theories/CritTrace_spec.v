(** What the theorems about the tracer of critical curves speak of. *)
From Coq Require Import Reals ZArith List.
From Verif Require Import Json_model Float_model VLE_model VLE_spec Tracer_model Tracer_spec CritTrace_model.
Import ListNotations.
Open Scope R_scope.

(** temperature and concentrations of a state *)
Definition temp (x : list fl) : fl := nth 0 x NaN.
Definition conc (x : list fl) : list fl := tl x.
(** the first mole fraction is not a number below 0 or above 1 *)
Definition in_range (x : list fl) : Prop := let z := fdiv (el (conc x) 0) (fsum (conc x)) in ~ less z (Fin 0) /\ ~ less (Fin 1) z.
Definition nonnegative (x : list fl) : Prop := forall i, (i < length (conc x))%nat -> ~ less (el (conc x) i) (Fin 0).
(** the polished state may differ by so much *)
Definition close (o : coptions) (x x' : list fl) : Prop :=
  ~ less (fmul (c_reltol_T o) (temp x)) (fabs (fsub (temp x) (temp x'))) /\
  forall i, (i < length (conc x))%nat -> (i < length (conc x'))%nat -> ~ less (fmul (c_reltol_rho o) (el (conc x) i)) (fabs (fsub (el (conc x) i) (el (conc x') i))).

Section Run.
Variable stepper : stepper_type.
Variable deriv : list fl -> list fl -> res (list fl).    (* given the last direction and the state *)
Variable polishers : list (fl -> fl -> list fl -> res (fl * list fl)).
Variable o : coptions.
(** polisher [k] proposes [x'] *)
Definition proposes (k : nat) (x x' : list fl) : Prop :=
  (k < length polishers)%nat /\ nth k polishers (fun _ _ _ => Err NotImplemented) (fdiv (el (conc x) 0) (fsum (conc x))) (temp x) (conc x) = Val (temp x', conc x') /\ x' = temp x' :: conc x'.
(** the state after polishing: that of the first polisher which proposes one that is close *)
Definition polishes (x x' : list fl) : Prop :=
  (c_polish o = false /\ x' = x) \/
  (c_polish o = true /\ exists k, proposes k x x' /\ close o x x' /\ forall j y, (j < k)%nat -> proposes j x y -> ~ close o x y).
Definition unpolished (x : list fl) : Prop := c_polish o = true /\ c_polish_throws o = false /\ forall k y, proposes k x y -> ~ close o x y.
(** a step from the state [s] with the step size of [s], after refusals *)
Definition steps (s : cstate) (x : list fl) (t dt : fl) : Prop :=
  (c_order o = 5%Z /\ exists dt1 dt2, refusals stepper (fun x _ => deriv (cs_last s) x) (cs_x s) (cs_t s) (cs_dt s) dt1 /\
     stepper (fun x _ => deriv (cs_last s) x) (cs_x s) (cs_t s) dt1 = Taken x t dt2 /\ dt = fmin dt2 (c_max_dt o)) \/
  (c_order o = 1%Z /\ exists d, deriv (cs_last s) (cs_x s) = Val d /\ x = zip (fun a b => fadd a (fmul (cs_dt s) b)) (cs_x s) d /\ t = fadd (cs_t s) (cs_dt s) /\ dt = cs_dt s).
Definition fails (s s' : cstate) : Prop :=
  cs_x s' = cs_x s /\ cs_t s' = cs_t s /\ cs_last s' = cs_last s /\
  ((c_order o = 5%Z /\ refusals stepper (fun x _ => deriv (cs_last s) x) (cs_x s) (cs_t s) (cs_dt s) (cs_dt s') /\
    stepper (fun x _ => deriv (cs_last s) x) (cs_x s) (cs_t s) (cs_dt s') = Threw) \/
   (c_order o = 1%Z /\ cs_dt s' = cs_dt s /\ exists e, deriv (cs_last s) (cs_x s) = Err e)).
(** what follows the step number [iter]: the new state is [x'], the direction to compare with
    is the one at the start of the step (after the first [c_skip_dircheck] steps), and small
    changes of temperature in a row are counted *)
Definition advances (iter : Z) (s : cstate) (x : list fl) (s' : cstate) : Prop :=
  polishes x (cs_x s') /\
  ((iter < c_skip_dircheck o)%Z /\ cs_last s' = cs_last s \/ (c_skip_dircheck o <= iter)%Z /\ exists d, deriv (cs_last s) (cs_x s) = Val d /\ cs_last s' = tl d) /\
  (less (fabs (fsub (temp (cs_x s')) (temp (cs_x s)))) (c_T_tol o) /\ cs_count s' = (cs_count s + 1)%Z \/
   ~ less (fabs (fsub (temp (cs_x s')) (temp (cs_x s)))) (c_T_tol o) /\ cs_count s' = 0%Z).
Variable records : cstate -> cpoint -> Prop.
(** the points after the step number [iter] is due in the state [s], and the state in the end *)
Inductive crun : Z -> cstate -> list cpoint -> cstate -> Prop :=
  | crun_full : forall iter s, (c_max_steps o <= iter)%Z -> crun iter s [] s
  | crun_throws : forall iter s s', fails s s' -> crun iter s [] s'
  | crun_leaves : forall iter s s', steps s (cs_x s') (cs_t s') (cs_dt s') -> cs_last s' = cs_last s -> ~ in_range (cs_x s') -> crun iter s [] s'
  | crun_unpolished : forall iter s s', steps s (cs_x s') (cs_t s') (cs_dt s') -> cs_last s' = cs_last s -> in_range (cs_x s') -> unpolished (cs_x s') -> crun iter s [] s'
  | crun_polished_out : forall iter s x s', steps s x (cs_t s') (cs_dt s') -> in_range x -> advances iter s x s' -> ~ in_range (cs_x s') -> crun iter s [] s'
  | crun_stalls : forall iter s x s' q, (iter < c_max_steps o)%Z -> steps s x (cs_t s') (cs_dt s') -> in_range x -> advances iter s x s' -> in_range (cs_x s') -> records s' q ->
      (c_small_T_count o < cs_count s')%Z -> crun iter s [q] s'
  | crun_next : forall iter s x s' q l s'', (iter < c_max_steps o)%Z -> steps s x (cs_t s') (cs_dt s') -> in_range x -> advances iter s x s' -> in_range (cs_x s') -> records s' q ->
      (cs_count s' <= c_small_T_count o)%Z -> crun (iter + 1) s' l s'' -> crun iter s (q :: l) s''.
End Run.

(** what a point holds of a state *)
Definition records_state (drhodT : fl -> list fl -> res (list fl)) pressure conds splus (stable : fl -> list fl -> fl -> res bool) (o : coptions) (c : fl) (s : cstate) (q : cpoint) : Prop :=
  cp_x q = cs_x s /\ cp_t q = cs_t s /\ cp_c q = c /\ pressure (temp (cs_x s)) (conc (cs_x s)) = Val (cp_p q) /\ conds (temp (cs_x s)) (conc (cs_x s)) = Val (cp_conds q) /\
  splus (temp (cs_x s)) (conc (cs_x s)) = Val (cp_splus q) /\ crit_deriv drhodT o c (cs_last s) (cs_x s) = Val (cp_dx q) /\
  (c_calc_stability o = false /\ cp_stable q = None \/
   c_calc_stability o = true /\ exists b, stable (temp (cs_x s)) (conc (cs_x s)) (c_stability_rel_drho o) = Val b /\ cp_stable q = Some b).
