(** What the theorems about the vapor-liquid equilibrium solvers speak of. *)
From Coq Require Import Reals ZArith List.
From Coquelicot Require Import Coquelicot.
From Verif Require Import Json_model Cubic_model Vec_spec Iso_model Iso_spec PhaseEq_spec Float_model VLE_model.
Import ListNotations.
Open Scope R_scope.

Definition fin (v : list R) : list fl := map Fin v.
Definition fins (M : list (list R)) : list (list fl) := map fin M.

(** The calls of the model return the derivatives of alphar at every temperature and all
    concentrations with a positive sum. *)
Record evaluates (ad : (list R -> R) -> list nat -> list R -> R) (alphar : R -> R -> list R -> R) (Rgas : list R -> R) (m : eos) : Prop := {
  ev_R : forall x, e_R m (fin x) = Fin (Rgas x);
  ev_fgh : forall T rho, 0 < T -> 0 < total rho -> e_fgh m (Fin T) (fin rho) =
    ok (Fin (get_Psir alphar Rgas T rho), fin (build_Psir_gradient ad alphar Rgas T rho), fins (build_Psir_Hessian ad alphar Rgas T rho));
  ev_d2 : forall T rho, 0 < T -> 0 < total rho -> e_d2 m (Fin T) (fin rho) = ok (fin (build_d2PsirdTdrhoi ad alphar Rgas T rho));
  ev_dpdT : forall T rho, 0 < T -> 0 < total rho -> e_dpdT m (Fin T) (fin rho) = ok (Fin (get_dpdT_constrhovec ad alphar Rgas T rho)) }.

(** [F] with values in lists of numbers has the value [r] and the Jacobian [J] at [x]: near
    [x] it evaluates to finite numbers, and along every curve through [x] component k
    changes at the rate given by row k. *)
Definition has_jacobian (F : list R -> outcome (list fl)) (x r : list R) (J : list (list R)) : Prop :=
  F x = ok (fin r) /\ length J = length r /\ (forall row, In row J -> length row = length x) /\
  forall d X, curve x d X -> exists f : nat -> R -> R,
    locally 0 (fun s => F (X s) = ok (fin (map (fun k => f k s) (seq 0 (length r))))) /\
    forall k, (k < length r)%nat -> is_derive (f k) 0 (sumn (length x) (fun j => nth j (nth k J []) 0 * nth j d 0)).

(** [v] solves the linear system [M v = b]. *)
Definition solution (M : list (list R)) (b v : list R) : Prop :=
  length v = length b /\ forall k, (k < length b)%nat -> sumn (length v) (fun j => nth j (nth k M []) 0 * nth j v 0) = nth k b 0.
Definition regular (M : list (list R)) (n : nat) : Prop :=
  forall v, solution M (repeat 0 n) v -> v = repeat 0 n.

(** Two phases in equilibrium: equal fugacities of all components and equal pressures.
    [GL], [GV]: the derivatives of the residual Helmholtz energy density. *)
Definition two_phase (alphar : R -> R -> list R -> R) (Rgas : list R -> R) (Rg T : R) (L V GL GV : list R) : Prop :=
  (forall i, (i < length L)%nat -> fugacity Rg T L GL i = fugacity Rg T V GV i) /\
  p_of alphar Rgas T L = p_of alphar Rgas T V.
(** the derivatives of the energy density at a state *)
Definition gradient_of (alphar : R -> R -> list R -> R) (Rgas : list R -> R) (T : R) (rho G : list R) : Prop :=
  gradient_at (Psi_r alphar Rgas T) rho G.

(** ** The steps of [mix_VLE_Tx] *)
Section Run.
Variable m : eos.
Variable qr : list (list fl) -> list fl -> list fl.
Variable minc : list fl -> fl.
Variables (T RT : fl) (xspec : list fl) (atol reltol axtol relxtol : fl).

Definition less (a b : fl) : Prop := flt a b = true.
(** residual and Newton step at [x] *)
Definition newton_step (x r dx : list fl) : Prop := exists J, tx_assemble m T RT xspec x = ok (r, J) /\ dx = qr J (map fopp r).
(** the step taken instead of [dx0]: shortened if a concentration would become negative,
    and none for the components absent from [xspec] *)
Definition negative_step (x dx : list fl) : Prop := exists i, (i < 4)%nat /\ less (fadd (el x i) (el dx i)) (Fin 0).
Definition taken (x dx0 dx : list fl) : Prop :=
  length dx = 4%nat /\ forall i, (i < 4)%nat ->
    (feq (el xspec (Nat.modulo i 2)) (Fin 0) = true -> el dx i = Fin 0) /\
    (feq (el xspec (Nat.modulo i 2)) (Fin 0) = false -> ~ negative_step x dx0 -> el dx i = el dx0 i) /\
    (feq (el xspec (Nat.modulo i 2)) (Fin 0) = false -> negative_step x dx0 ->
       el dx i = fmul (el dx0 i) (fdiv (minc (map (fun j => ratio (el dx0 j) (el x j)) (seq 0 4))) (Fin 2))).
Definition pass (x r dx x' : list fl) : Prop := exists dx0, newton_step x r dx0 /\ (exists i, (i < 4)%nat /\ isfinite (el dx0 i) = true) /\
  taken x dx0 dx /\ x' = map (fun i => fadd (el x i) (el dx i)) (seq 0 4).
(** the tests for convergence *)
Definition small_step (dx x' : list fl) : Prop := forall i, (i < 4)%nat -> less (fabs (el dx i)) (fadd axtol (fmul relxtol (fabs (el x' i)))).
Definition small_residual (r : list fl) : Prop := forall i, (i < 4)%nat -> less (fabs (el r i)) (fadd atol (fmul reltol (fabs (el r i)))).
Definition no_change (dx x' : list fl) : Prop := forall i, (i < 4)%nat -> less (fabs (fsub (el x' i) (el dx i))) (Fin (/ 2 ^ 1022)).
Definition goes_on (r dx x' : list fl) : Prop := ~ small_step dx x' /\ ~ small_residual r /\ ~ no_change dx x'.
(** [k] passes through the points [X 0] ... [X k]; all but the last go on *)
Definition passes (k : nat) (X Rs D : nat -> list fl) : Prop :=
  forall i, (i < k)%nat -> pass (X i) (Rs i) (D i) (X (S i)) /\ ((S i < k)%nat -> goes_on (Rs i) (D i) (X (S i))).
(** how the run ends *)
Definition ends (maxiter : Z) (code : vle_code) (k : nat) (X Rs D : nat -> list fl) : Prop :=
  match code with
  | notfinite_step => (Z.of_nat k < maxiter)%Z /\ (forall i, (i < k)%nat -> goes_on (Rs i) (D i) (X (S i))) /\
      exists r dx, newton_step (X k) r dx /\ forall i, (i < 4)%nat -> isfinite (el dx i) = false
  | xtol_satisfied => exists i, k = S i /\ (small_step (D i) (X k) \/ ~ small_residual (Rs i) /\ no_change (D i) (X k))
  | functol_satisfied => exists i, k = S i /\ small_residual (Rs i) /\ ~ small_step (D i) (X k)
  | maxiter_met => Z.of_nat k = maxiter /\ exists i, k = S i /\ goes_on (Rs i) (D i) (X k)
  | unset => (maxiter <= 0)%Z /\ k = O
  | maxfev_met => False
  end.
End Run.

(** ** The steps of [mixture_VLE_px] *)
Section PxRun.
Variable m : eos.
Variable qr : list (list fl) -> list fl -> list fl.
Variables (p_spec : fl) (xspec : list fl) (T0 atol reltol axtol relxtol : fl).
Notation n := (S (2 * length xspec)).

(** one pass: a full Newton step in temperature and concentrations *)
Definition px_step (s : fl * list fl) (r dx : list fl) : Prop :=
  exists J, px_assemble m p_spec xspec (fst s) (snd s) = ok (r, J) /\ dx = qr J (map fopp r).
Definition px_pass (s : fl * list fl) (r dx : list fl) (s' : fl * list fl) : Prop :=
  px_step s r dx /\ (exists i, (i < n)%nat /\ isfinite (el dx i) = true) /\
  fst s' = fadd (fst s) (el dx 0) /\ snd s' = map (fun i => fadd (el (snd s) i) (el dx (S i))) (seq 0 (2 * length xspec)).
(** The tests for convergence: the one on the steps compares the change in temperature with
    the first value [T0] of the temperature. *)
Definition px_var (s : fl * list fl) (i : nat) : fl := match i with O => T0 | S j => el (snd s) j end.
Definition px_small_step (dx : list fl) (s : fl * list fl) : Prop := forall i, (i < n)%nat -> less (fabs (el dx i)) (fadd axtol (fmul relxtol (fabs (px_var s i)))).
Definition px_small_residual (r : list fl) : Prop := forall i, (i < n)%nat -> less (fabs (el r i)) (fadd atol (fmul reltol (fabs (el r i)))).
Definition px_no_change (dx : list fl) (s : fl * list fl) : Prop := forall i, (i < n)%nat -> less (fabs (fsub (px_var s i) (el dx i))) (Fin (/ 2 ^ 1022)).
Definition px_goes_on (r dx : list fl) (s : fl * list fl) : Prop := ~ px_small_step dx s /\ ~ px_small_residual r /\ ~ px_no_change dx s.
Definition px_passes (k : nat) (X : nat -> fl * list fl) (Rs D : nat -> list fl) : Prop :=
  forall i, (i < k)%nat -> px_pass (X i) (Rs i) (D i) (X (S i)) /\ ((S i < k)%nat -> px_goes_on (Rs i) (D i) (X (S i))).
Definition px_ends (maxiter : Z) (code : vle_code) (k : nat) (X : nat -> fl * list fl) (Rs D : nat -> list fl) : Prop :=
  match code with
  | notfinite_step => (Z.of_nat k < maxiter)%Z /\ (forall i, (i < k)%nat -> px_goes_on (Rs i) (D i) (X (S i))) /\
      exists r dx, px_step (X k) r dx /\ forall i, (i < n)%nat -> isfinite (el dx i) = false
  | xtol_satisfied => exists i, k = S i /\ (px_small_step (D i) (X k) \/ ~ px_small_residual (Rs i) /\ px_no_change (D i) (X k))
  | functol_satisfied => exists i, k = S i /\ px_small_residual (Rs i) /\ ~ px_small_step (D i) (X k)
  | maxiter_met => Z.of_nat k = maxiter /\ exists i, k = S i /\ px_goes_on (Rs i) (D i) (X k)
  | unset => (maxiter <= 0)%Z /\ k = O
  | maxfev_met => False
  end.
End PxRun.
