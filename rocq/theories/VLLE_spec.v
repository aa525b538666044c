(** What the theorems about three-phase equilibria speak of. *)
From Coq Require Import Reals ZArith List.
From Coquelicot Require Import Coquelicot.
From Verif Require Import Json_model Cubic_model Vec_spec Iso_model Iso_spec PhaseEq_spec Float_model VLE_model VLE_spec VLLE_model.
Import ListNotations.
Open Scope R_scope.

(** Three phases in equilibrium: equal fugacities of all components and equal pressures. *)
Definition three_phase (alphar : R -> R -> list R -> R) (Rgas : list R -> R) (Rg T : R) (V L1 L2 GV GL1 GL2 : list R) : Prop :=
  two_phase alphar Rgas Rg T V L1 GV GL1 /\ two_phase alphar Rgas Rg T L1 L2 GL1 GL2.

(** ** The steps of [mix_VLLE_T] and [mix_VLLE_p]: [n] unknowns, [system x] the residual and
    its Jacobian at [x] *)
Section Run.
Variable n : nat.
Variable system : list fl -> outcome (list fl * list (list fl)).
Variable qr : list (list fl) -> list fl -> list fl.
Variables (atol reltol axtol relxtol : fl).
(** a full Newton step from [x] with the residual [r] *)
Definition vlle_pass (x r dx x' : list fl) : Prop :=
  (exists J, system x = ok (r, J) /\ dx = qr J (map fopp r)) /\ x' = map (fun i => fadd (el x i) (el dx i)) (seq 0 n).
(** The tests.  That on the step compares its components with their signs. *)
Definition step_test (dx x' : list fl) : Prop := forall i, (i < n)%nat -> less (el dx i) (fadd axtol (fmul relxtol (fabs (el x' i)))).
Definition residual_test (r : list fl) : Prop := forall i, (i < n)%nat -> less (fabs (el r i)) (fadd atol (fmul reltol (fabs (el r i)))).
Definition change_test (dx x' : list fl) : Prop := forall i, (i < n)%nat -> less (fabs (fsub (el x' i) (el dx i))) (Fin (/ 2 ^ 1022)).
Definition vlle_goes_on (r dx x' : list fl) : Prop := ~ step_test dx x' /\ ~ residual_test r /\ ~ change_test dx x'.
(** [k] passes through [X 0] ... [X k]; all but the last meet none of the tests *)
Definition vlle_passes (k : nat) (X Rs D : nat -> list fl) : Prop :=
  forall i, (i < k)%nat -> vlle_pass (X i) (Rs i) (D i) (X (S i)) /\ ((S i < k)%nat -> vlle_goes_on (Rs i) (D i) (X (S i))).
Definition vlle_ends (maxiter : Z) (code : vlle_code) (k : nat) (X Rs D : nat -> list fl) : Prop :=
  exists i, k = S i /\
  match code with
  | vlle_xtol_satisfied => step_test (D i) (X k) \/ ~ residual_test (Rs i) /\ change_test (D i) (X k)
  | vlle_functol_satisfied => residual_test (Rs i) /\ ~ step_test (D i) (X k)
  | vlle_maxiter_met => Z.of_nat k = maxiter /\ vlle_goes_on (Rs i) (D i) (X k)
  | vlle_unset => False
  end.
End Run.

(** ** Polylines *)
(** the point at the fraction [s] of segment [j] of the line through (x_i, y_i) *)
Definition on_segment (x y : list R) (j : nat) (s : R) : R * R :=
  (nth j x 0 + s * (nth (S j) x 0 - nth j x 0), nth j y 0 + s * (nth (S j) y 0 - nth j y 0)).
(** segments [j] and [k] of two lines are not parallel *)
Definition transversal (x1 y1 x2 y2 : list R) (j k : nat) : Prop :=
  (nth (S j) x1 0 - nth j x1 0) * (nth (S k) y2 0 - nth k y2 0) <> (nth (S j) y1 0 - nth j y1 0) * (nth (S k) x2 0 - nth k x2 0).
(** the insides of the two segments cross: the point at the fraction [s] of the one is the
    point at the fraction [t] of the other *)
Definition crosses (x1 y1 x2 y2 : list R) (j k : nat) (s t : R) : Prop :=
  transversal x1 y1 x2 y2 j k /\ 0 < s < 1 /\ 0 < t < 1 /\ on_segment x1 y1 j s = on_segment x2 y2 k t.
(** A solver for two equations that is exact for regular matrices and for singular ones
    returns a basic solution (one of the unknowns is zero), or nothing finite. *)
Definition solver2 (qr2 : R -> R -> R -> R -> R -> R -> option (R * R)) : Prop :=
  forall a b c d e f,
    (a * d - b * c <> 0 -> exists s t, qr2 a b c d e f = Some (s, t) /\ a * s + b * t = e /\ c * s + d * t = f) /\
    (a * d - b * c = 0 -> forall s t, qr2 a b c d e f = Some (s, t) -> s = 0 \/ t = 0).
