(** Specification vocabulary for the derivative properties (C17-C23): iterated
    partial derivatives of functions of several real variables, and the
    thermodynamic quantities of a Helmholtz energy. *)
From Coq Require Import Reals ZArith List Ascii.
From Coquelicot Require Import Coquelicot.
Import ListNotations.
Open Scope R_scope.

(** [partialN f [n1; ...; nk] [x1; ...; xk]] is the mixed partial derivative of
    order n1 in the first argument, ..., nk in the last one, at the point x. *)
Fixpoint partialN (f : list R -> R) (orders : list nat) (xs : list R) : R :=
  match orders, xs with
  | n :: ns, x :: xs' => Derive_n (fun t => partialN (fun l => f (t :: l)) ns xs') n x
  | _, _ => f []
  end.

(** ... and it exists there (at every stage, also next to the point). *)
Fixpoint definedN (f : list R -> R) (orders : list nat) (xs : list R) : Prop :=
  match orders, xs with
  | n :: ns, x :: xs' =>
      ex_derive_n (fun t => partialN (fun l => f (t :: l)) ns xs') n x /\
      locally x (fun t => definedN (fun l => f (t :: l)) ns xs')
  | [], [] => True
  | _, _ => False
  end.

(** The contract of an algorithmic-differentiation library: where the mixed
    derivative exists it is what the library returns. *)
Definition AD_exact (ad : (list R -> R) -> list nat -> list R -> R) : Prop :=
  forall f orders xs, definedN f orders xs -> ad f orders xs = partialN f orders xs.

(** [Lambda_{ij} = (1/T)^i rho^j d^{i+j} alpha / d(1/T)^i drho^j], as a function of
    the reciprocal temperature and the density. *)
Definition in_Trecip_rho (alpha : R -> R -> list R -> R) (z : list R) (l : list R) : R :=
  match l with [u; r] => alpha (1 / u) r z | _ => 0 end.
Definition Lambda (alpha : R -> R -> list R -> R) (i j : nat) (T rho : R) (z : list R) : R :=
  (1 / T) ^ i * rho ^ j * partialN (in_Trecip_rho alpha z) [i; j] [1 / T; rho].

(** The composition with component [i] replaced by [v]. *)
Definition replace (i : nat) (v : R) (z : list R) : list R :=
  map (fun k => if Nat.eqb k i then v else nth k z 0) (seq 0 (length z)).
(** ... and with several components replaced. *)
Fixpoint replaces (idx : list nat) (vs : list R) (z : list R) : list R :=
  match idx, vs with
  | i :: idx', v :: vs' => replaces idx' vs' (replace i v z)
  | _, _ => z
  end.
(** [Lambda] with composition derivatives (all mole fractions independent):
    [orders] gives the order in 1/T, in rho and in each of the components [idx]. *)
Definition in_Trecip_rho_X (alpha : R -> R -> list R -> R) (z : list R) (idx : list nat) (l : list R) : R :=
  match l with u :: r :: xs => alpha (1 / u) r (replaces idx xs z) | _ => 0 end.
Definition LambdaX (alpha : R -> R -> list R -> R) (i j : nat) (nx : list nat) (idx : list nat)
  (T rho : R) (z : list R) : R :=
  (1 / T) ^ i * rho ^ j *
  partialN (in_Trecip_rho_X alpha z idx) (i :: j :: nx) (1 / T :: rho :: map (fun k => nth k z 0) idx).
(** The same for a function of (tau, delta, z). *)
Definition in_tau_delta_X (f : R -> R -> list R -> R) (z : list R) (idx : list nat) (l : list R) : R :=
  match l with t :: d :: xs => f t d (replaces idx xs z) | _ => 0 end.
Definition LambdaX_taudelta (f : R -> R -> list R -> R) (i j : nat) (nx : list nat) (idx : list nat)
  (tau delta : R) (z : list R) : R :=
  tau ^ i * delta ^ j *
  partialN (in_tau_delta_X f z idx) (i :: j :: nx) (tau :: delta :: map (fun k => nth k z 0) idx).

(** Thermodynamic quantities of a molar Helmholtz energy [a(T, rho)]. *)
Section Thermo.
Variable a : R -> R -> R.
Definition th_p (T rho : R) : R := rho ^ 2 * Derive (fun r => a T r) rho.
Definition th_s (T rho : R) : R := - Derive (fun t => a t rho) T.
Definition th_u (T rho : R) : R := a T rho + T * th_s T rho.
Definition th_h (T rho : R) : R := th_u T rho + th_p T rho / rho.
(** The quantity a variable letter names. *)
Definition quantity (c : ascii) : option (R -> R -> R) :=
  if (c =? "T")%char then Some (fun T rho => T)
  else if (c =? "D")%char then Some (fun T rho => rho)
  else if (c =? "P")%char then Some th_p
  else if (c =? "S")%char then Some th_s
  else if (c =? "H")%char then Some th_h
  else if (c =? "U")%char then Some th_u
  else None.
End Thermo.

(** [g] has partial derivatives up to second order on (0,oo) x (0,oo), the mixed
    one in either order. *)
Record smooth2 (g g10 g01 g20 g11 g02 : R -> R -> R) : Prop := {
  sm_10 : forall u r, 0 < u -> 0 < r -> is_derive (fun u => g u r) u (g10 u r);
  sm_01 : forall u r, 0 < u -> 0 < r -> is_derive (fun r => g u r) r (g01 u r);
  sm_20 : forall u r, 0 < u -> 0 < r -> is_derive (fun u => g10 u r) u (g20 u r);
  sm_11 : forall u r, 0 < u -> 0 < r -> is_derive (fun u => g01 u r) u (g11 u r);
  sm_11' : forall u r, 0 < u -> 0 < r -> is_derive (fun r => g10 u r) r (g11 u r);
  sm_02 : forall u r, 0 < u -> 0 < r -> is_derive (fun r => g01 u r) r (g02 u r) }.

(** The derivative orders the run-time functions serve. *)
Definition supported1 (iT iD iXi : Z) : Prop :=
  (0 <= iT /\ 0 <= iD /\ iT + iD <= 2 /\ 0 <= iXi <= 3 /\ 1 <= iT + iD + iXi)%Z.
Definition supported2 (iT iD iXi iXj : Z) : Prop :=
  (0 <= iT /\ 0 <= iD /\ iT + iD <= 1 /\ 0 <= iXi /\ 0 <= iXj /\ 1 <= iXi + iXj <= 2)%Z.
Definition supported3 (iT iD iXi iXj iXk : Z) : Prop :=
  (0 <= iT /\ 0 <= iD /\ iT + iD <= 1 /\ 0 <= iXi <= 1 /\ 0 <= iXj <= 1 /\ 0 <= iXk <= 1 /\
   2 <= iXi + iXj + iXk)%Z.

(** One row of the iteration matrices: the value of the named quantity and its
    derivatives in temperature and in density. *)
Definition row_correct (a : R -> R -> R) (T rho : R) (c : ascii) (v J0 J1 : R) : Prop :=
  exists q, quantity a c = Some q /\ v = q T rho /\ is_derive (fun t => q t rho) T J0 /\ is_derive (fun r => q T r) rho J1.
