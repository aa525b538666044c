(** Small numeric helpers: [include/teqp/types.hpp],
    [include/teqp/math/pow_templates.hpp].
    Scalars are modelled by real numbers. *)
From Coq Require Import Reals ZArith List Bool Lia.
From Verif Require Import Json_model.
Import ListNotations.
Open Scope R_scope.

(** [pow2], [pow3], types.hpp lines 7-8. *)
Definition pow2 (x : R) : R := x * x.
Definition pow3 (x : R) : R := x * x * x.

(** The [while] loop of [powi], types.hpp lines 160-167.
    [fuel] only bounds the recursion; running out is the explicit [None]. *)
Fixpoint powi_loop (fuel : nat) (n : Z) (y xpwr : R) : option R :=
  match fuel with
  | O => None
  | S fuel' =>
      if (0 <? n)%Z then
        let '(y, n) := if (Z.rem n 2 =? 1)%Z then (y * xpwr, (n - 1)%Z) else (y, n) in
        powi_loop fuel' (Z.quot n 2) y (xpwr * xpwr)
      else Some y
  end.

(** [powi] for n > 4 or n < 0 after the [switch], types.hpp lines 138-170.
    [int] is 32 bits: [-n] overflows (undefined behaviour) for INT_MIN, the
    outcome [None]. *)
Definition INT_MIN : Z := (- 2 ^ 31)%Z.
Definition powi_nonneg (x : R) (n : Z) : option R :=
  match n with
  | 0%Z => Some 1
  | 1%Z => Some x
  | 2%Z => Some (x * x)
  | 3%Z => Some (x * x * x)
  | 4%Z => let x2 := x * x in Some (x2 * x2)
  | _ => powi_loop (Z.to_nat n) (n - 1) x x
  end.
Definition powi (x : R) (n : Z) : option R :=
  if (n <? 0)%Z then
    if (n =? INT_MIN)%Z then None else powi_nonneg (1 / x) (- n)
  else powi_nonneg x n.

(** pow_templates.hpp lines 5-12. *)
Definition POW2 (x : R) := x * x.
Definition POW3 (x : R) := POW2 x * x.
Definition POW4 (x : R) := POW2 x * POW2 x.
Definition POW5 (x : R) := POW2 x * POW3 x.
Definition POW7 (x : R) := POW2 x * POW5 x.
Definition POW8 (x : R) := POW4 x * POW4 x.
Definition POW10 (x : R) := POW2 x * POW8 x.
Definition POW12 (x : R) := POW4 x * POW8 x.

(** [contiguous_dotproduct], types.hpp lines 235-246: loop over [i < x.size()]
    reading both vectors; reading out of bounds would be undefined ([None]). *)
Fixpoint dot_loop (x y : list R) (i : nat) (steps : nat) (summer : R) : option R :=
  match steps with
  | O => Some summer
  | S k => match nth_error x i, nth_error y i with
           | Some a, Some b => dot_loop x y (S i) k (summer + a * b)
           | _, _ => None
           end
  end.
Definition contiguous_dotproduct (x y : list R) : res (option R) :=
  if Nat.eqb (length x) (length y) then Val (dot_loop x y 0 (length x) 0)
  else Err InvalidArgument.
