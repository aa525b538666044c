(** Integer powers in binary64 arithmetic, rounded to nearest: [powi] of [include/teqp/types.hpp] and
    [include/teqp/math/pow_templates.hpp], with the operations of Flocq's formalisation of IEEE 754. *)
From Coq Require Import ZArith Bool Reals.
From Flocq Require Import Core BinarySingleNaN Binary Bits.
From Verif Require Import Util_model.

Definition fmult : binary64 -> binary64 -> binary64 := b64_mult mode_NE.
Definition fdiv : binary64 -> binary64 -> binary64 := b64_div mode_NE.
(** 1.0 *)
Definition f1 : binary64 := Bone 53 1024 (eq_refl _) (eq_refl _).
(** the loop of [powi], types.hpp lines 160-167 *)
Fixpoint fpowi_loop (fuel : nat) (n : Z) (y xpwr : binary64) : option binary64 :=
  match fuel with
  | O => None
  | S fuel' =>
      if (0 <? n)%Z then
        let '(y, n) := if (Z.rem n 2 =? 1)%Z then (fmult y xpwr, (n - 1)%Z) else (y, n) in
        fpowi_loop fuel' (Z.quot n 2) y (fmult xpwr xpwr)
      else Some y
  end.
(** the [switch] and the loop, lines 138-170 *)
Definition fpowi_nonneg (x : binary64) (n : Z) : option binary64 :=
  match n with
  | 0%Z => Some f1
  | 1%Z => Some x
  | 2%Z => Some (fmult x x)
  | 3%Z => Some (fmult (fmult x x) x)
  | 4%Z => let x2 := fmult x x in Some (fmult x2 x2)
  | _ => fpowi_loop (Z.to_nat n) (n - 1) x x
  end.
Definition fpowi (x : binary64) (n : Z) : option binary64 :=
  if (n <? 0)%Z then
    if (n =? INT_MIN)%Z then None else fpowi_nonneg (fdiv f1 x) (- n)
  else fpowi_nonneg x n.
(** pow_templates.hpp lines 5-12 *)
Definition fPOW2 (x : binary64) := fmult x x.
Definition fPOW3 (x : binary64) := fmult (fPOW2 x) x.
Definition fPOW4 (x : binary64) := fmult (fPOW2 x) (fPOW2 x).
Definition fPOW5 (x : binary64) := fmult (fPOW2 x) (fPOW3 x).
Definition fPOW7 (x : binary64) := fmult (fPOW2 x) (fPOW5 x).
Definition fPOW8 (x : binary64) := fmult (fPOW4 x) (fPOW4 x).
Definition fPOW10 (x : binary64) := fmult (fPOW2 x) (fPOW8 x).
Definition fPOW12 (x : binary64) := fmult (fPOW4 x) (fPOW8 x).
