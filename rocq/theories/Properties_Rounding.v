(** C94: integer powers of doubles. *)
From Coq Require Import Reals ZArith Lia Lra.
From Flocq Require Import Core BinarySingleNaN Binary Bits.
From Verif Require Import Util_model Rounding_model Rounding_spec Rounding_proofs.
Local Open Scope R_scope.

(** C94: the power of a double to an integer exponent is a finite double within n - 1 units of 2^-52 of the exact power, for
    every exponent of the type [int] and every double whose power is neither huge nor tiny: nothing overflows on the way. *)
Theorem C94_positive : forall x n, finite x -> (1 <= n < 2 ^ 31)%Z -> moderate (real x ^ Z.to_nat n) ->
  exists v, fpowi x n = Some v /\ within (IZR (n - 1)) v (real x ^ Z.to_nat n).
Proof. exact powi_positive. Qed.
(** C94: to a negative exponent, within 2n - 1 units: the reciprocal is rounded before the powers are. *)
Theorem C94_negative : forall x n, real x <> 0 -> (1 <= n < 2 ^ 31)%Z -> moderate (/ real x ^ Z.to_nat n) ->
  exists v, fpowi x (- n) = Some v /\ within (IZR (2 * n - 1)) v (/ real x ^ Z.to_nat n).
Proof. exact powi_negative. Qed.
(** C94: to the exponent zero, exactly one, also for infinities and for what is not a number; to the exponent one, the double. *)
Theorem C94_zero : forall x, (exists v, fpowi x 0 = Some v /\ finite v /\ real v = 1) /\ fpowi x 1 = Some x.
Proof. intros x. split; [|reflexivity]. exists f1. split; [reflexivity|]. split; [apply f1_finite|apply f1_real]. Qed.
(** C94: the unrolled powers. *)
Theorem C94_unrolled : forall x, finite x ->
  (moderate (real x ^ 2) -> within 1 (fPOW2 x) (real x ^ 2)) /\
  (moderate (real x ^ 3) -> within 2 (fPOW3 x) (real x ^ 3)) /\
  (moderate (real x ^ 4) -> within 3 (fPOW4 x) (real x ^ 4)) /\
  (moderate (real x ^ 5) -> within 4 (fPOW5 x) (real x ^ 5)) /\
  (moderate (real x ^ 7) -> within 6 (fPOW7 x) (real x ^ 7)) /\
  (moderate (real x ^ 8) -> within 7 (fPOW8 x) (real x ^ 8)) /\
  (moderate (real x ^ 10) -> within 9 (fPOW10 x) (real x ^ 10)) /\
  (moderate (real x ^ 12) -> within 11 (fPOW12 x) (real x ^ 12)).
Proof.
  intros x F.
  assert (Q : forall f m, (2 <= m <= 12)%nat -> (moderate (real x ^ m) -> good 0 (real x) (f x) m) -> moderate (real x ^ m) -> within (IZR (Z.of_nat (m - 1))) (f x) (real x ^ m)).
  { intros f m Hm G M. rewrite <- INR_IZR_INZ. apply pow_within; auto. }
  repeat split; try (apply (Q fPOW2 2%nat)); try (apply (Q fPOW3 3%nat)); try (apply (Q fPOW4 4%nat)); try (apply (Q fPOW5 5%nat)); try (apply (Q fPOW7 7%nat));
  try (apply (Q fPOW8 8%nat)); try (apply (Q fPOW10 10%nat)); try (apply (Q fPOW12 12%nat)); auto; try lia;
  intros M; eapply good_unrolled; try exact M; auto; lia.
Qed.
(** C94: it is not exact, already for the square of the double nearest to a tenth. *)
Theorem C94_exact_refuted : ~ (forall x n, finite x -> (1 <= n < 2 ^ 31)%Z -> moderate (real x ^ Z.to_nat n) ->
  exists v, fpowi x n = Some v /\ real v = real x ^ Z.to_nat n).
Proof.
  intros H. destruct (H tenth 2%Z tenth_finite) as [v [V E]]; [lia|exact tenth_squared_moderate|].
  apply (tenth_squared v V). exact E.
Qed.
Example C94_met : finite three /\ moderate (real three ^ Z.to_nat 7) /\ moderate (/ real three ^ Z.to_nat 7) /\
  (exists v, fpowi three 7 = Some v /\ finite v /\ Rabs (real v - 2187) <= 6 * / 2 ^ 52 * 2187) /\
  (exists v, fpowi three (- 7) = Some v /\ finite v /\ Rabs (real v - / 2187) <= 13 * / 2 ^ 52 * / 2187).
Proof.
  assert (M1 : moderate (real three ^ Z.to_nat 7)) by exact three_seventh. assert (M2 : moderate (/ real three ^ Z.to_nat 7)) by exact three_inverse.
  split; [exact three_finite|]. split; [exact M1|]. split; [exact M2|]. assert (P : real three ^ Z.to_nat 7 = 2187) by (rewrite three_real; simpl; lra). split.
  - destruct (C94_positive three 7 three_finite ltac:(lia) M1) as [v [V [W1 W2]]]. exists v. split; [exact V|]. split; [exact W1|].
    rewrite P, (Rabs_right 2187) in W2 by lra. exact W2.
  - destruct (C94_negative three 7 ltac:(rewrite three_real; lra) ltac:(lia) M2) as [v [V [W1 W2]]]. exists v. split; [exact V|]. split; [exact W1|].
    rewrite P in W2. rewrite (Rabs_right (/ 2187)) in W2 by lra. exact W2.
Qed.
Print Assumptions C94_positive.
Print Assumptions C94_negative.
Print Assumptions C94_zero.
Print Assumptions C94_unrolled.
Print Assumptions C94_exact_refuted.
