(** Properties C13-C16: finite differences, Gauss-Legendre quadrature, Clenshaw
    summation and the Newton root finder. *)
From Coq Require Import Reals ZArith List Bool Lia Lra.
From Coquelicot Require Import Coquelicot.
From Verif Require Import Json_model Numerics_model Poly_spec Numerics_proofs Quad_proofs.
Import ListNotations.
Open Scope R_scope.

(** C13: for every supported pair, the centered difference of order [o] for the
    [n]-th derivative is exact on every polynomial of degree below [n + o], at every
    point and for every nonzero step. *)
Theorem C13_centered_exact :
  forall (n o : Z) (p : list R) (x h : R),
    supported n o -> (Z.of_nat (length p) <= n + o)%Z -> h <> 0 ->
    exists d, centered_diff n o (peval p) x h = Val d /\ is_derive_n (peval p) (Z.to_nat n) x d.
Proof. exact centered_diff_exact. Qed.
Print Assumptions C13_centered_exact.

(** ... every other pair throws, whatever the function. *)
Theorem C13_unsupported_throws :
  forall (n o : Z) (f : R -> R) (x h : R),
    ~ supported n o -> centered_diff n o f x h = Err StdInvalidArgument.
Proof. exact centered_diff_unsupported. Qed.
Print Assumptions C13_unsupported_throws.

(** ... the mixed difference is the mixed derivative of every biquadratic. *)
Theorem C13_mixed_exact :
  forall c00 c10 c20 c01 c11 c21 c02 c12 c22 x y dx dy : R,
    dx <> 0 -> dy <> 0 ->
    is_derive (fun s => Derive (fun t => biquad c00 c10 c20 c01 c11 c21 c02 c12 c22 s t) y) x
      (centered_diff_xy (biquad c00 c10 c20 c01 c11 c21 c02 c12 c22) x y dx dy).
Proof. exact centered_diff_xy_exact. Qed.
Print Assumptions C13_mixed_exact.

(** ... and the forward gradient of an affine function is its gradient. *)
Theorem C13_gradient_exact :
  forall (c : R) (w x : list R) (h : R),
    length w = length x -> h <> 0 ->
    gradient_forward (fun x => c + lindot w x) x h = w.
Proof. exact gradient_forward_affine. Qed.
Print Assumptions C13_gradient_exact.

Example C13_example : supported 3 4 /\ (Z.of_nat (length [1; 2; 0; -1; 5; 7; 3]) <= 3 + 4)%Z.
Proof. unfold supported. simpl. lia. Qed.

(** The order is not better than stated: one degree more and the result is wrong
    (here for the first derivative with order 2 and the cubic t^3 at 0). *)
Theorem C13_order_sharp :
  exists p : list R, (Z.of_nat (length p) = 1 + 2 + 1)%Z /\
    exists d, centered_diff 1 2 (peval p) 0 1 = Val d /\ d <> Derive (peval p) 0.
Proof.
  exists [0; 0; 0; 1]. split; [reflexivity|]. eexists. split; [reflexivity|].
  rewrite (is_derive_unique _ _ _ (is_derive_peval [0; 0; 0; 1] 0)).
  simpl. intros E. lra.
Qed.
Print Assumptions C13_order_sharp.

(** C14: the rules with closed-form nodes integrate every polynomial of degree
    below [2N] exactly, over every interval (also reversed or empty). *)
Theorem C14_exact :
  forall (N : nat) (p : list R) (a b : R),
    (N = 3 \/ N = 4 \/ N = 5)%nat -> (length p <= 2 * N)%nat ->
    exists I, quad N (peval p) a b = Val I /\ is_RInt (peval p) a b I.
Proof. exact quad_exact_345. Qed.
Print Assumptions C14_exact.

(** The rules with 16-digit nodes are not exact, but the deviation on a polynomial
    in the normalised variable is at most 4e-16 times the sum of the absolute values
    of its coefficients (times half the length of the interval).  Missing for the
    full statement: exactness, which is false for the tabulated decimals. *)
Theorem C14_decimal_rules_partial :
  forall (N : nat) (q : list R) (a b : R),
    (N = 7 \/ N = 10 \/ N = 15 \/ N = 30)%nat -> (length q <= 2 * N)%nat -> a < b ->
    exists I J, quad N (fun t => peval q ((2 * t - (a + b)) / (b - a))) a b = Val I /\
      is_RInt (fun t => peval q ((2 * t - (a + b)) / (b - a))) a b J /\
      Rabs (I - J) <= (b - a) / 2 * (4 / 10 ^ 16 * abs_sum q).
Proof. exact quad_close_dec. Qed.
Print Assumptions C14_decimal_rules_partial.

Theorem C14_exactness_of_decimal_rules_refuted :
  exists I, quad 15 (fun _ => 1) (-1) 1 = Val I /\ I <> 2.
Proof. exact quad15_inexact. Qed.
Print Assumptions C14_exactness_of_decimal_rules_refuted.

(** ... and every other number of points throws out_of_range. *)
Theorem C14_unsupported_throws :
  forall (N : nat) (F : R -> R) (a b : R),
    ~ In N [3; 4; 5; 7; 10; 15; 30]%nat -> quad N F a b = Err StdOutOfRange.
Proof. exact quad_unsupported. Qed.
Print Assumptions C14_unsupported_throws.

Example C14_example : exists I, quad 3 (peval [1; 2; 3; 4; 5; 6]) 0 2 = Val I /\
  is_RInt (peval [1; 2; 3; 4; 5; 6]) 0 2 I.
Proof. apply C14_exact; [auto|simpl; lia]. Qed.

(** C15: Clenshaw's recurrence sums the Chebyshev series with halved zeroth
    coefficient, for every coefficient list and every argument. *)
Theorem C15_clenshaw_1d :
  forall (c : list R) (x : R), Clenshaw1D c x = cheb_series c x.
Proof. exact Clenshaw1D_series. Qed.
Print Assumptions C15_clenshaw_1d.

(** ... the polynomials of the series are the Chebyshev polynomials. *)
Theorem C15_cheb_is_chebyshev : forall n t, chebT n (cos t) = cos (INR n * t).
Proof. exact chebT_cos. Qed.
Print Assumptions C15_cheb_is_chebyshev.

(** ... two-dimensional expansions with a square coefficient matrix. *)
Theorem C15_clenshaw_2d :
  forall (a : list (list R)) (x y : R),
    List.Forall (fun r => length r = length a) a ->
    Clenshaw2D a x y = Some (cheb_series2 a x y).
Proof. exact Clenshaw2D_square. Qed.
Print Assumptions C15_clenshaw_2d.

(** ... and the EOS term is that series in the variables scaled to [-1,1]: at the
    corners of the stated ranges the arguments are exactly -1 and 1. *)
Theorem C15_term_scaling :
  forall a taumin taumax deltamin deltamax s t,
    taumin < taumax -> deltamin < deltamax ->
    List.Forall (fun r => length r = length a) a ->
    chebyshev2D_alphar a taumin taumax deltamin deltamax
      (taumin + (taumax - taumin) * (s + 1) / 2) (deltamin + (deltamax - deltamin) * (t + 1) / 2)
    = Some (cheb_series2 a s t).
Proof.
  intros a tmin tmax dmin dmax s t Ht Hd F. unfold chebyshev2D_alphar.
  rewrite Clenshaw2D_square by assumption. f_equal. f_equal; field; lra.
Qed.
Print Assumptions C15_term_scaling.

(** The claim for every matrix is false: a non-square matrix makes the work arrays
    (sized by the number of rows) disagree with the rows. *)
Theorem C15_nonsquare_refuted :
  forall (a : list (list R)) (x y : R),
    a <> [] -> List.Forall (fun r => length r <> length a) a -> Clenshaw2D a x y = None.
Proof. exact Clenshaw2D_nonsquare. Qed.
Print Assumptions C15_nonsquare_refuted.

Example C15_example : Clenshaw2D [[1; 2]; [3; 4]] (1/2) 1 = Some (1/4 + 1/2 + 3/2 + 2) /\
  Clenshaw2D [[1; 2; 3]; [3; 4; 5]] 0 0 = None.
Proof.
  split.
  - rewrite C15_clenshaw_2d by (repeat constructor). f_equal.
    unfold cheb_series2, cheb_series. simpl. field.
  - apply C15_nonsquare_refuted; [discriminate|repeat constructor; simpl; lia].
Qed.

(* conversion must not unroll the iteration *)
Local Opaque nr_loop.

(** C16: the root finder makes at most 30 steps; it returns an iterate of the
    Newton map, stopped one step after the first residual below the tolerance, or
    after exactly 30 steps if there is none; it throws exactly when a residual norm
    is not finite before that. *)
Theorem C16_newton_outcome :
  forall V (f : V -> V) (dir : V -> V -> V) (add : V -> V -> V) (norm : V -> option R) x0 tol,
  match NewtonRaphson V f dir add norm x0 tol with
  | Val y => exists k, (k <= 30)%nat /\ y = nr_iterate V f dir add x0 k /\
       ((k = 30%nat /\ forall j, (j < 30)%nat -> nr_goes_on V f dir add norm x0 tol j) \/
        (exists k', k = S k' /\ (forall j, (j < k')%nat -> nr_goes_on V f dir add norm x0 tol j) /\
           exists e, norm (f (nr_iterate V f dir add x0 k')) = Some e /\ e < tol))
  | Err er => er = StdInvalidArgument /\ exists k, (k < 30)%nat /\
       (forall j, (j < k)%nat -> nr_goes_on V f dir add norm x0 tol j) /\
       norm (f (nr_iterate V f dir add x0 k)) = None
  end.
Proof. intros. exact (nr_loop_spec V f dir add norm nr_maxiter x0 tol). Qed.
Print Assumptions C16_newton_outcome.

(** ... the forward-difference Jacobian of an affine residual is exact, so with a
    solver that solves, whatever is returned is a root. *)
Theorem C16_affine_root :
  forall n cols b solve norm x tol y,
    length cols = n -> List.Forall (fun c => length c = n) cols -> length b = n -> length x = n ->
    solves cols solve ->
    NewtonRaphson_vec solve norm (affine cols b) x tol = Val y ->
    affine cols b y = repeat 0 n.
Proof.
  intros n cols b solve norm x tol y Lc F Lb Lx S E.
  unfold NewtonRaphson_vec, NewtonRaphson in E.
  exact (nr_loop_affine n cols b solve norm nr_maxiter x tol y Lc F Lb Lx S (not_eq_sym (O_S 29)) E).
Qed.
Print Assumptions C16_affine_root.

(** The full claim "a returned point is within tolerance" is false: with no
    convergence the last iterate is returned without any signal. *)
Theorem C16_silent_nonconvergence_refuted :
  exists (f : R -> R) (dir : R -> R -> R) (tol : R) (y : R), 0 < tol /\
    NewtonRaphson R f dir Rplus (fun r => Some (Rabs r)) 0 tol = Val y /\ tol < Rabs (f y).
Proof.
  exists (fun _ => 1), (fun _ _ => 0), (1/2).
  pose proof (nr_loop_spec R (fun _ => 1) (fun _ _ => 0) Rplus (fun r => Some (Rabs r)) nr_maxiter 0 (1/2)) as H.
  destruct (nr_loop R (fun _ => 1) (fun _ _ => 0) Rplus (fun r => Some (Rabs r)) nr_maxiter 0 (1/2)) as [y|e] eqn:E.
  - exists y. split; [lra|]. split; [unfold NewtonRaphson; exact E|]. rewrite Rabs_R1. lra.
  - destruct H as [_ [k [_ [_ N]]]]. discriminate.
Qed.
Print Assumptions C16_silent_nonconvergence_refuted.

Example C16_example : solves [[2; 0]; [0; 4]] (fun _ r => [nth 0 r 0 / 2; nth 1 r 0 / 4]).
Proof.
  intros r L. split; [reflexivity|]. intros j Hj. simpl in Hj.
  destruct j as [|[|j]]; [simpl; field|simpl; field|lia].
Qed.
