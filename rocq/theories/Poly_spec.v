(** Polynomials given by their coefficients: the test functions for the
    exactness statements about finite differences and quadrature, and Chebyshev
    polynomials. *)
From Coq Require Import Reals List Lia Lra.
From Coquelicot Require Import Coquelicot.
Import ListNotations.
Open Scope R_scope.

(** [peval [a0; a1; a2; ...] t = a0 + a1 t + a2 t^2 + ...] *)
Fixpoint peval (p : list R) (t : R) : R :=
  match p with
  | [] => 0
  | a :: p' => a + t * peval p' t
  end.

(** Formal derivative. *)
Fixpoint pderiv_aux (n : R) (p : list R) : list R :=
  match p with [] => [] | a :: p' => (n * a) :: pderiv_aux (n + 1) p' end.
Definition pderiv (p : list R) : list R :=
  match p with [] => [] | _ :: p' => pderiv_aux 1 p' end.

(** Formal antiderivative. *)
Fixpoint pint_aux (n : R) (p : list R) : list R :=
  match p with [] => [] | a :: p' => (a / n) :: pint_aux (n + 1) p' end.
Definition pint (p : list R) : list R := 0 :: pint_aux 1 p.

(** Chebyshev polynomials of the first kind. *)
Fixpoint chebT (n : nat) (x : R) : R :=
  match n with
  | O => 1
  | S O => x
  | S (S m as n') => 2 * x * chebT n' x - chebT m x
  end.

(** The defining property of Chebyshev polynomials: T_n(cos t) = cos(n t). *)
Lemma chebT_cos_aux n t :
  chebT n (cos t) = cos (INR n * t) /\ chebT (S n) (cos t) = cos (INR (S n) * t).
Proof.
  induction n as [|n [IH1 IH2]].
  - simpl. split; [rewrite Rmult_0_l, cos_0; reflexivity|f_equal; ring].
  - split; [exact IH2|].
    change (2 * cos t * chebT (S n) (cos t) - chebT n (cos t) = cos (INR (S (S n)) * t)).
    rewrite IH1, IH2.
    replace (INR (S (S n)) * t) with (INR (S n) * t + t) by (rewrite !S_INR; ring).
    replace (INR n * t) with (INR (S n) * t - t) by (rewrite !S_INR; ring).
    rewrite cos_plus, cos_minus. ring.
Qed.
Lemma chebT_cos n t : chebT n (cos t) = cos (INR n * t).
Proof. apply chebT_cos_aux. Qed.

(** The Chebyshev series with coefficients [c]: the zeroth coefficient is halved. *)
Fixpoint cheb_tail (k : nat) (c : list R) (x : R) : R :=
  match c with [] => 0 | a :: c' => a * chebT k x + cheb_tail (S k) c' x end.
Definition cheb_series (c : list R) (x : R) : R :=
  match c with [] => 0 | c0 :: c' => c0 / 2 + cheb_tail 1 c' x end.
(** The double series [sum'_i sum'_j a_ij T_i(y) T_j(x)]. *)
Definition cheb_series2 (a : list (list R)) (x y : R) : R :=
  cheb_series (map (fun row => cheb_series row x) a) y.

Lemma pderiv_aux_eval n p t :
  peval (pderiv_aux (n + 1) p) t = peval (pderiv_aux n p) t + peval p t.
Proof.
  revert n. induction p as [|a p IH]; intros n; simpl; [ring|].
  rewrite (IH (n + 1)). ring.
Qed.

Lemma is_derive_peval p t : is_derive (peval p) t (peval (pderiv p) t).
Proof.
  induction p as [|a p IH]; simpl.
  - apply @is_derive_const.
  - evar (l : R). replace (peval (pderiv_aux 1 p) t) with l.
    + unfold l. apply (is_derive_plus (fun _ => a) (fun t => t * peval p t)).
      * apply @is_derive_const.
      * apply (is_derive_mult (fun t => t) (peval p)).
        -- apply @is_derive_id.
        -- exact IH.
        -- intros; apply Rmult_comm.
    + unfold l. unfold plus, mult, zero, one; simpl.
      destruct p as [|b p]; simpl; [ring|].
      replace (1 + 1) with 2 by ring.
      pose proof (pderiv_aux_eval 1 p t) as E. replace (1 + 1) with 2 in E by ring.
      rewrite E. ring.
Qed.

Lemma is_derive_n_peval n p t : is_derive_n (peval p) n t (peval (Nat.iter n pderiv p) t).
Proof.
  revert t. induction n as [|n IH]; intros t; [reflexivity|].
  change (is_derive (Derive_n (peval p) n) t (peval (pderiv (Nat.iter n pderiv p)) t)).
  apply is_derive_ext with (f := peval (Nat.iter n pderiv p)).
  - intros s. symmetry. apply is_derive_n_unique. apply IH.
  - apply is_derive_peval.
Qed.

Lemma pderiv_aux_pint_aux n p t :
  (forall k : nat, n + INR k <> 0) -> peval (pderiv_aux n (pint_aux n p)) t = peval p t.
Proof.
  revert n. induction p as [|a p IH]; intros n H; simpl; [reflexivity|].
  rewrite IH.
  - field. specialize (H 0%nat). simpl in H. rewrite Rplus_0_r in H. exact H.
  - intros k. specialize (H (S k)). rewrite S_INR in H. lra.
Qed.

Lemma is_derive_pint p t : is_derive (peval (pint p)) t (peval p t).
Proof.
  pose proof (is_derive_peval (pint p) t) as D. simpl in D.
  rewrite pderiv_aux_pint_aux in D; [exact D|].
  intros k. pose proof (pos_INR k). lra.
Qed.

Lemma is_RInt_peval p a b :
  is_RInt (peval p) a b (peval (pint p) b - peval (pint p) a).
Proof.
  apply (is_RInt_derive (V := R_CompleteNormedModule) (peval (pint p)) (peval p)).
  - intros x _. apply is_derive_pint.
  - intros x _. apply (ex_derive_continuous (peval p)).
    eexists. apply is_derive_peval.
Qed.

Lemma peval_app_zeros p k t : peval (p ++ repeat 0 k) t = peval p t.
Proof.
  induction p as [|a p IH]; simpl; [|now rewrite IH].
  induction k as [|k IH]; simpl; [reflexivity|]. rewrite IH. ring.
Qed.

(** ** Vocabulary of the finite-difference, quadrature and root-finding properties *)

(** (Nderiv, Norder) combinations offered to the user. *)
Definition supported (n o : Z) : Prop :=
  (1 <= n <= 4)%Z /\ (o = 2 \/ o = 4 \/ o = 6)%Z.

(** Polynomials of degree at most two in each of two variables. *)
Definition biquad (c00 c10 c20 c01 c11 c21 c02 c12 c22 x y : R) : R :=
  c00 + c10 * x + c20 * x ^ 2 + c01 * y + c11 * x * y + c21 * x ^ 2 * y +
  c02 * y ^ 2 + c12 * x * y ^ 2 + c22 * x ^ 2 * y ^ 2.

(** Dot product. *)
Fixpoint lindot (w x : list R) : R :=
  match w, x with a :: w', b :: x' => a * b + lindot w' x' | _, _ => 0 end.

(** Sum of the absolute values of the coefficients. *)
Fixpoint abs_sum (p : list R) : R := match p with [] => 0 | a :: p' => Rabs a + abs_sum p' end.

(** Component [j] of the product of the matrix with columns [cols] and [x]. *)
Fixpoint cdot (cols : list (list R)) (x : list R) (j : nat) : R :=
  match cols, x with c :: cols', xi :: x' => xi * nth j c 0 + cdot cols' x' j | _, _ => 0 end.
(** The affine map [x |-> b + A x]. *)
Definition affine (cols : list (list R)) (b x : list R) : list R :=
  map (fun j => nth j b 0 + cdot cols x j) (seq 0 (length b)).
(** A linear solver that returns a solution for the matrix [cols]. *)
Definition solves (cols : list (list R)) (solve : list (list R) -> list R -> list R) : Prop :=
  forall r, length r = length cols ->
    length (solve cols r) = length cols /\
    forall j, (j < length cols)%nat -> cdot cols (solve cols r) j = nth j r 0.
