(** Model of the criticality conditions of mixtures, [algorithms/critical_tracing.hpp] lines
    22-331 and 730-734: [eigen_problem], [get_derivs], [get_criticality_conditions],
    [get_drhovec_dT_crit], [EigenVectorPath], [is_locally_stable], [get_dp_dT_crit].

    Eigen's eigenvalue solver and its QR solver are functions.  Doubles are reals, as in
    [Iso_model]; [None] is an access out of bounds or a product of matrices of unequal
    size (the [assert]s of Eigen are off in release builds). *)
From Coq Require Import Reals ZArith List Bool.
From Verif Require Import Json_model Cubic_model Derivs_model Iso_model Trace_model.
Import ListNotations.
Open Scope R_scope.

Definition rlt (a b : R) : bool := if Rlt_dec a b then true else false.
(** [EigenData], critical_tracing_types.hpp lines 27-30: eigenvalues in increasing order and
    the columns of [eigenvectorscols]; [v0] and [v1] are the first two columns. *)
Record eigendata := { ed_values : list R; ed_vectors : list (list R) }.
Definition ev (d : eigendata) (k : nat) : list R := nth k (ed_vectors d) [].
(** [rhovec.minCoeff(&ind)]: the first smallest entry *)
Fixpoint argmin_from (best : R) (at_ i : nat) (v : list R) : nat :=
  match v with
  | [] => at_
  | a :: v => if rlt a best then argmin_from a i (S i) v else argmin_from best at_ (S i) v
  end.
Definition argmin (v : list R) : nat := match v with [] => O | a :: v => argmin_from a 0 1 v end.
Definition scaled (c : R) (v : list R) : list R := map (fun a => c * a) v.
(** entries of [v] at the places [keep], zero at the others *)
Fixpoint padded (mask : list bool) (v : list R) : list R :=
  match mask with
  | [] => []
  | true :: m => match v with a :: v => a :: padded m v | [] => 0 :: padded m [] end
  | false :: m => 0 :: padded m v
  end.
Fixpoint kept {A} (mask : list bool) (v : list A) : list A :=
  match mask, v with
  | b :: m, a :: v => if b then a :: kept m v else kept m v
  | _, _ => []
  end.

Section Crit.
Variable ad : (list R -> R) -> list nat -> list R -> R.
Variable alphar : R -> R -> list R -> R.
Variable Rgas : list R -> R.
(** [SelfAdjointEigenSolver]: eigenvalues in increasing order, eigenvectors *)
Variable eigen : list (list R) -> list R * list (list R).
(** [colPivHouseholderQr().solve] *)
Variable solve : list (list R) -> list R -> list R.

(** lines 47-58 *)
Definition crit_hessian (T : R) (rho : list R) : list (list R) :=
  map (fun i => each rho (fun j =>
    nth j (nth i (build_Psir_Hessian ad alphar Rgas T rho) []) 0 +
    (if Nat.eqb i j && negb (is0 (nth i rho 0)) then Rgas (molefrac_of rho) * T / nth i rho 0 else 0))) (seq 0 (length rho)).
(** lines 110-112: an empty [alignment_v0] is none; the product with a vector of another size
    is not defined *)
Definition aligned (align : option (list R)) (d : eigendata) : eigendata :=
  match align with
  | Some (a :: l) => if rlt (vdot (ev d 0) (a :: l)) 0
                     then {| ed_values := ed_values d; ed_vectors := scaled (-1) (ev d 0) :: tl (ed_vectors d) |} else d
  | _ => d
  end.
(** lines 39-117.  One row of [U] is filled for each *zero* concentration (line 96). *)
Definition eigen_problem (T : R) (rho : list R) (align : option (list R)) : outcome eigendata :=
  if Nat.ltb (length rho) 2 then None else
  let mask := map (fun r => negb (is0 r)) rho in
  let H := crit_hessian T rho in
  match length (filter negb mask) with
  | O =>
      let '(vals, vecs) := eigen H in
      let vecs := if existsb (fun a => rlt a 0) (nth (argmin rho) vecs []) then map (scaled (-1)) vecs else vecs in
      ok (aligned align {| ed_values := vals; ed_vectors := vecs |})
  | S O =>
      let '(vals, vecs) := eigen (map (kept mask) (kept mask H)) in
      let U := padded mask (nth 0 vecs []) :: repeat (repeat 0 (length rho)) (length rho - 2) ++ [map (fun b : bool => if b then 0 else 1) mask] in
      ok (aligned align {| ed_values := vals; ed_vectors := U |})
  | _ => throws StdInvalidArgument
  end.

(** [get_derivs], lines 128-190: residual and total derivatives along [v0]; those of orders 0
    and 1 of the ideal part are placeholders *)
Definition psi0_derivs (T : R) (rho v0 : list R) : list R :=
  let Rg := Rgas (molefrac_of rho) in
  let term f := vsum (each rho (fun i => if is0 (nth i rho 0) then 0 else f (nth i v0 0) (nth i rho 0))) in
  [-1; -1; term (fun v r => Rg * T * v ^ 2 / r); term (fun v r => - Rg * T * v ^ 3 / r ^ 2); term (fun v r => 2 * Rg * T * v ^ 4 / r ^ 3)].
Definition get_derivs (T : R) (rho : list R) (align : option (list R)) : outcome (list R * eigendata) :=
  obind (eigen_problem T rho align) (fun ei =>
    let psir := get_Psir_sigma_derivs ad alphar Rgas T rho (ev ei 0) in
    let psi0 := psi0_derivs T rho (ev ei 0) in
    ok (map (fun k => nth k psi0 0 + nth k psir 0) (seq 0 5), ei)).
(** lines 281-284 *)
Definition get_criticality_conditions (T : R) (rho : list R) : outcome (list R) :=
  obind (get_derivs T rho (Some [])) (fun '(tot, _) => ok [nth 2 tot 0; nth 3 tot 0]).

(** ** [get_drhovec_dT_crit], lines 201-279 *)
Definition all_positive (v : list R) : bool := forallb (fun a => rlt 0 a) v.
Definition shifted (rho : list R) (a : R) (v : list R) : list R := each rho (fun i => nth i rho 0 + nth i v 0 * a).
(** the derivative in the direction of [v1], lines 217-249 *)
Definition sigma2_derivs (T : R) (rho derivs : list R) (ei : eigendata) : outcome (list R) :=
  let s := 2e-5 * vsum rho in
  let at_ a := obind (get_derivs T (shifted rho a (ev ei 1)) (Some (ev ei 0))) (fun '(tot, _) => ok tot) in
  if all_positive (shifted rho (- s) (ev ei 1)) && all_positive (shifted rho s (ev ei 1)) then
    obind (at_ s) (fun p => obind (at_ (- s)) (fun m => ok (each derivs (fun k => (nth k p 0 - nth k m 0) / (2 * s)))))
  else if all_positive (shifted rho s (ev ei 1)) then
    obind (at_ s) (fun p => obind (at_ (2 * s)) (fun p2 => ok (each derivs (fun k => (-3 * nth k derivs 0 + 4 * nth k p 0 - nth k p2 0) / (2 * s)))))
  else if all_positive (shifted rho (- s) (ev ei 1)) then
    obind (at_ (- s)) (fun m => obind (at_ (- (2 * s))) (fun m2 => ok (each derivs (fun k => (-3 * nth k derivs 0 + 4 * nth k m 0 - nth k m2 0) / (- 2 * s)))))
  else throws StdInvalidArgument.
(** lines 252-261; [b] has two rows, so there must be two eigenvectors *)
Definition get_drhovec_dT_crit (T : R) (rho : list R) : outcome (list R) :=
  obind (get_derivs T rho None) (fun '(derivs, ei) =>
  let dT := 1e-7 in
  obind (get_derivs (T + dT) rho (Some (ev ei 0))) (fun '(plusT, _) =>
  obind (get_derivs (T - dT) rho (Some (ev ei 0))) (fun '(minusT, _) =>
  let derivT k := (nth k plusT 0 - nth k minusT 0) / (2 * dT) in
  obind (sigma2_derivs T rho derivs ei) (fun d2 =>
  if negb (Nat.eqb (length rho) 2) then None else
  let row a b := each rho (fun i => nth i (ev ei 0) 0 * a + nth i (ev ei 1) 0 * b) in
  ok (solve [row (nth 3 derivs 0) (nth 2 d2 0); row (nth 4 derivs 0) (nth 3 d2 0)] [- derivT 2%nat; - derivT 3%nat]))))).

(** ** Stability, lines 286-331 *)
Definition vaddr (a b : list R) : list R := each a (fun i => nth i a 0 + nth i b 0).
Definition EigenVectorPath (T : R) (rho u1 : list R) (drho : R) : outcome (list R) :=
  let dir := scaled (/ 6) u1 in
  obind (eigen_problem T (vaddr rho (scaled drho u1)) (Some u1)) (fun e1 =>
  let dir := vaddr dir (scaled (/ 3) u1) in
  obind (eigen_problem T (vaddr rho (scaled drho (ev e1 0))) (Some u1)) (fun e2 =>
  let dir := vaddr dir (scaled (/ 3) u1) in
  obind (eigen_problem T (vaddr rho (scaled (2 * drho) (ev e2 0))) (Some u1)) (fun e3 =>
  let dir := vaddr dir (scaled (/ 6) (ev e3 0)) in
  ok (vaddr rho (scaled (2 * drho) dir))))).
Definition is_locally_stable (T : R) (rho : list R) (stability_rel_drho : R) : outcome bool :=
  obind (eigen_problem T rho None) (fun e0 =>
  let lambda1 := nth 0 (ed_values e0) 0 in
  let drho := stability_rel_drho * vsum rho in
  obind (EigenVectorPath T rho (ev e0 0) drho) (fun rp =>
  obind (eigen_problem T rp (Some (ev e0 0))) (fun ep =>
  obind (EigenVectorPath T rho (ev e0 0) (- drho)) (fun rm =>
  obind (eigen_problem T rm (Some (ev e0 0))) (fun em =>
  ok (negb (rlt (nth 0 (ed_values ep) 0) lambda1 || rlt (nth 0 (ed_values em) 0) lambda1))))))).
(** [get_dp_dT_crit], lines 730-734 *)
Definition get_dp_dT_crit (T : R) (rho : list R) : outcome R :=
  obind (get_drhovec_dT_crit T rho) (fun d =>
  ok (get_dpdT_constrhovec ad alphar Rgas T rho + vdot (get_dpdrhovec_constT ad alphar Rgas T rho) d)).
End Crit.
