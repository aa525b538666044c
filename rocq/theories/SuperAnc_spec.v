(** What the statements about superancillary equations use. *)
From Coq Require Import Reals ZArith List.
From Verif Require Import Poly_spec Json_model Cubic_model SuperAnc_model.
Import ListNotations.
Local Open Scope R_scope.

(** The value of an expansion: sum_k c_k T_k of the variable scaled to [-1, 1]. *)
Definition expansion (e : cheb) (x : R) : R := cheb_tail 0 (e_coeff e) ((2 * x - (e_max e + e_min e)) / (e_max e - e_min e)).
(** Expansions of at least two coefficients that follow each other without gaps. *)
Definition proper (e : cheb) : Prop := (2 <= length (e_coeff e))%nat /\ e_min e < e_max e.
Fixpoint joined (es : list cheb) : Prop :=
  match es with
  | [] => False
  | [e] => proper e
  | e :: ((e' :: _) as es') => proper e /\ e_max e = e_min e' /\ joined es'
  end.
Definition first_T (es : list cheb) : R := e_min (nth 0 es no_cheb).
Definition last_T (es : list cheb) : R := e_max (last es no_cheb).
Definition inside (e : cheb) (x : R) : Prop := e_min e <= x <= e_max e.
Definition increasing_on (e : cheb) : Prop := forall x y, inside e x -> inside e y -> x < y -> expansion e x < expansion e y.
Definition decreasing_on (e : cheb) : Prop := forall x y, inside e x -> inside e y -> x < y -> expansion e y < expansion e x.
(** Two values that agree but for a part [tol] of them. *)
Definition agree (tol a b : R) : Prop := Rabs (a - b) <= tol * Rabs b.
