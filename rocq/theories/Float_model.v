(** Double-precision numbers with their special values, used by the models of the iterative
    algorithms.  Simplifications: finite arithmetic is exact (no rounding, no overflow), and
    zeros carry no sign (the sign of a quotient by zero is that of the numerator). *)
From Coq Require Import Reals Bool.
Open Scope R_scope.

Inductive fl := Fin (r : R) | Inf (negative : bool) | NaN.

Definition rneg (r : R) : bool := if Rlt_dec r 0 then true else false.
Definition fopp (a : fl) : fl := match a with Fin r => Fin (- r) | Inf s => Inf (negb s) | NaN => NaN end.
Definition fabs (a : fl) : fl := match a with Fin r => Fin (Rabs r) | Inf _ => Inf false | NaN => NaN end.
Definition fadd (a b : fl) : fl :=
  match a, b with
  | Fin r, Fin s => Fin (r + s)
  | NaN, _ | _, NaN => NaN
  | Inf s, Inf t => if Bool.eqb s t then Inf s else NaN
  | Inf s, Fin _ | Fin _, Inf s => Inf s
  end.
Definition fsub (a b : fl) : fl := fadd a (fopp b).
Definition fmul (a b : fl) : fl :=
  match a, b with
  | Fin r, Fin s => Fin (r * s)
  | NaN, _ | _, NaN => NaN
  | Inf s, Inf t => Inf (xorb s t)
  | Inf s, Fin r | Fin r, Inf s => if Req_EM_T r 0 then NaN else Inf (xorb s (rneg r))
  end.
Definition fdiv (a b : fl) : fl :=
  match a, b with
  | NaN, _ | _, NaN => NaN
  | Fin r, Fin s => if Req_EM_T s 0 then (if Req_EM_T r 0 then NaN else Inf (rneg r)) else Fin (r / s)
  | Fin _, Inf _ => Fin 0
  | Inf s, Fin r => Inf (xorb s (rneg r))
  | Inf _, Inf _ => NaN
  end.
Definition fexp (a : fl) : fl := match a with Fin r => Fin (exp r) | Inf true => Fin 0 | Inf false => Inf false | NaN => NaN end.
(** [a < b]; every comparison with NaN is false *)
Definition flt (a b : fl) : bool :=
  match a, b with
  | Fin r, Fin s => if Rlt_dec r s then true else false
  | Inf true, Inf true | Inf false, _ => false
  | Inf true, NaN => false | Inf true, _ => true
  | Fin _, Inf s => negb s
  | _, _ => false
  end.
(** [std::isfinite] *)
Definition isfinite (a : fl) : bool := match a with Fin _ => true | _ => false end.
(** [std::min(a, b)]: b if b < a, else a *)
Definition fmin (a b : fl) : fl := if flt b a then b else a.
(** [std::log] *)
Definition flog (a : fl) : fl :=
  match a with
  | Fin r => if Rlt_dec 0 r then Fin (ln r) else if Req_EM_T r 0 then Inf true else NaN
  | Inf false => Inf false
  | _ => NaN
  end.
(** [a == b] *)
Definition feq (a b : fl) : bool :=
  match a, b with
  | Fin r, Fin s => if Req_EM_T r s then true else false
  | Inf s, Inf t => Bool.eqb s t
  | _, _ => false
  end.
