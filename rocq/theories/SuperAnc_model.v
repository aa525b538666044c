(** The superancillary equations of cubic equations of state: the tables and their evaluation,
    [include/teqp/models/cubicsuperancillary.hpp], and [superanc_rhoLV] of
    [include/teqp/models/cubics.hpp].  Doubles are real numbers. *)
From Coq Require Import Reals ZArith List Bool.
From Verif Require Import Json_model Vec_spec Cubic_model Terms_model Ideal_model Assoc_model SuperAnc_tables.
Import ListNotations.
Local Open Scope R_scope.

(** [Chebyshev], lines 8-26 *)
Record cheb := { e_coeff : list R; e_min : R; e_max : R }.
(** the loop of [y], lines 18-23, over the indices from [k] down to 1 *)
Fixpoint y_loop (c : list R) (s : R) (k : nat) (u1 u2 : R) : R * R :=
  match k with
  | O => (u1, u2)
  | S k' => y_loop c s k' (2 * s * u1 - u2 + nth k c 0) u1
  end.
(** [y], lines 13-25; without coefficients [coeff[-1]] is read *)
Definition cheb_y (e : cheb) (x : R) : option R :=
  match length (e_coeff e) with
  | O => None
  | S N => s <-- cdiv (2 * x - (e_max e + e_min e)) (e_max e - e_min e) ;
      let '(u1, u2) := y_loop (e_coeff e) s (N - 1) (nth N (e_coeff e) 0) 0 in
      Some (nth 0 (e_coeff e) 0 + s * u1 - u2)
  end.
(** [get_index], lines 39-51: the loop, whose width [iR - iL] shrinks; the midpoint of lines 30-32 is
    the mean rounded down *)
Definition no_cheb : cheb := {| e_coeff := []; e_min := 0; e_max := 0 |}.
Fixpoint bisect (es : list cheb) (x : R) (fuel iL iR : nat) : nat * nat :=
  match fuel with
  | O => (iL, iR)
  | S f => if Nat.ltb 1 (iR - iL) then
             let iM := Nat.div (iL + iR) 2 in
             if Rle_dec (e_min (nth iM es no_cheb)) x then bisect es x f iM iR else bisect es x f iL iM
           else (iL, iR)
  end.
Definition get_index (es : list cheb) (x : R) : nat :=
  let '(iL, iR) := bisect es x (length es) 0 (length es - 1) in
  if Rlt_dec x (e_max (nth iL es no_cheb)) then iL else iR.
(** [SuperAncillary::y], lines 54-67; without expansions the first one is read out of bounds *)
Definition superanc_y (es : list cheb) (x : R) : outcome R :=
  match es with
  | [] => None
  | e :: _ =>
      if Rlt_dec x (e_min e) then throws StdInvalidArgument
      else if Rlt_dec (e_max (last es no_cheb)) x then throws StdInvalidArgument
      else fin (cheb_y (nth (get_index es x) es no_cheb) x)
  end.

(** The tables, lines 70-3807 *)
Definition decimal (d : Z * Z) : R := IZR (fst d) * powerRZ 10 (snd d).
Definition table (t : raw) : list cheb :=
  map (fun r => {| e_coeff := map decimal (fst (fst r)); e_min := decimal (snd (fst r)); e_max := decimal (snd r) |}) t.
Definition vdW_p := table raw_vdW_p.
Definition vdW_rhoL := table raw_vdW_rhoL.
Definition vdW_rhoV := table raw_vdW_rhoV.
Definition SRK_p := table raw_SRK_p.
Definition SRK_rhoL := table raw_SRK_rhoL.
Definition SRK_rhoV := table raw_SRK_rhoV.
Definition PR_p := table raw_PR_p.
Definition PR_rhoL := table raw_PR_rhoL.
Definition PR_rhoV := table raw_PR_rhoV.

(** [supercubic], lines 3809-3850, with the codes of lines 3852-3853 *)
Definition VDW_CODE : Z := 0.
Definition SRK_CODE : Z := 1.
Definition PR_CODE : Z := 2.
Definition UNKNOWN_CODE : Z := -1.
Definition P_CODE : Z := 100.
Definition RHOL_CODE : Z := 101.
Definition RHOV_CODE : Z := 102.
Definition by_property (p l v : list cheb) (prop : Z) (Tt : R) : outcome R :=
  match prop with
  | 100%Z => superanc_y p Tt
  | 101%Z => superanc_y l Tt
  | 102%Z => superanc_y v Tt
  | _ => ok (-2)
  end.
Definition supercubic (eos prop : Z) (Tt : R) : outcome R :=
  match eos with
  | 0%Z => by_property vdW_p vdW_rhoL vdW_rhoV prop Tt
  | 1%Z => by_property SRK_p SRK_rhoL SRK_rhoV prop Tt
  | 2%Z => by_property PR_p PR_rhoL PR_rhoV prop Tt
  | _ => ok (-1)
  end.

(** [GenericCubic::superanc_rhoLV], cubics.hpp lines 189-212.  The order in which the two values are
    evaluated does not matter: both throw the same exception.  The last step is also that of the other
    two classes, lines 565-571 and 802-808. *)
Definition densities_at (code : Z) (Rg T a b : R) : outcome (R * R) :=
  obind (fin (cdiv (Rg * T * b) a)) (fun Tt =>
  obind (supercubic code RHOL_CODE Tt) (fun l => obind (supercubic code RHOV_CODE Tt) (fun v =>
  obind (fin (cdiv l b)) (fun rl => obind (fin (cdiv v b)) (fun rv => ok (rl, rv)))))).
Definition chosen (n : nat) (ifluid : option nat) : outcome (list R) :=
  if Nat.ltb 1 n then
    match ifluid with
    | None => throws InvalidArgument
    | Some i => if Nat.ltb (n - 1) i then throws InvalidArgument
                else ok (map (fun j => if Nat.eqb j i then 1 else 0) (seq 0 n))
    end
  else ok (repeat 1 n).
Definition cubic_superanc (code : Z) (c : cubic) (T : R) (ifluid : option nat) : outcome (R * R) :=
  obind (chosen (length (cb_ai c)) ifluid) (fun x =>
  if Nat.ltb (length (cb_alphas c)) (length x) then None
  else densities_at code (cb_R c) T (cubic_a c T x) (cubic_b c x)).
