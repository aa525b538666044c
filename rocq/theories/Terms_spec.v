(** The functions that the terms of a multifluid equation of state stand for. *)
From Coq Require Import Reals ZArith String List Bool.
From Coquelicot Require Import Coquelicot.
From Verif Require Import Json_model Vec_spec Cubic_model Terms_model.
Import ListNotations.
Open Scope R_scope.

(** x^y for x >= 0, y >= 0 *)
Definition rpow (x y : R) : R :=
  if Req_EM_T x 0 then (if Req_EM_T y 0 then 1 else 0) else Rpower x y.

(** The formulas in the documentation of the classes:
    sum_i n_i tau^t_i delta^d_i exp(...). *)
Definition power_sum (n t d : list R) (f : nat -> R) (tau delta : R) : R :=
  sumn (length n) (fun i => nth i n 0 * Rpower tau (nth i t 0) * rpow delta (nth i d 0) * exp (f i)).
Definition textbook (t : term) (tau delta : R) : R :=
  match t with
  | JustPower n t d => power_sum n t d (fun _ => 0) tau delta
  | Power n t d c l | Exponential n t d c l =>
      power_sum n t d (fun i => - nth i c 0 * rpow delta (IZR (nth i l 0%Z))) tau delta
  | DoubleExponential n t d gd gt lt ld =>
      power_sum n t d (fun i => - nth i gd 0 * rpow delta (IZR (nth i ld 0%Z)) - nth i gt 0 * Rpower tau (nth i lt 0)) tau delta
  | Gaussian n t d eta beta gamma epsilon =>
      power_sum n t d (fun i => - nth i eta 0 * (delta - nth i epsilon 0) ^ 2 - nth i beta 0 * (tau - nth i gamma 0) ^ 2) tau delta
  | GERG2004 n t d eta beta gamma epsilon =>
      power_sum n t d (fun i => - nth i eta 0 * (delta - nth i epsilon 0) ^ 2 - nth i beta 0 * (delta - nth i gamma 0)) tau delta
  | Lemmon2005 n t d m l =>
      power_sum n t d (fun i => - rpow delta (IZR (nth i l 0%Z)) - Rpower tau (nth i m 0)) tau delta
  | GaoB n t d eta beta gamma epsilon b =>
      power_sum n t d (fun i => - nth i eta 0 * (delta - nth i epsilon 0) ^ 2
                                + 1 / (nth i beta 0 * (tau - nth i gamma 0) ^ 2 + nth i b 0)) tau delta
  | _ => 0
  end.

(** [x] is a natural number that fits an [int]. *)
Definition natural (x : R) : Prop := exists k : nat, x = INR k /\ (Z.of_nat k < 2 ^ 31)%Z.
Definition natural_Z (z : Z) : Prop := (0 <= z < 2 ^ 31)%Z.

(** The coefficient arrays have the same length, and the exponents of the density are
    natural numbers. *)
Definition well_formed (t : term) : Prop :=
  match t with
  | JustPower n t d => length t = length n /\ length d = length n /\ List.Forall natural d
  | Power n t d c l | Exponential n t d c l | Lemmon2005 n t d c l =>
      length t = length n /\ length d = length n /\ length c = length n /\ length l = length n /\
      List.Forall natural d /\ List.Forall natural_Z l
  | DoubleExponential n t d gd gt lt ld =>
      length t = length n /\ length d = length n /\ length gd = length n /\ length gt = length n /\
      length lt = length n /\ length ld = length n /\ List.Forall natural d /\ List.Forall natural_Z ld
  | Gaussian n t d eta beta gamma epsilon | GERG2004 n t d eta beta gamma epsilon =>
      length t = length n /\ length d = length n /\ length eta = length n /\ length beta = length n /\
      length gamma = length n /\ length epsilon = length n /\ List.Forall natural d
  | GaoB n t d eta beta gamma epsilon b =>
      length t = length n /\ length d = length n /\ length eta = length n /\ length beta = length n /\
      length gamma = length n /\ length epsilon = length n /\ length b = length n /\ List.Forall natural d
  | _ => False
  end.
(** The exponents of the density. *)
Definition density_exponents (t : term) : list R :=
  match t with
  | JustPower _ _ d | Power _ _ d _ _ | Exponential _ _ d _ _ | Lemmon2005 _ _ d _ _
  | DoubleExponential _ _ d _ _ _ _ | Gaussian _ _ d _ _ _ _ | GERG2004 _ _ d _ _ _ _ | GaoB _ _ d _ _ _ _ _ => d
  | _ => []
  end.

(** The array that a JSON document has under a key. *)
Definition has_array (j : json) (k : string) (l : list R) : Prop :=
  exists ms, j = JObj ms /\ lookup k ms = Some (JArr (map JNum l)).

(** The function that a file's coefficient lists describe:
    sum_i n_i tau^t_i delta^d_i exp(-[l_i > 0] delta^l_i). *)
Definition file_power (n t d l : list R) (tau delta : R) : R :=
  power_sum n t d (fun i => if Rlt_dec 0 (nth i l 0) then - rpow delta (nth i l 0) else 0) tau delta.

(** A function on [0, inf) that is the restriction of a differentiable function. *)
Definition extends (h : R -> R) : Prop :=
  exists f : R -> R, (forall x, ex_derive f x) /\ forall x, 0 <= x -> h x = f x.

(** The zeros of a list come before its other entries. *)
Definition zeros_first (l : list R) : Prop :=
  forall i k, (i < k < length l)%nat -> nth k l 0 = 0 -> nth i l 0 = 0.
