(** What the theorems about the Newton iteration speak of. *)
From Coq Require Import Reals ZArith String List.
From Verif Require Import Json_model Float_model Iter_model.
Import ListNotations.
Open Scope R_scope.

(** The linear solver is exact for regular matrices with finite entries. *)
Definition lu_exact (lu : mat22 -> vec -> vec) : Prop := forall a b c d p q, a * d - b * c <> 0 ->
  exists s t, lu ((Fin a, Fin b), (Fin c, Fin d)) (Fin p, Fin q) = (Fin s, Fin t) /\ a * s + b * t = p /\ c * s + d * t = q.

(** The maximum of two numbers, if neither is NaN. *)
Definition is_max (mx : fl -> fl -> fl) : Prop := forall a b, a <> NaN -> b <> NaN -> mx a b = if flt a b then b else a.

(** [k] steps from [s] to [s'] with the points [x i], the increments [dx i] and the
    residuals [r i]; the conditions are asked about the point before the increment. *)
Record walk (is_step : vec -> vec -> vec -> Prop) (cs : list condition) (N : Z) (idx : list nat) (s s' : nrstate)
  (k : nat) (x dx r : nat -> vec) : Prop := {
  w_start : x O = nr_Trho s; w_end : x k = nr_Trho s'; w_count : nr_count s' = (nr_count s + Z.of_nat k)%Z;
  w_steps : forall i, (i < k)%nat -> is_step (x i) (dx i) (r i) /\ x (S i) = vadd (x i) (dx i);
  w_going : forall i c, (S i < k)%nat -> In c cs ->
    c_stop c {| sd_N := N; sd_x := x i; sd_dx := dx i; sd_r := r i; sd_idx := idx |} = keep_going }.
Definition asked N idx (x dx r : nat -> vec) (i : nat) : sdata := {| sd_N := N; sd_x := x i; sd_dx := dx i; sd_r := r i; sd_idx := idx |}.
(** The walk ends with the first condition of the list that fires, or after all N steps. *)
Definition stops_right (is_step : vec -> vec -> vec -> Prop) (cs : list condition) (N : Z) (idx : list nat) (s s' : nrstate) (why : reason) : Prop :=
  exists k x dx r, walk is_step cs N idx s s' (S k) x dx r /\ (Z.of_nat (S k) <= N)%Z /\
  ((exists before c after, cs = before ++ c :: after /\ (forall b, In b before -> c_stop b (asked N idx x dx r k) = keep_going) /\
      c_stop c (asked N idx x dx r k) = why /\ why <> keep_going /\ nr_msg s' = c_desc c) \/
   (Z.of_nat (S k) = N /\ (forall b, In b cs -> c_stop b (asked N idx x dx r k) = keep_going) /\ why = fatal /\ nr_msg s' = nr_msg s)).

(** The residual and the increment at a point. *)
Definition relative (rel : bool) (a target : fl) : fl := if rel then fdiv a target else a.
Definition newton calc (lu : mat22 -> vec -> vec) (vals : vec) (rel : bool * bool) (x dx r : vec) : Prop :=
  exists v0 v1 J00 J01 J10 J11, calc x = Some (Val {| im_v := (v0, v1); im_J := ((J00, J01), (J10, J11)) |}) /\
  r = (relative (fst rel) (fsub v0 (fst vals)) (fst vals), relative (snd rel) (fsub v1 (snd vals)) (snd vals)) /\
  dx = lu ((relative (fst rel) J00 (fst vals), relative (fst rel) J01 (fst vals)),
           (relative (snd rel) J10 (snd vals), relative (snd rel) J11 (snd vals))) (fopp (fst r), fopp (snd r)).
(** ... with the logarithm of the density as the second unknown *)
Definition newton_log calc (lu : mat22 -> vec -> vec) (vals : vec) (rel : bool * bool) (x dx r : vec) : Prop :=
  exists v0 v1 J00 J01 J10 J11 dT dlnrho, calc x = Some (Val {| im_v := (v0, v1); im_J := ((J00, J01), (J10, J11)) |}) /\
  r = (relative (fst rel) (fsub v0 (fst vals)) (fst vals), relative (snd rel) (fsub v1 (snd vals)) (snd vals)) /\
  (dT, dlnrho) = lu ((relative (fst rel) J00 (fst vals), relative (fst rel) (fmul J01 (snd x)) (fst vals)),
           (relative (snd rel) J10 (snd vals), relative (snd rel) (fmul J11 (snd x)) (snd vals))) (fopp (fst r), fopp (snd r)) /\
  dx = (dT, fmul (snd x) (fsub (fexp dlnrho) (Fin 1))).
