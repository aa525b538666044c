(** What the cubic equations of state are supposed to be. *)
From Coq Require Import Reals List Permutation Lia.
From Coquelicot Require Import Coquelicot.
From Verif Require Import Json_model Vec_spec Derivs_spec Cubic_model.
Import ListNotations.
Open Scope R_scope.

(** The pressure of a fluid with gas constant [Rg] and residual Helmholtz energy
    [alphar(T, rho)]: the molar Helmholtz energy is RT (ln rho + alphar) plus a
    function of temperature, and p = rho^2 da/drho. *)
Definition pressure_of (Rg : R) (alphar : R -> R -> R) (T rho : R) : R :=
  th_p (fun T r => Rg * T * (ln r + alphar T r)) T rho.

(** The textbook equations, in terms of the molar volume [v]. *)
Definition vdW_textbook (Rg a b T v : R) : R := Rg * T / (v - b) - a / v ^ 2.
Definition SRK_textbook (Rg a b T v : R) : R := Rg * T / (v - b) - a / (v * (v + b)).
Definition PR_textbook (Rg a b T v : R) : R := Rg * T / (v - b) - a / (v ^ 2 + 2 * b * v - b ^ 2).
Definition cubic_textbook (Rg a b D1 D2 T v : R) : R := Rg * T / (v - b) - a / ((v + D1 * b) * (v + D2 * b)).

(** Mixing rules: mole-fraction weighted mean, and quadratic mean of pair values. *)
Definition mean (x : list R) (q : nat -> R) : R := sumn (length x) (fun i => nth i x 0 * q i).
Definition quadratic_mean (x : list R) (q : nat -> nat -> R) : R :=
  sumn (length x) (fun i => sumn (length x) (fun j => nth i x 0 * nth j x 0 * q i j)).

(** [p] as a function of density has a critical point of pressure [pc] at [rc]: value
    [pc], zero first and second derivatives. *)
Definition critical_at (p : R -> R) (rc pc : R) : Prop :=
  p rc = pc /\ is_derive p rc 0 /\
  exists p' : R -> R, locally rc (fun r => is_derive p r (p' r)) /\ is_derive p' rc 0.

(** The mixture whose components number 0, 1, ... are copies of the components
    number [nth 0 r], [nth 1 r], ... of another one. *)
Definition pick {A} (d : A) (r : list nat) (l : list A) : list A := map (fun i => nth i l d) r.
(** [x'] is a composition of the new mixture and [x] the composition of the old one
    that one obtains by adding up the copies. *)
Definition lumped (r : list nat) (x' x : list R) : Prop :=
  length x' = length r /\ (forall i, In i r -> (i < length x)%nat) /\
  forall k, (k < length x)%nat ->
    nth k x 0 = sumn (length r) (fun i => if Nat.eqb (nth i r O) k then nth i x' 0 else 0).

(** The composition of pure component [i] out of [n]. *)
Definition pure (n i : nat) : list R := map (fun k => if Nat.eqb k i then 1 else 0) (seq 0 n).

(** An interaction matrix for the copies. *)
Definition pick_mat (r : list nat) (k : mat) : mat :=
  {| rows := length r; cols := length r; at_ := fun i j => at_ k (nth i r O) (nth j r O) |}.
(** ... and activity-model parameters for the copies (the binary model has no such
    form). *)
Definition pick_ares (r : list nat) (a : ares_model) : ares_model :=
  match a with
  | WilsonAres b m n => WilsonAres (pick 0 r b) (pick_mat r m) (pick_mat r n)
  | _ => a
  end.

(** A model evaluates without an exception or undefined behaviour, to [f]. *)
Definition evaluates (model : R -> R -> outcome R) (f : R -> R -> R) : Prop :=
  forall T rho, model T rho = Some (Val (f T rho)).

Definition all_pos (l : list R) : Prop := List.Forall (fun r => 0 < r) l.
