(** Differential calculus on lists of reals (concentration vectors). *)
From Coq Require Import Reals List.
Import ListNotations.
Open Scope R_scope.

(** f 0 + ... + f (n-1) *)
Fixpoint sumn (n : nat) (f : nat -> R) : R :=
  match n with O => 0 | S k => sumn k f + f k end.

(** [g] is the gradient of [F] at [x]: F y = F x + g.(y - x) + o(|y - x|). *)
Definition gradient_at (F : list R -> R) (x g : list R) : Prop :=
  length g = length x /\
  forall eps, 0 < eps -> exists del, 0 < del /\
    forall y, length y = length x ->
      (forall i, (i < length x)%nat -> Rabs (nth i y 0 - nth i x 0) < del) ->
      Rabs (F y - F x - sumn (length x) (fun i => nth i g 0 * (nth i y 0 - nth i x 0))) <=
      eps * sumn (length x) (fun i => Rabs (nth i y 0 - nth i x 0)).

(** A property holding for all vectors next to [x]. *)
Definition near (x : list R) (P : list R -> Prop) : Prop :=
  exists del, 0 < del /\ forall y, length y = length x ->
    (forall i, (i < length x)%nat -> Rabs (nth i y 0 - nth i x 0) < del) -> P y.

(** [F] is twice differentiable at [x]: it has the gradient [G y] at every [y] next to
    [x], component j of the gradient has the gradient [H j] (row j) at [x], and the
    matrix is symmetric. *)
Record twice_at (F : list R -> R) (x : list R) (G : list R -> list R) (H : list (list R)) : Prop := {
  tw_grad : near x (fun y => gradient_at F y (G y));
  tw_rows : length H = length x;
  tw_hess : forall j, (j < length x)%nat -> gradient_at (fun y => nth j (G y) 0) x (nth j H []);
  tw_sym : forall i j, (i < length x)%nat -> (j < length x)%nat ->
    nth j (nth i H []) 0 = nth i (nth j H []) 0 }.
