(** What COSMO-SAC is supposed to be (Hsieh, Sandler and Lin, Fluid Phase Equilib. 297, 2010). *)
From Coq Require Import Reals ZArith String List Bool.
From Verif Require Import Json_model Vec_spec Cubic_model COSMO_model.
Import ListNotations.
Local Open Scope R_scope.

(** The charge density of segment [m] of 51, from -0.025 to 0.025 e/A^2. *)
Definition charge (m : nat) : R := (INR m - 25) / 1000.
(** Two segments of opposite charges make a hydrogen bond if both belong to atoms that can. *)
Definition bonding (k : constants) (t s : kind) : R :=
  match t, s with NHB, _ | _, NHB => 0 | OH, OH => k_OH_OH k | OT, OT => k_OT_OT k | _, _ => k_OH_OT k end.
Definition exchange_energy (k : constants) (T : R) (t s : kind) (a b : R) : R :=
  (k_A_ES k + k_B_ES k / T ^ 2) * (a + b) ^ 2 - (if Rlt_dec (a * b) 0 then bonding k t s else 0) * (a - b) ^ 2.
(** The segments are numbered by kind and charge. *)
Definition seg (t : kind) (m : nat) : nat := (51 * (match t with NHB => 0 | OH => 1 | OT => 2 end) + m)%nat.

(** The activity coefficients [G] of [n] segments in a solution in which there is a share [p] of
    each: G_i sum_j F_ij p_j G_j = 1. *)
Definition balanced (n : nat) (F : nat -> nat -> R) (p G : nat -> R) (i : nat) : Prop :=
  0 < G i /\ G i * sumn n (fun j => F i j * p j * G j) = 1.
Definition solves (n : nat) (F : nat -> nat -> R) (p G : nat -> R) : Prop := forall i, (i < n)%nat -> balanced n F p G i.
(** ... up to a relative error. *)
Definition nearly_balanced (n : nat) (F : nat -> nat -> R) (tol : R) (p G : nat -> R) (i : nat) : Prop :=
  0 < G i /\ / (1 + tol) ^ 2 < G i * sumn n (fun j => F i j * p j * G j) < / (1 - tol) ^ 2.

(** Shares: not negative, and not all zero. *)
Definition shares (n : nat) (p : nat -> R) : Prop := (forall j, (j < n)%nat -> 0 <= p j) /\ exists j, (j < n)%nat /\ 0 < p j.

(** The mixture whose components are copies of those of another one. *)
Definition no_profiles : profiles := {| s_nhb := []; s_oh := []; s_ot := [] |}.

(** A proper set of fluids: areas and volumes are positive, the profiles have 51 entries that are
    not negative and add up to the area. *)
Definition proper_fluid (a v : R) (p : profiles) : Prop :=
  0 < a /\ 0 < v /\ length (s_nhb p) = 51%nat /\ length (s_oh p) = 51%nat /\ length (s_ot p) = 51%nat /\
  List.Forall (fun r => 0 <= r) (s_nhb p ++ s_oh p ++ s_ot p) /\ fold_right Rplus 0 (s_nhb p ++ s_oh p ++ s_ot p) = a.
Definition proper_fluids (A V : list R) (ps : list profiles) : Prop :=
  length A = length ps /\ length V = length ps /\
  forall i, (i < length ps)%nat -> proper_fluid (nth i A 0) (nth i V 0) (nth i ps no_profiles).

(** The Flory-Huggins and Staverman-Guggenheim combination: volume and surface fractions over mole
    fractions, [phi] and [theta], of component [i] with [z] neighbours and surface [q]. *)
Definition combinatorial (z q phi theta : R) : R :=
  ln phi + 1 - phi - z / 2 * q * (ln (phi / theta) + 1 - phi / theta).

(** The part of the shares [p] with charges number [l] to [l + w - 1]. *)
Definition seen (l w : nat) (p : nat -> R) (j : nat) : R := if (Nat.leb l (j mod 51) && Nat.ltb (j mod 51) (l + w))%bool then p j else 0.
(** The shares of the segments in a fluid and in a mixture. *)
Definition share_pure (a : R) (p : profiles) (j : nat) : R := nth (j mod 51) (profile p (kind_of (j / 51))) 0 / a.
Definition share_mix (x A : list R) (ps : list profiles) (j : nat) : R :=
  sumn (length x) (fun i => nth i x 0 * nth (j mod 51) (profile (nth i ps no_profiles) (kind_of (j / 51))) 0) / sumn (length x) (fun i => nth i x 0 * nth i A 0).
(** The exact residual activity coefficient: the work of moving the segments of one molecule from
    the pure fluid, where they have the coefficients [Gp], to the solution, where they have [G]. *)
Definition residual (a aeff : R) (p G Gp : nat -> R) : R := a / aeff * sumn 153 (fun j => p j * (ln (G j) - ln (Gp j))).
(** Constants that make sense, and a composition. *)
Definition proper_constants (k : constants) : Prop := 0 < k_R k /\ 0 < k_AEFF k /\ 0 < k_tol k < 1.
Definition is_composition (x : list R) : Prop := List.Forall (fun r => 0 <= r) x /\ exists r, In r x /\ 0 < r.
