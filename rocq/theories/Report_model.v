(** The reports of the association calculations: [get_assoc_calcs] of [include/teqp/models/association/association.hpp] and of
    [include/teqp/models/CPA.hpp].  The JSON object is a record; the member "note" is a constant text. *)
From Coq Require Import Reals ZArith String List Bool.
From Verif Require Import Json_model Vec_spec Cubic_model Terms_model Ideal_model Util_model Multi_model Assoc_model CPA_model.
Import ListNotations.
Open Scope R_scope.

(** association.hpp lines 500-510 *)
Record assoc_report := { rp_to_CompSite : list (nat * compsite); rp_to_siteid : list (compsite * nat); rp_counts : list nat; rp_D : list (list nat);
                         rp_Delta : list (list R); rp_X : list R; rp_mask : list bool }.
(** association.hpp lines 473-510.  The copies into vectors keep the entries of the square matrices *)
Definition get_assoc_calcs (bc : nat -> nat -> nat -> R) (a : association) (T rho : R) (x : list R) : outcome assoc_report :=
  obind (get_Delta bc a T rho x) (fun Delta =>
  let XAinit := repeat 1 (length (to_siteid (as_mapper a))) in
  obind (successive_substitution bc a T rho x XAinit) (fun XA =>
  ok {| rp_to_CompSite := to_CompSite (as_mapper a); rp_to_siteid := to_siteid (as_mapper a); rp_counts := counts (as_mapper a); rp_D := as_D a;
        rp_Delta := Delta; rp_X := XA; rp_mask := op_mask (as_options a) |})).

(** CPA.hpp lines 219-223 *)
Record cpa_report := { cr_b : R; cr_X : list R }.
(** CPA.hpp lines 210-224 *)
Definition cpa_assoc_calcs (c : cpaassoc) (T rho : R) (x : list R) : option cpa_report :=
  if negb (Nat.eqb (length (ca_bi c)) (length x)) then None
  else
  let b_cubic := sumn (length x) (fun i => nth i (ca_bi c) 0 * nth i x 0) in
  N <-- nth_error (ca_N c) 0; cl <-- nth_error (ca_classes c) 0; e <-- nth_error (ca_eps c) 0; bt <-- nth_error (ca_beta c) 0;
  XA <-- XA_calc_pure N cl (ca_dist c) e bt b_cubic (ca_R c * T) rho;
  Some {| cr_b := b_cubic; cr_X := XA |}.

(** [AssociationVariantWrapper::get_assoc_calcs], CPA.hpp lines 293-295 *)
Inductive any_report := OldReport (r : cpa_report) | NewReport (r : assoc_report).
Definition variant_assoc_calcs (bc : nat -> nat -> nat -> R) (v : assoc_variant) (T rho : R) (x : list R) : outcome any_report :=
  match v with
  | OldAssoc c => obind (fin (cpa_assoc_calcs c T rho x)) (fun r => ok (OldReport r))
  | NewAssoc a => obind (get_assoc_calcs bc a T rho x) (fun r => ok (NewReport r))
  end.
