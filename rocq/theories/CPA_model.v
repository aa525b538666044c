(** Model of the cubic-plus-association equation of state, [include/teqp/models/CPA.hpp].
    Conventions of [Assoc_model]. *)
From Coq Require Import Reals ZArith String List Bool Lia.
From Verif Require Import Json_model Vec_spec Cubic_model Terms_model Ideal_model Util_model Multi_model Assoc_model.
Import ListNotations.
Open Scope R_scope.

(** [get_DeltaAB_pure], lines 25-60 *)
Definition get_DeltaAB_pure (dist : radial) (eps beta b RT rho : R) : option R :=
  let eta := (rho / 4) * b in
  g <-- match dist with CS => cdiv (2 - eta) (2 * pow3 (1 - eta)) | KG => cdiv 1 (1 - 1.9 * eta) end;
  q <-- cdiv eps RT;
  Some (g * (exp q - 1) * b * beta).

(** [XA_calc_pure], lines 66-112: the column of the [N] fractions.  The class
    [not_associating] writes four entries whatever [N_sites] is *)
Definition XA_calc_pure (N : nat) (scheme : aclass) (dist : radial) (eps beta b RT rho : R) : option (list R) :=
  D <-- get_DeltaAB_pure dist eps beta b RT rho;
  let k := rho * D in
  match scheme with
  | a1A => s <-- csqrt (1 + 4 * rho * D); X <-- cdiv (- 1 + s) (2 * rho * D);
           if Nat.eqb N 1 then Some [X] else None
  | a2B => s <-- csqrt (1 + 4 * rho * D); X <-- cdiv (- 1 + s) (2 * rho * D);
           if Nat.eqb N 2 then Some [X; X] else None
  | a3B => s <-- csqrt (pow2 (1 + k) + 4 * rho * D); X <-- cdiv (- (1 - k) + s) (4 * rho * D);
           if Nat.eqb N 3 then Some [X; X; 2 * X - 1] else None
  | a4C => s <-- csqrt (1 + 8 * rho * D); X <-- cdiv (- 1 + s) (4 * rho * D);
           if Nat.eqb N 4 then Some [X; X; X; X] else None
  | not_associating => if Nat.eqb N 4 then Some [1; 1; 1; 1] else None
  end.

(** [get_cubic_flag], lines 114-121 *)
Inductive cubic_flag := flag_PR | flag_SRK.
Definition get_cubic_flag (s : string) : res cubic_flag :=
  if String.eqb s "PR" then Val flag_PR else if String.eqb s "SRK" then Val flag_SRK else Err StdInvalidArgument.

(** [CPACubic], lines 124-177; the factory always passes a matrix k *)
Record cpacubic := { cc_a0 : list R; cc_bi : list R; cc_c1 : list R; cc_Tc : list R; cc_d1 : R; cc_d2 : R; cc_R : R;
                     cc_k : option (list (list R)) }.
Definition make_CPACubic (f : cubic_flag) (a0 bi c1 Tc : list R) (Rg : R) (k : option (list (list R))) : cpacubic :=
  {| cc_a0 := a0; cc_bi := bi; cc_c1 := c1; cc_Tc := Tc;
     cc_d1 := match f with flag_PR => 1 + sqrt 2 | flag_SRK => 1 end;
     cc_d2 := match f with flag_PR => 1 - sqrt 2 | flag_SRK => 0 end; cc_R := Rg; cc_k := k |}.
(** [get_ai], lines 147-149 *)
Definition cpa_ai (c : cpacubic) (T : R) (i : nat) : option R :=
  a0 <-- nth_error (cc_a0 c) i; c1 <-- nth_error (cc_c1 c) i; Tc <-- nth_error (cc_Tc c) i;
  q <-- cdiv T Tc; s <-- csqrt q;
  Some (a0 * pow2 (1 + c1 * (1 - s))).
(** [get_ab], lines 152-166 *)
Definition cpa_kij (c : cpacubic) (i j : nat) : option R :=
  match cc_k c with
  | None => Some 0
  | Some k => row <-- nth_error k i; nth_error row j
  end.
Definition cpa_b (c : cpacubic) (x : list R) : option R :=
  osum (length x) (fun i => bi <-- nth_error (cc_bi c) i; Some (nth i x 0 * bi)).
Definition cpa_a (c : cpacubic) (T : R) (x : list R) : option R :=
  osum (length x) (fun i => ai <-- cpa_ai c T i;
    osum (length x) (fun j => aj <-- cpa_ai c T j; kij <-- cpa_kij c i j; s <-- csqrt (ai * aj);
      Some (nth i x 0 * nth j x 0 * ((1 - kij) * s)))).
(** [alphar], lines 168-176 *)
Definition cpa_cubic_alphar (c : cpacubic) (T rho : R) (x : list R) : option R :=
  a <-- cpa_a c T x; b <-- cpa_b c x;
  l1 <-- clog (1 - b * rho);
  q1 <-- cdiv a (cc_R c); q2 <-- cdiv q1 T;
  q <-- cdiv (cc_d1 c * b * rho + 1) (cc_d2 c * b * rho + 1); l2 <-- clog q;
  r1 <-- cdiv (q2 * l2) b; r <-- cdiv r1 (cc_d1 c - cc_d2 c);
  Some (- l1 - r).

(** [CPAAssociation], lines 181-248 *)
Definition get_N (c : aclass) : res nat :=
  match c with a1A => Val 1%nat | a2B => Val 2%nat | a3B => Val 3%nat | a4C => Val 4%nat | not_associating => Err StdInvalidArgument end.
Record cpaassoc := { ca_classes : list aclass; ca_dist : radial; ca_eps : list R; ca_beta : list R; ca_bi : list R; ca_N : list nat; ca_R : R }.
Definition make_CPAAssociation (classes : list aclass) (dist : radial) (eps beta bi : list R) (Rg : R) : res cpaassoc :=
  bind (map_res get_N classes) (fun N =>
  Val {| ca_classes := classes; ca_dist := dist; ca_eps := eps; ca_beta := beta; ca_bi := bi; ca_N := N; ca_R := Rg |}).
(** the fractions of [get_assoc_calcs], lines 209-224, and of [alphar], lines 228-233 *)
Definition cpaassoc_X (c : cpaassoc) (T rho : R) (x : list R) : option (list R) :=
  if negb (Nat.eqb (length (ca_bi c)) (length x)) then None
  else
  N <-- nth_error (ca_N c) 0; cl <-- nth_error (ca_classes c) 0; e <-- nth_error (ca_eps c) 0; bt <-- nth_error (ca_beta c) 0;
  XA_calc_pure N cl (ca_dist c) e bt (sumn (length x) (fun i => nth i (ca_bi c) 0 * nth i x 0)) (ca_R c * T) rho.
(** [alphar], lines 226-247: the matrix has one column, so a second component reads outside *)
Definition cpaassoc_alphar (c : cpaassoc) (T rho : R) (x : list R) : option R :=
  X <-- cpaassoc_X c T rho x;
  match x with
  | [x0] =>
      s <-- osum (length X) (fun i => l <-- clog (nth i X 0); Some (l - nth i X 0 / 2));
      N <-- nth_error (ca_N c) 0;
      Some (x0 * s + x0 * INR N / 2)
  | [] => Some 0
  | _ => None
  end.

(** [AssociationVariantWrapper], lines 282-297, and [CPAEOS], lines 250-280 *)
Inductive assoc_variant := OldAssoc (c : cpaassoc) | NewAssoc (a : association).
Record cpaeos := { ce_cubic : cpacubic; ce_assoc : assoc_variant }.
Definition assoc_alphar (bc : nat -> nat -> nat -> R) (v : assoc_variant) (T rho : R) (x : list R) : outcome R :=
  match v with OldAssoc c => fin (cpaassoc_alphar c T rho x) | NewAssoc a => alphar bc a T rho x end.
Definition cpa_alphar (bc : nat -> nat -> nat -> R) (m : cpaeos) (T rho : R) (x : list R) : outcome R :=
  if negb (Nat.eqb (length x) (length (cc_a0 (ce_cubic m)))) then throws InvalidArgument
  else
  obind (fin (cpa_cubic_alphar (ce_cubic m) T rho x)) (fun c =>
  obind (assoc_alphar bc (ce_assoc m) T rho x) (fun s => ok (c + s))).

(** * [CPAfactory], lines 301-409 *)
Definition jnum (j : json) (k : string) : res R := bind (j_at j k) j_double.
(** [kmat], lines 305-322; a matrix is its list of rows *)
Definition cpa_kmat (j : json) (N : nat) : res (list (list R)) :=
  if j_contains j "kmat" then
    bind (bind (j_at j "kmat") (j_valarray (j_valarray j_double))) (fun k =>
    if negb (Nat.eqb (length k) N) then Err InvalidArgument
    else if forallb (fun row => Nat.eqb (length row) N) k then Val k else Err InvalidArgument)
  else Val (repeat (repeat 0 N) N).
(** [build_cubic], lines 302-333: [j\["pures"\]], [j\["cubic"\]] and [j\["R_gas / J/mol/K"\]] read a
    constant object and are undefined for a missing key *)
Definition build_cubic (j : json) : outcome cpacubic :=
  obind (cindex j "pures") (fun pures =>
  let N := j_size pures in
  obind (Some (cpa_kmat j N)) (fun k =>
  obind (Some (map_res (fun p => jnum p "a0i / Pa m^6/mol^2") (j_values pures))) (fun a0 =>
  obind (Some (map_res (fun p => jnum p "bi / m^3/mol") (j_values pures))) (fun bi =>
  obind (Some (map_res (fun p => jnum p "c1") (j_values pures))) (fun c1 =>
  obind (Some (map_res (fun p => jnum p "Tc / K") (j_values pures))) (fun Tc =>
  obind (cindex j "cubic") (fun jc => obind (Some (bind (j_string jc) get_cubic_flag)) (fun f =>
  obind (cindex j "R_gas / J/mol/K") (fun jr => obind (Some (j_double jr)) (fun Rg =>
  ok (make_CPACubic f a0 bi c1 Tc Rg (Some k)))))))))))).
(** [build_assoc_pure], lines 335-406.  [j.at("pures").at(0)] throws for an object *)
Definition first_pure (pures : json) : res json :=
  match pures with JArr (p :: _) => Val p | _ => Err JsonError end.
Definition build_assoc_pure (j : json) : outcome assoc_variant :=
  obind (cindex j "pures") (fun pures =>
  obind (if Nat.eqb (j_size pures) 1 then Some (bind (first_pure pures) (fun p => Val (j_contains p "class"))) else ok false) (fun old =>
  if old then
    obind (Some (bind (bind (j_at j "radial_dist") j_string) get_radial_dist)) (fun dist =>
    obind (Some (map_res (fun p => jnum p "epsABi / J/mol") (j_values pures))) (fun eps =>
    obind (Some (map_res (fun p => jnum p "betaABi") (j_values pures))) (fun beta =>
    obind (Some (map_res (fun p => jnum p "bi / m^3/mol") (j_values pures))) (fun bi =>
    obind (Some (map_res (fun p => bind (bind (j_at p "class") j_string) get_association_classes) (j_values pures))) (fun classes =>
    obind (cindex j "R_gas / J/mol/K") (fun jr => obind (Some (j_double jr)) (fun Rg =>
    obind (Some (make_CPAAssociation classes dist eps beta bi Rg)) (fun c => ok (OldAssoc c)))))))))
  else
    obind (Some (bind (bind (j_at j "radial_dist") j_string) get_radial_dist)) (fun dist =>
    (* line 361-363: the assignment replaces the radial distribution just read *)
    obind (if j_contains j "options" then Some (bind (j_at j "options") options_from_json)
           else ok (with_radial default_options (Some dist))) (fun o =>
    obind (if j_contains j "options" then
             Some (bind (j_at j "options") (fun jo => if j_contains jo "self_association_mask"
                then bind (bind (j_at jo "self_association_mask") (j_valarray j_bool)) (fun m => Val (with_mask o m)) else Val o))
           else ok o) (fun o1 =>
    obind (Some (map_res (fun p => jnum p "epsABi / J/mol") (j_values pures))) (fun eps =>
    obind (Some (map_res (fun p => jnum p "betaABi") (j_values pures))) (fun beta =>
    obind (Some (map_res (fun p => jnum p "bi / m^3/mol") (j_values pures))) (fun bi =>
    obind (Some (map_res (fun p => bind (j_at p "sites") (j_valarray j_string)) (j_values pures))) (fun mols =>
    obind (Some (get_interaction_partners (set_of (concat mols)) j)) (fun p =>
    obind (make_association_CR1 bi beta eps mols (with_partners o1 p)) (fun a => ok (NewAssoc a)))))))))))).
(** line 408; the order in which the two arguments are evaluated is not specified *)
Definition CPAfactory (j : json) : outcome cpaeos :=
  obind (build_cubic j) (fun c => obind (build_assoc_pure j) (fun a => ok {| ce_cubic := c; ce_assoc := a |})).
