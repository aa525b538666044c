(** Model of the van der Waals and cubic equations of state and of the activity
    models used inside them:
    [include/teqp/models/vdW.hpp], [include/teqp/models/cubics.hpp],
    [include/teqp/models/activity/activity_models.hpp] and the closed factor of
    [include/teqp/models/multifluid/multifluid_activity.hpp].

    Doubles are reals.  [log], [sqrt], [pow] and division are the functions of Coq's
    reals, so the theorems restrict themselves to states where the arguments are in
    the domain.  [None] is undefined behaviour (an out-of-bounds read), [Some (Err _)]
    an exception.  COSMO-SAC is not modelled. *)
From Coq Require Import Reals String List Bool Lia.
From Verif Require Import Json_model Vec_spec.
Import ListNotations.
Open Scope R_scope.

Definition outcome (A : Type) := option (res A).
Definition ok {A} (a : A) : outcome A := Some (Val a).
Definition throws {A} (e : error) : outcome A := Some (Err e).
Definition obind {A B} (x : outcome A) (f : A -> outcome B) : outcome B :=
  match x with None => None | Some (Err e) => Some (Err e) | Some (Val a) => f a end.

(** constants.hpp lines 10 and 22-26 *)
Definition R_CODATA2017 : R := 8.31446261815324.
Definition R_gas : R := (6.02214076 * 10 ^ 23) * (1.380649 / 10 ^ 23).

(** [cbrt] of the C library *)
Definition cbrt (x : R) : R :=
  if Rlt_dec 0 x then Rpower x (1 / 3)
  else if Rlt_dec x 0 then - Rpower (- x) (1 / 3) else 0.

(** An [Eigen::ArrayXXd] *)
Record mat := { rows : nat; cols : nat; at_ : nat -> nat -> R }.
Definition zeros (n : nat) : mat := {| rows := n; cols := n; at_ := fun _ _ => 0 |}.
(** the array that [build_square_matrix] returns for a list of rows *)
Definition mat_of_rows (m : list (list R)) : mat :=
  {| rows := length m; cols := length m; at_ := fun i j => nth j (nth i m []) 0 |}.

(** * vdW.hpp *)

(** [vdWEOS1::alphar] lines 32-35 and [vdWEOS1::p] lines 38-40; [Ru] line 21 *)
Definition vdW1_Ru : R := (1.380649 / 10 ^ 23) * (6.02214076 * 10 ^ 23).
Definition vdW1_alphar (a b T rho : R) : R := - ln (1 - b * rho) - (a / (vdW1_Ru * T)) * rho.
Definition vdW1_p (a b T v : R) : R := vdW1_Ru * T / (v - b) - a / (v * v).

(** [vdWEOS] lines 44-129 *)
Record vdW := { vd_ai : list R; vd_bi : list R; vd_k : nat -> nat -> R }.
(** the constructor, lines 62-74 *)
Definition make_vdW (Tc pc : list R) : res vdW :=
  if negb (Nat.eqb (length Tc) (length pc)) then Err InvalidArgument
  else Val {| vd_ai := map (fun i => 27 / 64 * (R_gas * nth i Tc 0) ^ 2 / nth i pc 0) (seq 0 (length Tc));
              vd_bi := map (fun i => 1 / 8 * R_gas * nth i Tc 0 / nth i pc 0) (seq 0 (length Tc));
              vd_k := fun _ _ => 0 |}.
(** lines 79-88 *)
Definition vdW_a (m : vdW) (x : list R) : R :=
  sumn (length x) (fun i => sumn (length x) (fun j =>
    nth i x 0 * nth j x 0 * ((1 - vd_k m i j) * sqrt (nth i (vd_ai m) 0 * nth j (vd_ai m) 0)))).
(** lines 93-99 *)
Definition vdW_b (m : vdW) (x : list R) : R := sumn (length x) (fun i => nth i x 0 * nth i (vd_bi m) 0).
(** lines 116-127 *)
Definition vdW_alphar (m : vdW) (T rho : R) (x : list R) : res R :=
  if negb (Nat.eqb (length x) (length (vd_ai m))) then Err InvalidArgument
  else Val (- ln (1 - vdW_b m x * rho) - vdW_a m x / (R_gas * T) * rho).

(** * cubics.hpp *)

(** [AlphaFunctionOptions], line 96: the variant of lines 30-42, 50-65 and 78-95 *)
Inductive alpha_fn :=
| BasicAlpha (Tc m : R)
| TwuAlpha (Tc c0 c1 c2 : R)
| MathiasCopeman (Tc c0 c1 c2 : R).
(** the call operators, lines 38-41, 61-64 and 89-94 *)
Definition alpha_val (f : alpha_fn) (T : R) : R :=
  match f with
  | BasicAlpha Tc m => (1 + m * (1 - sqrt (T / Tc))) ^ 2
  | TwuAlpha Tc c0 c1 c2 =>
      Rpower (T / Tc) (c2 * (c1 - 1)) * exp (c0 * (1 - Rpower (T / Tc) (c1 * c2)))
  | MathiasCopeman Tc c0 c1 c2 =>
      let x := 1 - sqrt (T / Tc) in
      let paren := 1 + c0 * x + c1 * x * x + c2 * x * x * x in
      paren * paren
  end.

(** the parameter m of Peng-Robinson (1978), lines 116-122, 306-311 and 375-381 *)
Definition PR_m (w : R) : R :=
  if Rlt_dec w 0.491 then 0.37464 + 1.54226 * w - 0.26992 * w ^ 2
  else 0.379642 + 1.48503 * w - 0.164423 * w ^ 2 + 0.016666 * w ^ 3.
(** ... and of Soave-Redlich-Kwong, lines 264 and 396 *)
Definition SRK_m (w : R) : R := 0.48 + 1.574 * w - 0.176 * w * w.

(** One entry of [build_alpha_functions], lines 105-131.  The fixed-size map over the
    coefficient array reads three values: fewer is an out-of-bounds read, more are
    ignored (Eigen's debug assertion is off); the size test of the constructors is on
    the fixed-size copy and never fires. *)
Definition build_alpha (Tc : R) (j : json) : outcome alpha_fn :=
  obind (Some (bind (j_at j "type") j_string)) (fun type =>
  let coeffs (mk : R -> R -> R -> R -> alpha_fn) :=
    obind (Some (bind (j_at j "c") (j_valarray j_double))) (fun c =>
    match c with
    | c0 :: c1 :: c2 :: _ => ok (mk Tc c0 c1 c2)
    | _ => None
    end) in
  if String.eqb type "Twu" then coeffs TwuAlpha
  else if String.eqb type "Mathias-Copeman" then coeffs MathiasCopeman
  else if String.eqb type "PR78" then
    obind (Some (bind (j_at j "acentric") j_double)) (fun w => ok (BasicAlpha Tc (PR_m w)))
  else throws InvalidArgument).
(** the loop over the entries (an object iterates over its values) *)
Fixpoint build_alphas (Tcs : list R) (js : list json) : outcome (list alpha_fn) :=
  match js with
  | [] => ok []
  | j :: js' => obind (build_alpha (nth 0 Tcs 0) j) (fun a =>
                obind (build_alphas (tl Tcs) js') (fun l => ok (a :: l)))
  end.
Definition j_values (j : json) : list json :=
  match j with JArr l => l | JObj l => map snd l | JNull => [] | _ => [j] end.
(** [build_alpha_functions], lines 98-135 *)
Definition build_alpha_functions (Tc : list R) (jalphas : json) : outcome (list alpha_fn) :=
  if negb (Nat.eqb (j_size jalphas) (length Tc)) then throws InvalidArgument
  else build_alphas Tc (j_values jalphas).

(** [GenericCubic], lines 137-258 (the superancillary look-up is not modelled) *)
Record cubic := { cb_ai : list R; cb_bi : list R; cb_D1 : R; cb_D2 : R;
                  cb_alphas : list alpha_fn; cb_k : nat -> nat -> R; cb_R : R }.
(** [check_kmat], lines 156-166, and [check_lmat], lines 508-518 *)
Definition check_mat (k : mat) (N : nat) : res (nat -> nat -> R) :=
  if negb (Nat.eqb (cols k) (rows k)) then Err InvalidArgument
  else if Nat.eqb (cols k) 0 then Val (fun _ _ => 0)
  else if negb (Nat.eqb (cols k) N) then Err InvalidArgument
  else Val (at_ k).
(** the constructor, lines 169-179: [pc_Pa] is read at every index of [Tc_K] *)
Definition make_cubic (D1 D2 OmegaA OmegaB : R) (Tc pc : list R) (alphas : list alpha_fn) (k : mat) (Rg : R)
  : outcome cubic :=
  if Nat.ltb (length pc) (length Tc) then None
  else obind (Some (check_mat k (length Tc))) (fun kf => ok
    {| cb_ai := map (fun i => OmegaA * (Rg * nth i Tc 0) ^ 2 / nth i pc 0) (seq 0 (length Tc));
       cb_bi := map (fun i => OmegaB * Rg * nth i Tc 0 / nth i pc 0) (seq 0 (length Tc));
       cb_D1 := D1; cb_D2 := D2; cb_alphas := alphas; cb_k := kf; cb_R := Rg |}).
Definition alpha_at (l : list alpha_fn) (i : nat) (T : R) : R :=
  match nth_error l i with Some f => alpha_val f T | None => 0 end.
(** [get_a], lines 219-233 *)
Definition cubic_a (c : cubic) (T : R) (x : list R) : R :=
  sumn (length x) (fun i => sumn (length x) (fun j =>
    let ai := nth i (cb_ai c) 0 * alpha_at (cb_alphas c) i T in
    let aj := nth j (cb_ai c) 0 * alpha_at (cb_alphas c) j T in
    nth i x 0 * nth j x 0 * ((1 - cb_k c i j) * sqrt (ai * aj)))).
(** [get_b], lines 235-242 *)
Definition cubic_b (c : cubic) (x : list R) : R := sumn (length x) (fun i => nth i x 0 * nth i (cb_bi c) 0).
(** The expression shared by the [alphar] functions, lines 252-255, 631-633, 773-775,
    916-918. *)
Definition cubic_form (D1 D2 a b Rg T rho : R) : R :=
  let Psiminus := - ln (1 - b * rho) in
  let Psiplus := ln ((D1 * b * rho + 1) / (D2 * b * rho + 1)) / (b * (D1 - D2)) in
  Psiminus - a / (Rg * T) * Psiplus.
(** [alphar], lines 244-257; more mole fractions than attraction parameters is an
    out-of-bounds read. *)
Definition cubic_alphar (c : cubic) (T rho : R) (x : list R) : outcome R :=
  if negb (Nat.eqb (length x) (length (cb_alphas c))) then throws StdInvalidArgument
  else if Nat.ltb (length (cb_ai c)) (length x) then None
  else ok (cubic_form (cb_D1 c) (cb_D2 c) (cubic_a c T x) (cubic_b c x) (cb_R c) T rho).

Definition value_or {A} (o : option A) (d : A) : A := match o with Some a => a | None => d end.

(** [canonical_SRK], lines 260-287: [m] has the length of [acentric] and is read at
    every index of [Tc_K] *)
Definition SRK_OmegaA : R := 1 / (9 * (cbrt 2 - 1)).
Definition SRK_OmegaB : R := (cbrt 2 - 1) / 3.
Definition basic_alphas (m : R -> R) (Tc acentric : list R) : list alpha_fn :=
  map (fun i => BasicAlpha (nth i Tc 0) (m (nth i acentric 0))) (seq 0 (length Tc)).
Definition canonical_SRK (Tc pc acentric : list R) (k : option mat) (Rg : option R) : outcome cubic :=
  if Nat.ltb (length acentric) (length Tc) then None
  else make_cubic 1 0 SRK_OmegaA SRK_OmegaB Tc pc (basic_alphas SRK_m Tc acentric)
         (value_or k (zeros (length acentric))) (value_or Rg R_CODATA2017).
(** [canonical_PR], lines 299-332 *)
Definition PR_OmegaA : R := 0.45723552892138218938.
Definition PR_OmegaB : R := 0.077796073903888455972.
Definition PR_D1 : R := 1 + sqrt 2.
Definition PR_D2 : R := 1 - sqrt 2.
Definition canonical_PR (Tc pc acentric : list R) (k : option mat) (Rg : option R) : outcome cubic :=
  if Nat.ltb (length acentric) (length Tc) then None
  else make_cubic PR_D1 PR_D2 PR_OmegaA PR_OmegaB Tc pc (basic_alphas PR_m Tc acentric)
         (value_or k (zeros (length acentric))) (value_or Rg R_CODATA2017).

(** The JSON factories [make_canonicalSRK], lines 290-297, and [make_canonicalPR],
    lines 335-342 *)
Definition doubles (j : json) (key : string) : outcome (list R) :=
  Some (bind (j_at j key) (j_valarray j_double)).
Definition kmat_of (j : json) : outcome (option mat) :=
  if j_contains j "kmat"
  then Some (bind (j_at j "kmat") (fun v => bind (build_square_matrix v) (fun m => Val (Some (mat_of_rows m)))))
  else ok None.
Definition make_canonical (mk : list R -> list R -> list R -> option mat -> option R -> outcome cubic) (spec : json)
  : outcome cubic :=
  obind (doubles spec "Tcrit / K") (fun Tc =>
  obind (doubles spec "pcrit / Pa") (fun pc =>
  obind (doubles spec "acentric") (fun acentric =>
  obind (kmat_of spec) (fun k => mk Tc pc acentric (Some (value_or k (zeros 0))) None)))).
Definition make_canonicalSRK := make_canonical canonical_SRK.
Definition make_canonicalPR := make_canonical canonical_PR.

(** [make_generalizedcubic], lines 345-439 *)
Definition is_string (j : json) (s : string) : bool :=
  match j with JStr t => String.eqb t s | _ => false end.
Definition generalized_alphas (spec : json) (m : R -> R) (Tc acentric : list R) : outcome (list alpha_fn) :=
  if negb (j_contains spec "alpha") then
    (if Nat.ltb (length acentric) (length Tc) then None else ok (basic_alphas m Tc acentric))
  else obind (Some (j_at spec "alpha")) (fun a =>
    match a with JArr _ => build_alpha_functions Tc a | _ => throws InvalidArgument end).
Definition make_generalizedcubic (spec : json) : outcome cubic :=
  obind (doubles spec "Tcrit / K") (fun Tc =>
  obind (doubles spec "pcrit / Pa") (fun pc =>
  obind (doubles spec "acentric") (fun acentric =>
  obind (kmat_of spec) (fun k =>
  obind (if j_contains spec "R / J/mol/K"
         then Some (bind (j_at spec "R / J/mol/K") (fun v => bind (j_double v) (fun r => Val (Some r)))) else ok None)
        (fun Rg =>
  obind (Some (j_at spec "type")) (fun type =>
  let finish D1 D2 OA OB alphas :=
    make_cubic D1 D2 OA OB Tc pc alphas (value_or k (zeros (length Tc))) (value_or Rg R_CODATA2017) in
  if is_string type "PR" then
    obind (generalized_alphas spec PR_m Tc acentric) (finish PR_D1 PR_D2 PR_OmegaA PR_OmegaB)
  else if is_string type "SRK" then
    obind (generalized_alphas spec SRK_m Tc acentric) (finish 1 0 SRK_OmegaA SRK_OmegaB)
  else throws InvalidArgument)))))).

(** * activity_models.hpp *)

(** [WilsonResidualHelmholtzOverRT], lines 41-103: [combinatorial] lines 49-72 (after
    its size test), [get_Aij] lines 75-77, [total] lines 80-96 *)
Definition wilson_combinatorial (b : list R) (x : list R) : R :=
  let Vtot := sumn (length x) (fun i => nth i x 0 * nth i b 0) in
  sumn (length x) (fun i => nth i x 0 * ln (nth i b 0 / Vtot)).
Definition wilson_A (m n : mat) (i j : nat) (T : R) : R := at_ m i j * T + at_ n i j.
Definition wilson_total (b : list R) (m n : mat) (T : R) (x : list R) : R :=
  - sumn (length x) (fun i => nth i x 0 *
      ln (sumn (length x) (fun j => nth j x 0 * (nth j b 0 / nth i b 0 * exp (- wilson_A m n i j T / T))))).

(** [ResidualHelmholtzOverRTVariant], line 144, without COSMO-SAC *)
Inductive ares_model :=
| NullAres
| WilsonAres (b : list R) (m n : mat)
| BinaryInvariant (c : list R).
Definition covers (m : mat) (N : nat) : bool := Nat.leb N (rows m) && Nat.leb N (cols m).
(** The call operators, lines 14-17, 100-102 and 135-141.  [total - combinatorial] has no
    specified order of evaluation: when [total] would read outside [b], [m] or [n] the
    behaviour is undefined whatever [combinatorial] would have thrown. *)
Definition ares_val (a : ares_model) (T : R) (x : list R) : outcome R :=
  match a with
  | NullAres => ok 0
  | WilsonAres b m n =>
      if Nat.ltb (length b) (length x) || negb (covers m (length x)) || negb (covers n (length x)) then None
      else if negb (Nat.eqb (length b) (length x)) then throws InvalidArgument
      else ok (wilson_total b m n T x - wilson_combinatorial b x)
  | BinaryInvariant c =>
      if negb (Nat.eqb (length x) 2) then throws InvalidArgument
      else match c with
           | c0 :: c1 :: c2 :: _ => ok (c0 * nth 0 x 0 * nth 1 x 0 * (c1 + c2 * nth 1 x 0))
           | _ => None
           end
  end.

(** [ares_model_factory], lines 146-194 (the COSMO-SAC branch is not modelled) *)
Definition square_matrix (j : json) (key : string) : outcome mat :=
  Some (bind (j_at j key) (fun v => bind (build_square_matrix v) (fun m => Val (mat_of_rows m)))).
Definition ares_model_factory (j : json) : outcome ares_model :=
  obind (Some (bind (j_at j "type") j_string)) (fun type =>
  if String.eqb type "Wilson" then
    obind (doubles j "b") (fun b =>
    obind (square_matrix j "m") (fun m =>
    obind (square_matrix j "n") (fun n => ok (WilsonAres b m n))))
  else if String.eqb type "binaryInvariant" then
    obind (doubles j "c") (fun c => ok (BinaryInvariant c))
  else throws InvalidArgument).

(** * AdvancedPRaEres, cubics.hpp lines 440-666 *)
Inductive brule := NotSpecified | Linear | Quadratic.
Record advPR := { ap_ai : list R; ap_bi : list R; ap_alphas : list alpha_fn; ap_ares : ares_model;
                  ap_l : nat -> nat -> R; ap_brule : brule; ap_s : R; ap_CEoS : R; ap_R : R }.
(** the constructor, lines 521-531 *)
Definition make_advPR (Tc pc : list R) (alphas : list alpha_fn) (ares : ares_model) (l : mat)
  (br : brule) (s CEoS Rg : R) : outcome advPR :=
  if Nat.ltb (length pc) (length Tc) then None
  else obind (Some (check_mat l (length Tc))) (fun lf => ok
    {| ap_ai := map (fun i => PR_OmegaA * (Rg * nth i Tc 0) ^ 2 / nth i pc 0) (seq 0 (length Tc));
       ap_bi := map (fun i => PR_OmegaB * Rg * nth i Tc 0 / nth i pc 0) (seq 0 (length Tc));
       ap_alphas := alphas; ap_ares := ares; ap_l := lf; ap_brule := br; ap_s := s; ap_CEoS := CEoS; ap_R := Rg |}).
(** [get_am_over_bm], lines 584-592, given the value of the activity model *)
Definition advPR_am_over_bm (m : advPR) (aEresRT T : R) (x : list R) : R :=
  aEresRT * ap_R m * T / ap_CEoS m +
  sumn (length x) (fun i => nth i x 0 * (nth i (ap_ai m) 0 * alpha_at (ap_alphas m) i T) / nth i (ap_bi m) 0).
(** [get_b], lines 594-619 *)
Definition advPR_b (m : advPR) (x : list R) : res R :=
  match ap_brule m with
  | Quadratic => Val (sumn (length x) (fun i => sumn (length x) (fun j =>
      nth i x 0 * nth j x 0 * ((1 - ap_l m i j) *
        Rpower ((Rpower (nth i (ap_bi m) 0) (1 / ap_s m) + Rpower (nth j (ap_bi m) 0) (1 / ap_s m)) / 2) (ap_s m)))))
  | Linear => Val (sumn (length x) (fun i => nth i x 0 * nth i (ap_bi m) 0))
  | NotSpecified => Err InvalidArgument
  end.
(** [alphar], lines 621-635 *)
Definition advPR_alphar (m : advPR) (T rho : R) (x : list R) : outcome R :=
  if negb (Nat.eqb (length x) (length (ap_alphas m))) then throws StdInvalidArgument
  else if Nat.ltb (length (ap_ai m)) (length x) then None
  else obind (Some (advPR_b m x)) (fun b =>
       obind (ares_val (ap_ares m) T x) (fun g =>
       ok (cubic_form PR_D1 PR_D2 (advPR_am_over_bm m g T x * b) b (ap_R m) T rho))).
(** [make_AdvancedPRaEres], lines 638-666; the options are passed already decoded
    (line 660).  The interaction matrix is always the 2 x 2 zero matrix. *)
Definition advPR_static_bi (Tc pc : R) : R := PR_OmegaB * 8.31446261815324 * Tc / pc.
Definition make_AdvancedPRaEres (j : json) (br : brule) (s CEoS Rg : R) : outcome advPR :=
  obind (doubles j "Tcrit / K") (fun Tc =>
  obind (doubles j "pcrit / Pa") (fun pc =>
  obind (Some (j_at j "alphas")) (fun ja =>
  obind (build_alpha_functions Tc ja) (fun alphas =>
  obind (Some (j_at j "aresmodel")) (fun jm =>
  obind (Some (bind (j_at jm "type") j_string)) (fun type =>
  if negb (String.eqb type "Wilson") then throws InvalidArgument
  else if Nat.ltb (length pc) (length Tc) then None
  else
    obind (square_matrix jm "m") (fun m =>
    obind (square_matrix jm "n") (fun n =>
    make_advPR Tc pc alphas
      (WilsonAres (map (fun i => advPR_static_bi (nth i Tc 0) (nth i pc 0)) (seq 0 (length Tc))) m n)
      (zeros 2) br s CEoS Rg)))))))).

(** * QuantumCorrectedPR, cubics.hpp lines 678-810 *)
Record qPR := { q_Tc : list R; q_pc : list R; q_alphas : list alpha_fn; q_A : list R; q_B : list R;
                q_c : list R; q_k : mat; q_l : mat; q_Ru : R }.
(** [get_bi], lines 716-722 *)
Definition q_bi (m : qPR) (i : nat) (T : R) : R :=
  let beta := (1 + nth i (q_A m) 0 / (T + nth i (q_B m) 0)) ^ 3 /
              (1 + nth i (q_A m) 0 / (nth i (q_Tc m) 0 + nth i (q_B m) 0)) ^ 3 in
  0.07780 * nth i (q_Tc m) 0 * q_Ru m / nth i (q_pc m) 0 * beta.
(** [get_ai], lines 724-731 *)
Definition q_ai (m : qPR) (i : nat) (T : R) : R :=
  0.45723552892138218938 * (nth i (q_Tc m) 0 * q_Ru m) ^ 2 / nth i (q_pc m) 0 * alpha_at (q_alphas m) i T.
(** [get_ab], lines 733-750, and [get_c], lines 751-760 *)
Definition q_b (m : qPR) (T : R) (z : list R) : R :=
  sumn (length (q_alphas m)) (fun i => sumn (length (q_alphas m)) (fun j =>
    nth i z 0 * nth j z 0 * (q_bi m i T + q_bi m j T) / 2 * (1 - at_ (q_l m) i j))).
Definition q_a (m : qPR) (T : R) (z : list R) : R :=
  sumn (length (q_alphas m)) (fun i => sumn (length (q_alphas m)) (fun j =>
    nth i z 0 * nth j z 0 * sqrt (q_ai m i T * q_ai m j T) * (1 - at_ (q_k m) i j))).
Definition q_shift (m : qPR) (z : list R) : R :=
  sumn (length (q_alphas m)) (fun i => nth i z 0 * nth i (q_c m) 0).
(** [alphar], lines 762-777; no constructor checks that the arrays are long enough *)
Definition qPR_alphar (m : qPR) (T rhoinit : R) (z : list R) : outcome R :=
  let N := length (q_alphas m) in
  if negb (Nat.eqb (length z) N) then throws StdInvalidArgument
  else if Nat.ltb (length (q_Tc m)) N || Nat.ltb (length (q_pc m)) N || Nat.ltb (length (q_A m)) N ||
          Nat.ltb (length (q_B m)) N || Nat.ltb (length (q_c m)) N ||
          negb (covers (q_k m) N) || negb (covers (q_l m) N) then None
  else ok (cubic_form (1 + sqrt 2) (1 - sqrt 2) (q_a m T z) (q_b m T z) (q_Ru m) T (1 / (1 / rhoinit + q_shift m z))).

(** * RKPRCismondi2005, cubics.hpp lines 824-921 *)
Record rkpr := { rk_delta1 : list R; rk_Tc : list R; rk_pc : list R; rk_kexp : list R;
                 rk_k : mat; rk_l : mat; rk_Ru : R; rk_ac : list R; rk_bc : list R }.
(** [get_yd1], lines 835-837 *)
Definition rk_y (d : R) : R := 1 + cbrt (2 * (1 + d)) + cbrt (4 / (1 + d)).
Definition rk_d1 (d : R) : R := (1 + d * d) / (1 + d).
(** [build_ac], [build_bc], lines 839-856 *)
Definition rk_OmegaA (d : R) : R :=
  (3 * rk_y d * rk_y d + 3 * rk_y d * rk_d1 d + rk_d1 d * rk_d1 d + rk_d1 d - 1) / (3 * rk_y d + rk_d1 d - 1) ^ 2.
Definition rk_OmegaB (d : R) : R := 1 / (3 * rk_y d + rk_d1 d - 1).
(** the constructor, line 859, from the decoded arrays *)
Definition make_rkpr (delta1 Tc pc kexp : list R) (k l : mat) (Ru : R) : outcome rkpr :=
  let N := length delta1 in
  if Nat.ltb (length Tc) N || Nat.ltb (length pc) N then None
  else ok {| rk_delta1 := delta1; rk_Tc := Tc; rk_pc := pc; rk_kexp := kexp; rk_k := k; rk_l := l; rk_Ru := Ru;
             rk_ac := map (fun i => rk_OmegaA (nth i delta1 0) * (Ru * nth i Tc 0) ^ 2 / nth i pc 0) (seq 0 N);
             rk_bc := map (fun i => rk_OmegaB (nth i delta1 0) * Ru * nth i Tc 0 / nth i pc 0) (seq 0 N) |}.
(** [get_ai], lines 877-880, [get_ab], lines 882-901 *)
Definition rk_ai (m : rkpr) (i : nat) (T : R) : R :=
  nth i (rk_ac m) 0 * Rpower (3 / (2 + T / nth i (rk_Tc m) 0)) (nth i (rk_kexp m) 0).
Definition rk_a (m : rkpr) (T : R) (z : list R) : R :=
  sumn (length (rk_delta1 m)) (fun i => sumn (length (rk_delta1 m)) (fun j =>
    nth i z 0 * nth j z 0 * sqrt (rk_ai m i T * rk_ai m j T) * (1 - at_ (rk_k m) i j))).
Definition rk_b (m : rkpr) (z : list R) : R :=
  sumn (length (rk_delta1 m)) (fun i => sumn (length (rk_delta1 m)) (fun j =>
    nth i z 0 * nth j z 0 * (nth i (rk_bc m) 0 + nth j (rk_bc m) 0) / 2 * (1 - at_ (rk_l m) i j))).
(** [alphar], lines 903-920 *)
Definition rk_Delta1 (m : rkpr) (z : list R) : R :=
  sumn (length (rk_delta1 m)) (fun i => nth i z 0 * nth i (rk_delta1 m) 0).
Definition rkpr_alphar (m : rkpr) (T rho : R) (z : list R) : outcome R :=
  let N := length (rk_delta1 m) in
  if negb (Nat.eqb (length z) N) then throws StdInvalidArgument
  else if Nat.ltb (length (rk_kexp m)) N || negb (covers (rk_k m) N) || negb (covers (rk_l m) N) then None
  else
    let D1 := rk_Delta1 m z in
    let D2 := (1 - D1) / (1 + D1) in
    ok (cubic_form D1 D2 (rk_a m T z) (rk_b m z) (rk_Ru m) T rho).

(** * multifluid_activity.hpp *)
(** [alphar_activity], lines 78-101: [gER] is the activity model's value, [summer] the
    sum of lines 94-99 *)
Definition activity_correction (u bm rho gER summer : R) : R :=
  ln (1 + rho * bm) / ln (1 + 1 / u) * (gER - summer).
(** the sum of lines 94-99, for the pure-fluid functions [alphar_taudeltai tau delta i],
    the critical temperatures and volumes [Tc], [vc], the reducing temperature [Tr] and
    density [rhor] of the composition *)
Definition activity_sum (pure : R -> R -> nat -> R) (Tc vc b : list R) (u Tr rhor T : R) (x : list R) : R :=
  let bm := sumn (length x) (fun i => nth i b 0 * nth i x 0) in
  sumn (length x) (fun i => nth i x 0 *
    (pure (Tr / T) (1 / (u * bm * rhor)) i - pure (nth i Tc 0 / T) (1 / (u * nth i b 0 / nth i vc 0)) i)).
Definition alphar_activity (act : ares_model) (pure : R -> R -> nat -> R) (Tc vc b : list R) (u Tr rhor : R)
  (T rho : R) (x : list R) : outcome R :=
  obind (ares_val act T x) (fun gER =>
  if negb (Nat.eqb (length b) (length x)) then throws InvalidArgument
  else ok (activity_correction u (sumn (length x) (fun i => nth i b 0 * nth i x 0)) rho gER
             (activity_sum pure Tc vc b u Tr rhor T x))).
