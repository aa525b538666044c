(** Model of the Helmholtz-energy terms of the multifluid models and of the code that
    builds them from JSON: [include/teqp/models/multifluid_eosterms.hpp] and, from
    [include/teqp/models/multifluid.hpp], [build_departure_function] and
    [get_EOS_terms].

    Doubles are reals; [tau] is positive and [delta] non-negative wherever a theorem
    says something (the logarithm of the code is NaN outside).  [None] is undefined
    behaviour: an index outside an array, an Eigen block of the wrong size, a double
    outside the range of [int]. *)
From Coq Require Import Reals ZArith String List Bool Lia.
From Verif Require Import Json_model Util_model Numerics_model Vec_spec Cubic_model.
Import ListNotations.
Open Scope R_scope.

(** [static_cast<int>(double)] *)
Definition trunc (x : R) : Z := if Rle_dec 0 x then Int_part x else (- Int_part (- x))%Z.
Definition to_int (x : R) : option Z :=
  let z := trunc x in if (- 2 ^ 31 <=? z)%Z && (z <? 2 ^ 31)%Z then Some z else None.

Definition opt_bind {A B} (x : option A) (f : A -> option B) : option B :=
  match x with Some a => f a | None => None end.
Notation "a <-- x ; y" := (opt_bind x (fun a => y)) (at level 61, right associativity).

(** the loops [for (i = 0; i < n.size(); ++i) r += ...] *)
Fixpoint osum (n : nat) (f : nat -> option R) : option R :=
  match n with
  | O => Some 0
  | S m => a <-- osum m f; b <-- f m; Some (a + b)
  end.

(** The classes of multifluid_eosterms.hpp (the PC-SAFT term is not modelled) *)
Inductive term :=
| JustPower (n t d : list R)                                    (* lines 13-36 *)
| Power (n t d c : list R) (l_i : list Z)                       (* lines 41-76 *)
| Exponential (n t d g : list R) (l_i : list Z)                 (* lines 81-103 *)
| DoubleExponential (n t d gd gt lt : list R) (ld_i : list Z)   (* lines 108-133 *)
| Gaussian (n t d eta beta gamma epsilon : list R)              (* lines 138-166 *)
| GERG2004 (n t d eta beta gamma epsilon : list R)              (* lines 171-193 *)
| Lemmon2005 (n t d m : list R) (l_i : list Z)                  (* lines 199-221 *)
| GaoB (n t d eta beta gamma epsilon b : list R)                (* lines 226-249 *)
| Chebyshev2D (a : list (list R)) (taumin taumax deltamin deltamax : R)  (* lines 254-319 *)
| NullTerm                                                      (* lines 324-330 *)
| NonAnalytic (A B C D a b beta n : list R)                     (* lines 332-362 *)
| GenericCubicT (Rg D1 D2 Tred rhored a0 b : R) (alpha : alpha_fn).  (* lines 367-400 *)

(** [powi(delta, static_cast<int>(d[i]))] *)
Definition powd (delta d : R) : option R := k <-- to_int d; powi delta k.
Definition square (x : R) : R := x * x.

(** The common shape of the two branches: [n exp(arg) delta^d] at [delta = 0] and
    [n exp(arg + d ln delta)] elsewhere. *)
Definition scaled (n arg d delta : R) : option R :=
  if Req_EM_T delta 0 then p <-- powd delta d; Some (n * exp arg * p)
  else Some (n * exp (arg + d * ln delta)).

(** [pow(x, y)] of the C library for x >= 0, [None] when it is infinite *)
Definition cpow (x y : R) : option R :=
  if Req_EM_T x 0 then
    if Req_EM_T y 0 then Some 1 else if Rlt_dec 0 y then Some 0 else None
  else if Rlt_dec 0 x then Some (Rpower x y) else None.

(** One summand of [NonAnalyticEOSTerm::alphar], lines 345-350; [None] is a value that
    is not finite (also: beta = 0, and a negative [Delta], whose power is not a number
    unless [b] is an integer, a case left out). *)
Definition nonanalytic_i (A B C D a b beta n tau delta : R) : option R :=
  let dm := square (delta - 1) in
  let Psi := exp (- C * dm - D * square (tau - 1)) in
  if Req_EM_T beta 0 then None
  else p <-- cpow dm (1 / (2 * beta));
       q <-- cpow dm a;
       let theta := (1 - tau) + A * p in
       w <-- cpow (square theta + B * q) b;
       Some (n * w * delta * Psi).

(** [alphar] of each class, lines as cited above.  The two branches are in [scaled];
    the exponent is the sum of the other parts in both. *)
Definition term_alphar (t : term) (tau delta : R) : outcome R :=
  let lift (x : option R) : outcome R := match x with Some v => ok v | None => None end in
  let lntau := ln tau in
  match t with
  | JustPower n t d => lift (osum (length n) (fun i =>
      ni <-- nth_error n i; ti <-- nth_error t i; di <-- nth_error d i;
      scaled ni (ti * lntau) di delta))
  | Power n t d c l =>
      if Nat.eqb (length l) 0 && Nat.ltb 0 (length n) then throws StdInvalidArgument
      else lift (osum (length n) (fun i =>
      ni <-- nth_error n i; ti <-- nth_error t i; di <-- nth_error d i; ci <-- nth_error c i;
      li <-- nth_error l i; p <-- powi delta li;
      scaled ni (ti * lntau - ci * p) di delta))
  | Exponential n t d g l => lift (osum (length n) (fun i =>
      ni <-- nth_error n i; ti <-- nth_error t i; di <-- nth_error d i; gi <-- nth_error g i;
      li <-- nth_error l i; p <-- powi delta li;
      scaled ni (ti * lntau - gi * p) di delta))
  | DoubleExponential n t d gd gt lt ld =>
      if Nat.eqb (length ld) 0 && Nat.ltb 0 (length n) then throws StdInvalidArgument
      else lift (osum (length n) (fun i =>
      ni <-- nth_error n i; ti <-- nth_error t i; di <-- nth_error d i; gdi <-- nth_error gd i;
      gti <-- nth_error gt i; lti <-- nth_error lt i; li <-- nth_error ld i; p <-- powi delta li;
      scaled ni (ti * lntau - gdi * p - gti * Rpower tau lti) di delta))
  | Gaussian n t d eta beta gamma epsilon => lift (osum (length n) (fun i =>
      ni <-- nth_error n i; ti <-- nth_error t i; di <-- nth_error d i; e <-- nth_error eta i;
      b <-- nth_error beta i; g <-- nth_error gamma i; ep <-- nth_error epsilon i;
      scaled ni (ti * lntau - e * square (delta - ep) - b * square (tau - g)) di delta))
  | GERG2004 n t d eta beta gamma epsilon => lift (osum (length n) (fun i =>
      ni <-- nth_error n i; ti <-- nth_error t i; di <-- nth_error d i; e <-- nth_error eta i;
      b <-- nth_error beta i; g <-- nth_error gamma i; ep <-- nth_error epsilon i;
      scaled ni (ti * lntau - e * square (delta - ep) - b * (delta - g)) di delta))
  | Lemmon2005 n t d m l => lift (osum (length n) (fun i =>
      ni <-- nth_error n i; ti <-- nth_error t i; di <-- nth_error d i; mi <-- nth_error m i;
      li <-- nth_error l i; p <-- powi delta li;
      scaled ni (ti * lntau - p - Rpower tau mi) di delta))
  | GaoB n t d eta beta gamma epsilon b => lift (osum (length n) (fun i =>
      ni <-- nth_error n i; ti <-- nth_error t i; di <-- nth_error d i; e <-- nth_error eta i;
      be <-- nth_error beta i; g <-- nth_error gamma i; ep <-- nth_error epsilon i; bi <-- nth_error b i;
      scaled ni (ti * lntau - e * square (delta - ep) + 1 / (be * square (tau - g) + bi)) di delta))
  | Chebyshev2D a taumin taumax deltamin deltamax =>
      lift (chebyshev2D_alphar a taumin taumax deltamin deltamax tau delta)
  | NullTerm => ok 0
  | NonAnalytic A B C D a b beta n =>
      let N := length n in
      if Nat.ltb (length A) N || Nat.ltb (length B) N || Nat.ltb (length C) N || Nat.ltb (length D) N ||
         Nat.ltb (length a) N || Nat.ltb (length b) N || Nat.ltb (length beta) N then None
      else
        (* lines 353-360: a sum that is not finite is replaced by 0 *)
        ok (match osum N (fun i => nonanalytic_i (nth i A 0) (nth i B 0) (nth i C 0) (nth i D 0) (nth i a 0)
                                     (nth i b 0) (nth i beta 0) (nth i n 0) tau delta) with
            | Some v => v | None => 0 end)
  | GenericCubicT Rg D1 D2 Tred rhored a0 b alpha =>
      let T := Tred / tau in
      ok (cubic_form D1 D2 (a0 * alpha_val alpha T) b Rg T (delta * rhored))
  end.

(** [EOSTermContainer::alphar], lines 436-456 *)
Fixpoint terms_alphar (ts : list term) (tau delta : R) : outcome R :=
  match ts with
  | [] => ok 0
  | t :: ts' => obind (term_alphar t tau delta) (fun a => obind (terms_alphar ts' tau delta) (fun b => ok (a + b)))
  end.

(** * Building the terms from JSON *)

(** [term[name]] on a (non-const copy of a) JSON object: a missing key gives null *)
Definition index (j : json) (k : string) : json :=
  match j with JObj l => match lookup k l with Some v => v | None => JNull end | _ => JNull end.
(** [empty()] *)
Definition j_empty (j : json) : bool :=
  match j with JNull => true | JArr l => Nat.eqb (length l) 0 | JObj l => Nat.eqb (length l) 0 | _ => false end.
(** [toeig(term[name])], types.hpp line 10 *)
Definition toeig (j : json) (k : string) : outcome (list R) := Some (j_valarray j_double (index j k)).
(** [eigorzero], multifluid.hpp lines 238-245 and 546-553 *)
Definition eigorzero (j : json) (N : nat) (k : string) : outcome (list R) :=
  if j_empty (index j k) then ok (repeat 0 N) else toeig j k.
(** [.cast<int>()] *)
Fixpoint cast_int (l : list R) : option (list Z) :=
  match l with [] => Some [] | x :: l' => z <-- to_int x; zs <-- cast_int l'; Some (z :: zs) end.
(** [head], [tail] *)
Definition head {A} (k : nat) (l : list A) : option (list A) := if Nat.leb k (length l) then Some (firstn k l) else None.
Definition tail {A} (k : nat) (l : list A) : option (list A) :=
  if Nat.leb k (length l) then Some (skipn (length l - k) l) else None.
Definition ub {A} (x : option A) : outcome A := match x with Some a => ok a | None => None end.

Definition is_zero (x : R) : bool := if Req_EM_T x 0 then true else false.
Definition positive (x : R) : bool := if Rlt_dec 0 x then true else false.
Definition count_zeros (l : list R) : nat := length (filter is_zero l).
Definition list_sum (l : list R) : R := fold_right Rplus 0 l.
Definition all_integers (l : list R) (z : list Z) : bool :=
  forallb (fun p => is_zero (fst p - IZR (snd p))) (combine l z).
Definition exp_flags (l : list R) : list R := map (fun x => if positive x then 1 else 0) l.

(** The last part of the two [build_power]: lines 304-335 and 599-630 *)
Definition split_power (n t d c l : list R) (li : list Z) (Nlzero Nlnonzero : nat) (contiguous : bool) : outcome (list term) :=
  if is_zero (list_sum l) then ok [JustPower n t d]
  else if positive (list_sum l) && contiguous then
    obind (ub (head Nlzero n)) (fun n0 => obind (ub (head Nlzero t)) (fun t0 => obind (ub (head Nlzero d)) (fun d0 =>
    obind (ub (tail Nlnonzero n)) (fun n1 => obind (ub (tail Nlnonzero t)) (fun t1 => obind (ub (tail Nlnonzero d)) (fun d1 =>
    obind (ub (tail Nlnonzero c)) (fun c1 => obind (ub (tail Nlnonzero li)) (fun li1 =>
    ok [JustPower n0 t0 d0; Power n1 t1 d1 c1 li1]))))))))
  else ok [Power n t d c li].

(** [build_departure_function]/[build_power], lines 228-336 *)
Definition build_power_departure (j : json) : outcome (list term) :=
  let N := j_size (index j "n") in
  if Nat.eqb N 0 then ok []
  else
  obind (eigorzero j N "n") (fun n => obind (eigorzero j N "t") (fun t => obind (eigorzero j N "d") (fun d =>
  if j_empty (index j "l") then
    obind (Some (all_same_length j ["n"; "t"; "d"]%string)) (fun same =>
    if negb same then throws StdInvalidArgument
    else let l := repeat 0 N in
         obind (ub (cast_int l)) (fun li => split_power n t d (repeat 0 N) l li 0 N false))
  else
    obind (Some (all_same_length j ["n"; "t"; "d"; "l"]%string)) (fun same =>
    if negb same then throws StdInvalidArgument
    else obind (toeig j "l") (fun l =>
    let contiguous := is_zero (nth 0 l 0) in
    let Nlzero := count_zeros l in
    let Nlnonzero := (length l - Nlzero)%nat in
    obind (ub (tail Nlnonzero l)) (fun lt =>
    if contiguous && existsb is_zero lt then throws StdInvalidArgument
    else obind (ub (cast_int l)) (fun li =>
    if negb (all_integers l li) then throws StdInvalidArgument
    else split_power n t d (exp_flags l) l li Nlzero Nlnonzero contiguous))))))).

(** [get_EOS_terms]/[build_power], lines 541-631: no test of the lengths.  The loops of
    lines 569-583 read [l] at the indices of [n]. *)
Definition build_power_fluid (j : json) : outcome (list term) :=
  let N := j_size (index j "n") in
  obind (eigorzero j N "n") (fun n => obind (eigorzero j N "t") (fun t => obind (eigorzero j N "d") (fun d =>
  if j_empty (index j "l") then
    let l := repeat 0 N in
    obind (ub (cast_int l)) (fun li => split_power n t d (repeat 0 N) l li 0 N false)
  else
    obind (toeig j "l") (fun l =>
    if Nat.ltb (length l) N then None
    else
    let contiguous := is_zero (nth 0 l 0) in
    let Nlzero := count_zeros (firstn N l) in
    let Nlnonzero := (length l - Nlzero)%nat in
    obind (ub (cast_int l)) (fun li =>
    if negb (all_integers l li) then throws StdInvalidArgument
    else split_power n t d (exp_flags (firstn N l)) l li Nlzero Nlnonzero contiguous))))).

(** Reading several arrays and checking that they have the same length. *)
Fixpoint arrays (j : json) (ks : list string) : outcome (list (list R)) :=
  match ks with
  | [] => ok []
  | k :: ks' => obind (toeig j k) (fun a => obind (arrays j ks') (fun l => ok (a :: l)))
  end.
Definition same_length_arrays (j : json) (ks : list string) : outcome (list (list R)) :=
  obind (arrays j ks) (fun l =>
  obind (Some (all_same_length j ks)) (fun same => if same then ok l else throws StdInvalidArgument)).

(** [build_doubleexponential], lines 338-352 and 679-693 *)
Definition build_doubleexponential (j : json) : outcome term :=
  obind (same_length_arrays j ["n"; "t"; "d"; "ld"; "gd"; "lt"; "gt"]%string) (fun l =>
  match l with
  | [n; t; d; ld; gd; lt; gt] => obind (ub (cast_int ld)) (fun li => ok (DoubleExponential n t d gd gt lt li))
  | _ => None
  end).
(** [build_Lemmon2005], lines 633-648 *)
Definition build_Lemmon2005 (j : json) : outcome term :=
  obind (same_length_arrays j ["n"; "t"; "d"; "m"; "l"]%string) (fun a =>
  match a with
  | [n; t; d; m; l] => obind (ub (cast_int l)) (fun li =>
      if negb (all_integers l li) then throws StdInvalidArgument else ok (Lemmon2005 n t d m li))
  | _ => None
  end).
(** [build_gaussian], lines 650-663 *)
Definition build_gaussian (j : json) : outcome term :=
  obind (same_length_arrays j ["n"; "t"; "d"; "eta"; "beta"; "gamma"; "epsilon"]%string) (fun a =>
  match a with
  | [n; t; d; eta; beta; gamma; epsilon] => ok (Gaussian n t d eta beta gamma epsilon)
  | _ => None
  end).
(** [build_exponential], lines 665-677 *)
Definition build_exponential (j : json) : outcome term :=
  obind (same_length_arrays j ["n"; "t"; "d"; "g"; "l"]%string) (fun a =>
  match a with
  | [n; t; d; g; l] => obind (ub (cast_int l)) (fun li => ok (Exponential n t d g li))
  | _ => None
  end).
(** [build_GaoB], lines 695-709: the sign of [eta] is flipped *)
Definition build_GaoB (j : json) : outcome term :=
  obind (same_length_arrays j ["n"; "t"; "d"; "eta"; "beta"; "gamma"; "epsilon"; "b"]%string) (fun a =>
  match a with
  | [n; t; d; eta; beta; gamma; epsilon; b] => ok (GaoB n t d (map Ropp eta) beta gamma epsilon b)
  | _ => None
  end).
(** [build_na], lines 712-726 *)
Definition build_na (j : json) : outcome term :=
  obind (same_length_arrays j ["n"; "A"; "B"; "C"; "D"; "a"; "b"; "beta"]%string) (fun a =>
  match a with
  | [n; A; B; C; D; a; b; beta] => ok (NonAnalytic A B C D a b beta n)
  | _ => None
  end).
(** [GenericCubicTerm::GenericCubicTerm], multifluid_eosterms.hpp lines 372-388 *)
Definition num (j : json) (k : string) : outcome R := Some (bind (j_at j k) j_double).
Definition build_genericcubic (j : json) : outcome term :=
  obind (num j "Tcrit / K") (fun Tc => obind (num j "pcrit / Pa") (fun pc => obind (num j "R / J/mol/K") (fun Rg =>
  obind (num j "Delta1") (fun D1 => obind (num j "Delta2") (fun D2 => obind (num j "Tred / K") (fun Tred =>
  obind (num j "rhored / mol/m^3") (fun rhored => obind (num j "OmegaA") (fun OA => obind (num j "OmegaB") (fun OB =>
  obind (Some (j_at j "alpha")) (fun ja => obind (build_alpha_functions [Tc] ja) (fun al =>
  match al with
  | [a] => ok (GenericCubicT Rg D1 D2 Tred rhored (OA * pow2 (Rg * Tc) / pc) (OB * Rg * Tc / pc) a)
  | _ => throws InvalidArgument
  end))))))))))).

(** The two kinds of terms with a leading power part, lines 382-412 and 413-442:
    [build_GERG2004] and [build_GaussianExponential].  The arguments are const: a
    missing "Npower" is undefined behaviour. *)
Definition build_power_plus (gerg : bool) (j : json) : outcome (list term) :=
  obind (Some (all_same_length j ["n"; "t"; "d"; "eta"; "beta"; "gamma"; "epsilon"]%string)) (fun same =>
  if negb same then throws StdInvalidArgument
  else if negb (j_contains j "Npower") then None
  else obind (Some (j_double (index j "Npower"))) (fun np =>
  obind (ub (to_int np)) (fun Npower =>
  obind (arrays j ["n"; "t"; "d"; "eta"; "beta"; "gamma"; "epsilon"]%string) (fun a =>
  match a with
  | [n; t; d; eta; beta; gamma; epsilon] =>
    if (Npower <? 0)%Z then None else
    let k := Z.to_nat Npower in
    let N1 := (length n - k)%nat in
    obind (ub (head k n)) (fun n0 => obind (ub (head k t)) (fun t0 => obind (ub (head k d)) (fun d0 =>
    obind (if j_contains j "l" then obind (toeig j "l") (fun l => ub (head k l)) else ok (repeat 0 k)) (fun l0 =>
    obind (ub (cast_int l0)) (fun li =>
    obind (ub (tail N1 n)) (fun n1 => obind (ub (tail N1 t)) (fun t1 => obind (ub (tail N1 d)) (fun d1 =>
    obind (ub (tail N1 eta)) (fun e1 => obind (ub (tail N1 beta)) (fun b1 => obind (ub (tail N1 gamma)) (fun g1 =>
    obind (ub (tail N1 epsilon)) (fun ep1 =>
    ok [Power n0 t0 d0 (exp_flags l0) li;
        if gerg then GERG2004 n1 t1 d1 e1 b1 g1 ep1 else Gaussian n1 t1 d1 e1 b1 g1 ep1]))))))))))))
  | _ => None
  end)))).

(** [c.reshaped(Ntau+1, Ndelta+1)]: column-major *)
Definition reshape (rows cols : nat) (c : list R) : list (list R) :=
  map (fun i => map (fun k => nth (i + k * rows) c 0) (seq 0 cols)) (seq 0 rows).
(** [build_Chebyshev2D], lines 353-367 *)
Definition build_Chebyshev2D (j : json) : outcome term :=
  obind (num j "Ntau") (fun nt => obind (ub (to_int nt)) (fun Ntau =>
  obind (num j "Ndelta") (fun nd => obind (ub (to_int nd)) (fun Ndelta =>
  obind (Some (bind (j_at j "a") (j_valarray j_double))) (fun c =>
  if negb (((Ntau + 1) * (Ndelta + 1) =? Z.of_nat (length c))%Z) then throws StdInvalidArgument
  else if (Ntau + 1 <? 0)%Z then None
  else obind (num j "taumin") (fun tmin => obind (num j "taumax") (fun tmax =>
  obind (num j "deltamin") (fun dmin => obind (num j "deltamax") (fun dmax =>
  ok (Chebyshev2D (reshape (Z.to_nat (Ntau + 1)) (Z.to_nat (Ndelta + 1)) c) tmin tmax dmin dmax)))))))))).

(** [build_departure_function], lines 227-471 *)
Definition one {A} (x : outcome A) : outcome (list A) := obind x (fun a => ok [a]).
Definition build_departure_function (j : json) : outcome (list term) :=
  obind (Some (bind (j_at j "type") j_string)) (fun type =>
  if String.eqb type "Exponential" then build_power_departure j
  else if String.eqb type "DoubleExponential" then one (build_doubleexponential j)
  else if String.eqb type "GERG-2004" || String.eqb type "GERG-2008" then build_power_plus true j
  else if String.eqb type "Gaussian+Exponential" then build_power_plus false j
  else if String.eqb type "Chebyshev2D" then one (build_Chebyshev2D j)
  else if String.eqb type "none" then ok [NullTerm]
  else throws StdInvalidArgument).

(** [get_EOS_terms], lines 516-762, given [j["EOS"][0]["alphar"]]; the PC-SAFT term is
    not modelled and counts as a bad type *)
Definition allowed_types : list string :=
  ["ResidualHelmholtzPower"; "ResidualHelmholtzGaussian"; "ResidualHelmholtzNonAnalytic"; "ResidualHelmholtzGaoB";
   "ResidualHelmholtzLemmon2005"; "ResidualHelmholtzExponential"; "ResidualHelmholtzDoubleExponential";
   "ResidualHelmholtzGenericCubic"]%string.
Definition build_fluid_term (j : json) : outcome (list term) :=
  obind (Some (bind (j_at j "type") j_string)) (fun type =>
  if String.eqb type "ResidualHelmholtzPower" then build_power_fluid j
  else if String.eqb type "ResidualHelmholtzGaussian" then one (build_gaussian j)
  else if String.eqb type "ResidualHelmholtzNonAnalytic" then one (build_na j)
  else if String.eqb type "ResidualHelmholtzLemmon2005" then one (build_Lemmon2005 j)
  else if String.eqb type "ResidualHelmholtzGaoB" then one (build_GaoB j)
  else if String.eqb type "ResidualHelmholtzExponential" then one (build_exponential j)
  else if String.eqb type "ResidualHelmholtzDoubleExponential" then one (build_doubleexponential j)
  else if String.eqb type "ResidualHelmholtzGenericCubic" then one (build_genericcubic j)
  else throws StdInvalidArgument).
Fixpoint build_fluid_terms (js : list json) : outcome (list term) :=
  match js with
  | [] => ok []
  | j :: js' => obind (build_fluid_term j) (fun t => obind (build_fluid_terms js') (fun ts => ok (t ++ ts)))
  end.
Fixpoint check_types (js : list json) : res unit :=
  match js with
  | [] => Val tt
  | j :: js' => bind (j_string (index j "type")) (fun type =>
      if existsb (String.eqb type) allowed_types then check_types js' else Err StdInvalidArgument)
  end.
Definition get_EOS_terms (alphar : json) : outcome (list term) :=
  if j_empty alphar then throws InvalidArgument
  else obind (Some (check_types (j_values alphar))) (fun _ => build_fluid_terms (j_values alphar)).
