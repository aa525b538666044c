(** Model of the multifluid mixture models:
    [include/teqp/models/multifluid_reducing.hpp],
    [include/teqp/models/multifluid.hpp] (mixture part),
    [include/teqp/models/multifluid_gas_constant.hpp],
    [include/teqp/models/multifluid_mutant.hpp] and
    [include/teqp/models/multifluid_ancillaries.hpp].

    Doubles are reals.  [None] is undefined behaviour (an index outside an array, a
    missing key read through a const reference), [Some (Err _)] an exception. *)
From Coq Require Import Reals ZArith String Ascii List Bool Lia DecimalString.
From Verif Require Import Json_model Util_model Vec_spec Cubic_model Terms_model.
Import ListNotations.
Open Scope R_scope.

(** * Binary interaction parameters: multifluid_reducing.hpp *)

(** [::toupper] in the "C" locale, line 31 *)
Definition upper_char (c : ascii) : ascii :=
  let n := nat_of_ascii c in
  if Nat.leb 97 n && Nat.leb n 122 then ascii_of_nat (n - 32) else c.
Fixpoint upper (s : string) : string :=
  match s with EmptyString => EmptyString | String c s' => String (upper_char c) (upper s') end.

(** One pass over the collection: lines 35-46 (hashes, entries without one are
    skipped), 47-57 (names) and 58-68 (CAS numbers, without change of case). *)
Fixpoint scan (k1 k2 : string) (norm : string -> string) (skip : bool) (a b : string) (l : list json)
  : res (option (json * bool)) :=
  match l with
  | [] => Val None
  | el :: l' =>
      if skip && negb (j_contains el k1) then scan k1 k2 norm skip a b l'
      else bind (bind (j_at el k1) j_string) (fun n1 =>
           bind (bind (j_at el k2) j_string) (fun n2 =>
           if String.eqb a (norm n1) && String.eqb b (norm n2) then Val (Some (el, false))
           else if String.eqb a (norm n2) && String.eqb b (norm n1) then Val (Some (el, true))
           else scan k1 k2 norm skip a b l'))
  end.
Definition Lorentz_Berthelot : json :=
  JObj [("betaT", JNum 1); ("gammaT", JNum 1); ("betaV", JNum 1); ("gammaV", JNum 1); ("F", JNum 0)]%string.
(** the estimation scheme, lines 18-28 and 71-81 *)
Definition estimate (flags : json) : res (json * bool) :=
  bind (bind (j_at flags "estimate") j_string) (fun scheme =>
  if String.eqb scheme "Lorentz-Berthelot" then Val (Lorentz_Berthelot, false) else Err StdInvalidArgument).
(** [get_BIPdep], lines 9-85 *)
Definition get_BIPdep (collection : json) (id0 id1 : string) (flags : json) : res (json * bool) :=
  match collection with
  | JArr l =>
      if match l with [] => false | JObj _ :: _ => false | _ => true end then Err InvalidArgument
      else if j_contains flags "force-estimate" then estimate flags
      else bind (scan "hash1" "hash2" upper true (upper id0) (upper id1) l) (fun r0 =>
        match r0 with Some r => Val r | None =>
        bind (scan "Name1" "Name2" upper false (upper id0) (upper id1) l) (fun r1 =>
        match r1 with Some r => Val r | None =>
        bind (scan "CAS1" "CAS2" (fun s => s) false id0 id1 l) (fun r2 =>
        match r2 with Some r => Val r | None =>
        if j_contains flags "estimate" then estimate flags else Err StdInvalidArgument end) end) end)
  | _ => Err InvalidArgument
  end.

Record bip := { b_betaT : R; b_gammaT : R; b_betaV : R; b_gammaV : R }.
(** [get_binary_interaction_double], lines 88-111 *)
Definition get_binary_interaction_double (collection : json) (id0 id1 : string) (flags : json) (T0 T1 v0 v1 : R) : res bip :=
  bind (get_BIPdep collection id0 id1 flags) (fun '(el, swap_needed) =>
  let num k := bind (j_at el k) j_double in
  if j_contains el "betaT" && j_contains el "gammaT" && j_contains el "betaV" && j_contains el "gammaV" then
    bind (num "betaT"%string) (fun betaT => bind (num "gammaT"%string) (fun gammaT =>
    bind (num "betaV"%string) (fun betaV => bind (num "gammaV"%string) (fun gammaV =>
    Val (if swap_needed : bool then {| b_betaT := 1 / betaT; b_gammaT := gammaT; b_betaV := 1 / betaV; b_gammaV := gammaV |}
         else {| b_betaT := betaT; b_gammaT := gammaT; b_betaV := betaV; b_gammaV := gammaV |})))))
  else if j_contains el "xi" && j_contains el "zeta" then
    bind (num "xi"%string) (fun xi => bind (num "zeta"%string) (fun zeta =>
    Val {| b_betaT := 1;
           b_gammaT := 0.5 * (T0 + T1 + xi) / (2 * sqrt (T0 * T1));
           b_betaV := 1;
           b_gammaV := 4 * (v0 + v1 + zeta) /
             (0.25 * (1 / Rpower (1 / v0) (1 / 3) + 1 / Rpower (1 / v1) (1 / 3)) ^ 3) |}))
  else Err StdInvalidArgument).

(** the pairs i < j < N in the order of the double loops *)
Definition pairs (N : nat) : list (nat * nat) :=
  concat (map (fun i => map (fun j => (i, j)) (seq (S i) (N - S i))) (seq 0 N)).
Definition value {A} (d : A) (r : res A) : A := match r with Val a => a | Err _ => d end.
(** Symmetric filling of a matrix from the pairs i < j: lines 122-130 and 156-169. *)
Definition fill (diag : R) (upper_ : nat -> nat -> R) (lower : R -> R) (i j : nat) : R :=
  if Nat.ltb i j then upper_ i j else if Nat.ltb j i then lower (upper_ j i) else diag.

Record bips := { m_betaT : nat -> nat -> R; m_gammaT : nat -> nat -> R;
                 m_betaV : nat -> nat -> R; m_gammaV : nat -> nat -> R }.
Definition bip0 : bip := {| b_betaT := 0; b_gammaT := 0; b_betaV := 0; b_gammaV := 0 |}.
(** [get_BIP_matrices], lines 115-132.  The look-ups have no side effects: the pairs are
    looked up once in order for their exceptions, and the matrices are then defined from
    their values. *)
Definition get_BIP_matrices (collection : json) (ids : list string) (flags : json) (Tc vc : list R) : res bips :=
  let look i j := get_binary_interaction_double collection (nth i ids EmptyString) (nth j ids EmptyString) flags
                    (nth i Tc 0) (nth j Tc 0) (nth i vc 0) (nth j vc 0) in
  bind (map_res (fun '(i, j) => look i j) (pairs (length ids))) (fun _ =>
  let v i j := value bip0 (look i j) in
  Val {| m_betaT := fill 0 (fun i j => b_betaT (v i j)) (fun b => 1 / b);
         m_gammaT := fill 0 (fun i j => b_gammaT (v i j)) (fun g => g);
         m_betaV := fill 0 (fun i j => b_betaV (v i j)) (fun b => 1 / b);
         m_gammaV := fill 0 (fun i j => b_gammaV (v i j)) (fun g => g) |}).
(** [get_F_matrix], lines 153-171 *)
Definition F_of (collection : json) (id0 id1 : string) (flags : json) : res R :=
  bind (get_BIPdep collection id0 id1 flags) (fun '(el, _) =>
  if j_empty el then Val 0 else bind (j_at el "F") j_double).
Definition get_F_matrix (collection : json) (ids : list string) (flags : json) : res (nat -> nat -> R) :=
  let look i j := F_of collection (nth i ids EmptyString) (nth j ids EmptyString) flags in
  bind (map_res (fun '(i, j) => look i j) (pairs (length ids))) (fun _ =>
  Val (fill 0 (fun i j => value 0 (look i j)) (fun f => f))).

(** * Reducing functions *)
(** [MultiFluidReducingFunction], lines 174-262, and the invariant form, lines 264-326 *)
Inductive reducing :=
| GERGreducing (b : bips) (Tc vc : list R)
| Invariant (phiT lambdaT phiV lambdaV : nat -> nat -> R) (Tc vc : list R).
(** the constructor's matrices, lines 189-200 *)
Definition YT (b : bips) (Tc : list R) (i j : nat) : R :=
  if Nat.eqb i j then 0 else 2 * m_betaT b i j * m_gammaT b i j * sqrt (nth (min i j) Tc 0 * nth (max i j) Tc 0).
Definition Yv (b : bips) (vc : list R) (i j : nat) : R :=
  if Nat.eqb i j then 0 else
  2 * 1 / 8 * m_betaV b i j * m_gammaV b i j * (cbrt (nth (min i j) vc 0) + cbrt (nth (max i j) vc 0)) ^ 3.
(** [Y], lines 204-240; the exception for second derivatives is a matter of the number
    type and is not modelled *)
Definition Y_pair (z : list R) (beta Yij : nat -> nat -> R) (i j : nat) : R :=
  let zi := nth i z 0 in
  let zj := nth j z 0 in
  let den := beta i j * beta i j * zi + zj in
  if Req_EM_T den 0 then Yij i j * (zi * zj + zi * zi * (1 - beta i j * beta i j))
  else zi * zj * (zi + zj) / den * Yij i j.
Definition sum_pairs (N : nat) (f : nat -> nat -> R) : R :=
  sumn N (fun i => sumn N (fun j => if Nat.ltb i j then f i j else 0)).
Definition Y (z : list R) (Yc : list R) (beta Yij : nat -> nat -> R) : R :=
  sumn (length z) (fun i => nth i z 0 ^ 2 * nth i Yc 0) + sum_pairs (length z) (Y_pair z beta Yij).
(** invariant form: lines 279-290 and 294-306 *)
Definition invYT (Tc : list R) (i j : nat) : R := sqrt (nth i Tc 0 * nth j Tc 0).
Definition invYv (vc : list R) (i j : nat) : R := 1 / 8 * (cbrt (nth i vc 0) + cbrt (nth j vc 0)) ^ 3.
Definition invY (z : list R) (phi lambda Yij : nat -> nat -> R) : R :=
  sumn (length z) (fun i => nth i z 0 *
    (sumn (length z) (fun j => nth j z 0 * phi i j * Yij i j) +
     (sumn (length z) (fun j => nth j z 0 * cbrt (lambda i j) * cbrt (Yij i j))) ^ 3)).
(** [get_Tr], [get_rhor]: lines 242-243 and 307-308, dispatched by [ReducingTermContainer], 329-360 *)
Definition get_Tr (r : reducing) (z : list R) : R :=
  match r with
  | GERGreducing b Tc _ => Y z Tc (m_betaT b) (YT b Tc)
  | Invariant phiT lambdaT _ _ Tc _ => invY z phiT lambdaT (invYT Tc)
  end.
Definition get_rhor (r : reducing) (z : list R) : R :=
  match r with
  | GERGreducing b _ vc => 1 / Y z vc (m_betaV b) (Yv b vc)
  | Invariant _ _ phiV lambdaV _ vc => 1 / invY z phiV lambdaV (invYv vc)
  end.
Definition red_size (r : reducing) : nat := match r with GERGreducing _ Tc _ | Invariant _ _ _ _ Tc _ => length Tc end.
(** [get_mat], [get_BIP]: lines 245-260 and 310-325; the matrices are square *)
Definition get_mat (r : reducing) (key : string) : res (nat -> nat -> R) :=
  match r with
  | GERGreducing b _ _ =>
      if String.eqb key "betaT" then Val (m_betaT b) else if String.eqb key "gammaT" then Val (m_gammaT b)
      else if String.eqb key "betaV" then Val (m_betaV b) else if String.eqb key "gammaV" then Val (m_gammaV b)
      else Err StdInvalidArgument
  | Invariant phiT lambdaT phiV lambdaV _ _ =>
      if String.eqb key "phiT" then Val phiT else if String.eqb key "lambdaT" then Val lambdaT
      else if String.eqb key "phiV" then Val phiV else if String.eqb key "lambdaV" then Val lambdaV
      else Err StdInvalidArgument
  end.
Definition red_get_BIP (r : reducing) (i j : nat) (key : string) : res R :=
  bind (get_mat r key) (fun m => if Nat.ltb i (red_size r) && Nat.ltb j (red_size r) then Val (m i j) else Err StdInvalidArgument).

(** * Gas constants: multifluid_gas_constant.hpp lines 9-35 *)
Inductive Rcalc := MoleFractionWeighted (Rvals : list R) | CODATA.
Definition get_R (c : Rcalc) (x : list R) : outcome R :=
  match c with
  | MoleFractionWeighted Rvals =>
      if Nat.ltb (length Rvals) (length x) then None
      else ok (sumn (length x) (fun i => nth i x 0 * nth i Rvals 0))
  | CODATA => ok R_gas
  end.

(** * MultiFluid: multifluid.hpp lines 49-198 *)
Definition eos := R -> R -> outcome R.
(** [for (i ...) sum += ...] with evaluations that may fail *)
Fixpoint esum (n : nat) (f : nat -> outcome R) : outcome R :=
  match n with
  | O => ok 0
  | S m => obind (esum m f) (fun a => obind (f m) (fun b => ok (a + b)))
  end.
Record multifluid := { mf_red : reducing; mf_eos : list eos; mf_F : nat -> nat -> R; mf_dep : nat -> nat -> eos; mf_R : Rcalc }.
(** [CorrespondingStatesContribution], lines 59-73 *)
Definition corr_alphari (l : list eos) (tau delta : R) (i : nat) : outcome R :=
  match nth_error l i with Some e => e tau delta | None => None end.
Definition corr_alphar (l : list eos) (tau delta : R) (x : list R) : outcome R :=
  esum (length x) (fun i => obind (corr_alphari l tau delta i) (fun a => ok (nth i x 0 * a))).
(** [DepartureContribution], lines 91-102; [N] is the size of the matrices *)
Definition dep_alphar (N : nat) (F : nat -> nat -> R) (dep : nat -> nat -> eos) (tau delta : R) (x : list R) : outcome R :=
  if Nat.ltb N (length x) then None
  else esum (length x) (fun i => esum (length x) (fun j =>
         if Nat.ltb i j then obind (dep i j tau delta) (fun a => ok (nth i x 0 * nth j x 0 * F i j * a)) else ok 0)).
(** [get_alpharij], lines 104-115 *)
Definition get_alpharij (m : multifluid) (i j : nat) (tau delta : R) : outcome R :=
  let N := length (mf_eos m) in
  if Nat.leb N i || Nat.leb N j then throws InvalidArgument else mf_dep m i j tau delta.
(** [get_BIP], lines 140-148 *)
Definition get_BIP (m : multifluid) (i j : nat) (key : string) : res R :=
  let N := length (mf_eos m) in
  if (String.eqb key "F" || String.eqb key "Fij") && Nat.ltb i N && Nat.ltb j N then Val (mf_F m i j)
  else red_get_BIP (mf_red m) i j key.
(** [alphar_taudelta], lines 179-191 *)
Definition alphar_taudelta (m : multifluid) (tau delta : R) (x : list R) : outcome R :=
  if negb (Nat.eqb (length x) (length (mf_eos m))) then throws InvalidArgument
  else if Nat.eqb (length x) 1 then corr_alphari (mf_eos m) tau delta 0
  else obind (corr_alphar (mf_eos m) tau delta x) (fun a =>
       obind (dep_alphar (length (mf_eos m)) (mf_F m) (mf_dep m) tau delta x) (fun b => ok (a + b))).
(** [alphar], lines 162-177 *)
Definition mf_alphar (m : multifluid) (T rho : R) (x : list R) : outcome R :=
  if negb (Nat.eqb (length x) (length (mf_eos m))) then throws InvalidArgument
  else alphar_taudelta m (get_Tr (mf_red m) x / T) (rho / get_rhor (mf_red m) x) x.

(** * Construction *)
(** [j[key]] and [j[0]] through a const reference *)
Definition cindex (j : json) (k : string) : outcome json :=
  match j with JObj l => match lookup k l with Some v => ok v | None => None end | _ => throws JsonError end.
Definition cindex0 (j : json) : outcome json :=
  match j with JArr (v :: _) => ok v | JArr [] => None | _ => throws JsonError end.
Fixpoint omap {A B} (f : A -> outcome B) (l : list A) : outcome (list B) :=
  match l with
  | [] => ok []
  | a :: l' => obind (f a) (fun b => obind (omap f l') (fun bs => ok (b :: bs)))
  end.
(** [get_Tcvc], multifluid_reducing.hpp lines 138-150, one fluid: (Tc, 1/rhoc) *)
Definition get_Tcvc1 (j : json) : outcome (R * R) :=
  obind (cindex j "EOS") (fun e => obind (cindex0 e) (fun e0 => obind (cindex e0 "STATES") (fun s => obind (cindex s "reducing") (fun red =>
  obind (num red "T") (fun Tc => obind (num red "rhomolar") (fun rhoc => ok (Tc, 1 / rhoc))))))).
(** [get_EOSs], multifluid.hpp lines 764-771, one fluid *)
Definition get_EOS1 (j : json) : outcome (list term) :=
  obind (cindex j "EOS") (fun e => obind (cindex0 e) (fun e0 => obind (cindex e0 "alphar") get_EOS_terms)).
(** [get_Rvals], lines 893-899: indexing past the end of the array copy gives null, and
    [at] then throws *)
Definition get_R1 (j : json) : outcome R :=
  obind (Some (j_at j "EOS")) (fun e => match e with JArr (e0 :: _) => num e0 "gas_constant" | _ => throws JsonError end).
(** [collect_identifiers], lines 796-817: the keys in the order of the map *)
Definition info (j : json) (k : string) : res string := bind (j_at j "INFO") (fun i => bind (j_at i k) j_string).
Fixpoint hashes (l : list json) : res (list string) :=
  match l with
  | [] => Val []
  | j :: l' => bind (j_at j "INFO") (fun i =>
      if j_contains i "HASH" then bind (bind (j_at i "HASH") j_string) (fun h => bind (hashes l') (fun hs => Val (h :: hs)))
      else hashes l')
  end.
Definition collect_identifiers (l : list json) : res (list (string * list string)) :=
  bind (map_res (fun j => info j "NAME") l) (fun Name =>
  bind (map_res (fun j => info j "CAS") l) (fun CAS =>
  bind (map_res (fun j => info j "REFPROP_NAME") l) (fun REFPROP =>
  bind (hashes l) (fun hash =>
  Val ([("CAS", CAS); ("Name", Name); ("REFPROP", REFPROP)]%string ++
       (if Nat.eqb (length hash) (length CAS) then [("hash"%string, hash)] else [])))))).
(** [select_identifier], lines 821-847 *)
Fixpoint select_identifier (collection : json) (set : list (string * list string)) (flags : json) : res string :=
  match set with
  | [] => Err StdInvalidArgument
  | (key, ids) :: set' =>
      match map_res (fun '(i, j) => get_BIPdep collection (nth i ids EmptyString) (nth j ids EmptyString) flags) (pairs (length ids)) with
      | Val _ => Val key
      | Err _ => select_identifier collection set' flags
      end
  end.
(** the departure function of a pair: [get_departure_function_matrix], lines 473-514.
    Both entries of the matrix are built from the same JSON. *)
Fixpoint find_departure (name : string) (l : list json) : outcome json :=
  match l with
  | [] => throws StdInvalidArgument
  | el :: l' => obind (cindex el "Name") (fun n => match n with
      | JStr s => if String.eqb s name then ok el else find_departure name l'
      | _ => find_departure name l' end)
  end.
Definition departure_of (depcollection collection : json) (id0 id1 : string) (flags : json) : outcome (list term) :=
  obind (Some (get_BIPdep collection id0 id1 flags)) (fun '(el, _) =>
  obind (if j_contains el "function" then Some (bind (j_at el "function") j_string) else ok EmptyString) (fun name =>
  if String.eqb name EmptyString then ok [NullTerm]
  else if j_empty depcollection then throws InvalidArgument
  else obind (find_departure name (j_values depcollection)) build_departure_function)).
Definition get_departures (depcollection collection : json) (ids : list string) (flags : json) : outcome (nat -> nat -> list term) :=
  let look i j := departure_of depcollection collection (nth i ids EmptyString) (nth j ids EmptyString) flags in
  obind (omap (fun '(i, j) => look i j) (pairs (length ids))) (fun _ =>
  ok (fun i j => match (if Nat.ltb i j then look i j else if Nat.ltb j i then look j i else ok []) with
                 | Some (Val t) => t | _ => [] end)).
(** [_build_multifluid_model], lines 891-938 *)
Definition build_multifluid (pureJSON : list json) (BIPcollection depcollection flags : json) : outcome multifluid :=
  obind (omap get_Tcvc1 pureJSON) (fun Tcvc =>
  obind (omap get_EOS1 pureJSON) (fun EOSs =>
  obind (omap get_R1 pureJSON) (fun Rvals =>
  obind (Some (collect_identifiers pureJSON)) (fun set =>
  obind (Some (select_identifier BIPcollection set flags)) (fun key =>
  let ids := match lookup key set with Some l => l | None => [] end in
  obind (Some (get_F_matrix BIPcollection ids flags)) (fun F =>
  obind (get_departures depcollection BIPcollection ids flags) (fun dep =>
  obind (Some (get_BIP_matrices BIPcollection ids flags (map fst Tcvc) (map snd Tcvc))) (fun b =>
  obind (if j_contains flags "Rmodel" then Some (j_at flags "Rmodel") else ok JNull) (fun rm =>
  ok {| mf_red := GERGreducing b (map fst Tcvc) (map snd Tcvc);
        mf_eos := map terms_alphar EOSs;
        mf_F := F;
        mf_dep := fun i j => terms_alphar (dep i j);
        mf_R := if match rm with JStr s => String.eqb s "CODATA" | _ => false end then CODATA else MoleFractionWeighted Rvals |}))))))))).

(** * Reverse look-up of fluids: [build_alias_map], lines 850-887.
    [paths] are the absolute paths of the JSON files of the folder. *)
Definition add_alias (v path : string) (m : list (string * string)) : res (list (string * string)) :=
  match lookup v m with Some _ => Err StdInvalidArgument | None => Val ((v, path) :: m) end.
Fixpoint add_aliases (skip : string -> bool) (vs : list string) (path : string) (m : list (string * string)) : res (list (string * string)) :=
  match vs with
  | [] => Val m
  | v :: vs' => if skip v then add_aliases skip vs' path m else bind (add_alias v path m) (add_aliases skip vs' path)
  end.
Definition add_file (path : string) (j : json) (m : list (string * string)) : res (list (string * string)) :=
  bind (info j "REFPROP_NAME") (fun rp =>
  bind (info j "NAME") (fun name =>
  bind (add_alias name path m) (fun m1 =>
  bind (info j "CAS") (fun cas =>
  bind (add_alias cas path m1) (fun m2 =>
  bind (if String.eqb rp name || String.eqb rp "N/A" then Val m2 else add_alias rp path m2) (fun m3 =>
  bind (bind (j_at j "INFO") (fun i => bind (j_at i "ALIASES") (j_valarray j_string))) (fun aliases =>
  add_aliases (fun a => String.eqb a rp || String.eqb a name) aliases path m3))))))).
Fixpoint build_alias_map (fs : FS) (paths : list string) (m : list (string * string)) : res (list (string * string)) :=
  match paths with
  | [] => Val m
  | path :: paths' => bind (load_a_JSON_file fs path) (fun j => bind (add_file path j m) (build_alias_map fs paths'))
  end.
(** [make_pure_components_JSON], lines 963-1014.  [fluids root] lists the files of the
    folder of fluids and [fld] reads REFPROP fluid files (REFPROP-interop); [std::map]'s
    subscript inserts an empty path for an absent key; the exception object of line 988 is
    built but not thrown; [value()] of an empty optional throws ([OtherError 2]). *)
Fixpoint drop (n : nat) (s : string) : string :=
  match n, s with S n', String _ s' => drop n' s' | _, _ => s end.
Definition amap := option (list (string * string)).
Definition from_alias (fs : FS) (root : option string) (m : list (string * string)) (comp : json) : res (json * amap) :=
  bind (j_string comp) (fun s =>
  let '(p, m') := match lookup s m with Some p => (p, m) | None => (EmptyString, (s, EmptyString) :: m) end in
  bind (multilevel_JSON_load fs (JStr p) root) (fun j => Val (j, Some m'))).
Definition get_or_aliasmap (fs : FS) (fluids : string -> res (list string)) (root : option string) (m : amap) (comp : json) : res (json * amap) :=
  match multilevel_JSON_load fs comp root with
  | Val j => Val (j, m)
  | Err _ =>
      match m, root with
      | None, Some r =>
          bind (bind (fluids r) (fun ps => build_alias_map fs ps [])) (fun m' =>
          bind (j_string comp) (fun s =>
          match lookup s m' with None => Err InvalidArgument | Some _ => from_alias fs root m' comp end))
      | Some m', _ => from_alias fs root m' comp
      | None, None => bind (j_string comp) (fun _ => Err (OtherError 2))
      end
  end.
Definition load_component (fs : FS) (fluids : string -> res (list string)) (fld : string -> res json) (root : option string)
    (m : amap) (comp : json) : res (json * amap) :=
  match comp with
  | JStr s =>
      if String.prefix "PATH::" s then bind (load_a_JSON_file fs (drop 6 s)) (fun j => Val (j, m))
      else if String.prefix "FLDPATH::" s then bind (fld (drop 9 s)) (fun j => Val (j, m))
      else if String.prefix "FLD::" s then bind (fld (drop 5 s)) (fun j => Val (j, m))
      else get_or_aliasmap fs fluids root m comp
  | _ => get_or_aliasmap fs fluids root m comp
  end.
Fixpoint load_components (fs : FS) (fluids : string -> res (list string)) (fld : string -> res json) (root : option string)
    (m : amap) (comps : list json) : res (list json) :=
  match comps with
  | [] => Val []
  | c :: cs => bind (load_component fs fluids fld root m c) (fun '(j, m') =>
               bind (load_components fs fluids fld root m' cs) (fun js => Val (j :: js)))
  end.
Definition make_pure_components_JSON (fs : FS) (fluids : string -> res (list string)) (fld : string -> res json)
    (components : json) (root : option string) : res (list json) :=
  match components with
  | JArr l => load_components fs fluids fld root None l
  | _ => Err StdInvalidArgument
  end.
(** [build_multifluid_model], lines 1016-1028 *)
Definition build_multifluid_model (fs : FS) (fluids : string -> res (list string)) (fld : string -> res json)
    (components : list string) (root BIPpath : string) (flags : json) (departurepath : string) : outcome multifluid :=
  obind (Some (if Nat.ltb 1 (length components)
     then bind (multilevel_JSON_load fs (JStr BIPpath) (Some (root ++ "/dev/mixtures/mixture_binary_pairs.json")%string)) (fun B =>
          bind (multilevel_JSON_load fs (JStr departurepath) (Some (root ++ "/dev/mixtures/mixture_departure_functions.json")%string)) (fun D =>
          Val (B, D)))
     else Val (JArr [], JArr []))) (fun '(B, D) =>
  obind (Some (make_pure_components_JSON fs fluids fld (JArr (map JStr components)) (Some root))) (fun pures =>
  build_multifluid pures B D flags)).

(** * Mutants: multifluid_mutant.hpp *)
(** [std::to_string] *)
Definition str_nat (n : nat) : string := NilEmpty.string_of_uint (Nat.to_uint n).
Definition entry (jj : json) (i j : nat) : res json := bind (j_at jj (str_nat i)) (fun r => j_at r (str_nat j)).
Definition BIP_num (jj : json) (key : string) (i j : nat) : res R :=
  bind (entry jj i j) (fun e => bind (j_at e "BIP") (fun b => bind (j_at b key) j_double)).
(** the departure term and its factor, lines 76-94.  [jj] is const: an absent entry is
    undefined behaviour. *)
Definition mutant_pair (jj : json) (i j : nat) : outcome (R * list term) :=
  obind (cindex jj (str_nat i)) (fun r => obind (cindex r (str_nat j)) (fun e =>
  obind (Some (j_at e "departure")) (fun d => obind (Some (j_at e "BIP")) (fun b =>
  obind (num b "Fij") (fun F => obind (build_departure_function d) (fun t => ok (F, t))))))).
(** the matrices of parameters, lines 97-144 *)
Definition mutant_matrix (jj : json) (N : nat) (key : string) (lower : R -> R) : res (nat -> nat -> R) :=
  bind (map_res (fun '(i, j) => BIP_num jj key i j) (pairs N)) (fun _ =>
  Val (fill 0 (fun i j => value 0 (BIP_num jj key i j)) lower)).
(** The loops read the four numbers of a pair together; reading the matrices one after
    the other only changes which exception (all are JSON errors) comes first. *)
Definition mutant_reducing (jj : json) (N : nat) (type : string) (Tc vc : list R) : res reducing :=
  if String.eqb type "invariant" then
    bind (mutant_matrix jj N "phiT" (fun x => x)) (fun phiT => bind (mutant_matrix jj N "lambdaT" Ropp) (fun lambdaT =>
    bind (mutant_matrix jj N "phiV" (fun x => x)) (fun phiV => bind (mutant_matrix jj N "lambdaV" Ropp) (fun lambdaV =>
    Val (Invariant phiT lambdaT phiV lambdaV Tc vc)))))
  else
    bind (mutant_matrix jj N "betaT" (fun x => 1 / x)) (fun betaT => bind (mutant_matrix jj N "betaV" (fun x => 1 / x)) (fun betaV =>
    bind (mutant_matrix jj N "gammaT" (fun x => x)) (fun gammaT => bind (mutant_matrix jj N "gammaV" (fun x => x)) (fun gammaV =>
    Val (GERGreducing {| m_betaT := betaT; m_gammaT := gammaT; m_betaV := betaV; m_gammaV := gammaV |} Tc vc))))).
Definition red_Tc (r : reducing) : list R := match r with GERGreducing _ Tc _ | Invariant _ _ _ _ Tc _ => Tc end.
Definition red_vc (r : reducing) : list R := match r with GERGreducing _ _ vc | Invariant _ _ _ _ _ vc => vc end.
(** [build_multifluid_mutant], lines 65-153 *)
Definition build_mutant (base : multifluid) (jj : json) : outcome multifluid :=
  let N := red_size (mf_red base) in
  obind (omap (fun '(i, j) => mutant_pair jj i j) (pairs N)) (fun _ =>
  obind (Some (bind (entry jj 0 1) (fun e => bind (j_at e "BIP") (fun b =>
         if j_contains b "type" then bind (j_at b "type") j_string else Val EmptyString)))) (fun type =>
  obind (Some (mutant_reducing jj N type (red_Tc (mf_red base)) (red_vc (mf_red base)))) (fun red =>
  let pr i j := match mutant_pair jj i j with Some (Val p) => p | _ => (0, []) end in
  ok {| mf_red := red; mf_eos := mf_eos base;
        mf_F := fill 0 (fun i j => fst (pr i j)) (fun f => f);
        mf_dep := fun i j => terms_alphar (if Nat.ltb i j then snd (pr i j) else if Nat.ltb j i then snd (pr j i) else [NullTerm]);
        mf_R := mf_R base |}))).
(** [MultiFluidAdapter::alphar], lines 51-62: no test of the number of mole fractions *)
Definition mutant_alphar (m : multifluid) (T rho : R) (x : list R) : outcome R :=
  if Nat.ltb (red_size (mf_red m)) (length x) then None
  else
    let tau := get_Tr (mf_red m) x / T in
    let delta := rho / get_rhor (mf_red m) x in
    obind (corr_alphar (mf_eos m) tau delta x) (fun a =>
    obind (dep_alphar (red_size (mf_red m)) (mf_F m) (mf_dep m) tau delta x) (fun b => ok (a + b))).

(** * Ancillary equations: multifluid_ancillaries.hpp lines 9-44 *)
Record ancillary := { an_Tr : R; an_n : list R; an_t : list R; an_red : R; an_tau : bool; an_noexp : bool }.
Definition make_ancillary (j : json) : res ancillary :=
  let numk k := bind (j_at j k) j_double in
  bind (numk "T_r"%string) (fun Tr => bind (numk "Tmax"%string) (fun _ => bind (numk "Tmin"%string) (fun _ =>
  bind (bind (j_at j "type") j_string) (fun type => bind (bind (j_at j "description") j_string) (fun _ =>
  bind (bind (j_at j "n") (j_valarray j_double)) (fun n => bind (bind (j_at j "t") (j_valarray j_double)) (fun t =>
  bind (numk "reducing_value"%string) (fun red => bind (bind (j_at j "using_tau_r") j_bool) (fun tau =>
  Val {| an_Tr := Tr; an_n := n; an_t := t; an_red := red; an_tau := tau; an_noexp := String.eqb type "rhoLnoexp" |}))))))))).
(** [operator()]: arrays of different lengths are undefined behaviour (valarray
    multiplication); [None] also when a power is infinite (zero to a negative power) or
    not a number, as the result is not a number then either *)
Definition ancillary_val (a : ancillary) (T : R) : outcome R :=
  if Rlt_dec (an_Tr a) T then throws InvalidArgument
  else if negb (Nat.eqb (length (an_n a)) (length (an_t a))) then None
  else match osum (length (an_n a)) (fun i => p <-- cpow (1 - T / an_Tr a) (nth i (an_t a) 0); Some (p * nth i (an_n a) 0)) with
       | None => None
       | Some sum =>
           let RHS := if an_tau a then sum * (an_Tr a / T) else sum in
           ok (if an_noexp a then an_red a * (1 + RHS) else exp RHS * an_red a)
       end.
(** [MultiFluidVLEAncillaries], lines 46-53 *)
Record ancillaries := { an_rhoL : ancillary; an_rhoV : ancillary; an_pL : ancillary; an_pV : ancillary }.
Definition make_ancillaries (j : json) : res ancillaries :=
  let get k := bind (j_at j k) make_ancillary in
  bind (get "rhoL"%string) (fun rhoL => bind (get "rhoV"%string) (fun rhoV =>
  bind (if j_contains j "pS" then get "pS"%string else get "pL"%string) (fun pL =>
  bind (if j_contains j "pS" then get "pS"%string else get "pV"%string) (fun pV =>
  Val {| an_rhoL := rhoL; an_rhoV := rhoV; an_pL := pL; an_pV := pV |})))).
