(** The Python package: [teqp/__init__.py] and the model-specific methods of
    [interface/pybind11_wrapper.cpp].

    Numbers of Python are reals.  The conversion of Python values to JSON (pybind11_json) makes [None] the
    null, lists arrays and dictionaries objects.  The functions that build models are followed to the
    factories of the cubic equations and of PC-SAFT; the choice of the factory by its kind and the
    validation by schemas are in [Registry_model]. *)
From Coq Require Import Reals ZArith String List Bool Lia.
From Verif Require Import Json_model Cubic_model PCSAFT_model Multi_model Adapter_model.
Import ListNotations.
Local Open Scope string_scope.

(** Exceptions of Python and of the standard library *)
Definition AttributeError : error := OtherError 301.
Definition IndexError : error := OtherError 302.
Definition StdLengthError : error := OtherError 303.

(** * teqp/__init__.py *)
(** lines 25-32 and the pattern [tolist(kmat) if kmat is not None else None] *)
Definition to_list (l : list R) : json := JArr (map JNum l).
Definition to_rows (k : option (list (list R))) : json := match k with Some k => JArr (map to_list k) | None => JNull end.
(** [vdWEOS], lines 51-59, with the factory of [vdW] (teqp_impl_factory.cpp line 54) *)
Definition vdW_factory (spec : json) : outcome vdW :=
  obind (doubles spec "Tcrit / K") (fun Tc => obind (doubles spec "pcrit / Pa") (fun pc => Some (make_vdW Tc pc))).
Definition py_vdWEOS (Tc pc : list R) : outcome vdW :=
  vdW_factory (JObj [("Tcrit / K", to_list Tc); ("pcrit / Pa", to_list pc)]).
(** [canonical_PR], lines 61-71, and [canonical_SRK], lines 73-83 *)
Definition cubic_spec (Tc pc acentric : list R) (k : option (list (list R))) : json :=
  JObj [("Tcrit / K", to_list Tc); ("pcrit / Pa", to_list pc); ("acentric", to_list acentric); ("kmat", to_rows k)].
Definition py_canonical_PR (Tc pc acentric : list R) (k : option (list (list R))) : outcome cubic := make_canonicalPR (cubic_spec Tc pc acentric k).
Definition py_canonical_SRK (Tc pc acentric : list R) (k : option (list (list R))) : outcome cubic := make_canonicalSRK (cubic_spec Tc pc acentric k).
(** [PCSAFTEOS], lines 92-111: a list of names or of coefficients, told apart by its first entry (lists
    of both are not modelled) *)
Inductive saft_argument := Names (l : list string) | Coeffs (l : list coeffs).
Definition coeffs_dict (c : coeffs) : json :=
  JObj [("name", JStr (c_name c)); ("m", JNum (c_m c)); ("sigma_Angstrom", JNum (c_sigma c)); ("epsilon_over_k", JNum (c_eps c)); ("BibTeXKey", JStr (c_bibtex c))].
Definition PCSAFTEOS (a : saft_argument) (k : option (list (list R))) : res mixture :=
  match a with
  | Names [] | Coeffs [] => Err IndexError
  | Coeffs l => PCSAFTfactory (JObj [("coeffs", JArr (map coeffs_dict l)); ("kmat", to_rows k)])
  | Names l => PCSAFTfactory (JObj [("names", JArr (map JStr l)); ("kmat", to_rows k)])
  end.

(** line 13: two literals without a comma between them are one *)
Definition deprecated_top_level_functions : list string :=
  ["get_splus"; "get_pr"; "get_B2vir" ++ "get_B12vir"; "pure_VLE_T"; "extrapolate_from_critical"; "build_Psir_Hessian_autodiff";
   "build_Psi_Hessian_autodiff"; "build_Psir_gradient_autodiff"; "build_d2PsirdTdrhoi_autodiff"; "get_chempotVLE_autodiff";
   "get_dchempotdT_autodiff"; "get_fugacity_coefficients"; "get_partial_molar_volumes"; "trace_critical_arclength_binary";
   "get_criticality_conditions"; "eigen_problem"; "get_minimum_eigenvalue_Psi_Hessian"; "get_drhovec_dT_crit";
   "get_pure_critical_conditions_Jacobian"; "solve_pure_critical"; "mix_VLE_Tx"; "mixture_VLE_px"; "get_drhovecdp_Tsat";
   "trace_VLE_isotherm_binary"; "get_drhovecdT_psat"; "trace_VLE_isobar_binary"; "get_dpsat_dTsat_isopleth"; "mix_VLLE_T"; "find_VLLE_T_binary"].
(** lines 15-21: the attribute of the module called [f], applied to a model, which is what its
    attributes are, and arguments. The warning is not modelled. *)
Definition attributes (A V : Type) := string -> res (A -> res V).
Definition deprecated_caller {A V} (name : string) (model : attributes A V) (args : A) : res V :=
  bind (model name) (fun g => g args).
Definition top_level {A V} (f : string) : res (attributes A V -> A -> res V) :=
  if existsb (String.eqb f) deprecated_top_level_functions then Val (deprecated_caller f) else Err AttributeError.

(** * interface/pybind11_wrapper.cpp *)
(** The methods of the class of models, lines 496-571, with those of the macros of teqpcpp.hpp lines 22-52 *)
Definition class_methods : list string :=
  ["get_R"; "get_B2vir"; "get_Bnvir"; "get_dmBnvirdTm"; "get_B12vir"; "get_ATrhoXi"; "get_ATrhoXiXj"; "get_ATrhoXiXjXk"; "get_AtaudeltaXi";
   "get_AtaudeltaXiXj"; "get_AtaudeltaXiXjXk"; "get_Arxy";
   "get_Ar00"; "get_Ar01"; "get_Ar02"; "get_Ar03"; "get_Ar04"; "get_Ar10"; "get_Ar11"; "get_Ar12"; "get_Ar13"; "get_Ar14";
   "get_Ar20"; "get_Ar21"; "get_Ar22"; "get_Ar23"; "get_Ar24";
   "get_Ar01n"; "get_Ar02n"; "get_Ar03n"; "get_Ar04n"; "get_Ar05n"; "get_Ar06n"; "get_Ar10n"; "get_Ar20n"; "get_Ar30n"; "get_Ar40n";
   "get_neff"; "get_pr"; "get_splus"; "build_Psir_Hessian_autodiff"; "build_Psi_Hessian_autodiff"; "build_Psir_gradient_autodiff";
   "build_d2PsirdTdrhoi_autodiff"; "get_chempotVLE_autodiff"; "get_dchempotdT_autodiff"; "get_fugacity_coefficients"; "get_partial_molar_volumes";
   "get_deriv_mat2"; "get_pure_critical_conditions_Jacobian"; "solve_pure_critical"; "extrapolate_from_critical"; "trace_critical_arclength_binary";
   "get_criticality_conditions"; "eigen_problem"; "get_minimum_eigenvalue_Psi_Hessian"; "get_drhovec_dT_crit"; "get_dp_dT_crit"; "pure_VLE_T";
   "dpsatdT_pure"; "get_drhovecdp_Tsat"; "get_drhovecdT_psat"; "get_dpsat_dTsat_isopleth"; "trace_VLE_isotherm_binary"; "trace_VLE_isobar_binary";
   "mix_VLE_Tx"; "mix_VLE_Tp"; "mixture_VLE_px"; "mix_VLLE_T"; "find_VLLE_T_binary"; "find_VLLE_p_binary"; "trace_VLLE_binary"].

(** The type indices of lines 135-155; types are numbers *)
Definition vdWEOS1_i : nat := 0. Definition PCSAFT_i : nat := 1. Definition SAFTVRMie_i : nat := 2. Definition canonical_cubic_i : nat := 3.
Definition AmmoniaWater_i : nat := 4. Definition idealgas_i : nat := 5. Definition multifluid_i : nat := 6. Definition multifluidmutant_i : nat := 7.
Definition SW_i : nat := 8. Definition EXP6_i : nat := 9. Definition twocenterLJF_i : nat := 10. Definition QuantumPR_i : nat := 11.
Definition advancedPRaEres_i : nat := 12. Definition RKPRCismondi2005_i : nat := 13. Definition GERG2004_i : nat := 14. Definition GERG2008_i : nat := 15.
Definition CPA_i : nat := 16. Definition genericSAFT_i : nat := 17. Definition MultiFluidAssociation_i : nat := 18. Definition MultiFluidActivity_i : nat := 19.

(** What an attached attribute does: a method that gets the model of some type ([get_typed], lines 58-66),
    one that gets it to change it ([get_mutable_typed], lines 68-76), a value got when it is attached *)
Inductive access := Reads (t : nat) | Writes (t : nat) | Stored (t : nat).
(** [attach_multifluid_methods], lines 108-120 *)
Definition multifluid_attributes (t : nat) : list (string * access) :=
  [("get_Tcvec", Reads t); ("get_vcvec", Reads t); ("get_Tr", Reads t); ("get_rhor", Reads t); ("get_meta", Reads t); ("set_meta", Writes t);
   ("get_alpharij", Reads t); ("get_BIP", Reads t)].
(** [attach_GERG_methods], lines 121-132 *)
Definition GERG_attributes (t : nat) : list (string * access) :=
  [("get_Tcvec", Reads t); ("get_vcvec", Reads t); ("get_Tr", Reads t); ("get_rhor", Reads t)].
(** [attach_model_specific_methods], lines 165-334 *)
Definition attached (index : nat) : list (string * access) :=
  if Nat.eqb index vdWEOS1_i then [("get_a", Reads vdWEOS1_i); ("get_b", Reads vdWEOS1_i)]
  else if Nat.eqb index PCSAFT_i then
    [("get_m", Reads PCSAFT_i); ("get_sigma_Angstrom", Reads PCSAFT_i); ("get_epsilon_over_k_K", Reads PCSAFT_i); ("get_names", Reads PCSAFT_i);
     ("get_BibTeXKeys", Reads PCSAFT_i); ("max_rhoN", Reads PCSAFT_i); ("get_kmat", Reads PCSAFT_i)]
  else if Nat.eqb index SAFTVRMie_i then
    [("get_names", Reads SAFTVRMie_i); ("get_BibTeXKeys", Reads SAFTVRMie_i); ("get_m", Reads SAFTVRMie_i); ("get_sigma_Angstrom", Reads SAFTVRMie_i);
     ("get_sigma_m", Reads SAFTVRMie_i); ("get_epsilon_over_k_K", Reads SAFTVRMie_i); ("get_lambda_r", Reads SAFTVRMie_i); ("get_lambda_a", Reads SAFTVRMie_i);
     ("get_kmat", Reads SAFTVRMie_i); ("has_polar", Reads SAFTVRMie_i); ("get_core_calcs", Reads SAFTVRMie_i)]
  else if Nat.eqb index canonical_cubic_i then
    [("get_a", Reads canonical_cubic_i); ("get_b", Reads canonical_cubic_i); ("superanc_rhoLV", Reads canonical_cubic_i); ("get_kmat", Reads canonical_cubic_i);
     ("get_meta", Reads canonical_cubic_i); ("set_meta", Writes canonical_cubic_i)]
  else if Nat.eqb index QuantumPR_i then
    [("get_ab", Reads QuantumPR_i); ("get_c", Reads QuantumPR_i); ("superanc_rhoLV", Reads QuantumPR_i); ("get_kmat", Reads QuantumPR_i);
     ("get_lmat", Reads QuantumPR_i); ("get_Tc_K", Reads QuantumPR_i); ("get_pc_Pa", Reads QuantumPR_i)]
  else if Nat.eqb index advancedPRaEres_i then
    [("get_a", Reads advancedPRaEres_i); ("get_b", Reads advancedPRaEres_i); ("superanc_rhoLV", Reads advancedPRaEres_i); ("get_Tc_K", Reads advancedPRaEres_i);
     ("get_pc_Pa", Reads advancedPRaEres_i)]
  else if Nat.eqb index RKPRCismondi2005_i then
    [("get_ab", Reads RKPRCismondi2005_i); ("get_delta_1", Reads RKPRCismondi2005_i); ("get_Tc_K", Reads RKPRCismondi2005_i); ("get_pc_Pa", Reads RKPRCismondi2005_i);
     ("get_k", Reads RKPRCismondi2005_i); ("get_kmat", Reads RKPRCismondi2005_i); ("get_lmat", Reads RKPRCismondi2005_i)]
  else if Nat.eqb index AmmoniaWater_i then
    [("TcNH3", Stored AmmoniaWater_i); ("vcNH3", Stored AmmoniaWater_i); ("get_Tr", Reads AmmoniaWater_i); ("get_rhor", Reads AmmoniaWater_i);
     ("alphar_departure", Reads AmmoniaWater_i); ("dalphar_departure_ddelta", Reads AmmoniaWater_i)]
  else if Nat.eqb index multifluid_i then (multifluid_attributes multifluid_i ++ [("build_ancillaries", Reads multifluid_i)])%list
  else if Nat.eqb index GERG2004_i then GERG_attributes GERG2004_i
  else if Nat.eqb index GERG2008_i then GERG_attributes GERG2008_i
  else if Nat.eqb index idealgas_i then
    map (fun s => ("get_Aig" ++ s, Reads idealgas_i)) ["00"; "01"; "02"; "03"; "04"; "10"; "11"; "12"; "13"; "14"; "20"; "21"; "22"; "23"; "24"]
  else if Nat.eqb index multifluidmutant_i then multifluid_attributes multifluidmutant_i
  else if Nat.eqb index SW_i then [("get_lambda", Reads SW_i)]
  else if Nat.eqb index EXP6_i then [("alpha", Stored EXP6_i)]
  else if Nat.eqb index twocenterLJF_i then [("Lstar", Stored twocenterLJF_i); ("mustar_sq", Stored twocenterLJF_i)]
  else if Nat.eqb index CPA_i then [("get_assoc_calcs", Reads CPA_i)]
  else if Nat.eqb index genericSAFT_i then [("get_assoc_calcs", Reads genericSAFT_i)]
  else if Nat.eqb index MultiFluidAssociation_i then [("get_assoc_calcs", Reads MultiFluidAssociation_i)]
  else if Nat.eqb index MultiFluidActivity_i then
    [("calc_gER_over_RT", Reads MultiFluidActivity_i); ("calc_lngamma_resid", Reads MultiFluidActivity_i); ("calc_lngamma_comb", Reads MultiFluidActivity_i)]
  else [].

(** An attribute of an instance: what was stored, or the access a method makes when it is called *)
Inductive attribute (V : Type) := Value (o : option (nat * V)) | Method (mutable : bool) (t : nat).
Arguments Value {V}. Arguments Method {V}.
(** The attributes of the instance after attaching; [None] is the null pointer, which Python's [None]
    converts to (lines 172-175) *)
Definition attach_one {V} (m : memory V) (a : adapter) (p : string * access) : res (string * attribute V) :=
  match snd p with
  | Stored t => bind (get_model_cref {| ty_const := false; ty_of := t |} (Some a)) (fun l => Val (fst p, Value (m l)))
  | Reads t => Val (fst p, Method false t)
  | Writes t => Val (fst p, Method true t)
  end.
Definition attach_model_specific_methods {V} (m : memory V) (am : option adapter) : res (list (string * attribute V)) :=
  match am with
  | None => Err StdInvalidArgument
  | Some a => map_res (attach_one m a) (attached (get_type_index a))
  end.
(** Using an attribute of the instance, at another time: the object it gets at; a method called [set_meta]
    replaces it. Attributes of the instance come before those of the class. *)
Definition use {V} (m : memory V) (a : adapter) (o : attribute V) : res (option (nat * V)) :=
  match o with
  | Value v => Val v
  | Method mutable t =>
      bind ((if mutable then get_model_ref else get_model_cref) {| ty_const := false; ty_of := t |} (Some a)) (fun l => Val (m l))
  end.
Definition use_attribute {V} (dict : list (string * attribute V)) (m : memory V) (a : adapter) (name : string) : res (option (nat * V)) :=
  match lookup name dict with None => Err AttributeError | Some o => use m a o end.

(** [_build_multifluid_mutant] and [_build_multifluid_ecs_mutant], lines 78-104, behind the functions of
    [teqp/__init__.py] lines 135-143: [mutate] makes the contents of the new model, of type [kind], from
    those of the multifluid model; it is in a local variable, at [tmp], until it is copied by [make_owned].
    No attributes are attached to models of the second type, which is not in the list of lines 135-155. *)
Definition ecs_mutant_i : nat := 20.
Definition build_mutant {V} (mutate : V -> res V) (kind : nat) (m : memory V) (am : option adapter) (tmp fresh : nat) : outcome (memory V * adapter) :=
  obind (Some (get_model_cref {| ty_const := false; ty_of := multifluid_i |} am)) (fun l =>
  match m l with
  | None => None
  | Some (_, v) => obind (Some (mutate v)) (fun w =>
      match make_owned (update m tmp (Some (kind, w))) tmp fresh with
      | None => None
      | Some (m', b) => ok (update m' tmp None, b)
      end)
  end).
(** [build_ancillaries] of multifluid models, lines 263-275, given the number of fluids and the metadata
    (that [get_meta] gives and the parser reads back). The size is signed, so the comparison is too; then the
    index is converted to an unsigned number of 64 bits, and [operator[]] of nlohmann's arrays (json.hpp
    lines 21389-21431) makes the array one longer than the index when it is not in it. With 2^64-1 it becomes
    empty, and its element is read; larger than memory is a length error. *)
Definition array_index (l : list json) (k : Z) : outcome json :=
  let idx := (k mod 2 ^ 64)%Z in
  if (idx <? Z.of_nat (length l))%Z then match nth_error l (Z.to_nat idx) with Some j => ok j | None => None end
  else if (idx + 1 =? 2 ^ 64)%Z then None
  else if (2 ^ 31 <=? idx)%Z then throws StdLengthError
  else ok JNull.
Definition build_ancillaries (N : nat) (meta : json) (i : option Z) : outcome ancillaries :=
  if match i with None => negb (Nat.eqb N 1) | Some _ => false end then throws InvalidArgument
  else let k := match i with Some k => k | None => 0%Z end in
  if (Z.of_nat N - 1 <? k)%Z then throws InvalidArgument
  else obind (Some (j_at meta "pures")) (fun pures =>
       match pures with
       | JArr l => obind (array_index l k) (fun f => Some (bind (j_at f "ANCILLARIES") make_ancillaries))
       | _ => throws JsonError
       end).
