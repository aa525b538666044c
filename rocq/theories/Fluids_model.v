(** Fluids of the multifluid library that come with an equation of another kind: the Lennard-Jones fluid of
    [include/teqp/models/mie/lennardjones.hpp] and the PC-SAFT term of
    [include/teqp/models/multifluid_eosterms.hpp], which [Terms_model] leaves out.  Doubles are real
    numbers. *)
From Coq Require Import Reals String List Bool.
From Verif Require Import Json_model Cubic_model Terms_model Multi_model Assoc_model PCSAFT_model.
Import ListNotations.
Local Open Scope R_scope.

(** * The Lennard-Jones fluid *)
(** [build_LJ126_TholJPCRD2016], lennardjones.hpp lines 13-71: the text of the file, without the members
    that are not read (units, limits, references) *)
Definition LJ_power : json :=
  JObj [("d", JArr [JNum 4; JNum 1; JNum 1; JNum 2; JNum 2; JNum 3; JNum 1; JNum 1; JNum 3; JNum 2; JNum 2; JNum 5]);
    ("l", JArr [JNum 0; JNum 0; JNum 0; JNum 0; JNum 0; JNum 0; JNum 1; JNum 2; JNum 2; JNum 1; JNum 2; JNum 1]);
    ("n", JArr [JNum 0.005208073; JNum 2.186252; JNum (- 2.161016); JNum 1.4527; JNum (- 2.041792); JNum 0.18695286;
        JNum (- 0.6208625); JNum (- 0.568839); JNum (- 0.80055922); JNum 0.10901431; JNum (- 0.4974561); JNum (- 0.090988445)]);
    ("t", JArr [JNum 1; JNum 0.32; JNum 0.505; JNum 0.672; JNum 0.843; JNum 0.898; JNum 1.205; JNum 1.786; JNum 2.77;
        JNum 1.786; JNum 2.59; JNum 1.294]);
    ("type", JStr "ResidualHelmholtzPower")]%string.
Definition LJ_gaussian : json :=
  JObj [("beta", JArr [JNum 0.625; JNum 0.638; JNum 3.91; JNum 0.156; JNum 0.157; JNum 0.153; JNum 1.16; JNum 1.73; JNum 383;
        JNum 0.112; JNum 0.119]);
    ("d", JArr [JNum 1; JNum 1; JNum 2; JNum 3; JNum 3; JNum 2; JNum 1; JNum 2; JNum 3; JNum 1; JNum 1]);
    ("epsilon", JArr [JNum 0.2053; JNum 0.409; JNum 0.6; JNum 1.203; JNum 1.829; JNum 1.397; JNum 1.39; JNum 0.539; JNum 0.934;
        JNum 2.369; JNum 2.43]);
    ("eta", JArr [JNum 2.067; JNum 1.522; JNum 8.82; JNum 1.722; JNum 0.679; JNum 1.883; JNum 3.925; JNum 2.461; JNum 28.2;
        JNum 0.753; JNum 0.82]);
    ("gamma", JArr [JNum 0.71; JNum 0.86; JNum 1.94; JNum 1.48; JNum 1.49; JNum 1.945; JNum 3.02; JNum 1.11; JNum 1.17;
        JNum 1.33; JNum 0.24]);
    ("n", JArr [JNum (- 1.4667177); JNum 1.891469; JNum (- 0.1383701); JNum (- 0.3869645); JNum 0.1265702; JNum 0.605781;
        JNum 1.179189; JNum (- 0.47732679); JNum (- 9.9218575); JNum (- 0.5747932); JNum 0.003772923]);
    ("t", JArr [JNum 2.83; JNum 2.548; JNum 4.65; JNum 1.385; JNum 1.46; JNum 1.351; JNum 0.66; JNum 1.496; JNum 1.83;
        JNum 1.616; JNum 4.97]);
    ("type", JStr "ResidualHelmholtzGaussian")]%string.
Definition LJ_file : json :=
  JObj [("EOS", JArr [JObj [("STATES", JObj [("reducing", JObj [("T", JNum 1.32); ("rhomolar", JNum 0.31)])]);
                            ("alphar", JArr [LJ_power; LJ_gaussian]);
                            ("gas_constant", JNum 1)]]);
        ("INFO", JObj [("NAME", JStr "LennardJones"); ("REFPROP_NAME", JStr "LJF"); ("CAS", JStr "N/A")])]%string.
(** line 70, with the default flags of [build_multifluid_JSONstr], multifluid.hpp lines 941-953 *)
Definition build_LJ126_Thol : outcome multifluid := build_multifluid [LJ_file] (JObj []) (JObj []) JNull.

(** * The PC-SAFT term *)
(** [PCSAFTGrossSadowski2001Term], multifluid_eosterms.hpp lines 402-423, beside the other terms *)
Inductive full_term := Plain (t : term) | PCSAFTTerm (Tred rhored : R) (p : purefluid).
Definition full_alphar (t : full_term) (tau delta : R) : outcome R :=
  match t with
  | Plain t => term_alphar t tau delta
  | PCSAFTTerm Tred rhored p => fin (pure_alphar p (Tred / tau) (delta * rhored))
  end.
(** [EOSTermContainer::alphar], lines 436-456 *)
Fixpoint full_sum (ts : list full_term) (tau delta : R) : outcome R :=
  match ts with
  | [] => ok 0
  | t :: ts' => obind (full_alphar t tau delta) (fun a => obind (full_sum ts' tau delta) (fun b => ok (a + b)))
  end.
(** [get_EOS_terms], multifluid.hpp lines 516-762, with the branch of lines 754-756 *)
Definition PCSAFT_type : string := "ResidualHelmholtzPCSAFTGrossSadowski2001".
Definition build_full_term (j : json) : outcome (list full_term) :=
  obind (Some (bind (j_at j "type") j_string)) (fun type =>
  if String.eqb type PCSAFT_type then
    obind (num j "Tred / K") (fun Tred => obind (num j "rhored / mol/m^3") (fun rhored =>
    obind (Some (pure_factory j)) (fun p => ok [PCSAFTTerm Tred rhored p])))
  else obind (build_fluid_term j) (fun ts => ok (map Plain ts))).
Fixpoint build_full_terms (js : list json) : outcome (list full_term) :=
  match js with
  | [] => ok []
  | j :: js' => obind (build_full_term j) (fun t => obind (build_full_terms js') (fun ts => ok (t ++ ts)))
  end.
Fixpoint check_full_types (js : list json) : res unit :=
  match js with
  | [] => Val tt
  | j :: js' => bind (j_string (index j "type")) (fun type =>
      if existsb (String.eqb type) (allowed_types ++ [PCSAFT_type]) then check_full_types js' else Err StdInvalidArgument)
  end.
Definition get_full_terms (alphar : json) : outcome (list full_term) :=
  if j_empty alphar then throws InvalidArgument
  else obind (Some (check_full_types (j_values alphar))) (fun _ => build_full_terms (j_values alphar)).
(** [get_EOSs], lines 764-771, one fluid *)
Definition get_full_EOS1 (j : json) : outcome (list full_term) :=
  obind (cindex j "EOS") (fun e => obind (cindex0 e) (fun e0 => obind (cindex e0 "alphar") get_full_terms)).
(** [_build_multifluid_model], lines 891-938: [Multi_model.build_multifluid] with these terms *)
Definition build_fluids (pureJSON : list json) (BIPcollection depcollection flags : json) : outcome multifluid :=
  obind (omap get_Tcvc1 pureJSON) (fun Tcvc =>
  obind (omap get_full_EOS1 pureJSON) (fun EOSs =>
  obind (omap get_R1 pureJSON) (fun Rvals =>
  obind (Some (collect_identifiers pureJSON)) (fun set =>
  obind (Some (select_identifier BIPcollection set flags)) (fun key =>
  let ids := match lookup key set with Some l => l | None => [] end in
  obind (Some (get_F_matrix BIPcollection ids flags)) (fun F =>
  obind (get_departures depcollection BIPcollection ids flags) (fun dep =>
  obind (Some (get_BIP_matrices BIPcollection ids flags (map fst Tcvc) (map snd Tcvc))) (fun b =>
  obind (if j_contains flags "Rmodel" then Some (j_at flags "Rmodel") else ok JNull) (fun rm =>
  ok {| mf_red := GERGreducing b (map fst Tcvc) (map snd Tcvc);
        mf_eos := map full_sum EOSs;
        mf_F := F;
        mf_dep := fun i j => terms_alphar (dep i j);
        mf_R := if match rm with JStr s => String.eqb s "CODATA" | _ => false end then CODATA else MoleFractionWeighted Rvals |}))))))))).
