(** The kinds of models of [interface/CPP/teqp_impl_factory.cpp] and the requests that the functions of
    [teqp/__init__.py] make. *)
From Coq Require Import Reals String List Bool.
From Verif Require Import Json_model Registry_model PCSAFT_model Python_model.
Import ListNotations.
Local Open Scope string_scope.

(** The keys of [pointer_factory], lines 52-97 *)
Definition kinds : list string :=
  ["vdW1"; "vdW"; "PR"; "SRK"; "cubic"; "QCPRAasen"; "advancedPRaEres"; "RKPRCismondi2005"; "SAFT-VR-Mie"; "PCSAFT"; "PCSAFTPureGrossSadowski2001"; "SoftSAFT";
   "genericSAFT"; "GERG2004resid"; "GERG2008resid"; "GERG2004idealgas"; "GERG2008idealgas"; "LKP"; "multifluid"; "multifluid-ECS-HuberEly1994";
   "multifluid-association"; "multifluid-activity"; "AmmoniaWaterTillnerRoth"; "LJ126_TholJPCRD2016"; "LJ126_KolafaNezbeda1994"; "LJ126_Johnson1993";
   "SW_EspindolaHeredia2009"; "EXP6_Kataoka1992"; "Mie_Pohl2023"; "Mie_Chaparro2023"; "2CLJF"; "2CLJF-Dipole"; "2CLJF-Quadrupole"; "CPA"; "IdealHelmholtz"].

(** A call of one of the functions, lines 34-133 of [teqp/__init__.py]; [vdWEOS1] is [make_vdW1] *)
Inductive builder :=
| Make_vdW1 (a b : R) | VdWEOS (Tc pc : list R) | Canonical_PR (Tc pc acentric : list R) (k : option (list (list R)))
| Canonical_SRK (Tc pc acentric : list R) (k : option (list (list R))) | CPAfactory (spec : json) | PCSAFT_EOS (a : saft_argument) (k : option (list (list R)))
| AmmoniaWater | Build_LJ126 | IdealHelmholtz (model : json)
| Build_multifluid (components : list string) (root BIP : string) (flags : json) (departure : string).
Definition request (kind : string) (spec : json) : json := JObj [("kind", JStr kind); ("model", spec)].
(** [spec] of [PCSAFTEOS], lines 93-105 *)
Definition saft_spec (a : saft_argument) (k : option (list (list R))) : res json :=
  match a with
  | Names [] | Coeffs [] => Err IndexError
  | Coeffs l => Val (JObj [("coeffs", JArr (map coeffs_dict l)); ("kmat", to_rows k)])
  | Names l => Val (JObj [("names", JArr (map JStr l)); ("kmat", to_rows k)])
  end.
Definition builder_request (b : builder) : res json :=
  match b with
  | Make_vdW1 a b => Val (request "vdW1" (JObj [("a", JNum a); ("b", JNum b)]))
  | VdWEOS Tc pc => Val (request "vdW" (JObj [("Tcrit / K", to_list Tc); ("pcrit / Pa", to_list pc)]))
  | Canonical_PR Tc pc acentric k => Val (request "PR" (cubic_spec Tc pc acentric k))
  | Canonical_SRK Tc pc acentric k => Val (request "SRK" (cubic_spec Tc pc acentric k))
  | CPAfactory spec => Val (request "CPA" spec)
  | PCSAFT_EOS a k => bind (saft_spec a k) (fun spec => Val (request "PCSAFT" spec))
  | AmmoniaWater => Val (request "AmmoniaWaterTillnerRoth" (JObj []))
  | Build_LJ126 => Val (request "LJ126_TholJPCRD2016" (JObj []))
  | IdealHelmholtz model => Val (request "IdealHelmholtz" model)
  | Build_multifluid components root BIP flags departure =>
      Val (request "multifluid" (JObj [("components", JArr (map JStr components)); ("root", JStr root); ("BIP", JStr BIP); ("flags", flags); ("departure", JStr departure)]))
  end.
(** [make_model], lines 42-49, with validation by default (pybind11_wrapper.cpp line 573) *)
Definition make_model {Model} (reg : registry Model) (sch : schemas) (b : builder) : built Model :=
  match builder_request b with Err e => fail Model e | Val j => build_model_ptr Model reg sch j true end.
