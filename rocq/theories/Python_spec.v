(** What the statements about the Python package use. *)
From Coq Require Import Reals ZArith String List.
From Verif Require Import Json_model PCSAFT_model.
Import ListNotations.
Local Open Scope string_scope.

(** The rows of a square matrix *)
Definition square_rows (n : nat) (k : list (list R)) : Prop := length k = n /\ List.Forall (fun r => length r = n) k.

(** The coefficients without those of polar terms *)
Definition without_polar (c : coeffs) : coeffs :=
  {| c_name := c_name c; c_m := c_m c; c_sigma := c_sigma c; c_eps := c_eps c; c_bibtex := c_bibtex c; c_mustar2 := 0%R; c_nmu := 0%R; c_Qstar2 := 0%R; c_nQ := 0%R |}.
Definition nonpolar (c : coeffs) : Prop := c_mustar2 c = 0%R /\ c_nmu c = 0%R /\ c_Qstar2 c = 0%R /\ c_nQ c = 0%R.

(** The functions at top level that became methods of models, as
    [teqp/__init__.py] lists them, each by itself. *)
Definition became_methods : list string :=
  ["get_splus"; "get_pr"; "get_B2vir"; "get_B12vir"; "pure_VLE_T"; "extrapolate_from_critical"; "build_Psir_Hessian_autodiff";
   "build_Psi_Hessian_autodiff"; "build_Psir_gradient_autodiff"; "build_d2PsirdTdrhoi_autodiff"; "get_chempotVLE_autodiff";
   "get_dchempotdT_autodiff"; "get_fugacity_coefficients"; "get_partial_molar_volumes"; "trace_critical_arclength_binary";
   "get_criticality_conditions"; "eigen_problem"; "get_minimum_eigenvalue_Psi_Hessian"; "get_drhovec_dT_crit";
   "get_pure_critical_conditions_Jacobian"; "solve_pure_critical"; "mix_VLE_Tx"; "mixture_VLE_px"; "get_drhovecdp_Tsat";
   "trace_VLE_isotherm_binary"; "get_drhovecdT_psat"; "trace_VLE_isobar_binary"; "get_dpsat_dTsat_isopleth"; "mix_VLLE_T"; "find_VLLE_T_binary"].
