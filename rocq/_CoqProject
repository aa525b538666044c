-Q theories Verif
theories/CApi_model.v
theories/CApi_spec.v
theories/CApi_proofs.v
theories/Properties_CApi.v
theories/Json_model.v
theories/Util_model.v
theories/Registry_model.v
theories/Util_proofs.v
theories/Properties_Util.v
theories/Numerics_model.v
theories/Poly_spec.v
theories/Numerics_proofs.v
theories/Quad_proofs.v
theories/Properties_Numerics.v
theories/Derivs_spec.v
theories/Derivs_model.v
theories/Derivs_proofs.v
theories/Derivs_proofs2.v
theories/Properties_Derivs.v
theories/Smooth_spec.v
theories/Smooth_proofs.v
theories/Pure_model.v
theories/Pure_spec.v
theories/Pure_proofs.v
theories/Properties_Pure.v
theories/Vec_spec.v
theories/Vec_proofs.v
theories/Iso_model.v
theories/Iso_spec.v
theories/Iso_proofs.v
theories/Properties_Iso.v
theories/Trace_model.v
theories/Trace_spec.v
theories/Trace_proofs.v
theories/Properties_Trace.v
theories/PhaseEq_model.v
theories/PhaseEq_spec.v
theories/PhaseEq_proofs.v
theories/PhaseEq_proofs2.v
theories/Properties_PhaseEq.v
theories/Cubic_model.v
theories/Cubic_spec.v
theories/Cubic_proofs.v
theories/Cubic_proofs2.v
theories/Properties_Cubic.v
theories/Properties_Cubic2.v
theories/Terms_model.v
theories/Terms_spec.v
theories/Terms_proofs.v
theories/Terms_proofs2.v
theories/Properties_Terms.v
theories/Multi_model.v
theories/Multi_spec.v
theories/Multi_proofs.v
theories/Multi_proofs2.v
theories/Properties_Multi.v
theories/Properties_Cubic3.v
theories/Properties_Multi2.v
theories/Ideal_model.v
theories/Ideal_spec.v
theories/Ideal_proofs.v
theories/Properties_Ideal.v
theories/Float_model.v
theories/Iter_model.v
theories/Iter_spec.v
theories/Iter_proofs.v
theories/Properties_Iter.v
theories/VLE_model.v
theories/VLE_spec.v
theories/VLE_proofs.v
theories/VLE_proofs2.v
theories/VLE_proofs3.v
theories/Properties_VLE.v
theories/Assoc_model.v
theories/CPA_model.v
theories/Assoc_spec.v
theories/Assoc_proofs.v
theories/Assoc_proofs2.v
theories/Assoc_proofs3.v
theories/Assoc_proofs4.v
theories/Assoc_proofs5.v
theories/Properties_Assoc.v
theories/Properties_Assoc2.v
theories/Properties_CPA.v
theories/Properties_CPA2.v
theories/Properties_VLE2.v
theories/PCSAFT_model.v
theories/PCSAFT_spec.v
theories/PCSAFT_proofs.v
theories/PCSAFT_proofs2.v
theories/PCSAFT_proofs3.v
theories/Properties_PCSAFT.v
theories/Properties_PCSAFT2.v
theories/Properties_PCSAFT3.v
theories/Properties_CPA3.v
theories/Potential_model.v
theories/Potential_spec.v
theories/Potential_proofs.v
theories/Properties_Potential.v
theories/Potential_proofs2.v
theories/Properties_Potential2.v
theories/Properties_Potential3.v
theories/VLLE_model.v
theories/VLLE_spec.v
theories/VLLE_proofs.v
theories/Properties_VLLE.v
theories/Properties_VLLE2.v
theories/Tracer_model.v
theories/Tracer_spec.v
theories/Tracer_proofs.v
theories/Properties_Tracer.v
theories/Optim_model.v
theories/Optim_spec.v
theories/Optim_proofs.v
theories/Optim_proofs2.v
theories/Properties_Optim.v
theories/Properties_Optim2.v
theories/Critical_model.v
theories/Critical_spec.v
theories/Critical_proofs.v
theories/Properties_Critical.v
theories/Properties_Critical2.v
theories/CritTrace_model.v
theories/CritTrace_spec.v
theories/CritTrace_proofs.v
theories/Properties_CritTrace.v
theories/Properties_CritTrace2.v
theories/Build_model.v
theories/Properties_Build.v
theories/LKP_model.v
theories/LKP_spec.v
theories/LKP_proofs.v
theories/Properties_LKP.v
theories/Reduced_model.v
theories/Reduced_spec.v
theories/Properties_Reduced.v
theories/Properties_Reduced2.v
theories/SoftSAFT_model.v
theories/Properties_SoftSAFT.v
theories/VRMie_model.v
theories/VRMie_spec.v
theories/VRMie_proofs.v
theories/VRMie_proofs2.v
theories/VRMie_proofs3.v
theories/Properties_VRMie.v
theories/Properties_VRMie2.v
theories/GERG_tables.v
theories/GERG_reference.v
theories/GERG_model.v
theories/GERG_spec.v
theories/GERG_proofs.v
theories/GERG_proofs2.v
theories/GERG_proofs3.v
theories/GERG_proofs4.v
theories/GERG_proofs5.v
theories/Properties_GERG.v
theories/Properties_GERG2.v
theories/Polar_tables.v
theories/Polar_model.v
theories/Polar_spec.v
theories/Polar_proofs.v
theories/Polar_proofs2.v
theories/Polar_proofs3.v
theories/Properties_Polar.v
theories/Properties_Polar2.v
theories/COSMO_model.v
theories/COSMO_spec.v
theories/COSMO_proofs.v
theories/COSMO_proofs2.v
theories/Properties_COSMO.v
theories/Properties_COSMO2.v
theories/SuperAnc_tables.v
theories/SuperAnc_model.v
theories/SuperAnc_spec.v
theories/SuperAnc_proofs.v
theories/Properties_SuperAnc.v
theories/Adapter_model.v
theories/Adapter_spec.v
theories/Adapter_proofs.v
theories/Properties_Adapter.v
theories/Fluids_model.v
theories/Fluids_spec.v
theories/Fluids_proofs.v
theories/Fluids_proofs2.v
theories/Properties_Fluids.v
theories/Rounding_model.v
theories/Rounding_spec.v
theories/Rounding_proofs.v
theories/Properties_Rounding.v
theories/Report_model.v
theories/Report_spec.v
theories/Report_proofs.v
theories/Properties_Report.v
theories/Python_model.v
theories/Python_spec.v
theories/Properties_Python.v
theories/Kinds_model.v
theories/Properties_Kinds.v
