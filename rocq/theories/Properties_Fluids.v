(** Theorems about fluids with equations of other kinds: C92 (the Lennard-Jones fluid of Thol) and C93
    (cubic and PC-SAFT equations within multifluid models). *)
From Coq Require Import Reals ZArith String List Bool Lia Lra.
From Coquelicot Require Import Coquelicot.
From Verif Require Import Json_model Util_model Vec_spec Vec_proofs Cubic_model Cubic_spec Terms_model Terms_spec Terms_proofs Multi_model Multi_spec Multi_proofs Multi_proofs2
  Properties_Terms Properties_Multi Assoc_model PCSAFT_model PCSAFT_spec PCSAFT_proofs PCSAFT_proofs2 PCSAFT_proofs3 Properties_PCSAFT Fluids_model Fluids_spec Fluids_proofs Fluids_proofs2.
Import ListNotations.
Local Open Scope R_scope.

(** * C92 *)
(** The model is built, in units of the potential, and is the published equation at every temperature and
    density. *)
Theorem C92_published : exists m, build_LJ126_Thol = ok m /\ get_R (mf_R m) [1] = ok 1 /\
  (forall T rho, 0 < T -> 0 <= rho -> mf_alphar m T rho [1] = ok (Thol T rho)) /\
  (forall T rho x, length x <> 1%nat -> mf_alphar m T rho x = throws InvalidArgument).
Proof.
  destruct LJ_alphar as (m & B & ER & L & V). exists m. split; [exact B|]. split; [rewrite ER; cbn; f_equal; f_equal; ring|].
  split; [exact V|]. intros T rho x Lx. unfold mf_alphar. rewrite L. destruct (Nat.eqb_spec (length x) 1); [contradiction|reflexivity].
Qed.
(** Without density there is no residual energy, and the slope there is the second virial coefficient. *)
Theorem C92_virial : exists m, build_LJ126_Thol = ok m /\ forall T, 0 < T -> exists f,
  (forall rho, 0 <= rho -> mf_alphar m T rho [1] = ok (f rho)) /\ f 0 = 0 /\ is_derive f 0 (Thol_B T).
Proof.
  destruct LJ_alphar as (m & B & ER & L & V). exists m. split; [exact B|]. intros T HT. exists (Thol T). split; [intros rho Hr; apply V; auto|].
  split; [|apply Thol_virial]. unfold Thol. cbv zeta. replace (0 / 0.31) with 0 by (unfold Rdiv; ring).
  unfold total, polynomial_rows, exponential_rows, gaussian_rows. cbn [map fold_right]. rewrite !pow_i by lia. ring.
Qed.
(** At the critical temperature attraction prevails. *)
Theorem C92_attraction : Thol_B 1.32 < 0.
Proof. exact B_critical. Qed.
Example C92_met : exists m v, build_LJ126_Thol = ok m /\ mf_alphar m 1.32 0.31 [1] = ok v /\ v = Thol 1.32 0.31.
Proof.
  destruct C92_published as (m & B & _ & V & _). exists m, (Thol 1.32 0.31). split; [exact B|]. split; [apply V; lra|reflexivity].
Qed.

(** * C93 *)
(** Files without such a term give the models that the theorems about multifluid models speak of. *)
Theorem C93_other_files : forall pures B D flags, (forall j, In j pures -> ~ uses_PCSAFT j) ->
  build_fluids pures B D flags = build_multifluid pures B D flags.
Proof. exact build_same. Qed.
(** A fluid whose only term is of the PC-SAFT type is PC-SAFT, at the temperature and the density times the
    ratios of the reducing values that term and file give. *)
Theorem C93_PCSAFT : forall j el B D flags mf T0 rho0 Tred rhored m sigma eps T rho,
  build_fluids [j] B D flags = ok mf -> reducing_point j T0 rho0 -> residual_terms j [el] ->
  member el "type" (JStr "ResidualHelmholtzPCSAFTGrossSadowski2001") ->
  member el "Tred / K" (JNum Tred) -> member el "rhored / mol/m^3" (JNum rhored) ->
  member el "m" (JNum m) -> member el "sigma / A" (JNum sigma) -> member el "epsilon_over_k" (JNum eps) ->
  0 < T0 -> 0 < rho0 -> 0 < Tred -> 0 < rhored -> 0 < m -> 0 < sigma -> 0 <= eps -> 0 < T -> 0 <= rho ->
  let T' := T * (Tred / T0) in let rho' := rho * (rhored / rho0) in
  packing (one_component m sigma eps) T' rho' [1] < 1 ->
  exists v, mf_alphar mf T rho [1] = ok v /\ pcsaft_alphar (one_component m sigma eps) T' rho' [1] = ok v.
Proof.
  intros j el B D flags mf T0 rho0 Tred rhored m sg e T rho E RP RT TY MT MR Mm Ms Me P1 P2 P3 P4 P5 P6 P7 P8 P9 T' rho' PK.
  destruct (fluids_one _ _ _ _ _ E) as (b & Tc & vc & ts & G1 & G2 & ER & EE).
  rewrite (reducing_Tcvc _ _ _ RP) in G1. injection G1 as <- <-.
  destruct (terms_of _ _ RT) as (r & Jr & Gr & Je).
  assert (BT : get_full_terms r = ok [PCSAFTTerm Tred rhored {| pu_m := m; pu_sigma := sg; pu_eps := e |}]).
  { unfold get_full_terms. destruct (j_empty r) eqn:Q; [specialize (Je eq_refl); discriminate Je|]. rewrite Jr.
    destruct el as [| | | | |ms]; try (destruct TY as [? [TY _]]; discriminate TY).
    assert (IT : forall k v, member (JObj ms) k v -> lookup k ms = Some v) by (intros k v [ms' [Q1 Q2]]; injection Q1 as <-; exact Q2).
    apply IT in TY, MT, MR, Mm, Ms, Me.
    cbn [check_full_types index]. rewrite TY. cbn [j_string bind].
    change (existsb (String.eqb "ResidualHelmholtzPCSAFTGrossSadowski2001") (allowed_types ++ [PCSAFT_type])) with true. cbn [obind build_full_terms].
    unfold build_full_term. cbn [j_at]. rewrite TY. cbn [bind j_string obind].
    change (String.eqb "ResidualHelmholtzPCSAFTGrossSadowski2001" PCSAFT_type) with true. cbv iota.
    unfold num, pure_factory, jnumber. cbn [j_at]. rewrite MT, MR, Mm, Ms, Me. reflexivity. }
  rewrite Gr, BT in G2. injection G2 as <-.
  assert (PT : 0 < T') by (unfold T'; apply Rmult_lt_0_compat; [auto|apply Rdiv_lt_0_compat; auto]).
  assert (PR : 0 <= rho') by (unfold rho'; apply Rmult_le_pos; [auto|left; apply Rdiv_lt_0_compat; auto]).
  destruct (C39_pure m sg e T' rho' P5 P6 P7 PT PR PK) as [v [V1 V2]]. exists v. split; [|exact V2].
  rewrite (one_fluid_alphar mf b T0 (1 / rho0) _ T rho ER EE). cbn [full_sum full_alphar].
  rewrite back by auto. rewrite back_rho by auto. fold T' rho'. rewrite V1. cbn [fin]. unfold ok. cbn [obind]. f_equal. f_equal. ring.
Qed.
(** With the same reducing values it is PC-SAFT at the temperature and density asked for. *)
Theorem C93_PCSAFT_same : forall j el B D flags mf T0 rho0 m sigma eps T rho,
  build_fluids [j] B D flags = ok mf -> reducing_point j T0 rho0 -> residual_terms j [el] ->
  member el "type" (JStr "ResidualHelmholtzPCSAFTGrossSadowski2001") ->
  member el "Tred / K" (JNum T0) -> member el "rhored / mol/m^3" (JNum rho0) ->
  member el "m" (JNum m) -> member el "sigma / A" (JNum sigma) -> member el "epsilon_over_k" (JNum eps) ->
  0 < T0 -> 0 < rho0 -> 0 < m -> 0 < sigma -> 0 <= eps -> 0 < T -> 0 <= rho ->
  packing (one_component m sigma eps) T rho [1] < 1 ->
  exists v, mf_alphar mf T rho [1] = ok v /\ pcsaft_alphar (one_component m sigma eps) T rho [1] = ok v.
Proof.
  intros j el B D flags mf T0 rho0 m sg e T rho E RP RT TY MT MR Mm Ms Me P1 P2 P5 P6 P7 P8 P9 PK.
  assert (E1 : T * (T0 / T0) = T) by (field; lra). assert (E2 : rho * (rho0 / rho0) = rho) by (field; lra).
  destruct (C93_PCSAFT j el B D flags mf T0 rho0 T0 rho0 m sg e T rho) as [v [V1 V2]]; auto.
  - rewrite E1, E2. exact PK.
  - rewrite E1, E2 in V2. exists v. auto.
Qed.
(** The same for a cubic equation. *)
Theorem C93_cubic : forall j el B D flags mf T0 rho0 Tred rhored Tc pc Rg D1 D2 OA OB ja al c T rho,
  build_fluids [j] B D flags = ok mf -> reducing_point j T0 rho0 -> residual_terms j [el] ->
  member el "type" (JStr "ResidualHelmholtzGenericCubic") ->
  member el "Tred / K" (JNum Tred) -> member el "rhored / mol/m^3" (JNum rhored) ->
  member el "Tcrit / K" (JNum Tc) -> member el "pcrit / Pa" (JNum pc) -> member el "R / J/mol/K" (JNum Rg) ->
  member el "Delta1" (JNum D1) -> member el "Delta2" (JNum D2) -> member el "OmegaA" (JNum OA) -> member el "OmegaB" (JNum OB) ->
  member el "alpha" ja -> build_alpha_functions [Tc] ja = ok [al] ->
  make_cubic D1 D2 OA OB [Tc] [pc] [al] (Cubic_model.zeros 1) Rg = ok c ->
  0 < T0 -> 0 < rho0 -> 0 < pc -> 0 <= OA -> 0 < T ->
  let T' := T * (Tred / T0) in let rho' := rho * (rhored / rho0) in
  0 <= alpha_val al T' ->
  mf_alphar mf T rho [1] = cubic_alphar c T' rho' [1].
Proof.
  intros j el B D flags mf T0 rho0 Tred rhored Tc pc Rg D1 D2 OA OB ja al c T rho E RP RT TY MT MR M1 M2 M3 M4 M5 M6 M7 Ma EA EC P1 P2 P3 P4 P5 T' rho' PA.
  destruct (fluids_one _ _ _ _ _ E) as (b & Tc0 & vc & ts & G1 & G2 & ER & EE).
  rewrite (reducing_Tcvc _ _ _ RP) in G1. injection G1 as <- <-.
  destruct (terms_of _ _ RT) as (r & Jr & Gr & Je).
  set (a0 := OA * Util_model.pow2 (Rg * Tc) / pc). set (b0 := OB * Rg * Tc / pc).
  assert (BT : get_full_terms r = ok [Plain (GenericCubicT Rg D1 D2 Tred rhored a0 b0 al)]).
  { unfold get_full_terms. destruct (j_empty r) eqn:Q; [specialize (Je eq_refl); discriminate Je|]. rewrite Jr.
    destruct el as [| | | | |ms]; try (destruct TY as [? [TY _]]; discriminate TY).
    assert (IT : forall k v, member (JObj ms) k v -> lookup k ms = Some v) by (intros k v [ms' [Q1 Q2]]; injection Q1 as <-; exact Q2).
    apply IT in TY, MT, MR, M1, M2, M3, M4, M5, M6, M7, Ma.
    cbn [check_full_types index]. rewrite TY. cbn [j_string bind].
    change (existsb (String.eqb "ResidualHelmholtzGenericCubic") (allowed_types ++ [PCSAFT_type])) with true. cbn [obind build_full_terms].
    unfold build_full_term. cbn [j_at]. rewrite TY. cbn [bind j_string obind].
    change (String.eqb "ResidualHelmholtzGenericCubic" PCSAFT_type) with false. cbv iota.
    unfold build_fluid_term. cbn [j_at]. rewrite TY. cbn [bind j_string obind].
    match goal with |- context [if String.eqb ?a ?b then build_power_fluid _ else _] => change (String.eqb a b) with false end. cbv iota.
    change (String.eqb "ResidualHelmholtzGenericCubic" "ResidualHelmholtzGaussian") with false.
    change (String.eqb "ResidualHelmholtzGenericCubic" "ResidualHelmholtzNonAnalytic") with false.
    change (String.eqb "ResidualHelmholtzGenericCubic" "ResidualHelmholtzLemmon2005") with false.
    change (String.eqb "ResidualHelmholtzGenericCubic" "ResidualHelmholtzGaoB") with false.
    change (String.eqb "ResidualHelmholtzGenericCubic" "ResidualHelmholtzExponential") with false.
    change (String.eqb "ResidualHelmholtzGenericCubic" "ResidualHelmholtzDoubleExponential") with false.
    change (String.eqb "ResidualHelmholtzGenericCubic" "ResidualHelmholtzGenericCubic") with true. cbv iota.
    unfold build_genericcubic, num. cbn [j_at]. rewrite M1, M2, M3, M4, M5, MT, MR, M6, M7, Ma. cbn [bind j_double obind]. rewrite EA. reflexivity. }
  rewrite Gr, BT in G2. injection G2 as <-.
  rewrite (one_fluid_alphar mf b T0 (1 / rho0) _ T rho ER EE). cbn [full_sum full_alphar term_alphar].
  rewrite back by auto. rewrite back_rho by auto. fold T' rho'. unfold ok. cbn [obind].
  unfold make_cubic in EC. cbn [length Nat.ltb Nat.leb] in EC.
  assert (EC' : c = {| cb_ai := [OA * (Rg * Tc) ^ 2 / pc]; cb_bi := [OB * Rg * Tc / pc]; cb_D1 := D1; cb_D2 := D2; cb_alphas := [al]; cb_k := cb_k c; cb_R := Rg |}
                /\ cb_k c 0%nat 0%nat = 0).
  { cbn in EC. injection EC as <-. split; reflexivity. }
  destruct EC' as [EC' K0]. unfold cubic_alphar.
  assert (F1 : cb_alphas c = [al]) by (rewrite EC'; reflexivity). assert (F2 : cb_ai c = [a0]) by (rewrite EC'; cbn [cb_ai]; unfold a0, Util_model.pow2; f_equal; simpl; f_equal; ring).
  assert (F3 : cb_bi c = [b0]) by (rewrite EC'; reflexivity). assert (F4 : cb_D1 c = D1) by (rewrite EC'; reflexivity).
  assert (F5 : cb_D2 c = D2) by (rewrite EC'; reflexivity). assert (F6 : cb_R c = Rg) by (rewrite EC'; reflexivity).
  rewrite F1, F2, F4, F5, F6. cbn [length Nat.eqb negb Nat.ltb Nat.leb].
  assert (PA0 : 0 <= a0). { unfold a0, Util_model.pow2. apply Rmult_le_pos; [|left; apply Rinv_0_lt_compat; auto]. apply Rmult_le_pos; auto. nra. }
  assert (GA : cubic_a c T' [1] = a0 * alpha_val al T').
  { unfold cubic_a. cbn [length sumn nth]. rewrite F1, F2, K0. cbn [nth]. unfold alpha_at. cbn [nth].
    assert (S : sqrt ((a0 * alpha_val al T') * (a0 * alpha_val al T')) = a0 * alpha_val al T') by (apply sqrt_square; apply Rmult_le_pos; auto).
    cbn [nth_error option_map] in *. rewrite S. ring. }
  assert (GB : cubic_b c [1] = b0) by (unfold cubic_b; cbn [length sumn nth]; rewrite F3; cbn [nth]; ring).
  rewrite GA, GB. unfold ok. f_equal. f_equal. ring.
Qed.
(** ethane as PC-SAFT and as Peng-Robinson *)
Definition file_with (el : json) : json :=
  JObj [("EOS", JArr [JObj [("STATES", JObj [("reducing", JObj [("T", JNum 305); ("rhomolar", JNum 6870)])]);
                            ("alphar", JArr [el]); ("gas_constant", JNum 8.314)]]);
        ("INFO", JObj [("NAME", JStr "Ethane"); ("REFPROP_NAME", JStr "ETHANE"); ("CAS", JStr "74-84-0")])]%string.
Definition ethane_PCSAFT (Tred rhored : R) : json :=
  JObj [("type", JStr "ResidualHelmholtzPCSAFTGrossSadowski2001"); ("Tred / K", JNum Tred); ("rhored / mol/m^3", JNum rhored);
        ("m", JNum 1.6069); ("sigma / A", JNum 3.5206); ("epsilon_over_k", JNum 191.42)]%string.
Lemma ethane_packing : forall T, 0 < T -> packing (one_component 1.6069 3.5206 191.42) T 5000 [1] < 1.
Proof.
  intros T HT. eapply Rle_lt_trans; [apply packing_le; [| |lra|lra]|].
  - split; [reflexivity|]. split; [reflexivity|]. intros [|i] Hi; cbn in *; [lra|lia].
  - split; [reflexivity|]. split. + intros [|i] Hi; cbn in *; [lra|lia]. + exists 0%nat. cbn. split; [lia|lra].
  - cbn [length sumn nth pm psigma one_component].
    pose proof numdens_5000 as N5. pose proof (numdens_nonneg 5000 ltac:(lra)) as N0. pose proof PI_4 as P4. pose proof PI_RGT_0 as P0.
    set (S0 := 0 + _). assert (B : 0 <= S0 <= 71) by (unfold S0; lra).
    assert (Q : PI / 6 * numdens 5000 <= 0.0031) by nra. assert (0 <= PI / 6 * numdens 5000) by (apply Rmult_le_pos; lra). nra.
Qed.
Lemma file_reducing : forall el, reducing_point (file_with el) 305 6870.
Proof.
  intros el. do 3 eexists. split; [do 2 eexists; split; reflexivity|]. split; [eexists; split; reflexivity|]. split; [eexists; split; reflexivity|].
  split; eexists; split; reflexivity.
Qed.
Lemma file_terms : forall el, residual_terms (file_with el) [el].
Proof. intros el. do 2 eexists. split; [do 2 eexists; split; reflexivity|]. split; [eexists; split; reflexivity|]. left. reflexivity. Qed.
Example C93_PCSAFT_met : exists mf v, build_fluids [file_with (ethane_PCSAFT 305 6870)] (JArr []) (JArr []) JNull = ok mf /\
  mf_alphar mf 300 5000 [1] = ok v /\ pcsaft_alphar (one_component 1.6069 3.5206 191.42) 300 5000 [1] = ok v.
Proof.
  assert (E : exists mf, build_fluids [file_with (ethane_PCSAFT 305 6870)] (JArr []) (JArr []) JNull = ok mf) by (eexists; reflexivity).
  destruct E as [mf E].
  destruct (C93_PCSAFT_same _ (ethane_PCSAFT 305 6870) _ _ _ mf 305 6870 1.6069 3.5206 191.42 300 5000 E (file_reducing _) (file_terms _)) as [v [V1 V2]];
    try lra; try (eexists; split; reflexivity).
  - apply ethane_packing. lra.
  - exists mf, v. auto.
Qed.
(** Nothing compares the reducing values of the term with those of the file: this file gives the values of
    PC-SAFT at twice the temperature. *)
Example C93_mismatch_met : exists mf v, build_fluids [file_with (ethane_PCSAFT 610 6870)] (JArr []) (JArr []) JNull = ok mf /\
  mf_alphar mf 300 5000 [1] = ok v /\ pcsaft_alphar (one_component 1.6069 3.5206 191.42) 600 5000 [1] = ok v.
Proof.
  assert (E : exists mf, build_fluids [file_with (ethane_PCSAFT 610 6870)] (JArr []) (JArr []) JNull = ok mf) by (eexists; reflexivity).
  destruct E as [mf E].
  assert (E1 : 300 * (610 / 305) = 600) by field. assert (E2 : 5000 * (6870 / 6870) = 5000) by field.
  destruct (C93_PCSAFT _ (ethane_PCSAFT 610 6870) _ _ _ mf 305 6870 610 6870 1.6069 3.5206 191.42 300 5000 E (file_reducing _) (file_terms _)) as [v [V1 V2]];
    try lra; try (eexists; split; reflexivity).
  - rewrite E1, E2. apply ethane_packing. lra.
  - rewrite E1, E2 in V2. exists mf, v. auto.
Qed.
Definition ethane_PR : json :=
  JObj [("type", JStr "ResidualHelmholtzGenericCubic"); ("Tred / K", JNum 305); ("rhored / mol/m^3", JNum 6870);
        ("Tcrit / K", JNum 305); ("pcrit / Pa", JNum 4.87e6); ("R / J/mol/K", JNum 8.314); ("Delta1", JNum 2.414); ("Delta2", JNum (- 0.414));
        ("OmegaA", JNum 0.457); ("OmegaB", JNum 0.0778); ("alpha", JArr [JObj [("type", JStr "PR78"); ("acentric", JNum 0.1)]])]%string.
Example C93_cubic_met : exists mf c, build_fluids [file_with ethane_PR] (JArr []) (JArr []) JNull = ok mf /\
  make_cubic 2.414 (- 0.414) 0.457 0.0778 [305] [4.87e6] [BasicAlpha 305 (PR_m 0.1)] (Cubic_model.zeros 1) 8.314 = ok c /\
  mf_alphar mf 300 5000 [1] = cubic_alphar c 300 5000 [1].
Proof.
  assert (E : exists mf, build_fluids [file_with ethane_PR] (JArr []) (JArr []) JNull = ok mf) by (eexists; reflexivity). destruct E as [mf E].
  assert (EC : exists c, make_cubic 2.414 (- 0.414) 0.457 0.0778 [305] [4.87e6] [BasicAlpha 305 (PR_m 0.1)] (Cubic_model.zeros 1) 8.314 = ok c) by (eexists; reflexivity).
  destruct EC as [c EC]. exists mf, c. split; [exact E|]. split; [exact EC|].
  assert (E1 : 300 * (305 / 305) = 300) by field. assert (E2 : 5000 * (6870 / 6870) = 5000) by field.
  rewrite (C93_cubic _ ethane_PR _ _ _ mf 305 6870 305 6870 305 4.87e6 8.314 2.414 (- 0.414) 0.457 0.0778
    (JArr [JObj [("type", JStr "PR78"); ("acentric", JNum 0.1)]])%string (BasicAlpha 305 (PR_m 0.1)) c 300 5000 E (file_reducing _) (file_terms _));
    try lra; try (eexists; split; reflexivity); auto.
  - rewrite E1, E2. reflexivity.
  - cbn [alpha_val]. apply pow2_ge_0.
Qed.
Print Assumptions C92_published.
Print Assumptions C92_virial.
Print Assumptions C92_attraction.
Print Assumptions C93_other_files.
Print Assumptions C93_PCSAFT.
Print Assumptions C93_PCSAFT_same.
Print Assumptions C93_cubic.
