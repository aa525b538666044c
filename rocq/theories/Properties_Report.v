(** C95: the reports of the association calculations. *)
From Coq Require Import Reals ZArith String List Bool Lia Lra.
From Verif Require Import Json_model Vec_spec Vec_proofs Cubic_model Terms_model Ideal_model Util_model Multi_model
  Assoc_model Assoc_spec Assoc_proofs Assoc_proofs2 Assoc_proofs3 Assoc_proofs4 CPA_model Properties_Assoc Properties_Assoc2 Properties_CPA
  Report_model Report_spec Report_proofs.
Import ListNotations.
Open Scope R_scope.

(** C95: the energy can be recalculated from the report: it is the sum over the reported sites of the mole fraction of their component,
    times their number, times ln X - X/2 + 1/2.  The fractions are in (0, 1]. *)
Theorem C95_energy : forall bc d mols o a T rho x Delta,
  make_association d mols o = ok a -> length x = length mols -> get_Delta bc a T rho x = ok Delta -> physical mols Delta rho x -> 0 <= op_alpha o <= 1 ->
  exists r, get_assoc_calcs bc a T rho x = ok r /\
    length (rp_X r) = total_distinct mols /\ (forall v, In v (rp_X r) -> fraction v) /\
    alphar bc a T rho x = ok (energy_of_table (component r) (count r) (rp_X r) x).
Proof.
  intros bc d mols o a T rho x Delta H Hx HD P Ha.
  destruct (C37_energy bc d mols o a T rho x Delta H Hx HD P Ha) as (X & E & EA & _).
  destruct (C37_fractions bc d mols o a T rho x (repeat 1 (total_distinct mols)) Delta H Hx HD P Ha) as (X' & E' & LX & FX).
  { apply repeat_length. } { intros v Hv. apply repeat_spec in Hv. subst. unfold fraction. lra. }
  rewrite E in E'. injection E' as <-. apply make_association_ok in H. destruct (built_n _ _ _ _ H) as (N1 & _).
  eexists. unfold get_assoc_calcs. rewrite HD, N1. cbn [obind ok]. rewrite E. cbn [obind ok]. split; [reflexivity|]. cbn [rp_X]. split; [exact LX|]. split; [exact FX|].
  rewrite EA. f_equal. f_equal. apply (table_energy d mols o a); auto.
Qed.
(** C95: what is reported about the sites: each reported site has a component and a name that is one of the sites of that molecule, it is
    counted as often as it occurs, the two tables are inverse, and the strengths and the fractions are those of the calculation. *)
Theorem C95_tables : forall bc d mols o a T rho x r, make_association d mols o = ok a -> get_assoc_calcs bc a T rho x = ok r ->
  get_Delta bc a T rho x = ok (rp_Delta r) /\ successive_substitution bc a T rho x (repeat 1 (total_distinct mols)) = ok (rp_X r) /\ rp_mask r = op_mask o /\
  (forall k cs, mget Nat.eqb k (rp_to_CompSite r) = Some cs <-> mget cs_eqb cs (rp_to_siteid r) = Some k) /\
  (forall k, (k < total_distinct mols)%nat -> exists s, mget Nat.eqb k (rp_to_CompSite r) = Some (component r k, s) /\ In s (nth (component r k) mols []) /\
     count r k = occurrences s (nth (component r k) mols [])) /\
  (forall k l i s j t, mget Nat.eqb k (rp_to_CompSite r) = Some (i, s) -> mget Nat.eqb l (rp_to_CompSite r) = Some (j, t) ->
     nth l (nth k (rp_D r) []) 0%nat = 0%nat \/ nth l (nth k (rp_D r) []) 0%nat = occurrences t (nth j mols [])).
Proof.
  intros bc d mols o a T rho x r H Hr. pose proof (make_association_ok _ _ _ _ H) as B. destruct (built_n _ _ _ _ B) as (N1 & _).
  unfold get_assoc_calcs in Hr. destruct (get_Delta bc a T rho x) as [[Delta|]|] eqn:ED; try discriminate. cbn [obind] in Hr. rewrite N1 in Hr.
  destruct (successive_substitution bc a T rho x (repeat 1 (total_distinct mols))) as [[X|]|] eqn:EX; try discriminate. cbn [obind ok] in Hr. injection Hr as <-.
  cbn [rp_Delta rp_X rp_mask rp_to_CompSite rp_to_siteid rp_D].
  split; [reflexivity|]. split; [reflexivity|]. split; [rewrite (bt_options _ _ _ _ B); reflexivity|].
  assert (HM : make_mapper mols = Some (as_mapper a)).
  { unfold make_association in H. destruct (make_mapper mols) as [ind|]; [|discriminate]. cbn [fin obind ok] in H. destruct (make_D ind o) as [[D|]|]; try discriminate.
    cbn [obind ok] in H. injection H as <-. reflexivity. }
  destruct (C38_bijection mols (as_mapper a) HM) as (_ & B2 & B3 & B4). split; [exact B2|]. split.
  - intros k Hk. destruct (proj1 (B3 k) Hk) as [[i s] E]. exists s.
    unfold component, count. cbn [rp_to_CompSite rp_counts]. rewrite E. cbn [fst]. split; [reflexivity|].
    destruct (C38_counts mols (as_mapper a) k i s HM E) as (C1 & _ & _). split; [|apply nth_error_nth; exact C1].
    apply B4. exists k. apply B2. exact E.
  - intros k l i s j t E1 E2. destruct (C38_matrix d mols o a k l i s j t H E1 E2) as [M1 M2]. cbv zeta in M1, M2.
    set (P1 := op_mask o = [] \/ i <> j \/ nth i (op_mask o) false = true) in *. set (P2 := op_partners o = [] \/ exists ps, lookup s (op_partners o) = Some ps /\ In t ps) in *.
    destruct (Classical_Prop.classic (P1 /\ P2)) as [Y|N]; [right; auto|left; auto].
Qed.
(** C95: the reported fractions solve the law of mass action with the coefficients made of the reported tables, up to the tolerance, unless
    the iterations ran out. *)
Theorem C95_balance : forall bc d mols o a T rho x Delta,
  make_association d mols o = ok a -> length x = length mols -> get_Delta bc a T rho x = ok Delta -> physical mols Delta rho x -> 0 <= op_alpha o <= 1 ->
  ~ explicit_applies a x (K_of a Delta rho x) ->
  exists r, get_assoc_calcs bc a T rho x = ok r /\
  let n := total_distinct mols in let K := coefficient_of_table N_A (component r) (rp_D r) (rp_Delta r) rho x in
  let target i := 1 / (1 + sumn n (fun j => K i j * nth j (rp_X r) 0)) in
  ((exists m, m = Z.to_nat (op_max_iters o) /\ forall i, (i < n)%nat -> nth i (rp_X r) 0 = passes n K (op_alpha o) m (fun _ => 1) i) \/
   forall i, (i < n)%nat -> (1 - op_alpha o) * Rabs (nth i (rp_X r) 0 - target i)
                            < op_rtol o * (op_alpha o * nth i (rp_X r) 0 + (1 - op_alpha o) * target i) + op_atol o).
Proof.
  intros bc d mols o a T rho x Delta H Hx HD P Ha NE.
  destruct (C37_tolerance bc d mols o a T rho x (repeat 1 (total_distinct mols)) Delta H Hx HD P Ha) as (X & m & E & LX & Hm & EX & _ & S); auto.
  { apply repeat_length. } { intros v Hv. apply repeat_spec in Hv. subst. unfold fraction. lra. }
  pose proof (make_association_ok _ _ _ _ H) as B. destruct (built_n _ _ _ _ B) as (N1 & _).
  eexists. unfold get_assoc_calcs. rewrite HD, N1. cbn [obind ok]. rewrite E. cbn [obind ok]. split; [reflexivity|]. cbn [rp_X rp_D rp_Delta]. cbv zeta.
  set (r := {| rp_to_CompSite := to_CompSite (as_mapper a); rp_to_siteid := to_siteid (as_mapper a); rp_counts := counts (as_mapper a); rp_D := as_D a;
        rp_Delta := Delta; rp_X := X; rp_mask := op_mask (as_options a) |}).
  assert (KK : forall i j, (j < total_distinct mols)%nat -> K_of a Delta rho x i j = coefficient_of_table N_A (component r) (as_D a) Delta rho x i j).
  { intros i j Hj. apply (table_coefficient d mols o a r); auto. }
  assert (TT : forall Y i, sumn (total_distinct mols) (fun j => K_of a Delta rho x i j * Y j) =
      sumn (total_distinct mols) (fun j => coefficient_of_table N_A (component r) (as_D a) Delta rho x i j * Y j)).
  { intros Y i. apply sumn_ext. intros j Hj. rewrite KK by exact Hj. reflexivity. }
  destruct S as [S|S].
  - left. exists m. split; [exact S|]. intros i Hi. rewrite EX by exact Hi.
    assert (PP : forall m Y Z, (forall j, (j < total_distinct mols)%nat -> Y j = Z j) -> forall i, (i < total_distinct mols)%nat -> passes (total_distinct mols) (K_of a Delta rho x) (op_alpha o) m Y i =
      passes (total_distinct mols) (coefficient_of_table N_A (component r) (as_D a) Delta rho x) (op_alpha o) m Z i).
    { induction m0 as [|m0 IH]; intros Y Z HY l Hl; cbn [passes]; [apply HY; exact Hl|]. apply IH; [|exact Hl]. intros j Hj. unfold substituted. rewrite HY by exact Hj.
      rewrite (TT Y j). rewrite (sumn_ext _ (fun j0 => coefficient_of_table N_A (component r) (as_D a) Delta rho x j j0 * Y j0) (fun j0 => coefficient_of_table N_A (component r) (as_D a) Delta rho x j j0 * Z j0)).
      - reflexivity.
      - intros q Hq. rewrite HY by exact Hq. reflexivity. }
    apply PP; [|exact Hi]. intros j Hj. apply nth_rep. exact Hj.
  - right. intros i Hi. rewrite <- (TT (fun j => nth j X 0) i). apply S. exact Hi.
Qed.
(** C95: with another number of mole fractions than components, the energy throws, but the report is undefined behaviour. *)
Theorem C95_sizes_refuted : forall bc d mols o a T rho x, make_association (Canonical d) mols o = ok a -> op_rule o = CR1 ->
  length (cd_b d) = length mols -> length x <> length mols ->
  alphar bc a T rho x = throws InvalidArgument /\ get_assoc_calcs bc a T rho x = None.
Proof.
  intros bc d mols o a T rho x H HR L N. split; [apply (C37_sizes bc (Canonical d) mols o a T rho x [] H); exact N|].
  apply make_association_ok in H. unfold get_assoc_calcs, get_Delta. rewrite (bt_rule _ _ _ _ H), HR, (bt_data _ _ _ _ H), L.
  apply Nat.eqb_neq in N. rewrite N. reflexivity.
Qed.
(** C95: of the older implementation for pure fluids: the report has the covolume and the fractions, in (0, 1], that solve the law of mass
    action, and the energy is the sum of ln X - X/2 + 1/2 over them. *)
Theorem C95_pure : forall scheme dist eps beta b Rg T rho D c,
  make_CPAAssociation [scheme] dist [eps] [beta] [b] Rg = Val c ->
  get_DeltaAB_pure dist eps beta b (Rg * T) rho = Some D -> 0 < rho * D ->
  exists r, cpa_assoc_calcs c T rho [1] = Some r /\ cr_b r = b /\ length (cr_X r) = n_sites scheme /\ (forall v, In v (cr_X r) -> fraction v) /\
    mass_action (n_sites scheme) (fun i j => if bonded scheme i j then rho * D else 0) (fun i => nth i (cr_X r) 0) /\
    cpaassoc_alphar c T rho [1] = Some (sumn (length (cr_X r)) (fun i => bond_energy (nth i (cr_X r) 0))).
Proof.
  intros scheme dist eps beta b Rg T rho D c Hc HD Hk. destruct (get_N scheme) as [N|] eqn:EN; [|unfold make_CPAAssociation in Hc; cbn [map_res] in Hc; rewrite EN in Hc; discriminate].
  assert (NN : N = n_sites scheme) by (destruct scheme; cbn in EN; try discriminate; injection EN as <-; reflexivity).
  destruct (C64_closed_forms scheme N dist eps beta b (Rg * T) rho D EN HD Hk) as (X & E & L & F & M).
  unfold make_CPAAssociation in Hc. cbn [map_res] in Hc. rewrite EN in Hc. cbn in Hc. injection Hc as <-. unfold cpaassoc_alphar, cpaassoc_X, cpa_assoc_calcs.
  cbn [ca_bi length Nat.eqb negb ca_N ca_classes ca_eps ca_beta nth_error opt_bind sumn nth ca_dist ca_R].
  replace (0 + b * 1) with b by ring. rewrite E. cbn [opt_bind]. eexists. split; [reflexivity|]. cbn [cr_b cr_X]. split; [reflexivity|]. split; [exact L|]. split; [exact F|]. split; [exact M|].
  rewrite (osum_ok _ _ (fun i => ln (nth i X 0) - nth i X 0 / 2)).
  2: { intros i Hi. unfold clog. destruct (F (nth i X 0) (nth_In _ _ Hi)) as [P _]. destruct (Rlt_dec 0 (nth i X 0)); [reflexivity|lra]. }
  cbn [opt_bind]. f_equal. rewrite NN, L. unfold bond_energy. generalize (n_sites scheme). intro n.
  assert (G : sumn n (fun i => ln (nth i X 0) - nth i X 0 / 2 + 1 / 2) = sumn n (fun i => ln (nth i X 0) - nth i X 0 / 2) + INR n / 2).
  { induction n; [cbn; lra|]. cbn [sumn]. rewrite IHn, S_INR. lra. }
  rewrite G. lra.
Qed.
(** C95: the older implementation reports fractions for mixtures too, and they ignore how the other components associate; the energy of the
    mixture reads outside the matrix of the fractions. *)
Theorem C95_mixture_refuted : forall scheme s1 s2 dist eps e1 e2 beta t1 t2 b b' Rg T rho x y D c1 c2,
  make_CPAAssociation [scheme; s1] dist [eps; e1] [beta; t1] [b; b'] Rg = Val c1 -> make_CPAAssociation [scheme; s2] dist [eps; e2] [beta; t2] [b; b'] Rg = Val c2 ->
  get_DeltaAB_pure dist eps beta (b * x + b' * y) (Rg * T) rho = Some D -> 0 < rho * D ->
  exists r, cpa_assoc_calcs c1 T rho [x; y] = Some r /\ cpa_assoc_calcs c2 T rho [x; y] = Some r /\ length (cr_X r) = n_sites scheme /\
    cpaassoc_alphar c1 T rho [x; y] = None /\ cpaassoc_alphar c2 T rho [x; y] = None.
Proof.
  intros scheme s1 s2 dist eps e1 e2 beta t1 t2 b b' Rg T rho x y D c1 c2 H1 H2 HD Hk.
  unfold make_CPAAssociation in H1, H2. cbn [map_res] in H1, H2.
  destruct (get_N scheme) as [N|] eqn:EN; [|discriminate]. cbn [bind] in H1, H2.
  destruct (get_N s1) as [N1|] eqn:E1; [|discriminate]. destruct (get_N s2) as [N2|] eqn:E2; [|discriminate]. cbn in H1, H2. injection H1 as <-. injection H2 as <-.
  destruct (C64_closed_forms scheme N dist eps beta (b * x + b' * y) (Rg * T) rho D EN HD Hk) as (X & E & L & _).
  unfold cpaassoc_alphar, cpaassoc_X, cpa_assoc_calcs.
  cbn [ca_bi length Nat.eqb negb ca_N ca_classes ca_eps ca_beta nth_error opt_bind sumn nth ca_dist ca_R].
  replace (0 + b * x + b' * y) with (b * x + b' * y) by ring. rewrite E. cbn [opt_bind]. eexists. split; [reflexivity|]. split; [reflexivity|]. split; [exact L|]. split; reflexivity.
Qed.
(** C95: the model of the cubic plus association reports what the association that it holds reports. *)
Theorem C95_forwards : forall bc T rho x,
  (forall c r, cpa_assoc_calcs c T rho x = Some r -> variant_assoc_calcs bc (OldAssoc c) T rho x = ok (OldReport r)) /\
  (forall a r, get_assoc_calcs bc a T rho x = ok r -> variant_assoc_calcs bc (NewAssoc a) T rho x = ok (NewReport r)).
Proof.
  intros bc T rho x. split.
  - intros c r E. unfold variant_assoc_calcs. rewrite E. reflexivity.
  - intros a r E. unfold variant_assoc_calcs. rewrite E. reflexivity.
Qed.
Example C95_met : forall bc, exists Delta r,
  make_association (Canonical ex_canon) ex_mols ex_opts = ok ex_assoc /\ get_Delta bc ex_assoc 1 (1 / 10) [1 / 2; 1 / 2] = ok Delta /\
  physical ex_mols Delta (1 / 10) [1 / 2; 1 / 2] /\ 0 <= op_alpha ex_opts <= 1 /\
  ~ explicit_applies ex_assoc [1 / 2; 1 / 2] (K_of ex_assoc Delta (1 / 10) [1 / 2; 1 / 2]) /\
  get_assoc_calcs bc ex_assoc 1 (1 / 10) [1 / 2; 1 / 2] = ok r /\ length (rp_X r) = 4%nat /\
  alphar bc ex_assoc 1 (1 / 10) [1 / 2; 1 / 2] = ok (energy_of_table (component r) (count r) (rp_X r) [1 / 2; 1 / 2]).
Proof.
  intro bc. destruct (C37_fractions_met bc) as (Delta & B & E & P & A & NE & _).
  destruct (C95_energy bc (Canonical ex_canon) ex_mols ex_opts ex_assoc 1 (1 / 10) [1 / 2; 1 / 2] Delta B eq_refl E P A) as (r & R1 & R2 & _ & R3).
  exists Delta, r. repeat (split; [assumption|]). exact R3.
Qed.
Example C95_pure_met : exists c D r, make_CPAAssociation [a4C] KG [R_CODATA2017 * ln 2] [1] [1] R_CODATA2017 = Val c /\
  get_DeltaAB_pure KG (R_CODATA2017 * ln 2) 1 1 (R_CODATA2017 * 1) 1 = Some D /\ 0 < 1 * D /\ cpa_assoc_calcs c 1 1 [1] = Some r /\ length (cr_X r) = 4%nat.
Proof.
  destruct C64_agreement_met as (c & _ & D & C1 & _ & C2 & C3).
  destruct (C95_pure a4C KG (R_CODATA2017 * ln 2) 1 1 R_CODATA2017 1 1 D c C1 C2 ltac:(lra)) as (r & R1 & _ & R2 & _).
  exists c, D, r. split; [exact C1|]. split; [exact C2|]. split; [lra|]. split; [exact R1|exact R2].
Qed.
Example C95_mixture_met : exists c1 c2 D, make_CPAAssociation [a4C; a1A] KG [R_CODATA2017 * ln 2; 1] [1; 1] [1; 1] R_CODATA2017 = Val c1 /\
  make_CPAAssociation [a4C; a2B] KG [R_CODATA2017 * ln 2; 2] [1; 3] [1; 1] R_CODATA2017 = Val c2 /\
  get_DeltaAB_pure KG (R_CODATA2017 * ln 2) 1 (1 * (1 / 2) + 1 * (1 / 2)) (R_CODATA2017 * 1) 1 = Some D /\ 0 < 1 * D.
Proof.
  destruct C64_agreement_met as (_ & _ & D & _ & _ & C2 & C3). eexists _, _, D. split; [reflexivity|]. split; [reflexivity|].
  replace (1 * (1 / 2) + 1 * (1 / 2)) with 1 by field. split; [exact C2|lra].
Qed.
Print Assumptions C95_energy.
Print Assumptions C95_tables.
Print Assumptions C95_balance.
Print Assumptions C95_sizes_refuted.
Print Assumptions C95_pure.
Print Assumptions C95_mixture_refuted.
Print Assumptions C95_forwards.
