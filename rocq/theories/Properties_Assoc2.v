(** C37: cases that meet the hypotheses, and the limits of the solver.  C62: association strengths. *)
From Coq Require Import Reals ZArith String List Bool Lia Lra Sorting.
From Verif Require Import Json_model Vec_spec Vec_proofs Cubic_model Terms_model Ideal_model Util_model Multi_model
  Assoc_model Assoc_spec Assoc_proofs Assoc_proofs2 Assoc_proofs3 Assoc_proofs4 Assoc_proofs5 Cubic_proofs2 Properties_Assoc.
Import ListNotations.
Open Scope R_scope.
Notation el X := (fun i => nth i X 0).

(** A fluid whose molecules differ only in their sites; at T = 1 every pair of sites has the
    strength B / (1 - 1.9 rho / 4) / N_A *)
Definition fluid (n : nat) (B : R) : canonical :=
  {| cd_b := repeat 1 n; cd_beta := repeat B n; cd_eps := repeat (R_CODATA2017 * ln 2) n; cd_radial := KG |}.
Lemma nth_rep : forall (v : R) n i, (i < n)%nat -> nth i (repeat v n) 0 = v.
Proof. intros v n. induction n; intros i H; [lia|]. destruct i; [reflexivity|]. cbn [repeat nth]. apply IHn. lia. Qed.
Lemma R_gas_pos : 0 < R_CODATA2017. Proof. unfold R_CODATA2017. lra. Qed.
Lemma fluid_Delta : forall bc mols o a B rho x, built (Canonical (fluid (length mols) B)) mols o a -> op_rule o = CR1 -> 0 <= B ->
  length x = length mols -> sumn (length x) (el x) = 1 -> 1 - 1.9 * (rho / 4) <> 0 ->
  exists Delta, get_Delta bc a 1 rho x = ok Delta /\
    forall i j, (i < total_distinct mols)%nat -> (j < total_distinct mols)%nat -> mentry Delta i j = B / (1 - 1.9 * (rho / 4)) / N_A.
Proof.
  intros bc mols o a B rho x H HR HB Hx Hs Hg. eexists. split.
  - apply (get_Delta_CR1 bc mols o a (fluid (length mols) B) 1 rho x (1 / (1 - 1.9 * (rho / 4))) H HR); cbn [fluid cd_b cd_eps cd_beta cd_radial]; try apply repeat_length; try lra; auto.
    + intros v Hv. apply repeat_spec in Hv. subst. exact HB.
    + rewrite (sumn_ext _ _ (el x)). 2: { intros i Hi. rewrite nth_rep by lia. ring. }
      rewrite Hs. unfold radial_g, cdiv. replace (1 * rho / 4) with (rho / 4) by lra. destruct (Req_EM_T (1 - 1.9 * (rho / 4)) 0); [contradiction|reflexivity].
  - intros i j Hi Hj. rewrite mentry_map by assumption. unfold CR1_strength. cbn [fluid cd_b cd_eps cd_beta].
    destruct (comp_of_lt mols i Hi) as [Li _]. destruct (comp_of_lt mols j Hj) as [Lj _].
    rewrite !nth_rep by assumption. rewrite sqrt_square by exact HB.
    replace ((R_CODATA2017 * ln 2 + R_CODATA2017 * ln 2) / 2 / (R_CODATA2017 * 1)) with (ln 2) by (field; pose proof R_gas_pos; lra).
    rewrite exp_ln by lra. pose proof N_A_pos. generalize dependent (1 - 1.9 * (rho / 4)). intros q Hq. field. split; lra.
Qed.

(** * Cases that meet the hypotheses *)
Lemma ex_Delta : forall bc, exists Delta, get_Delta bc ex_assoc 1 (1 / 10) [1 / 2; 1 / 2] = ok Delta /\ physical ex_mols Delta (1 / 10) [1 / 2; 1 / 2].
Proof.
  intro bc. pose proof (make_association_ok _ _ _ _ ex_built) as B. set (g := 1 / (1 - 1.9 * (1.5 * (1 / 10) / 4))). eexists. split.
  - apply (get_Delta_CR1 bc ex_mols ex_opts ex_assoc ex_canon 1 (1 / 10) [1 / 2; 1 / 2] g B); try reflexivity; try lra.
    + intros v Hv. cbn in Hv. destruct Hv as [<-|[<-|[]]]; lra.
    + cbn [ex_canon cd_radial cd_b length sumn nth]. unfold radial_g, cdiv.
      replace ((0 + 1 / 2 * 1 + 1 / 2 * 2) * (1 / 10) / 4) with (1.5 * (1 / 10) / 4) by lra. destruct (Req_EM_T _ 0); [lra|reflexivity].
  - split; [lra|]. split; [intros v Hv; cbn in Hv; destruct Hv as [<-|[<-|[]]]; lra|].
    intros i j Hi Hj. rewrite mentry_map by assumption. apply CR1_nonneg; try lra.
    + unfold g. apply Rlt_le, Rdiv_lt_0_compat; lra.
    + intros v Hv. cbn in Hv. destruct Hv as [<-|[<-|[]]]; lra.
    + intros v Hv. pose proof R_gas_pos. cbn in Hv. destruct Hv as [<-|[<-|[]]]; lra.
Qed.
Example C37_fractions_met : forall bc, exists Delta,
  make_association (Canonical ex_canon) ex_mols ex_opts = ok ex_assoc /\ get_Delta bc ex_assoc 1 (1 / 10) [1 / 2; 1 / 2] = ok Delta /\
  physical ex_mols Delta (1 / 10) [1 / 2; 1 / 2] /\ 0 <= op_alpha ex_opts <= 1 /\
  ~ explicit_applies ex_assoc [1 / 2; 1 / 2] (K_of ex_assoc Delta (1 / 10) [1 / 2; 1 / 2]) /\
  length [1 / 2; 1 / 2; 1; 1] = total_distinct ex_mols /\ forall v, In v [1 / 2; 1 / 2; 1; 1] -> fraction v.
Proof.
  intro bc. destruct (ex_Delta bc) as (Delta & E & P). exists Delta. split; [exact ex_built|]. split; [exact E|]. split; [exact P|].
  split; [cbn; lra|]. split; [intros (_ & L & _); discriminate|]. split; [reflexivity|]. intros v Hv. unfold fraction. cbn in Hv. decompose [or] Hv; subst; lra || contradiction.
Qed.
(** water with the sites of the scheme 4C *)
Definition water : list (list string) := [["e"; "e"; "H"; "H"]]%string.
Definition w_ind : mapper :=
  {| to_CompSite := [(0, (0, "H")); (1, (0, "e"))]%nat%string; to_siteid := [((0, "H"), 0); ((0, "e"), 1)]%nat%string;
     CompCIndex_to_siteid := [((0, 0), 0); ((0, 1), 1)]%nat; counts := [2; 2]%nat; N_sites := [4]%nat; N_unique_sites := [2]%nat; comp_index := [0; 0]%nat |}.
Definition w_D : list (list nat) := [[0; 2]; [2; 0]]%nat.
Lemma w_mapper : make_mapper water = Some w_ind.
Proof. vm_compute. reflexivity. Qed.
Definition w_assoc (B : R) (o : options) (D : list (list nat)) : association :=
  {| as_options := o; as_mapper := w_ind; as_D := D; as_rule := op_rule o; as_data := Canonical (fluid 1 B) |}.
Lemma w_built : forall B o D, make_D w_ind o = ok D -> make_association (Canonical (fluid 1 B)) water o = ok (w_assoc B o D).
Proof. intros B o D H. unfold make_association. rewrite w_mapper. cbn [fin obind ok]. rewrite H. reflexivity. Qed.
Example C37_explicit_met : forall bc, exists Delta,
  make_association (Canonical (fluid 1 1)) water ex_opts = ok (w_assoc 1 ex_opts w_D) /\ get_Delta bc (w_assoc 1 ex_opts w_D) 1 1 [1] = ok Delta /\
  physical water Delta 1 [1] /\ op_explicit ex_opts = true /\ as_D (w_assoc 1 ex_opts w_D) = [[0; 2]; [2; 0]]%nat /\
  mentry Delta 0 1 = mentry Delta 1 0 /\ 0 < 1 * mentry Delta 0 1.
Proof.
  intro bc. assert (B : make_association (Canonical (fluid 1 1)) water ex_opts = ok (w_assoc 1 ex_opts w_D)) by (apply w_built; reflexivity).
  pose proof N_A_pos.
  destruct (fluid_Delta bc water ex_opts (w_assoc 1 ex_opts w_D) 1 1 [1] (make_association_ok _ _ _ _ B) eq_refl) as (Delta & E & M); try lra; try reflexivity.
  { cbn. lra. }
  assert (Q : 0 < 1 / (1 - 1.9 * (1 / 4)) / N_A) by (apply Rdiv_lt_0_compat; [apply Rdiv_lt_0_compat; lra|assumption]).
  exists Delta. split; [exact B|]. split; [exact E|]. split.
  - split; [lra|]. split; [intros v [<-|[]]; lra|]. intros i j Hi Hj. rewrite M by assumption. lra.
  - repeat split. all: rewrite !M by (cbn; lia); lra.
Qed.
Example C37_solution_met : exists X, (forall i, (i < 2)%nat -> fraction (X i)) /\ mass_action 2 (fun i j => if Nat.eqb i j then 0 else 2) X /\ X 0%nat = 1 / 2.
Proof.
  exists (fun _ => 1 / 2). split; [intros; unfold fraction; lra|]. split; [|lra]. intros i Hi. destruct i as [|[|i]]; [| |lia]; cbn; lra.
Qed.

(** * Limits of the solver *)
(** The explicit branch does not look at which sites may bond: with self-association masked out
    the mass-action equations give 1, the iteration returns 1, and the explicit branch 1/2 *)
Definition mask_opts (e : bool) : options :=
  {| op_partners := op_partners ex_opts; op_radial := op_radial ex_opts; op_rule := CR1; op_mask := [false]; op_explicit := e;
     op_alpha := 1 / 2; op_rtol := 1 / 10 ^ 12; op_atol := 1 / 10 ^ 12; op_max_iters := 100 |}.
Definition no_D : list (list nat) := [[0; 0]; [0; 0]]%nat.
Lemma iterate_fixed : forall n K alpha rtol atol fuel X, substitute n K alpha X = Some X -> iterate n K alpha rtol atol fuel X = Some X.
Proof.
  intros n K alpha rtol atol fuel X H. induction fuel; [reflexivity|]. cbn [iterate]. rewrite H. cbn [opt_bind]. destruct (close _ _ _ _ _); [reflexivity|exact IHfuel].
Qed.
Theorem C37_explicit_refuted : forall bc e, exists a Delta,
  make_association (Canonical (fluid 1 (0.525))) water (mask_opts e) = ok a /\
  get_Delta bc a 1 1 [1] = ok Delta /\ physical water Delta 1 [1] /\
  mass_action 2 (K_of a Delta 1 [1]) (fun _ => 1) /\
  successive_substitution bc a 1 1 [1] [1; 1] = ok (if e then [1 / 2; 1 / 2] else [1; 1]).
Proof.
  intros bc e. exists (w_assoc 0.525 (mask_opts e) no_D).
  assert (B : make_association (Canonical (fluid 1 0.525)) water (mask_opts e) = ok (w_assoc 0.525 (mask_opts e) no_D)) by (apply w_built; destruct e; reflexivity).
  pose proof N_A_pos as HN. pose proof (make_association_ok _ _ _ _ B) as BB.
  destruct (fluid_Delta bc water (mask_opts e) (w_assoc 0.525 (mask_opts e) no_D) 0.525 1 [1] BB eq_refl) as (Delta & E & M); try lra; try reflexivity.
  { cbn. lra. }
  assert (Q : 0.525 / (1 - 1.9 * (1 / 4)) / N_A = 1 / N_A).
  { replace (1 - 1.9 * (1 / 4)) with 0.525 by lra. unfold Rdiv. rewrite Rinv_r by lra. reflexivity. }
  exists Delta. split; [exact B|]. split; [exact E|]. split; [|split].
  - split; [lra|]. split; [intros v [<-|[]]; lra|]. intros i j Hi Hj. rewrite M, Q by assumption. apply Rlt_le, Rdiv_lt_0_compat; lra.
  - intros i Hi. destruct i as [|[|i]]; [| |lia]; cbn [sumn]; unfold K_of, dcount; cbn; ring.
  - assert (K0 : forall i j, (i < 2)%nat -> (j < 2)%nat -> K_of (w_assoc 0.525 (mask_opts e) no_D) Delta 1 [1] i j = 0).
    { intros i j Hi Hj. unfold K_of, dcount. cbn [w_assoc as_D no_D]. destruct i as [|[|i]], j as [|[|j]]; try lia; cbn; ring. }
    destruct (call_cases bc _ _ _ _ 1 1 [1] [1; 1] Delta BB eq_refl eq_refl E) as [[A ->]|[A ->]].
    + destruct A as (A & _). cbn in A. subst e. cbn [w_assoc as_mapper w_ind counts nth].
      rewrite M, Q by (cbn; lia). replace (1 * N_A * INR 2 * (1 / N_A)) with 2 by (replace (INR 2) with 2 by (cbn; lra); field; lra).
      unfold explicit_X, explicit_roots. replace (2 * 2 - 2 * 2 * 2 + 2 * 2 + 2 * 2 + 2 * 2 + 1) with (3 * 3) by ring. unfold csqrt.
      destruct (Rle_dec 0 (3 * 3)); [|lra]. rewrite sqrt_square by lra. cbn [opt_bind]. unfold cdiv. destruct (Req_EM_T (2 * 2) 0); [lra|]. cbn [opt_bind].
      destruct (Rlt_dec ((2 - 2 - 3 - 1) / (2 * 2)) 0); [|lra]. destruct (Rlt_dec 0 ((2 - 2 + 3 - 1) / (2 * 2))); [|lra].
      replace ((2 - 2 + 3 - 1) / (2 * 2)) with (1 / 2) by lra. destruct (Req_EM_T (1 + 2 * (1 / 2)) 0); [lra|]. cbn [opt_bind fin].
      replace (1 / (1 + 2 * (1 / 2))) with (1 / 2) by lra. reflexivity.
    + destruct e.
      * exfalso. apply A. repeat split. intros i Hi. now apply K0.
      * rewrite iterate_fixed; [reflexivity|]. unfold substitute. change (seq 0 (total_distinct water)) with [0; 1]%nat. cbn [map osequence].
        unfold rdotX. change (total_distinct water) with 2%nat. cbn [sumn nth]. rewrite !K0 by lia. unfold cdiv. destruct (Req_EM_T (1 + (0 + 0 * 1 + 0 * 1)) 0); [lra|].
        cbn [opt_bind mask_opts op_alpha]. replace (1 / 2 * 1 + (1 - 1 / 2) / (1 + (0 + 0 * 1 + 0 * 1))) with 1 by (field). reflexivity.
Qed.
(** At zero density the explicit branch keeps the initial value of the first fraction *)
Theorem C37_initial_guess_refuted : forall bc X0, fraction X0 -> X0 <> 1 -> exists a Delta X,
  make_association (Canonical (fluid 1 1)) water ex_opts = ok a /\
  get_Delta bc a 1 0 [1] = ok Delta /\ physical water Delta 0 [1] /\
  successive_substitution bc a 1 0 [1] [X0; 1] = ok X /\ ~ mass_action 2 (K_of a Delta 0 [1]) (el X).
Proof.
  intros bc X0 HX NX. exists (w_assoc 1 ex_opts w_D).
  assert (B : make_association (Canonical (fluid 1 1)) water ex_opts = ok (w_assoc 1 ex_opts w_D)) by (apply w_built; reflexivity).
  pose proof N_A_pos as HN. pose proof (make_association_ok _ _ _ _ B) as BB.
  destruct (fluid_Delta bc water ex_opts (w_assoc 1 ex_opts w_D) 1 0 [1] BB eq_refl) as (Delta & E & M); try lra; try reflexivity.
  { cbn. lra. }
  exists Delta, [X0; 1]. split; [exact B|]. split; [exact E|].
  assert (Q : 0 < 1 / (1 - 1.9 * (0 / 4)) / N_A) by (apply Rdiv_lt_0_compat; [apply Rdiv_lt_0_compat; lra|assumption]).
  assert (K0 : forall i j, K_of (w_assoc 1 ex_opts w_D) Delta 0 [1] i j = 0) by (intros; unfold K_of; ring).
  split; [|split].
  - split; [lra|]. split; [intros v [<-|[]]; lra|]. intros i j Hi Hj. rewrite M by assumption. lra.
  - destruct (call_cases bc _ _ _ _ 1 0 [1] [X0; 1] Delta BB eq_refl eq_refl E) as [[A ->]|[A _]].
    + rewrite !Rmult_0_l, explicit_zero. reflexivity.
    + exfalso. apply A. repeat split. intros. apply K0.
  - intro MA. specialize (MA 0%nat ltac:(lia)). cbn [sumn nth] in MA. rewrite !K0 in MA. lra.
Qed.
(** With the default options the loop can end at the limit of 100 passes with fractions that a
    further pass still changes by more than the tolerance; the call returns them like any other
    result *)
Definition pair_mols : list (list string) := [["A"]; ["B"]]%string.
Definition pair_opts : options := with_partners default_options [("A", ["B"]); ("B", ["A"])]%string.
Definition pair_ind : mapper :=
  {| to_CompSite := [(0, (0, "A")); (1, (1, "B"))]%nat%string; to_siteid := [((0, "A"), 0); ((1, "B"), 1)]%nat%string;
     CompCIndex_to_siteid := [((0, 0), 0); ((1, 0), 1)]%nat; counts := [1; 1]%nat; N_sites := [1; 1]%nat; N_unique_sites := [1; 1]%nat; comp_index := [0; 1]%nat |}.
Definition pair_assoc (B : R) : association :=
  {| as_options := pair_opts; as_mapper := pair_ind; as_D := [[0; 1]; [1; 0]]%nat; as_rule := CR1; as_data := Canonical (fluid 2 B) |}.
Lemma pair_mapper : make_mapper pair_mols = Some pair_ind.
Proof. vm_compute. reflexivity. Qed.
Lemma pair_built : forall B, make_association (Canonical (fluid 2 B)) pair_mols pair_opts = ok (pair_assoc B).
Proof. intro B. unfold make_association. rewrite pair_mapper. reflexivity. Qed.
Lemma pair_passes : forall (K : nat -> nat -> R) X0, K 0%nat 0%nat = 0 -> K 1%nat 1%nat = 0 -> K 0%nat 1%nat = k -> K 1%nat 0%nat = k ->
  X0 0%nat = 1 -> X0 1%nat = 1 / 4 -> forall m, (m <= 100)%nat ->
  slow m (passes 2 K 0.5 m X0 0) (passes 2 K 0.5 m X0 1).
Proof.
  intros K X0 K00 K11 K01 K10 E0 E1. induction m; intro Hm.
  - cbn [passes]. rewrite E0, E1. apply slow_start.
  - rewrite !passes_S. unfold substituted. cbn [sumn]. rewrite K00, K11, K01, K10.
    set (u := passes 2 K 0.5 m X0 0) in *. set (v := passes 2 K 0.5 m X0 1) in *.
    assert (S : slow m u v) by (apply IHm; lia). pose proof (slow_step m u v ltac:(lia) S) as Q.
    replace (0 + 0 * u + k * v) with (k * v) by ring. replace (0 + k * u + 0 * v) with (k * u) by ring.
    replace (0.5 * u + (1 - 0.5) * (1 / (1 + k * v))) with ((u + 1 / (1 + k * v)) / 2) by lra.
    replace (0.5 * v + (1 - 0.5) * (1 / (1 + k * u))) with ((v + 1 / (1 + k * u)) / 2) by lra. exact Q.
Qed.
Theorem C37_exhausted_refuted : forall bc, exists a Delta X,
  make_association (Canonical (fluid 2 (1.05 * 10 ^ 10))) pair_mols pair_opts = ok a /\
  get_Delta bc a 1 1 [1 / 2; 1 / 2] = ok Delta /\ physical pair_mols Delta 1 [1 / 2; 1 / 2] /\
  op_alpha pair_opts = 0.5 /\ op_rtol pair_opts = 1 / 10 ^ 12 /\ op_atol pair_opts = 1 / 10 ^ 12 /\ op_max_iters pair_opts = 100%Z /\
  successive_substitution bc a 1 1 [1 / 2; 1 / 2] [1; 1 / 4] = ok X /\
  ~ settled 2 (K_of a Delta 1 [1 / 2; 1 / 2]) 0.5 (1 / 10 ^ 12) (1 / 10 ^ 12) (el X).
Proof.
  intro bc. set (B := 1.05 * 10 ^ 10). pose proof (pair_built B) as HB. pose proof (make_association_ok _ _ _ _ HB) as BB. pose proof N_A_pos as HN.
  assert (PB : 0 < B) by (unfold B; lra).
  destruct (fluid_Delta bc pair_mols pair_opts (pair_assoc B) B 1 [1 / 2; 1 / 2] BB eq_refl) as (Delta & E & M); try lra; try reflexivity.
  { cbn. lra. }
  assert (Q : B / (1 - 1.9 * (1 / 4)) / N_A = 2 * k / N_A).
  { replace (1 - 1.9 * (1 / 4)) with 0.525 by lra. unfold B, k. f_equal. lra. }
  assert (Pk : 0 < k) by (rewrite k_val; lra).
  assert (P : physical pair_mols Delta 1 [1 / 2; 1 / 2]).
  { split; [lra|]. split; [intros v [<-|[<-|[]]]; lra|]. intros i j Hi Hj. rewrite M, Q by assumption. apply Rlt_le, Rdiv_lt_0_compat; lra. }
  set (K := K_of (pair_assoc B) Delta 1 [1 / 2; 1 / 2]).
  assert (K00 : K 0%nat 0%nat = 0) by (unfold K, K_of, dcount; cbn; ring).
  assert (K11 : K 1%nat 1%nat = 0) by (unfold K, K_of, dcount; cbn; ring).
  assert (K01 : K 0%nat 1%nat = k) by (unfold K, K_of, dcount; rewrite M, Q by (cbn; lia); cbn [pair_assoc as_D as_mapper pair_ind comp_index nth INR]; field; lra).
  assert (K10 : K 1%nat 0%nat = k) by (unfold K, K_of, dcount; rewrite M, Q by (cbn; lia); cbn [pair_assoc as_D as_mapper pair_ind comp_index nth INR]; field; lra).
  destruct (C37_tolerance bc _ _ _ _ 1 1 [1 / 2; 1 / 2] [1; 1 / 4] Delta HB eq_refl E P) as (X & m & E1 & LX & Hm & EX & _ & _).
  { cbn. lra. } { reflexivity. } { intros v Hv. unfold fraction. cbn in Hv. destruct Hv as [<-|[<-|[]]]; lra. } { intros (_ & L & _). discriminate. }
  exists (pair_assoc B), Delta, X. split; [exact HB|]. split; [exact E|]. split; [exact P|]. split; [reflexivity|]. split; [reflexivity|]. split; [reflexivity|]. split; [reflexivity|].
  split; [exact E1|]. fold K. intro S. fold K in EX. change (op_alpha pair_opts) with 0.5 in EX. change (total_distinct pair_mols) with 2%nat in EX.
  change (Z.to_nat (op_max_iters pair_opts)) with 100%nat in Hm.
  pose proof (pair_passes K (el [1; 1 / 4]) K00 K11 K01 K10 eq_refl eq_refl m Hm) as SL.
  rewrite <- EX in SL by lia. rewrite <- EX in SL by lia.
  pose proof (S 0%nat ltac:(lia)) as S0. pose proof (S 1%nat ltac:(lia)) as S1. cbv zeta in S0, S1. unfold substituted in S0, S1. cbn [sumn] in S0, S1.
  rewrite K00, K01 in S0. rewrite K11, K10 in S1. set (u := nth 0 X 0) in *. set (v := nth 1 X 0) in *.
  replace (0 + 0 * u + k * v) with (k * v) in S0 by ring. replace (0 + k * u + 0 * v) with (k * u) in S1 by ring.
  replace (0.5 * u + (1 - 0.5) * (1 / (1 + k * v))) with ((u + 1 / (1 + k * v)) / 2) in S0 by lra.
  replace (0.5 * v + (1 - 0.5) * (1 / (1 + k * u))) with ((v + 1 / (1 + k * u)) / 2) in S1 by lra.
  exact (slow_not_settled m u v Hm SL S0 S1).
Qed.

(** * C62 *)
(** The rule CR1: arithmetic means of the co-volume and the energy, geometric mean of the volume
    parameter, times the contact value of the radial distribution function *)
Theorem C62_CR1 : forall bc d mols o a T rho x, make_association (Canonical d) mols o = ok a -> op_rule o = CR1 ->
  length (cd_b d) = length mols -> length (cd_eps d) = length mols -> length (cd_beta d) = length mols -> length x = length mols ->
  (forall v, In v (cd_beta d) -> 0 <= v) -> T <> 0 ->
  let eta := sumn (length mols) (fun i => nth i x 0 * nth i (cd_b d) 0) * rho / 4 in
  forall g, (match cd_radial d with
             | CS => 1 - eta <> 0 /\ g = (1 - eta / 2) / (1 - eta) ^ 3
             | KG => 1 - 1.9 * eta <> 0 /\ g = 1 / (1 - 1.9 * eta) end) ->
  exists Delta, get_Delta bc a T rho x = ok Delta /\ length Delta = total_distinct mols /\
    forall k l i s j t, mget Nat.eqb k (to_CompSite (as_mapper a)) = Some (i, s) -> mget Nat.eqb l (to_CompSite (as_mapper a)) = Some (j, t) ->
      mentry Delta k l = g * ((nth i (cd_b d) 0 + nth j (cd_b d) 0) / 2) * sqrt (nth i (cd_beta d) 0 * nth j (cd_beta d) 0) *
        (exp ((nth i (cd_eps d) 0 + nth j (cd_eps d) 0) / 2 / (R_CODATA2017 * T)) - 1) / N_A.
Proof.
  intros bc d mols o a T rho x H HR L1 L2 L3 L4 Hb HT eta g Hg. pose proof (make_association_ok _ _ _ _ H) as B.
  assert (G : radial_g (cd_radial d) (sumn (length x) (fun i => nth i x 0 * nth i (cd_b d) 0) * rho / 4) = Some g).
  { rewrite L4. fold eta. unfold radial_g, cdiv. destruct (cd_radial d).
    - destruct Hg as [N ->]. destruct (Req_EM_T (2 * (1 - eta) * (1 - eta) * (1 - eta)) 0) as [Z|_].
      + exfalso. apply N. apply Rmult_integral in Z. destruct Z as [Z|Z]; [|exact Z]. apply Rmult_integral in Z. destruct Z as [Z|Z]; [|exact Z]. lra.
      + f_equal. field. exact N.
    - destruct Hg as [N ->]. destruct (Req_EM_T (1 - 1.9 * eta) 0); [contradiction|reflexivity]. }
  eexists. split; [exact (get_Delta_CR1 bc mols o a d T rho x g B HR L1 L2 L3 L4 Hb HT G)|]. split; [now rewrite map_length, seq_length|].
  intros k l i s j t Ek El. rewrite (bt_mapper _ _ _ _ B) in Ek, El. apply get_comp in Ek, El.
  assert (Hk : (k < total_distinct mols)%nat) by (rewrite <- (layout_length mols 0); apply nth_error_Some; rewrite Ek; discriminate).
  assert (Hl : (l < total_distinct mols)%nat) by (rewrite <- (layout_length mols 0); apply nth_error_Some; rewrite El; discriminate).
  rewrite layout_nth in Ek by exact Hk. rewrite layout_nth in El by exact Hl. injection Ek as E1 E2. injection El as E3 E4.
  rewrite mentry_map by assumption. rewrite E1, E3. reflexivity.
Qed.
(** parameters, density and composition that are not negative give strengths that are not negative,
    and the matrix is symmetric *)
Theorem C62_CR1_physical : forall bc d mols o a T rho x Delta, make_association (Canonical d) mols o = ok a -> op_rule o = CR1 ->
  length (cd_b d) = length mols -> length (cd_eps d) = length mols -> length (cd_beta d) = length mols -> length x = length mols ->
  (forall v, In v (cd_beta d) -> 0 <= v) -> (forall v, In v (cd_b d) -> 0 <= v) -> (forall v, In v (cd_eps d) -> 0 <= v) ->
  0 < T -> 0 <= rho -> (forall v, In v x -> 0 <= v) ->
  let eta := sumn (length mols) (fun i => nth i x 0 * nth i (cd_b d) 0) * rho / 4 in
  eta < match cd_radial d with CS => 1 | KG => 1 / 1.9 end ->
  get_Delta bc a T rho x = ok Delta ->
  physical mols Delta rho x /\ forall i j, (i < total_distinct mols)%nat -> (j < total_distinct mols)%nat -> mentry Delta i j = mentry Delta j i.
Proof.
  intros bc d mols o a T rho x Delta H HR L1 L2 L3 L4 Ht Hb He HT Hrho Hx eta Heta HD. pose proof (make_association_ok _ _ _ _ H) as B.
  set (g := match cd_radial d with CS => (1 - eta / 2) / (1 - eta) ^ 3 | KG => 1 / (1 - 1.9 * eta) end).
  assert (G : radial_g (cd_radial d) (sumn (length x) (fun i => nth i x 0 * nth i (cd_b d) 0) * rho / 4) = Some g /\ 0 <= g).
  { rewrite L4. fold eta. unfold radial_g, cdiv, g. destruct (cd_radial d).
    - assert (P : 0 < 1 - eta) by lra. assert (P3 : 0 < (1 - eta) ^ 3) by (apply pow_lt; exact P). split.
      + destruct (Req_EM_T (2 * (1 - eta) * (1 - eta) * (1 - eta)) 0) as [Z|_].
        * cbn [pow] in P3. lra.
        * f_equal. field. lra.
      + apply Rlt_le, Rdiv_lt_0_compat; lra.
    - split; [destruct (Req_EM_T (1 - 1.9 * eta) 0); [lra|reflexivity]|]. apply Rlt_le, Rdiv_lt_0_compat; lra. }
  destruct G as [G1 G2]. rewrite (get_Delta_CR1 bc mols o a d T rho x g B HR L1 L2 L3 L4 Ht) in HD; [|lra|exact G1]. injection HD as <-.
  split; [split; [exact Hrho|split; [exact Hx|]]|]; intros i j Hi Hj; rewrite ?mentry_map by assumption.
  - now apply CR1_nonneg.
  - unfold CR1_strength. rewrite (Rplus_comm (nth (comp_of mols i) (cd_b d) 0)), (Rplus_comm (nth (comp_of mols i) (cd_eps d) 0)), (Rmult_comm (nth (comp_of mols i) (cd_beta d) 0)). reflexivity.
Qed.
(** Dufal's rule for a pure fluid *)
Definition Dufal_integral (bc : nat -> nat -> nat -> R) (Tstar rhostar lambda : R) : R :=
  sumn 11 (fun i => sumn (11 - i) (fun j => sumn 7 (fun k => bc k i j * lambda ^ k) * rhostar ^ i * Tstar ^ j)).
Lemma horner : forall (f : nat -> R) q n s p, fold_left (fun ap k => (fst ap + f k * snd ap, snd ap * q)) (seq 0 n) (s, p) =
  (s + sumn n (fun k => f k * (p * q ^ k)), p * q ^ n).
Proof.
  intros f q n. induction n; intros s p; [cbn; f_equal; ring|].
  rewrite seq_S, fold_left_app, IHn. cbn [fold_left fst snd sumn Nat.add]. f_equal; [ring|cbn; ring].
Qed.
Lemma fold_ext_seq : forall {A} (f g : A -> nat -> A) l a, (forall a i, f a i = g a i) -> fold_left f l a = fold_left g l a.
Proof. intros A f g l. induction l; intros b H; [reflexivity|]. cbn. rewrite H. now apply IHl. Qed.
Lemma I_Dufal_ok : forall bc Tstar rhostar lambda, get_I_Dufal bc Tstar rhostar lambda = Dufal_integral bc Tstar rhostar lambda.
Proof.
  intros bc Tstar rhostar lambda. unfold get_I_Dufal, Dufal_integral.
  assert (A : forall i j, Dufal_a bc lambda i j = sumn 7 (fun k => bc k i j * lambda ^ k)).
  { intros i j. unfold Dufal_a. rewrite (horner (fun k => bc k i j) lambda 7 0 1). cbn [fst]. rewrite Rplus_0_l. apply sumn_ext. intros. ring. }
  assert (W : forall rhoi i s, Dufal_row bc Tstar lambda rhoi i s = s + sumn (11 - i) (fun j => Dufal_a bc lambda i j * rhoi * Tstar ^ j)).
  { intros rhoi i s. unfold Dufal_row. rewrite (horner (fun j => Dufal_a bc lambda i j * rhoi) Tstar (11 - i) s 1). cbn [fst]. f_equal. apply sumn_ext. intros. ring. }
  rewrite (fold_ext_seq _ (fun sp i => (fst sp + sumn (11 - i) (fun j => Dufal_a bc lambda i j * Tstar ^ j) * snd sp, snd sp * rhostar))).
  2: { intros [s p] i. cbn [fst snd]. rewrite W. f_equal. f_equal. rewrite Rmult_comm, <- sumn_scal. apply sumn_ext. intros. ring. }
  rewrite horner. cbn [fst]. rewrite Rplus_0_l. apply sumn_ext. intros i Hi. rewrite Rmult_comm, <- sumn_scal. apply sumn_ext. intros j Hj. rewrite A. ring.
Qed.
Theorem C62_Dufal_pure : forall bc sigma eps lambda k eps_HB K_HB d m o a T rho,
  0 < sigma -> 0 < eps -> 3 <= lambda -> 0 <= eps_HB -> 0 <= K_HB -> nth 0 (nth 0 k []) 0 = 0 -> k <> [] -> T <> 0 ->
  apply_mixing_rules [sigma] [eps] [lambda] k [eps_HB] [K_HB] = ok d ->
  make_association (DufalSide d) [m] o = ok a -> op_rule o = Dufal ->
  exists Delta, get_Delta bc a T rho [1] = ok Delta /\ length Delta = distinct m /\
    forall i j, (i < distinct m)%nat -> (j < distinct m)%nat ->
      mentry Delta i j = (exp (eps_HB / R_CODATA2017 / T) - 1) * K_HB * Dufal_integral bc (T / (eps / R_CODATA2017)) (rho * N_A * sigma ^ 3) lambda.
Proof.
  intros bc sigma eps lambda k eps_HB K_HB d m o a T rho Hs He Hl HHB HK Hk0 Hk HT Hd H HR. pose proof (make_association_ok _ _ _ _ H) as B.
  pose proof R_gas_pos as HRg. unfold apply_mixing_rules in Hd. cbn [length Nat.eqb negb Nat.leb andb] in Hd. destruct k as [|k0 k']; [congruence|]. cbn [length Nat.leb andb negb] in Hd.
  injection Hd as <-. cbn [nth] in Hk0.
  assert (Q : forall i j, (i < total_distinct [m])%nat -> (j < total_distinct [m])%nat -> comp_of [m] i = 0%nat /\ comp_of [m] j = 0%nat).
  { intros i j Hi Hj. destruct (comp_of_lt [m] i Hi) as [Li _]. destruct (comp_of_lt [m] j Hj) as [Lj _]. cbn [length] in *. lia. }
  assert (TD : total_distinct [m] = distinct m) by (cbn [total_distinct]; lia). rewrite TD in Q.
  eexists. split; [|split].
  - unfold get_Delta. rewrite (bt_rule _ _ _ _ B), HR, (bt_data _ _ _ _ B). unfold Dufal_rhostar. cbn [df_sigma length Nat.leb fin obind ok].
    destruct (built_n _ _ _ _ B) as (_ & N2 & _). rewrite N2, TD.
    apply (matrix_ok _ _ (fun i j => (exp (eps_HB / R_CODATA2017 / T) - 1) * K_HB * Dufal_integral bc (T / (eps / R_CODATA2017)) (rho * N_A * sigma ^ 3) lambda)).
    intros i j Hi Hj. rewrite (comp_site_ok _ _ _ _ _ B) by (rewrite TD; exact Hi). rewrite (comp_site_ok _ _ _ _ _ B) by (rewrite TD; exact Hj). cbn [obind ok fst].
    destruct (Q i j Hi Hj) as [-> ->]. unfold Delta_Dufal. cbn [Nat.leb orb df_EPS df_EPS_HB df_KHB df_LAMBDA nth]. rewrite Hk0.
    assert (E1 : (1 - 0) * sqrt (POW3 (sigma * sigma)) / POW3 ((sigma + sigma) / 2) * sqrt (eps * eps) / R_CODATA2017 = eps / R_CODATA2017).
    { rewrite sqrt_square by lra. unfold POW3, POW2. replace (sigma * sigma * (sigma * sigma) * (sigma * sigma)) with ((sigma * sigma * sigma) * (sigma * sigma * sigma)) by ring.
      rewrite sqrt_square by (assert (0 < sigma * sigma) by nra; nra). field. split; lra. }
    rewrite E1. rewrite !sqrt_square by lra.
    unfold cdiv. destruct (Req_EM_T (eps / R_CODATA2017) 0) as [Z|_]; [exfalso; assert (0 < eps / R_CODATA2017) by (apply Rdiv_lt_0_compat; lra); lra|].
    cbn [opt_bind]. destruct (Req_EM_T T 0); [contradiction|]. cbn [opt_bind fin sumn nth]. unfold ok. f_equal. f_equal.
    rewrite I_Dufal_ok. replace (3 + (lambda - 3)) with lambda by ring.
    assert (E2 : POW3 ((cbrt K_HB + cbrt K_HB) / 2) = K_HB).
    { unfold POW3, POW2. replace ((cbrt K_HB + cbrt K_HB) / 2) with (cbrt K_HB) by lra. destruct HK as [HK|<-].
      - destruct (cbrt_cube K_HB HK) as [E _]. rewrite <- E at 4. ring.
      - unfold cbrt. destruct (Rlt_dec 0 0); [lra|]. destruct (Rlt_dec 0 0); [lra|]. ring. }
    rewrite E2. f_equal. f_equal. unfold POW3, POW2. ring_simplify. field.
  - now rewrite map_length, seq_length.
  - intros i j Hi Hj. now rewrite mentry_map.
Qed.
Example C62_CR1_met : forall bc, exists Delta, make_association (Canonical ex_canon) ex_mols ex_opts = ok ex_assoc /\
  get_Delta bc ex_assoc 1 (1 / 10) [1 / 2; 1 / 2] = ok Delta /\ mentry Delta 0 1 <> 0.
Proof.
  intro bc. destruct (C62_CR1 bc ex_canon ex_mols ex_opts ex_assoc 1 (1 / 10) [1 / 2; 1 / 2] ex_built) with (g := 1 / (1 - 1.9 * (sumn 2 (fun i => nth i [1 / 2; 1 / 2] 0 * nth i [1; 2] 0) * (1 / 10) / 4))) as (Delta & E & _ & F); try reflexivity; try lra.
  - intros v Hv. cbn in Hv. destruct Hv as [<-|[<-|[]]]; lra.
  - cbn. split; [lra|reflexivity].
  - exists Delta. split; [exact ex_built|]. split; [exact E|]. rewrite (F 0%nat 1%nat 0%nat "H"%string 0%nat "e"%string) by reflexivity. cbn [ex_canon cd_b cd_beta cd_eps nth sumn].
    rewrite sqrt_square by lra. pose proof R_gas_pos. pose proof N_A_pos. replace ((R_CODATA2017 + R_CODATA2017) / 2 / (R_CODATA2017 * 1)) with 1 by (field; lra).
    pose proof (exp_ineq1 1 ltac:(lra)) as X1.
    apply Rgt_not_eq. apply Rdiv_lt_0_compat; [|assumption]. apply Rmult_lt_0_compat; [|lra]. apply Rmult_lt_0_compat; [|lra]. apply Rmult_lt_0_compat; [|lra].
    apply Rdiv_lt_0_compat; lra.
Qed.
Example C62_Dufal_pure_met : exists d, apply_mixing_rules [1] [1] [6] [[0]] [1] [1] = ok d /\
  exists a, make_association (DufalSide d) water (with_rule ex_opts Dufal) = ok a /\ op_rule (with_rule ex_opts Dufal) = Dufal.
Proof.
  eexists. split; [reflexivity|]. eexists. split; [|reflexivity]. unfold make_association. rewrite w_mapper. reflexivity.
Qed.
Print Assumptions C37_explicit_refuted.
Print Assumptions C37_initial_guess_refuted.
Print Assumptions C37_exhausted_refuted.
Print Assumptions C62_CR1.
Print Assumptions C62_CR1_physical.
Print Assumptions C62_Dufal_pure.
