(** C19 (critical point), C20 (pure VLE), C21 (Clapeyron), C47 (pure tracing),
    C55 (critical extrapolation). *)
From Coq Require Import Reals ZArith List Bool Lia Lra.
From Coquelicot Require Import Coquelicot.
From Verif Require Import Json_model Derivs_model Derivs_spec Derivs_proofs Derivs_proofs2
  Smooth_spec Smooth_proofs Pure_model Pure_spec Pure_proofs.
Import ListNotations.
Open Scope R_scope.

(** ** The accessors of the library satisfy the hypothesis used below *)
Definition ad_amodel (ad : (list R -> R) -> list nat -> list R -> R) (Rg : R) alphar : amodel :=
  {| get_R := fun _ => Rg; get_A := fun i j T rho z => get_Agenxy ad alphar i j T rho z |}.
Lemma accessors_of_ad : forall ad Rg alphar z dom jmax D, AD_exact ad -> open_dom dom ->
  smooth_family alphar z dom 1 jmax D -> accessors_of (ad_amodel ad Rg alphar) alphar z dom jmax.
Proof.
  intros ad Rg alphar z dom jmax D Had OD SF i j T rho Hi Hj Hd.
  pose proof (dom_T dom OD T rho Hd) as HT.
  unfold ad_amodel. cbn [get_A]. apply get_Agenxy_ok; auto; [lra|].
  apply (fam_defined alphar z dom OD 1 jmax D SF); auto.
Qed.

(** ** Two concrete fluids *)

(** Van der Waals in reduced form (b = 1/3, a/R = 9/8), critical at T = 1, rho = 1. *)
Definition vdw (T rho : R) (z : list R) : R := - ln (1 - rho / 3) - 9 / 8 * rho / T.
Definition vdw_dom (u r : R) : Prop := 0 < u /\ 0 < r < 3.
Definition vdw_D (i j : nat) (u r : R) : R :=
  match i, j with
  | O, O => - ln (1 - r / 3) - 9 / 8 * r * u
  | O, 1%nat => / (3 - r) - 9 / 8 * u
  | O, 2%nat => / (3 - r) ^ 2
  | O, 3%nat => 2 / (3 - r) ^ 3
  | O, 4%nat => 6 / (3 - r) ^ 4
  | 1%nat, O => - 9 / 8 * r
  | 1%nat, 1%nat => - 9 / 8
  | _, _ => 0
  end.
Lemma open_loc2 : forall a b x : R, a < x < b -> locally x (fun y => a < y < b).
Proof.
  intros a b x H.
  apply (open_and (fun y => a < y) (fun y => y < b)); [apply open_gt|apply open_lt|exact H].
Qed.
Lemma vdw_open : open_dom vdw_dom.
Proof.
  split; intros u r [Hu Hr].
  - eapply filter_imp; [|apply (locally_pos _ Hu)]. intros t Ht. split; auto.
  - eapply filter_imp; [|apply (open_loc2 0 3 r Hr)]. intros t Ht. split; auto.
  - split; [exact Hu | lra].
Qed.
Lemma vdw_smooth : forall z, smooth_family vdw z vdw_dom 1 4 vdw_D.
Proof.
  intro z. split.
  - intros u r [Hu Hr]. unfold vdw_D, vdw. field. lra.
  - intros i j u r Hi Hj [Hu Hr]. assert (i = 0%nat) by lia; subst i.
    destruct j as [|[|[|[|[|j]]]]]; [| | | | |lia]; unfold vdw_D; auto_derive; auto; try ring; lra.
  - intros i j u r Hi Hj [Hu Hr]. destruct i as [|[|i]]; [| |lia];
    (destruct j as [|[|[|[|j]]]]; [| | | |lia]); unfold vdw_D; auto_derive; auto; try lra; try (field; lra).
    all: try (repeat split; auto; try lra). all: try (simpl; try (apply Rmult_integral_contrapositive; split; [lra|]); nra).
    all: try (simpl; field; repeat split; try lra; try nra).
Qed.

(** A fluid with a known saturation curve: Psi/(RT) = (rho - T)^2 (rho - 2T)^2 - T,
    whose saturated densities are 2T and T and whose vapour pressure is R T^2. *)
Definition sat (T rho : R) (z : list R) : R :=
  ((rho - T) ^ 2 * (rho - 2 * T) ^ 2 - T) / rho - ln rho.
Definition sat_dom (u r : R) : Prop := 0 < u /\ 0 < r.
Definition sat_D (i j : nat) (u r : R) : R :=
  let t := / u in
  match i, j with
  | O, O => r ^ 3 - 6 * t * r ^ 2 + 13 * t ^ 2 * r - 12 * t ^ 3 + (4 * t ^ 4 - t) / r - ln r
  | O, 1%nat => 3 * r ^ 2 - 12 * t * r + 13 * t ^ 2 - (4 * t ^ 4 - t) / r ^ 2 - / r
  | O, 2%nat => 6 * r - 12 * t + 2 * (4 * t ^ 4 - t) / r ^ 3 + / r ^ 2
  | 1%nat, O => - t ^ 2 * (- 6 * r ^ 2 + 26 * t * r - 36 * t ^ 2 + (16 * t ^ 3 - 1) / r)
  | 1%nat, 1%nat => - t ^ 2 * (- 12 * r + 26 * t - (16 * t ^ 3 - 1) / r ^ 2)
  | 1%nat, 2%nat => - t ^ 2 * (- 12 + 2 * (16 * t ^ 3 - 1) / r ^ 3)
  | _, _ => 0
  end.
Lemma sat_open : open_dom sat_dom.
Proof.
  split; intros u r [Hu Hr].
  - eapply filter_imp; [|apply (locally_pos _ Hu)]. intros t Ht. split; auto.
  - eapply filter_imp; [|apply (locally_pos _ Hr)]. intros t Ht. split; auto.
  - split; assumption.
Qed.
Lemma sat_smooth : forall z, smooth_family sat z sat_dom 1 2 sat_D.
Proof.
  intro z. split.
  - intros u r [Hu Hr]. unfold sat_D, sat. field. lra.
  - intros i j u r Hi Hj [Hu Hr]. assert (i = 0%nat) by lia; subst i.
    destruct j as [|[|[|j]]]; [| | |lia]; unfold sat_D; auto_derive; try lra;
      try (repeat split; auto; lra); field; lra.
  - intros i j u r Hi Hj [Hu Hr]. destruct i as [|[|i]]; [| |lia];
    (destruct j as [|[|j]]; [| |lia]); unfold sat_D; auto_derive; try lra;
      try (repeat split; auto; try lra; try nra); try (field; lra).
Qed.
Definition sat_model (Rg : R) := ad_amodel partialN Rg sat.
Definition vdw_model (Rg : R) := ad_amodel partialN Rg vdw.
Lemma ad_exact_partial : AD_exact partialN.
Proof. intros f orders xs _. reflexivity. Qed.
Lemma sat_acc : forall Rg z, accessors_of (sat_model Rg) sat z sat_dom 2.
Proof. intros. apply (accessors_of_ad _ _ _ _ _ _ sat_D ad_exact_partial sat_open (sat_smooth z)). Qed.
Lemma vdw_acc : forall Rg z, accessors_of (vdw_model Rg) vdw z vdw_dom 4.
Proof. intros. apply (accessors_of_ad _ _ _ _ _ _ vdw_D ad_exact_partial vdw_open (vdw_smooth z)). Qed.

(** ** C19 *)

(** For every smooth fluid and state: the residuals are (dp/drho)_T and (d2p/drho2)_T,
    and the four entries of the matrix are the derivatives of these two with respect
    to T and rho. *)
Theorem C19_residual_and_jacobian : forall m alphar z dom D, open_dom dom ->
  accessors_of m alphar z dom 4 -> smooth_family alphar z dom 1 4 D ->
  forall T rho, dom (1 / T) rho ->
  let p := pressure (get_R m z) (fun T r => alphar T r z) in
  let '(r, J) := critical_conditions m z T rho in
  fst r = Derive (fun r => p T r) rho /\
  snd r = Derive_n (fun r => p T r) 2 rho /\
  is_derive (fun t => Derive (fun r => p t r) rho) T (m00 J) /\
  is_derive (fun r => Derive (fun r => p T r) r) rho (m01 J) /\
  is_derive (fun t => Derive_n (fun r => p t r) 2 rho) T (m10 J) /\
  is_derive (fun r => Derive_n (fun r => p T r) 2 r) rho (m11 J).
Proof. intros m alphar z dom D OD AC SF. exact (crit_ok m alphar z dom OD D AC SF). Qed.
Print Assumptions C19_residual_and_jacobian.
Lemma vdw_conditions : forall Rg,
  critical_conditions (vdw_model Rg) [1] 1 1 = ((0, 0), mkmat2 (9 / 4 * Rg) 0 (9 / 4 * Rg) (27 / 8 * Rg)).
Proof.
  intro Rg. unfold critical_conditions.
  assert (Hd : vdw_dom (1 / 1) 1) by (unfold vdw_dom; lra).
  rewrite !(acc _ _ _ _ vdw_open _ (vdw_acc Rg [1]) (vdw_smooth [1])) by (auto; lia).
  cbn [vdw_D vdw_model ad_amodel get_R]. apply f_equal2; [apply f_equal2|f_equal]; simpl; field.
Qed.
Example C19_case : exists D, open_dom vdw_dom /\ accessors_of (vdw_model 8.3) vdw [1] vdw_dom 4 /\
  smooth_family vdw [1] vdw_dom 1 4 D /\ vdw_dom (1 / 1) 1 /\
  fst (critical_conditions (vdw_model 8.3) [1] 1 1) = (0, 0).
Proof.
  exists vdw_D. split; [apply vdw_open|]. split; [apply vdw_acc|]. split; [apply vdw_smooth|].
  split; [unfold vdw_dom; lra|]. now rewrite vdw_conditions.
Qed.

(** The composition: [1] by default; a one-hot vector of the requested length for an
    alternative index in range; an error otherwise. *)
Theorem C19_composition : forall i n,
  critical_z None n = Val [1] /\
  critical_z (Some i) None = Err bad_optional_access /\
  (forall l, (l <= i)%nat -> critical_z (Some i) (Some l) = Err InvalidArgument) /\
  (forall l, (i < l)%nat -> exists z, critical_z (Some i) (Some l) = Val z /\ length z = l /\
     forall k, (k < l)%nat -> nth k z 0 = if Nat.eqb k i then 1 else 0).
Proof.
  intros i n. split; [reflexivity|]. split; [reflexivity|]. split; intros l H; unfold critical_z.
  - destruct (Nat.ltb_spec i l); [lia|reflexivity].
  - destruct (Nat.ltb_spec i l); [|lia]. eexists. split; [reflexivity|].
    split; [now rewrite map_length, seq_length|].
    intros k Hk.
    rewrite (nth_indep _ 0 (if Nat.eqb 0 i then 1 else 0)) by (rewrite map_length, seq_length; auto).
    rewrite (map_nth (fun k => if Nat.eqb k i then 1 else 0)), seq_nth by auto. reflexivity.
Qed.
Print Assumptions C19_composition.
Example C19_composition_case : critical_z (Some 1%nat) (Some 3%nat) = Val [0; 1; 0].
Proof. reflexivity. Qed.

(** An exact critical point with a regular Jacobian is returned unchanged whatever
    the number of steps; flags out of range are rejected. *)
Theorem C19_critical_point_is_fixed : forall m linsolve alphar dom D index len z T rho maxsteps,
  linsolve_ok linsolve -> open_dom dom ->
  accessors_of m alphar z dom 4 -> smooth_family alphar z dom 1 4 D -> dom (1 / T) rho ->
  (match index with Some i => (0 <= i)%Z | None => True end) ->
  (match len with Some l => (2 <= l)%Z | None => True end) ->
  critical_z (option_map Z.to_nat index) (option_map Z.to_nat len) = Val z ->
  let p := pressure (get_R m z) (fun T r => alphar T r z) in
  Derive (fun r => p T r) rho = 0 -> Derive_n (fun r => p T r) 2 rho = 0 ->
  Derive (fun t => Derive (fun r => p t r) rho) T * Derive_n (fun r => p T r) 3 rho <> 0 ->
  solve_pure_critical m linsolve T rho maxsteps index len = Val (T, rho).
Proof.
  intros m linsolve alphar dom D index len z T rho maxsteps LS OD AC SF Hd Hi Hl Hz p H1 H2 H3.
  pose proof (C19_residual_and_jacobian m alphar z dom D OD AC SF T rho Hd) as C. cbv zeta in C. fold p in C.
  unfold solve_pure_critical.
  assert (Ei : opt_nonneg 0 index = Val (option_map Z.to_nat index)).
  { destruct index as [i|]; [|reflexivity]. cbn. destruct (Z.ltb_spec i 0); [lia|reflexivity]. }
  assert (El : opt_nonneg 2 len = Val (option_map Z.to_nat len)).
  { destruct len as [l|]; [|reflexivity]. cbn. destruct (Z.ltb_spec l 2); [lia|reflexivity]. }
  rewrite Ei, El. cbn [bind]. rewrite Hz. destruct (Z.to_nat _) as [|n]; [reflexivity|]. cbn [bind]. f_equal.
  apply critical_fixed; auto.
  - destruct (critical_conditions m z T rho) as [[r0 r1] J]. cbn [fst snd] in *.
    destruct C as (C0 & C1 & _). rewrite C0, C1, H1, H2. reflexivity.
  - destruct (critical_conditions m z T rho) as [r J] eqn:CC. cbn [fst snd] in *.
    destruct C as (C0 & C1 & C2 & C3 & C4 & C5). cbv zeta.
    assert (J01 : m01 J = 0).
    { assert (E : Derive (fun r => Derive (fun r => p T r) r) rho = m01 J) by (apply is_derive_unique; exact C3).
      rewrite <- E. exact H2. }
    assert (E0 : Derive (fun t => Derive (fun r => p t r) rho) T = m00 J) by (apply is_derive_unique; exact C2).
    assert (E3 : Derive_n (fun r => p T r) 3 rho = m11 J).
    { change (Derive (fun r => Derive_n (fun r => p T r) 2 r) rho = m11 J). apply is_derive_unique; exact C5. }
    rewrite E0, E3 in H3. rewrite J01. lra.
Qed.
Print Assumptions C19_critical_point_is_fixed.
Definition cramer (J : mat2) (b : R * R) : R * R :=
  let d := m00 J * m11 J - m01 J * m10 J in
  ((m11 J * fst b - m01 J * snd b) / d, (m00 J * snd b - m10 J * fst b) / d).
Example cramer_ok : linsolve_ok cramer.
Proof. intros J b H. unfold cramer. cbn [fst snd]. split; field; exact H. Qed.
Example C19_fixed_case : forall n, solve_pure_critical (vdw_model 8.3) cramer 1 1 n None None = Val (1, 1).
Proof.
  intro n. assert (Hd : vdw_dom (1 / 1) 1) by (unfold vdw_dom; lra).
  pose proof (C19_residual_and_jacobian (vdw_model 8.3) vdw [1] vdw_dom vdw_D vdw_open (vdw_acc _ _) (vdw_smooth _) 1 1 Hd) as C.
  rewrite vdw_conditions in C. cbn [fst snd m00 m01 m10 m11] in C. destruct C as (C0 & C1 & C2 & C3 & C4 & C5).
  apply (C19_critical_point_is_fixed _ _ vdw vdw_dom vdw_D None None [1]); auto using cramer_ok, vdw_open, vdw_acc, vdw_smooth.
  match goal with |- Derive ?f ?x * ?g <> 0 => assert (E1 : Derive f x = 9 / 4 * 8.3) by (apply is_derive_unique; exact C2);
     rewrite E1; assert (E2 : g = 27 / 8 * 8.3) by (apply is_derive_unique; exact C5); rewrite E2 end. lra.
Qed.
Theorem C19_flags_checked : forall m linsolve T0 rho0 maxsteps index len,
  (forall i, index = Some i -> (i < 0)%Z -> solve_pure_critical m linsolve T0 rho0 maxsteps index len = Err InvalidArgument) /\
  (forall l, len = Some l -> (l < 2)%Z -> solve_pure_critical m linsolve T0 rho0 maxsteps index len = Err InvalidArgument).
Proof.
  intros. unfold solve_pure_critical. split; intros k -> H; cbn [opt_nonneg].
  - destruct (Z.ltb_spec k 0); [reflexivity|lia].
  - unfold bind at 1. destruct (opt_nonneg 0 index) as [i|e] eqn:E.
    + destruct (Z.ltb_spec k 2); [reflexivity|lia].
    + destruct index as [i|]; cbn in E; [destruct (i <? 0)%Z; congruence|discriminate].
Qed.
Print Assumptions C19_flags_checked.

(** One step zeroes the linearised residual. *)
Theorem C19_newton_step : forall m linsolve z T rho, linsolve_ok linsolve ->
  let '(r, J) := critical_conditions m z T rho in
  m00 J * m11 J - m01 J * m10 J <> 0 ->
  let x' := critical_loop m linsolve z 1 (T, rho) in
  fst r + m00 J * (fst x' - T) + m01 J * (snd x' - rho) = 0 /\
  snd r + m10 J * (fst x' - T) + m11 J * (snd x' - rho) = 0.
Proof. intros m linsolve z T rho LS. exact (critical_step m linsolve LS z T rho). Qed.
Print Assumptions C19_newton_step.

(** Not claimed by the code, but expected by a caller: the result is a critical point.
    It is not, and no error is reported: for the hard-rod fluid, which has none, every
    call returns a value. *)
Definition rods (T rho : R) (z : list R) : R := - ln (1 - rho).
Definition rods_dom (u r : R) : Prop := 0 < u /\ 0 < r < 1.
Definition rods_D (i j : nat) (u r : R) : R :=
  match i, j with
  | O, O => - ln (1 - r)
  | O, 1%nat => / (1 - r)
  | O, 2%nat => / (1 - r) ^ 2
  | O, 3%nat => 2 / (1 - r) ^ 3
  | O, 4%nat => 6 / (1 - r) ^ 4
  | _, _ => 0
  end.
Lemma rods_open : open_dom rods_dom.
Proof.
  split; intros u r [Hu Hr].
  - eapply filter_imp; [|apply (locally_pos _ Hu)]. intros t Ht. split; auto.
  - eapply filter_imp; [|apply (open_loc2 0 1 r Hr)]. intros t Ht. split; auto.
  - split; [exact Hu | lra].
Qed.
Lemma rods_smooth : forall z, smooth_family rods z rods_dom 1 4 rods_D.
Proof.
  intro z. split.
  - intros u r [Hu Hr]. unfold rods_D, rods. ring.
  - intros i j u r Hi Hj [Hu Hr]. assert (i = 0%nat) by lia; subst i.
    destruct j as [|[|[|[|[|j]]]]]; [| | | | |lia]; unfold rods_D; auto_derive; auto; try ring; lra.
  - intros i j u r Hi Hj [Hu Hr]. destruct i as [|[|i]]; [| |lia];
    (destruct j as [|[|[|[|j]]]]; [| | | |lia]); unfold rods_D; auto_derive; auto; try lra; try (field; lra).
    all: try (repeat split; auto; try lra). all: try (simpl; try (apply Rmult_integral_contrapositive; split; [lra|]); nra).
    all: try (simpl; field; repeat split; try lra; try nra).
Qed.
Theorem C19_convergence_refuted : exists m alphar,
  (exists D, accessors_of m alphar [1] rods_dom 4 /\ smooth_family alphar [1] rods_dom 1 4 D) /\
  forall linsolve T0 rho0 maxsteps, exists y,
    solve_pure_critical m linsolve T0 rho0 maxsteps None None = Val y /\
    ~ (rods_dom (1 / fst y) (snd y) /\
       Derive (fun r => pressure (get_R m [1]) (fun T r => alphar T r [1]) (fst y) r) (snd y) = 0).
Proof.
  assert (AC : accessors_of (ad_amodel partialN 1 rods) rods [1] rods_dom 4)
    by apply (accessors_of_ad _ _ _ _ _ _ rods_D ad_exact_partial rods_open (rods_smooth [1])).
  exists (ad_amodel partialN 1 rods), rods. split.
  - exists rods_D. split; auto. apply rods_smooth.
  - intros linsolve T0 rho0 maxsteps.
    assert (exists y, solve_pure_critical (ad_amodel partialN 1 rods) linsolve T0 rho0 maxsteps None None = Val y) as (y & E).
    { unfold solve_pure_critical. cbn [opt_nonneg bind]. destruct (Z.to_nat _); eexists; reflexivity. }
    exists y. split; auto. intros [Hd H0].
    pose proof (C19_residual_and_jacobian _ rods [1] rods_dom rods_D rods_open AC (rods_smooth [1]) _ _ Hd) as C.
    cbv zeta in C. destruct (critical_conditions (ad_amodel partialN 1 rods) [1] (fst y) (snd y)) as [r J] eqn:CC.
    destruct C as (C0 & _). rewrite H0 in C0.
    apply (f_equal (fun q => fst (fst q))) in CC. cbn [fst] in CC. rewrite <- CC in C0.
    unfold critical_conditions in C0. cbn [fst snd] in C0.
    rewrite !(acc _ _ _ _ rods_open _ AC (rods_smooth [1])) in C0 by (auto; lia).
    cbn [rods_D ad_amodel get_R pow] in C0.
    pose proof (dom_T _ rods_open _ _ Hd) as HT. destruct Hd as [_ Hr].
    set (T := fst y) in *. set (rh := snd y) in *.
    assert (E2 : T * / (1 - rh) ^ 2 = 0).
    { rewrite <- C0. field. lra. }
    assert (0 < T * / (1 - rh) ^ 2) by (apply Rmult_lt_0_compat; [exact HT|]; apply Rinv_0_lt_compat, pow_lt; lra).
    lra.
Qed.
Print Assumptions C19_convergence_refuted.

(** ** C55 *)

(** Below the critical temperature the extrapolated densities lie symmetrically on the
    two sides of rhoc, and make the pressure expanded about the critical point (to third
    order in density, first in temperature) equal to its value at rhoc. *)
Theorem C55_extrapolation : forall m alphar z dom D, open_dom dom ->
  accessors_of m alphar z dom 4 -> smooth_family alphar z dom 1 4 D ->
  forall Tc rhoc T, dom (1 / Tc) rhoc -> 0 < T < Tc ->
  let p := pressure (get_R m z) (fun T r => alphar T r z) in
  let b := Derive (fun t => Derive (fun r => p t r) rhoc) Tc in
  let d := Derive_n (fun r => p Tc r) 3 rhoc in
  0 < b / d ->
  let landau (T rho : R) := b * (T - Tc) * (rho - rhoc) + d / 6 * (rho - rhoc) ^ 3 in
  let '(rhoL, rhoV) := extrapolate_from_critical m Tc rhoc T z in
  rhoV < rhoc < rhoL /\ rhoL - rhoc = rhoc - rhoV /\
  landau T rhoL = landau T rhoc /\ landau T rhoV = landau T rhoc.
Proof.
  intros m alphar z dom D OD AC SF Tc rhoc T Hd HT p b d Hbd landau.
  pose proof (C19_residual_and_jacobian m alphar z dom D OD AC SF Tc rhoc Hd) as C. cbv zeta in C. fold p in C.
  pose proof (Brho_ok m z dom Tc rhoc Hd) as B.
  destruct (critical_conditions m z Tc rhoc) as [r J]. destruct C as (_ & _ & C2 & _ & _ & C5).
  assert (Eb : b = m00 J) by (apply is_derive_unique; exact C2).
  assert (Ed : d = m11 J) by (apply is_derive_unique; exact C5).
  rewrite <- Eb, <- Ed in B.
  assert (Hd0 : d <> 0) by (intro H; rewrite H in Hbd; unfold Rdiv in Hbd; rewrite Rinv_0 in Hbd; lra).
  assert (Hs : 0 < 1 - T / Tc).
  { apply Rmult_lt_reg_r with Tc; [lra|]. replace ((1 - T / Tc) * Tc) with (Tc - T) by (field; lra). lra. }
  set (s := sqrt (1 - T / Tc)).
  assert (Hs0 : 0 < s) by (apply sqrt_lt_R0; exact Hs).
  assert (Es : s * s = 1 - T / Tc) by (apply sqrt_def; lra).
  assert (HB : 0 < 6 * b * Tc / d).
  { replace (6 * b * Tc / d) with (6 * Tc * (b / d)) by (field; auto). apply Rmult_lt_0_compat; lra. }
  set (Br := get_Brho_critical_extrap m Tc rhoc z) in *.
  assert (HBr : 0 < Br) by (rewrite B; now apply sqrt_lt_R0).
  assert (EB : Br * Br = 6 * b * Tc / d) by (rewrite B; apply sqrt_def; lra).
  assert (X : (T - Tc) * (Br / Tc) / s = - (Br * s)).
  { replace (T - Tc) with (- (Tc * (s * s))) by (rewrite Es; field; lra). field. lra. }
  unfold extrapolate_from_critical. fold Br. fold s.
  replace (- ((T - Tc) * (Br / Tc)) / s) with (Br * s).
  2: { transitivity (- ((T - Tc) * (Br / Tc) / s)); [rewrite X; ring|field; lra]. }
  rewrite X. assert (0 < Br * s) by (now apply Rmult_lt_0_compat).
  assert (Z : forall x, x * x = Br * Br * (s * s) -> b * (T - Tc) * x + d / 6 * x ^ 3 = 0).
  { intros x Ex. replace (x ^ 3) with (x * (x * x)) by ring. rewrite Ex, EB, Es. field. lra. }
  split; [lra|]. split; [ring|]. unfold landau.
  replace (Br * s + rhoc - rhoc) with (Br * s) by ring. replace (- (Br * s) + rhoc - rhoc) with (- (Br * s)) by ring.
  split; rewrite Z by ring; ring.
Qed.
Print Assumptions C55_extrapolation.
Example C55_case : let p := pressure 8.3 (fun T r => vdw T r [1]) in
  0 < Derive (fun t => Derive (fun r => p t r) 1) 1 / Derive_n (fun r => p 1 r) 3 1.
Proof.
  assert (Hd : vdw_dom (1 / 1) 1) by (unfold vdw_dom; lra).
  pose proof (C19_residual_and_jacobian (vdw_model 8.3) vdw [1] vdw_dom vdw_D vdw_open (vdw_acc _ _) (vdw_smooth _) 1 1 Hd) as C.
  rewrite vdw_conditions in C. cbn [fst snd m00 m01 m10 m11] in C. destruct C as (C0 & C1 & C2 & C3 & C4 & C5).
  cbv zeta. change (get_R (vdw_model 8.3) [1]) with 8.3 in *.
  match goal with |- 0 < Derive ?f ?x / ?g => assert (E1 : Derive f x = 9 / 4 * 8.3) by (apply is_derive_unique; exact C2);
     rewrite E1; assert (E2 : g = 27 / 8 * 8.3) by (apply is_derive_unique; exact C5); rewrite E2 end. lra.
Qed.

(** ** C20 *)

(** The residual is the pressure difference and the chemical-potential difference
    (both over RT; the ideal-gas part [ig] is any function of T), and the matrix holds
    its partial derivatives with respect to the two densities. *)
Theorem C20_residual_and_jacobian : forall m alphar z dom D ig, open_dom dom ->
  accessors_of m alphar z dom 2 -> smooth_family alphar z dom 1 2 D -> get_R m z <> 0 ->
  forall T rhoL rhoV, dom (1 / T) rhoL -> dom (1 / T) rhoV ->
  let a := molar_a (get_R m z) ig (fun T r => alphar T r z) in
  let RT := get_R m z * T in
  let '(y, J) := vle_call m T z (rhoL, rhoV) in
  fst y = (th_p a T rhoL - th_p a T rhoV) / RT /\
  snd y = (chempot a T rhoL - chempot a T rhoV) / RT /\
  is_derive (fun r => (th_p a T r - th_p a T rhoV) / RT) rhoL (m00 J) /\
  is_derive (fun r => (th_p a T rhoL - th_p a T r) / RT) rhoV (m01 J) /\
  is_derive (fun r => (chempot a T r - chempot a T rhoV) / RT) rhoL (m10 J) /\
  is_derive (fun r => (chempot a T rhoL - chempot a T r) / RT) rhoV (m11 J).
Proof.
  intros m alphar z dom D ig OD AC SF HR T rhoL rhoV HL HV a RT.
  pose proof (vle_ok m alphar z dom OD D AC SF ig HR T rhoL rhoV HL HV) as V.
  destruct (vle_call m T z (rhoL, rhoV)) as [y J]. destruct V as (V0 & V1 & V2 & V3 & V4 & V5).
  split; [exact V0|]. split; [exact V1|].
  split; [|split; [|split]].
  - apply (is_derive_loc (fun r => fst (fst (vle_call m T z (r, rhoV))))); [|exact V2].
    eapply filter_imp; [|exact (od_r _ OD _ _ HL)]. intros r Hr. symmetry.
    pose proof (vle_ok m alphar z dom OD D AC SF ig HR T r rhoV Hr HV) as W.
    destruct (vle_call m T z (r, rhoV)). apply W.
  - apply (is_derive_loc (fun r => fst (fst (vle_call m T z (rhoL, r))))); [|exact V3].
    eapply filter_imp; [|exact (od_r _ OD _ _ HV)]. intros r Hr. symmetry.
    pose proof (vle_ok m alphar z dom OD D AC SF ig HR T rhoL r HL Hr) as W.
    destruct (vle_call m T z (rhoL, r)). apply W.
  - apply (is_derive_loc (fun r => snd (fst (vle_call m T z (r, rhoV))))); [|exact V4].
    eapply filter_imp; [|exact (od_r _ OD _ _ HL)]. intros r Hr. symmetry.
    pose proof (vle_ok m alphar z dom OD D AC SF ig HR T r rhoV Hr HV) as W.
    destruct (vle_call m T z (r, rhoV)). apply W.
  - apply (is_derive_loc (fun r => snd (fst (vle_call m T z (rhoL, r))))); [|exact V5].
    eapply filter_imp; [|exact (od_r _ OD _ _ HV)]. intros r Hr. symmetry.
    pose proof (vle_ok m alphar z dom OD D AC SF ig HR T rhoL r HL Hr) as W.
    destruct (vle_call m T z (rhoL, r)). apply W.
Qed.
Print Assumptions C20_residual_and_jacobian.
Theorem C20_zero_iff_equilibrium : forall m alphar z dom D ig, open_dom dom ->
  accessors_of m alphar z dom 2 -> smooth_family alphar z dom 1 2 D -> get_R m z <> 0 ->
  forall T rhoL rhoV, dom (1 / T) rhoL -> dom (1 / T) rhoV ->
  let a := molar_a (get_R m z) ig (fun T r => alphar T r z) in
  (fst (vle_call m T z (rhoL, rhoV)) = (0, 0) <->
   th_p a T rhoL = th_p a T rhoV /\ chempot a T rhoL = chempot a T rhoV).
Proof. intros m alphar z dom D ig OD AC SF HR. exact (vle_zero_iff m alphar z dom OD D AC SF ig HR). Qed.
Print Assumptions C20_zero_iff_equilibrium.
Lemma sat_p : forall Rg ig T r, Rg <> 0 -> 0 < T -> 0 < r ->
  th_p (molar_a Rg ig (fun T r => sat T r [1])) T r =
    Rg * T * (3 * r ^ 4 - 12 * T * r ^ 3 + 13 * T ^ 2 * r ^ 2 - 4 * T ^ 4 + T).
Proof.
  intros Rg ig T r HR HT Hr.
  assert (Hd : sat_dom (1 / T) r) by (split; auto; now apply recip_pos).
  etransitivity; [exact (p_of_a (sat_model Rg) sat [1] sat_dom sat_open sat_D (sat_smooth [1]) ig T r Hd)|].
  cbn [sat_D sat_model ad_amodel get_R]. field. lra.
Qed.
Lemma sat_mu : forall Rg ig T r, Rg <> 0 -> 0 < T -> 0 < r ->
  chempot (molar_a Rg ig (fun T r => sat T r [1])) T r =
    Rg * T * (ig T + 4 * r ^ 3 - 18 * T * r ^ 2 + 26 * T ^ 2 * r - 12 * T ^ 3).
Proof.
  intros Rg ig T r HR HT Hr. unfold chempot. rewrite sat_p by auto.
  unfold molar_a, sat. field. lra.
Qed.
Lemma sat_equilibrium : forall Rg ig T, Rg <> 0 -> 0 < T ->
  let a := molar_a Rg ig (fun T r => sat T r [1]) in
  th_p a T (2 * T) = Rg * T ^ 2 /\ th_p a T T = Rg * T ^ 2 /\ chempot a T (2 * T) = chempot a T T.
Proof.
  intros Rg ig T HR HT a. unfold a. rewrite !sat_p, !sat_mu by (auto; lra).
  split; [ring|]. split; ring.
Qed.
Example C20_case : fst (vle_call (sat_model 8.3) 3 [1] (6, 3)) = (0, 0).
Proof.
  assert (forall r, 0 < r -> sat_dom (1 / 3) r) by (intros; split; lra).
  apply (C20_zero_iff_equilibrium (sat_model 8.3) sat [1] sat_dom sat_D (fun _ => 0)); auto using sat_open, sat_acc, sat_smooth.
  - cbn; lra.
  - apply H; lra.
  - apply H; lra.
  - cbn [sat_model ad_amodel get_R]. destruct (sat_equilibrium 8.3 (fun _ => 0) 3 ltac:(lra) ltac:(lra)) as (A & B & C).
    replace (2 * 3) with 6 in * by ring. split; [|exact C]. rewrite A, B. reflexivity.
Qed.

(** A pair that already is in equilibrium is returned unchanged for every iteration
    limit, by every linear solver. *)
Theorem C20_equilibrium_is_fixed : forall m linsolve eps alphar z dom D ig, open_dom dom ->
  accessors_of m alphar z dom 2 -> smooth_family alphar z dom 1 2 D -> get_R m z <> 0 -> 0 < eps ->
  forall T rhoL rhoV maxiter, dom (1 / T) rhoL -> dom (1 / T) rhoV ->
  let a := molar_a (get_R m z) ig (fun T r => alphar T r z) in
  th_p a T rhoL = th_p a T rhoV -> chempot a T rhoL = chempot a T rhoV ->
  pure_VLE_T m linsolve eps T rhoL rhoV maxiter z = (rhoL, rhoV).
Proof.
  intros m linsolve eps alphar z dom D ig OD AC SF HR He T rhoL rhoV maxiter HL HV a Hp Hm.
  unfold pure_VLE_T. apply vle_loop_fixed; auto.
  apply (C20_zero_iff_equilibrium m alphar z dom D ig OD AC SF HR T rhoL rhoV HL HV). split; assumption.
Qed.
Print Assumptions C20_equilibrium_is_fixed.

(** What a call returns: a pair reached after at most [maxiter] Newton steps, and if
    fewer were taken then either the residual is below eps or the step that would have
    followed is. *)
Theorem C20_outcome : forall m linsolve eps T rhoL rhoV maxiter z, exists k, (k <= Z.to_nat maxiter)%nat /\
  let y := newton_iter m linsolve T z k (rhoL, rhoV) in
  pure_VLE_T m linsolve eps T rhoL rhoV maxiter z = y /\
  (k = Z.to_nat maxiter \/
   let '(r, J) := vle_call m T z y in
   (Rabs (fst r) < eps /\ Rabs (snd r) < eps) \/
   (let v := linsolve J (- fst r, - snd r) in Rabs (fst v) < eps /\ Rabs (snd v) < eps)).
Proof.
  intros. destruct (vle_loop_outcome m linsolve eps T z (Z.to_nat maxiter) (rhoL, rhoV)) as (k & A & B & C).
  exists k. split; [exact A|]. split; [exact B|]. exact C.
Qed.
Print Assumptions C20_outcome.

(** ** C21 *)

Ltac cont2 := first [ apply continuity_2d_pt_id1 | apply continuity_2d_pt_id2 | apply continuity_2d_pt_const |
  match goal with
  | |- continuity_2d_pt (fun u v => @?f u v + @?g u v) _ _ => apply (continuity_2d_pt_plus f g); cont2
  | |- continuity_2d_pt (fun u v => @?f u v - @?g u v) _ _ => apply (continuity_2d_pt_minus f g); cont2
  | |- continuity_2d_pt (fun u v => @?f u v * @?g u v) _ _ => apply (continuity_2d_pt_mult f g); cont2
  | |- continuity_2d_pt (fun u v => / @?f u v) _ _ => apply (continuity_2d_pt_inv f); [cont2|]
  end ].
Lemma diff2 : forall (f dfx : R -> R -> R) (x y dfy : R), 0 < y ->
  (forall u v, 0 < v -> is_derive (fun t => f t v) u (dfx u v)) ->
  is_derive (fun t => f x t) y dfy -> continuity_2d_pt dfx x y ->
  differentiable_pt_lim f x y (dfx x y) dfy.
Proof.
  intros f dfx x y dfy Hy Hx Hdy Hc. apply filterdiff_differentiable_pt_lim.
  eapply filterdiff_ext_lin.
  - apply (is_derive_filterdiff f x y dfx dfy); auto.
    + apply (proj1 (locally_2d_locally (fun u v => is_derive (fun t => f t v) u (dfx u v)) x y)).
      assert (L : locally_2d (fun u v => 0 < v) x y).
      { exists (mkposreal y Hy). simpl. intros u v _ Hv. apply Rabs_lt_between in Hv. lra. }
      destruct L as (d & L). exists d. intros u v Hu Hv. cbn [fst snd]. apply Hx. eapply L; eauto.
    + apply continuity_2d_pt_filterlim in Hc. exact Hc.
  - intros [u v]. unfold plus, scal; simpl. unfold mult; simpl. eqR. ring.
Qed.

(** Along any differentiable saturation curve through the state -- equal pressures
    [psat] and equal chemical potentials near T -- the returned slope is dpsat/dT. *)
Theorem C21_clapeyron : forall m alphar z dom D ig, open_dom dom ->
  accessors_of m alphar z dom 2 -> smooth_family alphar z dom 1 2 D -> get_R m z <> 0 ->
  let a := molar_a (get_R m z) ig (fun T r => alphar T r z) in
  forall (rhoL rhoV psat : R -> R) T d,
  dom (1 / T) (rhoL T) -> dom (1 / T) (rhoV T) -> rhoL T <> rhoV T ->
  (exists l1 l2, differentiable_pt_lim (fun T r => alphar T r z) T (rhoL T) l1 l2) ->
  (exists l1 l2, differentiable_pt_lim (fun T r => alphar T r z) T (rhoV T) l1 l2) ->
  ex_derive rhoL T -> ex_derive rhoV T -> ex_derive ig T -> is_derive psat T d ->
  locally T (fun t => th_p a t (rhoL t) = psat t /\ th_p a t (rhoV t) = psat t /\
                      chempot a t (rhoL t) = chempot a t (rhoV t)) ->
  dpsatdT_pure m T (rhoL T) (rhoV T) z = d.
Proof.
  intros m alphar z dom D ig OD AC SF HR a rhoL rhoV psat T d HL HV Hne (l1 & l2 & D1) (l3 & l4 & D2) (d1 & E1) (d2 & E2) (d3 & E3) Hp Hloc.
  exact (clapeyron m alphar z dom OD D AC SF ig HR rhoL rhoV psat T d1 d2 d l1 l2 l3 l4 d3 HL HV Hne D1 D2 E1 E2 Hp E3 Hloc).
Qed.
Print Assumptions C21_clapeyron.
Lemma sat_diff : forall T r, 0 < T -> 0 < r -> exists l1 l2, differentiable_pt_lim (fun T r => sat T r [1]) T r l1 l2.
Proof.
  intros T r HT Hr. do 2 eexists.
  apply (diff2 _ (fun t r => - 6 * (r * r) + 26 * (t * r) - 36 * (t * t) + (16 * (t * (t * t)) - 1) * / r)); auto.
  - intros u v Hv. unfold sat. auto_derive; auto. field. lra.
  - apply Derive_correct. unfold sat. auto_derive. repeat split; lra.
  - cont2. lra.
Qed.
Lemma sat_local : forall Rg ig T, Rg <> 0 -> 0 < T -> let a := molar_a Rg ig (fun T r => sat T r [1]) in
  locally T (fun t => th_p a t (2 * t) = Rg * t ^ 2 /\ th_p a t t = Rg * t ^ 2 /\
                      chempot a t (2 * t) = chempot a t t).
Proof.
  intros Rg ig T HR HT a. eapply filter_imp; [|apply (locally_pos _ HT)]. intros t Ht. now apply sat_equilibrium.
Qed.
Example C21_case : forall T, 0 < T -> dpsatdT_pure (sat_model 8.3) T (2 * T) T [1] = 8.3 * (2 * T).
Proof.
  intros T HT.
  assert (forall r, 0 < r -> sat_dom (1 / T) r) by (intros; split; auto; now apply recip_pos).
  apply (C21_clapeyron (sat_model 8.3) sat [1] sat_dom sat_D (fun _ => 0) sat_open (sat_acc _ _) (sat_smooth _) ltac:(cbn; lra)
    (fun t => 2 * t) (fun t => t) (fun t => 8.3 * t ^ 2)); try (apply H; lra); try lra; try (apply sat_diff; lra);
    try (auto_derive; auto; fail).
  - auto_derive; auto. ring.
  - apply sat_local; cbn; lra.
Qed.

(** ** C47 *)

(** With Nstep >= 1 and no derivative extrapolation, the result is the VLE solver's
    result at exactly the requested temperature, and the two densities differ. *)
Theorem C47_trace : forall m polish z Nstep Tclose T x y, (1 <= Nstep)%nat ->
  pure_trace_from m polish z false Nstep Tclose T x = Val y ->
  exists guess, polish T guess = Some y /\ fst y <> snd y.
Proof.
  intros m polish z N Tclose T x y HN H. destruct (trace_result m polish z false N Tclose T x y HN H) as (g & p & P & NE & E & _).
  exists g. rewrite (E eq_refl) in *. split; auto.
Qed.
Print Assumptions C47_trace.
(** The temperatures visited: Nstep of them, evenly spaced, ending at T. *)
Theorem C47_grid : forall N a b, (2 <= N)%nat -> length (linspaced N a b) = N /\
  nth 0 (linspaced N a b) 0 = a /\ nth (N - 1) (linspaced N a b) 0 = b /\
  forall k, (S k < N)%nat -> nth (S k) (linspaced N a b) 0 - nth k (linspaced N a b) 0 = (b - a) / INR (N - 1).
Proof.
  intros [|[|N]] a b H; try lia. unfold linspaced.
  set (f := fun k => a + INR k * ((b - a) / INR (S (S N) - 1))).
  assert (E : forall k, (k < S (S N))%nat -> nth k (map f (seq 0 (S (S N)))) 0 = f k).
  { intros k Hk. rewrite (nth_indep _ 0 (f 0%nat)) by (rewrite map_length, seq_length; auto).
    rewrite map_nth, seq_nth by auto. reflexivity. }
  split; [now rewrite map_length, seq_length|]. split; [rewrite E by lia; unfold f; simpl INR; ring|].
  split.
  - rewrite E by lia. unfold f. field. apply not_0_INR. lia.
  - intros k Hk. rewrite !E by lia. unfold f. rewrite S_INR. ring.
Qed.
Print Assumptions C47_grid.
(** The slope used between temperatures is the derivative of the saturated density
    along any differentiable saturation curve. *)
Theorem C47_density_slope : forall m alphar z dom D ig, open_dom dom ->
  accessors_of m alphar z dom 2 -> smooth_family alphar z dom 1 2 D ->
  let a := molar_a (get_R m z) ig (fun T r => alphar T r z) in
  forall (rho psat : R -> R) T d drho lT lr, dom (1 / T) (rho T) ->
  differentiable_pt_lim (th_p a) T (rho T) lT lr -> lr <> 0 ->
  is_derive rho T drho -> is_derive psat T d ->
  locally T (fun t => th_p a t (rho t) = psat t) ->
  trace_drhodT m z d T (rho T) = drho.
Proof.
  intros m alphar z dom D ig OD AC SF a rho psat T d drho lT lr Hd Hdiff Hlr Hr Hp Hloc. symmetry.
  exact (p_along_slope m alphar z dom OD D AC SF ig rho psat T drho d lT lr Hd Hdiff Hr Hp Hloc Hlr).
Qed.
Print Assumptions C47_density_slope.
Example C47_slope_case : forall T, 0 < T -> trace_drhodT (sat_model 8.3) [1] (8.3 * (2 * T)) T (2 * T) = 2
  /\ trace_drhodT (sat_model 8.3) [1] (8.3 * (2 * T)) T T = 1.
Proof.
  intros T HT.
  assert (Hdom : forall r, 0 < r -> sat_dom (1 / T) r) by (intros; split; auto; now apply recip_pos).
  assert (Diff : forall r, 0 < r -> differentiable_pt_lim (th_p (molar_a 8.3 (fun _ => 0) (fun T r => sat T r [1]))) T r
     (8.3 * (3 * r ^ 4 - 24 * T * r ^ 3 + 39 * T ^ 2 * r ^ 2 - 20 * T ^ 4 + 2 * T))
     (8.3 * T * (12 * r ^ 3 - 36 * T * r ^ 2 + 26 * T ^ 2 * r))).
  { intros r Hr.
    apply (differentiable_pt_lim_ext (fun T r => 8.3 * T * (3 * r ^ 4 - 12 * T * r ^ 3 + 13 * T ^ 2 * r ^ 2 - 4 * T ^ 4 + T))).
    - exists (mkposreal (Rmin T r) (Rmin_pos _ _ HT Hr)). simpl. intros u v Hu Hv.
      pose proof (Rmin_l T r). pose proof (Rmin_r T r).
      apply Rabs_def2 in Hu. apply Rabs_def2 in Hv. symmetry. apply sat_p; lra.
    - refine (eq_ind _ (fun q => differentiable_pt_lim _ T r q _)
       (diff2 _ (fun T r => 8.3 * (3 * (r * (r * (r * r))) - 24 * (T * (r * (r * r))) + 39 * ((T * T) * (r * r)) - 20 * (T * (T * (T * T))) + 2 * T)) T r _ Hr _ _ _) _ _).
      + intros u v Hv. auto_derive; auto. ring.
      + auto_derive; auto. ring.
      + cont2.
      + cbv beta. ring. }
  assert (HT3 : 0 < T ^ 3) by (apply pow_lt; auto).
  split.
  - apply (C47_density_slope (sat_model 8.3) sat [1] sat_dom sat_D (fun _ => 0) sat_open (sat_acc _ _) (sat_smooth _)
      (fun t => 2 * t) (fun t => 8.3 * t ^ 2) T _ _ _ _ (Hdom (2 * T) ltac:(lra)) (Diff (2 * T) ltac:(lra))).
    + replace (8.3 * T * (12 * (2 * T) ^ 3 - 36 * T * (2 * T) ^ 2 + 26 * T ^ 2 * (2 * T))) with (8.3 * T * (4 * T ^ 3)) by ring.
      apply Rgt_not_eq, Rmult_lt_0_compat; lra.
    + auto_derive; auto. ring.
    + auto_derive; auto. ring.
    + eapply filter_imp; [|apply (sat_local 8.3 (fun _ => 0) T ltac:(lra) HT)]. intros t H; apply H.
  - apply (C47_density_slope (sat_model 8.3) sat [1] sat_dom sat_D (fun _ => 0) sat_open (sat_acc _ _) (sat_smooth _)
      (fun t => t) (fun t => 8.3 * t ^ 2) T _ _ _ _ (Hdom _ HT) (Diff T HT)).
    + replace (8.3 * T * (12 * T ^ 3 - 36 * T * T ^ 2 + 26 * T ^ 2 * T)) with (8.3 * T * (2 * T ^ 3)) by ring.
      apply Rgt_not_eq, Rmult_lt_0_compat; lra.
    + auto_derive; auto.
    + auto_derive; auto. ring.
    + eapply filter_imp; [|apply (sat_local 8.3 (fun _ => 0) T ltac:(lra) HT)]. intros t H; apply H.
Qed.
(** A trace that succeeds. *)
Example C47_trace_case : pure_trace_from (sat_model 8.3) (fun T _ => Some (2 * T, T)) [1] false 3 2 1 (4, 2) = Val (2, 1).
Proof.
  unfold pure_trace_from, trivial2. cbn [fst snd]. destruct (Req_EM_T 4 2); [lra|].
  unfold linspaced. cbn [seq map trace_loop fst snd]. cbv zeta.
  replace (2 + INR 0 * ((1 - 2) / INR (3 - 1))) with 2 by (simpl; lra).
  replace (2 + INR 1 * ((1 - 2) / INR (3 - 1))) with 1.5 by (simpl; lra).
  replace (2 + INR 2 * ((1 - 2) / INR (3 - 1))) with 1 by (simpl; lra).
  unfold trivial2. cbn [fst snd].
  destruct (Req_EM_T (2 * 2) 2); [lra|]. destruct (Req_EM_T (2 * 1.5) 1.5); [lra|]. destruct (Req_EM_T (2 * 1) 1); [lra|].
  f_equal. f_equal. ring.
Qed.
(** With derivative extrapolation the extrapolation to the next temperature is also
    applied after the last one: even with an exact solver the result is not the
    saturation pair at T. *)
Theorem C47_with_derivative_refuted : exists m polish y,
  (* the solver returns the exact saturated pair at every temperature *)
  (forall T x, polish T x = Some (2 * T, T)) /\
  (forall T, 0 < T -> fst (vle_call m T [1] (2 * T, T)) = (0, 0)) /\
  pure_trace_from m polish [1] true 3 2 1 (4, 2) = Val y /\
  y = (1, 1 / 2) /\ y <> (2, 1).
Proof.
  exists (sat_model 8.3), (fun T _ => Some (2 * T, T)), (1, 1 / 2).
  split; [reflexivity|]. split.
  { intros T HT. assert (Hdom : forall r, 0 < r -> sat_dom (1 / T) r) by (intros; split; auto; now apply recip_pos).
    apply (C20_zero_iff_equilibrium (sat_model 8.3) sat [1] sat_dom sat_D (fun _ => 0)); auto using sat_open, sat_acc, sat_smooth.
    - cbn; lra.
    - apply Hdom; lra.
    - cbn [sat_model ad_amodel get_R]. destruct (sat_equilibrium 8.3 (fun _ => 0) T ltac:(lra) HT) as (A & B & C).
      split; [|exact C]. rewrite A, B. reflexivity. }
  split; [|split; [reflexivity|intro E; injection E; lra]].
  unfold pure_trace_from, trivial2. cbn [fst snd]. destruct (Req_EM_T 4 2); [lra|].
  unfold linspaced. cbn [seq map trace_loop fst snd]. cbv zeta.
  replace (2 + INR 0 * ((1 - 2) / INR (3 - 1))) with 2 by (simpl; lra).
  replace (2 + INR 1 * ((1 - 2) / INR (3 - 1))) with 1.5 by (simpl; lra).
  replace (2 + INR 2 * ((1 - 2) / INR (3 - 1))) with 1 by (simpl; lra).
  replace (- (2 - 1) / INR (3 - 1)) with (- 1 / 2) by (simpl; lra).
  rewrite !C21_case by lra.
  destruct (C47_slope_case 2 ltac:(lra)) as [A2 B2]. rewrite A2, B2.
  destruct (C47_slope_case 1.5 ltac:(lra)) as [A3 B3]. rewrite A3, B3.
  destruct (C47_slope_case 1 ltac:(lra)) as [A1 B1]. rewrite A1, B1.
  unfold trivial2. cbn [fst snd].
  destruct (Req_EM_T (2 * 2 + - 1 / 2 * 2) (2 + - 1 / 2 * 1)); [lra|].
  destruct (Req_EM_T (2 * 1.5 + - 1 / 2 * 2) (1.5 + - 1 / 2 * 1)); [lra|].
  destruct (Req_EM_T (2 * 1 + - 1 / 2 * 2) (1 + - 1 / 2 * 1)); [lra|].
  f_equal. f_equal; field.
Qed.
Print Assumptions C47_with_derivative_refuted.
