(** Theorems about the van der Waals and cubic equations of state: C27 (the
    equations are the textbook ones, with the right critical points), and the parts
    about these models of C28 (copies and order of components), C29 (pure limits),
    C30 (zero density), C41 (Wilson activity model), C56 (sizes). *)
From Coq Require Import Reals String List Permutation Lia Lra Bool Psatz.
From Coquelicot Require Import Coquelicot.
From Verif Require Import Json_model Vec_spec Vec_proofs Derivs_spec Derivs_proofs2 Cubic_model Cubic_spec
  Cubic_proofs Cubic_proofs2.
Import ListNotations.
Open Scope R_scope.

Ltac pos := repeat first [assumption | lra | apply pow_lt | apply Rdiv_lt_0_compat | apply Rmult_lt_0_compat].
Lemma R_gas_pos : 0 < R_gas.
Proof. unfold R_gas. assert (0 < 10 ^ 23) by (apply pow_lt; lra). apply Rmult_lt_0_compat; [lra|].
  apply Rdiv_lt_0_compat; lra. Qed.
Lemma vdW1_Ru_pos : 0 < vdW1_Ru.
Proof. unfold vdW1_Ru. rewrite Rmult_comm. exact R_gas_pos. Qed.
Lemma R_CODATA_pos : 0 < R_CODATA2017. Proof. unfold R_CODATA2017. lra. Qed.

(** ** C27: pressure *)

Theorem C27_vdW1_pressure : forall a b T rho, 0 < T -> 0 < rho -> b * rho < 1 ->
  pressure_of vdW1_Ru (vdW1_alphar a b) T rho = vdW_textbook vdW1_Ru a b T (1 / rho) /\
  vdW1_p a b T (1 / rho) = vdW_textbook vdW1_Ru a b T (1 / rho).
Proof.
  intros a b T rho HT Hr Hb. split.
  - apply (pressure_vdW a b vdW1_Ru T rho); try lra. apply Rgt_not_eq, Rmult_lt_0_compat; auto. apply vdW1_Ru_pos.
  - unfold vdW1_p, vdW_textbook. f_equal. f_equal. ring.
Qed.
Example C27_vdW1_met : pressure_of vdW1_Ru (vdW1_alphar 1 (1 / 2)) 300 1 = vdW_textbook vdW1_Ru 1 (1 / 2) 300 (1 / 1).
Proof. apply C27_vdW1_pressure; lra. Qed.

(** the parameters of component [i] in the textbook *)
Definition vdW_ai (Tc pc : list R) (i : nat) : R := 27 * R_gas ^ 2 * nth i Tc 0 ^ 2 / (64 * nth i pc 0).
Definition vdW_bi (Tc pc : list R) (i : nat) : R := R_gas * nth i Tc 0 / (8 * nth i pc 0).

Theorem C27_vdW_pressure : forall Tc pc x, length pc = length Tc -> length x = length Tc -> all_pos pc ->
  exists m f, make_vdW Tc pc = Val m /\ (forall T rho, vdW_alphar m T rho x = Val (f T rho)) /\
  forall T rho, 0 < T -> 0 < rho -> mean x (vdW_bi Tc pc) * rho < 1 ->
    pressure_of R_gas f T rho =
    vdW_textbook R_gas (quadratic_mean x (fun i j => sqrt (vdW_ai Tc pc i * vdW_ai Tc pc j)))
      (mean x (vdW_bi Tc pc)) T (1 / rho).
Proof.
  intros Tc pc x L Lx Hpc. unfold make_vdW. rewrite L, Nat.eqb_refl. simpl.
  eexists. exists (fun T rho => - ln (1 - mean x (vdW_bi Tc pc) * rho) -
    quadratic_mean x (fun i j => sqrt (vdW_ai Tc pc i * vdW_ai Tc pc j)) / (R_gas * T) * rho).
  split; [reflexivity|].
  assert (Hp : forall i, (i < length x)%nat -> 0 < nth i pc 0).
  { intros i Hi. unfold all_pos in Hpc. rewrite List.Forall_forall in Hpc. apply Hpc. apply nth_In. lia. }
  split.
  - intros T rho. unfold vdW_alphar. simpl. rewrite map_length, seq_length, Lx, Nat.eqb_refl. simpl.
    f_equal. f_equal; [|f_equal]; [|f_equal].
    + f_equal. f_equal. f_equal. f_equal. unfold vdW_b, mean. apply sumn_ext. intros i Hi. simpl.
      rewrite nth_map_seq' by lia. f_equal. unfold vdW_bi. field. specialize (Hp i Hi). lra.
    + unfold vdW_a, quadratic_mean. apply sumn_ext. intros i Hi. apply sumn_ext. intros j Hj. simpl.
      rewrite !nth_map_seq' by lia. f_equal. rewrite Rminus_0_r, Rmult_1_l. f_equal.
      assert (0 < nth i pc 0) by (apply Hp; auto). assert (0 < nth j pc 0) by (apply Hp; auto).
      unfold vdW_ai. field. lra.
  - intros T rho HT Hr Hb. apply pressure_vdW; try lra. apply Rgt_not_eq, Rmult_lt_0_compat; auto. apply R_gas_pos.
Qed.
Example C27_vdW_met : let x := [0.3; 0.7] in
  mean x (vdW_bi [300; 400] [10 ^ 7; 10 ^ 6]) * 100 < 1 /\ all_pos [10 ^ 7; 10 ^ 6].
Proof. cbv zeta. unfold mean, vdW_bi, R_gas, all_pos. split; [simpl; lra|]. repeat constructor; lra. Qed.

(** A pure fluid built from its critical temperature and pressure has its critical
    point there, at one third of the close-packed density. *)
Theorem C27_vdW_critical : forall Tc pc, 0 < Tc -> 0 < pc ->
  exists m f, make_vdW [Tc] [pc] = Val m /\ (forall T rho, vdW_alphar m T rho [1] = Val (f T rho)) /\
  critical_at (fun rho => pressure_of R_gas f Tc rho) (pc / (3 / 8 * R_gas * Tc)) pc.
Proof.
  intros Tc pc HT Hp.
  destruct (C27_vdW_pressure [Tc] [pc] [1] eq_refl eq_refl) as [m [f [E [V P]]]];
    [repeat constructor; auto|].
  exists m, f. split; auto. split; auto.
  assert (HR := R_gas_pos).
  assert (Eb : mean [1] (vdW_bi [Tc] [pc]) = 1 / 8 * R_gas * Tc / pc).
  { unfold mean, vdW_bi. simpl. field. lra. }
  assert (Ea : quadratic_mean [1] (fun i j => sqrt (vdW_ai [Tc] [pc] i * vdW_ai [Tc] [pc] j)) = 27 / 64 * (R_gas * Tc) ^ 2 / pc).
  { unfold quadratic_mean. simpl. rewrite sqrt_square; [unfold vdW_ai; simpl; field; lra|].
    unfold vdW_ai. cbn [nth]. assert (0 < R_gas ^ 2) by (apply pow_lt; auto). assert (0 < Tc ^ 2) by (apply pow_lt; auto).
    apply Rlt_le, Rdiv_lt_0_compat; [|lra]. apply Rmult_lt_0_compat; [lra|auto]. }
  rewrite Eb, Ea in P.
  apply (critical_ext (fun rho => cubic_textbook R_gas (27 / 64 * (R_gas * Tc) ^ 2 / pc) (1 / 8 * R_gas * Tc / pc) 0 0 Tc (1 / rho))).
  - set (rc := pc / (3 / 8 * R_gas * Tc)).
    assert (Hrc : 0 < rc). { unfold rc. pos. }
    assert (Brc : 1 / 8 * R_gas * Tc / pc * rc = 1 / 3) by (unfold rc; field; repeat split; lra).
    assert (L1 : locally rc (fun r => 0 < r)) by (apply (open_gt 0 rc); auto).
    assert (L2 : locally rc (fun r => r < 2 * rc)) by (apply (open_lt (2 * rc)); lra).
    generalize (filter_and _ _ L1 L2). apply filter_imp. intros r [H1 H2].
    assert (Hb : 0 < 1 / 8 * R_gas * Tc / pc) by (pos).
    rewrite P; auto.
    + unfold cubic_textbook, vdW_textbook. f_equal. f_equal. ring.
    + apply (Rmult_lt_compat_l _ _ _ Hb) in H2. lra.
  - apply (cubic_critical 0 0 (27 / 64) (1 / 8) (3 / 8)); try lra. apply vdW_constants.
Qed.

(** The generic cubic as constructed: any Delta1 <> Delta2, any alpha functions. *)
Theorem C27_cubic_pressure : forall D1 D2 OA OB Tc pc alphas k Rg x,
  length pc = length Tc -> length alphas = length Tc -> cols k = length Tc -> rows k = length Tc ->
  length x = length Tc -> length Tc <> O -> D1 <> D2 ->
  exists c f, make_cubic D1 D2 OA OB Tc pc alphas k Rg = Some (Val c) /\
  evaluates (fun T rho => cubic_alphar c T rho x) f /\
  let b := mean x (fun i => OB * Rg * nth i Tc 0 / nth i pc 0) in
  let ai i T := OA * (Rg * nth i Tc 0) ^ 2 / nth i pc 0 * alpha_val (nth i alphas (BasicAlpha 0 0)) T in
  forall T rho, 0 < Rg * T -> 0 < rho -> b <> 0 -> b * rho < 1 -> 0 < 1 + D1 * b * rho -> 0 < 1 + D2 * b * rho ->
    pressure_of Rg f T rho =
    cubic_textbook Rg (quadratic_mean x (fun i j => (1 - at_ k i j) * sqrt (ai i T * ai j T))) b D1 D2 T (1 / rho).
Proof.
  intros D1 D2 OA OB Tc pc alphas k Rg x Lp La Ck Rk Lx N0 HD.
  set (b := mean x (fun i => OB * Rg * nth i Tc 0 / nth i pc 0)).
  set (ai := fun i T => OA * (Rg * nth i Tc 0) ^ 2 / nth i pc 0 * alpha_val (nth i alphas (BasicAlpha 0 0)) T).
  unfold make_cubic. rewrite Lp, Nat.ltb_irrefl. unfold check_mat. rewrite Ck, Rk, Nat.eqb_refl. simpl.
  destruct (Nat.eqb_spec (length Tc) 0); [lia|]. simpl.
  eexists. exists (fun T rho => cubic_form D1 D2 (quadratic_mean x (fun i j => (1 - at_ k i j) * sqrt (ai i T * ai j T))) b Rg T rho).
  split; [reflexivity|]. split.
  - intros T rho. unfold cubic_alphar. simpl. rewrite Lx, La, Nat.eqb_refl. simpl.
    rewrite map_length, seq_length, Nat.ltb_irrefl. unfold ok. f_equal. f_equal. f_equal.
    + unfold cubic_a, quadratic_mean. apply sumn_ext; intros i Hi. apply sumn_ext; intros j Hj. cbv beta zeta. simpl.
      rewrite !nth_map_seq' by lia. unfold alpha_at, ai.
      rewrite (nth_error_nth' alphas (BasicAlpha 0 0)) by lia. rewrite (nth_error_nth' alphas (BasicAlpha 0 0) (n:=j)) by lia. reflexivity.
    + unfold cubic_b, b, mean. apply sumn_ext; intros i Hi. simpl. rewrite nth_map_seq' by lia. reflexivity.
  - cbv zeta. intros T rho HT Hr Hb0 Hb1 H1 H2.
    transitivity (pressure_of Rg (cubic_form D1 D2 (quadratic_mean x (fun i j => (1 - at_ k i j) * sqrt (ai i T * ai j T))) b Rg) T rho).
    + reflexivity.
    + apply pressure_form; try lra; auto.
Qed.

(** Every alpha function is 1 at the critical temperature. *)
Theorem C27_alpha_at_critical : forall Tc m c0 c1 c2, 0 < Tc ->
  alpha_val (BasicAlpha Tc m) Tc = 1 /\ alpha_val (TwuAlpha Tc c0 c1 c2) Tc = 1 /\
  alpha_val (MathiasCopeman Tc c0 c1 c2) Tc = 1.
Proof.
  intros. simpl. replace (Tc / Tc) with 1 by (field; lra). rewrite sqrt_1. 
  assert (E : forall y, Rpower 1 y = 1) by (intro; unfold Rpower; rewrite ln_1, Rmult_0_r; apply exp_0).
  rewrite !E. rewrite !Rminus_eq_0, !Rmult_0_r, exp_0. split; [ring|split; ring].
Qed.

(** Soave-Redlich-Kwong and Peng-Robinson mixtures, as the textbooks write them. *)
Definition SRK_ai (Rg : R) (Tc pc w : list R) (i : nat) (T : R) : R :=
  1 / (9 * (cbrt 2 - 1)) * Rg ^ 2 * nth i Tc 0 ^ 2 / nth i pc 0 *
  (1 + (0.48 + 1.574 * nth i w 0 - 0.176 * nth i w 0 ^ 2) * (1 - sqrt (T / nth i Tc 0))) ^ 2.
Definition SRK_bi (Rg : R) (Tc pc : list R) (i : nat) : R := (cbrt 2 - 1) / 3 * Rg * nth i Tc 0 / nth i pc 0.
Definition PR_kappa (w : R) : R :=
  if Rlt_dec w 0.491 then 0.37464 + 1.54226 * w - 0.26992 * w ^ 2
  else 0.379642 + 1.48503 * w - 0.164423 * w ^ 2 + 0.016666 * w ^ 3.
Definition PR_ai (Rg : R) (Tc pc w : list R) (i : nat) (T : R) : R :=
  PR_OmegaA * Rg ^ 2 * nth i Tc 0 ^ 2 / nth i pc 0 * (1 + PR_kappa (nth i w 0) * (1 - sqrt (T / nth i Tc 0))) ^ 2.
Definition PR_bi (Rg : R) (Tc pc : list R) (i : nat) : R := PR_OmegaB * Rg * nth i Tc 0 / nth i pc 0.

Lemma quadratic_mean_ext : forall x q q', (forall i j, (i < length x)%nat -> (j < length x)%nat -> q i j = q' i j) ->
  quadratic_mean x q = quadratic_mean x q'.
Proof. intros. unfold quadratic_mean. apply sumn_ext; intros. apply sumn_ext; intros. rewrite H; auto. Qed.
Lemma nth_basic : forall m Tc w i, (i < length Tc)%nat ->
  nth i (basic_alphas m Tc w) (BasicAlpha 0 0) = BasicAlpha (nth i Tc 0) (m (nth i w 0)).
Proof.
  intros. unfold basic_alphas.
  rewrite (nth_indep _ (BasicAlpha 0 0) ((fun i => BasicAlpha (nth i Tc 0) (m (nth i w 0))) O))
    by (rewrite map_length, seq_length; auto).
  rewrite (map_nth (fun i => BasicAlpha (nth i Tc 0) (m (nth i w 0)))). rewrite seq_nth by auto. reflexivity.
Qed.

Theorem C27_SRK_pressure : forall Tc pc w k Rg x,
  length pc = length Tc -> length w = length Tc -> cols k = length Tc -> rows k = length Tc ->
  length x = length Tc -> length Tc <> O ->
  exists c f, canonical_SRK Tc pc w (Some k) (Some Rg) = Some (Val c) /\
  evaluates (fun T rho => cubic_alphar c T rho x) f /\
  let b := mean x (SRK_bi Rg Tc pc) in
  forall T rho, 0 < Rg * T -> 0 < rho -> 0 < b -> b * rho < 1 ->
    pressure_of Rg f T rho =
    SRK_textbook Rg (quadratic_mean x (fun i j => (1 - at_ k i j) * sqrt (SRK_ai Rg Tc pc w i T * SRK_ai Rg Tc pc w j T)))
      b T (1 / rho).
Proof.
  intros Tc pc w k Rg x Lp Lw Ck Rk Lx N0.
  destruct (C27_cubic_pressure 1 0 SRK_OmegaA SRK_OmegaB Tc pc (basic_alphas SRK_m Tc w) k Rg x) as [c [f [E [V P]]]]; auto.
  { unfold basic_alphas. rewrite map_length, seq_length. auto. }
  exists c, f. split; [|split; [exact V|]].
  - unfold canonical_SRK. rewrite Lw, Nat.ltb_irrefl. exact E.
  - cbv zeta in *. intros T rho HT Hr Hb Hb1.
    assert (0 < mean x (SRK_bi Rg Tc pc) * rho) by (apply Rmult_lt_0_compat; auto).
    assert (Q : quadratic_mean x (fun i j => (1 - at_ k i j) *
       sqrt (SRK_OmegaA * (Rg * nth i Tc 0) ^ 2 / nth i pc 0 * alpha_val (nth i (basic_alphas SRK_m Tc w) (BasicAlpha 0 0)) T *
        (SRK_OmegaA * (Rg * nth j Tc 0) ^ 2 / nth j pc 0 * alpha_val (nth j (basic_alphas SRK_m Tc w) (BasicAlpha 0 0)) T)))
      = quadratic_mean x (fun i j => (1 - at_ k i j) * sqrt (SRK_ai Rg Tc pc w i T * SRK_ai Rg Tc pc w j T))).
    { apply quadratic_mean_ext. intros i j Hi Hj. rewrite !nth_basic by lia. f_equal. f_equal.
      unfold SRK_ai, SRK_OmegaA, SRK_m. cbn [alpha_val]. 
      replace (0.176 * nth i w 0 * nth i w 0) with (0.176 * nth i w 0 ^ 2) by ring.
      replace (0.176 * nth j w 0 * nth j w 0) with (0.176 * nth j w 0 ^ 2) by ring. unfold Rdiv. ring. }
    rewrite <- Q. change (mean x (SRK_bi Rg Tc pc)) with (mean x (fun i => SRK_OmegaB * Rg * nth i Tc 0 / nth i pc 0)) in *.
    rewrite P; try lra. unfold cubic_textbook, SRK_textbook. f_equal. f_equal. ring.
Qed.
Theorem C27_PR_pressure : forall Tc pc w k Rg x,
  length pc = length Tc -> length w = length Tc -> cols k = length Tc -> rows k = length Tc ->
  length x = length Tc -> length Tc <> O ->
  exists c f, canonical_PR Tc pc w (Some k) (Some Rg) = Some (Val c) /\
  evaluates (fun T rho => cubic_alphar c T rho x) f /\
  let b := mean x (PR_bi Rg Tc pc) in
  forall T rho, 0 < Rg * T -> 0 < rho -> 0 < b -> b * rho < 1 ->
    pressure_of Rg f T rho =
    PR_textbook Rg (quadratic_mean x (fun i j => (1 - at_ k i j) * sqrt (PR_ai Rg Tc pc w i T * PR_ai Rg Tc pc w j T)))
      b T (1 / rho).
Proof.
  intros Tc pc w k Rg x Lp Lw Ck Rk Lx N0.
  assert (S2 : 1 < sqrt 2 < 2) by (split; [rewrite <- sqrt_1 at 1; apply sqrt_lt_1; lra|
    assert (sqrt 2 < sqrt (2 ^ 2)) by (apply sqrt_lt_1; lra); rewrite sqrt_pow2 in *; lra]).
  assert (S22 : sqrt 2 * sqrt 2 = 2) by (apply sqrt_sqrt; lra).
  destruct (C27_cubic_pressure PR_D1 PR_D2 PR_OmegaA PR_OmegaB Tc pc (basic_alphas PR_m Tc w) k Rg x) as [c [f [E [V P]]]]; auto.
  { unfold basic_alphas. rewrite map_length, seq_length. auto. }
  { unfold PR_D1, PR_D2. lra. }
  exists c, f. split; [|split; [exact V|]].
  - unfold canonical_PR. rewrite Lw, Nat.ltb_irrefl. exact E.
  - cbv zeta in *. intros T rho HT Hr Hb Hb1.
    assert (0 < mean x (PR_bi Rg Tc pc) * rho) by (apply Rmult_lt_0_compat; auto).
    assert (Q : quadratic_mean x (fun i j => (1 - at_ k i j) *
       sqrt (PR_OmegaA * (Rg * nth i Tc 0) ^ 2 / nth i pc 0 * alpha_val (nth i (basic_alphas PR_m Tc w) (BasicAlpha 0 0)) T *
        (PR_OmegaA * (Rg * nth j Tc 0) ^ 2 / nth j pc 0 * alpha_val (nth j (basic_alphas PR_m Tc w) (BasicAlpha 0 0)) T)))
      = quadratic_mean x (fun i j => (1 - at_ k i j) * sqrt (PR_ai Rg Tc pc w i T * PR_ai Rg Tc pc w j T))).
    { apply quadratic_mean_ext. intros i j Hi Hj. rewrite !nth_basic by lia. f_equal. f_equal.
      unfold PR_ai, PR_kappa, PR_m. cbn [alpha_val]. unfold Rdiv. ring. }
    rewrite <- Q. change (mean x (PR_bi Rg Tc pc)) with (mean x (fun i => PR_OmegaB * Rg * nth i Tc 0 / nth i pc 0)) in *.
    set (b := mean x (fun i => PR_OmegaB * Rg * nth i Tc 0 / nth i pc 0)) in *.
    rewrite P; try lra.
    + unfold cubic_textbook, PR_textbook. f_equal. f_equal. unfold PR_D1, PR_D2.
      replace ((1 / rho + (1 + sqrt 2) * b) * (1 / rho + (1 - sqrt 2) * b)) with
        ((1 / rho) ^ 2 + 2 * b * (1 / rho) + (1 - sqrt 2 * sqrt 2) * b ^ 2) by ring. rewrite S22. ring.
    + unfold PR_D1. rewrite Rmult_assoc. nra.
    + unfold PR_D2. rewrite Rmult_assoc. nra.
Qed.
(** No matrix, or an empty one (the JSON default), means zero interaction parameters. *)
Theorem C27_default_interactions : forall Tc pc w Rg, length w = length Tc ->
  canonical_SRK Tc pc w None Rg = canonical_SRK Tc pc w (Some (zeros (length Tc))) Rg /\
  canonical_SRK Tc pc w (Some (zeros 0)) Rg = canonical_SRK Tc pc w (Some (zeros (length Tc))) Rg /\
  canonical_PR Tc pc w None Rg = canonical_PR Tc pc w (Some (zeros (length Tc))) Rg /\
  canonical_PR Tc pc w (Some (zeros 0)) Rg = canonical_PR Tc pc w (Some (zeros (length Tc))) Rg.
Proof.
  intros Tc pc w Rg L. unfold canonical_SRK, canonical_PR. rewrite L. simpl.
  unfold make_cubic, check_mat. simpl. rewrite Nat.eqb_refl. simpl.
  destruct (length Tc) eqn:N; simpl; [auto|]. rewrite ?Nat.eqb_refl. simpl. repeat split; reflexivity.
Qed.
Example C27_SRK_met : let x := [0.3; 0.7] in let Tc := [300; 400] in let pc := [10 ^ 7; 10 ^ 6] in
  0 < mean x (SRK_bi R_CODATA2017 Tc pc) /\ mean x (SRK_bi R_CODATA2017 Tc pc) * 100 < 1.
Proof.
  cbv zeta. unfold mean, SRK_bi, R_CODATA2017. simpl.
  destruct (cbrt_cube 2 ltac:(lra)) as [E _]. assert (G := cbrt2_gt1).
  assert (cbrt 2 < 2) by nra. split; lra.
Qed.

(** ** C27: critical points *)

Lemma locally_domain : forall b rc K : R, 0 < rc -> 0 < b -> b * rc < 1 -> (forall y, 0 < y -> y < 1 -> 0 < 1 + K * y) ->
  locally rc (fun r => 0 < r /\ b * r < 1 /\ 0 < 1 + K * (b * r)).
Proof.
  intros b rc K Hrc Hb Hbr HK.
  assert (L1 : locally rc (fun r => 0 < r)) by (apply (open_gt 0 rc); auto).
  assert (L2 : locally rc (fun r => r < / b)).
  { apply (open_lt (/ b)). apply (Rmult_lt_reg_l b); auto. rewrite Rinv_r by lra. auto. }
  generalize (filter_and _ _ L1 L2). apply filter_imp. intros r [H1 H2].
  assert (b * r < 1) by (apply (Rmult_lt_compat_l b) in H2; auto; rewrite Rinv_r in H2 by lra; auto).
  split; auto. split; auto. apply HK; auto. apply Rmult_lt_0_compat; auto.
Qed.

(** A one-component fluid with alpha(Tc) = 1 and constants satisfying the critical
    relations has its critical point at Tc, pc, v = Z R Tc / pc. *)
Lemma generic_critical : forall D1 D2 OA OB Z Rg Tc pc alpha k,
  critical_constants (D1 + D2) (D1 * D2) OA OB Z -> D1 <> D2 -> 0 < Rg -> 0 < Tc -> 0 < pc -> 0 < OA -> 0 < OB -> OB < Z ->
  (forall y, 0 < y -> y < 1 -> 0 < 1 + D1 * y) -> (forall y, 0 < y -> y < 1 -> 0 < 1 + D2 * y) ->
  alpha_val alpha Tc = 1 -> cols k = 1%nat -> rows k = 1%nat -> at_ k O O = 0 ->
  exists c f, make_cubic D1 D2 OA OB [Tc] [pc] [alpha] k Rg = Some (Val c) /\
  evaluates (fun T rho => cubic_alphar c T rho [1]) f /\
  critical_at (fun rho => pressure_of Rg f Tc rho) (pc / (Z * Rg * Tc)) pc.
Proof.
  intros D1 D2 OA OB Z Rg Tc pc alpha k HC HD HR HT Hp HA HB HZ HD1 HD2 Hal Ck Rk K0.
  destruct (C27_cubic_pressure D1 D2 OA OB [Tc] [pc] [alpha] k Rg [1]) as [c [f [E [V P]]]]; auto; [simpl; lia|].
  exists c, f. split; auto. split; auto. cbv zeta in P.
  replace (mean [1] (fun i => OB * Rg * nth i [Tc] 0 / nth i [pc] 0)) with (OB * Rg * Tc / pc) in P by (unfold mean; simpl; ring).
  assert (A0 : 0 < OA * (Rg * Tc) ^ 2 / pc) by (pos).
  assert (Z0 : 0 < Z) by lra.
  set (rc := pc / (Z * Rg * Tc)).
  assert (Hrc : 0 < rc) by (unfold rc; pos).
  assert (Hb : 0 < OB * Rg * Tc / pc) by (pos).
  assert (Ebr : OB * Rg * Tc / pc * rc = OB / Z) by (unfold rc; field; repeat split; lra).
  assert (Hbr : OB * Rg * Tc / pc * rc < 1).
  { rewrite Ebr. apply (Rmult_lt_reg_r Z); auto. unfold Rdiv. rewrite Rmult_assoc, Rinv_l by lra. lra. }
  assert (Q : 0 < OB / Z < 1) by (rewrite <- Ebr; split; auto; apply Rmult_lt_0_compat; auto).
  apply (critical_ext (fun rho => cubic_textbook Rg (OA * (Rg * Tc) ^ 2 / pc) (OB * Rg * Tc / pc) D1 D2 Tc (1 / rho))).
  - generalize (filter_and _ _ (locally_domain _ rc D1 Hrc Hb Hbr HD1) (locally_domain _ rc D2 Hrc Hb Hbr HD2)).
    apply filter_imp. intros r [[H1 [H2 H3]] [_ [_ H4]]].
    rewrite P; auto; try lra.
    + f_equal. unfold quadratic_mean. simpl. rewrite K0, Hal. 
      replace (0 + (0 + 1 * 1 * ((1 - 0) * sqrt (OA * (Rg * Tc * (Rg * Tc * 1)) / pc * 1 * (OA * (Rg * Tc * (Rg * Tc * 1)) / pc * 1)))))
        with (sqrt ((OA * (Rg * Tc) ^ 2 / pc) * (OA * (Rg * Tc) ^ 2 / pc))) by (simpl; rewrite !Rmult_1_r; ring).
      rewrite sqrt_square; lra.
    + apply Rmult_lt_0_compat; auto.
  - apply (cubic_critical D1 D2 OA OB Z); auto.
    + specialize (HD1 (OB / Z) (proj1 Q) (proj2 Q)).
      replace (Z + D1 * OB) with (Z * (1 + D1 * (OB / Z))) by (field; lra). apply Rmult_lt_0_compat; auto.
    + specialize (HD2 (OB / Z) (proj1 Q) (proj2 Q)).
      replace (Z + D2 * OB) with (Z * (1 + D2 * (OB / Z))) by (field; lra). apply Rmult_lt_0_compat; auto.
Qed.

Theorem C27_SRK_critical : forall Tc pc w Rg, 0 < Rg -> 0 < Tc -> 0 < pc ->
  exists c f, canonical_SRK [Tc] [pc] [w] None (Some Rg) = Some (Val c) /\
  evaluates (fun T rho => cubic_alphar c T rho [1]) f /\
  critical_at (fun rho => pressure_of Rg f Tc rho) (pc / (1 / 3 * Rg * Tc)) pc.
Proof.
  intros Tc pc w Rg HR HT Hp. unfold canonical_SRK. simpl.
  destruct (cbrt_cube 2 ltac:(lra)) as [E _]. assert (G := cbrt2_gt1).
  assert (cbrt 2 < 2) by nra.
  apply generic_critical; auto; try lra.
  - apply SRK_constants.
  - unfold SRK_OmegaA. apply Rdiv_lt_0_compat; lra.
  - unfold SRK_OmegaB. lra.
  - unfold SRK_OmegaB. lra.
  - intros; lra.
  - intros; lra.
  - apply (C27_alpha_at_critical Tc _ 0 0 0 HT).
Qed.

(** Peng-Robinson: the two coded decimal constants are within 1e-19 and 1e-20 of
    constants for which the critical point is exact. *)
Theorem C27_PR_critical : exists OA OB Z, Rabs (PR_OmegaA - OA) <= / 10 ^ 19 /\ Rabs (PR_OmegaB - OB) <= / 10 ^ 20 /\
  forall Tc pc alpha Rg, 0 < Rg -> 0 < Tc -> 0 < pc -> alpha_val alpha Tc = 1 ->
  exists c f, make_cubic (1 + sqrt 2) (1 - sqrt 2) OA OB [Tc] [pc] [alpha] (zeros 1) Rg = Some (Val c) /\
  evaluates (fun T rho => cubic_alphar c T rho [1]) f /\
  critical_at (fun rho => pressure_of Rg f Tc rho) (pc / (Z * Rg * Tc)) pc.
Proof.
  destruct PR_constants as [A [B [HC [HB HA]]]].
  exists A, B, ((1 - B) / 3). split; auto. split; auto.
  assert (S2 : 1 < sqrt 2 < 2) by (split; [rewrite <- sqrt_1 at 1; apply sqrt_lt_1; lra|
    assert (sqrt 2 < sqrt (2 ^ 2)) by (apply sqrt_lt_1; lra); rewrite sqrt_pow2 in *; lra]).
  assert (S22 : sqrt 2 * sqrt 2 = 2) by (apply sqrt_sqrt; lra).
  unfold PR_OmegaA, PR_OmegaB in *. pose proof (Rle_abs (0.45723552892138218938 - A)). pose proof (Rle_abs (- (0.45723552892138218938 - A))).
  pose proof (Rle_abs (0.077796073903888455972 - B)). pose proof (Rle_abs (- (0.077796073903888455972 - B))). rewrite Rabs_Ropp in *.
  intros Tc pc alpha Rg HR HT Hp Hal. apply generic_critical; auto; try lra.
  - replace (1 + sqrt 2 + (1 - sqrt 2)) with 2 by ring.
    replace ((1 + sqrt 2) * (1 - sqrt 2)) with (1 - sqrt 2 * sqrt 2) by ring. rewrite S22.
    replace (1 - 2) with (-1) by ring. exact HC.
  - intros; nra.
  - intros; nra.
Qed.
Example C27_critical_met : exists c f, canonical_SRK [150.687] [4863000] [-0.00219] None (Some R_CODATA2017) = Some (Val c) /\
  evaluates (fun T rho => cubic_alphar c T rho [1]) f /\
  critical_at (fun rho => pressure_of R_CODATA2017 f 150.687 rho) (4863000 / (1 / 3 * R_CODATA2017 * 150.687)) 4863000.
Proof. apply C27_SRK_critical; [apply R_CODATA_pos|lra|lra]. Qed.

Print Assumptions C27_vdW1_pressure.
Print Assumptions C27_vdW_pressure.
Print Assumptions C27_vdW_critical.
Print Assumptions C27_cubic_pressure.
Print Assumptions C27_alpha_at_critical.
Print Assumptions C27_SRK_pressure.
Print Assumptions C27_PR_pressure.
Print Assumptions C27_default_interactions.
Print Assumptions C27_SRK_critical.
Print Assumptions C27_PR_critical.
