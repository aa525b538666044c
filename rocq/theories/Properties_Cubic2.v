(** Theorems about the further cubic models (C27: RK-PR, EoS/aE, quantum-corrected),
    about copies and order of components (C28), pure limits (C29), zero density (C30),
    the Wilson model (C41) and sizes (C56, C57). *)
From Coq Require Import Reals String List Permutation Lia Lra Bool Psatz.
From Coquelicot Require Import Coquelicot.
From Verif Require Import Json_model Vec_spec Vec_proofs Derivs_spec Derivs_proofs2 Cubic_model Cubic_spec
  Cubic_proofs Cubic_proofs2 Properties_Cubic.
Import ListNotations.
Open Scope R_scope.

(** ** C27: RK-PR *)
Theorem C27_RKPR_pressure : forall delta1 Tc pc kexp k l Ru x,
  let N := length delta1 in
  length Tc = N -> length pc = N -> length kexp = N -> (N <= rows k)%nat -> (N <= cols k)%nat ->
  (N <= rows l)%nat -> (N <= cols l)%nat -> length x = N ->
  exists m f, make_rkpr delta1 Tc pc kexp k l Ru = Some (Val m) /\
  evaluates (fun T rho => rkpr_alphar m T rho x) f /\
  let ai i T := rk_OmegaA (nth i delta1 0) * (Ru * nth i Tc 0) ^ 2 / nth i pc 0 *
                Rpower (3 / (2 + T / nth i Tc 0)) (nth i kexp 0) in
  let bi i := rk_OmegaB (nth i delta1 0) * Ru * nth i Tc 0 / nth i pc 0 in
  let b := quadratic_mean x (fun i j => (bi i + bi j) / 2 * (1 - at_ l i j)) in
  let D1 := mean x (fun i => nth i delta1 0) in
  let D2 := (1 - D1) / (1 + D1) in
  forall T rho, 0 < Ru * T -> 0 < rho -> D1 <> D2 -> b <> 0 -> b * rho < 1 -> 0 < 1 + D1 * b * rho -> 0 < 1 + D2 * b * rho ->
    pressure_of Ru f T rho =
    cubic_textbook Ru (quadratic_mean x (fun i j => sqrt (ai i T * ai j T) * (1 - at_ k i j))) b D1 D2 T (1 / rho).
Proof.
  intros delta1 Tc pc kexp k l Ru x N LT Lp Lk Rk Ck Rl Cl Lx.
  unfold make_rkpr. fold N. rewrite LT, Lp, Nat.ltb_irrefl. simpl orb. cbv iota.
  set (ai := fun i T => rk_OmegaA (nth i delta1 0) * (Ru * nth i Tc 0) ^ 2 / nth i pc 0 *
                Rpower (3 / (2 + T / nth i Tc 0)) (nth i kexp 0)).
  set (bi := fun i => rk_OmegaB (nth i delta1 0) * Ru * nth i Tc 0 / nth i pc 0).
  set (b := quadratic_mean x (fun i j => (bi i + bi j) / 2 * (1 - at_ l i j))).
  set (D1 := mean x (fun i => nth i delta1 0)). set (D2 := (1 - D1) / (1 + D1)).
  eexists. exists (fun T rho => cubic_form D1 D2 (quadratic_mean x (fun i j => sqrt (ai i T * ai j T) * (1 - at_ k i j))) b Ru T rho).
  split; [reflexivity|]. split.
  - intros T rho. unfold rkpr_alphar. cbn [rk_delta1 rk_kexp rk_k rk_l rk_Ru]. fold N. rewrite Lx, Nat.eqb_refl.
    cbn [negb]. rewrite Lk, Nat.ltb_irrefl. unfold covers.
    rewrite (proj2 (Nat.leb_le _ _) Rk), (proj2 (Nat.leb_le _ _) Ck), (proj2 (Nat.leb_le _ _) Rl), (proj2 (Nat.leb_le _ _) Cl).
    cbn [andb negb orb]. unfold ok. f_equal. f_equal.
    match goal with |- context [rk_Delta1 ?m x] => assert (ED : rk_Delta1 m x = D1) end.
    { unfold rk_Delta1, D1, mean. cbn [rk_delta1]. fold N. rewrite Lx. reflexivity. }
    rewrite ED. f_equal.
    + unfold rk_a, quadratic_mean. cbn [rk_delta1 rk_k]. fold N. rewrite Lx. apply sumn_ext; intros i Hi. apply sumn_ext; intros j Hj.
      unfold rk_ai. cbn [rk_ac rk_kexp rk_Tc]. rewrite !nth_map_seq' by lia. unfold ai. ring.
    + unfold rk_b, b, quadratic_mean. cbn [rk_delta1 rk_l rk_bc]. fold N. rewrite Lx. apply sumn_ext; intros i Hi. apply sumn_ext; intros j Hj.
      rewrite !nth_map_seq' by lia. unfold bi, Rdiv. ring.
  - cbv zeta. intros T rho HT Hr HD Hb0 Hb1 H1 H2.
    transitivity (pressure_of Ru (cubic_form D1 D2 (quadratic_mean x (fun i j => sqrt (ai i T * ai j T) * (1 - at_ k i j))) b Ru) T rho);
      [reflexivity|].
    apply pressure_form; try lra; auto.
Qed.

(** A pure fluid: critical point at Tc, pc for every admissible delta_1 (for
    delta_1 = sqrt 2 - 1 the two shifts coincide and the code divides zero by zero). *)
Theorem C27_RKPR_critical : forall d Tc pc kexp Ru, -1 < d -> d ^ 2 + 2 * d <> 1 -> 0 < Tc -> 0 < pc -> 0 < Ru ->
  exists m f, make_rkpr [d] [Tc] [pc] [kexp] (zeros 1) (zeros 1) Ru = Some (Val m) /\
  evaluates (fun T rho => rkpr_alphar m T rho [1]) f /\
  critical_at (fun rho => pressure_of Ru f Tc rho) (pc / (rk_y d * rk_OmegaB d * Ru * Tc)) pc.
Proof.
  intros d Tc pc kexp Ru Hd Hd2 HT Hp HR.
  destruct (rk_constants d Hd) as [HC [HY HB]].
  destruct (C27_RKPR_pressure [d] [Tc] [pc] [kexp] (zeros 1) (zeros 1) Ru [1]) as [m [f [E [V P]]]];
    try reflexivity; try (simpl; lia).
  exists m, f. split; auto. split; auto. cbv zeta in P.
  set (D2 := (1 - d) / (1 + d)) in *.
  assert (ED : mean [1] (fun i => nth i [d] 0) = d) by (unfold mean; simpl; ring).
  rewrite ED in P. fold D2 in P.
  set (b := rk_OmegaB d * Ru * Tc / pc).
  assert (Eb : quadratic_mean [1] (fun i j =>
     (rk_OmegaB (nth i [d] 0) * Ru * nth i [Tc] 0 / nth i [pc] 0 + rk_OmegaB (nth j [d] 0) * Ru * nth j [Tc] 0 / nth j [pc] 0) / 2
     * (1 - at_ (zeros 1) i j)) = b).
  { unfold quadratic_mean, b. simpl. field. lra. }
  rewrite Eb in P.
  assert (Hb : 0 < b) by (unfold b; pos).
  assert (Z0 : 0 < rk_y d * rk_OmegaB d) by (apply Rmult_lt_0_compat; lra).
  set (Z := rk_y d * rk_OmegaB d) in *.
  assert (HZ : rk_OmegaB d < Z) by (unfold Z; nra).
  assert (OA : 0 < rk_OmegaA d).
  { destruct HC as [C1 [C2 C3]]. 
    assert (W : d * D2 = 1 - (d + D2)) by (unfold D2; field; lra).
    assert (U : 0 < d + D2) by (unfold D2; replace (d + (1 - d) / (1 + d)) with ((1 + d * d) / (1 + d)) by (field; lra);
      apply Rdiv_lt_0_compat; nra).
    (* A = 3 Z^2 - (w - u) B^2 + u B with w = 1 - u: A = 3Z^2 + (2u - 1) B^2 + u B and Z > B *)
    fold D2 in C2. rewrite W in C2.
    assert (rk_OmegaB d * rk_OmegaB d < Z * Z) by nra.
    assert (0 < (d + D2) * rk_OmegaB d) by (apply Rmult_lt_0_compat; auto).
    assert (0 <= (d + D2) * rk_OmegaB d ^ 2) by (apply Rmult_le_pos; nra). nra. }
  set (rc := pc / (Z * Ru * Tc)).
  assert (Hrc : 0 < rc) by (unfold rc; pos).
  assert (Ebr : b * rc = rk_OmegaB d / Z) by (unfold b, rc; field; repeat split; lra).
  assert (Q : 0 < rk_OmegaB d / Z < 1).
  { split; [apply Rdiv_lt_0_compat; auto|]. apply (Rmult_lt_reg_r Z); auto. unfold Rdiv. rewrite Rmult_assoc, Rinv_l by lra. lra. }
  assert (Hbr : b * rc < 1) by lra.
  assert (HD1 : forall y, 0 < y -> y < 1 -> 0 < 1 + d * y) by (intros; nra).
  assert (HD2 : forall y, 0 < y -> y < 1 -> 0 < 1 + D2 * y).
  { intros y Hy0 Hy1. assert (0 < 1 + D2) by (unfold D2; replace (1 + (1 - d) / (1 + d)) with (2 / (1 + d)) by (field; lra);
      apply Rdiv_lt_0_compat; lra). nra. }
  assert (HD : d <> D2).
  { intro EE. apply Hd2. unfold D2 in EE. apply (f_equal (fun t => t * (1 + d))) in EE. field_simplify in EE; lra. }
  apply (critical_ext (fun rho => cubic_textbook Ru (rk_OmegaA d * (Ru * Tc) ^ 2 / pc) b d D2 Tc (1 / rho))).
  - generalize (filter_and _ _ (locally_domain _ rc d Hrc Hb Hbr HD1) (locally_domain _ rc D2 Hrc Hb Hbr HD2)).
    apply filter_imp. intros r [[H1 [H2 H3]] [_ [_ H4]]].
    rewrite P; auto; try lra.
    + f_equal. unfold quadratic_mean. simpl.
      assert (PW : Rpower (3 / (2 + Tc / Tc)) kexp = 1).
      { replace (3 / (2 + Tc / Tc)) with 1 by (field; lra). unfold Rpower. rewrite ln_1, Rmult_0_r. apply exp_0. }
      rewrite PW.
      assert (A0 : 0 < rk_OmegaA d * (Ru * Tc) ^ 2 / pc) by pos.
      replace (rk_OmegaA d * (Ru * Tc * (Ru * Tc * 1)) / pc * 1 * (rk_OmegaA d * (Ru * Tc * (Ru * Tc * 1)) / pc * 1))
        with ((rk_OmegaA d * (Ru * Tc) ^ 2 / pc) * (rk_OmegaA d * (Ru * Tc) ^ 2 / pc)) by (simpl; unfold Rdiv; ring).
      rewrite sqrt_square by lra. simpl. unfold Rdiv. ring.
    + apply Rmult_lt_0_compat; auto.
  - apply (cubic_critical d D2 (rk_OmegaA d) (rk_OmegaB d) Z); auto.
    + specialize (HD1 _ (proj1 Q) (proj2 Q)).
      replace (Z + d * rk_OmegaB d) with (Z * (1 + d * (rk_OmegaB d / Z))) by (field; lra). apply Rmult_lt_0_compat; auto.
    + specialize (HD2 _ (proj1 Q) (proj2 Q)).
      replace (Z + D2 * rk_OmegaB d) with (Z * (1 + D2 * (rk_OmegaB d / Z))) by (field; lra). apply Rmult_lt_0_compat; auto.
Qed.
Example C27_RKPR_met : exists m f, make_rkpr [1] [300] [10 ^ 6] [2] (zeros 1) (zeros 1) R_CODATA2017 = Some (Val m) /\
  evaluates (fun T rho => rkpr_alphar m T rho [1]) f /\
  critical_at (fun rho => pressure_of R_CODATA2017 f 300 rho) (10 ^ 6 / (rk_y 1 * rk_OmegaB 1 * R_CODATA2017 * 300)) (10 ^ 6).
Proof. apply C27_RKPR_critical; try lra. apply R_CODATA_pos. Qed.

(** ** C27: EoS/aE mixing rules *)
(** Whatever value [g] the activity model gives, the pressure is the Peng-Robinson
    equation with a / b = g R T / CEoS + mean of a_i / b_i. *)
Theorem C27_advPR_pressure : forall m x g b, length x = length (ap_alphas m) -> length (ap_ai m) = length x ->
  (forall T, ares_val (ap_ares m) T x = Some (Val (g T))) -> advPR_b m x = Val b ->
  exists f, evaluates (fun T rho => advPR_alphar m T rho x) f /\
  let a T := b * (g T * ap_R m * T / ap_CEoS m +
    mean x (fun i => nth i (ap_ai m) 0 * alpha_val (nth i (ap_alphas m) (BasicAlpha 0 0)) T / nth i (ap_bi m) 0)) in
  forall T rho, 0 < ap_R m * T -> 0 < rho -> 0 < b -> b * rho < 1 ->
    pressure_of (ap_R m) f T rho = PR_textbook (ap_R m) (a T) b T (1 / rho).
Proof.
  intros m x g b Lx La Hg Hb.
  exists (fun T rho => cubic_form PR_D1 PR_D2 (advPR_am_over_bm m (g T) T x * b) b (ap_R m) T rho).
  assert (S2 : 1 < sqrt 2 < 2) by (split; [rewrite <- sqrt_1 at 1; apply sqrt_lt_1; lra|
    assert (sqrt 2 < sqrt (2 ^ 2)) by (apply sqrt_lt_1; lra); rewrite sqrt_pow2 in *; lra]).
  assert (S22 : sqrt 2 * sqrt 2 = 2) by (apply sqrt_sqrt; lra).
  split.
  - intros T rho. unfold advPR_alphar. rewrite Lx, Nat.eqb_refl. simpl. rewrite La, Lx, Nat.ltb_irrefl, Hb. simpl.
    rewrite Hg. reflexivity.
  - cbv zeta. intros T rho HT Hr Hb0 Hb1.
    assert (0 < b * rho) by (apply Rmult_lt_0_compat; auto).
    transitivity (pressure_of (ap_R m) (cubic_form PR_D1 PR_D2 (advPR_am_over_bm m (g T) T x * b) b (ap_R m)) T rho); [reflexivity|].
    rewrite pressure_form; try lra.
    + unfold cubic_textbook, PR_textbook. f_equal. f_equal.
      * rewrite Rmult_comm. unfold advPR_am_over_bm. apply (f_equal (fun s => b * (g T * ap_R m * T / ap_CEoS m + s))).
        unfold mean. apply sumn_ext. intros i Hi.
        unfold alpha_at. rewrite (nth_error_nth' (ap_alphas m) (BasicAlpha 0 0)) by lia. unfold Rdiv. ring.
      * unfold PR_D1, PR_D2.
        replace ((1 / rho + (1 + sqrt 2) * b) * (1 / rho + (1 - sqrt 2) * b)) with
          ((1 / rho) ^ 2 + 2 * b * (1 / rho) + (1 - sqrt 2 * sqrt 2) * b ^ 2) by ring. rewrite S22. ring.
    + unfold PR_D1, PR_D2. lra.
    + unfold PR_D1. rewrite Rmult_assoc. nra.
    + unfold PR_D2. rewrite Rmult_assoc. nra.
Qed.

(** ** C27: quantum-corrected Peng-Robinson *)
Definition q_ok (m : qPR) : Prop := let N := length (q_alphas m) in
  (N <= length (q_Tc m))%nat /\ (N <= length (q_pc m))%nat /\ (N <= length (q_A m))%nat /\ (N <= length (q_B m))%nat /\
  (N <= length (q_c m))%nat /\ covers (q_k m) N = true /\ covers (q_l m) N = true.
Lemma q_evaluates : forall m x, q_ok m -> length x = length (q_alphas m) ->
  evaluates (fun T rho => qPR_alphar m T rho x)
    (fun T rho => cubic_form (1 + sqrt 2) (1 - sqrt 2) (q_a m T x) (q_b m T x) (q_Ru m) T (1 / (1 / rho + q_shift m x))).
Proof.
  intros m x [H1 [H2 [H3 [H4 [H5 [H6 H7]]]]]] Lx T rho. unfold qPR_alphar. rewrite Lx, Nat.eqb_refl. simpl.
  repeat match goal with H : (length (q_alphas m) <= ?n)%nat |- context [Nat.ltb ?n (length (q_alphas m))] =>
    rewrite (proj2 (Nat.ltb_ge n (length (q_alphas m))) H) end.
  rewrite H6, H7. reflexivity.
Qed.
(** What the code computes: the Peng-Robinson pressure at the translated volume v + c,
    plus the difference of the two ideal-gas pressures. *)
Theorem C27_quantum_pressure : forall m x, q_ok m -> length x = length (q_alphas m) ->
  exists f, evaluates (fun T rho => qPR_alphar m T rho x) f /\
  forall T rho, let b := q_b m T x in let c := q_shift m x in let v := 1 / rho in
    0 < q_Ru m * T -> 0 < rho -> 0 < b -> b < v + c ->
    pressure_of (q_Ru m) f T rho = PR_textbook (q_Ru m) (q_a m T x) b T (v + c) + q_Ru m * T * (1 / v - 1 / (v + c)).
Proof.
  intros m x Hq Lx. eexists. split; [apply (q_evaluates m x Hq Lx)|]. cbv zeta. intros T rho HT Hr Hb Hv.
  assert (S2 : 1 < sqrt 2 < 2) by (split; [rewrite <- sqrt_1 at 1; apply sqrt_lt_1; lra|
    assert (sqrt 2 < sqrt (2 ^ 2)) by (apply sqrt_lt_1; lra); rewrite sqrt_pow2 in *; lra]).
  assert (S22 : sqrt 2 * sqrt 2 = 2) by (apply sqrt_sqrt; lra).
  set (b := q_b m T x) in *. set (c := q_shift m x) in *.
  transitivity (pressure_of (q_Ru m) (fun T0 r => cubic_form (1 + sqrt 2) (1 - sqrt 2) (q_a m T x) b (q_Ru m) T0 (1 / (1 / r + c))) T rho);
    [reflexivity|].
  rewrite shifted_pressure; try lra; try nra.
  replace (1 / (1 / rho)) with rho by (field; lra). f_equal.
  unfold cubic_textbook, PR_textbook. f_equal. f_equal.
  replace ((1 / rho + c + (1 + sqrt 2) * b) * (1 / rho + c + (1 - sqrt 2) * b)) with
    ((1 / rho + c) ^ 2 + 2 * b * (1 / rho + c) + (1 - sqrt 2 * sqrt 2) * b ^ 2) by ring. rewrite S22. ring.
Qed.
(** So with a non-zero translation the pressure is not that of the translated
    equation. *)
Definition q_ex : qPR := {| q_Tc := [1]; q_pc := [1]; q_alphas := [BasicAlpha 1 0]; q_A := [0]; q_B := [0];
  q_c := [1]; q_k := zeros 1; q_l := zeros 1; q_Ru := 1 |}.
Theorem C27_quantum_translation_refuted : exists m x T rho f, q_ok m /\ length x = length (q_alphas m) /\
  evaluates (fun T rho => qPR_alphar m T rho x) f /\
  0 < q_Ru m * T /\ 0 < rho /\ 0 < q_b m T x /\ q_b m T x < 1 / rho + q_shift m x /\
  pressure_of (q_Ru m) f T rho <> PR_textbook (q_Ru m) (q_a m T x) (q_b m T x) T (1 / rho + q_shift m x).
Proof.
  assert (Q : q_ok q_ex) by (unfold q_ok; simpl; repeat split; lia).
  destruct (C27_quantum_pressure q_ex [1] Q eq_refl) as [f [V P]].
  exists q_ex, [1], 1, 1, f.
  assert (Eb : q_b q_ex 1 [1] = 0.0778) by (unfold q_b, q_bi; simpl; replace (0 / (1 + 0)) with 0 by lra; lra).
  assert (Ec : q_shift q_ex [1] = 1) by (unfold q_shift; simpl; ring).
  specialize (P 1 1). cbv zeta in P. rewrite Eb, Ec in P.
  split; auto. split; auto. split; auto. rewrite Eb, Ec. simpl q_Ru in *.
  split; [lra|]. split; [lra|]. split; [lra|]. split; [lra|]. rewrite P by lra. lra.
Qed.

(** ** C28: copies and order of components
    In each theorem the mixture on the left has the components [r] of the mixture on
    the right (with repetitions and in any order), [x'] a composition of the former and
    [x] the composition one obtains by adding up the copies.  Permutations, division of
    a component into identical ones and pure limits are special cases (below). *)
Section Copies.
Variables (r : list nat) (x' x : list R).
Hypothesis HL : lumped r x' x.

Lemma copies_length : length x' = length r. Proof. exact (proj1 HL). Qed.

Theorem C28_vdW : forall Tc pc m, make_vdW Tc pc = Val m -> length x = length Tc ->
  exists m', make_vdW (pick 0 r Tc) (pick 0 r pc) = Val m' /\
  forall T rho, vdW_alphar m' T rho x' = vdW_alphar m T rho x.
Proof.
  intros Tc pc m E Lx. unfold make_vdW in *. rewrite !pick_length, Nat.eqb_refl.
  destruct (Nat.eqb_spec (length Tc) (length pc)) as [Lp|]; [|discriminate]. simpl in *. injection E as <-.
  eexists. split; [reflexivity|]. intros T rho. unfold vdW_alphar. cbn [vd_ai].
  rewrite !map_length, !seq_length, copies_length, Nat.eqb_refl, Lx, Nat.eqb_refl. simpl.
  f_equal. f_equal; [|f_equal]; [|f_equal].
  - f_equal. f_equal. f_equal. f_equal. unfold vdW_b. rewrite copies_length. apply lump_mean; auto.
    intros i Hi. cbn [vd_bi]. assert (H := lumped_lt _ _ _ _ HL Hi). rewrite !nth_map_seq' by lia. rewrite !pick_nth by auto. reflexivity.
  - unfold vdW_a. rewrite copies_length. cbn [vd_ai vd_k].
    apply (lump_quad r x' x _ (fun i j => (1 - 0) * sqrt (nth i (map (fun i0 : nat => 27 / 64 * (R_gas * nth i0 Tc 0) ^ 2 / nth i0 pc 0) (seq 0 (length Tc))) 0 *
       nth j (map (fun i0 : nat => 27 / 64 * (R_gas * nth i0 Tc 0) ^ 2 / nth i0 pc 0) (seq 0 (length Tc))) 0)) HL).
    intros i j Hi Hj. assert (H := lumped_lt _ _ _ _ HL Hi). assert (H' := lumped_lt _ _ _ _ HL Hj).
    rewrite !nth_map_seq' by lia. rewrite !pick_nth by auto. reflexivity.
Qed.

Theorem C28_cubic : forall D1 D2 OA OB Tc pc alphas k Rg c d,
  make_cubic D1 D2 OA OB Tc pc alphas k Rg = Some (Val c) -> length alphas = length Tc -> cols k = length Tc ->
  length x = length Tc ->
  exists c', make_cubic D1 D2 OA OB (pick 0 r Tc) (pick 0 r pc) (pick d r alphas) (pick_mat r k) Rg = Some (Val c') /\
  forall T rho, cubic_alphar c' T rho x' = cubic_alphar c T rho x.
Proof.
  intros D1 D2 OA OB Tc pc alphas k Rg c d E La Ck Lx. unfold make_cubic in *. rewrite !pick_length, Nat.ltb_irrefl.
  destruct (Nat.ltb_spec (length pc) (length Tc)) as [|Lp]; [discriminate|].
  unfold check_mat in *. cbn [pick_mat rows cols]. rewrite !Nat.eqb_refl. cbn [negb].
  destruct (Nat.eqb_spec (cols k) (rows k)) as [Rk|]; [|discriminate]. cbn [negb] in E.
  rewrite Ck, Nat.eqb_refl in E. cbn [negb] in E.
  assert (K : (if Nat.eqb (length r) 0 then Val (fun _ _ : nat => 0) else Val (at_ (pick_mat r k))) =
    Val (fun i j => if Nat.eqb (length r) 0 then 0 else at_ k (nth i r O) (nth j r O))).
  { destruct (Nat.eqb (length r) 0); reflexivity. }
  rewrite K. clear K.
  assert (K : exists kf, (if Nat.eqb (length Tc) 0 then Val (fun _ _ : nat => 0) else Val (at_ k)) = Val kf /\
     (forall i j, (i < length Tc)%nat -> kf i j = at_ k i j)).
  { destruct (Nat.eqb_spec (length Tc) 0); eexists; (split; [reflexivity|]); intros; [lia|reflexivity]. }
  destruct K as [kf [K Hkf]]. rewrite K in E. simpl in E. injection E as <-.
  eexists. split; [reflexivity|]. intros T rho. unfold cubic_alphar. cbn [cb_alphas cb_ai cb_D1 cb_D2 cb_R].
  rewrite !map_length, !seq_length, !pick_length, copies_length, Nat.eqb_refl, La, Lx, Nat.eqb_refl, !Nat.ltb_irrefl. cbn [negb].
  unfold ok. f_equal. f_equal. f_equal.
  - unfold cubic_a. rewrite copies_length. cbn [cb_alphas cb_ai cb_k]. cbv zeta.
    apply (lump_quad r x' x _ _ HL). intros i j Hi Hj.
    assert (H := lumped_lt _ _ _ _ HL Hi). assert (H' := lumped_lt _ _ _ _ HL Hj).
    rewrite !nth_map_seq' by lia. rewrite !pick_nth by auto. rewrite !pick_alpha by lia.
    destruct (Nat.eqb_spec (length r) 0); [lia|]. rewrite Hkf by lia. reflexivity.
  - unfold cubic_b. rewrite copies_length. apply lump_mean; auto. intros i Hi. cbn [cb_bi].
    assert (H := lumped_lt _ _ _ _ HL Hi). rewrite !nth_map_seq' by lia. rewrite !pick_nth by auto. reflexivity.
Qed.

Lemma basic_pick : forall m Tc w, (forall i, In i r -> (i < length Tc)%nat) ->
  basic_alphas m (pick 0 r Tc) (pick 0 r w) = pick (BasicAlpha 0 0) r (basic_alphas m Tc w).
Proof.
  intros m Tc w Hr. apply (nth_ext _ _ (BasicAlpha 0 0) (BasicAlpha 0 0)).
  { unfold basic_alphas at 1. rewrite map_length, seq_length, !pick_length. reflexivity. }
  intros i Hi. unfold basic_alphas at 1 in Hi. rewrite map_length, seq_length, pick_length in Hi.
  rewrite nth_basic by (rewrite pick_length; auto). rewrite !pick_nth by auto.
  rewrite pick_nth' by auto. rewrite nth_basic; auto. apply Hr. apply nth_In. auto.
Qed.
Theorem C28_SRK_PR : forall (pr : bool) Tc pc w k Rg c,
  let mk := if pr then canonical_PR else canonical_SRK in
  mk Tc pc w (Some k) Rg = Some (Val c) -> cols k = length Tc -> length x = length Tc ->
  exists c', mk (pick 0 r Tc) (pick 0 r pc) (pick 0 r w) (Some (pick_mat r k)) Rg = Some (Val c') /\
  forall T rho, cubic_alphar c' T rho x' = cubic_alphar c T rho x.
Proof.
  intros pr Tc pc w k Rg c mk E Ck Lx.
  assert (Hr : forall i, In i r -> (i < length Tc)%nat) by (rewrite <- Lx; apply HL).
  assert (BL : forall m, length (basic_alphas m Tc w) = length Tc) by (intro; unfold basic_alphas; rewrite map_length, seq_length; auto).
  destruct pr; unfold mk, canonical_PR, canonical_SRK in *; rewrite !pick_length, Nat.ltb_irrefl;
    destruct (Nat.ltb_spec (length w) (length Tc)); try discriminate; cbn [value_or] in *;
    rewrite basic_pick by auto; eapply C28_cubic; eauto.
Qed.

Lemma pick_mat_covers : forall k, covers (pick_mat r k) (length r) = true.
Proof. intro. unfold covers, pick_mat. simpl. rewrite Nat.leb_refl. reflexivity. Qed.

(** The Wilson model. *)
Lemma wilson_copies : forall b m n T, (length x <= length b)%nat ->
  wilson_total (pick 0 r b) (pick_mat r m) (pick_mat r n) T x' = wilson_total b m n T x /\
  wilson_combinatorial (pick 0 r b) x' = wilson_combinatorial b x.
Proof.
  intros b m n T Lb. unfold wilson_total, wilson_combinatorial. rewrite copies_length. split.
  - f_equal. apply lump_mean; auto. intros i Hi. f_equal. apply lump_mean; auto. intros j Hj.
    rewrite !pick_nth by auto. reflexivity.
  - apply lump_mean; auto. intros i Hi. rewrite pick_nth by auto. f_equal. f_equal.
    apply lump_mean; auto. intros j Hj. rewrite pick_nth by auto. reflexivity.
Qed.
Definition not_binary (a : ares_model) : Prop := match a with BinaryInvariant _ => False | _ => True end.
Theorem C28_ares : forall a T v, not_binary a -> ares_val a T x = Some (Val v) ->
  ares_val (pick_ares r a) T x' = Some (Val v).
Proof.
  intros a T v NB E. destruct a as [|b m n|]; [exact E| |destruct NB].
  cbn [pick_ares ares_val] in *. rewrite pick_length, copies_length, Nat.ltb_irrefl, !pick_mat_covers, Nat.eqb_refl.
  destruct (Nat.ltb (length b) (length x) || negb (covers m (length x)) || negb (covers n (length x)))%bool; [discriminate|].
  destruct (Nat.eqb_spec (length b) (length x)); [|discriminate]. simpl in *.
  destruct (wilson_copies b m n T) as [-> ->]; [lia|]. exact E.
Qed.

Theorem C28_advPR : forall Tc pc alphas a l br s CEoS Rg m d,
  make_advPR Tc pc alphas a l br s CEoS Rg = Some (Val m) -> length alphas = length Tc -> cols l = length Tc ->
  length x = length Tc -> not_binary a ->
  exists m', make_advPR (pick 0 r Tc) (pick 0 r pc) (pick d r alphas) (pick_ares r a) (pick_mat r l) br s CEoS Rg = Some (Val m') /\
  forall T rho v, advPR_alphar m T rho x = Some (Val v) -> advPR_alphar m' T rho x' = Some (Val v).
Proof.
  intros Tc pc alphas a l br s CEoS Rg m d E La Ck Lx NB. unfold make_advPR in *. rewrite !pick_length, Nat.ltb_irrefl.
  destruct (Nat.ltb_spec (length pc) (length Tc)) as [|Lp]; [discriminate|].
  unfold check_mat in *. cbn [pick_mat rows cols]. rewrite !Nat.eqb_refl. cbn [negb].
  destruct (Nat.eqb_spec (cols l) (rows l)) as [Rk|]; [|discriminate]. cbn [negb] in E.
  rewrite Ck, Nat.eqb_refl in E. cbn [negb] in E.
  assert (K : (if Nat.eqb (length r) 0 then Val (fun _ _ : nat => 0) else Val (at_ (pick_mat r l))) =
    Val (fun i j => if Nat.eqb (length r) 0 then 0 else at_ l (nth i r O) (nth j r O))).
  { destruct (Nat.eqb (length r) 0); reflexivity. }
  rewrite K. clear K.
  assert (K : exists kf, (if Nat.eqb (length Tc) 0 then Val (fun _ _ : nat => 0) else Val (at_ l)) = Val kf /\
     (forall i j, (i < length Tc)%nat -> kf i j = at_ l i j)).
  { destruct (Nat.eqb_spec (length Tc) 0); eexists; (split; [reflexivity|]); intros; [lia|reflexivity]. }
  destruct K as [kf [K Hkf]]. rewrite K in E. cbn [obind] in E. unfold ok in E. injection E as <-.
  eexists. split; [reflexivity|]. intros T rho v. unfold advPR_alphar. cbn [ap_alphas ap_ai ap_R ap_ares].
  rewrite !map_length, !seq_length, !pick_length, copies_length, Nat.eqb_refl, La, Lx, Nat.eqb_refl, !Nat.ltb_irrefl. cbn [negb].
  assert (EB : forall m m', ap_brule m = br -> ap_brule m' = br -> ap_s m = s -> ap_s m' = s ->
    ap_bi m = map (fun i => PR_OmegaB * Rg * nth i Tc 0 / nth i pc 0) (seq 0 (length Tc)) ->
    ap_bi m' = map (fun i => PR_OmegaB * Rg * nth i (pick 0 r Tc) 0 / nth i (pick 0 r pc) 0) (seq 0 (length r)) ->
    ap_l m = kf -> ap_l m' = (fun i j => if Nat.eqb (length r) 0 then 0 else at_ l (nth i r O) (nth j r O)) ->
    advPR_b m' x' = advPR_b m x).
  { intros m m' B1 B2 S1 S2 I1 I2 L1 L2. unfold advPR_b. rewrite B1, B2, S1, S2, I1, I2, L1, L2, copies_length.
    destruct br; auto.
    - f_equal. apply lump_mean; auto. intros i Hi. assert (H := lumped_lt _ _ _ _ HL Hi).
      rewrite !nth_map_seq' by lia. rewrite !pick_nth by auto. reflexivity.
    - f_equal. apply (lump_quad r x' x _ _ HL). intros i j Hi Hj.
      assert (H := lumped_lt _ _ _ _ HL Hi). assert (H' := lumped_lt _ _ _ _ HL Hj).
      rewrite !nth_map_seq' by lia. rewrite !pick_nth by auto.
      destruct (Nat.eqb_spec (length r) 0); [lia|]. rewrite Hkf by lia. reflexivity. }
  rewrite EB with (m := {| ap_ai := map (fun i => PR_OmegaA * (Rg * nth i Tc 0) ^ 2 / nth i pc 0) (seq 0 (length Tc));
       ap_bi := map (fun i => PR_OmegaB * Rg * nth i Tc 0 / nth i pc 0) (seq 0 (length Tc));
       ap_alphas := alphas; ap_ares := a; ap_l := kf; ap_brule := br; ap_s := s; ap_CEoS := CEoS; ap_R := Rg |}) by reflexivity.
  destruct (advPR_b _ x) as [b|e]; [|discriminate]. cbn [obind].
  destruct (ares_val a T x) as [[g|e]|] eqn:G; try discriminate. rewrite (C28_ares a T g NB G). cbn [obind].
  intro E. rewrite <- E. unfold ok. f_equal. f_equal. f_equal. f_equal.
  unfold advPR_am_over_bm. cbn [ap_R ap_CEoS ap_ai ap_bi ap_alphas]. rewrite copies_length. f_equal.
  transitivity (sumn (length r) (fun i => nth i x' 0 * (nth i (map (fun i0 : nat => PR_OmegaA * (Rg * nth i0 (pick 0 r Tc) 0) ^ 2 / nth i0 (pick 0 r pc) 0) (seq 0 (length r))) 0 *
     alpha_at (pick d r alphas) i T / nth i (map (fun i0 : nat => PR_OmegaB * Rg * nth i0 (pick 0 r Tc) 0 / nth i0 (pick 0 r pc) 0) (seq 0 (length r))) 0))).
  { apply sumn_ext. intros. unfold Rdiv. rewrite !Rmult_assoc. reflexivity. }
  rewrite (lump_mean r x' x _ (fun i => nth i (map (fun i0 : nat => PR_OmegaA * (Rg * nth i0 Tc 0) ^ 2 / nth i0 pc 0) (seq 0 (length Tc))) 0 *
     alpha_at alphas i T / nth i (map (fun i0 : nat => PR_OmegaB * Rg * nth i0 Tc 0 / nth i0 pc 0) (seq 0 (length Tc))) 0) HL).
  { apply sumn_ext. intros. unfold Rdiv. rewrite !Rmult_assoc. reflexivity. }
  intros i Hi. assert (H := lumped_lt _ _ _ _ HL Hi). rewrite !nth_map_seq' by lia. rewrite !pick_nth by auto. rewrite pick_alpha by lia. reflexivity.
Qed.

(** The quantum-corrected and RK-PR models. *)
Definition pick_q (m : qPR) (d : alpha_fn) : qPR :=
  {| q_Tc := pick 0 r (q_Tc m); q_pc := pick 0 r (q_pc m); q_alphas := pick d r (q_alphas m); q_A := pick 0 r (q_A m);
     q_B := pick 0 r (q_B m); q_c := pick 0 r (q_c m); q_k := pick_mat r (q_k m); q_l := pick_mat r (q_l m); q_Ru := q_Ru m |}.
Theorem C28_quantum : forall m d T rho v, qPR_alphar m T rho x = Some (Val v) ->
  qPR_alphar (pick_q m d) T rho x' = Some (Val v).
Proof.
  intros m d T rho v E. unfold qPR_alphar in *. cbn [pick_q q_Tc q_pc q_alphas q_A q_B q_c q_k q_l q_Ru].
  rewrite !pick_length, copies_length, Nat.eqb_refl, Nat.ltb_irrefl, !pick_mat_covers. cbn [negb orb].
  destruct (Nat.eqb_spec (length x) (length (q_alphas m))) as [Lx|]; [|discriminate]. cbn [negb] in E.
  match type of E with (if ?c then _ else _) = _ => destruct c; [discriminate|] end.
  rewrite <- E. unfold ok. f_equal. f_equal.
  assert (Bi : forall i, (i < length r)%nat -> q_bi (pick_q m d) i T = q_bi m (nth i r O) T).
  { intros i Hi. unfold q_bi. cbn [pick_q q_Tc q_pc q_A q_B q_Ru]. rewrite !pick_nth by auto. reflexivity. }
  assert (Ai : forall i, (i < length r)%nat -> q_ai (pick_q m d) i T = q_ai m (nth i r O) T).
  { intros i Hi. unfold q_ai. cbn [pick_q q_Tc q_pc q_alphas q_Ru]. assert (H := lumped_lt _ _ _ _ HL Hi).
    rewrite !pick_nth by auto. rewrite pick_alpha by lia. reflexivity. }
  f_equal.
  - unfold q_a. cbn [pick_q q_alphas q_k]. rewrite pick_length, <- Lx.
    apply (lump_quad' r x' x (fun i j => sqrt (q_ai (pick_q m d) i T * q_ai (pick_q m d) j T) * (1 - at_ (pick_mat r (q_k m)) i j))
      (fun i j => sqrt (q_ai m i T * q_ai m j T) * (1 - at_ (q_k m) i j)) HL).
    + intros i j Hi Hj. rewrite !Ai by auto. reflexivity.
    + intros; ring.
    + intros; ring.
  - unfold q_b. cbn [pick_q q_alphas q_l]. rewrite pick_length, <- Lx.
    apply (lump_quad' r x' x (fun i j => (q_bi (pick_q m d) i T + q_bi (pick_q m d) j T) / 2 * (1 - at_ (pick_mat r (q_l m)) i j))
      (fun i j => (q_bi m i T + q_bi m j T) / 2 * (1 - at_ (q_l m) i j)) HL).
    + intros i j Hi Hj. rewrite !Bi by auto. reflexivity.
    + intros; unfold Rdiv; ring.
    + intros; unfold Rdiv; ring.
  - f_equal. f_equal. unfold q_shift. cbn [pick_q q_alphas q_c]. rewrite pick_length, <- Lx.
    apply lump_mean; auto. intros i Hi. rewrite pick_nth by auto. reflexivity.
Qed.
Theorem C28_RKPR : forall delta1 Tc pc kexp k l Ru m, make_rkpr delta1 Tc pc kexp k l Ru = Some (Val m) ->
  exists m', make_rkpr (pick 0 r delta1) (pick 0 r Tc) (pick 0 r pc) (pick 0 r kexp) (pick_mat r k) (pick_mat r l) Ru = Some (Val m') /\
  forall T rho v, rkpr_alphar m T rho x = Some (Val v) -> rkpr_alphar m' T rho x' = Some (Val v).
Proof.
  intros delta1 Tc pc kexp k l Ru m E. unfold make_rkpr in *. rewrite !pick_length, Nat.ltb_irrefl.
  destruct (Nat.ltb (length Tc) (length delta1) || Nat.ltb (length pc) (length delta1))%bool; [discriminate|].
  injection E as <-. eexists. split; [reflexivity|]. intros T rho v E. unfold rkpr_alphar in *.
  cbn [rk_delta1 rk_kexp rk_k rk_l rk_Ru] in *. rewrite !pick_length, copies_length, Nat.eqb_refl, Nat.ltb_irrefl, !pick_mat_covers. cbn [negb orb].
  destruct (Nat.eqb_spec (length x) (length delta1)) as [Lx|]; [|discriminate]. cbn [negb] in E.
  match type of E with (if ?c then _ else _) = _ => destruct c; [discriminate|] end.
  rewrite <- E. unfold ok. f_equal. f_equal.
  match goal with |- cubic_form (rk_Delta1 ?m' x') _ _ _ _ _ _ = cubic_form (rk_Delta1 ?m x) _ _ _ _ _ _ =>
    assert (ED : rk_Delta1 m' x' = rk_Delta1 m x) end.
  { unfold rk_Delta1. cbn [rk_delta1]. rewrite pick_length, <- Lx. apply lump_mean; auto.
    intros i Hi. rewrite pick_nth by auto. reflexivity. }
  rewrite ED. f_equal.
  - unfold rk_a. cbn [rk_delta1 rk_k]. rewrite pick_length, <- Lx.
    match goal with |- sumn _ (fun i => sumn _ (fun j => _ * _ * sqrt (rk_ai ?m' i T * _) * _)) = sumn _ (fun i => sumn _ (fun j => _ * _ * sqrt (rk_ai ?m i T * _) * _)) =>
    apply (lump_quad' r x' x (fun i j => sqrt (rk_ai m' i T * rk_ai m' j T) * (1 - at_ (pick_mat r k) i j))
      (fun i j => sqrt (rk_ai m i T * rk_ai m j T) * (1 - at_ k i j)) HL) end.
    + intros i j Hi Hj. unfold rk_ai. cbn [rk_ac rk_Tc rk_kexp].
      assert (H := lumped_lt _ _ _ _ HL Hi). assert (H' := lumped_lt _ _ _ _ HL Hj).
      rewrite !nth_map_seq' by lia. rewrite !pick_nth by auto. reflexivity.
    + intros; ring.
    + intros; ring.
  - unfold rk_b. cbn [rk_delta1 rk_l rk_bc]. rewrite pick_length, <- Lx.
    match goal with |- sumn _ (fun i => sumn _ (fun j => _ * _ * (nth i ?B' 0 + _) / 2 * _)) = sumn _ (fun i => sumn _ (fun j => _ * _ * (nth i ?B 0 + _) / 2 * _)) =>
    apply (lump_quad' r x' x (fun i j => (nth i B' 0 + nth j B' 0) / 2 * (1 - at_ (pick_mat r l) i j))
      (fun i j => (nth i B 0 + nth j B 0) / 2 * (1 - at_ l i j)) HL) end.
    + intros i j Hi Hj. assert (H := lumped_lt _ _ _ _ HL Hi). assert (H' := lumped_lt _ _ _ _ HL Hj).
      rewrite !nth_map_seq' by lia. rewrite !pick_nth by auto. reflexivity.
    + intros; unfold Rdiv; ring.
    + intros; unfold Rdiv; ring.
Qed.
End Copies.

(** The three ways of using the theorems above. *)
Theorem C28_permutation_is_copying : forall sigma x, Permutation sigma (seq 0 (length x)) -> lumped sigma (pick 0 sigma x) x.
Proof. exact perm_lumped. Qed.
Theorem C28_division_is_copying : forall x j s, (j < length x)%nat ->
  lumped (seq 0 (length x) ++ [j]) (replace j (nth j x 0 - s) x ++ [s]) x.
Proof. exact split_lumped. Qed.
Theorem C29_pure_is_copying : forall n i, (i < n)%nat -> lumped [i] [1] (pure n i).
Proof. exact pure_lumped. Qed.

(** In particular, for the canonical equations and van der Waals: *)
Theorem C28_order : forall (pr : bool) sigma Tc pc w k Rg c x,
  let mk := if pr then canonical_PR else canonical_SRK in
  Permutation sigma (seq 0 (length x)) -> mk Tc pc w (Some k) Rg = Some (Val c) -> cols k = length Tc -> length x = length Tc ->
  exists c', mk (pick 0 sigma Tc) (pick 0 sigma pc) (pick 0 sigma w) (Some (pick_mat sigma k)) Rg = Some (Val c') /\
  forall T rho, cubic_alphar c' T rho (pick 0 sigma x) = cubic_alphar c T rho x.
Proof. intros. eapply C28_SRK_PR; eauto. apply perm_lumped; auto. Qed.
Theorem C28_vdW_order : forall sigma Tc pc m x, Permutation sigma (seq 0 (length x)) -> make_vdW Tc pc = Val m -> length x = length Tc ->
  exists m', make_vdW (pick 0 sigma Tc) (pick 0 sigma pc) = Val m' /\
  forall T rho, vdW_alphar m' T rho (pick 0 sigma x) = vdW_alphar m T rho x.
Proof. intros. eapply C28_vdW; eauto. apply perm_lumped; auto. Qed.
Theorem C28_division : forall (pr : bool) Tc pc w Rg c x j s,
  let mk := if pr then canonical_PR else canonical_SRK in
  length w = length Tc -> mk Tc pc w (Some (zeros (length Tc))) Rg = Some (Val c) -> length x = length Tc -> (j < length x)%nat ->
  exists c', let two l := pick 0 (seq 0 (length x) ++ [j]) l in
  mk (two Tc) (two pc) (two w) (Some (zeros (S (length Tc)))) Rg = Some (Val c') /\
  forall T rho, cubic_alphar c' T rho (replace j (nth j x 0 - s) x ++ [s]) = cubic_alphar c T rho x.
Proof.
  intros pr Tc pc w Rg c x j s mk Lw E Lx Hj.
  destruct (C28_SRK_PR _ _ _ (split_lumped x j s Hj) pr Tc pc w (zeros (length Tc)) Rg c E eq_refl Lx) as [c' [E' V]].
  exists c'. cbv zeta. split; auto. fold mk in E'. rewrite <- E'. f_equal. f_equal. unfold zeros, pick_mat.
  rewrite app_length, seq_length, Lx. simpl. f_equal; lia.
Qed.
Example C28_met : exists c, canonical_PR [300; 400; 500] [1; 2; 3] [0.1; 0.2; 0.3] (Some (zeros 3)) None = Some (Val c) /\
  Permutation [2%nat; 0%nat; 1%nat] (seq 0 (length [0.2; 0.3; 0.5])).
Proof.
  eexists. split; [reflexivity|]. simpl. apply perm_trans with [0%nat; 2%nat; 1%nat]; [apply perm_swap|]. apply perm_skip. apply perm_swap.
Qed.

(** ** C29: pure limits of the cubic models *)
Theorem C29_cubic_partial : forall (pr : bool) Tc pc w k Rg c i,
  let mk := if pr then canonical_PR else canonical_SRK in
  mk Tc pc w (Some k) Rg = Some (Val c) -> cols k = length Tc -> (i < length Tc)%nat -> at_ k i i = 0 ->
  exists c', mk [nth i Tc 0] [nth i pc 0] [nth i w 0] None Rg = Some (Val c') /\
  forall T rho, cubic_alphar c T rho (pure (length Tc) i) = cubic_alphar c' T rho [1].
Proof.
  intros pr Tc pc w k Rg c i mk E Ck Hi K0.
  destruct (C28_SRK_PR _ _ _ (pure_lumped (length Tc) i Hi) pr Tc pc w k Rg c E Ck (pure_length _ _)) as [c' [E' V]].
  unfold pick in E'. simpl map in E'.
  assert (X : exists c'', (if pr then canonical_PR else canonical_SRK) [nth i Tc 0] [nth i pc 0] [nth i w 0] None Rg = Some (Val c'') /\
     cb_ai c'' = cb_ai c' /\ cb_bi c'' = cb_bi c' /\ cb_D1 c'' = cb_D1 c' /\ cb_D2 c'' = cb_D2 c' /\ cb_alphas c'' = cb_alphas c' /\
     cb_R c'' = cb_R c' /\ cb_k c'' 0%nat 0%nat = cb_k c' 0%nat 0%nat).
  { destruct pr; injection E' as <-; eexists; (split; [reflexivity|]); cbn; rewrite K0; repeat split; reflexivity. }
  destruct X as [c'' [E'' [X1 [X2 [X3 [X4 [X5 [X6 X7]]]]]]]]. exists c''. split; [exact E''|]. intros T rho. rewrite <- V.
  unfold cubic_alphar. rewrite X5, X1. destruct (negb _); auto. destruct (Nat.ltb _ _); auto. unfold ok. f_equal. f_equal.
  rewrite X3, X4, X6. f_equal.
  - unfold cubic_a. simpl. rewrite X1, X5, X7. reflexivity.
  - unfold cubic_b. simpl. rewrite X2. reflexivity.
Qed.
Theorem C29_vdW_partial : forall Tc pc m i, make_vdW Tc pc = Val m -> (i < length Tc)%nat ->
  exists m', make_vdW [nth i Tc 0] [nth i pc 0] = Val m' /\
  forall T rho, vdW_alphar m T rho (pure (length Tc) i) = vdW_alphar m' T rho [1].
Proof.
  intros Tc pc m i E Hi.
  destruct (C28_vdW _ _ _ (pure_lumped (length Tc) i Hi) Tc pc m E (pure_length _ _)) as [m' [E' V]].
  exists m'. split; [exact E'|]. intros. symmetry. apply V.
Qed.
(** With a non-zero diagonal interaction parameter the pure limit is another fluid. *)
Theorem C29_diagonal_interaction_refuted : exists Tc pc w k c c' T rho v v', canonical_SRK Tc pc w (Some k) (Some 1) = Some (Val c) /\
  canonical_SRK [nth 0 Tc 0] [nth 0 pc 0] [nth 0 w 0] None (Some 1) = Some (Val c') /\
  cubic_alphar c T rho (pure 2 0) = Some (Val v) /\ cubic_alphar c' T rho [1] = Some (Val v') /\ v <> v'.
Proof.
  exists [1; 1], [1; 1], [0; 0], {| rows := 2; cols := 2; at_ := fun i j => if Nat.eqb i j then 1 else 0 |}.
  do 2 eexists. exists 1, 1. do 2 eexists. split; [reflexivity|]. split; [reflexivity|]. split; [reflexivity|]. split; [reflexivity|].
  unfold cubic_a, cubic_b, cubic_form. simpl. unfold alpha_at. simpl. unfold SRK_OmegaA, SRK_OmegaB.
  destruct (cbrt_cube 2 ltac:(lra)) as [E _]. assert (G := cbrt2_gt1). assert (C2 : cbrt 2 < 2) by nra.
  set (B := (cbrt 2 - 1) / 3). assert (HB : 0 < B < 1 / 3) by (unfold B; lra).
  set (A := 1 / (9 * (cbrt 2 - 1))). assert (HA : 0 < A) by (unfold A; apply Rdiv_lt_0_compat; lra).
  replace (1 / 1) with 1 by field. rewrite !sqrt_1.
  replace (0 + 1 * (B * 1 * 1 / 1) + 0 * (B * 1 * 1 / 1)) with B by field.
  replace (0 + 1 * (B * 1 * 1 / 1)) with B by field.
  set (s := sqrt _). set (L := ln ((1 * B * 1 + 1) / (0 * B * 1 + 1))).
  assert (HL : 0 < L). { unfold L. replace ((1 * B * 1 + 1) / (0 * B * 1 + 1)) with (1 + B) by field.
    rewrite <- ln_1. apply ln_increasing; lra. }
  assert (Hs : 0 < s). { unfold s. apply sqrt_lt_R0. replace (A * (1 * 1 * (1 * 1 * 1)) / 1) with A by field.
    replace (1 + SRK_m 0 * (1 - 1)) with 1 by ring. nra. }
  intro EQ. apply Rplus_eq_reg_l in EQ. apply Ropp_eq_compat in EQ. rewrite !Ropp_involutive in EQ.
  assert (HLB : 0 < L / (B * (1 - 0))) by (apply Rdiv_lt_0_compat; lra).
  apply Rmult_eq_reg_r in EQ; [|lra]. replace (1 * 1) with 1 in EQ by ring. unfold Rdiv in EQ. rewrite Rinv_1 in EQ. lra.
Qed.

(** ** C30: zero density *)
Lemma form_zero : forall D1 D2 a b Rg T, cubic_form D1 D2 a b Rg T 0 = 0.
Proof.
  intros. unfold cubic_form. rewrite !Rmult_0_r, Rminus_0_r, Rplus_0_l. replace (1 / 1) with 1 by field.
  rewrite ln_1. unfold Rdiv. ring.
Qed.
Theorem C30_cubic : forall m c adv rk T x v,
  (vdW_alphar m T 0 x = Val v -> v = 0) /\ (cubic_alphar c T 0 x = Some (Val v) -> v = 0) /\
  (advPR_alphar adv T 0 x = Some (Val v) -> v = 0) /\ (rkpr_alphar rk T 0 x = Some (Val v) -> v = 0).
Proof.
  intros. split; [|split; [|split]].
  - unfold vdW_alphar. destruct (negb _); [discriminate|]. intro E. injection E as <-.
    rewrite !Rmult_0_r, !Rminus_0_r, ln_1. ring.
  - unfold cubic_alphar. destruct (negb _); [discriminate|]. destruct (Nat.ltb _ _); [discriminate|].
    intro E. injection E as <-. apply form_zero.
  - unfold advPR_alphar. destruct (negb _); [discriminate|]. destruct (Nat.ltb _ _); [discriminate|].
    destruct (advPR_b adv x); [|discriminate]. simpl. destruct (ares_val _ _ _) as [[]|]; simpl; try discriminate.
    intro E. injection E as <-. apply form_zero.
  - unfold rkpr_alphar. destruct (negb _); [discriminate|]. destruct (_ || _)%bool; [discriminate|].
    intro E. injection E as <-. apply form_zero.
Qed.
Theorem C30_vdW1 : forall a b T, vdW1_alphar a b T 0 = 0.
Proof. intros. unfold vdW1_alphar. rewrite !Rmult_0_r, !Rminus_0_r, ln_1. ring. Qed.

(** ** C41: the Wilson model *)
Theorem C41_zero_interaction : forall b m n T x v, all_pos b -> List.Forall (fun z => 0 <= z) x -> 0 < sumn (length x) (fun i => nth i x 0) ->
  (forall i j, at_ m i j = 0) -> (forall i j, at_ n i j = 0) ->
  ares_val (WilsonAres b m n) T x = Some (Val v) -> v = 0.
Proof.
  intros b m n T x v Hb Hx Hs Hm Hn E. unfold ares_val in E.
  destruct (_ || _)%bool eqn:C; [discriminate|]. destruct (Nat.eqb_spec (length b) (length x)) as [Lb|]; [|discriminate].
  simpl in E. injection E as <-.
  assert (Pb : forall i, (i < length x)%nat -> 0 < nth i b 0).
  { intros. unfold all_pos in Hb. rewrite List.Forall_forall in Hb. apply Hb, nth_In. lia. }
  assert (Px : forall i, (i < length x)%nat -> 0 <= nth i x 0).
  { intros. rewrite List.Forall_forall in Hx. apply Hx, nth_In. lia. }
  unfold wilson_total, wilson_combinatorial. set (V := sumn (length x) (fun i => nth i x 0 * nth i b 0)).
  assert (HV : 0 < V).
  { destruct (Rlt_or_le 0 V) as [|NV]; auto. exfalso.
    assert (forall i, (i < length x)%nat -> nth i x 0 = 0).
    { intros i Hi. assert (T1 := sumn_term (length x) (fun i => nth i x 0 * nth i b 0) i Hi
        ltac:(intros; apply Rmult_le_pos; [auto|apply Rlt_le; auto])). fold V in T1. cbv beta in T1.
      assert (0 < nth i b 0) by auto. assert (0 <= nth i x 0) by auto. nra. }
    rewrite (sumn_0 (length x) (fun i => nth i x 0)) in Hs by auto. lra. }
  rewrite (sumn_ext (length x) _ (fun i => - (nth i x 0 * ln (nth i b 0 / V)))).
  - rewrite (sumn_ext _ _ (fun i => -1 * (nth i x 0 * ln (nth i b 0 / V)))) by (intros; ring). rewrite sumn_scal. ring.
  - intros i Hi. assert (Bi := Pb i Hi).
    replace (sumn (length x) (fun j => nth j x 0 * (nth j b 0 / nth i b 0 * exp (- wilson_A m n i j T / T)))) with (V / nth i b 0).
    + replace (nth i b 0 / V) with (/ (V / nth i b 0)) by (field; lra). rewrite ln_Rinv by (apply Rdiv_lt_0_compat; auto). ring.
    + unfold Rdiv at 1, V. rewrite <- sumn_scal_r. apply sumn_ext. intros j Hj. unfold wilson_A. rewrite Hm, Hn.
      replace (- (0 * T + 0) / T) with 0 by (unfold Rdiv; ring). rewrite exp_0. unfold Rdiv. ring.
Qed.
Example C41_zero_met : exists v, ares_val (WilsonAres [1; 2; 3] (zeros 3) (zeros 3)) 300 [0.5; 0; 0.5] = Some (Val v) /\
  all_pos [1; 2; 3] /\ 0 < sumn 3 (fun i => nth i [0.5; 0; 0.5] 0).
Proof. eexists. split; [reflexivity|]. split; [repeat constructor; lra|simpl; lra]. Qed.
(** Independent of the order of the components. *)
Theorem C41_order : forall sigma b m n T x v, Permutation sigma (seq 0 (length x)) ->
  ares_val (WilsonAres b m n) T x = Some (Val v) ->
  ares_val (WilsonAres (pick 0 sigma b) (pick_mat sigma m) (pick_mat sigma n)) T (pick 0 sigma x) = Some (Val v).
Proof.
  intros sigma b m n T x v P E. exact (C28_ares _ _ _ (perm_lumped _ _ P) (WilsonAres b m n) T v I E).
Qed.
(** The correction that the multifluid+activity model adds is 0 at zero density and, at
    the reference density 1/(u bm), the difference of excess energies itself. *)
Theorem C41_activity_factor : forall act pure Tc vc b u Tr rhor T x v0,
  0 < u -> alphar_activity act pure Tc vc b u Tr rhor T 0 x = Some (Val v0) ->
  v0 = 0 /\
  let bm := sumn (length x) (fun i => nth i b 0 * nth i x 0) in
  (bm <> 0 -> exists g, ares_val act T x = Some (Val g) /\
    alphar_activity act pure Tc vc b u Tr rhor T (1 / (u * bm)) x = Some (Val (g - activity_sum pure Tc vc b u Tr rhor T x))).
Proof.
  intros act pure Tc vc b u Tr rhor T x v0 Hu E. unfold alphar_activity in *.
  destruct (ares_val act T x) as [[g|]|]; try discriminate. simpl in *.
  destruct (negb _); [discriminate|]. injection E as <-. split.
  - unfold activity_correction. rewrite Rmult_0_l, Rplus_0_r, ln_1. unfold Rdiv. ring.
  - intro Hbm. exists g. split; auto. unfold ok. f_equal. f_equal. unfold activity_correction.
    set (bm := sumn _ _) in *. replace (1 / (u * bm) * bm) with (1 / u) by (field; lra).
    assert (0 < / u) by (apply Rinv_0_lt_compat; auto).
    assert (0 < ln (1 + 1 / u)) by (rewrite <- ln_1; apply ln_increasing; unfold Rdiv; lra). field. lra.
Qed.
(** A pure component has no residual excess energy, provided its self-interaction is 0. *)
Theorem C41_pure : forall b m n T i v, all_pos b -> (i < length b)%nat -> at_ m i i = 0 -> at_ n i i = 0 ->
  ares_val (WilsonAres b m n) T (pure (length b) i) = Some (Val v) -> v = 0.
Proof.
  intros b m n T i v Hb Hi Hm Hn E.
  assert (E' := C28_ares _ _ _ (pure_lumped (length b) i Hi) (WilsonAres b m n) T v I E).
  assert (0 < nth i b 0) by (unfold all_pos in Hb; rewrite List.Forall_forall in Hb; apply Hb, nth_In; auto).
  cbn in E'. injection E' as <-. unfold wilson_total, wilson_combinatorial, wilson_A. simpl. rewrite Hm, Hn.
  replace (- (0 * T + 0) / T) with 0 by (unfold Rdiv; ring). rewrite exp_0.
  replace (0 + 1 * (nth i b 0 / nth i b 0 * 1)) with 1 by (field; lra).
  replace (nth i b 0 / (0 + 1 * nth i b 0)) with 1 by (field; lra). rewrite ln_1. ring.
Qed.

(** ** C56: a composition of the wrong length is never evaluated *)
Theorem C56_wrong_size : forall T rho x m c adv q rk,
  (length x <> length (vd_ai m) -> vdW_alphar m T rho x = Err InvalidArgument) /\
  (length x <> length (cb_alphas c) -> cubic_alphar c T rho x = Some (Err StdInvalidArgument)) /\
  (length x <> length (ap_alphas adv) -> advPR_alphar adv T rho x = Some (Err StdInvalidArgument)) /\
  (length x <> length (q_alphas q) -> qPR_alphar q T rho x = Some (Err StdInvalidArgument)) /\
  (length x <> length (rk_delta1 rk) -> rkpr_alphar rk T rho x = Some (Err StdInvalidArgument)).
Proof.
  intros. unfold vdW_alphar, cubic_alphar, advPR_alphar, qPR_alphar, rkpr_alphar.
  repeat split; intro H; rewrite (proj2 (Nat.eqb_neq _ _) H); reflexivity.
Qed.
(** Parameter arrays of different lengths: vdW reports them; the canonical cubics read
    out of bounds when a pressure or an acentric factor is missing, and silently ignore
    surplus ones. *)
Theorem C56_vdW_parameters : forall Tc pc, length Tc <> length pc -> make_vdW Tc pc = Err InvalidArgument.
Proof. intros Tc pc H. unfold make_vdW. rewrite (proj2 (Nat.eqb_neq _ _) H). reflexivity. Qed.
Theorem C56_cubic_parameters_refuted :
  (exists Tc pc w, canonical_SRK Tc pc w None None = None) /\
  (exists Tc pc w c, length pc <> length Tc /\ canonical_SRK Tc pc w None None = Some (Val c)).
Proof.
  split.
  - exists [300; 400], [1], [0; 0]. reflexivity.
  - exists [300], [1; 2], [0]. eexists. split; [discriminate|reflexivity].
Qed.
(** An interaction matrix that is not square, or of the wrong size, is reported. *)
Theorem C56_interaction_matrix : forall D1 D2 OA OB Tc pc alphas k Rg, length pc = length Tc ->
  cols k <> rows k \/ (cols k <> O /\ cols k <> length Tc) ->
  make_cubic D1 D2 OA OB Tc pc alphas k Rg = Some (Err InvalidArgument).
Proof.
  intros D1 D2 OA OB Tc pc alphas k Rg L H. unfold make_cubic. rewrite L, Nat.ltb_irrefl. unfold check_mat.
  destruct (Nat.eqb_spec (cols k) (rows k)); [|reflexivity]. destruct H as [|[H1 H2]]; [contradiction|]. simpl.
  rewrite (proj2 (Nat.eqb_neq _ _) H1), (proj2 (Nat.eqb_neq _ _) H2). reflexivity.
Qed.
(** Alpha-function lists: a wrong number of entries is reported whatever they are; a
    well-formed list gives one function per component. *)
Theorem C56_alpha_count : forall Tc l, length l <> length Tc -> build_alpha_functions Tc (JArr l) = Some (Err InvalidArgument).
Proof. intros Tc l H. unfold build_alpha_functions. simpl. rewrite (proj2 (Nat.eqb_neq _ _) H). reflexivity. Qed.
Lemma build_alphas_length : forall js Tcs l, build_alphas Tcs js = Some (Val l) -> length l = length js.
Proof.
  induction js as [|j js IH]; simpl; intros Tcs l E; [injection E as <-; reflexivity|].
  destruct (build_alpha _ j) as [[a|]|]; simpl in E; try discriminate.
  destruct (build_alphas (tl Tcs) js) as [[l'|]|] eqn:B; simpl in E; try discriminate. injection E as <-. simpl. f_equal. eauto.
Qed.
Theorem C56_alpha_one_each : forall Tc l alphas, build_alpha_functions Tc (JArr l) = Some (Val alphas) -> length alphas = length Tc.
Proof.
  intros Tc l alphas E. unfold build_alpha_functions in E. simpl in E.
  destruct (Nat.eqb_spec (length l) (length Tc)) as [L|]; [|discriminate]. simpl in E. rewrite <- L. eapply build_alphas_length; eauto.
Qed.
(** The advertised length check of the coefficient array does not happen: two
    coefficients are read out of bounds, a fourth one is ignored. *)
Theorem C56_alpha_coefficients_refuted :
  build_alpha 300 (JObj [("type"%string, JStr "Twu"); ("c"%string, JArr [JNum 1; JNum 2])]) = None /\
  build_alpha 300 (JObj [("type"%string, JStr "Twu"); ("c"%string, JArr [JNum 1; JNum 2; JNum 3; JNum 4])]) = Some (Val (TwuAlpha 300 1 2 3)).
Proof. split; reflexivity. Qed.

(** ** C57: the EoS/aE factory *)
(** It never builds a mixture of any other number of components than two. *)
Lemma advPR_zeros2 : forall Tc pc al a br s CEoS Rg m, make_advPR Tc pc al a (zeros 2) br s CEoS Rg = Some (Val m) -> length (ap_ai m) = 2%nat.
Proof.
  intros Tc pc al a br s CEoS Rg m E. unfold make_advPR in E. destruct (Nat.ltb _ _); [discriminate|].
  unfold check_mat in E. cbn [zeros cols rows Nat.eqb negb] in E.
  destruct (length Tc) as [|[|[|n]]] eqn:L; cbn [obind] in E; try discriminate E. unfold ok in E. injection E as <-.
  reflexivity.
Qed.
Theorem C57_only_binaries_refuted : forall j br s CEoS Rg m, make_AdvancedPRaEres j br s CEoS Rg = Some (Val m) -> length (ap_ai m) = 2%nat.
Proof.
  intros j br s CEoS Rg m E. unfold make_AdvancedPRaEres in E.
  repeat match type of E with
  | obind ?o _ = _ => destruct o as [[?|?]|]; cbn [obind] in E; [|discriminate E|discriminate E]
  | match ?o with Val _ => _ | Err _ => _ end = _ => destruct o as [?|?]; [|discriminate E]
  | (if ?b then _ else _) = _ => destruct b; [discriminate E|]
  end.
  eapply advPR_zeros2; exact E.
Qed.
(** ... although it does build binary ones. *)
Example C57_met : exists m, make_AdvancedPRaEres (JObj [("Tcrit / K"%string, JArr [JNum 300; JNum 400]); ("pcrit / Pa"%string, JArr [JNum 1; JNum 2]);
    ("alphas"%string, JArr [JObj [("type"%string, JStr "Twu"); ("c"%string, JArr [JNum 1; JNum 2; JNum 3])];
                            JObj [("type"%string, JStr "Twu"); ("c"%string, JArr [JNum 1; JNum 2; JNum 3])]]);
    ("aresmodel"%string, JObj [("type"%string, JStr "Wilson"); ("m"%string, JArr [JArr [JNum 0; JNum 1]; JArr [JNum 1; JNum 0]]);
                               ("n"%string, JArr [JArr [JNum 0; JNum 1]; JArr [JNum 1; JNum 0]])])]) Linear 2 (-0.5) 8.3 = Some (Val m).
Proof. eexists. reflexivity. Qed.

Print Assumptions C27_RKPR_pressure.
Print Assumptions C27_RKPR_critical.
Print Assumptions C27_advPR_pressure.
Print Assumptions C27_quantum_pressure.
Print Assumptions C27_quantum_translation_refuted.
Print Assumptions C28_vdW.
Print Assumptions C28_cubic.
Print Assumptions C28_SRK_PR.
Print Assumptions C28_ares.
Print Assumptions C28_advPR.
Print Assumptions C28_quantum.
Print Assumptions C28_RKPR.
Print Assumptions C28_permutation_is_copying.
Print Assumptions C28_division_is_copying.
Print Assumptions C29_pure_is_copying.
Print Assumptions C28_order.
Print Assumptions C28_vdW_order.
Print Assumptions C28_division.
Print Assumptions C29_cubic_partial.
Print Assumptions C29_vdW_partial.
Print Assumptions C29_diagonal_interaction_refuted.
Print Assumptions C30_cubic.
Print Assumptions C30_vdW1.
Print Assumptions C41_zero_interaction.
Print Assumptions C41_order.
Print Assumptions C41_activity_factor.
Print Assumptions C41_pure.
Print Assumptions C56_wrong_size.
Print Assumptions C56_vdW_parameters.
Print Assumptions C56_cubic_parameters_refuted.
Print Assumptions C56_interaction_matrix.
Print Assumptions C56_alpha_count.
Print Assumptions C56_alpha_one_each.
Print Assumptions C56_alpha_coefficients_refuted.
Print Assumptions C57_only_binaries_refuted.
