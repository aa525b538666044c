(** The square-well equation of state.  See Potential_spec.v for what is expected. *)
From Coq Require Import Reals ZArith String List Bool Lia Lra.
From Coquelicot Require Import Coquelicot.
From Verif Require Import Json_model Vec_spec Vec_proofs Cubic_model Terms_model Ideal_model Ideal_proofs Util_model Assoc_model Potential_model Potential_spec Potential_proofs
  Derivs_proofs2 Properties_Ideal.
Import ListNotations.
Open Scope R_scope.

(** C40.  The residual energy of the square-well fluid is defined for every range between one and
    eight diameters, every temperature that is not zero and every density that is not negative,
    except the density at which the hard spheres fill space *)
Theorem C40_defined : forall l T rho, 1 < l <= 8 -> T <> 0 -> 0 <= rho -> PI * rho <> 6 -> exists v, sw_alphar l T rho = Some v.
Proof. intros l T rho [L1 L8] HT R0 HP. eexists. apply sw_iff. split; [now apply sw_ok_intro|reflexivity]. Qed.
(** It is not at the range 1, at which the well has no width and the fluid is one of hard spheres *)
Theorem C40_hard_spheres_refuted : forall T rho, sw_alphar 1 T rho = None.
Proof.
  intros T rho. destruct (sw_alphar 1 T rho) as [v|] eqn:E; [|reflexivity]. apply sw_iff in E. destruct E as [(_ & L & _) _]. exfalso. apply L. ring.
Qed.
(** It is continuous in the range everywhere else than at 2 *)
Theorem C40_continuous : forall l T rho, l <> 2 -> (exists v, sw_alphar l T rho = Some v) -> continuous_at (fun l' => sw_alphar l' T rho) l.
Proof.
  intros l T rho N [v Hv]. apply sw_iff in Hv. destruct Hv as [K _].
  apply (continuous_at_of _ (fun y => sw_value (sw_a32 y / sw_a2i 2 y) (sw_a33 y / sw_a2i 3 y) (sw_a34 y / sw_a2i 4 y) y T rho)).
  - generalize (ok_locally _ _ _ K). apply filter_imp. intros y Hy. apply sw_iff. split; [exact Hy|reflexivity].
  - assert (A : forall i, sw_a2i i l <> 0) by (intro i; apply a2i_nz; apply K).
    apply cont_value; [exact K| | |]; (apply cont_div; [first [now apply cont_a32|now apply cont_a33|now apply cont_a34]|apply cont_a2i|apply A]).
Qed.
Example C40_continuous_met : continuous_at (fun l => sw_alphar l 1.5 0.5) 1.8 /\ continuous_at (fun l => sw_alphar l 1.5 0.5) 3.
Proof. pose proof PI_4. pose proof PI_RGT_0. split; apply C40_continuous; try lra; apply C40_defined; lra. Qed.

(** At 2 it jumps, upwards: the coefficients of the published equation are continuous there, those
    of the code are not because [-17/2], [-17/6] and [-17/24] are divisions of integers *)
Theorem C40_jump : forall T rho v, 0 < T -> 0 < rho < 1.23 -> sw_alphar 2 T rho = Some v ->
  exists gap d, 0 < gap /\ 0 < d /\ forall l, 2 < l < 2 + d -> exists w, sw_alphar l T rho = Some w /\ v + gap < w.
Proof.
  intros T rho v HT [R0 R1] Hv. apply sw_iff in Hv. destruct Hv as [K ->].
  set (r2 := fun l => (PI / 6) ^ 2 * (- (8) + sw_P4 l)). set (r3 := fun l => (PI / 6) ^ 2 * (- (2) + sw_P4 l - sw_P5 l)).
  set (r4 := fun l => (PI / 6) ^ 2 * (7 * sw_P4 l / 12 - 3 * sw_P5 l / 2)).
  assert (A : forall i, sw_a2i i 2 <> 0) by (intro i; apply a2i_nz; apply K).
  set (FR := fun l => sw_value (r2 l / sw_a2i 2 l) (r3 l / sw_a2i 3 l) (r4 l / sw_a2i 4 l) l T rho).
  assert (C : continuous FR 2).
  { apply cont_value; [exact K| | |]; (apply cont_div; [unfold r2, r3, r4; contP|apply cont_a2i|apply A]). }
  pose proof PI_RGT_0 as P. assert (P2 : 0 < (PI / 6) ^ 2) by (apply pow_lt; lra).
  assert (N : forall i, sw_a2i i 2 < 0).
  { intro i. unfold sw_a2i. pose proof (lt_INR 0 (fact i) (lt_O_fact i)) as F. cbn [INR] in F.
    replace (- (2) * PI / (3 * INR (fact i)) * (2 ^ 3 - 1)) with (- (14 * PI / (3 * INR (fact i)))) by (field; lra).
    assert (0 < 14 * PI / (3 * INR (fact i))) by (apply Rdiv_lt_0_compat; lra). lra. }
  assert (D : forall i a b, a < b -> b / sw_a2i i 2 < a / sw_a2i i 2).
  { intros i a b L. pose proof (N i) as Ni. pose proof (Rinv_lt_0_compat _ Ni). unfold Rdiv. nra. }
  assert (D2 : r2 2 / sw_a2i 2 2 < sw_a32 2 / sw_a2i 2 2).
  { apply D. unfold r2, sw_a32. destruct (Rle_dec 2 2) as [_|C2]; [|lra]. apply Rmult_lt_compat_l; [exact P2|]. unfold sw_P1, sw_P2, sw_P4. lra. }
  assert (D3 : r3 2 / sw_a2i 3 2 < sw_a33 2 / sw_a2i 3 2).
  { apply D. unfold r3, sw_a33. destruct (Rle_dec 2 2) as [_|C2]; [|lra]. apply Rmult_lt_compat_l; [exact P2|]. unfold sw_P1, sw_P2, sw_P3, sw_P4, sw_P5. lra. }
  assert (D4 : r4 2 / sw_a2i 4 2 < sw_a34 2 / sw_a2i 4 2).
  { apply D. unfold r4, sw_a34. destruct (Rle_dec 2 2) as [_|C2]; [|lra]. apply Rmult_lt_compat_l; [exact P2|]. unfold sw_P1, sw_P2, sw_P3, sw_P4, sw_P5. lra. }
  assert (W2 : wa2 (sw_a32 2 / sw_a2i 2 2) rho 2 < wa2 (r2 2 / sw_a2i 2 2) rho 2).
  { unfold wa2. assert (X : sw_Chi rho 2 < 0).
    { unfold sw_Chi. assert (0 < rho * (1 - rho ^ 2 / 1.5129)). { apply Rmult_lt_0_compat; [exact R0|]. nra. }
      pose proof (N 2%nat). rewrite Rmult_assoc. nra. }
    assert (exp (r2 2 / sw_a2i 2 2 * rho + sw_phii 1 2 * rho ^ 3 + sw_phii 2 2 * rho ^ 4) < exp (sw_a32 2 / sw_a2i 2 2 * rho + sw_phii 1 2 * rho ^ 3 + sw_phii 2 2 * rho ^ 4)) by (apply exp_increasing; nra).
    nra. }
  assert (W3 : forall i a b, a < b -> wa3 i b rho 2 < wa3 i a rho 2).
  { intros i a b L. unfold wa3. assert (exp (a * rho + Knum i 2 * rho ^ 2 / Kden i rho 2) < exp (b * rho + Knum i 2 * rho ^ 2 / Kden i rho 2)) by (apply exp_increasing; nra).
    pose proof (N i). assert (sw_a2i i 2 * rho < 0) by nra. nra. }
  assert (S : sw_value (sw_a32 2 / sw_a2i 2 2) (sw_a33 2 / sw_a2i 3 2) (sw_a34 2 / sw_a2i 4 2) 2 T rho < FR 2).
  { unfold FR, sw_value.
    assert (Q2 : wa2 (sw_a32 2 / sw_a2i 2 2) rho 2 / T ^ 2 < wa2 (r2 2 / sw_a2i 2 2) rho 2 / T ^ 2) by (apply Rmult_lt_compat_r; [apply Rinv_0_lt_compat, pow_lt, HT|exact W2]).
    assert (Q3 : wa3 3 (sw_a33 2 / sw_a2i 3 2) rho 2 / T ^ 3 < wa3 3 (r3 2 / sw_a2i 3 2) rho 2 / T ^ 3) by (apply Rmult_lt_compat_r; [apply Rinv_0_lt_compat, pow_lt, HT|now apply W3]).
    assert (Q4 : wa3 4 (sw_a34 2 / sw_a2i 4 2) rho 2 / T ^ 4 < wa3 4 (r4 2 / sw_a2i 4 2) rho 2 / T ^ 4) by (apply Rmult_lt_compat_r; [apply Rinv_0_lt_compat, pow_lt, HT|now apply W3]).
    lra. }
  set (v := sw_value (sw_a32 2 / sw_a2i 2 2) (sw_a33 2 / sw_a2i 3 2) (sw_a34 2 / sw_a2i 4 2) 2 T rho) in *.
  set (gap := (FR 2 - v) / 2). assert (Hg : 0 < gap) by (unfold gap; lra).
  assert (B : locally 2 (fun y => Rabs (FR y - FR 2) < gap)).
  { apply (C (fun w => Rabs (w - FR 2) < gap)). exists (mkposreal gap Hg). intros w Hw. exact Hw. }
  destruct (locally_ball _ _ (filter_and _ _ B (ok_locally _ _ _ K))) as (d & Hd & H). exists gap, d. split; [exact Hg|]. split; [exact Hd|].
  intros l [L1 L2]. assert (Ld : Rabs (l - 2) < d) by (rewrite Rabs_right; lra). destruct (H l Ld) as [H1 H2]. exists (FR l). split.
  - apply sw_iff. split; [exact H2|]. unfold FR, r2, r3, r4, sw_a32, sw_a33, sw_a34. destruct (Rle_dec l 2) as [X|_]; [lra|].
    change (Z.quot (-17) 2) with (-8)%Z. change (Z.quot (-17) 6) with (-2)%Z. change (Z.quot (-17) 24) with 0%Z.
    replace (0 + 7 * sw_P4 l / 12 - 3 * sw_P5 l / 2) with (7 * sw_P4 l / 12 - 3 * sw_P5 l / 2) by ring. reflexivity.
  - apply Rabs_def2 in H1. unfold gap in *. lra.
Qed.
Theorem C40_continuous_refuted : forall T rho, 0 < T -> 0 < rho < 1.23 -> ~ continuous_at (fun l => sw_alphar l T rho) 2.
Proof.
  intros T rho HT HR (v & Hv & C). destruct (C40_jump T rho v HT HR Hv) as (gap & d & Hg & Hd & J). destruct (C gap Hg) as (e & He & C').
  set (y := 2 + Rmin d e / 2). assert (0 < Rmin d e) by (now apply Rmin_glb_lt). pose proof (Rmin_l d e). pose proof (Rmin_r d e).
  destruct (J y ltac:(unfold y; lra)) as (w & E1 & L1). destruct (C' y) as (w' & E2 & L2); [unfold y; rewrite Rabs_right; lra|].
  rewrite E1 in E2. injection E2 as <-. apply Rabs_def2 in L2. lra.
Qed.
Example C40_jump_met : exists v, sw_alphar 2 1.5 0.5 = Some v.
Proof. pose proof PI_4. apply C40_defined; lra. Qed.

(** The temperature enters as in an expansion of fourth order about hard spheres: the coefficients
    do not depend on it, and the first is the energy of Carnahan and Starling *)
Theorem C40_expansion : forall l rho, exists a1 a2 a3 a4, forall T v, sw_alphar l T rho = Some v ->
  v = carnahan_starling (PI / 6 * rho) + a1 / T + a2 / T ^ 2 + a3 / T ^ 3 + a4 / T ^ 4.
Proof.
  intros l rho. do 4 eexists. intros T v H. apply sw_iff in H. destruct H as [K ->]. rewrite <- carnahan_sw by (apply K). reflexivity.
Qed.
Lemma cont_hs0 : continuous (fun r : R => - (3) * PI * (PI * r - 8) / (PI * r - 6) ^ 2) 0.
Proof.
  apply (ex_derive_continuous (fun r : R => - (3) * PI * (PI * r - 8) / (PI * r - 6) ^ 2)). auto_derive.
  rewrite !Rmult_0_r. lra.
Qed.
(** At low density it has the second virial coefficient of the square well,
    2 pi/3 (1 - (l^3 - 1)(exp(1/T) - 1)), with the exponential cut after the fourth power of 1/T *)
Theorem C40_virial : forall l T, 1 < l <= 8 -> T <> 0 ->
  sw_alphar l T 0 = Some 0 /\
  derivative_at (sw_alphar l T) 0 (2 * PI / 3 * (1 - (l ^ 3 - 1) * (1 / T + 1 / (2 * T ^ 2) + 1 / (6 * T ^ 3) + 1 / (24 * T ^ 4)))).
Proof.
  intros l T [L1 L8] HT. assert (K0 : sw_ok l T 0) by (apply sw_ok_intro; lra). split.
  { apply sw_iff. split; [exact K0|]. rewrite sw_factor. ring. }
  set (x2 := sw_a32 l / sw_a2i 2 l). set (x3 := sw_a33 l / sw_a2i 3 l). set (x4 := sw_a34 l / sw_a2i 4 l).
  exists (fun rho => sw_value x2 x3 x4 l T rho). split.
  - apply (is_derive_ext (fun rho => rho * (- (3) * PI * (PI * rho - 8) / (PI * rho - 6) ^ 2 + (sw_a2i 1 l + sw_a31 l * rho + sumn 4 (fun k => gam (k + 1) l * rho ^ (k + 2))) / T
   + sw_a2i 2 l * (1 - rho ^ 2 / 1.5129) * exp (x2 * rho + sw_phii 1 l * rho ^ 3 + sw_phii 2 l * rho ^ 4) / T ^ 2
   + sw_a2i 3 l * exp (x3 * rho + Knum 3 l * rho ^ 2 / Kden 3 rho l) / T ^ 3
   + sw_a2i 4 l * exp (x4 * rho + Knum 4 l * rho ^ 2 / Kden 4 rho l) / T ^ 4))).
    { intro t. symmetry. apply sw_factor. }
    match goal with |- is_derive _ _ ?d => replace d with (- (3) * PI * (PI * 0 - 8) / (PI * 0 - 6) ^ 2 + (sw_a2i 1 l + sw_a31 l * 0 + sumn 4 (fun k => gam (k + 1) l * 0 ^ (k + 2))) / T
   + sw_a2i 2 l * (1 - 0 ^ 2 / 1.5129) * exp (x2 * 0 + sw_phii 1 l * 0 ^ 3 + sw_phii 2 l * 0 ^ 4) / T ^ 2
   + sw_a2i 3 l * exp (x3 * 0 + Knum 3 l * 0 ^ 2 / Kden 3 0 l) / T ^ 3
   + sw_a2i 4 l * exp (x4 * 0 + Knum 4 l * 0 ^ 2 / Kden 4 0 l) / T ^ 4) end.
    + apply (is_derive_times (fun rho => - (3) * PI * (PI * rho - 8) / (PI * rho - 6) ^ 2 + (sw_a2i 1 l + sw_a31 l * rho + sumn 4 (fun k => gam (k + 1) l * rho ^ (k + 2))) / T
   + sw_a2i 2 l * (1 - rho ^ 2 / 1.5129) * exp (x2 * rho + sw_phii 1 l * rho ^ 3 + sw_phii 2 l * rho ^ 4) / T ^ 2
   + sw_a2i 3 l * exp (x3 * rho + Knum 3 l * rho ^ 2 / Kden 3 rho l) / T ^ 3
   + sw_a2i 4 l * exp (x4 * rho + Knum 4 l * rho ^ 2 / Kden 4 rho l) / T ^ 4)).
      assert (DT : forall f n, continuous f 0 -> continuous (fun r => f r / T ^ n) 0) by (intros f n Hf; apply (cont_mult f (fun _ => / T ^ n)); [exact Hf|apply cont_c]).
      assert (CK : forall i, (i = 3 \/ i = 4)%nat -> continuous (fun r => Knum i l * r ^ 2 / Kden i r l) 0).
      { intros i Hi. apply cont_div; [cont|unfold Kden; cont|apply Rgt_not_eq, Kden_pos; [exact Hi|lra|lra|lra]]. }
      repeat apply cont_plus.
      * exact cont_hs0.
      * apply (cont_mult (fun r => sw_a2i 1 l + sw_a31 l * r + sumn 4 (fun k => gam (k + 1) l * r ^ (k + 2))) (fun _ => / T)); cont.
      * apply (DT (fun rho => sw_a2i 2 l * (1 - rho ^ 2 / 1.5129) * exp (x2 * rho + sw_phii 1 l * rho ^ 3 + sw_phii 2 l * rho ^ 4))). apply cont_mult; [|cont].
        apply cont_mult; [cont|]. apply cont_minus; [cont|]. apply (cont_mult (fun r => r ^ 2) (fun _ => / 1.5129)); cont.
      * apply (DT (fun rho => sw_a2i 3 l * exp (x3 * rho + Knum 3 l * rho ^ 2 / Kden 3 rho l))). apply cont_mult; [cont|]. apply cont_exp, cont_plus; [cont|]. apply CK. tauto.
      * apply (DT (fun rho => sw_a2i 4 l * exp (x4 * rho + Knum 4 l * rho ^ 2 / Kden 4 rho l))). apply cont_mult; [cont|]. apply cont_exp, cont_plus; [cont|]. apply CK. tauto.
    + replace (x2 * 0 + sw_phii 1 l * 0 ^ 3 + sw_phii 2 l * 0 ^ 4) with 0 by ring.
      assert (Z : forall x i, x * 0 + Knum i l * 0 ^ 2 / Kden i 0 l = 0) by (intros; unfold Rdiv; ring). rewrite !Z, exp_0.
      cbn [sumn Nat.add]. unfold sw_a2i. cbn [fact Nat.mul Nat.add INR]. field. split; [exact HT|lra].
  - assert (HP : 0 < PI) by apply PI_RGT_0. assert (L : locally 0 (fun y => sw_ok l T y)).
    { destruct K0 as (G & L & K3 & K4 & H5 & _).
      pose proof (cont_nz (fun r => Kden 3 r l) 0 ltac:(unfold Kden; cont) K3) as C3. pose proof (cont_nz (fun r => Kden 4 r l) 0 ltac:(unfold Kden; cont) K4) as C4.
      pose proof (cont_nz (fun r => PI * r - 6) 0 ltac:(cont) H5) as C5. generalize (filter_and _ _ C3 (filter_and _ _ C4 C5)). apply filter_imp. intros y (A3 & A4 & A5).
      repeat (split; [assumption|]). assumption. }
    destruct (locally_ball _ _ L) as (d & Hd & H). exists d. split; [exact Hd|]. intros y Hy. apply sw_iff. split; [now apply H|reflexivity].
Qed.
Example C40_virial_met : derivative_at (sw_alphar 1.5 1) 0 (2 * PI / 3 * (1 - 2.375 * (1 + 1 / 2 + 1 / 6 + 1 / 24))).
Proof.
  destruct (C40_virial 1.5 1) as [_ H]; [lra|lra|]. replace (1.5 ^ 3 - 1) with 2.375 in H by lra.
  replace (1 / 1 + 1 / (2 * 1 ^ 2) + 1 / (6 * 1 ^ 3) + 1 / (24 * 1 ^ 4)) with (1 + 1 / 2 + 1 / 6 + 1 / 24) in H by lra. exact H.
Qed.
Print Assumptions C40_defined.
Print Assumptions C40_hard_spheres_refuted.
Print Assumptions C40_continuous.
Print Assumptions C40_jump.
Print Assumptions C40_continuous_refuted.
Print Assumptions C40_expansion.
Print Assumptions C40_virial.
