(** Proofs about adapters: Taylor's formula on both sides, errors of centered differences. *)
From Coq Require Import Reals ZArith List Bool Lra Lia Factorial.
From Coquelicot Require Import Coquelicot.
From Verif Require Import Json_model Cubic_model Numerics_model Adapter_model Adapter_spec.
Import ListNotations.
Local Open Scope R_scope.

Definition taylor (f : R -> R) (n : nat) (x d : R) : R := sum_f_R0 (fun m => d ^ m / INR (fact m) * Derive_n f m x) n.
Lemma taylor_right : forall f n M x w d, smooth f (S n) M x w -> 0 < d -> d <= w -> Rabs (f (x + d) - taylor f n x d) <= M * (d ^ S n / INR (fact (S n))).
Proof.
  intros f n M x w d S D W. destruct (Taylor_Lagrange f n x (x + d)) as (z & Z & E); [lra| |].
  - intros t Ht k Hk. apply (S t); [apply Rabs_le; lra|assumption].
  - rewrite E. unfold taylor. replace (x + d - x) with d by ring. replace (_ - _) with (d ^ Datatypes.S n / INR (fact (Datatypes.S n)) * Derive_n f (Datatypes.S n) z) by ring. rewrite Rabs_mult.
    assert (P : 0 <= d ^ Datatypes.S n / INR (fact (Datatypes.S n))). { apply Rmult_le_pos; [left; now apply pow_lt|left; apply Rinv_0_lt_compat, INR_fact_lt_0]. } rewrite (Rabs_pos_eq _ P), Rmult_comm. apply Rmult_le_compat_r; [assumption|]. apply (S z). apply Rabs_le. lra.
Qed.
Lemma near : forall f n M x w t, smooth f n M x w -> Rabs (t - x) < w -> locally t (fun y => forall k, (k <= n)%nat -> ex_derive_n f k y).
Proof.
  intros f n M x w t S H. assert (P : 0 < w - Rabs (t - x)) by lra. exists (mkposreal _ P). intros y Hy. change (Rabs (y - t) < w - Rabs (t - x)) in Hy. apply (S y). replace (y - x) with ((y - t) + (t - x)) by ring. pose proof (Rabs_triang (y - t) (t - x)). lra.
Qed.
Lemma smooth_opp : forall f n M x w w', smooth f n M x w -> w' < w -> smooth (fun t => f (- t)) n M (- x) w'.
Proof.
  intros f n M x w w' S W t Ht. assert (H : Rabs (- t - x) <= w') by (replace (- t - x) with (- (t - - x)) by ring; rewrite Rabs_Ropp; exact Ht). assert (L : locally (- t) (fun y => forall k, (k <= n)%nat -> ex_derive_n f k y)) by (apply (near f n M x w); [assumption|lra]). split.
  - intros k Hk. apply ex_derive_n_comp_opp. revert L. apply filter_imp. intros y Hy j Hj. apply Hy. lia.
  - rewrite Derive_n_comp_opp by assumption. rewrite Rabs_mult, <- RPow_abs, Rabs_left by lra. replace (- -1) with 1 by ring. rewrite pow1, Rmult_1_l. apply S. lra.
Qed.
Lemma taylor_left : forall f n M x w d, smooth f (S n) M x w -> 0 < d -> d < w -> Rabs (f (x - d) - taylor f n x (- d)) <= M * (d ^ S n / INR (fact (S n))).
Proof.
  intros f n M x w d S D W. pose proof (smooth_opp f (Datatypes.S n) M x w d S W) as S'. pose proof (taylor_right _ n M (- x) d d S' D (Rle_refl d)) as H. cbv beta in H. replace (- (- x + d)) with (x - d) in H by ring. replace (taylor f n x (- d)) with (taylor (fun t => f (- t)) n (- x) d); [assumption|].
  apply sum_eq. intros m Hm. rewrite Derive_n_comp_opp. 2: { apply (filter_imp (fun y => forall k, (k <= Datatypes.S n)%nat -> ex_derive_n f k y)); [intros y Hy k Hk; apply Hy; lia|]. apply (near f (Datatypes.S n) M x w); [assumption|]. rewrite Ropp_involutive. replace (x - x) with 0 by ring. rewrite Rabs_R0. lra. }
  rewrite Ropp_involutive. replace (- d) with (-1 * d) by ring. rewrite Rpow_mult_distr. unfold Rdiv. ring.
Qed.
Lemma taylor_both : forall f n M x w d, smooth f (S n) M x w -> Rabs d < w -> d <> 0 -> Rabs (f (x + d) - taylor f n x d) <= M * (Rabs d ^ S n / INR (fact (S n))).
Proof.
  intros f n M x w d S W N. destruct (Rlt_dec 0 d) as [P|P].
  - rewrite (Rabs_pos_eq d) in * by lra. apply taylor_right with w; [assumption|assumption|lra].
  - rewrite (Rabs_left d) in * by lra. replace (x + d) with (x - - d) by ring. replace d with (- - d) at 2 by ring. apply taylor_left with w; [assumption|lra|assumption].
Qed.

Lemma facts : INR (fact 0) = 1 /\ INR (fact 1) = 1 /\ INR (fact 2) = 2 /\ INR (fact 3) = 6 /\ INR (fact 4) = 24 /\ INR (fact 5) = 120 /\ INR (fact 6) = 720 /\ INR (fact 7) = 5040.
Proof. rewrite !INR_IZR_INZ. repeat split; apply f_equal; vm_compute; reflexivity. Qed.

Lemma error_1 : forall f M x h w, smooth f 5 M x w -> 0 < h -> 2 * h < w ->
  exists d, centered_diff 1 4 f x h = Val d /\ Rabs (d - Derive_n f 1 x) <= (1 / 18) * h ^ 4 * M.
Proof.
  intros f M x h w S H W. eexists. split; [reflexivity|]. cbn [diff_sum]. change (Z.to_nat 1) with 1%nat.
  pose proof (taylor_both f 4 M x w ((-2) * h) S ltac:(rewrite Rabs_mult, (Rabs_pos_eq h) by lra; rewrite Rabs_left by lra; lra) ltac:(lra)) as E0. rewrite Rabs_mult, (Rabs_pos_eq h), (Rabs_left (-2)) in E0 by lra. apply Rabs_le_between in E0.
  pose proof (taylor_both f 4 M x w ((-1) * h) S ltac:(rewrite Rabs_mult, (Rabs_pos_eq h) by lra; rewrite Rabs_left by lra; lra) ltac:(lra)) as E1. rewrite Rabs_mult, (Rabs_pos_eq h), (Rabs_left (-1)) in E1 by lra. apply Rabs_le_between in E1.
  pose proof (taylor_both f 4 M x w (1 * h) S ltac:(rewrite Rabs_mult, (Rabs_pos_eq h) by lra; rewrite Rabs_pos_eq by lra; lra) ltac:(lra)) as E2. rewrite Rabs_mult, (Rabs_pos_eq h), (Rabs_pos_eq 1) in E2 by lra. apply Rabs_le_between in E2.
  pose proof (taylor_both f 4 M x w (2 * h) S ltac:(rewrite Rabs_mult, (Rabs_pos_eq h) by lra; rewrite Rabs_pos_eq by lra; lra) ltac:(lra)) as E3. rewrite Rabs_mult, (Rabs_pos_eq h), (Rabs_pos_eq 2) in E3 by lra. apply Rabs_le_between in E3.
  assert (F : 0 < h ^ 1) by now apply pow_lt. assert (X0 : x + h * 0 = x) by ring. rewrite ?X0. replace (x + h * (-2)) with (x + (-2) * h) by ring. replace (x + h * (-1)) with (x + (-1) * h) by ring. replace (x + h * 1) with (x + 1 * h) by ring. replace (x + h * 2) with (x + 2 * h) by ring.
  assert (MP : 0 <= M) by (pose proof (proj2 (S x ltac:(unfold Rminus; rewrite Rplus_opp_r, Rabs_R0; lra))) as Q; pose proof (Rabs_pos (Derive_n f 5 x)); lra). assert (MH : 0 <= h ^ 5 * M) by (apply Rmult_le_pos; [left; now apply pow_lt|assumption]).
  destruct facts as (F0 & F1 & F2 & F3 & F4 & F5 & F6 & F7). unfold taylor in *. cbn [sum_f_R0] in *. rewrite ?F0, ?F1, ?F2, ?F3, ?F4, ?F5, ?F6, ?F7 in *. change (Derive_n f 0 x) with (f x) in *. set (g0 := f (x + (-2) * h)) in *. set (g1 := f (x + (-1) * h)) in *. set (g2 := f (x + 1 * h)) in *. set (g3 := f (x + 2 * h)) in *. set (D1 := Derive_n f 1 x) in *. set (D2 := Derive_n f 2 x) in *. set (D3 := Derive_n f 3 x) in *. set (D4 := Derive_n f 4 x) in *. set (f0 := f x) in *. clear S X0 F0 F1 F2 F3 F4 F5 F6 F7.
  match goal with |- Rabs (?a / ?b - ?c) <= ?e => assert (G : Rabs (a - c * b) <= e * b) end.
  - clear F. apply Rabs_le. clearbody g0 g1 g2 g3 D1 D2 D3 D4 f0. split; lra.
  - match goal with |- Rabs (?a / ?b - ?c) <= ?e => replace (a / b - c) with ((a - c * b) * / b) by (field; lra) end. rewrite Rabs_mult, (Rabs_pos_eq (/ _)) by (left; now apply Rinv_0_lt_compat). apply Rmult_le_reg_r with (h ^ 1); [assumption|]. rewrite Rmult_assoc, Rinv_l, Rmult_1_r by lra. exact G.
Qed.

Lemma error_2 : forall f M x h w, smooth f 6 M x w -> 0 < h -> 2 * h < w ->
  exists d, centered_diff 2 4 f x h = Val d /\ Rabs (d - Derive_n f 2 x) <= (1 / 54) * h ^ 4 * M.
Proof.
  intros f M x h w S H W. eexists. split; [reflexivity|]. cbn [diff_sum]. change (Z.to_nat 2) with 2%nat.
  pose proof (taylor_both f 5 M x w ((-2) * h) S ltac:(rewrite Rabs_mult, (Rabs_pos_eq h) by lra; rewrite Rabs_left by lra; lra) ltac:(lra)) as E0. rewrite Rabs_mult, (Rabs_pos_eq h), (Rabs_left (-2)) in E0 by lra. apply Rabs_le_between in E0.
  pose proof (taylor_both f 5 M x w ((-1) * h) S ltac:(rewrite Rabs_mult, (Rabs_pos_eq h) by lra; rewrite Rabs_left by lra; lra) ltac:(lra)) as E1. rewrite Rabs_mult, (Rabs_pos_eq h), (Rabs_left (-1)) in E1 by lra. apply Rabs_le_between in E1.
  pose proof (taylor_both f 5 M x w (1 * h) S ltac:(rewrite Rabs_mult, (Rabs_pos_eq h) by lra; rewrite Rabs_pos_eq by lra; lra) ltac:(lra)) as E3. rewrite Rabs_mult, (Rabs_pos_eq h), (Rabs_pos_eq 1) in E3 by lra. apply Rabs_le_between in E3.
  pose proof (taylor_both f 5 M x w (2 * h) S ltac:(rewrite Rabs_mult, (Rabs_pos_eq h) by lra; rewrite Rabs_pos_eq by lra; lra) ltac:(lra)) as E4. rewrite Rabs_mult, (Rabs_pos_eq h), (Rabs_pos_eq 2) in E4 by lra. apply Rabs_le_between in E4.
  assert (F : 0 < h ^ 2) by now apply pow_lt. assert (X0 : x + h * 0 = x) by ring. rewrite ?X0. replace (x + h * (-2)) with (x + (-2) * h) by ring. replace (x + h * (-1)) with (x + (-1) * h) by ring. replace (x + h * 1) with (x + 1 * h) by ring. replace (x + h * 2) with (x + 2 * h) by ring.
  assert (MP : 0 <= M) by (pose proof (proj2 (S x ltac:(unfold Rminus; rewrite Rplus_opp_r, Rabs_R0; lra))) as Q; pose proof (Rabs_pos (Derive_n f 6 x)); lra). assert (MH : 0 <= h ^ 6 * M) by (apply Rmult_le_pos; [left; now apply pow_lt|assumption]).
  destruct facts as (F0 & F1 & F2 & F3 & F4 & F5 & F6 & F7). unfold taylor in *. cbn [sum_f_R0] in *. rewrite ?F0, ?F1, ?F2, ?F3, ?F4, ?F5, ?F6, ?F7 in *. change (Derive_n f 0 x) with (f x) in *. set (g0 := f (x + (-2) * h)) in *. set (g1 := f (x + (-1) * h)) in *. set (g3 := f (x + 1 * h)) in *. set (g4 := f (x + 2 * h)) in *. set (D1 := Derive_n f 1 x) in *. set (D2 := Derive_n f 2 x) in *. set (D3 := Derive_n f 3 x) in *. set (D4 := Derive_n f 4 x) in *. set (D5 := Derive_n f 5 x) in *. set (f0 := f x) in *. clear S X0 F0 F1 F2 F3 F4 F5 F6 F7.
  match goal with |- Rabs (?a / ?b - ?c) <= ?e => assert (G : Rabs (a - c * b) <= e * b) end.
  - clear F. apply Rabs_le. clearbody g0 g1 g3 g4 D1 D2 D3 D4 D5 f0. split; lra.
  - match goal with |- Rabs (?a / ?b - ?c) <= ?e => replace (a / b - c) with ((a - c * b) * / b) by (field; lra) end. rewrite Rabs_mult, (Rabs_pos_eq (/ _)) by (left; now apply Rinv_0_lt_compat). apply Rmult_le_reg_r with (h ^ 2); [assumption|]. rewrite Rmult_assoc, Rinv_l, Rmult_1_r by lra. exact G.
Qed.

Lemma error_3 : forall f M x h w, smooth f 7 M x w -> 0 < h -> 3 * h < w ->
  exists d, centered_diff 3 4 f x h = Val d /\ Rabs (d - Derive_n f 3 x) <= (4 / 25) * h ^ 4 * M.
Proof.
  intros f M x h w S H W. eexists. split; [reflexivity|]. cbn [diff_sum]. change (Z.to_nat 3) with 3%nat.
  pose proof (taylor_both f 6 M x w ((-3) * h) S ltac:(rewrite Rabs_mult, (Rabs_pos_eq h) by lra; rewrite Rabs_left by lra; lra) ltac:(lra)) as E0. rewrite Rabs_mult, (Rabs_pos_eq h), (Rabs_left (-3)) in E0 by lra. apply Rabs_le_between in E0.
  pose proof (taylor_both f 6 M x w ((-2) * h) S ltac:(rewrite Rabs_mult, (Rabs_pos_eq h) by lra; rewrite Rabs_left by lra; lra) ltac:(lra)) as E1. rewrite Rabs_mult, (Rabs_pos_eq h), (Rabs_left (-2)) in E1 by lra. apply Rabs_le_between in E1.
  pose proof (taylor_both f 6 M x w ((-1) * h) S ltac:(rewrite Rabs_mult, (Rabs_pos_eq h) by lra; rewrite Rabs_left by lra; lra) ltac:(lra)) as E2. rewrite Rabs_mult, (Rabs_pos_eq h), (Rabs_left (-1)) in E2 by lra. apply Rabs_le_between in E2.
  pose proof (taylor_both f 6 M x w (1 * h) S ltac:(rewrite Rabs_mult, (Rabs_pos_eq h) by lra; rewrite Rabs_pos_eq by lra; lra) ltac:(lra)) as E4. rewrite Rabs_mult, (Rabs_pos_eq h), (Rabs_pos_eq 1) in E4 by lra. apply Rabs_le_between in E4.
  pose proof (taylor_both f 6 M x w (2 * h) S ltac:(rewrite Rabs_mult, (Rabs_pos_eq h) by lra; rewrite Rabs_pos_eq by lra; lra) ltac:(lra)) as E5. rewrite Rabs_mult, (Rabs_pos_eq h), (Rabs_pos_eq 2) in E5 by lra. apply Rabs_le_between in E5.
  pose proof (taylor_both f 6 M x w (3 * h) S ltac:(rewrite Rabs_mult, (Rabs_pos_eq h) by lra; rewrite Rabs_pos_eq by lra; lra) ltac:(lra)) as E6. rewrite Rabs_mult, (Rabs_pos_eq h), (Rabs_pos_eq 3) in E6 by lra. apply Rabs_le_between in E6.
  assert (F : 0 < h ^ 3) by now apply pow_lt. assert (X0 : x + h * 0 = x) by ring. rewrite ?X0. replace (x + h * (-3)) with (x + (-3) * h) by ring. replace (x + h * (-2)) with (x + (-2) * h) by ring. replace (x + h * (-1)) with (x + (-1) * h) by ring. replace (x + h * 1) with (x + 1 * h) by ring. replace (x + h * 2) with (x + 2 * h) by ring. replace (x + h * 3) with (x + 3 * h) by ring.
  assert (MP : 0 <= M) by (pose proof (proj2 (S x ltac:(unfold Rminus; rewrite Rplus_opp_r, Rabs_R0; lra))) as Q; pose proof (Rabs_pos (Derive_n f 7 x)); lra). assert (MH : 0 <= h ^ 7 * M) by (apply Rmult_le_pos; [left; now apply pow_lt|assumption]).
  destruct facts as (F0 & F1 & F2 & F3 & F4 & F5 & F6 & F7). unfold taylor in *. cbn [sum_f_R0] in *. rewrite ?F0, ?F1, ?F2, ?F3, ?F4, ?F5, ?F6, ?F7 in *. change (Derive_n f 0 x) with (f x) in *. set (g0 := f (x + (-3) * h)) in *. set (g1 := f (x + (-2) * h)) in *. set (g2 := f (x + (-1) * h)) in *. set (g4 := f (x + 1 * h)) in *. set (g5 := f (x + 2 * h)) in *. set (g6 := f (x + 3 * h)) in *. set (D1 := Derive_n f 1 x) in *. set (D2 := Derive_n f 2 x) in *. set (D3 := Derive_n f 3 x) in *. set (D4 := Derive_n f 4 x) in *. set (D5 := Derive_n f 5 x) in *. set (D6 := Derive_n f 6 x) in *. set (f0 := f x) in *. clear S X0 F0 F1 F2 F3 F4 F5 F6 F7.
  match goal with |- Rabs (?a / ?b - ?c) <= ?e => assert (G : Rabs (a - c * b) <= e * b) end.
  - clear F. apply Rabs_le. clearbody g0 g1 g2 g4 g5 g6 D1 D2 D3 D4 D5 D6 f0. split; lra.
  - match goal with |- Rabs (?a / ?b - ?c) <= ?e => replace (a / b - c) with ((a - c * b) * / b) by (field; lra) end. rewrite Rabs_mult, (Rabs_pos_eq (/ _)) by (left; now apply Rinv_0_lt_compat). apply Rmult_le_reg_r with (h ^ 3); [assumption|]. rewrite Rmult_assoc, Rinv_l, Rmult_1_r by lra. exact G.
Qed.
