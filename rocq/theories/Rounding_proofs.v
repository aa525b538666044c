(** Proofs about integer powers in binary64 arithmetic. *)
From Coq Require Import Reals ZArith Bool Lia Lra Psatz.
From Flocq Require Import Core BinarySingleNaN Binary Bits Relative.
From Verif Require Import Util_model Rounding_model Rounding_spec.
Local Open Scope R_scope.

Definition u : R := / 2 ^ 53.
Lemma u_pos : 0 < u. Proof. unfold u. apply Rinv_0_lt_compat. apply pow_lt. lra. Qed.
Lemma bpow_nat : forall k : nat, bpow radix2 (Z.of_nat k) = 2 ^ k.
Proof. intros k. rewrite bpow_powerRZ. rewrite <- pow_powerRZ. reflexivity. Qed.
Lemma bpow_neg : forall k : nat, bpow radix2 (- Z.of_nat k) = / 2 ^ k.
Proof. intros k. rewrite bpow_opp, bpow_nat. reflexivity. Qed.
Definition rnd (p : R) : R := round radix2 (SpecFloat.fexp 53 1024) (BinarySingleNaN.round_mode mode_NE) p.
Lemma rnd_error : forall p, / 2 ^ 1010 <= Rabs p -> Rabs (rnd p - p) <= u * Rabs p.
Proof.
  intros p H. unfold rnd. change (SpecFloat.fexp 53 1024) with (FLT_exp (-1074) 53). cbn [BinarySingleNaN.round_mode].
  assert (E := relative_error_N_FLT radix2 (-1074) 53 ltac:(lia) (fun x => negb (Z.even x)) p).
  assert (B : bpow radix2 (-1074 + 53 - 1) <= Rabs p).
  { eapply Rle_trans; [|exact H]. change (-1074 + 53 - 1)%Z with (- Z.of_nat 1022)%Z. rewrite bpow_neg.
    apply Rinv_le_contravar; [apply pow_lt; lra|apply Rle_pow; [lra|lia]]. }
  specialize (E B). replace u with (/ 2 * bpow radix2 (- 53 + 1)); [exact E|].
  change (- 53 + 1)%Z with (- Z.of_nat 52)%Z. rewrite bpow_neg. unfold u. rewrite <- Rinv_mult. f_equal.
Qed.
Lemma small_error : forall d, d <= 1 -> 0 <= d -> 1 + d <= 2. Proof. intros. lra. Qed.
Lemma rnd_below : forall p, / 2 ^ 1010 <= Rabs p <= 2 ^ 1010 -> Rabs (rnd p) < bpow radix2 1024.
Proof.
  intros p [H1 H2]. assert (E := rnd_error p H1). assert (U : u <= 1).
  { unfold u. rewrite <- Rinv_1. apply Rinv_le_contravar; [lra|apply pow_R1_Rle; lra]. }
  change 1024%Z with (Z.of_nat 1024). rewrite bpow_nat.
  assert (T : Rabs (rnd p) <= 2 * Rabs p).
  { replace (rnd p) with ((rnd p - p) + p) by ring. eapply Rle_trans; [apply Rabs_triang|]. assert (P := Rabs_pos p). nra. }
  eapply Rle_lt_trans; [exact T|]. eapply Rle_lt_trans; [apply Rmult_le_compat_l; [lra|exact H2]|].
  rewrite tech_pow_Rmult. apply Rlt_pow; [lra|lia].
Qed.
Lemma mult_correct : forall x y, finite x -> finite y -> / 2 ^ 1010 <= Rabs (real x * real y) <= 2 ^ 1010 ->
  finite (fmult x y) /\ Rabs (real (fmult x y) - real x * real y) <= u * Rabs (real x * real y).
Proof.
  intros x y Fx Fy H. assert (C := Bmult_correct 53 1024 (eq_refl _) (eq_refl _) binop_nan_pl64 mode_NE x y).
  fold (rnd (B2R 53 1024 x * B2R 53 1024 y)) in C. fold (real x) in C. fold (real y) in C.
  rewrite Rlt_bool_true in C by (apply rnd_below; exact H). destruct C as [C1 [C2 _]].
  unfold finite in *. split.
  - rewrite Fx, Fy in C2. exact C2.
  - change (real (fmult x y)) with (B2R 53 1024 (Bmult 53 1024 (eq_refl _) (eq_refl _) binop_nan_pl64 mode_NE x y)). rewrite C1. apply rnd_error. apply H.
Qed.
Lemma div_correct : forall x y, finite x -> real y <> 0 -> / 2 ^ 1010 <= Rabs (real x / real y) <= 2 ^ 1010 ->
  finite (fdiv x y) /\ Rabs (real (fdiv x y) - real x / real y) <= u * Rabs (real x / real y).
Proof.
  intros x y Fx Hy H. assert (C := Bdiv_correct 53 1024 (eq_refl _) (eq_refl _) binop_nan_pl64 mode_NE x y Hy).
  fold (rnd (B2R 53 1024 x / B2R 53 1024 y)) in C. fold (real x) in C. fold (real y) in C.
  rewrite Rlt_bool_true in C by (apply rnd_below; exact H). destruct C as [C1 [C2 _]].
  unfold finite in *. split.
  - rewrite Fx in C2. exact C2.
  - change (real (fdiv x y)) with (B2R 53 1024 (Bdiv 53 1024 (eq_refl _) (eq_refl _) binop_nan_pl64 mode_NE x y)). rewrite C1. apply rnd_error. apply H.
Qed.
Lemma f1_real : real f1 = 1. Proof. apply Bone_correct. Qed.
Lemma f1_finite : finite f1. Proof. reflexivity. Qed.

(** * Accumulated relative errors *)
Definition near (k : nat) (v t : R) : Prop := Rabs (v - t) <= ((1 + u) ^ k - 1) * Rabs t.
Lemma grow : forall k, 1 <= (1 + u) ^ k. Proof. intros k. apply pow_R1_Rle. pose proof u_pos. lra. Qed.
Lemma near_mult : forall j k v w s t, near j v s -> near k w t -> near (j + k) (v * w) (s * t).
Proof.
  intros j k v w s t H1 H2. unfold near in *. rewrite pow_add. pose proof (grow j) as G1. pose proof (grow k) as G2.
  replace (v * w - s * t) with ((v - s) * (w - t) + (v - s) * t + s * (w - t)) by ring.
  eapply Rle_trans; [apply Rabs_triang|]. eapply Rle_trans; [apply Rplus_le_compat_r; apply Rabs_triang|]. rewrite !Rabs_mult.
  pose proof (Rabs_pos s) as P1. pose proof (Rabs_pos t) as P2. pose proof (Rabs_pos (v - s)) as P3. pose proof (Rabs_pos (w - t)) as P4.
  set (a := (1 + u) ^ j - 1) in *. set (b := (1 + u) ^ k - 1) in *.
  replace ((1 + u) ^ j * (1 + u) ^ k - 1) with (a * b + a + b) by (unfold a, b; ring).
  assert (0 <= a) by (unfold a; lra). assert (0 <= b) by (unfold b; lra).
  assert (Q1 : Rabs (v - s) * Rabs (w - t) <= (a * Rabs s) * (b * Rabs t)) by (apply Rmult_le_compat; auto).
  assert (Q2 : Rabs (v - s) * Rabs t <= (a * Rabs s) * Rabs t) by (apply Rmult_le_compat_r; auto).
  assert (Q3 : Rabs s * Rabs (w - t) <= Rabs s * (b * Rabs t)) by (apply Rmult_le_compat_l; auto).
  lra.
Qed.
Lemma near_round : forall k r p t, Rabs (r - p) <= u * Rabs p -> near k p t -> near (S k) r t.
Proof.
  intros k r p t H1 H2. unfold near in *. cbn [pow]. pose proof (grow k) as G. pose proof u_pos as U.
  replace (r - t) with ((r - p) + (p - t)) by ring. eapply Rle_trans; [apply Rabs_triang|].
  assert (Q : Rabs p <= (1 + u) ^ k * Rabs t).
  { replace p with ((p - t) + t) by ring. eapply Rle_trans; [apply Rabs_triang|]. lra. }
  assert (u * Rabs p <= u * ((1 + u) ^ k * Rabs t)) by (apply Rmult_le_compat_l; lra). lra.
Qed.
Lemma pow_exp : forall k, (1 + u) ^ k <= exp (INR k * u).
Proof.
  induction k as [|k IH]; [simpl; rewrite Rmult_0_l, exp_0; lra|]. rewrite S_INR, Rmult_plus_distr_r, Rmult_1_l, exp_plus. cbn [pow].
  rewrite Rmult_comm. pose proof (grow k). apply Rmult_le_compat; try lra. - pose proof u_pos. lra. - apply exp_ineq1_le.
Qed.
Lemma error_linear : forall k, INR k <= 2 ^ 40 -> (1 + u) ^ k - 1 <= INR k * / 2 ^ 52.
Proof.
  intros k H. set (y := INR k * u). pose proof u_pos as U. pose proof (pos_INR k) as K.
  assert (Y : 0 <= y <= 1 / 2).
  { unfold y, u. split; [apply Rmult_le_pos; [auto|left; exact U]|].
    apply Rmult_le_reg_r with (2 ^ 53); [apply pow_lt; lra|]. rewrite Rmult_assoc, Rinv_l by (apply pow_nonzero; lra).
    rewrite Rmult_1_r. eapply Rle_trans; [exact H|]. replace (1 / 2 * 2 ^ 53) with (2 ^ 52) by (rewrite <- (tech_pow_Rmult 2 52); field). apply Rle_pow; [lra|lia]. }
  assert (E : exp y <= 1 + 2 * y).
  { assert (Q : exp y * exp (- y) = 1) by (rewrite <- exp_plus, <- exp_0; f_equal; ring).
    assert (L := exp_ineq1_le (- y)). assert (P := exp_pos y). nra. }
  assert (G := pow_exp k). fold y in G. replace (/ 2 ^ 52) with (2 * u).
  - unfold y in *. lra.
  - unfold u. rewrite <- (tech_pow_Rmult 2 52), Rinv_mult. field.
Qed.

(** * Powers *)
Definition good (c : nat) (t : R) (v : binary64) (m : nat) : Prop := finite v /\ near (m * (c + 1) - 1) (real v) (t ^ m).
Lemma moderate_below : forall t N m, (1 <= m <= N)%nat -> moderate (t ^ N) -> moderate (t ^ m).
Proof.
  intros t N m Hm [H1 H2]. unfold moderate. rewrite <- RPow_abs in *. set (a := Rabs t) in *. assert (A : 0 <= a) by apply Rabs_pos.
  assert (B : 1 <= 2 ^ 1000) by (apply pow_R1_Rle; lra).
  assert (B' : / 2 ^ 1000 <= 1) by (rewrite <- Rinv_1; apply Rinv_le_contravar; lra).
  destruct (Rle_lt_dec 1 a) as [L|L].
  - split.
    + eapply Rle_trans; [exact B'|apply pow_R1_Rle; auto].
    + eapply Rle_trans; [|exact H2]. apply Rle_pow; [auto|lia].
  - assert (D : a ^ N <= a ^ m).
    { replace N with (m + (N - m))%nat by lia. rewrite pow_add. rewrite <- (Rmult_1_r (a ^ m)) at 2. apply Rmult_le_compat_l; [apply pow_le; auto|].
      rewrite <- (pow1 (N - m)). apply pow_incr. lra. }
    split; [lra|]. eapply Rle_trans; [|exact B]. rewrite <- (pow1 m). apply pow_incr. lra.
Qed.
Lemma good_mult : forall c t N v w j k, (c <= 1)%nat -> (1 <= j)%nat -> (1 <= k)%nat -> (j + k <= N)%nat -> INR N <= 2 ^ 31 -> moderate (t ^ N) ->
  good c t v j -> good c t w k -> good c t (fmult v w) (j + k).
Proof.
  intros c t N v w j k Hc Hj Hk HN HI HM [F1 G1] [F2 G2]. assert (M := moderate_below t N (j + k) ltac:(lia) HM).
  assert (P := near_mult _ _ _ _ _ _ G1 G2). rewrite <- pow_add in P. set (e := (j * (c + 1) - 1 + (k * (c + 1) - 1))%nat) in *.
  assert (E : (1 + u) ^ e - 1 <= 1 / 2).
  { assert (Q : INR e <= 2 ^ 32).
    { eapply Rle_trans; [apply le_INR with (m := (2 * N)%nat); unfold e; nia|]. rewrite mult_INR. replace (INR 2) with 2 by (simpl; ring).
      rewrite <- (tech_pow_Rmult 2 31). lra. }
    assert (Q' : INR e <= 2 ^ 40) by (eapply Rle_trans; [exact Q|apply Rle_pow; [lra|lia]]).
    eapply Rle_trans; [apply error_linear; exact Q'|]. apply Rmult_le_reg_r with (2 ^ 52); [apply pow_lt; lra|].
    rewrite Rmult_assoc, Rinv_l by (apply pow_nonzero; lra). rewrite Rmult_1_r. eapply Rle_trans; [exact Q|].
    rewrite <- (tech_pow_Rmult 2 51). replace (1 / 2 * (2 * 2 ^ 51)) with (2 ^ 51) by field. apply Rle_pow; [lra|lia]. }
  set (p := real v * real w) in *. set (s := t ^ (j + k)) in *. unfold near in P. pose proof (Rabs_pos s) as S0.
  assert (P' : Rabs (p - s) <= 1 / 2 * Rabs s) by (eapply Rle_trans; [exact P|apply Rmult_le_compat_r; auto]).
  assert (R1 : Rabs p <= 2 * Rabs s) by (replace p with ((p - s) + s) by ring; eapply Rle_trans; [apply Rabs_triang|]; lra).
  assert (R2 : / 2 * Rabs s <= Rabs p).
  { assert (Q : Rabs s <= Rabs (p - s) + Rabs p) by (rewrite <- (Rabs_Ropp (p - s)); replace s with (- (p - s) + p) at 1 by ring; apply Rabs_triang). lra. }
  destruct M as [M1 M2]. assert (Z : / 2 ^ 1010 <= Rabs p <= 2 ^ 1010).
  { split.
    - eapply Rle_trans; [|exact R2]. eapply Rle_trans; [|apply Rmult_le_compat_l; [lra|exact M1]]. rewrite <- Rinv_mult.
      rewrite tech_pow_Rmult. apply Rinv_le_contravar; [apply pow_lt; lra|apply Rle_pow; [lra|lia]].
    - eapply Rle_trans; [exact R1|]. eapply Rle_trans; [apply Rmult_le_compat_l; [lra|exact M2]|]. rewrite tech_pow_Rmult. apply Rle_pow; [lra|lia]. }
  destruct (mult_correct v w F1 F2 Z) as [F E']. split; [exact F|]. fold p in E'.
  replace ((j + k) * (c + 1) - 1)%nat with (S e) by (unfold e; nia). eapply near_round; [exact E'|exact P].
Qed.
Lemma loop_good : forall c t N, (c <= 1)%nat -> INR N <= 2 ^ 31 -> moderate (t ^ N) ->
  forall fuel n a b y xp, (1 <= a)%nat -> (1 <= b)%nat -> (a + b * n = N)%nat -> (n < fuel)%nat -> good c t y a -> ((0 < n)%nat -> good c t xp b) ->
  exists v, fpowi_loop fuel (Z.of_nat n) y xp = Some v /\ good c t v N.
Proof.
  intros c t N Hc HI HM. induction fuel as [|fuel IH]; intros n a b y xp Ha Hb E Hf Gy Gx; [lia|]. cbn [fpowi_loop].
  destruct (0 <? Z.of_nat n)%Z eqn:L.
  - apply Z.ltb_lt in L. assert (Hn : (0 < n)%nat) by lia. specialize (Gx Hn).
    assert (Sq : forall m, (0 < m)%nat -> (a + b * (2 * m) <= N)%nat -> good c t (fmult xp xp) (b + b)).
    { intros m Hm Hle. apply (good_mult c t N); auto. nia. }
    destruct (Nat.Even_or_Odd n) as [[m Hm]|[m Hm]].
    + replace (Z.rem (Z.of_nat n) 2) with 0%Z by (rewrite Hm, Nat2Z.inj_mul, Z.mul_comm; symmetry; apply Z.rem_mul; lia).
      cbn [Z.eqb]. replace (Z.quot (Z.of_nat n) 2) with (Z.of_nat m) by (rewrite Hm, Nat2Z.inj_mul, Z.mul_comm; symmetry; apply Z.quot_mul; lia).
      apply (IH m a (b + b)%nat); auto; try lia; try nia. intros Hm0. apply (Sq m); auto. nia.
    + replace (Z.rem (Z.of_nat n) 2) with 1%Z.
      2:{ rewrite Z.rem_mod_nonneg by lia. rewrite Hm, Nat2Z.inj_add, Nat2Z.inj_mul. rewrite Z.add_comm, Z.mul_comm, Z_mod_plus_full. reflexivity. }
      cbn [Z.eqb Pos.eqb]. replace (Z.quot (Z.of_nat n - 1) 2) with (Z.of_nat m).
      2:{ replace (Z.of_nat n - 1)%Z with (Z.of_nat m * 2)%Z by lia. symmetry. apply Z.quot_mul. lia. }
      apply (IH m (a + b)%nat (b + b)%nat); auto; try lia; try nia.
      * apply (good_mult c t N); auto. nia.
      * intros Hm0. apply (Sq m); auto. nia.
  - apply Z.ltb_ge in L. assert (n = 0)%nat by lia. subst n. exists y. split; [reflexivity|]. replace N with a by lia. exact Gy.
Qed.
Lemma nonneg_good : forall c t N x, (c <= 1)%nat -> (1 <= N)%nat -> INR N <= 2 ^ 31 -> moderate (t ^ N) -> good c t x 1 ->
  exists v, fpowi_nonneg x (Z.of_nat N) = Some v /\ good c t v N.
Proof.
  intros c t N x Hc HN HI HM G.
  assert (D : N = 1%nat \/ N = 2%nat \/ N = 3%nat \/ N = 4%nat \/ (5 <= N)%nat) by lia.
  destruct D as [-> | [-> | [-> | [-> | D]]]].
  - exists x. split; [reflexivity|exact G].
  - eexists. split; [reflexivity|]. apply (good_mult c t 2 x x 1 1); auto.
  - eexists. split; [reflexivity|]. apply (good_mult c t 3 _ x 2 1); auto. apply (good_mult c t 3 x x 1 1); auto.
  - eexists. split; [reflexivity|]. apply (good_mult c t 4 _ _ 2 2); auto; apply (good_mult c t 4 x x 1 1); auto.
  - destruct (loop_good c t N Hc HI HM N (N - 1) 1 1 x x) as [v [V1 V2]]; auto; try lia.
    exists v. split; [|exact V2]. rewrite <- V1. unfold fpowi_nonneg.
    replace (Z.to_nat (Z.of_nat N)) with N by lia. replace (Z.of_nat (N - 1)) with (Z.of_nat N - 1)%Z by lia.
    destruct (Z.of_nat N) as [|[[[]|[]|]|[[]|[]|]|]|] eqn:Q; try reflexivity; lia.
Qed.
Lemma good_start : forall x, finite x -> good 0 (real x) x 1.
Proof. intros x F. split; [exact F|]. unfold near. simpl. rewrite Rmult_1_r, Rminus_diag_eq by reflexivity. rewrite Rabs_R0. rewrite Rminus_diag_eq by reflexivity. lra. Qed.
Lemma good_inverse : forall x, real x <> 0 -> moderate (/ real x) -> good 1 (/ real x) (fdiv f1 x) 1.
Proof.
  intros x Hx [M1 M2]. assert (Q : real f1 / real x = / real x) by (rewrite f1_real; unfold Rdiv; ring).
  destruct (div_correct f1 x f1_finite Hx) as [F E].
  - rewrite Q. split.
    + eapply Rle_trans; [|exact M1]. apply Rinv_le_contravar; [apply pow_lt; lra|apply Rle_pow; [lra|lia]].
    + eapply Rle_trans; [exact M2|]. apply Rle_pow; [lra|lia].
  - rewrite Q in E. split; [exact F|]. unfold near. cbn [Nat.mul Nat.add Nat.sub]. rewrite !pow_1. replace (1 + u - 1) with u by ring. exact E.
Qed.
Lemma good_within : forall c t v m, (c <= 1)%nat -> INR m <= 2 ^ 31 -> good c t v m -> within (INR (m * (c + 1) - 1)) v (t ^ m).
Proof.
  intros c t v m Hc Hm [F G]. split; [exact F|]. eapply Rle_trans; [exact G|]. apply Rmult_le_compat_r; [apply Rabs_pos|]. apply error_linear.
  eapply Rle_trans; [apply le_INR with (m := (2 * m)%nat); nia|]. rewrite mult_INR. replace (INR 2) with 2 by (simpl; ring).
  eapply Rle_trans; [apply Rmult_le_compat_l; [lra|exact Hm]|]. rewrite tech_pow_Rmult. apply Rle_pow; [lra|lia].
Qed.
Lemma INR_bound : forall n, (n < 2 ^ 31)%Z -> (0 <= n)%Z -> INR (Z.to_nat n) <= 2 ^ 31.
Proof. intros n H1 H0. rewrite INR_IZR_INZ, Z2Nat.id by lia. rewrite (pow_IZR 2 31). apply IZR_le. change (Z.of_nat 31) with 31%Z. lia. Qed.
Theorem powi_positive : forall x n, finite x -> (1 <= n < 2 ^ 31)%Z -> moderate (real x ^ Z.to_nat n) ->
  exists v, fpowi x n = Some v /\ within (IZR (n - 1)) v (real x ^ Z.to_nat n).
Proof.
  intros x n F [H1 H2] M. assert (B := INR_bound n H2 ltac:(lia)).
  destruct (nonneg_good 0 (real x) (Z.to_nat n) x) as [v [V G]]; auto; try lia; [apply good_start; auto|].
  exists v. rewrite Z2Nat.id in V by lia. split.
  - unfold fpowi. replace (n <? 0)%Z with false by (symmetry; apply Z.ltb_ge; lia). exact V.
  - assert (W := good_within 0 _ _ _ ltac:(lia) B G). rewrite INR_IZR_INZ in W. replace (Z.of_nat (Z.to_nat n * (0 + 1) - 1)) with (n - 1)%Z in W by lia. exact W.
Qed.
Theorem powi_negative : forall x n, real x <> 0 -> (1 <= n < 2 ^ 31)%Z -> moderate (/ real x ^ Z.to_nat n) ->
  exists v, fpowi x (- n) = Some v /\ within (IZR (2 * n - 1)) v (/ real x ^ Z.to_nat n).
Proof.
  intros x n Hx [H1 H2] M. assert (B := INR_bound n H2 ltac:(lia)). rewrite <- pow_inv in M |- *.
  destruct (nonneg_good 1 (/ real x) (Z.to_nat n) (fdiv f1 x)) as [v [V G]]; auto; try lia.
  { apply good_inverse; auto. rewrite <- (pow_1 (/ real x)). apply (moderate_below _ (Z.to_nat n)); auto. lia. }
  exists v. rewrite Z2Nat.id in V by lia. split.
  - unfold fpowi. replace (- n <? 0)%Z with true by (symmetry; apply Z.ltb_lt; lia).
    replace (- n =? INT_MIN)%Z with false by (symmetry; apply Z.eqb_neq; unfold INT_MIN; lia). rewrite Z.opp_involutive. exact V.
  - assert (W := good_within 1 _ _ _ ltac:(lia) B G). rewrite INR_IZR_INZ in W. replace (Z.of_nat (Z.to_nat n * (1 + 1) - 1)) with (2 * n - 1)%Z in W by lia. exact W.
Qed.
(** * The unrolled powers *)
Lemma pow_within : forall x f m, finite x -> (2 <= m <= 12)%nat -> moderate (real x ^ m) -> good 0 (real x) (f x) m -> within (INR (m - 1)) (f x) (real x ^ m).
Proof.
  intros x f m F Hm M G. assert (B : INR m <= 2 ^ 31).
  { eapply Rle_trans; [apply le_INR with (m := 12%nat); lia|]. rewrite INR_IZR_INZ, (pow_IZR 2 31). apply IZR_le. vm_compute. discriminate. }
  assert (W := good_within 0 _ _ _ ltac:(lia) B G). replace (m * (0 + 1) - 1)%nat with (m - 1)%nat in W by lia. exact W.
Qed.
Lemma good_unrolled : forall x N, finite x -> (N <= 12)%nat -> moderate (real x ^ N) ->
  ((2 <= N)%nat -> good 0 (real x) (fPOW2 x) 2) /\ ((3 <= N)%nat -> good 0 (real x) (fPOW3 x) 3) /\ ((4 <= N)%nat -> good 0 (real x) (fPOW4 x) 4) /\
  ((5 <= N)%nat -> good 0 (real x) (fPOW5 x) 5) /\ ((7 <= N)%nat -> good 0 (real x) (fPOW7 x) 7) /\ ((8 <= N)%nat -> good 0 (real x) (fPOW8 x) 8) /\
  ((10 <= N)%nat -> good 0 (real x) (fPOW10 x) 10) /\ ((12 <= N)%nat -> good 0 (real x) (fPOW12 x) 12).
Proof.
  intros x N F HN M. assert (B : INR N <= 2 ^ 31).
  { eapply Rle_trans; [apply le_INR with (m := 12%nat); lia|]. rewrite INR_IZR_INZ, (pow_IZR 2 31). apply IZR_le. vm_compute. discriminate. }
  assert (G1 := good_start x F).
  assert (T : forall v w j k, (1 <= j)%nat -> (1 <= k)%nat -> (j + k <= N)%nat -> good 0 (real x) v j -> good 0 (real x) w k -> good 0 (real x) (fmult v w) (j + k)).
  { intros. apply (good_mult 0 (real x) N); auto. }
  assert (A2 : (2 <= N)%nat -> good 0 (real x) (fPOW2 x) 2) by (intros; apply (T x x 1 1)%nat; auto).
  assert (A3 : (3 <= N)%nat -> good 0 (real x) (fPOW3 x) 3) by (intros; apply (T _ x 2 1)%nat; auto; apply A2; lia).
  assert (A4 : (4 <= N)%nat -> good 0 (real x) (fPOW4 x) 4) by (intros; apply (T _ _ 2 2)%nat; auto; apply A2; lia).
  assert (A5 : (5 <= N)%nat -> good 0 (real x) (fPOW5 x) 5) by (intros; apply (T _ _ 2 3)%nat; auto; [apply A2|apply A3]; lia).
  assert (A7 : (7 <= N)%nat -> good 0 (real x) (fPOW7 x) 7) by (intros; apply (T _ _ 2 5)%nat; auto; try lia; [apply A2|apply A5]; lia).
  assert (A8 : (8 <= N)%nat -> good 0 (real x) (fPOW8 x) 8) by (intros; apply (T _ _ 4 4)%nat; auto; try lia; apply A4; lia).
  assert (A10 : (10 <= N)%nat -> good 0 (real x) (fPOW10 x) 10) by (intros; apply (T _ _ 2 8)%nat; auto; try lia; [apply A2|apply A8]; lia).
  assert (A12 : (12 <= N)%nat -> good 0 (real x) (fPOW12 x) 12) by (intros; apply (T _ _ 4 8)%nat; auto; try lia; [apply A4|apply A8]; lia).
  repeat split; auto; (apply A2 || apply A3 || apply A4 || apply A5 || apply A7 || apply A8 || apply A10 || apply A12); auto.
Qed.
(** * Two doubles *)
Definition three : binary64 := b64_of_bits 4613937818241073152.
Definition tenth : binary64 := b64_of_bits 4591870180066957722.
Lemma three_finite : finite three. Proof. reflexivity. Qed.
Lemma tenth_finite : finite tenth. Proof. reflexivity. Qed.
Lemma three_real : real three = 3.
Proof.
  unfold real. assert (E : B2R 53 1024 three = F2R (Float radix2 6755399441055744 (-51))) by reflexivity. rewrite E. unfold F2R. cbn [Fnum Fexp].
  change (-51)%Z with (- Z.of_nat 51)%Z. rewrite bpow_neg. replace 6755399441055744 with (3 * 2 ^ 51).
  - field.
  - rewrite (pow_IZR 2 51), <- mult_IZR. f_equal.
Qed.
Lemma tenth_real : real tenth = 7205759403792794 / 2 ^ 56.
Proof.
  unfold real. assert (E : B2R 53 1024 tenth = F2R (Float radix2 7205759403792794 (-56))) by reflexivity. rewrite E. unfold F2R. cbn [Fnum Fexp].
  change (-56)%Z with (- Z.of_nat 56)%Z. rewrite bpow_neg. reflexivity.
Qed.
Lemma moderate_easy : forall t, / 2 ^ 60 <= Rabs t <= 2 ^ 60 -> moderate t.
Proof.
  intros t [H1 H2]. split.
  - eapply Rle_trans; [|exact H1]. apply Rinv_le_contravar; [apply pow_lt; lra|apply Rle_pow; [lra|lia]].
  - eapply Rle_trans; [exact H2|]. apply Rle_pow; [lra|lia].
Qed.
Lemma two60 : 2 ^ 60 = 1152921504606846976. Proof. rewrite (pow_IZR 2 60). reflexivity. Qed.
Lemma three_seventh : moderate (real three ^ Z.to_nat 7).
Proof. apply moderate_easy. rewrite three_real, two60. replace (3 ^ Z.to_nat 7) with 2187 by (simpl; lra). rewrite Rabs_right by lra. lra. Qed.
Lemma three_inverse : moderate (/ real three ^ Z.to_nat 7).
Proof. apply moderate_easy. rewrite three_real, two60. replace (3 ^ Z.to_nat 7) with 2187 by (simpl; lra). rewrite Rabs_right by lra. lra. Qed.
Lemma tenth_value : real tenth = 7205759403792794 / 72057594037927936.
Proof. rewrite tenth_real. rewrite (pow_IZR 2 56). reflexivity. Qed.
Lemma tenth_squared_moderate : moderate (real tenth ^ Z.to_nat 2).
Proof. apply moderate_easy. rewrite tenth_value, two60. change (Z.to_nat 2) with 2%nat. cbn [pow]. rewrite Rabs_right by lra. lra. Qed.
Lemma tenth_squared : forall v, fpowi tenth 2 = Some v -> real v <> real tenth ^ Z.to_nat 2.
Proof.
  intros v V E. assert (R : real v = 5764607523034236 / 2 ^ 59).
  { assert (Q : option_map real (fpowi tenth 2) = Some (F2R (Float radix2 5764607523034236 (-59)))).
    { unfold fpowi, fpowi_nonneg. cbn [Z.ltb Z.compare option_map]. apply f_equal.
      assert (C : B2FF 53 1024 (fmult tenth tenth) = F754_finite false 5764607523034236 (-59)) by (vm_compute; reflexivity).
      unfold real. rewrite <- FF2R_B2FF, C. reflexivity. }
    rewrite V in Q. injection Q as Q. rewrite Q. unfold F2R. cbn [Fnum Fexp]. change (-59)%Z with (- Z.of_nat 59)%Z. rewrite bpow_neg. reflexivity. }
  rewrite R, tenth_value in E. rewrite (pow_IZR 2 59) in E. change (2 ^ Z.of_nat 59)%Z with 576460752303423488%Z in E. change (Z.to_nat 2) with 2%nat in E. cbn [pow] in E. lra.
Qed.
