(** The damped substitution for two kinds of sites with very strong association: the ratio of the
    two fractions changes only slowly. *)
From Coq Require Import Reals List Lia Lra.
Open Scope R_scope.

(** * The limit on the number of passes *)
Definition k : R := 10 ^ 10.
Definition slow (j : nat) (u v : R) : Prop :=
  0 < v /\ v <= u /\ u <= 1 /\ 1 / 2 <= k * u * v /\ u <= 4 * v /\ (4 - INR j / 1000) * v <= u.
Lemma k_val : k = 10000000000. Proof. unfold k. lra. Qed.
Lemma slow_kv : forall j u v, slow j u v -> 35000 <= k * v.
Proof.
  intros j u v (Hv & Huv & Hu & HP & H4 & _). destruct (Rle_lt_dec 35000 (k * v)) as [L|L]; [exact L|]. exfalso. rewrite k_val in *.
  assert (k * v * (k * v) < 35000 * 35000).
  { rewrite k_val. assert (0 < 10000000000 * v) by lra. apply Rmult_le_0_lt_compat; lra. }
  rewrite k_val in H. nra.
Qed.
Lemma slow_start : slow 0 1 (1 / 4).
Proof. unfold slow. rewrite k_val. cbn [INR]. repeat split; lra. Qed.
Lemma slow_step : forall j u v, (j <= 100)%nat -> slow j u v -> slow (S j) ((u + 1 / (1 + k * v)) / 2) ((v + 1 / (1 + k * u)) / 2).
Proof.
  intros j u v Hj H. pose proof (slow_kv j u v H) as Q. destruct H as (Hv & Huv & Hu & HP & H4 & HR).
  assert (Hk : 0 < k) by (rewrite k_val; lra).
  assert (Hku : k * v <= k * u) by (apply Rmult_le_compat_l; lra).
  set (P := k * u * v) in *. set (a := 1 + k * v). set (b := 1 + k * u).
  assert (Ha : 0 < a) by (unfold a; lra). assert (Hb : 0 < b) by (unfold b; lra).
  assert (EU : (u + 1 / a) / 2 = (u + P + 1) / (2 * a)) by (unfold P, a; field; unfold a in Ha; lra).
  assert (EV : (v + 1 / b) / 2 = (v + P + 1) / (2 * b)) by (unfold P, b; field; unfold b in Hb; lra).
  rewrite EU, EV. set (U := (u + P + 1) / (2 * a)). set (V := (v + P + 1) / (2 * b)).
  assert (HU : U * (2 * a) = u + P + 1) by (unfold U; field; lra). assert (HV : V * (2 * b) = v + P + 1) by (unfold V; field; lra).
  assert (PV : 0 < V) by (unfold V; apply Rdiv_lt_0_compat; lra). assert (PU : 0 < U) by (unfold U; apply Rdiv_lt_0_compat; lra).
  (* the ratio of the fractions never increases *)
  assert (Ea : a * u = u + P) by (unfold a, P; ring). assert (Eb : b * v = v + P) by (unfold b, P; ring).
  assert (R1 : U * v <= V * u).
  { apply Rmult_le_reg_r with (2 * a * b); [apply Rmult_lt_0_compat; lra|].
    replace (U * v * (2 * a * b)) with (U * (2 * a) * (b * v)) by ring. replace (V * u * (2 * a * b)) with (V * (2 * b) * (a * u)) by ring.
    rewrite HU, HV, Ea, Eb. nra. }
  assert (R2 : V * u * (a - 1) <= U * v * a).
  { apply Rmult_le_reg_r with (2 * b); [lra|].
    replace (V * u * (a - 1) * (2 * b)) with (V * (2 * b) * (u * (a - 1))) by ring. replace (U * v * a * (2 * b)) with (U * (2 * a) * (b * v)) by ring.
    rewrite HU, HV, Eb. replace (u * (a - 1)) with P by (unfold a, P; ring). nra. }
  unfold slow. split; [exact PV|].
  assert (VU : V <= U).
  { apply Rmult_le_reg_r with (2 * b); [lra|]. rewrite HV. apply Rle_trans with (U * (2 * a)); [rewrite HU; lra|]. apply Rmult_le_compat_l; [lra|]. unfold a, b. lra. }
  split; [exact VU|]. split.
  { apply Rmult_le_reg_r with (2 * a); [lra|]. rewrite HU. assert (P <= k * v) by (unfold P; replace (k * u * v) with (k * v * u) by ring; rewrite <- (Rmult_1_r (k * v)) at 2; apply Rmult_le_compat_l; lra). unfold a. lra. }
  split; [|split].
  - apply Rmult_le_reg_r with (2 * a * (2 * b)); [apply Rmult_lt_0_compat; lra|].
    replace (k * U * V * (2 * a * (2 * b))) with (k * (U * (2 * a)) * (V * (2 * b))) by ring. rewrite HU, HV.
    replace (1 / 2 * (2 * a * (2 * b))) with (2 + k * (2 * (u + v) + 2 * P)) by (unfold a, b, P; field).
    replace (k * (u + P + 1) * (v + P + 1)) with (k * ((u + P + 1) * (v + P + 1))) by ring.
    assert (Z : 2 * (u + v) + 2 * P + 1 / 8 <= (u + P + 1) * (v + P + 1)).
    { assert (0 <= u * v) by nra. assert ((u + v) * (1 - P) <= (u + v) * (1 / 2)) by (apply Rmult_le_compat_l; lra). 
      replace ((u + P + 1) * (v + P + 1)) with (u * v + (u + v) - (u + v) * (1 - P) + (u + v) + (P * P + 2 * P + 1)) by ring.
      destruct (Rle_lt_dec 1 P) as [L|L].
      - assert ((u + v) * (1 - P) <= 0) by nra. nra.
      - assert ((u + v) * (1 - P) <= 2 * (1 - P)) by (apply Rmult_le_compat_r; lra). nra. }
    apply Rle_trans with (k * (2 * (u + v) + 2 * P + 1 / 8)); [rewrite k_val; lra|]. apply Rmult_le_compat_l; lra.
  - apply Rmult_le_reg_r with v; [exact Hv|]. apply Rle_trans with (V * u); [exact R1|]. replace (4 * V * v) with (V * (4 * v)) by ring. apply Rmult_le_compat_l; lra.
  - (* V (4 - (j+1)/1000) <= U *)
    assert (J : 0 <= INR j <= 100) by (split; [apply pos_INR|replace 100 with (INR 100) by (rewrite INR_IZR_INZ; reflexivity); apply le_INR; exact Hj]).
    rewrite S_INR. set (r := 4 - INR j / 1000) in *. replace (4 - (INR j + 1) / 1000) with (r - 1 / 1000) by (unfold r; lra).
    assert (Hr : 3.9 <= r <= 4) by (unfold r; lra).
    apply Rmult_le_reg_r with (v * a); [apply Rmult_lt_0_compat; lra|].
    apply Rle_trans with (V * u * (a - 1)); [|lra].
    apply Rle_trans with (V * (r * v) * (a - 1)).
    + replace ((r - 1 / 1000) * V * (v * a)) with (V * v * ((r - 1 / 1000) * a)) by ring. replace (V * (r * v) * (a - 1)) with (V * v * (r * (a - 1))) by ring.
      apply Rmult_le_compat_l; [apply Rmult_le_pos; lra|]. unfold a. lra.
    + apply Rmult_le_compat_r; [unfold a; lra|]. apply Rmult_le_compat_l; lra.
Qed.
Lemma slow_not_settled : forall j u v, (j <= 100)%nat -> slow j u v ->
  Rabs ((u + 1 / (1 + k * v)) / 2 - u) < 1 / 10 ^ 12 * ((u + 1 / (1 + k * v)) / 2) + 1 / 10 ^ 12 ->
  Rabs ((v + 1 / (1 + k * u)) / 2 - v) < 1 / 10 ^ 12 * ((v + 1 / (1 + k * u)) / 2) + 1 / 10 ^ 12 -> False.
Proof.
  intros j u v Hj H S1 S2. pose proof (slow_kv j u v H) as Q. pose proof (slow_step j u v Hj H) as (_ & W1 & W2 & _). destruct H as (Hv & Huv & Hu & HP & H4 & HR).
  assert (Hk : 0 < k) by (rewrite k_val; lra).
  assert (Hku : k * v <= k * u) by (apply Rmult_le_compat_l; lra).
  assert (T1 : Rabs ((u + 1 / (1 + k * v)) / 2 - u) < 2 / 10 ^ 12) by lra. assert (T2 : Rabs ((v + 1 / (1 + k * u)) / 2 - v) < 2 / 10 ^ 12) by lra.
  apply Rabs_def2 in T1. apply Rabs_def2 in T2.
  assert (A1 : 1 - u - k * u * v = ((u + 1 / (1 + k * v)) / 2 - u) * (2 * (1 + k * v))) by (field; lra).
  assert (A2 : 1 - v - k * u * v = ((v + 1 / (1 + k * u)) / 2 - v) * (2 * (1 + k * u))) by (field; lra).
  assert (B1 : - (2 / 10 ^ 12 * (2 * (1 + k * v))) < 1 - u - k * u * v).
  { rewrite A1, Ropp_mult_distr_l. apply Rmult_lt_compat_r; lra. }
  assert (B2 : 1 - v - k * u * v < 2 / 10 ^ 12 * (2 * (1 + k * u))).
  { rewrite A2. apply Rmult_lt_compat_r; lra. }
  assert (J : 0 <= INR j <= 100) by (split; [apply pos_INR|replace 100 with (INR 100) by (rewrite INR_IZR_INZ; reflexivity); apply le_INR; exact Hj]).
  assert (U : 3.9 * v <= u) by (eapply Rle_trans; [|exact HR]; apply Rmult_le_compat_r; lra).
  rewrite k_val in *. lra.
Qed.
