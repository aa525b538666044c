(** Lemmas about the cubic equations of state. *)
From Coq Require Import Reals String List Permutation Lia Lra Bool Psatz.
From Coquelicot Require Import Coquelicot.
From Verif Require Import Json_model Vec_spec Vec_proofs Derivs_spec Derivs_proofs2 Cubic_model Cubic_spec.
Import ListNotations.
Open Scope R_scope.

(** ** Pressure *)
Lemma form_derive : forall D1 D2 a b Rg T rho : R, D1 <> D2 -> b <> 0 -> Rg * T <> 0 -> 0 < rho ->
  0 < 1 - b * rho -> 0 < D1 * b * rho + 1 -> 0 < D2 * b * rho + 1 ->
  is_derive (fun r => Rg * T * (ln r + cubic_form D1 D2 a b Rg T r)) rho
    (Rg * T * (1 / rho + b / (1 - b * rho)) - a / ((D1 * b * rho + 1) * (D2 * b * rho + 1))).
Proof.
  intros D1 D2 a b Rg T rho HD Hb HRT Hr H1 H2 H3. unfold cubic_form.
  assert (Rg <> 0 /\ T <> 0) as [HR HT] by (split; intro E; apply HRT; rewrite E; ring).
  auto_derive.
  - repeat split; try lra. apply Rdiv_lt_0_compat; lra.
  - field. repeat split; try lra.
Qed.

Lemma pressure_of_ok : forall Rg alphar T rho d,
  is_derive (fun r => Rg * T * (ln r + alphar T r)) rho d -> pressure_of Rg alphar T rho = rho ^ 2 * d.
Proof. intros. unfold pressure_of, th_p. f_equal. apply is_derive_unique. exact H. Qed.

Lemma pressure_form : forall D1 D2 a b Rg T rho : R, D1 <> D2 -> b <> 0 -> Rg * T <> 0 -> 0 < rho ->
  0 < 1 - b * rho -> 0 < D1 * b * rho + 1 -> 0 < D2 * b * rho + 1 ->
  pressure_of Rg (cubic_form D1 D2 a b Rg) T rho = cubic_textbook Rg a b D1 D2 T (1 / rho).
Proof.
  intros. rewrite (pressure_of_ok _ _ _ _ _ (form_derive D1 D2 a b Rg T rho H H0 H1 H2 H3 H4 H5)).
  unfold cubic_textbook. 
  assert (1 / rho - b <> 0) by (replace (1 / rho - b) with ((1 - b * rho) / rho) by (field; lra);
    apply Rgt_not_eq, Rdiv_lt_0_compat; lra).
  assert (1 / rho + D1 * b <> 0) by (replace (1 / rho + D1 * b) with ((D1 * b * rho + 1) / rho) by (field; lra);
    apply Rgt_not_eq, Rdiv_lt_0_compat; lra).
  assert (1 / rho + D2 * b <> 0) by (replace (1 / rho + D2 * b) with ((D2 * b * rho + 1) / rho) by (field; lra);
    apply Rgt_not_eq, Rdiv_lt_0_compat; lra).
  field. repeat split; try lra; auto.
Qed.

Lemma vdW_derive : forall a b Rg T rho : R, Rg * T <> 0 -> 0 < rho -> 0 < 1 - b * rho ->
  is_derive (fun r => Rg * T * (ln r + (- ln (1 - b * r) - a / (Rg * T) * r))) rho
    (Rg * T * (1 / rho + b / (1 - b * rho)) - a).
Proof.
  intros a b Rg T rho HRT Hr H1.
  assert (Rg <> 0 /\ T <> 0) as [HR HT] by (split; intro E; apply HRT; rewrite E; ring).
  auto_derive.
  - repeat split; lra.
  - field. repeat split; lra.
Qed.
Lemma pressure_vdW : forall a b Rg T rho : R, Rg * T <> 0 -> 0 < rho -> 0 < 1 - b * rho ->
  pressure_of Rg (fun T r => - ln (1 - b * r) - a / (Rg * T) * r) T rho = vdW_textbook Rg a b T (1 / rho).
Proof.
  intros. rewrite (pressure_of_ok Rg (fun T r : R => - ln (1 - b * r) - a / (Rg * T) * r) _ _ _ (vdW_derive a b Rg T rho H H0 H1)).
  unfold vdW_textbook.
  assert (1 / rho - b <> 0) by (replace (1 / rho - b) with ((1 - b * rho) / rho) by (field; lra);
    apply Rgt_not_eq, Rdiv_lt_0_compat; lra).
  field. repeat split; lra.
Qed.

(** ** Critical points *)
Lemma crit_cubic : forall pc rc e1 e2 e3 : R, rc <> 0 -> 1 + e1 * rc + e2 * rc ^ 2 + e3 * rc ^ 3 <> 0 ->
  critical_at (fun r => pc - pc * (1 - r / rc) ^ 3 / (1 + e1 * r + e2 * r ^ 2 + e3 * r ^ 3)) rc pc.
Proof.
  intros pc rc e1 e2 e3 Hrc HE. unfold critical_at.
  assert (D : forall r, 1 + e1 * r + e2 * r ^ 2 + e3 * r ^ 3 <> 0 ->
    is_derive (fun r => pc - pc * (1 - r / rc) ^ 3 / (1 + e1 * r + e2 * r ^ 2 + e3 * r ^ 3)) r
     ((1 - r / rc) ^ 2 * (pc * (3 / rc * (1 + e1 * r + e2 * r ^ 2 + e3 * r ^ 3) +
         (1 - r / rc) * (e1 + 2 * e2 * r + 3 * e3 * r ^ 2)) /
       (1 + e1 * r + e2 * r ^ 2 + e3 * r ^ 3) ^ 2))).
  { intros r Hr. auto_derive; [exact Hr|]. field. split; [exact Hrc|exact Hr]. }
  split; [|split].
  - unfold Rdiv. rewrite Rinv_r by auto. ring.
  - refine (is_derive_eq _ _ _ _ _ (D rc HE)). unfold Rdiv. rewrite Rinv_r by auto. ring.
  - eexists; split.
    + assert (C : continuous (fun r => 1 + e1 * r + e2 * r ^ 2 + e3 * r ^ 3) rc).
      { apply (ex_derive_continuous (fun r => 1 + e1 * r + e2 * r ^ 2 + e3 * r ^ 3)). auto_derive. auto. }
      assert (L : locally (1 + e1 * rc + e2 * rc ^ 2 + e3 * rc ^ 3) (fun y => y <> 0)).
      { apply open_neq. exact HE. }
      assert (C' : locally rc (fun r => 1 + e1 * r + e2 * r ^ 2 + e3 * r ^ 3 <> 0)) by exact (C _ L).
      refine (filter_imp _ _ _ C'). intros r Hr. apply (D r Hr).
    + cbv beta. auto_derive.
      * intro E. apply HE. simpl pow in *.
        destruct (Rmult_integral _ _ E) as [E'|E']; [exact E'|]. rewrite Rmult_1_r in E'. exact E'.
      * replace (1 + - (rc * / rc)) with 0 by (rewrite Rinv_r by auto; ring). ring.
Qed.

Lemma critical_ext : forall p q rc pc, locally rc (fun r => p r = q r) -> critical_at p rc pc -> critical_at q rc pc.
Proof.
  intros p q rc pc L [E [D [p' [L' D']]]]. split; [|split].
  - rewrite <- E. symmetry. exact (locally_singleton _ _ L).
  - refine (is_derive_ext_loc _ _ _ _ L D).
  - exists p'. split; auto.
    apply locally_locally in L. generalize (filter_and _ _ L L'). apply filter_imp.
    intros r [Lr Dr]. refine (is_derive_ext_loc _ _ _ _ Lr Dr).
Qed.

(** The relations between the constants of a cubic (dimensionless co-volume [B],
    attraction [A], critical compressibility [Z]; u = D1 + D2, w = D1 D2). *)
Definition critical_constants (u w A B Z : R) : Prop :=
  3 * Z = 1 - (u - 1) * B /\ 3 * Z ^ 2 = A + (w - u) * B ^ 2 - u * B /\ Z ^ 3 = A * B + w * B ^ 2 + w * B ^ 3.

Lemma critical_form : forall u w A B Z k pc r : R, critical_constants u w A B Z -> k <> 0 -> r <> 0 ->
  1 - B * k * r <> 0 -> 1 + u * (B * k * r) + w * (B * k * r) ^ 2 <> 0 ->
  pc * k * r / (1 - B * k * r) - pc * A * k ^ 2 * r ^ 2 / (1 + u * (B * k * r) + w * (B * k * r) ^ 2) =
  pc - pc * (1 - r * (k * Z)) ^ 3 /
    (1 + (u - 1) * B * k * r + (w - u) * B ^ 2 * k ^ 2 * r ^ 2 + - w * B ^ 3 * k ^ 3 * r ^ 3).
Proof.
  intros u w A B Z k pc r [E1 [E2 E3]] Hk Hr H1 H2.
  replace (1 + (u - 1) * B * k * r + (w - u) * B ^ 2 * k ^ 2 * r ^ 2 + - w * B ^ 3 * k ^ 3 * r ^ 3)
    with ((1 - B * k * r) * (1 + u * (B * k * r) + w * (B * k * r) ^ 2)) by ring.
  assert (P : (1 - r * (k * Z)) ^ 3 =
     (1 - B * k * r) * (1 + u * (B * k * r) + w * (B * k * r) ^ 2)
     - (k * r) * (1 + u * (B * k * r) + w * (B * k * r) ^ 2) + A * k ^ 2 * r ^ 2 * (1 - B * k * r)).
  { replace ((1 - r * (k * Z)) ^ 3) with
      (1 - (k * r) * (3 * Z) + (k * r) ^ 2 * (3 * Z ^ 2) - (k * r) ^ 3 * Z ^ 3) by ring.
    rewrite E1, E2, E3. ring. }
  rewrite P. field. split; [exact H2|]. exact H1.
Qed.

(** A fluid whose pressure is the cubic equation with a = A (R Tc)^2 / pc and
    b = B R Tc / pc has its critical point at Tc, pc and v = Z R Tc / pc. *)
Lemma cubic_critical : forall D1 D2 A B Z Rg Tc pc : R,
  critical_constants (D1 + D2) (D1 * D2) A B Z -> 0 < Rg -> 0 < Tc -> 0 < pc -> 0 < B -> B < Z ->
  0 < Z + D1 * B -> 0 < Z + D2 * B ->
  critical_at (fun rho => cubic_textbook Rg (A * (Rg * Tc) ^ 2 / pc) (B * Rg * Tc / pc) D1 D2 Tc (1 / rho))
    (pc / (Z * Rg * Tc)) pc.
Proof.
  intros D1 D2 A B Z Rg Tc pc HC HR HT Hp HB HZ H1 H2.
  set (k := Rg * Tc / pc). set (rc := pc / (Z * Rg * Tc)).
  assert (Hk : 0 < k) by (unfold k; apply Rdiv_lt_0_compat; auto; apply Rmult_lt_0_compat; auto).
  assert (Z0 : 0 < Z) by lra.
  assert (Hrc : 0 < rc) by (unfold rc; apply Rdiv_lt_0_compat; auto; repeat apply Rmult_lt_0_compat; auto).
  assert (Ekr : k * rc = / Z) by (unfold k, rc; field; repeat split; lra).
  set (u := D1 + D2) in *. set (w := D1 * D2) in *.
  assert (V1 : 0 < 1 - B * k * rc).
  { replace (B * k * rc) with (B * (k * rc)) by ring. rewrite Ekr.
    replace (1 - B * / Z) with ((Z - B) / Z) by (field; lra). apply Rdiv_lt_0_compat; lra. }
  assert (V2 : 0 < 1 + D1 * (B * k * rc)).
  { replace (D1 * (B * k * rc)) with (D1 * B * (k * rc)) by ring. rewrite Ekr.
    replace (1 + D1 * B * / Z) with ((Z + D1 * B) / Z) by (field; lra). apply Rdiv_lt_0_compat; lra. }
  assert (V3 : 0 < 1 + D2 * (B * k * rc)).
  { replace (D2 * (B * k * rc)) with (D2 * B * (k * rc)) by ring. rewrite Ekr.
    replace (1 + D2 * B * / Z) with ((Z + D2 * B) / Z) by (field; lra). apply Rdiv_lt_0_compat; lra. }
  apply critical_ext with (p := fun r => pc - pc * (1 - r / rc) ^ 3 /
    (1 + ((u - 1) * B * k) * r + ((w - u) * B ^ 2 * k ^ 2) * r ^ 2 + (- w * B ^ 3 * k ^ 3) * r ^ 3)).
  - assert (C : forall f : R -> R, ex_derive f rc -> 0 < f rc -> locally rc (fun r => 0 < f r)).
    { intros f Df Hf. apply ex_derive_continuous in Df. apply Df. apply (open_gt 0 (f rc)). exact Hf. }
    assert (L1 := C (fun r => 1 - B * k * r) ltac:(auto_derive; auto) V1).
    assert (L2 := C (fun r => 1 + D1 * (B * k * r)) ltac:(auto_derive; auto) V2).
    assert (L3 := C (fun r => 1 + D2 * (B * k * r)) ltac:(auto_derive; auto) V3).
    assert (L4 := C (fun r => r) ltac:(auto_derive; auto) Hrc).
    generalize (filter_and _ _ (filter_and _ _ L1 L2) (filter_and _ _ L3 L4)).
    apply filter_imp. intros r [[P1 P2] [P3 P4]]. cbv beta in *.
    replace (r / rc) with (r * (k * Z)) by (unfold k, rc; field; repeat split; lra).
    assert (Q : (1 + D1 * (B * k * r)) * (1 + D2 * (B * k * r)) = 1 + u * (B * k * r) + w * (B * k * r) ^ 2)
      by (unfold u, w; ring).
    assert (Qp := Rmult_lt_0_compat _ _ P2 P3). rewrite Q in Qp.
    transitivity (pc - pc * (1 - r * (k * Z)) ^ 3 /
      (1 + (u - 1) * B * k * r + (w - u) * B ^ 2 * k ^ 2 * r ^ 2 + - w * B ^ 3 * k ^ 3 * r ^ 3)).
    { f_equal. }
    rewrite <- (critical_form u w A B Z k pc r HC) by lra.
    rewrite <- Q. unfold cubic_textbook.
    assert (Eb : B * Rg * Tc / pc = B * k) by (unfold k; field; lra).
    assert (Ea : A * (Rg * Tc) ^ 2 / pc = pc * A * k ^ 2) by (unfold k; field; lra).
    assert (ER : Rg * Tc = pc * k) by (unfold k; field; lra).
    rewrite Eb, Ea, ER.
    assert (1 / r - B * k <> 0) by (replace (1 / r - B * k) with ((1 - B * k * r) / r) by (field; lra);
      apply Rgt_not_eq, Rdiv_lt_0_compat; lra).
    assert (1 / r + D1 * (B * k) <> 0) by (replace (1 / r + D1 * (B * k)) with ((1 + D1 * (B * k * r)) / r) by (field; lra);
      apply Rgt_not_eq, Rdiv_lt_0_compat; lra).
    assert (1 / r + D2 * (B * k) <> 0) by (replace (1 / r + D2 * (B * k)) with ((1 + D2 * (B * k * r)) / r) by (field; lra);
      apply Rgt_not_eq, Rdiv_lt_0_compat; lra).
    field. repeat split; try lra.
  - apply crit_cubic; [lra|].
    replace (1 + (u - 1) * B * k * rc + (w - u) * B ^ 2 * k ^ 2 * rc ^ 2 + - w * B ^ 3 * k ^ 3 * rc ^ 3)
      with ((1 - B * k * rc) * ((1 + D1 * (B * k * rc)) * (1 + D2 * (B * k * rc)))) by (unfold u, w; ring).
    apply Rgt_not_eq. repeat apply Rmult_lt_0_compat; assumption.
Qed.
