(** C73: the tangent of the critical curve of a binary mixture.  C74: local stability of
    critical points. *)
From Coq Require Import Reals ZArith List Bool Lia Lra.
From Coquelicot Require Import Coquelicot.
From Verif Require Import Json_model Cubic_model Derivs_model Derivs_spec Vec_spec Vec_proofs Iso_model Iso_spec Iso_proofs Properties_Iso
  Trace_model VLE_spec Critical_model Critical_spec Critical_proofs.
Import ListNotations.
Open Scope R_scope.

Lemma obind_ok : forall A B (x : outcome A) (f : A -> outcome B) b, obind x f = ok b -> exists a, x = ok a /\ f a = ok b.
Proof. intros A B [[a|e]|] f b H; cbn in H; try discriminate. exists a. auto. Qed.
(** ** C73 *)
(** The result solves the two equations that keep both conditions zero: with a and c the
    components of drho/dT along the two vectors,
    a d3 + c d(d2)/dsigma2 = - d(d2)/dT and a d4 + c d(d3)/dsigma2 = - d(d3)/dT,
    with temperature derivatives from states 1e-7 K below and above, along the same vector. *)
Definition two_by_two (v w : list R) (x y z t : R) : list (list R) :=
  [map (fun i => nth i v 0 * x + nth i w 0 * y) (seq 0 2); map (fun i => nth i v 0 * z + nth i w 0 * t) (seq 0 2)].
Theorem C73_tangent : forall ad alphar Rgas eigen solve T rho d, get_drhovec_dT_crit ad alphar Rgas eigen solve T rho = ok d ->
  exists derivs ei hi ehi lo elo d2, length rho = 2%nat /\ get_derivs ad alphar Rgas eigen T rho None = ok (derivs, ei) /\
    get_derivs ad alphar Rgas eigen (T + 1e-7) rho (Some (ev ei 0)) = ok (hi, ehi) /\ get_derivs ad alphar Rgas eigen (T - 1e-7) rho (Some (ev ei 0)) = ok (lo, elo) /\
    sigma2_derivs ad alphar Rgas eigen T rho derivs ei = ok d2 /\
    let A := two_by_two (ev ei 0) (ev ei 1) (nth 3 derivs 0) (nth 2 d2 0) (nth 4 derivs 0) (nth 3 d2 0) in
    let b := [- ((nth 2 hi 0 - nth 2 lo 0) / (2 * 1e-7)); - ((nth 3 hi 0 - nth 3 lo 0) / (2 * 1e-7))] in
    d = solve A b /\
    (solution A b d -> inner 2 (ev ei 0) d * nth 3 derivs 0 + inner 2 (ev ei 1) d * nth 2 d2 0 + (nth 2 hi 0 - nth 2 lo 0) / (2 * 1e-7) = 0 /\
                       inner 2 (ev ei 0) d * nth 4 derivs 0 + inner 2 (ev ei 1) d * nth 3 d2 0 + (nth 3 hi 0 - nth 3 lo 0) / (2 * 1e-7) = 0).
Proof.
  intros ad alphar Rgas eigen solve T rho d H. unfold get_drhovec_dT_crit in H.
  apply obind_ok in H. destruct H as ((derivs & ei) & E & H). apply obind_ok in H. destruct H as ((hi & ehi) & Eh & H).
  apply obind_ok in H. destruct H as ((lo & elo) & El & H). apply obind_ok in H. destruct H as (d2 & E2 & H).
  destruct (Nat.eqb_spec (length rho) 2) as [L|]; [|discriminate]. cbn [negb] in H.
  exists derivs, ei, hi, ehi, lo, elo, d2. split; [exact L|]. split; [exact E|]. split; [exact Eh|]. split; [exact El|]. split; [exact E2|].
  cbv zeta. assert (Ed : d = solve (two_by_two (ev ei 0) (ev ei 1) (nth 3 derivs 0) (nth 2 d2 0) (nth 4 derivs 0) (nth 3 d2 0))
    [- ((nth 2 hi 0 - nth 2 lo 0) / (2 * 1e-7)); - ((nth 3 hi 0 - nth 3 lo 0) / (2 * 1e-7))]).
  { unfold ok in H. unfold each in H. rewrite L in H. injection H as H. symmetry. exact H. }
  split; [exact Ed|]. clear Ed H. intros (Ld & S). cbn [length] in *.
  assert (S0 := S 0%nat ltac:(lia)). assert (S1 := S 1%nat ltac:(lia)). rewrite Ld in *. unfold two_by_two in *. cbn [map seq sumn nth] in *. unfold inner. cbn [sumn].
  split; lra.
Qed.
(** The slope of the pressure along the critical curve is that of the chain rule, with the true
    derivatives of the pressure and the tangent above. *)
Theorem C73_pressure : forall ad alphar Rgas Rg eigen solve T rho v, AD_exact ad -> const_R Rgas Rg -> positive rho -> 0 < T ->
  smooth_rho alphar Rgas T rho -> smooth_T alphar Rgas T rho -> get_dp_dT_crit ad alphar Rgas eigen solve T rho = ok v ->
  exists d pT g, get_drhovec_dT_crit ad alphar Rgas eigen solve T rho = ok d /\
    is_derive (fun t => p_of alphar Rgas t rho) T pT /\ gradient_at (p_of alphar Rgas T) rho g /\
    v = pT + sumn (length rho) (fun i => nth i g 0 * nth i d 0).
Proof.
  intros ad alphar Rgas Rg eigen solve T rho v Had HR P HT Hs Ht H. unfold get_dp_dT_crit in H. apply obind_ok in H. destruct H as (d & E & H).
  exists d, (get_dpdT_constrhovec ad alphar Rgas T rho), (get_dpdrhovec_constT ad alphar Rgas T rho). split; [exact E|].
  split; [now apply (C22_pressure_temperature ad alphar Rgas Rg)|]. split; [now apply (C22_pressure_gradient ad alphar Rgas Rg)|].
  unfold ok in H. injection H as H. rewrite <- H. f_equal.
  rewrite vdot_sumn. now rewrite (proj1 (C22_pressure_gradient ad alphar Rgas Rg T rho Had HR P HT Hs)).
Qed.
(** The derivatives in the direction of the second vector are exact for conditions that are
    quadratic there, whichever of the three formulas is used. *)
Theorem C73_second_direction : forall ad alphar Rgas eigen T rho derivs ei d2 k a b c, sigma2_derivs ad alphar Rgas eigen T rho derivs ei = ok d2 ->
  (k < length derivs)%nat -> 0 < total rho -> nth k derivs 0 = c ->
  (forall s tot e, get_derivs ad alphar Rgas eigen T (moved rho (ev ei 1) s) (Some (ev ei 0)) = ok (tot, e) -> nth k tot 0 = c + b * s + a * s ^ 2) ->
  nth k d2 0 = b.
Proof.
  intros ad alphar Rgas eigen T rho derivs ei d2 k a b c H Hk Hs Hc Q. unfold sigma2_derivs in H.
  set (s := 2e-5 * vsum rho) in *.
  assert (Ps : s <> 0). { unfold s. rewrite vsum_total. apply Rmult_integral_contrapositive. split; [|lra]. apply Rinv_neq_0_compat || lra. }
  assert (Sh : forall x, shifted rho x (ev ei 1) = moved rho (ev ei 1) x) by (intro x; unfold shifted, moved, each; apply map_ext; intro i; ring).
  assert (W : forall x tot, obind (get_derivs ad alphar Rgas eigen T (shifted rho x (ev ei 1)) (Some (ev ei 0))) (fun '(tot, _) => ok tot) = ok tot -> nth k tot 0 = c + b * x + a * x ^ 2).
  { intros x tot E. apply obind_ok in E. destruct E as ((t & e) & E & E'). rewrite Sh in E. replace tot with t by (unfold ok in E'; congruence). now apply (Q x t e). }
  destruct (_ && _).
  - apply obind_ok in H. destruct H as (p & Hp & H). apply obind_ok in H. destruct H as (m & Hm & H). apply W in Hp, Hm.
    unfold ok in H. injection H as H. rewrite <- H, each_nth, Hp, Hm by auto. field. exact Ps.
  - destruct (all_positive _).
    + apply obind_ok in H. destruct H as (p & Hp & H). apply obind_ok in H. destruct H as (m & Hm & H). apply W in Hp, Hm.
      unfold ok in H. injection H as H. rewrite <- H, each_nth, Hp, Hm, Hc by auto. field. exact Ps.
    + destruct (all_positive _); [|discriminate].
      apply obind_ok in H. destruct H as (p & Hp & H). apply obind_ok in H. destruct H as (m & Hm & H). apply W in Hp, Hm.
      unfold ok in H. injection H as H. rewrite <- H, each_nth, Hp, Hm, Hc by auto. field. exact Ps.
Qed.
(** No state with a concentration that is not positive is evaluated for them, and they are not
    refused, if a vanishing concentration has a component in the second vector. *)
Theorem C73_inside : forall ad alphar Rgas eigen T x y derivs ei u w, 0 <= x -> 0 <= y -> 0 < x + y -> ev ei 1 = [u; w] -> u ^ 2 + w ^ 2 = 1 ->
  (x = 0 -> u <> 0) -> (y = 0 -> w <> 0) ->
  (forall x' y', 0 < x' -> 0 < y' -> exists r, get_derivs ad alphar Rgas eigen T [x'; y'] (Some (ev ei 0)) = ok r) ->
  exists d2, sigma2_derivs ad alphar Rgas eigen T [x; y] derivs ei = ok d2.
Proof.
  intros ad alphar Rgas eigen T x y derivs ei u w Hx Hy Hs V N Ux Wy G. unfold sigma2_derivs. rewrite V.
  cbn [vsum fold_right]. rewrite Rplus_0_r. set (s := 2e-5 * (x + y)).
  assert (Ps : 0 < s) by (unfold s; lra).
  assert (Sh : forall a, shifted [x; y] a [u; w] = [x + u * a; y + w * a]) by reflexivity.
  assert (AP : forall a b, all_positive [a; b] = true <-> 0 < a /\ 0 < b).
  { intros a b. unfold all_positive, rlt. cbn [forallb]. destruct (Rlt_dec 0 a), (Rlt_dec 0 b); cbn; split; intros; try discriminate; auto; lra. }
  assert (AF : forall a b, all_positive [a; b] = false -> ~ (0 < a /\ 0 < b)) by (intros a b E K; apply AP in K; congruence).
  assert (U1 : -1 <= u <= 1) by (assert (0 <= w ^ 2) by nra; split; nra).
  assert (W1 : -1 <= w <= 1) by (assert (0 <= u ^ 2) by nra; split; nra).
  assert (At : forall a, 0 < x + u * a -> 0 < y + w * a ->
    exists t, obind (get_derivs ad alphar Rgas eigen T (shifted [x; y] a [u; w]) (Some (ev ei 0))) (fun '(tot, _) => ok tot) = ok t).
  { intros a A B. rewrite Sh. destruct (G _ _ A B) as ((t & e) & ->). exists t. reflexivity. }
  (* at least one concentration is half of the total, so a step cannot exhaust it *)
  assert (Big : (x + y) / 2 <= x \/ (x + y) / 2 <= y) by lra.
  assert (Bu : forall a, - (2 * s) <= a <= 2 * s -> - (2 * s) <= u * a <= 2 * s) by (intros a Ha; split; nra).
  assert (Bw : forall a, - (2 * s) <= a <= 2 * s -> - (2 * s) <= w * a <= 2 * s) by (intros a Ha; split; nra).
  assert (Sm : 4e-5 * (x + y) = 2 * s) by (unfold s; lra).
  destruct (all_positive (shifted [x; y] (- s) [u; w])) eqn:EM; destruct (all_positive (shifted [x; y] s [u; w])) eqn:EP; cbn [andb]; rewrite Sh in EM, EP.
  - apply AP in EM, EP. destruct (At s) as (p & ->); try tauto. cbn [obind ok]. destruct (At (- s)) as (m & ->); try tauto. cbn [obind ok]. eexists. reflexivity.
  - apply AP in EM. apply AF in EP. destruct (At (- s)) as (m & ->); try tauto. cbn [obind ok].
    assert (B1 := Bu s ltac:(lra)). assert (B2 := Bw s ltac:(lra)). assert (B3 := Bu (- (2 * s)) ltac:(lra)). assert (B4 := Bw (- (2 * s)) ltac:(lra)).
    destruct (At (- (2 * s))) as (m2 & ->); [| |cbn [obind ok]; eexists; reflexivity].
    + destruct Big as [K|K]; [lra|]. assert (0 < y + w * s) by lra. assert (~ 0 < x + u * s) by (intro; apply EP; split; auto).
      assert (u * s <= 0) by lra. assert (u <= 0) by nra. destruct (Req_dec x 0) as [->|]; [|nra]. specialize (Ux eq_refl). nra.
    + destruct Big as [K|K]; [|lra]. assert (0 < x + u * s) by lra. assert (~ 0 < y + w * s) by (intro; apply EP; split; auto).
      assert (w * s <= 0) by lra. assert (w <= 0) by nra. destruct (Req_dec y 0) as [->|]; [|nra]. specialize (Wy eq_refl). nra.
  - apply AP in EP. apply AF in EM. destruct (At s) as (m & ->); try tauto. cbn [obind ok].
    assert (B1 := Bu (- s) ltac:(lra)). assert (B2 := Bw (- s) ltac:(lra)). assert (B3 := Bu (2 * s) ltac:(lra)). assert (B4 := Bw (2 * s) ltac:(lra)).
    destruct (At (2 * s)) as (m2 & ->); [| |cbn [obind ok]; eexists; reflexivity].
    + destruct Big as [K|K]; [lra|]. assert (0 < y + w * - s) by lra. assert (~ 0 < x + u * - s) by (intro; apply EM; split; auto).
      assert (0 <= u * s) by lra. assert (0 <= u) by nra. destruct (Req_dec x 0) as [->|]; [|nra]. specialize (Ux eq_refl). nra.
    + destruct Big as [K|K]; [|lra]. assert (0 < x + u * - s) by lra. assert (~ 0 < y + w * - s) by (intro; apply EM; split; auto).
      assert (0 <= w * s) by lra. assert (0 <= w) by nra. destruct (Req_dec y 0) as [->|]; [|nra]. specialize (Wy eq_refl). nra.
  - exfalso. apply AF in EM, EP.
    assert (B1 := Bu s ltac:(lra)). assert (B2 := Bw s ltac:(lra)). assert (B3 := Bu (- s) ltac:(lra)). assert (B4 := Bw (- s) ltac:(lra)).
    destruct Big as [K|K].
    + assert (~ 0 < y + w * s) by (intro; apply EP; split; auto; lra). assert (~ 0 < y + w * - s) by (intro; apply EM; split; auto; lra).
      assert (y = 0 /\ w * s = 0) as (Y & Z) by lra. apply Rmult_integral in Z. destruct Z; [now apply Wy|lra].
    + assert (~ 0 < x + u * s) by (intro; apply EP; split; auto; lra). assert (~ 0 < x + u * - s) by (intro; apply EM; split; auto; lra).
      assert (x = 0 /\ u * s = 0) as (Y & Z) by lra. apply Rmult_integral in Z. destruct Z; [now apply Ux|lra].
Qed.

(** What the theorems need is met: an ideal gas with concentrations [2] and [1]. *)
Definition identity_solve (M : list (list R)) (b : list R) : list R := [0; 0].
Lemma ideal_derivs : forall T rho al, length rho = 2%nat -> length (filter negb (map (fun r => negb (is0 r)) rho)) = 0%nat ->
  exists r, get_derivs exact_ad no_alphar one_R diag_eigen T rho al = ok r.
Proof.
  intros T rho al L F. unfold get_derivs, eigen_problem. rewrite L, F. cbn [Nat.ltb Nat.leb]. destruct (diag_eigen _) as [vals vecs]. cbn [obind ok]. eexists. reflexivity.
Qed.
Lemma positive2 : forall x y, 0 < x -> 0 < y -> length (filter negb (map (fun r => negb (is0 r)) [x; y])) = 0%nat.
Proof. intros x y Hx Hy. cbn [map]. rewrite !is0_pos by auto. reflexivity. Qed.
Example C73_met : exists ei derivs d, ev ei 1 = [0; 1] /\ (forall x' y', 0 < x' -> 0 < y' -> exists r, get_derivs exact_ad no_alphar one_R diag_eigen 1 [x'; y'] (Some (ev ei 0)) = ok r) /\
  get_derivs exact_ad no_alphar one_R diag_eigen 1 [2; 1] None = ok (derivs, ei) /\ get_drhovec_dT_crit exact_ad no_alphar one_R diag_eigen identity_solve 1 [2; 1] = ok d.
Proof.
  destruct (ideal_derivs 1 [2; 1] None eq_refl (positive2 2 1 ltac:(lra) ltac:(lra))) as ((derivs & ei) & E).
  assert (V : ev ei 1 = [0; 1]).
  { assert (E' := E). apply get_derivs_inv in E'. destruct E' as (E' & _). unfold eigen_problem in E'. cbn [length Nat.ltb Nat.leb] in E'. rewrite positive2 in E' by lra.
    rewrite crit_hessian_positive in E' by (split; [cbn; lia|intros [|[|i]] Hi; cbn in *; try lia; lra]). rewrite ideal_Psi_hessian in E'.
    assert (A1 : argmin [2; 1] = 1%nat). { unfold argmin, argmin_from, rlt. destruct (Rlt_dec 1 2); [reflexivity|lra]. }
    unfold diag_eigen, entry in E'. cbn [nth] in E'. destruct (Rle_dec _ _) as [|N]; [|exfalso; apply N; lra]. rewrite A1 in E'. cbn [nth existsb] in E'.
    unfold rlt in E'. destruct (Rlt_dec 0 0); [lra|]. destruct (Rlt_dec 1 0); [lra|]. cbn in E'. unfold ok in E'. injection E' as E'. rewrite <- E'. reflexivity. }
  assert (G : forall x' y', 0 < x' -> 0 < y' -> exists r, get_derivs exact_ad no_alphar one_R diag_eigen 1 [x'; y'] (Some (ev ei 0)) = ok r)
    by (intros x' y' Hx Hy; apply ideal_derivs; [reflexivity|now apply positive2]).
  destruct (C73_inside exact_ad no_alphar one_R diag_eigen 1 2 1 derivs ei 0 1) as (d2 & D2); try lra; auto.
  destruct (ideal_derivs (1 + 1e-7) [2; 1] (Some (ev ei 0)) eq_refl (positive2 2 1 ltac:(lra) ltac:(lra))) as ((hi & ehi) & Eh).
  destruct (ideal_derivs (1 - 1e-7) [2; 1] (Some (ev ei 0)) eq_refl (positive2 2 1 ltac:(lra) ltac:(lra))) as ((lo & elo) & El).
  exists ei, derivs, [0; 0]. split; [exact V|]. split; [exact G|]. split; [exact E|].
  unfold get_drhovec_dT_crit. rewrite E. cbn [obind ok]. change (Some (Val ?x)) with (ok x). rewrite Eh. cbn [obind ok]. rewrite El. cbn [obind ok]. rewrite D2. reflexivity.
Qed.

(** ** C74 *)
(** first eigenvector at a state, aligned with [u1] *)
Definition direction_at (ad : (list R -> R) -> list nat -> list R -> R) alphar Rgas eigen (T : R) (u1 rho v : list R) : Prop :=
  exists e, eigen_problem ad alphar Rgas eigen T rho (Some u1) = ok e /\ ev e 0 = v.
(** The path: four directions k1 ... k4 are evaluated as in the classical Runge-Kutta method,
    at the start, twice in the middle and at the end of a step of twice [drho], but the
    first one is used with five sixths and the last one with one sixth. *)
Lemma vaddr_scaled : forall rho v s, vaddr rho (scaled s v) = moved rho v s.
Proof. intros rho v s. unfold vaddr, moved, each. apply map_ext. intro i. now rewrite scaled_nth. Qed.
Theorem C74_path : forall ad alphar Rgas eigen T rho k1 drho r, length k1 = length rho -> EigenVectorPath ad alphar Rgas eigen T rho k1 drho = ok r ->
  exists k2 k3 k4, direction_at ad alphar Rgas eigen T k1 (moved rho k1 drho) k2 /\ direction_at ad alphar Rgas eigen T k1 (moved rho k2 drho) k3 /\
    direction_at ad alphar Rgas eigen T k1 (moved rho k3 (2 * drho)) k4 /\ length r = length rho /\
    forall i, (i < length rho)%nat -> nth i r 0 = nth i rho 0 + 2 * drho * (5 / 6 * nth i k1 0 + 1 / 6 * nth i k4 0).
Proof.
  intros ad alphar Rgas eigen T rho k1 drho r L H. unfold EigenVectorPath in H.
  apply obind_ok in H. destruct H as (e1 & E1 & H). apply obind_ok in H. destruct H as (e2 & E2 & H). apply obind_ok in H. destruct H as (e3 & E3 & H).
  rewrite !vaddr_scaled in *. exists (ev e1 0), (ev e2 0), (ev e3 0). split; [now exists e1|]. split; [now exists e2|]. split; [now exists e3|].
  unfold ok in H. injection H as H. rewrite <- H. split; [unfold moved; now rewrite map_length, seq_length|].
  intros i Hi. assert (N : forall x v s, (i < length x)%nat -> nth i (moved x v s) 0 = nth i x 0 + s * nth i v 0) by (intros x v s Hx; unfold moved; now rewrite nth_map_seq' by auto).
  assert (Lm : forall x v s, length (moved x v s) = length x) by (intros; unfold moved; now rewrite map_length, seq_length).
  rewrite !N by (rewrite ?Lm, ?scaled_length, ?L; auto). rewrite !scaled_nth. field.
Qed.
(** It is not the classical Runge-Kutta step through the same directions. *)
Theorem C74_path_refuted : exists T rho k1 k2 k3 k4 drho r, decomposes diag_eigen 2 (build_Psi_Hessian exact_ad no_alphar one_R T rho) /\
  direction_at exact_ad no_alphar one_R diag_eigen T k1 rho k1 /\ EigenVectorPath exact_ad no_alphar one_R diag_eigen T rho k1 drho = ok r /\
  direction_at exact_ad no_alphar one_R diag_eigen T k1 (moved rho k1 drho) k2 /\ direction_at exact_ad no_alphar one_R diag_eigen T k1 (moved rho k2 drho) k3 /\
  direction_at exact_ad no_alphar one_R diag_eigen T k1 (moved rho k3 (2 * drho)) k4 /\
  nth 0 r 0 <> nth 0 rho 0 + 2 * drho * (nth 0 k1 0 + 2 * nth 0 k2 0 + 2 * nth 0 k3 0 + nth 0 k4 0) / 6.
Proof.
  (* the direction in the ideal gas is that of the larger concentration *)
  assert (D : forall T x y al, 0 < T -> 0 < x -> 0 < y -> eigen_problem exact_ad no_alphar one_R diag_eigen T [x; y] al =
    ok (aligned al (if Rle_dec (1 * T / x) (1 * T / y) then {| ed_values := [1 * T / x; 1 * T / y]; ed_vectors := [[1; 0]; [0; 1]] |} else {| ed_values := [1 * T / y; 1 * T / x]; ed_vectors := [[0; 1]; [1; 0]] |}))).
  { intros T x y al HT Hx Hy. unfold eigen_problem. cbn [length Nat.ltb Nat.leb]. rewrite positive2 by auto.
    rewrite crit_hessian_positive, ideal_Psi_hessian by (split; [cbn; lia|intros [|[|i]] Hi; cbn in *; try lia; auto]).
    unfold diag_eigen, entry. cbn [nth].
    assert (N0 : rlt 0 0 = false) by (unfold rlt; destruct (Rlt_dec 0 0); [lra|reflexivity]).
    assert (N1 : rlt 1 0 = false) by (unfold rlt; destruct (Rlt_dec 1 0); [lra|reflexivity]).
    assert (A : (argmin [x; y] < 2)%nat) by (unfold argmin, argmin_from; destruct (rlt y x); lia).
    destruct (Rle_dec _ _); destruct (argmin [x; y]) as [|[|]]; try lia; cbn [nth existsb]; rewrite N0, N1; reflexivity. }
  assert (V : forall x y u v, 0 < x -> 0 < y -> 0 <= u -> 0 <= v -> direction_at exact_ad no_alphar one_R diag_eigen 1 [u; v] [x; y] (if Rle_dec (1 * 1 / x) (1 * 1 / y) then [1; 0] else [0; 1])).
  { intros x y u v Hx Hy Hu Hv. eexists. split; [apply D; auto; lra|].
    destruct (Rle_dec _ _); unfold aligned, ev; cbn [ed_vectors nth]; unfold rlt; destruct (Rlt_dec _ 0) as [K|K]; try reflexivity; exfalso;
      rewrite vdot_sumn in K; cbn [length sumn nth] in K; lra. }
  assert (F1 : forall x y, 0 < x -> x < y -> (if Rle_dec (1 * 1 / x) (1 * 1 / y) then [1; 0] else [0; 1]) = [0; 1]).
  { intros x y Hx Hy. destruct (Rle_dec _ _) as [K|]; [|reflexivity]. exfalso. unfold Rdiv in K. rewrite !Rmult_1_l in K.
    assert (/ y < / x) by (apply Rinv_lt_contravar; auto; nra). lra. }
  assert (F0 : forall x y, 0 < y -> y <= x -> (if Rle_dec (1 * 1 / x) (1 * 1 / y) then [1; 0] else [0; 1]) = [1; 0]).
  { intros x y Hx Hy. destruct (Rle_dec _ _) as [K|K]; [reflexivity|]. exfalso. apply K. unfold Rdiv. rewrite !Rmult_1_l. now apply Rinv_le_contravar. }
  assert (P1 := V 1 1.1 0 1 ltac:(lra) ltac:(lra) ltac:(lra) ltac:(lra)). rewrite F1 in P1 by lra.
  assert (P2 := V 1 0.9 0 1 ltac:(lra) ltac:(lra) ltac:(lra) ltac:(lra)). rewrite F0 in P2 by lra.
  assert (P3 := V 0.8 1.1 0 1 ltac:(lra) ltac:(lra) ltac:(lra) ltac:(lra)). rewrite F1 in P3 by lra.
  assert (P4 := V 1 0.7 0 1 ltac:(lra) ltac:(lra) ltac:(lra) ltac:(lra)). rewrite F0 in P4 by lra.
  assert (M2 : moved [1; 1.1] [0; 1] (-0.2) = [1; 0.9]) by (unfold moved; cbn [length seq map nth]; f_equal; [lra|f_equal; lra]).
  assert (M3 : moved [1; 1.1] [1; 0] (-0.2) = [0.8; 1.1]) by (unfold moved; cbn [length seq map nth]; f_equal; [lra|f_equal; lra]).
  assert (M4 : moved [1; 1.1] [0; 1] (2 * -0.2) = [1; 0.7]) by (unfold moved; cbn [length seq map nth]; f_equal; [lra|f_equal; lra]).
  assert (R0 : exists r, EigenVectorPath exact_ad no_alphar one_R diag_eigen 1 [1; 1.1] [0; 1] (-0.2) = ok r).
  { unfold EigenVectorPath. rewrite !vaddr_scaled, M2. destruct P2 as (e2 & E2 & Q2). rewrite E2. cbn [obind ok]. rewrite Q2, vaddr_scaled, M3.
    destruct P3 as (e3 & E3 & Q3). rewrite E3. cbn [obind ok]. rewrite Q3, vaddr_scaled, M4. destruct P4 as (e4 & E4 & Q4). rewrite E4. cbn [obind ok]. eexists. reflexivity. }
  destruct R0 as (r & Hr). exists 1, [1; 1.1], [0; 1], [1; 0], [0; 1], [1; 0], (-0.2), r.
  split; [rewrite ideal_Psi_hessian; apply diag_eigen_ok|]. split; [exact P1|]. split; [exact Hr|]. rewrite M2, M3, M4. split; [exact P2|]. split; [exact P3|]. split; [exact P4|].
  destruct (C74_path _ _ _ _ _ [1; 1.1] [0; 1] _ _ eq_refl Hr) as (k2 & k3 & k4 & (e2 & A2 & B2) & (e3 & A3 & B3) & (e4 & A4 & B4) & _ & Q).
  rewrite M2 in A2. destruct P2 as (f2 & P2 & Q2). assert (k2 = [1; 0]) by (rewrite P2 in A2; unfold ok in A2; injection A2 as <-; congruence). subst k2. rewrite H, M3 in A3.
  destruct P3 as (f3 & P3 & Q3). assert (K3 : k3 = [0; 1]) by (rewrite P3 in A3; unfold ok in A3; injection A3 as <-; congruence). rewrite K3, M4 in A4.
  destruct P4 as (f4 & P4 & Q4). assert (K4 : k4 = [1; 0]) by (rewrite P4 in A4; unfold ok in A4; injection A4 as <-; congruence).
  rewrite (Q 0%nat ltac:(cbn; lia)), K4. cbn [nth]. lra.
Qed.
(** It agrees with it if the direction does not change along the way. *)
Theorem C74_path_constant : forall ad alphar Rgas eigen T rho k1 drho r, length k1 = length rho -> EigenVectorPath ad alphar Rgas eigen T rho k1 drho = ok r ->
  (forall x v, direction_at ad alphar Rgas eigen T k1 x v -> v = k1) -> r = moved rho k1 (2 * drho).
Proof.
  intros ad alphar Rgas eigen T rho k1 drho r L H C. destruct (C74_path _ _ _ _ _ _ _ _ _ L H) as (k2 & k3 & k4 & _ & _ & D4 & Lr & Q).
  apply C in D4. subst k4. apply list_ext; [unfold moved; now rewrite map_length, seq_length|]. intros i Hi. rewrite Lr in Hi. unfold moved. rewrite nth_map_seq', Q by auto. field.
Qed.
(** A point is called locally stable if the smallest eigenvalue is smaller at neither of the
    ends of the paths in both directions. *)
Theorem C74_stable : forall ad alphar Rgas eigen T rho rel b, is_locally_stable ad alphar Rgas eigen T rho rel = ok b ->
  exists e0 ep em rp rm, eigen_problem ad alphar Rgas eigen T rho None = ok e0 /\
    EigenVectorPath ad alphar Rgas eigen T rho (ev e0 0) (rel * total rho) = ok rp /\ EigenVectorPath ad alphar Rgas eigen T rho (ev e0 0) (- (rel * total rho)) = ok rm /\
    eigen_problem ad alphar Rgas eigen T rp (Some (ev e0 0)) = ok ep /\ eigen_problem ad alphar Rgas eigen T rm (Some (ev e0 0)) = ok em /\
    (b = true <-> nth 0 (ed_values e0) 0 <= nth 0 (ed_values ep) 0 /\ nth 0 (ed_values e0) 0 <= nth 0 (ed_values em) 0).
Proof.
  intros ad alphar Rgas eigen T rho rel b H. unfold is_locally_stable in H.
  apply obind_ok in H. destruct H as (e0 & E0 & H). apply obind_ok in H. destruct H as (rp & Ep & H). apply obind_ok in H. destruct H as (ep & Eep & H).
  apply obind_ok in H. destruct H as (rm & Em & H). apply obind_ok in H. destruct H as (em & Eem & H). rewrite vsum_total in *.
  exists e0, ep, em, rp, rm. repeat (split; [assumption|]). unfold ok in H. injection H as H. rewrite <- H. unfold rlt.
  destruct (Rlt_dec _ _) as [A|A]; destruct (Rlt_dec _ _) as [B|B]; cbn; split; intros K; try discriminate; try reflexivity; try lra.
Qed.
Lemma aligned_small : forall d al i, (forall i, -1 <= nth i (ev d 0) 0 <= 1) -> -1 <= nth i (ev (aligned al d) 0) 0 <= 1.
Proof.
  intros d al i H. unfold aligned. destruct al as [[|z al]|]; auto. destruct (rlt _ 0); auto. change (-1 <= nth i (scaled (-1) (ev d 0)) 0 <= 1).
  rewrite scaled_nth. specialize (H i). lra.
Qed.
Example C74_met : exists r, EigenVectorPath exact_ad no_alphar one_R diag_eigen 1 [1; 1.1] [0; 1] (-0.2) = ok r.
Proof.
  unfold EigenVectorPath. rewrite vaddr_scaled.
  assert (M2 : moved [1; 1.1] [0; 1] (-0.2) = [1; 0.9]) by (unfold moved; cbn [length seq map nth]; f_equal; [lra|f_equal; lra]). rewrite M2.
  assert (A : forall T x y al, 0 < x -> 0 < y -> exists e, eigen_problem exact_ad no_alphar one_R diag_eigen T [x; y] al = ok e /\ (forall i, -1 <= nth i (ev e 0) 0 <= 1)).
  { intros T x y al Hx Hy. unfold eigen_problem. cbn [length Nat.ltb Nat.leb]. rewrite positive2 by auto. unfold diag_eigen.
    assert (N0 : rlt 0 0 = false) by (unfold rlt; destruct (Rlt_dec 0 0); [lra|reflexivity]).
    assert (N1 : rlt 1 0 = false) by (unfold rlt; destruct (Rlt_dec 1 0); [lra|reflexivity]).
    assert (Ag : (argmin [x; y] < 2)%nat) by (unfold argmin, argmin_from; destruct (rlt y x); lia).
    destruct (Rle_dec _ _); destruct (argmin [x; y]) as [|[|]]; try lia; cbn [nth existsb]; rewrite N0, N1; cbn [orb];
      (eexists; split; [reflexivity|]; intro i; apply aligned_small; intros [|[|[|j]]]; cbn; try lra; destruct j; lra). }
  destruct (A 1 1 0.9 (Some [0; 1]) ltac:(lra) ltac:(lra)) as (e1 & -> & B1). cbn [obind ok]. rewrite vaddr_scaled. unfold moved. cbn [length seq map nth].
  assert (P1 := B1 0%nat). assert (P2 := B1 1%nat).
  destruct (A 1 (1 + -0.2 * nth 0 (ev e1 0) 0) (1.1 + -0.2 * nth 1 (ev e1 0) 0) (Some [0; 1]) ltac:(lra) ltac:(lra)) as (e2 & -> & B2). cbn [obind ok].
  rewrite vaddr_scaled. unfold moved. cbn [length seq map nth]. assert (P3 := B2 0%nat). assert (P4 := B2 1%nat).
  destruct (A 1 (1 + 2 * -0.2 * nth 0 (ev e2 0) 0) (1.1 + 2 * -0.2 * nth 1 (ev e2 0) 0) (Some [0; 1]) ltac:(lra) ltac:(lra)) as (e3 & -> & _). cbn [obind ok].
  eexists. reflexivity.
Qed.
Print Assumptions C73_tangent.
Print Assumptions C73_pressure.
Print Assumptions C73_second_direction.
Print Assumptions C73_inside.
Print Assumptions C74_path.
Print Assumptions C74_path_refuted.
Print Assumptions C74_path_constant.
Print Assumptions C74_stable.
