(** C72: criticality conditions of mixtures. *)
From Coq Require Import Reals ZArith List Bool Lia Lra.
From Coquelicot Require Import Coquelicot.
From Verif Require Import Json_model Cubic_model Derivs_model Derivs_spec Derivs_proofs Derivs_proofs2 Pure_proofs Vec_spec Vec_proofs Iso_model Iso_spec Iso_proofs Properties_Iso
  Trace_model Critical_model Critical_spec Critical_proofs.
Import ListNotations.
Open Scope R_scope.

(** The derivatives of orders 2 to 4 are those of the Helmholtz energy density (with the
    mixing part) along the first eigenvector. *)
Theorem C72_derivatives : forall ad alphar Rgas Rg eigen T rho al tot ei k, AD_exact ad -> const_R Rgas Rg -> positive rho ->
  get_derivs ad alphar Rgas eigen T rho al = ok (tot, ei) -> (2 <= k <= 4)%nat ->
  (forall j, (j <= k)%nat -> locally 0 (fun s => ex_derive_n (fun s => Psi_r alphar Rgas T (moved rho (ev ei 0) s)) j s)) ->
  nth k tot 0 = Derive_n (fun s => Psi alphar Rgas T (moved rho (ev ei 0) s)) k 0.
Proof. intros ad alphar Rgas Rg eigen T rho al tot ei k Had (_ & HR) P H Hk S. now apply (get_derivs_ok ad alphar Rgas Rg eigen T rho al tot ei k). Qed.

(** The vectors are orthonormal eigenvectors of the Hessian matrix of the energy density, for
    the eigenvalues in increasing order, and the second derivative along the first of them is
    the smallest eigenvalue. *)
Theorem C72_eigenvalue : forall ad alphar Rgas Rg eigen T rho al tot ei, AD_exact ad -> const_R Rgas Rg -> positive rho -> smooth_rho alphar Rgas T rho ->
  decomposes eigen (length rho) (build_Psi_Hessian ad alphar Rgas T rho) -> get_derivs ad alphar Rgas eigen T rho al = ok (tot, ei) ->
  (forall k, (k < length rho)%nat -> eigenpair (length rho) (build_Psi_Hessian ad alphar Rgas T rho) (nth k (ed_values ei) 0) (ev ei k)) /\
  (forall j k, (j < length rho)%nat -> (k < length rho)%nat -> inner (length rho) (ev ei j) (ev ei k) = if Nat.eqb j k then 1 else 0) /\
  (forall k, (k < length rho)%nat -> nth 2 tot 0 <= nth k (ed_values ei) 0) /\ nth 2 tot 0 = nth 0 (ed_values ei) 0.
Proof.
  intros ad alphar Rgas Rg eigen T rho al tot ei Had (_ & HR) P S K D.
  assert (Q := tot2_quadratic ad alphar Rgas Rg eigen T rho al tot ei Had HR P S D).
  apply get_derivs_inv in D. destruct D as (D & _). assert (L := eigen_len _ _ _ _ _ _ _ _ D).
  destruct (eigen_problem_positive ad alphar Rgas eigen T rho al ei K P D) as (L1 & L2 & E & O & M).
  assert (Z : nth 2 tot 0 = nth 0 (ed_values ei) 0).
  { rewrite Q. apply curvature; [apply E; lia|]. rewrite O by lia. reflexivity. }
  split; [exact E|]. split; [exact O|]. split; [|exact Z]. intros k Hk. rewrite Z. apply M; lia.
Qed.
(** In a binary mixture it is the least curvature of the energy density in any direction. *)
Lemma ortho2 : forall p q r s, p * p + q * q = 1 -> r * r + s * s = 1 -> p * r + q * s = 0 -> p * p + r * r = 1 /\ q * q + s * s = 1 /\ p * q + r * s = 0.
Proof.
  intros p q r s A B C. set (d := p * s - q * r).
  assert (Er : r = - q * d).
  { unfold d. replace (- q * (p * s - q * r)) with (r * (p * p + q * q) - p * (p * r + q * s)) by ring. rewrite A, C. ring. }
  assert (Es : s = p * d).
  { unfold d. replace (p * (p * s - q * r)) with (s * (p * p + q * q) - q * (p * r + q * s)) by ring. rewrite A, C. ring. }
  assert (D : d * d = 1). { rewrite Er, Es in B. replace (- q * d * (- q * d) + p * d * (p * d)) with (d * d * (p * p + q * q)) in B by ring. rewrite A in B. lra. }
  rewrite Er, Es. split; [|split].
  - replace (p * p + - q * d * (- q * d)) with (p * p + q * q * (d * d)) by ring. rewrite D. lra.
  - replace (q * q + p * d * (p * d)) with (q * q + p * p * (d * d)) by ring. rewrite D. lra.
  - replace (p * q + - q * d * (p * d)) with (p * q * (1 - d * d)) by ring. rewrite D. lra.
Qed.
Theorem C72_least_curvature : forall ad alphar Rgas Rg eigen T a b al tot ei u w, AD_exact ad -> const_R Rgas Rg -> 0 < a -> 0 < b -> smooth_rho alphar Rgas T [a; b] ->
  decomposes eigen 2 (build_Psi_Hessian ad alphar Rgas T [a; b]) -> get_derivs ad alphar Rgas eigen T [a; b] al = ok (tot, ei) -> u * u + w * w = 1 ->
  nth 2 tot 0 <= sumn 2 (fun i => sumn 2 (fun j => entry (build_Psi_Hessian ad alphar Rgas T [a; b]) i j * nth i [u; w] 0 * nth j [u; w] 0)).
Proof.
  intros ad alphar Rgas Rg eigen T a b al tot ei u w Had HR Ha Hb S K D U.
  assert (P : positive [a; b]). { split; [cbn; lia|]. intros [|[|i]] Hi; cbn in *; auto; lia. }
  destruct (C72_eigenvalue ad alphar Rgas Rg eigen T [a; b] al tot ei Had HR P S K D) as (E & O & M & Z).
  cbn [length] in *. set (H := build_Psi_Hessian ad alphar Rgas T [a; b]) in *.
  destruct (E 0%nat ltac:(lia)) as (L0 & E0). destruct (E 1%nat ltac:(lia)) as (L1 & E1).
  assert (M1 := M 1%nat ltac:(lia)). rewrite Z in *.
  set (l0 := nth 0 (ed_values ei) 0) in *. set (l1 := nth 1 (ed_values ei) 0) in *.
  assert (O00 := O 0%nat 0%nat ltac:(lia) ltac:(lia)). assert (O01 := O 0%nat 1%nat ltac:(lia) ltac:(lia)). assert (O11 := O 1%nat 1%nat ltac:(lia) ltac:(lia)).
  assert (E00 := E0 0%nat ltac:(lia)). assert (E01 := E0 1%nat ltac:(lia)). assert (E10 := E1 0%nat ltac:(lia)). assert (E11 := E1 1%nat ltac:(lia)).
  destruct (ev ei 0) as [|p [|q [|]]]; try discriminate. destruct (ev ei 1) as [|r [|s [|]]]; try discriminate.
  unfold inner in *. cbn [sumn nth Nat.eqb] in *.
  assert (A0 : p * p + q * q = 1) by lra. assert (A1 : r * r + s * s = 1) by lra. assert (A2 : p * r + q * s = 0) by lra.
  destruct (ortho2 p q r s A0 A1 A2) as (B0 & B1 & B2).
  set (h00 := entry H 0 0) in *. set (h01 := entry H 0 1) in *. set (h10 := entry H 1 0) in *. set (h11 := entry H 1 1) in *.
  (* components in the basis *)
  set (x := u * p + w * q). set (y := u * r + w * s).
  assert (Eu : u = x * p + y * r). { unfold x, y. replace ((u * p + w * q) * p + (u * r + w * s) * r) with (u * (p * p + r * r) + w * (p * q + r * s)) by ring. rewrite B0, B2. ring. }
  assert (Ew : w = x * q + y * s). { unfold x, y. replace ((u * p + w * q) * q + (u * r + w * s) * s) with (w * (q * q + s * s) + u * (p * q + r * s)) by ring. rewrite B1, B2. ring. }
  assert (N : x * x + y * y = 1). { rewrite <- U. rewrite Eu at 1 2. rewrite Ew at 1 2. replace ((x * p + y * r) * (x * p + y * r) + (x * q + y * s) * (x * q + y * s)) with (x * x * (p * p + q * q) + y * y * (r * r + s * s) + 2 * x * y * (p * r + q * s)) by ring. rewrite A0, A1, A2. ring. }
  assert (Q : 0 + (0 + h00 * u * u + h01 * u * w) + (0 + h10 * w * u + h11 * w * w) = l0 * (x * x) + l1 * (y * y)).
  { clearbody x y. rewrite Eu, Ew.
    replace (0 + (0 + h00 * (x * p + y * r) * (x * p + y * r) + h01 * (x * p + y * r) * (x * q + y * s)) + (0 + h10 * (x * q + y * s) * (x * p + y * r) + h11 * (x * q + y * s) * (x * q + y * s)))
      with ((x * p + y * r) * (x * (0 + h00 * p + h01 * q) + y * (0 + h00 * r + h01 * s)) + (x * q + y * s) * (x * (0 + h10 * p + h11 * q) + y * (0 + h10 * r + h11 * s))) by ring.
    rewrite E00, E01, E10, E11.
    replace ((x * p + y * r) * (x * (l0 * p) + y * (l1 * r)) + (x * q + y * s) * (x * (l0 * q) + y * (l1 * s)))
      with (l0 * (x * x) * (p * p + q * q) + l1 * (y * y) * (r * r + s * s) + x * y * (l0 + l1) * (p * r + q * s)) by ring.
    rewrite A0, A1, A2. ring. }
  rewrite Q. assert (0 <= y * y) by (apply Rle_0_sqr). assert (l0 * (x * x) + l0 * (y * y) = l0) by (rewrite <- Rmult_plus_distr_l, N; ring).
  assert (l0 * (y * y) <= l1 * (y * y)) by (apply Rmult_le_compat_r; auto). lra.
Qed.
(** The criticality conditions: smallest eigenvalue and third derivative along its vector. *)
Theorem C72_conditions : forall ad alphar Rgas Rg eigen T rho cs, AD_exact ad -> const_R Rgas Rg -> positive rho -> smooth_rho alphar Rgas T rho ->
  decomposes eigen (length rho) (build_Psi_Hessian ad alphar Rgas T rho) -> get_criticality_conditions ad alphar Rgas eigen T rho = ok cs ->
  exists l c v, cs = [l; c] /\ eigenpair (length rho) (build_Psi_Hessian ad alphar Rgas T rho) l v /\ inner (length rho) v v = 1 /\
    (forall k, (k < length rho)%nat -> l <= nth k (fst (eigen (build_Psi_Hessian ad alphar Rgas T rho))) 0) /\
    ((forall j, (j <= 3)%nat -> locally 0 (fun s => ex_derive_n (fun s => Psi_r alphar Rgas T (moved rho v s)) j s)) ->
     c = Derive_n (fun s => Psi alphar Rgas T (moved rho v s)) 3 0).
Proof.
  intros ad alphar Rgas Rg eigen T rho cs Had HR P S K H. unfold get_criticality_conditions in H.
  destruct (get_derivs ad alphar Rgas eigen T rho (Some [])) as [[(tot, ei)|]|] eqn:D; cbn [obind] in H; try discriminate.
  destruct (C72_eigenvalue ad alphar Rgas Rg eigen T rho _ tot ei Had HR P S K D) as (E & O & M & Z).
  assert (D' := D). apply get_derivs_inv in D'. destruct D' as (D' & _). assert (L := eigen_len _ _ _ _ _ _ _ _ D').
  exists (nth 2 tot 0), (nth 3 tot 0), (ev ei 0). unfold ok in H. split; [congruence|]. rewrite Z at 1. split; [apply E; lia|]. split; [apply O; lia|]. split.
  - intros k Hk. specialize (M k Hk).
    assert (V : ed_values ei = fst (eigen (build_Psi_Hessian ad alphar Rgas T rho))).
    { unfold eigen_problem in D'. destruct (Nat.ltb_spec (length rho) 2); [lia|]. rewrite all_nonzero_filter, crit_hessian_positive in D' by auto. cbn [length] in D'.
      destruct (eigen (build_Psi_Hessian ad alphar Rgas T rho)) as [vals vecs]. unfold ok in D'. cbn [aligned] in D'. now inversion D'. }
    now rewrite <- V.
  - intros Sm. apply (C72_derivatives ad alphar Rgas Rg eigen T rho (Some []) tot ei 3 Had HR P D ltac:(lia) Sm).
Qed.

(** ** Infinite dilution *)
Definition pure_state (k : nat) (x : R) : list R := match k with O => [x; 0] | _ => [0; x] end.
(** The conditions of a binary mixture in which one component is absent are those of the
    pure fluid: the derivatives of its own energy density, up to the sign of the direction. *)
Theorem C72_dilute : forall ad alphar Rgas Rg eigen T r k al tot ei, AD_exact ad -> const_R Rgas Rg -> 0 < r -> (k < 2)%nat ->
  decomposes eigen 1 [[entry (build_Psir_Hessian ad alphar Rgas T (pure_state k r)) k k + Rg * T / r]] ->
  get_derivs ad alphar Rgas eigen T (pure_state k r) al = ok (tot, ei) ->
  exists c, (c = 1 \/ c = -1) /\ ev ei 0 = pure_state k c /\ ev ei 1 = pure_state (1 - k) 1 /\
    forall j, (2 <= j <= 4)%nat -> locally r (fun x => forall i, (i <= j)%nat -> ex_derive_n (fun x => Psi_r alphar Rgas T (pure_state k x)) i x) ->
      nth j tot 0 = c ^ j * Derive_n (fun x => Psi_r alphar Rgas T (pure_state k x) + Rg * T * (x * ln x)) j r.
Proof.
  intros ad alphar Rgas Rg eigen T r k al tot ei Had (_ & HR) Hr Hk K D. apply get_derivs_inv in D. destruct D as (D & Et).
  assert (E0 : is0 0 = true) by (unfold is0; destruct (Req_EM_T 0 0); [reflexivity|lra]). assert (E1 := is0_pos r Hr).
  assert (V : exists c, (c = 1 \/ c = -1) /\ ev ei 0 = pure_state k c /\ ev ei 1 = pure_state (1 - k) 1).
  { unfold eigen_problem in D. unfold decomposes in K.
    assert (Al : forall c al vals x, (c = 1 \/ c = -1) -> let d := aligned al {| ed_values := vals; ed_vectors := [pure_state k c; x] |} in
      exists c', (c' = 1 \/ c' = -1) /\ ev d 0 = pure_state k c' /\ ev d 1 = x).
    { intros c al' vals x Hc. unfold aligned, ev. cbn [ed_vectors ed_values nth tl]. destruct al' as [[|y l]|]; [exists c; auto| |exists c; auto].
      destruct (rlt _ 0); [|exists c; auto]. cbn [ed_vectors nth]. exists (- c). split; [destruct Hc as [->| ->]; [right|left]; ring|]. split; [|reflexivity].
      destruct k; unfold scaled, pure_state; cbn [map]; repeat f_equal; ring. }
    destruct k as [|[|k]]; [| |lia]; cbn [pure_state] in *.
    - cbn [length Nat.ltb Nat.leb map filter] in D. rewrite E0, E1 in D. cbn [negb filter length] in D.
      assert (Hh : map (kept [true; false]) (kept [true; false] (crit_hessian ad alphar Rgas T [r; 0])) = [[entry (build_Psir_Hessian ad alphar Rgas T [r; 0]) 0 0 + Rg * T / r]]).
      { unfold crit_hessian. cbn [length seq map kept each nth Nat.eqb andb]. rewrite E1, HR. reflexivity. }
      rewrite Hh in D. clear Hh. destruct (eigen _) as [vals vecs]. destruct K as (L1 & L2 & E & O & _).
      destruct vecs as [|w [|]]; try discriminate. cbn [nth] in *. destruct (E 0%nat ltac:(lia)) as (Lw & _). assert (O' := O 0%nat 0%nat ltac:(lia) ltac:(lia)).
      destruct w as [|c [|]]; try discriminate. cbn [nth sumn inner Nat.eqb] in O'. unfold inner in O'. cbn [sumn nth] in O'.
      assert (Hc : c = 1 \/ c = -1) by (assert (Q : (c - 1) * (c + 1) = 0) by lra; apply Rmult_integral in Q; lra).
      cbn [padded length Nat.sub repeat app map] in D. destruct (Al c al vals [0; 1] Hc) as (c' & Hc' & A & B). cbn [pure_state] in *.
      exists c'. assert (Q : ei = aligned al {| ed_values := vals; ed_vectors := [[c; 0]; [0; 1]] |}) by (unfold ok in D; congruence). rewrite Q. auto.
    - cbn [length Nat.ltb Nat.leb map filter] in D. rewrite E0, E1 in D. cbn [negb filter length] in D.
      assert (Hh : map (kept [false; true]) (kept [false; true] (crit_hessian ad alphar Rgas T [0; r])) = [[entry (build_Psir_Hessian ad alphar Rgas T [0; r]) 1 1 + Rg * T / r]]).
      { unfold crit_hessian. cbn [length seq map kept each nth Nat.eqb andb]. rewrite E1, HR. reflexivity. }
      rewrite Hh in D. clear Hh. destruct (eigen _) as [vals vecs]. destruct K as (L1 & L2 & E & O & _).
      destruct vecs as [|w [|]]; try discriminate. cbn [nth] in *. destruct (E 0%nat ltac:(lia)) as (Lw & _). assert (O' := O 0%nat 0%nat ltac:(lia) ltac:(lia)).
      destruct w as [|c [|]]; try discriminate. cbn [nth sumn inner Nat.eqb] in O'. unfold inner in O'. cbn [sumn nth] in O'.
      assert (Hc : c = 1 \/ c = -1) by (assert (Q : (c - 1) * (c + 1) = 0) by lra; apply Rmult_integral in Q; lra).
      cbn [padded length Nat.sub repeat app map] in D. destruct (Al c al vals [1; 0] Hc) as (c' & Hc' & A & B). cbn [pure_state] in *.
      exists c'. assert (Q : ei = aligned al {| ed_values := vals; ed_vectors := [[0; c]; [1; 0]] |}) by (unfold ok in D; congruence). rewrite Q. auto. }
  destruct V as (c & Hc & V0 & V1). exists c. split; [exact Hc|]. split; [exact V0|]. split; [exact V1|].
  intros j Hj Sm. rewrite Et, tot_nth by lia. rewrite V0.
  set (g := fun x => Psi_r alphar Rgas T (pure_state k x)) in *.
  assert (Mv : forall s, moved (pure_state k r) (pure_state k c) s = pure_state k (r + s * c)).
  { intro s. destruct k; unfold moved, pure_state; cbn [length seq map nth]; repeat f_equal; ring. }
  assert (SmL : locally 0 (fun s => forall i, (i <= j)%nat -> ex_derive_n (fun s => g (r + s * c)) i s)).
  { destruct Sm as (d & Hd). exists d. intros s Hs i Hi.
    apply (ex_derive_n_ext (fun s => (fun y => g (y + r)) (c * s))); [intro t; f_equal; ring|].
    apply (ex_derive_n_comp_scal (fun y => g (y + r)) c i s).
    exists (mkposreal (d - Rabs s) ltac:(unfold ball in Hs; cbn in Hs; unfold AbsRing_ball, abs, minus, plus, opp in Hs; cbn in Hs; rewrite Ropp_0, Rplus_0_r in Hs; lra)).
    intros y Hy i' Hi'. apply (ex_derive_n_comp_trans g i' y r). apply Hd; [|lia].
    unfold ball in *. cbn in *. unfold AbsRing_ball, abs, minus, plus, opp in *. cbn in *. rewrite Ropp_0, Rplus_0_r in Hs.
    replace (y + r + - r) with ((y + - (c * s)) + c * s) by ring. eapply Rle_lt_trans; [apply Rabs_triang|].
    rewrite (Rabs_mult c s). replace (Rabs c) with 1; [lra|]. destruct Hc as [->| ->]; unfold Rabs; destruct (Rcase_abs _); lra. }
  rewrite (sigma_ok ad Had alphar Rgas T (pure_state k r) (pure_state k c) j ltac:(lia)).
  2: { apply (ex_derive_n_ext (fun s => g (r + s * c))); [|apply (locally_singleton _ _ SmL); lia].
       intro s. unfold g. rewrite <- Mv. reflexivity. }
  rewrite (Derive_n_ext _ (fun s => g (r + s * c))) by (intro s; unfold g; rewrite <- Mv; reflexivity).
  rewrite (Derive_n_line g r c j Sm).
  assert (I0 : nth j (psi0_derivs Rgas T (pure_state k r) (pure_state k c)) 0 = Rg * T * ideal_chain r c j 0).
  { destruct k; [apply (sigma_psi0_dilute Rgas Rg T r c j HR Hr Hj)|apply (sigma_psi0_dilute Rgas Rg T r c j HR Hr Hj)]. }
  rewrite I0.
  assert (C : forall i, (i < 4)%nat -> locally r (fun x => is_derive (fun x => Rg * T * ideal_chain x 1 i 0) x (Rg * T * ideal_chain x 1 (S i) 0))).
  { intros i Hi. exists (mkposreal r Hr). intros x Hx. unfold ball in Hx. cbn in Hx. unfold AbsRing_ball, abs, minus, plus, opp in Hx. cbn in Hx.
    apply Rabs_def2 in Hx. assert (Px : 0 < x) by lra. apply is_derive_lin.
    apply (is_derive_ext (fun x => ideal_chain 0 1 i x)); [intro t; unfold ideal_chain; replace (t + 0 * 1) with (0 + t * 1) by ring; reflexivity|].
    eapply is_derive_eq; [|apply (ideal_chain_ok 0 1 x i Hi); lra].
    unfold ideal_chain. replace (x + 0 * 1) with (0 + x * 1) by ring. reflexivity. }
  rewrite Derive_n_plus.
  - rewrite Rmult_plus_distr_l, Rplus_comm. f_equal.
    rewrite (Derive_n_ext (fun x => Rg * T * (x * ln x)) (fun x => Rg * T * ideal_chain x 1 0 0)).
    2: { intro t. unfold ideal_chain. rewrite Rmult_0_l, Rplus_0_r. reflexivity. }
    assert (Q := locally_singleton _ _ (chain_derive (fun i x => Rg * T * ideal_chain x 1 i 0) r 4 C j ltac:(lia))). cbv beta in Q. rewrite Q.
    unfold ideal_chain. destruct j as [|[|[|[|[|]]]]]; try lia; rewrite ?Rmult_0_l, ?Rplus_0_r; field; lra.
  - eapply filter_imp; [|exact Sm]. cbv beta. intros x Hx i Hi. apply Hx. lia.
  - assert (A : locally r (fun x => forall i, (i < 4)%nat -> is_derive (fun x => Rg * T * ideal_chain x 1 i 0) x (Rg * T * ideal_chain x 1 (S i) 0))).
    { apply (locally_sumn 4 (fun i x => is_derive (fun x => Rg * T * ideal_chain x 1 i 0) x (Rg * T * ideal_chain x 1 (S i) 0))). exact C. }
    eapply filter_imp; [|exact (locally_locally _ _ A)]. cbv beta. intros x Hx i Hi.
    apply (ex_derive_n_ext (fun x => Rg * T * ideal_chain x 1 0 0)).
    { intro t. unfold ideal_chain. rewrite Rmult_0_l, Rplus_0_r. reflexivity. }
    apply (chain_ex (fun i x => Rg * T * ideal_chain x 1 i 0) x 4); [|lia]. intros i' Hi'. eapply filter_imp; [|exact Hx]. cbv beta. auto.
Qed.
(** With three components of which one is absent the second vector is zero: no eigenvector. *)
Theorem C72_dilute_ternary_refuted : exists eigen T rho ei, AD_exact exact_ad /\ const_R one_R 1 /\ length rho = 3%nat /\
  length (filter (fun r => negb (is0 r)) rho) = 2%nat /\ decomposes eigen 2 [[1 * T / nth 0 rho 0; 0]; [0; 1 * T / nth 1 rho 0]] /\
  eigen_problem exact_ad no_alphar one_R eigen T rho None = ok ei /\ inner 3 (ev ei 1) (ev ei 1) = 0.
Proof.
  assert (E0 : is0 0 = true) by (unfold is0; destruct (Req_EM_T 0 0); [reflexivity|lra]). assert (E1 := is0_pos 1 Rlt_0_1).
  exists diag_eigen, 1, [1; 1; 0].
  eexists. split; [exact exact_AD|]. split; [split; [lra|reflexivity]|]. split; [reflexivity|].
  split; [cbn [filter]; rewrite E0, E1; reflexivity|]. split; [apply diag_eigen_ok|].
  unfold eigen_problem. cbn [length Nat.ltb Nat.leb map filter]. rewrite E0, E1. cbn [negb filter length].
  unfold crit_hessian. rewrite ideal_hessian. cbn [length repeat seq map each nth Nat.eqb andb kept]. rewrite E1.
  unfold each. cbn [length seq map nth Nat.eqb andb kept negb].
  unfold diag_eigen, entry. cbn [nth]. unfold one_R. destruct (Rle_dec _ _) as [L|L]; [|exfalso; apply L; lra].
  cbn [padded Nat.sub repeat app aligned]. split; [reflexivity|]. unfold inner, ev. cbn [ed_vectors nth sumn]. ring.
Qed.

(** ** Refusals and directions *)
Theorem C72_refusals : forall ad alphar Rgas eigen T rho al, (2 <= length rho)%nat ->
  (exists i j, (i < j < length rho)%nat /\ nth i rho 0 = 0 /\ nth j rho 0 = 0) <->
  eigen_problem ad alphar Rgas eigen T rho al = throws StdInvalidArgument.
Proof.
  intros ad alphar Rgas eigen T rho al L.
  assert (C : (exists i j, (i < j < length rho)%nat /\ nth i rho 0 = 0 /\ nth j rho 0 = 0) <-> (2 <= length (filter negb (map (fun r => negb (is0 r)) rho)))%nat).
  { clear L. assert (B : forall l, (exists i, (i < length l)%nat /\ nth i l 0 = 0) <-> (1 <= length (filter negb (map (fun r => negb (is0 r)) l)))%nat).
    { induction l as [|r l IH]; [split; [intros (i & H & _); cbn in H; lia|cbn; lia]|]. cbn [map filter length]. unfold is0 at 1. destruct (Req_EM_T r 0) as [->|N]; cbn [negb].
      - cbn [length]. split; [lia|]. intros _. exists 0%nat. split; [lia|reflexivity].
      - rewrite <- IH. split.
        + intros ([|i] & H & E); [contradiction|]. exists i. split; [lia|exact E].
        + intros (i & H & E). exists (S i). split; [lia|exact E]. }
    induction rho as [|r l IH]; [split; [intros (i & j & H & _); cbn in H; lia|cbn; lia]|]. cbn [map filter length]. unfold is0 at 1. destruct (Req_EM_T r 0) as [->|N]; cbn [negb].
    - cbn [length]. split.
      + intros (i & [|j] & H & E1 & E2); [lia|]. apply le_n_S, B. exists j. split; [lia|exact E2].
      + intro H. apply le_S_n, B in H. destruct H as (j & H & E). exists 0%nat, (S j). repeat split; [lia|lia|exact E].
    - rewrite <- IH. split.
      + intros ([|i] & [|j] & H & E1 & E2); [lia|contradiction|lia|]. exists i, j. repeat split; try lia; assumption.
      + intros (i & j & H & E1 & E2). exists (S i), (S j). repeat split; try lia; assumption. }
  rewrite C. unfold eigen_problem. destruct (Nat.ltb_spec (length rho) 2) as [|_]; [lia|].
  destruct (length (filter negb (map (fun r => negb (is0 r)) rho))) as [|[|k]].
  - split; [lia|]. destruct (eigen _); unfold ok, throws; discriminate.
  - split; [lia|]. destruct (eigen _); unfold ok, throws; discriminate.
  - split; [reflexivity|lia].
Qed.
(** The first vector does not point against the one it is aligned with. *)
Theorem C72_aligned : forall ad alphar Rgas eigen T rho a ei, a <> [] -> eigen_problem ad alphar Rgas eigen T rho (Some a) = ok ei ->
  0 <= sumn (length (ev ei 0)) (fun i => nth i (ev ei 0) 0 * nth i a 0).
Proof.
  intros ad alphar Rgas eigen T rho a ei Ha H.
  assert (K : exists d, ei = aligned (Some a) d).
  { unfold eigen_problem in H. destruct (Nat.ltb _ _); [discriminate|]. destruct (length (filter _ _)) as [|[|k]]; [| |discriminate]; destruct (eigen _) as [vals vecs];
      eexists; unfold ok in H; injection H as H; symmetry; exact H. }
  destruct K as (d & ->). unfold aligned. destruct a as [|x a]; [contradiction|]. unfold rlt. destruct (Rlt_dec (vdot (ev d 0) (x :: a)) 0) as [L|L].
  - set (w := scaled (-1) (ev d 0)). change (ev {| ed_values := ed_values d; ed_vectors := w :: tl (ed_vectors d) |} 0) with w. unfold w. rewrite scaled_length. rewrite vdot_sumn in L.
    rewrite (sumn_ext _ _ (fun i => -1 * (nth i (ev d 0) 0 * nth i (x :: a) 0))) by (intros i Hi; rewrite scaled_nth; ring).
    rewrite sumn_scal. lra.
  - rewrite vdot_sumn in L. lra.
Qed.
(** Without that the direction depends on the signs that the solver returns, in spite of what
    the comment of the code says: two solvers give opposite vectors at the same state. *)
Definition other_eigen (H : list (list R)) : list R * list (list R) :=
  let '(vals, vecs) := diag_eigen H in (vals, match vecs with [v; w] => [scaled (-1) v; w] | _ => vecs end).
Theorem C72_direction_refuted : exists e1 e2 T rho d1 d2, positive rho /\ decomposes e1 2 (build_Psi_Hessian exact_ad no_alphar one_R T rho) /\
  decomposes e2 2 (build_Psi_Hessian exact_ad no_alphar one_R T rho) /\ eigen_problem exact_ad no_alphar one_R e1 T rho None = ok d1 /\
  eigen_problem exact_ad no_alphar one_R e2 T rho None = ok d2 /\ ev d2 0 = map Ropp (ev d1 0) /\ ev d1 0 <> ev d2 0.
Proof.
  assert (P : positive [2; 1]). { split; [cbn; lia|]. intros [|[|i]] Hi; cbn in *; try lia; lra. }
  assert (D : decomposes diag_eigen 2 (build_Psi_Hessian exact_ad no_alphar one_R 1 [2; 1])) by (rewrite ideal_Psi_hessian; apply diag_eigen_ok).
  exists diag_eigen, other_eigen, 1, [2; 1]. do 2 eexists. split; [exact P|]. split; [exact D|].
  assert (A1 : argmin [2; 1] = 1%nat). { unfold argmin, argmin_from, rlt. destruct (Rlt_dec 1 2); [reflexivity|lra]. }
  assert (H0 : diag_eigen [[1 * 1 / 2; 0]; [0; 1 * 1 / 1]] = ([1 * 1 / 2; 1 * 1 / 1], [[1; 0]; [0; 1]])).
  { unfold diag_eigen, entry. cbn [nth]. destruct (Rle_dec _ _); [reflexivity|lra]. }
  assert (D2 : decomposes other_eigen 2 (build_Psi_Hessian exact_ad no_alphar one_R 1 [2; 1])).
  { rewrite ideal_Psi_hessian in *. unfold decomposes, other_eigen in *. rewrite H0 in *. destruct D as (L1 & L2 & E & O & M).
    split; [exact L1|]. split; [reflexivity|]. split; [|split; [|exact M]].
    - intros [|k] Hk; [apply eigenpair_scaled; exact (E 0%nat Hk)|exact (E (S k) Hk)].
    - intros [|[|j]] [|[|k]] Hj Hk; try lia; unfold inner, scaled; cbn [map nth sumn Nat.eqb]; ring. }
  split; [exact D2|].
  assert (F0 : filter negb (map (fun r => negb (is0 r)) [2; 1]) = []) by (apply all_nonzero_filter, P).
  assert (N0 : rlt 0 0 = false) by (unfold rlt; destruct (Rlt_dec 0 0); [lra|reflexivity]).
  assert (N1 : rlt 1 0 = false) by (unfold rlt; destruct (Rlt_dec 1 0); [lra|reflexivity]).
  unfold eigen_problem. cbn [length Nat.ltb Nat.leb]. rewrite F0, !crit_hessian_positive, ideal_Psi_hessian, A1 by exact P. cbn [length].
  unfold other_eigen. rewrite H0. cbn [nth existsb]. rewrite N0, N1. cbn [orb aligned].
  split; [reflexivity|]. split; [reflexivity|]. unfold ev, scaled. cbn [ed_vectors nth map]. split.
  - repeat f_equal; ring.
  - intro E. injection E as E. lra.
Qed.
(** What the theorems need is met. *)
Example C72_met : exists tot ei, AD_exact exact_ad /\ const_R one_R 1 /\ positive [2; 1] /\ smooth_rho no_alphar one_R 1 [2; 1] /\
  decomposes diag_eigen (length [2; 1]) (build_Psi_Hessian exact_ad no_alphar one_R 1 [2; 1]) /\ get_derivs exact_ad no_alphar one_R diag_eigen 1 [2; 1] None = ok (tot, ei) /\
  (forall k j, (j <= k)%nat -> locally 0 (fun s => ex_derive_n (fun s => Psi_r no_alphar one_R 1 (moved [2; 1] (ev ei 0) s)) j s)).
Proof.
  assert (P : positive [2; 1]). { split; [cbn; lia|]. intros [|[|i]] Hi; cbn in *; try lia; lra. }
  assert (F0 : filter negb (map (fun r => negb (is0 r)) [2; 1]) = []) by (apply all_nonzero_filter, P).
  assert (G : exists tot ei, get_derivs exact_ad no_alphar one_R diag_eigen 1 [2; 1] None = ok (tot, ei)).
  { unfold get_derivs, eigen_problem. cbn [length Nat.ltb Nat.leb]. rewrite F0. cbn [length]. destruct (diag_eigen _) as [vals vecs]. cbn [obind ok]. do 2 eexists. reflexivity. }
  destruct G as (tot & ei & G). exists tot, ei. split; [exact exact_AD|]. split; [split; [lra|reflexivity]|]. split; [exact P|]. split; [apply ideal_smooth|].
  split; [cbn [length]; rewrite ideal_Psi_hessian; apply diag_eigen_ok|]. split; [exact G|].
  intros k j _. apply filter_forall. intro s. apply (ex_derive_n_ext (fun _ => 0)).
  - intro t. unfold Psi_r, no_alphar. ring.
  - destruct j; [exact I|]. apply (ex_derive_n_const 0 (S j)).
Qed.
(** and those about a pure fluid in a binary mixture *)
Definition one_eigen (H : list (list R)) : list R * list (list R) := ([entry H 0 0], [[1]]).
Example C72_dilute_met : exists tot ei, decomposes one_eigen 1 [[entry (build_Psir_Hessian exact_ad no_alphar one_R 1 (pure_state 0 2)) 0 0 + 1 * 1 / 2]] /\
  get_derivs exact_ad no_alphar one_R one_eigen 1 (pure_state 0 2) None = ok (tot, ei) /\
  (forall j, locally 2 (fun x => forall i, (i <= j)%nat -> ex_derive_n (fun x => Psi_r no_alphar one_R 1 (pure_state 0 x)) i x)).
Proof.
  assert (E0 : is0 0 = true) by (unfold is0; destruct (Req_EM_T 0 0); [reflexivity|lra]). assert (E1 := is0_pos 2 ltac:(lra)).
  assert (G : exists tot ei, get_derivs exact_ad no_alphar one_R one_eigen 1 (pure_state 0 2) None = ok (tot, ei)).
  { unfold get_derivs, eigen_problem, pure_state. cbn [Nat.eqb length Nat.ltb Nat.leb map filter]. rewrite E0, E1. cbn [negb filter length]. unfold one_eigen. cbn [obind ok]. do 2 eexists. reflexivity. }
  destruct G as (tot & ei & G). exists tot, ei. split; [|split; [exact G|]].
  - unfold decomposes, one_eigen. split; [reflexivity|]. split; [reflexivity|]. split; [|split].
    + intros k Hk. replace k with 0%nat by lia. split; [reflexivity|]. intros i Hi. replace i with 0%nat by lia. cbn [sumn nth]. ring.
    + intros j k Hj Hk. replace j with 0%nat by lia. replace k with 0%nat by lia. unfold inner. cbn [sumn nth Nat.eqb]. ring.
    + intros j k Hj Hk. replace k with 0%nat in * by lia. replace j with 0%nat by lia. apply Rle_refl.
  - intros j. apply filter_forall. intros x i _. apply (ex_derive_n_ext (fun _ => 0)); [intro t; unfold Psi_r, no_alphar; ring|].
    destruct i; [exact I|]. apply (ex_derive_n_const 0 (S i)).
Qed.
Print Assumptions C72_derivatives.
Print Assumptions C72_eigenvalue.
Print Assumptions C72_least_curvature.
Print Assumptions C72_conditions.
Print Assumptions C72_dilute.
Print Assumptions C72_dilute_ternary_refuted.
Print Assumptions C72_refusals.
Print Assumptions C72_aligned.
Print Assumptions C72_direction_refuted.
