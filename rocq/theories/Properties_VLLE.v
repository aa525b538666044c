(** C46: three-phase equilibria of binary mixtures at given temperature or pressure. *)
From Coq Require Import Reals ZArith List Bool Lia Lra.
From Coquelicot Require Import Coquelicot.
From Verif Require Import Json_model Cubic_model Derivs_model Derivs_spec Derivs_proofs Vec_spec Vec_proofs Iso_model Iso_spec Iso_proofs Properties_Iso
  Trace_spec Trace_proofs Properties_Trace PhaseEq_model PhaseEq_spec PhaseEq_proofs PhaseEq_proofs2 Properties_PhaseEq
  Float_model VLE_model VLE_spec VLE_proofs VLE_proofs2 VLE_proofs3 Properties_VLE VLLE_model VLLE_spec VLLE_proofs.
Import ListNotations.
Open Scope R_scope.

(** ** The equations *)
Lemma forall6 : forall a b c d e f, List.Forall (fun v : R => v = 0) [a; b; c; d; e; f] <-> a = 0 /\ b = 0 /\ c = 0 /\ d = 0 /\ e = 0 /\ f = 0.
Proof. intros. rewrite !Forall_cons_iff. intuition. Qed.
Lemma zero_iff : forall ad alphar Rgas Rg T V L1 L2 GV GL1 GL2, AD_exact ad -> const_R Rgas Rg -> 0 < T ->
  length V = 2%nat -> length L1 = 2%nat -> length L2 = 2%nat -> positive V -> positive L1 -> positive L2 ->
  smooth_joint alphar Rgas T V -> smooth_joint alphar Rgas T L1 -> smooth_joint alphar Rgas T L2 ->
  gradient_of alphar Rgas T V GV -> gradient_of alphar Rgas T L1 GL1 -> gradient_of alphar Rgas T L2 GL2 ->
  (List.Forall (fun v => v = 0) (res_rows ad alphar Rgas Rg T V L1 L2) <-> three_phase alphar Rgas Rg T V L1 L2 GV GL1 GL2).
Proof.
  intros ad alphar Rgas Rg T V L1 L2 GV GL1 GL2 Had [R0 HR] HT NV N1 N2 PV P1 P2 SV S1 S2 HV H1 H2.
  unfold res_rows. rewrite forall6. rewrite !(qp_val ad Had alphar Rgas Rg HR R0) by auto.
  assert (A : forall i, (i < 2)%nat -> (mu ad alphar Rgas Rg T V i + - mu ad alphar Rgas Rg T L1 i = 0 <-> fugacity Rg T V GV i = fugacity Rg T L1 GL1 i))
    by (intros i Hi; apply (mu_fugacity ad Had alphar Rgas Rg R0 T V L1 GV GL1 i HT PV P1); auto; lia).
  assert (B : forall i, (i < 2)%nat -> (mu ad alphar Rgas Rg T L1 i + - mu ad alphar Rgas Rg T L2 i = 0 <-> fugacity Rg T L1 GL1 i = fugacity Rg T L2 GL2 i))
    by (intros i Hi; apply (mu_fugacity ad Had alphar Rgas Rg R0 T L1 L2 GL1 GL2 i HT P1 P2); auto; lia).
  unfold three_phase, two_phase. rewrite NV, N1. split.
  - intros (C0 & C1 & C2 & C3 & C4 & C5). split; (split; [intros [|[|i]] Hi; [| |lia]|lra]); first [now apply A|now apply B].
  - intros [[X0 X1] [Y0 Y1]]. repeat split; try lra; first [apply A; [lia|apply X0; lia]|apply B; [lia|apply Y0; lia]].
Qed.
(** The residual vanishes exactly at the three-phase states; at given pressure, at those
    with that pressure. *)
Theorem C46_T_equations : forall ad alphar Rgas Rg m T V L1 L2 GV GL1 GL2,
  AD_exact ad -> const_R Rgas Rg -> evaluates ad alphar Rgas m -> 0 < T ->
  length V = 2%nat -> length L1 = 2%nat -> length L2 = 2%nat -> positive V -> positive L1 -> positive L2 ->
  smooth_joint alphar Rgas T V -> smooth_joint alphar Rgas T L1 -> smooth_joint alphar Rgas T L2 ->
  gradient_of alphar Rgas T V GV -> gradient_of alphar Rgas T L1 GL1 -> gradient_of alphar Rgas T L2 GL2 ->
  exists r J, vlle_T_assemble m (Fin T) (fin (V ++ L1 ++ L2)) = ok (fin r, J) /\
    (List.Forall (fun v => v = 0) r <-> three_phase alphar Rgas Rg T V L1 L2 GV GL1 GL2).
Proof.
  intros ad alphar Rgas Rg m T V L1 L2 GV GL1 GL2 Had CR EV HT NV N1 N2 PV P1 P2 SV S1 S2 HV H1 H2. destruct CR as [R0 HR].
  eexists _, _. split; [apply (vlle_T_fin ad alphar Rgas Rg HR m EV); auto|]. apply zero_iff; auto. now split.
Qed.
Theorem C46_p_equations : forall ad alphar Rgas Rg m p T V L1 L2 GV GL1 GL2,
  AD_exact ad -> const_R Rgas Rg -> evaluates ad alphar Rgas m -> 0 < T ->
  length V = 2%nat -> length L1 = 2%nat -> length L2 = 2%nat -> positive V -> positive L1 -> positive L2 ->
  smooth_joint alphar Rgas T V -> smooth_joint alphar Rgas T L1 -> smooth_joint alphar Rgas T L2 ->
  gradient_of alphar Rgas T V GV -> gradient_of alphar Rgas T L1 GL1 -> gradient_of alphar Rgas T L2 GL2 ->
  exists r J, vlle_p_assemble m (Fin p) (fin (V ++ L1 ++ L2 ++ [T])) = ok (fin r, J) /\
    (List.Forall (fun v => v = 0) r <-> three_phase alphar Rgas Rg T V L1 L2 GV GL1 GL2 /\ p_of alphar Rgas T V = p).
Proof.
  intros ad alphar Rgas Rg m p T V L1 L2 GV GL1 GL2 Had CR EV HT NV N1 N2 PV P1 P2 SV S1 S2 HV H1 H2. destruct CR as [R0 HR].
  eexists _, _. split; [apply (vlle_p_fin ad alphar Rgas Rg HR m EV); auto|].
  rewrite Forall_app. rewrite (zero_iff ad alphar Rgas Rg T V L1 L2 GV GL1 GL2) by (auto; now split).
  rewrite (qp_val ad Had alphar Rgas Rg HR R0) by auto. split; intros [A B]; (split; [exact A|]).
  - apply Forall_inv in B. lra.
  - constructor; [lra|constructor].
Qed.
(** The matrix of the Newton step is the Jacobian of the residual. *)
Theorem C46_T_jacobian : forall ad alphar Rgas Rg m T V L1 L2,
  AD_exact ad -> const_R Rgas Rg -> evaluates ad alphar Rgas m -> 0 < T ->
  length V = 2%nat -> length L1 = 2%nat -> length L2 = 2%nat -> positive V -> positive L1 -> positive L2 ->
  smooth_joint alphar Rgas T V -> smooth_joint alphar Rgas T L1 -> smooth_joint alphar Rgas T L2 ->
  exists r J, vlle_T_assemble m (Fin T) (fin (V ++ L1 ++ L2)) = ok (fin r, fins J) /\
    has_jacobian (fun y => obind (vlle_T_assemble m (Fin T) (fin y)) (fun q => ok (fst q))) (V ++ L1 ++ L2) r J.
Proof.
  intros ad alphar Rgas Rg m T V L1 L2 Had [R0 HR] EV HT NV N1 N2 PV P1 P2 SV S1 S2. eexists _, _. split.
  - apply (vlle_T_fin ad alphar Rgas Rg HR m EV); auto.
  - apply (vlle_T_jac ad Had alphar Rgas Rg HR R0 m EV T V L1 L2); auto.
Qed.
Theorem C46_p_jacobian : forall ad alphar Rgas Rg m p T V L1 L2,
  AD_exact ad -> const_R Rgas Rg -> evaluates ad alphar Rgas m -> 0 < T ->
  length V = 2%nat -> length L1 = 2%nat -> length L2 = 2%nat -> positive V -> positive L1 -> positive L2 ->
  smooth_joint alphar Rgas T V -> smooth_joint alphar Rgas T L1 -> smooth_joint alphar Rgas T L2 ->
  exists r J, vlle_p_assemble m (Fin p) (fin (V ++ L1 ++ L2 ++ [T])) = ok (fin r, fins J) /\
    has_jacobian (fun y => obind (vlle_p_assemble m (Fin p) (fin y)) (fun q => ok (fst q))) (V ++ L1 ++ L2 ++ [T]) r J.
Proof.
  intros ad alphar Rgas Rg m p T V L1 L2 Had [R0 HR] EV HT NV N1 N2 PV P1 P2 SV S1 S2. eexists _, _. split.
  - apply (vlle_p_fin ad alphar Rgas Rg HR m EV); auto.
  - apply (vlle_p_jac ad Had alphar Rgas Rg HR R0 m EV T V L1 L2 HT NV N1 N2 PV P1 P2 SV S1 S2 p).
Qed.
Example C46_jacobian_met : let m := eos_of partialN ex_alphar ex_R in
  (exists r J, vlle_T_assemble m (Fin 1) (fin ([1; 2] ++ [2; 1] ++ [1; 1])) = ok (fin r, fins J) /\
    has_jacobian (fun y => obind (vlle_T_assemble m (Fin 1) (fin y)) (fun q => ok (fst q))) ([1; 2] ++ [2; 1] ++ [1; 1]) r J) /\
  (exists r J, vlle_p_assemble m (Fin 5) (fin ([1; 2] ++ [2; 1] ++ [1; 1] ++ [1])) = ok (fin r, fins J) /\
    has_jacobian (fun y => obind (vlle_p_assemble m (Fin 5) (fin y)) (fun q => ok (fst q))) ([1; 2] ++ [2; 1] ++ [1; 1] ++ [1]) r J).
Proof.
  assert (Had : AD_exact partialN) by (intros f o x H; reflexivity). split.
  - apply (C46_T_jacobian partialN ex_alphar ex_R 8); auto using ex_constR, eos_of_ok; try lra; try (apply pos2; lra); try (eexists _, _; apply ex_twice; lra).
  - apply (C46_p_jacobian partialN ex_alphar ex_R 8); auto using ex_constR, eos_of_ok; try lra; try (apply pos2; lra); try (eexists _, _; apply ex_twice; lra).
Qed.
(** ** The run *)
Lemma three_parts : forall (x : list fl), length x = 6%nat -> firstn 2 x ++ firstn 2 (skipn 2 x) ++ skipn 4 x = x.
Proof. intros x H. destruct x as [|a [|b [|c [|d [|e [|f [|]]]]]]]; try discriminate. reflexivity. Qed.
Theorem C46_T_run : forall m qr T V0 L10 L20 atol reltol axtol relxtol maxiter code V L1 L2,
  sizes qr -> (1 <= maxiter)%Z -> mix_VLLE_T m qr T V0 L10 L20 atol reltol axtol relxtol maxiter = ok (code, V, L1, L2) ->
  length V = 2%nat /\ length L1 = 2%nat /\ length L2 = 2%nat /\
  exists k X Rs D, X 0%nat = V0 ++ L10 ++ L20 /\ X k = V ++ L1 ++ L2 /\ (1 <= k)%nat /\ (Z.of_nat k <= maxiter)%Z /\
    vlle_passes 6 (vlle_T_assemble m T) qr atol reltol axtol relxtol k X Rs D /\ vlle_ends 6 atol reltol axtol relxtol maxiter code k X Rs D.
Proof.
  intros m qr T V0 L10 L20 atol reltol axtol relxtol maxiter code V L1 L2 Hq Hm E. unfold mix_VLLE_T in E.
  destruct (Nat.eqb_spec (length L10) (length V0)) as [A|]; [|discriminate]. destruct (Nat.eqb_spec (length L20) (length V0)) as [B|]; [|discriminate].
  cbn [andb negb] in E. destruct (Nat.eqb_spec (length V0) 0); [discriminate|]. destruct (Z.leb_spec maxiter 0); [lia|].
  destruct (Nat.eqb_spec (length V0) 2) as [N2|]; [|discriminate]. cbn [negb] in E. rewrite N2 in *.
  apply obind_inv in E. destruct E as ([c x] & E & E2). 
  assert (Q : c = code /\ V = firstn 2 x /\ L1 = firstn 2 (skipn 2 x) /\ L2 = skipn 4 x) by (unfold ok in E2; change (2 * 2)%nat with 4%nat in E2; repeat split; congruence).
  clear E2. destruct Q as (-> & -> & -> & ->).
  replace (Z.to_nat maxiter) with (S (Z.to_nat (maxiter - 1))) in E by lia.
  assert (Lx : length (V0 ++ L10 ++ L20) = 6%nat) by (rewrite !app_length; lia).
  destruct (vlle_loop_run 6 _ (vlle_T_len m T) qr Hq atol reltol axtol relxtol _ _ _ _ E Lx) as (k & X & Rs & D & X0 & Xk & K1 & Hk & PS & EN).
  replace (Z.of_nat (S (Z.to_nat (maxiter - 1)))) with maxiter in Hk, EN by lia.
  assert (L6 : length x = 6%nat).
  { destruct k as [|k]; [lia|]. destruct (PS k ltac:(lia)) as ((_ & Q) & _). rewrite Xk in Q. rewrite Q, map_length, seq_length. reflexivity. }
  rewrite !firstn_length, !skipn_length, L6. split; [reflexivity|]. split; [reflexivity|]. split; [reflexivity|].
  exists k, X, Rs, D. change (2 * 2)%nat with 4%nat. rewrite three_parts by auto. auto 10.
Qed.
Theorem C46_p_run : forall m qr p T0 V0 L10 L20 atol reltol axtol relxtol maxiter code T V L1 L2,
  sizes qr -> (1 <= maxiter)%Z -> mix_VLLE_p m qr p T0 V0 L10 L20 atol reltol axtol relxtol maxiter = ok (code, T, V, L1, L2) ->
  length V = 2%nat /\ length L1 = 2%nat /\ length L2 = 2%nat /\
  exists k X Rs D, X 0%nat = V0 ++ L10 ++ L20 ++ [T0] /\ X k = V ++ L1 ++ L2 ++ [T] /\ (1 <= k)%nat /\ (Z.of_nat k <= maxiter)%Z /\
    vlle_passes 7 (vlle_p_assemble m p) qr atol reltol axtol relxtol k X Rs D /\ vlle_ends 7 atol reltol axtol relxtol maxiter code k X Rs D.
Proof.
  intros m qr p T0 V0 L10 L20 atol reltol axtol relxtol maxiter code T V L1 L2 Hq Hm E. unfold mix_VLLE_p in E.
  destruct (Nat.eqb_spec (length L10) (length V0)) as [A|]; [|discriminate]. destruct (Nat.eqb_spec (length L20) (length V0)) as [B|]; [|discriminate].
  cbn [andb negb] in E. destruct (Nat.eqb_spec (length V0) 0); [discriminate|]. destruct (Z.leb_spec maxiter 0); [lia|].
  destruct (Nat.eqb_spec (length V0) 2) as [N2|]; [|discriminate]. cbn [negb] in E. rewrite N2 in *.
  apply obind_inv in E. destruct E as ([[c t] x] & E & E2). 
  assert (Q : c = code /\ t = T /\ V = firstn 2 x /\ L1 = firstn 2 (skipn 2 x) /\ L2 = firstn 2 (skipn 4 x)) by (unfold ok in E2; change (2 * 2)%nat with 4%nat in E2; repeat split; congruence).
  clear E2. destruct Q as (-> & -> & -> & -> & ->).
  apply obind_inv in E. destruct E as ([c' x'] & E & E2).
  assert (Q : c' = code /\ x = x' /\ T = el x' 6) by (unfold ok in E2; repeat split; congruence). destruct Q as (-> & -> & ->).
  replace (Z.to_nat maxiter) with (S (Z.to_nat (maxiter - 1))) in E by lia.
  assert (Lx : length (V0 ++ L10 ++ L20 ++ [T0]) = 7%nat) by (rewrite !app_length; cbn; lia).
  destruct (vlle_loop_run 7 _ (vlle_p_len m p) qr Hq atol reltol axtol relxtol _ _ _ _ E Lx) as (k & X & Rs & D & X0 & Xk & K1 & Hk & PS & EN).
  replace (Z.of_nat (S (Z.to_nat (maxiter - 1)))) with maxiter in Hk, EN by lia.
  assert (L7 : length x' = 7%nat).
  { destruct k as [|k]; [lia|]. destruct (PS k ltac:(lia)) as ((_ & Q) & _). rewrite Xk in Q. rewrite Q, map_length, seq_length. reflexivity. }
  rewrite !firstn_length, !skipn_length, L7. split; [reflexivity|]. split; [reflexivity|]. split; [reflexivity|].
  exists k, X, Rs, D. split; [exact X0|]. split; [|auto]. rewrite Xk. destruct x' as [|a [|b [|d [|e [|f [|g [|h [|]]]]]]]]; try discriminate. reflexivity.
Qed.
(** If the model can be evaluated everywhere, the solvers return, and the code is set. *)
Theorem C46_returns : forall m qr atol reltol axtol relxtol maxiter V0 L10 L20, sizes qr -> (1 <= maxiter)%Z ->
  length V0 = 2%nat -> length L10 = 2%nat -> length L20 = 2%nat ->
  (forall T rho, length rho = 2%nat -> exists v, e_fgh m T rho = ok v) -> (forall T rho, length rho = 2%nat -> exists v, e_d2 m T rho = ok v) ->
  (forall T rho, length rho = 2%nat -> exists v, e_dpdT m T rho = ok v) ->
  (forall T, exists code V L1 L2, mix_VLLE_T m qr T V0 L10 L20 atol reltol axtol relxtol maxiter = ok (code, V, L1, L2) /\ code <> vlle_unset) /\
  (forall p T0, exists code T V L1 L2, mix_VLLE_p m qr p T0 V0 L10 L20 atol reltol axtol relxtol maxiter = ok (code, T, V, L1, L2) /\ code <> vlle_unset).
Proof.
  intros m qr atol reltol axtol relxtol maxiter V0 L10 L20 Hq Hm NV N1 N2 F1 F2 F3.
  assert (EP : forall T rho, length rho = 2%nat -> exists q, eval_phase m T rho = ok q).
  { intros T rho Hr. unfold eval_phase. destruct (F1 T rho Hr) as ([[? ?] ?] & ->). cbn [obind ok]. eauto. }
  split.
  - intros T. assert (TT : forall x, length x = 6%nat -> exists r J, vlle_T_assemble m T x = ok (r, J)).
    { intros x Lx. unfold vlle_T_assemble. destruct (EP T (firstn 2 x)) as (q1 & ->); [rewrite firstn_length; lia|].
      destruct (EP T (firstn 2 (skipn 2 x))) as (q2 & ->); [rewrite firstn_length, skipn_length; lia|].
      destruct (EP T (skipn 4 x)) as (q3 & ->); [rewrite skipn_length; lia|]. cbn [obind ok]. eauto. }
    assert (Lx : length (V0 ++ L10 ++ L20) = 6%nat) by (rewrite !app_length; lia).
    destruct (vlle_loop_total 6 _ (vlle_T_len m T) qr Hq atol reltol axtol relxtol TT (Z.to_nat maxiter) _ Lx) as (code & y & E).
    assert (EE : mix_VLLE_T m qr T V0 L10 L20 atol reltol axtol relxtol maxiter = ok (code, firstn 2 y, firstn 2 (skipn 2 y), skipn 4 y)).
    { unfold mix_VLLE_T. rewrite NV, N1, N2. cbn [Nat.eqb andb negb]. destruct (Z.leb_spec maxiter 0); [lia|]. now rewrite E. }
    exists code, (firstn 2 y), (firstn 2 (skipn 2 y)), (skipn 4 y). split; [exact EE|].
    destruct (C46_T_run _ _ _ _ _ _ _ _ _ _ _ _ _ _ _ Hq Hm EE) as (_ & _ & _ & k & X & Rs & D & _ & _ & _ & _ & _ & i & _ & EN). intros ->. exact EN.
  - intros p T0. assert (TT : forall x, length x = 7%nat -> exists r J, vlle_p_assemble m p x = ok (r, J)).
    { intros x Lx. unfold vlle_p_assemble.
      assert (A1 : length (firstn 2 x) = 2%nat) by (rewrite firstn_length; lia). assert (A2 : length (firstn 2 (skipn 2 x)) = 2%nat) by (rewrite firstn_length, skipn_length; lia).
      assert (A3 : length (firstn 2 (skipn 4 x)) = 2%nat) by (rewrite firstn_length, skipn_length; lia).
      destruct (EP (el x 6) _ A1) as (q1 & ->), (EP (el x 6) _ A2) as (q2 & ->), (EP (el x 6) _ A3) as (q3 & ->). cbn [obind ok].
      destruct (F2 (el x 6) _ A1) as (d1 & ->), (F2 (el x 6) _ A2) as (d2 & ->), (F2 (el x 6) _ A3) as (d3 & ->). cbn [obind ok].
      destruct (F3 (el x 6) _ A1) as (t1 & ->), (F3 (el x 6) _ A2) as (t2 & ->), (F3 (el x 6) _ A3) as (t3 & ->). cbn [obind ok]. eauto. }
    assert (Lx : length (V0 ++ L10 ++ L20 ++ [T0]) = 7%nat) by (rewrite !app_length; cbn; lia).
    destruct (vlle_loop_total 7 _ (vlle_p_len m p) qr Hq atol reltol axtol relxtol TT (Z.to_nat maxiter) _ Lx) as (code & y & E).
    assert (EE : mix_VLLE_p m qr p T0 V0 L10 L20 atol reltol axtol relxtol maxiter = ok (code, el y 6, firstn 2 y, firstn 2 (skipn 2 y), firstn 2 (skipn 4 y))).
    { unfold mix_VLLE_p. rewrite NV, N1, N2. cbn [Nat.eqb andb negb]. destruct (Z.leb_spec maxiter 0); [lia|]. now rewrite E. }
    do 5 eexists. split; [exact EE|].
    destruct (C46_p_run _ _ _ _ _ _ _ _ _ _ _ _ _ _ _ _ _ Hq Hm EE) as (_ & _ & _ & k & X & Rs & D & _ & _ & _ & _ & _ & i & _ & EN). intros ->. exact EN.
Qed.
(** Without a pass the given values are returned, but at given pressure the temperature is
    -1 instead of the given one.  With other numbers of components than two, memory outside
    the arrays or uninitialised entries are used. *)
Theorem C46_no_pass_refuted : forall m qr p T T0 V0 L10 L20 a b c d maxiter,
  length L10 = length V0 -> length L20 = length V0 -> (1 <= length V0)%nat ->
  ((maxiter <= 0)%Z -> mix_VLLE_T m qr T V0 L10 L20 a b c d maxiter = ok (vlle_unset, V0, L10, L20) /\
     mix_VLLE_p m qr p T0 V0 L10 L20 a b c d maxiter = ok (vlle_unset, Fin (-1), V0, L10, L20)) /\
  ((1 <= maxiter)%Z -> length V0 <> 2%nat -> mix_VLLE_T m qr T V0 L10 L20 a b c d maxiter = None /\ mix_VLLE_p m qr p T0 V0 L10 L20 a b c d maxiter = None).
Proof.
  intros m qr p T T0 V0 L10 L20 a b c d maxiter N1 N2 N0. unfold mix_VLLE_T, mix_VLLE_p. rewrite N1, N2, Nat.eqb_refl. cbn [andb negb].
  destruct (Nat.eqb_spec (length V0) 0); [lia|]. destruct (Z.leb_spec maxiter 0).
  - split; [intros _|lia]. cbn [obind ok].
    assert (F : forall (u v : list fl) k, k = length u -> firstn k (u ++ v) = u) by (intros u v k ->; rewrite firstn_app, Nat.sub_diag, firstn_all, firstn_O; apply app_nil_r).
    assert (G : forall (u v : list fl), skipn (length u) (u ++ v) = v) by (intros; rewrite skipn_app, Nat.sub_diag, skipn_all; reflexivity).
    assert (G2 : forall t, skipn (2 * length V0) (V0 ++ L10 ++ t) = t).
    { intros t. rewrite app_assoc. replace (2 * length V0)%nat with (length (V0 ++ L10)) by (rewrite app_length; lia). apply G. }
    rewrite !G2, !G. rewrite !(F V0), !(F L10), (F L20) by auto. auto.
  - split; [lia|]. intros _ H2. apply Nat.eqb_neq in H2. rewrite H2. cbn [negb obind]. auto.
Qed.

(** ** A solution is kept *)
Lemma kept_step : forall x, zip fadd (fin x) (fin (repeat 0 (length x))) = fin x.
Proof. induction x as [|a x IH]; [reflexivity|]. cbn [length repeat fin map]. unfold zip in *. cbn [combine map fst snd fadd]. rewrite Rplus_0_r. f_equal. exact IH. Qed.
Lemma kept_below : forall a b x, 0 < a -> 0 <= b -> below (Fin a) (Fin b) (fin (repeat 0 (length x))) (fin x) = true.
Proof.
  intros a b x Ha Hb. induction x as [|c x IH]; [reflexivity|]. unfold below in *. cbn [length repeat fin map combine forallb fst snd fabs fmul fadd].
  rewrite flt_true by (pose proof (Rmult_le_pos _ _ Hb (Rabs_pos c)); lra). exact IH.
Qed.
Lemma kept_loop : forall system qr atol reltol axtol relxtol k x J, system (fin x) = ok (fin (repeat 0 (length x)), fins J) ->
  regular J (length x) -> solves qr J (repeat 0 (length x)) -> 0 < axtol -> 0 <= relxtol ->
  vlle_loop system qr atol reltol (Fin axtol) (Fin relxtol) (S k) (fin x) = ok (vlle_xtol_satisfied, fin x).
Proof.
  intros system qr atol reltol axtol relxtol k x J E Rg (v & Ev & Sv) A B.
  assert (O : forall n, map Ropp (repeat 0 n) = repeat 0 n) by (induction n; cbn; [|rewrite Ropp_0, IHn]; reflexivity).
  rewrite O in Sv. apply Rg in Sv. subst v. cbn [vlle_loop]. rewrite E. cbn [obind ok]. rewrite Ev, kept_step, kept_below by auto. reflexivity.
Qed.
(** Started at a solution with a regular Jacobian, the solvers return it after one pass. *)
Theorem C46_solution_kept : forall m qr V L1 L2 J atol reltol axtol relxtol maxiter,
  length V = 2%nat -> length L1 = 2%nat -> length L2 = 2%nat -> 0 < axtol -> 0 <= relxtol -> (1 <= maxiter)%Z ->
  (forall T, vlle_T_assemble m (Fin T) (fin (V ++ L1 ++ L2)) = ok (fin (repeat 0 6), fins J) -> regular J 6 -> solves qr J (repeat 0 6) ->
     mix_VLLE_T m qr (Fin T) (fin V) (fin L1) (fin L2) atol reltol (Fin axtol) (Fin relxtol) maxiter = ok (vlle_xtol_satisfied, fin V, fin L1, fin L2)) /\
  (forall p T, vlle_p_assemble m (Fin p) (fin (V ++ L1 ++ L2 ++ [T])) = ok (fin (repeat 0 7), fins J) -> regular J 7 -> solves qr J (repeat 0 7) ->
     mix_VLLE_p m qr (Fin p) (Fin T) (fin V) (fin L1) (fin L2) atol reltol (Fin axtol) (Fin relxtol) maxiter = ok (vlle_xtol_satisfied, Fin T, fin V, fin L1, fin L2)).
Proof.
  intros m qr V L1 L2 J atol reltol axtol relxtol maxiter NV N1 N2 Ha Hb Hm.
  replace (Z.to_nat maxiter) with (S (Z.to_nat (maxiter - 1))) by lia. split.
  - intros T E Rg Sv. unfold mix_VLLE_T. rewrite !fin_len, NV, N1, N2. cbn [Nat.eqb andb negb]. destruct (Z.leb_spec maxiter 0); [lia|].
    replace (Z.to_nat maxiter) with (S (Z.to_nat (maxiter - 1))) by lia. rewrite <- !fin_app.
    assert (L6 : length (V ++ L1 ++ L2) = 6%nat) by (rewrite !app_length; lia).
    rewrite (kept_loop _ _ _ _ _ _ _ (V ++ L1 ++ L2) J) by (rewrite ?L6; auto). cbn [obind ok].
    destruct (three_app V L1 L2 [] NV N1 N2) as (E1 & E2 & _ & E4 & _). cbv zeta in *. rewrite !app_nil_r in *. change (2 * 2)%nat with 4%nat. now rewrite E1, E2, E4.
  - intros p T E Rg Sv. unfold mix_VLLE_p. rewrite !fin_len, NV, N1, N2. cbn [Nat.eqb andb negb]. destruct (Z.leb_spec maxiter 0); [lia|].
    replace (Z.to_nat maxiter) with (S (Z.to_nat (maxiter - 1))) by lia. change [Fin T] with (fin [T]). rewrite <- !fin_app.
    assert (L7 : length (V ++ L1 ++ L2 ++ [T]) = 7%nat) by (rewrite !app_length; cbn; lia).
    rewrite (kept_loop _ _ _ _ _ _ _ (V ++ L1 ++ L2 ++ [T]) J) by (rewrite ?L7; auto). cbn [obind ok].
    destruct (three_app V L1 L2 [T] NV N1 N2) as (E1 & E2 & E3 & _). cbv zeta in *. change (2 * 2)%nat with 4%nat. rewrite E1, E2, E3.
    rewrite el_fin by lia. rewrite !app_nth2 by lia. now rewrite NV, N1, N2.
Qed.

(** ** Model fluids for the examples *)
(** R T = 1 and the total Helmholtz energy density f(rho_1 - 1) + f(rho_2 - 1) + 1 - T, with
    the derivatives f1 and f2 of f. *)
Definition poly_eos (f f1 f2 : R -> R) : eos :=
  {| e_R := fun _ => Fin 1;
     e_fgh := fun T rho => match rho with
       | [Fin a; Fin b] => ok (Fin (f (a - 1) + f (b - 1) - (a * ln a - a) - (b * ln b - b)),
                               fin [f1 (a - 1) - ln a; f1 (b - 1) - ln b], fins [[f2 (a - 1) - / a; 0]; [0; f2 (b - 1) - / b]])
       | _ => ok (NaN, [], []) end;
     e_d2 := fun _ rho => ok (map (fun r => fopp (flog r)) rho); e_dpdT := fun _ _ => ok (Fin 1) |}.
Lemma poly_phase : forall f f1 f2 a b, 0 < a -> 0 < b -> exists q, eval_phase (poly_eos f f1 f2) (Fin 1) (fin [a; b]) = ok q /\
  (ph_R q = Fin 1 /\ ph_rho q = fin [a; b]) /\
  ph_mu q 0 = Fin (f1 (a - 1)) /\ ph_mu q 1 = Fin (f1 (b - 1)) /\ ph_p q = Fin (a * f1 (a - 1) + b * f1 (b - 1) - f (a - 1) - f (b - 1)) /\
  ph_dp q 0 = Fin (a * f2 (a - 1)) /\ ph_dp q 1 = Fin (b * f2 (b - 1)) /\
  ph_H q 0 0 = Fin (f2 (a - 1)) /\ ph_H q 0 1 = Fin 0 /\ ph_H q 1 0 = Fin 0 /\ ph_H q 1 1 = Fin (f2 (b - 1)).
Proof.
  intros f f1 f2 a b Ha Hb. eexists. unfold eval_phase. cbn [e_fgh e_R poly_eos fin map obind ok]. split; [reflexivity|]. split; [split; reflexivity|].
  unfold ph_mu, ph_p, ph_dp, ph_H, phase_p, phase_dp, fdot, zip. cbn [ph_rho ph_RT ph_psi ph_g ph_h el el2 nth fin fins map combine fst snd fsum fold_right Nat.eqb].
  rewrite !flog_fin by auto. cbn [fmul]. rewrite !fdiv_fin by lra. cbn [fmul fadd fsub fopp].
  repeat split; apply f_equal; field; lra.
Qed.
Ltac entries := repeat match goal with |- (_, _) = (_, _) => apply f_equal2 | |- _ :: _ = _ :: _ => apply f_equal2 | |- Fin _ = Fin _ => apply f_equal; ring | |- [] = [] => reflexivity end.
Ltac three_phases f f1 f2 :=
  let q1 := fresh in let q2 := fresh in let q3 := fresh in
  let A := fresh in let B := fresh in let C := fresh in let A1 := fresh in let A2 := fresh in let A3 := fresh in
  destruct (poly_phase f f1 f2 2 2 ltac:(lra) ltac:(lra)) as (q1 & -> & (A & A1) & ?A0 & ?A0 & ?A0 & ?A0 & ?A0 & ?A0 & ?A0 & ?A0 & ?A0);
  destruct (poly_phase f f1 f2 1 2 ltac:(lra) ltac:(lra)) as (q2 & -> & (B & A2) & ?B0 & ?B0 & ?B0 & ?B0 & ?B0 & ?B0 & ?B0 & ?B0 & ?B0);
  destruct (poly_phase f f1 f2 1 1 ltac:(lra) ltac:(lra)) as (q3 & -> & (C & A3) & ?C0 & ?C0 & ?C0 & ?C0 & ?C0 & ?C0 & ?C0 & ?C0 & ?C0);
  cbn [obind ok];
  rewrite ?A, ?A1, ?A2, ?A3, ?B, ?C;
  repeat match goal with H : ph_mu _ _ = _ |- _ => rewrite H; clear H | H : ph_p _ = _ |- _ => rewrite H; clear H
    | H : ph_dp _ _ = _ |- _ => rewrite H; clear H | H : ph_H _ _ _ = _ |- _ => rewrite H; clear H end.

(** a double well: every phase with concentrations 1 and 2 is in equilibrium with any other *)
Definition well (t : R) : R := t ^ 2 * (1 - t) ^ 2.
Definition well1 (t : R) : R := 2 * t - 6 * t ^ 2 + 4 * t ^ 3.
Definition well2 (t : R) : R := 2 - 12 * t + 12 * t ^ 2.
Example well_derivatives : forall t, is_derive well t (well1 t) /\ is_derive well1 t (well2 t).
Proof. intros t. unfold well, well1, well2. split; auto_derive; auto; ring. Qed.
Definition step_J : list (list R) := [[2; 0; -2; 0; 0; 0]; [0; 2; 0; -2; 0; 0]; [0; 0; 2; 0; -2; 0]; [0; 0; 0; 2; 0; -2]; [4; 4; -2; -4; 0; 0]; [0; 0; 2; 4; -2; -2]].
Definition step_J7 : list (list R) := map (fun row => row ++ [0]) step_J ++ [[4; 4; 0; 0; 0; 0; 1]].
Lemma well_T : vlle_T_assemble (poly_eos well well1 well2) (Fin 1) (fin [2; 2; 1; 2; 1; 1]) = ok (fin (repeat 0 6), fins step_J).
Proof.
  unfold vlle_T_assemble. change (firstn 2 (fin [2; 2; 1; 2; 1; 1])) with (fin [2; 2]). change (firstn 2 (skipn 2 (fin [2; 2; 1; 2; 1; 1]))) with (fin [1; 2]).
  change (skipn 4 (fin [2; 2; 1; 2; 1; 1])) with (fin [1; 1]). three_phases well well1 well2.
  unfold ok, step_J, well, well1, well2. cbn [fins fin map fsub fadd fopp repeat]. f_equal. f_equal. entries.
Qed.
Lemma well_p : vlle_p_assemble (poly_eos well well1 well2) (Fin 0) (fin [2; 2; 1; 2; 1; 1; 1]) = ok (fin (repeat 0 7), fins step_J7).
Proof.
  unfold vlle_p_assemble. change (firstn 2 (fin [2; 2; 1; 2; 1; 1; 1])) with (fin [2; 2]). change (firstn 2 (skipn 2 (fin [2; 2; 1; 2; 1; 1; 1]))) with (fin [1; 2]).
  change (firstn 2 (skipn 4 (fin [2; 2; 1; 2; 1; 1; 1]))) with (fin [1; 1]). change (el (fin [2; 2; 1; 2; 1; 1; 1]) 6) with (Fin 1). cbv zeta.
  three_phases well well1 well2. cbn [e_d2 e_dpdT poly_eos obind ok fin map el nth]. rewrite !flog_fin by lra.
  unfold ok, step_J7, step_J, well, well1, well2. cbn [fins fin map fsub fmul fadd fopp repeat app]. f_equal. f_equal. entries.
Qed.
Lemma step_regular : regular step_J 6 /\ regular step_J7 7.
Proof.
  split; intros v [Lv S]; cbn [repeat length] in Lv, S.
  - destruct v as [|a [|b [|c [|d [|e [|f [|]]]]]]]; try discriminate.
    pose proof (S 0%nat ltac:(lia)) as S0. pose proof (S 1%nat ltac:(lia)) as S1. pose proof (S 2%nat ltac:(lia)) as S2.
    pose proof (S 3%nat ltac:(lia)) as S3. pose proof (S 4%nat ltac:(lia)) as S4. pose proof (S 5%nat ltac:(lia)) as S5. cbn [length] in *.
    rewrite sum6 in S0, S1, S2, S3, S4, S5. cbn in S0, S1, S2, S3, S4, S5. cbn [repeat]. repeat (apply f_equal2; [lra|]). reflexivity.
  - destruct v as [|a [|b [|c [|d [|e [|f [|g [|]]]]]]]]; try discriminate.
    pose proof (S 0%nat ltac:(lia)) as S0. pose proof (S 1%nat ltac:(lia)) as S1. pose proof (S 2%nat ltac:(lia)) as S2.
    pose proof (S 3%nat ltac:(lia)) as S3. pose proof (S 4%nat ltac:(lia)) as S4. pose proof (S 5%nat ltac:(lia)) as S5. pose proof (S 6%nat ltac:(lia)) as S6. cbn [length] in *.
    rewrite sum7 in S0, S1, S2, S3, S4, S5, S6. cbn in S0, S1, S2, S3, S4, S5, S6. cbn [repeat]. repeat (apply f_equal2; [lra|]). reflexivity.
Qed.
Definition zero_qr (J : list (list fl)) (b : list fl) : list fl := repeat (Fin 0) (length b).
Lemma zero_solves : forall J n, length J = n -> solves zero_qr J (repeat 0 n).
Proof.
  intros J n H. assert (Z : forall k n', nth k (repeat 0 n') 0 = 0) by (induction k; destruct n'; cbn; auto). exists (repeat 0 n). split.
  - unfold zero_qr. rewrite map_length, fin_len, repeat_length. unfold fin. clear H. induction n; cbn; congruence.
  - split; [now rewrite map_length|]. intros k _. rewrite (sumn_ext _ _ (fun _ => 0)) by (intros j _; rewrite Z; ring). rewrite sumn_zero.
    destruct (Nat.lt_ge_cases k n) as [K|K].
    + rewrite (nth_indep _ 0 (- 0)) by (rewrite map_length, repeat_length; auto). rewrite (map_nth Ropp), Z. ring.
    + now rewrite nth_overflow by (rewrite map_length, repeat_length; auto).
Qed.
Example C46_solution_kept_met : forall maxiter, (1 <= maxiter)%Z ->
  mix_VLLE_T (poly_eos well well1 well2) zero_qr (Fin 1) (fin [2; 2]) (fin [1; 2]) (fin [1; 1]) (Fin 1) (Fin 1) (Fin 1) (Fin 1) maxiter =
    ok (vlle_xtol_satisfied, fin [2; 2], fin [1; 2], fin [1; 1]) /\
  mix_VLLE_p (poly_eos well well1 well2) zero_qr (Fin 0) (Fin 1) (fin [2; 2]) (fin [1; 2]) (fin [1; 1]) (Fin 1) (Fin 1) (Fin 1) (Fin 1) maxiter =
    ok (vlle_xtol_satisfied, Fin 1, fin [2; 2], fin [1; 2], fin [1; 1]).
Proof.
  intros maxiter Hm. destruct step_regular as [R6 R7]. split.
  - apply (C46_solution_kept _ zero_qr [2; 2] [1; 2] [1; 1] step_J); auto; try lra; [exact well_T|apply zero_solves; reflexivity].
  - apply (C46_solution_kept _ zero_qr [2; 2] [1; 2] [1; 1] step_J7); auto; try lra; [exact well_p|apply zero_solves; reflexivity].
Qed.
Example C46_returns_met : forall maxiter, (1 <= maxiter)%Z ->
  exists code V L1 L2, mix_VLLE_T (poly_eos well well1 well2) zero_qr (Fin 1) (fin [5; 2]) (fin [1; 7]) (fin [1; 1]) (Fin 1) (Fin 1) (Fin 1) (Fin 1) maxiter = ok (code, V, L1, L2) /\ code <> vlle_unset.
Proof.
  intros maxiter Hm. apply C46_returns; auto.
  - intros J b. unfold zero_qr. apply repeat_length.
  - intros T rho _. cbn [e_fgh poly_eos]. destruct rho as [|[a| |] [|[b| |] [|]]]; unfold ok; eauto.
  - intros T rho _. cbn [e_d2 poly_eos]. unfold ok. eauto.
  - intros T rho _. cbn [e_dpdT poly_eos]. unfold ok. eauto.
Qed.

(** ** The test on the step *)
(** a well whose other minimum is lower, at f(1) = -1 *)
Definition wf (t : R) : R := t ^ 2 - 12 * t ^ 3 + 16 * t ^ 4 - 6 * t ^ 5.
Definition wf1 (t : R) : R := 2 * t - 36 * t ^ 2 + 64 * t ^ 3 - 30 * t ^ 4.
Definition wf2 (t : R) : R := 2 - 72 * t + 192 * t ^ 2 - 120 * t ^ 3.
Example wf_derivatives : forall t, is_derive wf t (wf1 t) /\ is_derive wf1 t (wf2 t).
Proof. intros t. unfold wf, wf1, wf2. split; auto_derive; auto; ring. Qed.
Definition step_eos : eos := poly_eos wf wf1 wf2.
Definition step_r : list R := [0; 0; 0; 0; 1; 1].
Lemma step_assemble : vlle_T_assemble step_eos (Fin 1) (fin [2; 2; 1; 2; 1; 1]) = ok (fin step_r, fins step_J).
Proof.
  unfold vlle_T_assemble. change (firstn 2 (fin [2; 2; 1; 2; 1; 1])) with (fin [2; 2]). change (firstn 2 (skipn 2 (fin [2; 2; 1; 2; 1; 1]))) with (fin [1; 2]).
  change (skipn 4 (fin [2; 2; 1; 2; 1; 1])) with (fin [1; 1]).
  unfold step_eos. three_phases wf wf1 wf2.
  unfold ok, step_r, step_J, wf, wf1, wf2. cbn [fins fin map fsub fadd fopp]. f_equal. f_equal. entries.
Qed.
Lemma step_solution : forall v, solution step_J (map Ropp step_r) v -> v = repeat (- (1 / 2)) 6.
Proof.
  intros v [Lv S]. destruct v as [|a [|b [|c [|d [|e [|f [|]]]]]]]; try discriminate. cbn [length map step_r] in S.
  pose proof (S 0%nat ltac:(lia)) as S0. pose proof (S 1%nat ltac:(lia)) as S1. pose proof (S 2%nat ltac:(lia)) as S2.
  pose proof (S 3%nat ltac:(lia)) as S3. pose proof (S 4%nat ltac:(lia)) as S4. pose proof (S 5%nat ltac:(lia)) as S5.
  rewrite sum6 in S0, S1, S2, S3, S4, S5. cbn in S0, S1, S2, S3, S4, S5. cbn [repeat].
  repeat (apply f_equal2; [lra|]). reflexivity.
Qed.
(** The step is compared with the tolerance without taking its absolute value: a step that
    decreases every concentration by 1/2 counts as converged, however small the tolerances
    are, and a chemical potential of the states returned differs by 18. *)
Theorem C46_step_test_refuted : forall qr atol reltol axtol relxtol maxiter, solves qr step_J step_r -> 0 < axtol -> 0 <= relxtol -> (1 <= maxiter)%Z ->
  mix_VLLE_T step_eos qr (Fin 1) (fin [2; 2]) (fin [1; 2]) (fin [1; 1]) atol reltol (Fin axtol) (Fin relxtol) maxiter =
    ok (vlle_xtol_satisfied, fin [3 / 2; 3 / 2], fin [1 / 2; 3 / 2], fin [1 / 2; 1 / 2]) /\
  exists r J, vlle_T_assemble step_eos (Fin 1) (fin [3 / 2; 3 / 2; 1 / 2; 3 / 2; 1 / 2; 1 / 2]) = ok (r, J) /\ el r 0 = Fin 18.
Proof.
  intros qr atol reltol axtol relxtol maxiter (v & Ev & Sv) Ha Hb Hm. apply step_solution in Sv. subst v. split.
  - unfold mix_VLLE_T. cbn [fin map length Nat.eqb andb negb]. destruct (Z.leb_spec maxiter 0); [lia|].
    replace (Z.to_nat maxiter) with (S (Z.to_nat (maxiter - 1))) by lia. cbn [vlle_loop].
    change ([Fin 2; Fin 2] ++ [Fin 1; Fin 2] ++ [Fin 1; Fin 1]) with (fin [2; 2; 1; 2; 1; 1]). rewrite step_assemble. cbn [obind ok]. rewrite Ev.
    replace (zip fadd (fin [2; 2; 1; 2; 1; 1]) (fin (repeat (- (1 / 2)) 6))) with (fin [3 / 2; 3 / 2; 1 / 2; 3 / 2; 1 / 2; 1 / 2]).
    + replace (below _ _ _ _) with true; [reflexivity|]. symmetry. unfold below. cbn [fin map repeat combine forallb fst snd fabs fmul fadd].
      assert (K : forall c, - (1 / 2) < axtol + relxtol * Rabs c) by (intros c; pose proof (Rmult_le_pos _ _ Hb (Rabs_pos c)); lra).
      now rewrite !flt_true by apply K.
    + unfold zip. cbn [fin map repeat combine fst snd fadd]. repeat (apply f_equal2; [apply f_equal; lra|]). reflexivity.
  - unfold vlle_T_assemble, step_eos. change (firstn 2 (fin [3 / 2; 3 / 2; 1 / 2; 3 / 2; 1 / 2; 1 / 2])) with (fin [3 / 2; 3 / 2]).
    change (firstn 2 (skipn 2 (fin [3 / 2; 3 / 2; 1 / 2; 3 / 2; 1 / 2; 1 / 2]))) with (fin [1 / 2; 3 / 2]).
    change (skipn 4 (fin [3 / 2; 3 / 2; 1 / 2; 3 / 2; 1 / 2; 1 / 2])) with (fin [1 / 2; 1 / 2]).
    destruct (poly_phase wf wf1 wf2 (3 / 2) (3 / 2) ltac:(lra) ltac:(lra)) as (q1 & -> & _ & A0 & _).
    destruct (poly_phase wf wf1 wf2 (1 / 2) (3 / 2) ltac:(lra) ltac:(lra)) as (q2 & -> & _ & B0 & _).
    destruct (poly_phase wf wf1 wf2 (1 / 2) (1 / 2) ltac:(lra) ltac:(lra)) as (q3 & -> & _). cbn [obind ok].
    eexists _, _. split; [reflexivity|]. cbn [el nth]. rewrite A0, B0. unfold wf1. cbn [fsub fadd fopp]. apply f_equal. field.
Qed.
Example C46_step_test_refuted_met : exists qr, solves qr step_J step_r.
Proof.
  exists (fun _ _ => fin (repeat (- (1 / 2)) 6)). eexists. split; [reflexivity|]. split; [reflexivity|].
  intros k Hk. cbn in Hk. cbn [length repeat]. rewrite sum6. cbn [step_J step_r map nth].
  destruct k as [|[|[|[|[|[|k]]]]]]; [| | | | | |lia]; cbn [nth]; field.
Qed.
Print Assumptions C46_T_equations.
Print Assumptions C46_p_equations.
Print Assumptions C46_T_jacobian.
Print Assumptions C46_p_jacobian.
Print Assumptions C46_T_run.
Print Assumptions C46_p_run.
Print Assumptions C46_returns.
Print Assumptions C46_no_pass_refuted.
Print Assumptions C46_solution_kept.
Print Assumptions C46_step_test_refuted.
