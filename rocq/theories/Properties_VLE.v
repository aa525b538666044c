(** C44, C45, C61: vapor-liquid equilibrium of mixtures at given temperature and liquid
    composition, temperature and pressure, pressure and liquid composition. *)
From Coq Require Import Reals ZArith String List Bool Lia Lra.
From Coquelicot Require Import Coquelicot.
From Verif Require Import Json_model Cubic_model Derivs_model Derivs_spec Derivs_proofs Vec_spec Vec_proofs Iso_model Iso_spec Iso_proofs Properties_Iso
  Trace_spec Trace_proofs Properties_Trace PhaseEq_model PhaseEq_spec PhaseEq_proofs PhaseEq_proofs2 Properties_PhaseEq
  Float_model VLE_model VLE_spec VLE_proofs VLE_proofs2 VLE_proofs3.
Import ListNotations.
Open Scope R_scope.

(** The calls of a model given by its residual Helmholtz energy (for the examples). *)
Fixpoint finites (v : list fl) : option (list R) :=
  match v with [] => Some [] | Fin a :: v => match finites v with Some l => Some (a :: l) | None => None end | _ => None end.
Definition eos_of (ad : (list R -> R) -> list nat -> list R -> R) (alphar : R -> R -> list R -> R) (Rgas : list R -> R) : eos :=
  {| e_R := fun x => match finites x with Some x => Fin (Rgas x) | None => NaN end;
     e_fgh := fun T rho => match T, finites rho with
       | Fin T, Some rho => ok (Fin (get_Psir alphar Rgas T rho), fin (build_Psir_gradient ad alphar Rgas T rho), fins (build_Psir_Hessian ad alphar Rgas T rho))
       | _, _ => ok (NaN, [], []) end;
     e_d2 := fun T rho => match T, finites rho with Fin T, Some rho => ok (fin (build_d2PsirdTdrhoi ad alphar Rgas T rho)) | _, _ => ok [] end;
     e_dpdT := fun T rho => match T, finites rho with Fin T, Some rho => ok (Fin (get_dpdT_constrhovec ad alphar Rgas T rho)) | _, _ => ok NaN end |}.
Lemma finites_fin : forall v, finites (fin v) = Some v.
Proof. induction v as [|a v IH]; [reflexivity|]. cbn [fin map finites]. fold (fin v). now rewrite IH. Qed.
Lemma eos_of_ok : forall ad alphar Rgas, evaluates ad alphar Rgas (eos_of ad alphar Rgas).
Proof. intros. constructor; intros; cbn [eos_of e_R e_fgh e_d2 e_dpdT]; now rewrite finites_fin. Qed.

(** The linear solver solves the system [J v = - r]. *)
Definition solves (qr : list (list fl) -> list fl -> list fl) (J : list (list R)) (r : list R) : Prop :=
  exists v, qr (fins J) (map fopp (fin r)) = fin v /\ solution J (map Ropp r) v.
Definition sizes (qr : list (list fl) -> list fl -> list fl) : Prop := forall J b, length (qr J b) = length b.
(** [minc] is the smallest entry of a list of finite numbers. *)
Definition exact_min (minc : list fl -> fl) : Prop :=
  forall v, v <> [] -> exists y, In y v /\ (forall z, In z v -> y <= z) /\ minc (fin v) = Fin y.

(** ** C44: temperature and composition given *)
(** Vectors of different lengths are refused. *)
Theorem C44_sizes : forall m qr minc T L0 V0 xspec a b c d maxiter,
  (length V0 = length L0 /\ length xspec = length L0 \/ mix_VLE_Tx m qr minc T L0 V0 xspec a b c d maxiter = throws InvalidArgument) /\
  (length V0 = length L0 -> length xspec = length L0 -> (1 <= length L0)%nat ->
     (maxiter <= 0)%Z -> mix_VLE_Tx m qr minc T L0 V0 xspec a b c d maxiter = ok (unset, L0, V0)).
Proof.
  intros. unfold mix_VLE_Tx. split.
  - destruct (Nat.eqb (length V0) (length L0)) eqn:E1; [|right; reflexivity]. destruct (Nat.eqb (length xspec) (length L0)) eqn:E2; [|right; reflexivity].
    left. split; now apply Nat.eqb_eq.
  - intros E1 E2 H1 H2. rewrite E1, E2, Nat.eqb_refl. cbn [andb negb]. destruct (Nat.eqb_spec (length L0) 0); [lia|].
    destruct (Z.leb_spec maxiter 0); [|lia]. cbn [obind ok]. rewrite firstn_app, Nat.sub_diag, firstn_all, firstn_O, app_nil_r, skipn_app, Nat.sub_diag, skipn_all.
    reflexivity.
Qed.
(** The system is written for two components: with any other number memory outside the
    arrays or uninitialised entries are used. *)
Theorem C44_other_sizes_refuted : forall m qr minc T L0 V0 xspec a b c d maxiter,
  length V0 = length L0 -> length xspec = length L0 -> (length L0 <> 2)%nat -> (1 <= maxiter)%Z ->
  mix_VLE_Tx m qr minc T L0 V0 xspec a b c d maxiter = None.
Proof.
  intros m qr minc T L0 V0 xspec a b c d maxiter E1 E2 N H. unfold mix_VLE_Tx. rewrite E1, E2, Nat.eqb_refl. cbn [andb negb].
  destruct (Nat.eqb (length L0) 0); [reflexivity|]. destruct (Z.leb_spec maxiter 0); [lia|].
  apply Nat.eqb_neq in N. now rewrite N.
Qed.

(** The equations: the residual vanishes exactly at the two-phase states whose first phase
    has the given composition. *)
Theorem C44_equations : forall ad alphar Rgas Rg m T L V xspec GL GV,
  AD_exact ad -> const_R Rgas Rg -> evaluates ad alphar Rgas m -> 0 < T -> length L = 2%nat -> length V = 2%nat -> positive L -> positive V ->
  smooth_joint alphar Rgas T L -> smooth_joint alphar Rgas T V -> gradient_of alphar Rgas T L GL -> gradient_of alphar Rgas T V GV ->
  length xspec = 2%nat -> total xspec = 1 ->
  exists r J, tx_assemble m (Fin T) (Fin (Rg * T)) (fin xspec) (fin (L ++ V)) = ok (fin r, J) /\
    (List.Forall (fun v => v = 0) r <-> two_phase alphar Rgas Rg T L V GL GV /\ fractions L = xspec).
Proof.
  intros ad alphar Rgas Rg m T L V xspec GL GV Had [R0 HR] EV HT LL LV PL PV SL SV HL HV Lx Sx.
  eexists _, _. split; [apply (tx_fin ad alphar Rgas Rg m EV T HT xspec L V LL LV PL PV); lia|]. unfold tx_r.
  pose proof (mu_fugacity ad Had alphar Rgas Rg R0 T L V GL GV 0 HT PL PV ltac:(lia) ltac:(lia) HL HV) as M0.
  pose proof (mu_fugacity ad Had alphar Rgas Rg R0 T L V GL GV 1 HT PL PV ltac:(lia) ltac:(lia) HL HV) as M1.
  pose proof (total_pos _ PL) as TL.
  assert (XE : nth 0 L 0 / vsum L + - nth 0 xspec 0 = 0 <-> fractions L = xspec).
  { rewrite vsum_total. destruct xspec as [|x0 [|x1 [|]]]; try discriminate. destruct L as [|a [|b [|]]]; try discriminate.
    unfold total in *. cbn in Sx, TL |- *. unfold fractions, total. cbn. split; intros H.
    - assert (E0 : a / (0 + a + b) = x0) by lra. assert (E1 : b / (0 + a + b) = x1).
      { replace (b / (0 + a + b)) with (1 - a / (0 + a + b)) by (field; lra). lra. }
      now rewrite E0, E1.
    - injection H as <- _. ring. }
  rewrite !(qp_val ad Had alphar Rgas Rg HR R0) by auto. unfold two_phase. rewrite LL. split.
  - intros H. rewrite !Forall_cons_iff in H. destruct H as (A0 & A1 & A2 & A3 & _).
    split; [split|now apply XE].
    + intros [|[|i]] Hi; [now apply M0|now apply M1|lia].
    + lra.
  - intros [[A B] C]. apply XE in C. constructor; [apply M0, A; lia|]. constructor; [apply M1, A; lia|]. constructor; [lra|]. constructor; [exact C|constructor].
Qed.
(** The matrix of the Newton step is the Jacobian of the residual. *)
Theorem C44_jacobian : forall ad alphar Rgas Rg m T L V xspec,
  AD_exact ad -> const_R Rgas Rg -> evaluates ad alphar Rgas m -> 0 < T -> length L = 2%nat -> length V = 2%nat -> positive L -> positive V ->
  smooth_joint alphar Rgas T L -> smooth_joint alphar Rgas T V -> length xspec = 2%nat ->
  exists r J, tx_assemble m (Fin T) (Fin (Rg * T)) (fin xspec) (fin (L ++ V)) = ok (fin r, fins J) /\
    has_jacobian (fun y => obind (tx_assemble m (Fin T) (Fin (Rg * T)) (fin xspec) (fin y)) (fun p => ok (fst p))) (L ++ V) r J.
Proof.
  intros ad alphar Rgas Rg m T L V xspec Had [R0 HR] EV HT LL LV PL PV SL SV Lx. eexists _, _. split.
  - apply (tx_fin ad alphar Rgas Rg m EV T HT xspec L V LL LV PL PV). lia.
  - apply (tx_jac ad Had alphar Rgas Rg HR R0 m EV T HT xspec L V); auto; lia.
Qed.
Example C44_jacobian_met : exists r J,
  tx_assemble (eos_of partialN ex_alphar ex_R) (Fin 1) (Fin (8 * 1)) (fin [1 / 3; 2 / 3]) (fin ([1; 2] ++ [2; 1])) = ok (fin r, fins J) /\
  has_jacobian (fun y => obind (tx_assemble (eos_of partialN ex_alphar ex_R) (Fin 1) (Fin (8 * 1)) (fin [1 / 3; 2 / 3]) (fin y)) (fun p => ok (fst p))) ([1; 2] ++ [2; 1]) r J.
Proof.
  assert (Had : AD_exact partialN) by (intros f o x H; reflexivity).
  apply (C44_jacobian partialN ex_alphar ex_R 8); auto using ex_constR, eos_of_ok; try lra; try (apply pos2; lra); try (eexists _, _; apply ex_twice; lra).
Qed.

(** The run: at least one pass, each a Newton step from the current point, shortened and
    with the absent components held; all but the last pass meet none of the tests; the code
    tells which test ended it. *)
Theorem C44_run : forall m qr minc T L0 V0 xspec atol reltol axtol relxtol maxiter code L V,
  sizes qr -> length L0 = 2%nat -> (1 <= maxiter)%Z ->
  mix_VLE_Tx m qr minc T L0 V0 xspec atol reltol axtol relxtol maxiter = ok (code, L, V) ->
  let RT := fmul (e_R m xspec) T in
  exists k X Rs D, X 0%nat = L0 ++ V0 /\ X k = L ++ V /\ length L = 2%nat /\ length V = 2%nat /\ (Z.of_nat k <= maxiter)%Z /\
    passes m qr minc T RT xspec atol reltol axtol relxtol k X Rs D /\
    ends m qr T RT xspec atol reltol axtol relxtol maxiter code k X Rs D.
Proof.
  intros m qr minc T L0 V0 xspec atol reltol axtol relxtol maxiter code L V Hq LL Hm E RT. unfold mix_VLE_Tx in E.
  destruct (Nat.eqb_spec (length V0) (length L0)) as [LV|]; [|discriminate]. destruct (Nat.eqb (length xspec) (length L0)); [|discriminate].
  cbn [andb negb] in E. rewrite LL in E. cbn [Nat.eqb] in E. destruct (Z.leb_spec maxiter 0); [lia|]. cbn [negb] in E.
  apply obind_inv in E. destruct E as ([c x] & E & E2). injection E2 as <- <- <-.
  replace (Z.to_nat maxiter) with (S (Z.to_nat (maxiter - 1))) in E by lia.
  assert (Lx : length (L0 ++ V0) = 4%nat) by (rewrite app_length; lia).
  destruct (loop_run m qr minc Hq T _ xspec atol reltol axtol relxtol _ _ _ _ E Lx) as (k & X & Rs & D & X0 & Xk & Hk & PS & EN).
  replace (Z.of_nat (S (Z.to_nat (maxiter - 1)))) with maxiter in Hk, EN by lia.
  assert (L4 : length x = 4%nat).
  { destruct k as [|k]; [congruence|]. destruct (PS k ltac:(lia)) as ((d0 & _ & _ & _ & Q) & _). rewrite <- Xk, Q, map_length, seq_length. reflexivity. }
  exists k, X, Rs, D. destruct x as [|x0 [|x1 [|x2 [|x3 [|]]]]]; try discriminate. cbn [app length]. auto 10.
Qed.
(** With at least one pass allowed the return code is set, to one of four values. *)
Theorem C44_code_set : forall m qr minc T L0 V0 xspec atol reltol axtol relxtol maxiter code L V,
  sizes qr -> length L0 = 2%nat -> (1 <= maxiter)%Z ->
  mix_VLE_Tx m qr minc T L0 V0 xspec atol reltol axtol relxtol maxiter = ok (code, L, V) ->
  code <> unset /\ code <> maxfev_met.
Proof.
  intros m qr minc T L0 V0 xspec atol reltol axtol relxtol maxiter code L V Hq LL Hm E.
  destruct (C44_run _ _ _ _ _ _ _ _ _ _ _ _ _ _ _ Hq LL Hm E) as (k & X & Rs & D & _ & _ & _ & _ & _ & _ & EN).
  split; intros ->; cbn in EN; [lia|exact EN].
Qed.
(** It returns whenever the model does. *)
Theorem C44_returns : forall m qr minc T L0 V0 xspec atol reltol axtol relxtol maxiter,
  (forall rho, exists v, e_fgh m T rho = ok v) -> length L0 = 2%nat -> length V0 = 2%nat -> length xspec = 2%nat ->
  exists code L V, mix_VLE_Tx m qr minc T L0 V0 xspec atol reltol axtol relxtol maxiter = ok (code, L, V).
Proof.
  intros m qr minc T L0 V0 xspec atol reltol axtol relxtol maxiter H LL LV Lx. unfold mix_VLE_Tx. rewrite LL, LV, Lx. cbn [Nat.eqb andb negb].
  destruct (Z.leb maxiter 0); [cbn [obind ok]; eauto|].
  destruct (loop_total m qr minc T (fmul (e_R m xspec) T) xspec atol reltol axtol relxtol) with (n := Z.to_nat maxiter) (x := L0 ++ V0) as (code & y & E).
  - intros x _. unfold tx_assemble. destruct (H (firstn 2 x)) as ([[? ?] ?] & E1). destruct (H (skipn 2 x)) as ([[? ?] ?] & E2). rewrite E1. cbn [obind ok].
    rewrite E2. cbn [obind ok]. eauto.
  - rewrite app_length. lia.
  - rewrite E. cbn [obind ok]. eauto.
Qed.
(** The concentrations of a component absent from the specification do not change. *)
Theorem C44_absent_components : forall m qr minc T L0 V0 xspec atol reltol axtol relxtol maxiter code L V i,
  length L0 = 2%nat -> mix_VLE_Tx m qr minc T L0 V0 xspec atol reltol axtol relxtol maxiter = ok (code, L, V) ->
  (i < 2)%nat -> el xspec i = Fin 0 -> el L i = el L0 i /\ el V i = el V0 i.
Proof.
  intros m qr minc T L0 V0 xspec atol reltol axtol relxtol maxiter code L V i LL E Hi Z0. unfold mix_VLE_Tx in E.
  destruct (Nat.eqb_spec (length V0) (length L0)) as [LV|]; [|discriminate]. destruct (Nat.eqb (length xspec) (length L0)); [|discriminate].
  cbn [andb negb] in E. rewrite LL in E. cbn [Nat.eqb negb] in E. apply obind_inv in E. destruct E as ([c x] & E & E2). injection E2 as <- <- <-.
  destruct L0 as [|a [|b [|]]]; try discriminate. destruct V0 as [|c0 [|d0 [|]]]; try discriminate.
  destruct (Z.leb maxiter 0); [injection E as <- <-; auto|].
  assert (K : forall j, (j < 4)%nat -> Nat.modulo j 2 = i -> el x j = el ([a; b] ++ [c0; d0]) j /\ length x = 4%nat).
  { intros j Hj Hm. apply (loop_absent m qr minc T _ xspec atol reltol axtol relxtol _ _ _ _ j E); auto. rewrite Hm, Z0. cbn. destruct (Req_EM_T 0 0); [reflexivity|contradiction]. }
  destruct i as [|[|i]]; [| |lia].
  - destruct (K 0%nat ltac:(lia) eq_refl) as [A L4]. destruct (K 2%nat ltac:(lia) eq_refl) as [B _].
    destruct x as [|x0 [|x1 [|x2 [|x3 [|]]]]]; try discriminate. auto.
  - destruct (K 1%nat ltac:(lia) eq_refl) as [A L4]. destruct (K 3%nat ltac:(lia) eq_refl) as [B _].
    destruct x as [|x0 [|x1 [|x2 [|x3 [|]]]]]; try discriminate. auto.
Qed.

(** A solution is returned as it is: where the residual vanishes and the system is regular,
    the run ends after one pass with the same concentrations and [xtol_satisfied]. *)
Lemma flt_true : forall a b, a < b -> flt (Fin a) (Fin b) = true.
Proof. intros a b H. cbn. destruct (Rlt_dec a b); [reflexivity|contradiction]. Qed.
Lemma flt_false : forall a b, b <= a -> flt (Fin a) (Fin b) = false.
Proof. intros a b H. cbn. destruct (Rlt_dec a b); [lra|reflexivity]. Qed.
Theorem C44_solution_kept : forall m qr minc T L V xspec J atol reltol axtol relxtol maxiter,
  length L = 2%nat -> length V = 2%nat -> length xspec = 2%nat -> (forall x, In x (L ++ V) -> 0 <= x) ->
  tx_assemble m T (fmul (e_R m xspec) T) xspec (fin (L ++ V)) = ok (fin (repeat 0 4), fins J) ->
  regular J 4 -> solves qr J (repeat 0 4) -> 0 < axtol -> 0 <= relxtol -> (1 <= maxiter)%Z ->
  mix_VLE_Tx m qr minc T (fin L) (fin V) xspec atol reltol (Fin axtol) (Fin relxtol) maxiter = ok (xtol_satisfied, fin L, fin V).
Proof.
  intros m qr minc T L V xspec J atol reltol axtol relxtol maxiter LL LV Lx Hnn E Rg (v & Ev & Sv) A B Hm.
  assert (O4 : map Ropp (repeat 0 4) = repeat 0 4) by (cbn; now rewrite Ropp_0). rewrite O4 in Sv. apply Rg in Sv. subst v.
  unfold mix_VLE_Tx. rewrite !fin_len, LL, LV, Lx. cbn [Nat.eqb andb negb]. destruct (Z.leb_spec maxiter 0); [lia|].
  replace (Z.to_nat maxiter) with (S (Z.to_nat (maxiter - 1))) by lia. cbn [tx_loop]. rewrite fin_app in E. rewrite E. cbn [obind ok].
  rewrite Ev. destruct L as [|a [|b [|]]]; try discriminate. destruct V as [|c [|d [|]]]; try discriminate.
  pose proof (Hnn a ltac:(cbn; auto)). pose proof (Hnn b ltac:(cbn; auto)). pose proof (Hnn c ltac:(cbn; auto)). pose proof (Hnn d ltac:(cbn; auto 6)).
  change (no_finite (fin (repeat 0 4))) with false. cbv iota.
  assert (LM : limit minc (fin [a; b] ++ fin [c; d]) (fin (repeat 0 4)) = fin (repeat 0 4)).
  { unfold limit. replace (existsb _ _) with false; [reflexivity|]. symmetry. cbn -[flt]. rewrite !Rplus_0_r. now rewrite !flt_false by auto. }
  rewrite LM. assert (FZ : freeze xspec (fin (repeat 0 4)) = fin (repeat 0 4)).
  { unfold freeze. cbn [seq map]. now destruct (feq (el xspec (0 mod 2)) (Fin 0)), (feq (el xspec (1 mod 2)) (Fin 0)), (feq (el xspec (2 mod 2)) (Fin 0)), (feq (el xspec (3 mod 2)) (Fin 0)). }
  rewrite FZ. replace (zip fadd (fin [a; b] ++ fin [c; d]) (fin (repeat 0 4))) with (fin [a; b] ++ fin [c; d]) by (cbn; now rewrite !Rplus_0_r).
  replace (small (Fin axtol) (Fin relxtol) (fin (repeat 0 4)) (fin [a; b] ++ fin [c; d])) with true; [reflexivity|].
  symmetry. cbn -[flt]. rewrite Rabs_R0. assert (K : forall x, 0 < axtol + relxtol * Rabs x) by (intros x; pose proof (Rmult_le_pos _ _ B (Rabs_pos x)); lra).
  now rewrite !flt_true by apply K.
Qed.
(** an equilibrium of liquid (1, 1) and vapor (1/2, 1/2) *)
Definition kept_eos : eos :=
  {| e_R := fun _ => Fin 1; e_fgh := fun _ rho => if feq (el rho 0) (Fin 1) then ok (Fin 1, fin [0; 0], fins [[0; 0]; [0; 0]])
       else ok (Fin (ln 2), fin [ln 2; ln 2], fins [[0; 0]; [0; 0]]); e_d2 := fun _ _ => ok []; e_dpdT := fun _ _ => ok NaN |}.
Definition kept_J : list (list R) := [[1; 0; -2; 0]; [0; 1; 0; -2]; [1; 1; -1; -1]; [1 / 4; -1 / 4; 0; 0]].
Lemma sum4 : forall f, sumn 4 f = f 0%nat + f 1%nat + f 2%nat + f 3%nat. Proof. intros. cbn. ring. Qed.
Example C44_solution_kept_met :
  tx_assemble kept_eos (Fin 1) (fmul (e_R kept_eos (fin [1 / 2; 1 / 2])) (Fin 1)) (fin [1 / 2; 1 / 2]) (fin ([1; 1] ++ [1 / 2; 1 / 2])) = ok (fin (repeat 0 4), fins kept_J) /\
  regular kept_J 4 /\ solves (fun _ _ => fin (repeat 0 4)) kept_J (repeat 0 4).
Proof.
  split; [|split].
  - unfold tx_assemble. cbn [firstn skipn app fin map e_fgh kept_eos el nth e_R]. unfold feq at 1. destruct (Req_EM_T 1 1) as [_|]; [|contradiction]. cbn [obind ok].
    unfold feq at 1. destruct (Req_EM_T (1 / 2) 1) as [|_]; [lra|]. cbn [obind ok].
    assert (Lh : ln (1 / 2) = - ln 2) by (unfold Rdiv; rewrite Rmult_1_l, ln_Rinv by lra; reflexivity).
    unfold mu_r, mu_rows, mu_diag, nonzero, phase_p, phase_dp, fdot, zip. cbn [el el2 nth fins fin map combine fst snd].
    rewrite !flt_true by lra. cbn [andb]. rewrite !flog_fin by lra. rewrite Lh, ln_1. cbn [fmul fsum fold_right fdot zip combine fst snd fadd fsub fopp].
    rewrite !fdiv_fin by lra. cbn [fmul fadd fsub fopp]. unfold ok, kept_J. cbn [app fins fin map repeat].
    do 2 f_equal. repeat match goal with |- (_, _) = (_, _) => apply f_equal2 | |- _ :: _ = _ :: _ => apply f_equal2 | |- Fin _ = Fin _ => apply f_equal; field | |- [] = [] => reflexivity end.
  - intros v [Lv S]. rewrite repeat_length in *. destruct v as [|v0 [|v1 [|v2 [|v3 [|]]]]]; try discriminate. cbn [length] in S.
    pose proof (S 0%nat ltac:(lia)) as S0. pose proof (S 1%nat ltac:(lia)) as S1. pose proof (S 2%nat ltac:(lia)) as S2. pose proof (S 3%nat ltac:(lia)) as S3.
    rewrite sum4 in S0, S1, S2, S3. cbn in S0, S1, S2, S3. cbn.
    assert (v0 = 0) by lra. assert (v1 = 0) by lra. assert (v2 = 0) by lra. assert (v3 = 0) by lra. now subst.
  - exists (repeat 0 4). split; [reflexivity|]. split; [reflexivity|]. intros k Hk. cbn in Hk. rewrite sum4. cbn. rewrite Ropp_0.
    destruct k as [|[|[|[|k]]]]; cbn; try ring. lia.
Qed.

(** The rule that should keep the concentrations positive does not: it scales the step by
    half the smallest ratio of a step to minus the concentration.  The ideal gas, from
    liquid (1, 1) and vapor (1/e, 1/e) with xspec = (1/100, 99/100): the smallest ratio is
    negative, so the step taken is opposite to the Newton step, and a concentration of the
    vapor becomes negative. *)
Definition w_L : list R := [1; 1].
Definition w_V : list R := [exp (- (1)); exp (- (1))].
Definition w_x : list R := [1 / 100; 99 / 100].
Definition w_r : list R := [1; 1; 2 - 2 * exp (- (1)); 49 / 100].
Definition w_J : list (list R) := [[1; 0; - exp 1; 0]; [0; 1; 0; - exp 1]; [1; 1; - (1); - (1)]; [1 / 4; - (1 / 4); 0; 0]].
Lemma ig_assemble : forall ad, AD_exact ad ->
  tx_assemble (eos_of ad ig_alphar ig_R) (Fin 1) (Fin (1 * 1)) (fin w_x) (fin (w_L ++ w_V)) = ok (fin w_r, fins w_J).
Proof.
  intros ad Had. pose proof (exp_pos (- (1))) as Pe.
  rewrite (tx_fin ad ig_alphar ig_R 1 _ (eos_of_ok ad ig_alphar ig_R) 1 ltac:(lra) w_x w_L w_V eq_refl eq_refl (pos2 1 1 ltac:(lra) ltac:(lra)) (pos2 _ _ Pe Pe) ltac:(cbn; lia)).
  assert (G : forall rho i, (i < length rho)%nat -> nth i (build_Psir_gradient ad ig_alphar ig_R 1 rho) 0 = 0) by (intros; now apply (ig_grad ad)).
  assert (H : forall rho i j, (i < length rho)%nat -> (j < length rho)%nat -> nth j (nth i (build_Psir_Hessian ad ig_alphar ig_R 1 rho) []) 0 = 0) by (intros; now apply (ig_hess ad)).
  assert (Ev : exp 1 = / exp (- (1))) by (rewrite <- exp_Ropp, Ropp_involutive; reflexivity).
  assert (P0 : forall a b, q_p ad ig_alphar ig_R 1 1 [a; b] = a + b).
  { intros a b. rewrite qp_sum. unfold q_Psir. rewrite (get_Psir_eq ig_alphar ig_R), ig_Psir. unfold q_grad.
    rewrite (sumn_ext _ _ (fun _ => 0)); [rewrite sumn_zero; unfold total; cbn; ring|]. intros i Hi. rewrite G by auto. ring. }
  assert (D0 : forall a b j, q_dpdrho ad ig_alphar ig_R 1 1 [a; b] j = 1 \/ (2 <= j)%nat).
  { intros a b j. destruct (le_lt_dec 2 j); [auto|left]. unfold q_dpdrho. rewrite vsum_each. unfold q_Hess.
    rewrite (sumn_ext _ _ (fun _ => 0)); [rewrite sumn_zero; ring|]. intros i Hi. rewrite H by auto. ring. }
  assert (D1 : forall a b, q_dpdrho ad ig_alphar ig_R 1 1 [a; b] 0 = 1) by (intros a b; destruct (D0 a b 0%nat); [auto|lia]).
  assert (D2 : forall a b, q_dpdrho ad ig_alphar ig_R 1 1 [a; b] 1 = 1) by (intros a b; destruct (D0 a b 1%nat); [auto|lia]).
  unfold ok. do 2 f_equal. unfold tx_r, tx_J, mu, Ht, dx0. cbn [seq map app].
  rewrite !G by (cbn; lia). unfold w_L at 3, w_V at 3. rewrite !P0. rewrite !H by (cbn; lia). unfold w_L, w_V, w_x, w_r, w_J. rewrite !D1, !D2.
  cbn [nth Nat.eqb]. rewrite ln_exp, ln_1. unfold vsum. cbn [fold_right fins fin map]. rewrite Ev.
  repeat match goal with |- (_, _) = (_, _) => apply f_equal2 | |- _ :: _ = _ :: _ => apply f_equal2 | |- Fin _ = Fin _ => apply f_equal; field; try lra | |- [] = [] => reflexivity end.
Qed.
Lemma feq_false : forall a b, a <> b -> feq (Fin a) (Fin b) = false.
Proof. intros a b H. cbn. destruct (Req_EM_T a b); [contradiction|reflexivity]. Qed.
Lemma w_bounds : 1 / 3 <= exp (- (1)) < 4 / 9.
Proof.
  pose proof exp_le_3 as A. pose proof (exp_ineq1 (1 / 2) ltac:(lra)) as B. pose proof (exp_pos 1) as P.
  assert (C : 9 / 4 < exp 1). { replace 1 with (1 / 2 + 1 / 2) by lra. rewrite exp_plus. nra. }
  rewrite exp_Ropp. split.
  - replace (1 / 3) with (/ 3) by lra. apply Rinv_le_contravar; lra.
  - replace (4 / 9) with (/ (9 / 4)) by lra. apply Rinv_lt_contravar; [nra|lra].
Qed.
Lemma w_solution : forall v, solution w_J (map Ropp w_r) v -> exists v0 v1, v = [v0; v1; exp (- (1)) * (v0 + 1); exp (- (1)) * (v1 + 1)] /\
  v0 = v1 - 196 / 100 /\ v0 + 1 < 0 /\ 148 / 100 <= v1 + 1.
Proof.
  intros v [Lv S]. destruct v as [|v0 [|v1 [|v2 [|v3 [|]]]]]; try discriminate. cbn [length map w_r] in S.
  pose proof (S 0%nat ltac:(lia)) as S0. pose proof (S 1%nat ltac:(lia)) as S1. pose proof (S 2%nat ltac:(lia)) as S2. pose proof (S 3%nat ltac:(lia)) as S3.
  rewrite sum4 in S0, S1, S2, S3. cbn in S0, S1, S2, S3. pose proof w_bounds as W. set (q := exp (- (1))) in *.
  assert (Eq : q * exp 1 = 1) by (unfold q; rewrite <- exp_plus; replace (- (1) + 1) with 0 by ring; apply exp_0).
  assert (E2 : v2 = q * (v0 + 1)).
  { replace (v0 + 1) with (exp 1 * v2) by lra. replace (q * (exp 1 * v2)) with ((q * exp 1) * v2) by ring. rewrite Eq. ring. }
  assert (E3 : v3 = q * (v1 + 1)).
  { replace (v1 + 1) with (exp 1 * v3) by lra. replace (q * (exp 1 * v3)) with ((q * exp 1) * v3) by ring. rewrite Eq. ring. }
  exists v0, v1. rewrite E2, E3. split; [reflexivity|]. assert (E0 : v0 = v1 - 196 / 100) by lra. split; [exact E0|].
  assert (K : (1 - q) * (v0 + v1) = 4 * q - 2) by (rewrite E2, E3 in S2; lra).
  split; nra.
Qed.
Theorem C44_positive_refuted : forall ad qr minc atol reltol axtol relxtol, AD_exact ad -> solves qr w_J w_r -> exact_min minc ->
  exists code L V v t, mix_VLE_Tx (eos_of ad ig_alphar ig_R) qr minc (Fin 1) (fin w_L) (fin w_V) (fin w_x) atol reltol axtol relxtol 1 = ok (code, fin L, fin V) /\
    solution w_J (map Ropp w_r) v /\ L ++ V = map (fun i => nth i (w_L ++ w_V) 0 + t * nth i v 0) (seq 0 4) /\ t < 0 /\ nth 1 V 0 < 0.
Proof.
  intros ad qr minc atol reltol axtol relxtol Had (v & Ev & Sv) Hm. pose proof w_bounds as W.
  destruct (w_solution v Sv) as (v0 & v1 & -> & E0 & B0 & B1). set (q := exp (- (1))) in *.
  destruct (Hm [- v0; - v1; - (v0 + 1); - (v1 + 1)] ltac:(discriminate)) as (y & Hy & Hle & Ey).
  assert (Y : y = - (v1 + 1)).
  { pose proof (Hle (- (v1 + 1)) ltac:(cbn; auto 6)). cbn in Hy. destruct Hy as [<-|[<-|[<-|[<-|[]]]]]; lra. }
  set (t := - (v1 + 1) / 2). set (v := [v0; v1; q * (v0 + 1); q * (v1 + 1)]) in *.
  assert (STEP : freeze (fin w_x) (limit minc (fin (w_L ++ w_V)) (fin v)) = fin (map (fun d => d * t) v)).
  { unfold limit. replace (existsb _ _) with true.
    - replace (zip ratio (fin v) (fin (w_L ++ w_V))) with (fin [- v0; - v1; - (v0 + 1); - (v1 + 1)]).
      + rewrite Ey, Y. change (fin v) with [Fin v0; Fin v1; Fin (q * (v0 + 1)); Fin (q * (v1 + 1))]. rewrite fdiv_fin by lra.
        unfold freeze. cbn [seq map]. cbn [Nat.modulo Nat.divmod fst snd Nat.sub]. rewrite !el_fin by (cbn; lia). unfold w_x. cbn [nth].
        rewrite !feq_false by lra. reflexivity.
      + unfold zip, v, w_L, w_V, fin. cbn [app map combine fst snd]. unfold ratio. fold q. rewrite !feq_false by lra. cbn [fopp].
        rewrite !fdiv_fin by lra. apply f_equal2; [|apply f_equal2; [|apply f_equal2; [|apply f_equal2; [|reflexivity]]]]; apply f_equal; field; lra.
    - symmetry. unfold zip, v, w_L, w_V, fin. cbn [app map combine fst snd existsb fadd]. rewrite flt_true by lra. reflexivity. }
  assert (X1 : zip fadd (fin (w_L ++ w_V)) (fin (map (fun d => d * t) v)) = fin (map (fun i => nth i (w_L ++ w_V) 0 + t * nth i v 0) (seq 0 4))).
  { unfold v, w_L, w_V, zip, fin. cbn [app map combine fst snd seq nth fadd]. fold q.
    apply f_equal2; [|apply f_equal2; [|apply f_equal2; [|apply f_equal2; [|reflexivity]]]]; apply f_equal; ring. }
  assert (R1 : exists code, tx_loop (eos_of ad ig_alphar ig_R) qr minc (Fin 1) (Fin (1 * 1)) (fin w_x) atol reltol axtol relxtol 1 (fin (w_L ++ w_V)) =
    ok (code, fin (map (fun i => nth i (w_L ++ w_V) 0 + t * nth i v 0) (seq 0 4)))).
  { cbn [tx_loop]. rewrite (ig_assemble ad Had). cbn [obind ok]. rewrite Ev. change (no_finite (fin v)) with false. cbv iota.
    rewrite STEP, X1. destruct (small axtol relxtol _ _); [eauto|]. destruct (small atol reltol _ _); [eauto|]. destruct (stalled _ _); eauto. }
  destruct R1 as (code & R1).
  exists code, (map (fun i => nth i (w_L ++ w_V) 0 + t * nth i v 0) (seq 0 2)), (map (fun i => nth i (w_L ++ w_V) 0 + t * nth i v 0) (seq 2 2)), v, t.
  split; [|split; [exact Sv|split; [reflexivity|split]]].
  - unfold mix_VLE_Tx. rewrite !fin_len. unfold w_L at 1 2 3, w_V at 1, w_x at 1. cbn [length Nat.eqb andb negb Z.leb Z.compare].
    replace (fmul (e_R (eos_of ad ig_alphar ig_R) (fin w_x)) (Fin 1)) with (Fin (1 * 1)).
    + rewrite <- fin_app. change (Z.to_nat 1) with 1%nat. rewrite R1. reflexivity.
    + cbn [eos_of e_R]. rewrite finites_fin. reflexivity.
  - unfold t. lra.
  - cbn [map seq nth]. unfold w_L, w_V, v, t. cbn [app nth]. fold q.
    replace (q + - (v1 + 1) / 2 * (q * (v1 + 1))) with (q * (1 - (v1 + 1) * (v1 + 1) / 2)) by field.
    assert (1 - (v1 + 1) * (v1 + 1) / 2 < 0) by nra. nra.
Qed.
Definition min0 (v : list fl) : fl := match v with [] => NaN | a :: v => fold_left fmin v a end.
Lemma min0_exact : exact_min min0.
Proof.
  intros [|a v] H; [contradiction|]. clear H. unfold min0. cbn [fin map]. fold (fin v). revert a.
  induction v as [|b v IH]; intros a; [exists a; cbn; split; [auto|]; split; [intros z [->|[]]; lra|reflexivity]|].
  cbn [fin map fold_left]. fold (fin v). unfold fmin at 2. cbn [flt]. destruct (Rlt_dec b a) as [Hb|Hb].
  - destruct (IH b) as (y & Hy & Hle & E). exists y. split; [cbn in Hy |- *; tauto|]. split; [|exact E].
    intros z [<-|Hz]; [pose proof (Hle b ltac:(left; reflexivity)); lra|auto].
  - destruct (IH a) as (y & Hy & Hle & E). exists y. split; [cbn in Hy |- *; tauto|]. split; [|exact E].
    intros z [<-|[<-|Hz]]; [apply Hle; left; reflexivity|pose proof (Hle a ltac:(left; reflexivity)); lra|apply Hle; right; auto].
Qed.
Example C44_positive_refuted_met : exists qr, solves qr w_J w_r.
Proof.
  pose proof w_bounds as W. set (q := exp (- (1))) in *. set (s := (2 * q - 1) / (1 - q)).
  exists (fun _ _ => fin [s - 98 / 100; s + 98 / 100; q * (s - 98 / 100 + 1); q * (s + 98 / 100 + 1)]). eexists. split; [reflexivity|]. split; [reflexivity|].
  assert (Eq : exp 1 = / q) by (unfold q; rewrite <- exp_Ropp; f_equal; ring).
  intros k Hk. cbn in Hk. cbn [length]. rewrite sum4. cbn [w_J w_r map nth]. fold q. rewrite Eq. unfold s.
  destruct k as [|[|[|[|k]]]]; [| | | |lia]; cbn [nth]; field; lra.
Qed.

(** ... positive concentrations stay nonnegative if no step is longer than sqrt 2 times the
    concentration it changes. *)
Theorem C44_nonnegative_partial : forall minc xspec x dx0 dx, exact_min minc -> length x = 4%nat -> length dx0 = 4%nat ->
  (forall i, (i < 4)%nat -> 0 < nth i x 0) -> (forall i, (i < 4)%nat -> nth i dx0 0 * nth i dx0 0 <= 2 * (nth i x 0 * nth i x 0)) ->
  taken minc xspec (fin x) (fin dx0) dx ->
  forall i, (i < 4)%nat -> exists y, fadd (el (fin x) i) (el dx i) = Fin y /\ 0 <= y.
Proof.
  intros minc xspec x dx0 dx Hm Lx Ld Px Hd [_ Tk] i Hi. destruct (Tk i Hi) as (T1 & T2 & T3).
  assert (Li : (i < length x)%nat) by lia. assert (Li' : (i < length dx0)%nat) by lia.
  rewrite el_fin by auto. pose proof (Px i Hi) as Pi. destruct (feq (el xspec (Nat.modulo i 2)) (Fin 0)) eqn:F.
  - rewrite (T1 eq_refl). eexists. split; [reflexivity|]. lra.
  - assert (DN : negative_step (fin x) (fin dx0) \/ ~ negative_step (fin x) (fin dx0)) by apply Classical_Prop.classic.
    destruct DN as [N|N]; [rewrite (T3 eq_refl N)|rewrite (T2 eq_refl N)].
    + assert (E : map (fun j => ratio (el (fin dx0) j) (el (fin x) j)) (seq 0 4) = fin (map (fun j => nth j dx0 0 / - nth j x 0) (seq 0 4))).
      { unfold fin at 3. rewrite map_map. apply map_ext_in. intros j Hj. apply in_seq in Hj. rewrite !el_fin by lia. pose proof (Px j ltac:(lia)) as Pj.
        unfold ratio. rewrite feq_false by lra. cbn [fopp]. now rewrite fdiv_fin by lra. }
      rewrite E. destruct (Hm (map (fun j => nth j dx0 0 / - nth j x 0) (seq 0 4)) ltac:(discriminate)) as (y & Hy & Hle & Ey). rewrite Ey.
      rewrite el_fin, fdiv_fin by (auto; lra). eexists. split; [reflexivity|].
      apply in_map_iff in Hy. destruct Hy as (j & Ej & Hj). apply in_seq in Hj. pose proof (Px j ltac:(lia)) as Pj. pose proof (Hd j ltac:(lia)) as Hdj. pose proof (Hd i Hi) as Hdi.
      set (a := nth i dx0 0 / nth i x 0). set (b := nth j dx0 0 / nth j x 0).
      assert (Ya : nth i dx0 0 = a * nth i x 0) by (unfold a; field; lra). assert (Yb : y = - b) by (rewrite <- Ej; unfold b; field; lra).
      assert (A2 : a * a <= 2). { rewrite Ya in Hdi. assert (0 < nth i x 0 * nth i x 0) by nra. nra. }
      assert (B2 : b * b <= 2). { assert (Yj : nth j dx0 0 = b * nth j x 0) by (unfold b; field; lra). rewrite Yj in Hdj. assert (0 < nth j x 0 * nth j x 0) by nra. nra. }
      rewrite Ya, Yb. replace (nth i x 0 + a * nth i x 0 * (- b / 2)) with (nth i x 0 * (1 - a * b / 2)) by field.
      apply Rmult_le_pos; [lra|]. nra.
    + rewrite el_fin by auto. eexists. split; [reflexivity|]. apply Rnot_lt_le. intros L. apply N. exists i. split; [exact Hi|].
      unfold less. rewrite !el_fin by auto. cbn [fadd]. now apply flt_true.
Qed.
Example C44_nonnegative_met : taken min0 (fin [1 / 2; 1 / 2]) (fin [1; 1; 1; 1]) (fin [- (6 / 5); - (6 / 5); 0; 0]) (freeze (fin [1 / 2; 1 / 2]) (limit min0 (fin [1; 1; 1; 1]) (fin [- (6 / 5); - (6 / 5); 0; 0]))) /\
  negative_step (fin [1; 1; 1; 1]) (fin [- (6 / 5); - (6 / 5); 0; 0]).
Proof.
  split; [apply taken_ok; reflexivity|]. exists 0%nat. split; [lia|]. unfold less. cbn [fin map el nth fadd]. apply flt_true. lra.
Qed.

(** ** C45: temperature and pressure given *)
Theorem C45_sizes : forall m qr minc T p L0 V0 maxiter, length V0 <> length L0 -> mix_VLE_Tp m qr minc T p L0 V0 maxiter = throws InvalidArgument.
Proof. intros m qr minc T p L0 V0 maxiter H. unfold mix_VLE_Tp. apply Nat.eqb_neq in H. now rewrite H. Qed.
(** The reported outcome does not depend on what happened: never a success, the code not
    set, no message, and the number of passes less one. *)
Theorem C45_outcome_refuted : forall m qr minc T p L0 V0 maxiter s, mix_VLE_Tp m qr minc T p L0 V0 maxiter = ok s ->
  tp_success s = false /\ tp_code s = unset /\ tp_message s = EmptyString /\
  tp_num_iter s = Z.max 0 (maxiter - 1) /\ tp_num_fev s = Z.max 0 (maxiter - 1) /\ tp_T s = T.
Proof.
  intros m qr minc T p L0 V0 maxiter s E. unfold mix_VLE_Tp in E. destruct (negb _); [discriminate|]. destruct (negb _); [discriminate|].
  apply obind_inv in E. destruct E as (r0 & _ & E). apply obind_inv in E. destruct E as (x & _ & E). apply obind_inv in E. destruct E as (r1 & _ & E).
  injection E as <-. cbn. auto 10.
Qed.
(** The equations: the residual vanishes exactly at the two-phase states with the given
    pressure. *)
Theorem C45_equations : forall ad alphar Rgas Rg m T p L V GL GV,
  AD_exact ad -> const_R Rgas Rg -> evaluates ad alphar Rgas m -> 0 < T -> p <> 0 -> length L = 2%nat -> length V = 2%nat -> positive L -> positive V ->
  smooth_joint alphar Rgas T L -> smooth_joint alphar Rgas T V -> gradient_of alphar Rgas T L GL -> gradient_of alphar Rgas T V GV ->
  exists r, tp_residual m (Fin T) (Fin p) (fin (L ++ V)) = ok (fin r) /\
    (List.Forall (fun v => v = 0) r <-> two_phase alphar Rgas Rg T L V GL GV /\ p_of alphar Rgas T L = p).
Proof.
  intros ad alphar Rgas Rg m T p L V GL GV Had [R0 HR] EV HT Hp LL LV PL PV SL SV HL HV.
  eexists. split; [apply (tp_fin ad alphar Rgas Rg HR m EV T HT p L V Hp LL LV PL PV)|]. unfold tp_r.
  pose proof (mu_fugacity ad Had alphar Rgas Rg R0 T L V GL GV 0 HT PL PV ltac:(lia) ltac:(lia) HL HV) as M0.
  pose proof (mu_fugacity ad Had alphar Rgas Rg R0 T L V GL GV 1 HT PL PV ltac:(lia) ltac:(lia) HL HV) as M1.
  rewrite !(qp_val ad Had alphar Rgas Rg HR R0) by auto. unfold two_phase. rewrite LL.
  assert (Q : forall a, (a + - p) / p = 0 <-> a = p).
  { intros a. split; intros H; [|subst a; field; exact Hp]. assert ((a + - p) / p * p = 0) by (rewrite H; ring).
    replace ((a + - p) / p * p) with (a + - p) in * by (field; exact Hp). lra. }
  split.
  - intros H. rewrite !Forall_cons_iff in H. destruct H as (A0 & A1 & A2 & A3 & _). apply Q in A2, A3.
    split; [split|exact A3].
    + intros [|[|i]] Hi; [now apply M0|now apply M1|lia].
    + lra.
  - intros [[A B] C]. constructor; [apply M0, A; lia|]. constructor; [apply M1, A; lia|]. constructor; [apply Q; lra|]. constructor; [apply Q; lra|constructor].
Qed.
Theorem C45_jacobian : forall ad alphar Rgas Rg m T p L V,
  AD_exact ad -> const_R Rgas Rg -> evaluates ad alphar Rgas m -> 0 < T -> p <> 0 -> length L = 2%nat -> length V = 2%nat -> positive L -> positive V ->
  smooth_joint alphar Rgas T L -> smooth_joint alphar Rgas T V ->
  exists r J, tp_jacobian m (Fin T) (Fin p) (fin (L ++ V)) = ok (fins J) /\
    has_jacobian (fun y => tp_residual m (Fin T) (Fin p) (fin y)) (L ++ V) r J.
Proof.
  intros ad alphar Rgas Rg m T p L V Had [R0 HR] EV HT Hp LL LV PL PV SL SV. eexists _, _. split.
  - apply (tp_fin ad alphar Rgas Rg HR m EV T HT p L V Hp LL LV PL PV).
  - apply (tp_jac ad Had alphar Rgas Rg HR R0 m EV T HT p L V); auto.
Qed.
Example C45_jacobian_met : exists r J,
  tp_jacobian (eos_of partialN ex_alphar ex_R) (Fin 1) (Fin 3) (fin ([1; 2] ++ [2; 1])) = ok (fins J) /\
  has_jacobian (fun y => tp_residual (eos_of partialN ex_alphar ex_R) (Fin 1) (Fin 3) (fin y)) ([1; 2] ++ [2; 1]) r J.
Proof.
  assert (Had : AD_exact partialN) by (intros f o x H; reflexivity).
  apply (C45_jacobian partialN ex_alphar ex_R 8); auto using ex_constR, eos_of_ok; try lra; try (apply pos2; lra); try (eexists _, _; apply ex_twice; lra).
Qed.
(** The points: every one of the [maxiter] passes is a Newton step, shortened if a
    concentration would become negative; the residuals at the first and the last point are
    reported. *)
Definition tp_pass (m : eos) (qr : list (list fl) -> list fl -> list fl) (minc : list fl -> fl) (T p : fl) (x x' : list fl) : Prop :=
  exists r J dx, tp_residual m T p x = ok r /\ tp_jacobian m T p x = ok J /\
    let d := qr J (map fopp r) in
    (negative_step x d -> dx = map (fun i => fmul (el d i) (fdiv (minc (map (fun j => ratio (el d j) (el x j)) (seq 0 4))) (Fin 2))) (seq 0 4)) /\
    (~ negative_step x d -> dx = d) /\ x' = map (fun i => fadd (el x i) (el dx i)) (seq 0 4).
Lemma tp_r_len : forall m T p x r, tp_residual m T p x = ok r -> length r = 4%nat.
Proof.
  intros m T p x r H. unfold tp_residual in H. apply obind_inv in H. destruct H as ([[? ?] ?] & _ & H). apply obind_inv in H. destruct H as ([[? ?] ?] & _ & H).
  injection H as <-. reflexivity.
Qed.
Lemma list4 : forall (f : fl -> fl) (v : list fl), length v = 4%nat -> map f v = map (fun i => f (el v i)) (seq 0 4).
Proof. intros f v H. destruct v as [|a [|b [|c [|d [|]]]]]; try discriminate. reflexivity. Qed.
Lemma zip4 : forall f (u v : list fl), length u = 4%nat -> length v = 4%nat -> zip f u v = map (fun i => f (el u i) (el v i)) (seq 0 4).
Proof.
  intros f u v H K. destruct u as [|a [|b [|c [|d [|]]]]]; try discriminate. destruct v as [|a' [|b' [|c' [|d' [|]]]]]; try discriminate. reflexivity.
Qed.
Lemma negative_iff : forall x d, length x = 4%nat -> length d = 4%nat -> (existsb (fun v => flt v (Fin 0)) (zip fadd x d) = true <-> negative_step x d).
Proof.
  intros x d Lx Ld. rewrite zip4 by auto. rewrite existsb_exists. unfold negative_step, less. split.
  - intros (y & Hy & F). apply in_map_iff in Hy. destruct Hy as (i & <- & Hi). apply in_seq in Hi. exists i. split; [lia|exact F].
  - intros (i & Hi & F). eexists. split; [apply in_map_iff; exists i; split; [reflexivity|apply in_seq; lia]|exact F].
Qed.
Lemma tp_loop_run : forall m qr minc T p, sizes qr -> forall n x x', tp_loop m qr minc T p n x = ok x' -> length x = 4%nat ->
  length x' = 4%nat /\ exists X, X 0%nat = x /\ X n = x' /\ forall i, (i < n)%nat -> tp_pass m qr minc T p (X i) (X (S i)).
Proof.
  intros m qr minc T p Hq n. induction n as [|n IH]; intros x x' E Lx.
  - injection E as <-. split; [exact Lx|]. exists (fun _ => x). split; [reflexivity|]. split; [reflexivity|]. intros i Hi. lia.
  - cbn [tp_loop] in E. apply obind_inv in E. destruct E as (r & Er & E). apply obind_inv in E. destruct E as (J & EJ & E).
    pose proof (tp_r_len _ _ _ _ _ Er) as Lr. set (d := qr J (map fopp r)) in *.
    assert (Ld : length d = 4%nat) by (unfold d; rewrite Hq, map_length; exact Lr).
    assert (Ll : length (limit minc x d) = 4%nat) by (unfold limit; destruct (existsb _ _); rewrite ?map_length; exact Ld).
    destruct (IH _ _ E) as (L' & X & X0 & Xn & P). { rewrite zip4 by auto. now rewrite map_length, seq_length. }
    split; [exact L'|]. exists (fun i => match i with O => x | S i => X i end). split; [reflexivity|]. split; [exact Xn|].
    intros [|i] Hi; [|apply P; lia]. rewrite X0. exists r, J, (limit minc x d). split; [exact Er|]. split; [exact EJ|]. cbv zeta. fold d.
    split; [|split].
    + intros N. apply negative_iff in N; auto. unfold limit. rewrite N. rewrite list4 by exact Ld. now rewrite (zip4 ratio d x) by auto.
    + intros N. unfold limit. destruct (existsb _ _) eqn:F; [|reflexivity]. exfalso. apply N. now apply negative_iff.
    + now apply zip4.
Qed.
Theorem C45_steps : forall m qr minc T p L0 V0 maxiter s, sizes qr -> mix_VLE_Tp m qr minc T p L0 V0 maxiter = ok s ->
  length L0 = 2%nat /\ length V0 = 2%nat /\ length (tp_L s) = 2%nat /\ length (tp_V s) = 2%nat /\
  tp_residual m T p (L0 ++ V0) = ok (tp_initial_r s) /\ tp_residual m T p (tp_L s ++ tp_V s) = ok (VLE_model.tp_r s) /\
  exists X, X 0%nat = L0 ++ V0 /\ X (Z.to_nat maxiter) = tp_L s ++ tp_V s /\
    forall i, (i < Z.to_nat maxiter)%nat -> tp_pass m qr minc T p (X i) (X (S i)).
Proof.
  intros m qr minc T p L0 V0 maxiter s Hq E. unfold mix_VLE_Tp in E.
  destruct (Nat.eqb_spec (length V0) (length L0)) as [LV|]; [|discriminate]. cbn [negb] in E. destruct (Nat.eqb_spec (length L0) 2) as [LL|]; [|discriminate]. cbn [negb] in E.
  apply obind_inv in E. destruct E as (r0 & E0 & E). apply obind_inv in E. destruct E as (x & El & E). apply obind_inv in E. destruct E as (r1 & E1 & E).
  injection E as <-. cbn [tp_L tp_V tp_initial_r VLE_model.tp_r].
  destruct (tp_loop_run m qr minc T p Hq _ _ _ El) as (Lx & X & X0 & Xn & P). { rewrite app_length. lia. }
  rewrite LL, firstn_skipn. rewrite firstn_length, skipn_length, Lx. rewrite LV.
  repeat (split; [first [reflexivity|assumption]|]). exists X. auto.
Qed.
(** A solution is kept: if the residual is zero there and the solver solves exactly, the
    result is the starting point, with a zero residual - and no success is reported. *)
Theorem C45_solution_kept : forall m qr minc T p L V J maxiter, length L = 2%nat -> length V = 2%nat ->
  (forall i, (i < 4)%nat -> 0 <= nth i (L ++ V) 0) ->
  tp_residual m T p (fin (L ++ V)) = ok (fin [0; 0; 0; 0]) -> tp_jacobian m T p (fin (L ++ V)) = ok (fins J) ->
  regular J 4 -> solves qr J [0; 0; 0; 0] ->
  exists s, mix_VLE_Tp m qr minc T p (fin L) (fin V) maxiter = ok s /\ tp_L s = fin L /\ tp_V s = fin V /\ VLE_model.tp_r s = fin [0; 0; 0; 0] /\ tp_success s = false.
Proof.
  intros m qr minc T p L V J maxiter LL LV HP Er EJ HR (v & Ev & Sv).
  assert (V0 : v = [0; 0; 0; 0]).
  { apply (HR v). replace (map Ropp [0; 0; 0; 0]) with (repeat 0 4) in Sv; [exact Sv|]. cbn [map repeat]. now rewrite !Ropp_0. }
  assert (LP : forall n, tp_loop m qr minc T p n (fin (L ++ V)) = ok (fin (L ++ V))).
  { induction n as [|n IH]; [reflexivity|]. cbn [tp_loop]. rewrite Er. cbn [obind ok]. rewrite EJ. cbn [obind ok]. rewrite Ev, V0.
    assert (ZE : zip fadd (fin (L ++ V)) (fin [0; 0; 0; 0]) = fin (L ++ V)).
    { destruct L as [|a [|b [|]]]; try discriminate. destruct V as [|c [|d [|]]]; try discriminate. unfold zip, fin. cbn [app map combine fst snd fadd]. now rewrite !Rplus_0_r. }
    replace (limit minc (fin (L ++ V)) (fin [0; 0; 0; 0])) with (fin [0; 0; 0; 0]); [rewrite ZE; exact IH|].
    unfold limit. rewrite ZE. replace (existsb _ _) with false; [reflexivity|]. symmetry.
    destruct L as [|a [|b [|]]]; try discriminate. destruct V as [|c [|d [|]]]; try discriminate. cbn [app fin map existsb].
    pose proof (HP 0%nat ltac:(lia)) as P0. pose proof (HP 1%nat ltac:(lia)) as P1. pose proof (HP 2%nat ltac:(lia)) as P2. pose proof (HP 3%nat ltac:(lia)) as P3.
    cbn in P0, P1, P2, P3. now rewrite !flt_false by auto. }
  unfold mix_VLE_Tp. rewrite !fin_len, LL, LV. cbn [Nat.eqb negb]. rewrite <- fin_app, Er. cbn [obind ok]. rewrite LP. cbn [obind ok]. rewrite Er. cbn [obind ok].
  eexists. split; [reflexivity|]. cbn [tp_L tp_V VLE_model.tp_r tp_success]. destruct (split_app L V) as [S1 S2]. rewrite LL in S1, S2. rewrite fin_firstn, fin_skipn, S1, S2. auto.
Qed.
(** an equilibrium of liquid (1, 1) and vapor (1/2, 1) *)
Definition kept_tp_eos : eos :=
  {| e_R := fun _ => Fin 1; e_fgh := fun _ rho => if feq (el rho 0) (Fin 1) then ok (Fin 1, fin [0; 0], fins [[0; 0]; [0; 0]])
       else ok (Fin (1 / 2 + ln 2 / 2), fin [ln 2; 0], fins [[0; 0]; [0; 0]]); e_d2 := fun _ _ => ok []; e_dpdT := fun _ _ => ok NaN |}.
Definition kept_tp_J : list (list R) := [[1; 0; -2; 0]; [0; 1; 0; -1]; [0; 0; 1; 1]; [1; 1; 0; 0]].
Example C45_solution_kept_met :
  tp_residual kept_tp_eos (Fin 1) (Fin 1) (fin ([1; 1] ++ [1 / 2; 1])) = ok (fin [0; 0; 0; 0]) /\
  tp_jacobian kept_tp_eos (Fin 1) (Fin 1) (fin ([1; 1] ++ [1 / 2; 1])) = ok (fins kept_tp_J) /\
  regular kept_tp_J 4 /\ solves (fun _ _ => fin [0; 0; 0; 0]) kept_tp_J [0; 0; 0; 0].
Proof.
  assert (Lh : ln (1 / 2) = - ln 2) by (unfold Rdiv; rewrite Rmult_1_l, ln_Rinv by lra; reflexivity).
  split; [|split; [|split]].
  - unfold tp_residual. cbn [firstn skipn app fin map e_fgh kept_tp_eos el nth e_R tp_RT]. unfold feq at 1. destruct (Req_EM_T 1 1) as [_|]; [|contradiction]. cbn [obind ok].
    unfold feq at 1. destruct (Req_EM_T (1 / 2) 1) as [|_]; [lra|]. cbn [obind ok]. unfold tp_RT. cbn [e_R kept_tp_eos].
    unfold mu_r, nonzero, phase_p, fdot, zip. cbn [el el2 nth fins fin map combine fst snd].
    rewrite !flt_true by lra. cbn [andb]. rewrite !flog_fin by lra. rewrite Lh, ln_1. cbn [fmul fsum fold_right fdot zip combine fst snd fadd fsub fopp].
    rewrite !fdiv_fin by lra. cbn [fmul fadd fsub fopp]. unfold ok. f_equal. f_equal.
    repeat match goal with |- (_, _) = (_, _) => apply f_equal2 | |- _ :: _ = _ :: _ => apply f_equal2 | |- Fin _ = Fin _ => apply f_equal; field | |- [] = [] => reflexivity end.
  - unfold tp_jacobian. cbn [firstn skipn app fin map e_fgh kept_tp_eos el nth e_R tp_RT]. unfold feq at 1. destruct (Req_EM_T 1 1) as [_|]; [|contradiction]. cbn [obind ok].
    unfold feq at 1. destruct (Req_EM_T (1 / 2) 1) as [|_]; [lra|]. cbn [obind ok]. unfold tp_RT. cbn [e_R kept_tp_eos].
    unfold mu_rows, mu_diag, nonzero, phase_dp, fdot, zip. cbn [el el2 nth fins fin map combine fst snd].
    rewrite !flt_true by lra. cbn [andb]. cbn [fmul fsum fold_right fdot zip combine fst snd fadd fsub fopp].
    rewrite !fdiv_fin by lra. cbn [fmul fadd fsub fopp]. unfold ok, kept_tp_J. cbn [app fins fin map]. f_equal. f_equal.
    repeat match goal with |- (_, _) = (_, _) => apply f_equal2 | |- _ :: _ = _ :: _ => apply f_equal2 | |- Fin _ = Fin _ => apply f_equal; field | |- [] = [] => reflexivity end.
  - intros v [Lv S]. rewrite repeat_length in *. destruct v as [|v0 [|v1 [|v2 [|v3 [|]]]]]; try discriminate. cbn [length] in S.
    pose proof (S 0%nat ltac:(lia)) as S0. pose proof (S 1%nat ltac:(lia)) as S1. pose proof (S 2%nat ltac:(lia)) as S2. pose proof (S 3%nat ltac:(lia)) as S3.
    rewrite sum4 in S0, S1, S2, S3. cbn in S0, S1, S2, S3. cbn.
    assert (v0 = 0) by lra. assert (v1 = 0) by lra. assert (v2 = 0) by lra. assert (v3 = 0) by lra. now subst.
  - exists [0; 0; 0; 0]. split; [cbn [map fin fopp]; reflexivity|]. split; [reflexivity|]. intros k Hk. cbn in Hk. cbn [length]. rewrite sum4. cbn. rewrite Ropp_0.
    destruct k as [|[|[|[|k]]]]; cbn; try ring. lia.
Qed.

(** ** C61: pressure and composition given *)
Theorem C61_refused : forall m qr p xspec T0 L0 V0 a b c d maxiter,
  (length V0 <> length L0 \/ length xspec <> length L0 \/ exists i, (i < length L0)%nat /\ (el L0 i = Fin 0 \/ el V0 i = Fin 0)) ->
  mixture_VLE_px m qr p xspec T0 L0 V0 a b c d maxiter = throws InvalidArgument.
Proof.
  intros m qr p xspec T0 L0 V0 a b c d maxiter H. unfold mixture_VLE_px.
  destruct (Nat.eqb_spec (length V0) (length L0)) as [E1|]; [|reflexivity]. destruct (Nat.eqb_spec (length xspec) (length L0)) as [E2|]; [|reflexivity].
  cbn [andb negb]. destruct H as [H|[H|(i & Hi & H)]]; try contradiction.
  assert (Z0 : feq (Fin 0) (Fin 0) = true) by (cbn; destruct (Req_EM_T 0 0); [reflexivity|contradiction]).
  destruct (existsb (fun r => feq r (Fin 0)) V0) eqn:EV; [reflexivity|]. replace (existsb (fun r => feq r (Fin 0)) L0) with true; [reflexivity|]. symmetry. apply existsb_exists.
  destruct H as [H|H].
  - exists (el L0 i). split; [now apply nth_In|]. now rewrite H.
  - exfalso. assert (X : existsb (fun r => feq r (Fin 0)) V0 = true); [|congruence]. apply existsb_exists. exists (el V0 i). split; [apply nth_In; lia|]. now rewrite H.
Qed.
(** Without a pass the start is returned and the code is not set. *)
Theorem C61_no_pass : forall m qr p xspec T0 L0 V0 a b c d maxiter, length V0 = length L0 -> length xspec = length L0 -> (1 <= length L0)%nat -> (maxiter <= 0)%Z ->
  (forall i, (i < length L0)%nat -> feq (el L0 i) (Fin 0) = false /\ feq (el V0 i) (Fin 0) = false) ->
  mixture_VLE_px m qr p xspec T0 L0 V0 a b c d maxiter = ok (unset, T0, L0, V0).
Proof.
  intros m qr p xspec T0 L0 V0 a b c d maxiter E1 E2 H1 Hm Hz. unfold mixture_VLE_px. rewrite E1, E2, Nat.eqb_refl. cbn [andb negb].
  assert (NZ : forall v, (forall i, (i < length v)%nat -> feq (el v i) (Fin 0) = false) -> existsb (fun r => feq r (Fin 0)) v = false).
  { intros v Hv. destruct (existsb _ v) eqn:E; [|reflexivity]. apply existsb_exists in E. destruct E as (x & Hx & F). destruct (In_nth _ _ NaN Hx) as (i & Hi & <-).
    change (nth i v NaN) with (el v i) in F. rewrite (Hv i Hi) in F. discriminate. }
  rewrite (NZ V0) by (intros i Hi; apply Hz; lia). rewrite (NZ L0) by (intros i Hi; now apply Hz). destruct (Nat.eqb_spec (length L0) 0); [lia|].
  replace (Z.to_nat maxiter) with 0%nat by lia. cbn [px_loop obind ok]. rewrite firstn_app, Nat.sub_diag, firstn_all, firstn_O, app_nil_r, skipn_app, Nat.sub_diag, skipn_all. reflexivity.
Qed.
Lemma all_but_last : forall (u v : list R), length u = length v -> vsum u = vsum v -> (forall i, (i < length v - 1)%nat -> nth i u 0 = nth i v 0) -> u = v.
Proof.
  induction u as [|a u IH]; intros [|b v] L Sm H; try discriminate; [reflexivity|]. cbn [length] in L. injection L as L. cbn [length] in H.
  destruct v as [|b' v]; destruct u as [|a' u]; try discriminate.
  - unfold vsum in Sm. cbn in Sm. f_equal. lra.
  - pose proof (H 0%nat ltac:(cbn; lia)) as H0. cbn in H0. subst b. f_equal. apply IH; [exact L| |].
    + unfold vsum in *. cbn [fold_right] in *. lra.
    + intros i Hi. apply (H (S i)). cbn [length] in Hi |- *. lia.
Qed.
(** The equations, for any number of components. *)
Theorem C61_equations : forall ad alphar Rgas Rg m p xspec T L V GL GV,
  AD_exact ad -> const_R Rgas Rg -> evaluates ad alphar Rgas m -> 0 < T -> p <> 0 -> length L = length xspec -> length V = length xspec -> positive L -> positive V ->
  smooth_joint alphar Rgas T L -> smooth_joint alphar Rgas T V -> gradient_of alphar Rgas T L GL -> gradient_of alphar Rgas T V GV -> total xspec = 1 ->
  exists r J, px_assemble m (Fin p) (fin xspec) (Fin T) (fin (L ++ V)) = ok (fin r, J) /\
    (List.Forall (fun v => v = 0) r <-> two_phase alphar Rgas Rg T L V GL GV /\ p_of alphar Rgas T L = p /\ fractions L = xspec).
Proof.
  intros ad alphar Rgas Rg m p xspec T L V GL GV Had [R0 HR] EV HT Hp LL LV PL PV SL SV HL HV Sx.
  eexists _, _. split; [apply (px_fin ad alphar Rgas Rg HR m EV p xspec Hp T L V HT LL LV PL PV)|].
  unfold px_rows. rewrite !map_app, !map_map. cbn [map fst snd]. rewrite !Forall_app, !Forall_cons_iff, !Forall_map.
  rewrite !(qp_val ad Had alphar Rgas Rg HR R0) by auto.
  assert (Q : forall a, a / p + - (1) = 0 <-> a = p).
  { intros a. split; intros H; [|subst a; field; exact Hp]. assert ((a / p + - (1)) * p = 0) by (rewrite H; ring).
    replace ((a / p + - (1)) * p) with (a - p) in * by (field; exact Hp). lra. }
  rewrite !Q. pose proof (total_pos _ PL) as TL. assert (TQ : vsum L <> 0) by (rewrite vsum_total; lra).
  assert (MF : List.Forall (fun i => mu ad alphar Rgas Rg T L i + - mu ad alphar Rgas Rg T V i = 0) (seq 0 (length xspec)) <->
               forall i, (i < length L)%nat -> fugacity Rg T L GL i = fugacity Rg T V GV i).
  { rewrite Forall_forall, LL. split.
    - intros A i Hi. apply (mu_fugacity ad Had alphar Rgas Rg R0 T L V GL GV i HT PL PV ltac:(lia) ltac:(lia) HL HV). apply A, in_seq. lia.
    - intros A i Hi. apply in_seq in Hi. apply (mu_fugacity ad Had alphar Rgas Rg R0 T L V GL GV i HT PL PV ltac:(lia) ltac:(lia) HL HV). apply A. lia. }
  assert (XF : List.Forall (fun i => nth i L 0 / vsum L + - nth i xspec 0 = 0) (seq 0 (length xspec - 1)) <-> fractions L = xspec).
  { rewrite Forall_forall. assert (N : forall i, (i < length xspec)%nat -> nth i (fractions L) 0 = nth i L 0 / vsum L).
    { intros i Hi. unfold fractions. rewrite (nth_indep _ 0 (0 / total L)) by (rewrite map_length; lia). now rewrite (map_nth (fun r => r / total L)), vsum_total. }
    split.
    - intros A. apply all_but_last.
      + unfold fractions. now rewrite map_length.
      + rewrite (vsum_total xspec), Sx. unfold fractions. assert (E : forall l c, vsum (map (fun r => r / c) l) = vsum l / c).
        { intros l c. induction l as [|x l IH]; unfold vsum in *; cbn [map fold_right]; [unfold Rdiv; ring|]. rewrite IH. unfold Rdiv. ring. }
        rewrite E, vsum_total. field. lra.
      + intros i Hi. rewrite N by lia. assert (I : In i (seq 0 (length xspec - 1))) by (apply in_seq; lia). specialize (A i I). lra.
    - intros A i Hi. apply in_seq in Hi. rewrite <- A, N by lia. ring. }
  rewrite MF, XF. unfold two_phase. split.
  - intros (A & (B & C & _) & D). split; [split; [exact A|lra]|]. auto.
  - intros ((A & B) & C & D). split; [exact A|]. split; [|exact D]. split; [lra|]. split; [lra|]. constructor.
Qed.
(** The matrix of the Newton step is the Jacobian with respect to temperature and
    concentrations. *)
Theorem C61_jacobian : forall ad alphar Rgas Rg m p xspec T L V,
  AD_exact ad -> const_R Rgas Rg -> evaluates ad alphar Rgas m -> 0 < T -> p <> 0 -> length L = length xspec -> length V = length xspec -> positive L -> positive V ->
  smooth_joint alphar Rgas T L -> smooth_joint alphar Rgas T V ->
  exists r J, px_assemble m (Fin p) (fin xspec) (Fin T) (fin (L ++ V)) = ok (fin r, fins J) /\
    has_jacobian (fun y => obind (px_assemble m (Fin p) (fin xspec) (Fin (hd 0 y)) (fin (tl y))) (fun q => ok (fst q))) (T :: L ++ V) r J.
Proof.
  intros ad alphar Rgas Rg m p xspec T L V Had [R0 HR] EV HT Hp LL LV PL PV SL SV. eexists _, _. split.
  - apply (px_fin ad alphar Rgas Rg HR m EV p xspec Hp T L V HT LL LV PL PV).
  - apply (px_jac ad Had alphar Rgas Rg HR R0 m EV p xspec Hp T L V HT LL LV PL PV SL SV).
Qed.
Example C61_jacobian_met : exists r J,
  px_assemble (eos_of partialN ex_alphar ex_R) (Fin 3) (fin [1 / 3; 2 / 3]) (Fin 1) (fin ([1; 2] ++ [2; 1])) = ok (fin r, fins J) /\
  has_jacobian (fun y => obind (px_assemble (eos_of partialN ex_alphar ex_R) (Fin 3) (fin [1 / 3; 2 / 3]) (Fin (hd 0 y)) (fin (tl y))) (fun q => ok (fst q))) (1 :: [1; 2] ++ [2; 1]) r J.
Proof.
  assert (Had : AD_exact partialN) by (intros f o x H; reflexivity).
  apply (C61_jacobian partialN ex_alphar ex_R 8); auto using ex_constR, eos_of_ok; try lra; try (apply pos2; lra); try (eexists _, _; apply ex_twice; lra).
Qed.
(** The run and what the return code says. *)
Theorem C61_run : forall m qr p xspec T0 L0 V0 atol reltol axtol relxtol maxiter code T L V,
  sizes qr -> (1 <= maxiter)%Z -> mixture_VLE_px m qr p xspec T0 L0 V0 atol reltol axtol relxtol maxiter = ok (code, T, L, V) ->
  length L = length xspec /\ length V = length xspec /\
  exists k X Rs D, X 0%nat = (T0, L0 ++ V0) /\ X k = (T, L ++ V) /\ (Z.of_nat k <= maxiter)%Z /\
    px_passes m qr p xspec T0 atol reltol axtol relxtol k X Rs D /\ px_ends m qr p xspec T0 atol reltol axtol relxtol maxiter code k X Rs D.
Proof.
  intros m qr p xspec T0 L0 V0 atol reltol axtol relxtol maxiter code T L V Hq Hm E. unfold mixture_VLE_px in E.
  destruct (Nat.eqb_spec (length V0) (length L0)) as [LV|]; [|discriminate]. destruct (Nat.eqb_spec (length xspec) (length L0)) as [LX|]; [|discriminate].
  cbn [andb negb] in E. destruct (existsb _ V0); [discriminate|]. destruct (existsb _ L0); [discriminate|]. destruct (Nat.eqb_spec (length L0) 0); [discriminate|].
  apply obind_inv in E. destruct E as ([[c t] x] & E & E2). injection E2 as <- <- <- <-.
  replace (Z.to_nat maxiter) with (S (Z.to_nat (maxiter - 1))) in E by lia.
  assert (Lx : length (L0 ++ V0) = (2 * length xspec)%nat) by (rewrite app_length; lia).
  destruct (px_loop_run m qr Hq p xspec T0 atol reltol axtol relxtol ltac:(lia) _ _ _ _ _ _ E Lx) as (k & X & Rs & D & X0 & Xk & Hk & PS & EN).
  replace (Z.of_nat (S (Z.to_nat (maxiter - 1)))) with maxiter in Hk, EN by lia.
  assert (L4 : length x = (2 * length xspec)%nat).
  { destruct k as [|k]; [congruence|]. destruct (PS k ltac:(lia)) as ((_ & _ & _ & Q) & _). rewrite Xk in Q. cbn [snd] in Q. rewrite Q, map_length, seq_length. reflexivity. }
  rewrite firstn_length, skipn_length, L4, firstn_skipn. split; [lia|]. split; [lia|]. exists k, X, Rs, D. auto.
Qed.
Theorem C61_code_set : forall m qr p xspec T0 L0 V0 atol reltol axtol relxtol maxiter code T L V,
  sizes qr -> (1 <= maxiter)%Z -> mixture_VLE_px m qr p xspec T0 L0 V0 atol reltol axtol relxtol maxiter = ok (code, T, L, V) ->
  code <> unset /\ code <> maxfev_met.
Proof.
  intros m qr p xspec T0 L0 V0 atol reltol axtol relxtol maxiter code T L V Hq Hm E.
  destruct (C61_run _ _ _ _ _ _ _ _ _ _ _ _ _ _ _ _ Hq Hm E) as (_ & _ & k & X & Rs & D & _ & _ & _ & _ & EN).
  split; intros ->; cbn in EN; [lia|exact EN].
Qed.
(** The test on the steps compares the change of the temperature with the temperature the
    call was given, not with the current one.  An ideal gas at half the pressure: the
    first pass halves the temperature and is accepted as a relative change of less than
    3/4, although the change is as large as the temperature reached. *)
Definition ig_eos : eos :=
  {| e_R := fun _ => Fin 1; e_fgh := fun _ _ => ok (Fin 0, fin [0], fins [[0]]); e_d2 := fun _ _ => ok (fin [0]); e_dpdT := fun _ rho => ok (fsum rho) |}.
Definition px_w_p : R := / (2 * (exp 1 - 1)).
Definition px_w_r : list R := [1; / px_w_p - 1; exp (- (1)) / px_w_p - 1].
Definition px_w_J : list (list R) := [[1; 1; - exp 1]; [/ px_w_p; / px_w_p; 0]; [exp (- (1)) / px_w_p; 0; / px_w_p]].
Lemma sum3 : forall f, sumn 3 f = f 0%nat + f 1%nat + f 2%nat. Proof. intros. cbn. ring. Qed.
Lemma px_w_bounds : 1 / 4 <= px_w_p < 2 / 5.
Proof.
  pose proof exp_le_3 as A. pose proof (exp_ineq1 (1 / 2) ltac:(lra)) as B.
  assert (C : 9 / 4 < exp 1). { replace 1 with (1 / 2 + 1 / 2) by lra. rewrite exp_plus. nra. }
  unfold px_w_p. split.
  - replace (1 / 4) with (/ 4) by lra. apply Rinv_le_contravar; lra.
  - replace (2 / 5) with (/ (5 / 2)) by lra. apply Rinv_lt_contravar; [nra|lra].
Qed.
Lemma px_w_assemble : px_assemble ig_eos (Fin px_w_p) (fin [1]) (Fin 1) (fin [1; exp (- (1))]) = ok (fin px_w_r, fins px_w_J).
Proof.
  pose proof px_w_bounds as W. pose proof (exp_pos (- (1))) as Pe. pose proof (exp_pos 1) as P1.
  assert (Eq : exp (- (1)) = / exp 1) by apply exp_Ropp.
  unfold px_assemble. cbn [fin map length firstn skipn e_fgh e_d2 e_dpdT e_R ig_eos obind ok]. unfold each_i. cbn [length seq map app Nat.sub Nat.eqb].
  unfold phase_p, phase_dp, fdot, zip. cbn [el el2 nth fins fin map combine fst snd fsum fold_right].
  rewrite !fdiv_fin by lra. rewrite !flog_fin by (first [lra|apply Rdiv_lt_0_compat; lra]).
  cbn [fmul fadd fsub fopp]. rewrite !fdiv_fin by lra. cbn [fmul fadd fsub fopp].
  replace (ln (1 / exp (- (1)))) with 1 by (unfold Rdiv; rewrite Rmult_1_l, ln_Rinv, ln_exp by auto; ring). rewrite ln_1, ln_exp.
  unfold ok, px_w_r, px_w_J. cbn [fins fin map]. f_equal. f_equal.
  repeat match goal with |- (_, _) = (_, _) => apply f_equal2 | |- _ :: _ = _ :: _ => apply f_equal2 | |- Fin _ = Fin _ => apply f_equal; rewrite ?Eq; field; repeat split; lra | |- [] = [] => reflexivity end.
Qed.
Lemma px_w_solution : forall v, solution px_w_J (map Ropp px_w_r) v -> v = [- (1 / 2); px_w_p - 1 / 2; px_w_p - exp (- (1)) / 2].
Proof.
  intros v [Lv S]. destruct v as [|b [|a [|c [|]]]]; try discriminate. cbn [length map px_w_r] in S. pose proof px_w_bounds as W. pose proof (exp_pos 1) as P1.
  pose proof (S 0%nat ltac:(lia)) as S0. pose proof (S 1%nat ltac:(lia)) as S1. pose proof (S 2%nat ltac:(lia)) as S2.
  rewrite sum3 in S0, S1, S2. cbn in S0, S1, S2.
  assert (Eq : exp (- (1)) * exp 1 = 1) by (rewrite <- exp_plus; replace (- (1) + 1) with 0 by ring; apply exp_0).
  assert (Ep : px_w_p * (exp 1 - 1) = 1 / 2). { unfold px_w_p. field. intros Z. unfold px_w_p in W. rewrite Z, Rmult_0_r, Rinv_0 in W. lra. }
  assert (A1 : a = px_w_p - 1 - b). { apply (f_equal (fun z => z * px_w_p)) in S1. field_simplify in S1; lra. }
  assert (A2 : c = px_w_p - exp (- (1)) - exp (- (1)) * b). { apply (f_equal (fun z => z * px_w_p)) in S2. field_simplify in S2; lra. }
  assert (Ec : exp 1 * c = exp 1 * px_w_p - 1 - b). { rewrite A2. replace (exp 1 * (px_w_p - exp (- (1)) - exp (- (1)) * b)) with (exp 1 * px_w_p - (exp (- (1)) * exp 1) - (exp (- (1)) * exp 1) * b) by ring. rewrite Eq. ring. }
  assert (B : b = - (1 / 2)) by lra. subst b. f_equal. f_equal; [lra|]. f_equal. rewrite A2. field.
Qed.
Theorem C61_step_test_refuted : forall qr atol reltol maxiter, sizes qr -> solves qr px_w_J px_w_r -> (1 <= maxiter)%Z ->
  exists L V, mixture_VLE_px ig_eos qr (Fin px_w_p) (fin [1]) (Fin 1) (fin [1]) (fin [exp (- (1))]) atol reltol (Fin 0) (Fin (3 / 4)) maxiter =
    ok (xtol_satisfied, Fin (1 / 2), L, V) /\ 0 + 3 / 4 * Rabs (1 / 2) < Rabs (1 / 2 - 1).
Proof.
  intros qr atol reltol maxiter Hq (v & Ev & Sv) Hm. apply px_w_solution in Sv. subst v. pose proof px_w_bounds as W. pose proof w_bounds as Wq.
  eexists _, _. split.
  - unfold mixture_VLE_px. cbn [fin map length Nat.eqb andb negb existsb]. rewrite !feq_false by lra. cbn [orb Nat.eqb].
    replace (Z.to_nat maxiter) with (S (Z.to_nat (maxiter - 1))) by lia. cbn [px_loop].
    change ([Fin 1] ++ [Fin (exp (- (1)))]) with (fin [1; exp (- (1))]). change [Fin 1] with (fin [1]). rewrite px_w_assemble. cbn [obind ok]. rewrite Ev.
    change (no_finite _) with false. cbv iota. cbn [fin map el nth skipn fadd]. unfold zip. cbn [combine map fst snd fadd].
    replace (small _ _ _ _) with true.
    + cbn [obind ok firstn skipn length]. replace (1 + - (1 / 2)) with (1 / 2) by lra. reflexivity.
    + symmetry. unfold small. cbn [combine forallb fst snd fabs fmul fadd].
      rewrite !flt_true; [reflexivity| | |].
      * rewrite !Rabs_pos_eq by lra. lra.
      * rewrite (Rabs_left (px_w_p - 1 / 2)), (Rabs_pos_eq (1 + (px_w_p - 1 / 2))) by lra. lra.
      * rewrite (Rabs_left (- (1 / 2))), (Rabs_pos_eq 1) by lra. lra.
  - rewrite Rabs_pos_eq, Rabs_left by lra. lra.
Qed.
Example C61_step_test_refuted_met : exists qr, solves qr px_w_J px_w_r.
Proof.
  pose proof px_w_bounds as W. pose proof (exp_pos 1) as P1.
  assert (Z : exp 1 - 1 <> 0). { intros Z. unfold px_w_p in W. rewrite Z, Rmult_0_r, Rinv_0 in W. lra. }
  exists (fun _ _ => fin [- (1 / 2); px_w_p - 1 / 2; px_w_p - exp (- (1)) / 2]). eexists. split; [reflexivity|]. split; [reflexivity|].
  intros k Hk. cbn in Hk. cbn [length]. rewrite sum3. cbn [px_w_J px_w_r map nth].
  replace (exp (- (1))) with (/ exp 1) by (symmetry; apply exp_Ropp).
  destruct k as [|[|[|k]]]; [| | |lia]; cbn [nth]; unfold px_w_p; field; lra.
Qed.
Print Assumptions C44_sizes.
Print Assumptions C44_other_sizes_refuted.
Print Assumptions C44_equations.
Print Assumptions C44_jacobian.
Print Assumptions C44_run.
Print Assumptions C44_code_set.
Print Assumptions C44_returns.
Print Assumptions C44_absent_components.
Print Assumptions C44_solution_kept.
Print Assumptions C44_positive_refuted.
Print Assumptions C44_nonnegative_partial.
Print Assumptions C45_sizes.
Print Assumptions C45_outcome_refuted.
Print Assumptions C45_equations.
Print Assumptions C45_jacobian.
Print Assumptions C45_steps.
Print Assumptions C45_solution_kept.
Print Assumptions C61_refused.
Print Assumptions C61_no_pass.
Print Assumptions C61_equations.
Print Assumptions C61_jacobian.
Print Assumptions C61_run.
Print Assumptions C61_code_set.
Print Assumptions C61_step_test_refuted.
