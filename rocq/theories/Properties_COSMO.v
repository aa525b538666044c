(** C87: the residual activity coefficients of COSMO-SAC. *)
From Coq Require Import Reals ZArith String List Bool Lra Lia FunctionalExtensionality Permutation.
From Verif Require Import Json_model Vec_spec Vec_proofs Cubic_model Cubic_spec Cubic_proofs2 Terms_model Derivs_spec Ideal_model Ideal_proofs Assoc_model COSMO_model COSMO_spec COSMO_proofs COSMO_proofs2.
Import ListNotations.
Local Open Scope R_scope.

(** * The energy of a pair of segments: for every temperature, kinds and charges, and the same seen
    from the other segment *)
Theorem C87_energy : forall c T t s m n, (m < 51)%nat -> (n < 51)%nat ->
  factor c T (seg t m) (seg s n) = exp (- exchange_energy (c_const c) T t s (charge m) (charge n) / (k_R (c_const c) * T)) /\
  factor c T (seg s n) (seg t m) = factor c T (seg t m) (seg s n).
Proof. intros c T t s m n Hm Hn. split; [|apply factor_sym]. unfold factor. rewrite !seg_mod, !seg_div, DELTAW_eq by assumption. reflexivity. Qed.
Example C87_energy_met : exchange_energy default_constants 300 OH OT (charge 10) (charge 40) = - (3016.43 * (0.03 * 0.03)) /\ exchange_energy default_constants 300 NHB OT (charge 10) (charge 40) = 0.
Proof.
  unfold exchange_energy, charge, bonding, default_constants. cbn [k_A_ES k_B_ES k_OH_OT]. rewrite (INR_IZR_INZ 10), (INR_IZR_INZ 40). cbn [Z.of_nat Pos.of_succ_nat Pos.succ].
  destruct (Rlt_dec _ _) as [|N]; [split; lra|exfalso; apply N; lra].
Qed.

(** * Shares of segments add up to one *)
Lemma nth_sumn : forall (l : list R) n, length l = n -> sumn n (fun k => nth k l 0) = fold_right Rplus 0 l.
Proof.
  intros l n <-. induction l as [|a l IH] using rev_ind; [reflexivity|]. rewrite app_length. cbn [length]. rewrite Nat.add_1_r. cbn [sumn]. rewrite app_nth2, Nat.sub_diag by lia. cbn [nth].
  rewrite (sumn_ext _ _ (fun k => nth k l 0)) by (intros i Hi; now rewrite app_nth1). rewrite IH. rewrite fold_right_app. cbn. rewrite Rplus_0_r. clear IH. induction l as [|b l IH]; cbn; [ring|]. rewrite <- IH. ring.
Qed.
Lemma fold_app : forall l m, fold_right Rplus 0 (l ++ m) = fold_right Rplus 0 l + fold_right Rplus 0 m.
Proof. induction l as [|a l IH]; intros m; cbn; [ring|]. rewrite IH. ring. Qed.
Lemma all_segments_sum : forall p, length (s_nhb p) = 51%nat -> length (s_oh p) = 51%nat -> length (s_ot p) = 51%nat ->
  sumn 153 (fun j => nth (j mod 51) (profile p (kind_of (j / 51))) 0) = fold_right Rplus 0 (s_nhb p ++ s_oh p ++ s_ot p).
Proof.
  intros p L1 L2 L3. change 153%nat with (3 * 51)%nat. rewrite sumn_blocks, !fold_app.
  assert (B : forall t, (t < 3)%nat -> sumn 51 (fun k => nth ((51 * t + k) mod 51) (profile p (kind_of ((51 * t + k) / 51))) 0) = fold_right Rplus 0 (profile p (kind_of t))).
  { intros t Ht. rewrite <- (nth_sumn (profile p (kind_of t)) 51) by (destruct t as [|[|[|]]]; assumption || lia). apply sumn_ext. intros k Hk. replace (51 * t + k)%nat with (k + t * 51)%nat by lia.
    rewrite Nat.mod_add, Nat.div_add by lia. rewrite Nat.mod_small, Nat.div_small by lia. reflexivity. }
  rewrite (sumn_ext 3 _ (fun t => fold_right Rplus 0 (profile p (kind_of t)))) by exact B. cbn [sumn kind_of profile]. ring.
Qed.
Lemma Forall_profile : forall p t k, List.Forall (fun r => 0 <= r) (s_nhb p ++ s_oh p ++ s_ot p) -> 0 <= nth k (profile p t) 0.
Proof. intros p t k H. apply Forall_app in H. destruct H as [H1 H]. apply Forall_app in H. destruct H as [H2 H3]. destruct t; now apply nth_sum_pos. Qed.
Lemma sum_to_shares : forall n p, (forall j, (j < n)%nat -> 0 <= p j) -> sumn n p = 1 -> shares n p.
Proof.
  intros n p P S. split; [assumption|]. assert (X : ~ forall j, (j < n)%nat -> ~ 0 < p j).
  { intros N. rewrite (sumn_0 n p) in S; [lra|]. intros j Hj. pose proof (N j Hj). pose proof (P j Hj). lra. }
  clear S. induction n as [|n IH]; [exfalso; apply X; intros j Hj; lia|]. destruct (Rlt_dec 0 (p n)) as [D|D]; [exists n; split; [lia|assumption]|].
  destruct IH as (j & Hj & D'). { intros j Hj. apply P. lia. } { intros N. apply X. intros j Hj. destruct (Nat.eq_dec j n) as [->|NE]; [assumption|]. apply N. lia. } exists j. split; [lia|assumption].
Qed.
Theorem C87_shares_pure : forall a v p, proper_fluid a v p -> sumn 153 (share_pure a p) = 1 /\ shares 153 (share_pure a p).
Proof.
  intros a v p (Ha & _ & L1 & L2 & L3 & P & S). assert (E : sumn 153 (share_pure a p) = 1).
  { unfold share_pure, Rdiv. rewrite sumn_scal_r. rewrite all_segments_sum by assumption. rewrite S. field. lra. }
  split; [assumption|]. apply sum_to_shares; [|assumption]. intros j _. unfold share_pure. pose proof (Forall_profile p (kind_of (j / 51)) (j mod 51) P). apply Rmult_le_pos; [assumption|]. left. now apply Rinv_0_lt_compat.
Qed.
Lemma comp_nth : forall x, is_composition x -> (forall i, 0 <= nth i x 0) /\ exists i, (i < length x)%nat /\ 0 < nth i x 0.
Proof. intros x [P (r & Hr & R0)]. split; [intros i; now apply nth_sum_pos|]. destruct (In_nth x r 0 Hr) as (i & Hi & E). exists i. rewrite E. auto. Qed.
Lemma area_pos : forall x A V ps, proper_fluids A V ps -> is_composition x -> length x = length ps -> 0 < sumn (length x) (fun i => nth i x 0 * nth i A 0).
Proof.
  intros x A V ps (_ & _ & P) C L. destruct (comp_nth x C) as [X (i & Hi & Xi)]. apply sumn_pos_lt with i; [|assumption|].
  - intros j Hj. apply Rmult_le_pos; [auto|]. destruct (P j ltac:(lia)) as (? & _). lra.
  - apply Rmult_lt_0_compat; [assumption|]. destruct (P i ltac:(lia)) as (? & _). lra.
Qed.
Theorem C87_shares : forall x A V ps, proper_fluids A V ps -> is_composition x -> length x = length ps -> sumn 153 (share_mix x A ps) = 1 /\ shares 153 (share_mix x A ps).
Proof.
  intros x A V ps PF C L. pose proof (area_pos x A V ps PF C L) as S0. destruct PF as (_ & _ & P). destruct (comp_nth x C) as [X _].
  assert (E : sumn 153 (share_mix x A ps) = 1).
  { unfold share_mix, Rdiv. rewrite sumn_scal_r. rewrite sumn_swap. rewrite (sumn_ext (length x) _ (fun i => nth i x 0 * nth i A 0)); [field; lra|]. intros i Hi. rewrite sumn_scal. f_equal.
    destruct (P i ltac:(lia)) as (_ & _ & L1 & L2 & L3 & _ & S). rewrite all_segments_sum by assumption. exact S. }
  split; [assumption|]. apply sum_to_shares; [|assumption]. intros j _. unfold share_mix. apply Rmult_le_pos; [|left; now apply Rinv_0_lt_compat]. apply sumn_pos. intros i Hi. apply Rmult_le_pos; [auto|].
  apply Forall_profile. destruct (P i ltac:(lia)) as (_ & _ & _ & _ & _ & Q & _). exact Q.
Qed.

(** * The window: no segment with a share of non-bonding surface above 1e-16 is outside *)
Theorem C87_window : forall A V ps k c i m, make_cosmo A V ps k = Some c -> (i < length ps)%nat -> (m < length (s_nhb (nth i ps no_profiles)))%nat ->
  / 10 ^ 16 < Rabs (nth m (s_nhb (nth i ps no_profiles)) 0 / nth i A 0) -> (c_left c <= m < c_left c + c_w c)%nat.
Proof.
  intros A V ps k c i m E Hi Hm S. destruct (make_inv _ _ _ _ _ E) as (L & _ & _ & _ & _ & _ & B1 & B2). rewrite B1, B2. clear B1 B2.
  unfold nonzero_bounds. set (qs := map _ (combine ps A)). pose proof (nonzero_fold qs (51%nat, 0%nat)) as N. cbv zeta in N. set (r := fold_left _ qs _) in *. destruct N as (_ & _ & N & _).
  destruct (N (scaled_of A ps i)) as [N1 N2]. { apply scaled_in; assumption. }
  assert (BS : (fst (bounds_of (scaled_of A ps i)) <= m <= snd (bounds_of (scaled_of A ps i)))%nat).
  { apply bounds_spec. { unfold scaled_of, scaled. now rewrite map_length. } unfold scaled_of. rewrite scaled_nth. unfold is_seg. destruct (Rlt_dec _ _); [reflexivity|contradiction]. }
  lia.
Qed.
(** With fluids that fit, every fluid has a share of its surface in the window. *)
Lemma window_share : forall A V ps k c i, make_cosmo A V ps k = Some c -> proper_fluids A V ps -> (c_left c + c_w c <= 50)%nat -> (i < length ps)%nat ->
  exists m, (m < 51)%nat /\ in_window c (seg NHB m) = true /\ 0 < nth m (s_nhb (nth i ps no_profiles)) 0.
Proof.
  intros A V ps k c i E PF Fit Hi. destruct PF as (_ & _ & PF). destruct (PF i Hi) as (a0 & _ & L1 & _ & _ & P & _). destruct (make_inv _ _ _ _ _ E) as (L & _ & _ & _ & _ & _ & B1 & B2). 
  unfold nonzero_bounds in B1, B2. set (qs := map _ (combine ps A)) in *. pose proof (nonzero_fold qs (51%nat, 0%nat)) as N. cbv zeta in N. set (r := fold_left _ qs _) in *. destruct N as (_ & _ & N & _).
  destruct (N (scaled_of A ps i)) as [N1 N2]. { apply scaled_in; assumption. }
  assert (Ls : length (scaled_of A ps i) = 51%nat) by (unfold scaled_of, scaled; now rewrite map_length).
  destruct (bounds_two (scaled_of A ps i)) as (S1 & S2 & LT); [rewrite Ls; lia|]. exists (fst (bounds_of (scaled_of A ps i))). split; [lia|]. split.
  - unfold in_window. rewrite seg_mod by lia. rewrite (proj2 (Nat.leb_le _ _)), (proj2 (Nat.ltb_lt _ _)) by lia. reflexivity.
  - set (m := fst (bounds_of (scaled_of A ps i))) in *. unfold scaled_of in S1. rewrite scaled_nth in S1. unfold is_seg in S1. destruct (Rlt_dec _ _) as [S|]; [|discriminate].
    pose proof (Forall_profile (nth i ps no_profiles) NHB m P) as NN. cbn [profile] in NN. destruct (Rle_lt_or_eq_dec _ _ NN) as [G|Z]; [assumption|]. rewrite <- Z in S. unfold Rdiv in S. rewrite Rmult_0_l, Rabs_R0 in S. assert (0 < / 10 ^ 16) by (apply Rinv_0_lt_compat, pow_lt; lra). lra.
Qed.

(** * What [get_Gamma] returns *)
Definition enough (c : cosmo) (p : nat -> R) : Prop := fits c /\ shares 153 (visible c p).
(** It always returns positive coefficients or throws [std::invalid_argument] after 501 turns. *)
Theorem C87_Gamma_total : forall c T p, k_R (c_const c) * T <> 0 -> enough c p ->
  (exists G, get_Gamma c T p = ok G /\ forall i, (i < 153)%nat -> 0 < G i) \/ get_Gamma c T p = throws StdInvalidArgument.
Proof.
  intros c T p H [F S]. rewrite get_Gamma_eq by assumption. apply (loop_total (factor c T) (updated c) (visible c p)); [intros; apply factor_pos|assumption|now apply row_eq|]. intros i _. lra.
Qed.
(** What it returns solves the equations of the segments within the tolerance. *)
Theorem C87_Gamma : forall c T p G, 0 < k_tol (c_const c) < 1 -> shares 153 (visible c p) -> get_Gamma c T p = ok G ->
  forall i, (i < 153)%nat -> (k_fast (c_const c) = true -> (c_left c <= i mod 51 < c_left c + c_w c)%nat) -> nearly_balanced 153 (factor c T) (k_tol (c_const c)) (visible c p) G i.
Proof.
  intros c T p G Ht S E i Hi W. destruct (get_Gamma_defined _ _ _ _ E) as [H F]. rewrite get_Gamma_eq in E by assumption.
  refine (loop_nearly (factor c T) (updated c) (visible c p) (row c T p) c _ S _ _ max_iter _ G Ht _ E i Hi _); [intros; apply factor_pos|apply visible_out|now apply row_eq|intros j _; lra|].
  unfold updated. destruct (k_fast (c_const c)); [|reflexivity]. specialize (W eq_refl). unfold in_window. rewrite (proj2 (Nat.leb_le _ _)), (proj2 (Nat.ltb_lt _ _)) by lia. reflexivity.
Qed.
(** If the charges of all segments are in the window, both ways solve the same equations. *)
Theorem C87_visible : forall c p, (k_fast (c_const c) = true -> forall j, (j < 153)%nat -> p j <> 0 -> (c_left c <= j mod 51 < c_left c + c_w c)%nat) -> forall j, (j < 153)%nat -> visible c p j = p j.
Proof.
  intros c p H j Hj. unfold visible. destruct (k_fast (c_const c)); [|reflexivity]. apply seen_all; [|assumption]. intros m Hm N. destruct (Req_dec (p m) 0) as [Z|Z]; [assumption|]. exfalso. now apply N, H.
Qed.
(** The equations have no second solution. *)
Theorem C87_unique : forall c T p G H, shares 153 p -> solves 153 (factor c T) p G -> solves 153 (factor c T) p H -> forall i, (i < 153)%nat -> G i = H i.
Proof. intros c T p G H. apply solves_unique. intros; apply factor_pos. Qed.
(** The coefficients returned are not farther from the solution than the start, 1, is. *)
Theorem C87_between : forall c T p E b G, 1 <= b -> shares 153 (visible c p) -> solves 153 (factor c T) (visible c p) E -> (forall i, (i < 153)%nat -> / b <= E i <= b) -> get_Gamma c T p = ok G ->
  forall i, (i < 153)%nat -> updated c i = true -> E i / b <= G i <= b * E i.
Proof.
  intros c T p E b G Hb S SE B EG. destruct (get_Gamma_defined _ _ _ _ EG) as [H F]. rewrite get_Gamma_eq in EG by assumption.
  refine (loop_between (factor c T) (updated c) (visible c p) (row c T p) c _ S _ _ E b max_iter (fun _ => 1) G Hb _ _ _ EG); [intros; apply factor_pos|apply visible_out|now apply row_eq|intros i Hi _; now apply SE|intros i _; lra|].
  intros i Hi _. destruct (B i Hi) as [B1 B2]. split; [unfold Rdiv; apply Rmult_le_reg_r with b; [lra|]; rewrite Rmult_assoc, Rinv_l by lra; lra|]. apply Rmult_le_compat_l with (r := b) in B1; [|lra]. rewrite Rinv_r in B1 by lra. exact B1.
Qed.
(** If the energies vanish the activity coefficients are 1. *)
Theorem C87_no_interactions : forall c T p, k_R (c_const c) * T <> 0 -> fits c -> 0 < k_tol (c_const c) -> shares 153 (visible c p) -> sumn 153 (visible c p) = 1 ->
  (forall i j, factor c T i j = 1) -> exists G, get_Gamma c T p = ok G /\ forall i, (i < 153)%nat -> G i = 1.
Proof.
  intros c T p H F Ht S S1 F1. rewrite get_Gamma_eq by assumption. apply (loop_fixed (factor c T) (updated c) (visible c p) (row c T p) c); try assumption; [intros; apply factor_pos|now apply row_eq| |reflexivity].
  intros i Hi _. split; [lra|]. rewrite Rmult_1_l. transitivity (sumn 153 (visible c p)); [|assumption]. apply sumn_ext. intros j Hj. rewrite F1. ring.
Qed.

(** * The activity coefficients *)
Lemma sizes_proper : forall a v p, proper_fluid a v p -> sizes_ok p = true.
Proof. intros a v p (_ & _ & L1 & L2 & L3 & _). unfold sizes_ok. now rewrite L1, L2, L3. Qed.
Lemma mix_eq : forall A V ps k c x, make_cosmo A V ps k = Some c -> proper_fluids A V ps -> is_composition x -> length x = length ps -> psigma_mix c x = Some (share_mix x A ps).
Proof.
  intros A V ps k c x E PF C L. destruct (make_inv _ _ _ _ _ E) as (LA & _ & EA & _ & EP & _). pose proof (area_pos x A V ps PF C L) as S0. unfold psigma_mix, area. rewrite EP, EA.
  destruct (Nat.ltb_spec (length ps) (length x)); [lia|]. replace (forallb _ _) with true. 2: { symmetry. apply forallb_forall. intros i Hi. apply in_seq in Hi. unfold prof. rewrite EP. apply (sizes_proper (nth i A 0) (nth i V 0)). apply PF. lia. }
  cbn [negb]. destruct (Req_EM_T _ 0); [lra|]. f_equal. apply functional_extensionality. intros j. unfold share_mix, all_segments, prof. rewrite EP. reflexivity.
Qed.
Lemma pure_eq : forall A V ps k c i, make_cosmo A V ps k = Some c -> pure_psigma c i = share_pure (nth i A 0) (nth i ps no_profiles).
Proof. intros A V ps k c i E. destruct (make_inv _ _ _ _ _ E) as (_ & _ & EA & _ & EP & _). unfold pure_psigma, all_segments, prof, area. rewrite EA, EP. reflexivity. Qed.
Lemma enough_pure : forall A V ps k c i, make_cosmo A V ps k = Some c -> proper_fluids A V ps -> fits c -> (i < length ps)%nat -> enough c (share_pure (nth i A 0) (nth i ps no_profiles)).
Proof.
  intros A V ps k c i E PF F Hi. split; [assumption|]. pose proof PF as (_ & _ & PF'). pose proof (PF' i Hi) as PFi. destruct (C87_shares_pure _ _ _ PFi) as [_ S]. unfold visible. destruct (k_fast (c_const c)) eqn:K; [|assumption].
  destruct (window_share A V ps k c i E PF (F K) Hi) as (m & Hm & W & P). split.
  - intros j Hj. unfold seen. destruct (_ && _); [now apply S|lra].
  - exists (seg NHB m). split; [now apply seg_lt|]. rewrite seen_in by assumption. unfold share_pure. rewrite seg_mod, seg_div by assumption. cbn [profile]. destruct PFi as (a0 & _). apply Rdiv_lt_0_compat; assumption.
Qed.
Lemma enough_mix : forall A V ps k c x, make_cosmo A V ps k = Some c -> proper_fluids A V ps -> fits c -> is_composition x -> length x = length ps -> enough c (share_mix x A ps).
Proof.
  intros A V ps k c x E PF F C L. split; [assumption|]. destruct (C87_shares x A V ps PF C L) as [_ S]. unfold visible. destruct (k_fast (c_const c)) eqn:K; [|assumption].
  destruct (comp_nth x C) as [X (i & Hi & Xi)]. pose proof PF as (_ & _ & PF'). destruct (window_share A V ps k c i E PF (F K) ltac:(lia)) as (m & Hm & W & P). split.
  - intros j Hj. unfold seen. destruct (_ && _); [now apply S|lra].
  - exists (seg NHB m). split; [now apply seg_lt|]. rewrite seen_in by assumption. unfold share_mix. rewrite seg_mod, seg_div by assumption. cbn [profile]. apply Rdiv_lt_0_compat; [|now apply (area_pos x A V ps)].
    apply sumn_pos_lt with i; [|assumption|now apply Rmult_lt_0_compat]. intros n Hn. apply Rmult_le_pos; [auto|]. destruct (PF' n ltac:(lia)) as (_ & _ & _ & _ & _ & Q & _). apply (Forall_profile _ NHB m Q).
Qed.
(** For every set of proper fluids, every composition and every positive temperature the result is
    the list of coefficients or std::invalid_argument; they are what the definition says, for
    segment coefficients that solve the equations within the tolerance. *)
Lemma after_ok : forall {A B} (a : A) (f : A -> outcome B), obind (ok a) f = f a.
Proof. reflexivity. Qed.
Theorem C87_total : forall A V ps k c x T, make_cosmo A V ps k = Some c -> proper_fluids A V ps -> proper_constants k -> (k_fast k = true -> (c_left c + c_w c <= 50)%nat) -> is_composition x -> length x = length ps -> 0 < T ->
  (exists l, lngamma_resid c T x = ok l /\ length l = length x /\ cosmo_ares c T x = ok (mean x (fun i => nth i l 0))) \/ lngamma_resid c T x = throws StdInvalidArgument /\ cosmo_ares c T x = throws StdInvalidArgument.
Proof.
  intros A V ps k c x T E PF (KR & KA & KT) F C L HT. destruct (make_inv _ _ _ _ _ E) as (LA & _ & EA & _ & EP & EK & _). rewrite <- EK in KR, KA, KT, F. fold (fits c) in F.
  assert (RT : k_R (c_const c) * T <> 0) by (apply Rmult_integral_contrapositive; split; lra).
  unfold cosmo_ares, lngamma_resid. rewrite (mix_eq A V ps k c x E PF C L). destruct (C87_Gamma_total c T _ RT (enough_mix A V ps k c x E PF F C L)) as [(G & EG & PG)|EG]; rewrite EG; [|now right]. rewrite !after_ok.
  destruct (collect_total (lngamma_one c T G) (length x) 0) as [(l & EL)|EL].
  - intros i Hi. rewrite Nat.add_0_l. pose proof PF as (_ & _ & PF'). pose proof (PF' i ltac:(lia)) as PFi. destruct (C87_Gamma_total c T _ RT (enough_pure A V ps k c i E PF F ltac:(lia))) as [(Gi & EGi & PGi)|EGi]; rewrite <- (pure_eq A V ps k c i E) in EGi.
    + left. eexists. refine (lngamma_one_eq c T G i Gi _ _ _ _ EGi PG PGi); [rewrite EP; lia|unfold prof; rewrite EP; now apply (sizes_proper (nth i A 0) (nth i V 0))|unfold area; rewrite EA; destruct PFi; lra|lra].
    + right. unfold lngamma_one. rewrite EP. destruct (Nat.leb_spec (length ps) i); [lia|]. replace (sizes_ok (prof c i)) with true by (unfold prof; rewrite EP; symmetry; now apply (sizes_proper (nth i A 0) (nth i V 0))). cbn [negb].
      destruct (Req_EM_T (area c i) 0) as [Z|_]; [unfold area in Z; rewrite EA in Z; destruct PFi; lra|]. rewrite EGi. reflexivity.
  - left. exists l. rewrite EL. apply collect_seq in EL. destruct EL as [LL _]. split; [reflexivity|]. split; [assumption|reflexivity].
  - right. rewrite EL. auto.
Qed.
Theorem C87_activity : forall A V ps k c x T l, make_cosmo A V ps k = Some c -> proper_fluids A V ps -> proper_constants k -> is_composition x -> length x = length ps -> lngamma_resid c T x = ok l ->
  length l = length x /\ exists (G : nat -> R) (Gp : nat -> nat -> R),
    get_Gamma c T (share_mix x A ps) = ok G /\
    (forall i, (i < length x)%nat -> get_Gamma c T (share_pure (nth i A 0) (nth i ps no_profiles)) = ok (Gp i)) /\
    (forall j, (j < 153)%nat -> 0 < G j) /\ (forall i j, (i < length x)%nat -> (j < 153)%nat -> 0 < Gp i j) /\
    forall i, (i < length x)%nat -> nth i l 0 = residual (nth i A 0) (k_AEFF k) (share_pure (nth i A 0) (nth i ps no_profiles)) G (Gp i).
Proof.
  intros A V ps k c x T l E PF (KR & KA & KT) C L H. destruct (make_inv _ _ _ _ _ E) as (LA & _ & EA & _ & EP & EK & _). unfold lngamma_resid in H. rewrite (mix_eq A V ps k c x E PF C L) in H.
  destruct (get_Gamma c T (share_mix x A ps)) as [[G|e]|] eqn:EG; try discriminate. cbn [obind] in H. apply collect_seq in H. destruct H as [LL H]. split; [assumption|].
  destruct (get_Gamma_defined _ _ _ _ EG) as [RT F]. 
  assert (PG : forall j, (j < 153)%nat -> 0 < G j). { destruct (C87_Gamma_total c T _ RT (enough_mix A V ps k c x E PF F C L)) as [(G' & EG' & PG)|EG']; rewrite EG' in EG; [injection EG as <-; assumption|discriminate]. }
  exists G, (fun i => match get_Gamma c T (pure_psigma c i) with Some (Val g) => g | _ => fun _ => 0 end). split; [reflexivity|].
  assert (K : forall i, (i < length x)%nat -> exists Gi, get_Gamma c T (pure_psigma c i) = ok Gi /\ (forall j, (j < 153)%nat -> 0 < Gi j) /\ nth i l 0 = residual (nth i A 0) (k_AEFF k) (share_pure (nth i A 0) (nth i ps no_profiles)) G Gi).
  { intros i Hi. specialize (H i Hi). rewrite Nat.add_0_l in H. apply lngamma_one_ok in H. destruct H as (Gi & EGi & _ & _ & _ & P & V'). exists Gi. split; [assumption|]. split; [intros j Hj; now apply P|]. rewrite V'. unfold area. rewrite EA, EK, (pure_eq A V ps k c i E). reflexivity. }
  split; [|split; [assumption|split]].
  - intros i Hi. destruct (K i Hi) as (Gi & EGi & _). rewrite EGi. rewrite <- (pure_eq A V ps k c i E). exact EGi.
  - intros i j Hi Hj. destruct (K i Hi) as (Gi & EGi & P & _). rewrite EGi. cbn. auto.
  - intros i Hi. destruct (K i Hi) as (Gi & EGi & _ & V'). rewrite EGi. exact V'.
Qed.
(** A pure fluid, and a mixture of fluids with the same shares of segments: all coefficients are 1. *)
Theorem C87_ideal : forall A V ps k c x T l, make_cosmo A V ps k = Some c -> proper_fluids A V ps -> proper_constants k -> is_composition x -> length x = length ps ->
  (forall i j, (i < length ps)%nat -> share_pure (nth i A 0) (nth i ps no_profiles) j = share_pure (nth 0 A 0) (nth 0 ps no_profiles) j) -> lngamma_resid c T x = ok l -> forall i, (i < length x)%nat -> nth i l 0 = 0.
Proof.
  intros A V ps k c x T l E PF KK C L Sh H i Hi. pose proof (area_pos x A V ps PF C L) as S0. destruct (C87_activity A V ps k c x T l E PF KK C L H) as (_ & G & Gp & EG & EGp & _ & _ & V').
  rewrite V' by assumption. assert (M : share_mix x A ps = share_pure (nth i A 0) (nth i ps no_profiles)).
  { apply functional_extensionality. intros j. rewrite (Sh i j) by lia. unfold share_mix. rewrite (sumn_ext _ _ (fun m => nth m x 0 * nth m A 0 * share_pure (nth 0 A 0) (nth 0 ps no_profiles) j)).
    - rewrite sumn_scal_r. field. lra.
    - intros m Hm. rewrite <- (Sh m j) by lia. unfold share_pure. destruct PF as (_ & _ & PF). destruct (PF m ltac:(lia)) as (a0 & _). field. lra. }
  rewrite M, (EGp i Hi) in EG. injection EG as EG. rewrite EG. unfold residual. rewrite sumn_0; [ring|]. intros j _. ring.
Qed.
Theorem C87_pure : forall A V ps k c x T l, make_cosmo A V ps k = Some c -> proper_fluids A V ps -> proper_constants k -> length ps = 1%nat -> 0 < x -> lngamma_resid c T [x] = ok l -> l = [0] /\ cosmo_ares c T [x] = ok 0.
Proof.
  intros A V ps k c x T l E PF KK L1 X H. assert (C : is_composition [x]) by (split; [constructor; [lra|constructor]|exists x; split; [now left|assumption]]).
  assert (L : length [x] = length ps) by (cbn; lia). pose proof (C87_ideal A V ps k c [x] T l E PF KK C L) as I. destruct (C87_activity A V ps k c [x] T l E PF KK C L H) as (LL & _).
  assert (Z : nth 0 l 0 = 0). { apply I; [|assumption|cbn; lia]. intros i j Hi. replace i with 0%nat by lia. reflexivity. }
  destruct l as [|a [|b l]]; try discriminate. cbn in Z. subst a. split; [reflexivity|]. unfold cosmo_ares. rewrite H, after_ok. cbn. unfold ok. repeat f_equal. ring.
Qed.

(** * What the fast way leaves out: the window is that of the non-bonding segments; nothing depends
    on the other kinds of segments whose charges are outside of it *)
Theorem C87_ignored : forall c T p p', k_fast (c_const c) = true -> (forall j, (j < 153)%nat -> (c_left c <= j mod 51 < c_left c + c_w c)%nat -> p j = p' j) -> get_Gamma c T p = get_Gamma c T p'.
Proof.
  intros c T p p' K H. unfold get_Gamma. rewrite K. destruct (Req_EM_T _ _); [reflexivity|]. destruct (Nat.ltb_spec 50 (c_left c + c_w c)) as [|L]; [reflexivity|]. f_equal.
  apply functional_extensionality. intros G. apply functional_extensionality. intros i. rewrite !fast_total_eq by lia. apply sumn_ext. intros j Hj. f_equal. f_equal. unfold seen.
  destruct (Nat.leb_spec (c_left c) (j mod 51)); destruct (Nat.ltb_spec (j mod 51) (c_left c + c_w c)); cbn [andb]; try reflexivity. apply H; [assumption|lia].
Qed.
(** Outside the window the coefficients are left at 1. *)
Theorem C87_outside : forall c T p G, k_fast (c_const c) = true -> get_Gamma c T p = ok G -> forall j, ~ (c_left c <= j mod 51 < c_left c + c_w c)%nat -> G j = 1.
Proof.
  intros c T p G K E j N. destruct (get_Gamma_defined _ _ _ _ E) as [H F]. rewrite get_Gamma_eq in E by assumption. destruct (loop_ok _ _ _ _ _ _ E) as (n & _ & EG & _).
  assert (U : updated c j = false). { unfold updated. rewrite K. unfold in_window. destruct (Nat.leb_spec (c_left c) (j mod 51)); destruct (Nat.ltb_spec (j mod 51) (c_left c + c_w c)); cbn [andb]; try reflexivity. lia. }
  rewrite EG. unfold turn. rewrite U. apply (iter_inv (fun H => H j = 1)); [reflexivity|]. intros G' X. unfold turn. now rewrite U.
Qed.

(** * Fluids that the fast way cannot do: a non-bonding segment with the largest charge, or less than
    two non-bonding segments; then elements outside an array are written *)
Theorem C87_edge : forall A V ps k c i, make_cosmo A V ps k = Some c -> k_fast k = true -> (i < length ps)%nat -> length (s_nhb (nth i ps no_profiles)) = 51%nat ->
  (/ 10 ^ 16 < Rabs (nth 50 (s_nhb (nth i ps no_profiles)) 0 / nth i A 0) \/
   forall m n, / 10 ^ 16 < Rabs (nth m (s_nhb (nth i ps no_profiles)) 0 / nth i A 0) -> / 10 ^ 16 < Rabs (nth n (s_nhb (nth i ps no_profiles)) 0 / nth i A 0) -> m = n) ->
  forall T p x, get_Gamma c T p = None /\ lngamma_resid c T x = None.
Proof.
  intros A V ps k c i E K Hi L1 H T p x. destruct (make_inv _ _ _ _ _ E) as (L & _ & _ & _ & _ & EK & B1 & B2).
  assert (W : (51 <= c_left c + c_w c)%nat).
  { destruct H as [H|H]; [pose proof (C87_window A V ps k c i 50 E Hi ltac:(lia) H); lia|].
    unfold nonzero_bounds in B1, B2. set (qs := map _ (combine ps A)) in *. pose proof (nonzero_fold qs (51%nat, 0%nat)) as N. cbv zeta in N. set (r := fold_left _ qs _) in *. destruct N as (_ & _ & N & _).
    destruct (N (scaled_of A ps i)) as [N1 N2]. { apply scaled_in; assumption. } assert (Ls : length (scaled_of A ps i) = 51%nat) by (unfold scaled_of, scaled; now rewrite map_length).
    destruct (Nat.lt_ge_cases (snd (bounds_of (scaled_of A ps i))) 51) as [C|C]; [exfalso|lia]. destruct (bounds_two (scaled_of A ps i)) as (S1 & S2 & LT); [lia|].
    unfold scaled_of in S1, S2. rewrite scaled_nth in S1, S2. unfold is_seg in S1, S2. destruct (Rlt_dec _ _) as [D1|] in S1; [|discriminate]. destruct (Rlt_dec _ _) as [D2|] in S2; [|discriminate]. pose proof (H _ _ D1 D2) as X. unfold scaled_of in LT. lia. }
  assert (G : forall q, get_Gamma c T q = None). { intros q. unfold get_Gamma. rewrite EK, K. destruct (Req_EM_T _ _); [reflexivity|]. destruct (Nat.ltb_spec 50 (c_left c + c_w c)); [reflexivity|lia]. }
  split; [apply G|]. unfold lngamma_resid. destruct (psigma_mix c x); [|reflexivity]. now rewrite G.
Qed.

(** * Copies: the order of the components, components divided in two *)
Lemma loop_tol : forall c c' upd tot fuel G, k_tol (c_const c) = k_tol (c_const c') -> gamma_loop c upd tot fuel G = gamma_loop c' upd tot fuel G.
Proof. intros c c' upd tot fuel. induction fuel as [|f IH]; intros G E; rewrite (loop_eq c), (loop_eq c'), E; [reflexivity|]. now rewrite IH. Qed.
Lemma get_Gamma_same : forall c c' T p, c_const c' = c_const c -> (k_fast (c_const c) = true -> c_left c' = c_left c /\ c_w c' = c_w c) -> get_Gamma c' T p = get_Gamma c T p.
Proof.
  intros c c' T p EK W. unfold get_Gamma. rewrite EK. assert (FF : factor c' T = factor c T). { apply functional_extensionality. intros i. apply functional_extensionality. intros j. unfold factor. rewrite !DELTAW_eq, EK. reflexivity. }
  destruct (Req_EM_T _ _); [reflexivity|]. destruct (k_fast (c_const c)).
  - destruct (W eq_refl) as [W1 W2]. rewrite W1, W2. destruct (Nat.ltb_spec 50 (c_left c + c_w c)); [reflexivity|]. rewrite (loop_tol c' c) by now rewrite EK. unfold fast_total, in_window. rewrite W1, W2, FF. reflexivity.
  - rewrite (loop_tol c' c) by now rewrite EK. unfold slow_total. rewrite FF. reflexivity.
Qed.
Lemma pick_nth' : forall {B} (d : B) r l i d', (i < length r)%nat -> nth i (pick d r l) d' = nth (nth i r 0%nat) l d.
Proof. intros B d r l i d' Hi. unfold pick. rewrite (nth_indep _ d' (nth 0 l d)) by now rewrite map_length. exact (map_nth (fun i => nth i l d) r 0%nat i). Qed.
Theorem C87_copies : forall A V ps k c r x' x, make_cosmo A V ps k = Some c -> proper_fluids A V ps -> proper_constants k -> is_composition x -> is_composition x' -> length x = length ps -> lumped r x' x ->
  (k_fast k = true -> forall i, (i < length ps)%nat -> In i r) ->
  exists c', make_cosmo (pick 0 r A) (pick 0 r V) (pick no_profiles r ps) k = Some c' /\ proper_fluids (pick 0 r A) (pick 0 r V) (pick no_profiles r ps) /\
    forall T l, lngamma_resid c T x = ok l -> lngamma_resid c' T x' = ok (pick 0 r l) /\ cosmo_ares c' T x' = cosmo_ares c T x.
Proof.
  intros A V ps k c r x' x E PF KK C C' L HL Cov. pose proof HL as (Lr & HI & _). pose proof (fun i => lumped_lt r x' x i HL) as LT. destruct (make_inv _ _ _ _ _ E) as (LA & A0 & EA & EV & EP & EK & B1 & B2).
  assert (PF' : proper_fluids (pick 0 r A) (pick 0 r V) (pick no_profiles r ps)).
  { split; [unfold pick; now rewrite !map_length|]. split; [unfold pick; now rewrite !map_length|]. intros i Hi. unfold pick in Hi. rewrite map_length in Hi. rewrite !pick_nth' by assumption. apply PF. rewrite <- L. now apply LT. }
  destruct (make_some (pick 0 r A) (pick 0 r V) (pick no_profiles r ps) k) as [c' E']. { unfold pick. rewrite !map_length. lia. } { intros i Hi. unfold pick in Hi. rewrite map_length in Hi. rewrite pick_nth' by assumption. apply A0. rewrite <- L. now apply LT. }
  exists c'. split; [assumption|]. split; [assumption|]. intros T l H. destruct (make_inv _ _ _ _ _ E') as (LA' & _ & EA' & EV' & EP' & EK' & B1' & B2').
  assert (W : k_fast k = true -> c_left c' = c_left c /\ c_w c' = c_w c).
  { intros K. rewrite B1, B1', B2, B2'. rewrite (nonzero_sets (map (fun pa => scaled (s_nhb (fst pa)) (snd pa)) (combine (pick no_profiles r ps) (pick 0 r A))) (map (fun pa => scaled (s_nhb (fst pa)) (snd pa)) (combine ps A))); [auto|]. intros q. split; intros Hq.
    - apply in_scaled in Hq; [|assumption]. destruct Hq as (i & Hi & ->). unfold pick in Hi. rewrite map_length in Hi. unfold scaled_of. rewrite !pick_nth' by assumption. apply (scaled_in A ps (nth i r 0%nat)); [assumption|]. rewrite <- L. now apply LT.
    - apply in_scaled in Hq; [|assumption]. destruct Hq as (i & Hi & ->). destruct (In_nth r i 0%nat (Cov K i Hi)) as (m & Hm & Em). replace (scaled_of A ps i) with (scaled_of (pick 0 r A) (pick no_profiles r ps) m) by (unfold scaled_of; rewrite !pick_nth' by assumption; now rewrite Em).
      apply scaled_in; [assumption|]. unfold pick. now rewrite map_length. }
  assert (GG : forall p, get_Gamma c' T p = get_Gamma c T p). { intros p. apply get_Gamma_same; [now rewrite EK, EK'|]. rewrite EK. exact W. }
  assert (L' : length x' = length (pick no_profiles r ps)) by (unfold pick; rewrite map_length; assumption).
  assert (M : share_mix x' (pick 0 r A) (pick no_profiles r ps) = share_mix x A ps).
  { apply functional_extensionality. intros j. unfold share_mix. rewrite Lr. f_equal.
    - apply (lump_mean r x' x _ (fun i => nth (j mod 51) (profile (nth i ps no_profiles) (kind_of (j / 51))) 0) HL). intros i Hi. now rewrite pick_nth'.
    - apply (lump_mean r x' x _ (fun i => nth i A 0) HL). intros i Hi. now rewrite pick_nth'. }
  assert (EL : lngamma_resid c' T x' = ok (pick 0 r l)).
  { unfold lngamma_resid in *. rewrite (mix_eq _ _ _ _ _ _ E PF C L) in H. rewrite (mix_eq _ _ _ _ _ _ E' PF' C' L'), M, GG. destruct (get_Gamma c T (share_mix x A ps)) as [[G|e]|]; try discriminate. cbn [obind] in *.
    apply collect_seq in H. destruct H as [LL H]. apply collect_seq. split; [unfold pick; now rewrite map_length|]. intros i Hi. rewrite Nat.add_0_l. rewrite Lr in Hi. rewrite pick_nth' by assumption. specialize (H (nth i r 0%nat) (LT i Hi)). rewrite Nat.add_0_l in H. rewrite <- H.
    unfold lngamma_one, area, prof. rewrite (pure_eq _ _ _ _ _ _ E), (pure_eq _ _ _ _ _ _ E'), GG, EA, EA', EP, EP', EK, EK'. change {| s_nhb := []; s_oh := []; s_ot := [] |} with no_profiles. rewrite !pick_nth' by assumption.
    destruct (Nat.leb_spec (length (pick no_profiles r ps)) i); [lia|]. destruct (Nat.leb_spec (length ps) (nth i r 0%nat)) as [X|_]; [exfalso; pose proof (LT i Hi); lia|]. reflexivity. }
  split; [assumption|]. unfold cosmo_ares. rewrite EL, H, !after_ok. f_equal. rewrite Lr. apply (lump_mean r x' x _ (fun i => nth i l 0) HL). intros i Hi. now rewrite pick_nth'.
Qed.
Theorem C87_order : forall A V ps k c r x, make_cosmo A V ps k = Some c -> proper_fluids A V ps -> proper_constants k -> is_composition x -> length x = length ps -> Permutation r (seq 0 (length x)) ->
  exists c', make_cosmo (pick 0 r A) (pick 0 r V) (pick no_profiles r ps) k = Some c' /\ forall T l, lngamma_resid c T x = ok l -> lngamma_resid c' T (pick 0 r x) = ok (pick 0 r l) /\ cosmo_ares c' T (pick 0 r x) = cosmo_ares c T x.
Proof.
  intros A V ps k c r x E PF KK C L P. assert (C' : is_composition (pick 0 r x)).
  { destruct (comp_nth x C) as [X (i & Hi & Xi)]. split.
    - apply Forall_forall. intros q Hq. unfold pick in Hq. apply in_map_iff in Hq. destruct Hq as (m & <- & _). auto.
    - exists (nth i x 0). split; [|assumption]. unfold pick. apply in_map_iff. exists i. split; [reflexivity|]. apply (Permutation_in _ (Permutation_sym P)). apply in_seq. lia. }
  destruct (C87_copies A V ps k c r (pick 0 r x) x E PF KK C C' L (perm_lumped r x P)) as (c' & E' & _ & H). { intros _ i Hi. apply (Permutation_in _ (Permutation_sym P)). apply in_seq. lia. } exists c'. auto.
Qed.
Theorem C87_divided : forall A V ps k c x i s, make_cosmo A V ps k = Some c -> proper_fluids A V ps -> proper_constants k -> is_composition x -> length x = length ps -> (i < length x)%nat -> 0 < s < nth i x 0 ->
  let r := (seq 0 (length x) ++ [i])%list in
  exists c', make_cosmo (pick 0 r A) (pick 0 r V) (pick no_profiles r ps) k = Some c' /\ forall T l, lngamma_resid c T x = ok l ->
    lngamma_resid c' T (replace i (nth i x 0 - s) x ++ [s]) = ok (pick 0 r l) /\ cosmo_ares c' T (replace i (nth i x 0 - s) x ++ [s]) = cosmo_ares c T x.
Proof.
  intros A V ps k c x i s E PF KK C L Hi Hs r. assert (C' : is_composition (replace i (nth i x 0 - s) x ++ [s])).
  { destruct (comp_nth x C) as [X _]. split.
    - apply Forall_app. split; [|constructor; [lra|constructor]]. apply Forall_forall. intros q Hq. unfold replace in Hq. apply in_map_iff in Hq. destruct Hq as (m & <- & _). destruct (Nat.eqb m i); [lra|auto].
    - exists s. split; [apply in_or_app; right; now left|lra]. }
  destruct (C87_copies A V ps k c r _ x E PF KK C C' L (split_lumped x i s Hi)) as (c' & E' & _ & H). { intros _ m Hm. unfold r. apply in_or_app. left. apply in_seq. lia. } exists c'. auto.
Qed.

(** * The fast way does not solve the equations if there are bonding segments outside the window *)
Definition no_electrostatics : constants :=
  {| k_AEFF := 7.25; k_OH_OH := 4013.78; k_OT_OT := 932.31; k_OH_OT := 3016.43; k_A_ES := 0; k_B_ES := 0; k_R := 1.38064903e-23 * 6.022140758e23 / 4184; k_tol := 1e-8; k_fast := true |}.
Definition odd_fluid : profiles := {| s_nhb := repeat 0 20 ++ [1 / 2; 1 / 2] ++ repeat 0 29; s_oh := repeat 0 51; s_ot := repeat 0 10 ++ [1] ++ repeat 0 40 |}.
Definition odd_cosmo : cosmo := {| c_A := [2]; c_V := [1]; c_profiles := [odd_fluid]; c_const := no_electrostatics; c_left := 20; c_w := 2 |}.
Lemma is_seg_zero : is_seg (0 / 2) = false.
Proof. unfold is_seg. destruct (Rlt_dec _ _) as [H|]; [|reflexivity]. replace (0 / 2) with 0 in H by field. rewrite Rabs_R0 in H. assert (0 < / 10 ^ 16) by (apply Rinv_0_lt_compat, pow_lt; lra). lra. Qed.
Lemma is_seg_quarter : is_seg (1 / 2 / 2) = true.
Proof. unfold is_seg. destruct (Rlt_dec _ _) as [|H]; [reflexivity|]. exfalso. apply H. rewrite Rabs_right by lra. apply Rlt_trans with (/ 10 ^ 1); [apply Rinv_lt_contravar; [apply Rmult_lt_0_compat; apply pow_lt; lra|apply Rlt_pow; [lra|lia]]|lra]. Qed.
Lemma odd_make : make_cosmo [2] [1] [odd_fluid] no_electrostatics = Some odd_cosmo.
Proof.
  unfold make_cosmo. cbn [length Nat.ltb Nat.leb firstn existsb]. destruct (Req_EM_T 2 0) as [|_]; [lra|]. cbn [orb combine map nonzero_bounds fold_left fst snd odd_fluid s_nhb].
  assert (B : bounds_of (scaled (repeat 0 20 ++ [1 / 2; 1 / 2] ++ repeat 0 29) 2) = (20%nat, 21%nat)).
  { unfold bounds_of, scaled. cbn [repeat app map length]. set (z := 0 / 2). set (h := 1 / 2 / 2). pose proof is_seg_zero as Z. fold z in Z. pose proof is_seg_quarter as H. fold h in H. clearbody z h.
    cbn [first_seg]. rewrite !Z, !H. cbn [last_seg Nat.ltb Nat.leb nth]. rewrite !Z, !H. reflexivity. }
  unfold nonzero_bounds. cbn [fold_left]. rewrite B. reflexivity.
Qed.
Lemma odd_proper : proper_fluids [2] [1] [odd_fluid].
Proof.
  repeat split; try reflexivity. all: cbn [length] in *; replace i with 0%nat by lia; cbn [nth odd_fluid s_nhb s_oh s_ot]; try lra; try reflexivity.
  - repeat rewrite Forall_app. repeat split; try (apply Forall_forall; intros q Hq; apply repeat_spec in Hq; lra); apply Forall_forall; intros q Hq; cbn [In] in Hq; intuition lra.
  - cbn. lra.
Qed.
Definition flat (g : R) (i : nat) : R := if in_window odd_cosmo i then g else 1.
Lemma odd_factor : forall T i j, kind_of (j / 51) = NHB -> factor odd_cosmo T i j = 1.
Proof.
  intros T i j E. unfold factor. rewrite DELTAW_eq, E. unfold exchange_energy. cbn [odd_cosmo c_const no_electrostatics k_A_ES k_B_ES bonding].
  replace (bonding no_electrostatics (kind_of (i / 51)) NHB) with 0 by (destruct (kind_of (i / 51)); reflexivity). match goal with |- exp (- ?a / ?b) = 1 => replace a with 0 end; [unfold Rdiv; rewrite Ropp_0, Rmult_0_l; apply exp_0|]. unfold Rdiv. destruct (Rlt_dec _ _); ring.
Qed.
Lemma odd_row : forall T g i, fast_total odd_cosmo T (share_pure 2 odd_fluid) (flat g) i = g / 2.
Proof.
  intros T g i. unfold fast_total. cbn [odd_cosmo c_w c_left sumn]. cbv zeta.
  assert (S : forall t k, (k < 2)%nat -> share_pure 2 odd_fluid (51 * t + 20 + k) = if Nat.eqb t 0 then 1 / 4 else 0).
  { intros t k Hk. unfold share_pure. replace (51 * t + 20 + k)%nat with (20 + k + t * 51)%nat by lia. rewrite Nat.mod_add, Nat.div_add by lia. destruct k as [|[|k]]; [| |lia]; destruct t as [|[|t]]; cbn; lra. }
  assert (W : forall t k, (k < 2)%nat -> flat g (51 * t + 20 + k) = g).
  { intros t k Hk. unfold flat, in_window. replace (51 * t + 20 + k)%nat with (20 + k + t * 51)%nat by lia. rewrite Nat.mod_add by lia. destruct k as [|[|k]]; [reflexivity|reflexivity|lia]. }
  rewrite !S, !W by lia. cbn [Nat.eqb]. rewrite (odd_factor T i (51 * 0 + 20 + 0)), (odd_factor T i (51 * 0 + 20 + 1)) by reflexivity. field.
Qed.
Lemma odd_turn : forall T g, g <> 0 -> turn (in_window odd_cosmo) (fast_total odd_cosmo T (share_pure 2 odd_fluid)) (flat g) = flat ((g + 2 / g) / 2).
Proof. intros T g H. apply functional_extensionality. intros i. unfold turn, fresh. rewrite odd_row. unfold flat. destruct (in_window odd_cosmo i); [field; assumption|reflexivity]. Qed.
Lemma odd_step : forall T g f, 0 < g -> gamma_loop odd_cosmo (in_window odd_cosmo) (fast_total odd_cosmo T (share_pure 2 odd_fluid)) (S f) (flat g) =
  if Rlt_dec (Rabs (((g + 2 / g) / 2 - 2 / g) / ((g + 2 / g) / 2))) 1e-8 then ok (flat ((g + 2 / g) / 2)) else gamma_loop odd_cosmo (in_window odd_cosmo) (fast_total odd_cosmo T (share_pure 2 odd_fluid)) f (flat ((g + 2 / g) / 2)).
Proof.
  intros T g f H. assert (G : 0 < (g + 2 / g) / 2) by (assert (0 < 2 / g) by (apply Rdiv_lt_0_compat; lra); lra). rewrite loop_eq, odd_turn by lra.
  replace (defined _ _ (flat g)) with true. 2: { symmetry. apply defined_iff. intros i Hi U. rewrite odd_row, odd_turn by lra. unfold flat. rewrite U. lra. }
  cbn [odd_cosmo c_const no_electrostatics k_tol]. fold odd_cosmo.
  destruct (Rlt_dec (Rabs (((g + 2 / g) / 2 - 2 / g) / ((g + 2 / g) / 2))) 1e-8) as [D|D].
  - replace (stops _ _ _ (flat g)) with true; [reflexivity|]. symmetry. apply stops_iff. intros i Hi. rewrite odd_turn by lra. unfold fresh. rewrite odd_row. unfold flat. destruct (in_window odd_cosmo i).
    + replace (1 / (g / 2)) with (2 / g) by (field; lra). exact D.
    + replace ((1 - 1) / 1) with 0 by field. rewrite Rabs_R0. lra.
  - replace (stops _ _ _ (flat g)) with false; [reflexivity|]. symmetry. apply not_true_is_false. intros S. apply D. pose proof (proj1 (stops_iff _ _ _ _) S 20%nat ltac:(lia)) as X. rewrite odd_turn in X by lra. unfold fresh in X. rewrite odd_row in X. unfold flat in X. change (in_window odd_cosmo 20) with true in X. cbv iota in X.
    replace (1 / (g / 2)) with (2 / g) in X by (field; lra). exact X.
Qed.
Lemma odd_Gamma : exists g, 1.4 < g /\ get_Gamma odd_cosmo 300 (share_pure 2 odd_fluid) = ok (flat g).
Proof.
  assert (E : get_Gamma odd_cosmo 300 (share_pure 2 odd_fluid) = gamma_loop odd_cosmo (in_window odd_cosmo) (fast_total odd_cosmo 300 (share_pure 2 odd_fluid)) (S (S (S (S (S 495))))) (flat 1)).
  { unfold get_Gamma. cbn [odd_cosmo c_const no_electrostatics k_R k_fast c_left c_w]. fold odd_cosmo. destruct (Req_EM_T _ 0) as [Z|_]; [exfalso; lra|]. change (50 <? 20 + 2)%nat with false. cbv iota. replace (fun _ : nat => 1) with (flat 1); [reflexivity|]. apply functional_extensionality. intros i. unfold flat. destruct (in_window odd_cosmo i); reflexivity. }
  rewrite E. clear E. 
  rewrite odd_step by lra. destruct (Rlt_dec _ _) as [H|_]. { exfalso. replace (((1 + 2 / 1) / 2 - 2 / 1) / ((1 + 2 / 1) / 2)) with (- (1/3)) in H by field. rewrite Rabs_left in H by lra. lra. } replace ((1 + 2 / 1) / 2) with (3/2) by field.
  rewrite odd_step by lra. destruct (Rlt_dec _ _) as [H|_]. { exfalso. match type of H with Rabs ?a < _ => replace a with (1/17) in H by field end. rewrite Rabs_right in H by lra. lra. } replace ((3/2 + 2 / (3/2)) / 2) with (17/12) by field.
  rewrite odd_step by lra. destruct (Rlt_dec _ _) as [H|_]. { exfalso. match type of H with Rabs ?a < _ => replace a with (1/577) in H by field end. rewrite Rabs_right in H by lra. lra. } replace ((17/12 + 2 / (17/12)) / 2) with (577/408) by field.
  rewrite odd_step by lra. destruct (Rlt_dec _ _) as [H|_]. { exfalso. match type of H with Rabs ?a < _ => replace a with (1/665857) in H by field end. rewrite Rabs_right in H by lra. lra. } replace ((577/408 + 2 / (577/408)) / 2) with (665857/470832) by field.
  rewrite odd_step by lra. destruct (Rlt_dec _ _) as [_|H]; [|exfalso; apply H; match goal with |- Rabs ?a < _ => replace a with (1/886731088897) by field end; rewrite Rabs_right by lra; lra].
  eexists. split; [|reflexivity]. match goal with |- _ < ?a => replace a with (886731088897/627013566048) by field end. lra.
Qed.
Theorem C87_window_refuted : ~ (forall A V ps k c i T G, make_cosmo A V ps k = Some c -> proper_fluids A V ps -> proper_constants k -> (i < length ps)%nat -> 0 < T ->
  get_Gamma c T (share_pure (nth i A 0) (nth i ps no_profiles)) = ok G -> forall j, (j < 153)%nat -> 0 < share_pure (nth i A 0) (nth i ps no_profiles) j ->
  nearly_balanced 153 (factor c T) (k_tol k) (share_pure (nth i A 0) (nth i ps no_profiles)) G j).
Proof.
  intros H. destruct odd_Gamma as (g & Hg & E). specialize (H [2] [1] [odd_fluid] no_electrostatics odd_cosmo 0%nat 300 (flat g) odd_make odd_proper).
  assert (K : proper_constants no_electrostatics) by (unfold proper_constants; cbn [no_electrostatics k_R k_AEFF k_tol]; repeat split; lra). specialize (H K ltac:(cbn; lia) ltac:(lra) E 20%nat ltac:(lia)). cbn [nth] in H.
  assert (P20 : share_pure 2 odd_fluid 20 = 1 / 4) by (unfold share_pure; cbn [Nat.modulo Nat.divmod snd fst Nat.sub Nat.div kind_of profile odd_fluid s_nhb s_ot repeat app nth]; lra). rewrite P20 in H. destruct (H ltac:(lra)) as (_ & _ & U). cbn [no_electrostatics k_tol] in U.
  assert (P : forall j, (j < 153)%nat -> 0 <= factor odd_cosmo 300 20 j * share_pure 2 odd_fluid j * flat g j).
  { intros j Hj. apply Rmult_le_pos; [apply Rmult_le_pos|]; [left; apply factor_pos| |unfold flat; destruct (in_window odd_cosmo j); lra]. destruct (C87_shares_pure 2 1 odd_fluid (proj2 (proj2 odd_proper) 0%nat ltac:(cbn; lia))) as [_ [Q _]]. now apply Q. }
  set (f := fun j => factor odd_cosmo 300 20 j * share_pure 2 odd_fluid j * flat g j) in *. change (forall j, (j < 153)%nat -> 0 <= f j) in P.
  assert (F20 : f 20%nat = g / 4) by (unfold f; rewrite odd_factor, P20 by reflexivity; change (flat g 20) with g; field).
  assert (F21 : f 21%nat = g / 4) by (unfold f; rewrite odd_factor by reflexivity; replace (share_pure 2 odd_fluid 21) with (1 / 4) by (unfold share_pure; cbn [Nat.modulo Nat.divmod snd fst Nat.sub Nat.div kind_of profile odd_fluid s_nhb s_ot repeat app nth]; lra); change (flat g 21) with g; field).
  assert (F112 : f 112%nat = 1 / 2) by (unfold f; rewrite factor_sym, odd_factor by reflexivity; replace (share_pure 2 odd_fluid 112) with (1 / 2) by (unfold share_pure; cbn [Nat.modulo Nat.divmod snd fst Nat.sub Nat.div kind_of profile odd_fluid s_nhb s_ot repeat app nth]; lra); change (flat g 112) with 1; field).
  assert (S : g / 2 + 1 / 2 <= sumn 153 f).
  { clearbody f. change 153%nat with (21 + (91 + 41))%nat in *. rewrite sumn_app, sumn_app.
    pose proof (sumn_term 21 f 20 ltac:(lia) (fun j Hj => P j ltac:(lia))) as X1. pose proof (sumn_term 91 (fun k => f (21 + k)%nat) 0 ltac:(lia) (fun j Hj => P (21 + j)%nat ltac:(lia))) as X2. pose proof (sumn_term 41 (fun k => f (21 + (91 + k))%nat) 0 ltac:(lia) (fun j Hj => P (21 + (91 + j))%nat ltac:(lia))) as X3.
    cbv beta in X2, X3. change (21 + 0)%nat with 21%nat in X2. change (21 + (91 + 0))%nat with 112%nat in X3. lra. }
  change (flat g 20) with g in U. clearbody f. assert (X : g * (g / 2 + 1 / 2) <= g * sumn 153 f) by (apply Rmult_le_compat_l; lra). assert (Y : 1.4 * (1.4 / 2 + 1 / 2) <= g * (g / 2 + 1 / 2)) by (apply Rmult_le_compat; lra).
  assert (Z : / (1 - 1e-8) ^ 2 < 1.1). { apply Rmult_lt_reg_l with ((1 - 1e-8) ^ 2); [apply pow_lt; lra|]. rewrite Rinv_r by (apply pow_nonzero; lra). lra. }
  lra.
Qed.
Example C87_met : make_cosmo [2] [1] [odd_fluid] no_electrostatics = Some odd_cosmo /\ proper_fluids [2] [1] [odd_fluid] /\ proper_constants no_electrostatics /\ (c_left odd_cosmo + c_w odd_cosmo <= 50)%nat /\ is_composition [1] /\
  enough odd_cosmo (share_pure 2 odd_fluid) /\ exists l, lngamma_resid odd_cosmo 300 [1] = ok l.
Proof.
  assert (K : proper_constants no_electrostatics) by (unfold proper_constants; cbn [no_electrostatics k_R k_AEFF k_tol]; repeat split; lra).
  assert (C : is_composition [1]) by (split; [constructor; [lra|constructor]|exists 1; split; [now left|lra]]). assert (F : (c_left odd_cosmo + c_w odd_cosmo <= 50)%nat) by (cbn; lia).
  repeat (split; [first [exact odd_make|exact odd_proper|assumption]|]). split. { apply (enough_pure [2] [1] [odd_fluid] no_electrostatics odd_cosmo 0 odd_make odd_proper); [intros _; assumption|cbn; lia]. }
  destruct odd_Gamma as (g & Hg & E). unfold lngamma_resid. rewrite (mix_eq _ _ _ _ _ _ odd_make odd_proper C eq_refl). replace (share_mix [1] [2] [odd_fluid]) with (share_pure 2 odd_fluid). 2: { apply functional_extensionality. intros j. unfold share_mix, share_pure. cbn [length sumn nth]. field. }
  rewrite E, after_ok. cbn [length seq map collect]. assert (P : forall j, (j < 153)%nat -> 0 < flat g j) by (intros j _; unfold flat; destruct (in_window odd_cosmo j); lra).
  rewrite (lngamma_one_eq odd_cosmo 300 (flat g) 0 (flat g)); [|cbn; lia|reflexivity|cbn; lra|cbn; lra|rewrite (pure_eq _ _ _ _ _ 0 odd_make); exact E|assumption|assumption]. rewrite !after_ok. eexists. reflexivity.
Qed.
(** * A fluid with one non-bonding segment: proper, and not evaluated *)
Definition one_segment : profiles := {| s_nhb := repeat 0 25 ++ [1] ++ repeat 0 25; s_oh := repeat 0 51; s_ot := repeat 0 51 |}.
Lemma one_proper : proper_fluids [1] [1] [one_segment].
Proof.
  repeat split; try reflexivity. all: cbn [length] in *; replace i with 0%nat by lia; cbn [nth one_segment s_nhb s_oh s_ot]; try lra; try reflexivity.
  - repeat rewrite Forall_app. repeat split; try (apply Forall_forall; intros q Hq; apply repeat_spec in Hq; lra); apply Forall_forall; intros q Hq; cbn [In] in Hq; intuition lra.
  - cbn. lra.
Qed.
Theorem C87_edge_refuted : ~ (forall A V ps k c x T, make_cosmo A V ps k = Some c -> proper_fluids A V ps -> proper_constants k -> is_composition x -> length x = length ps -> 0 < T -> lngamma_resid c T x <> None).
Proof.
  intros H. destruct (make_some [1] [1] [one_segment] default_constants) as [c E]; [cbn; lia|intros i Hi; cbn [length] in Hi; replace i with 0%nat by lia; cbn; lra|].
  assert (K : proper_constants default_constants) by (unfold proper_constants; cbn [default_constants k_R k_AEFF k_tol]; repeat split; lra). assert (C : is_composition [1]) by (split; [constructor; [lra|constructor]|exists 1; split; [now left|lra]]).
  apply (H [1] [1] [one_segment] default_constants c [1] 300 E one_proper K C eq_refl ltac:(lra)). refine (proj2 (C87_edge _ _ _ _ _ 0 E eq_refl ltac:(cbn; lia) eq_refl _ 300 (fun _ => 0) [1])). right.
  assert (Z : forall m, / 10 ^ 16 < Rabs (nth m (s_nhb (nth 0 [one_segment] no_profiles)) 0 / nth 0 [1] 0) -> m = 25%nat).
  { intros m Hm. destruct (Nat.eq_dec m 25) as [->|N]; [reflexivity|]. exfalso. cbn [nth one_segment s_nhb] in Hm. replace (nth m (repeat 0 25 ++ [1] ++ repeat 0 25) 0) with 0 in Hm.
    - unfold Rdiv in Hm. rewrite Rmult_0_l, Rabs_R0 in Hm. assert (0 < / 10 ^ 16) by (apply Rinv_0_lt_compat, pow_lt; lra). lra.
    - symmetry. destruct (Nat.lt_ge_cases m 25) as [L|L]; [rewrite app_nth1 by (rewrite repeat_length; lia); apply nth_repeat|]. rewrite app_nth2 by (rewrite repeat_length; lia). rewrite repeat_length. rewrite app_nth2 by (cbn; lia). apply nth_repeat. }
  intros m n Hm Hn. rewrite (Z m Hm), (Z n Hn). reflexivity.
Qed.
Print Assumptions C87_energy.
Print Assumptions C87_shares_pure.
Print Assumptions C87_shares.
Print Assumptions C87_window.
Print Assumptions C87_Gamma_total.
Print Assumptions C87_Gamma.
Print Assumptions C87_visible.
Print Assumptions C87_unique.
Print Assumptions C87_between.
Print Assumptions C87_no_interactions.
Print Assumptions C87_total.
Print Assumptions C87_activity.
Print Assumptions C87_ideal.
Print Assumptions C87_pure.
Print Assumptions C87_ignored.
Print Assumptions C87_outside.
Print Assumptions C87_edge.
Print Assumptions C87_copies.
Print Assumptions C87_order.
Print Assumptions C87_divided.
Print Assumptions C87_window_refuted.
Print Assumptions C87_edge_refuted.
