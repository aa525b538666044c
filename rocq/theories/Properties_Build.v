(** C51, builder: curves built from a model. *)
From Coq Require Import Reals ZArith String List Bool Lia Lra.
From Coquelicot Require Import Coquelicot.
From Verif Require Import Json_model Cubic_model Terms_model Ideal_model Assoc_model Vec_spec Vec_proofs Multi_model Multi_spec Pure_model Build_model Terms_proofs2 Properties_Multi.
Import ListNotations.
Open Scope R_scope.

(** ** Temperatures and states *)
(** The points are at (1-theta) Tc + dT, (1-theta) Tc, (1-theta) Tc - dT ...; a point carries
    the densities of the equilibrium one step colder, moved along their slopes, and the
    pressure of the moved liquid. *)
Definition moved_from (m : amodel) (x : R * R) (T dT : R) : R * R :=
  let slope := trace_drhodT m [1] (dpsatdT_pure m T (fst x) (snd x) [1]) T in (fst x + dT * slope (fst x), snd x + dT * slope (snd x)).
Lemma Some_inj : forall A (a b : A), Some a = Some b -> a = b.
Proof. congruence. Qed.
Lemma build_nodes_at : forall m linsolve eps Tc dT n i x k q, nth_error (build_nodes m linsolve eps Tc dT n i x) k = Some q ->
  exists guess, let y := moved_from m (pure_VLE_T m linsolve eps (nd_T q - dT) (fst guess) (snd guess) 10 [1]) (nd_T q - dT) dT in
    nd_T q = Tc - dT * (INR (i + k) - 1) /\ nd_rhoL q = fst y /\ nd_rhoV q = snd y /\
    nd_p q = nd_rhoL q * get_R m [1] * nd_T q * (1 + get_A m 0 1 (nd_T q) (nd_rhoL q) [1]).
Proof.
  induction n as [|n IH]; intros i x k q H; [destruct k; discriminate|]. cbn [build_nodes] in H. destruct k as [|k].
  - cbn [nth_error] in H. apply Some_inj in H. subst q. exists x. cbn [nd_T nd_rhoL nd_rhoV nd_p]. rewrite Nat.add_0_r.
    replace (Tc - dT * INR i + dT - dT) with (Tc - dT * INR i) by ring. unfold moved_from. cbn [fst snd].
    split; [ring|]. split; [ring|]. split; [ring|]. reflexivity.
  - cbn [nth_error] in H. apply IH in H. destruct H as (g & H). exists g. cbv zeta in *. replace (i + S k)%nat with (S i + k)%nat by lia. exact H.
Qed.
Theorem C51_built_nodes : forall m linsolve eps Tc Tmin theta Npts x k q, (2 <= Npts)%Z ->
  nth_error (build_nodes m linsolve eps ((1 - theta) * Tc) (build_dT Tc Tmin Npts) (Z.to_nat Npts) 0 x) k = Some q ->
  let dT := (Tc - Tmin) / (IZR Npts - 1) in
  exists guess, let y := moved_from m (pure_VLE_T m linsolve eps (nd_T q - dT) (fst guess) (snd guess) 10 [1]) (nd_T q - dT) dT in
    nd_T q = (1 - theta) * Tc + dT - INR k * dT /\ nd_rhoL q = fst y /\ nd_rhoV q = snd y /\
    nd_p q = nd_rhoL q * get_R m [1] * nd_T q * (1 + get_A m 0 1 (nd_T q) (nd_rhoL q) [1]).
Proof.
  intros m linsolve eps Tc Tmin theta Npts x k q HN H dT. apply build_nodes_at in H. replace (build_dT Tc Tmin Npts) with dT in H by (unfold build_dT, dT; now rewrite minus_IZR).
  destruct H as (g & H). exists g. cbv zeta in *. destruct H as (H1 & H). split; [rewrite H1; cbn [Nat.add]; ring|exact H].
Qed.
Lemma build_nodes_length : forall m linsolve eps Tc dT n i x, length (build_nodes m linsolve eps Tc dT n i x) = n.
Proof. induction n; intros; [reflexivity|]. cbn [build_nodes length]. now rewrite IHn. Qed.
(** The model is evaluated below the lowest temperature asked for: the last equilibrium is
    at Tmin - theta Tc. *)
Theorem C51_built_Tmin_refuted : forall m linsolve eps Tc Tmin theta Npts x, (2 <= Npts)%Z -> 0 < theta -> 0 < Tc ->
  exists q, nth_error (build_nodes m linsolve eps ((1 - theta) * Tc) (build_dT Tc Tmin Npts) (Z.to_nat Npts) 0 x) (Z.to_nat Npts - 1) = Some q /\
    nd_T q - (Tc - Tmin) / (IZR Npts - 1) = Tmin - theta * Tc /\ Tmin - theta * Tc < Tmin.
Proof.
  intros m linsolve eps Tc Tmin theta Npts x HN Ht HT.
  destruct (nth_error (build_nodes m linsolve eps ((1 - theta) * Tc) (build_dT Tc Tmin Npts) (Z.to_nat Npts) 0 x) (Z.to_nat Npts - 1)) as [q|] eqn:E.
  - exists q. split; [reflexivity|]. apply C51_built_nodes in E; [|exact HN]. cbv zeta in E. destruct E as (g & E & _).
    assert (IZR Npts >= 2) by (apply Rle_ge; apply (IZR_le 2); lia).
    replace (INR (Z.to_nat Npts - 1)) with (IZR Npts - 1) in E.
    + split; [rewrite E; field; lra|]. assert (0 < theta * Tc) by now apply Rmult_lt_0_compat. lra.
    + rewrite minus_INR by lia. rewrite INR_IZR_INZ, Z2Nat.id by lia. reflexivity.
  - exfalso. apply nth_error_None in E. rewrite build_nodes_length in E. lia.
Qed.
(** The densities of a point are not those of equilibrium at its temperature: where the
    saturation curve is strictly concave they lie above it (and below where it is convex). *)
Theorem C51_built_saturation_refuted : forall m x T dT s, dT <> 0 ->
  let slope := trace_drhodT m [1] (dpsatdT_pure m T (fst x) (snd x) [1]) T (fst x) in
  s T = fst x -> (forall t, ex_derive s t) -> Derive s T = slope -> (forall t, ex_derive (Derive s) t) -> (forall t, Derive (Derive s) t < 0) ->
  s (T + dT) < fst (moved_from m x T dT).
Proof.
  intros m x T dT s Hd slope Hs D1 D0 D2 C. unfold moved_from. cbn [fst]. fold slope.
  assert (W : forall a b, a < b -> Derive s b < Derive s a).
  { intros a b H. destruct (MVT_gen (Derive s) a b (Derive (Derive s))) as (c & Hc & E).
    - intros t _. apply Derive_correct, D2.
    - intros t _. apply continuity_pt_filterlim, (ex_derive_continuous (Derive s)), D2.
    - assert (Derive (Derive s) c * (b - a) < 0); [|lra]. rewrite <- (Rmult_0_l (b - a)). apply Rmult_lt_compat_r; [lra|apply C]. }
  assert (M : forall a b, a < b -> exists c, a < c < b /\ s b - s a = Derive s c * (b - a)).
  { intros a b H. destruct (MVT_cor2 s (Derive s) a b H) as (c & E & Hc); [|exists c; split; [lra|exact E]].
    intros c _. apply is_derive_Reals, Derive_correct, D1. }
  destruct (Rlt_le_dec 0 dT) as [P|P].
  - destruct (M T (T + dT)) as (c & Hc & E); [lra|]. assert (V := W T c ltac:(lra)). rewrite Hs, D0 in *.
    assert (dT * Derive s c < dT * slope) by (apply Rmult_lt_compat_l; lra). lra.
  - destruct (M (T + dT) T) as (c & Hc & E); [lra|]. assert (V := W c T ltac:(lra)). rewrite Hs, D0 in *.
    assert (- dT * slope < - dT * Derive s c) by (apply Rmult_lt_compat_l; lra). lra.
Qed.

(** ** What is fitted is what is evaluated *)
Lemma osequence_at : forall A (l : list (option A)) r d, osequence l = Some r -> length r = length l /\ forall k, (k < length l)%nat -> nth k l None = Some (nth k r d).
Proof.
  induction l as [|o l IH]; intros r d H; cbn in H. { injection H as <-. split; [reflexivity|]. cbn. lia. }
  destruct o as [a|]; [|discriminate]. destruct (osequence l) as [r'|]; [|discriminate]. injection H as <-.
  destruct (IH r' d eq_refl) as (L & N). split; [cbn; congruence|]. intros [|k] Hk; [reflexivity|]. cbn in *. apply N. lia.
Qed.
Lemma osequence_map_at : forall A B (f : A -> option B) l r d k a, osequence (map f l) = Some r -> nth_error l k = Some a -> f a = Some (nth k r d).
Proof.
  intros A B f l r d k a H E. apply (osequence_at _ _ _ d) in H. destruct H as (_ & H). rewrite map_length in H.
  assert (Hk : (k < length l)%nat) by (apply nth_error_Some; congruence). specialize (H k Hk).
  erewrite nth_indep, map_nth in H; [|now rewrite map_length]. rewrite <- H. f_equal. symmetry. now apply nth_error_nth.
  Unshelve. exact a.
Qed.
Lemma exponents_nth : forall j, (j < 10)%nat -> nth j exponents 0 = INR j / 2.
Proof. intros j H. do 10 (destruct j as [|j]; [cbn; lra|]). lia. Qed.
Lemma curve_made : forall Tc Tmin red type tau cs, make_ancillary (curve Tc Tmin red type tau cs) =
  Val {| an_Tr := Tc; an_n := cs; an_t := exponents; an_red := red; an_tau := tau; an_noexp := String.eqb type "rhoLnoexp" |}.
Proof. intros Tc Tmin red type tau cs. unfold make_ancillary, curve. cbn -[exponents j_valarray]. rewrite !valarray_nums. reflexivity. Qed.
Lemma fit_inv : forall lstsq Tc Tmin rhoc pc nodes a, fit_curves lstsq Tc Tmin rhoc pc nodes = ok a ->
  exists A bV bp, fit_matrix Tc nodes = Some A /\ fit_log nd_rhoV rhoc Tc nodes = Some bV /\ fit_log nd_p pc Tc nodes = Some bp /\
    an_rhoL a = {| an_Tr := Tc; an_n := lstsq A (fit_rhoL rhoc nodes); an_t := exponents; an_red := rhoc; an_tau := false; an_noexp := true |} /\
    an_rhoV a = {| an_Tr := Tc; an_n := lstsq A bV; an_t := exponents; an_red := rhoc; an_tau := true; an_noexp := false |} /\
    an_pL a = {| an_Tr := Tc; an_n := lstsq A bp; an_t := exponents; an_red := pc; an_tau := true; an_noexp := false |} /\ an_pV a = an_pL a.
Proof.
  intros lstsq Tc Tmin rhoc pc nodes a H. unfold fit_curves in H.
  destruct (fit_matrix Tc nodes) as [A|]; [|discriminate]. destruct (fit_log nd_rhoV rhoc Tc nodes) as [bV|]; [|discriminate]. destruct (fit_log nd_p pc Tc nodes) as [bp|]; [|discriminate].
  exists A, bV, bp. do 3 (split; [reflexivity|]).
  unfold make_ancillaries, curves in H. cbn -[curve make_ancillary] in H. rewrite !curve_made in H. cbn [bind] in H. unfold ok in H. injection H as <-. cbn [an_rhoL an_rhoV an_pL an_pV].
  repeat split; reflexivity.
Qed.
Lemma row_at : forall Tc nodes A k q, fit_matrix Tc nodes = Some A -> nth_error nodes k = Some q -> 0 < theta_of Tc q ->
  forall j, (j < 10)%nat -> nth j (nth k A []) 0 = Rpower (theta_of Tc q) (INR j / 2).
Proof.
  intros Tc nodes A k q H E P j Hj. unfold fit_matrix in H. apply (osequence_map_at _ _ _ _ _ [] k q) in H; [|exact E].
  apply (osequence_at _ _ _ 0) in H. destruct H as (_ & H). specialize (H j). rewrite map_length in H. specialize (H Hj).
  rewrite (nth_indep _ None (cpow (theta_of Tc q) 0)), map_nth in H by (now rewrite map_length). rewrite exponents_nth in H by auto.
  unfold cpow in H. destruct (Req_EM_T _ _); [lra|]. destruct (Rlt_dec _ _); [|lra]. congruence.
Qed.
Lemma log_at : forall f red Tc nodes b k q, fit_log f red Tc nodes = Some b -> nth_error nodes k = Some q ->
  0 < f q / red /\ red <> 0 /\ nth k b 0 = ln (f q / red) * (1 - theta_of Tc q).
Proof.
  intros f red Tc nodes b k q H E. unfold fit_log in H. apply (osequence_map_at _ _ _ _ _ 0 k q) in H; [|exact E].
  unfold cdiv, clog in H. destruct (Req_EM_T red 0); [discriminate|]. cbn in H. destruct (Rlt_dec 0 (f q / red)); [|discriminate]. apply Some_inj in H. auto.
Qed.
Lemma built_inv : forall m linsolve eps lstsq Tg rg Tmin verify Npts theta Tc rhoc a,
  solve_pure_critical m linsolve Tg rg None None None = Val (Tc, rhoc) ->
  build_ancillaries m linsolve eps lstsq Tg rg Tmin verify Npts theta = ok a ->
  fit_curves lstsq Tc Tmin rhoc (rhoc * get_R m [1] * Tc * (1 + get_A m 0 1 Tc rhoc [1]))
    (build_nodes m linsolve eps ((1 - theta) * Tc) (build_dT Tc Tmin Npts) (Z.to_nat Npts) 0 (extrapolate_from_critical m Tc rhoc ((1 - theta) * Tc) [1])) = ok a.
Proof.
  intros m linsolve eps lstsq Tg rg Tmin verify Npts theta Tc rhoc a HC. unfold build_ancillaries. rewrite HC. cbv zeta. destruct (Npts <=? 1)%Z; [discriminate|].
  destruct (verify && _); [discriminate|]. destruct (Rle_dec theta 0); [discriminate|]. intro H. exact H.
Qed.
(** The value of a built curve at a point of the fit is that of the point, up to the residual
    of the fit there: rhoL = rhoL_k + rhoc r, rhoV = rhoV_k exp(r Tc/T), p = p_k exp(r Tc/T).
    So the curve goes through every point where the fit is exact. *)
Theorem C51_built_fit : forall m linsolve eps lstsq Tg rg Tmin verify Npts theta Tc rhoc a, (forall A b, length (lstsq A b) = 10%nat) ->
  solve_pure_critical m linsolve Tg rg None None None = Val (Tc, rhoc) -> 0 < Tc ->
  build_ancillaries m linsolve eps lstsq Tg rg Tmin verify Npts theta = ok a ->
  exists A bL bV bp, forall k q,
    nth_error (build_nodes m linsolve eps ((1 - theta) * Tc) (build_dT Tc Tmin Npts) (Z.to_nat Npts) 0 (extrapolate_from_critical m Tc rhoc ((1 - theta) * Tc) [1])) k = Some q ->
    0 < nd_T q < Tc ->
    let residual b := sumn 10 (fun j => nth j (nth k A []) 0 * nth j (lstsq A b) 0) - nth k b 0 in
    (forall j, (j < 10)%nat -> nth j (nth k A []) 0 = Rpower (1 - nd_T q / Tc) (INR j / 2)) /\
    ancillary_val (an_rhoL a) (nd_T q) = ok (nd_rhoL q + rhoc * residual bL) /\
    ancillary_val (an_rhoV a) (nd_T q) = ok (nd_rhoV q * exp (residual bV * (Tc / nd_T q))) /\
    ancillary_val (an_pL a) (nd_T q) = ok (nd_p q * exp (residual bp * (Tc / nd_T q))) /\ an_pV a = an_pL a.
Proof.
  intros m linsolve eps lstsq Tg rg Tmin verify Npts theta Tc rhoc a LS HC PT H.
  apply (built_inv _ _ _ _ _ _ _ _ _ _ _ _ _ HC) in H. clear HC.
  set (nodes := build_nodes _ _ _ _ _ _ _ _) in *. set (pc := rhoc * get_R m [1] * Tc * _) in *. clearbody nodes pc.
  apply fit_inv in H. destruct H as (A & bV & bp & FA & FV & Fp & aL & aV & ap & aq).
  exists A, (fit_rhoL rhoc nodes), bV, bp. intros k q E HT. cbv zeta.
  assert (Th : theta_of Tc q = 1 - nd_T q / Tc) by (unfold theta_of; field; lra).
  assert (Pth : 0 < theta_of Tc q). { unfold theta_of. apply Rdiv_lt_0_compat; lra. }
  assert (RA := row_at Tc nodes A k q FA E Pth).
  assert (S : forall bb, ancillary_sum (lstsq A bb) exponents (1 - nd_T q / Tc) = sumn 10 (fun j => nth j (nth k A []) 0 * nth j (lstsq A bb) 0)).
  { intro bb. unfold ancillary_sum. rewrite LS. apply sumn_ext. intros j Hj. rewrite exponents_nth, RA, Th by auto. apply Rmult_comm. }
  split; [intros j Hj; rewrite <- Th; now apply RA|].
  rewrite aL, aV, ap. split; [|split; [|split; [|congruence]]].
  - rewrite C51_curve by (cbn [an_Tr an_n an_t]; first [exact HT|now rewrite LS]). cbn [an_n an_t an_Tr an_tau an_noexp an_red]. rewrite S. unfold ok. do 2 f_equal.
    destruct (log_at _ _ _ _ _ _ _ FV E) as (_ & Nr & _).
    replace (nth k (fit_rhoL rhoc nodes) 0) with (nd_rhoL q / rhoc - 1).
    + field. exact Nr.
    + unfold fit_rhoL. assert (Hk : (k < length nodes)%nat) by (apply nth_error_Some; congruence).
      rewrite (nth_indep _ 0 ((fun q => nd_rhoL q / rhoc - 1) q)), (map_nth (fun q => nd_rhoL q / rhoc - 1)) by now rewrite map_length. now rewrite (nth_error_nth _ _ _ E).
  - rewrite C51_curve by (cbn [an_Tr an_n an_t]; first [exact HT|now rewrite LS]). cbn [an_n an_t an_Tr an_tau an_noexp an_red]. rewrite S. unfold ok. do 2 f_equal.
    destruct (log_at _ _ _ _ _ _ _ FV E) as (Pr & Nr & ->). rewrite Th. set (r := sumn _ _).
    replace (r * (Tc / nd_T q)) with (ln (nd_rhoV q / rhoc) + (r - ln (nd_rhoV q / rhoc) * (1 - (1 - nd_T q / Tc))) * (Tc / nd_T q)) by (field; lra).
    rewrite exp_plus, exp_ln by exact Pr. field. exact Nr.
  - rewrite C51_curve by (cbn [an_Tr an_n an_t]; first [exact HT|now rewrite LS]). cbn [an_n an_t an_Tr an_tau an_noexp an_red]. rewrite S. unfold ok. do 2 f_equal.
    destruct (log_at _ _ _ _ _ _ _ Fp E) as (Pr & Nr & ->). rewrite Th. set (r := sumn _ _).
    replace (r * (Tc / nd_T q)) with (ln (nd_p q / pc) + (r - ln (nd_p q / pc) * (1 - (1 - nd_T q / Tc))) * (Tc / nd_T q)) by (field; lra).
    rewrite exp_plus, exp_ln by exact Pr. field. exact Nr.
Qed.

(** ** When the builder answers *)
(** With a first point above the critical temperature there is no result: an exception when
    verifying, curves that are not numbers otherwise. *)
Theorem C51_built_above : forall m linsolve eps lstsq Tg rg Tmin verify Npts theta Tc rhoc,
  solve_pure_critical m linsolve Tg rg None None None = Val (Tc, rhoc) -> 0 < Tc -> (2 <= Npts)%Z -> theta * Tc < (Tc - Tmin) / (IZR Npts - 1) ->
  build_ancillaries m linsolve eps lstsq Tg rg Tmin verify Npts theta = if verify then Some (Err InvalidArgument) else None.
Proof.
  intros m linsolve eps lstsq Tg rg Tmin verify Npts theta Tc rhoc HC PT HN Hd. unfold build_ancillaries. rewrite HC.
  destruct (Z.leb_spec Npts 1); [lia|]. destruct (Z.to_nat Npts) as [|n] eqn:En; [lia|]. cbn [build_nodes].
  set (q := {| nd_T := _ |}).
  assert (HT : Tc < nd_T q). { unfold q. cbn [nd_T INR]. unfold build_dT. rewrite minus_IZR. lra. }
  assert (Hth : theta_of Tc q < 0). { unfold theta_of, Rdiv. assert (0 < / Tc) by now apply Rinv_0_lt_compat. assert ((nd_T q - Tc) * / Tc > 0) by (apply Rmult_lt_0_compat; lra). lra. }
  cbn [existsb]. destruct (Rlt_dec Tc ((1 - theta_of Tc q) * Tc)) as [|N].
  - destruct verify; cbn [andb orb]; [reflexivity|]. destruct (Rle_dec theta 0); [reflexivity|]. unfold fit_curves, fit_matrix. cbn [map osequence].
    replace (osequence (map (cpow (theta_of Tc q)) exponents)) with (@None (list R)); [reflexivity|].
    symmetry. unfold exponents. cbn [linspaced seq map osequence]. unfold cpow at 1. destruct (Req_EM_T _ _); [lra|]. destruct (Rlt_dec 0 _); [lra|reflexivity].
  - exfalso. apply N. replace ((1 - theta_of Tc q) * Tc) with (nd_T q) by (unfold theta_of; field; lra). exact HT.
Qed.
(** Fifty points from half the critical temperature, with the other values at their defaults:
    no model gets ancillaries. *)
Theorem C51_built_few_points_refuted : forall m linsolve eps lstsq Tg rg Tc rhoc,
  solve_pure_critical m linsolve Tg rg None None None = Val (Tc, rhoc) -> 0 < Tc ->
  build_ancillaries m linsolve eps lstsq Tg rg (Tc / 2) true 50 0.01 = Some (Err InvalidArgument).
Proof. intros. rewrite (C51_built_above m linsolve eps lstsq Tg rg (Tc / 2) true 50 0.01 Tc rhoc); auto; [lia|lra]. Qed.
(** One point or none: undefined. *)
Theorem C51_built_one_point_refuted : forall m linsolve eps lstsq Tg rg Tmin verify Npts theta, (Npts <= 1)%Z ->
  build_ancillaries m linsolve eps lstsq Tg rg Tmin verify Npts theta = None.
Proof.
  intros. unfold build_ancillaries. unfold solve_pure_critical. cbn [opt_nonneg bind Z.to_nat Pos.to_nat Pos.iter_op Nat.add critical_z].
  destruct (critical_loop _ _ _ _ _) as (Tc & rhoc). destruct (Z.leb_spec Npts 1); [reflexivity|lia].
Qed.
(** With enough points (the step is below theta Tc) all points are below the critical
    temperature, and there is a result whenever vapour densities and pressures are positive. *)
Theorem C51_built_answers : forall m linsolve eps lstsq Tg rg Tmin verify Npts theta Tc rhoc,
  solve_pure_critical m linsolve Tg rg None None None = Val (Tc, rhoc) -> 0 < Tc -> 0 < rhoc -> (2 <= Npts)%Z -> Tmin < Tc ->
  (Tc - Tmin) / (IZR Npts - 1) < theta * Tc -> 0 < rhoc * get_R m [1] * Tc * (1 + get_A m 0 1 Tc rhoc [1]) ->
  let nodes := build_nodes m linsolve eps ((1 - theta) * Tc) (build_dT Tc Tmin Npts) (Z.to_nat Npts) 0 (extrapolate_from_critical m Tc rhoc ((1 - theta) * Tc) [1]) in
  (forall q, In q nodes -> 0 < nd_rhoV q /\ 0 < nd_p q) ->
  (forall q, In q nodes -> nd_T q < Tc) /\ exists a, build_ancillaries m linsolve eps lstsq Tg rg Tmin verify Npts theta = ok a.
Proof.
  intros m linsolve eps lstsq Tg rg Tmin verify Npts theta Tc rhoc HC PT Pr HN Hm Hd Ppc nodes Pn.
  assert (HI : 1 <= IZR Npts - 1) by (assert (2 <= IZR Npts) by (apply (IZR_le 2); lia); lra).
  assert (Pd : 0 < (Tc - Tmin) / (IZR Npts - 1)) by (apply Rdiv_lt_0_compat; lra).
  assert (HT : forall q, In q nodes -> nd_T q < Tc).
  { intros q Hq. apply In_nth_error in Hq. destruct Hq as (k & Hq). apply C51_built_nodes in Hq; [|exact HN]. destruct Hq as (g & Hq & _). rewrite Hq.
    assert (0 <= INR k * ((Tc - Tmin) / (IZR Npts - 1))) by (apply Rmult_le_pos; [apply pos_INR|lra]). lra. }
  split; [exact HT|]. unfold build_ancillaries. rewrite HC. destruct (Z.leb_spec Npts 1); [lia|]. fold nodes. set (pc := rhoc * get_R m [1] * Tc * _) in *. clearbody nodes pc.
  replace (existsb _ nodes) with false.
  2:{ symmetry. apply not_true_is_false. intro X. apply existsb_exists in X. destruct X as (q & Hq & X). specialize (HT q Hq).
      destruct (Rlt_dec Tc ((1 - theta_of Tc q) * Tc)) as [Y|]; [|discriminate]. replace ((1 - theta_of Tc q) * Tc) with (nd_T q) in Y by (unfold theta_of; field; lra). lra. }
  rewrite andb_false_r. destruct (Rle_dec theta 0) as [X|_]. { exfalso. assert (theta * Tc <= 0 * Tc) by (apply Rmult_le_compat_r; lra). lra. }
  assert (OS : forall A B (f : A -> option B) l, (forall a, In a l -> exists b, f a = Some b) -> exists r, osequence (map f l) = Some r).
  { clear. induction l as [|a l IH]; intro H; [now exists []|]. destruct (H a (or_introl eq_refl)) as (b & Hb). destruct IH as (r & Hr); [intros; apply H; now right|].
    exists (b :: r). cbn. rewrite Hb, Hr. reflexivity. }
  destruct (OS _ _ (fun q => osequence (map (cpow (theta_of Tc q)) exponents)) nodes) as (A & HA).
  { intros q Hq. apply OS. intros t _. assert (0 < theta_of Tc q) by (unfold theta_of; apply Rdiv_lt_0_compat; [specialize (HT q Hq); lra|lra]).
    unfold cpow. destruct (Req_EM_T _ _); [lra|]. destruct (Rlt_dec _ _); [eauto|lra]. }
  assert (FL : forall f red, 0 < red -> (forall q, In q nodes -> 0 < f q) -> exists b, fit_log f red Tc nodes = Some b).
  { intros f red Pred Pf. apply OS. intros q Hq. unfold cdiv, clog. destruct (Req_EM_T red 0); [lra|]. cbn. destruct (Rlt_dec 0 (f q / red)) as [|N]; [eexists; reflexivity|].
    exfalso. apply N. apply Rdiv_lt_0_compat; auto. }
  destruct (FL nd_rhoV rhoc Pr) as (bV & HV); [intros; now apply Pn|]. destruct (FL nd_p pc Ppc) as (bp & Hp); [intros; now apply Pn|].
  unfold fit_curves, fit_matrix. rewrite HA, HV, Hp.
  unfold make_ancillaries, curves. cbn -[curve make_ancillary]. rewrite !curve_made. cbn [bind]. eexists. reflexivity.
Qed.

(** A model with constant derivatives: two points down to nine tenths of the critical
    temperature, a quarter of which is theta. *)
Definition flat_model : amodel := {| get_R := fun _ => 1; get_A := fun i j _ _ _ => if Nat.eqb i 0 && Nat.eqb j 3 then 1 else 0 |}.
Definition no_step : mat2 -> R * R -> R * R := fun _ _ => (0, 0).
Definition ten_zeros : list (list R) -> list R -> list R := fun _ _ => repeat 0 10.
Lemma flat_loop : forall z n x, critical_loop flat_model no_step z n x = x.
Proof. induction n; intros (a & b); [reflexivity|]. cbn [critical_loop]. destruct (critical_conditions _ _ _ _) as (r & J). unfold no_step at 1 2. cbn [fst snd]. rewrite !Rplus_0_r. apply IHn. Qed.
Lemma flat_critical : solve_pure_critical flat_model no_step 1 1 None None None = Val (1, 1).
Proof. unfold solve_pure_critical. cbn [opt_nonneg bind critical_z Z.to_nat Pos.to_nat Pos.iter_op Nat.add]. now rewrite flat_loop. Qed.
Lemma flat_VLE : forall T L V, pure_VLE_T flat_model no_step 1 T L V 10 [1] = (L, V).
Proof.
  intros T L V. unfold pure_VLE_T. change (Z.to_nat 10) with 10%nat. cbn [vle_loop]. destruct (vle_call _ _ _ _) as (r & J). unfold no_step at 1 2 3 4. cbn [fst snd]. rewrite !Rplus_0_r.
  unfold small2. cbn [fst snd]. rewrite !Rminus_eq_0, Rabs_R0. destruct (Rlt_dec 0 1); [reflexivity|lra].
Qed.
Lemma flat_slope : forall T L V r, T <> 0 -> trace_drhodT flat_model [1] (dpsatdT_pure flat_model T L V [1]) T r = - r / T.
Proof.
  intros T L V r H. unfold trace_drhodT, dpsatdT_pure. cbn [flat_model get_R get_A Nat.eqb andb].
  replace (1 * (0 + 0 - (0 + 0)) / (1 / V - 1 / L)) with 0 by (unfold Rdiv; ring). field. exact H.
Qed.
Example C51_built_met : exists a, (forall A b, length (ten_zeros A b) = 10%nat) /\ build_ancillaries flat_model no_step 1 ten_zeros 1 1 0.9 true 2 0.25 = ok a.
Proof.
  destruct (C51_built_answers flat_model no_step 1 ten_zeros 1 1 0.9 true 2 0.25 1 1) as (_ & a & H); try lra; [exact flat_critical|lia|cbn; lra| |exists a; split; [reflexivity|exact H]].
  assert (X : extrapolate_from_critical flat_model 1 1 ((1 - 0.25) * 1) [1] = (1.5, 0.5)).
  { unfold extrapolate_from_critical, get_Brho_critical_extrap. cbn [flat_model get_R get_A Nat.eqb andb].
    replace (6 * (1 * (1 + 2 * 0 + 0 - 2 * 0 - 0)) * 1 / (1 * 1 / (1 * 1) * (6 * 0 + 6 * 1 + 0))) with (1 * 1) by (field; lra). rewrite sqrt_square by lra.
    replace (1 - (1 - 0.25) * 1 / 1) with (0.5 * 0.5) by lra. rewrite sqrt_square by lra. f_equal; lra. }
  assert (D : build_dT 1 0.9 2 = 0.1) by (unfold build_dT; change (2 - 1)%Z with 1%Z; lra).
  rewrite X, D. change (Z.to_nat 2) with 2%nat. cbn [build_nodes]. rewrite !flat_VLE. cbn [fst snd INR]. rewrite !flat_slope by lra. cbn [flat_model get_R get_A Nat.eqb andb].
  replace ((1 - 0.25) * 1 - 0.1 * 0) with 0.75 by lra. replace ((1 - 0.25) * 1 - 0.1 * 1) with 0.65 by lra.
  intros q [<-|[<-|[]]]; cbn [nd_rhoV nd_p]; split; lra.
Qed.
Print Assumptions C51_built_nodes.
Print Assumptions C51_built_Tmin_refuted.
Print Assumptions C51_built_saturation_refuted.
Print Assumptions C51_built_fit.
Print Assumptions C51_built_above.
Print Assumptions C51_built_few_points_refuted.
Print Assumptions C51_built_one_point_refuted.
Print Assumptions C51_built_answers.
