(** The equation of Lee, Kesler and Ploecker.  See LKP_spec.v for what is expected. *)
From Coq Require Import Reals String List Bool Lia Lra Psatz Permutation.
From Coquelicot Require Import Coquelicot.
From Verif Require Import Json_model Vec_spec Vec_proofs Cubic_model Cubic_spec Cubic_proofs2 Terms_model Terms_proofs2 Derivs_spec Ideal_model Ideal_proofs Assoc_model LKP_model LKP_spec LKP_proofs.
Import ListNotations.
Open Scope R_scope.

(** C75.  A model is made exactly when the arrays have one length and the matrix is square with
    that dimension *)
Theorem C75_accepted : forall Tc pc w Rg k,
  ((exists m, make_lkp Tc pc w Rg k = Val m) <-> length pc = length Tc /\ length w = length Tc /\ square (length Tc) k) /\
  ((exists m, make_lkp Tc pc w Rg k = Val m) \/ make_lkp Tc pc w Rg k = Err InvalidArgument).
Proof.
  intros. unfold make_lkp, square. destruct (Nat.eqb_spec (length pc) (length Tc)) as [E1|N1]; cbn [andb negb].
  2: { split; [split; [intros [m H]; discriminate|tauto]|now right]. }
  destruct (Nat.eqb_spec (length w) (length Tc)) as [E2|N2]; cbn [andb negb].
  2: { split; [split; [intros [m H]; discriminate|tauto]|now right]. }
  destruct (Nat.eqb_spec (length k) (length Tc)) as [E3|N3]; cbn [andb negb].
  2: { split; [split; [intros [m H]; discriminate|tauto]|now right]. }
  assert (E : forallb (fun row => Nat.eqb (length row) (length Tc)) k = true <-> List.Forall (fun row => length row = length Tc) k).
  { rewrite forallb_forall, List.Forall_forall. split; intros H row I; specialize (H row I); apply Nat.eqb_eq; exact H. }
  destruct (forallb _ k); split.
  - split; [|intros; eexists; reflexivity]. intros _. repeat split; auto. now apply E.
  - left. eexists. reflexivity.
  - split; [intros [m H]; discriminate|]. intros (_ & _ & _ & H). apply E in H. discriminate.
  - now right.
Qed.
Lemma made : forall Tc pc w Rg k m, make_lkp Tc pc w Rg k = Val m -> m = {| k_Tc := Tc; k_pc := pc; k_w := w; k_R := Rg; k_mat := k |} /\
  length pc = length Tc /\ length w = length Tc /\ square (length Tc) k.
Proof.
  intros Tc pc w Rg k m H. split; [|apply (C75_accepted Tc pc w Rg k); eauto]. revert H. unfold make_lkp.
  destruct (negb _); [discriminate|]. destruct (negb _); [discriminate|]. destruct (forallb _ _); [|discriminate]. intro H. now injection H.
Qed.
Lemma made_of : forall Tc pc w Rg k, length pc = length Tc -> length w = length Tc -> square (length Tc) k ->
  make_lkp Tc pc w Rg k = Val {| k_Tc := Tc; k_pc := pc; k_w := w; k_R := Rg; k_mat := k |}.
Proof. intros. destruct (proj2 (proj1 (C75_accepted Tc pc w Rg k))) as [m H2]; [auto|]. rewrite H2. f_equal. apply (made _ _ _ _ _ _ H2). Qed.
Lemma made_physical : forall Tc pc w Rg k m, fluids Tc pc w Rg -> make_lkp Tc pc w Rg k = Val m -> lkp_physical m.
Proof.
  intros Tc pc w Rg k m (L1 & L2 & HR & H) E. apply made in E. destruct E as (-> & _ & _ & [Lk _]). unfold lkp_physical. cbn. auto.
Qed.
(** ... and it is asked for a mixture of another number of components with an exception *)
Theorem C75_fractions : forall Tc pc w Rg k m T rho x, make_lkp Tc pc w Rg k = Val m -> length x <> length Tc ->
  lkp_alphar m T rho x = Some (Err InvalidArgument).
Proof.
  intros Tc pc w Rg k m T rho x H N. apply made in H. destruct H as (-> & _ & L & _). unfold lkp_alphar. cbn [k_w].
  destruct (Nat.eqb_spec (length x) (length w)); [congruence|reflexivity].
Qed.

Lemma alphar_core : forall Tc pc w Rg k m T rho x, fluids Tc pc w Rg -> make_lkp Tc pc w Rg k = Val m -> length x = length Tc ->
  lkp_alphar m T rho x = fin (lkp_core (mix_w (wi m) x) (mix_volume (vci m) x) (tsum m x) T rho).
Proof.
  intros Tc pc w Rg k m T rho x F H L. pose proof (made_physical _ _ _ _ _ _ F H) as P. apply made in H. destruct H as (-> & _ & Lw & _).
  unfold lkp_alphar. rewrite mixture_core by auto. cbn [k_w]. destruct (Nat.eqb_spec (length x) (length w)); [reflexivity|congruence].
Qed.
Lemma volume_pos : forall v x, composition x -> 0 < mix_volume v x.
Proof.
  intros v x [H S]. unfold mix_volume, quadratic_mean.
  assert (E : exists i, (i < length x)%nat /\ 0 < nth i x 0).
  { apply Classical_Prop.NNPP. intro N. rewrite sumn_0 in S; [lra|]. intros i Hi. apply Rle_antisym; [|now apply H].
    apply Rnot_lt_le. intro C. apply N. eauto. }
  destruct E as (i & Hi & P).
  assert (T : forall a b, (a < length x)%nat -> (b < length x)%nat -> 0 <= nth a x 0 * nth b x 0 * pair_volume v a b).
  { intros a b Ha Hb. pose proof (pair_pos v a b). apply Rmult_le_pos; [|lra]. apply Rmult_le_pos; now apply H. }
  apply Rlt_le_trans with (sumn (length x) (fun j => nth i x 0 * nth j x 0 * pair_volume v i j)).
  - apply Rlt_le_trans with (nth i x 0 * nth i x 0 * pair_volume v i i).
    + pose proof (pair_pos v i i). apply Rmult_lt_0_compat; [|lra]. now apply Rmult_lt_0_compat.
    + apply (sumn_term (length x) (fun j => nth i x 0 * nth j x 0 * pair_volume v i j)); auto.
  - apply (sumn_term (length x) (fun i => sumn (length x) (fun j => nth i x 0 * nth j x 0 * pair_volume v i j))); auto.
    intros a Ha. apply sumn_pos. auto.
Qed.
Lemma weight_lt : forall w x, composition x -> (forall i, (i < length x)%nat -> w i < 3.4) -> mix_w w x < 3.4.
Proof.
  intros w x C B. pose proof (volume_pos (fun _ => 1) x C) as V. destruct C as [H S]. unfold mix_w, mean.
  assert (L : sumn (length x) (fun i => nth i x 0 * w i) <= sumn (length x) (fun i => nth i x 0 * 3.4)).
  { apply sumn_le. intros i Hi. apply Rmult_le_compat_l; [now apply H|]. left. auto. }
  rewrite sumn_scal_r, S in L. destruct (Rle_lt_or_eq_dec _ _ L) as [K|K]; [lra|]. exfalso.
  assert (D : sumn (length x) (fun i => nth i x 0 * (3.4 - w i)) = 0).
  { rewrite (sumn_ext _ _ (fun i => nth i x 0 * 3.4 - nth i x 0 * w i)) by (intros; ring). rewrite sumn_minus, sumn_scal_r, S, K. ring. }
  assert (A : forall i, (i < length x)%nat -> nth i x 0 = 0).
  { intros i Hi. pose proof (sumn_term (length x) (fun i => nth i x 0 * (3.4 - w i)) i Hi) as T. cbv beta in T.
    assert (Q : forall k, (k < length x)%nat -> 0 <= nth k x 0 * (3.4 - w k)).
    { intros k Hk. pose proof (B k Hk). apply Rmult_le_pos; [now apply H|lra]. }
    specialize (T Q). pose proof (B i Hi). pose proof (H i Hi). pose proof (Q i Hi). nra. }
  rewrite sumn_0 in S by exact A. lra.
Qed.
Lemma alphar_val : forall Tc pc w Rg k m T x, fluids Tc pc w Rg -> make_lkp Tc pc w Rg k = Val m -> length x = length Tc -> composition x -> T <> 0 ->
  forall rho, lkp_alphar m T rho x = ok (core (mix_w (fun i => nth i w 0) x) (mix_volume (critical_volume Tc pc w Rg) x)
    (mix_temperature (fun i => nth i Tc 0) (critical_volume Tc pc w Rg) (entry k) x) T rho).
Proof.
  intros Tc pc w Rg k m T x F H L C HT rho. rewrite (alphar_core _ _ _ _ _ _ T rho x F H L).
  pose proof (made _ _ _ _ _ _ H) as (E & _). subst m. rewrite core_val; [reflexivity|now apply volume_pos|exact HT|].
  apply Rgt_not_eq. assert (W : mix_w (fun i => nth i w 0) x < 3.4); [|unfold wi; cbn [k_w]; lra]. apply weight_lt; [exact C|]. intros i Hi.
  destruct F as (_ & _ & _ & F). apply F. lia.
Qed.
(** The residual energy is defined at every temperature that is not zero and every density, vanishes
    without density, and has the published compressibility factor as its derivative *)
Theorem C75_pressure : forall Tc pc w Rg k m T x, fluids Tc pc w Rg -> make_lkp Tc pc w Rg k = Val m -> length x = length Tc -> composition x ->
  (forall i j, (i < length Tc)%nat -> (j < length Tc)%nat -> 0 < entry k i j) -> 0 < T ->
  exists f, (forall rho, lkp_alphar m T rho x = Some (Val (f rho))) /\ f 0 = 0 /\
  forall rho, 0 < rho -> exists d, is_derive f rho d /\
    1 + rho * d = LKP_Z (fun i => nth i Tc 0) (critical_volume Tc pc w Rg) (fun i => nth i w 0) (entry k) x T rho.
Proof.
  intros Tc pc w Rg k m T x F H L C K HT. eexists. split; [intro rho; apply (alphar_val _ _ _ _ _ _ T x F H L C); lra|]. split.
  - unfold core. replace (mix_volume (critical_volume Tc pc w Rg) x * 0) with 0 by ring. rewrite !func_zero. ring.
  - intros rho HR. set (om := mix_w _ x). set (v := mix_volume _ x). set (tm := mix_temperature _ _ _ x).
    assert (V : 0 < v) by now apply volume_pos.
    assert (Z : 0.2905 - 0.085 * om <> 0).
    { apply Rgt_not_eq. assert (om < 3.4); [|lra]. apply weight_lt; [exact C|]. intros i Hi. destruct F as (_ & _ & _ & F). apply F. lia. }
    assert (M : 0 < tm).
    { unfold tm, mix_temperature. apply Rdiv_lt_0_compat; [|apply exp_pos]. unfold quadratic_mean. destruct C as [X S].
      assert (E : exists i, (i < length x)%nat /\ 0 < nth i x 0).
      { apply Classical_Prop.NNPP. intro N. rewrite sumn_0 in S; [lra|]. intros i Hi. apply Rle_antisym; [|now apply X].
        apply Rnot_lt_le. intro C. apply N. eauto. }
      destruct E as (i & Hi & P).
      set (q := fun i j => Rpower (pair_volume (critical_volume Tc pc w Rg) i j) (1 / 4) * (entry k i j * sqrt (nth i Tc 0 * nth j Tc 0))).
      assert (Q : forall a b, (a < length x)%nat -> (b < length x)%nat -> 0 < q a b).
      { intros a b Ha Hb. unfold q. apply Rmult_lt_0_compat; [apply exp_pos|]. apply Rmult_lt_0_compat; [apply K; lia|]. apply sqrt_lt_R0.
        destruct F as (_ & _ & _ & F). apply Rmult_lt_0_compat; apply F; lia. }
      assert (QQ : forall a b, (a < length x)%nat -> (b < length x)%nat -> 0 <= nth a x 0 * nth b x 0 * q a b).
      { intros a b Ha Hb. pose proof (Q a b Ha Hb). apply Rmult_le_pos; [|lra]. apply Rmult_le_pos; now apply X. }
      apply Rlt_le_trans with (sumn (length x) (fun j => nth i x 0 * nth j x 0 * q i j)).
      - apply Rlt_le_trans with (nth i x 0 * nth i x 0 * q i i).
        + pose proof (Q i i Hi Hi). apply Rmult_lt_0_compat; [|lra]. now apply Rmult_lt_0_compat.
        + apply (sumn_term (length x) (fun j => nth i x 0 * nth j x 0 * q i j)); auto.
      - apply (sumn_term (length x) (fun i => sumn (length x) (fun j => nth i x 0 * nth j x 0 * q i j))); auto.
        intros a Ha. apply sumn_pos. auto. }
    set (Zc := 0.2905 - 0.085 * om) in *. unfold core. fold om v tm Zc.
    set (z0 := LK_Z simple_fluid (T / tm) (Zc / (v * rho))). set (z1 := LK_Z octane (T / tm) (Zc / (v * rho))).
    exists ((1 - om / 0.3978) * ((z0 - 1) / rho) + om / 0.3978 * ((z1 - 1) / rho)). split.
    + assert (TT : tm / T = / (T / tm)) by (field; split; lra). rewrite TT.
      assert (TN : T / tm <> 0) by (apply Rgt_not_eq; apply Rdiv_lt_0_compat; lra).
      apply (is_derive_plus (V := R_NormedModule)).
      * apply (is_derive_scal (fun r => func lkp_simple (/ (T / tm)) (v * r) Zc)). apply func_derive; auto; try lra. apply simple_constants.
      * apply (is_derive_scal (fun r => func lkp_ref (/ (T / tm)) (v * r) Zc)). apply func_derive; auto; try lra. apply ref_constants.
    + unfold LKP_Z. fold om v tm Zc z0 z1. unfold octane_w. field. lra.
Qed.

(** A mixture of copies: order, division of a component and pure components *)
Theorem C75_copies : forall r x' x Tc pc w Rg k m, lumped r x' x -> fluids Tc pc w Rg -> make_lkp Tc pc w Rg k = Val m -> length x = length Tc ->
  exists m', make_lkp (pick 0 r Tc) (pick 0 r pc) (pick 0 r w) Rg (pick_k r k) = Val m' /\
  forall T rho, lkp_alphar m' T rho x' = lkp_alphar m T rho x.
Proof.
  intros r x' x Tc pc w Rg k m HL F H L. pose proof (fun i Hi => lumped_lt r x' x i HL Hi) as lt.
  assert (Lx : length x' = length r) by apply HL.
  assert (F' : fluids (pick 0 r Tc) (pick 0 r pc) (pick 0 r w) Rg).
  { destruct F as (F1 & F2 & F3 & F4). unfold fluids. rewrite !pick_length. repeat split; auto; intros; rewrite !pick_nth by auto; apply F4; rewrite <- L; apply lt; auto. }
  eexists. split.
  { apply made_of; rewrite ?pick_length; auto. split; unfold pick_k; [apply map_length|]. apply List.Forall_forall. intros row I. apply in_map_iff in I.
    destruct I as (a & <- & _). apply pick_length. }
  intros T rho. rewrite (alphar_core _ _ _ _ _ _ T rho x F H L).
  match goal with |- lkp_alphar ?m' _ _ _ = _ => assert (E' : make_lkp (pick 0 r Tc) (pick 0 r pc) (pick 0 r w) Rg (pick_k r k) = Val m') end.
  { apply made_of; rewrite ?pick_length; auto. split; unfold pick_k; [apply map_length|]. apply List.Forall_forall. intros row I. apply in_map_iff in I.
    destruct I as (a & <- & _). apply pick_length. }
  rewrite (alphar_core _ _ _ _ _ _ T rho x' F' E') by now rewrite pick_length.
  apply made in H. destruct H as (-> & L1 & L2 & LK1 & LK2).
  assert (EV : forall i, (i < length r)%nat -> vci {| k_Tc := pick 0 r Tc; k_pc := pick 0 r pc; k_w := pick 0 r w; k_R := Rg; k_mat := pick_k r k |} i =
    vci {| k_Tc := Tc; k_pc := pc; k_w := w; k_R := Rg; k_mat := k |} (nth i r O)).
  { intros i Hi. unfold vci. cbn [k_Tc k_pc k_w k_R]. rewrite !pick_nth by auto. reflexivity. }
  f_equal. f_equal.
  - unfold mix_w, mean. rewrite Lx. apply lump_mean; auto. intros i Hi. unfold wi. cbn [k_w]. now rewrite pick_nth.
  - unfold mix_volume, quadratic_mean. rewrite Lx. apply lump_quad; auto. intros i j Hi Hj. unfold pair_volume. now rewrite !EV.
  - unfold tsum, quadratic_mean. rewrite Lx. apply lump_quad; auto. intros i j Hi Hj. unfold pair_volume. rewrite !EV by auto.
    unfold kij, Tci. cbn [k_mat k_Tc]. rewrite !pick_nth by auto. unfold pick_k.
    rewrite (nth_indep _ _ (pick 0 r (nth O k []))) by (rewrite map_length; auto). rewrite (map_nth (fun i => pick 0 r (nth i k []))). now rewrite pick_nth.
Qed.
Theorem C75_order : forall r x Tc pc w Rg k m, Permutation r (seq 0 (length x)) -> fluids Tc pc w Rg -> make_lkp Tc pc w Rg k = Val m -> length x = length Tc ->
  exists m', make_lkp (pick 0 r Tc) (pick 0 r pc) (pick 0 r w) Rg (pick_k r k) = Val m' /\
  forall T rho, lkp_alphar m' T rho (pick 0 r x) = lkp_alphar m T rho x.
Proof. intros. eapply C75_copies; eauto. now apply perm_lumped. Qed.
Theorem C75_division : forall x j s Tc pc w Rg k m, (j < length x)%nat -> fluids Tc pc w Rg -> make_lkp Tc pc w Rg k = Val m -> length x = length Tc ->
  let r := (seq 0 (length x) ++ [j])%list in
  exists m', make_lkp (pick 0 r Tc) (pick 0 r pc) (pick 0 r w) Rg (pick_k r k) = Val m' /\
  forall T rho, lkp_alphar m' T rho (replace j (nth j x 0 - s) x ++ [s]) = lkp_alphar m T rho x.
Proof. intros. eapply C75_copies; eauto. now apply split_lumped. Qed.
(** Only the sum of the two entries of the matrix for a pair matters *)
Theorem C75_transposed : forall Tc pc w Rg k m x, fluids Tc pc w Rg -> make_lkp Tc pc w Rg k = Val m -> length x = length Tc ->
  exists m', make_lkp Tc pc w Rg (transposed (length Tc) k) = Val m' /\ forall T rho, lkp_alphar m' T rho x = lkp_alphar m T rho x.
Proof.
  intros Tc pc w Rg k m x F H L.
  assert (E' : make_lkp Tc pc w Rg (transposed (length Tc) k) = Val {| k_Tc := Tc; k_pc := pc; k_w := w; k_R := Rg; k_mat := transposed (length Tc) k |}).
  { apply made_of; try apply F. split; unfold transposed; [now rewrite map_length, seq_length|]. apply List.Forall_forall. intros row I. apply in_map_iff in I.
    destruct I as (a & <- & _). now rewrite map_length, seq_length. }
  eexists. split; [exact E'|]. intros T rho. rewrite (alphar_core _ _ _ _ _ _ T rho x F H L), (alphar_core _ _ _ _ _ _ T rho x F E' L).
  apply made in H. destruct H as (-> & _). f_equal. f_equal. unfold tsum, quadratic_mean. rewrite sumn_swap. apply sumn_ext. intros i Hi. apply sumn_ext. intros j Hj.
  unfold kij, Tci. cbn [k_mat k_Tc]. unfold transposed.
  rewrite (nth_indep _ _ (map (fun j0 => entry k j0 O) (seq 0 (length Tc)))) by (rewrite map_length, seq_length; lia).
  rewrite (map_nth (fun i0 => map (fun j0 => entry k j0 i0) (seq 0 (length Tc)))). rewrite seq_nth by lia. cbn [Nat.add].
  rewrite nth_map_seq' by lia. unfold entry. unfold pair_volume, vci. cbn [k_Tc k_pc k_w k_R].
  rewrite (Rplus_comm (third _)). rewrite (Rmult_comm (nth j Tc 0)). ring.
Qed.

(** A pure fluid: the published equation with its own critical constants, when the entry of the
    matrix on the diagonal is one *)
Lemma mean1 : forall q, mean [1] q = q O.
Proof. intro q. unfold mean. cbn [length sumn nth]. ring. Qed.
Lemma quad1 : forall q, quadratic_mean [1] q = q O O.
Proof. intro q. unfold quadratic_mean. cbn [length sumn nth]. ring. Qed.
Lemma volume1 : forall v, 0 < v O -> mix_volume v [1] = v O.
Proof.
  intros v V. unfold mix_volume. rewrite quad1. unfold pair_volume. replace ((third (v O) + third (v O)) / 2) with (third (v O)) by field. now apply third_cube.
Qed.
Lemma temperature1 : forall Tc v k, 0 < v O -> 0 <= Tc O -> mix_temperature Tc v k [1] = k O O * Tc O.
Proof.
  intros Tc v k V HT. unfold mix_temperature. rewrite volume1 by auto. rewrite quad1. unfold pair_volume.
  replace ((third (v O) + third (v O)) / 2) with (third (v O)) by field. rewrite third_cube by auto. rewrite sqrt_square by auto.
  assert (0 < Rpower (v O) (1 / 4)) by apply exp_pos. field. lra.
Qed.
Lemma composition1 : composition [1].
Proof. split; [|cbn; ring]. intros i Hi. cbn in Hi. replace i with O by lia. cbn. lra. Qed.
Theorem C75_pure : forall n i Tc pc w Rg k m T, fluids Tc pc w Rg -> make_lkp Tc pc w Rg k = Val m -> n = length Tc -> (i < n)%nat -> entry k i i = 1 -> 0 < T ->
  exists f, (forall rho, lkp_alphar m T rho (pure n i) = Some (Val (f rho))) /\ f 0 = 0 /\
  forall rho, 0 < rho -> exists d, is_derive f rho d /\
    let Tr := T / nth i Tc 0 in let Vr := nth i pc 0 / (Rg * nth i Tc 0 * rho) in
    1 + rho * d = (1 - nth i w 0 / octane_w) * LK_Z simple_fluid Tr Vr + nth i w 0 / octane_w * LK_Z octane Tr Vr.
Proof.
  intros n i Tc pc w Rg k m T F H -> Hi K HT.
  destruct (C75_copies [i] [1] (pure (length Tc) i) Tc pc w Rg k m (pure_lumped _ _ Hi) F H (pure_length _ _)) as (m' & E' & V).
  assert (Fi := F). destruct Fi as (_ & _ & F3 & F4). destruct (F4 i Hi) as (A & B & C).
  assert (F' : fluids (pick 0 [i] Tc) (pick 0 [i] pc) (pick 0 [i] w) Rg).
  { unfold fluids. cbn. repeat split; auto; destruct i0; try assumption; lia. }
  destruct (C75_pressure _ _ _ _ _ _ T [1] F' E' eq_refl composition1) as (f & V' & Z & D); auto.
  { cbn [pick map length]. intros a b Ha Hb. replace a with O by lia. replace b with O by lia. unfold entry, pick_k. cbn [map nth pick].
    unfold entry in K. rewrite K. lra. }
  exists f. split; [intro rho; rewrite <- V; apply V'|]. split; [exact Z|]. intros rho HR. destruct (D rho HR) as (d & Dd & Ed). exists d. split; [exact Dd|].
  cbv zeta. rewrite Ed. unfold LKP_Z, mix_w. rewrite mean1.
  assert (VP : 0 < critical_volume (pick 0 [i] Tc) (pick 0 [i] pc) (pick 0 [i] w) Rg O).
  { unfold critical_volume. cbn [pick map nth]. apply Rdiv_lt_0_compat; [|exact B]. repeat apply Rmult_lt_0_compat; lra. }
  rewrite volume1 by exact VP. rewrite temperature1 by (try exact VP; cbn; lra). unfold entry in K.
  unfold entry, pick_k. cbn [map pick nth]. rewrite K, Rmult_1_l.
  assert (W : 0.2905 - 0.085 * nth i w 0 <> 0) by lra.
  assert (EV : (0.2905 - 0.085 * nth i w 0) / (critical_volume (pick 0 [i] Tc) (pick 0 [i] pc) (pick 0 [i] w) Rg O * rho) = nth i pc 0 / (Rg * nth i Tc 0 * rho)).
  { unfold critical_volume. cbn [pick map nth]. field. repeat split; try assumption; lra. }
  cbn [pick map nth] in EV. rewrite EV. ring.
Qed.
(** The entries on the diagonal are not required to be one: another one moves the pure fluid to
    another temperature *)
Theorem C75_diagonal_refuted : forall c Tc pc w Rg T rho, fluids [Tc] [pc] [w] Rg -> 0 < c -> 0 < T -> exists m m',
  make_lkp [Tc] [pc] [w] Rg [[c]] = Val m /\ make_lkp [Tc] [pc] [w] Rg [[1]] = Val m' /\
  lkp_alphar m T rho [1] = lkp_alphar m' (T / c) rho [1].
Proof.
  intros c Tc pc w Rg T rho F C HT. eexists. eexists. split; [reflexivity|]. split; [reflexivity|].
  assert (Fi := F). destruct Fi as (_ & _ & F3 & F4). destruct (F4 O) as (A & B & D); [cbn; lia|]. cbn [nth] in A, B, D.
  assert (VP : 0 < critical_volume [Tc] [pc] [w] Rg O).
  { unfold critical_volume. cbn [nth]. apply Rdiv_lt_0_compat; [|exact B]. repeat apply Rmult_lt_0_compat; lra. }
  assert (TC : T / c <> 0) by (apply Rgt_not_eq; apply Rdiv_lt_0_compat; lra).
  rewrite (alphar_val [Tc] [pc] [w] Rg [[c]] _ T [1] F eq_refl eq_refl composition1 (Rgt_not_eq _ _ HT) rho).
  rewrite (alphar_val [Tc] [pc] [w] Rg [[1]] _ (T / c) [1] F eq_refl eq_refl composition1 TC rho).
  rewrite !temperature1 by (try exact VP; cbn; lra). unfold entry. cbn [nth]. unfold core.
  replace (1 * Tc / (T / c)) with (c * Tc / T) by (field; split; lra). reflexivity.
Qed.

(** From JSON: five keys, all needed *)
Theorem C75_json : forall l Tc pc w Rg k,
  lookup "Tcrit / K" l = Some (JArr (map JNum Tc)) -> lookup "pcrit / Pa" l = Some (JArr (map JNum pc)) ->
  lookup "acentric" l = Some (JArr (map JNum w)) -> lookup "R / J/mol/K" l = Some (JNum Rg) ->
  lookup "kmat" l = Some (JArr (map (fun row => JArr (map JNum row)) k)) ->
  lkp_of_json (JObj l) = make_lkp Tc pc w Rg k.
Proof.
  intros l Tc pc w Rg k H1 H2 H3 H4 H5. unfold lkp_of_json. cbn [j_at]. rewrite H1, H2, H3, H4, H5. cbn [bind]. rewrite !valarray_nums. cbn [bind j_double].
  assert (E : j_valarray (j_valarray j_double) (JArr (map (fun row => JArr (map JNum row)) k)) = Val k); [|rewrite E; reflexivity].
  clear. cbn [j_valarray]. induction k as [|row k IH]; [reflexivity|]. cbn [map map_res].
  change (bind (j_valarray j_double (JArr (map JNum row))) (fun a => bind (map_res (j_valarray j_double) (map (fun row0 => JArr (map JNum row0)) k)) (fun t => Val (a :: t))) = Val (row :: k)).
  rewrite valarray_nums. cbn [bind]. rewrite IH. reflexivity.
Qed.
Theorem C75_json_missing : forall l key, In key ["Tcrit / K"; "pcrit / Pa"; "acentric"; "R / J/mol/K"; "kmat"]%string -> lookup key l = None ->
  lkp_of_json (JObj l) = Err JsonError.
Proof.
  intros l key I H. unfold lkp_of_json. cbn [j_at].
  assert (D : forall j, (exists v, j_double j = Val v) \/ j_double j = Err JsonError).
  { intros []; cbn; eauto. }
  assert (G : forall A (f : json -> res A), (forall j, (exists v, f j = Val v) \/ f j = Err JsonError) ->
    forall j, (exists v, j_valarray f j = Val v) \/ j_valarray f j = Err JsonError).
  { intros A f P j. destruct j; cbn; eauto. induction l0 as [|a l0 IH]; cbn; [eauto|]. destruct (P a) as [[v ->]| ->]; cbn; eauto.
    destruct IH as [[t ->]| ->]; cbn; eauto. }
  pose proof (G _ _ D) as GD. pose proof (G _ _ GD) as GG.
  cbn [In] in I. decompose [or] I; subst; try contradiction; rewrite ?H; cbn [bind]; try reflexivity;
  repeat match goal with
  | |- context [lookup ?a l] => destruct (lookup a l); cbn [bind]; try reflexivity
  | |- context [j_valarray j_double ?j] => destruct (GD j) as [[? ->]| ->]; cbn [bind]; try reflexivity
  | |- context [j_double ?j] => destruct (D j) as [[? ->]| ->]; cbn [bind]; try reflexivity
  end.
Qed.

(** Nitrogen and octane *)
Example C75_met : fluids [126.2; 568.7] [3.4e6; 2.49e6] [0.037; 0.399] 8.314 /\ composition [0.3; 0.7] /\
  (exists m, make_lkp [126.2; 568.7] [3.4e6; 2.49e6] [0.037; 0.399] 8.314 [[1; 1.1]; [1.1; 1]] = Val m) /\
  (forall i j, (i < 2)%nat -> (j < 2)%nat -> 0 < entry [[1; 1.1]; [1.1; 1]] i j) /\ lumped [1%nat; 0%nat; 0%nat] [0.7; 0.1; 0.2] [0.3; 0.7].
Proof.
  split; [|split; [|split; [|split]]].
  - unfold fluids. cbn [length]. repeat split; try lra; destruct i as [|[|i]]; cbn; try lra; lia.
  - split; [|cbn; lra]. cbn [length]. intros [|[|i]] Hi; cbn; try lra. lia.
  - eexists. reflexivity.
  - intros [|[|i]] [|[|j]] Hi Hj; unfold entry; cbn; try lra; lia.
  - split; [reflexivity|]. split; [cbn; intros i Hi; lia|]. cbn [length]. intros [|[|k]] Hk; cbn; try lra. lia.
Qed.
Print Assumptions C75_accepted.
Print Assumptions C75_fractions.
Print Assumptions C75_pressure.
Print Assumptions C75_copies.
Print Assumptions C75_order.
Print Assumptions C75_division.
Print Assumptions C75_transposed.
Print Assumptions C75_pure.
Print Assumptions C75_diagonal_refuted.
Print Assumptions C75_json.
Print Assumptions C75_json_missing.
