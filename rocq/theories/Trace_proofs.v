(** Proofs for C24. *)
From Coq Require Import Reals ZArith List Bool Lia Lra.
From Coquelicot Require Import Coquelicot.
From Verif Require Import Json_model Derivs_model Derivs_spec Derivs_proofs Derivs_proofs2 Pure_proofs
  Vec_spec Vec_proofs Iso_model Iso_spec Iso_proofs Trace_model Trace_spec.
Import ListNotations.
Open Scope R_scope.

(** ** Functions of (T, rho) together *)
Lemma cons_curve : forall T rho dT drho tau c, path T rho dT drho tau c ->
  (fun s => tau s :: c s) 0 = T :: rho /\ (forall s, length (tau s :: c s) = length (T :: rho)) /\
  (forall i, (i < length (T :: rho))%nat -> is_derive (fun s => nth i (tau s :: c s) 0) 0 (nth i (dT :: drho) 0)).
Proof.
  intros T rho dT drho tau c P. split; [|split].
  - simpl. now rewrite (path_T _ _ _ _ _ _ P), (path_rho _ _ _ _ _ _ P).
  - intro s. simpl. now rewrite (path_len _ _ _ _ _ _ P).
  - intros [|i] Hi; simpl.
    + exact (path_dT _ _ _ _ _ _ P).
    + apply (path_drho _ _ _ _ _ _ P). simpl in Hi. lia.
Qed.
Lemma along : forall F T rho dT drho tau c g, path T rho dT drho tau c -> gradient_at F (T :: rho) g ->
  is_derive (fun s => F (tau s :: c s)) 0
    (nth 0 g 0 * dT + sumn (length rho) (fun i => nth (S i) g 0 * nth i drho 0)).
Proof.
  intros F T rho dT drho tau c g P H. destruct (cons_curve _ _ _ _ _ _ P) as (A & B & C).
  eapply is_derive_eq; [|apply (curve_derive F (T :: rho) g (fun s => tau s :: c s) (fun i => nth i (dT :: drho) 0) 0 H A B C)].
  cbn [length]. rewrite sumn_S_l. reflexivity.
Qed.
Lemma near_along : forall (Q : list R -> Prop) T rho dT drho tau c, path T rho dT drho tau c -> near (T :: rho) Q ->
  locally 0 (fun s => Q (tau s :: c s)).
Proof.
  intros Q T rho dT drho tau c P H. destruct (cons_curve _ _ _ _ _ _ P) as (A & B & C).
  apply (near_curve Q (T :: rho) (fun s => tau s :: c s)); auto.
  intros i Hi. eexists. apply (C i Hi).
Qed.
(** keeping the temperature, or keeping the concentrations *)
Lemma gradient_tail : forall F T x g, gradient_at F (T :: x) g -> gradient_at (fun y => F (T :: y)) x (tl g).
Proof.
  intros F T x g (Hl & H). destruct g as [|g0 g]; [discriminate|]. simpl in Hl. split; [simpl; lia|].
  intros eps He. destruct (H eps He) as (del & Hd & K). exists del. split; auto.
  intros y Hy Hc. specialize (K (T :: y) ltac:(simpl; lia)).
  assert (Hc' : forall i, (i < length (T :: x))%nat -> Rabs (nth i (T :: y) 0 - nth i (T :: x) 0) < del).
  { intros [|i] Hi; simpl; [rewrite Rminus_eq_0, Rabs_R0; auto|apply Hc; simpl in Hi; lia]. }
  specialize (K Hc'). cbn [length] in K. rewrite !sumn_S_l in K. simpl in K.
  rewrite !Rminus_eq_0, Rabs_R0, Rmult_0_r, !Rplus_0_l in K. exact K.
Qed.
Lemma gradient_head : forall F T x g, gradient_at F (T :: x) g -> is_derive (fun t => F (t :: x)) T (nth 0 g 0).
Proof.
  intros F T x g H. apply (is_derive_ext (fun t => F (upd 0 t (T :: x)))); [reflexivity|].
  apply (partial_derive_at F (T :: x) g 0 H). simpl; lia.
Qed.
Lemma near_tail : forall (Q : list R -> Prop) T x, near (T :: x) Q -> near x (fun y => Q (T :: y)).
Proof.
  intros Q T x (del & Hd & K). exists del. split; auto. intros y Hy Hc. apply K; [simpl; lia|].
  intros [|i] Hi; simpl; [rewrite Rminus_eq_0, Rabs_R0; auto|apply Hc; simpl in Hi; lia].
Qed.
Lemma near_head : forall (Q : list R -> Prop) T x, near (T :: x) Q -> locally T (fun t => Q (t :: x)).
Proof.
  intros Q T x H. pose proof (near_upd Q (T :: x) 0 H) as L. exact L.
Qed.
Lemma nth_tl : forall (g : list R) i, nth i (tl g) 0 = nth (S i) g 0.
Proof. intros [|a g] i; simpl; auto. now destruct i. Qed.
Lemma twice_tail : forall F T x G H, twice_at F (T :: x) G H ->
  twice_at (fun y => F (T :: y)) x (fun y => tl (G (T :: y))) (map (@tl R) (tl H)).
Proof.
  intros F T x G H [A B C D]. destruct H as [|H0 H]; [discriminate|]. simpl in B.
  assert (E : forall j, nth j (map (@tl R) H) [] = tl (nth (S j) (H0 :: H) [])).
  { intro j. change (@nil R) with (tl (@nil R)) at 1. now rewrite (map_nth (@tl R)). }
  constructor; cbn [tl] in *.
  - eapply near_imp; [|apply (near_tail _ _ _ A)]. intros y _ Hy. now apply gradient_tail.
  - rewrite map_length. lia.
  - intros j Hj. rewrite E. specialize (C (S j) ltac:(simpl; lia)). apply gradient_tail in C.
    eapply gradient_ext; [| | |exact C]; auto; [intros y _; now rewrite nth_tl|exact (proj1 C)].
  - intros i j Hi Hj. rewrite !E, !nth_tl. apply D; simpl; lia.
Qed.

Section P.
Variable ad : (list R -> R) -> list nat -> list R -> R.
Hypothesis Had : AD_exact ad.
Variable alphar : R -> R -> list R -> R.
Variable Rgas : list R -> R.
Variable Rg : R.
Hypothesis HR : forall x, Rgas x = Rg.
Hypothesis HR0 : 0 < Rg.

Notation Psir := (Psi_r alphar Rgas).
Notation F := (fun y => Psi_r alphar Rgas (hd 0 y) (tl y)).
Notation Hr := (build_Psir_Hessian ad alphar Rgas).
Notation mur := (build_Psir_gradient ad alphar Rgas).
Notation smooth := (smooth_joint alphar Rgas).

Lemma smooth_joint_rho : forall T rho, smooth T rho -> smooth_rho alphar Rgas T rho.
Proof.
  intros T rho (G & H & X). apply twice_tail in X. simpl in X. eexists. eexists. exact X.
Qed.
Lemma smooth_joint_T : forall T rho, smooth T rho -> smooth_T alphar Rgas T rho.
Proof.
  intros T rho (G & H & [A B C D]). exists (fun t => tl (G (t :: rho))), (nth 0 (G (T :: rho)) 0), (fun i => nth 0 (nth (S i) H []) 0).
  split; [|split].
  - pose proof (near_head _ _ _ A) as L. eapply filter_imp; [|exact L]. intros t Ht. now apply gradient_tail in Ht.
  - exact (gradient_head _ _ _ _ (near_self _ _ A)).
  - intros i Hi. apply (is_derive_ext (fun t => nth (S i) (G (t :: rho)) 0)); [intro; now rewrite nth_tl|].
    apply (gradient_head _ _ _ _ (C (S i) ltac:(simpl; lia))).
Qed.

(** The residual chemical potentials along a path. *)
Lemma mur_along : forall T rho dT drho tau c i, path T rho dT drho tau c -> smooth T rho -> (i < length rho)%nat ->
  is_derive (fun s => nth i (mur (tau s) (c s)) 0) 0
    (sumn (length rho) (fun j => nth j (nth i (Hr T rho) []) 0 * nth j drho 0) +
     dT * nth i (build_d2PsirdTdrhoi ad alphar Rgas T rho) 0).
Proof.
  intros T rho dT drho tau c i P (G & H & X) Hi. pose proof (twice_tail _ _ _ _ _ X) as Y. simpl in Y.
  destruct X as [A B C D].
  assert (Hi' : (S i < length (T :: rho))%nat) by (simpl; lia).
  apply (is_derive_loc (fun s => nth (S i) (G (tau s :: c s)) 0)).
  - eapply filter_imp; [|apply (near_along _ _ _ _ _ _ _ P A)]. intros s Hs. cbv beta in Hs.
    apply gradient_tail in Hs. simpl in Hs. rewrite <- nth_tl. apply (gradient_ok ad Had alphar Rgas (tau s) (c s) _ i Hs).
    now rewrite (path_len _ _ _ _ _ _ P).
  - eapply is_derive_eq; [|apply (along _ _ _ _ _ _ _ _ P (C (S i) Hi'))].
    rewrite Rplus_comm. f_equal.
    + apply sumn_ext. intros j Hj. f_equal. rewrite (hessian_ok ad Had alphar Rgas T rho _ _ i j Y Hi Hj).
      change (@nil R) with (tl (@nil R)) at 2. rewrite (map_nth (@tl R)), nth_tl.
      destruct H as [|H0 H]; [discriminate|]. reflexivity.
    + rewrite Rmult_comm. f_equal. symmetry.
      apply (d2PsirdT_ok ad Had alphar Rgas T rho (fun t => tl (G (t :: rho))) _ i); auto.
      * pose proof (near_head _ _ _ A) as L. eapply filter_imp; [|exact L]. intros t Ht. now apply gradient_tail in Ht.
      * apply (is_derive_ext (fun t => nth (S i) (G (t :: rho)) 0)); [intro; now rewrite nth_tl|].
        apply (gradient_head _ _ _ _ (C (S i) Hi')).
Qed.

(** The pressure along a path. *)
Lemma total_along : forall T rho dT drho tau c, path T rho dT drho tau c ->
  is_derive (fun s => total (c s)) 0 (sumn (length rho) (fun i => nth i drho 0)).
Proof.
  intros T rho dT drho tau c P.
  apply (is_derive_ext (fun s => sumn (length rho) (fun i => nth i (c s) 0))).
  - intro s. unfold total. now rewrite (path_len _ _ _ _ _ _ P).
  - apply (is_derive_sumn (length rho) (fun i s => nth i (c s) 0)). exact (path_drho _ _ _ _ _ _ P).
Qed.
Lemma locally_pos_c : forall (f : R -> R) (x : R) l, is_derive f x l -> 0 < f x -> locally x (fun t => 0 < f t).
Proof.
  intros f x l D H. assert (Cf : continuous f x) by (apply (ex_derive_continuous (V := R_NormedModule)); exists l; exact D).
  apply (Cf (fun y => 0 < y)). apply (locally_pos _ H).
Qed.
Lemma p_along : forall T rho dT drho tau c, path T rho dT drho tau c -> smooth T rho -> 0 < T -> 0 < total rho ->
  is_derive (fun s => p_of alphar Rgas (tau s) (c s)) 0
    (sumn (length rho) (fun i => nth i rho 0 * sumn (length rho) (fun j => nth j (nth i (Hr T rho) []) 0 * nth j drho 0)) +
     Rg * T * sumn (length rho) (fun i => nth i drho 0) + dT * get_dpdT_constrhovec ad alphar Rgas T rho).
Proof.
  intros T rho dT drho tau c P Sm HT Hpos. pose proof Sm as (G & H & X). destruct X as [A B C D].
  pose proof (path_T _ _ _ _ _ _ P) as PT. pose proof (path_rho _ _ _ _ _ _ P) as PR. pose proof (path_len _ _ _ _ _ _ P) as PL.
  pose proof (total_along _ _ _ _ _ _ P) as DS.
  assert (GA : locally 0 (fun s => gradient_at (Psir (tau s)) (c s) (tl (G (tau s :: c s))))).
  { eapply filter_imp; [|apply (near_along _ _ _ _ _ _ _ P A)]. intros s Hs. now apply gradient_tail in Hs. }
  pose proof (gradient_tail _ _ _ _ (near_self _ _ A)) as G0. simpl in G0.
  apply (is_derive_loc (fun s => total (c s) * Rg * tau s +
    (sumn (length rho) (fun i => nth i (c s) 0 * nth i (mur (tau s) (c s)) 0) - Psir (tau s) (c s)))).
  - assert (L1 : locally 0 (fun s => 0 < tau s)) by (apply (locally_pos_c tau 0 dT (path_dT _ _ _ _ _ _ P)); now rewrite PT).
    assert (L2 : locally 0 (fun s => 0 < total (c s))) by (apply (locally_pos_c _ 0 _ DS); now rewrite PR).
    eapply filter_imp; [|apply (filter_and _ _ GA (filter_and _ _ L1 L2))]. intros s (Gs & Ts & Ss).
    rewrite (p_of_ok0 alphar Rgas (tau s) (c s) (tl (G (tau s :: c s))) Ss); auto.
    + unfold euler. rewrite PL, HR. f_equal. f_equal. apply sumn_ext. intros i Hi. f_equal.
      symmetry. apply (gradient_ok ad Had alphar Rgas); auto. now rewrite PL.
    + rewrite HR. apply Rmult_integral_contrapositive; split; lra.
  - pose proof (along _ _ _ _ _ _ _ _ P (near_self _ _ A)) as DF.
    eapply is_derive_eq; [|apply is_derive_plus'; [apply (is_derive_mult' (fun s => total (c s) * Rg) tau); [|exact (path_dT _ _ _ _ _ _ P)]|
      apply is_derive_minus'; [|exact DF]]].
    2: { apply (is_derive_ext (fun s => Rg * total (c s))); [intro; eqR; ring|]. apply is_derive_lin. exact DS. }
    2: { apply (is_derive_sumn (length rho) (fun i s => nth i (c s) 0 * nth i (mur (tau s) (c s)) 0)). intros i Hi.
         apply is_derive_mult'; [apply (path_drho _ _ _ _ _ _ P); auto|apply (mur_along _ _ _ _ _ _ i P Sm Hi)]. }
    eqR. rewrite PT, PR. unfold get_dpdT_constrhovec. rewrite vsum_total, HR.
    rewrite (dPsirdT_ok ad Had alphar Rgas T rho _ (gradient_head _ _ _ _ (near_self _ _ A))), vdot_sumn.
    rewrite (sumn_ext (length rho) (fun i => nth i drho 0 * nth i (mur T rho) 0 + nth i rho 0 *
       (sumn (length rho) (fun j => nth j (nth i (Hr T rho) []) 0 * nth j drho 0) + dT * nth i (build_d2PsirdTdrhoi ad alphar Rgas T rho) 0))
      (fun i => nth (S i) (G (T :: rho)) 0 * nth i drho 0 +
        (nth i rho 0 * sumn (length rho) (fun j => nth j (nth i (Hr T rho) []) 0 * nth j drho 0) +
         dT * (nth i rho 0 * nth i (build_d2PsirdTdrhoi ad alphar Rgas T rho) 0)))).
    + rewrite sumn_plus, sumn_plus, sumn_scal. ring.
    + intros i Hi. rewrite (gradient_ok ad Had alphar Rgas T rho _ i G0 Hi), nth_tl. ring.
Qed.

Notation Hess := (build_Psi_Hessian ad alphar Rgas).
Notation mu := (get_chempotVLE ad alphar Rgas).
Notation dmudT := (get_dchempotdT ad alphar Rgas).
Notation dpdT := (get_dpdT_constrhovec ad alphar Rgas).

Lemma Hess_entry : forall T rho i j, (i < length rho)%nat -> (j < length rho)%nat ->
  nth j (nth i (Hess T rho) []) 0 = nth j (nth i (Hr T rho) []) 0 + (if Nat.eqb i j then Rg * T / nth i rho 0 else 0).
Proof. intros T rho i j Hi Hj. unfold build_Psi_Hessian. rewrite nth_map_seq_l, each_nth by auto. now rewrite HR. Qed.
Lemma Hess_row : forall T rho d i, (i < length rho)%nat ->
  sumn (length rho) (fun j => nth j (nth i (Hess T rho) []) 0 * nth j d 0) =
  sumn (length rho) (fun j => nth j (nth i (Hr T rho) []) 0 * nth j d 0) + Rg * T / nth i rho 0 * nth i d 0.
Proof.
  intros T rho d i Hi. rewrite <- (sumn_delta (length rho) i (fun j => Rg * T / nth i rho 0 * nth j d 0) Hi), <- sumn_plus.
  apply sumn_ext. intros j Hj. rewrite Hess_entry by auto. rewrite (Nat.eqb_sym j i). destruct (Nat.eqb i j); ring.
Qed.
Lemma mu_along : forall T rho dT drho tau c i, path T rho dT drho tau c -> smooth T rho -> 0 < nth i rho 0 -> (i < length rho)%nat ->
  is_derive (fun s => nth i (mu (tau s) (c s)) 0) 0
    (sumn (length rho) (fun j => nth j (nth i (Hess T rho) []) 0 * nth j drho 0) + dT * nth i (dmudT T rho) 0).
Proof.
  intros T rho dT drho tau c i P Sm Hp Hi. pose proof (path_len _ _ _ _ _ _ P) as PL.
  apply (is_derive_ext (fun s => nth i (mur (tau s) (c s)) 0 + Rg * tau s * (1 + ln (nth i (c s) 0)))).
  - intro s. unfold get_chempotVLE. rewrite each_nth, HR by (now rewrite PL). unfold Rdiv. now rewrite Rinv_1, Rmult_1_r.
  - eapply is_derive_eq; [|apply is_derive_plus'; [apply (mur_along _ _ _ _ _ _ i P Sm Hi)|
      apply (is_derive_mult' (fun s => Rg * tau s) (fun s => 1 + ln (nth i (c s) 0)));
      [apply is_derive_lin; exact (path_dT _ _ _ _ _ _ P)|apply is_derive_plus'; [apply is_derive_cst|
       apply is_derive_ln_comp; [|apply (path_drho _ _ _ _ _ _ P); exact Hi]]]]].
    2: now rewrite (path_rho _ _ _ _ _ _ P).
    eqR. rewrite (path_rho _ _ _ _ _ _ P), (path_T _ _ _ _ _ _ P), Hess_row by auto.
    unfold get_dchempotdT. rewrite each_nth, HR by auto. unfold Rdiv at 3. rewrite Rinv_1, Rmult_1_r. field. lra.
Qed.
Lemma p_along_mu : forall T rho dT drho tau c, path T rho dT drho tau c -> smooth T rho -> 0 < T -> positive rho ->
  is_derive (fun s => p_of alphar Rgas (tau s) (c s)) 0
    (sumn (length rho) (fun i => nth i rho 0 * sumn (length rho) (fun j => nth j (nth i (Hess T rho) []) 0 * nth j drho 0)) +
     dT * dpdT T rho).
Proof.
  intros T rho dT drho tau c P Sm HT Pos.
  eapply is_derive_eq; [|apply (p_along _ _ _ _ _ _ P Sm HT (total_pos _ Pos))].
  f_equal. rewrite <- sumn_scal, <- sumn_plus. apply sumn_ext. intros i Hi. rewrite Hess_row by auto.
  pose proof (proj2 Pos i Hi). field. lra.
Qed.

(** ** Two components *)
Lemma Hess2 : forall T a b, exists p q r, Hess T [a; b] = [[p; q]; [q; r]] /\
  Hr T [a; b] = [[p - Rg * T / a; q]; [q; r - Rg * T / b]].
Proof.
  intros T a b. pose (h := hess_entry ad (get_Psir alphar Rgas T) [a; b]).
  exists (h 0%nat 0%nat + Rg * T / a), (h 0%nat 1%nat), (h 1%nat 1%nat + Rg * T / b).
  assert (E : Hr T [a; b] = [[h 0%nat 0%nat; h 0%nat 1%nat]; [h 0%nat 1%nat; h 1%nat 1%nat]]) by reflexivity.
  split.
  - unfold build_Psi_Hessian. rewrite E. unfold each. cbn [length seq map nth Nat.eqb]. rewrite HR, !Rplus_0_r. reflexivity.
  - rewrite E. replace (h 0%nat 0%nat + Rg * T / a - Rg * T / a) with (h 0%nat 0%nat) by ring.
    replace (h 1%nat 1%nat + Rg * T / b - Rg * T / b) with (h 1%nat 1%nat) by ring. reflexivity.
Qed.
Lemma nonzero_pos : forall rho, positive rho -> all_nonzero rho = true.
Proof.
  intros rho P. apply forallb_forall. intros x Hx. destruct (In_nth _ _ 0 Hx) as (i & Hi & <-).
  pose proof (proj2 P i Hi). unfold is0. destruct (Req_EM_T (nth i rho 0) 0); [lra|reflexivity].
Qed.
Lemma mat2 : forall p q r s x y, mat_vec [[p; q]; [r; s]] [x; y] = [p * x + q * y; r * x + s * y].
Proof. intros. unfold mat_vec, vdot, vsum, each. simpl. now rewrite !Rplus_0_r. Qed.
Lemma vdot2 : forall a b x y, vdot [a; b] [x; y] = a * x + b * y.
Proof. intros. unfold vdot, vsum, each. simpl. ring. Qed.
Lemma len2 : forall (A : Type) (v : list A), length v = 2%nat -> exists a b, v = [a; b].
Proof. intros A [|a [|b [|c v]]] H; try discriminate. now exists a, b. Qed.
Lemma sum2 : forall f, sumn 2 f = f 0%nat + f 1%nat.
Proof. intro f. simpl. ring. Qed.

Variable solve : list (list R) -> list R -> list R.
Hypothesis Hs : solves2 solve.

(** The isotherm. *)
Lemma isotherm_system : forall T rhoL rhoV, length rhoL = 2%nat -> length rhoV = 2%nat -> positive rhoL -> positive rhoV ->
  det2 (Hess T rhoL) <> 0 -> det2 (Hess T rhoV) <> 0 -> cross rhoL rhoV <> 0 ->
  exists dL dV, get_drhovecdp_Tsat ad alphar Rgas solve T rhoL rhoV = Some (Val (dL, dV)) /\
    length dL = 2%nat /\ length dV = 2%nat /\
    (forall i, (i < 2)%nat -> sumn 2 (fun j => nth j (nth i (Hess T rhoL) []) 0 * nth j dL 0) =
                              sumn 2 (fun j => nth j (nth i (Hess T rhoV) []) 0 * nth j dV 0)) /\
    sumn 2 (fun i => nth i rhoL 0 * sumn 2 (fun j => nth j (nth i (Hess T rhoL) []) 0 * nth j dL 0)) = 1 /\
    sumn 2 (fun i => nth i rhoV 0 * sumn 2 (fun j => nth j (nth i (Hess T rhoL) []) 0 * nth j dL 0)) = 1.
Proof.
  intros T rhoL rhoV LL LV PL PV D1 D2 D3. unfold get_drhovecdp_Tsat. rewrite LL, LV, (nonzero_pos _ PL), (nonzero_pos _ PV).
  destruct (len2 _ _ LL) as (l0 & l1 & ->). destruct (len2 _ _ LV) as (v0 & v1 & ->).
  destruct (Hess2 T l0 l1) as (p & q & r & EL & _). destruct (Hess2 T v0 v1) as (p' & q' & r' & EV & _).
  rewrite EL, EV in *. unfold det2, cross in *. simpl in D1, D2, D3. cbn [Nat.eqb negb andb Nat.ltb Nat.leb].
  unfold normal_A, row. cbn [seq map nth repeat]. rewrite !vdot2.
  destruct (Hs (p * v0 + q * v1) (q * v0 + r * v1) (p * l0 + q * l1) (q * l0 + r * l1) 1 1) as (x & y & -> & E1 & E2).
  { replace (_ - _) with (- ((p * r - q * q) * (l0 * v1 - l1 * v0))) by ring.
    apply Ropp_neq_0_compat, Rmult_integral_contrapositive. auto. }
  rewrite mat2. destruct (Hs p' q' q' r' (p * x + q * y) (q * x + r * y) ltac:(lra)) as (x' & y' & -> & E3 & E4).
  exists [x; y], [x'; y']. rewrite !sum2. cbn [nth length]. repeat split; auto.
  - intros [|[|i]] Hi; [| |lia]; rewrite !sum2; simpl; lra.
  - simpl. lra.
  - simpl. lra.
Qed.

(** The isobar: with [h] the products of the liquid Hessian and the liquid derivatives *)
Lemma isobar_system : forall T rhoL rhoV, length rhoL = 2%nat -> length rhoV = 2%nat -> positive rhoL -> positive rhoV ->
  det2 (Hess T rhoL) <> 0 -> det2 (Hess T rhoV) <> 0 -> cross rhoL rhoV <> 0 ->
  exists dL dV, get_drhovecdT_psat ad alphar Rgas solve T rhoL rhoV = Some (Val (dL, dV)) /\
    length dL = 2%nat /\ length dV = 2%nat /\
    (forall i, (i < 2)%nat -> sumn 2 (fun j => nth j (nth i (Hess T rhoL) []) 0 * nth j dL 0) + nth i (dmudT T rhoL) 0 =
                              sumn 2 (fun j => nth j (nth i (Hess T rhoV) []) 0 * nth j dV 0) + nth i (dmudT T rhoV) 0) /\
    sumn 2 (fun i => nth i rhoL 0 * sumn 2 (fun j => nth j (nth i (Hess T rhoL) []) 0 * nth j dL 0)) + dpdT T rhoL = 0 /\
    sumn 2 (fun i => nth i rhoV 0 * sumn 2 (fun j => nth j (nth i (Hess T rhoV) []) 0 * nth j dV 0)) + dpdT T rhoV = 0.
Proof.
  intros T rhoL rhoV LL LV PL PV D1 D2 D3. unfold get_drhovecdT_psat. rewrite LL, LV, (nonzero_pos _ PL), (nonzero_pos _ PV).
  destruct (len2 _ _ LL) as (l0 & l1 & ->). destruct (len2 _ _ LV) as (v0 & v1 & ->).
  destruct (Hess2 T l0 l1) as (p & q & r & EL & _). destruct (Hess2 T v0 v1) as (p' & q' & r' & EV & _).
  rewrite EL, EV in *. unfold det2, cross in *. simpl in D1, D2, D3. cbn [Nat.eqb negb andb Nat.ltb Nat.leb].
  set (bL := dpdT T [l0; l1]). set (bV := dpdT T [v0; v1]).
  destruct (len2 _ (dmudT T [l0; l1]) eq_refl) as (m0 & m1 & EmL). destruct (len2 _ (dmudT T [v0; v1]) eq_refl) as (n0 & n1 & EmV).
  rewrite EmL, EmV. unfold normal_A, row, vsub, each. cbn [seq map nth repeat length]. rewrite !vdot2.
  destruct (Hs (p * v0 + q * v1) (q * v0 + r * v1) (p * l0 + q * l1) (q * l0 + r * l1)
    ((n0 - m0) * v0 + (n1 - m1) * v1 - bV) (- bL)) as (x & y & -> & E1 & E2).
  { replace (_ - _) with (- ((p * r - q * q) * (l0 * v1 - l1 * v0))) by ring.
    apply Ropp_neq_0_compat, Rmult_integral_contrapositive. auto. }
  rewrite mat2. cbn [seq map nth repeat length].
  destruct (Hs p' q' q' r' (p * x + q * y - (n0 - m0)) (q * x + r * y - (n1 - m1)) ltac:(lra)) as (x' & y' & -> & E3 & E4).
  exists [x; y], [x'; y']. rewrite !sum2. cbn [nth length]. repeat split; auto.
  - intros [|[|i]] Hi; [| |lia]; rewrite !sum2; simpl; lra.
  - simpl. lra.
  - simpl. rewrite E3, E4. fold bV. lra.
Qed.

(** The isopleth *)
Lemma isopleth_system : forall T rhoL rhoV, length rhoL = 2%nat -> length rhoV = 2%nat -> positive rhoL -> positive rhoV ->
  det2 (Hess T rhoV) <> 0 ->
  sumn 2 (fun i => (nth i rhoV 0 - nth i rhoL 0) * sumn 2 (fun j => nth j (nth i (Hess T rhoL) []) 0 * nth j rhoL 0)) <> 0 ->
  exists k dV, get_drhovecdT_xsat ad alphar Rgas solve T rhoL rhoV = Some (Val (map (Rmult k) (fractions rhoL), dV)) /\
    length dV = 2%nat /\
    let dL := map (Rmult k) (fractions rhoL) in
    (forall i, (i < 2)%nat -> sumn 2 (fun j => nth j (nth i (Hess T rhoL) []) 0 * nth j dL 0) + nth i (dmudT T rhoL) 0 =
                              sumn 2 (fun j => nth j (nth i (Hess T rhoV) []) 0 * nth j dV 0) + nth i (dmudT T rhoV) 0) /\
    sumn 2 (fun i => nth i rhoL 0 * sumn 2 (fun j => nth j (nth i (Hess T rhoL) []) 0 * nth j dL 0)) + dpdT T rhoL =
    sumn 2 (fun i => nth i rhoV 0 * sumn 2 (fun j => nth j (nth i (Hess T rhoV) []) 0 * nth j dV 0)) + dpdT T rhoV.
Proof.
  intros T rhoL rhoV LL LV PL PV D2 D3. unfold get_drhovecdT_xsat. rewrite LL, LV, (nonzero_pos _ PL), (nonzero_pos _ PV), molefrac_fractions.
  pose proof (total_pos _ PL) as HT.
  destruct (len2 _ _ LL) as (l0 & l1 & ->). destruct (len2 _ _ LV) as (v0 & v1 & ->).
  destruct (Hess2 T l0 l1) as (p & q & r & EL & _). destruct (Hess2 T v0 v1) as (p' & q' & r' & EV & _).
  rewrite EL, EV in *. unfold det2, cross in *. simpl in D2. rewrite !sum2 in D3. cbn [Nat.eqb negb andb Nat.ltb Nat.leb].
  set (bL := dpdT T [l0; l1]). set (bV := dpdT T [v0; v1]).
  destruct (len2 _ (dmudT T [l0; l1]) eq_refl) as (m0 & m1 & EmL). destruct (len2 _ (dmudT T [v0; v1]) eq_refl) as (n0 & n1 & EmV).
  rewrite EmL, EmV. unfold fractions in *. set (t := total [l0; l1]) in *. cbn [map]. unfold vsub, each. cbn [seq map nth repeat length] in *.
  rewrite !mat2, !vdot2. cbn [seq map nth repeat length].
  set (k := ((n0 - m0) * v0 + (n1 - m1) * v1 - (bV - bL)) /
            ((p * (v0 - l0) + q * (v1 - l1)) * (l0 / t) + (q * (v0 - l0) + r * (v1 - l1)) * (l1 / t))). exists k.
  destruct (Hs p' q' q' r' (p * (k * (l0 / t)) + q * (k * (l1 / t)) - (n0 - m0)) (q * (k * (l0 / t)) + r * (k * (l1 / t)) - (n1 - m1)) ltac:(lra))
    as (x' & y' & -> & E3 & E4).
  exists [x'; y']. split; [reflexivity|]. split; [reflexivity|]. cbv zeta. rewrite !sum2. split.
  - intros [|[|i]] Hi; [| |lia]; rewrite !sum2; simpl; lra.
  - cbn [nth]. rewrite E3, E4.
    assert (Ek : k * ((v0 - l0) * (p * l0 + q * l1) + (v1 - l1) * (q * l0 + r * l1)) = t * ((n0 - m0) * v0 + (n1 - m1) * v1 - (bV - bL))).
    { unfold k. field. split; [lra|]. intro Z. apply D3. cbn [nth]. rewrite <- Z. ring. }
    apply (Rmult_eq_reg_l t); [|lra]. field_simplify; [|lra|lra].
    lra.
Qed.

(** solutions are unique *)
Lemma system_unique : forall T rhoL rhoV dL dL' dV dV', length rhoL = 2%nat -> length rhoV = 2%nat ->
  length dL = 2%nat -> length dL' = 2%nat -> length dV = 2%nat -> length dV' = 2%nat ->
  det2 (Hess T rhoL) <> 0 -> det2 (Hess T rhoV) <> 0 -> cross rhoL rhoV <> 0 ->
  let hL d i := sumn 2 (fun j => nth j (nth i (Hess T rhoL) []) 0 * nth j d 0) in
  let hV d i := sumn 2 (fun j => nth j (nth i (Hess T rhoV) []) 0 * nth j d 0) in
  sumn 2 (fun i => nth i rhoL 0 * hL dL i) = sumn 2 (fun i => nth i rhoL 0 * hL dL' i) ->
  sumn 2 (fun i => nth i rhoV 0 * hL dL i) = sumn 2 (fun i => nth i rhoV 0 * hL dL' i) ->
  (forall i, (i < 2)%nat -> hL dL i - hV dV i = hL dL' i - hV dV' i) ->
  dL = dL' /\ dV = dV'.
Proof.
  intros T rhoL rhoV dL dL' dV dV' LL LV A1 A2 A3 A4 D1 D2 D3 hL hV. unfold hL, hV.
  destruct (len2 _ _ LL) as (l0 & l1 & ->). destruct (len2 _ _ LV) as (v0 & v1 & ->).
  destruct (Hess2 T l0 l1) as (p & q & r & EL & _). destruct (Hess2 T v0 v1) as (p' & q' & r' & EV & _).
  rewrite EL, EV in *. unfold det2, cross in *. simpl in D1, D2, D3.
  destruct (len2 _ _ A1) as (x & y & ->). destruct (len2 _ _ A2) as (x1 & y1 & ->).
  destruct (len2 _ _ A3) as (z & w & ->). destruct (len2 _ _ A4) as (z1 & w1 & ->).
  intros E1 E2 E3. pose proof (E3 0%nat ltac:(lia)) as E4. pose proof (E3 1%nat ltac:(lia)) as E5. rewrite !sum2 in *. cbn [nth] in *.
  assert (U0 : p * (x - x1) + q * (y - y1) = 0).
  { apply (Rmult_eq_reg_l (l0 * v1 - l1 * v0)); auto. rewrite Rmult_0_r.
    transitivity (v1 * ((l0 * (p * x + q * y) + l1 * (q * x + r * y)) - (l0 * (p * x1 + q * y1) + l1 * (q * x1 + r * y1))) -
                  l1 * ((v0 * (p * x + q * y) + v1 * (q * x + r * y)) - (v0 * (p * x1 + q * y1) + v1 * (q * x1 + r * y1)))); [ring|].
    rewrite E1, E2. ring. }
  assert (U1 : q * (x - x1) + r * (y - y1) = 0).
  { apply (Rmult_eq_reg_l (l0 * v1 - l1 * v0)); auto. rewrite Rmult_0_r.
    transitivity (l0 * ((v0 * (p * x + q * y) + v1 * (q * x + r * y)) - (v0 * (p * x1 + q * y1) + v1 * (q * x1 + r * y1))) -
                  v0 * ((l0 * (p * x + q * y) + l1 * (q * x + r * y)) - (l0 * (p * x1 + q * y1) + l1 * (q * x1 + r * y1)))); [ring|].
    rewrite E1, E2. ring. }
  assert (K : forall P Q R' a b, P * R' - Q * Q <> 0 -> P * a + Q * b = 0 -> Q * a + R' * b = 0 -> a = 0 /\ b = 0).
  { intros P Q R' a b H F1 F2. split; apply (Rmult_eq_reg_l (P * R' - Q * Q)); auto; rewrite Rmult_0_r.
    - transitivity (R' * (P * a + Q * b) - Q * (Q * a + R' * b)); [ring|rewrite F1, F2; ring].
    - transitivity (P * (Q * a + R' * b) - Q * (P * a + Q * b)); [ring|rewrite F1, F2; ring]. }
  destruct (K _ _ _ _ _ D1 U0 U1) as (X & Y).
  assert (Ex : x = x1) by lra. assert (Ey : y = y1) by lra. subst x1 y1.
  destruct (K p' q' r' (z - z1) (w - w1) D2 ltac:(lra) ltac:(lra)) as (Z & W).
  split; [reflexivity|]. f_equal; [lra|]. f_equal. lra.
Qed.

(** pressure along an isopleth *)
Lemma dpdT_Z : forall T rho, 0 < T -> positive rho -> smooth T rho ->
  dpdT T rho = Rg * total rho * (1 + get_Agenxy ad alphar 0 1 T (total rho) (fractions rho) -
    get_Agenxy ad alphar 1 1 T (total rho) (fractions rho)).
Proof.
  intros T rho HT P Sm. pose proof (smooth_joint_T _ _ Sm) as ST. pose proof ST as (G & dF & dG & L & DF & DG). pose proof (total_pos rho P) as Hp.
  pose proof (dpdT_ok ad Had alphar Rgas Rg HR ltac:(lra) T rho HT P ST) as D1.
  pose proof (Ar01_T ad Had alphar Rgas Rg HR ltac:(lra) T rho HT P ST) as DA.
  assert (D2 : is_derive (fun t => p_of alphar Rgas t rho) T (Rg * total rho * (1 + get_Agenxy ad alphar 0 1 T (total rho) (fractions rho) -
    get_Agenxy ad alphar 1 1 T (total rho) (fractions rho)))).
  { apply (is_derive_loc (fun t => Rg * total rho * (t * (1 + get_Agenxy ad alphar 0 1 t (total rho) (fractions rho))))).
    - eapply filter_imp; [|apply (filter_and _ _ (locally_pos T HT) L)]. intros t (Ht & Lt).
      assert (HRT : Rgas (fractions rho) * t <> 0) by (rewrite HR; apply Rmult_integral_contrapositive; split; auto; lra).
      rewrite (Ar01_ok ad Had alphar Rgas t rho (G t) P HRT Lt), (p_of_ok alphar Rgas t rho (G t) P HRT Lt), HR. field. repeat split; lra.
    - eapply is_derive_eq; [|apply is_derive_lin, (is_derive_mult' (fun t => t)); [apply is_derive_id'|apply is_derive_plus'; [apply is_derive_cst|exact DA]]].
      eqR. field. lra. }
  pose proof (is_derive_unique _ _ _ D1) as U1. pose proof (is_derive_unique _ _ _ D2) as U2. now rewrite <- U1, <- U2.
Qed.
Lemma isopleth_slope : forall T rhoL rhoV k dV tau c, length rhoL = 2%nat -> positive rhoL -> smooth T rhoL -> 0 < T ->
  get_drhovecdT_xsat ad alphar Rgas solve T rhoL rhoV = Some (Val (map (Rmult k) (fractions rhoL), dV)) ->
  path T rhoL 1 (map (Rmult k) (fractions rhoL)) tau c ->
  exists v, get_dpsat_dTsat_isopleth ad alphar Rgas solve T rhoL rhoV = Some (Val v) /\
    is_derive (fun s => p_of alphar Rgas (tau s) (c s)) 0 v.
Proof.
  intros T rhoL rhoV k dV tau c LL P Sm HT E Pa. unfold get_dpsat_dTsat_isopleth. rewrite E. eexists. split; [reflexivity|].
  pose proof (total_pos _ P) as Hp.
  eapply is_derive_eq; [|apply (p_along _ _ _ _ _ _ Pa Sm HT (total_pos _ P))].
  rewrite !vsum_total, molefrac_fractions, HR.
  change (nth 1 (get_Agen0n ad alphar 2 T (total rhoL) (fractions rhoL)) 0) with (get_Agenxy ad alphar 0 1 T (total rhoL) (fractions rhoL)).
  change (nth 2 (get_Agen0n ad alphar 2 T (total rhoL) (fractions rhoL)) 0) with (get_Agenxy ad alphar 0 2 T (total rhoL) (fractions rhoL)).
  destruct (smooth_joint_rho _ _ Sm) as (G & H & Tw).
  rewrite (Ar0n_ok ad Had alphar Rgas Rg HR ltac:(lra) T rhoL G H ltac:(lra) P Tw), (dpdT_Z T rhoL HT P Sm).
  rewrite (total_scale k (fractions rhoL)), total_fractions by lra.
  unfold get_dpdrhovec_constT. rewrite HR. pose proof (total_fractions rhoL ltac:(lra)) as TF. revert TF.
  destruct (len2 _ (fractions rhoL)) as (x & y & ->); [now rewrite fractions_length|].
  destruct (len2 _ _ LL) as (l0 & l1 & ->). intro TF. unfold total in TF. cbn [length] in *. rewrite sum2 in TF. cbn [nth] in TF.
  destruct (Hess2 T l0 l1) as (p & q & r & _ & EH). rewrite EH, mat2. cbn [length map]. rewrite !sum2. cbn [nth].
  set (A := Rg * total [l0; l1] * _). replace y with (1 - x) by lra. ring.
Qed.

(** ** Three phases *)
Lemma VLLE_system : forall T rhoV rho1 rho2, length rhoV = 2%nat -> length rho1 = 2%nat -> length rho2 = 2%nat ->
  det2 (Hess T rhoV) <> 0 -> det2 (Hess T rho1) <> 0 -> det2 (Hess T rho2) <> 0 ->
  cross (vsub rho1 rhoV) (vsub rho2 rhoV) <> 0 ->
  exists dV d1 d2, get_drhovecdT_VLLE_binary ad alphar Rgas solve T rhoV rho1 rho2 = Some (dV, d1, d2) /\
    length dV = 2%nat /\ length d1 = 2%nat /\ length d2 = 2%nat /\
    let h rho d i := sumn 2 (fun j => nth j (nth i (Hess T rho) []) 0 * nth j d 0) + nth i (dmudT T rho) 0 in
    let dp rho d := sumn 2 (fun i => nth i rho 0 * sumn 2 (fun j => nth j (nth i (Hess T rho) []) 0 * nth j d 0)) + dpdT T rho in
    (forall i, (i < 2)%nat -> h rhoV dV i = h rho1 d1 i /\ h rhoV dV i = h rho2 d2 i) /\
    dp rhoV dV = dp rho1 d1 /\ dp rhoV dV = dp rho2 d2.
Proof.
  intros T rhoV rho1 rho2 LV L1 L2 DV D1 D2 D3. unfold get_drhovecdT_VLLE_binary. rewrite LV, L1, L2. cbn [Nat.eqb negb andb].
  destruct (len2 _ _ LV) as (v0 & v1 & ->). destruct (len2 _ _ L1) as (a0 & a1 & ->). destruct (len2 _ _ L2) as (b0 & b1 & ->).
  destruct (Hess2 T v0 v1) as (p & q & r & EV & _). destruct (Hess2 T a0 a1) as (p1 & q1 & r1 & E1 & _). destruct (Hess2 T b0 b1) as (p2 & q2 & r2 & E2 & _).
  rewrite EV, E1, E2 in *. unfold det2, cross, vsub, each in *. cbn [seq map nth length] in *.
  assert (Em : forall x y, exists m0 m1, build_d2PsirdTdrhoi ad alphar Rgas T [x; y] = [m0; m1] /\
    dmudT T [x; y] = [m0 + Rg * (1 + ln x); m1 + Rg * (1 + ln y)]).
  { intros x y. destruct (len2 _ (build_d2PsirdTdrhoi ad alphar Rgas T [x; y]) eq_refl) as (m0 & m1 & E). exists m0, m1. split; auto.
    unfold get_dchempotdT, each. rewrite E, HR. cbn [seq map nth length]. unfold Rdiv. now rewrite Rinv_1, !Rmult_1_r. }
  destruct (Em v0 v1) as (m0 & m1 & F0 & G0). destruct (Em a0 a1) as (m2 & m3 & F1 & G1). destruct (Em b0 b1) as (m4 & m5 & F2 & G2).
  rewrite F0, F1, F2, G0, G1, G2, !HR. clear Em F0 F1 F2 G0 G1 G2. cbn [seq map nth length].
  set (bV := dpdT T [v0; v1]). set (c1 := dpdT T [a0; a1]). set (c2 := dpdT T [b0; b1]).
  rewrite !mat2, !vdot2.
  set (s1 := m2 + Rg * ln a0 - (m0 + Rg * ln v0)). set (s2 := m3 + Rg * ln a1 - (m1 + Rg * ln v1)).
  set (s3 := m4 + Rg * ln b0 - (m0 + Rg * ln v0)). set (s4 := m5 + Rg * ln b1 - (m1 + Rg * ln v1)).
  destruct (Hs (p * (a0 - v0) + q * (a1 - v1)) (q * (a0 - v0) + r * (a1 - v1)) (p * (b0 - v0) + q * (b1 - v1)) (q * (b0 - v0) + r * (b1 - v1))
    (s1 * a0 + s2 * a1 - (c1 - bV)) (s3 * b0 + s4 * b1 - (c2 - bV))) as (x & y & -> & H1 & H2).
  { replace (_ - _) with ((p * r - q * q) * ((a0 - v0) * (b1 - v1) - (a1 - v1) * (b0 - v0))) by ring.
    apply Rmult_integral_contrapositive. auto. }
  rewrite mat2. cbn [seq map nth length].
  destruct (Hs p1 q1 q1 r1 (p * x + q * y - s1) (q * x + r * y - s2) ltac:(lra)) as (x1 & y1 & -> & H3 & H4).
  destruct (Hs p2 q2 q2 r2 (p * x + q * y - s3) (q * x + r * y - s4) ltac:(lra)) as (x2 & y2 & -> & H5 & H6).
  exists [x; y], [x1; y1], [x2; y2]. cbv zeta. repeat split.
  - destruct i as [|[|i]]; [| |lia]; rewrite !sum2; cbn [nth]; [rewrite H3; unfold s1; ring|rewrite H4; unfold s2; ring].
  - destruct i as [|[|i]]; [| |lia]; rewrite !sum2; cbn [nth]; [rewrite H5; unfold s3; ring|rewrite H6; unfold s4; ring].
  - rewrite !sum2. cbn [nth]. rewrite H3, H4. fold bV c1. lra.
  - rewrite !sum2. cbn [nth]. rewrite H5, H6. fold bV c2. lra.
Qed.

(** ** Infinite dilution *)
Lemma fug_along : forall T rho dT drho tau c j, path T rho dT drho tau c -> smooth T rho -> 0 < T -> (j < length rho)%nat ->
  nth j rho 0 = 0 ->
  is_derive (fun s => nth j (c s) 0 * exp (nth j (mur (tau s) (c s)) 0 / (Rg * tau s))) 0
    (nth j drho 0 * exp (nth j (mur T rho) 0 / (Rg * T))).
Proof.
  intros T rho dT drho tau c j P Sm HT Hj Z. pose proof (mur_along _ _ _ _ _ _ j P Sm Hj) as D.
  pose proof (path_dT _ _ _ _ _ _ P) as Dt. pose proof (path_drho _ _ _ _ _ _ P j Hj) as Dr.
  set (m := sumn _ _ + _) in D.
  assert (De : exists e, is_derive (fun s => exp (nth j (mur (tau s) (c s)) 0 / (Rg * tau s))) 0 e).
  { assert (Dq : is_derive (fun s => nth j (mur (tau s) (c s)) 0 / (Rg * tau s)) 0
      ((m * (Rg * tau 0) - nth j (mur (tau 0) (c 0)) 0 * (Rg * dT)) / (Rg * tau 0) ^ 2)).
    { apply (is_derive_div (fun s => nth j (mur (tau s) (c s)) 0) (fun s => Rg * tau s)); [exact D|apply is_derive_lin; exact Dt|].
      rewrite (path_T _ _ _ _ _ _ P). apply Rmult_integral_contrapositive; split; lra. }
    eexists. apply (is_derive_comp exp (fun s => nth j (mur (tau s) (c s)) 0 / (Rg * tau s)) 0); [apply is_derive_exp|exact Dq]. }
  destruct De as (e & De).
  eapply is_derive_eq; [|apply (is_derive_mult' _ _ _ _ _ Dr De)].
  eqR. rewrite (path_rho _ _ _ _ _ _ P), (path_T _ _ _ _ _ _ P), Z. ring.
Qed.
Lemma is0_0 : is0 0 = true.
Proof. unfold is0. destruct (Req_EM_T 0 0); [reflexivity|lra]. Qed.
Lemma is0_pos : forall x, 0 < x -> is0 x = false.
Proof. intros x H. unfold is0. destruct (Req_EM_T x 0); [lra|reflexivity]. Qed.

(** [j] is the infinitely diluted component, [o] the other one *)
Definition diluted (j o : nat) (rho : list R) : Prop :=
  length rho = 2%nat /\ nth j rho 0 = 0 /\ 0 < nth o rho 0.
Definition K_of (T : R) (rhoL rhoV : list R) (j : nat) : R :=
  exp ((nth j (mur T rhoL) 0 - nth j (mur T rhoV) 0) / (Rg * T)).
Lemma K_exp : forall T a b, 0 < T -> exp (- (b - a) / (Rg * T)) = exp ((a - b) / (Rg * T)).
Proof. intros. f_equal. field. split; lra. Qed.

Lemma isotherm_dilute : forall T rhoL rhoV j o, 0 < T -> ((j = 0 /\ o = 1) \/ (j = 1 /\ o = 0))%nat ->
  diluted j o rhoL -> diluted j o rhoV ->
  nth o (nth o (Hess T rhoL) []) 0 <> 0 -> nth o (nth o (Hess T rhoV) []) 0 <> 0 ->
  K_of T rhoL rhoV j * nth o rhoL 0 <> nth o rhoV 0 ->
  exists dL dV, get_drhovecdp_Tsat ad alphar Rgas solve T rhoL rhoV = Some (Val (dL, dV)) /\
    length dL = 2%nat /\ length dV = 2%nat /\
    nth j dV 0 = K_of T rhoL rhoV j * nth j dL 0 /\
    sumn 2 (fun k => nth k (nth o (Hess T rhoL) []) 0 * nth k dL 0) = sumn 2 (fun k => nth k (nth o (Hess T rhoV) []) 0 * nth k dV 0) /\
    nth o rhoL 0 * sumn 2 (fun k => nth k (nth o (Hess T rhoL) []) 0 * nth k dL 0) + Rg * T * nth j dL 0 = 1 /\
    nth o rhoV 0 * sumn 2 (fun k => nth k (nth o (Hess T rhoV) []) 0 * nth k dV 0) + Rg * T * nth j dV 0 = 1.
Proof.
  intros T rhoL rhoV j o HT Hjo (LL & ZL & PL) (LV & ZV & PV) D1 D2 D3.
  assert (HRT : Rg * T <> 0) by (apply Rmult_integral_contrapositive; split; lra).
  unfold get_drhovecdp_Tsat. rewrite LL, LV.
  unfold dilute_A, starL, starV, fixed_dot, only_vapor_zero, all_nonzero. rewrite LL, !HR.
  pose proof (K_exp T (nth j (mur T rhoL) 0) (nth j (mur T rhoV) 0) HT) as EK. fold (K_of T rhoL rhoV j) in EK.
  assert (KP : 0 < K_of T rhoL rhoV j) by (unfold K_of; apply exp_pos). set (K := K_of T rhoL rhoV j) in *. clearbody K.
  destruct (len2 _ rhoL LL) as (l0 & l1 & ->); destruct (len2 _ rhoV LV) as (v0 & v1 & ->).
  destruct (Hess2 T l0 l1) as (p & q & r & EL & _). destruct (Hess2 T v0 v1) as (p' & q' & r' & EV & _).
  rewrite EL, EV in *. clear EL EV.
  destruct Hjo as [(-> & ->)|(-> & ->)]; cbn [nth] in *; try (subst l0 v0); try (subst l1 v1); cbn [forallb existsb seq nth length Nat.eqb negb andb repeat];
    rewrite ?is0_0, ?(is0_pos _ PL), ?(is0_pos _ PV); cbn [andb orb negb map];
    unfold row, each, vsum; cbn [nth seq map length Nat.eqb fold_right negb andb orb]; rewrite ?is0_0, ?(is0_pos _ PL), ?(is0_pos _ PV), ?EK; cbn [andb orb negb]; rewrite ?vdot2.
  - destruct (Hs (Rg * T * K + (q * v1 + 0)) (q * 0 + r * v1) (Rg * T + (q * l1 + 0)) (q * 0 + r * l1) 1 1) as (x & y & -> & E1 & E2).
    { replace (_ - _) with (Rg * T * r * (K * l1 - v1)) by ring. repeat apply Rmult_integral_contrapositive_currified; lra. }
    rewrite mat2.
    destruct (Hs (Rg * T / K) (0 * q') (l1 * q') (l1 * r') (Rg * T * x + 0 * q * y) (l1 * q * x + l1 * r * y)) as (x' & y' & -> & E3 & E4).
    { replace (_ - _) with (Rg * T * / K * (l1 * r')) by (field; lra). repeat apply Rmult_integral_contrapositive_currified; try lra. apply Rinv_neq_0_compat. lra. }
    exists [x; y], [x'; y']. rewrite !sum2. cbn [nth length].
    assert (X : x' = K * x).
    { apply (Rmult_eq_reg_l (Rg * T / K)); [|unfold Rdiv; repeat apply Rmult_integral_contrapositive_currified; try lra; apply Rinv_neq_0_compat; lra].
      transitivity (Rg * T * x); [lra|field; lra]. }
    assert (Y : q * x + r * y = q' * x' + r' * y') by (apply (Rmult_eq_reg_l l1); lra).
    repeat split; auto; try lra. rewrite <- Y, X. lra.
  - destruct (Hs (p * v0 + q * 0) (q * v0 + (Rg * T * K + 0)) (p * l0 + q * 0) (q * l0 + (Rg * T + 0)) 1 1) as (x & y & -> & E1 & E2).
    { replace (_ - _) with (- (Rg * T * p * (K * l0 - v0))) by ring. apply Ropp_neq_0_compat. repeat apply Rmult_integral_contrapositive_currified; lra. }
    rewrite mat2.
    destruct (Hs (l0 * p') (l0 * q') (0 * q') (Rg * T / K) (l0 * p * x + l0 * q * y) (0 * q * x + Rg * T * y)) as (x' & y' & -> & E3 & E4).
    { replace (_ - _) with (Rg * T * / K * (l0 * p')) by (field; lra). repeat apply Rmult_integral_contrapositive_currified; try lra. apply Rinv_neq_0_compat. lra. }
    exists [x; y], [x'; y']. rewrite !sum2. cbn [nth length].
    assert (X : y' = K * y).
    { apply (Rmult_eq_reg_l (Rg * T / K)); [|unfold Rdiv; repeat apply Rmult_integral_contrapositive_currified; try lra; apply Rinv_neq_0_compat; lra].
      transitivity (Rg * T * y); [lra|field; lra]. }
    assert (Y : p * x + q * y = p' * x' + q' * y') by (apply (Rmult_eq_reg_l l0); lra).
    repeat split; auto; try lra. rewrite <- Y, X. lra.
Qed.

Lemma isobar_dilute : forall T rhoL rhoV j o, 0 < T -> ((j = 0 /\ o = 1) \/ (j = 1 /\ o = 0))%nat ->
  diluted j o rhoL -> diluted j o rhoV ->
  nth o (nth o (Hess T rhoL) []) 0 <> 0 -> nth o (nth o (Hess T rhoV) []) 0 <> 0 ->
  K_of T rhoL rhoV j * nth o rhoL 0 <> nth o rhoV 0 ->
  exists dL dV, get_drhovecdT_psat ad alphar Rgas solve T rhoL rhoV = Some (Val (dL, dV)) /\
    length dL = 2%nat /\ length dV = 2%nat /\
    nth j dV 0 = K_of T rhoL rhoV j * nth j dL 0 /\
    sumn 2 (fun k => nth k (nth o (Hess T rhoL) []) 0 * nth k dL 0) + nth o (dmudT T rhoL) 0 =
    sumn 2 (fun k => nth k (nth o (Hess T rhoV) []) 0 * nth k dV 0) + nth o (dmudT T rhoV) 0 /\
    nth o rhoL 0 * sumn 2 (fun k => nth k (nth o (Hess T rhoL) []) 0 * nth k dL 0) + Rg * T * nth j dL 0 + dpdT T rhoL = 0 /\
    nth o rhoV 0 * sumn 2 (fun k => nth k (nth o (Hess T rhoV) []) 0 * nth k dV 0) + Rg * T * nth j dV 0 + dpdT T rhoV = 0.
Proof.
  intros T rhoL rhoV j o HT Hjo (LL & ZL & PL) (LV & ZV & PV) D1 D2 D3.
  assert (HRT : Rg * T <> 0) by (apply Rmult_integral_contrapositive; split; lra).
  unfold get_drhovecdT_psat. rewrite LL, LV.
  unfold dilute_A, starL, starV, fixed_dot, only_vapor_zero, only_liquid_zero, all_nonzero. rewrite LL, !HR.
  pose proof (K_exp T (nth j (mur T rhoL) 0) (nth j (mur T rhoV) 0) HT) as EK. fold (K_of T rhoL rhoV j) in EK.
  assert (KP : 0 < K_of T rhoL rhoV j) by (unfold K_of; apply exp_pos). set (K := K_of T rhoL rhoV j) in *. clearbody K.
  set (bL := dpdT T rhoL). set (bV := dpdT T rhoV). unfold get_dchempotdT. rewrite !each_nth, !HR by (destruct Hjo as [(-> & ->)|(-> & ->)]; lia).
  destruct (len2 _ (build_d2PsirdTdrhoi ad alphar Rgas T rhoL)) as (m0 & m1 & EmL); [unfold build_d2PsirdTdrhoi; now rewrite each_length|].
  destruct (len2 _ (build_d2PsirdTdrhoi ad alphar Rgas T rhoV)) as (n0 & n1 & EmV); [unfold build_d2PsirdTdrhoi; now rewrite each_length|].
  rewrite EmL, EmV. clearbody bL bV.
  assert (LN : ln (nth o rhoV 0 / nth o rhoL 0) = ln (nth o rhoV 0) - ln (nth o rhoL 0)) by (now apply Rcomplements.ln_div).
  destruct (len2 _ rhoL LL) as (l0 & l1 & ->); destruct (len2 _ rhoV LV) as (v0 & v1 & ->).
  destruct (Hess2 T l0 l1) as (p & q & r & EL & _). destruct (Hess2 T v0 v1) as (p' & q' & r' & EV & _).
  rewrite EL, EV in *. clear EL EV EmL EmV.
  destruct Hjo as [(-> & ->)|(-> & ->)]; cbn [nth] in *; try (subst l0 v0); try (subst l1 v1); cbn [forallb existsb seq nth length Nat.eqb negb andb repeat];
    rewrite ?is0_0, ?(is0_pos _ PL), ?(is0_pos _ PV); cbn [andb orb negb map];
    unfold row, each, vsum, vsub, each; cbn [nth seq map length Nat.eqb fold_right negb andb orb]; rewrite ?is0_0, ?(is0_pos _ PL), ?(is0_pos _ PV), ?EK; cbn [andb orb negb]; rewrite ?vdot2.
  - rewrite LN. replace (ln (v1 / 1)) with (ln v1) by (f_equal; field). replace (ln (l1 / 1)) with (ln l1) by (f_equal; field). set (W := ln v1) in *. set (U := ln l1) in *.
    match goal with |- context [solve [[?a; ?b]; [?c; ?d]] [?e; ?f]] => destruct (Hs a b c d e f) as (x & y & -> & E1 & E2) end.
    { replace (_ - _) with (Rg * T * r * (K * l1 - v1)) by ring. repeat apply Rmult_integral_contrapositive_currified; lra. }
    rewrite mat2. cbn [nth seq map length].
    match goal with |- context [solve [[?a; ?b]; [?c; ?d]] [?e; ?f]] => destruct (Hs a b c d e f) as (x' & y' & -> & E3 & E4) end.
    { replace (_ - _) with (Rg * T * / K * (l1 * r')) by (field; lra). repeat apply Rmult_integral_contrapositive_currified; try lra. apply Rinv_neq_0_compat. lra. }
    exists [x; y], [x'; y']. rewrite !sum2. cbn [nth length].
    assert (X : x' = K * x).
    { apply (Rmult_eq_reg_l (Rg * T / K)); [|unfold Rdiv; repeat apply Rmult_integral_contrapositive_currified; try lra; apply Rinv_neq_0_compat; lra].
      transitivity (Rg * T * x); [lra|field; lra]. }
    assert (Y : q * x + r * y - (n1 - m1 + Rg * (W - U)) = q' * x' + r' * y') by (apply (Rmult_eq_reg_l l1); lra).
    repeat split; auto; try lra. rewrite <- Y, X. lra.
  - rewrite LN. replace (ln (v0 / 1)) with (ln v0) by (f_equal; field). replace (ln (l0 / 1)) with (ln l0) by (f_equal; field). set (W := ln v0) in *. set (U := ln l0) in *.
    match goal with |- context [solve [[?a; ?b]; [?c; ?d]] [?e; ?f]] => destruct (Hs a b c d e f) as (x & y & -> & E1 & E2) end.
    { replace (_ - _) with (- (Rg * T * p * (K * l0 - v0))) by ring. apply Ropp_neq_0_compat. repeat apply Rmult_integral_contrapositive_currified; lra. }
    rewrite mat2. cbn [nth seq map length].
    match goal with |- context [solve [[?a; ?b]; [?c; ?d]] [?e; ?f]] => destruct (Hs a b c d e f) as (x' & y' & -> & E3 & E4) end.
    { replace (_ - _) with (Rg * T * / K * (l0 * p')) by (field; lra). repeat apply Rmult_integral_contrapositive_currified; try lra. apply Rinv_neq_0_compat. lra. }
    exists [x; y], [x'; y']. rewrite !sum2. cbn [nth length].
    assert (X : y' = K * y).
    { apply (Rmult_eq_reg_l (Rg * T / K)); [|unfold Rdiv; repeat apply Rmult_integral_contrapositive_currified; try lra; apply Rinv_neq_0_compat; lra].
      transitivity (Rg * T * y); [lra|field; lra]. }
    assert (Y : p * x + q * y - (n0 - m0 + Rg * (W - U)) = p' * x' + q' * y') by (apply (Rmult_eq_reg_l l0); lra).
    repeat split; auto; try lra. rewrite <- Y, X. lra.
Qed.
End P.
