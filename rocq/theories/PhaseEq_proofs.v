(** Proofs for C25. *)
From Coq Require Import Reals ZArith List Bool Lia Lra.
From Coquelicot Require Import Coquelicot.
From Verif Require Import Json_model Derivs_model Derivs_spec Derivs_proofs Derivs_proofs2 Pure_proofs
  Vec_spec Vec_proofs Iso_model Iso_spec Iso_proofs Trace_spec Trace_proofs PhaseEq_model PhaseEq_spec.
Import ListNotations.
Open Scope R_scope.

(** ** Total derivatives of functions of (T, rho) along paths *)
Section Ders.
Variable T : R.
Variable rho : list R.
Definition ders (f : R -> list R -> R) (fT : R) (fr : nat -> R) : Prop :=
  forall dT d tau c, path T rho dT d tau c ->
    is_derive (fun s => f (tau s) (c s)) 0 (dT * fT + sumn (length rho) (fun i => fr i * nth i d 0)).
Lemma ders_eq : forall f fT fr fT' fr', fT = fT' -> (forall i, (i < length rho)%nat -> fr i = fr' i) -> ders f fT fr -> ders f fT' fr'.
Proof.
  intros f fT fr fT' fr' -> E D dT d tau c P. eapply is_derive_eq; [|apply (D _ _ _ _ P)].
  f_equal. apply sumn_ext. intros i Hi. now rewrite E.
Qed.
Lemma ders_loc : forall f g fT fr, (forall dT d tau c, path T rho dT d tau c -> locally 0 (fun s => g (tau s) (c s) = f (tau s) (c s))) ->
  ders f fT fr -> ders g fT fr.
Proof. intros f g fT fr L D dT d tau c P. apply (is_derive_loc (fun s => f (tau s) (c s))); [apply (L _ _ _ _ P)|apply (D _ _ _ _ P)]. Qed.
Lemma ders_ext : forall f g fT fr, (forall t y, length y = length rho -> g t y = f t y) -> ders f fT fr -> ders g fT fr.
Proof.
  intros f g fT fr L. apply ders_loc. intros dT d tau c P. apply filter_forall. intro s. apply L, (path_len _ _ _ _ _ _ P).
Qed.
Lemma ders_cst : forall k, ders (fun _ _ => k) 0 (fun _ => 0).
Proof.
  intros k dT d tau c P. eapply is_derive_eq; [|apply is_derive_cst]. rewrite sumn_0; [ring|intros; ring].
Qed.
Lemma ders_T : ders (fun t _ => t) 1 (fun _ => 0).
Proof. intros dT d tau c P. eapply is_derive_eq; [|apply (path_dT _ _ _ _ _ _ P)]. rewrite sumn_0; [ring|intros; ring]. Qed.
Lemma ders_rho : forall i, (i < length rho)%nat -> ders (fun _ y => nth i y 0) 0 (fun j => if Nat.eqb j i then 1 else 0).
Proof.
  intros i Hi dT d tau c P. eapply is_derive_eq; [|apply (path_drho _ _ _ _ _ _ P i Hi)].
  rewrite <- (sumn_delta (length rho) i (fun k => nth k d 0) Hi), Rmult_0_r, Rplus_0_l. apply sumn_ext. intros j Hj. destruct (Nat.eqb j i); ring.
Qed.
Lemma ders_plus : forall f g fT fr gT gr, ders f fT fr -> ders g gT gr -> ders (fun t y => f t y + g t y) (fT + gT) (fun i => fr i + gr i).
Proof.
  intros f g fT fr gT gr A B dT d tau c P. eapply is_derive_eq; [|apply is_derive_plus'; [apply (A _ _ _ _ P)|apply (B _ _ _ _ P)]].
  rewrite (sumn_ext _ (fun i => (fr i + gr i) * nth i d 0) (fun i => fr i * nth i d 0 + gr i * nth i d 0)) by (intros; ring). rewrite sumn_plus. eqR. ring.
Qed.
Lemma ders_scal : forall k f fT fr, ders f fT fr -> ders (fun t y => k * f t y) (k * fT) (fun i => k * fr i).
Proof.
  intros k f fT fr A dT d tau c P. eapply is_derive_eq; [|apply is_derive_lin, (A _ _ _ _ P)].
  rewrite (sumn_ext _ (fun i => k * fr i * nth i d 0) (fun i => k * (fr i * nth i d 0))) by (intros; ring). rewrite sumn_scal. eqR. ring.
Qed.
Lemma ders_minus : forall f g fT fr gT gr, ders f fT fr -> ders g gT gr -> ders (fun t y => f t y - g t y) (fT - gT) (fun i => fr i - gr i).
Proof.
  intros f g fT fr gT gr A B. eapply ders_eq; [| |eapply ders_ext; [|apply (ders_plus _ _ _ _ _ _ A (ders_scal (-1) _ _ _ B))]].
  - ring.
  - intros; cbv beta; ring.
  - intros; cbv beta; ring.
Qed.
Lemma ders_mult : forall f g fT fr gT gr, ders f fT fr -> ders g gT gr ->
  ders (fun t y => f t y * g t y) (fT * g T rho + f T rho * gT) (fun i => fr i * g T rho + f T rho * gr i).
Proof.
  intros f g fT fr gT gr A B dT d tau c P.
  eapply is_derive_eq; [|apply (is_derive_mult' (fun s => f (tau s) (c s)) (fun s => g (tau s) (c s))); [apply (A _ _ _ _ P)|apply (B _ _ _ _ P)]].
  rewrite (path_T _ _ _ _ _ _ P), (path_rho _ _ _ _ _ _ P).
  rewrite (sumn_ext _ (fun i => (fr i * g T rho + f T rho * gr i) * nth i d 0)
    (fun i => g T rho * (fr i * nth i d 0) + f T rho * (gr i * nth i d 0))) by (intros; ring).
  rewrite sumn_plus, !sumn_scal. eqR. ring.
Qed.
Lemma ders_comp : forall (h : R -> R) (h' : R) (f : R -> list R -> R) fT fr, is_derive h (f T rho) h' -> ders f fT fr ->
  ders (fun t y => h (f t y)) (h' * fT) (fun i => h' * fr i).
Proof.
  intros h h' f fT fr D A dT d tau c P.
  eapply is_derive_eq; [|apply (is_derive_comp h (fun s => f (tau s) (c s)) 0 h' (dT * fT + sumn (length rho) (fun i => fr i * nth i d 0))); [|apply (A _ _ _ _ P)]].
  - rewrite (sumn_ext _ (fun i => h' * fr i * nth i d 0) (fun i => h' * (fr i * nth i d 0))) by (intros; ring). rewrite sumn_scal.
    change (@eq R ((dT * fT + sumn (length rho) (fun i => fr i * nth i d 0)) * h') (dT * (h' * fT) + h' * sumn (length rho) (fun i => fr i * nth i d 0))). ring.
  - now rewrite (path_T _ _ _ _ _ _ P), (path_rho _ _ _ _ _ _ P).
Qed.
Lemma ders_inv : forall f fT fr, f T rho <> 0 -> ders f fT fr ->
  ders (fun t y => / f t y) (- / (f T rho) ^ 2 * fT) (fun i => - / (f T rho) ^ 2 * fr i).
Proof.
  intros f fT fr H A. apply (ders_comp Rinv (- / (f T rho) ^ 2) f fT fr); auto.
  eapply is_derive_eq; [|apply (is_derive_inv (fun x => x) (f T rho) 1 (is_derive_id' _) H)]. eqR. field. auto.
Qed.
Lemma ders_sumn : forall n (f : nat -> R -> list R -> R) fT fr, (forall k, (k < n)%nat -> ders (f k) (fT k) (fr k)) ->
  ders (fun t y => sumn n (fun k => f k t y)) (sumn n fT) (fun i => sumn n (fun k => fr k i)).
Proof.
  induction n as [|n IH]; intros f fT fr H; simpl.
  - apply ders_cst.
  - apply ders_plus; [apply IH; auto|apply H; lia].
Qed.
Lemma ders_total : ders (fun _ y => total y) 0 (fun _ => 1).
Proof.
  intros dT d tau c P. eapply is_derive_eq; [|apply (total_along _ _ _ _ _ _ P)]. rewrite Rmult_0_r, Rplus_0_l. apply sumn_ext. intros; ring.
Qed.
End Ders.

Section Phase.
Variable ad : (list R -> R) -> list nat -> list R -> R.
Hypothesis Had : AD_exact ad.
Variable alphar : R -> R -> list R -> R.
Variable Rgas : list R -> R.
Variable Rg : R.
Hypothesis HR : forall x, Rgas x = Rg.
Hypothesis HR0 : 0 < Rg.
Notation Psir := (Psi_r alphar Rgas).
Notation F := (fun y => Psi_r alphar Rgas (hd 0 y) (tl y)).

(** *** temperature derivatives from the reduced ones *)
Lemma alphar_Psi : forall t y, 0 < t -> 0 < total y -> alphar t (total y) (fractions y) = Psir t y / (total y * Rg * t).
Proof. intros t y Ht Hy. unfold Psi_r. rewrite HR. field. repeat split; lra. Qed.
Lemma Ar10_ok : forall t y l, 0 < t -> 0 < total y -> is_derive (fun t => Psir t y) t l ->
  total y * Rg * (- get_Agenxy ad alphar 1 0 t (total y) (fractions y)) + Psir t y / t = l.
Proof.
  intros t y l Ht Hy D. unfold get_Agenxy.
  assert (E : is_derive (fun u => alphar (1 / u) (total y) (fractions y)) (1 / t) ((Psir t y - l * t) / (total y * Rg))).
  { apply (is_derive_loc (fun u => u * (/ (total y * Rg)) * Psir (1 / u) y)).
    - eapply filter_imp; [|apply (locally_pos (1 / t)), recip_pos; auto]. intros u Hu. rewrite alphar_Psi by (auto; now apply recip_pos).
      eqR. field. repeat split; lra.
    - eapply is_derive_eq; [|apply (is_derive_mult' (fun u => u * (/ (total y * Rg))) (fun u => Psir (1 / u) y))].
      2: { eapply is_derive_eq; [|apply is_derive_mult'; [apply is_derive_id'|apply is_derive_cst]]. reflexivity. }
      2: { apply (is_derive_recip (fun t => Psir t y) (1 / t) l); [apply Rgt_not_eq, recip_pos; auto|].
           replace (1 / (1 / t)) with t by (field; lra). exact D. }
      eqR. replace (1 / (1 / t)) with t by (field; lra). field. repeat split; lra. }
  rewrite Had.
  - cbn [partialN]. assert (E' : Derive_n (fun u => alphar (1 / u) (total y) (fractions y)) 1 (1 / t) = (Psir t y - l * t) / (total y * Rg)) by exact (is_derive_unique _ _ _ E).
    rewrite E'. field. repeat split; lra.
  - cbn [definedN]. split; [eexists; exact E|]. apply filter_forall. intros; exact I.
Qed.
Lemma Ar20_ok : forall t y (l : R -> R) l2, 0 < t -> 0 < total y -> locally t (fun t => is_derive (fun t => Psir t y) t (l t)) ->
  is_derive l t l2 -> total y * Rg / t * get_Agenxy ad alphar 2 0 t (total y) (fractions y) = l2.
Proof.
  intros t y l l2 Ht Hy L D. unfold get_Agenxy.
  assert (E1 : locally (1 / t) (fun u => is_derive (fun u => alphar (1 / u) (total y) (fractions y)) u ((Psir (1 / u) y - l (1 / u) / u) / (total y * Rg)))).
  { assert (C : continuous (fun u => 1 / u) (1 / t)).
    { apply (ex_derive_continuous (V := R_NormedModule)). auto_derive. apply Rgt_not_eq. pose proof (recip_pos _ Ht). lra. }
    assert (L' : locally (1 / t) (fun u => is_derive (fun t => Psir t y) (1 / u) (l (1 / u)))).
    { apply (C (fun v => is_derive (fun t => Psir t y) v (l v))). replace (1 / (1 / t)) with t by (field; lra). exact L. }
    eapply filter_imp; [|apply (filter_and _ _ L' (locally_pos (1 / t) (recip_pos _ Ht)))]. intros u (Du & Hu).
    apply (is_derive_loc (fun u => u * (/ (total y * Rg)) * Psir (1 / u) y)).
    - eapply filter_imp; [|apply (locally_pos u Hu)]. intros v Hv. rewrite alphar_Psi by (auto; now apply recip_pos).
      eqR. field. repeat split; lra.
    - eapply is_derive_eq; [|apply (is_derive_mult' (fun u => u * (/ (total y * Rg))) (fun u => Psir (1 / u) y))].
      2: { eapply is_derive_eq; [|apply is_derive_mult'; [apply is_derive_id'|apply is_derive_cst]]. reflexivity. }
      2: { apply (is_derive_recip (fun t => Psir t y) u (l (1 / u))); [lra|exact Du]. }
      eqR. field. repeat split; lra. }
  assert (E2 : is_derive (fun u => (Psir (1 / u) y - l (1 / u) / u) / (total y * Rg)) (1 / t) (l2 * t ^ 3 / (total y * Rg))).
  { assert (D1 : is_derive (fun u => Psir (1 / u) y) (1 / t) (- (1 / (1 / t)) * (1 / (1 / t)) * l t)).
    { apply (is_derive_recip (fun t => Psir t y) (1 / t) (l t)); [apply Rgt_not_eq, recip_pos; auto|].
      replace (1 / (1 / t)) with t by (field; lra). exact (locally_singleton _ _ L). }
    assert (D2 : is_derive (fun u => l (1 / u)) (1 / t) (- (1 / (1 / t)) * (1 / (1 / t)) * l2)).
    { apply (is_derive_recip l (1 / t) l2); [apply Rgt_not_eq, recip_pos; auto|]. replace (1 / (1 / t)) with t by (field; lra). exact D. }
    assert (D3 : is_derive (fun u => / u) (1 / t) (- / (1 / t) ^ 2)).
    { auto_derive; [apply Rgt_not_eq, recip_pos; auto|]. field. lra. }
    apply (is_derive_ext (fun u => / (total y * Rg) * (Psir (1 / u) y - l (1 / u) * / u))).
    { intro u. eqR. unfold Rdiv. ring. }
    eapply is_derive_eq; [|apply is_derive_lin, is_derive_minus'; [exact D1|apply (is_derive_mult' (fun u => l (1 / u)) Rinv); [exact D2|exact D3]]].
    eqR. replace (1 / (1 / t)) with t by (field; lra). field. repeat split; lra. }
  assert (E3 : is_derive_n (fun u => alphar (1 / u) (total y) (fractions y)) 2 (1 / t) (l2 * t ^ 3 / (total y * Rg))).
  { cbn [is_derive_n]. apply (is_derive_loc (fun u => (Psir (1 / u) y - l (1 / u) / u) / (total y * Rg))); [|exact E2].
    eapply filter_imp; [|exact E1]. intros u Du. cbn [Derive_n]. apply (is_derive_unique _ _ _ Du). }
  rewrite Had.
  - cbn [partialN]. assert (E' : Derive_n (fun u => alphar (1 / u) (total y) (fractions y)) 2 (1 / t) = l2 * t ^ 3 / (total y * Rg)) by exact (is_derive_n_unique _ _ _ _ E3).
    rewrite E'. field. repeat split; lra.
  - cbn [definedN]. split; [|apply filter_forall; intros; exact I].
    change (ex_derive (Derive_n (fun u => alphar (1 / u) (total y) (fractions y)) 1) (1 / t)). eexists. exact E3.
Qed.

(** *** one phase *)
Section State.
Variable T : R.
Variable rho : list R.
Hypothesis HT : 0 < T.
Hypothesis Hpos : 0 < total rho.
Variable G : list R -> list R.
Variable H : list (list R).
Hypothesis X : twice_at F (T :: rho) G H.
Notation qdT := (q_dT ad alphar Rgas Rg).
Notation qPsir := (q_Psir alphar Rgas).
Notation qgrad := (q_grad ad alphar Rgas).
Notation qHess := (q_Hess ad alphar Rgas).
Notation qgraddT := (q_graddT ad alphar Rgas).
Notation qp := (q_p ad alphar Rgas Rg).

Lemma smooth_here : smooth_joint alphar Rgas T rho. Proof. now exists G, H. Qed.
Lemma qdT_at : forall t y, 0 < t -> 0 < total y -> gradient_at F (t :: y) (G (t :: y)) -> qdT t y = nth 0 (G (t :: y)) 0.
Proof.
  intros t y Ht Hy Hg. unfold q_dT, q_rho, q_Psir. rewrite vsum_total, molefrac_fractions, (get_Psir_eq alphar Rgas).
  apply Ar10_ok; auto. exact (gradient_head _ _ _ _ Hg).
Qed.
Lemma qdT_val : qdT T rho = nth 0 (G (T :: rho)) 0.
Proof. apply qdT_at; auto. exact (near_self _ _ (tw_grad _ _ _ _ X)). Qed.
Lemma qgrad_val : forall i, (i < length rho)%nat -> nth i (qgrad T rho) 0 = nth (S i) (G (T :: rho)) 0.
Proof.
  intros i Hi. pose proof (gradient_tail _ _ _ _ (near_self _ _ (tw_grad _ _ _ _ X))) as Hg. cbn [hd tl] in Hg.
  unfold q_grad. rewrite (gradient_ok ad Had alphar Rgas T rho _ i Hg Hi). apply nth_tl.
Qed.
Lemma qgraddT_val : forall i, (i < length rho)%nat -> nth i (qgraddT T rho) 0 = nth (S i) (nth 0 H []) 0.
Proof.
  intros i Hi. rewrite (tw_sym _ _ _ _ X 0%nat (S i)) by (simpl; lia).
  unfold q_graddT. apply (d2PsirdT_ok ad Had alphar Rgas T rho (fun t => tl (G (t :: rho))) _ i); auto.
  - pose proof (near_head _ _ _ (tw_grad _ _ _ _ X)) as L. eapply filter_imp; [|exact L]. intros t Ht. now apply gradient_tail in Ht.
  - apply (is_derive_ext (fun t => nth (S i) (G (t :: rho)) 0)); [intro; now rewrite nth_tl|].
    apply (gradient_head _ _ _ _ (tw_hess _ _ _ _ X (S i) ltac:(simpl; lia))).
Qed.
Lemma d2T_val : total rho * Rg / T * get_Agenxy ad alphar 2 0 T (total rho) (fractions rho) = nth 0 (nth 0 H []) 0.
Proof.
  apply (Ar20_ok T rho (fun t => nth 0 (G (t :: rho)) 0)); auto.
  - pose proof (near_head _ _ _ (tw_grad _ _ _ _ X)) as L. eapply filter_imp; [|exact L]. intros t Ht. exact (gradient_head _ _ _ _ Ht).
  - exact (gradient_head _ _ _ _ (tw_hess _ _ _ _ X 0%nat ltac:(simpl; lia))).
Qed.
Lemma path_pos : forall dT d tau c, path T rho dT d tau c -> locally 0 (fun s => 0 < tau s /\ 0 < total (c s)).
Proof.
  intros dT d tau c P. apply filter_and.
  - apply (locally_pos_c tau 0 dT (path_dT _ _ _ _ _ _ P)). now rewrite (path_T _ _ _ _ _ _ P).
  - apply (locally_pos_c _ 0 _ (total_along _ _ _ _ _ _ P)). now rewrite (path_rho _ _ _ _ _ _ P).
Qed.
Lemma ders_G : forall k, (k < length (T :: rho))%nat ->
  ders T rho (fun t y => nth k (G (t :: y)) 0) (nth 0 (nth k H []) 0) (fun i => nth (S i) (nth k H []) 0).
Proof.
  intros k Hk dT d tau c P. eapply is_derive_eq; [|apply (along _ _ _ _ _ _ _ _ P (tw_hess _ _ _ _ X k Hk))]. ring.
Qed.
Lemma ders_Psi : ders T rho qPsir (qdT T rho) (fun i => nth i (qgrad T rho) 0).
Proof.
  apply (ders_ext _ _ Psir); [intros t y _; apply get_Psir_eq|].
  intros dT d tau c P. eapply is_derive_eq; [|apply (along _ _ _ _ _ _ _ _ P (near_self _ _ (tw_grad _ _ _ _ X)))].
  rewrite qdT_val, Rmult_comm. f_equal. apply sumn_ext. intros i Hi. now rewrite qgrad_val.
Qed.
Lemma ders_dT : ders T rho qdT (nth 0 (nth 0 H []) 0) (fun i => nth i (qgraddT T rho) 0).
Proof.
  apply (ders_loc _ _ (fun t y => nth 0 (G (t :: y)) 0)).
  - intros dT d tau c P. eapply filter_imp; [|apply (filter_and _ _ (path_pos _ _ _ _ P) (near_along _ _ _ _ _ _ _ P (tw_grad _ _ _ _ X)))].
    intros s ((A & B) & C). now apply qdT_at.
  - eapply ders_eq; [reflexivity| |apply (ders_G 0%nat ltac:(simpl; lia))]. intros i Hi. symmetry. now apply qgraddT_val.
Qed.
Lemma ders_grad : forall i, (i < length rho)%nat ->
  ders T rho (fun t y => nth i (qgrad t y) 0) (nth i (qgraddT T rho) 0) (fun j => nth j (nth i (qHess T rho) []) 0).
Proof.
  intros i Hi dT d tau c P. eapply is_derive_eq; [|apply (mur_along ad Had alphar Rgas T rho dT d tau c i P smooth_here Hi)].
  apply Rplus_comm.
Qed.
Lemma Hess_sym : forall i j, (i < length rho)%nat -> (j < length rho)%nat -> nth j (nth i (qHess T rho) []) 0 = nth i (nth j (qHess T rho) []) 0.
Proof.
  intros i j Hi Hj. unfold q_Hess, build_Psir_Hessian. rewrite !nth_map_seq_l, !each_nth by auto. now rewrite Nat.min_comm, Nat.max_comm.
Qed.
Lemma qp_sum : forall t y, qp t y = Rg * (total y * t) - qPsir t y + sumn (length y) (fun i => nth i y 0 * nth i (qgrad t y) 0).
Proof. intros. unfold q_p, q_rho. rewrite vsum_total, vdot_sumn. ring. Qed.
Lemma ders_p : ders T rho qp (q_dpdT ad alphar Rgas Rg T rho) (q_dpdrho ad alphar Rgas Rg T rho).
Proof.
  apply (ders_ext _ _ (fun t y => Rg * (total y * t) - qPsir t y + sumn (length rho) (fun i => nth i y 0 * nth i (qgrad t y) 0))).
  { intros t y E. rewrite qp_sum, E. reflexivity. }
  eapply ders_eq; [| |apply ders_plus; [apply ders_minus; [apply ders_scal, ders_mult; [apply ders_total|apply ders_T]|apply ders_Psi]|
    apply (ders_sumn T rho (length rho) (fun i t y => nth i y 0 * nth i (qgrad t y) 0) (fun i => 0 * nth i (qgrad T rho) 0 + nth i rho 0 * nth i (qgraddT T rho) 0)
      (fun i j => (if Nat.eqb j i then 1 else 0) * nth i (qgrad T rho) 0 + nth i rho 0 * nth j (nth i (qHess T rho) []) 0));
    intros k Hk; apply (ders_mult T rho (fun _ y => nth k y 0) (fun t y => nth k (qgrad t y) 0)); [apply (ders_rho _ _ k Hk)|apply (ders_grad k Hk)]]].
  - unfold q_dpdT, q_rho. rewrite vsum_total, vdot_sumn.
    rewrite (sumn_ext _ _ (fun i => nth i rho 0 * nth i (qgraddT T rho) 0)) by (intros; ring). ring.
  - intros j Hj. unfold q_dpdrho. rewrite vsum_each. cbv beta.
    rewrite (sumn_ext _ _ (fun k => (if Nat.eqb k j then nth k (qgrad T rho) 0 else 0) + nth k rho 0 * nth j (nth k (qHess T rho) []) 0)).
    + rewrite sumn_plus, (sumn_delta (length rho) j (fun k => nth k (qgrad T rho) 0) Hj). ring.
    + intros k Hk. rewrite (Nat.eqb_sym j k). destruct (Nat.eqb k j); ring.
Qed.
Lemma p_val : qp T rho = p_of alphar Rgas T rho.
Proof.
  pose proof (gradient_tail _ _ _ _ (near_self _ _ (tw_grad _ _ _ _ X))) as Hg. cbn [hd tl] in Hg.
  rewrite (p_of_ok0 alphar Rgas T rho (tl (G (T :: rho))) Hpos); auto.
  - rewrite qp_sum, HR. unfold euler, q_Psir. rewrite (get_Psir_eq alphar Rgas).
    rewrite (sumn_ext _ (fun i => nth i rho 0 * nth i (qgrad T rho) 0) (fun i => nth i rho 0 * nth i (tl (G (T :: rho))) 0)).
    + ring.
    + intros i Hi. now rewrite qgrad_val, nth_tl.
  - rewrite HR. apply Rmult_integral_contrapositive; split; lra.
Qed.
Lemma ders_lnf : forall i, (i < length rho)%nat -> 0 < nth i rho 0 ->
  ders T rho (fun t y => q_lnf ad alphar Rgas Rg t y i) (q_dlnfdT ad alphar Rgas Rg T rho i) (q_dlnfdrho ad alphar Rgas Rg T rho i).
Proof.
  intros i Hi Pi.
  assert (D1 : is_derive ln (nth i rho 0 * Rg * T) (/ (nth i rho 0 * Rg * T))).
  { auto_derive; [|ring]. repeat apply Rmult_lt_0_compat; auto. }
  assert (Hne : Rg * T <> 0) by (apply Rmult_integral_contrapositive; split; lra).
  pose proof (ders_mult T rho _ _ _ _ _ _ (ders_mult T rho _ _ _ _ _ _ (ders_rho T rho i Hi) (ders_cst T rho Rg)) (ders_T T rho)) as A.
  pose proof (ders_comp T rho ln _ (fun t y => nth i y 0 * Rg * t) _ _ D1 A) as B.
  pose proof (ders_inv T rho (fun t _ => Rg * t) _ _ Hne (ders_scal T rho Rg _ _ _ (ders_T T rho))) as C.
  pose proof (ders_mult T rho _ _ _ _ _ _ C (ders_grad i Hi)) as D.
  eapply ders_eq; [| |eapply ders_ext; [|exact (ders_plus T rho _ _ _ _ _ _ B D)]].
  3: { intros t y _. unfold q_lnf, Rdiv. cbv beta. now rewrite Rmult_1_l. }
  - unfold q_dlnfdT. field. repeat split; lra.
  - intros j Hj. unfold q_dlnfdrho. cbv beta. rewrite (Nat.eqb_sym i j). destruct (Nat.eqb j i); field; repeat split; lra.
Qed.
End State.
End Phase.

Section Caloric.
Variable ad : (list R -> R) -> list nat -> list R -> R.
Hypothesis Had : AD_exact ad.
Variable alphar : R -> R -> list R -> R.
Variable Rgas : list R -> R.
Variable aig : R -> R -> list R -> R.
Variable Rig : list R -> R.
Variable Rg : R.
Hypothesis HR : forall x, Rgas x = Rg.
Hypothesis HRi : forall x, Rig x = Rg.
Hypothesis HR0 : 0 < Rg.
Variable T : R.
Variable rho : list R.
Hypothesis HT : 0 < T.
Hypothesis Hpos : 0 < total rho.
Variable G : list R -> list R.
Variable H : list (list R).
Hypothesis X : twice_at (fun y => Psi_r alphar Rgas (hd 0 y) (tl y)) (T :: rho) G H.
Variable Gi : list R -> list R.
Variable Hi : list (list R).
Hypothesis Xi : twice_at (fun y => Psi_r aig Rig (hd 0 y) (tl y)) (T :: rho) Gi Hi.

Lemma cPsi_eq : forall t y, c_Psi ad Rg t y aig = q_Psir aig Rig t y.
Proof. intros. unfold c_Psi, q_Psir, get_Psir, get_Agenxy, q_rho. now rewrite HRi. Qed.
Lemma cdT_eq : forall t y, c_dT ad Rg t y aig = q_dT ad aig Rig Rg t y.
Proof. intros. unfold c_dT, q_dT. now rewrite cPsi_eq. Qed.
Notation cPsi := (fun t y => c_Psi ad Rg t y aig).
Notation cdT := (fun t y => c_dT ad Rg t y aig).
Notation qdT := (q_dT ad alphar Rgas Rg).
Notation qPsir := (q_Psir alphar Rgas).
Notation cs := (fun t y => c_s ad alphar Rgas Rg t y aig).
Notation ca := (fun t y => c_a ad alphar Rgas Rg t y aig).
Notation cu := (fun t y => c_u ad alphar Rgas Rg t y aig).
Notation ch := (fun t y => c_h ad alphar Rgas Rg t y aig).
Lemma ders_cPsi : ders T rho cPsi (c_dT ad Rg T rho aig) (c_grad ad T rho aig Rig).
Proof.
  apply (ders_ext _ _ (q_Psir aig Rig)); [intros; apply cPsi_eq|].
  rewrite cdT_eq. exact (ders_Psi ad Had aig Rig Rg HRi HR0 T rho HT Hpos Gi Hi Xi).
Qed.
Lemma ders_cdT : ders T rho cdT (c_d2T ad Rg T rho aig) (c_graddT ad T rho aig Rig).
Proof.
  apply (ders_ext _ _ (q_dT ad aig Rig Rg)); [intros; apply cdT_eq|].
  eapply ders_eq; [| |exact (ders_dT ad Had aig Rig Rg HRi HR0 T rho HT Hpos Gi Hi Xi)].
  - unfold c_d2T, q_rho. rewrite vsum_total, molefrac_fractions. symmetry. exact (d2T_val ad Had aig Rig Rg HRi HR0 T rho HT Hpos Gi Hi Xi).
  - reflexivity.
Qed.
Lemma ders_qdT : ders T rho qdT (c_d2Tr ad alphar Rg T rho) (fun i => nth i (q_graddT ad alphar Rgas T rho) 0).
Proof.
  eapply ders_eq; [| |exact (ders_dT ad Had alphar Rgas Rg HR HR0 T rho HT Hpos G H X)].
  - unfold c_d2Tr, q_rho. rewrite vsum_total, molefrac_fractions. symmetry. exact (d2T_val ad Had alphar Rgas Rg HR HR0 T rho HT Hpos G H X).
  - reflexivity.
Qed.
Lemma ders_vol : ders T rho (fun _ y => / q_rho y) 0 (fun _ => - / q_rho rho ^ 2).
Proof.
  apply (ders_ext _ _ (fun _ y => / total y)); [intros; unfold q_rho; now rewrite vsum_total|].
  eapply ders_eq; [| |apply (ders_inv T rho (fun _ y => total y)); [lra|apply ders_total]].
  - ring.
  - intros. unfold q_rho. rewrite vsum_total. ring.
Qed.
Lemma qrho_pos : q_rho rho <> 0. Proof. unfold q_rho. rewrite vsum_total. lra. Qed.
Lemma ders_s : ders T rho cs (c_dsdT ad alphar Rg T rho aig) (c_dsdrho ad alphar Rgas Rg T rho aig Rig).
Proof.
  pose proof qrho_pos.
  eapply ders_eq; [| |eapply ders_ext; [|exact (ders_scal T rho (-1) _ _ _ (ders_mult T rho _ _ _ _ _ _ ders_vol (ders_plus T rho _ _ _ _ _ _ ders_cdT ders_qdT)))]].
  - unfold c_dsdT. cbv beta. field. auto.
  - intros i Hn. unfold c_dsdrho. cbv beta. field. auto.
  - intros t y _. unfold c_s. cbv beta. unfold Rdiv. ring.
Qed.
Lemma ders_a : ders T rho ca (c_dadT ad alphar Rgas Rg T rho aig) (c_dadrho ad alphar Rgas Rg T rho aig Rig).
Proof.
  pose proof qrho_pos.
  eapply ders_eq; [| |eapply ders_ext; [|exact (ders_mult T rho _ _ _ _ _ _ ders_vol (ders_plus T rho _ _ _ _ _ _ ders_cPsi (ders_Psi ad Had alphar Rgas Rg HR HR0 T rho HT Hpos G H X)))]].
  - unfold c_dadT. cbv beta. field. auto.
  - intros i Hn. unfold c_dadrho. cbv beta. field. auto.
  - intros t y _. unfold c_a. cbv beta. unfold Rdiv. ring.
Qed.
Lemma ders_u : ders T rho cu (c_dudT ad alphar Rgas Rg T rho aig) (c_dudrho ad alphar Rgas Rg T rho aig Rig).
Proof.
  eapply ders_eq; [| |eapply ders_ext; [|exact (ders_plus T rho _ _ _ _ _ _ ders_a (ders_mult T rho _ _ _ _ _ _ (ders_T T rho) ders_s))]].
  - unfold c_dudT. cbv beta. ring.
  - intros i Hn. unfold c_dudrho. cbv beta. ring.
  - intros t y _. unfold c_u. cbv beta. ring.
Qed.
Lemma ders_h : ders T rho ch (c_dhdT ad alphar Rgas Rg T rho aig) (c_dhdrho ad alphar Rgas Rg T rho aig Rig).
Proof.
  pose proof qrho_pos.
  eapply ders_eq; [| |eapply ders_ext; [|exact (ders_plus T rho _ _ _ _ _ _ ders_u (ders_mult T rho _ _ _ _ _ _ ders_vol (ders_p ad Had alphar Rgas Rg HR HR0 T rho HT Hpos G H X)))]].
  - unfold c_dhdT. cbv beta. field. auto.
  - intros i Hn. unfold c_dhdrho. cbv beta. field. auto.
  - intros t y _. unfold c_h. cbv beta. unfold Rdiv. ring.
Qed.
(** the values *)
Lemma cs_val : c_s ad alphar Rgas Rg T rho aig = entropy alphar Rgas aig Rig T rho.
Proof.
  unfold c_s, entropy, helmholtz, q_rho. rewrite vsum_total, cdT_eq.
  rewrite (qdT_val ad Had alphar Rgas Rg HR HR0 T rho HT Hpos G H X), (qdT_val ad Had aig Rig Rg HRi HR0 T rho HT Hpos Gi Hi Xi).
  assert (D : is_derive (fun t => Psi_r aig Rig t rho + Psi_r alphar Rgas t rho) T (nth 0 (Gi (T :: rho)) 0 + nth 0 (G (T :: rho)) 0)).
  { apply is_derive_plus'; [exact (gradient_head _ _ _ _ (near_self _ _ (tw_grad _ _ _ _ Xi)))|exact (gradient_head _ _ _ _ (near_self _ _ (tw_grad _ _ _ _ X)))]. }
  assert (E : Derive (fun t => Psi_r aig Rig t rho + Psi_r alphar Rgas t rho) T = nth 0 (Gi (T :: rho)) 0 + nth 0 (G (T :: rho)) 0) by exact (is_derive_unique _ _ _ D).
  rewrite E. field. lra.
Qed.
Lemma cu_val : c_u ad alphar Rgas Rg T rho aig = energy alphar Rgas aig Rig T rho.
Proof.
  unfold c_u, energy. rewrite cs_val. unfold c_a, helmholtz, q_rho. rewrite cPsi_eq, vsum_total. unfold q_Psir. now rewrite !get_Psir_eq.
Qed.
Lemma ch_val : c_h ad alphar Rgas Rg T rho aig = enthalpy alphar Rgas aig Rig T rho.
Proof.
  unfold c_h, enthalpy. rewrite cu_val, (p_val ad Had alphar Rgas Rg HR HR0 T rho HT Hpos G H X). unfold q_rho. now rewrite vsum_total.
Qed.
End Caloric.
