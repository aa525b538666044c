(** Lemmas about the SAFT-VR-Mie model. *)
From Coq Require Import Reals ZArith String List Lia Lra Bool Permutation.
From Coquelicot Require Import Coquelicot.
From Verif Require Import Json_model Vec_spec Vec_proofs Cubic_model Cubic_spec Cubic_proofs2 Terms_model Ideal_model Ideal_proofs Util_model Assoc_model Numerics_model LKP_proofs VRMie_model VRMie_spec.
Import ListNotations.
Local Open Scope R_scope.

Ltac inv_bind H :=
  repeat match type of H with
  | opt_bind ?o _ = Some _ => let E := fresh "E" in destruct o eqn:E; [cbn [opt_bind] in H | discriminate H]
  end.
Lemma cdiv_some : forall a b c, cdiv a b = Some c -> b <> 0 /\ c = a / b.
Proof. intros a b c H. unfold cdiv in H. destruct (Req_EM_T b 0); [discriminate|]. injection H as <-. auto. Qed.
Lemma clog_some : forall a c, clog a = Some c -> 0 < a /\ c = ln a.
Proof. intros a c H. unfold clog in H. destruct (Rlt_dec 0 a); [|discriminate]. injection H as <-. auto. Qed.
Lemma csqrt_some : forall a c, csqrt a = Some c -> 0 <= a /\ c = sqrt a.
Proof. intros a c H. unfold csqrt in H. destruct (Rle_dec 0 a); [|discriminate]. injection H as <-. auto. Qed.
Lemma csqrt_val : forall a, 0 <= a -> csqrt a = Some (sqrt a).
Proof. intros a H. unfold csqrt. destruct (Rle_dec 0 a); [reflexivity|contradiction]. Qed.

(** ** Pairs *)
Definition same_pair (v : vrmie) (s : vstate) (i j : nat) (v' : vrmie) (s' : vstate) (i' j' : nat) : Prop :=
  lr_ij v' i' j' = lr_ij v i j /\ la_ij v' i' j' = la_ij v i j /\ sigma_ij v' i' j' = sigma_ij v i j /\ eps_ij v' i' j' = eps_ij v i j /\
  dmat (s_d s') i' j' = dmat (s_d s) i j /\ s_z s' = s_z s /\ s_zb s' = s_zb s /\ s_K s' = s_K s /\ s_dK s' = s_dK s /\ s_rhos s' = s_rhos s /\ s_T s' = s_T s.
Lemma C_same : forall v i j v' i' j', lr_ij v' i' j' = lr_ij v i j -> la_ij v' i' j' = la_ij v i j -> C_ij v' i' j' = C_ij v i j.
Proof. intros. unfold C_ij. rewrite H, H0. reflexivity. Qed.
Lemma alpha_same : forall v i j v' i' j', lr_ij v' i' j' = lr_ij v i j -> la_ij v' i' j' = la_ij v i j -> alpha_ij v' i' j' = alpha_ij v i j.
Proof. intros. unfold alpha_ij. rewrite (C_same v i j v' i' j') by assumption. rewrite H, H0. reflexivity. Qed.
Lemma fk_same : forall k v i j v' i' j', lr_ij v' i' j' = lr_ij v i j -> la_ij v' i' j' = la_ij v i j -> fk v' k i' j' = fk v k i j.
Proof. intros. unfold fk. rewrite (alpha_same v i j v' i' j') by assumption. reflexivity. Qed.
Ltac same H := destruct H as (Hr & Ha & Hs & He & Hd & Hz & Hzb & HK & HdK & Hrho & HT).
Lemma x0_same : forall v s i j v' s' i' j', same_pair v s i j v' s' i' j' -> x0 v' s' i' j' = x0 v s i j.
Proof. intros v s i j v' s' i' j' H. same H. unfold x0. rewrite Hs, Hd. reflexivity. Qed.
Lemma a1_same : forall v s i j v' s' i' j', same_pair v s i j v' s' i' j' -> a1_pair v' s' i' j' = a1_pair v s i j.
Proof.
  intros v s i j v' s' i' j' H. unfold a1_pair. rewrite (x0_same v s i j v' s' i' j' H). same H.
  rewrite (C_same v i j v' i' j') by assumption. rewrite Hr, Ha, He, Hd, Hz, Hrho. reflexivity.
Qed.
Lemma second_same : forall v s i j v' s' i' j', same_pair v s i j v' s' i' j' -> second_terms v' s' i' j' = second_terms v s i j.
Proof.
  intros v s i j v' s' i' j' H. unfold second_terms. rewrite (x0_same v s i j v' s' i' j' H). same H. rewrite Hr, Ha, Hz. reflexivity.
Qed.
Lemma a2_same : forall v s i j v' s' i' j', same_pair v s i j v' s' i' j' -> a2_pair v' s' i' j' = a2_pair v s i j.
Proof.
  intros v s i j v' s' i' j' H. unfold a2_pair. rewrite (second_same v s i j v' s' i' j' H). same H.
  rewrite !(fun k => fk_same k v i j v' i' j') by assumption. rewrite (C_same v i j v' i' j') by assumption. rewrite He, Hd, Hzb, HK, Hrho. reflexivity.
Qed.
Lemma a3_same : forall v s i j v' s' i' j', same_pair v s i j v' s' i' j' -> a3_pair v' s' i' j' = a3_pair v s i j.
Proof.
  intros v s i j v' s' i' j' H. unfold a3_pair. same H.
  rewrite !(fun k => fk_same k v i j v' i' j') by assumption. rewrite He, Hzb. reflexivity.
Qed.
Lemma gMie_same : forall v s i v' s' i', same_pair v s i i v' s' i' i' -> gMie v' s' i' = gMie v s i.
Proof.
  intros v s i v' s' i' H. unfold gMie, gdHS, g1, g2MCA. rewrite (second_same v s i i v' s' i' i' H). rewrite (x0_same v s i i v' s' i' i' H). same H.
  rewrite (alpha_same v i i v' i' i') by assumption. rewrite (C_same v i i v' i' i') by assumption. rewrite Hr, Ha, He, Hz, Hzb, HK, HdK, HT. reflexivity.
Qed.
Lemma eps_sym : forall v i j, eps_ij v i j = eps_ij v j i.
Proof.
  intros v i j. unfold eps_ij. destruct (Nat.leb i j) eqn:A, (Nat.leb j i) eqn:B; try reflexivity.
  - apply Nat.leb_le in A. apply Nat.leb_le in B. replace j with i by lia. reflexivity.
  - apply Nat.leb_gt in A. apply Nat.leb_gt in B. lia.
Qed.
Lemma lam_sym : forall l i j, lam l i j = lam l j i.
Proof. intros. unfold lam. rewrite Rmult_comm. reflexivity. Qed.
Lemma sigma_sym : forall v i j, sigma_ij v i j = sigma_ij v j i.
Proof. intros. unfold sigma_ij. rewrite Rplus_comm. reflexivity. Qed.
Lemma dmat_sym : forall d i j, dmat d i j = dmat d j i.
Proof. intros. unfold dmat. rewrite Nat.eqb_sym. destruct (Nat.eqb j i) eqn:E; [apply Nat.eqb_eq in E; subst; reflexivity|]. rewrite Rplus_comm. reflexivity. Qed.
Lemma pair_sym : forall v s i j, same_pair v s i j v s j i.
Proof. intros. unfold same_pair, lr_ij, la_ij. rewrite !(lam_sym _ j i), (sigma_sym v j i), (eps_sym v j i), (dmat_sym _ j i). repeat split. Qed.

(** ** The sum over the upper triangle *)
Lemma upper_full : forall n (F : nat -> nat -> R), (forall i j, (i < n)%nat -> (j < n)%nat -> F i j = F j i) ->
  sumn n (fun i => sumn (n - i) (fun k => F i (i + k)%nat * (if Nat.eqb i (i + k) then 1 else 2))) = sumn n (fun i => sumn n (fun j => F i j)).
Proof.
  induction n as [|n IH]; intros F Sm; [reflexivity|]. cbn [sumn].
  rewrite (sumn_ext n _ (fun i => sumn (n - i) (fun k => F i (i + k)%nat * (if Nat.eqb i (i + k) then 1 else 2)) + 2 * F i n)).
  2:{ intros i Hi. replace (S n - i)%nat with (S (n - i)) by lia. cbn [sumn]. replace (i + (n - i))%nat with n by lia.
      replace (Nat.eqb i n) with false by (symmetry; apply Nat.eqb_neq; lia). ring. }
  rewrite sumn_plus. rewrite IH by (intros; apply Sm; lia). replace (S n - n)%nat with 1%nat by lia. cbn [sumn]. rewrite Nat.add_0_r, Nat.eqb_refl.
  rewrite (sumn_plus n (fun i => sumn n (fun j => F i j)) (fun i => F i n)). rewrite sumn_scal.
  replace (sumn n (fun j => F n j)) with (sumn n (fun i => F i n)) by (apply sumn_ext; intros; apply Sm; lia). ring.
Qed.
Lemma upper_val : forall v s p (q : nat -> nat -> R), (forall i j, p i j = p j i) ->
  (forall i j, (i < length (v_m v))%nat -> (j < length (v_m v))%nat -> p i j = Some (q i j)) ->
  upper_sum v s p = Some (sumn (length (v_m v)) (fun i => sumn (length (v_m v)) (fun j => nth i (s_xs s) 0 * nth j (s_xs s) 0 * q i j))).
Proof.
  intros v s p q Sy P. unfold upper_sum. cbv zeta.
  rewrite (osum_val _ _ (fun i => sumn (length (v_m v) - i) (fun k => (nth i (s_xs s) 0 * nth (i + k) (s_xs s) 0 * q i (i + k)%nat) * (if Nat.eqb i (i + k) then 1 else 2)))).
  - f_equal. apply (upper_full (length (v_m v)) (fun i j => nth i (s_xs s) 0 * nth j (s_xs s) 0 * q i j)). intros i j Hi Hj.
    pose proof (P i j Hi Hj) as A. rewrite Sy, P in A by assumption. injection A as A. rewrite A. ring.
  - intros i Hi. apply osum_val. intros k Hk. rewrite P by lia. reflexivity.
Qed.
Lemma upper_some : forall v s p t, (forall i j, p i j = p j i) -> upper_sum v s p = Some t ->
  exists q : nat -> nat -> R, (forall i j, (i < length (v_m v))%nat -> (j < length (v_m v))%nat -> p i j = Some (q i j)) /\
  t = sumn (length (v_m v)) (fun i => sumn (length (v_m v)) (fun j => nth i (s_xs s) 0 * nth j (s_xs s) 0 * q i j)).
Proof.
  intros v s p t Sy H. set (q := fun i j => match p i j with Some a => a | None => 0 end).
  assert (P : forall i j, (i < length (v_m v))%nat -> (j < length (v_m v))%nat -> p i j = Some (q i j)).
  { assert (U : forall i j, (i <= j)%nat -> (j < length (v_m v))%nat -> p i j = Some (q i j)).
    { intros i j Hij Hj. unfold upper_sum in H. cbv zeta in H. destruct (osum_some _ _ _ H) as (g & G & _). specialize (G i ltac:(lia)). cbv beta in G.
      destruct (osum_some _ _ _ G) as (h & Hh & _). specialize (Hh (j - i)%nat ltac:(lia)). cbv beta in Hh. replace (i + (j - i))%nat with j in Hh by lia.
      unfold q. destruct (p i j); [reflexivity|discriminate Hh]. }
    intros i j Hi Hj. destruct (le_lt_dec i j) as [L|L]; [now apply U|]. unfold q. rewrite Sy. rewrite U by lia. reflexivity. }
  exists q. split; [exact P|]. rewrite (upper_val v s p q Sy P) in H. injection H as <-. reflexivity.
Qed.
Lemma a1_sym : forall v s i j, a1_pair v s i j = a1_pair v s j i. Proof. intros. apply a1_same, pair_sym. Qed.
Lemma a2_sym : forall v s i j, a2_pair v s i j = a2_pair v s j i. Proof. intros. apply a2_same, pair_sym. Qed.
Lemma a3_sym : forall v s i j, a3_pair v s i j = a3_pair v s j i. Proof. intros. apply a3_same, pair_sym. Qed.

(** ** Copies *)
Lemma lumped_scaled : forall r x' x (f : nat -> R) xs' xs, lumped r x' x -> length xs' = length r -> length xs = length x ->
  (forall i, (i < length r)%nat -> nth i xs' 0 = f (nth i r O) * nth i x' 0) -> (forall k, (k < length x)%nat -> nth k xs 0 = f k * nth k x 0) -> lumped r xs' xs.
Proof.
  intros r x' x f xs' xs (L & I & P) L1 L2 F1 F2. split; [exact L1|]. split; [intros i Hi; rewrite L2; auto|]. intros k Hk. rewrite L2 in Hk.
  rewrite F2, P by assumption. rewrite <- sumn_scal. apply sumn_ext. intros i Hi. destruct (Nat.eqb (nth i r O) k) eqn:E; [|ring]. apply Nat.eqb_eq in E. rewrite F1 by assumption. rewrite E. reflexivity.
Qed.
Lemma oseq_val : forall A n (f : nat -> option A) l, osequence (map f (seq 0 n)) = Some l <-> length l = n /\ forall i, (i < n)%nat -> f i = nth_error l i.
Proof.
  intros A n f l. assert (G : forall n a l, osequence (map f (seq a n)) = Some l <-> length l = n /\ forall i, (i < n)%nat -> f (a + i)%nat = nth_error l i).
  { clear n l. induction n as [|n IH]; intros a l; cbn [seq map osequence].
    - split; [intro E; injection E as <-; split; [reflexivity|intros; lia]|]. intros [L _]. destruct l; [reflexivity|discriminate].
    - split.
      + intro E. destruct (f a) as [y|] eqn:Fa; [|discriminate]. cbn [opt_bind] in E. destruct (osequence (map f (seq (S a) n))) as [t|] eqn:Et; [|discriminate].
        cbn [opt_bind] in E. injection E as <-. apply IH in Et. destruct Et as [L P]. split; [cbn; lia|]. intros [|i] Hi; cbn [nth_error].
        * rewrite Nat.add_0_r. exact Fa.
        * rewrite <- (P i) by lia. f_equal. lia.
      + intros [L P]. destruct l as [|y t]; [discriminate|]. pose proof (P O ltac:(lia)) as P0. rewrite Nat.add_0_r in P0. cbn [nth_error] in P0. rewrite P0. cbn [opt_bind].
        assert (Et : osequence (map f (seq (S a) n)) = Some t). { apply IH. split; [cbn in L; lia|]. intros i Hi. specialize (P (S i) ltac:(lia)). cbn [nth_error] in P. rewrite <- P. f_equal. lia. }
        rewrite Et. reflexivity. }
  exact (G n O l).
Qed.
Lemma oall_val : forall n (f : nat -> outcome R) l, oall (map f (seq 0 n)) = ok l <-> length l = n /\ forall i, (i < n)%nat -> f i = ok (nth i l 0).
Proof.
  intros n f l. assert (G : forall n a l, oall (map f (seq a n)) = ok l <-> length l = n /\ forall i, (i < n)%nat -> f (a + i)%nat = ok (nth i l 0)).
  { clear n l. induction n as [|n IH]; intros a l; cbn [seq map oall].
    - split; [intro E; injection E as <-; split; [reflexivity|intros; lia]|]. intros [L _]. destruct l; [reflexivity|discriminate].
    - split.
      + intro E. destruct (f a) as [[y|e]|] eqn:Fa; try discriminate. cbn [obind] in E. destruct (oall (map f (seq (S a) n))) as [[t|e]|] eqn:Et; try discriminate.
        cbn [obind] in E. injection E as <-. apply IH in Et. destruct Et as [L P]. split; [cbn; lia|]. intros [|i] Hi; cbn [nth].
        * rewrite Nat.add_0_r. exact Fa.
        * rewrite <- (P i) by lia. f_equal. lia.
      + intros [L P]. destruct l as [|y t]; [discriminate|]. pose proof (P O ltac:(lia)) as P0. rewrite Nat.add_0_r in P0. cbn [nth] in P0. rewrite P0. cbn [obind ok].
        assert (Et : oall (map f (seq (S a) n)) = ok t). { apply IH. split; [cbn in L; lia|]. intros i Hi. specialize (P (S i) ltac:(lia)). cbn [nth] in P. rewrite <- P. f_equal. lia. }
        unfold ok at 1. cbn [obind]. rewrite Et. reflexivity. }
  exact (G n O l).
Qed.
(** a component and its copy *)
Lemma kentry_square : forall v n i j, square (v_k v) n -> (i < n)%nat -> (j < n)%nat -> kentry v i j = Some (kat (v_k v) i j).
Proof.
  intros v n i j [L P] Hi Hj. unfold kentry, kat. rewrite (nth_error_nth' (v_k v) []) by lia. apply nth_error_nth'.
  rewrite (P (nth i (v_k v) [])); [exact Hj|]. apply nth_In. lia.
Qed.
Lemma kentry_pick : forall r v i j, (i < length r)%nat -> (j < length r)%nat -> kentry (pick_vr r v) i j = Some (kat (v_k v) (nth i r O) (nth j r O)).
Proof.
  intros r v i j Hi Hj. unfold kentry, pick_vr. cbn [v_k]. rewrite nth_error_map, (nth_error_nth' r O) by exact Hi. cbn [option_map].
  rewrite nth_error_map, (nth_error_nth' r O) by exact Hj. reflexivity.
Qed.
Section Copies.
Variables (r : list nat) (v : vrmie) (n : nat).
Hypothesis Hn : square (v_k v) n.
Hypothesis Hsym : forall i j, (i < n)%nat -> (j < n)%nat -> kat (v_k v) i j = kat (v_k v) j i.
Hypothesis Hr : forall i, In i r -> (i < n)%nat.
Let rn (i : nat) := nth i r O.
Lemma rn_lt : forall i, (i < length r)%nat -> (rn i < n)%nat. Proof. intros. apply Hr, nth_In. assumption. Qed.
Lemma lr_pick : forall i j, (i < length r)%nat -> (j < length r)%nat -> lr_ij (pick_vr r v) i j = lr_ij v (rn i) (rn j).
Proof. intros. unfold lr_ij, lam, pick_vr. cbn [v_lr]. rewrite !pick_nth by assumption. reflexivity. Qed.
Lemma la_pick : forall i j, (i < length r)%nat -> (j < length r)%nat -> la_ij (pick_vr r v) i j = la_ij v (rn i) (rn j).
Proof. intros. unfold la_ij, lam, pick_vr. cbn [v_la]. rewrite !pick_nth by assumption. reflexivity. Qed.
Lemma sigma_pick : forall i j, (i < length r)%nat -> (j < length r)%nat -> sigma_ij (pick_vr r v) i j = sigma_ij v (rn i) (rn j).
Proof. intros. unfold sigma_ij, pick_vr. cbn [v_sigma]. rewrite !pick_nth by assumption. reflexivity. Qed.
Lemma eps_upper_pick : forall i j, (i < length r)%nat -> (j < length r)%nat -> eps_upper (pick_vr r v) i j = eps_upper v (rn i) (rn j).
Proof.
  intros. unfold eps_upper. rewrite kentry_pick by assumption. rewrite (kentry_square v n) by (auto using rn_lt). rewrite !sigma_pick by assumption.
  unfold pick_vr. cbn [v_flag v_eps]. rewrite !pick_nth by assumption. reflexivity.
Qed.
Lemma eps_upper_sym : forall i j, (i < n)%nat -> (j < n)%nat -> eps_upper v i j = eps_upper v j i.
Proof.
  intros i j Hi Hj. unfold eps_upper. rewrite !(kentry_square v n) by assumption. rewrite (Hsym i j) by assumption. rewrite (sigma_sym v i j). cbn [opt_bind].
  destruct (v_flag v).
  - rewrite (Rmult_comm (nth i (v_eps v) 0)). reflexivity.
  - rewrite (Rmult_comm (nth i (v_eps v) 0)). reflexivity.
  - replace (sigma_ij v i i ^ 3 * sigma_ij v j j ^ 3 * nth i (v_eps v) 0 * nth j (v_eps v) 0) with (sigma_ij v j j ^ 3 * sigma_ij v i i ^ 3 * nth j (v_eps v) 0 * nth i (v_eps v) 0) by ring. reflexivity.
Qed.
Lemma eps_upper_full : forall i j, (i < n)%nat -> (j < n)%nat -> eps_upper v i j = eps_ij v i j.
Proof. intros. unfold eps_ij. destruct (Nat.leb i j); [reflexivity|]. now apply eps_upper_sym. Qed.
Lemma eps_pick : forall i j, (i < length r)%nat -> (j < length r)%nat -> eps_ij (pick_vr r v) i j = eps_ij v (rn i) (rn j).
Proof.
  intros i j Hi Hj. unfold eps_ij at 1. rewrite !eps_upper_pick by assumption. rewrite !eps_upper_full by (auto using rn_lt). destruct (Nat.leb i j); [reflexivity|apply eps_sym].
Qed.
Lemma dii_pick : forall i T, (i < length r)%nat -> dii (pick_vr r v) i T = dii v (rn i) T.
Proof.
  intros i T Hi.
  assert (C : C_ij (pick_vr r v) i i = C_ij v (rn i) (rn i)) by (apply C_same; [now apply lr_pick|now apply la_pick]).
  assert (J : j_cutoff (pick_vr r v) i T = j_cutoff v (rn i) T).
  { unfold j_cutoff. rewrite C, (eps_pick i i Hi Hi). unfold pick_vr. cbn [v_lr v_la]. rewrite !pick_nth by assumption. reflexivity. }
  assert (S : nth i (v_sigma (pick_vr r v)) 0 = nth (rn i) (v_sigma v) 0) by (unfold pick_vr; cbn [v_sigma]; now apply pick_nth).
  assert (U : forall y, integrand (pick_vr r v) i T y = integrand v (rn i) T y).
  { intro y. unfold integrand, uii. rewrite S, C. unfold pick_vr. cbn [v_lr v_la v_eps]. rewrite !pick_nth by assumption. reflexivity. }
  assert (Q : forall xl wl a b, oquad (integrand (pick_vr r v) i T) a b xl wl = oquad (integrand v (rn i) T) a b xl wl).
  { induction xl as [|xi xl IH]; intros [|wi wl] a b; try reflexivity. cbn [oquad]. rewrite U, IH. reflexivity. }
  unfold dii. rewrite J, S. clear J C U. generalize (map dec gl10_x) (map dec gl10_w). intros xl wl. specialize (Q xl wl).
  destruct (j_cutoff v (rn i) T) as [[j|e]|]; [|reflexivity|reflexivity]. unfold obind at 1 3. unfold opt_bind at 1 3.
  destruct (cdiv (nth (rn i) (v_sigma v) 0) j) as [rc|]; [|reflexivity]. rewrite Q. reflexivity.
Qed.
Lemma diameters_pick : forall T d, length (v_m v) = n -> diameters v T = ok d -> diameters (pick_vr r v) T = ok (pick 0 r d).
Proof.
  intros T d L H. unfold diameters in *. rewrite L in H. apply oall_val in H. destruct H as [Ld P]. apply oall_val. unfold pick_vr at 1 2. cbn [v_m]. rewrite !pick_length. split; [reflexivity|].
  intros i Hi. rewrite dii_pick by assumption. rewrite P by auto using rn_lt. rewrite pick_nth by assumption. reflexivity.
Qed.
Lemma dmat_pick : forall d i j, (i < length r)%nat -> (j < length r)%nat -> dmat (pick 0 r d) i j = dmat d (rn i) (rn j).
Proof.
  intros d i j Hi Hj. unfold dmat. rewrite !pick_nth by assumption. fold (rn i) (rn j). destruct (Nat.eqb i j) eqn:E.
  - apply Nat.eqb_eq in E. subst j. rewrite Nat.eqb_refl. reflexivity.
  - destruct (Nat.eqb (rn i) (rn j)) eqn:F; [|reflexivity]. apply Nat.eqb_eq in F. rewrite <- F. field.
Qed.
Variables (x' x : list R).
Hypothesis HL : lumped r x' x.
Hypothesis Lx : length x = n.
Hypothesis Lm : length (v_m v) = n.
Definition pick_state (s : vstate) : vstate :=
  {| s_T := s_T s; s_rhos := s_rhos s; s_mbar := s_mbar s; s_xs := map (fun i => nth (nth i r O) (v_m v) 0 * nth i x' 0 / s_mbar s) (seq 0 (length r)); s_x := x'; s_d := pick 0 r (s_d s);
     s_z := s_z s; s_zb := s_zb s; s_K := s_K s; s_dK := s_dK s |}.
Lemma xs_nth : forall s i, (i < length r)%nat -> nth i (s_xs (pick_state s)) 0 = nth (nth i r O) (v_m v) 0 * nth i x' 0 / s_mbar s.
Proof.
  intros s i Hi. unfold pick_state. cbn [s_xs]. set (f := fun i => nth (nth i r O) (v_m v) 0 * nth i x' 0 / s_mbar s).
  rewrite (nth_indep _ 0 (f O)) by (rewrite map_length, seq_length; exact Hi). rewrite (map_nth f (seq 0 (length r)) O i). rewrite seq_nth by exact Hi. reflexivity.
Qed.
Lemma state_pick : forall T rho d s, vstate_of v T rho x d = Some s -> vstate_of (pick_vr r v) T rho x' (pick 0 r d) = Some (pick_state s) /\ s_d s = d /\ s_x s = x /\ length (s_xs s) = n /\
  lumped r (s_xs (pick_state s)) (s_xs s).
Proof.
  intros T rho d s H. unfold vstate_of in *. cbv zeta in *. rewrite Lm in H.
  set (mb := sumn n (fun i => nth i x 0 * nth i (v_m v) 0)) in *.
  destruct (cdiv (rho * N_A * mb) (10 ^ 30)) as [rhos|] eqn:E1; [|discriminate]. cbn [opt_bind] in H.
  destruct (osequence _) as [xs|] eqn:E2 in H; [|discriminate]. cbn [opt_bind] in H.
  destruct (KHS _) as [K|] eqn:E3 in H; [|discriminate]. cbn [opt_bind] in H.
  destruct (rho_dKHS _) as [dK|] eqn:E4 in H; [|discriminate]. cbn [opt_bind] in H. injection H as H.
  assert (Em : sumn (length (v_m (pick_vr r v))) (fun i => nth i x' 0 * nth i (v_m (pick_vr r v)) 0) = mb).
  { unfold pick_vr. cbn [v_m]. rewrite pick_length. unfold mb. rewrite <- Lx. apply (lump_mean r x' x _ (fun i => nth i (v_m v) 0) HL). intros. now apply pick_nth. }
  apply oseq_val in E2. destruct E2 as [Lxs P].
  assert (Px : forall i, (i < n)%nat -> mb <> 0 /\ nth i xs 0 = nth i (v_m v) 0 * nth i x 0 / mb).
  { intros i Hi. specialize (P i Hi). rewrite (nth_error_nth' xs 0) in P by lia. apply cdiv_some in P. exact P. }
  assert (LX : lumped r (map (fun i => nth (nth i r O) (v_m v) 0 * nth i x' 0 / mb) (seq 0 (length r))) xs).
  { apply (lumped_scaled r x' x (fun k => nth k (v_m v) 0 / mb)); [exact HL|now rewrite map_length, seq_length|lia| |].
    - intros i Hi. set (f := fun i => nth (nth i r O) (v_m v) 0 * nth i x' 0 / mb). rewrite (nth_indep _ 0 (f O)) by (rewrite map_length, seq_length; exact Hi).
      rewrite (map_nth f (seq 0 (length r)) O i), seq_nth by exact Hi. unfold f. cbn [Nat.add]. unfold Rdiv. ring.
    - intros k Hk. rewrite Lx in Hk. destruct (Px k Hk) as [_ ->]. unfold Rdiv. ring. }
  assert (Exs : forall y, y = map (fun i => nth (nth i r O) (v_m v) 0 * nth i x' 0 / mb) (seq 0 (length r)) ->
     osequence (map (fun i => cdiv (nth i (v_m (pick_vr r v)) 0 * nth i x' 0) mb) (seq 0 (length (v_m (pick_vr r v))))) = Some y).
  { intros y ->. apply oseq_val. unfold pick_vr. cbn [v_m]. rewrite pick_length, map_length, seq_length. split; [reflexivity|]. intros i Hi.
    rewrite nth_error_map. rewrite (nth_error_nth' (seq 0 (length r)) O) by (rewrite seq_length; exact Hi). rewrite seq_nth by exact Hi. cbn [option_map Nat.add].
    rewrite pick_nth by exact Hi. apply cdiv_nz. apply (Px (nth i r O)). now apply rn_lt. }
  set (xs' := map (fun i => nth (nth i r O) (v_m v) 0 * nth i x' 0 / mb) (seq 0 (length r))) in *.
  rewrite Em, E1. cbn [opt_bind]. rewrite (Exs xs' eq_refl). cbn [opt_bind].
  assert (Lr' : length (v_m (pick_vr r v)) = length r) by (unfold pick_vr; cbn [v_m]; apply pick_length). rewrite Lr'.
  assert (Z : sumn (length r) (fun i => sumn (length r) (fun j => nth i xs' 0 * nth j xs' 0 * dmat (pick 0 r d) i j ^ 3 * rhos)) = sumn n (fun i => sumn n (fun j => nth i xs 0 * nth j xs 0 * dmat d i j ^ 3 * rhos))).
  { rewrite <- Lxs. transitivity (sumn (length r) (fun i => sumn (length r) (fun j => nth i xs' 0 * nth j xs' 0 * (dmat (pick 0 r d) i j ^ 3 * rhos)))); [apply sumn_ext; intros; apply sumn_ext; intros; ring|].
    rewrite (lump_quad r xs' xs _ (fun i j => dmat d i j ^ 3 * rhos) LX); [apply sumn_ext; intros; apply sumn_ext; intros; ring|]. intros i j Hi Hj. rewrite dmat_pick by assumption. reflexivity. }
  assert (Z2 : sumn (length r) (fun i => sumn (length r) (fun j => nth i xs' 0 * nth j xs' 0 * sigma_ij (pick_vr r v) i j ^ 3)) = sumn n (fun i => sumn n (fun j => nth i xs 0 * nth j xs 0 * sigma_ij v i j ^ 3))).
  { rewrite <- Lxs. apply (lump_quad r xs' xs _ (fun i j => sigma_ij v i j ^ 3) LX). intros i j Hi Hj. rewrite sigma_pick by assumption. reflexivity. }
  rewrite Z, Z2, E3. cbn [opt_bind]. rewrite E4. cbn [opt_bind]. subst s. unfold pick_state. cbn [s_T s_rhos s_mbar s_xs s_x s_d s_z s_zb s_K s_dK]. auto.
Qed.
Lemma pair_pick : forall s i j, (i < length r)%nat -> (j < length r)%nat -> same_pair v s (rn i) (rn j) (pick_vr r v) (pick_state s) i j.
Proof.
  intros s i j Hi Hj. unfold same_pair. rewrite lr_pick, la_pick, sigma_pick, eps_pick by assumption. unfold pick_state. cbn [s_d s_z s_zb s_K s_dK s_rhos s_T].
  rewrite dmat_pick by assumption. repeat split.
Qed.
Lemma upper_pick : forall s p p' t, lumped r (s_xs (pick_state s)) (s_xs s) -> length (s_xs s) = n -> (forall i j, p i j = p j i) -> (forall i j, p' i j = p' j i) ->
  (forall i j, (i < length r)%nat -> (j < length r)%nat -> p' i j = p (rn i) (rn j)) ->
  upper_sum v s p = Some t -> upper_sum (pick_vr r v) (pick_state s) p' = Some t.
Proof.
  intros s p p' t LX Lxs Sp Sp' E H. destruct (upper_some v s p t Sp H) as (q & Q & ->). rewrite Lm in *.
  rewrite (upper_val (pick_vr r v) (pick_state s) p' (fun i j => q (rn i) (rn j)) Sp').
  - f_equal. unfold pick_vr. cbn [v_m]. rewrite pick_length, <- Lxs. apply lump_quad; [exact LX|reflexivity].
  - unfold pick_vr. cbn [v_m]. rewrite pick_length. intros i j Hi Hj. rewrite E by assumption. apply Q; now apply rn_lt.
Qed.
Lemma core_pick : forall T rho d s o, length d = n -> vstate_of v T rho x d = Some s -> core_of v s = Some o -> core_of (pick_vr r v) (pick_state s) = Some o.
Proof.
  intros T rho d s o Ld Hs H. destruct (state_pick T rho d s Hs) as (_ & Sd & Sx & Lxs & LX). unfold core_of in *. cbv zeta in *.
  destruct (upper_sum v s (a1_pair v s)) as [a1|] eqn:E1; [|discriminate]. destruct (upper_sum v s (a2_pair v s)) as [a2|] eqn:E2; [|discriminate]. destruct (upper_sum v s (a3_pair v s)) as [a3|] eqn:E3; [|discriminate].
  cbn [opt_bind] in H.
  rewrite (upper_pick s (a1_pair v s) _ a1 LX Lxs (a1_sym _ _) (a1_sym _ _)); [|intros; apply a1_same; now apply pair_pick|exact E1].
  rewrite (upper_pick s (a2_pair v s) _ a2 LX Lxs (a2_sym _ _) (a2_sym _ _)); [|intros; apply a2_same; now apply pair_pick|exact E2].
  rewrite (upper_pick s (a3_pair v s) _ a3 LX Lxs (a3_sym _ _) (a3_sym _ _)); [|intros; apply a3_same; now apply pair_pick|exact E3].
  cbn [opt_bind]. rewrite Lm in H. destruct (osum n (chain_i v s)) as [ch|] eqn:Ec; [|discriminate]. cbn [opt_bind] in H.
  assert (Ec' : osum (length (v_m (pick_vr r v))) (chain_i (pick_vr r v) (pick_state s)) = Some ch).
  { destruct (osum_some _ _ _ Ec) as (c & Hc & ->).
    set (l := fun k => match gMie v s k with Some g => match clog g with Some y => y | None => 0 end | None => 0 end).
    assert (Cl : forall k, (k < n)%nat -> c k = nth k x 0 * (- ((nth k (v_m v) 0 - 1) * l k)) /\ exists g, gMie v s k = Some g /\ clog g = Some (l k)).
    { intros k Hk. specialize (Hc k Hk). unfold chain_i in Hc. unfold l. destruct (gMie v s k) as [g|]; [|discriminate]. cbn [opt_bind] in Hc. destruct (clog g) as [y|] eqn:Ey; [|discriminate]. cbn [opt_bind] in Hc.
      injection Hc as <-. rewrite Sx. split; [ring|]. exists g. auto. }
    unfold pick_vr at 1. cbn [v_m]. rewrite pick_length.
    rewrite (osum_val _ _ (fun i => nth i x' 0 * (- ((nth (rn i) (v_m v) 0 - 1) * l (rn i))))).
    - f_equal. unfold rn. rewrite (lump r x' x (fun k => - ((nth k (v_m v) 0 - 1) * l k)) HL). rewrite Lx. apply sumn_ext. intros k Hk. symmetry. apply Cl. exact Hk.
    - intros i Hi. unfold chain_i. rewrite (gMie_same v s (rn i) _ _ i) by now apply pair_pick. destruct (Cl (rn i) (rn_lt i Hi)) as (_ & g & -> & Eg). cbn [opt_bind]. rewrite Eg. cbn [opt_bind].
      unfold pick_state, pick_vr. cbn [s_x v_m]. rewrite pick_nth by assumption. fold (rn i). f_equal. ring. }
  rewrite Ec'. cbn [opt_bind].
  assert (ED : forall k, D_of (pick_state s) k = D_of s k).
  { intro k. unfold D_of. f_equal. unfold pick_state at 1 3. cbn [s_d]. rewrite pick_length, Sd, Ld, <- Lxs.
    apply (lump_mean r _ (s_xs s) _ (fun i => nth i d 0 ^ k) LX). intros. rewrite pick_nth by assumption. reflexivity. }
  assert (EA : a_HS (s_rhos (pick_state s)) (fun l => D_of (pick_state s) l * s_rhos (pick_state s)) (D_of (pick_state s)) = a_HS (s_rhos s) (fun l => D_of s l * s_rhos s) (D_of s)).
  { unfold a_HS. rewrite !ED. unfold pick_state. cbn [s_rhos]. reflexivity. }
  rewrite EA, ED. unfold pick_state. cbn [s_T s_mbar s_rhos]. exact H.
Qed.
End Copies.
