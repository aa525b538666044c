(** Chain rules for [gradient_at]. *)
From Coq Require Import Reals List Lia Lra.
From Coquelicot Require Import Coquelicot.
From Verif Require Import Derivs_model Derivs_spec Derivs_proofs Derivs_proofs2 Vec_spec.
Import ListNotations.
Open Scope R_scope.

Lemma sumn_ext : forall n f g, (forall i, (i < n)%nat -> f i = g i) -> sumn n f = sumn n g.
Proof. induction n; intros f g H; simpl; [reflexivity|]. rewrite (IHn f g) by auto. now rewrite H by lia. Qed.
Lemma sumn_plus : forall n f g, sumn n (fun i => f i + g i) = sumn n f + sumn n g.
Proof. induction n; intros; simpl; [ring|]. rewrite IHn. ring. Qed.
Lemma sumn_minus : forall n f g, sumn n (fun i => f i - g i) = sumn n f - sumn n g.
Proof. induction n; intros; simpl; [ring|]. rewrite IHn. ring. Qed.
Lemma sumn_scal : forall n c f, sumn n (fun i => c * f i) = c * sumn n f.
Proof. induction n; intros; simpl; [ring|]. rewrite IHn. ring. Qed.
Lemma sumn_scal_r : forall n c f, sumn n (fun i => f i * c) = sumn n f * c.
Proof. induction n; intros; simpl; [ring|]. rewrite IHn. ring. Qed.
Lemma sumn_zero : forall n, sumn n (fun _ => 0) = 0.
Proof. induction n; simpl; [reflexivity|]. rewrite IHn; ring. Qed.
Lemma sumn_0 : forall n f, (forall i, (i < n)%nat -> f i = 0) -> sumn n f = 0.
Proof. intros. rewrite <- (sumn_zero n). now apply sumn_ext. Qed.
Lemma sumn_le : forall n f g, (forall i, (i < n)%nat -> f i <= g i) -> sumn n f <= sumn n g.
Proof. induction n; intros f g H; simpl; [lra|]. specialize (IHn f g ltac:(auto)). specialize (H n ltac:(lia)). lra. Qed.
Lemma sumn_pos : forall n f, (forall i, (i < n)%nat -> 0 <= f i) -> 0 <= sumn n f.
Proof. intros. rewrite <- (sumn_zero n). now apply sumn_le. Qed.
Lemma sumn_abs : forall n f, Rabs (sumn n f) <= sumn n (fun i => Rabs (f i)).
Proof.
  induction n; intros; simpl; [rewrite Rabs_R0; lra|].
  eapply Rle_trans; [apply Rabs_triang|]. specialize (IHn f). lra.
Qed.
Lemma sumn_term : forall n f i, (i < n)%nat -> (forall i, (i < n)%nat -> 0 <= f i) -> f i <= sumn n f.
Proof.
  induction n; intros f i Hi Hp; [lia|]. simpl. pose proof (sumn_pos n f ltac:(auto)).
  destruct (Nat.eq_dec i n) as [->|]; [lra|]. specialize (IHn f i ltac:(lia) ltac:(auto)). specialize (Hp n ltac:(lia)). lra.
Qed.
Lemma sumn_swap : forall n m (f : nat -> nat -> R),
  sumn n (fun i => sumn m (fun j => f i j)) = sumn m (fun j => sumn n (fun i => f i j)).
Proof.
  induction n; intros m f; simpl; [symmetry; apply sumn_0; auto|]. rewrite IHn. now rewrite <- sumn_plus.
Qed.
Lemma sumn_delta : forall n i c, (i < n)%nat -> sumn n (fun k => if Nat.eqb k i then c k else 0) = c i.
Proof.
  induction n; intros i c Hi; [lia|]. simpl. destruct (Nat.eq_dec i n) as [->|].
  - rewrite Nat.eqb_refl. rewrite (sumn_0 n); [ring|]. intros k Hk. destruct (Nat.eqb_spec k n); [lia|reflexivity].
  - rewrite IHn by lia. destruct (Nat.eqb_spec n i); [lia|ring].
Qed.
Lemma is_derive_sumn : forall n (f : nat -> R -> R) (d : nat -> R) (x : R),
  (forall i, (i < n)%nat -> is_derive (f i) x (d i)) -> is_derive (fun t => sumn n (fun i => f i t)) x (sumn n d).
Proof.
  induction n; intros f d x H; simpl; [apply is_derive_cst|].
  apply is_derive_plus'; [apply IHn; auto | apply H; lia].
Qed.

(** Components *)
Lemma nth_upd : forall i v z k, nth k (upd i v z) 0 = if (Nat.eqb k i && Nat.ltb i (length z))%bool then v else nth k z 0.
Proof.
  intros i v z. revert i. induction z as [|a z IH]; intros i k; simpl.
  - destruct i, k; rewrite ?Bool.andb_false_r; reflexivity.
  - destruct i as [|i], k as [|k]; simpl; auto. rewrite IH. reflexivity.
Qed.
Lemma upd_length : forall i v z, length (upd i v z) = length z.
Proof. intros i v z. revert i. induction z; intros [|i]; simpl; auto. Qed.
Lemma upd_same : forall i z, upd i (nth i z 0) z = z.
Proof. intros i z. revert i. induction z; intros [|i]; simpl; auto. now rewrite IHz. Qed.

(** ** Derivative along a curve *)
Lemma uniform : forall n (P : nat -> R -> Prop),
  (forall i, (i < n)%nat -> exists d, 0 < d /\ forall h, Rabs h < d -> P i h) ->
  exists d, 0 < d /\ forall i h, (i < n)%nat -> Rabs h < d -> P i h.
Proof.
  induction n; intros P H; [exists 1; split; [lra|]; intros; lia|].
  destruct (IHn P ltac:(auto)) as (d1 & H1 & P1). destruct (H n ltac:(lia)) as (d2 & H2 & P2).
  exists (Rmin d1 d2). split; [now apply Rmin_pos|]. intros i h Hi Hh.
  pose proof (Rmin_l d1 d2). pose proof (Rmin_r d1 d2).
  destruct (Nat.eq_dec i n) as [->|]; [apply P2; lra | apply P1; [lia|lra]].
Qed.

Lemma is_derive_eps : forall f (x l : R), is_derive f x l ->
  forall eps, 0 < eps -> exists d, 0 < d /\ forall h, Rabs h < d -> Rabs (f (x + h) - f x - l * h) <= eps * Rabs h.
Proof.
  intros f x l H eps He. apply is_derive_Reals in H. destruct (H eps He) as (d & Hd).
  exists d. split; [apply cond_pos|]. intros h Hh.
  destruct (Req_EM_T h 0) as [->|Hn].
  - replace (f (x + 0) - f x - l * 0) with 0 by (rewrite Rplus_0_r; ring). rewrite Rabs_R0. lra.
  - specialize (Hd h Hn Hh).
    replace (f (x + h) - f x - l * h) with (((f (x + h) - f x) / h - l) * h) by (field; auto).
    rewrite Rabs_mult. apply Rmult_le_compat_r; [apply Rabs_pos|lra].
Qed.
Lemma eps_is_derive : forall f (x l : R),
  (forall eps, 0 < eps -> exists d, 0 < d /\ forall h, Rabs h < d -> Rabs (f (x + h) - f x - l * h) <= eps * Rabs h) ->
  is_derive f x l.
Proof.
  intros f x l H. apply is_derive_Reals. intros eps He. destruct (H (eps / 2) ltac:(lra)) as (d & Hd & P).
  exists (mkposreal d Hd). intros h Hn Hh. simpl in Hh. specialize (P h Hh).
  replace ((f (x + h) - f x) / h - l) with ((f (x + h) - f x - l * h) * / h) by (field; auto).
  rewrite Rabs_mult, Rabs_inv.
  assert (0 < Rabs h) by (now apply Rabs_pos_lt).
  apply Rle_lt_trans with (eps / 2 * Rabs h * / Rabs h).
  - apply Rmult_le_compat_r; [left; now apply Rinv_0_lt_compat|exact P].
  - rewrite Rmult_assoc, Rinv_r by lra. lra.
Qed.

Lemma curve_derive : forall F x g (c : R -> list R) (c' : nat -> R) (t : R),
  gradient_at F x g -> c t = x -> (forall s, length (c s) = length x) ->
  (forall i, (i < length x)%nat -> is_derive (fun s => nth i (c s) 0) t (c' i)) ->
  is_derive (fun s => F (c s)) t (sumn (length x) (fun i => nth i g 0 * c' i)).
Proof.
  intros F x g c c' t (Hg & HF) Hc Hl Hd. set (n := length x) in *.
  apply eps_is_derive. intros eps He.
  set (K := sumn n (fun i => Rabs (c' i) + 1)).
  assert (HKi : forall i, (i < n)%nat -> Rabs (c' i) + 1 <= K).
  { intros i Hi. apply (sumn_term n (fun i => Rabs (c' i) + 1)); auto. intros k _. pose proof (Rabs_pos (c' k)). lra. }
  assert (HK : 0 <= K) by (apply sumn_pos; intros k _; pose proof (Rabs_pos (c' k)); lra).
  set (B := sumn n (fun i => Rabs (nth i g 0))).
  assert (HB : 0 <= B) by (apply sumn_pos; intros k _; apply Rabs_pos).
  set (e1 := eps / (2 * (K + 1))). set (e2 := Rmin 1 (eps / (2 * (B + 1)))).
  assert (He1 : 0 < e1) by (apply Rdiv_lt_0_compat; lra).
  assert (He2 : 0 < e2) by (apply Rmin_pos; [lra|apply Rdiv_lt_0_compat; lra]).
  destruct (HF e1 He1) as (del & Hdel & HF').
  destruct (uniform n (fun i h => Rabs (nth i (c (t + h)) 0 - nth i x 0 - c' i * h) <= e2 * Rabs h)) as (d & Hd0 & U).
  { intros i Hi. destruct (is_derive_eps _ _ _ (Hd i Hi) e2 He2) as (d & Hd0 & P). exists d. split; auto.
    intros h Hh. specialize (P h Hh). rewrite Hc in P. exact P. }
  exists (Rmin d (del / (K + 1))). split; [apply Rmin_pos; auto; apply Rdiv_lt_0_compat; lra|].
  intros h Hh. pose proof (Rmin_l d (del / (K + 1))). pose proof (Rmin_r d (del / (K + 1))).
  assert (Uh : forall i, (i < n)%nat -> Rabs (nth i (c (t + h)) 0 - nth i x 0 - c' i * h) <= e2 * Rabs h) by (intros; apply U; auto; lra).
  assert (He2' : e2 <= 1) by apply Rmin_l.
  assert (Dh : forall i, (i < n)%nat -> Rabs (nth i (c (t + h)) 0 - nth i x 0) <= (Rabs (c' i) + 1) * Rabs h).
  { intros i Hi. specialize (Uh i Hi).
    replace (nth i (c (t + h)) 0 - nth i x 0) with ((nth i (c (t + h)) 0 - nth i x 0 - c' i * h) + c' i * h) by ring.
    eapply Rle_trans; [apply Rabs_triang|]. rewrite (Rabs_mult (c' i) h).
    pose proof (Rabs_pos h). assert (e2 * Rabs h <= 1 * Rabs h) by (apply Rmult_le_compat_r; auto). lra. }
  assert (Bd : forall i, (i < n)%nat -> Rabs (nth i (c (t + h)) 0 - nth i x 0) < del).
  { intros i Hi. eapply Rle_lt_trans; [apply Dh; auto|].
    apply Rle_lt_trans with (K * Rabs h); [apply Rmult_le_compat_r; [apply Rabs_pos|apply HKi; auto]|].
    apply Rle_lt_trans with ((K + 1) * Rabs h); [pose proof (Rabs_pos h); lra|].
    apply Rlt_le_trans with ((K + 1) * (del / (K + 1))); [apply Rmult_lt_compat_l; lra|]. right. field. lra. }
  specialize (HF' (c (t + h)) (Hl _) Bd). rewrite Hc.
  set (S1 := sumn n (fun i => nth i g 0 * (nth i (c (t + h)) 0 - nth i x 0))) in *.
  replace (F (c (t + h)) - F x - sumn n (fun i => nth i g 0 * c' i) * h)
    with ((F (c (t + h)) - F x - S1) + sumn n (fun i => nth i g 0 * (nth i (c (t + h)) 0 - nth i x 0 - c' i * h))).
  2: { unfold S1. rewrite (sumn_ext n (fun i => nth i g 0 * (nth i (c (t + h)) 0 - nth i x 0 - c' i * h))
         (fun i => nth i g 0 * (nth i (c (t + h)) 0 - nth i x 0) - nth i g 0 * c' i * h)) by (intros; ring).
       rewrite sumn_minus, sumn_scal_r. ring. }
  eapply Rle_trans; [apply Rabs_triang|].
  assert (A1 : Rabs (F (c (t + h)) - F x - S1) <= eps / 2 * Rabs h).
  { eapply Rle_trans; [exact HF'|].
    apply Rle_trans with (e1 * (K * Rabs h)).
    - apply Rmult_le_compat_l; [lra|]. unfold K. rewrite <- sumn_scal_r. apply sumn_le. auto.
    - unfold e1. pose proof (Rabs_pos h).
      replace (eps / (2 * (K + 1)) * (K * Rabs h)) with (eps / 2 * Rabs h * (K / (K + 1))) by (field; lra).
      rewrite <- (Rmult_1_r (eps / 2 * Rabs h)) at 2. apply Rmult_le_compat_l; [apply Rmult_le_pos; lra|].
      apply Rmult_le_reg_r with (K + 1); [lra|]. unfold Rdiv. rewrite Rmult_assoc, Rinv_l by lra. lra. }
  assert (A2 : Rabs (sumn n (fun i => nth i g 0 * (nth i (c (t + h)) 0 - nth i x 0 - c' i * h))) <= eps / 2 * Rabs h).
  { eapply Rle_trans; [apply sumn_abs|].
    apply Rle_trans with (sumn n (fun i => Rabs (nth i g 0) * (e2 * Rabs h))).
    - apply sumn_le. intros i Hi. rewrite Rabs_mult. apply Rmult_le_compat_l; [apply Rabs_pos|auto].
    - rewrite sumn_scal_r. fold B. pose proof (Rabs_pos h).
      assert (e2 <= eps / (2 * (B + 1))) by apply Rmin_r.
      apply Rle_trans with (B * (eps / (2 * (B + 1)) * Rabs h)).
      + apply Rmult_le_compat_l; auto. apply Rmult_le_compat_r; auto.
      + replace (B * (eps / (2 * (B + 1)) * Rabs h)) with (eps / 2 * Rabs h * (B / (B + 1))) by (field; lra).
        rewrite <- (Rmult_1_r (eps / 2 * Rabs h)) at 2. apply Rmult_le_compat_l; [apply Rmult_le_pos; lra|].
        apply Rmult_le_reg_r with (B + 1); [lra|]. unfold Rdiv. rewrite Rmult_assoc, Rinv_l by lra. lra. }
  lra.
Qed.

(** Partial derivatives *)
Lemma partial_derive_at : forall F x g i, gradient_at F x g -> (i < length x)%nat ->
  is_derive (fun t => F (upd i t x)) (nth i x 0) (nth i g 0).
Proof.
  intros F x g i H Hi.
  eapply is_derive_eq; [|apply (curve_derive F x g (fun t => upd i t x) (fun k => if Nat.eqb k i then 1 else 0))].
  - rewrite (sumn_ext _ _ (fun k => if Nat.eqb k i then nth k g 0 else 0)).
    + now apply sumn_delta.
    + intros k _. destruct (Nat.eqb k i); ring.
  - exact H.
  - apply upd_same.
  - intro s. apply upd_length.
  - intros k Hk. destruct (Nat.eqb_spec k i) as [->|].
    + apply (is_derive_ext (fun s => s)); [|apply is_derive_id'].
      intro s. rewrite nth_upd, Nat.eqb_refl. destruct (Nat.ltb_spec i (length x)); [reflexivity|lia].
    + apply (is_derive_ext (fun s => nth k x 0)); [|apply is_derive_cst].
      intro s. rewrite nth_upd. destruct (Nat.eqb_spec k i); [lia|reflexivity].
Qed.

Lemma list_ext : forall x y : list R, length x = length y -> (forall i, (i < length x)%nat -> nth i x 0 = nth i y 0) -> x = y.
Proof. intros x y Hl H. apply (nth_ext x y 0 0 Hl H). Qed.
Lemma gradient_unique : forall F x g g', gradient_at F x g -> gradient_at F x g' -> g = g'.
Proof.
  intros F x g g' H H'. apply list_ext; [rewrite (proj1 H), (proj1 H'); reflexivity|].
  intros i Hi. rewrite (proj1 H) in Hi.
  pose proof (is_derive_unique _ _ _ (partial_derive_at F x g i H Hi)) as U.
  pose proof (is_derive_unique _ _ _ (partial_derive_at F x g' i H' Hi)) as U'. now rewrite <- U, <- U'.
Qed.

(** A property holding near [x] holds along a continuous curve. *)
Lemma near_curve : forall (P : list R -> Prop) x (c : R -> list R) (t : R), near x P -> c t = x ->
  (forall s, length (c s) = length x) ->
  (forall i, (i < length x)%nat -> ex_derive (fun s => nth i (c s) 0) t) ->
  locally t (fun s => P (c s)).
Proof.
  intros P x c t (del & Hdel & HP) Hc Hl Hd.
  destruct (uniform (length x) (fun i h => Rabs (nth i (c (t + h)) 0 - nth i x 0) < del)) as (d & Hd0 & U).
  - intros i Hi. destruct (Hd i Hi) as (l & Hli).
    destruct (is_derive_eps _ _ _ Hli 1 ltac:(lra)) as (d & Hd0 & Q).
    exists (Rmin d (del / (Rabs l + 2))). pose proof (Rabs_pos l).
    split; [apply Rmin_pos; auto; apply Rdiv_lt_0_compat; lra|].
    intros h Hh. pose proof (Rmin_l d (del / (Rabs l + 2))). pose proof (Rmin_r d (del / (Rabs l + 2))).
    specialize (Q h ltac:(lra)). rewrite Hc in Q.
    replace (nth i (c (t + h)) 0 - nth i x 0) with ((nth i (c (t + h)) 0 - nth i x 0 - l * h) + l * h) by ring.
    eapply Rle_lt_trans; [apply Rabs_triang|]. rewrite (Rabs_mult l h).
    apply Rle_lt_trans with ((Rabs l + 1) * Rabs h); [lra|].
    apply Rle_lt_trans with ((Rabs l + 2) * Rabs h); [pose proof (Rabs_pos h); lra|].
    apply Rlt_le_trans with ((Rabs l + 2) * (del / (Rabs l + 2))); [apply Rmult_lt_compat_l; lra|]. right. field. lra.
  - exists (mkposreal d Hd0). intros s Hs. unfold ball in Hs; simpl in Hs. unfold AbsRing_ball, abs, minus, plus, opp in Hs; simpl in Hs.
    apply HP; [apply Hl|]. intros i Hi. specialize (U i (s - t) Hi Hs). cbv beta in U. assert (Es : t + (s - t) = s) by ring. rewrite Es in U. exact U.
Qed.
Lemma near_self : forall x P, near x P -> P x.
Proof. intros x P (d & Hd & H). apply H; auto. intros. replace (nth i x 0 - nth i x 0) with 0 by ring. rewrite Rabs_R0. exact Hd. Qed.
Lemma near_imp : forall x (P Q : list R -> Prop), (forall y, length y = length x -> P y -> Q y) -> near x P -> near x Q.
Proof. intros x P Q H (d & Hd & HP). exists d. split; auto. Qed.
Lemma near_and : forall x (P Q : list R -> Prop), near x P -> near x Q -> near x (fun y => P y /\ Q y).
Proof.
  intros x P Q (d & Hd & HP) (d' & Hd' & HQ). exists (Rmin d d'). split; [now apply Rmin_pos|].
  pose proof (Rmin_l d d'). pose proof (Rmin_r d d').
  intros y Hy Hi. split; [apply HP|apply HQ]; auto; intros i Hl; specialize (Hi i Hl); lra.
Qed.
Lemma near_pos : forall x, (forall i, (i < length x)%nat -> 0 < nth i x 0) ->
  near x (fun y => forall i, (i < length y)%nat -> 0 < nth i y 0).
Proof.
  intros x H.
  destruct (uniform (length x) (fun i h => 0 < nth i x 0 + h)) as (d & Hd & U).
  - intros i Hi. exists (nth i x 0). split; [auto|]. intros h Hh. apply Rabs_def2 in Hh. lra.
  - exists d. split; auto. intros y Hy Hb i Hi. rewrite Hy in Hi.
    specialize (U i (nth i y 0 - nth i x 0) Hi (Hb i Hi)). lra.
Qed.

(** ** Building gradients *)
Lemma gradient_const : forall (c : R) x, gradient_at (fun _ => c) x (repeat 0 (length x)).
Proof.
  intros c x. split; [apply repeat_length|]. intros eps He. exists 1. split; [lra|]. intros y Hy _.
  rewrite (sumn_0 _ (fun i => nth i (repeat 0 (length x)) 0 * _)).
  - replace (c - c - 0) with 0 by ring. rewrite Rabs_R0. apply Rmult_le_pos; [lra|]. apply sumn_pos; intros; apply Rabs_pos.
  - intros i Hi. rewrite nth_repeat. ring.
Qed.
Lemma gradient_lin : forall (a : nat -> R) x,
  gradient_at (fun y => sumn (length x) (fun i => a i * nth i y 0)) x (map a (seq 0 (length x))).
Proof.
  intros a x. split; [now rewrite map_length, seq_length|]. intros eps He. exists 1. split; [lra|]. intros y Hy _.
  rewrite (sumn_ext _ (fun i => nth i (map a (seq 0 (length x))) 0 * _) (fun i => a i * nth i y 0 - a i * nth i x 0)).
  - rewrite sumn_minus. replace (_ - _ - _) with 0 by ring. rewrite Rabs_R0.
    apply Rmult_le_pos; [lra|]. apply sumn_pos; intros; apply Rabs_pos.
  - intros i Hi. rewrite (nth_indep _ 0 (a 0%nat)) by (now rewrite map_length, seq_length).
    rewrite map_nth, seq_nth by auto. simpl. ring.
Qed.
Lemma gradient_plus : forall F1 F2 x g1 g2, gradient_at F1 x g1 -> gradient_at F2 x g2 ->
  gradient_at (fun y => F1 y + F2 y) x (map (fun i => nth i g1 0 + nth i g2 0) (seq 0 (length x))).
Proof.
  intros F1 F2 x g1 g2 (L1 & H1) (L2 & H2). split; [now rewrite map_length, seq_length|].
  intros eps He. destruct (H1 (eps / 2) ltac:(lra)) as (d1 & P1 & Q1). destruct (H2 (eps / 2) ltac:(lra)) as (d2 & P2 & Q2).
  exists (Rmin d1 d2). split; [now apply Rmin_pos|]. pose proof (Rmin_l d1 d2). pose proof (Rmin_r d1 d2).
  intros y Hy Hb. specialize (Q1 y Hy ltac:(intros i Hi; specialize (Hb i Hi); lra)).
  specialize (Q2 y Hy ltac:(intros i Hi; specialize (Hb i Hi); lra)).
  rewrite (sumn_ext _ (fun i => nth i (map _ (seq 0 (length x))) 0 * _)
    (fun i => nth i g1 0 * (nth i y 0 - nth i x 0) + nth i g2 0 * (nth i y 0 - nth i x 0))).
  - rewrite sumn_plus. replace (_ - _ - _) with
      ((F1 y - F1 x - sumn (length x) (fun i => nth i g1 0 * (nth i y 0 - nth i x 0))) +
       (F2 y - F2 x - sumn (length x) (fun i => nth i g2 0 * (nth i y 0 - nth i x 0)))) by ring.
    eapply Rle_trans; [apply Rabs_triang|]. lra.
  - intros i Hi. rewrite (nth_indep _ 0 (nth 0 g1 0 + nth 0 g2 0)) by (now rewrite map_length, seq_length).
    rewrite (map_nth (fun i => nth i g1 0 + nth i g2 0)), seq_nth by auto. simpl. ring.
Qed.
Lemma gradient_comp : forall (f : R -> R) F x g l, gradient_at F x g -> is_derive f (F x) l ->
  gradient_at (fun y => f (F y)) x (map (fun i => l * nth i g 0) (seq 0 (length x))).
Proof.
  intros f F x g l (L & H) Hf. split; [now rewrite map_length, seq_length|]. intros eps He.
  set (n := length x) in *.
  set (B := sumn n (fun i => Rabs (nth i g 0))).
  assert (HB : 0 <= B) by (apply sumn_pos; intros; apply Rabs_pos).
  set (e1 := eps / (2 * (B + 1))). set (e2 := Rmin 1 (eps / (2 * (Rabs l + 1)))).
  pose proof (Rabs_pos l).
  assert (He1 : 0 < e1) by (apply Rdiv_lt_0_compat; lra).
  assert (He2 : 0 < e2) by (apply Rmin_pos; [lra|apply Rdiv_lt_0_compat; lra]).
  destruct (is_derive_eps _ _ _ Hf e1 He1) as (d1 & Hd1 & P1).
  destruct (H e2 He2) as (d2 & Hd2 & P2).
  set (N := INR n). assert (HN : 0 <= N) by apply pos_INR.
  exists (Rmin d2 (d1 / ((B + 1) * (N + 1)))).
  split; [apply Rmin_pos; auto; apply Rdiv_lt_0_compat; auto; apply Rmult_lt_0_compat; lra|].
  pose proof (Rmin_l d2 (d1 / ((B + 1) * (N + 1)))). pose proof (Rmin_r d2 (d1 / ((B + 1) * (N + 1)))).
  intros y Hy Hb. specialize (P2 y Hy ltac:(intros i Hi; specialize (Hb i Hi); lra)).
  set (S := sumn n (fun i => Rabs (nth i y 0 - nth i x 0))) in *.
  assert (HS : 0 <= S) by (apply sumn_pos; intros; apply Rabs_pos).
  set (L1 := sumn n (fun i => nth i g 0 * (nth i y 0 - nth i x 0))) in *.
  assert (HL1 : Rabs L1 <= B * S).
  { unfold L1. eapply Rle_trans; [apply sumn_abs|]. unfold B. rewrite <- sumn_scal_r. apply sumn_le. intros i Hi.
    rewrite Rabs_mult. apply Rmult_le_compat_l; [apply Rabs_pos|].
    apply (sumn_term n (fun i => Rabs (nth i y 0 - nth i x 0))); auto. intros; apply Rabs_pos. }
  assert (He2' : e2 <= 1) by apply Rmin_l.
  assert (HD : Rabs (F y - F x) <= (B + 1) * S).
  { replace (F y - F x) with ((F y - F x - L1) + L1) by ring. eapply Rle_trans; [apply Rabs_triang|].
    assert (e2 * S <= 1 * S) by (apply Rmult_le_compat_r; auto). lra. }
  assert (HSd : S <= N * (d1 / ((B + 1) * (N + 1)))).
  { unfold S, N. revert Hb.
    assert (G : forall m (f : nat -> R) b, (forall i, (i < m)%nat -> f i <= b) -> sumn m f <= INR m * b).
    { induction m; intros f0 b Hf0; simpl sumn; [simpl; lra|]. rewrite S_INR. specialize (IHm f0 b ltac:(auto)). specialize (Hf0 m ltac:(lia)). lra. }
    intros Hb. apply G. intros i Hi. specialize (Hb i Hi). fold N. lra. }
  assert (HFd : Rabs (F y - F x) < d1).
  { eapply Rle_lt_trans; [exact HD|]. apply Rle_lt_trans with ((B + 1) * (N * (d1 / ((B + 1) * (N + 1))))); [apply Rmult_le_compat_l; lra|].
    replace ((B + 1) * (N * (d1 / ((B + 1) * (N + 1))))) with (d1 * (N / (N + 1))) by (field; lra).
    rewrite <- (Rmult_1_r d1) at 2. apply Rmult_lt_compat_l; auto. apply Rmult_lt_reg_r with (N + 1); [lra|].
    unfold Rdiv. rewrite Rmult_assoc, Rinv_l by lra. lra. }
  specialize (P1 (F y - F x) HFd). replace (F x + (F y - F x)) with (F y) in P1 by ring.
  rewrite (sumn_ext n (fun i => nth i (map _ (seq 0 n)) 0 * _) (fun i => l * (nth i g 0 * (nth i y 0 - nth i x 0)))).
  2: { intros i Hi. rewrite (nth_indep _ 0 (l * nth 0 g 0)) by (now rewrite map_length, seq_length).
       rewrite (map_nth (fun i => l * nth i g 0)), seq_nth by auto. simpl. ring. }
  rewrite sumn_scal. fold L1.
  replace (f (F y) - f (F x) - l * L1) with ((f (F y) - f (F x) - l * (F y - F x)) + l * (F y - F x - L1)) by ring.
  eapply Rle_trans; [apply Rabs_triang|]. rewrite (Rabs_mult l).
  assert (A1 : Rabs (f (F y) - f (F x) - l * (F y - F x)) <= eps / 2 * S).
  { eapply Rle_trans; [exact P1|]. apply Rle_trans with (e1 * ((B + 1) * S)); [apply Rmult_le_compat_l; lra|].
    right. unfold e1. field. lra. }
  assert (A2 : Rabs l * Rabs (F y - F x - L1) <= eps / 2 * S).
  { apply Rle_trans with (Rabs l * (e2 * S)); [apply Rmult_le_compat_l; auto|].
    assert (e2 <= eps / (2 * (Rabs l + 1))) by apply Rmin_r.
    apply Rle_trans with (Rabs l * (eps / (2 * (Rabs l + 1)) * S)); [apply Rmult_le_compat_l; auto; apply Rmult_le_compat_r; auto|].
    replace (Rabs l * (eps / (2 * (Rabs l + 1)) * S)) with (eps / 2 * S * (Rabs l / (Rabs l + 1))) by (field; lra).
    rewrite <- (Rmult_1_r (eps / 2 * S)) at 2. apply Rmult_le_compat_l; [apply Rmult_le_pos; lra|].
    apply Rmult_le_reg_r with (Rabs l + 1); [lra|]. unfold Rdiv. rewrite Rmult_assoc, Rinv_l by lra. lra. }
  lra.
Qed.
Lemma gradient_ext : forall F F' x g g', (forall y, length y = length x -> F y = F' y) ->
  length g' = length x -> (forall i, (i < length x)%nat -> nth i g 0 = nth i g' 0) ->
  gradient_at F x g -> gradient_at F' x g'.
Proof.
  intros F F' x g g' HF Hl Hg (L & H). split; auto. intros eps He. destruct (H eps He) as (d & Hd & P).
  exists d. split; auto. intros y Hy Hb. specialize (P y Hy Hb). rewrite <- !HF by auto.
  erewrite sumn_ext; [exact P|]. intros i Hi. simpl. now rewrite Hg.
Qed.
Lemma gradient_ext_near : forall F F' x g, near x (fun y => F y = F' y) -> gradient_at F x g -> gradient_at F' x g.
Proof.
  intros F F' x g N (L & H). pose proof (near_self _ _ N) as E0. destruct N as (d0 & Hd0 & E).
  split; auto. intros eps He. destruct (H eps He) as (d & Hd & P).
  exists (Rmin d0 d). pose proof (Rmin_l d0 d). pose proof (Rmin_r d0 d). split; [now apply Rmin_pos|].
  intros y Hy Hb. rewrite <- E0, <- E by (auto; intros i Hi; specialize (Hb i Hi); lra).
  apply P; auto. intros i Hi; specialize (Hb i Hi); lra.
Qed.
(** products, through squares *)
Lemma nth_map_seq' : forall (f : nat -> R) n i, (i < n)%nat -> nth i (map f (seq 0 n)) 0 = f i.
Proof.
  intros f n i H. rewrite (nth_indep _ 0 (f 0%nat)) by (now rewrite map_length, seq_length).
  rewrite map_nth, seq_nth by auto. reflexivity.
Qed.
Lemma gradient_mult : forall F1 F2 x g1 g2, gradient_at F1 x g1 -> gradient_at F2 x g2 ->
  gradient_at (fun y => F1 y * F2 y) x (map (fun i => nth i g1 0 * F2 x + F1 x * nth i g2 0) (seq 0 (length x))).
Proof.
  intros F1 F2 x g1 g2 H1 H2.
  pose proof (gradient_plus _ _ _ _ _ H1 H2) as HS.
  assert (D : forall (s a : R), is_derive (fun s => a * s ^ 2) s (a * (2 * s))) by (intros; auto_derive; auto; ring).
  pose proof (gradient_comp _ _ _ _ _ HS (D _ (/2))) as Q.
  pose proof (gradient_comp _ _ _ _ _ H1 (D _ (-/2))) as Q1.
  pose proof (gradient_comp _ _ _ _ _ H2 (D _ (-/2))) as Q2.
  pose proof (gradient_plus _ _ _ _ _ Q (gradient_plus _ _ _ _ _ Q1 Q2)) as T.
  eapply gradient_ext; [| |intros i Hi|exact T].
  - intros y _. cbv beta. field.
  - now rewrite map_length, seq_length.
  - rewrite !nth_map_seq' by auto. field.
Qed.
