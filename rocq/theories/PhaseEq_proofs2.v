(** Proofs for C25: functions of the packed unknowns and the rows of the Jacobian. *)
From Coq Require Import Reals ZArith List Bool Lia Lra.
From Coquelicot Require Import Coquelicot.
From Verif Require Import Json_model Derivs_model Derivs_spec Derivs_proofs Derivs_proofs2 Pure_proofs
  Vec_spec Vec_proofs Iso_model Iso_spec Iso_proofs Trace_spec Trace_proofs PhaseEq_model PhaseEq_spec PhaseEq_proofs.
Import ListNotations.
Open Scope R_scope.

(** ** Sums over the entries of a row *)
Lemma sumn_app : forall a b f, sumn (a + b) f = sumn a f + sumn b (fun i => f (a + i)%nat).
Proof.
  intros a b f. induction b as [|b IH]; simpl.
  - rewrite Nat.add_0_r. ring.
  - rewrite Nat.add_succ_r. simpl. rewrite IH. ring.
Qed.
Lemma sumn_mul : forall n m f, sumn (n * m) f = sumn n (fun k => sumn m (fun i => f (k * m + i)%nat)).
Proof.
  induction n as [|n IH]; intros m f; [reflexivity|].
  replace (S n * m)%nat with (n * m + m)%nat by lia. rewrite sumn_app, IH. reflexivity.
Qed.
Lemma blocks_length : forall {A} (f : nat -> nat -> A) m a n, length (concat (map (fun k => map (f k) (seq 0 m)) (seq a n))) = (n * m)%nat.
Proof.
  intros A f m a n. revert a. induction n as [|n IH]; intro a; [reflexivity|].
  simpl. now rewrite app_length, map_length, seq_length, IH.
Qed.
Lemma blocks_nth : forall {A} (f : nat -> nat -> A) m n a k i dv, (k < n)%nat -> (i < m)%nat ->
  nth (k * m + i) (concat (map (fun k => map (f k) (seq 0 m)) (seq a n))) dv = f (a + k)%nat i.
Proof.
  intros A f m n. induction n as [|n IH]; intros a k i dv Hk Hi; [lia|].
  cbn [seq map concat]. destruct k as [|k].
  - rewrite app_nth1 by (rewrite map_length, seq_length; lia). cbn [Nat.mul Nat.add]. rewrite Nat.add_0_r.
    rewrite (nth_indep _ dv (f a 0%nat)) by (rewrite map_length, seq_length; lia). rewrite map_nth, seq_nth by auto. reflexivity.
  - rewrite app_nth2 by (rewrite map_length, seq_length; lia). rewrite map_length, seq_length.
    replace (S k * m + i - m)%nat with (k * m + i)%nat by (simpl; lia).
    rewrite IH by lia. f_equal. lia.
Qed.

Section Flat.
Variables (Nc Nph : nat).
Lemma flat_length : forall jT jrho jb, length (flat Nc Nph jT jrho jb) = Nindependent Nc Nph.
Proof.
  intros. unfold flat, Nindependent. cbn [length]. rewrite app_length, blocks_length, map_length, seq_length. lia.
Qed.
Lemma flat_0 : forall jT jrho jb, nth 0 (flat Nc Nph jT jrho jb) 0 = jT. Proof. reflexivity. Qed.
Lemma flat_rho : forall jT jrho jb ph i, (ph < Nph)%nat -> (i < Nc)%nat -> nth (1 + ph * Nc + i) (flat Nc Nph jT jrho jb) 0 = jrho ph i.
Proof.
  intros jT jrho jb ph i Hp Hi. unfold flat. cbn [Nat.add nth]. rewrite app_nth1 by (rewrite blocks_length; nia).
  now rewrite blocks_nth.
Qed.
Lemma flat_beta : forall jT jrho jb ph, (ph < Nph)%nat -> nth (1 + Nc * Nph + ph) (flat Nc Nph jT jrho jb) 0 = jb ph.
Proof.
  intros jT jrho jb ph Hp. unfold flat. cbn [Nat.add nth]. rewrite app_nth2 by (rewrite blocks_length; lia). rewrite blocks_length.
  replace (Nc * Nph + ph - Nph * Nc)%nat with ph by lia. now rewrite nth_map_seq'.
Qed.
Lemma rho_of_nth : forall x ph i, (i < Nc)%nat -> nth i (rho_of Nc x ph) 0 = nth (1 + ph * Nc + i) x 0.
Proof. intros. unfold rho_of. now rewrite nth_map_seq'. Qed.
Lemma rho_of_length : forall x ph, length (rho_of Nc x ph) = Nc. Proof. intros. unfold rho_of. now rewrite map_length, seq_length. Qed.

Definition rowdot (row d : list R) : R := sumn (Nindependent Nc Nph) (fun j => nth j row 0 * nth j d 0).
Definition blockdot (jT : R) (jrho : nat -> nat -> R) (jb : nat -> R) (d : list R) : R :=
  jT * T_of d + sumn Nph (fun ph => sumn Nc (fun i => jrho ph i * nth i (rho_of Nc d ph) 0)) + sumn Nph (fun ph => jb ph * beta_of Nc Nph d ph).
Lemma rowdot_flat : forall jT jrho jb d, rowdot (flat Nc Nph jT jrho jb) d = blockdot jT jrho jb d.
Proof.
  intros. unfold rowdot, blockdot, Nindependent. replace (1 + (Nc + 1) * Nph)%nat with (1 + (Nph * Nc + Nph))%nat by lia.
  rewrite sumn_app. rewrite sumn_app. cbn [sumn]. rewrite flat_0. unfold T_of.
  rewrite (sumn_mul Nph Nc).
  rewrite (sumn_ext Nph _ (fun ph => sumn Nc (fun i => jrho ph i * nth i (rho_of Nc d ph) 0))).
  2: { intros ph Hp. apply sumn_ext. intros i Hi. rewrite rho_of_nth by auto.
       replace (1 + (ph * Nc + i))%nat with (1 + ph * Nc + i)%nat by lia. now rewrite flat_rho. }
  rewrite (sumn_ext Nph (fun i => nth (1 + (Nph * Nc + i)) (flat Nc Nph jT jrho jb) 0 * nth (1 + (Nph * Nc + i)) d 0) (fun ph => jb ph * beta_of Nc Nph d ph)).
  2: { intros ph Hp. unfold beta_of. replace (1 + (Nph * Nc + ph))%nat with (1 + Nc * Nph + ph)%nat by lia. now rewrite flat_beta. }
  ring.
Qed.
Lemma sum_phases_sumn : forall f, sum_phases Nph f = sumn Nph f.
Proof. intro f. unfold sum_phases. rewrite vsum_sumn, map_length, seq_length. apply sumn_ext. intros i Hi. now rewrite nth_map_seq'. Qed.

Lemma blockdot_plus : forall aT ar ab bT br bb d,
  blockdot (aT + bT) (fun ph i => ar ph i + br ph i) (fun ph => ab ph + bb ph) d = blockdot aT ar ab d + blockdot bT br bb d.
Proof.
  intros. unfold blockdot.
  rewrite (sumn_ext Nph (fun ph => sumn Nc (fun i => (ar ph i + br ph i) * nth i (rho_of Nc d ph) 0))
    (fun ph => sumn Nc (fun i => ar ph i * nth i (rho_of Nc d ph) 0) + sumn Nc (fun i => br ph i * nth i (rho_of Nc d ph) 0))).
  2: { intros ph Hp. rewrite <- sumn_plus. apply sumn_ext. intros; ring. }
  rewrite (sumn_ext Nph (fun ph => (ab ph + bb ph) * beta_of Nc Nph d ph) (fun ph => ab ph * beta_of Nc Nph d ph + bb ph * beta_of Nc Nph d ph)) by (intros; ring).
  rewrite !sumn_plus. ring.
Qed.
Lemma blockdot_scal : forall k aT ar ab d, blockdot (k * aT) (fun ph i => k * ar ph i) (fun ph => k * ab ph) d = k * blockdot aT ar ab d.
Proof.
  intros. unfold blockdot.
  rewrite (sumn_ext Nph (fun ph => sumn Nc (fun i => k * ar ph i * nth i (rho_of Nc d ph) 0))
    (fun ph => k * sumn Nc (fun i => ar ph i * nth i (rho_of Nc d ph) 0))).
  2: { intros ph Hp. rewrite <- sumn_scal. apply sumn_ext. intros; ring. }
  rewrite (sumn_ext Nph (fun ph => k * ab ph * beta_of Nc Nph d ph) (fun ph => k * (ab ph * beta_of Nc Nph d ph))) by (intros; ring).
  rewrite !sumn_scal. ring.
Qed.
(** ** Directional derivatives of functions of the unknowns *)
Variable x : list R.
Hypothesis Hx : length x = Nindependent Nc Nph.
Definition drv (f : list R -> R) (jT : R) (jrho : nat -> nat -> R) (jb : nat -> R) : Prop :=
  forall d X, curve x d X -> is_derive (fun s => f (X s)) 0 (blockdot jT jrho jb d).
Lemma drv_eq : forall f jT jrho jb jT' jrho' jb', jT = jT' ->
  (forall ph i, (ph < Nph)%nat -> (i < Nc)%nat -> jrho ph i = jrho' ph i) -> (forall ph, (ph < Nph)%nat -> jb ph = jb' ph) ->
  drv f jT jrho jb -> drv f jT' jrho' jb'.
Proof.
  intros f jT jrho jb jT' jrho' jb' -> E1 E2 D d X C. eapply is_derive_eq; [|apply (D d X C)]. unfold blockdot. f_equal; [f_equal|].
  - apply sumn_ext. intros ph Hp. apply sumn_ext. intros i Hi. now rewrite E1.
  - apply sumn_ext. intros ph Hp. now rewrite E2.
Qed.
Lemma drv_ext : forall f g jT jrho jb, (forall y, g y = f y) -> drv f jT jrho jb -> drv g jT jrho jb.
Proof.
  intros f g jT jrho jb E D d X C. refine (is_derive_ext _ _ _ _ _ (D d X C)). intro s. symmetry. apply E.
Qed.
Lemma drv_cst : forall k, drv (fun _ => k) 0 (fun _ _ => 0) (fun _ => 0).
Proof.
  intros k d X C. eapply is_derive_eq; [|apply is_derive_cst]. unfold blockdot.
  rewrite (sumn_0 Nph), (sumn_0 Nph); [ring|intros; ring|intros; apply sumn_0; intros; ring].
Qed.
Lemma drv_plus : forall f g aT ar ab bT br bb, drv f aT ar ab -> drv g bT br bb ->
  drv (fun y => f y + g y) (aT + bT) (fun ph i => ar ph i + br ph i) (fun ph => ab ph + bb ph).
Proof.
  intros f g aT ar ab bT br bb A B d X C. eapply is_derive_eq; [|apply is_derive_plus'; [apply (A d X C)|apply (B d X C)]].
  symmetry. apply blockdot_plus.
Qed.
Lemma drv_scal : forall k f aT ar ab, drv f aT ar ab -> drv (fun y => k * f y) (k * aT) (fun ph i => k * ar ph i) (fun ph => k * ab ph).
Proof.
  intros k f aT ar ab A d X C. eapply is_derive_eq; [|apply is_derive_lin, (A d X C)]. symmetry. apply blockdot_scal.
Qed.
Lemma drv_minus : forall f g aT ar ab bT br bb, drv f aT ar ab -> drv g bT br bb ->
  drv (fun y => f y - g y) (aT - bT) (fun ph i => ar ph i - br ph i) (fun ph => ab ph - bb ph).
Proof.
  intros f g aT ar ab bT br bb A B.
  apply (drv_ext (fun y => f y + (-1) * g y)); [intros; ring|].
  eapply drv_eq; [| | |apply (drv_plus _ _ _ _ _ _ _ _ A (drv_scal (-1) _ _ _ _ B))]; intros; cbv beta; ring.
Qed.
Lemma drv_mult : forall f g aT ar ab bT br bb, drv f aT ar ab -> drv g bT br bb ->
  drv (fun y => f y * g y) (g x * aT + f x * bT) (fun ph i => g x * ar ph i + f x * br ph i) (fun ph => g x * ab ph + f x * bb ph).
Proof.
  intros f g aT ar ab bT br bb A B d X C.
  eapply is_derive_eq; [|apply (is_derive_mult' (fun s => f (X s)) (fun s => g (X s))); [apply (A d X C)|apply (B d X C)]].
  cbv beta. rewrite (cv_0 _ _ _ C). rewrite (blockdot_plus (g x * aT) (fun ph i => g x * ar ph i) (fun ph => g x * ab ph)), !blockdot_scal. eqR. ring.
Qed.
Lemma drv_sumn : forall n (f : nat -> list R -> R) aT ar ab, (forall k, (k < n)%nat -> drv (f k) (aT k) (ar k) (ab k)) ->
  drv (fun y => sumn n (fun k => f k y)) (sumn n aT) (fun ph i => sumn n (fun k => ar k ph i)) (fun ph => sumn n (fun k => ab k ph)).
Proof.
  induction n as [|n IH]; intros f aT ar ab H; simpl.
  - apply drv_cst.
  - apply drv_plus; [apply IH; auto|apply H; lia].
Qed.
Lemma curve_T : forall d X, curve x d X -> is_derive (fun s => T_of (X s)) 0 (T_of d).
Proof. intros d X C. apply (cv_d _ _ _ C). rewrite Hx. unfold Nindependent. lia. Qed.
Lemma drv_T : drv T_of 1 (fun _ _ => 0) (fun _ => 0).
Proof.
  intros d X C. eapply is_derive_eq; [|apply (curve_T d X C)]. unfold blockdot.
  rewrite (sumn_0 Nph), (sumn_0 Nph); [ring|intros; ring|intros; apply sumn_0; intros; ring].
Qed.
Lemma drv_beta : forall k, (k < Nph)%nat -> drv (fun y => beta_of Nc Nph y k) 0 (fun _ _ => 0) (fun ph => if Nat.eqb ph k then 1 else 0).
Proof.
  intros k Hk d X C. eapply is_derive_eq; [|apply (cv_d _ _ _ C); rewrite Hx; unfold Nindependent; nia]. unfold blockdot.
  rewrite (sumn_0 Nph) by (intros; apply sumn_0; intros; ring).
  rewrite (sumn_ext Nph (fun ph => (if Nat.eqb ph k then 1 else 0) * beta_of Nc Nph d ph) (fun ph => if Nat.eqb ph k then beta_of Nc Nph d ph else 0)).
  - rewrite (sumn_delta Nph k (beta_of Nc Nph d) Hk). unfold beta_of. eqR. ring.
  - intros i Hi. destruct (Nat.eqb i k); ring.
Qed.
Lemma curve_path : forall d X ph, curve x d X -> (ph < Nph)%nat ->
  path (T_of x) (rho_of Nc x ph) (T_of d) (rho_of Nc d ph) (fun s => T_of (X s)) (fun s => rho_of Nc (X s) ph).
Proof.
  intros d X ph C Hp. split.
  - now rewrite (cv_0 _ _ _ C).
  - now rewrite (cv_0 _ _ _ C).
  - intro s. now rewrite !rho_of_length.
  - apply (curve_T d X C).
  - rewrite rho_of_length. intros i Hi. rewrite rho_of_nth by auto.
    refine (is_derive_ext (fun s => nth (1 + ph * Nc + i) (X s) 0) _ _ _ _ _).
    + intro s. symmetry. now rewrite rho_of_nth.
    + apply (cv_d _ _ _ C). rewrite Hx. unfold Nindependent. nia.
Qed.
(** a property of one phase *)
Lemma drv_phase : forall ph f fT fr, (ph < Nph)%nat -> ders (T_of x) (rho_of Nc x ph) f fT fr ->
  drv (fun y => f (T_of y) (rho_of Nc y ph)) fT (fun k i => if Nat.eqb k ph then fr i else 0) (fun _ => 0).
Proof.
  intros ph f fT fr Hp D d X C. eapply is_derive_eq; [|apply (D _ _ _ _ (curve_path d X ph C Hp))].
  rewrite rho_of_length. unfold blockdot.
  rewrite (sumn_ext Nph (fun k => sumn Nc (fun i => (if Nat.eqb k ph then fr i else 0) * nth i (rho_of Nc d k) 0))
    (fun k => if Nat.eqb k ph then sumn Nc (fun i => fr i * nth i (rho_of Nc d k) 0) else 0)).
  2: { intros k Hk. destruct (Nat.eqb k ph); [reflexivity|]. apply sumn_0. intros; ring. }
  rewrite (sumn_delta Nph ph (fun k => sumn Nc (fun i => fr i * nth i (rho_of Nc d k) 0)) Hp).
  rewrite (sumn_0 Nph) by (intros; ring). eqR. ring.
Qed.
(** a property summed over the phases with the phase fractions *)
Lemma delta_sum : forall n k (c : nat -> R), (k < n)%nat -> sumn n (fun i => if Nat.eqb k i then c i else 0) = c k.
Proof. intros n k c H. rewrite <- (sumn_delta n k c H). apply sumn_ext. intros i _. now rewrite Nat.eqb_sym. Qed.
Lemma drv_overall : forall (f : R -> list R -> R) (fT : nat -> R) (fr : nat -> nat -> R),
  (forall ph, (ph < Nph)%nat -> ders (T_of x) (rho_of Nc x ph) f (fT ph) (fr ph)) ->
  drv (fun y => sum_phases Nph (fun ph => beta_of Nc Nph y ph * f (T_of y) (rho_of Nc y ph)))
    (sum_phases Nph (fun ph => beta_of Nc Nph x ph * fT ph)) (fun ph i => beta_of Nc Nph x ph * fr ph i)
    (fun ph => f (T_of x) (rho_of Nc x ph)).
Proof.
  intros f fT fr D.
  apply (drv_ext (fun y => sumn Nph (fun ph => beta_of Nc Nph y ph * f (T_of y) (rho_of Nc y ph)))); [intro y; apply sum_phases_sumn|].
  rewrite sum_phases_sumn.
  eapply drv_eq; [| | |apply (drv_sumn Nph); intros k Hk; apply (drv_mult _ _ _ _ _ _ _ _ (drv_beta k Hk) (drv_phase k _ _ _ Hk (D k Hk)))].
  - apply sumn_ext. intros; ring.
  - intros ph i Hp Hi. cbv beta.
    rewrite <- (delta_sum Nph ph (fun k => beta_of Nc Nph x k * fr k i) Hp). apply sumn_ext. intros k Hk. destruct (Nat.eqb ph k); ring.
  - intros ph Hp. cbv beta.
    rewrite <- (delta_sum Nph ph (fun k => f (T_of x) (rho_of Nc x k)) Hp). apply sumn_ext. intros k Hk. destruct (Nat.eqb ph k); ring.
Qed.

(** ** Lists of rows *)
Definition row_ok (r : list R -> R * list R) : Prop :=
  forall d X, curve x d X -> is_derive (fun s => fst (r (X s))) 0 (rowdot (snd (r x)) d).
Definition rows_ok (L : list R -> list (R * list R)) : Prop :=
  (forall y, length y = length x -> length (L y) = length (L x)) /\
  forall k, (k < length (L x))%nat -> row_ok (fun y => nth k (L y) (0, [])).
Lemma row_drv : forall f jT jrho jb g, drv f jT jrho jb -> (forall y, fst (g y) = f y) -> snd (g x) = flat Nc Nph jT jrho jb -> row_ok g.
Proof.
  intros f jT jrho jb g D E1 E2 d X C. rewrite E2, rowdot_flat. refine (is_derive_ext _ _ _ _ _ (D d X C)). intro s. symmetry. apply E1.
Qed.
Lemma rows_nil : rows_ok (fun _ => []). Proof. split; [reflexivity|]. simpl. lia. Qed.
Lemma rows_app : forall A B, rows_ok A -> rows_ok B -> rows_ok (fun y => A y ++ B y).
Proof.
  intros A B [LA HA] [LB HB]. split; [intros y Hy; rewrite !app_length; rewrite LA, LB; auto|].
  intros k Hk. rewrite app_length in Hk.
  destruct (lt_dec k (length (A x))) as [H|H].
  - intros d X C. rewrite app_nth1 by auto. refine (is_derive_ext _ _ _ _ _ (HA k H d X C)). intro s. rewrite app_nth1; [reflexivity|].
    rewrite LA; auto. apply (cv_len _ _ _ C).
  - intros d X C. rewrite app_nth2 by lia. refine (is_derive_ext _ _ _ _ _ (HB (k - length (A x))%nat _ d X C)); [|lia].
    intro s. rewrite (app_nth2 (A (X s))) by (rewrite LA; [lia|apply (cv_len _ _ _ C)]). now rewrite (LA (X s)) by apply (cv_len _ _ _ C).
Qed.
Lemma rows_map : forall {A} (l : list A) (f : list R -> A -> R * list R), (forall a, In a l -> row_ok (fun y => f y a)) -> rows_ok (fun y => map (f y) l).
Proof.
  intros A l f H. induction l as [|a l IH]; [exact rows_nil|].
  assert (I : rows_ok (fun y => map (f y) l)) by (apply IH; intros; apply H; now right). destruct I as [L I].
  split; [intros; now rewrite !map_length|]. intros k Hk. cbn [map]. destruct k as [|k]; [apply H; now left|].
  apply I. cbn [map length] in Hk. lia.
Qed.
Lemma rows_concat : forall {A} (l : list A) (f : list R -> A -> list (R * list R)), (forall a, In a l -> rows_ok (fun y => f y a)) ->
  rows_ok (fun y => concat (map (f y) l)).
Proof.
  intros A l f H. induction l as [|a l IH]; [exact rows_nil|]. cbn [map concat]. apply rows_app; [apply H; now left|].
  apply IH. intros; apply H; now right.
Qed.
End Flat.

(** ** The rows of [call] *)
Section Rows.
Variable ad : (list R -> R) -> list nat -> list R -> R.
Hypothesis Had : AD_exact ad.
Variable alphar : R -> R -> list R -> R.
Variable Rgas : list R -> R.
Variable ideal : option ((R -> R -> list R -> R) * (list R -> R)).
Variable Rg : R.
Hypothesis HR : forall x, Rgas x = Rg.
Hypothesis HR0 : 0 < Rg.
Variables (Nc Nph : nat).
Hypothesis HNc : (1 <= Nc)%nat.
Variable x : list R.
Hypothesis Hx : length x = Nindependent Nc Nph.
Hypothesis HT : 0 < T_of x.
Hypothesis Hpos : forall ph, (ph < Nph)%nat -> positive (rho_of Nc x ph).
Hypothesis HX : forall ph, (ph < Nph)%nat -> smooth_joint alphar Rgas (T_of x) (rho_of Nc x ph).
Hypothesis HI : forall aig Rig, ideal = Some (aig, Rig) -> (forall y, Rig y = Rg) /\
  forall ph, (ph < Nph)%nat -> smooth_joint aig Rig (T_of x) (rho_of Nc x ph).

Lemma tot_pos : forall ph, (ph < Nph)%nat -> 0 < total (rho_of Nc x ph).
Proof. intros ph Hp. apply total_pos, Hpos, Hp. Qed.

Lemma ders_x : forall ph i, (ph < Nph)%nat -> (i < Nc)%nat ->
  ders (T_of x) (rho_of Nc x ph) (fun _ y => nth i y 0 / vsum y) 0
    (fun j => ((if Nat.eqb i j then 1 else 0) - nth i (rho_of Nc x ph) 0 / vsum (rho_of Nc x ph)) / vsum (rho_of Nc x ph)).
Proof.
  intros ph i Hp Hi. pose proof (tot_pos ph Hp) as P.
  assert (V : ders (T_of x) (rho_of Nc x ph) (fun _ y => / vsum y) 0 (fun _ => - / (vsum (rho_of Nc x ph)) ^ 2)) by exact (ders_vol _ _ P).
  assert (L : (i < length (rho_of Nc x ph))%nat) by now rewrite rho_of_length.
  eapply ders_eq; [| |exact (ders_mult _ _ _ _ _ _ _ _ (ders_rho (T_of x) _ i L) V)].
  - ring.
  - intros j _. cbv beta. rewrite (Nat.eqb_sym j i), vsum_total. destruct (Nat.eqb i j); field; lra.
Qed.

Lemma balance_ok : forall z, rows_ok Nc Nph x (balance_rows Nc Nph z).
Proof.
  intro z. unfold balance_rows. apply rows_map; [exact Hx|]. intros i Hi. apply in_seq in Hi.
  assert (D := drv_minus Nc Nph x _ _ _ _ _ _ _ _ (drv_overall Nc Nph x Hx (fun _ y => nth i y 0 / vsum y) (fun _ => 0) _ (fun ph Hp => ders_x ph i Hp ltac:(lia)))
     (drv_cst Nc Nph x (nth i z 0))).
  eapply row_drv; [| |reflexivity]; [|intro y; reflexivity].
  eapply drv_eq; [| | |exact D].
  - rewrite sum_phases_sumn, sumn_0; [ring|intros; ring].
  - intros ph j _ _. cbv beta. unfold Rdiv. ring.
  - intros ph _. cbv beta. ring.
Qed.
Lemma sum_row_ok : row_ok Nc Nph x (sum_row Nc Nph).
Proof.
  assert (D := drv_minus Nc Nph x _ _ _ _ _ _ _ _ (drv_overall Nc Nph x Hx (fun _ _ => 1) (fun _ => 0) (fun _ _ => 0) (fun ph Hp => ders_cst (T_of x) (rho_of Nc x ph) 1))
     (drv_cst Nc Nph x 1)).
  eapply row_drv; [| |reflexivity]; [eapply drv_ext; [|eapply drv_eq; [| | |exact D]]|intro y; reflexivity].
  - intro y. unfold sum_row. cbn [fst]. rewrite !sum_phases_sumn. f_equal. apply sumn_ext. intros; ring.
  - rewrite sum_phases_sumn, sumn_0; [ring|intros; ring].
  - intros; cbv beta; ring.
  - intros; cbv beta; ring.
Qed.
Lemma HI' : forall aig Rig ph, ideal = Some (aig, Rig) -> (ph < Nph)%nat -> (forall y, Rig y = Rg) /\
  exists G H Gi Hi, twice_at (fun y => Psi_r alphar Rgas (hd 0 y) (tl y)) (T_of x :: rho_of Nc x ph) G H /\
    twice_at (fun y => Psi_r aig Rig (hd 0 y) (tl y)) (T_of x :: rho_of Nc x ph) Gi Hi.
Proof.
  intros aig Rig ph E Hp. destruct (HI _ _ E) as [A B]. split; [exact A|].
  destruct (HX ph Hp) as (G & H & P). destruct (B ph Hp) as (Gi & Hi & Q). now exists G, H, Gi, Hi.
Qed.
Lemma caloric_ok : forall target (v : R -> list R -> R) vT vr,
  (forall ph, (ph < Nph)%nat -> ders (T_of x) (rho_of Nc x ph) v (vT (T_of x) (rho_of Nc x ph)) (vr (T_of x) (rho_of Nc x ph))) ->
  row_ok Nc Nph x (fun y => caloric_row Nc Nph y target (fun ph => v (T_of y) (rho_of Nc y ph)) (fun ph => vT (T_of y) (rho_of Nc y ph))
    (fun ph => vr (T_of y) (rho_of Nc y ph))).
Proof.
  intros target v vT vr D.
  assert (E := drv_minus Nc Nph x _ _ _ _ _ _ _ _ (drv_overall Nc Nph x Hx v _ _ D) (drv_cst Nc Nph x target)).
  eapply row_drv; [|intro y; reflexivity|reflexivity].
  eapply drv_eq; [| | |exact E]; intros; cbv beta; ring.
Qed.
Definition spec_row_v (y : list R) (s : spec) : R * list R :=
  match spec_row ad alphar Rgas ideal Rg Nc Nph y s with Some (Val v) => v | _ => (0, []) end.
Lemma spec_ok : forall s, (1 <= Nph)%nat -> (exists v, spec_row ad alphar Rgas ideal Rg Nc Nph x s = Some (Val v)) ->
  row_ok Nc Nph x (fun y => spec_row_v y s).
Proof.
  intros s H1 [v0 Ev].
  destruct s as [T0|b k|p|v|s0|u0|h0]; unfold spec_row_v; cbn [spec_row] in Ev |- *.
  - eapply row_drv; [|intro y; reflexivity|reflexivity].
    eapply drv_eq; [| | |exact (drv_minus Nc Nph x _ _ _ _ _ _ _ _ (drv_T Nc Nph x Hx) (drv_cst Nc Nph x T0))]; intros; cbv beta; ring.
  - destruct (Nat.ltb k Nph) eqn:Ek; [|discriminate]. apply Nat.ltb_lt in Ek.
    eapply row_drv; [|intro y; reflexivity|reflexivity].
    eapply drv_eq; [| | |exact (drv_minus Nc Nph x _ _ _ _ _ _ _ _ (drv_beta Nc Nph x Hx k Ek) (drv_cst Nc Nph x b))]; intros; cbv beta; ring.
  - destruct (HX 0%nat H1) as (G & H & X).
    eapply row_drv; [|intro y; reflexivity|reflexivity].
    eapply drv_eq; [| | |exact (drv_minus Nc Nph x _ _ _ _ _ _ _ _ (drv_phase Nc Nph x Hx 0%nat _ _ _ H1
       (ders_p ad Had alphar Rgas Rg HR HR0 _ _ HT (tot_pos 0%nat H1) G H X)) (drv_cst Nc Nph x p))]; intros; cbv beta; ring.
  - eapply row_drv; [|intro y; reflexivity|reflexivity].
    assert (E := drv_minus Nc Nph x _ _ _ _ _ _ _ _ (drv_overall Nc Nph x Hx (fun _ y => / q_rho y) (fun _ => 0) _
      (fun ph Hp => ders_vol (T_of x) _ (tot_pos ph Hp))) (drv_cst Nc Nph x v)).
    eapply drv_ext; [|eapply drv_eq; [| | |exact E]].
    + intro y. cbv beta. cbn [fst]. reflexivity.
    + rewrite sum_phases_sumn, sumn_0; [ring|intros; ring].
    + intros ph i Hp _. cbv beta. assert (q_rho (rho_of Nc x ph) <> 0) by exact (qrho_pos _ (tot_pos ph Hp)). field. auto.
    + intros ph Hp. cbv beta. assert (q_rho (rho_of Nc x ph) <> 0) by exact (qrho_pos _ (tot_pos ph Hp)). field. auto.
  - pose proof HI' as K. destruct ideal as [[aig Rig]|]; [|discriminate].
    apply (caloric_ok s0 (fun t y => c_s ad alphar Rgas Rg t y aig) (fun t y => c_dsdT ad alphar Rg t y aig) (fun t y => c_dsdrho ad alphar Rgas Rg t y aig Rig)).
    intros ph Hp. destruct (K _ _ ph eq_refl Hp) as (A & G & H & Gi & Hi & X & Xi).
    exact (ders_s ad Had alphar Rgas aig Rig Rg HR A HR0 _ _ HT (tot_pos ph Hp) G H X Gi Hi Xi).
  - pose proof HI' as K. destruct ideal as [[aig Rig]|]; [|discriminate].
    apply (caloric_ok u0 (fun t y => c_u ad alphar Rgas Rg t y aig) (fun t y => c_dudT ad alphar Rgas Rg t y aig) (fun t y => c_dudrho ad alphar Rgas Rg t y aig Rig)).
    intros ph Hp. destruct (K _ _ ph eq_refl Hp) as (A & G & H & Gi & Hi & X & Xi).
    exact (ders_u ad Had alphar Rgas aig Rig Rg HR A HR0 _ _ HT (tot_pos ph Hp) G H X Gi Hi Xi).
  - pose proof HI' as K. destruct ideal as [[aig Rig]|]; [|discriminate].
    apply (caloric_ok h0 (fun t y => c_h ad alphar Rgas Rg t y aig) (fun t y => c_dhdT ad alphar Rgas Rg t y aig) (fun t y => c_dhdrho ad alphar Rgas Rg t y aig Rig)).
    intros ph Hp. destruct (K _ _ ph eq_refl Hp) as (A & G & H & Gi & Hi & X & Xi).
    exact (ders_h ad Had alphar Rgas aig Rig Rg HR A HR0 _ _ HT (tot_pos ph Hp) G H X Gi Hi Xi).
Qed.
(** which outcome a specification gives does not depend on the unknowns *)
Lemma spec_row_indep : forall s y y' v, spec_row ad alphar Rgas ideal Rg Nc Nph y s = Some (Val v) ->
  exists v', spec_row ad alphar Rgas ideal Rg Nc Nph y' s = Some (Val v').
Proof.
  clear HI. intros s y y' v. destruct s; simpl; try (eexists; reflexivity); try (destruct ideal as [[? ?]|]; [eexists; reflexivity|discriminate]).
  destruct (Nat.ltb iphase Nph); [eexists; reflexivity|discriminate].
Qed.
Lemma spec_rows_map : forall l y rows, spec_rows ad alphar Rgas ideal Rg Nc Nph y l = Some (Val rows) ->
  rows = map (spec_row_v y) l /\ forall s, In s l -> exists v, spec_row ad alphar Rgas ideal Rg Nc Nph y s = Some (Val v).
Proof.
  induction l as [|s l IH]; intros y rows E; simpl in E; [injection E as <-; split; [reflexivity|intros ? []]|].
  destruct (spec_row ad alphar Rgas ideal Rg Nc Nph y s) as [[v|]|] eqn:Es; try discriminate.
  destruct (spec_rows ad alphar Rgas ideal Rg Nc Nph y l) as [[rows'|]|] eqn:El; try discriminate.
  injection E as <-. destruct (IH _ _ El) as [-> I]. split.
  - simpl. f_equal. unfold spec_row_v. now rewrite Es.
  - intros s' [<-|Hin]; [eauto|auto].
Qed.
Lemma spec_rows_val : forall l y, (forall s, In s l -> exists v, spec_row ad alphar Rgas ideal Rg Nc Nph y s = Some (Val v)) ->
  spec_rows ad alphar Rgas ideal Rg Nc Nph y l = Some (Val (map (spec_row_v y) l)).
Proof.
  induction l as [|s l IH]; intros y H; [reflexivity|]. simpl.
  destruct (H s (or_introl eq_refl)) as [v E]. unfold spec_row_v at 1. rewrite E, IH; auto. intros; apply H; now right.
Qed.
(** the equilibrium rows, where they are right: at most two phases (of two components) *)
Lemma p_rows_ok : (Nph <= 2)%nat -> rows_ok Nc Nph x (p_rows ad alphar Rgas Rg Nc Nph).
Proof.
  intro H2. unfold p_rows. apply rows_map; [exact Hx|]. intros ph Hin. apply in_seq in Hin.
  assert (H0 : (0 < Nph)%nat) by lia. assert (H1 : (ph < Nph)%nat) by lia.
  destruct (HX 0%nat H0) as (G & H & X). destruct (HX ph H1) as (G' & H' & X').
  eapply row_drv; [|intro y; reflexivity|reflexivity].
  eapply drv_eq; [| | |exact (drv_minus Nc Nph x _ _ _ _ _ _ _ _
    (drv_phase Nc Nph x Hx 0%nat _ _ _ H0 (ders_p ad Had alphar Rgas Rg HR HR0 _ _ HT (tot_pos 0%nat H0) G H X))
    (drv_phase Nc Nph x Hx ph _ _ _ H1 (ders_p ad Had alphar Rgas Rg HR HR0 _ _ HT (tot_pos ph H1) G' H' X')))].
  - reflexivity.
  - intros k i Hk _. cbv beta. destruct (Nat.eqb_spec k 0); destruct (Nat.eqb_spec k ph); subst; try lia; ring.
  - intros; cbv beta; ring.
Qed.
Lemma lnf_rows_ok : (Nph <= 1 \/ (Nph = 2 /\ Nc = 2))%nat -> rows_ok Nc Nph x (lnf_rows ad alphar Rgas Rg Nc Nph).
Proof.
  intro H2. unfold lnf_rows. apply rows_concat; [exact Hx|]. intros ph Hin. apply in_seq in Hin.
  destruct H2 as [H2|[H2 H3]]; [lia|].
  assert (H0 : (0 < Nph)%nat) by lia. assert (H1 : (ph < Nph)%nat) by lia.
  destruct (HX 0%nat H0) as (G & H & X). destruct (HX ph H1) as (G' & H' & X').
  apply rows_map; [exact Hx|]. intros i Hi. apply in_seq in Hi.
  assert (L0 : (i < length (rho_of Nc x 0%nat))%nat) by (rewrite rho_of_length; lia).
  assert (L1 : (i < length (rho_of Nc x ph))%nat) by (rewrite rho_of_length; lia).
  eapply row_drv; [|intro y; reflexivity|reflexivity].
  eapply drv_eq; [| | |exact (drv_minus Nc Nph x _ _ _ _ _ _ _ _
    (drv_phase Nc Nph x Hx 0%nat _ _ _ H0 (ders_lnf ad Had alphar Rgas Rg HR0 _ _ HT G H X i L0 (proj2 (Hpos 0%nat H0) i L0)))
    (drv_phase Nc Nph x Hx ph _ _ _ H1 (ders_lnf ad Had alphar Rgas Rg HR0 _ _ HT G' H' X' i L1 (proj2 (Hpos ph H1) i L1))))].
  - reflexivity.
  - intros k j Hk _. cbv beta. assert (k = 0 \/ k = 1)%nat as [->| ->] by lia; rewrite H3; simpl.
    + destruct ph; [lia|]. ring.
    + assert (ph = 1)%nat as -> by lia. simpl. ring.
  - intros; cbv beta; ring.
Qed.
End Rows.
