(** Proofs about the model of COSMO-SAC. *)
From Coq Require Import Reals ZArith String List Bool Lra Lia FunctionalExtensionality.
From Verif Require Import Json_model Vec_spec Vec_proofs Cubic_model Terms_model Ideal_model Ideal_proofs Assoc_model COSMO_model COSMO_spec.
Import ListNotations.
Local Open Scope R_scope.

(** ** Sums *)
Lemma sumn_pos_lt : forall n f i, (forall j, (j < n)%nat -> 0 <= f j) -> (i < n)%nat -> 0 < f i -> 0 < sumn n f.
Proof. intros n f i H Hi P. apply Rlt_le_trans with (f i); [assumption|]. now apply sumn_term. Qed.
Lemma sumn_app : forall n m f, sumn (n + m) f = sumn n f + sumn m (fun k => f (n + k)%nat).
Proof. intros n m f. induction m; [rewrite Nat.add_0_r; cbn; ring|]. rewrite Nat.add_succ_r. cbn [sumn]. rewrite IHm. ring. Qed.
Lemma sumn_window : forall n l w f, (l + w <= n)%nat -> (forall k, (k < n)%nat -> ~ (l <= k < l + w)%nat -> f k = 0) -> sumn n f = sumn w (fun k => f (l + k)%nat).
Proof.
  intros n l w f Hn H. replace n with (l + (w + (n - l - w)))%nat by lia. rewrite !sumn_app.
  rewrite (sumn_0 l), (sumn_0 (n - l - w)); [ring| |]; intros i Hi; apply H; lia.
Qed.
Lemma sumn_blocks : forall a b f, sumn (a * b) f = sumn a (fun t => sumn b (fun k => f (b * t + k)%nat)).
Proof. intros a b f. induction a; [reflexivity|]. cbn [sumn]. replace (S a * b)%nat with (a * b + b)%nat by lia. rewrite sumn_app, IHa. f_equal. apply sumn_ext. intros i _. f_equal. lia. Qed.
Lemma sumn_max : forall n (f : nat -> R), (0 < n)%nat -> exists i, (i < n)%nat /\ forall j, (j < n)%nat -> f j <= f i.
Proof.
  intros n f H. induction n as [|n IH]; [lia|]. destruct n as [|n]. { exists 0%nat. split; [lia|]. intros j Hj. replace j with 0%nat by lia. lra. }
  destruct IH as (i & Hi & P); [lia|]. destruct (Rle_dec (f i) (f (S n))) as [D|D].
  - exists (S n). split; [lia|]. intros j Hj. destruct (Nat.eq_dec j (S n)) as [->|N]; [lra|]. apply Rle_trans with (f i); [apply P; lia|assumption].
  - exists i. split; [lia|]. intros j Hj. destruct (Nat.eq_dec j (S n)) as [->|N]; [lra|]. apply P. lia.
Qed.

(** ** Scaling equations *)
Section scaling.
Variables (n : nat) (F : nat -> nat -> R).
Hypothesis Fpos : forall i j, (i < n)%nat -> (j < n)%nat -> 0 < F i j.
Lemma row_pos : forall p G i, shares n p -> (forall j, (j < n)%nat -> 0 < G j) -> (i < n)%nat -> 0 < sumn n (fun j => F i j * p j * G j).
Proof.
  intros p G i [P (k & Hk & Pk)] HG Hi. apply sumn_pos_lt with k; [|assumption|].
  - intros j Hj. pose proof (Fpos i j Hi Hj). pose proof (HG j Hj). pose proof (P j Hj). apply Rmult_le_pos; [apply Rmult_le_pos|]; lra.
  - apply Rmult_lt_0_compat; [apply Rmult_lt_0_compat|]; auto.
Qed.
Lemma row_le : forall p G H i c, (forall j, (j < n)%nat -> 0 <= p j) -> (i < n)%nat -> (forall j, (j < n)%nat -> 0 < p j -> G j <= c * H j) ->
  sumn n (fun j => F i j * p j * G j) <= c * sumn n (fun j => F i j * p j * H j).
Proof.
  intros p G H i c P Hi L. rewrite <- sumn_scal. apply sumn_le. intros j Hj. pose proof (Fpos i j Hi Hj). pose proof (P j Hj).
  replace (c * (F i j * p j * H j)) with (F i j * p j * (c * H j)) by ring. destruct (Req_dec (p j) 0) as [Z|Z]; [rewrite Z; lra|].
  apply Rmult_le_compat_l; [apply Rmult_le_pos; lra|]. apply L; [assumption|lra].
Qed.
(** If the largest ratio of two solutions is [a], the other segments present have ratio 1/a. *)
Lemma ratio_extreme : forall p G H i a, shares n p -> solves n F p G -> solves n F p H -> (i < n)%nat -> G i = a * H i ->
  (forall j, (j < n)%nat -> / a * H j <= G j) -> forall j, (j < n)%nat -> 0 < p j -> G j = / a * H j.
Proof.
  intros p G H i a P SG SH Hi E L j Hj Pj. destruct P as [P _]. destruct (SG i Hi) as [Gi EG]. destruct (SH i Hi) as [Hpi EH].
  assert (a0 : 0 < a). { destruct (Rle_dec a 0) as [D|D]; [|lra]. exfalso. assert (a * H i <= 0) by (replace 0 with (0 * H i) by ring; apply Rmult_le_compat_r; lra). lra. }
  destruct (Rle_lt_or_eq_dec _ _ (L j Hj)) as [LT|EQ]; [exfalso|now symmetry].
  assert (S1 : / a * sumn n (fun k => F i k * p k * H k) < sumn n (fun k => F i k * p k * G k)).
  { rewrite <- sumn_scal. apply Rminus_gt_0_lt. rewrite <- sumn_minus. apply sumn_pos_lt with j; [|assumption|].
    - intros k Hk. pose proof (Fpos i k Hi Hk). pose proof (P k Hk). pose proof (L k Hk). replace (F i k * p k * G k - / a * (F i k * p k * H k)) with (F i k * p k * (G k - / a * H k)) by ring. apply Rmult_le_pos; [apply Rmult_le_pos|]; lra.
    - pose proof (Fpos i j Hi Hj). replace (F i j * p j * G j - / a * (F i j * p j * H j)) with (F i j * p j * (G j - / a * H j)) by ring. apply Rmult_lt_0_compat; [apply Rmult_lt_0_compat|]; lra. }
  rewrite E in EG. assert (X : a * H i * (/ a * sumn n (fun k => F i k * p k * H k)) < 1) by (rewrite <- EG; apply Rmult_lt_compat_l; [rewrite <- E; assumption|assumption]).
  replace (a * H i * (/ a * sumn n (fun k => F i k * p k * H k))) with (H i * sumn n (fun k => F i k * p k * H k)) in X by (field; lra). lra.
Qed.
Lemma solves_unique : forall p G H, shares n p -> solves n F p G -> solves n F p H -> forall i, (i < n)%nat -> G i = H i.
Proof.
  intros p G H P SG SH. assert (n0 : (0 < n)%nat) by (destruct P as [_ (k & Hk & _)]; lia).
  (* c: the largest of the ratios and their inverses *)
  assert (forall p G H, shares n p -> solves n F p G -> solves n F p H -> forall i, (i < n)%nat -> (forall j, (j < n)%nat -> Rmax (G j / H j) (H j / G j) <= Rmax (G i / H i) (H i / G i)) -> H i <= G i -> forall j, (j < n)%nat -> G j = H j) as K.
  { clear p G H P SG SH. intros p G H P SG SH i Hi M LE j Hj. assert (pos : forall j, (j < n)%nat -> 0 < G j /\ 0 < H j) by (intros k Hk; split; [apply (SG k Hk)|apply (SH k Hk)]).
    set (a := G i / H i). destruct (pos i Hi) as [Gi Hpi]. assert (a1 : 1 <= a) by (unfold a; apply Rmult_le_reg_r with (H i); [assumption|]; unfold Rdiv; rewrite Rmult_assoc, Rinv_l, Rmult_1_r by lra; lra).
    assert (Ra : Rmax (G i / H i) (H i / G i) = a). { apply Rmax_left. fold a. replace (H i / G i) with (/ a) by (unfold a; field; lra). apply Rle_trans with 1; [|assumption]. rewrite <- Rinv_1. apply Rinv_le_contravar; lra. }
    rewrite Ra in M.
    assert (U : forall k, (k < n)%nat -> G k <= a * H k). { intros k Hk. destruct (pos k Hk). pose proof (Rle_trans _ _ _ (Rmax_l _ _) (M k Hk)) as X. apply Rmult_le_compat_r with (r := H k) in X; [|lra]. unfold Rdiv in X. rewrite Rmult_assoc, Rinv_l, Rmult_1_r in X by lra. exact X. }
    assert (L : forall k, (k < n)%nat -> / a * H k <= G k). { intros k Hk. destruct (pos k Hk). pose proof (Rle_trans _ _ _ (Rmax_r _ _) (M k Hk)) as X. apply Rmult_le_compat_r with (r := G k) in X; [|lra]. unfold Rdiv in X. rewrite Rmult_assoc, Rinv_l, Rmult_1_r in X by lra. apply Rmult_le_reg_l with a; [lra|]. rewrite <- Rmult_assoc, Rinv_r, Rmult_1_l by lra. exact X. }
    assert (E : G i = a * H i) by (unfold a; field; lra).
    pose proof (ratio_extreme p G H i a P SG SH Hi E L) as X.
    pose proof P as [_ (k & Hk & Pk)]. pose proof (X k Hk Pk) as Xk.
    (* at a segment that is present the ratio is 1/a; then the others present have ratio a *)
    assert (Y : H k = a * G k) by (rewrite Xk; field; lra).
    assert (L' : forall k, (k < n)%nat -> / a * G k <= H k). { intros m Hm. apply Rmult_le_reg_l with a; [lra|]. rewrite <- Rmult_assoc, Rinv_r, Rmult_1_l by lra. now apply U. }
    pose proof (ratio_extreme p H G k a P SH SG Hk Y L' k Hk Pk) as Z. destruct (pos k Hk) as [Gk _].
    assert (A1 : a = 1). { rewrite Y in Z. apply Rmult_eq_reg_r in Z; [|lra]. assert (a * a = 1) by (rewrite Z at 2; field; lra). nra. }
    pose proof (U j Hj) as U1. pose proof (L j Hj) as L1. rewrite A1 in U1, L1. rewrite Rinv_1 in L1. lra. }
  destruct (sumn_max n (fun j => Rmax (G j / H j) (H j / G j)) n0) as (i & Hi & M). intros j Hj.
  destruct (Rle_dec (H i) (G i)) as [D|D]; [now apply (K p G H P SG SH i Hi M D)|].
  symmetry. apply (K p H G P SH SG i Hi); [|lra|assumption]. intros k Hk. rewrite (Rmax_comm (H k / G k)), (Rmax_comm (H i / G i)). now apply M.
Qed.
End scaling.

(** ** The iteration *)
Definition fresh (upd : nat -> bool) (tot : (nat -> R) -> nat -> R) (G : nat -> R) (i : nat) : R := if upd i then 1 / tot G i else 1.
Definition turn (upd : nat -> bool) (tot : (nat -> R) -> nat -> R) (G : nat -> R) (i : nat) : R := if upd i then (G i + fresh upd tot G i) / 2 else G i.
Definition defined (upd : nat -> bool) (tot : (nat -> R) -> nat -> R) (G : nat -> R) : bool :=
  forallb (fun i => if upd i then if Req_EM_T (tot G i) 0 then false else if Req_EM_T (turn upd tot G i) 0 then false else true else true) (seq 0 153).
Definition stops (tol : R) (upd : nat -> bool) (tot : (nat -> R) -> nat -> R) (G : nat -> R) : bool :=
  forallb (fun i => if Rlt_dec (Rabs ((turn upd tot G i - fresh upd tot G i) / turn upd tot G i)) tol then true else false) (seq 0 153).
Lemma loop_eq : forall c upd tot fuel G, gamma_loop c upd tot fuel G =
  if defined upd tot G then if stops (k_tol (c_const c)) upd tot G then ok (turn upd tot G)
    else match fuel with O => throws StdInvalidArgument | S f => gamma_loop c upd tot f (turn upd tot G) end else None.
Proof. intros c upd tot [|f] G; reflexivity. Qed.
Lemma defined_iff : forall upd tot G, defined upd tot G = true <-> forall i, (i < 153)%nat -> upd i = true -> tot G i <> 0 /\ turn upd tot G i <> 0.
Proof.
  intros upd tot G. unfold defined. rewrite forallb_forall. split.
  - intros H i Hi U. specialize (H i ltac:(apply in_seq; lia)). rewrite U in H. destruct (Req_EM_T (tot G i) 0); [discriminate|]. destruct (Req_EM_T (turn upd tot G i) 0); [discriminate|]. auto.
  - intros H i Hi. apply in_seq in Hi. destruct (upd i) eqn:U; [|reflexivity]. destruct (H i ltac:(lia) U). destruct (Req_EM_T (tot G i) 0); [contradiction|]. destruct (Req_EM_T (turn upd tot G i) 0); [contradiction|reflexivity].
Qed.
Lemma stops_iff : forall tol upd tot G, stops tol upd tot G = true <-> forall i, (i < 153)%nat -> Rabs ((turn upd tot G i - fresh upd tot G i) / turn upd tot G i) < tol.
Proof.
  intros tol upd tot G. unfold stops. rewrite forallb_forall. split.
  - intros H i Hi. specialize (H i ltac:(apply in_seq; lia)). destruct (Rlt_dec _ _); [assumption|discriminate].
  - intros H i Hi. apply in_seq in Hi. specialize (H i ltac:(lia)). destruct (Rlt_dec _ _); [reflexivity|contradiction].
Qed.
Lemma iter_succ_r : forall (t : (nat -> R) -> nat -> R) k G, Nat.iter (S k) t G = Nat.iter k t (t G).
Proof. intros t k G. induction k; [reflexivity|]. cbn in *. now rewrite IHk. Qed.
Lemma loop_ok : forall c upd tot fuel G G', gamma_loop c upd tot fuel G = ok G' ->
  exists k, (k <= fuel)%nat /\ let H := Nat.iter k (turn upd tot) G in G' = turn upd tot H /\ defined upd tot H = true /\ stops (k_tol (c_const c)) upd tot H = true.
Proof.
  intros c upd tot fuel. induction fuel as [|f IH]; intros G G' E; rewrite loop_eq in E.
  - destruct (defined upd tot G) eqn:D; [|discriminate]. destruct (stops _ upd tot G) eqn:S; [|discriminate]. injection E as <-. exists 0%nat. cbn. auto.
  - destruct (defined upd tot G) eqn:D; [|discriminate]. destruct (stops _ upd tot G) eqn:S. { injection E as <-. exists 0%nat. cbn. split; [lia|auto]. }
    destruct (IH _ _ E) as (k & Hk & P). exists (Datatypes.S k). split; [lia|]. rewrite iter_succ_r. exact P.
Qed.
Lemma iter_inv : forall (P : (nat -> R) -> Prop) (t : (nat -> R) -> nat -> R) G k, P G -> (forall H, P H -> P (t H)) -> P (Nat.iter k t G).
Proof. intros P t G k H0 H1. induction k; [assumption|]. cbn. auto. Qed.

Section iteration.
Variables (F : nat -> nat -> R) (upd : nat -> bool) (q : nat -> R) (tot : (nat -> R) -> nat -> R) (c : cosmo).
Hypothesis Fpos : forall i j, (i < 153)%nat -> (j < 153)%nat -> 0 < F i j.
Hypothesis qs : shares 153 q.
Hypothesis qu : forall j, (j < 153)%nat -> upd j = false -> q j = 0.
Hypothesis tot_eq : forall G i, (i < 153)%nat -> tot G i = sumn 153 (fun j => F i j * q j * G j).
Definition positive (G : nat -> R) : Prop := forall i, (i < 153)%nat -> 0 < G i.
Lemma tot_pos : forall G, positive G -> forall i, (i < 153)%nat -> 0 < tot G i.
Proof. intros G P i Hi. rewrite tot_eq by assumption. now apply row_pos. Qed.
Lemma turn_pos : forall G, positive G -> positive (turn upd tot G).
Proof. intros G P i Hi. unfold turn, fresh. destruct (upd i); [|auto]. pose proof (tot_pos G P i Hi) as TP. pose proof (P i Hi). apply Rinv_0_lt_compat in TP. unfold Rdiv. rewrite Rmult_1_l. lra. Qed.
Lemma turn_defined : forall G, positive G -> defined upd tot G = true.
Proof. intros G P. apply defined_iff. intros i Hi _. pose proof (tot_pos G P i Hi). pose proof (turn_pos G P i Hi). lra. Qed.
Lemma loop_total : forall fuel G, positive G -> (exists G', gamma_loop c upd tot fuel G = ok G' /\ positive G') \/ gamma_loop c upd tot fuel G = throws StdInvalidArgument.
Proof.
  induction fuel as [|f IH]; intros G P; rewrite loop_eq, turn_defined by assumption.
  - destruct (stops _ upd tot G); [left; eexists; split; [reflexivity|now apply turn_pos]|now right].
  - destruct (stops _ upd tot G); [left; eexists; split; [reflexivity|now apply turn_pos]|]. apply IH. now apply turn_pos.
Qed.
(** What is returned. *)
Lemma loop_nearly : forall fuel G G', 0 < k_tol (c_const c) < 1 -> positive G -> gamma_loop c upd tot fuel G = ok G' -> forall i, (i < 153)%nat -> upd i = true -> nearly_balanced 153 F (k_tol (c_const c)) q G' i.
Proof.
  intros fuel G G' Ht P E i Hi U. destruct (loop_ok _ _ _ _ _ _ E) as (k & _ & E' & _ & S). set (tol := k_tol (c_const c)) in *.
  set (H := Nat.iter k (turn upd tot) G) in *. assert (PH : positive H) by (apply iter_inv; [assumption|exact turn_pos]). pose proof (turn_pos H PH) as PG. rewrite <- E' in PG.
  assert (D : forall j, (j < 153)%nat -> upd j = true -> Rabs (G' j - 1 / tot H j) < tol * G' j).
  { intros j Hj Uj. pose proof (proj1 (stops_iff _ _ _ _) S j Hj) as X. rewrite <- E' in X. unfold fresh in X. rewrite Uj in X. unfold Rdiv at 1 in X. rewrite Rabs_mult, Rabs_inv in X. rewrite (Rabs_right (G' j)) in X by (pose proof (PG j Hj); lra).
    apply Rmult_lt_compat_r with (r := G' j) in X; [|auto]. rewrite Rmult_assoc, Rinv_l, Rmult_1_r in X by (pose proof (PG j Hj); lra). exact X. }
  assert (B : forall j, (j < 153)%nat -> upd j = true -> H j <= (1 + tol) * G' j /\ (1 - tol) * G' j <= H j).
  { intros j Hj Uj. pose proof (Rabs_def2 _ _ (D j Hj Uj)) as [D1 D2]. assert (HE : G' j = (H j + 1 / tot H j) / 2) by (rewrite E'; unfold turn, fresh; rewrite Uj; reflexivity). split; lra. }
  pose proof qs as [q0' _]. split; [auto|]. pose proof (tot_pos H PH i Hi) as TH. pose proof (row_pos 153 F Fpos q G' i qs PG Hi) as TG. set (sG := sumn 153 (fun j => F i j * q j * G' j)) in *.
  assert (QU : forall j, (j < 153)%nat -> 0 < q j -> upd j = true) by (intros j Hj Q; destruct (upd j) eqn:Uj; [reflexivity|]; rewrite (qu j Hj Uj) in Q; lra).
  assert (U1 : tot H i <= (1 + tol) * sG) by (rewrite tot_eq by assumption; apply row_le; try assumption; intros j Hj Q; now apply B; auto).
  assert (U2 : (1 - tol) * sG <= tot H i). { rewrite tot_eq by assumption. apply Rmult_le_reg_l with (/ (1 - tol)); [apply Rinv_0_lt_compat; lra|]. rewrite <- Rmult_assoc, Rinv_l, Rmult_1_l by lra.
    apply row_le; try assumption. intros j Hj Q. apply Rmult_le_reg_l with (1 - tol); [lra|]. rewrite <- Rmult_assoc, Rinv_r, Rmult_1_l by lra. now apply B; auto. }
  pose proof (Rabs_def2 _ _ (D i Hi U)) as [D1 D2]. pose proof (PG i Hi) as Gi.
  assert (V1 : G' i * tot H i * (1 - tol) < 1). { assert (X : G' i * (1 - tol) < 1 / tot H i) by lra. apply Rmult_lt_compat_r with (r := tot H i) in X; [|assumption]. replace (1 / tot H i * tot H i) with 1 in X by (field; lra). lra. }
  assert (V2 : 1 < G' i * tot H i * (1 + tol)). { assert (X : 1 / tot H i < G' i * (1 + tol)) by lra. apply Rmult_lt_compat_r with (r := tot H i) in X; [|assumption]. replace (1 / tot H i * tot H i) with 1 in X by (field; lra). lra. }
  assert (W1 : G' i * ((1 - tol) * sG) <= G' i * tot H i) by (apply Rmult_le_compat_l; lra). assert (W2 : G' i * tot H i <= G' i * ((1 + tol) * sG)) by (apply Rmult_le_compat_l; lra).
  split.
  - apply Rmult_lt_reg_l with ((1 + tol) ^ 2); [apply pow_lt; lra|]. rewrite Rinv_r by (apply pow_nonzero; lra). apply Rlt_le_trans with (G' i * tot H i * (1 + tol)); [assumption|].
    replace ((1 + tol) ^ 2 * (G' i * sG)) with (G' i * ((1 + tol) * sG) * (1 + tol)) by ring. apply Rmult_le_compat_r; lra.
  - apply Rmult_lt_reg_l with ((1 - tol) ^ 2); [apply pow_lt; lra|]. rewrite Rinv_r by (apply pow_nonzero; lra). apply Rle_lt_trans with (G' i * tot H i * (1 - tol)); [|assumption].
    replace ((1 - tol) ^ 2 * (G' i * sG)) with (G' i * ((1 - tol) * sG) * (1 - tol)) by ring. apply Rmult_le_compat_r; lra.
Qed.
(** The iterates do not get farther from the solution than the start is. *)
Lemma turn_between : forall E b G, 1 <= b -> (forall i, (i < 153)%nat -> upd i = true -> balanced 153 F q E i) -> positive G -> (forall i, (i < 153)%nat -> upd i = true -> E i / b <= G i <= b * E i) ->
  forall i, (i < 153)%nat -> upd i = true -> E i / b <= turn upd tot G i <= b * E i.
Proof.
  intros E b G Hb B P HG i Hi U. destruct (B i Hi U) as [Ei Eq]. pose proof (HG i Hi U) as [L1 L2]. pose proof qs as [q0' _]. unfold turn, fresh. rewrite U.
  assert (QU : forall j, (j < 153)%nat -> 0 < q j -> upd j = true) by (intros j Hj Q; destruct (upd j) eqn:Uj; [reflexivity|]; rewrite (qu j Hj Uj) in Q; lra).
  pose proof (tot_pos G P i Hi) as TG. set (sE := sumn 153 (fun j => F i j * q j * E j)) in *. assert (ES : E i = / sE) by (apply Rmult_eq_reg_r with sE; [rewrite Rinv_l; [assumption|]|]; intros Z; rewrite Z in Eq; lra).
  assert (sE0 : 0 < sE) by (destruct (Rlt_dec 0 sE); [assumption|]; exfalso; assert (E i * sE <= 0) by (replace 0 with (E i * 0) by ring; apply Rmult_le_compat_l; lra); lra).
  assert (U1 : tot G i <= b * sE) by (rewrite tot_eq by assumption; apply row_le; try assumption; intros j Hj Q; now apply HG; auto).
  assert (U2 : sE <= b * tot G i). { rewrite tot_eq by assumption. apply row_le; try assumption. intros j Hj Q. destruct (HG j Hj (QU j Hj Q)) as [X _]. apply Rmult_le_compat_l with (r := b) in X; [|lra]. replace (b * (E j / b)) with (E j) in X by (field; lra). exact X. }
  assert (N : E i / b <= 1 / tot G i <= b * E i).
  { rewrite ES. unfold Rdiv. rewrite Rmult_1_l. split.
    - rewrite <- Rinv_mult. apply Rinv_le_contravar; [assumption|lra].
    - apply Rmult_le_reg_l with (tot G i); [assumption|]. rewrite Rinv_r by lra. apply Rmult_le_reg_r with sE; [assumption|]. rewrite Rmult_1_l. replace (tot G i * (b * / sE) * sE) with (b * tot G i) by (field; lra). assumption. }
  lra.
Qed.
Lemma loop_between : forall E b fuel G G', 1 <= b -> (forall i, (i < 153)%nat -> upd i = true -> balanced 153 F q E i) -> positive G -> (forall i, (i < 153)%nat -> upd i = true -> E i / b <= G i <= b * E i) ->
  gamma_loop c upd tot fuel G = ok G' -> forall i, (i < 153)%nat -> upd i = true -> E i / b <= G' i <= b * E i.
Proof.
  intros E b fuel G G' Hb B P HG EG. destruct (loop_ok _ _ _ _ _ _ EG) as (k & _ & E' & _). rewrite E'.
  assert (X : positive (Nat.iter k (turn upd tot) G) /\ forall i, (i < 153)%nat -> upd i = true -> E i / b <= Nat.iter k (turn upd tot) G i <= b * E i).
  { apply (iter_inv (fun H => positive H /\ forall i, (i < 153)%nat -> upd i = true -> E i / b <= H i <= b * E i)); [auto|]. intros H [PH BH]. split; [now apply turn_pos|]. now apply turn_between. }
  destruct X as [PX BX]. now apply turn_between.
Qed.
(** An exact start stays. *)
Lemma loop_fixed : forall fuel G, 0 < k_tol (c_const c) -> (forall i, (i < 153)%nat -> upd i = true -> balanced 153 F q G i) -> (forall i, (i < 153)%nat -> upd i = false -> G i = 1) -> 
  exists G', gamma_loop c upd tot fuel G = ok G' /\ forall i, (i < 153)%nat -> G' i = G i.
Proof.
  intros fuel G Ht B O. assert (P : positive G) by (intros i Hi; destruct (upd i) eqn:U; [now apply B|rewrite O by assumption; lra]).
  assert (T1 : forall i, (i < 153)%nat -> upd i = true -> 1 / tot G i = G i). { intros i Hi U. destruct (B i Hi U) as [Gi Eq]. rewrite <- tot_eq in Eq by assumption. pose proof (tot_pos G P i Hi). rewrite <- Eq. field. lra. }
  assert (T2 : forall i, (i < 153)%nat -> turn upd tot G i = G i). { intros i Hi. unfold turn, fresh. destruct (upd i) eqn:U; [|reflexivity]. rewrite T1 by assumption. lra. }
  assert (S : stops (k_tol (c_const c)) upd tot G = true). { apply stops_iff. intros i Hi. rewrite T2 by assumption. unfold fresh. destruct (upd i) eqn:U; [rewrite T1 by assumption|rewrite O by assumption]; [replace ((G i - G i) / G i) with 0 by (pose proof (P i Hi); field; lra)|replace ((1 - 1) / 1) with 0 by field]; now rewrite Rabs_R0. }
  exists (turn upd tot G). split; [|assumption]. rewrite loop_eq, turn_defined, S by assumption. reflexivity.
Qed.
End iteration.
