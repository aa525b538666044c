(** Proofs about the law of mass action and its solution by successive substitution. *)
From Coq Require Import Reals ZArith List Bool Lia Lra.
From Verif Require Import Vec_spec Vec_proofs Assoc_spec.
Import ListNotations.
Open Scope R_scope.

Section MassAction.
Context (n : nat) (K : nat -> nat -> R) (M : R).
Context (Kpos : forall i j, (i < n)%nat -> (j < n)%nat -> 0 <= K i j).
Context (KM : forall i, (i < n)%nat -> sumn n (K i) <= M).
Notation Sm X i := (sumn n (fun j => K i j * X j)).
Notation F := (substituted n K).
Definition fracs (X : nat -> R) : Prop := forall i, (i < n)%nat -> fraction (X i).

Lemma S_pos : forall X i, fracs X -> (i < n)%nat -> 0 <= Sm X i.
Proof. intros X i H Hi. apply sumn_pos. intros j Hj. apply Rmult_le_pos; [now apply Kpos|]. destruct (H j Hj). lra. Qed.
Lemma S_mono : forall X Y t i, (i < n)%nat -> (forall j, (j < n)%nat -> X j <= t * Y j) -> Sm X i <= t * Sm Y i.
Proof.
  intros X Y t i Hi H. rewrite <- sumn_scal. apply sumn_le. intros j Hj.
  replace (t * (K i j * Y j)) with (K i j * (t * Y j)) by ring. apply Rmult_le_compat_l; [now apply Kpos|now apply H].
Qed.
Lemma S_le_M : forall X i, fracs X -> (i < n)%nat -> Sm X i <= M.
Proof.
  intros X i H Hi. eapply Rle_trans; [|exact (KM i Hi)]. apply sumn_le. intros j Hj.
  destruct (H j Hj). pose proof (Kpos i j Hi Hj). nra.
Qed.
Lemma M_pos : forall i, (i < n)%nat -> 0 <= M.
Proof. intros i Hi. eapply Rle_trans; [|exact (KM i Hi)]. apply sumn_pos. intros j Hj. now apply Kpos. Qed.
Lemma F_frac : forall X, fracs X -> fracs (F X).
Proof.
  intros X H i Hi. unfold substituted. pose proof (S_pos X i H Hi). split.
  - apply Rdiv_lt_0_compat; lra.
  - apply Rmult_le_reg_r with (1 + Sm X i); [lra|]. field_simplify; lra.
Qed.
Lemma F_times : forall X i, fracs X -> (i < n)%nat -> F X i * (1 + Sm X i) = 1.
Proof. intros X i H Hi. unfold substituted. pose proof (S_pos X i H Hi). field. lra. Qed.
Lemma F_lower : forall X i, fracs X -> (i < n)%nat -> 1 <= (1 + M) * F X i.
Proof.
  intros X i H Hi. pose proof (S_le_M X i H Hi). pose proof (F_times X i H Hi) as E. pose proof (proj1 (F_frac X H i Hi)). rewrite <- E. nra.
Qed.
Lemma solution_fixed : forall X, fracs X -> (mass_action n K X <-> forall i, (i < n)%nat -> X i = F X i).
Proof.
  intros X H. split; intros E i Hi.
  - specialize (E i Hi). unfold substituted. pose proof (S_pos X i H Hi). apply Rmult_eq_reg_r with (1 + Sm X i); [|lra]. rewrite E. field. lra.
  - rewrite (E i Hi) at 1. now apply F_times.
Qed.

(** vectors that agree up to a factor [t] *)
Definition ratio (t : R) (X Y : nat -> R) : Prop := forall i, (i < n)%nat -> X i <= t * Y i /\ Y i <= t * X i.
Definition q : R := M / (1 + M).
Lemma q_bounds : 0 <= M -> 0 <= q < 1.
Proof.
  intro H. unfold q. split; [apply Rmult_le_pos; [exact H|left; apply Rinv_0_lt_compat; lra]|].
  apply Rmult_lt_reg_r with (1 + M); [lra|]. field_simplify; lra.
Qed.
Lemma half_contraction : forall X Y t i, fracs X -> fracs Y -> 1 <= t -> (i < n)%nat ->
  (forall j, (j < n)%nat -> Y j <= t * X j) -> F X i <= (1 + q * (t - 1)) * F Y i.
Proof.
  intros X Y t i HX HY Ht Hi H. pose proof (M_pos i Hi) as HM. pose proof (q_bounds HM) as Hq.
  pose proof (S_mono Y X t i Hi H) as HS. pose proof (S_pos X i HX Hi). pose proof (S_pos Y i HY Hi). pose proof (S_le_M X i HX Hi).
  unfold substituted. set (a := Sm X i) in *. set (b := Sm Y i) in *.
  assert (Hqa : a <= q * (1 + a)).
  { unfold q. apply Rmult_le_reg_r with (1 + M); [lra|]. replace (M / (1 + M) * (1 + a) * (1 + M)) with (M * (1 + a)) by (field; lra). nra. }
  apply Rmult_le_reg_r with ((1 + a) * (1 + b)); [nra|].
  replace (1 / (1 + a) * ((1 + a) * (1 + b))) with (1 + b) by (field; lra).
  replace ((1 + q * (t - 1)) * (1 / (1 + b)) * ((1 + a) * (1 + b))) with ((1 + q * (t - 1)) * (1 + a)) by (field; lra).
  assert (0 <= (t - 1) * (q * (1 + a) - a)) by (apply Rmult_le_pos; lra). nra.
Qed.
Lemma contraction : forall X Y t, fracs X -> fracs Y -> 1 <= t -> ratio t X Y -> ratio (1 + q * (t - 1)) (F X) (F Y).
Proof.
  intros X Y t HX HY Ht H i Hi. split; apply half_contraction; auto; intros j Hj; now apply H.
Qed.
Lemma damped_contraction : forall X Y t alpha, fracs X -> fracs Y -> mass_action n K Y -> 1 <= t -> 0 <= alpha <= 1 -> ratio t X Y ->
  ratio (1 + (alpha + (1 - alpha) * q) * (t - 1)) (fun i => alpha * X i + (1 - alpha) * F X i) Y.
Proof.
  intros X Y t alpha HX HY E Ht Ha H i Hi.
  pose proof (contraction X Y t HX HY Ht H i Hi) as [C1 C2]. destruct (H i Hi) as [H1 H2].
  pose proof (q_bounds (M_pos i Hi)) as Hq. pose proof (proj1 (solution_fixed Y HY) E) as E'. rewrite <- (E' i Hi) in C1, C2.
  set (t' := 1 + q * (t - 1)) in *. assert (Ht' : 1 <= t') by (unfold t'; nra).
  replace (1 + (alpha + (1 - alpha) * q) * (t - 1)) with (alpha * t + (1 - alpha) * t') by (unfold t'; ring).
  destruct (HX i Hi) as [X0 _]. destruct (HY i Hi) as [Y0 _]. destruct (F_frac X HX i Hi) as [F0 _]. split; [nra|].
  assert (A1 : Y i / t <= X i) by (apply Rmult_le_reg_r with t; [lra|]; field_simplify; lra).
  assert (A2 : Y i / t' <= F X i) by (apply Rmult_le_reg_r with t'; [lra|]; field_simplify; lra).
  apply Rle_trans with ((alpha * t + (1 - alpha) * t') * (alpha * (Y i / t) + (1 - alpha) * (Y i / t'))).
  - apply Rmult_le_reg_r with (t * t'); [nra|].
    replace ((alpha * t + (1 - alpha) * t') * (alpha * (Y i / t) + (1 - alpha) * (Y i / t')) * (t * t'))
      with (Y i * ((alpha * t + (1 - alpha) * t') * (alpha * t' + (1 - alpha) * t))) by (field; lra).
    rewrite (Rmult_comm (Y i) (t * t')) || idtac.
    assert (t * t' <= (alpha * t + (1 - alpha) * t') * (alpha * t' + (1 - alpha) * t)).
    { assert (0 <= alpha * (1 - alpha) * ((t - t') * (t - t'))) by (apply Rmult_le_pos; [nra|apply Rle_0_sqr]). nra. }
    nra.
  - apply Rmult_le_compat_l; nra.
Qed.

(** existence: the undamped iterates from 1 bracket the solution *)
Fixpoint it (k : nat) : nat -> R := match k with 0%nat => fun _ => 1 | S k' => F (it k') end.
Lemma it_frac : forall k, fracs (it k).
Proof. induction k; [intros i _; cbn; unfold fraction; lra|]. cbn. now apply F_frac. Qed.
Lemma F_anti : forall X Y i, fracs X -> fracs Y -> (i < n)%nat -> (forall j, (j < n)%nat -> X j <= Y j) -> F Y i <= F X i.
Proof.
  intros X Y i HX HY Hi H. unfold substituted. pose proof (S_pos X i HX Hi). pose proof (S_pos Y i HY Hi).
  assert (Sm X i <= 1 * Sm Y i) by (apply S_mono; [exact Hi|intros; rewrite Rmult_1_l; now apply H]).
  apply Rmult_le_compat_l; [lra|]. apply Rinv_le_contravar; lra.
Qed.
Definition lo (k : nat) := it (S (2 * k)).
Definition up (k : nat) := it (2 * k).
Lemma up_S : forall k i, up (S k) i = F (lo k) i.
Proof. intros k i. unfold up, lo. replace (2 * S k)%nat with (S (S (2 * k))) by lia. reflexivity. Qed.
Lemma lo_F : forall k i, lo k i = F (up k) i.
Proof. reflexivity. Qed.
Lemma up_decr : forall k i, (i < n)%nat -> up (S k) i <= up k i.
Proof.
  induction k; intros i Hi.
  - rewrite up_S. change (F (lo 0) i <= 1). apply F_frac; [apply it_frac|exact Hi].
  - rewrite (up_S (S k)), (up_S k). apply F_anti; [apply it_frac|apply it_frac|exact Hi|].
    intros j Hj. rewrite !lo_F. apply F_anti; [apply it_frac|apply it_frac|exact Hj|]. exact IHk.
Qed.
Lemma lo_incr : forall k i, (i < n)%nat -> lo k i <= lo (S k) i.
Proof. intros k i Hi. rewrite !lo_F. apply F_anti; [apply it_frac|apply it_frac|exact Hi|]. intros. now apply up_decr. Qed.
Lemma lo_up : forall k i, (i < n)%nat -> lo k i <= up k i.
Proof.
  induction k; intros i Hi.
  - change (F (up 0) i <= 1). apply F_frac; [apply it_frac|exact Hi].
  - rewrite (lo_F (S k)), up_S. apply F_anti; [apply it_frac|apply it_frac|exact Hi|].
    intros j Hj. rewrite up_S, lo_F. apply F_anti; [apply it_frac|apply it_frac|exact Hj|exact IHk].
Qed.
Lemma up_mono : forall k m i, (i < n)%nat -> up (k + m) i <= up k i.
Proof. induction m; intros i Hi; [rewrite Nat.add_0_r; lra|]. rewrite Nat.add_succ_r. eapply Rle_trans; [now apply up_decr|now apply IHm]. Qed.
Lemma lo_mono : forall k m i, (i < n)%nat -> lo k i <= lo (k + m) i.
Proof. induction m; intros i Hi; [rewrite Nat.add_0_r; lra|]. rewrite Nat.add_succ_r. eapply Rle_trans; [now apply IHm|now apply lo_incr]. Qed.
Lemma lo_le_up : forall k m i, (i < n)%nat -> lo k i <= up m i.
Proof.
  intros k m i Hi. apply Rle_trans with (lo (k + m) i); [now apply lo_mono|].
  apply Rle_trans with (up (k + m) i); [now apply lo_up|]. rewrite Nat.add_comm. now apply up_mono.
Qed.
Lemma it_ratio : forall k, (0 < n)%nat -> ratio (1 + q ^ k * M) (it k) (it (S k)).
Proof.
  intros k Hn. assert (HM : 0 <= M) by (apply (M_pos 0%nat Hn)). pose proof (q_bounds HM) as Hq.
  induction k.
  - intros i Hi. change (it 1 i) with (F (it 0) i). change (it 0 i) with 1. rewrite pow_O, Rmult_1_l.
    pose proof (F_lower (it 0) i (it_frac 0) Hi). pose proof (F_frac (it 0) (it_frac 0) i Hi) as [? ?]. split; [lra|]. nra.
  - replace (1 + q ^ S k * M) with (1 + q * ((1 + q ^ k * M) - 1)) by (cbn; ring).
    apply (contraction (it k) (it (S k))); [apply it_frac|apply it_frac| |exact IHk].
    assert (0 <= q ^ k) by (apply pow_le; lra). nra.
Qed.
Lemma fin_choice : forall (P : nat -> R -> Prop) m, (forall i, (i < m)%nat -> exists v, P i v) -> exists f, forall i, (i < m)%nat -> P i (f i).
Proof.
  intros P m. induction m; intro H; [exists (fun _ => 0); intros; lia|].
  destruct IHm as [f Hf]; [intros; apply H; lia|]. destruct (H m) as [v Hv]; [lia|].
  exists (fun i => if Nat.eqb i m then v else f i). intros i Hi. destruct (Nat.eqb_spec i m) as [->|N]; [exact Hv|apply Hf; lia].
Qed.
Lemma solution_exists : exists X, fracs X /\ mass_action n K X.
Proof.
  destruct (fin_choice (fun i v => forall k, lo k i <= v <= up k i) n) as [X HX].
  { intros i Hi. destruct (completeness (fun v => exists k, v = lo k i)) as [v [Hv1 Hv2]].
    - exists 1. intros v [k ->]. apply (it_frac (S (2 * k)) i Hi).
    - exists (lo 0 i). now exists 0%nat.
    - exists v. intro k. split; [apply Hv1; now exists k|]. apply Hv2. intros w [m ->]. now apply lo_le_up. }
  assert (HF : fracs X).
  { intros i Hi. destruct (HX i Hi 0%nat) as [A B]. pose proof (proj1 (it_frac 1 i Hi)). change (lo 0 i) with (it 1 i) in A. change (up 0 i) with 1 in B. unfold fraction. lra. }
  exists X. split; [exact HF|]. apply solution_fixed; [exact HF|]. intros i Hi.
  assert (Hn : (0 < n)%nat) by lia. pose proof (M_pos i Hi) as HM. pose proof (q_bounds HM) as Hq.
  assert (B : forall k, Rabs (X i - F X i) <= q ^ (2 * k) * M).
  { intro k. destruct (HX i Hi k) as [A1 A2].
    assert (A3 : lo k i <= F X i) by (rewrite lo_F; apply F_anti; [exact HF|apply it_frac|exact Hi|intros j Hj; now apply HX]).
    assert (A4 : F X i <= up k i).
    { eapply Rle_trans; [|now apply up_decr]. rewrite up_S. apply F_anti; [apply it_frac|exact HF|exact Hi|intros j Hj; now apply HX]. }
    pose proof (it_ratio (2 * k) Hn i Hi) as [R1 _]. fold (up k) in R1. change (it (S (2 * k)) i) with (lo k i) in R1.
    pose proof (it_frac (S (2 * k)) i Hi) as [L0 L1]. fold (lo k) in L0, L1.
    assert (0 <= q ^ (2 * k)) by (apply pow_le; lra).
    assert (up k i - lo k i <= q ^ (2 * k) * M * lo k i) by lra.
    assert (q ^ (2 * k) * M * lo k i <= q ^ (2 * k) * M) by (assert (0 <= q ^ (2 * k) * M) by nra; nra).
    apply Rabs_le. lra. }
  destruct (Req_dec (X i) (F X i)) as [E|N]; [exact E|]. exfalso.
  assert (D : 0 < Rabs (X i - F X i)) by (apply Rabs_pos_lt; lra).
  assert (Hd : 0 < Rabs (X i - F X i) / (1 + M)) by (apply Rdiv_lt_0_compat; lra).
  destruct (pow_lt_1_zero q ltac:(rewrite Rabs_pos_eq; lra) _ Hd) as [k Hk].
  specialize (Hk (2 * k)%nat ltac:(lia)). assert (P0 : 0 <= q ^ (2 * k)) by (apply pow_le; lra). rewrite Rabs_pos_eq in Hk by exact P0.
  specialize (B k).
  assert (q ^ (2 * k) * (1 + M) < Rabs (X i - F X i)).
  { apply Rmult_lt_reg_r with (/ (1 + M)); [apply Rinv_0_lt_compat; lra|]. rewrite Rmult_assoc, Rinv_r, Rmult_1_r by lra. exact Hk. }
  nra.
Qed.

(** the damped iterates *)
Lemma step_frac : forall alpha X, 0 <= alpha <= 1 -> fracs X -> fracs (fun i => alpha * X i + (1 - alpha) * F X i).
Proof.
  intros alpha X Ha H i Hi. destruct (H i Hi). destruct (F_frac X H i Hi). split; [|nra].
  destruct (Rle_lt_dec alpha 0) as [L|L]; nra.
Qed.
Lemma passes_frac : forall alpha m X, 0 <= alpha <= 1 -> fracs X -> fracs (passes n K alpha m X).
Proof. intros alpha m. induction m; intros X Ha H; cbn; [exact H|]. apply IHm; [exact Ha|]. now apply step_frac. Qed.
Lemma passes_ratio : forall alpha m X Y t, 0 <= alpha <= 1 -> fracs X -> fracs Y -> mass_action n K Y -> 1 <= t -> ratio t X Y -> (0 < n)%nat ->
  ratio (1 + (alpha + (1 - alpha) * q) ^ m * (t - 1)) (passes n K alpha m X) Y.
Proof.
  intros alpha m. induction m; intros X Y t Ha HX HY E Ht H Hn.
  - cbn. replace (1 + 1 * (t - 1)) with t by ring. exact H.
  - cbn [passes]. pose proof (q_bounds (M_pos 0%nat Hn)) as Hq.
    set (r := alpha + (1 - alpha) * q). assert (0 <= r) by (unfold r; nra).
    replace (1 + r ^ S m * (t - 1)) with (1 + r ^ m * ((1 + r * (t - 1)) - 1)) by (cbn; ring).
    apply IHm; [exact Ha|now apply step_frac|exact HY|exact E|nra| |exact Hn].
    now apply damped_contraction.
Qed.
(** a common factor for two vectors of fractions *)
Lemma start_ratio : forall X Y, fracs X -> fracs Y -> exists t, 1 <= t /\ ratio t X Y.
Proof.
  intros X Y HX HY. clear Kpos KM. revert HX HY. unfold fracs, ratio. induction n as [|m IH]; intros HX HY.
  - exists 1. split; [lra|]. intros; lia.
  - destruct IH as (t & Ht & H); [intros; apply HX; lia|intros; apply HY; lia|].
    destruct (HX m ltac:(lia)) as [x0 x1]. destruct (HY m ltac:(lia)) as [y0 y1].
    exists (t + 1 / X m + 1 / Y m). assert (0 < 1 / X m) by (apply Rdiv_lt_0_compat; lra). assert (0 < 1 / Y m) by (apply Rdiv_lt_0_compat; lra).
    split; [lra|]. intros i Hi. destruct (Nat.eq_dec i m) as [->|N].
    + assert (1 / X m * X m = 1) by (field; lra). assert (1 / Y m * Y m = 1) by (field; lra). split; nra.
    + destruct (H i ltac:(lia)). destruct (HX i ltac:(lia)). destruct (HY i ltac:(lia)). split; nra.
Qed.
Lemma ratio_abs : forall t X Y i, fracs X -> fracs Y -> 1 <= t -> ratio t X Y -> (i < n)%nat -> Rabs (X i - Y i) <= t - 1.
Proof.
  intros t X Y i HX HY Ht H Hi. destruct (H i Hi). destruct (HX i Hi). destruct (HY i Hi). apply Rabs_le. split; nra.
Qed.
Lemma rate_small : forall alpha c eps, 0 <= alpha < 1 -> 0 <= c -> 0 < eps -> (0 < n)%nat ->
  exists m, forall k, (m <= k)%nat -> (alpha + (1 - alpha) * q) ^ k * c < eps.
Proof.
  intros alpha c eps Ha Hc He Hn. pose proof (q_bounds (M_pos 0%nat Hn)) as Hq.
  set (r := alpha + (1 - alpha) * q). assert (0 <= r < 1) by (unfold r; split; nra).
  assert (Hd : 0 < eps / (1 + c)) by (apply Rdiv_lt_0_compat; lra).
  destruct (pow_lt_1_zero r ltac:(rewrite Rabs_pos_eq; lra) _ Hd) as [m Hm]. exists m. intros k Hk.
  specialize (Hm k Hk). assert (P0 : 0 <= r ^ k) by (apply pow_le; lra). rewrite Rabs_pos_eq in Hm by exact P0.
  apply Rmult_lt_compat_r with (r := 1 + c) in Hm; [|lra]. unfold Rdiv in Hm. rewrite Rmult_assoc, Rinv_l, Rmult_1_r in Hm by lra. nra.
Qed.
Lemma passes_converge : forall alpha X Y, 0 <= alpha < 1 -> fracs X -> fracs Y -> mass_action n K Y ->
  forall eps, 0 < eps -> exists m, forall k i, (m <= k)%nat -> (i < n)%nat -> Rabs (passes n K alpha k X i - Y i) < eps.
Proof.
  intros alpha X Y Ha HX HY E eps He. destruct (Nat.eq_dec n 0) as [Z|Z]; [exists 0%nat; intros; lia|]. assert (Hn : (0 < n)%nat) by lia.
  destruct (start_ratio X Y HX HY) as (t & Ht & H).
  destruct (rate_small alpha (t - 1) eps Ha ltac:(lra) He Hn) as [m Hm]. exists m. intros k i Hk Hi.
  pose proof (passes_ratio alpha k X Y t ltac:(lra) HX HY E Ht H Hn) as Hr. specialize (Hm k Hk).
  pose proof (q_bounds (M_pos 0%nat Hn)) as Hq.
  assert (0 <= (alpha + (1 - alpha) * q) ^ k) by (apply pow_le; nra).
  eapply Rle_lt_trans; [|exact Hm].
  replace ((alpha + (1 - alpha) * q) ^ k * (t - 1)) with (1 + (alpha + (1 - alpha) * q) ^ k * (t - 1) - 1) by ring.
  apply ratio_abs; [apply passes_frac; [lra|exact HX]|exact HY| |exact Hr|exact Hi]. nra.
Qed.
Lemma solution_unique : forall X Y, fracs X -> fracs Y -> mass_action n K X -> mass_action n K Y -> forall i, (i < n)%nat -> X i = Y i.
Proof.
  intros X Y HX HY EX EY i Hi.
  assert (P : forall k, forall j, (j < n)%nat -> passes n K 0 k X j = X j).
  { induction k as [|k IHk]; intros j Hj; [reflexivity|]. cbn [passes]. pose proof (proj1 (solution_fixed X HX) EX) as EX'.
    assert (G : forall m Z, (forall j, (j < n)%nat -> Z j = X j) -> forall j, (j < n)%nat -> passes n K 0 m Z j = X j).
    { induction m as [|m IHm]; intros Z HZ l Hl; cbn [passes]; [now apply HZ|]. apply IHm; [|exact Hl]. intros p Hp.
      replace (F Z p) with (F X p); [rewrite <- EX' by exact Hp; ring|]. unfold substituted. rewrite (sumn_ext n (fun j => K p j * X j) (fun j => K p j * Z j)); [reflexivity|]. intros w Hw. now rewrite HZ. }
    apply G; [|exact Hj]. intros p Hp. rewrite <- EX' by exact Hp. ring. }
  destruct (Req_dec (X i) (Y i)) as [E|N]; [exact E|]. exfalso.
  assert (D : 0 < Rabs (X i - Y i)) by (apply Rabs_pos_lt; lra).
  destruct (passes_converge 0 X Y ltac:(lra) HX HY EY _ D) as [m Hm].
  specialize (Hm m i (Nat.le_refl m) Hi). rewrite P in Hm by exact Hi. lra.
Qed.
End MassAction.
