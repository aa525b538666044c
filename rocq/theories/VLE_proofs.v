(** Lemmas about the vapor-liquid equilibrium solvers: the iterations. *)
From Coq Require Import Reals ZArith List Bool Lia Lra.
From Verif Require Import Json_model Cubic_model Float_model VLE_model VLE_spec.
Import ListNotations.
Open Scope R_scope.

Lemma obind_inv : forall A B (o : outcome A) (f : A -> outcome B) b, obind o f = ok b -> exists a, o = ok a /\ f a = ok b.
Proof. intros A B [[a|e]|] f b H; cbn in H; try discriminate. exists a. auto. Qed.
Lemma forallb_combine : forall (f : fl * fl -> bool) a b, length a = length b ->
  (forallb f (combine a b) = true <-> forall i, (i < length a)%nat -> f (el a i, el b i) = true).
Proof.
  intros f a b L. rewrite forallb_forall. split; intros H.
  - intros i Hi. apply H. unfold el. rewrite <- combine_nth by auto. apply nth_In. rewrite combine_length. lia.
  - intros p Hp. apply In_nth with (d := (NaN, NaN)) in Hp. destruct Hp as (i & Hi & <-). rewrite combine_nth by auto.
    apply H. rewrite combine_length in Hi. lia.
Qed.
Lemma zip_map : forall f a b, length a = length b -> zip f a b = map (fun i => f (el a i) (el b i)) (seq 0 (length a)).
Proof.
  intros f a b L. unfold zip. revert b L. induction a as [|u a IH]; intros [|v b] L; try discriminate; [reflexivity|].
  cbn [combine map length seq]. f_equal. rewrite IH by (simpl in L; lia). rewrite <- seq_shift, map_map. reflexivity.
Qed.
Lemma zip_length : forall f a b, length a = length b -> length (zip f a b) = length a.
Proof. intros. rewrite zip_map by auto. now rewrite map_length, seq_length. Qed.
Lemma el_map : forall (f : nat -> fl) n i, (i < n)%nat -> el (map f (seq 0 n)) i = f i.
Proof.
  intros f n i H. unfold el. rewrite (nth_indep _ NaN (f (n + 0)%nat)) by (rewrite map_length, seq_length; lia).
  rewrite map_nth, seq_nth by lia. f_equal.
Qed.
Lemma zip_el : forall f a b i, length a = length b -> (i < length a)%nat -> el (zip f a b) i = f (el a i) (el b i).
Proof. intros. rewrite zip_map by auto. now apply (el_map (fun i => f (el a i) (el b i))). Qed.
Lemma existsb_zip : forall (f : fl -> bool) g a b, length a = length b ->
  (existsb f (zip g a b) = true <-> exists i, (i < length a)%nat /\ f (g (el a i) (el b i)) = true).
Proof.
  intros f g a b L. rewrite zip_map by auto. rewrite existsb_exists. split.
  - intros (v & Hv & E). apply in_map_iff in Hv. destruct Hv as (i & <- & Hi). apply in_seq in Hi. exists i. split; [lia|auto].
  - intros (i & Hi & E). exists (g (el a i) (el b i)). split; auto. apply in_map_iff. exists i. split; auto. apply in_seq. lia.
Qed.
Lemma forallb_el : forall (f : fl -> bool) a, forallb f a = true <-> forall i, (i < length a)%nat -> f (el a i) = true.
Proof.
  intros f a. rewrite forallb_forall. split; intros H.
  - intros i Hi. apply H. now apply nth_In.
  - intros v Hv. apply In_nth with (d := NaN) in Hv. destruct Hv as (i & Hi & <-). now apply H.
Qed.
Lemma el_map_opp : forall f a i, (i < length a)%nat -> el (map f a) i = f (el a i).
Proof. intros f a i H. unfold el. rewrite (nth_indep _ NaN (f NaN)) by now rewrite map_length. apply map_nth. Qed.

Section Tx.
Variable m : eos.
Variable qr : list (list fl) -> list fl -> list fl.
Variable minc : list fl -> fl.
Hypothesis Hqr : forall J b, length (qr J b) = length b.
Variables (T RT : fl) (xspec : list fl) (atol reltol axtol relxtol : fl).
Notation assemble := (tx_assemble m T RT xspec).
Notation loop := (tx_loop m qr minc T RT xspec atol reltol axtol relxtol).
Notation pass := (pass m qr minc T RT xspec).
Notation goes_on := (goes_on atol reltol axtol relxtol).
Notation passes := (passes m qr minc T RT xspec atol reltol axtol relxtol).
Notation ends := (ends m qr T RT xspec atol reltol axtol relxtol).

Lemma assemble_len : forall x r J, assemble x = ok (r, J) -> length r = 4%nat.
Proof.
  intros x r J H. unfold tx_assemble in H. apply obind_inv in H. destruct H as ([[pL gL] hL] & _ & H).
  apply obind_inv in H. destruct H as ([[pV gV] hV] & _ & H). injection H as <- _. reflexivity.
Qed.
Lemma freeze_len : forall dx, length (freeze xspec dx) = 4%nat.
Proof. intros. unfold freeze. now rewrite map_length, seq_length. Qed.
Lemma taken_ok : forall x dx0, length x = 4%nat -> length dx0 = 4%nat -> taken minc xspec x dx0 (freeze xspec (limit minc x dx0)).
Proof.
  intros x dx0 Lx Ld. split; [apply freeze_len|]. intros i Hi. unfold freeze. rewrite el_map by auto.
  assert (NS : negative_step x dx0 <-> existsb (fun v => flt v (Fin 0)) (zip fadd x dx0) = true).
  { rewrite existsb_zip by lia. rewrite Lx. reflexivity. }
  split; [now intros ->|]. split; intros E; rewrite E; intros H; unfold limit.
  - destruct (existsb _ _) eqn:Q; [exfalso; apply H, NS; reflexivity|]. reflexivity.
  - apply NS in H. rewrite H. rewrite (zip_map ratio) by lia. rewrite Ld. now rewrite (el_map_opp (fun d => fmul d _)) by lia.
Qed.
Lemma small_iff : forall a b dx x, length dx = 4%nat -> length x = 4%nat ->
  (small a b dx x = true <-> forall i, (i < 4)%nat -> less (fabs (el dx i)) (fadd a (fmul b (fabs (el x i))))).
Proof. intros a b dx x L1 L2. unfold small. rewrite forallb_combine by lia. rewrite L1. reflexivity. Qed.
Lemma stalled_iff : forall x dx, length dx = 4%nat -> length x = 4%nat -> (stalled x dx = true <-> no_change dx x).
Proof.
  intros x dx L1 L2. unfold stalled. rewrite forallb_el. rewrite zip_length, L2 by lia. unfold no_change, less.
  split; intros H i Hi; specialize (H i Hi); [rewrite zip_el in H by lia|rewrite zip_el by lia]; exact H.
Qed.
Lemma not_iff : forall (b : bool) P, (b = true <-> P) -> b = false -> ~ P.
Proof. intros b P H E HP. apply H in HP. congruence. Qed.
Lemma no_finite_false : forall dx, length dx = 4%nat -> no_finite dx = false -> exists i, (i < 4)%nat /\ isfinite (el dx i) = true.
Proof.
  intros dx L E. destruct dx as [|a [|b [|c [|d [|]]]]]; try discriminate. unfold no_finite in E. cbn [forallb] in E.
  destruct (isfinite a) eqn:A; [exists 0%nat; auto with arith|]. destruct (isfinite b) eqn:B; [exists 1%nat; auto with arith|].
  destruct (isfinite c) eqn:C; [exists 2%nat; auto with arith|]. destruct (isfinite d) eqn:D; [exists 3%nat; auto with arith|]. discriminate.
Qed.
Lemma no_finite_true : forall dx, length dx = 4%nat -> no_finite dx = true -> forall i, (i < 4)%nat -> isfinite (el dx i) = false.
Proof.
  intros dx L E i Hi. unfold no_finite in E. rewrite forallb_el in E. rewrite L in E. specialize (E i Hi). now destruct (isfinite (el dx i)).
Qed.

Definition shift {A} (a : A) (f : nat -> A) (i : nat) : A := match i with O => a | S j => f j end.
Lemma loop_run : forall n x code y, loop (S n) x = ok (code, y) -> length x = 4%nat ->
  exists k X Rs D, X 0%nat = x /\ X k = y /\ (Z.of_nat k <= Z.of_nat (S n))%Z /\ passes k X Rs D /\ ends (Z.of_nat (S n)) code k X Rs D.
Proof.
  induction n as [|n IH]; intros x code y H Lx.
  all: cbn [tx_loop] in H; apply obind_inv in H; destruct H as ([r J] & EA & H); pose proof (assemble_len _ _ _ EA) as Lr;
    set (dx0 := qr J (map fopp r)) in *; assert (Ld : length dx0 = 4%nat) by (unfold dx0; rewrite Hqr, map_length; exact Lr);
    assert (NW : newton_step m qr T RT xspec x r dx0) by (exists J; auto);
    destruct (no_finite dx0) eqn:NF;
    [ injection H as <- <-; exists 0%nat, (fun _ => x), (fun _ => []), (fun _ => []); split; [reflexivity|]; split; [reflexivity|];
      split; [lia|]; split; [intros i Hi; lia|]; split; [lia|]; split; [intros i Hi; lia|]; exists r, dx0; split; [exact NW|]; now apply no_finite_true | ];
    set (dx := freeze xspec (limit minc x dx0)) in *; set (x' := zip fadd x dx) in *;
    assert (Ldx : length dx = 4%nat) by apply freeze_len;
    assert (Lx' : length x' = 4%nat) by (unfold x'; rewrite zip_length; lia);
    assert (P1 : pass x r dx x') by (exists dx0; split; [exact NW|split; [now apply no_finite_false|split; [now apply taken_ok|unfold x'; rewrite zip_map by lia; now rewrite Lx]]]);
    destruct (small axtol relxtol dx x') eqn:S1;
    [ injection H as <- <-; exists 1%nat, (shift x (fun _ => x')), (fun _ => r), (fun _ => dx); split; [reflexivity|]; split; [reflexivity|];
      split; [lia|]; split; [intros [|i] Hi; [split; [exact P1|lia]|lia]|]; exists 0%nat; split; [reflexivity|]; left; exact (proj1 (small_iff axtol relxtol dx x' Ldx Lx') S1) | ];
    destruct (small atol reltol r r) eqn:S2;
    [ injection H as <- <-; exists 1%nat, (shift x (fun _ => x')), (fun _ => r), (fun _ => dx); split; [reflexivity|]; split; [reflexivity|];
      split; [lia|]; split; [intros [|i] Hi; [split; [exact P1|lia]|lia]|]; exists 0%nat; split; [reflexivity|]; split;
      [exact (proj1 (small_iff atol reltol r r Lr Lr) S2)|apply (not_iff _ _ (small_iff axtol relxtol dx x' Ldx Lx') S1)] | ];
    destruct (stalled x' dx) eqn:S3;
    [ injection H as <- <-; exists 1%nat, (shift x (fun _ => x')), (fun _ => r), (fun _ => dx); split; [reflexivity|]; split; [reflexivity|];
      split; [lia|]; split; [intros [|i] Hi; [split; [exact P1|lia]|lia]|]; exists 0%nat; split; [reflexivity|]; right; split;
      [apply (not_iff _ _ (small_iff atol reltol r r Lr Lr) S2)|exact (proj1 (stalled_iff x' dx Ldx Lx') S3)] | ];
    assert (GO : goes_on r dx x') by (split; [apply (not_iff _ _ (small_iff axtol relxtol dx x' Ldx Lx') S1)|split;
      [apply (not_iff _ _ (small_iff atol reltol r r Lr Lr) S2)|apply (not_iff _ _ (stalled_iff x' dx Ldx Lx') S3)]]).
  - injection H as <- <-. exists 1%nat, (shift x (fun _ => x')), (fun _ => r), (fun _ => dx). split; [reflexivity|]. split; [reflexivity|].
    split; [lia|]. split; [intros [|i] Hi; [split; [exact P1|lia]|lia]|]. split; [lia|]. exists 0%nat. split; [reflexivity|exact GO].
  - destruct (IH x' code y H Lx') as (k & X & Rs & D & X0 & Xk & Hk & PS & EN).
    exists (S k), (shift x X), (shift r Rs), (shift dx D). split; [reflexivity|]. split; [exact Xk|]. split; [lia|]. split.
    + intros [|i] Hi; cbn [shift]; [rewrite X0; split; [exact P1|intros _; exact GO]|].
      destruct (PS i ltac:(lia)) as [A B]. split; [exact A|]. intros Hs. apply B. lia.
    + destruct code; cbn [VLE_spec.ends] in EN |- *; try (cbn [shift]; exact EN).
      * lia.
      * destruct EN as (i & -> & E). exists (S i). split; [reflexivity|]. cbn [shift]. exact E.
      * destruct EN as (i & -> & E). exists (S i). split; [reflexivity|]. cbn [shift]. exact E.
      * destruct EN as (E & i & -> & E'). split; [lia|]. exists (S i). split; [reflexivity|]. cbn [shift]. exact E'.
      * destruct EN as (E & E1 & E2). split; [lia|]. split; [|exact E2]. intros [|i] Hi; cbn [shift]; [rewrite X0; exact GO|]. apply E1. lia.
Qed.
Lemma loop_total : (forall x, length x = 4%nat -> exists r J, assemble x = ok (r, J)) ->
  forall n x, length x = 4%nat -> exists code y, loop n x = ok (code, y).
Proof.
  intros A. induction n as [|n IH]; intros x Lx; cbn [tx_loop]; [eauto|].
  destruct (A x Lx) as (r & J & E). rewrite E. cbn [obind ok]. set (dx := freeze xspec _).
  destruct (no_finite _); [eauto|]. destruct (small axtol relxtol dx _); [eauto|]. destruct (small atol reltol r r); [eauto|].
  destruct (stalled _ _); [eauto|]. destruct n; [eauto|]. apply IH. rewrite zip_length; [auto|]. rewrite Lx. symmetry. apply freeze_len.
Qed.
(** Components absent from the specification do not move. *)
Lemma loop_absent : forall n x code y i, loop n x = ok (code, y) -> length x = 4%nat -> (i < 4)%nat ->
  feq (el xspec (Nat.modulo i 2)) (Fin 0) = true -> el y i = el x i /\ length y = 4%nat.
Proof.
  induction n as [|n IH]; intros x code y i H Lx Hi Z; cbn [tx_loop] in H; [injection H as <- <-; auto|].
  apply obind_inv in H. destruct H as ([r J] & EA & H). pose proof (assemble_len _ _ _ EA) as Lr.
  destruct (no_finite (qr J (map fopp r))); [injection H as <- <-; auto|].
  set (dx := freeze xspec _) in *. assert (Ld : length dx = 4%nat) by apply freeze_len.
  assert (Lx' : length (zip fadd x dx) = 4%nat) by (rewrite zip_length; lia).
  assert (E : el (zip fadd x dx) i = el x i).
  { rewrite zip_el by lia. unfold dx, freeze. rewrite el_map by auto. rewrite Z. unfold fadd. destruct (el x i); auto. f_equal. ring. }
  destruct (small axtol relxtol dx _); [injection H as <- <-; auto|]. destruct (small atol reltol r r); [injection H as <- <-; auto|].
  destruct (stalled _ _); [injection H as <- <-; auto|].
  destruct n; [injection H as <- <-; auto|]. rewrite <- E. exact (IH _ code y i H Lx' Hi Z).
Qed.
End Tx.
