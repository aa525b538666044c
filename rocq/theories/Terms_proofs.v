(** Proofs about the terms of the multifluid equations of state. *)
From Coq Require Import Reals ZArith String List Bool Lia Lra.
From Coquelicot Require Import Coquelicot.
From Verif Require Import Json_model Util_model Util_proofs Numerics_model Vec_spec Vec_proofs Cubic_model Terms_model Terms_spec.
Import ListNotations.
Open Scope R_scope.

(** ** Integer powers *)
Lemma trunc_INR : forall k, trunc (INR k) = Z.of_nat k.
Proof.
  intros. unfold trunc. destruct (Rle_dec 0 (INR k)) as [_|N]; [apply Int_part_INR|destruct N; apply pos_INR].
Qed.
Lemma to_int_nat : forall k, (Z.of_nat k < 2 ^ 31)%Z -> to_int (INR k) = Some (Z.of_nat k).
Proof.
  intros k H. unfold to_int. rewrite trunc_INR.
  rewrite (proj2 (Z.leb_le _ _)) by lia. rewrite (proj2 (Z.ltb_lt _ _)) by lia. reflexivity.
Qed.
Lemma powi_nat : forall x k, powi x (Z.of_nat k) = Some (x ^ k).
Proof.
  intros. rewrite powi_ok; [|unfold INT_MIN; lia|lia]. f_equal. symmetry. apply pow_powerRZ.
Qed.
Lemma rpow_nat : forall x k, 0 <= x -> rpow x (INR k) = x ^ k.
Proof.
  intros x k H. unfold rpow. destruct (Req_EM_T x 0) as [->|N].
  - destruct k; [simpl; destruct (Req_EM_T 0 0); lra|].
    destruct (Req_EM_T (INR (S k)) 0) as [E|]; [exfalso; apply (not_0_INR (S k)); auto|]. rewrite pow_i by lia. reflexivity.
  - rewrite Rpower_pow by lra. reflexivity.
Qed.
Lemma powi_Z : forall x z, 0 <= x -> natural_Z z -> powi x z = Some (rpow x (IZR z)).
Proof.
  intros x z H [Z0 Z1]. rewrite <- (Z2Nat.id z) by lia. rewrite powi_nat, <- INR_IZR_INZ, rpow_nat by auto. reflexivity.
Qed.
Lemma powd_ok : forall x d, 0 <= x -> natural d -> powd x d = Some (rpow x d).
Proof.
  intros x d H [k [-> K]]. unfold powd. rewrite to_int_nat by auto. simpl. rewrite powi_nat, rpow_nat by auto. reflexivity.
Qed.
Lemma scaled_ok : forall n arg d delta, 0 <= delta -> natural d ->
  scaled n arg d delta = Some (n * exp arg * rpow delta d).
Proof.
  intros n arg d delta H Hd. unfold scaled. destruct (Req_EM_T delta 0) as [->|N].
  - rewrite powd_ok by (auto; lra). reflexivity.
  - f_equal. unfold rpow. destruct (Req_EM_T delta 0); [contradiction|]. rewrite exp_plus. unfold Rpower. ring.
Qed.

(** ** Sums *)
Lemma osum_some : forall n f g, (forall i, (i < n)%nat -> f i = Some (g i)) -> osum n f = Some (sumn n g).
Proof.
  induction n; intros f g H; [reflexivity|]. simpl. rewrite (IHn f g) by auto. simpl. rewrite H by lia. reflexivity.
Qed.
Lemma nth_error_ok : forall A (l : list A) i d, (i < length l)%nat -> nth_error l i = Some (nth i l d).
Proof. intros. apply nth_error_nth'. auto. Qed.
Lemma Forall_nth' : forall A (P : A -> Prop) l i d, List.Forall P l -> (i < length l)%nat -> P (nth i l d).
Proof. intros A P l i d H L. rewrite List.Forall_forall in H. apply H, nth_In, L. Qed.

Ltac entries i Hi :=
  repeat match goal with
  | |- context [opt_bind (nth_error ?l i) _] =>
      rewrite (nth_error_ok _ l i (ltac:(match type of l with list Z => exact 0%Z | _ => exact 0 end))) by lia;
      cbn [opt_bind]
  end.

Theorem term_textbook : forall t tau delta, well_formed t -> 0 < tau -> 0 <= delta ->
  term_alphar t tau delta = Some (Val (textbook t tau delta)).
Proof.
  intros t tau delta W Ht Hd.
  assert (PS : forall n t d f F, List.Forall natural d -> length t = length n -> length d = length n ->
    (forall i, (i < length n)%nat -> F i = scaled (nth i n 0) (nth i t 0 * ln tau + f i) (nth i d 0) delta) ->
    osum (length n) F = Some (power_sum n t d f tau delta)).
  { intros n t' d f F Nd Lt Ld HF. apply osum_some. intros i Hi. rewrite HF by auto.
    rewrite scaled_ok by (first [assumption | apply Forall_nth'; [auto|lia]]). rewrite exp_plus. unfold Rpower. f_equal. ring. }
  destruct t; simpl in W; try contradiction; unfold term_alphar, textbook.
  - destruct W as [L1 [L2 Nd]]. rewrite (PS n t d (fun _ => 0)); auto. intros i Hi. entries i Hi. f_equal. ring.
  - destruct W as [L1 [L2 [L3 [L4 [Nd Nl]]]]].
    replace (Nat.eqb (length l_i) 0 && Nat.ltb 0 (length n)) with false
      by (rewrite L4; destruct (length n); reflexivity).
    rewrite (PS n t d (fun i => - nth i c 0 * rpow delta (IZR (nth i l_i 0%Z)))); auto. intros i Hi. entries i Hi.
    rewrite powi_Z by (first [assumption | apply Forall_nth'; [auto|lia]]). cbn [opt_bind]. f_equal. ring.
  - destruct W as [L1 [L2 [L3 [L4 [Nd Nl]]]]].
    rewrite (PS n t d (fun i => - nth i g 0 * rpow delta (IZR (nth i l_i 0%Z)))); auto. intros i Hi. entries i Hi.
    rewrite powi_Z by (first [assumption | apply Forall_nth'; [auto|lia]]). cbn [opt_bind]. f_equal. ring.
  - destruct W as [L1 [L2 [L3 [L4 [L5 [L6 [Nd Nl]]]]]]].
    replace (Nat.eqb (length ld_i) 0 && Nat.ltb 0 (length n)) with false
      by (rewrite L6; destruct (length n); reflexivity).
    rewrite (PS n t d (fun i => - nth i gd 0 * rpow delta (IZR (nth i ld_i 0%Z)) - nth i gt 0 * Rpower tau (nth i lt 0))); auto.
    intros i Hi. entries i Hi.
    rewrite powi_Z by (first [assumption | apply Forall_nth'; [auto|lia]]). cbn [opt_bind]. f_equal. ring.
  - destruct W as [L1 [L2 [L3 [L4 [L5 [L6 Nd]]]]]].
    rewrite (PS n t d (fun i => - nth i eta 0 * (delta - nth i epsilon 0) ^ 2 - nth i beta 0 * (tau - nth i gamma 0) ^ 2)); auto.
    intros i Hi. entries i Hi. f_equal. unfold square. ring.
  - destruct W as [L1 [L2 [L3 [L4 [L5 [L6 Nd]]]]]].
    rewrite (PS n t d (fun i => - nth i eta 0 * (delta - nth i epsilon 0) ^ 2 - nth i beta 0 * (delta - nth i gamma 0))); auto.
    intros i Hi. entries i Hi. f_equal. unfold square. ring.
  - destruct W as [L1 [L2 [L3 [L4 [Nd Nl]]]]].
    rewrite (PS n t d (fun i => - rpow delta (IZR (nth i l_i 0%Z)) - Rpower tau (nth i m 0))); auto. intros i Hi. entries i Hi.
    rewrite powi_Z by (first [assumption | apply Forall_nth'; [auto|lia]]). cbn [opt_bind]. f_equal. ring.
  - destruct W as [L1 [L2 [L3 [L4 [L5 [L6 [L7 Nd]]]]]]].
    rewrite (PS n t d (fun i => - nth i eta 0 * (delta - nth i epsilon 0) ^ 2
                                + 1 / (nth i beta 0 * (tau - nth i gamma 0) ^ 2 + nth i b 0))); auto.
    intros i Hi. entries i Hi. f_equal. unfold square. replace ((tau - nth i gamma 0) ^ 2) with ((tau - nth i gamma 0) * (tau - nth i gamma 0)) by ring. ring.
Qed.
