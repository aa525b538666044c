From Coq Require Import Reals ZArith String List Bool Lia Lra.
From Verif Require Import Json_model Vec_spec Vec_proofs Cubic_model Cubic_spec Cubic_proofs2 Terms_model Ideal_model Ideal_proofs Util_model Assoc_model GERG_tables VRMie_model Polar_tables Polar_model Polar_spec Polar_proofs.
Import ListNotations.
Local Open Scope R_scope.

(** * Tables *)
Lemma first_in : forall K (eqb : K -> K -> bool) (H : forall a b, eqb a b = true <-> a = b) l k,
  (In k (map fst l) /\ exists v, first eqb k l = Some v) \/ (~ In k (map fst l) /\ first eqb k l = None).
Proof.
  intros K eqb H l k. induction l as [|[k' v] l IH]; cbn [first map fst].
  - right. split; [intros []|reflexivity].
  - destruct (eqb k' k) eqn:E.
    + left. split; [left; now apply H|eauto].
    + assert (k' <> k) by (intro F; apply H in F; congruence). destruct IH as [[I F]|[I F]].
      * left. split; [now right|exact F].
      * right. split; [|exact F]. intros [F'|F']; [now apply H0|now apply I].
Qed.
Lemma pair_eqb_iff : forall a b, pair_eqb a b = true <-> a = b.
Proof. intros [a1 a2] [b1 b2]. unfold pair_eqb. cbn. rewrite andb_true_iff, !Nat.eqb_eq. split; [intros [-> ->]; reflexivity|intro E; injection E; auto]. Qed.
Lemma triple_eqb_iff : forall a b, triple_eqb a b = true <-> a = b.
Proof. intros [a1 a2] [b1 b2]. unfold triple_eqb. cbn [fst snd]. rewrite andb_true_iff, Nat.eqb_eq, pair_eqb_iff. split; [intros [-> ->]; reflexivity|intro E; injection E; auto]. Qed.
Lemma key_eqb_iff : forall a b, key_eqb a b = true <-> a = b.
Proof. intros [a1 a2] [b1 b2]. unfold key_eqb. cbn [fst snd]. rewrite andb_true_iff, !triple_eqb_iff. split; [intros [-> ->]; reflexivity|intro E; injection E; auto]. Qed.
Definition digits (i : nat) : nat * nat * nat := (i / 100 mod 10, i / 10 mod 10, i mod 10)%nat.
Lemma digits_val : forall i d1 d2 d3, (i <= 999)%nat -> digits i = (d1, d2, d3) -> i = (100 * d1 + 10 * d2 + d3)%nat /\ (d1 < 10 /\ d2 < 10 /\ d3 < 10)%nat.
Proof.
  intros i d1 d2 d3 Hi E. pose proof (f_equal (fun p => fst (fst p)) E : i / 100 mod 10 = d1)%nat as E1. pose proof (f_equal (fun p => snd (fst p)) E : i / 10 mod 10 = d2)%nat as E2. pose proof (f_equal snd E : i mod 10 = d3)%nat as E3.
  pose proof (Nat.div_mod i 10 ltac:(lia)). pose proof (Nat.div_mod (i / 10) 10 ltac:(lia)). assert (DD : (i / 10 / 10 = i / 100)%nat) by (rewrite Nat.div_div by lia; reflexivity). rewrite DD in H0.
  assert (i / 100 < 10)%nat by (apply Nat.div_lt_upper_bound; lia). rewrite (Nat.mod_small (i / 100)) in E1 by assumption.
  pose proof (Nat.mod_upper_bound i 10 ltac:(lia)). pose proof (Nat.mod_upper_bound (i / 10) 10 ltac:(lia)). lia.
Qed.
Lemma gottschalk_keys : forall a b, (222 <= a <= 999)%nat -> (222 <= b <= 999)%nat -> (In (digits a, digits b) (map fst gottschalk_K) <-> In (a, b) gottschalk_triplets).
Proof.
  intros a b Ha Hb. split; intro I.
  - assert (D : forallb (fun k => let '((a1, a2, a3), (b1, b2, b3)) := k in
      if (Nat.ltb a1 10 && Nat.ltb a2 10 && Nat.ltb a3 10 && Nat.ltb b1 10 && Nat.ltb b2 10 && Nat.ltb b3 10)%bool then existsb (pair_eqb (100 * a1 + 10 * a2 + a3, 100 * b1 + 10 * b2 + b3)%nat) gottschalk_triplets else true) (map fst gottschalk_K) = true) by (vm_compute; reflexivity).
    rewrite forallb_forall in D. specialize (D _ I). destruct (digits a) as [[a1 a2] a3] eqn:Ea. destruct (digits b) as [[b1 b2] b3] eqn:Eb.
    apply digits_val in Ea; [|lia]. apply digits_val in Eb; [|lia]. destruct Ea as [Ea (A1 & A2 & A3)], Eb as [Eb (B1 & B2 & B3)].
    apply Nat.ltb_lt in A1, A2, A3, B1, B2, B3. rewrite A1, A2, A3, B1, B2, B3 in D. cbn [andb] in D. rewrite <- Ea, <- Eb in D. apply existsb_exists in D. destruct D as [k [Hk E]]. apply pair_eqb_iff in E. now rewrite E.
  - assert (D : forallb (fun k => existsb (key_eqb (digits (fst k), digits (snd k))) (map fst gottschalk_K)) gottschalk_triplets = true) by (vm_compute; reflexivity).
    rewrite forallb_forall in D. specialize (D _ I). apply existsb_exists in D. destruct D as [k [Hk E]]. apply key_eqb_iff in E. cbn [fst snd] in E. now rewrite E.
Qed.
(** * Integrals are finite *)
Lemma luckas_J_fin : forall n a T rho, (0 < n)%nat -> 0 < T -> 0 <= rho -> exists v, luckas_J_val n a T rho = Some v.
Proof.
  intros n a T rho Hn HT Hr. unfold luckas_J_val. cbv zeta. assert (Pn : 0 < INR n) by (apply lt_0_INR; lia). rewrite cdiv_nz by lra. cbn [opt_bind].
  assert (CP : forall y, cpow T y = Some (Rpower T y)) by (intro y; unfold cpow; destruct (Req_EM_T T 0); [lra|]; destruct (Rlt_dec 0 T); [reflexivity|contradiction]). rewrite !CP. cbn [opt_bind].
  destruct (Req_EM_T rho 0) as [E|E].
  - rewrite cdiv_nz by lra. cbn [opt_bind]. eauto.
  - assert (0 < sqrt 2) by (apply sqrt_lt_R0; lra). rewrite clog_p by (apply Rdiv_lt_0_compat; lra). cbn [opt_bind]. destruct (Req_EM_T (ln (rho / sqrt 2)) 0) as [E'|E']; [cbn [opt_bind]; eauto|].
    assert (P : 0 < Rabs (ln (rho / sqrt 2)) ^ 3) by (apply pow_lt, Rabs_pos_lt, E'). rewrite cdiv_nz by lra. cbn [opt_bind].
    assert (0 < 4 / Rabs (ln (rho / sqrt 2)) ^ 3) by (apply Rdiv_lt_0_compat; lra). rewrite cdiv_nz by lra. cbn [opt_bind]. eauto.
Qed.
Lemma twu_fin : forall a T rho, 0 < T -> exists v, twu_val a T rho = Some v /\ 0 < v.
Proof. intros a T rho HT. unfold twu_val. rewrite clog_p by exact HT. cbn [opt_bind]. eexists. split; [reflexivity|apply exp_pos]. Qed.
Definition twu_pair (n : nat) (T rho : R) : R := match first Nat.eqb n twu_J with Some a => match twu_val a T rho with Some v => v | None => 0 end | None => 0 end.
Definition twu_triplet (k : nat * nat) (T rho : R) : R := match first pair_eqb k twu_K with Some a => match twu_K_val k a T rho with Some v => v | None => 0 end | None => 0 end.
Lemma twu_pair_val : forall n T rho, In n pair_orders -> 0 < T -> the_J GubbinsTwu n T rho = Some (twu_pair n T rho) /\ 0 < twu_pair n T rho.
Proof.
  intros n T rho Hn HT. cbn in Hn. destruct Hn as [<-|[<-|[<-|[<-|[<-|[<-|[]]]]]]];
    unfold the_J, make_J, at_key, twu_pair; cbn [first twu_J Nat.eqb bind];
    match goal with |- context [twu_val ?a T rho] => destruct (twu_fin a T rho HT) as [v [-> P]] end; split; (reflexivity || exact P).
Qed.
Lemma twu_triplet_val : forall k T rho, In k triplet_orders -> 0 < T -> the_K GubbinsTwu k T rho = Some (twu_triplet k T rho) /\ 0 < sign k * twu_triplet k T rho.
Proof.
  intros n T rho Hn HT. cbn in Hn. destruct Hn as [<-|[<-|[<-|[<-|[]]]]];
    unfold the_K, make_K, at_key, twu_triplet; cbn [first twu_K pair_eqb fst snd Nat.eqb andb bind]; unfold twu_K_val;
    match goal with |- context [twu_val ?a T rho] => destruct (twu_fin a T rho HT) as [v [-> P]] end; unfold twu_sign, sign; cbn [pair_eqb fst snd Nat.eqb andb opt_bind]; (split; [reflexivity|lra]).
Qed.
Lemma twu_J_at : forall N Tr rs, (forall i j, (i < N)%nat -> (j < N)%nat -> 0 < Tr i j) -> J_at (the_J GubbinsTwu) N Tr rs (fun n i j => twu_pair n (Tr i j) rs).
Proof. intros N Tr rs H n i j Hn Hi Hj. apply twu_pair_val; auto. Qed.
Lemma twu_K_at : forall N Tr rs, (forall i j, (i < N)%nat -> (j < N)%nat -> 0 < Tr i j) -> K_at (the_K GubbinsTwu) N Tr rs (fun k i j => twu_triplet k (Tr i j) rs).
Proof. intros N Tr rs H n i j Hn Hi Hj. apply twu_triplet_val; auto. Qed.

(** * Moments *)
Lemma total_abs_0 : forall l, total_abs l = 0 <-> Forall (fun v => v = 0) l.
Proof.
  intro l. unfold total_abs. split; intro H.
  - apply Forall_forall. intros v Hv. destruct (In_nth l v 0 Hv) as [i [Hi <-]].
    assert (Rabs (nth i l 0) <= sumn (length l) (fun k => Rabs (nth k l 0))) by (apply (sumn_term (length l) (fun k => Rabs (nth k l 0))); [exact Hi|intros; apply Rabs_pos]).
    pose proof (Rabs_pos (nth i l 0)). destruct (Req_dec (nth i l 0) 0) as [Z|Z]; [exact Z|]. apply Rabs_pos_lt in Z. lra.
  - apply sumn_0. intros i Hi. rewrite Forall_forall in H. rewrite (H (nth i l 0)) by (now apply nth_In). apply Rabs_R0.
Qed.
Lemma total_abs_nn : forall l, 0 <= total_abs l. Proof. intro l. unfold total_abs. apply sumn_pos. intros; apply Rabs_pos. Qed.
Lemma has_polar_false : forall a b, has_polar a b = false <-> Forall (fun v => v = 0) a /\ Forall (fun v => v = 0) b.
Proof.
  intros a b. rewrite <- !total_abs_0. unfold has_polar. pose proof (total_abs_nn a). pose proof (total_abs_nn b).
  destruct (Rlt_dec 0 (total_abs a)); [split; [discriminate|intros []; lra]|]. destruct (Rlt_dec 0 (total_abs b)); [split; [discriminate|intros []; lra]|]. split; [intros _; lra|reflexivity].
Qed.
Lemma zero_nth : forall l i, Forall (fun v => v = 0) l -> nth i l 0 = 0.
Proof. intros l i H. rewrite Forall_forall in H. destruct (Nat.lt_ge_cases i (length l)); [apply H, nth_In; assumption|now apply nth_overflow]. Qed.

(** * Sums *)
Lemma sum2_pos_term : forall N x f i j, (forall i, (i < N)%nat -> 0 <= x i) -> (forall i j, (i < N)%nat -> (j < N)%nat -> 0 <= f i j) -> (i < N)%nat -> (j < N)%nat -> x i * x j * f i j <= sum2 N x f.
Proof.
  intros N x f i j Hx Hf Hi Hj. unfold sum2.
  assert (P : forall i j, (i < N)%nat -> (j < N)%nat -> 0 <= x i * x j * f i j) by (intros; repeat apply Rmult_le_pos; auto).
  eapply Rle_trans; [|apply (sumn_term N (fun i => sumn N (fun j => x i * x j * f i j))); [exact Hi|intros k Hk; apply sumn_pos; intros; now apply P]].
  apply (sumn_term N (fun j => x i * x j * f i j)); [exact Hj|intros; now apply P].
Qed.
Lemma sum2_nn : forall N x f, (forall i, (i < N)%nat -> 0 <= x i) -> (forall i j, (i < N)%nat -> (j < N)%nat -> 0 <= f i j) -> 0 <= sum2 N x f.
Proof. intros N x f Hx Hf. unfold sum2. apply sumn_pos. intros i Hi. apply sumn_pos. intros j Hj. repeat apply Rmult_le_pos; auto. Qed.
Lemma sum3_nn : forall N x f, (forall i, (i < N)%nat -> 0 <= x i) -> (forall i j k, (i < N)%nat -> (j < N)%nat -> (k < N)%nat -> 0 <= f i j k) -> 0 <= sum3 N x f.
Proof. intros N x f Hx Hf. unfold sum3. apply sumn_pos. intros i Hi. apply sumn_pos. intros j Hj. apply sumn_pos. intros k Hk. repeat apply Rmult_le_pos; auto. Qed.
Lemma lump2 : forall r x' x q' q, lumped r x' x -> (forall i j, (i < length r)%nat -> (j < length r)%nat -> q' i j = q (nth i r O) (nth j r O)) ->
  sum2 (length x') (fun i => nth i x' 0) q' = sum2 (length x) (fun i => nth i x 0) q.
Proof. intros r x' x q' q HL H. destruct HL as [L HL']. rewrite L. unfold sum2. apply lump_quad; [split; assumption|exact H]. Qed.
Lemma lump3 : forall r x' x q' q, lumped r x' x -> (forall i j k, (i < length r)%nat -> (j < length r)%nat -> (k < length r)%nat -> q' i j k = q (nth i r O) (nth j r O) (nth k r O)) ->
  sum3 (length x') (fun i => nth i x' 0) q' = sum3 (length x) (fun i => nth i x 0) q.
Proof.
  intros r x' x q' q HL H. pose proof HL as [L HL']. rewrite L. unfold sum3.
  transitivity (sumn (length r) (fun i => nth i x' 0 * sum2 (length x) (fun i => nth i x 0) (q (nth i r O)))).
  - apply sumn_ext. intros i Hi. rewrite <- (lump2 r x' x (q' i)) by (exact HL || (intros; now apply H)). unfold sum2. rewrite L, <- sumn_scal. apply sumn_ext. intros j Hj. rewrite <- sumn_scal. apply sumn_ext. intros; ring.
  - rewrite (lump r x' x (fun k => sum2 (length x) (fun i => nth i x 0) (q k)) HL). apply sumn_ext. intros i Hi. unfold sum2. rewrite <- sumn_scal. apply sumn_ext. intros j Hj. rewrite <- sumn_scal. apply sumn_ext. intros; ring.
Qed.
(** sign of the expansion *)
Section Sign.
Variables (N : nat) (x a q al : nat -> R) (S : nat -> nat -> R) (Jv : nat -> nat -> nat -> R) (V : nat * nat -> nat -> nat -> R) (rho c c' : R).
Hypothesis Hx : forall i, (i < N)%nat -> 0 <= x i.
Hypothesis Ha : forall i, (i < N)%nat -> 0 <= a i.
Hypothesis Hal : forall i, (i < N)%nat -> 0 <= al i.
Hypothesis HS : forall i j, (i < N)%nat -> (j < N)%nat -> 0 < S i j.
Hypothesis HJ : forall n i j, In n pair_orders -> (i < N)%nat -> (j < N)%nat -> 0 < Jv n i j.
Lemma div_nn : forall u v, 0 <= u -> 0 < v -> 0 <= u / v. Proof. intros u v Hu Hv. apply Rmult_le_pos; [exact Hu|]. apply Rlt_le, Rinv_0_lt_compat, Hv. Qed.
Lemma z_le : forall i j, (i < N)%nat -> (j < N)%nat -> 0 <= a i * a j / 9 <= zz a al i * zz a al j - al i * al j.
Proof. intros i j Hi Hj. unfold zz. pose proof (Ha i Hi). pose proof (Ha j Hj). pose proof (Hal i Hi). pose proof (Hal j Hj). assert (0 <= a i * a j) by (now apply Rmult_le_pos). assert (0 <= a i * al j) by (now apply Rmult_le_pos). assert (0 <= al i * a j) by (now apply Rmult_le_pos). split; [lra|]. nra. Qed.
Lemma z_nn : forall i, (i < N)%nat -> 0 <= zz a al i. Proof. intros i Hi. unfold zz. pose proof (Ha i Hi). pose proof (Hal i Hi). lra. Qed.
Lemma term2 : forall i j, (i < N)%nat -> (j < N)%nat ->
  0 <= 3 / 2 * (zz a al i * zz a al j - al i * al j) * Jv 6%nat i j / S i j ^ 3 /\ 0 <= 3 / 2 * zz a al i * q j ^ 2 * Jv 8%nat i j / S i j ^ 5 /\ 0 <= 7 / 10 * q i ^ 2 * q j ^ 2 * Jv 10%nat i j / S i j ^ 7.
Proof.
  intros i j Hi Hj. pose proof (HS i j Hi Hj) as Sp. pose proof (z_le i j Hi Hj). pose proof (z_nn i Hi). pose proof (pow2_ge_0 (q i)). pose proof (pow2_ge_0 (q j)).
  assert (J6 : 0 < Jv 6%nat i j) by (apply HJ; cbn; tauto). assert (J8 : 0 < Jv 8%nat i j) by (apply HJ; cbn; tauto). assert (J10 : 0 < Jv 10%nat i j) by (apply HJ; cbn; tauto).
  set (qi := q i ^ 2) in *. set (qj := q j ^ 2) in *. clearbody qi qj. repeat split; (apply div_nn; [|apply pow_lt; exact Sp]); repeat apply Rmult_le_pos; lra.
Qed.
Lemma order2_neg : forall i, 0 < rho -> (i < N)%nat -> 0 < x i -> 0 < a i \/ q i <> 0 -> order2 N x a q al S Jv rho < 0.
Proof.
  intros i Hr Hi Xi Pi. unfold order2. set (f := fun i j => _).
  assert (Fn : forall i j, (i < N)%nat -> (j < N)%nat -> 0 <= f i j). { intros k l Hk Hl. unfold f. pose proof (term2 k l Hk Hl). pose proof PI_RGT_0. apply Rmult_le_pos; lra. }
  assert (F : 0 < f i i). { unfold f. pose proof (term2 i i Hi Hi) as (T1 & T2 & T3). pose proof PI_RGT_0. pose proof (HS i i Hi Hi) as Sp. apply Rmult_lt_0_compat; [lra|]. destruct Pi as [P|P].
    - assert (0 < 3 / 2 * (zz a al i * zz a al i - al i * al i) * Jv 6%nat i i / S i i ^ 3); [|lra]. apply Rdiv_lt_0_compat; [|apply pow_lt; exact Sp]. pose proof (z_le i i Hi Hi). assert (0 < a i * a i) by (now apply Rmult_lt_0_compat). assert (J6 : 0 < Jv 6%nat i i) by (apply HJ; cbn; tauto). apply Rmult_lt_0_compat; [apply Rmult_lt_0_compat; lra|exact J6].
    - assert (0 < 7 / 10 * q i ^ 2 * q i ^ 2 * Jv 10%nat i i / S i i ^ 7); [|lra]. apply Rdiv_lt_0_compat; [|apply pow_lt; exact Sp]. assert (0 < q i ^ 2) by (rewrite <- Rsqr_pow2; now apply Rsqr_pos_lt). assert (J6 : 0 < Jv 10%nat i i) by (apply HJ; cbn; tauto). apply Rmult_lt_0_compat; [apply Rmult_lt_0_compat; [apply Rmult_lt_0_compat|]|]; lra. }
  assert (0 < sum2 N x f). { eapply Rlt_le_trans; [|apply (sum2_pos_term N x f i i Hx Fn Hi Hi)]. apply Rmult_lt_0_compat; [apply Rmult_lt_0_compat|]; assumption. }
  assert (0 < rho * sum2 N x f) by (now apply Rmult_lt_0_compat). lra.
Qed.
Lemma order3_nn : (forall i, (i < N)%nat -> 0 <= q i) -> 0 <= rho -> 0 <= c -> 0 <= c' -> 0 <= order3 N x a q al (fun _ => 0) S Jv (triplet V) rho c c'.
Proof.
  intros Hq Hr Hc Hc'. unfold order3. pose proof PI_RGT_0 as PP. apply Rmult_le_pos; [exact Hc|]. apply Rplus_le_le_0_compat.
  - apply Rmult_le_pos; [exact Hr|]. apply sum2_nn; [exact Hx|]. intros i j Hi Hj. pose proof (HS i j Hi Hj) as Sp. pose proof (Ha i Hi). pose proof (Ha j Hj). pose proof (Hq i Hi). pose proof (Hq j Hj).
    assert (J11 : 0 < Jv 11%nat i j) by (apply HJ; cbn; tauto). assert (J13 : 0 < Jv 13%nat i j) by (apply HJ; cbn; tauto). assert (J15 : 0 < Jv 15%nat i j) by (apply HJ; cbn; tauto).
    apply Rmult_le_pos; [lra|]. rewrite !Rmult_0_r, !Rmult_0_l, !Rplus_0_r.
    repeat apply Rplus_le_le_0_compat; (apply div_nn; [|apply pow_lt; exact Sp]); repeat apply Rmult_le_pos; try apply pow_le; try lra.
  - apply Rmult_le_pos; [apply pow_le; exact Hr|]. apply sum3_nn; [exact Hx|]. intros i j k Hi Hj Hk. pose proof (HS i j Hi Hj) as S1. pose proof (HS i k Hi Hk) as S2. pose proof (HS j k Hj Hk) as S3.
    pose proof (z_nn i Hi). pose proof (z_nn j Hj). pose proof (z_nn k Hk). pose proof (Hal i Hi). pose proof (Hal j Hj). pose proof (Hal k Hk). pose proof (Ha i Hi). pose proof (Ha j Hj). pose proof (Ha k Hk).
    pose proof (pow2_ge_0 (q i)). pose proof (pow2_ge_0 (q j)). pose proof (pow2_ge_0 (q k)).
    assert (K1 : 0 < triplet V (222, 333)%nat i j k) by (generalize (triplet_sign V (222, 333)%nat i j k); unfold sign; cbn [fst Nat.eqb]; intro Z; assert (0 < 1 * triplet V (222, 333)%nat i j k) by (apply Z; cbn; tauto); lra).
    assert (K2 : 0 < triplet V (233, 344)%nat i j k) by (generalize (triplet_sign V (233, 344)%nat i j k); unfold sign; cbn [fst Nat.eqb]; intro Z; assert (0 < 1 * triplet V (233, 344)%nat i j k) by (apply Z; cbn; tauto); lra).
    assert (K3 : 0 < - triplet V (334, 445)%nat i j k) by (generalize (triplet_sign V (334, 445)%nat i j k); unfold sign; cbn [fst Nat.eqb]; intro Z; assert (0 < -1 * triplet V (334, 445)%nat i j k) by (apply Z; cbn; tauto); lra).
    assert (K4 : 0 < triplet V (444, 555)%nat i j k) by (generalize (triplet_sign V (444, 555)%nat i j k); unfold sign; cbn [fst Nat.eqb]; intro Z; assert (0 < 1 * triplet V (444, 555)%nat i j k) by (apply Z; cbn; tauto); lra).
    assert (Z3 : 0 <= zz a al i * zz a al j * zz a al k - al i * al j * al k).
    { assert (L : forall u v u' v', 0 <= u <= u' -> 0 <= v <= v' -> u * v <= u' * v') by (intros; apply Rmult_le_compat; lra).
      assert (al i * al j <= zz a al i * zz a al j) by (apply L; unfold zz in *; lra). assert (0 <= al i * al j) by (now apply Rmult_le_pos). assert (al i * al j * al k <= zz a al i * zz a al j * zz a al k) by (apply L; unfold zz in *; lra). lra. }
    set (qi := q i ^ 2) in *. set (qj := q j ^ 2) in *. set (qk := q k ^ 2) in *. clearbody qi qj qk.
    pose proof (sqrt_pos (14 * PI / 5)). pose proof (sqrt_pos (3 * PI)). pose proof (sqrt_pos (22 * PI / 7)). pose proof (sqrt_pos (2002 * PI)). assert (P3 : 0 < PI ^ 3) by (apply pow_lt; exact PP).
    assert (D1 : 0 < S i j * S i k * S j k) by (repeat apply Rmult_lt_0_compat; assumption).
    assert (0 <= 64 * PI ^ 3 / 5 * sqrt (14 * PI / 5)) by (apply Rmult_le_pos; lra). assert (0 <= 2048 * PI ^ 3 / 7 * sqrt (3 * PI)) by (apply Rmult_le_pos; lra). assert (0 <= 4096 * PI ^ 3 / 9 * sqrt (22 * PI / 7)) by (apply Rmult_le_pos; lra). assert (0 <= 8192 * PI ^ 3 / 81 * sqrt (2002 * PI)) by (apply Rmult_le_pos; lra).
    apply Rplus_le_le_0_compat; [apply Rplus_le_le_0_compat|].
    + apply div_nn; [|exact D1]. apply Rmult_le_pos; [|lra]. apply Rmult_le_pos; [lra|assumption].
    + apply Rmult_le_pos; [exact Hc'|].
      assert (0 <= 3 / 160 * zz a al i * zz a al j * qk * (2048 * PI ^ 3 / 7 * sqrt (3 * PI)) * triplet V (233, 344)%nat i j k / (S i j * S i k ^ 2 * S j k ^ 2)).
      { apply div_nn; [apply Rmult_le_pos; [|lra]; apply Rmult_le_pos; [|assumption]; repeat apply Rmult_le_pos; lra|]. apply Rmult_lt_0_compat; [apply Rmult_lt_0_compat|]; first [assumption|apply pow_lt; assumption]. }
      assert (0 <= 3 / 640 * zz a al i * qj * qk * (4096 * PI ^ 3 / 9 * sqrt (22 * PI / 7)) * (- triplet V (334, 445)%nat i j k) / (S i j ^ 2 * S i k ^ 2 * S j k ^ 3)).
      { apply div_nn; [apply Rmult_le_pos; [|lra]; apply Rmult_le_pos; [|assumption]; repeat apply Rmult_le_pos; lra|]. apply Rmult_lt_0_compat; [apply Rmult_lt_0_compat|]; first [assumption|apply pow_lt; assumption]. }
      replace (3 / 640 * zz a al i * qj * qk * (4096 * PI ^ 3 / 9 * sqrt (22 * PI / 7)) * triplet V (334, 445)%nat i j k / (S i j ^ 2 * S i k ^ 2 * S j k ^ 3)) with (- (3 / 640 * zz a al i * qj * qk * (4096 * PI ^ 3 / 9 * sqrt (22 * PI / 7)) * (- triplet V (334, 445)%nat i j k) / (S i j ^ 2 * S i k ^ 2 * S j k ^ 3))) by (unfold Rdiv; ring). lra.
    + apply div_nn; [|apply pow_lt; exact D1]. apply Rmult_le_pos; [|lra]. apply Rmult_le_pos; [|assumption]. repeat apply Rmult_le_pos; lra.
Qed.
End Sign.
Lemma pade_between : forall a2 a3, a2 < 0 -> 0 <= a3 -> 1 - a3 / a2 <> 0 /\ a2 <= pade a2 a3 < 0.
Proof.
  intros a2 a3 H2 H3. assert (L : a3 / a2 <= 0) by (unfold Rdiv; assert (/ a2 < 0) by (now apply Rinv_lt_0_compat); nra). split; [lra|]. unfold pade. set (d := 1 - a3 / a2) in *. assert (D : 1 <= d) by (unfold d; lra).
  assert (I : 0 < / d <= 1) by (split; [apply Rinv_0_lt_compat; lra|rewrite <- Rinv_1; apply Rinv_le_contravar; lra]). unfold Rdiv. nra.
Qed.
