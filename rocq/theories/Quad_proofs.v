(** Gauss-Legendre quadrature: exactness and error bounds (C14). *)
From Coq Require Import Reals ZArith List Bool Lia Lra.
From Coquelicot Require Import Coquelicot.
From Verif Require Import Json_model Numerics_model Poly_spec.
Import ListNotations.
Local Open Scope R_scope.

(** ** Quadrature *)

(** Composition with an affine map, on coefficient lists of the same length. *)
Fixpoint padd (p q : list R) : list R :=
  match p, q with
  | [], _ => q | _, [] => p
  | a :: p', b :: q' => (a + b) :: padd p' q'
  end.
Definition pscal (c : R) (p : list R) : list R := map (Rmult c) p.
(** p(d t + c) *)
Fixpoint pcomp (p : list R) (d c : R) : list R :=
  match p with
  | [] => []
  | a :: p' => let q := pcomp p' d c in padd [a] (padd (pscal c q) (0 :: pscal d q))
  end.

Lemma peval_padd p q t : peval (padd p q) t = peval p t + peval q t.
Proof.
  revert q. induction p as [|a p IH]; intros [|b q]; simpl; try ring. rewrite IH. ring.
Qed.
Lemma peval_pscal c p t : peval (pscal c p) t = c * peval p t.
Proof. unfold pscal. induction p as [|a p IH]; simpl; [ring|]. rewrite IH. ring. Qed.
Lemma peval_pcomp p d c t : peval (pcomp p d c) t = peval p (d * t + c).
Proof.
  induction p as [|a p IH]; [reflexivity|].
  change (pcomp (a :: p) d c) with
    (padd [a] (padd (pscal c (pcomp p d c)) (0 :: pscal d (pcomp p d c)))).
  rewrite !peval_padd, peval_pscal.
  change (peval (0 :: pscal d (pcomp p d c)) t) with (0 + t * peval (pscal d (pcomp p d c)) t).
  rewrite peval_pscal, IH. simpl. ring.
Qed.
Lemma length_padd p q : length (padd p q) = Nat.max (length p) (length q).
Proof. revert q. induction p as [|a p IH]; intros [|b q]; simpl; auto. Qed.
Lemma length_pcomp p d c : (length (pcomp p d c) <= length p)%nat.
Proof.
  induction p as [|a p IH]; [simpl; lia|].
  change (pcomp (a :: p) d c) with
    (padd [a] (padd (pscal c (pcomp p d c)) (0 :: pscal d (pcomp p d c)))).
  rewrite !length_padd. cbn [length]. unfold pscal. rewrite !map_length. lia.
Qed.

(** Discrete moments of a rule and the exact ones on [-1,1]. *)
Fixpoint moment (x w : list R) (m : nat) : R :=
  match x, w with xi :: x', wi :: w' => wi * xi ^ m + moment x' w' m | _, _ => 0 end.
Definition exact_moment (m : nat) : R := if Nat.even m then 2 / (INR m + 1) else 0.

Fixpoint mdot (p : list R) (f : nat -> R) (m : nat) : R :=
  match p with [] => 0 | a :: p' => a * f m + mdot p' f (S m) end.

Fixpoint nodesum (F : R -> R) (x w : list R) : R :=
  match x, w with xi :: x', wi :: w' => wi * F xi + nodesum F x' w' | _, _ => 0 end.

Lemma quad_sum_nodesum F a b x w s :
  quad_sum F a b x w s = s + nodesum (fun t => F ((b - a) / 2 * t + (a + b) / 2)) x w.
Proof.
  revert w s. induction x as [|xi x IH]; intros [|wi w] s; simpl; try ring.
  rewrite IH. ring.
Qed.

Lemma nodesum_ext F G x w : (forall t, F t = G t) -> nodesum F x w = nodesum G x w.
Proof.
  intros E. revert w. induction x as [|xi x IH]; intros [|wi w]; simpl; auto.
  now rewrite E, IH.
Qed.

Lemma nodesum_plus F G x w : nodesum (fun t => F t + G t) x w = nodesum F x w + nodesum G x w.
Proof. revert w. induction x as [|xi x IH]; intros [|wi w]; simpl; try ring. rewrite IH. ring. Qed.
Lemma nodesum_scal c F x w : nodesum (fun t => c * F t) x w = c * nodesum F x w.
Proof. revert w. induction x as [|xi x IH]; intros [|wi w]; simpl; try ring. rewrite IH. ring. Qed.
Lemma nodesum_pow m x w : nodesum (fun t => t ^ m) x w = moment x w m.
Proof. revert w. induction x as [|xi x IH]; intros [|wi w]; simpl; auto. now rewrite IH. Qed.
Lemma nodesum_zero x w : nodesum (fun _ => 0) x w = 0.
Proof. revert w. induction x as [|xi x IH]; intros [|wi w]; simpl; auto. rewrite IH. ring. Qed.

Lemma nodesum_peval_shift q m x w :
  nodesum (fun t => t ^ m * peval q t) x w = mdot q (moment x w) m.
Proof.
  revert m. induction q as [|a q IH]; intros m; simpl.
  - rewrite (nodesum_ext _ (fun _ => 0)) by (intros; ring). apply nodesum_zero.
  - rewrite (nodesum_ext _ (fun t => a * t ^ m + t ^ S m * peval q t)) by (intros; simpl; ring).
    rewrite nodesum_plus, nodesum_scal, nodesum_pow, IH. reflexivity.
Qed.
Lemma nodesum_peval q x w : nodesum (peval q) x w = mdot q (moment x w) 0.
Proof.
  rewrite <- nodesum_peval_shift. apply nodesum_ext. intros; simpl; ring.
Qed.

Lemma pow_m1 m : (-1) ^ m = if Nat.even m then 1 else -1.
Proof.
  induction m as [|m IH]; [reflexivity|]. rewrite Nat.even_succ, <- Nat.negb_even. simpl. rewrite IH.
  destruct (Nat.even m); simpl; ring.
Qed.

Lemma pint_aux_moments q m :
  1 ^ S m * peval (pint_aux (INR m + 1) q) 1 - (-1) ^ S m * peval (pint_aux (INR m + 1) q) (-1)
  = mdot q exact_moment m.
Proof.
  revert m. induction q as [|a q IH]; intros m; simpl; [ring|].
  specialize (IH (S m)). rewrite S_INR in IH.
  rewrite <- IH. unfold exact_moment. pose proof (pow_m1 m) as P. simpl. rewrite P.
  assert (INR m + 1 <> 0) by (pose proof (pos_INR m); lra).
  rewrite pow1. destruct (Nat.even m); field; assumption.
Qed.
Lemma pint_moments q :
  peval (pint q) 1 - peval (pint q) (-1) = mdot q exact_moment 0.
Proof.
  rewrite <- pint_aux_moments. unfold pint. simpl. replace (0 + 1) with 1 by ring. ring.
Qed.

(** The integral of [p] over [a,b] in normalised coordinates. *)
Lemma RInt_normalised p a b :
  is_RInt (peval p) a b ((b - a) / 2 * mdot (pcomp p ((b - a) / 2) ((a + b) / 2)) exact_moment 0).
Proof.
  set (d := (b - a) / 2). set (c := (a + b) / 2). set (q := pcomp p d c).
  assert (Q : is_RInt (peval q) (-1) 1 (mdot q exact_moment 0)).
  { rewrite <- pint_moments. apply is_RInt_peval. }
  assert (P := is_RInt_peval p a b).
  assert (P' : is_RInt (fun y => scal d (peval p (d * y + c))) (-1) 1 (peval (pint p) b - peval (pint p) a)).
  { apply (is_RInt_comp_lin (peval p) d c (-1) 1).
    replace (d * -1 + c) with a by (unfold d, c; field).
    replace (d * 1 + c) with b by (unfold d, c; field). exact P. }
  assert (Q' : is_RInt (fun y => scal d (peval q y)) (-1) 1 (scal d (mdot q exact_moment 0))).
  { apply @is_RInt_scal. exact Q. }
  assert (E : peval (pint p) b - peval (pint p) a = scal d (mdot q exact_moment 0)).
  { apply (is_RInt_ext _ (fun y => scal d (peval p (d * y + c)))) in Q'.
    - pose proof (@is_RInt_unique R_CompleteNormedModule _ _ _ _ P') as U1.
      pose proof (@is_RInt_unique R_CompleteNormedModule _ _ _ _ Q') as U2.
      rewrite <- U1. exact U2.
    - intros y _. unfold q. now rewrite peval_pcomp. }
  change (is_RInt (peval p) a b (scal d (mdot q exact_moment 0))). rewrite <- E. exact P.
Qed.

Lemma mdot_ext q f g m :
  (forall k, (m <= k < m + length q)%nat -> f k = g k) -> mdot q f m = mdot q g m.
Proof.
  revert m. induction q as [|a q IH]; intros m H; simpl; [reflexivity|].
  rewrite (H m) by (simpl; lia). rewrite IH; [reflexivity|].
  intros k Hk. apply H. simpl; lia.
Qed.

Lemma quad_exact N x w p a b :
  gl_nodes N = Some (x, w) ->
  (forall m, (m < 2 * N)%nat -> moment x w m = exact_moment m) ->
  (length p <= 2 * N)%nat ->
  exists I, quad N (peval p) a b = Val I /\ is_RInt (peval p) a b I.
Proof.
  intros G M L. unfold quad. rewrite G. eexists. split; [reflexivity|].
  rewrite quad_sum_nodesum, Rplus_0_l.
  rewrite (nodesum_ext _ (peval (pcomp p ((b - a) / 2) ((a + b) / 2))))
    by (intros; now rewrite peval_pcomp).
  rewrite nodesum_peval, (mdot_ext _ (moment x w) exact_moment).
  - apply RInt_normalised.
  - intros k Hk. apply M. pose proof (length_pcomp p ((b - a) / 2) ((a + b) / 2)). lia.
Qed.

(** A symmetric pair of nodes with equal weights. *)
Lemma pair_even u k : u ^ (2 * k) = (u ^ 2) ^ k.
Proof. apply pow_mult. Qed.
Lemma opp_even u k : (- u) ^ (2 * k) = (u ^ 2) ^ k.
Proof. rewrite pow_mult. f_equal. ring. Qed.
Lemma opp_odd u k : (- u) ^ (S (2 * k)) = - u ^ (S (2 * k)).
Proof. rewrite <- !tech_pow_Rmult, opp_even, pair_even. ring. Qed.

Lemma even_or_odd m : exists k, m = (2 * k)%nat \/ m = S (2 * k).
Proof. exists (Nat.div2 m). pose proof (Nat.div2_odd m). destruct (Nat.odd m); simpl in *; lia. Qed.
Lemma exact_odd k : exact_moment (S (2 * k)) = 0.
Proof. unfold exact_moment. rewrite Nat.even_succ, Nat.odd_mul. reflexivity. Qed.

Lemma moments3 x w : gl_nodes 3 = Some (x, w) ->
  forall m, (m < 6)%nat -> moment x w m = exact_moment m.
Proof.
  intros G m H. injection G as <- <-.
  set (s := sqrt (3/5)).
  assert (Hs : s ^ 2 = 3/5) by (unfold s; rewrite pow2_sqrt; lra).
  clearbody s.
  assert (Hs4 : s ^ 4 = 9/25) by (replace (s^4) with ((s^2)^2) by ring; rewrite Hs; lra).
  do 6 (destruct m as [|m]; [unfold exact_moment; simpl in *; lra|]). lia.
Qed.

Lemma sqrt_ratio a b k : 0 <= b -> 0 <= k -> a = k ^ 2 * b -> sqrt a = k * sqrt b.
Proof.
  intros Hb Hk ->. rewrite sqrt_mult; [|apply pow2_ge_0|assumption].
  rewrite sqrt_pow2; auto.
Qed.

Lemma moments4 x w : gl_nodes 4 = Some (x, w) ->
  forall m, (m < 8)%nat -> moment x w m = exact_moment m.
Proof.
  intros G m H. injection G as <- <-.
  rewrite (sqrt_ratio 30 (6/5) 5) by lra.
  set (s := sqrt (6/5)).
  assert (Hs : s ^ 2 = 6/5) by (unfold s; rewrite pow2_sqrt; lra).
  assert (Ps : 0 <= s) by apply sqrt_pos.
  assert (Bs : s <= 3/2) by nra.
  set (u := sqrt (3/7 - 2/7 * s)). set (v := sqrt (3/7 + 2/7 * s)).
  assert (Hu : u ^ 2 = 3/7 - 2/7 * s) by (unfold u; rewrite pow2_sqrt; lra).
  assert (Hv : v ^ 2 = 3/7 + 2/7 * s) by (unfold v; rewrite pow2_sqrt; lra).
  clearbody s u v.
  assert (Hs3 : s ^ 3 = 6/5 * s) by (replace (s^3) with (s^2*s) by ring; rewrite Hs; ring).
  assert (Hs4 : s ^ 4 = 36/25) by (replace (s^4) with ((s^2)^2) by ring; rewrite Hs; field).
  destruct (even_or_odd m) as [k [->| ->]].
  - cbn [moment]. rewrite !opp_even, !pair_even, Hu, Hv. unfold exact_moment.
    do 4 (destruct k as [|k]; [simpl; clear H; lra|]). lia.
  - rewrite exact_odd. cbn [moment]. rewrite !opp_odd. ring.
Qed.

Lemma moments5 x w : gl_nodes 5 = Some (x, w) ->
  forall m, (m < 10)%nat -> moment x w m = exact_moment m.
Proof.
  intros G m H. injection G as <- <-.
  rewrite (sqrt_ratio 70 (10/7) 7) by lra.
  set (s := sqrt (10/7)).
  assert (Hs : s ^ 2 = 10/7) by (unfold s; rewrite pow2_sqrt; lra).
  assert (Ps : 0 <= s) by apply sqrt_pos.
  assert (Bs : s <= 3/2) by nra.
  set (u' := sqrt (5 - 2 * s)). set (v' := sqrt (5 + 2 * s)).
  replace (- (1) / 3 * u') with (- (1/3 * u')) by field.
  replace (- (1) / 3 * v') with (- (1/3 * v')) by field.
  assert (Hu' : u' ^ 2 = 5 - 2 * s) by (unfold u'; rewrite pow2_sqrt; lra).
  assert (Hv' : v' ^ 2 = 5 + 2 * s) by (unfold v'; rewrite pow2_sqrt; lra).
  set (u := 1/3 * u'). set (v := 1/3 * v').
  assert (Hu : u ^ 2 = (5 - 2 * s)/9) by (unfold u; lra).
  assert (Hv : v ^ 2 = (5 + 2 * s)/9) by (unfold v; lra).
  clearbody s u v.
  assert (Hs3 : s ^ 3 = 10/7 * s) by (replace (s^3) with (s^2*s) by ring; rewrite Hs; ring).
  assert (Hs4 : s ^ 4 = 100/49) by (replace (s^4) with ((s^2)^2) by ring; rewrite Hs; field).
  assert (Hs5 : s ^ 5 = 100/49 * s) by (replace (s^5) with ((s^2)^2*s) by ring; rewrite Hs; field).
  destruct (even_or_odd m) as [k [->| ->]].
  - cbn [moment]. rewrite !opp_even, !pair_even, Hu, Hv. unfold exact_moment.
    do 5 (destruct k as [|k]; [simpl; clear H; lra|]). lia.
  - rewrite exact_odd. cbn [moment]. rewrite !opp_odd. simpl. ring.
Qed.

(** *** Decimal rules *)

Fixpoint zmoment (x w : list Z) (m : Z) : Z :=
  match x, w with xi :: x', wi :: w' => (wi * xi ^ m + zmoment x' w' m)%Z | _, _ => 0%Z end.

Lemma IZR_pow10 k : IZR (10 ^ Z.of_nat k) = 10 ^ k.
Proof. rewrite <- pow_IZR. reflexivity. Qed.

Lemma moment_dec X W m :
  moment (map dec X) (map dec W) m = IZR (zmoment X W (Z.of_nat m)) / (10 ^ 16) ^ S m.
Proof.
  revert W. induction X as [|x X IH]; intros [|w W]; cbn [map moment zmoment];
    try (unfold Rdiv; rewrite Rmult_0_l; reflexivity).
  rewrite IH, plus_IZR, mult_IZR, <- pow_IZR. unfold dec.
  unfold Rdiv. rewrite Rpow_mult_distr, pow_inv.
  assert (HT : (10 ^ 16 : R) <> 0) by (apply pow_nonzero; lra).
  set (T := 10 ^ 16) in *. rewrite <- (tech_pow_Rmult T m).
  assert (HTm : T ^ m <> 0) by (apply pow_nonzero; assumption).
  clearbody T. field. split; assumption.
Qed.

(** *** Bounding the deviation of the moments

    The nodes come in pairs +-x of equal weight (plus possibly a node 0), so odd
    moments vanish.  The even ones are bounded with integer arithmetic rounded to
    20 decimals. *)
Fixpoint halve (X W : list Z) {struct X} : option (list (Z * Z)) :=
  match X, W with
  | [], [] => Some []
  | x :: X', w :: W' =>
      if (x =? 0)%Z then option_map (cons (w, 0%Z)) (halve X' W')
      else match X', W' with
           | x2 :: X'', w2 :: W'' =>
               if ((x2 =? - x) && (w2 =? w))%Z
               then option_map (cons ((w + w)%Z, (x * x)%Z)) (halve X'' W'') else None
           | _, _ => None
           end
  | _, _ => None
  end.

(** Sum of [v (y/10^32)^k / 10^16]. *)
Fixpoint hsum (H : list (Z * Z)) (k : nat) : R :=
  match H with
  | [] => 0
  | (v, y) :: H' => IZR v / 10 ^ 16 * (IZR y / (10 ^ 16) ^ 2) ^ k + hsum H' k
  end.

Lemma dec_zero : dec 0 = 0.
Proof. unfold dec. unfold Rdiv. apply Rmult_0_l. Qed.
Lemma dec_opp x : dec (- x) = - dec x.
Proof. unfold dec. rewrite opp_IZR. unfold Rdiv. ring. Qed.
Lemma T16 : (10 ^ 16 : R) <> 0.
Proof. apply pow_nonzero. lra. Qed.

Lemma halve_moment n : forall X W H, (length X <= n)%nat -> halve X W = Some H -> forall k,
  moment (map dec X) (map dec W) (2 * k) = hsum H k /\
  moment (map dec X) (map dec W) (S (2 * k)) = 0.
Proof.
  induction n as [|n IH]; intros X W H L E k.
  - destruct X; [|simpl in L; lia]. destruct W; [|discriminate].
    injection E as <-. split; reflexivity.
  - destruct X as [|x X]; [destruct W; [|discriminate]; injection E as <-; split; reflexivity|].
    destruct W as [|w W]; [discriminate|]. cbn [halve] in E.
    destruct (Z.eqb_spec x 0) as [->|Hx].
    + destruct (halve X W) as [H'|] eqn:E'; [|discriminate]. injection E as <-.
      destruct (IH X W H' ltac:(simpl in L; lia) E' k) as [I1 I2].
      cbn [map moment hsum]. rewrite I1, I2, dec_zero. split.
      * f_equal. unfold dec. f_equal. rewrite pow_mult. f_equal. unfold Rdiv. rewrite Rmult_0_l. ring.
      * rewrite pow_i by lia. ring.
    + destruct X as [|x2 X]; [discriminate|]. destruct W as [|w2 W]; [discriminate|].
      destruct (Z.eqb_spec x2 (- x)) as [->|]; [|discriminate].
      destruct (Z.eqb_spec w2 w) as [->|]; [|discriminate]. cbn [andb] in E.
      destruct (halve X W) as [H'|] eqn:E'; [|discriminate]. injection E as <-.
      destruct (IH X W H' ltac:(simpl in L; lia) E' k) as [I1 I2].
      cbn [map moment hsum]. rewrite I1, I2, dec_opp, opp_even, opp_odd, pair_even. split; [|ring].
      replace (IZR (x * x) / (10 ^ 16) ^ 2) with (dec x ^ 2).
      * rewrite plus_IZR. unfold dec at 1 3. unfold Rdiv. ring.
      * unfold dec. rewrite mult_IZR. pose proof T16. set (T := 10 ^ 16) in *. clearbody T.
        field. assumption.
Qed.

Fixpoint zround (H : list (Z * Z)) (P : list Z) : list Z :=
  match H, P with
  | (_, y) :: H', p :: P' => (p * y / 10 ^ 32)%Z :: zround H' P'
  | _, _ => []
  end.
Definition zsum (P : list Z) : Z := fold_right Z.add 0%Z P.
(** |approximation - 2/(2k+1)| + rounding error <= e / 10^16 *)
Fixpoint round_ok (H : list (Z * Z)) (P : list Z) (e : Z) (k n : nat) : bool :=
  match n with
  | O => true
  | S n' =>
      let den := (2 * Z.of_nat k + 1)%Z in
      (Z.abs (zsum P * den - 2 * 10 ^ 20) + Z.of_nat (length H * k) * den <=? e * 10 ^ 4 * den)%Z
      && round_ok H (zround H P) e (S k) n'
  end.
Definition in_unit (H : list (Z * Z)) : bool :=
  forallb (fun vy => ((0 <=? snd vy) && (snd vy <=? 10 ^ 32))%Z) H.

(** [P] approximates the terms of [hsum H k] to [k / 10^20] each. *)
Inductive approx (k : nat) : list (Z * Z) -> list Z -> Prop :=
| approx_nil : approx k [] []
| approx_cons v y H p P :
    Rabs (IZR p / 10 ^ 20 - IZR v / 10 ^ 16 * (IZR y / (10 ^ 16) ^ 2) ^ k) <= INR k / 10 ^ 20 ->
    approx k H P -> approx k ((v, y) :: H) (p :: P).

Lemma approx_start H : approx 0 H (map (fun vy => (fst vy * 10 ^ 4)%Z) H).
Proof.
  induction H as [|[v y] H IH]; cbn [map fst]; constructor; auto.
  simpl pow at 4. rewrite Rmult_1_r, mult_IZR.
  replace (IZR (10 ^ 4)) with (10 ^ 4)%R by (symmetry; apply (IZR_pow10 4)).
  replace (IZR v * 10 ^ 4 / 10 ^ 20 - IZR v / 10 ^ 16) with 0 by field.
  rewrite Rabs_R0. simpl INR. unfold Rdiv. rewrite Rmult_0_l. lra.
Qed.

Lemma approx_step k H P : in_unit H = true -> approx k H P -> approx (S k) H (zround H P).
Proof.
  intros U A. induction A as [|v y H p P B A IH]; cbn [zround]; constructor.
  - cbn [in_unit forallb snd] in U. apply andb_prop in U. destruct U as [U _].
    apply andb_prop in U. destruct U as [U1 U2]. apply Z.leb_le in U1, U2.
    set (S20 := (10 ^ 20 : R)) in *.
    assert (HS : 0 < S20) by (unfold S20; apply pow_lt; lra).
    set (t := IZR y / (10 ^ 16) ^ 2).
    assert (E32 : IZR (10 ^ 32) = (10 ^ 16) ^ 2).
    { rewrite <- pow_mult. apply (IZR_pow10 32). }
    assert (H32 : 0 < IZR (10 ^ 32)) by (apply IZR_lt; reflexivity).
    assert (Ht : 0 <= t <= 1).
    { unfold t. rewrite <- E32. apply IZR_le in U1, U2. split.
      - apply Rmult_le_pos; [assumption|]. left. now apply Rinv_0_lt_compat.
      - apply Rmult_le_reg_r with (IZR (10 ^ 32)); [assumption|].
        unfold Rdiv. rewrite Rmult_assoc, Rinv_l by lra. lra. }
    fold t in B. set (q := (p * y / 10 ^ 32)%Z).
    assert (Q : Rabs (IZR q - IZR p * t) <= 1).
    { assert (Z1 : (p * y = 10 ^ 32 * q + (p * y) mod 10 ^ 32)%Z) by (apply Z.div_mod; discriminate).
      pose proof (Z.mod_pos_bound (p * y) (10 ^ 32) eq_refl) as Z2.
      set (r := ((p * y) mod 10 ^ 32)%Z) in *.
      assert (Z1' : IZR p * IZR y = IZR (10 ^ 32) * IZR q + IZR r)
        by (rewrite <- !mult_IZR, <- plus_IZR; f_equal; exact Z1).
      destruct Z2 as [Z2 Z3]. apply IZR_le in Z2. apply IZR_lt in Z3.
      replace (IZR q - IZR p * t) with (- (IZR r / IZR (10 ^ 32))).
      2:{ unfold t. rewrite <- E32. replace (IZR p * (IZR y / IZR (10 ^ 32)))
            with (IZR p * IZR y / IZR (10 ^ 32)) by (unfold Rdiv; ring).
          rewrite Z1'. field. lra. }
      rewrite Rabs_Ropp, Rabs_right.
      - apply Rmult_le_reg_r with (IZR (10 ^ 32)); [assumption|].
        unfold Rdiv. rewrite Rmult_assoc, Rinv_l by lra. lra.
      - apply Rle_ge, Rmult_le_pos; [assumption|]. left. now apply Rinv_0_lt_compat. }
    rewrite S_INR, <- (tech_pow_Rmult t k).
    set (c := IZR v / 10 ^ 16) in *.
    assert (EQ : IZR q / S20 - c * (t * t ^ k)
      = (IZR q - IZR p * t) / S20 + t * (IZR p / S20 - c * t ^ k)) by (field; lra).
    rewrite EQ. eapply Rle_trans; [apply Rabs_triang|].
    replace ((INR k + 1) / S20) with (1 / S20 + INR k / S20) by (field; lra).
    apply Rplus_le_compat.
    + unfold Rdiv. rewrite Rabs_mult, (Rabs_right (/ S20))
        by (apply Rle_ge; left; now apply Rinv_0_lt_compat).
      apply Rmult_le_compat_r; [left; now apply Rinv_0_lt_compat|exact Q].
    + rewrite Rabs_mult, (Rabs_right t) by lra.
      pose proof (Rabs_pos (IZR p / S20 - c * t ^ k)). nra.
  - apply IH. cbn [in_unit forallb] in U. apply andb_prop in U. apply U.
Qed.

Lemma approx_sum k H P : approx k H P ->
  Rabs (IZR (zsum P) / 10 ^ 20 - hsum H k) <= INR (length H * k) / 10 ^ 20.
Proof.
  induction 1 as [|v y H p P B A IH]; cbn [zsum fold_right hsum length].
  - unfold Rdiv. rewrite Rmult_0_l, Rminus_0_r, Rabs_R0. simpl. lra.
  - change (fold_right Z.add 0%Z P) with (zsum P). rewrite plus_IZR, Nat.mul_succ_l, plus_INR.
    set (S20 := (10 ^ 20 : R)) in *.
    set (c := IZR v / 10 ^ 16 * (IZR y / (10 ^ 16) ^ 2) ^ k) in *.
    replace ((IZR p + IZR (zsum P)) / S20 - (c + hsum H k))
      with ((IZR p / S20 - c) + (IZR (zsum P) / S20 - hsum H k)) by (unfold Rdiv; ring).
    eapply Rle_trans; [apply Rabs_triang|].
    replace ((INR (length H * k) + INR k) / S20)
      with (INR k / S20 + INR (length H * k) / S20) by (unfold Rdiv; ring).
    now apply Rplus_le_compat.
Qed.

Lemma round_ok_sound H e n : in_unit H = true -> forall P k, approx k H P ->
  round_ok H P e k n = true ->
  forall j, (k <= j < k + n)%nat -> Rabs (hsum H j - 2 / (2 * INR j + 1)) <= IZR e / 10 ^ 16.
Proof.
  intros U. induction n as [|n IH]; intros P k A O j Hj; [lia|].
  cbn [round_ok] in O. apply andb_prop in O. destruct O as [O1 O2].
  destruct (Nat.eq_dec j k) as [->|Hne].
  - apply Z.leb_le, IZR_le in O1.
    rewrite !plus_IZR, abs_IZR, minus_IZR, !mult_IZR, !plus_IZR, !mult_IZR, <- !INR_IZR_INZ in O1.
    replace (IZR (10 ^ 20)) with (10 ^ 20 : R) in O1 by (symmetry; apply (IZR_pow10 20)).
    replace (IZR (10 ^ 4)) with (10 ^ 4 : R) in O1 by (symmetry; apply (IZR_pow10 4)).
    apply approx_sum in A.
    assert (E20 : (10 ^ 20 : R) = 10 ^ 4 * 10 ^ 16) by ring.
    assert (H4 : 0 < (10 ^ 4 : R)) by (apply pow_lt; lra).
    assert (H16 : 0 < (10 ^ 16 : R)) by (apply pow_lt; lra).
    assert (HS : 0 < (10 ^ 20 : R)) by (apply pow_lt; lra).
    set (S20 := (10 ^ 20 : R)) in *. set (T4 := (10 ^ 4 : R)) in *. set (T := (10 ^ 16 : R)) in *.
    set (h := hsum H k) in *. set (z := IZR (zsum P)) in *.
    set (d := 2 * INR k + 1) in *. set (L := INR (length H * k)) in *.
    assert (Hd : 0 < d) by (unfold d; pose proof (pos_INR k); lra).
    clearbody S20 T4 T h z d L.
    replace (h - 2 / d) with ((z / S20 - 2 / d) - (z / S20 - h)) by ring.
    eapply Rle_trans; [apply Rabs_triang|]. rewrite Rabs_Ropp.
    apply Rle_trans with (Rabs (z / S20 - 2 / d) + L / S20); [lra|].
    replace (z / S20 - 2 / d) with ((z * d - 2 * S20) / (S20 * d)) by (field; lra).
    unfold Rdiv. rewrite Rabs_mult, (Rabs_right (/ (S20 * d)))
      by (apply Rle_ge; left; apply Rinv_0_lt_compat; nra).
    apply Rmult_le_reg_r with (S20 * d); [nra|].
    replace ((Rabs (z * d - 2 * S20) * / (S20 * d) + L * / S20) * (S20 * d))
      with (Rabs (z * d - 2 * S20) + L * d) by (field; lra).
    replace (IZR e * / T * (S20 * d)) with (IZR e * T4 * d) by (rewrite E20; field; lra).
    exact O1.
  - apply (IH (zround H P) (S k)); [now apply approx_step|exact O2|lia].
Qed.

Definition table_ok (X W : list Z) (e : Z) (n : nat) : bool :=
  match halve X W with
  | None => false
  | Some H => in_unit H && round_ok H (map (fun vy => (fst vy * 10 ^ 4)%Z) H) e 0 n
  end.

Lemma table_ok_bound X W e n : table_ok X W e n = true -> (0 <= e)%Z -> forall m, (m < 2 * n)%nat ->
  Rabs (moment (map dec X) (map dec W) m - exact_moment m) <= IZR e / 10 ^ 16.
Proof.
  unfold table_ok. destruct (halve X W) as [H|] eqn:E; [|discriminate].
  intros O He m Hm. apply andb_prop in O. destruct O as [U O].
  destruct (even_or_odd m) as [k [->| ->]].
  - destruct (halve_moment (length X) X W H (le_n _) E k) as [-> _].
    unfold exact_moment. rewrite Nat.even_mul. cbn [Nat.even orb].
    rewrite mult_INR. simpl (INR 2).
    apply (round_ok_sound H e n U _ 0 (approx_start H) O). lia.
  - destruct (halve_moment (length X) X W H (le_n _) E k) as [_ ->].
    rewrite exact_odd, Rminus_0_r, Rabs_R0. apply IZR_le in He.
    apply Rmult_le_pos; [exact He|]. left. apply Rinv_0_lt_compat, pow_lt. lra.
Qed.

Lemma mdot_close q f g m e :
  (forall k, (m <= k < m + length q)%nat -> Rabs (f k - g k) <= e) ->
  Rabs (mdot q f m - mdot q g m) <= e * abs_sum q.
Proof.
  revert m. induction q as [|a q IH]; intros m H; simpl.
  - rewrite Rminus_0_r, Rabs_R0. lra.
  - replace (a * f m + mdot q f (S m) - (a * g m + mdot q g (S m)))
      with (a * (f m - g m) + (mdot q f (S m) - mdot q g (S m))) by ring.
    eapply Rle_trans; [apply Rabs_triang|].
    rewrite Rabs_mult.
    assert (Rabs (f m - g m) <= e) by (apply H; simpl; lia).
    assert (Rabs (mdot q f (S m) - mdot q g (S m)) <= e * abs_sum q)
      by (apply IH; intros; apply H; simpl; lia).
    pose proof (Rabs_pos a). nra.
Qed.

(** The rules with tabulated decimals: the deviation on a polynomial given in
    the normalised variable [(2 t - (a+b))/(b-a)]. *)
Lemma quad_close N X W e q a b :
  gl_nodes N = Some (map dec X, map dec W) ->
  table_ok X W e N = true -> (0 <= e)%Z ->
  (length q <= 2 * N)%nat -> a < b ->
  exists I J, quad N (fun t => peval q ((2 * t - (a + b)) / (b - a))) a b = Val I /\
    is_RInt (fun t => peval q ((2 * t - (a + b)) / (b - a))) a b J /\
    Rabs (I - J) <= (b - a) / 2 * (IZR e / 10 ^ 16 * abs_sum q).
Proof.
  intros G M He L Hab. unfold quad. rewrite G.
  set (d := (b - a) / 2). set (c := (a + b) / 2).
  exists (d * mdot q (moment (map dec X) (map dec W)) 0), (d * mdot q exact_moment 0).
  split; [|split].
  - f_equal. f_equal. rewrite quad_sum_nodesum, Rplus_0_l, <- nodesum_peval.
    apply nodesum_ext. intros t. f_equal. unfold d, c. field. lra.
  - assert (Q : is_RInt (peval q) (-1) 1 (mdot q exact_moment 0)).
    { rewrite <- pint_moments. apply is_RInt_peval. }
    assert (Q' : is_RInt (fun y => scal (/ d) (peval q (/ d * y + - (c / d)))) a b (mdot q exact_moment 0)).
    { apply (is_RInt_comp_lin (peval q) (/ d) (- (c / d)) a b).
      replace (/ d * a + - (c / d)) with (-1) by (unfold d, c; field; lra).
      replace (/ d * b + - (c / d)) with 1 by (unfold d, c; field; lra). exact Q. }
    apply (is_RInt_scal _ _ _ d) in Q'.
    eapply is_RInt_ext; [|exact Q'].
    intros y _. simpl. unfold scal; simpl. unfold mult; simpl.
    replace (/ d * y + - (c / d)) with ((2 * y - (a + b)) / (b - a)) by (unfold c, d; field; lra).
    unfold d. field. lra.
  - rewrite <- Rmult_minus_distr_l, Rabs_mult, Rabs_right by (unfold d; lra).
    apply Rmult_le_compat_l; [unfold d; lra|].
    apply mdot_close. intros k Hk.
    apply table_ok_bound with (n := N); [assumption|assumption|lia].
Qed.


Lemma ok7 : table_ok gl7_x gl7_w 4 7 = true.
Proof. vm_compute. reflexivity. Qed.
Lemma ok10 : table_ok gl10_x gl10_w 4 10 = true.
Proof. vm_compute. reflexivity. Qed.
Lemma ok15 : table_ok gl15_x gl15_w 4 15 = true.
Proof. vm_compute. reflexivity. Qed.
Lemma ok30 : table_ok gl30_x gl30_w 4 30 = true.
Proof. vm_compute. reflexivity. Qed.

Lemma quad_exact_345 N p a b :
  (N = 3 \/ N = 4 \/ N = 5)%nat -> (length p <= 2 * N)%nat ->
  exists I, quad N (peval p) a b = Val I /\ is_RInt (peval p) a b I.
Proof.
  intros [->|[->| ->]] L.
  - eapply quad_exact; [reflexivity|apply moments3; reflexivity|exact L].
  - eapply quad_exact; [reflexivity|apply moments4; reflexivity|exact L].
  - eapply quad_exact; [reflexivity|apply moments5; reflexivity|exact L].
Qed.

Lemma quad_close_dec N q a b :
  (N = 7 \/ N = 10 \/ N = 15 \/ N = 30)%nat -> (length q <= 2 * N)%nat -> a < b ->
  exists I J, quad N (fun t => peval q ((2 * t - (a + b)) / (b - a))) a b = Val I /\
    is_RInt (fun t => peval q ((2 * t - (a + b)) / (b - a))) a b J /\
    Rabs (I - J) <= (b - a) / 2 * (4 / 10 ^ 16 * abs_sum q).
Proof.
  intros [->|[->|[->| ->]]] L Hab.
  - eapply quad_close; [reflexivity|exact ok7|lia|exact L|exact Hab].
  - eapply quad_close; [reflexivity|exact ok10|lia|exact L|exact Hab].
  - eapply quad_close; [reflexivity|exact ok15|lia|exact L|exact Hab].
  - eapply quad_close; [reflexivity|exact ok30|lia|exact L|exact Hab].
Qed.

Lemma quad_unsupported N F a b :
  ~ In N [3; 4; 5; 7; 10; 15; 30]%nat -> quad N F a b = Err StdOutOfRange.
Proof.
  intros H. unfold quad.
  do 31 (destruct N as [|N]; [first [reflexivity | exfalso; apply H; simpl; lia]|]).
  reflexivity.
Qed.

(** The decimal rules really are inexact: the weights of the 15-point rule do
    not sum to 2. *)
Lemma quad15_inexact :
  exists I, quad 15 (fun _ => 1) (-1) 1 = Val I /\ I <> 2.
Proof.
  eexists. split; [reflexivity|].
  rewrite quad_sum_nodesum, Rplus_0_l.
  rewrite (nodesum_ext _ (fun t => t ^ 0)) by (intros; reflexivity).
  rewrite nodesum_pow, moment_dec.
  intros E.
  assert (E' : IZR (zmoment gl15_x gl15_w (Z.of_nat 0)) = IZR (2 * 10 ^ 16)).
  { replace (IZR (2 * 10 ^ 16)) with (2 * 10 ^ 16)%R
      by (rewrite mult_IZR; f_equal; symmetry; apply (IZR_pow10 16)).
    assert (HT : (10 ^ 16 : R) <> 0) by (apply pow_nonzero; lra).
    set (T := 10 ^ 16) in *. rewrite <- E. rewrite pow_1. clearbody T. field. assumption. }
  apply eq_IZR in E'. vm_compute in E'. discriminate.
Qed.
