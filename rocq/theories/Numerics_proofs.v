From Coq Require Import Reals ZArith List Bool Lia Lra.
From Coquelicot Require Import Coquelicot.
From Verif Require Import Json_model Numerics_model Poly_spec.
Import ListNotations.
Open Scope R_scope.

(** ** Finite differences *)

Lemma diff_sum_ext f g x h k c s :
  (forall t, f t = g t) -> diff_sum f x h k c s = diff_sum g x h k c s.
Proof.
  intros E. revert c s. induction k as [|ki k IH]; intros [|ci c] s; simpl; auto.
  now rewrite IH, E.
Qed.

(** The table is exact on polynomials with exactly [N] coefficients. *)
Definition stencil_exact (n o : Z) (N : nat) : Prop :=
  forall p x h, length p = N -> h <> 0 ->
    centered_diff n o (peval p) x h = Val (peval (Nat.iter (Z.to_nat n) pderiv p) x).

Ltac peel H :=
  match type of H with
  | length ?p = 0%nat => destruct p; [clear H|discriminate H]
  | length ?p = S ?n =>
      let a := fresh "a" in let p' := fresh "p" in
      destruct p as [|a p']; [discriminate H|];
      simpl length in H; apply Nat.succ_inj in H; peel H
  end.

Ltac stencil :=
  let p := fresh "p" in let x := fresh "x" in let h := fresh "h" in
  let L := fresh "L" in let Hh := fresh "Hh" in
  intros p x h L Hh; peel L;
  unfold centered_diff, central_coeffs; cbn [length Nat.eqb negb diff_sum];
  f_equal; cbn [Z.to_nat Pos.to_nat Pos.iter_op Nat.add Nat.iter pderiv pderiv_aux peval nat_rect];
  simpl; field; exact Hh.

Lemma st12 : stencil_exact 1 2 3. Proof. stencil. Qed.
Lemma st14 : stencil_exact 1 4 5. Proof. stencil. Qed.
Lemma st16 : stencil_exact 1 6 7. Proof. stencil. Qed.
Lemma st22 : stencil_exact 2 2 4. Proof. stencil. Qed.
Lemma st24 : stencil_exact 2 4 6. Proof. stencil. Qed.
Lemma st26 : stencil_exact 2 6 8. Proof. stencil. Qed.
Lemma st32 : stencil_exact 3 2 5. Proof. stencil. Qed.
Lemma st34 : stencil_exact 3 4 7. Proof. stencil. Qed.
Lemma st36 : stencil_exact 3 6 9. Proof. stencil. Qed.
Lemma st42 : stencil_exact 4 2 6. Proof. stencil. Qed.
Lemma st44 : stencil_exact 4 4 8. Proof. stencil. Qed.
Lemma st46 : stencil_exact 4 6 10. Proof. stencil. Qed.

Lemma stencil_any n o N p x h :
  stencil_exact n o N -> (length p <= N)%nat -> h <> 0 ->
  exists d, centered_diff n o (peval p) x h = Val d /\ is_derive_n (peval p) (Z.to_nat n) x d.
Proof.
  intros ST L Hh.
  set (q := p ++ repeat 0 (N - length p)).
  assert (Lq : length q = N) by (unfold q; rewrite app_length, repeat_length; lia).
  assert (E : forall t, peval q t = peval p t) by (intros; apply peval_app_zeros).
  exists (peval (Nat.iter (Z.to_nat n) pderiv q) x). split.
  - rewrite <- (ST q x h Lq Hh). unfold centered_diff.
    destruct (central_coeffs n o) as [k c].
    destruct (Nat.eqb (length c) 0); [reflexivity|].
    destruct (negb (Nat.eqb (length c) (length k))); [reflexivity|].
    do 2 f_equal. apply diff_sum_ext. intros t. symmetry. apply E.
  - apply is_derive_n_ext with (f := peval q); [assumption|]. apply is_derive_n_peval.
Qed.

Lemma centered_diff_exact n o p x h :
  supported n o -> (Z.of_nat (length p) <= n + o)%Z -> h <> 0 ->
  exists d, centered_diff n o (peval p) x h = Val d /\ is_derive_n (peval p) (Z.to_nat n) x d.
Proof.
  intros [Hn Ho] L Hh.
  assert (Cn : n = 1%Z \/ n = 2%Z \/ n = 3%Z \/ n = 4%Z) by lia.
  destruct Cn as [->|[->|[->| ->]]], Ho as [->|[->| ->]];
    (eapply stencil_any; [|  |exact Hh]; [first
      [exact st12|exact st14|exact st16|exact st22|exact st24|exact st26
      |exact st32|exact st34|exact st36|exact st42|exact st44|exact st46]|lia]).
Qed.

Lemma centered_diff_unsupported n o f x h :
  ~ supported n o -> centered_diff n o f x h = Err StdInvalidArgument.
Proof.
  intros NS. unfold supported in NS.
  unfold centered_diff, central_coeffs.
  destruct n as [|n|n]; try reflexivity.
  destruct n as [[n|n|]|[n|[n|n|]|]|]; try reflexivity;
  destruct o as [|[o|[o|[o|o|]|]|]|o]; try reflexivity;
  try (destruct o as [o|o|]; try reflexivity);
  exfalso; apply NS; lia.
Qed.

(** ** Mixed difference and forward gradient *)

Lemma centered_diff_xy_exact c00 c10 c20 c01 c11 c21 c02 c12 c22 x y dx dy :
  dx <> 0 -> dy <> 0 ->
  is_derive (fun s => Derive (fun t => biquad c00 c10 c20 c01 c11 c21 c02 c12 c22 s t) y) x
    (centered_diff_xy (biquad c00 c10 c20 c01 c11 c21 c02 c12 c22) x y dx dy).
Proof.
  intros Hx Hy.
  apply is_derive_ext with (f := fun s => c01 + c11 * s + c21 * s ^ 2 + 2 * c02 * y
                                       + 2 * c12 * s * y + 2 * c22 * s ^ 2 * y).
  - intros s. symmetry. apply is_derive_unique. unfold biquad. auto_derive; [exact I|]. ring.
  - unfold centered_diff_xy, biquad. auto_derive; [exact I|]. field. split; assumption.
Qed.

Lemma lindot_bump w x i h :
  length w = length x -> (i < length x)%nat ->
  lindot w (bump i h x) = lindot w x + nth i w 0 * h.
Proof.
  revert w i. induction x as [|b x IH]; intros [|a w] i L H; simpl in *; try lia.
  destruct i as [|i]; simpl; [ring|]. rewrite IH by lia. ring.
Qed.

Lemma nth_map_seq {A} (f : nat -> A) n i d : (i < n)%nat -> nth i (map f (seq 0 n)) d = f i.
Proof.
  intros H. rewrite nth_indep with (d' := f 0%nat) by (rewrite map_length, seq_length; lia).
  rewrite map_nth, seq_nth by assumption. reflexivity.
Qed.

Lemma gradient_forward_affine c w x h :
  length w = length x -> h <> 0 ->
  gradient_forward (fun x => c + lindot w x) x h = w.
Proof.
  intros L Hh. unfold gradient_forward.
  apply nth_ext with (d := 0) (d' := 0).
  - rewrite map_length, seq_length. auto.
  - rewrite map_length, seq_length. intros i Hi.
    rewrite nth_map_seq by assumption.
    rewrite lindot_bump by assumption. field. assumption.
Qed.

(** ** Clenshaw *)

Fixpoint cheb_upto (c : list R) (x : R) (k : nat) : R :=
  match k with
  | O => nth 0 c 0 / 2
  | S k' => cheb_upto c x k' + nth k c 0 * chebT k x
  end.

Lemma clenshaw_loop_inv c x k : forall u1 u2 a b,
  clenshaw_loop c x k u1 u2 = (a, b) ->
  (a - b) / 2 = cheb_upto c x k + u1 * chebT (S k) x - u2 * chebT k x.
Proof.
  induction k as [|k IH]; intros u1 u2 a b E.
  - injection E as <- <-. simpl. field.
  - change (clenshaw_loop c x k (2 * x * u1 - u2 + nth (S k) c 0) u1 = (a, b)) in E.
    apply IH in E. rewrite E.
    change (chebT (S (S k)) x) with (2 * x * chebT (S k) x - chebT k x).
    change (cheb_upto c x (S k)) with (cheb_upto c x k + nth (S k) c 0 * chebT (S k) x).
    ring.
Qed.

Lemma cheb_tail_app k c d x :
  cheb_tail k (c ++ d) x = cheb_tail k c x + cheb_tail (k + length c) d x.
Proof.
  revert k. induction c as [|a c IH]; intros k; simpl.
  - rewrite Nat.add_0_r. ring.
  - rewrite IH. replace (S k + length c)%nat with (k + S (length c))%nat by lia. ring.
Qed.

Lemma cheb_upto_ext c d x k :
  (forall j, (j <= k)%nat -> nth j c 0 = nth j d 0) -> cheb_upto c x k = cheb_upto d x k.
Proof.
  induction k as [|k IH]; intros H; cbn [cheb_upto].
  - now rewrite H.
  - rewrite IH, (H (S k)) by (intros; try apply H; lia). reflexivity.
Qed.

Lemma cheb_upto_series c x N : length c = S N -> cheb_upto c x N = cheb_series c x.
Proof.
  revert c. induction N as [|N IH]; intros c L.
  - destruct c as [|a [|b c]]; try discriminate. simpl. ring.
  - assert (NE : c <> []) by (intros ->; discriminate).
    destruct (exists_last NE) as [d [z ->]].
    rewrite app_length in L. simpl in L.
    assert (Ld : length d = S N) by lia.
    cbn [cheb_upto]. rewrite (cheb_upto_ext _ d), IH.
    + replace (nth (S N) (d ++ [z]) 0) with z
        by (rewrite app_nth2 by lia; replace (S N - length d)%nat with 0%nat by lia; reflexivity).
      destruct d as [|d0 d]; [discriminate|].
      simpl in Ld. injection Ld as Ld. simpl app. unfold cheb_series.
      rewrite cheb_tail_app, Ld. cbn [cheb_tail]. change (1 + N)%nat with (S N). ring.
    + assumption.
    + intros j Hj. rewrite app_nth1 by lia. reflexivity.
Qed.

Lemma Clenshaw1D_series c x : Clenshaw1D c x = cheb_series c x.
Proof.
  unfold Clenshaw1D. destruct (length c) as [|N] eqn:L.
  - destruct c; [simpl; field|discriminate].
  - destruct (clenshaw_loop c x N 0 0) as [a b] eqn:E.
    apply clenshaw_loop_inv in E. rewrite E, cheb_upto_series by assumption. ring.
Qed.

Lemma row_comb_some ind : forall u1 u2 c,
  length u1 = length c -> length u2 = length c ->
  exists r, row_comb ind u1 u2 c = Some r /\ length r = length c /\
    (forall k x, cheb_tail k r x = 2 * ind * cheb_tail k u1 x - cheb_tail k u2 x + cheb_tail k c x) /\
    (forall x, cheb_series r x = 2 * ind * cheb_series u1 x - cheb_series u2 x + cheb_series c x).
Proof.
  induction u1 as [|a u1 IH]; intros [|b u2] [|d c] L1 L2; simpl in *; try discriminate.
  - exists []. repeat split; intros; simpl; ring.
  - destruct (IH u2 c) as [r [E [Lr [H _]]]]; [congruence|congruence|].
    rewrite E. eexists. split; [reflexivity|]. split; [simpl; congruence|].
    split; intros; simpl; rewrite H; field.
Qed.

Lemma row_half_series u v x :
  length u = length v -> cheb_series (row_half u v) x = (cheb_series u x - cheb_series v x) / 2.
Proof.
  assert (T : forall u v k, length u = length v ->
            cheb_tail k (row_half u v) x = (cheb_tail k u x - cheb_tail k v x) / 2).
  { clear. induction u as [|a u IH]; intros [|b v] k L; simpl in *; try discriminate; [field|].
    rewrite IH by congruence. field. }
  destruct u as [|a u], v as [|b v]; intros L; simpl in *; try discriminate; [field|].
  rewrite T by congruence. field.
Qed.

Lemma nth_map_series a x k :
  nth k (map (fun r => cheb_series r x) a) 0 = cheb_series (nth k a []) x.
Proof. apply (map_nth (fun r => cheb_series r x) a [] k). Qed.

Lemma by_row_loop_spec a y M : List.Forall (fun r => length r = M) a -> forall k u1 u2,
  (k < length a)%nat -> length u1 = M -> length u2 = M ->
  exists p q, by_row_loop a y k u1 u2 = Some (p, q) /\ length p = M /\ length q = M /\
   forall x, clenshaw_loop (map (fun r => cheb_series r x) a) y k (cheb_series u1 x) (cheb_series u2 x)
      = (cheb_series p x, cheb_series q x).
Proof.
  intros F. induction k as [|k IH]; intros u1 u2 Hk L1 L2.
  - assert (Lr : length (nth 0 a []) = M).
    { rewrite Forall_forall in F. apply F, nth_In, Hk. }
    destruct (row_comb_some y u1 u2 (nth 0 a [])) as [r [E [Lr' [_ H]]]]; [congruence|congruence|].
    exists r, u2. cbn [by_row_loop]. rewrite E. repeat split; try congruence.
    intros x. cbn [clenshaw_loop]. f_equal. rewrite H.
    rewrite nth_map_series. reflexivity.
  - assert (Lr : length (nth (S k) a []) = M).
    { rewrite Forall_forall in F. apply F, nth_In, Hk. }
    destruct (row_comb_some y u1 u2 (nth (S k) a [])) as [r [E [Lr' [_ H]]]]; [congruence|congruence|].
    destruct (IH r u1) as [p [q [E' [Lp [Lq H']]]]]; [lia|congruence|assumption|].
    exists p, q. cbn [by_row_loop]. rewrite E. repeat split; try assumption.
    intros x. cbn [clenshaw_loop]. rewrite <- H'. f_equal. rewrite H.
    rewrite nth_map_series. reflexivity.
Qed.

Lemma cheb_series_zeros n x : cheb_series (repeat 0 n) x = 0.
Proof.
  assert (T : forall n k, cheb_tail k (repeat 0 n) x = 0).
  { induction n0 as [|n0 IH]; intros k; simpl; [reflexivity|]. rewrite IH. ring. }
  destruct n; simpl; [reflexivity|]. rewrite T. field.
Qed.

Lemma Clenshaw2D_square a x y :
  List.Forall (fun r => length r = length a) a ->
  Clenshaw2D a x y = Some (cheb_series2 a x y).
Proof.
  intros F. unfold Clenshaw2D, Clenshaw1DByRow.
  destruct a as [|r a]; [cbn; f_equal; field|].
  set (A := r :: a) in *. change (length A) with (S (length a)).
  destruct (by_row_loop_spec A y (length A) F (length a) (repeat 0 (length A)) (repeat 0 (length A)))
    as [p [q [E [Lp [Lq H]]]]]; [simpl; lia|apply repeat_length|apply repeat_length|].
  change (length A) with (S (length a)) in E. rewrite E. f_equal.
  rewrite Clenshaw1D_series, row_half_series by congruence.
  specialize (H x). rewrite cheb_series_zeros in H.
  apply clenshaw_loop_inv in H. rewrite H, cheb_upto_series by (rewrite map_length; reflexivity).
  unfold cheb_series2. ring.
Qed.

Lemma row_comb_mismatch ind : forall u1 u2 c,
  length u1 = length u2 -> length u1 <> length c -> row_comb ind u1 u2 c = None.
Proof.
  induction u1 as [|a u1 IH]; intros [|b u2] [|d c] L1 L2; simpl in *; try discriminate; try lia; auto.
  rewrite IH; [reflexivity|lia|lia].
Qed.

Lemma Clenshaw2D_nonsquare a x y :
  a <> [] -> List.Forall (fun r => length r <> length a) a -> Clenshaw2D a x y = None.
Proof.
  intros NE F. unfold Clenshaw2D, Clenshaw1DByRow.
  destruct a as [|r a]; [congruence|]. cbn [length].
  assert (Lr : length (nth (length a) (r :: a) []) <> length (r :: a)).
  { rewrite Forall_forall in F. apply (F (nth (length a) (r :: a) [])), nth_In. simpl; lia. }
  destruct (length a) as [|n] eqn:La; cbn [by_row_loop]; rewrite row_comb_mismatch; auto;
    rewrite !repeat_length; simpl in *; try rewrite La in *; try congruence.
Qed.

(** ** Newton iteration *)

Section NRP.
Variable V : Type.
Variable f : V -> V.
Variable dir : V -> V -> V.
Variable add : V -> V -> V.
Variable norm : V -> option R.
Definition nr_step (x : V) : V := add x (dir x (f x)).
Definition nr_iterate (x0 : V) (k : nat) : V := Nat.iter k nr_step x0.

Lemma nr_iterate_shift x0 k : nr_iterate (nr_step x0) k = nr_iterate x0 (S k).
Proof.
  unfold nr_iterate. induction k as [|k IH]; [reflexivity|].
  change (nr_step (Nat.iter k nr_step (nr_step x0)) = nr_step (nr_step (Nat.iter k nr_step x0))).
  f_equal. exact IH.
Qed.

(** The residual norm at iterate [k] is finite and not below the tolerance. *)
Definition nr_goes_on (x0 : V) (tol : R) (k : nat) : Prop :=
  exists e, norm (f (nr_iterate x0 k)) = Some e /\ tol <= e.

Lemma nr_loop_spec n : forall x0 tol,
  match nr_loop V f dir add norm n x0 tol with
  | Val y => exists k, (k <= n)%nat /\ y = nr_iterate x0 k /\
       ((k = n /\ forall j, (j < n)%nat -> nr_goes_on x0 tol j) \/
        (exists k', k = S k' /\ (forall j, (j < k')%nat -> nr_goes_on x0 tol j) /\
           exists e, norm (f (nr_iterate x0 k')) = Some e /\ e < tol))
  | Err er => er = StdInvalidArgument /\ exists k, (k < n)%nat /\
       (forall j, (j < k)%nat -> nr_goes_on x0 tol j) /\ norm (f (nr_iterate x0 k)) = None
  end.
Proof.
  induction n as [|n IH]; intros x0 tol.
  - exists 0%nat. split; [lia|]. split; [reflexivity|]. left. split; [reflexivity|]. intros; lia.
  - cbn [nr_loop]. destruct (norm (f x0)) as [e|] eqn:E.
    + destruct (Rlt_dec e tol) as [H|H].
      * exists 1%nat. split; [lia|]. split; [reflexivity|]. right. exists 0%nat.
        split; [reflexivity|]. split; [intros; lia|]. exists e. auto.
      * specialize (IH (nr_step x0) tol). unfold nr_step in IH at 1.
        assert (G0 : nr_goes_on x0 tol 0) by (exists e; split; [exact E|lra]).
        assert (GS : forall j, nr_goes_on (nr_step x0) tol j -> nr_goes_on x0 tol (S j)).
        { intros j [e' H']. exists e'. rewrite <- nr_iterate_shift. exact H'. }
        destruct (nr_loop V f dir add norm n (add x0 (dir x0 (f x0))) tol) as [y|er].
        -- destruct IH as [k [Hk [-> C]]]. exists (S k). split; [lia|].
           rewrite nr_iterate_shift. split; [reflexivity|].
           destruct C as [[-> G]|[k' [-> [G [e' [E' L]]]]]].
           ++ left. split; [reflexivity|]. intros [|j] Hj; [exact G0|]. apply GS, G; lia.
           ++ right. exists (S k'). split; [reflexivity|]. split.
              ** intros [|j] Hj; [exact G0|]. apply GS, G; lia.
              ** exists e'. rewrite <- nr_iterate_shift. auto.
        -- destruct IH as [-> [k [Hk [G N]]]]. split; [reflexivity|]. exists (S k).
           split; [lia|]. split.
           ++ intros [|j] Hj; [exact G0|]. apply GS, G; lia.
           ++ rewrite <- nr_iterate_shift. exact N.
    + split; [reflexivity|]. exists 0%nat. split; [lia|]. split; [intros; lia|exact E].
Qed.
End NRP.

(** *** Affine residuals *)

Lemma vzip_length g u v : length u = length v -> length (vzip g u v) = length u.
Proof. revert v. induction u as [|a u IH]; intros [|b v] L; simpl in *; try lia. rewrite IH; lia. Qed.
Lemma vzip_nth g u v i : length u = length v -> (i < length u)%nat ->
  nth i (vzip g u v) 0 = g (nth i u 0) (nth i v 0).
Proof.
  revert v i. induction u as [|a u IH]; intros [|b v] i L H; simpl in *; try lia.
  destruct i; [reflexivity|]. apply IH; lia.
Qed.
Lemma affine_length cols b x : length (affine cols b x) = length b.
Proof. unfold affine. now rewrite map_length, seq_length. Qed.
Lemma affine_nth cols b x j : (j < length b)%nat ->
  nth j (affine cols b x) 0 = nth j b 0 + cdot cols x j.
Proof. intros H. unfold affine. now rewrite (nth_map_seq (fun j => nth j b 0 + cdot cols x j)). Qed.
Lemma cdot_bump cols x i h j : length cols = length x -> (i < length x)%nat ->
  cdot cols (bump i h x) j = cdot cols x j + h * nth j (nth i cols []) 0.
Proof.
  revert cols i. induction x as [|xi x IH]; intros [|c cols] i L H; simpl in *; try lia.
  destruct i as [|i]; simpl; [ring|]. rewrite IH by lia. ring.
Qed.
Lemma cdot_add cols x v j : length cols = length x -> length x = length v ->
  cdot cols (vzip Rplus x v) j = cdot cols x j + cdot cols v j.
Proof.
  revert cols v. induction x as [|xi x IH]; intros [|c cols] [|vi v] L1 L2; simpl in *; try lia; try ring.
  rewrite IH by lia. ring.
Qed.
Lemma nr_dri_pos xi : 0 < nr_dri xi.
Proof.
  unfold nr_dri. apply Rlt_le_trans with (1 / 10 ^ 8); [|apply Rmax_r].
  apply Rdiv_lt_0_compat; [lra|apply pow_lt; lra].
Qed.

Lemma nr_jac_affine n cols b x :
  length cols = n -> List.Forall (fun c => length c = n) cols -> length b = n -> length x = n ->
  nr_jac (affine cols b) x = cols.
Proof.
  intros Lc F Lb Lx. unfold nr_jac.
  apply nth_ext with (d := []) (d' := []).
  - rewrite map_length, seq_length. lia.
  - rewrite map_length, seq_length. intros i Hi.
    rewrite (nth_map_seq (fun i => let h := nr_dri (nth i x 0) in
       vzip (fun a b0 : R => (a - b0) / h) (affine cols b (bump i h x)) (affine cols b x))) by assumption.
    cbv zeta. set (h := nr_dri (nth i x 0)). pose proof (nr_dri_pos (nth i x 0)) as Hh. fold h in Hh.
    assert (Li : length (nth i cols []) = n).
    { rewrite Forall_forall in F. apply F, nth_In. lia. }
    apply nth_ext with (d := 0) (d' := 0).
    + rewrite vzip_length by (rewrite !affine_length; auto). rewrite affine_length; lia.
    + rewrite vzip_length by (rewrite !affine_length; auto).
      rewrite affine_length. intros j Hj.
      rewrite vzip_nth by (rewrite !affine_length; auto).
      rewrite !affine_nth by lia.
      rewrite cdot_bump by lia. field. lra.
Qed.

Lemma nr_affine_step n cols b solve x :
  length cols = n -> List.Forall (fun c => length c = n) cols -> length b = n -> length x = n ->
  solves cols solve ->
  let f := affine cols b in
  length (nr_step (list R) f (nr_dir solve f) (vzip Rplus) x) = n /\
  f (nr_step (list R) f (nr_dir solve f) (vzip Rplus) x) = repeat 0 n.
Proof.
  intros Lc F Lb Lx S f. unfold nr_step, nr_dir.
  change (nr_jac f x) with (nr_jac (affine cols b) x).
  rewrite (nr_jac_affine n) by assumption.
  destruct (S (map Ropp (f x))) as [Lv Hv].
  { rewrite map_length. unfold f. rewrite affine_length. lia. }
  split; [rewrite vzip_length; lia|].
  set (v := solve cols (map Ropp (f x))) in *. unfold f.
  apply nth_ext with (d := 0) (d' := 0).
  - rewrite affine_length, repeat_length. exact Lb.
  - rewrite affine_length. intros j Hj.
    rewrite affine_nth, nth_repeat, cdot_add, Hv by lia.
    replace 0 with (- 0) at 2 by ring. rewrite map_nth. unfold f. rewrite affine_nth by lia. ring.
Qed.

Lemma nr_loop_affine n cols b solve norm m x tol y :
  length cols = n -> List.Forall (fun c => length c = n) cols -> length b = n -> length x = n ->
  solves cols solve -> m <> 0%nat ->
  nr_loop (list R) (affine cols b) (nr_dir solve (affine cols b))
    (vzip Rplus) norm m x tol = Val y ->
  affine cols b y = repeat 0 n.
Proof.
  intros Lc F Lb Lx S Hm E.
  pose proof (nr_loop_spec (list R) (affine cols b) (nr_dir solve (affine cols b))
               (vzip Rplus) norm m x tol) as H.
  rewrite E in H. destruct H as [k [Hk [-> C]]].
  assert (L : forall j, length (nr_iterate (list R) (affine cols b)
        (nr_dir solve (affine cols b)) (vzip Rplus) x j) = n).
  { induction j as [|j IH]; [exact Lx|].
    exact (proj1 (nr_affine_step n cols b solve _ Lc F Lb IH S)). }
  destruct k as [|k].
  - destruct C as [[Z _]|[k' [Z _]]]; [congruence|discriminate].
  - exact (proj2 (nr_affine_step n cols b solve _ Lc F Lb (L k) S)).
Qed.
