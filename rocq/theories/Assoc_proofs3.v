(** Proofs linking the code of the association term to the law of mass action. *)
From Coq Require Import Reals ZArith String List Bool Lia Lra.
From Verif Require Import Json_model Vec_spec Vec_proofs Cubic_model Terms_model Ideal_model Util_model Multi_model
  Assoc_model Assoc_spec Assoc_proofs Assoc_proofs2.
Import ListNotations.
Open Scope R_scope.

(** * Lists *)
Lemma omap_seq_inv : forall {B} (d : B) (f : nat -> outcome B) n s r, omap f (seq s n) = ok r ->
  length r = n /\ forall i, (i < n)%nat -> f (s + i)%nat = ok (nth i r d).
Proof.
  intros B d f n. induction n; intros s r H; cbn in H.
  - injection H as <-. split; [reflexivity|]. intros; lia.
  - destruct (f s) as [[b|e]|] eqn:E; cbn in H; try discriminate.
    destruct (omap f (seq (S s) n)) as [[bs|e]|] eqn:E2; cbn in H; try discriminate. injection H as <-.
    apply IHn in E2. destruct E2 as [L Hi]. split; [cbn; lia|]. intros i Hlt. destruct i as [|i].
    + rewrite Nat.add_0_r. exact E.
    + rewrite Nat.add_succ_r. apply (Hi i). lia.
Qed.
Lemma omap_seq_build : forall {B} (f : nat -> outcome B) (g : nat -> B) n s, (forall i, (i < n)%nat -> f (s + i)%nat = ok (g (s + i)%nat)) ->
  omap f (seq s n) = ok (map g (seq s n)).
Proof.
  intros B f g n. induction n; intros s H; cbn; [reflexivity|].
  pose proof (H 0%nat ltac:(lia)) as H0. rewrite Nat.add_0_r in H0. rewrite H0. cbn [obind ok].
  rewrite (IHn (S s)); [reflexivity|]. intros i Hi. replace (S s + i)%nat with (s + S i)%nat by lia. apply H. lia.
Qed.
Lemma osequence_build : forall {A} (f : nat -> option A) (g : nat -> A) n s, (forall i, (i < n)%nat -> f (s + i)%nat = Some (g (s + i)%nat)) ->
  osequence (map f (seq s n)) = Some (map g (seq s n)).
Proof.
  intros A f g n. induction n; intros s H; cbn; [reflexivity|].
  pose proof (H 0%nat ltac:(lia)) as H0. rewrite Nat.add_0_r in H0. rewrite H0. cbn [opt_bind].
  rewrite (IHn (S s)); [reflexivity|]. intros i Hi. replace (S s + i)%nat with (s + S i)%nat by lia. apply H. lia.
Qed.
Lemma nth_map_seq0 : forall {A} (d : A) g n i, (i < n)%nat -> nth i (map g (seq 0 n)) d = g i.
Proof.
  intros A d g n i H. rewrite (nth_indep _ d (g 0%nat)) by (rewrite map_length, seq_length; exact H). rewrite map_nth, seq_nth by exact H. reflexivity.
Qed.

(** * The loop *)
Section Loop.
Context (n : nat) (K : nat -> nat -> R) (Kpos : forall i j, (i < n)%nat -> (j < n)%nat -> 0 <= K i j).
Notation el X := (fun i => nth i X 0).
Lemma substitute_ok : forall alpha X, fracs n (el X) ->
  substitute n K alpha X = Some (map (fun i => alpha * nth i X 0 + (1 - alpha) * substituted n K (el X) i) (seq 0 n)).
Proof.
  intros alpha X H. unfold substitute. apply (osequence_build _ (fun i => alpha * nth i X 0 + (1 - alpha) * substituted n K (el X) i)).
  intros i Hi. cbn [Nat.add]. unfold cdiv, rdotX, substituted. pose proof (S_pos n K Kpos (el X) i H Hi) as P. cbv beta in P.
  destruct (Req_EM_T (1 + sumn n (fun j => K i j * nth j X 0)) 0) as [E|E]; [lra|]. cbn [opt_bind]. do 2 f_equal. field. exact E.
Qed.
Lemma close_iff : forall rtol atol alpha X, close n rtol atol X (map (fun i => alpha * nth i X 0 + (1 - alpha) * substituted n K (el X) i) (seq 0 n)) = true
  <-> settled n K alpha rtol atol (el X).
Proof.
  intros rtol atol alpha X. unfold close. rewrite forallb_forall. split.
  - intros H i Hi. specialize (H i ltac:(apply in_seq; lia)). rewrite nth_map_seq0 in H by exact Hi. cbv zeta. destruct (Rlt_dec _ _) as [L|L]; [exact L|discriminate].
  - intros H i Hi. apply in_seq in Hi. specialize (H i ltac:(lia)). cbv zeta in H. rewrite nth_map_seq0 by lia. destruct (Rlt_dec _ _) as [L|L]; [reflexivity|contradiction].
Qed.
Lemma passes_ext : forall alpha m X Y, (forall i, (i < n)%nat -> X i = Y i) -> forall i, (i < n)%nat -> passes n K alpha m X i = passes n K alpha m Y i.
Proof.
  intros alpha m. induction m; intros X Y H i Hi; cbn [passes]; [now apply H|]. apply IHm; [|exact Hi]. intros j Hj. rewrite H by exact Hj.
  unfold substituted. rewrite (sumn_ext n (fun k => K j k * X k) (fun k => K j k * Y k)); [reflexivity|]. intros k Hk. now rewrite H.
Qed.
Lemma settled_ext : forall alpha rtol atol X Y, (forall i, (i < n)%nat -> X i = Y i) -> settled n K alpha rtol atol X -> settled n K alpha rtol atol Y.
Proof.
  intros alpha rtol atol X Y H S i Hi. specialize (S i Hi). cbv zeta in *. unfold substituted in *.
  rewrite <- (sumn_ext n (fun k => K i k * X k) (fun k => K i k * Y k)); [|intros k Hk; now rewrite H]. rewrite <- H by exact Hi. exact S.
Qed.
Lemma passes_S : forall alpha m X i, passes n K alpha (S m) X i = alpha * passes n K alpha m X i + (1 - alpha) * substituted n K (passes n K alpha m X) i.
Proof. intros alpha m. induction m; intros X i; [reflexivity|]. cbn [passes] in *. apply IHm. Qed.
(** what the loop returns: the first settled iterate, or the one at the limit *)
Lemma iterate_ok : forall alpha rtol atol fuel X, 0 <= alpha <= 1 -> length X = n -> fracs n (el X) ->
  exists Y m, iterate n K alpha rtol atol fuel X = Some Y /\ length Y = n /\ (m <= fuel)%nat /\
    (forall i, (i < n)%nat -> nth i Y 0 = passes n K alpha m (el X) i) /\
    (forall k, (k < m)%nat -> ~ settled n K alpha rtol atol (passes n K alpha k (el X))) /\
    (m = fuel \/ settled n K alpha rtol atol (passes n K alpha m (el X))).
Proof.
  intros alpha rtol atol fuel. induction fuel; intros X Ha HL HX.
  - exists X, 0%nat. cbn. repeat split; auto. intros; lia.
  - cbn [iterate]. rewrite substitute_ok by exact HX. cbn [opt_bind].
    destruct (close _ _ _ _ _) eqn:E.
    + apply close_iff in E. exists X, 0%nat. repeat split; auto; [lia|intros; lia].
    + set (X' := map (fun i => alpha * nth i X 0 + (1 - alpha) * substituted n K (el X) i) (seq 0 n)) in *.
      assert (HX' : forall i, (i < n)%nat -> nth i X' 0 = alpha * nth i X 0 + (1 - alpha) * substituted n K (el X) i) by (intros k Hk; unfold X'; exact (nth_map_seq0 0 (fun i => alpha * nth i X 0 + (1 - alpha) * substituted n K (fun i0 => nth i0 X 0) i) n k Hk)).
      destruct (IHfuel X') as (Y & m & H1 & H2 & H3 & H4 & H5 & H6).
      * exact Ha.
      * unfold X'. now rewrite map_length, seq_length.
      * intros i Hi. cbv beta. rewrite HX' by exact Hi. apply (step_frac n K Kpos alpha (el X) Ha HX i Hi).
      * assert (P : forall k i, (i < n)%nat -> passes n K alpha k (el X') i = passes n K alpha (S k) (el X) i) by (intros k i Hi; cbn [passes]; apply passes_ext; [exact HX'|exact Hi]).
        exists Y, (S m). repeat split; [exact H1|exact H2|lia| | |].
        -- intros i Hi. rewrite H4 by exact Hi. now apply P.
        -- intros k Hk. destruct k as [|k].
           ++ cbn [passes]. intro A. apply close_iff in A. fold X' in A. congruence.
           ++ intro A. apply (H5 k); [lia|]. eapply settled_ext; [|exact A]. intros i Hi. symmetry. now apply P.
        -- destruct H6 as [->|H6]; [now left|right]. eapply settled_ext; [|exact H6]. intros i Hi. now apply P.
Qed.
End Loop.

(** * The explicit two-site solution *)
Lemma explicit_ok : forall kA kB X0, 0 < kA -> 0 <= kB ->
  exists XA XB, explicit_X kA kB X0 = Some [XA; XB] /\ fraction XA /\ fraction XB /\ XA * (1 + kB * XB) = 1 /\ XB * (1 + kA * XA) = 1.
Proof.
  intros kA kB X0 HA HB. unfold explicit_X, explicit_roots.
  set (disc := kA * kA - 2 * kA * kB + 2 * kA + kB * kB + 2 * kB + 1).
  assert (Hd : 0 < disc) by (unfold disc; pose proof (Rle_0_sqr (kA - kB)) as Q; unfold Rsqr in Q; lra).
  unfold csqrt. destruct (Rle_dec 0 disc) as [_|N]; [|lra]. cbn [opt_bind].
  set (s := sqrt disc). assert (Hs : s * s = disc) by (apply sqrt_sqrt; lra). assert (Hs0 : 0 < s) by (apply sqrt_lt_R0; exact Hd).
  assert (S1 : kA - kB - 1 < s).
  { apply Rnot_le_lt. intro C. assert (s * s <= (kA - kB - 1) * (kA - kB - 1)) by (apply Rmult_le_compat; lra). rewrite Hs in *. unfold disc in *. nra. }
  assert (S2 : - s < kA - kB - 1).
  { apply Rnot_le_lt. intro C. assert (s * s <= (- (kA - kB - 1)) * (- (kA - kB - 1))) by (apply Rmult_le_compat; lra). rewrite Hs in *. unfold disc in *. nra. }
  assert (S3 : s <= kA + kB + 1).
  { apply Rnot_lt_le. intro C. assert ((kA + kB + 1) * (kA + kB + 1) < s * s) by (apply Rmult_le_0_lt_compat; lra). rewrite Hs in *. unfold disc in *. nra. }
  unfold cdiv. destruct (Req_EM_T (2 * kA) 0) as [E|_]; [lra|]. cbn [opt_bind].
  assert (X1 : (kA - kB - s - 1) / (2 * kA) < 0) by (apply Rmult_lt_reg_r with (2 * kA); [lra|]; field_simplify; lra).
  assert (X2 : 0 < (kA - kB + s - 1) / (2 * kA)) by (apply Rdiv_lt_0_compat; lra).
  destruct (Rlt_dec ((kA - kB - s - 1) / (2 * kA)) 0) as [_|N]; [|contradiction].
  destruct (Rlt_dec 0 ((kA - kB + s - 1) / (2 * kA))) as [_|N]; [|contradiction].
  set (XA := (kA - kB + s - 1) / (2 * kA)) in *.
  assert (HX1 : XA <= 1) by (unfold XA; apply Rmult_le_reg_r with (2 * kA); [lra|]; field_simplify; lra).
  assert (Q : kA * (XA * XA) + (1 - kA + kB) * XA - 1 = 0).
  { assert (U : XA * (2 * kA) = kA - kB + s - 1) by (unfold XA; field; lra).
    apply Rmult_eq_reg_r with (4 * kA); [|lra].
    replace ((kA * (XA * XA) + (1 - kA + kB) * XA - 1) * (4 * kA)) with ((XA * (2 * kA)) * (XA * (2 * kA)) + 2 * (1 - kA + kB) * (XA * (2 * kA)) - 4 * kA) by ring.
    rewrite U. replace ((kA - kB + s - 1) * (kA - kB + s - 1) + 2 * (1 - kA + kB) * (kA - kB + s - 1) - 4 * kA) with (s * s - (1 - kA + kB) * (1 - kA + kB) - 4 * kA) by ring.
    rewrite Hs. unfold disc. ring. }
  destruct (Req_EM_T (1 + kA * XA) 0) as [E|NE]; [nra|]. cbn [opt_bind].
  exists XA, (1 / (1 + kA * XA)). assert (P : 0 < kA * XA) by nra.
  split; [reflexivity|]. split; [split; assumption|]. split; [|split].
  - split; [apply Rdiv_lt_0_compat; lra|]. apply Rmult_le_reg_r with (1 + kA * XA); [lra|]. field_simplify; lra.
  - apply Rmult_eq_reg_r with (1 + kA * XA); [|lra].
    replace (XA * (1 + kB * (1 / (1 + kA * XA))) * (1 + kA * XA)) with (XA * (1 + kA * XA + kB)) by (field; lra). lra.
  - field. lra.
Qed.
Lemma explicit_zero : forall X0, explicit_X 0 0 X0 = Some [X0; 1].
Proof.
  intro X0. unfold explicit_X, explicit_roots. replace (0 * 0 - 2 * 0 * 0 + 2 * 0 + 0 * 0 + 2 * 0 + 1) with 1 by ring.
  unfold csqrt. destruct (Rle_dec 0 1) as [_|N]; [|lra]. cbn [opt_bind]. unfold cdiv. destruct (Req_EM_T (2 * 0) 0) as [_|N]; [|lra]. cbn [opt_bind].
  destruct (Req_EM_T (1 + 0 * X0) 0) as [E|_]; [lra|]. cbn [opt_bind]. replace (1 / (1 + 0 * X0)) with 1 by field. reflexivity.
Qed.

(** * The association object *)
Lemma fin_inv : forall {A} (o : option A) a, fin o = ok a -> o = Some a.
Proof. intros A [x|] a H; cbn in H; [injection H as <-; reflexivity|discriminate]. Qed.
Record built (d : sidecar) (mols : list (list string)) (o : options) (a : association) : Prop := {
  bt_options : as_options a = o;
  bt_mapper : as_mapper a = mapper_of (occ mols) (layout mols 0) (cc_layout mols 0) (map (@length string) mols) (map distinct mols);
  bt_limit : (total_distinct mols <= 1000)%nat;
  bt_D : make_D (as_mapper a) o = ok (as_D a);
  bt_rule : as_rule a = op_rule o;
  bt_data : as_data a = d }.
Lemma make_association_ok : forall d mols o a, make_association d mols o = ok a -> built d mols o a.
Proof.
  intros d mols o a H. unfold make_association in H. rewrite make_mapper_ok in H.
  destruct (Nat.leb_spec (total_distinct mols) 1000) as [L|L]; [|discriminate]. cbn [fin obind ok] in H.
  destruct (make_D _ o) as [[D|e]|] eqn:E; cbn in H; try discriminate. injection H as <-. constructor; auto.
Qed.
Lemma built_n : forall d mols o a, built d mols o a ->
  length (to_siteid (as_mapper a)) = total_distinct mols /\ length (to_CompSite (as_mapper a)) = total_distinct mols /\
  length (counts (as_mapper a)) = total_distinct mols /\ length (N_sites (as_mapper a)) = length mols.
Proof.
  intros d mols o a B. rewrite (bt_mapper _ _ _ _ B). cbn. rewrite !combine_length, seq_length, !map_length, layout_length. repeat split; lia.
Qed.
(** the component of a site *)
Definition comp_of (mols : list (list string)) (k : nat) : nat := fst (nth k (layout mols 0) (0%nat, EmptyString)).
Definition site_of (mols : list (list string)) (k : nat) : string := snd (nth k (layout mols 0) (0%nat, EmptyString)).
Lemma layout_nth : forall mols k, (k < total_distinct mols)%nat -> nth_error (layout mols 0) k = Some (comp_of mols k, site_of mols k).
Proof.
  intros mols k H. rewrite (nth_error_nth' _ (0%nat, EmptyString)) by (rewrite layout_length; exact H). unfold comp_of, site_of. f_equal. apply surjective_pairing.
Qed.
Lemma comp_of_lt : forall mols k, (k < total_distinct mols)%nat -> (comp_of mols k < length mols)%nat /\ In (site_of mols k) (nth (comp_of mols k) mols []).
Proof.
  intros mols k H. pose proof (layout_nth mols k H) as E. apply nth_error_In in E. apply layout_in in E. rewrite Nat.sub_0_r in E. destruct E as [_ E].
  split; [|exact E]. destruct (Nat.lt_ge_cases (comp_of mols k) (length mols)) as [L|L]; [exact L|]. rewrite nth_overflow in E by exact L. destruct E.
Qed.
Lemma comp_site_ok : forall d mols o a k, built d mols o a -> (k < total_distinct mols)%nat -> comp_site_at (as_mapper a) k = ok (comp_of mols k, site_of mols k).
Proof.
  intros d mols o a k B H. unfold comp_site_at. rewrite (bt_mapper _ _ _ _ B).
  rewrite (proj2 (get_comp _ _ _ _ _ k (comp_of mols k, site_of mols k)) (layout_nth mols k H)). reflexivity.
Qed.
Lemma comp_index_ok : forall d mols o a k, built d mols o a -> (k < total_distinct mols)%nat -> nth k (comp_index (as_mapper a)) 0%nat = comp_of mols k.
Proof.
  intros d mols o a k B H. rewrite (bt_mapper _ _ _ _ B). cbn [comp_index mapper_of]. unfold comp_of. apply (map_nth fst (layout mols 0) (0%nat, EmptyString) k).
Qed.
Lemma counts_ok : forall d mols o a k, built d mols o a -> (k < total_distinct mols)%nat ->
  nth_error (counts (as_mapper a)) k = Some (occurrences (site_of mols k) (nth (comp_of mols k) mols [])).
Proof.
  intros d mols o a k B H. rewrite (bt_mapper _ _ _ _ B). cbn [counts mapper_of]. rewrite nth_error_map, (layout_nth mols k H). reflexivity.
Qed.
(** the coefficients of the mass-action equations *)
Definition K_of (a : association) (Delta : list (list R)) (rho : R) (x : list R) (i j : nat) : R :=
  rho * N_A * (mentry Delta i j * dcount (as_D a) i j) * nth (nth j (comp_index (as_mapper a)) 0%nat) x 0.
Lemma N_A_pos : 0 < N_A.
Proof. unfold N_A. apply Rmult_lt_0_compat; [lra|]. apply pow_lt. lra. Qed.
Lemma K_of_pos : forall a Delta rho x n, 0 <= rho -> (forall v, In v x -> 0 <= v) ->
  (forall i j, (i < n)%nat -> (j < n)%nat -> 0 <= mentry Delta i j) ->
  forall i j, (i < n)%nat -> (j < n)%nat -> 0 <= K_of a Delta rho x i j.
Proof.
  intros a Delta rho x n Hr Hx HD i j Hi Hj. unfold K_of. pose proof N_A_pos.
  apply Rmult_le_pos; [apply Rmult_le_pos; [nra|apply Rmult_le_pos; [now apply HD|apply pos_INR]]|].
  destruct (Nat.lt_ge_cases (nth j (comp_index (as_mapper a)) 0%nat) (length x)) as [L|L]; [apply Hx; now apply nth_In|rewrite nth_overflow by exact L; lra].
Qed.
Lemma row_bound : forall n (K : nat -> nat -> R), (forall i j, (i < n)%nat -> (j < n)%nat -> 0 <= K i j) -> exists M, forall i, (i < n)%nat -> sumn n (K i) <= M.
Proof.
  intros n K H. exists (sumn n (fun i => sumn n (K i))). intros i Hi. apply (sumn_term n (fun i => sumn n (K i)) i Hi). intros j Hj. apply sumn_pos. intros. now apply H.
Qed.
(** the call, once the matrix of the association strengths is known *)
Definition explicit_applies (a : association) (x : list R) (K : nat -> nat -> R) : Prop :=
  op_explicit (as_options a) = true /\ length x = 1%nat /\ length (counts (as_mapper a)) = 2%nat /\ (forall i, (i < 2)%nat -> K i i = 0).
Lemma zero_diagonal_iff : forall n K, zero_diagonal n K = true <-> forall i, (i < n)%nat -> K i i = 0.
Proof.
  intros n K. unfold zero_diagonal. rewrite forallb_forall. split.
  - intros H i Hi. specialize (H i ltac:(apply in_seq; lia)). destruct (Req_EM_T (K i i) 0); [assumption|discriminate].
  - intros H i Hi. apply in_seq in Hi. destruct (Req_EM_T (K i i) 0) as [_|N]; [reflexivity|]. exfalso. apply N, H. lia.
Qed.
Lemma iterate_ext : forall n K K' alpha rtol atol fuel X, (forall i j, (i < n)%nat -> (j < n)%nat -> K i j = K' i j) ->
  iterate n K alpha rtol atol fuel X = iterate n K' alpha rtol atol fuel X.
Proof.
  intros n K K' alpha rtol atol fuel. induction fuel; intros X H; [reflexivity|]. cbn [iterate].
  assert (E : substitute n K alpha X = substitute n K' alpha X).
  { unfold substitute. f_equal. apply map_ext_in. intros i Hi. apply in_seq in Hi. unfold rdotX.
    rewrite (sumn_ext n (fun j => K i j * nth j X 0) (fun j => K' i j * nth j X 0)); [reflexivity|]. intros j Hj. rewrite H by lia. reflexivity. }
  rewrite E. destruct (substitute n K' alpha X) as [Xn|]; [|reflexivity]. cbn [opt_bind]. destruct (close _ _ _ _ _); [reflexivity|]. now apply IHfuel.
Qed.
Lemma call_cases : forall bc d mols o a T rho x X0 Delta, built d mols o a -> length x = length mols -> length X0 = total_distinct mols ->
  get_Delta bc a T rho x = ok Delta ->
  let n := total_distinct mols in let K := K_of a Delta rho x in
  (explicit_applies a x K /\
   successive_substitution bc a T rho x X0 =
     fin (explicit_X (rho * N_A * INR (nth 0 (counts (as_mapper a)) 0%nat) * mentry Delta 0 1) (rho * N_A * INR (nth 1 (counts (as_mapper a)) 0%nat) * mentry Delta 0 1) (nth 0 X0 0)))
  \/ (~ explicit_applies a x K /\
      successive_substitution bc a T rho x X0 = fin (iterate n K (op_alpha o) (op_rtol o) (op_atol o) (Z.to_nat (op_max_iters o)) X0)).
Proof.
  intros bc d mols o a T rho x X0 Delta B Hx HX HD n K. destruct (built_n _ _ _ _ B) as (N1 & N2 & N3 & N4).
  unfold successive_substitution. rewrite N1, HX, Nat.eqb_refl. cbn [negb]. rewrite HD. cbn [obind ok]. rewrite N2.
  assert (Exj : omap (fun k => obind (comp_site_at (as_mapper a) k) (fun cs => fin (nth_error x (fst cs)))) (seq 0 (total_distinct mols)) = ok (map (fun k => nth (comp_of mols k) x 0) (seq 0 n))).
  { apply (omap_seq_build _ (fun k => nth (comp_of mols k) x 0)). intros i Hi. cbn [Nat.add]. rewrite (comp_site_ok _ _ _ _ _ B Hi). cbn [obind ok fst].
    rewrite (nth_error_nth' x 0) by (rewrite Hx; now apply comp_of_lt). reflexivity. }
  match goal with |- context [omap ?f ?l] => replace (omap f l) with (ok (map (fun k => nth (comp_of mols k) x 0) (seq 0 n))) by (symmetry; exact Exj) end.
  cbn [obind ok].
  set (K' := rDDX a Delta rho (map (fun k => nth (comp_of mols k) x 0) (seq 0 n))).
  assert (EK : forall i j, (i < n)%nat -> (j < n)%nat -> K' i j = K i j).
  { intros i j Hi Hj. unfold K', K, rDDX, K_of. rewrite nth_map_seq0 by exact Hj. rewrite (comp_index_ok _ _ _ _ _ B Hj). reflexivity. }
  fold n. rewrite (bt_options _ _ _ _ B) in *.
  destruct (op_explicit o && Nat.eqb (length x) 1 && Nat.eqb (length (counts (as_mapper a))) 2 && zero_diagonal n K') eqn:E.
  - left. apply andb_true_iff in E. destruct E as [E E4]. apply andb_true_iff in E. destruct E as [E E3]. apply andb_true_iff in E. destruct E as [E1 E2].
    apply Nat.eqb_eq in E2, E3. split; [|reflexivity]. unfold explicit_applies. rewrite (bt_options _ _ _ _ B). repeat split; auto. intros i Hi.
    rewrite zero_diagonal_iff in E4. assert (Hn : (i < n)%nat) by (unfold n; rewrite <- N3, E3; exact Hi). rewrite <- EK by exact Hn. now apply E4.
  - right. split.
    + intros (A1 & A2 & A3 & A4). rewrite (bt_options _ _ _ _ B) in A1. rewrite A1, A2, A3 in E. cbn in E.
      assert (zero_diagonal n K' = true); [|congruence]. apply zero_diagonal_iff. intros i Hi. rewrite EK by exact Hi. apply A4. rewrite <- A3, N3. exact Hi.
    + f_equal. now apply iterate_ext.
Qed.
