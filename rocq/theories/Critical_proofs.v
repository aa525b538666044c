(** Proofs about the criticality conditions of mixtures. *)
From Coq Require Import Reals ZArith List Bool Lia Lra.
From Coquelicot Require Import Coquelicot.
From Verif Require Import Json_model Cubic_model Derivs_model Derivs_spec Derivs_proofs Derivs_proofs2 Pure_proofs Vec_spec Vec_proofs Iso_model Iso_spec Iso_proofs
  Trace_model Critical_model Critical_spec.
Import ListNotations.
Open Scope R_scope.

Lemma chain_derive : forall (F : nat -> R -> R) (x : R) k,
  (forall j, (j < k)%nat -> locally x (fun s => is_derive (F j) s (F (S j) s))) ->
  forall j, (j <= k)%nat -> locally x (fun s => Derive_n (F 0%nat) j s = F j s).
Proof.
  intros F x k H. induction j; intros Hj; [apply filter_forall; reflexivity|].
  assert (A := locally_locally _ _ (IHj ltac:(lia))).
  eapply filter_imp; [|exact (filter_and _ _ A (H j ltac:(lia)))]. cbv beta. intros s (L & D).
  cbn [Derive_n]. rewrite (Derive_ext_loc _ (F j)); [now apply is_derive_unique|exact L].
Qed.
Lemma chain_ex : forall (F : nat -> R -> R) (x : R) k,
  (forall j, (j < k)%nat -> locally x (fun s => is_derive (F j) s (F (S j) s))) ->
  forall j, (j <= k)%nat -> ex_derive_n (F 0%nat) j x.
Proof.
  intros F x k H [|j] Hj; [exact I|]. cbn. exists (F (S j) x).
  apply (is_derive_ext_loc (F j)).
  - eapply filter_imp; [|apply (chain_derive F x k H j); lia]. intros s E. symmetry. exact E.
  - apply (locally_singleton _ _ (H j ltac:(lia))).
Qed.
(** derivatives of r ln r along a line *)
Definition ideal_chain (r v : R) (j : nat) (s : R) : R :=
  let y := r + s * v in
  match j with
  | O => y * ln y | 1%nat => v * (ln y + 1) | 2%nat => v ^ 2 / y | 3%nat => - v ^ 3 / y ^ 2 | 4%nat => 2 * v ^ 4 / y ^ 3 | _ => 0
  end.
Lemma ideal_chain_ok : forall r v s j, (j < 4)%nat -> 0 < r + s * v -> is_derive (ideal_chain r v j) s (ideal_chain r v (S j) s).
Proof.
  intros r v s j Hj P. unfold ideal_chain. destruct j as [|[|[|[|j]]]]; [| | | |lia].
  - auto_derive; [lra|]. field. lra.
  - auto_derive; [lra|]. field. lra.
  - auto_derive; [lra|]. field. lra.
  - auto_derive; [apply Rmult_integral_contrapositive; split; lra|]. field. lra.
Qed.
Lemma line_positive : forall r v, 0 < r -> locally 0 (fun s => 0 < r + s * v).
Proof.
  intros r v Hr. destruct (Req_dec v 0) as [->|Hv].
  - apply filter_forall. intro s. lra.
  - assert (P : 0 < r / Rabs v) by (apply Rdiv_lt_0_compat; auto; now apply Rabs_pos_lt).
    exists (mkposreal _ P). intros s Hs. unfold ball in Hs. cbn in Hs. unfold AbsRing_ball, abs, minus, plus, opp in Hs. cbn in Hs.
    rewrite Ropp_0, Rplus_0_r in Hs. assert (Q := Rabs_pos_lt v Hv).
    assert (Rabs (s * v) < r).
    { rewrite Rabs_mult. apply (Rmult_lt_compat_r (Rabs v)) in Hs; auto. unfold Rdiv in Hs. rewrite Rmult_assoc, Rinv_l, Rmult_1_r in Hs by lra. exact Hs. }
    apply Rabs_def2 in H. lra.
Qed.
Lemma locally_sumn : forall n (P : nat -> R -> Prop) x, (forall i, (i < n)%nat -> locally x (P i)) -> locally x (fun s => forall i, (i < n)%nat -> P i s).
Proof.
  induction n; intros P x H.
  - apply filter_forall. intros s i Hi. lia.
  - assert (A := IHn P x ltac:(intros i Hi; apply H; lia)). assert (B := H n ltac:(lia)).
    eapply filter_imp; [|exact (filter_and _ _ A B)]. cbv beta. intros s (U & V) i Hi. destruct (Nat.eq_dec i n) as [->|]; auto. apply U. lia.
Qed.
Definition ideal_sum (Rg T : R) (rho v : list R) (j : nat) (s : R) : R := Rg * T * sumn (length rho) (fun i => ideal_chain (nth i rho 0) (nth i v 0) j s).
Lemma ideal_sum_ok : forall Rg T rho v j, (j < 4)%nat -> positive rho -> locally 0 (fun s => is_derive (ideal_sum Rg T rho v j) s (ideal_sum Rg T rho v (S j) s)).
Proof.
  intros Rg T rho v j Hj (_ & P).
  eapply filter_imp; [|apply (locally_sumn (length rho) (fun i s => 0 < nth i rho 0 + s * nth i v 0) 0)].
  - cbv beta. intros s Hs. unfold ideal_sum. apply is_derive_lin.
    apply (is_derive_sumn (length rho) (fun i s => ideal_chain (nth i rho 0) (nth i v 0) j s)). intros i Hi. apply ideal_chain_ok; auto.
  - intros i Hi. apply line_positive. now apply P.
Qed.
Lemma moved_each : forall rho v s, moved rho v s = each rho (fun i => nth i rho 0 + s * nth i v 0).
Proof. reflexivity. Qed.
Lemma Psi_moved : forall alphar Rgas Rg T rho v s, (forall x, Rgas x = Rg) ->
  Psi alphar Rgas T (moved rho v s) = Psi_r alphar Rgas T (moved rho v s) + ideal_sum Rg T rho v 0 s.
Proof.
  intros alphar Rgas Rg T rho v s HR. unfold Psi. rewrite HR. f_equal. unfold ideal_sum. f_equal.
  rewrite moved_each, each_length. apply sumn_ext. intros i Hi. rewrite each_nth by auto. reflexivity.
Qed.
Lemma is0_pos : forall r, 0 < r -> is0 r = false.
Proof. intros r H. unfold is0. destruct (Req_EM_T r 0); [lra|reflexivity]. Qed.
Lemma psi0_nth : forall Rgas Rg T rho v k, (forall x, Rgas x = Rg) -> positive rho -> (2 <= k <= 4)%nat ->
  nth k (psi0_derivs Rgas T rho v) 0 = ideal_sum Rg T rho v k 0.
Proof.
  intros Rgas Rg T rho v k HR (_ & P) Hk. unfold psi0_derivs, ideal_sum. rewrite HR.
  assert (A : forall f g, (forall i, (i < length rho)%nat -> f (nth i v 0) (nth i rho 0) = Rg * T * g i) ->
    vsum (each rho (fun i => if is0 (nth i rho 0) then 0 else f (nth i v 0) (nth i rho 0))) = Rg * T * sumn (length rho) g).
  { intros f g E. rewrite vsum_each, <- sumn_scal. apply sumn_ext. intros i Hi. rewrite is0_pos by (now apply P). now apply E. }
  assert (Q : forall i, (i < length rho)%nat -> nth i rho 0 <> 0) by (intros i Hi; apply Rgt_not_eq; now apply P).
  destruct k as [|[|[|[|[|k]]]]]; try lia; cbn [nth].
  - apply (A (fun v r => Rg * T * v ^ 2 / r)). intros i Hi. unfold ideal_chain. rewrite Rmult_0_l, Rplus_0_r. field. auto.
  - apply (A (fun v r => - Rg * T * v ^ 3 / r ^ 2)). intros i Hi. unfold ideal_chain. rewrite Rmult_0_l, Rplus_0_r. field. auto.
  - apply (A (fun v r => 2 * Rg * T * v ^ 4 / r ^ 3)). intros i Hi. unfold ideal_chain. rewrite Rmult_0_l, Rplus_0_r. field. auto.
Qed.
(** the derivatives of [get_derivs] *)
Lemma eigen_len : forall ad alphar Rgas eigen T rho al ei, eigen_problem ad alphar Rgas eigen T rho al = ok ei -> (2 <= length rho)%nat.
Proof.
  intros ad alphar Rgas eigen T rho al ei H. unfold eigen_problem in H. destruct (Nat.ltb_spec (length rho) 2); [discriminate|lia].
Qed.
Lemma get_derivs_inv : forall ad alphar Rgas eigen T rho al tot ei, get_derivs ad alphar Rgas eigen T rho al = ok (tot, ei) ->
  eigen_problem ad alphar Rgas eigen T rho al = ok ei /\
  tot = map (fun k => nth k (psi0_derivs Rgas T rho (ev ei 0)) 0 + nth k (get_Psir_sigma_derivs ad alphar Rgas T rho (ev ei 0)) 0) (seq 0 5).
Proof.
  intros ad alphar Rgas eigen T rho al tot ei H. unfold get_derivs in H.
  destruct (eigen_problem ad alphar Rgas eigen T rho al) as [[e|er]|]; cbn [obind] in H; try discriminate.
  unfold ok in H. inversion H; subst. split; reflexivity.
Qed.
Lemma tot_nth : forall (f : nat -> R) k, (k < 5)%nat -> nth k (map f (seq 0 5)) 0 = f k.
Proof. intros f k H. now apply nth_map_seq'. Qed.
Lemma get_derivs_ok : forall ad alphar Rgas Rg eigen T rho al tot ei k, AD_exact ad -> (forall x, Rgas x = Rg) -> positive rho ->
  get_derivs ad alphar Rgas eigen T rho al = ok (tot, ei) -> (2 <= k <= 4)%nat ->
  (forall j, (j <= k)%nat -> locally 0 (fun s => ex_derive_n (fun s => Psi_r alphar Rgas T (moved rho (ev ei 0) s)) j s)) ->
  nth k tot 0 = Derive_n (fun s => Psi alphar Rgas T (moved rho (ev ei 0) s)) k 0.
Proof.
  intros ad alphar Rgas Rg eigen T rho al tot ei k Had HR P H Hk S.
  apply get_derivs_inv in H. destruct H as (_ & ->). rewrite tot_nth by lia.
  rewrite (psi0_nth Rgas Rg T rho _ k HR P Hk).
  assert (Sk := locally_singleton _ _ (S k (le_n k))).
  rewrite (sigma_ok ad Had alphar Rgas T rho _ k); [|lia|exact Sk].
  rewrite (Derive_n_ext (fun s => Psi alphar Rgas T (moved rho (ev ei 0) s)) (fun s => Psi_r alphar Rgas T (moved rho (ev ei 0) s) + ideal_sum Rg T rho (ev ei 0) 0 s)).
  2: { intro s. now apply Psi_moved. }
  assert (C := fun j Hj => ideal_sum_ok Rg T rho (ev ei 0) j Hj P).
  rewrite Derive_n_plus.
  - rewrite Rplus_comm. f_equal. symmetry. apply (locally_singleton _ _ (chain_derive (ideal_sum Rg T rho (ev ei 0)) 0 4 C k ltac:(lia))).
  - assert (A : locally 0 (fun s => forall j, (j < Datatypes.S k)%nat -> ex_derive_n (fun s => Psi_r alphar Rgas T (moved rho (ev ei 0) s)) j s)).
    { apply (locally_sumn (Datatypes.S k) (fun j s => ex_derive_n (fun s => Psi_r alphar Rgas T (moved rho (ev ei 0) s)) j s)). intros j Hj. apply S. lia. }
    eapply filter_imp; [|exact A]. cbv beta. intros s Hs j Hj. apply Hs. lia.
  - assert (A : locally 0 (fun s => forall j, (j < 4)%nat -> is_derive (ideal_sum Rg T rho (ev ei 0) j) s (ideal_sum Rg T rho (ev ei 0) (Datatypes.S j) s))).
    { apply (locally_sumn 4 (fun j s => is_derive (ideal_sum Rg T rho (ev ei 0) j) s (ideal_sum Rg T rho (ev ei 0) (Datatypes.S j) s))). intros j Hj. auto. }
    eapply filter_imp; [|exact (locally_locally _ _ A)]. cbv beta. intros s Hs j Hj.
    apply (chain_ex (ideal_sum Rg T rho (ev ei 0)) s 4); [|lia]. intros i Hi. eapply filter_imp; [|exact Hs]. cbv beta. auto.
Qed.

(** ** The eigenvalue problem *)
Lemma all_nonzero_filter : forall rho, positive rho -> filter negb (map (fun r => negb (is0 r)) rho) = [].
Proof.
  intros rho (_ & P). assert (A : forall r, In r rho -> 0 < r).
  { intros r Hr. apply (In_nth _ _ 0) in Hr. destruct Hr as (i & Hi & <-). now apply P. }
  clear P. induction rho as [|r rho IH]; [reflexivity|]. cbn [map filter]. rewrite is0_pos by (apply A; now left). cbn. apply IH. intros; apply A; now right.
Qed.
Lemma crit_hessian_positive : forall ad alphar Rgas T rho, positive rho -> crit_hessian ad alphar Rgas T rho = build_Psi_Hessian ad alphar Rgas T rho.
Proof.
  intros ad alphar Rgas T rho (_ & P). unfold crit_hessian, build_Psi_Hessian. apply map_ext_in. intros i Hi. apply in_seq in Hi.
  apply map_ext. intro j. rewrite is0_pos by (apply P; lia). cbn [negb]. now rewrite andb_true_r.
Qed.
Lemma scaled_length : forall c v, length (scaled c v) = length v. Proof. intros. apply map_length. Qed.
Lemma scaled_nth : forall c v i, nth i (scaled c v) 0 = c * nth i v 0.
Proof.
  intros c v i. unfold scaled. destruct (le_lt_dec (length v) i).
  - rewrite !nth_overflow by (rewrite ?map_length; auto). ring.
  - now apply (nth_map0 (fun a => c * a)).
Qed.
Lemma eigenpair_scaled : forall n H l v c, eigenpair n H l v -> eigenpair n H l (scaled c v).
Proof.
  intros n H l v c (L & E). split; [now rewrite scaled_length|]. intros i Hi. rewrite scaled_nth.
  rewrite (sumn_ext _ _ (fun j => c * (entry H i j * nth j v 0))).
  - rewrite sumn_scal, E by auto. ring.
  - intros j Hj. rewrite scaled_nth. ring.
Qed.
Lemma inner_scaled : forall n v c d w, inner n (scaled c v) (scaled d w) = c * d * inner n v w.
Proof. intros. unfold inner. rewrite <- sumn_scal. apply sumn_ext. intros i Hi. rewrite !scaled_nth. ring. Qed.
Lemma curvature : forall n H l v, eigenpair n H l v -> inner n v v = 1 -> sumn n (fun i => sumn n (fun j => entry H i j * nth i v 0 * nth j v 0)) = l.
Proof.
  intros n H l v (_ & E) U. rewrite (sumn_ext _ _ (fun i => l * (nth i v 0 * nth i v 0))).
  - rewrite sumn_scal. unfold inner in U. rewrite U. ring.
  - intros i Hi. rewrite (sumn_ext _ _ (fun j => nth i v 0 * (entry H i j * nth j v 0))) by (intros; ring).
    rewrite sumn_scal, E by auto. ring.
Qed.
Lemma map_nth_len : forall (f : list R -> list R) l k, (k < length l)%nat -> nth k (map f l) [] = f (nth k l []).
Proof. intros f l k H. rewrite (nth_indep _ [] (f [])) by (now rewrite map_length). apply map_nth. Qed.
(** what the aligned family of eigenvectors is *)
Lemma aligned_ok : forall n H al vals vecs, (1 <= n)%nat -> length vecs = n ->
  (forall k, (k < n)%nat -> eigenpair n H (nth k vals 0) (nth k vecs [])) ->
  (forall j k, (j < n)%nat -> (k < n)%nat -> inner n (nth j vecs []) (nth k vecs []) = if Nat.eqb j k then 1 else 0) ->
  let d := aligned al {| ed_values := vals; ed_vectors := vecs |} in
  ed_values d = vals /\ length (ed_vectors d) = n /\ (forall k, (k < n)%nat -> eigenpair n H (nth k vals 0) (ev d k)) /\
  (forall j k, (j < n)%nat -> (k < n)%nat -> inner n (ev d j) (ev d k) = if Nat.eqb j k then 1 else 0).
Proof.
  intros n H al vals vecs Hn L E O d.
  assert (K : d = {| ed_values := vals; ed_vectors := vecs |} \/ d = {| ed_values := vals; ed_vectors := scaled (-1) (nth 0 vecs []) :: tl vecs |}).
  { unfold d, aligned, ev. cbn [ed_values ed_vectors]. destruct al as [[|a l]|]; auto. destruct (rlt _ 0); auto. }
  destruct K as [->| ->]; cbn [ed_values ed_vectors]; unfold ev; cbn [ed_vectors]; [now repeat split; auto; apply E|].
  destruct vecs as [|w vecs]; [cbn in L; lia|]. change (nth 0 (w :: vecs) []) with w. cbn [tl].
  assert (N : forall k, nth k (scaled (-1) w :: vecs) [] = match k with 0%nat => scaled (-1) w | S k => nth k vecs [] end) by (now intros [|k]).
  split; [reflexivity|]. split; [exact L|]. split.
  - intros [|k] Hk; rewrite N; [apply eigenpair_scaled; exact (E 0%nat Hk)|exact (E (S k) Hk)].
  - assert (S1 : forall v, scaled 1 v = v). { intro v. unfold scaled. rewrite (map_ext _ (fun a => a)); [apply map_id|]. intro; ring. }
    intros [|j] [|k] Hj Hk; rewrite !N.
    + rewrite inner_scaled. assert (K := O 0%nat 0%nat Hj Hk). cbn in K |- *. rewrite K. ring.
    + rewrite <- (S1 (nth k vecs [])), inner_scaled. assert (K := O 0%nat (S k) Hj Hk). cbn in K |- *. rewrite K. ring.
    + rewrite <- (S1 (nth j vecs [])), inner_scaled. assert (K := O (S j) 0%nat Hj Hk). cbn in K |- *. rewrite K. ring.
    + exact (O (S j) (S k) Hj Hk).
Qed.
Lemma eigen_problem_positive : forall ad alphar Rgas eigen T rho al ei, decomposes eigen (length rho) (build_Psi_Hessian ad alphar Rgas T rho) -> positive rho ->
  eigen_problem ad alphar Rgas eigen T rho al = ok ei ->
  length (ed_values ei) = length rho /\ length (ed_vectors ei) = length rho /\
  (forall k, (k < length rho)%nat -> eigenpair (length rho) (build_Psi_Hessian ad alphar Rgas T rho) (nth k (ed_values ei) 0) (ev ei k)) /\
  (forall j k, (j < length rho)%nat -> (k < length rho)%nat -> inner (length rho) (ev ei j) (ev ei k) = if Nat.eqb j k then 1 else 0) /\
  (forall j k, (j <= k)%nat -> (k < length rho)%nat -> nth j (ed_values ei) 0 <= nth k (ed_values ei) 0).
Proof.
  intros ad alphar Rgas eigen T rho al ei K P H. assert (L2 := eigen_len _ _ _ _ _ _ _ _ H). unfold eigen_problem in H.
  destruct (Nat.ltb_spec (length rho) 2); [lia|]. rewrite all_nonzero_filter in H by auto. cbn [length] in H.
  rewrite crit_hessian_positive in H by auto. unfold decomposes in K.
  destruct (eigen (build_Psi_Hessian ad alphar Rgas T rho)) as [vals vecs]. destruct K as (L1 & Lv & E & O & M).
  set (w := if existsb _ _ then _ else _) in H.
  assert (Kw : (w = vecs \/ w = map (scaled (-1)) vecs)) by (unfold w; destruct (existsb _ _); auto).
  assert (Lw : length w = length rho) by (destruct Kw as [->| ->]; rewrite ?map_length; auto).
  assert (Ew : forall k, (k < length rho)%nat -> eigenpair (length rho) (build_Psi_Hessian ad alphar Rgas T rho) (nth k vals 0) (nth k w [])).
  { intros k Hk. destruct Kw as [->| ->]; auto. rewrite map_nth_len by lia. now apply eigenpair_scaled, E. }
  assert (Ow : forall j k, (j < length rho)%nat -> (k < length rho)%nat -> inner (length rho) (nth j w []) (nth k w []) = if Nat.eqb j k then 1 else 0).
  { intros j k Hj Hk. destruct Kw as [->| ->]; auto. rewrite !map_nth_len by lia. rewrite inner_scaled, O by auto. destruct (Nat.eqb j k); ring. }
  destruct (aligned_ok (length rho) (build_Psi_Hessian ad alphar Rgas T rho) al vals w ltac:(lia) Lw Ew Ow) as (A & B & C & D).
  assert (Q : ei = aligned al {| ed_values := vals; ed_vectors := w |}) by (unfold ok in H; congruence). rewrite Q. rewrite A. repeat split; auto; apply C; auto.
Qed.
Lemma map_seq_row : forall (f : nat -> list R) n i, (i < n)%nat -> nth i (map f (seq 0 n)) [] = f i.
Proof. intros f n i H. rewrite (nth_indep _ [] (f 0%nat)) by (now rewrite map_length, seq_length). rewrite (map_nth f), seq_nth by auto. reflexivity. Qed.
Lemma hess_row : forall ad alphar Rgas T rho i, (i < length rho)%nat -> nth i (build_Psi_Hessian ad alphar Rgas T rho) [] =
  each rho (fun j => nth j (nth i (build_Psir_Hessian ad alphar Rgas T rho) []) 0 + (if Nat.eqb i j then Rgas (molefrac_of rho) * T / nth i rho 0 else 0)).
Proof. intros ad alphar Rgas T rho i Hi. unfold build_Psi_Hessian. now rewrite map_seq_row. Qed.
(** the second derivative of the mixing part *)
Lemma tot2_quadratic : forall ad alphar Rgas Rg eigen T rho al tot ei, AD_exact ad -> (forall x, Rgas x = Rg) -> positive rho -> smooth_rho alphar Rgas T rho ->
  get_derivs ad alphar Rgas eigen T rho al = ok (tot, ei) ->
  nth 2 tot 0 = sumn (length rho) (fun i => sumn (length rho) (fun j => entry (build_Psi_Hessian ad alphar Rgas T rho) i j * nth i (ev ei 0) 0 * nth j (ev ei 0) 0)).
Proof.
  intros ad alphar Rgas Rg eigen T rho al tot ei Had HR P (G & H & Tw) D. apply get_derivs_inv in D. destruct D as (_ & ->). rewrite tot_nth by lia.
  rewrite (psi0_nth Rgas Rg T rho _ 2 HR P ltac:(lia)).
  destruct (sigma_12 ad Had alphar Rgas T rho (ev ei 0) G H Tw) as (_ & _ & ->).
  set (v := ev ei 0). unfold ideal_sum. rewrite <- sumn_scal, <- sumn_plus. apply sumn_ext. intros i Hi.
  unfold entry. rewrite hess_row by auto.
  rewrite (sumn_ext _ (fun j => nth j (each rho _) 0 * _ * _) (fun j => nth j (nth i (build_Psir_Hessian ad alphar Rgas T rho) []) 0 * nth i v 0 * nth j v 0 +
    (if Nat.eqb j i then Rg * T / nth i rho 0 * nth i v 0 * nth j v 0 else 0))).
  - rewrite sumn_plus, (sumn_delta (length rho) i (fun j => Rg * T / nth i rho 0 * nth i v 0 * nth j v 0)) by auto.
    rewrite Rplus_comm. f_equal. unfold ideal_chain. rewrite Rmult_0_l, Rplus_0_r. field. apply Rgt_not_eq. now apply (proj2 P).
  - intros j Hj. rewrite each_nth by auto. rewrite HR, (Nat.eqb_sym i j). destruct (Nat.eqb j i); ring.
Qed.
Lemma sigma_psi0_dilute : forall Rgas Rg T r c k, (forall x, Rgas x = Rg) -> 0 < r -> (2 <= k <= 4)%nat ->
  nth k (psi0_derivs Rgas T [r; 0] [c; 0]) 0 = Rg * T * ideal_chain r c k 0 /\
  nth k (psi0_derivs Rgas T [0; r] [0; c]) 0 = Rg * T * ideal_chain r c k 0.
Proof.
  intros Rgas Rg T r c k HR Hr Hk. unfold psi0_derivs. rewrite !HR. unfold each. cbn [length seq map nth vsum fold_right].
  rewrite (is0_pos r Hr). assert (E0 : is0 0 = true) by (unfold is0; destruct (Req_EM_T 0 0); [reflexivity|lra]). rewrite E0.
  assert (r <> 0) by lra.
  destruct k as [|[|[|[|[|k]]]]]; try lia; cbn [nth]; unfold ideal_chain; rewrite Rmult_0_l, Rplus_0_r; split; field; auto.
Qed.
Lemma Derive_n_line : forall (g : R -> R) (r c : R) k, locally r (fun x => forall j, (j <= k)%nat -> ex_derive_n g j x) ->
  Derive_n (fun s => g (r + s * c)) k 0 = c ^ k * Derive_n g k r.
Proof.
  intros g r c k H.
  rewrite (Derive_n_ext (fun s => g (r + s * c)) (fun s => (fun y => g (y + r)) (c * s))) by (intro s; f_equal; ring).
  rewrite (Derive_n_comp_scal (fun y => g (y + r)) c k 0).
  - rewrite Derive_n_comp_trans. rewrite Rmult_0_r, Rplus_0_l. reflexivity.
  - rewrite Rmult_0_r. assert (A : locally 0 (fun y => forall j, (j <= k)%nat -> ex_derive_n g j (y + r))).
    { destruct H as (d & Hd). exists d. intros y Hy. apply Hd. unfold ball in *. cbn in *. unfold AbsRing_ball, abs, minus, plus, opp in *. cbn in *.
      replace (y + r + - r) with (y + - 0) by ring. exact Hy. }
    eapply filter_imp; [|exact A]. cbv beta. intros y Hy j Hj. now apply ex_derive_n_comp_trans, Hy.
Qed.
(** ** The ideal gas, for examples *)
Definition exact_ad : (list R -> R) -> list nat -> list R -> R := partialN.
Definition no_alphar (T rho : R) (x : list R) : R := 0.
Definition one_R (x : list R) : R := 1.
Lemma partialN_zero : forall orders xs f, (forall l, f l = 0) -> partialN f orders xs = 0.
Proof.
  induction orders as [|k orders IH]; intros [|x xs] f H; try apply H. cbn [partialN].
  rewrite (Derive_n_ext _ (fun _ => 0)); [|intro t; apply IH; intro l; apply H]. destruct k; [reflexivity|apply Derive_n_const].
Qed.
Lemma ideal_Psir : forall T rho, get_Psir no_alphar one_R T rho = 0.
Proof. intros. unfold get_Psir, no_alphar. ring. Qed.
Lemma ideal_entry : forall T rho i j, hess_entry exact_ad (get_Psir no_alphar one_R T) rho i j = 0.
Proof.
  intros T rho i j. unfold hess_entry, exact_ad. destruct (Nat.eqb i j); apply partialN_zero; intros [|a [|b [|]]]; try reflexivity; apply ideal_Psir.
Qed.
Lemma ideal_hessian : forall T rho, build_Psir_Hessian exact_ad no_alphar one_R T rho = repeat (repeat 0 (length rho)) (length rho).
Proof.
  intros T rho. unfold build_Psir_Hessian, each.
  assert (A : forall B (f : nat -> B) v n k, (forall i, f i = v) -> map f (seq k n) = repeat v n).
  { intros B f v n. induction n; intros k H; [reflexivity|]. cbn. rewrite H. f_equal. now apply IHn. }
  apply A. intro i. apply A. intro j. apply ideal_entry.
Qed.
Lemma exact_AD : AD_exact exact_ad. Proof. intros f orders xs H. reflexivity. Qed.
(** a solver for diagonal two by two matrices *)
Definition diag_eigen (H : list (list R)) : list R * list (list R) :=
  let a := entry H 0 0 in let b := entry H 1 1 in
  if Rle_dec a b then ([a; b], [[1; 0]; [0; 1]]) else ([b; a], [[0; 1]; [1; 0]]).
Lemma diag_eigen_ok : forall a b, decomposes diag_eigen 2 [[a; 0]; [0; b]].
Proof.
  intros a b. unfold decomposes, diag_eigen, entry. cbn [nth]. destruct (Rle_dec a b) as [L|L].
  - repeat split; try reflexivity.
    + destruct k as [|[|k]]; try lia; reflexivity.
    + destruct k as [|[|k]]; try lia; intros [|[|i]] Hi; try lia; unfold entry; cbn [nth sumn]; ring.
    + intros [|[|j]] [|[|k]] Hj Hk; try lia; unfold inner; cbn [nth sumn Nat.eqb]; ring.
    + intros [|[|j]] [|[|k]] Hj Hk; try lia; cbn [nth]; lra.
  - repeat split; try reflexivity.
    + destruct k as [|[|k]]; try lia; reflexivity.
    + destruct k as [|[|k]]; try lia; intros [|[|i]] Hi; try lia; unfold entry; cbn [nth sumn]; ring.
    + intros [|[|j]] [|[|k]] Hj Hk; try lia; unfold inner; cbn [nth sumn Nat.eqb]; ring.
    + intros [|[|j]] [|[|k]] Hj Hk; try lia; cbn [nth]; lra.
Qed.
Lemma ideal_Psi_hessian : forall T a b, build_Psi_Hessian exact_ad no_alphar one_R T [a; b] = [[1 * T / a; 0]; [0; 1 * T / b]].
Proof.
  intros T a b. unfold build_Psi_Hessian. rewrite ideal_hessian. cbn [length repeat seq map each nth Nat.eqb]. unfold each. cbn [length seq map nth Nat.eqb]. unfold one_R.
  rewrite !Rplus_0_l. reflexivity.
Qed.
Lemma ideal_smooth : forall T rho, smooth_rho no_alphar one_R T rho.
Proof.
  intros T rho. assert (Z : forall y, Psi_r no_alphar one_R T y = 0) by (intro y; unfold Psi_r, no_alphar; ring).
  exists (fun y => repeat 0 (length y)), (repeat (repeat 0 (length rho)) (length rho)).
  assert (G0 : forall y, gradient_at (Psi_r no_alphar one_R T) y (repeat 0 (length y))).
  { intro y. apply (gradient_ext (fun _ => 0) (Psi_r no_alphar one_R T) y (repeat 0 (length y))); [intros z _; now rewrite Z|apply repeat_length|reflexivity|apply gradient_const]. }
  assert (N0 : forall i n, nth i (repeat 0 n) 0 = 0) by (intros i n; revert i; induction n; intros [|i]; cbn; auto).
  assert (NR : forall i n, (i < n)%nat -> nth i (repeat (repeat 0 (length rho)) n) [] = repeat 0 (length rho)) by (intros i n; revert i; induction n; intros [|i] H; cbn; auto; try lia; apply IHn; lia).
  split.
  - exists 1. split; [lra|]. intros y _ _. apply G0.
  - apply repeat_length.
  - intros j Hj. rewrite NR by auto. apply (gradient_ext (fun _ => 0) _ rho (repeat 0 (length rho))); [intros y _; now rewrite N0|apply repeat_length|reflexivity|apply gradient_const].
  - intros i j Hi Hj. rewrite !NR by auto. now rewrite !N0.
Qed.
