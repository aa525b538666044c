(** Proofs for C22 and C23. *)
From Coq Require Import Reals ZArith List Lia Lra.
From Coquelicot Require Import Coquelicot.
From Verif Require Import Json_model Derivs_model Derivs_spec Derivs_proofs Derivs_proofs2 Pure_proofs
  Vec_spec Vec_proofs Iso_model Iso_spec.
Import ListNotations.
Open Scope R_scope.

(** ** Lists *)
Lemma sumn_S_l : forall n f, sumn (S n) f = f 0%nat + sumn n (fun i => f (S i)).
Proof. induction n; intro f; [simpl; ring|]. change (sumn (S (S n)) f) with (sumn (S n) f + f (S n)). rewrite IHn. simpl. ring. Qed.
Lemma vsum_sumn : forall v, vsum v = sumn (length v) (fun i => nth i v 0).
Proof. induction v as [|a v IH]; [reflexivity|]. cbn [length vsum fold_right]. rewrite sumn_S_l. simpl. unfold vsum in IH. now rewrite IH. Qed.
Lemma vsum_total : forall v, vsum v = total v. Proof. exact vsum_sumn. Qed.
Lemma molefrac_fractions : forall v, molefrac_of v = fractions v.
Proof. intro v. unfold molefrac_of, fractions. now rewrite vsum_total. Qed.
Lemma each_length : forall v f, length (each v f) = length v.
Proof. intros. unfold each. now rewrite map_length, seq_length. Qed.
Lemma each_nth : forall v f i, (i < length v)%nat -> nth i (each v f) 0 = f i.
Proof. intros. unfold each. now apply nth_map_seq'. Qed.
Lemma vsum_each : forall v f, vsum (each v f) = sumn (length v) f.
Proof. intros. rewrite vsum_sumn, each_length. apply sumn_ext. intros i Hi. now rewrite each_nth. Qed.
Lemma vdot_sumn : forall a b, vdot a b = sumn (length a) (fun i => nth i a 0 * nth i b 0).
Proof. intros. unfold vdot. now rewrite vsum_each. Qed.
Lemma nth_map0 : forall (f : R -> R) v i, (i < length v)%nat -> nth i (map f v) 0 = f (nth i v 0).
Proof. intros f v i H. rewrite (nth_indep _ 0 (f 0)) by (now rewrite map_length). apply map_nth. Qed.
Lemma fractions_length : forall v, length (fractions v) = length v.
Proof. intro. unfold fractions. now rewrite map_length. Qed.
Lemma fractions_nth : forall v i, (i < length v)%nat -> nth i (fractions v) 0 = nth i v 0 / total v.
Proof. intros. unfold fractions. now apply (nth_map0 (fun r => r / total v)). Qed.
Lemma total_pos : forall v, positive v -> 0 < total v.
Proof.
  intros v (Hl & H). unfold total. destruct v as [|a v]; [simpl in Hl; lia|]. cbn [length] in *. rewrite sumn_S_l.
  pose proof (H 0%nat ltac:(lia)). pose proof (sumn_pos (length v) (fun i => nth (S i) (a :: v) 0)) as P.
  assert (0 <= sumn (length v) (fun i => nth (S i) (a :: v) 0)) by (apply P; intros i Hi; left; apply H; lia). lra.
Qed.
Lemma total_scale : forall r x, total (map (Rmult r) x) = r * total x.
Proof.
  intros. unfold total. rewrite map_length, <- sumn_scal. apply sumn_ext. intros i Hi. now apply (nth_map0 (Rmult r)).
Qed.
Lemma fractions_scale : forall r x, r <> 0 -> total x = 1 -> fractions (map (Rmult r) x) = x.
Proof.
  intros r x Hr Hx. apply list_ext; [now rewrite fractions_length, map_length|].
  rewrite fractions_length, map_length. intros i Hi. rewrite fractions_nth by (now rewrite map_length).
  rewrite total_scale, Hx, (nth_map0 (Rmult r)) by auto. field; auto.
Qed.
Lemma total_fractions : forall v, total v <> 0 -> total (fractions v) = 1.
Proof.
  intros v H. unfold total at 1. rewrite fractions_length.
  rewrite (sumn_ext _ _ (fun i => nth i v 0 * / total v)).
  - rewrite sumn_scal_r. fold (total v). now apply Rinv_r.
  - intros i Hi. now rewrite fractions_nth.
Qed.
Lemma scale_fractions : forall v, total v <> 0 -> map (Rmult (total v)) (fractions v) = v.
Proof.
  intros v H. apply list_ext; [now rewrite map_length, fractions_length|].
  rewrite map_length, fractions_length. intros i Hi. rewrite (nth_map0 (Rmult (total v))) by (now rewrite fractions_length).
  rewrite fractions_nth by auto. field; auto.
Qed.
Lemma fractions_pos : forall v, positive v -> positive (fractions v).
Proof.
  intros v P. pose proof (total_pos v P) as Ht. destruct P as (Hl & H). split; rewrite fractions_length; auto.
  intros i Hi. rewrite fractions_nth by auto. apply Rdiv_lt_0_compat; auto.
Qed.

(** ** The differentiation library *)
Section AD.
Variable ad : (list R -> R) -> list nat -> list R -> R.
Hypothesis Had : AD_exact ad.
Lemma ad_k : forall (f : R -> R) k (x : R), ex_derive_n f k x ->
  ad (fun l => match l with [t] => f t | _ => 0 end) [k] [x] = Derive_n f k x.
Proof.
  intros f k x H. rewrite Had; [reflexivity|]. split; [exact H|]. apply filter_forall. intros; exact I.
Qed.
Lemma ad_1 : forall (f : R -> R) (x l : R), is_derive f x l ->
  ad (fun l => match l with [t] => f t | _ => 0 end) [1%nat] [x] = l.
Proof.
  intros f x l H. rewrite ad_k; [|exists l; exact H]. apply (is_derive_unique f x l H).
Qed.
Lemma ad_2 : forall (f f1 : R -> R) (x d : R), locally x (fun t => is_derive f t (f1 t)) -> is_derive f1 x d ->
  ad (fun l => match l with [t] => f t | _ => 0 end) [2%nat] [x] = d.
Proof.
  intros f f1 x d H H1.
  assert (D : is_derive (Derive f) x d).
  { apply (is_derive_ext_loc f1); [|exact H1]. eapply filter_imp; [|exact H]. intros t Ht. symmetry. now apply is_derive_unique. }
  rewrite ad_k; [|exists d; exact D]. apply (is_derive_unique (Derive f) x d D).
Qed.
Lemma ad_11 : forall (f : R -> R -> R) (fy : R -> R) (x y d : R),
  locally x (fun t => is_derive (f t) y (fy t)) -> is_derive fy x d ->
  ad (fun l => match l with [a; b] => f a b | _ => 0 end) [1%nat; 1%nat] [x; y] = d.
Proof.
  intros f fy x y d H H1.
  assert (D : is_derive (fun t => Derive (fun s => f t s) y) x d).
  { apply (is_derive_ext_loc fy); [|exact H1]. eapply filter_imp; [|exact H]. intros t Ht. symmetry. now apply is_derive_unique. }
  rewrite Had; [apply (is_derive_unique _ x d D)|]. split; [exists d; exact D|].
  eapply filter_imp; [|exact H]. intros t Ht. split; [exists (fy t); exact Ht|]. apply filter_forall; intros; exact I.
Qed.
End AD.

Section P.
Variable ad : (list R -> R) -> list nat -> list R -> R.
Hypothesis Had : AD_exact ad.
Variable alphar : R -> R -> list R -> R.
Variable Rgas : list R -> R.

Notation Psir := (Psi_r alphar Rgas).

Lemma get_Psir_eq : forall T rho, get_Psir alphar Rgas T rho = Psir T rho.
Proof. intros. unfold get_Psir, Psi_r. rewrite molefrac_fractions, vsum_total. ring. Qed.

(** gradient and Hessian of the model are those of Psi_r *)
Lemma gradient_ok : forall T rho g i, gradient_at (Psir T) rho g -> (i < length rho)%nat ->
  nth i (build_Psir_gradient ad alphar Rgas T rho) 0 = nth i g 0.
Proof.
  intros T rho g i H Hi. unfold build_Psir_gradient. rewrite each_nth by auto.
  apply (ad_1 ad Had (fun r => get_Psir alphar Rgas T (upd i r rho))).
  apply (is_derive_ext (fun r => Psir T (upd i r rho))); [intro t; symmetry; apply get_Psir_eq|].
  now apply partial_derive_at.
Qed.
Lemma upd_ex : forall i k rho (t : R), ex_derive (fun s => nth k (upd i s rho) 0) t.
Proof.
  intros. destruct (Nat.eqb_spec k i) as [->|].
  - destruct (Nat.ltb_spec i (length rho)).
    + exists 1. apply (is_derive_ext (fun s => s)); [|apply is_derive_id'].
      intro s. rewrite nth_upd, Nat.eqb_refl. destruct (Nat.ltb_spec i (length rho)); [reflexivity|lia].
    + exists 0. apply (is_derive_ext (fun s => nth i rho 0)); [|apply is_derive_cst].
      intro s. rewrite nth_upd. destruct (Nat.ltb_spec i (length rho)); [lia|]. now rewrite Bool.andb_false_r.
  - exists 0. apply (is_derive_ext (fun s => nth k rho 0)); [|apply is_derive_cst].
    intro s. rewrite nth_upd. destruct (Nat.eqb_spec k i); [lia|reflexivity].
Qed.
Lemma near_upd : forall P rho i, near rho P -> locally (nth i rho 0) (fun t => P (upd i t rho)).
Proof.
  intros P rho i H. apply (near_curve P rho (fun t => upd i t rho)); auto.
  - apply upd_same.
  - intro; apply upd_length.
  - intros; apply upd_ex.
Qed.
Lemma upd_upd : forall i s t rho, upd i s (upd i t rho) = upd i s rho.
Proof. intros i s t rho. revert i. induction rho; intros [|i]; simpl; auto. now rewrite IHrho. Qed.
Lemma nth_upd_other : forall i j s rho, i <> j -> nth j (upd i s rho) 0 = nth j rho 0.
Proof. intros. rewrite nth_upd. destruct (Nat.eqb_spec j i); [lia|reflexivity]. Qed.
Lemma nth_upd_same : forall i s rho, (i < length rho)%nat -> nth i (upd i s rho) 0 = s.
Proof. intros. rewrite nth_upd, Nat.eqb_refl. destruct (Nat.ltb_spec i (length rho)); [reflexivity|lia]. Qed.

Lemma hess_entry_ok : forall T rho G H i j, twice_at (Psir T) rho G H -> (i < length rho)%nat -> (j < length rho)%nat ->
  hess_entry ad (get_Psir alphar Rgas T) rho i j = nth i (nth j H []) 0.
Proof.
  intros T rho G H i j [Hg Hr Hh Hs] Hi Hj. unfold hess_entry. destruct (Nat.eqb_spec i j) as [->|Hij].
  - apply (ad_2 ad Had (fun a => get_Psir alphar Rgas T (upd j a rho)) (fun t => nth j (G (upd j t rho)) 0)).
    + eapply filter_imp; [|apply (near_upd _ _ j Hg)]. intros t Ht. cbv beta in Ht.
      pose proof (partial_derive_at _ _ _ j Ht ltac:(now rewrite upd_length)) as D.
      rewrite nth_upd_same in D by auto.
      refine (is_derive_ext _ _ _ _ _ D). intro s. rewrite upd_upd. symmetry. apply get_Psir_eq.
    + apply (partial_derive_at _ _ _ j (Hh j Hj) Hj).
  - apply (ad_11 ad Had (fun a b => get_Psir alphar Rgas T (upd j b (upd i a rho))) (fun t => nth j (G (upd i t rho)) 0)).
    + eapply filter_imp; [|apply (near_upd _ _ i Hg)]. intros t Ht. cbv beta in Ht.
      pose proof (partial_derive_at _ _ _ j Ht ltac:(now rewrite upd_length)) as D.
      rewrite nth_upd_other in D by auto.
      refine (is_derive_ext _ _ _ _ _ D). intro s. symmetry. apply get_Psir_eq.
    + apply (partial_derive_at _ _ _ i (Hh j Hj) Hi).
Qed.
Lemma nth_map_seq_l : forall (f : nat -> list R) n i, (i < n)%nat -> nth i (map f (seq 0 n)) [] = f i.
Proof.
  intros f n i H. rewrite (nth_indep _ [] (f 0%nat)) by (now rewrite map_length, seq_length).
  rewrite map_nth, seq_nth by auto. reflexivity.
Qed.
Lemma hessian_ok : forall T rho G H i j, twice_at (Psir T) rho G H -> (i < length rho)%nat -> (j < length rho)%nat ->
  nth j (nth i (build_Psir_Hessian ad alphar Rgas T rho) []) 0 = nth j (nth i H []) 0.
Proof.
  intros T rho G H i j Ht Hi Hj. unfold build_Psir_Hessian. rewrite nth_map_seq_l, each_nth by auto.
  rewrite (hess_entry_ok T rho G H) by (auto; lia).
  destruct (Nat.le_ge_cases i j).
  - rewrite Nat.min_l, Nat.max_r by lia. apply (tw_sym _ _ _ _ Ht); auto.
  - rewrite Nat.min_r, Nat.max_l by lia. reflexivity.
Qed.
Lemma hessian_len : forall T rho, length (build_Psir_Hessian ad alphar Rgas T rho) = length rho.
Proof. intros. unfold build_Psir_Hessian. now rewrite map_length, seq_length. Qed.
Lemma hessian_row_len : forall T rho i, (i < length rho)%nat -> length (nth i (build_Psir_Hessian ad alphar Rgas T rho) []) = length rho.
Proof. intros. unfold build_Psir_Hessian. rewrite nth_map_seq_l by auto. apply each_length. Qed.
Lemma mat_vec_nth : forall T rho v i, (i < length rho)%nat ->
  nth i (mat_vec (build_Psir_Hessian ad alphar Rgas T rho) v) 0 =
  sumn (length rho) (fun j => nth j (nth i (build_Psir_Hessian ad alphar Rgas T rho) []) 0 * nth j v 0).
Proof.
  intros T rho v i Hi. unfold mat_vec.
  rewrite (nth_indep _ 0 (vdot [] v)) by (now rewrite map_length, hessian_len).
  rewrite (map_nth (fun row => vdot row v)), vdot_sumn, hessian_row_len by auto. reflexivity.
Qed.

(** ** Along the ray r x *)
Lemma Psir_ray : forall T x r, total x = 1 -> r <> 0 ->
  Psir T (map (Rmult r) x) = r * (Rgas x * T * alphar T r x).
Proof. intros. unfold Psi_r. rewrite fractions_scale, total_scale, H, Rmult_1_r by auto. reflexivity. Qed.

Lemma ray_derive0 : forall F rho g, 0 < total rho -> gradient_at F rho g ->
  is_derive (fun r => F (map (Rmult r) (fractions rho))) (total rho)
    (sumn (length rho) (fun i => nth i g 0 * nth i (fractions rho) 0)).
Proof.
  intros F rho g Ht H.
  apply (curve_derive F rho g (fun r => map (Rmult r) (fractions rho)) (fun i => nth i (fractions rho) 0)); auto.
  - apply scale_fractions; lra.
  - intro. now rewrite map_length, fractions_length.
  - intros i Hi. apply (is_derive_ext (fun s => nth i (fractions rho) 0 * s)).
    + intro s. rewrite (nth_map0 (Rmult s)) by (now rewrite fractions_length). apply Rmult_comm.
    + eapply is_derive_eq; [|apply is_derive_lin, is_derive_id']. eqR. ring.
Qed.
Lemma ray_derive : forall F rho g, positive rho -> gradient_at F rho g ->
  is_derive (fun r => F (map (Rmult r) (fractions rho))) (total rho)
    (sumn (length rho) (fun i => nth i g 0 * nth i (fractions rho) 0)).
Proof. intros F rho g P. exact (ray_derive0 F rho g (total_pos rho P)). Qed.

Definition euler (T : R) (rho g : list R) : R := sumn (length rho) (fun i => nth i rho 0 * nth i g 0) - Psir T rho.

Lemma dot_fractions : forall rho g, total rho <> 0 ->
  sumn (length rho) (fun i => nth i g 0 * nth i (fractions rho) 0) =
  sumn (length rho) (fun i => nth i rho 0 * nth i g 0) / total rho.
Proof.
  intros. unfold Rdiv. rewrite <- sumn_scal_r. apply sumn_ext. intros i Hi. rewrite fractions_nth by auto. field; auto.
Qed.

Lemma alphar_rho0 : forall T rho g, 0 < total rho -> Rgas (fractions rho) * T <> 0 -> gradient_at (Psir T) rho g ->
  is_derive (fun r => alphar T r (fractions rho)) (total rho)
    (euler T rho g / (Rgas (fractions rho) * T * total rho ^ 2)).
Proof.
  intros T rho g Ht HRT H.
  set (RT := Rgas (fractions rho) * T) in *.
  apply (is_derive_loc (fun r => / RT * (Psir T (map (Rmult r) (fractions rho)) * / r))).
  - eapply filter_imp; [|apply (locally_pos _ Ht)]. intros r Hr.
    rewrite Psir_ray by (try lra; apply total_fractions; lra). unfold RT in *. field. split; [lra|].
    split; intro E; apply HRT; rewrite E; ring.
  - assert (D : is_derive (fun r => / r) (total rho) (- / total rho ^ 2)).
    { auto_derive; [lra|]. field. lra. }
    eapply is_derive_eq; [|apply is_derive_lin, is_derive_mult'; [apply (ray_derive0 (Psir T) rho g Ht H)|exact D]].
    eqR. rewrite dot_fractions by lra. rewrite scale_fractions by lra. unfold euler. field. split; [lra|exact HRT].
Qed.
Lemma alphar_rho : forall T rho g, positive rho -> Rgas (fractions rho) * T <> 0 -> gradient_at (Psir T) rho g ->
  is_derive (fun r => alphar T r (fractions rho)) (total rho)
    (euler T rho g / (Rgas (fractions rho) * T * total rho ^ 2)).
Proof. intros T rho g P. exact (alphar_rho0 T rho g (total_pos rho P)). Qed.
Lemma Ar01_ok : forall T rho g, positive rho -> Rgas (fractions rho) * T <> 0 -> gradient_at (Psir T) rho g ->
  get_Agenxy ad alphar 0 1 T (total rho) (fractions rho) = euler T rho g / (Rgas (fractions rho) * T * total rho).
Proof.
  intros T rho g P HRT H. pose proof (total_pos rho P) as Ht. simpl.
  rewrite (ad_1 ad Had _ _ _ (alphar_rho T rho g P HRT H)). field. split; [lra|].
  split; intro E; apply HRT; rewrite E; ring.
Qed.

Lemma get_pr_ok : forall T rho g, positive rho -> Rgas (fractions rho) * T <> 0 -> gradient_at (Psir T) rho g ->
  get_pr ad alphar Rgas T rho = euler T rho g.
Proof.
  intros T rho g P HRT H. pose proof (total_pos rho P) as Ht. unfold get_pr.
  rewrite vsum_total, molefrac_fractions.
  rewrite (ad_1 ad Had _ _ _ (alphar_rho T rho g P HRT H)). field. split; [lra|].
  split; intro E; apply HRT; rewrite E; ring.
Qed.
Lemma p_of_ok0 : forall T rho g, 0 < total rho -> Rgas (fractions rho) * T <> 0 -> gradient_at (Psir T) rho g ->
  p_of alphar Rgas T rho = total rho * Rgas (fractions rho) * T + euler T rho g.
Proof.
  intros T rho g Ht HRT H. unfold p_of, th_p.
  assert (E : Derive (fun r => Rgas (fractions rho) * T * (ln r + alphar T r (fractions rho))) (total rho) =
     Rgas (fractions rho) * T * (/ total rho + euler T rho g / (Rgas (fractions rho) * T * total rho ^ 2))).
  { apply is_derive_unique. apply is_derive_lin, is_derive_plus'; [|now apply alphar_rho0].
    auto_derive; [lra|]. field. lra. }
  rewrite E. field. split; [lra|]. split; intro E'; apply HRT; rewrite E'; ring.
Qed.
Lemma p_of_ok : forall T rho g, positive rho -> Rgas (fractions rho) * T <> 0 -> gradient_at (Psir T) rho g ->
  p_of alphar Rgas T rho = total rho * Rgas (fractions rho) * T + euler T rho g.
Proof. intros T rho g P. exact (p_of_ok0 T rho g (total_pos rho P)). Qed.

(** isochoric Ar01 *)
Lemma iso_Ar01_ok : forall T rho g, positive rho -> gradient_at (iso_Ar00 alphar T) rho g ->
  iso_Ar01 ad alphar T rho = get_Agenxy ad alphar 0 1 T (total rho) (fractions rho).
Proof.
  intros T rho g P H. pose proof (total_pos rho P) as Ht. unfold iso_Ar01. rewrite vsum_each.
  assert (D : is_derive (fun r => alphar T r (fractions rho)) (total rho) (sumn (length rho) (fun i => nth i g 0 * nth i (fractions rho) 0))).
  { apply (is_derive_loc (fun r => iso_Ar00 alphar T (map (Rmult r) (fractions rho)))).
    - eapply filter_imp; [|apply (locally_pos _ Ht)]. intros r Hr. unfold iso_Ar00.
      rewrite vsum_total, molefrac_fractions, total_scale, total_fractions, Rmult_1_r by lra.
      rewrite fractions_scale; [reflexivity|lra|apply total_fractions; lra].
    - apply ray_derive; auto. }
  simpl. rewrite (ad_1 ad Had _ _ _ D). rewrite dot_fractions by lra.
  rewrite (sumn_ext _ _ (fun i => nth i rho 0 * nth i g 0)); [field; lra|].
  intros i Hi. f_equal. apply (ad_1 ad Had (fun r => iso_Ar00 alphar T (upd i r rho))). now apply partial_derive_at.
Qed.

(** residual entropy *)
Lemma splus_ok : forall T rho a, T <> 0 -> is_derive (fun t => alphar t (total rho) (fractions rho)) T a ->
  iso_Ar10 ad alphar T rho = - T * a /\ get_splus ad alphar T rho = alphar T (total rho) (fractions rho) + T * a.
Proof.
  intros T rho a HT H. assert (E : iso_Ar10 ad alphar T rho = - T * a).
  { unfold iso_Ar10. rewrite vsum_total, molefrac_fractions. f_equal.
    apply (ad_1 ad Had (fun t => alphar t (total rho) (fractions rho))). exact H. }
  split; auto. unfold get_splus. rewrite E, vsum_total, molefrac_fractions. ring.
Qed.

(** ** Constant gas constant: concentration derivatives *)
Section ConstR.
Variable Rg : R.
Hypothesis HR : forall x, Rgas x = Rg.
Hypothesis HRpos : Rg <> 0.

Lemma positive_near : forall rho, positive rho -> near rho positive.
Proof.
  intros rho (Hl & H). eapply near_imp; [|apply (near_pos rho H)]. intros y Hy Py. split; [lia|exact Py].
Qed.

Lemma gradient_sumn : forall m (F : nat -> list R -> R) x (g : nat -> list R),
  (forall j, (j < m)%nat -> gradient_at (F j) x (g j)) ->
  gradient_at (fun y => sumn m (fun j => F j y)) x (map (fun i => sumn m (fun j => nth i (g j) 0)) (seq 0 (length x))).
Proof.
  induction m; intros F x g H; simpl.
  - eapply gradient_ext; [| | |apply gradient_const].
    + intros; reflexivity.
    + now rewrite map_length, seq_length.
    + intros i Hi. now rewrite nth_map_seq', nth_repeat by auto.
  - eapply gradient_ext; [| | |apply (gradient_plus _ _ _ _ _ (IHm F x g ltac:(intros; apply H; lia)) (H m ltac:(lia)))].
    + intros; reflexivity.
    + now rewrite map_length, seq_length.
    + intros i Hi. now rewrite !nth_map_seq' by auto.
Qed.
Lemma gradient_proj : forall k x, (k < length x)%nat ->
  gradient_at (fun y => nth k y 0) x (map (fun i => if Nat.eqb i k then 1 else 0) (seq 0 (length x))).
Proof.
  intros k x Hk. eapply gradient_ext; [| | |apply (gradient_lin (fun i => if Nat.eqb i k then 1 else 0))].
  - intros y Hy. cbv beta. rewrite (sumn_ext _ _ (fun i => if Nat.eqb i k then nth i y 0 else 0)).
    + now apply (sumn_delta (length x) k (fun i => nth i y 0)).
    + intros i _. destruct (Nat.eqb i k); ring.
  - now rewrite map_length, seq_length.
  - reflexivity.
Qed.

Lemma p_gradient : forall T rho G H, T <> 0 -> positive rho -> twice_at (Psir T) rho G H ->
  gradient_at (p_of alphar Rgas T) rho
    (map (fun i => Rg * T + sumn (length rho) (fun j => nth i (nth j H []) 0 * nth j rho 0)) (seq 0 (length rho))).
Proof.
  intros T rho G H HT P Ht. destruct Ht as [Hg Hr Hh Hs].
  assert (HRT : forall x, Rgas x * T <> 0) by (intro; rewrite HR; now apply Rmult_integral_contrapositive).
  apply (gradient_ext_near (fun y => sumn (length rho) (fun i => (Rg * T) * nth i y 0) +
     (sumn (length rho) (fun j => nth j y 0 * nth j (G y) 0) + -1 * Psir T y))).
  - eapply near_imp; [|apply (near_and _ _ _ Hg (positive_near rho P))]. intros y Hy (Gy & Py).
    rewrite (p_of_ok T y (G y) Py (HRT _) Gy). unfold euler. rewrite Hy, HR, sumn_scal. unfold total. rewrite Hy. ring.
  - pose proof (near_self _ _ Hg) as G0. cbv beta in G0.
    assert (Hprod : forall j, (j < length rho)%nat -> gradient_at (fun y => nth j y 0 * nth j (G y) 0) rho
       (map (fun i => nth i (map (fun i => if Nat.eqb i j then 1 else 0) (seq 0 (length rho))) 0 * nth j (G rho) 0 + nth j rho 0 * nth i (nth j H []) 0) (seq 0 (length rho)))).
    { intros j Hj. apply (gradient_mult (fun y => nth j y 0) (fun y => nth j (G y) 0)); [now apply gradient_proj|now apply Hh]. }
    assert (Hneg : gradient_at (fun y => -1 * Psir T y) rho (map (fun i => -1 * nth i (G rho) 0) (seq 0 (length rho)))).
    { apply (gradient_comp (fun s => -1 * s) (Psir T)); auto. eapply is_derive_eq; [|apply is_derive_lin, is_derive_id']. eqR; ring. }
    eapply gradient_ext; [| | |apply gradient_plus; [apply gradient_lin|apply gradient_plus; [apply (gradient_sumn _ _ _ _ Hprod)|exact Hneg]]].
    + intros; reflexivity.
    + now rewrite map_length, seq_length.
    + intros i Hi. rewrite !nth_map_seq' by auto.
      rewrite (sumn_ext _ (fun j => nth i (map _ (seq 0 (length rho))) 0)
        (fun j => (if Nat.eqb j i then nth j (G rho) 0 else 0) + nth i (nth j H []) 0 * nth j rho 0)).
      * rewrite sumn_plus, (sumn_delta (length rho) i (fun j => nth j (G rho) 0)) by auto. ring.
      * intros j Hj. rewrite !nth_map_seq' by auto. rewrite (Nat.eqb_sym j i). destruct (Nat.eqb i j); ring.
Qed.

Lemma dpdrho_nth : forall T rho G H i, twice_at (Psir T) rho G H -> (i < length rho)%nat ->
  nth i (get_dpdrhovec_constT ad alphar Rgas T rho) 0 =
  Rg * T + sumn (length rho) (fun j => nth i (nth j H []) 0 * nth j rho 0).
Proof.
  intros T rho G H i Ht Hi. unfold get_dpdrhovec_constT.
  rewrite (nth_map0 (fun h => Rgas (molefrac_of rho) * T + h)).
  2: { unfold mat_vec. now rewrite map_length, hessian_len. }
  rewrite mat_vec_nth, HR by auto. f_equal. apply sumn_ext. intros j Hj.
  rewrite (hessian_ok T rho G H) by auto. f_equal. apply (tw_sym _ _ _ _ Ht); auto.
Qed.
Lemma dpdrho_len : forall T rho, length (get_dpdrhovec_constT ad alphar Rgas T rho) = length rho.
Proof. intros. unfold get_dpdrhovec_constT, mat_vec. now rewrite !map_length, hessian_len. Qed.

Lemma dpdrho_ok : forall T rho, T <> 0 -> positive rho -> smooth_rho alphar Rgas T rho ->
  gradient_at (p_of alphar Rgas T) rho (get_dpdrhovec_constT ad alphar Rgas T rho).
Proof.
  intros T rho HT P (G & H & Ht). eapply gradient_ext; [intros; reflexivity| | |apply (p_gradient T rho G H HT P Ht)].
  - apply dpdrho_len.
  - intros i Hi. rewrite nth_map_seq' by auto. symmetry. now apply (dpdrho_nth T rho G H).
Qed.

(** chemical potentials *)
Lemma chempot_nth : forall T rho g i, gradient_at (Psir T) rho g -> (i < length rho)%nat ->
  nth i (get_chempotVLE ad alphar Rgas T rho) 0 = nth i g 0 + Rg * T * (1 + ln (nth i rho 0)).
Proof.
  intros. unfold get_chempotVLE. rewrite each_nth, HR, (gradient_ok T rho g) by auto.
  replace (nth i rho 0 / 1) with (nth i rho 0) by field. reflexivity.
Qed.
Lemma gradient_ln : forall k x, (k < length x)%nat -> 0 < nth k x 0 ->
  gradient_at (fun y => ln (nth k y 0)) x (map (fun i => / nth k x 0 * (if Nat.eqb i k then 1 else 0)) (seq 0 (length x))).
Proof.
  intros k x Hk Hp. eapply gradient_ext; [| | |apply (gradient_comp ln (fun y => nth k y 0) x _ (/ nth k x 0) (gradient_proj k x Hk))].
  - reflexivity.
  - now rewrite map_length, seq_length.
  - intros i Hi. now rewrite !nth_map_seq' by auto.
  - apply is_derive_Reals. now apply derivable_pt_lim_ln.
Qed.
Lemma chempot_is_gradient : forall T rho g, positive rho -> gradient_at (Psir T) rho g ->
  gradient_at (Psi alphar Rgas T) rho (get_chempotVLE ad alphar Rgas T rho).
Proof.
  intros T rho g P H.
  assert (Hk : forall k, (k < length rho)%nat -> gradient_at (fun y => nth k y 0 * ln (nth k y 0)) rho
    (map (fun i => nth i (map (fun i => if Nat.eqb i k then 1 else 0) (seq 0 (length rho))) 0 * ln (nth k rho 0) +
       nth k rho 0 * nth i (map (fun i => / nth k rho 0 * (if Nat.eqb i k then 1 else 0)) (seq 0 (length rho))) 0) (seq 0 (length rho)))).
  { intros k Hk. apply (gradient_mult (fun y => nth k y 0) (fun y => ln (nth k y 0))); [now apply gradient_proj|].
    apply gradient_ln; auto. apply P; auto. }
  pose proof (gradient_sumn _ _ _ _ Hk) as HS.
  assert (D : is_derive (fun s => Rg * T * s) (sumn (length rho) (fun k => nth k rho 0 * ln (nth k rho 0))) (Rg * T)).
  { eapply is_derive_eq; [|apply is_derive_lin, is_derive_id']. eqR; ring. }
  pose proof (gradient_plus _ _ _ _ _ H (gradient_comp _ _ _ _ _ HS D)) as HP.
  eapply gradient_ext; [| | |exact HP].
  - intros y Hy. cbv beta. unfold Psi. now rewrite HR, Hy.
  - unfold get_chempotVLE. apply each_length.
  - intros i Hi. rewrite (chempot_nth T rho g) by auto. rewrite !nth_map_seq' by auto.
    rewrite (sumn_ext _ (fun j => nth i (map _ (seq 0 (length rho))) 0)
      (fun j => if Nat.eqb j i then 1 + ln (nth j rho 0) else 0)).
    + rewrite (sumn_delta (length rho) i (fun j => 1 + ln (nth j rho 0))) by auto. reflexivity.
    + intros j Hj. rewrite !nth_map_seq' by auto. rewrite (Nat.eqb_sym j i).
      pose proof (proj2 P j Hj). destruct (Nat.eqb i j); field; lra.
Qed.
Lemma Psi_Hessian_row : forall T rho G H i, positive rho -> twice_at (Psir T) rho G H -> (i < length rho)%nat ->
  gradient_at (fun y => nth i (get_chempotVLE ad alphar Rgas T y) 0) rho (nth i (build_Psi_Hessian ad alphar Rgas T rho) []).
Proof.
  intros T rho G H i P Ht Hi. pose proof Ht as [Hg Hr Hh Hs].
  apply (gradient_ext_near (fun y => nth i (G y) 0 + (Rg * T) * (1 + ln (nth i y 0)))).
  - eapply near_imp; [|exact Hg]. intros y Hy Gy. symmetry. rewrite (chempot_nth T y (G y)) by (auto; lia). reflexivity.
  - assert (D : is_derive (fun s => Rg * T * (1 + s)) (ln (nth i rho 0)) (Rg * T)).
    { eapply is_derive_eq; [|apply is_derive_lin, is_derive_plus'; [apply is_derive_cst|apply is_derive_id']]. eqR; ring. }
    pose proof (gradient_plus _ _ _ _ _ (Hh i Hi) (gradient_comp (fun s => Rg * T * (1 + s)) _ _ _ _ (gradient_ln i rho Hi (proj2 P i Hi)) D)) as HP.
    eapply gradient_ext; [| | |exact HP].
    + reflexivity.
    + unfold build_Psi_Hessian. rewrite nth_map_seq_l by auto. apply each_length.
    + intros j Hj. unfold build_Psi_Hessian. rewrite nth_map_seq_l, each_nth by auto.
      rewrite (hessian_ok T rho G H) by auto. rewrite !nth_map_seq' by auto. rewrite HR.
      pose proof (proj2 P i Hi). rewrite (Nat.eqb_sym i j). destruct (Nat.eqb j i); field; lra.
Qed.

(** Gibbs-Duhem at constant temperature *)
Lemma gibbs_duhem_rho : forall T rho G H i, positive rho -> twice_at (Psir T) rho G H -> (i < length rho)%nat ->
  nth i (get_dpdrhovec_constT ad alphar Rgas T rho) 0 =
  sumn (length rho) (fun j => nth j rho 0 * nth i (nth j (build_Psi_Hessian ad alphar Rgas T rho) []) 0).
Proof.
  intros T rho G H i P Ht Hi. rewrite (dpdrho_nth T rho G H) by auto.
  rewrite (sumn_ext _ (fun j => nth j rho 0 * _) (fun j => (if Nat.eqb j i then Rg * T else 0) + nth i (nth j H []) 0 * nth j rho 0)).
  - rewrite sumn_plus, (sumn_delta (length rho) i (fun _ => Rg * T)) by auto. reflexivity.
  - intros j Hj. unfold build_Psi_Hessian. rewrite nth_map_seq_l, each_nth by auto. rewrite (hessian_ok T rho G H), HR by auto.
    pose proof (proj2 P j Hj). destruct (Nat.eqb j i); field; lra.
Qed.

(** ** Second density derivative at constant composition *)
Lemma near_ray : forall (P : list R -> Prop) rho, positive rho -> near rho P ->
  locally (total rho) (fun r => P (map (Rmult r) (fractions rho))).
Proof.
  intros P rho Pos N. pose proof (total_pos rho Pos) as Ht.
  apply (near_curve P rho (fun r => map (Rmult r) (fractions rho))); auto.
  - apply scale_fractions; lra.
  - intro. now rewrite map_length, fractions_length.
  - intros i Hi. exists (nth i (fractions rho) 0). apply (is_derive_ext (fun s => nth i (fractions rho) 0 * s)).
    + intro s. rewrite (nth_map0 (Rmult s)) by (now rewrite fractions_length). apply Rmult_comm.
    + eapply is_derive_eq; [|apply is_derive_lin, is_derive_id']. eqR. ring.
Qed.

(** the derivatives of alphar along the density: first, and second from the pressure gradient *)
Lemma alphar_rho2 : forall T rho G H, T <> 0 -> positive rho -> twice_at (Psir T) rho G H ->
  exists a1 a2, locally (total rho) (fun r => is_derive (fun r => alphar T r (fractions rho)) r (a1 r)) /\
    is_derive a1 (total rho) a2 /\
    a1 (total rho) = euler T rho (G rho) / (Rg * T * total rho ^ 2) /\
    Rg * T * (1 + 2 * (total rho * a1 (total rho)) + total rho ^ 2 * a2) =
      sumn (length rho) (fun i => nth i (get_dpdrhovec_constT ad alphar Rgas T rho) 0 * nth i (fractions rho) 0).
Proof.
  intros T rho G H HT P Ht. pose proof (total_pos rho P) as Hp. pose proof Ht as [Hg Hr Hh Hs].
  assert (HRT : Rg * T <> 0) by (now apply Rmult_integral_contrapositive).
  set (x := fractions rho).
  assert (Hx : total x = 1) by (apply total_fractions; lra).
  assert (Hpx : positive x) by (now apply fractions_pos).
  assert (Hpr : forall r, 0 < r -> positive (map (Rmult r) x)).
  { intros r Hr0. destruct Hpx as (L1 & L2). split; rewrite map_length; auto. intros i Hi.
    rewrite (nth_map0 (Rmult r)) by auto. apply Rmult_lt_0_compat; auto. }
  set (a1 := fun r => (p_of alphar Rgas T (map (Rmult r) x) - r * Rg * T) * / (Rg * T * (r * r))).
  assert (L : locally (total rho) (fun r => is_derive (fun r => alphar T r x) r (a1 r))).
  { pose proof (near_ray _ rho P Hg) as N. fold x in N.
    eapply filter_imp; [|apply (filter_and _ _ (locally_pos _ Hp) N)]. intros r (Hr0 & Gr).
    pose proof (alphar_rho T _ _ (Hpr r Hr0) ltac:(now rewrite HR) Gr) as D.
    pose proof (p_of_ok T _ _ (Hpr r Hr0) ltac:(now rewrite HR) Gr) as E.
    rewrite fractions_scale, total_scale, Hx, Rmult_1_r in D by (auto; lra).
    rewrite total_scale, Hx, Rmult_1_r in E.
    eapply is_derive_eq; [|exact D]. eqR. unfold a1. rewrite E, !HR. field. split; [lra|]. split; [exact HT|exact HRpos]. }
  pose proof (dpdrho_ok T rho HT P (ex_intro _ G (ex_intro _ H Ht))) as Dp.
  pose proof (ray_derive _ rho _ P Dp) as Dr. fold x in Dr.
  set (S := sumn (length rho) (fun i => nth i (get_dpdrhovec_constT ad alphar Rgas T rho) 0 * nth i x 0)) in *.
  pose proof (p_of_ok T rho (G rho) P ltac:(now rewrite HR) (near_self _ _ Hg)) as E0. rewrite HR in E0.
  assert (Er : map (Rmult (total rho)) x = rho) by (apply scale_fractions; lra).
  exists a1, ((S - Rg * T) * / (Rg * T * (total rho * total rho)) +
     (p_of alphar Rgas T rho - total rho * Rg * T) * (- 2 / (Rg * T * (total rho * total rho * total rho)))).
  split; [exact L|]. split; [|split].
  - unfold a1.
    eapply is_derive_eq; [|apply (is_derive_mult' (fun r => p_of alphar Rgas T (map (Rmult r) x) - r * Rg * T) (fun r => / (Rg * T * (r * r))));
      [apply is_derive_minus'; [exact Dr|]|]].
    + eqR. rewrite Er. reflexivity.
    + apply (is_derive_ext (fun r => Rg * T * r)); [intro; eqR; ring|]. eapply is_derive_eq; [|apply is_derive_lin, is_derive_id']. eqR; ring.
    + auto_derive; [repeat apply Rmult_integral_contrapositive_currified; auto; lra|]. field. split; [lra|]. split; auto.
  - unfold a1. rewrite Er, E0. eqR. field. split; [lra|]. split; auto.
  - unfold a1. rewrite Er. fold S. eqR. field. split; [lra|]. split; auto.
Qed.

Lemma Ar0n_ok : forall T rho G H, T <> 0 -> positive rho -> twice_at (Psir T) rho G H ->
  Rg * T * (1 + 2 * get_Agenxy ad alphar 0 1 T (total rho) (fractions rho) + get_Agenxy ad alphar 0 2 T (total rho) (fractions rho)) =
      sumn (length rho) (fun i => nth i (get_dpdrhovec_constT ad alphar Rgas T rho) 0 * nth i (fractions rho) 0).
Proof.
  intros T rho G H HT P Ht. destruct (alphar_rho2 T rho G H HT P Ht) as (a1 & a2 & L & D & E1 & E2).
  rewrite <- E2. pose proof (locally_singleton _ _ L) as L0. cbv beta in L0.
  unfold get_Agenxy. rewrite (ad_1 ad Had _ _ _ L0). rewrite (ad_2 ad Had _ _ _ _ L D).
  rewrite pow_1. reflexivity.
Qed.

Lemma pmv_nth : forall T rho i, (i < length rho)%nat ->
  nth i (get_partial_molar_volumes ad alphar Rgas T rho) 0 =
  - total rho * nth i (get_dpdrhovec_constT ad alphar Rgas T rho) 0 /
    (- (total rho * total rho) * (Rg * T) * (1 + 2 * get_Agenxy ad alphar 0 1 T (total rho) (fractions rho) + get_Agenxy ad alphar 0 2 T (total rho) (fractions rho))).
Proof.
  intros T rho i Hi. unfold get_partial_molar_volumes. rewrite vsum_total, molefrac_fractions, HR.
  rewrite (nth_map0 (fun dp => - total rho * dp / _)) by (now rewrite dpdrho_len). reflexivity.
Qed.
Lemma pmv_simple : forall T rho G H i, T <> 0 -> positive rho -> twice_at (Psir T) rho G H -> (i < length rho)%nat ->
  let dp := get_dpdrhovec_constT ad alphar Rgas T rho in
  let S := sumn (length rho) (fun i => nth i dp 0 * nth i rho 0) in
  S <> 0 -> nth i (get_partial_molar_volumes ad alphar Rgas T rho) 0 = nth i dp 0 / S.
Proof.
  intros T rho G H i HT P Ht Hi dp S HS. pose proof (total_pos rho P) as Hp.
  rewrite pmv_nth by auto. fold dp.
  pose proof (Ar0n_ok T rho G H HT P Ht) as E. fold dp in E.
  rewrite dot_fractions in E by lra. 
  assert (E' : sumn (length rho) (fun i => nth i rho 0 * nth i dp 0) = S).
  { apply sumn_ext. intros; ring. }
  rewrite E' in E. set (W := 1 + _ + _) in *.
  replace (- (total rho * total rho) * (Rg * T) * W) with (- (total rho * total rho) * (Rg * T * W)) by ring.
  rewrite E. field. lra.
Qed.

(** ** Partial molar volumes: dV/dn_i at constant T, p *)
Lemma pmv_meaning : forall T rho i (n : list R) (V : R -> R) V', T <> 0 -> positive rho -> smooth_rho alphar Rgas T rho ->
  (i < length rho)%nat -> length n = length rho -> 0 < V (nth i n 0) ->
  rho = map (fun m => m / V (nth i n 0)) n ->
  is_derive V (nth i n 0) V' ->
  (locally (nth i n 0) (fun t => p_of alphar Rgas T (map (fun m => m / V t) (upd i t n)) = p_of alphar Rgas T rho)) ->
  sumn (length rho) (fun i => nth i (get_dpdrhovec_constT ad alphar Rgas T rho) 0 * nth i rho 0) <> 0 ->
  V' = nth i (get_partial_molar_volumes ad alphar Rgas T rho) 0.
Proof.
  intros T rho i n V V' HT P (G & H & Ht) Hi Hn HV Hrho HdV Hp HS.
  rewrite (pmv_simple T rho G H i HT P Ht Hi HS).
  set (dp := get_dpdrhovec_constT ad alphar Rgas T rho) in *.
  set (V0 := V (nth i n 0)) in *.
  assert (Hnth : forall k, (k < length rho)%nat -> nth k rho 0 = nth k n 0 / V0).
  { intros k Hk. rewrite Hrho. apply (nth_map0 (fun m => m / V0)). lia. }
  assert (C : is_derive (fun t => p_of alphar Rgas T (map (fun m => m / V t) (upd i t n))) (nth i n 0)
     (sumn (length rho) (fun k => nth k dp 0 * ((if Nat.eqb k i then 1 else 0) / V0 - nth k rho 0 * V' / V0)))).
  { apply (curve_derive (p_of alphar Rgas T) rho dp (fun t => map (fun m => m / V t) (upd i t n))).
    - apply dpdrho_ok; auto. now exists G, H.
    - rewrite upd_same. now rewrite Hrho.
    - intro s. now rewrite map_length, upd_length.
    - intros k Hk.
      apply (is_derive_ext (fun s => nth k (upd i s n) 0 * / V s)).
      { intro s. symmetry. apply (nth_map0 (fun m => m / V s)). rewrite upd_length. lia. }
      assert (DV : is_derive (fun s => / V s) (nth i n 0) (- V' / V0 ^ 2)).
      { apply (is_derive_inv V); auto. fold V0. lra. }
      assert (Du : is_derive (fun s => nth k (upd i s n) 0) (nth i n 0) (if Nat.eqb k i then 1 else 0)).
      { destruct (Nat.eqb_spec k i) as [->|].
        - apply (is_derive_ext (fun s => s)); [intro s; symmetry; apply nth_upd_same; lia|apply is_derive_id'].
        - apply (is_derive_ext (fun s => nth k n 0)); [intro s; symmetry; apply nth_upd_other; lia|apply is_derive_cst]. }
      eapply is_derive_eq; [|apply is_derive_mult'; [exact Du|exact DV]]. eqR. rewrite upd_same, (Hnth k Hk). fold V0.
      destruct (Nat.eqb k i); field; lra. }
  assert (Z : is_derive (fun t => p_of alphar Rgas T (map (fun m => m / V t) (upd i t n))) (nth i n 0) 0).
  { apply (is_derive_loc (fun _ => p_of alphar Rgas T rho)); [exact Hp|apply is_derive_cst]. }
  pose proof (is_derive_unique _ _ _ C) as U1. pose proof (is_derive_unique _ _ _ Z) as U2. rewrite U2 in U1. clear U2.
  rewrite (sumn_ext _ _ (fun k => (if Nat.eqb k i then nth k dp 0 / V0 else 0) - nth k dp 0 * nth k rho 0 * (V' / V0))) in U1.
  - rewrite sumn_minus, (sumn_delta (length rho) i (fun k => nth k dp 0 / V0)), sumn_scal_r in U1 by auto.
    set (S := sumn _ _) in *. apply Rmult_eq_reg_r with (S / V0).
    + replace (nth i dp 0 / S * (S / V0)) with (nth i dp 0 / V0) by (field; split; auto; lra).
      replace (V' * (S / V0)) with (S * (V' / V0)) by (field; lra). lra.
    + apply Rmult_integral_contrapositive. split; auto. apply Rinv_neq_0_compat. lra.
  - intros k Hk. destruct (Nat.eqb k i); field; lra.
Qed.

(** ** Fugacities *)
Lemma Z_ok : forall T rho g, T <> 0 -> positive rho -> gradient_at (Psir T) rho g ->
  1 + get_Agenxy ad alphar 0 1 T (total rho) (fractions rho) = p_of alphar Rgas T rho / (total rho * Rg * T).
Proof.
  intros T rho g HT P H. pose proof (total_pos rho P) as Hp.
  assert (HRT : Rgas (fractions rho) * T <> 0) by (rewrite HR; now apply Rmult_integral_contrapositive).
  rewrite (Ar01_ok T rho g P HRT H), (p_of_ok T rho g P HRT H), HR. field. split; [exact HT|]. split; [exact HRpos|lra].
Qed.
Lemma lnphi_nth : forall T rho g i, gradient_at (Psir T) rho g -> (i < length rho)%nat ->
  nth i (get_ln_fugacity_coefficients ad alphar Rgas T rho) 0 =
  nth i g 0 / (Rg * T) - ln (1 + get_Agenxy ad alphar 0 1 T (total rho) (fractions rho)).
Proof.
  intros. unfold get_ln_fugacity_coefficients. rewrite each_nth, vsum_total, molefrac_fractions, HR by auto.
  now rewrite (gradient_ok T rho g).
Qed.
Lemma fugacity_ok : forall T rho g i, 0 < Rg * T -> positive rho -> gradient_at (Psir T) rho g -> (i < length rho)%nat ->
  0 < p_of alphar Rgas T rho ->
  nth i (fractions rho) 0 * nth i (get_fugacity_coefficients ad alphar Rgas T rho) 0 * p_of alphar Rgas T rho =
  nth i rho 0 * (Rg * T) * exp (nth i g 0 / (Rg * T)).
Proof.
  intros T rho g i HRT P H Hi Hpp. pose proof (total_pos rho P) as Hp.
  assert (HT : T <> 0) by (intro E; rewrite E in HRT; lra).
  unfold get_fugacity_coefficients. rewrite (nth_map0 exp).
  2: { unfold get_ln_fugacity_coefficients. now rewrite each_length. }
  rewrite (lnphi_nth T rho g i H Hi), (Z_ok T rho g HT P H). unfold Rminus. rewrite exp_plus, exp_Ropp, exp_ln.
  - rewrite fractions_nth by auto. field. lra.
  - replace (total rho * Rg * T) with (total rho * (Rg * T)) by ring. apply Rdiv_lt_0_compat; auto. now apply Rmult_lt_0_compat.
Qed.

(** ** Temperature derivatives *)
Lemma d2PsirdT_ok : forall T rho (G : R -> list R) dG i, locally T (fun t => gradient_at (Psir t) rho (G t)) ->
  (i < length rho)%nat -> is_derive (fun t => nth i (G t) 0) T dG ->
  nth i (build_d2PsirdTdrhoi ad alphar Rgas T rho) 0 = dG.
Proof.
  intros T rho G dG i L Hi D. unfold build_d2PsirdTdrhoi. rewrite each_nth by auto.
  apply (ad_11 ad Had (fun t r => get_Psir alphar Rgas t (upd i r rho)) (fun t => nth i (G t) 0)); auto.
  eapply filter_imp; [|exact L]. intros t Ht. cbv beta in Ht.
  refine (is_derive_ext _ _ _ _ _ (partial_derive_at _ _ _ i Ht Hi)). intro s. symmetry. apply get_Psir_eq.
Qed.
Lemma dPsirdT_ok : forall T rho d, is_derive (fun t => Psir t rho) T d -> get_dPsirdT ad alphar Rgas T rho = d.
Proof.
  intros T rho d H. unfold get_dPsirdT. rewrite vsum_total, molefrac_fractions.
  apply (ad_1 ad Had (fun t => total rho * Rgas (fractions rho) * t * alphar t (total rho) (fractions rho))).
  refine (is_derive_ext _ _ _ _ _ H). intro t. unfold Psi_r. eqR. ring.
Qed.
Lemma euler_T : forall T rho (G : R -> list R) dF dG,
  is_derive (fun t => Psir t rho) T dF -> (forall i, (i < length rho)%nat -> is_derive (fun t => nth i (G t) 0) T (dG i)) ->
  is_derive (fun t => euler t rho (G t)) T (sumn (length rho) (fun i => nth i rho 0 * dG i) - dF).
Proof.
  intros. unfold euler. apply is_derive_minus'; auto.
  apply (is_derive_sumn (length rho) (fun i t => nth i rho 0 * nth i (G t) 0)). intros i Hi. apply is_derive_lin. auto.
Qed.
Lemma dpdT_ok : forall T rho, 0 < T -> positive rho -> smooth_T alphar Rgas T rho ->
  is_derive (fun t => p_of alphar Rgas t rho) T (get_dpdT_constrhovec ad alphar Rgas T rho).
Proof.
  intros T rho HT P (G & dF & dG & L & DF & DG). pose proof (total_pos rho P) as Hp.
  apply (is_derive_loc (fun t => total rho * Rg * t + euler t rho (G t))).
  - eapply filter_imp; [|apply (filter_and _ _ (locally_pos T HT) L)]. intros t (Ht & Lt).
    rewrite (p_of_ok t rho (G t) P) by (auto; rewrite HR; apply Rmult_integral_contrapositive; split; auto; lra).
    now rewrite HR.
  - eapply is_derive_eq; [|apply is_derive_plus'; [apply is_derive_lin, is_derive_id'|apply (euler_T T rho G dF dG DF DG)]].
    eqR. unfold get_dpdT_constrhovec. rewrite vsum_total, HR, (dPsirdT_ok T rho dF DF), vdot_sumn.
    rewrite (sumn_ext _ (fun i => nth i rho 0 * nth i (build_d2PsirdTdrhoi ad alphar Rgas T rho) 0) (fun i => nth i rho 0 * dG i)); [ring|].
    intros i Hi. f_equal. apply (d2PsirdT_ok T rho G (dG i) i L Hi (DG i Hi)).
Qed.
Lemma dchempotdT_ok : forall T rho i, positive rho -> smooth_T alphar Rgas T rho -> (i < length rho)%nat ->
  is_derive (fun t => nth i (get_chempotVLE ad alphar Rgas t rho) 0) T (nth i (get_dchempotdT ad alphar Rgas T rho) 0).
Proof.
  intros T rho i P (G & dF & dG & L & DF & DG) Hi.
  apply (is_derive_loc (fun t => nth i (G t) 0 + Rg * (1 + ln (nth i rho 0)) * t)).
  - eapply filter_imp; [|exact L]. intros t Lt. rewrite (chempot_nth t rho (G t) i Lt Hi). ring.
  - eapply is_derive_eq; [|apply is_derive_plus'; [apply (DG i Hi)|apply is_derive_lin, is_derive_id']].
    eqR. unfold get_dchempotdT. rewrite each_nth, HR by auto. rewrite (d2PsirdT_ok T rho G (dG i) i L Hi (DG i Hi)).
    replace (nth i rho 0 / 1) with (nth i rho 0) by field. ring.
Qed.
Lemma gibbs_duhem_T : forall T rho dPsi, smooth_T alphar Rgas T rho ->
  is_derive (fun t => Psi alphar Rgas t rho) T dPsi ->
  get_dpdT_constrhovec ad alphar Rgas T rho =
  - dPsi + sumn (length rho) (fun i => nth i rho 0 * nth i (get_dchempotdT ad alphar Rgas T rho) 0).
Proof.
  intros T rho dPsi (G & dF & dG & L & DF & DG) DP.
  assert (E : dPsi = dF + Rg * sumn (length rho) (fun i => nth i rho 0 * ln (nth i rho 0))).
  { set (w := sumn _ _).
    assert (D : is_derive (fun t => Psi alphar Rgas t rho) T (dF + Rg * w)).
    { apply (is_derive_ext (fun t => Psir t rho + (Rg * w) * t)).
      - intro t. unfold Psi. rewrite HR. fold w. eqR. ring.
      - eapply is_derive_eq; [|apply is_derive_plus'; [exact DF|apply is_derive_lin, is_derive_id']]. eqR. ring. }
    pose proof (is_derive_unique _ _ _ D) as U1. pose proof (is_derive_unique _ _ _ DP) as U2. now rewrite <- U1, <- U2. }
  unfold get_dpdT_constrhovec. rewrite (dPsirdT_ok T rho dF DF), vdot_sumn, HR, vsum_total, E.
  rewrite (sumn_ext _ (fun i => nth i rho 0 * nth i (get_dchempotdT ad alphar Rgas T rho) 0)
    (fun i => nth i rho 0 * nth i (build_d2PsirdTdrhoi ad alphar Rgas T rho) 0 + (Rg * nth i rho 0 + Rg * (nth i rho 0 * ln (nth i rho 0))))).
  - rewrite sumn_plus, sumn_plus, !sumn_scal. fold (total rho). ring.
  - intros i Hi. unfold get_dchempotdT. rewrite each_nth, HR by auto. replace (nth i rho 0 / 1) with (nth i rho 0) by field. ring.
Qed.

(** ** Derivatives of the fugacity coefficients *)
Lemma Ar01_T : forall T rho, 0 < T -> positive rho -> smooth_T alphar Rgas T rho ->
  is_derive (fun t => get_Agenxy ad alphar 0 1 t (total rho) (fractions rho)) T
    (get_Agenxy ad alphar 1 1 T (total rho) (fractions rho) / (- T)).
Proof.
  intros T rho HT P (G & dF & dG & L & DF & DG). pose proof (total_pos rho P) as Hp.
  set (x := fractions rho). set (r0 := total rho) in *.
  set (a := fun t => euler t rho (G t) * / (Rg * t * r0 ^ 2)).
  assert (La : locally T (fun t => is_derive (fun r => alphar t r x) r0 (a t))).
  { eapply filter_imp; [|apply (filter_and _ _ (locally_pos T HT) L)]. intros t (Ht & Lt).
    assert (HRT : Rgas x * t <> 0) by (rewrite HR; apply Rmult_integral_contrapositive; split; auto; lra).
    pose proof (alphar_rho t rho (G t) P HRT Lt) as D. rewrite HR in D. exact D. }
  pose proof (euler_T T rho G dF dG DF DG) as DE.
  assert (Da : exists da, is_derive a T da).
  { exists ((sumn (length rho) (fun i => nth i rho 0 * dG i) - dF) * / (Rg * T * r0 ^ 2) +
       euler T rho (G T) * (- (Rg * r0 ^ 2) / (Rg * T * r0 ^ 2) ^ 2)).
    unfold a. apply (is_derive_mult' (fun t => euler t rho (G t)) (fun t => / (Rg * t * r0 ^ 2))); [exact DE|]. auto_derive.
    - apply Rmult_integral_contrapositive. split; [apply Rmult_integral_contrapositive; split; auto; lra|]. change (r0 ^ 2 <> 0). apply pow_nonzero; lra.
    - field. repeat split; auto; lra. }
  destruct Da as (da & Da).
  assert (E11 : get_Agenxy ad alphar 1 1 T r0 x = (1 / T) ^ 1 * r0 ^ 1 * (- T * T * da)).
  { unfold get_Agenxy. f_equal. apply (ad_11 ad Had (fun u r => alphar (1 / u) r x) (fun u => a (1 / u))).
    - assert (L' : locally (1 / (1 / T)) (fun t => is_derive (fun r => alphar t r x) r0 (a t))).
      { replace (1 / (1 / T)) with T by (field; lra). exact La. }
      assert (C : continuous (fun u : R => 1 / u) (1 / T)).
      { apply (ex_derive_continuous (fun u : R => 1 / u) (1 / T)). auto_derive. pose proof (recip_pos T HT). lra. }
      exact (C _ L').
    - assert (Da' : is_derive a (1 / (1 / T)) da) by (replace (1 / (1 / T)) with T by (field; lra); exact Da).
      eapply is_derive_eq; [|apply (is_derive_recip a (1 / T) da)]; [eqR; field; lra| |exact Da'].
      pose proof (recip_pos T HT). lra. }
  rewrite E11.
  apply (is_derive_loc (fun t => r0 * a t)).
  - eapply filter_imp; [|exact La]. intros t Lt. unfold get_Agenxy. rewrite (ad_1 ad Had _ _ _ Lt). rewrite pow_1. reflexivity.
  - eapply is_derive_eq; [|apply is_derive_lin; exact Da]. eqR. field. lra.
Qed.
Lemma dlnphi_dT_ok : forall T rho i, 0 < T -> positive rho -> smooth_T alphar Rgas T rho -> (i < length rho)%nat ->
  0 < Rg -> 0 < p_of alphar Rgas T rho ->
  is_derive (fun t => nth i (get_ln_fugacity_coefficients ad alphar Rgas t rho) 0) T
    (nth i (get_d_lnphi_dT ad alphar Rgas T rho) 0).
Proof.
  intros T rho i HT P Hs Hi HR0 Hpp. pose proof (total_pos rho P) as Hp.
  pose proof (Ar01_T T rho HT P Hs) as DZ. destruct Hs as (G & dF & dG & L & DF & DG).
  pose proof (locally_singleton _ _ L) as L0. cbv beta in L0.
  pose proof (Z_ok T rho (G T) ltac:(lra) P L0) as EZ.
  assert (HZ : 0 < 1 + get_Agenxy ad alphar 0 1 T (total rho) (fractions rho)).
  { rewrite EZ. apply Rdiv_lt_0_compat; auto. apply Rmult_lt_0_compat; auto. now apply Rmult_lt_0_compat. }
  apply (is_derive_loc (fun t => nth i (G t) 0 * / (Rg * t) - ln (1 + get_Agenxy ad alphar 0 1 t (total rho) (fractions rho)))).
  - eapply filter_imp; [|exact L]. intros t Lt. now rewrite (lnphi_nth t rho (G t) i Lt Hi).
  - unfold get_d_lnphi_dT. rewrite each_nth, HR, vsum_total, molefrac_fractions by auto.
    rewrite (d2PsirdT_ok T rho G (dG i) i L Hi (DG i Hi)), (gradient_ok T rho (G T) i L0 Hi).
    assert (D1 : is_derive (fun t => nth i (G t) 0 * / (Rg * t)) T (dG i * / (Rg * T) + nth i (G T) 0 * (- Rg / (Rg * T) ^ 2))).
    { apply (is_derive_mult' (fun t => nth i (G t) 0) (fun t => / (Rg * t))); [apply (DG i Hi)|]. auto_derive; [apply Rmult_integral_contrapositive; split; lra|]. field. split; lra. }
    assert (D2 : is_derive (fun t => ln (1 + get_Agenxy ad alphar 0 1 t (total rho) (fractions rho))) T
       (get_Agenxy ad alphar 1 1 T (total rho) (fractions rho) / (- T) * / (1 + get_Agenxy ad alphar 0 1 T (total rho) (fractions rho)))).
    { eapply is_derive_eq; [|apply (is_derive_comp ln (fun t => 1 + get_Agenxy ad alphar 0 1 t (total rho) (fractions rho)) T);
        [apply is_derive_Reals, derivable_pt_lim_ln; exact HZ|apply is_derive_plus'; [apply is_derive_cst|exact DZ]]].
      unfold scal; simpl; unfold mult; simpl. eqR. ring. }
    eapply is_derive_eq; [|apply is_derive_minus'; [exact D1|exact D2]]. eqR. field.
    repeat split; lra.
Qed.

Lemma Ar01_rho : forall T rho G H, T <> 0 -> positive rho -> twice_at (Psir T) rho G H ->
  is_derive (fun r => get_Agenxy ad alphar 0 1 T r (fractions rho)) (total rho)
   ((get_Agenxy ad alphar 0 1 T (total rho) (fractions rho) + get_Agenxy ad alphar 0 2 T (total rho) (fractions rho)) / total rho).
Proof.
  intros T rho G H HT P Ht. pose proof (total_pos rho P) as Hp.
  destruct (alphar_rho2 T rho G H HT P Ht) as (a1 & a2 & L & D & E1 & E2).
  pose proof (locally_singleton _ _ L) as L0. cbv beta in L0.
  apply (is_derive_loc (fun r => r * a1 r)).
  - eapply filter_imp; [|exact L]. intros r Lr. unfold get_Agenxy. rewrite (ad_1 ad Had _ _ _ Lr). now rewrite pow_1.
  - unfold get_Agenxy. rewrite (ad_1 ad Had _ _ _ L0). rewrite (ad_2 ad Had _ _ _ _ L D).
    eapply is_derive_eq; [|apply is_derive_mult'; [apply is_derive_id'|exact D]]. eqR. field. lra.
Qed.
Lemma is_derive_ln_comp : forall (f : R -> R) (x l : R), 0 < f x -> is_derive f x l -> is_derive (fun t => ln (f t)) x (l / f x).
Proof.
  intros f x l Hf H. eapply is_derive_eq; [|apply (is_derive_comp ln f x); [apply is_derive_Reals, derivable_pt_lim_ln; exact Hf|exact H]].
  unfold scal; simpl; unfold mult; simpl. eqR. unfold Rdiv. ring.
Qed.
Lemma dlnphi_drho_nth : forall T rho i, (i < length rho)%nat ->
  nth i (get_d_lnphi_drho ad alphar Rgas T rho) 0 =
  1 / (Rg * T) * sumn (length rho) (fun j => nth j (nth i (build_Psir_Hessian ad alphar Rgas T rho) []) 0 * nth j (fractions rho) 0) -
  (get_Agenxy ad alphar 0 1 T (total rho) (fractions rho) + get_Agenxy ad alphar 0 2 T (total rho) (fractions rho)) / total rho /
  (1 + get_Agenxy ad alphar 0 1 T (total rho) (fractions rho)).
Proof.
  intros T rho i Hi. unfold get_d_lnphi_drho, get_lnZ_Z_dZdrho. rewrite vsum_total, molefrac_fractions, HR.
  rewrite (nth_map0 (fun hx => 1 / (Rg * T) * hx - _)) by (unfold mat_vec; now rewrite map_length, hessian_len).
  rewrite mat_vec_nth by auto. reflexivity.
Qed.
Lemma positive_Z : forall T rho g, 0 < Rg * T -> positive rho -> gradient_at (Psir T) rho g -> 0 < p_of alphar Rgas T rho ->
  0 < 1 + get_Agenxy ad alphar 0 1 T (total rho) (fractions rho).
Proof.
  intros T rho g HRT P L0 Hpp. pose proof (total_pos rho P). rewrite (Z_ok T rho g) by (auto; intro E; rewrite E in HRT; lra).
  replace (total rho * Rg * T) with (total rho * (Rg * T)) by ring. apply Rdiv_lt_0_compat; auto. now apply Rmult_lt_0_compat.
Qed.
Lemma dlnphi_drho_ok : forall T rho i, positive rho -> smooth_rho alphar Rgas T rho -> (i < length rho)%nat ->
  0 < Rg * T -> 0 < p_of alphar Rgas T rho ->
  is_derive (fun r => nth i (get_ln_fugacity_coefficients ad alphar Rgas T (map (Rmult r) (fractions rho))) 0) (total rho)
    (nth i (get_d_lnphi_drho ad alphar Rgas T rho) 0).
Proof.
  intros T rho i P (G & H & Ht) Hi HRT Hpp. pose proof (total_pos rho P) as Hp. pose proof Ht as [Hg Hr Hh Hs].
  assert (HT : T <> 0) by (intro E; rewrite E in HRT; lra).
  pose proof (near_self _ _ Hg) as G0. cbv beta in G0.
  pose proof (positive_Z T rho (G rho) HRT P G0 Hpp) as HZ.
  apply (is_derive_loc (fun r => / (Rg * T) * nth i (G (map (Rmult r) (fractions rho))) 0 - ln (1 + get_Agenxy ad alphar 0 1 T r (fractions rho)))).
  - eapply filter_imp; [|apply (filter_and _ _ (locally_pos _ Hp) (near_ray _ rho P Hg))]. intros r (Hr0 & Gr).
    rewrite (lnphi_nth T _ _ i Gr) by (now rewrite map_length, fractions_length).
    rewrite fractions_scale, total_scale, total_fractions, Rmult_1_r by (try lra; apply total_fractions; lra).
    unfold Rdiv. ring.
  - rewrite dlnphi_drho_nth by auto.
    eapply is_derive_eq; [|apply is_derive_minus'; [apply is_derive_lin, (ray_derive _ rho _ P (Hh i Hi))|
       apply is_derive_ln_comp; [exact HZ|apply is_derive_plus'; [apply is_derive_cst|apply (Ar01_rho T rho G H HT P Ht)]]]].
    eqR. rewrite (sumn_ext _ (fun j => nth j (nth i (build_Psir_Hessian ad alphar Rgas T rho) []) 0 * _)
      (fun j => nth j (nth i H []) 0 * nth j (fractions rho) 0)); [field; repeat split; auto; lra|].
    intros j Hj. now rewrite (hessian_ok T rho G H).
Qed.
Lemma dlnphi_drho_len : forall T rho, length (get_d_lnphi_drho ad alphar Rgas T rho) = length rho.
Proof. intros. unfold get_d_lnphi_drho, get_lnZ_Z_dZdrho, mat_vec. now rewrite !map_length, hessian_len. Qed.
Lemma dlnphi_dv_ok : forall T rho i, positive rho -> smooth_rho alphar Rgas T rho -> (i < length rho)%nat ->
  0 < Rg * T -> 0 < p_of alphar Rgas T rho ->
  is_derive (fun v => nth i (get_ln_fugacity_coefficients ad alphar Rgas T (map (Rmult (1 / v)) (fractions rho))) 0) (1 / total rho)
    (nth i (get_d_lnphi_dv ad alphar Rgas T rho) 0).
Proof.
  intros T rho i P Hs Hi HRT Hpp. pose proof (total_pos rho P) as Hp.
  pose proof (dlnphi_drho_ok T rho i P Hs Hi HRT Hpp) as D.
  unfold get_d_lnphi_dv. rewrite (nth_map0 (fun d => d * _)) by (now rewrite dlnphi_drho_len). rewrite vsum_total.
  assert (D' : is_derive (fun r => nth i (get_ln_fugacity_coefficients ad alphar Rgas T (map (Rmult r) (fractions rho))) 0) (1 / (1 / total rho))
    (nth i (get_d_lnphi_drho ad alphar Rgas T rho) 0)).
  { replace (1 / (1 / total rho)) with (total rho) by (field; lra). exact D. }
  assert (NZ : 1 / total rho <> 0) by (pose proof (recip_pos _ Hp); lra).
  pose proof (is_derive_recip _ (1 / total rho) _ NZ D') as D2.
  refine (is_derive_eq _ _ _ _ _ D2). set (w := nth i _ 0). eqR. field. lra.
Qed.

Lemma dlnphi_dx_nth : forall T rho i j, (i < length rho)%nat -> (j < length rho)%nat ->
  nth j (nth i (get_d_lnphi_dmolefracs ad alphar Rgas T rho) []) 0 =
  total rho / (Rg * T) * nth j (nth i (build_Psir_Hessian ad alphar Rgas T rho) []) 0 -
  total rho * nth j (build_d2alphardrhodxi ad alphar T (total rho) (fractions rho)) 0 /
   (1 + get_Agenxy ad alphar 0 1 T (total rho) (fractions rho)).
Proof.
  intros T rho i j Hi Hj. unfold get_d_lnphi_dmolefracs. rewrite vsum_total, molefrac_fractions, HR.
  set (f := fun row => each rho _). rewrite (nth_indep _ [] (f [])) by (rewrite map_length, hessian_len; exact Hi).
  rewrite (map_nth f). unfold f. now rewrite each_nth.
Qed.
Lemma dlnphi_dx_ok : forall T rho i j, positive rho -> smooth_rho alphar Rgas T rho ->
  (i < length rho)%nat -> (j < length rho)%nat -> smooth_rx alphar T (total rho) (fractions rho) j ->
  0 < Rg * T -> 0 < p_of alphar Rgas T rho ->
  is_derive (fun s => nth i (get_ln_fugacity_coefficients_Trhomolefracs ad alphar Rgas T (total rho) (replace j s (fractions rho))) 0)
    (nth j (fractions rho) 0)
    (nth j (nth i (get_d_lnphi_dmolefracs ad alphar Rgas T rho) []) 0).
Proof.
  intros T rho i j P (G & H & Ht) Hi Hj (fx & fr & m & Lr & Dr & Lx & Dx) HRT Hpp.
  pose proof (total_pos rho P) as Hp. pose proof Ht as [Hg Hr Hh Hs].
  assert (HT : T <> 0) by (intro E; rewrite E in HRT; lra).
  pose proof (near_self _ _ Hg) as G0. cbv beta in G0.
  pose proof (positive_Z T rho (G rho) HRT P G0 Hpp) as HZ.
  rewrite dlnphi_dx_nth by auto. set (x := fractions rho) in *. set (r0 := total rho) in *.
  assert (Lenx : length x = length rho) by apply fractions_length.
  assert (Hd2 : nth j (build_d2alphardrhodxi ad alphar T r0 x) 0 = m).
  { unfold build_d2alphardrhodxi. rewrite each_nth by lia.
    apply (ad_11 ad Had (fun r s => alphar T r (upd j s x)) fx); auto.
    eapply filter_imp; [|exact Lr]. intros r Hr0. refine (is_derive_ext _ _ _ _ _ Hr0). intro s. now rewrite upd_replace. }
  rewrite Hd2.
  assert (EA : locally (nth j x 0) (fun s => get_Agenxy ad alphar 0 1 T r0 (replace j s x) = r0 * fr s)).
  { eapply filter_imp; [|exact Lx]. intros s Ls. unfold get_Agenxy. rewrite (ad_1 ad Had _ _ _ Ls). now rewrite pow_1. }
  assert (Ex : replace j (nth j x 0) x = x) by (rewrite <- upd_replace; apply upd_same).
  assert (E0 : get_Agenxy ad alphar 0 1 T r0 x = r0 * fr (nth j x 0)).
  { pose proof (locally_singleton _ _ EA) as E. cbv beta in E. now rewrite Ex in E. }
  assert (Hc : forall k, (k < length rho)%nat -> is_derive (fun s => nth k (map (fun y => r0 * y) (upd j s x)) 0) (nth j x 0) (if Nat.eqb k j then r0 else 0)).
  { intros k Hk. apply (is_derive_ext (fun s => r0 * nth k (upd j s x) 0)).
    { intro s. symmetry. apply (nth_map0 (fun y => r0 * y)). rewrite upd_length. lia. }
    destruct (Nat.eqb_spec k j) as [->|].
    - apply (is_derive_ext (fun s => r0 * s)); [intro s; now rewrite nth_upd_same by lia|].
      eapply is_derive_eq; [|apply is_derive_lin, is_derive_id']. eqR; ring.
    - apply (is_derive_ext (fun s => r0 * nth k x 0)); [intro s; now rewrite nth_upd_other by lia|]. apply is_derive_cst. }
  assert (Hc0 : map (fun y => r0 * y) (upd j (nth j x 0) x) = rho).
  { rewrite upd_same. unfold r0, x. exact (scale_fractions rho ltac:(unfold r0 in Hp; lra)). }
  assert (Hcl : forall s, length (map (fun y => r0 * y) (upd j s x)) = length rho) by (intro; now rewrite map_length, upd_length).
  apply (is_derive_loc (fun s => / (Rg * T) * nth i (G (map (fun y => r0 * y) (upd j s x))) 0 - ln (1 + r0 * fr s))).
  - pose proof (near_curve _ rho (fun s => map (fun y => r0 * y) (upd j s x)) (nth j x 0) Hg Hc0 Hcl
      ltac:(intros k Hk; eexists; apply (Hc k Hk))) as N.
    eapply filter_imp; [|apply (filter_and _ _ EA N)]. intros s (Es & Gs).
    unfold get_ln_fugacity_coefficients_Trhomolefracs.
    rewrite each_nth by (rewrite <- upd_replace, upd_length; lia). rewrite Es, HR.
    rewrite <- upd_replace. rewrite (gradient_ok T _ _ i Gs) by (rewrite Hcl; auto). unfold Rdiv. ring.
  - assert (D1 : is_derive (fun s => nth i (G (map (fun y => r0 * y) (upd j s x))) 0) (nth j x 0) (r0 * nth j (nth i H []) 0)).
    { eapply is_derive_eq; [|apply (curve_derive (fun y => nth i (G y) 0) rho (nth i H []) (fun s => map (fun y => r0 * y) (upd j s x))
         (fun k => if Nat.eqb k j then r0 else 0) (nth j x 0) (Hh i Hi) Hc0 Hcl Hc)].
      rewrite (sumn_ext _ _ (fun k => if Nat.eqb k j then nth k (nth i H []) 0 * r0 else 0)).
      - rewrite (sumn_delta (length rho) j (fun k => nth k (nth i H []) 0 * r0)) by auto. ring.
      - intros k _. destruct (Nat.eqb k j); ring. }
    eapply is_derive_eq; [|apply is_derive_minus'; [apply is_derive_lin; exact D1|apply is_derive_ln_comp;
      [rewrite <- E0; exact HZ|apply is_derive_plus'; [apply is_derive_cst|apply is_derive_lin; exact Dx]]]].
    eqR. rewrite (hessian_ok T rho G H) by auto. rewrite E0 in *. field. repeat split; auto; lra.
Qed.

End ConstR.

(** directional derivatives *)
Lemma sigma_ok : forall T rho v k, (k <= 4)%nat ->
  ex_derive_n (fun s => Psir T (each rho (fun i => nth i rho 0 + s * nth i v 0))) k 0 ->
  nth k (get_Psir_sigma_derivs ad alphar Rgas T rho v) 0 =
  Derive_n (fun s => Psir T (each rho (fun i => nth i rho 0 + s * nth i v 0))) k 0.
Proof.
  intros T rho v k Hk H. unfold get_Psir_sigma_derivs. rewrite nth_map_seq' by lia.
  set (f := fun s => Psir T (each rho (fun i => nth i rho 0 + s * nth i v 0))) in *.
  set (f' := fun s => get_Psir alphar Rgas T (each rho (fun i => nth i rho 0 + s * nth i v 0))).
  assert (E : forall s, f s = f' s) by (intro s; symmetry; apply get_Psir_eq).
  change (ad (fun l => match l with [s] => f' s | _ => 0 end) [k] [0] = Derive_n f k 0).
  rewrite (ad_k ad Had f' k 0); [|now apply (ex_derive_n_ext f)]. symmetry. now apply Derive_n_ext.
Qed.
Lemma sigma_12 : forall T rho v G H, twice_at (Psir T) rho G H ->
  let D := get_Psir_sigma_derivs ad alphar Rgas T rho v in
  nth 0 D 0 = Psir T rho /\
  nth 1 D 0 = sumn (length rho) (fun i => nth i (build_Psir_gradient ad alphar Rgas T rho) 0 * nth i v 0) /\
  nth 2 D 0 = sumn (length rho) (fun i => sumn (length rho) (fun j =>
     nth j (nth i (build_Psir_Hessian ad alphar Rgas T rho) []) 0 * nth i v 0 * nth j v 0)).
Proof.
  intros T rho v G H Ht D. pose proof Ht as [Hg Hr Hh Hs].
  set (c := fun s => each rho (fun i => nth i rho 0 + s * nth i v 0)).
  assert (Hc0 : c 0 = rho).
  { apply list_ext; unfold c; rewrite each_length; auto. intros i Hi. rewrite each_nth by auto. ring. }
  assert (Hcl : forall s, length (c s) = length rho) by (intro; apply each_length).
  assert (Hc : forall s i, (i < length rho)%nat -> is_derive (fun s => nth i (c s) 0) s (nth i v 0)).
  { intros s i Hi. apply (is_derive_ext (fun s => nth i rho 0 + nth i v 0 * s)).
    - intro t. unfold c. rewrite each_nth by auto. eqR; ring.
    - eapply is_derive_eq; [|apply is_derive_plus'; [apply is_derive_cst|apply is_derive_lin, is_derive_id']]. eqR; ring. }
  set (f := fun s => Psir T (c s)).
  set (f1 := fun s => sumn (length rho) (fun i => nth i (G (c s)) 0 * nth i v 0)).
  assert (L : locally 0 (fun s => is_derive f s (f1 s))).
  { pose proof (near_curve _ rho c 0 Hg Hc0 Hcl ltac:(intros i Hi; eexists; apply (Hc 0 i Hi))) as N.
    eapply filter_imp; [|exact N]. intros s Gs. unfold f, f1.
    rewrite <- (Hcl s). apply (curve_derive (Psir T) (c s) (G (c s)) c (fun i => nth i v 0) s); auto.
    - intro s0. now rewrite !Hcl.
    - intros i Hi. rewrite Hcl in Hi. apply (Hc s i Hi). }
  assert (D1 : is_derive f1 0 (sumn (length rho) (fun i => sumn (length rho) (fun j => nth j (nth i H []) 0 * nth j v 0) * nth i v 0))).
  { unfold f1. apply (is_derive_sumn (length rho) (fun i s => nth i (G (c s)) 0 * nth i v 0)). intros i Hi.
    apply (is_derive_ext (fun s => nth i v 0 * nth i (G (c s)) 0)); [intro; apply Rmult_comm|].
    eapply is_derive_eq; [|apply is_derive_lin; apply (curve_derive (fun y => nth i (G y) 0) rho (nth i H []) c (fun j => nth j v 0) 0 (Hh i Hi) Hc0 Hcl);
      intros j Hj; apply Hc; auto]. apply Rmult_comm. }
  assert (Ed : is_derive (Derive f) 0 (sumn (length rho) (fun i => sumn (length rho) (fun j => nth j (nth i H []) 0 * nth j v 0) * nth i v 0))).
  { apply (is_derive_ext_loc f1); [|exact D1]. eapply filter_imp; [|exact L]. intros t Ht0. symmetry. now apply is_derive_unique. }
  pose proof (locally_singleton _ _ L) as L0. cbv beta in L0.
  split; [|split].
  - unfold D. rewrite (sigma_ok T rho v 0 ltac:(lia) I). simpl. change (f 0 = Psir T rho). unfold f. now rewrite Hc0.
  - unfold D. rewrite (sigma_ok T rho v 1 ltac:(lia) (ex_intro _ _ L0)).
    etransitivity; [apply (is_derive_unique f 0 _ L0)|]. unfold f1. apply sumn_ext. intros i Hi.
    rewrite Hc0. f_equal. symmetry. apply (gradient_ok T rho (G rho) i (near_self _ _ Hg) Hi).
  - unfold D. rewrite (sigma_ok T rho v 2 ltac:(lia) (ex_intro _ _ Ed)).
    etransitivity; [apply (is_derive_unique (Derive f) 0 _ Ed)|]. apply sumn_ext. intros i Hi.
    rewrite <- sumn_scal_r. apply sumn_ext. intros j Hj. rewrite (hessian_ok T rho G H) by auto. ring.
Qed.
End P.
