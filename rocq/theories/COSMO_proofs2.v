(** More proofs about the model of COSMO-SAC: energies, the window, the functions of the class. *)
From Coq Require Import Reals ZArith String List Bool Lra Lia FunctionalExtensionality.
From Verif Require Import Json_model Vec_spec Vec_proofs Cubic_model Terms_model Ideal_model Ideal_proofs Assoc_model COSMO_model COSMO_spec COSMO_proofs.
Import ListNotations.
Local Open Scope R_scope.

Lemma seg_mod : forall t m, (m < 51)%nat -> (seg t m mod 51 = m)%nat.
Proof. intros t m H. unfold seg. rewrite Nat.add_comm, Nat.mul_comm, Nat.mod_add by lia. now apply Nat.mod_small. Qed.
Lemma seg_div : forall t m, (m < 51)%nat -> kind_of (seg t m / 51) = t.
Proof. intros t m H. unfold seg. rewrite Nat.add_comm, Nat.mul_comm, Nat.div_add, Nat.div_small by lia. destruct t; reflexivity. Qed.
Lemma seg_lt : forall t m, (m < 51)%nat -> (seg t m < 153)%nat.
Proof. intros t m H. unfold seg. destruct t; lia. Qed.
Lemma seg_all : forall j, (j < 153)%nat -> j = seg (kind_of (j / 51)) (j mod 51).
Proof.
  intros j H. pose proof (Nat.div_mod j 51 ltac:(lia)) as E. assert (D : (j / 51 < 3)%nat) by (apply Nat.div_lt_upper_bound; lia).
  unfold seg. destruct (j / 51)%nat as [|[|[|q]]] eqn:Q; cbn [kind_of]; lia.
Qed.
Lemma charge_eq : forall m, charge_at m = charge m.
Proof. intros m. unfold charge_at, charge. lra. Qed.
Lemma bonding_eq : forall c t s, c_hb c t s = bonding (c_const c) t s.
Proof. intros c [] []; reflexivity. Qed.
Lemma DELTAW_eq : forall c T t s m n, DELTAW c T t s m n = exchange_energy (c_const c) T t s (charge m) (charge n).
Proof.
  intros c T t s m n. unfold DELTAW, exchange_energy. rewrite !charge_eq, bonding_eq. replace (T * T) with (T ^ 2) by ring.
  destruct (Rle_dec 0 (charge m * charge n)); destruct (Rlt_dec (charge m * charge n) 0); try lra; reflexivity.
Qed.
Lemma exchange_sym : forall k T t s a b, exchange_energy k T t s a b = exchange_energy k T s t b a.
Proof. intros k T t s a b. unfold exchange_energy. rewrite (Rmult_comm a b). replace (bonding k t s) with (bonding k s t) by (destruct t, s; reflexivity). destruct (Rlt_dec (b * a) 0); ring. Qed.
Lemma factor_pos : forall c T i j, 0 < factor c T i j.
Proof. intros. apply exp_pos. Qed.
Lemma factor_sym : forall c T i j, factor c T i j = factor c T j i.
Proof. intros c T i j. unfold factor. rewrite !DELTAW_eq, exchange_sym. reflexivity. Qed.
Lemma nth_sum_pos : forall (l : list R) k, List.Forall (fun r => 0 <= r) l -> 0 <= nth k l 0.
Proof. intros l k H. destruct (Nat.lt_ge_cases k (length l)) as [L|L]; [|rewrite nth_overflow by assumption; lra]. rewrite Forall_forall in H. apply H. now apply nth_In. Qed.

(** ** The window *)
Lemma first_seg_spec : forall l i, (exists k, (k < length l)%nat /\ is_seg (nth k l 0) = true) ->
  exists k, first_seg l i = (i + k)%nat /\ (k < length l)%nat /\ is_seg (nth k l 0) = true /\ forall m, (m < k)%nat -> is_seg (nth m l 0) = false.
Proof.
  induction l as [|r l IH]; intros i (k & Hk & S); [cbn in Hk; lia|]. cbn [first_seg]. destruct (is_seg r) eqn:E.
  - exists 0%nat. repeat split; [lia|cbn; lia|exact E|intros m Hm; lia].
  - destruct k as [|k]; [cbn in S; congruence|]. destruct (IH (Datatypes.S i)) as (q & Eq & Lq & Sq & Mq). { exists k. cbn in Hk. split; [lia|exact S]. }
    exists (Datatypes.S q). repeat split; [lia|cbn; lia|exact Sq|]. intros [|m] Hm; [exact E|]. apply Mq. lia.
Qed.
Lemma first_seg_none : forall l i, (forall k, (k < length l)%nat -> is_seg (nth k l 0) = false) -> first_seg l i = 0%nat.
Proof. induction l as [|r l IH]; intros i H; [reflexivity|]. cbn [first_seg]. pose proof (H 0%nat ltac:(cbn; lia)) as H0. cbn in H0. rewrite H0. apply IH. intros k Hk. apply (H (S k)). cbn. lia. Qed.
Lemma last_seg_spec : forall l lo i, (i <= length l)%nat -> (forall k, (i <= k < length l)%nat -> is_seg (nth k l 0) = false) ->
  forall m, (lo < m < length l)%nat -> is_seg (nth m l 0) = true -> (m <= last_seg l lo i)%nat /\ (lo < last_seg l lo i < length l)%nat /\ is_seg (nth (last_seg l lo i) l 0) = true.
Proof.
  intros l lo i. induction i as [|i IH]; intros Hi H m Hm S. { rewrite (H m) in S by lia. discriminate. }
  cbn [last_seg]. destruct (Nat.ltb_spec lo i) as [L|L].
  - destruct (is_seg (nth i l 0)) eqn:E.
    + split; [|split; [lia|assumption]]. destruct (Nat.le_gt_cases m i) as [C|C]; [assumption|]. rewrite (H m) in S by lia. discriminate.
    + apply IH; try assumption; [lia|]. intros k Hk. destruct (Nat.eq_dec k i) as [->|N]; [assumption|]. apply H. lia.
  - rewrite (H m) in S by lia. discriminate.
Qed.
Lemma last_seg_none : forall l lo i, (i <= length l)%nat -> (forall k, (lo < k < length l)%nat -> is_seg (nth k l 0) = false) -> last_seg l lo i = length l.
Proof. intros l lo i. induction i as [|i IH]; intros Hi H; [reflexivity|]. cbn [last_seg]. destruct (Nat.ltb_spec lo i); [|reflexivity]. rewrite H by lia. apply IH; [lia|assumption]. Qed.
(** Left and right of the segments of one fluid. *)
Lemma bounds_spec : forall l m, (m < length l)%nat -> is_seg (nth m l 0) = true -> (fst (bounds_of l) <= m <= snd (bounds_of l))%nat.
Proof.
  intros l m Hm S. unfold bounds_of. cbn [fst snd]. destruct (first_seg_spec l 0 (ex_intro _ m (conj Hm S))) as (k & E & Lk & Sk & Mk). rewrite E, Nat.add_0_l.
  assert (C : (k <= m)%nat) by (destruct (Nat.le_gt_cases k m) as [C|C]; [assumption|]; rewrite (Mk m C) in S; discriminate). split; [assumption|].
  destruct (Nat.eq_dec k m) as [<-|N].
  - destruct (existsb (fun n => is_seg (nth n l 0)) (seq (Datatypes.S k) (length l - Datatypes.S k))) eqn:X.
    + apply existsb_exists in X. destruct X as (n & Hn & Sn). apply in_seq in Hn. destruct (last_seg_spec l k (length l) ltac:(lia) ltac:(intros; lia) n ltac:(lia) Sn) as (P1 & P2 & _). lia.
    + rewrite last_seg_none; [lia|lia|]. intros n Hn. destruct (is_seg (nth n l 0)) eqn:Sn; [|reflexivity]. assert (Y : existsb (fun n => is_seg (nth n l 0)) (seq (Datatypes.S k) (length l - Datatypes.S k)) = true) by (apply existsb_exists; exists n; split; [apply in_seq; lia|assumption]). congruence.
  - apply (last_seg_spec l k (length l) ltac:(lia) ltac:(intros; lia) m ltac:(lia) S).
Qed.
(** With a right end inside, there are two segments. *)
Lemma bounds_two : forall l, (snd (bounds_of l) < length l)%nat -> is_seg (nth (fst (bounds_of l)) l 0) = true /\ is_seg (nth (snd (bounds_of l)) l 0) = true /\ (fst (bounds_of l) < snd (bounds_of l))%nat.
Proof.
  intros l H. unfold bounds_of in *. cbn [fst snd] in *. set (lo := first_seg l 0) in *.
  destruct (existsb (fun n => is_seg (nth n l 0)) (seq (Datatypes.S lo) (length l - Datatypes.S lo))) eqn:X.
  - apply existsb_exists in X. destruct X as (n & Hn & Sn). apply in_seq in Hn. destruct (last_seg_spec l lo (length l) ltac:(lia) ltac:(intros; lia) n ltac:(lia) Sn) as (P1 & P2 & P3).
    split; [|split; [assumption|lia]]. destruct (first_seg_spec l 0) as (k & E & Lk & Sk & Mk). { exists n. split; [lia|assumption]. } unfold lo. rewrite E. exact Sk.
  - rewrite last_seg_none in H; [lia|lia|]. intros n Hn. destruct (is_seg (nth n l 0)) eqn:Sn; [|reflexivity]. assert (Y : existsb (fun n => is_seg (nth n l 0)) (seq (Datatypes.S lo) (length l - Datatypes.S lo)) = true) by (apply existsb_exists; exists n; split; [apply in_seq; lia|assumption]). congruence.
Qed.
Lemma nonzero_fold : forall ps b, 
  let r := fold_left (fun b l => (Nat.min (fst (bounds_of l)) (fst b), Nat.max (snd (bounds_of l)) (snd b))) ps b in
  (fst r <= fst b)%nat /\ (snd b <= snd r)%nat /\ (forall l, In l ps -> (fst r <= fst (bounds_of l))%nat /\ (snd (bounds_of l) <= snd r)%nat) /\
  (fst r = fst b \/ exists l, In l ps /\ fst r = fst (bounds_of l)) /\ (snd r = snd b \/ exists l, In l ps /\ snd r = snd (bounds_of l)).
Proof.
  induction ps as [|a ps IH]; intros b; cbn [fold_left]; cbv zeta. { split; [lia|split; [lia|split; [intros l []|split; auto]]]. }
  specialize (IH (Nat.min (fst (bounds_of a)) (fst b), Nat.max (snd (bounds_of a)) (snd b))). cbv zeta in IH. cbn [fst snd] in IH. set (r := fold_left _ ps _) in *. clearbody r. destruct IH as (P1 & P2 & P3 & P4 & P5).
  split; [lia|]. split; [lia|]. split. { intros l [->|Hl]; [lia|auto]. } split.
  - destruct P4 as [E4|(l & Hl & E4)]; [|right; exists l; split; [now right|assumption]]. destruct (Nat.min_spec (fst (bounds_of a)) (fst b)) as [[_ M]|[_ M]]; rewrite M in E4; [right; exists a; split; [now left|assumption]|now left].
  - destruct P5 as [E5|(l & Hl & E5)]; [|right; exists l; split; [now right|assumption]]. destruct (Nat.max_spec (snd (bounds_of a)) (snd b)) as [[_ M]|[_ M]]; rewrite M in E5; [now left|right; exists a; split; [now left|assumption]].
Qed.
Lemma nonzero_sets : forall ps qs, (forall l, In l ps <-> In l qs) -> nonzero_bounds ps = nonzero_bounds qs.
Proof.
  intros ps qs H. unfold nonzero_bounds. pose proof (nonzero_fold ps (51%nat, 0%nat)) as P. pose proof (nonzero_fold qs (51%nat, 0%nat)) as Q. cbv zeta in P, Q.
  set (f := fold_left _ ps _) in *. set (g := fold_left _ qs _) in *. destruct P as (P1 & P2 & P3 & P4 & P5), Q as (Q1 & Q2 & Q3 & Q4 & Q5). cbn [fst snd] in *.
  apply injective_projections.
  - apply Nat.le_antisymm.
    + destruct Q4 as [E|(l & Hl & E)]; [lia|]. rewrite E. apply P3. now apply H.
    + destruct P4 as [E|(l & Hl & E)]; [lia|]. rewrite E. apply Q3. now apply H.
  - apply Nat.le_antisymm.
    + destruct P5 as [E|(l & Hl & E)]; [lia|]. rewrite E. apply Q3. now apply H.
    + destruct Q5 as [E|(l & Hl & E)]; [lia|]. rewrite E. apply P3. now apply H.
Qed.
Lemma make_inv : forall A V ps k c, make_cosmo A V ps k = Some c ->
  (length ps <= length A)%nat /\ (forall i, (i < length ps)%nat -> nth i A 0 <> 0) /\ c_A c = A /\ c_V c = V /\ c_profiles c = ps /\ c_const c = k /\
  let b := nonzero_bounds (map (fun pa => scaled (s_nhb (fst pa)) (snd pa)) (combine ps A)) in c_left c = fst b /\ c_w c = (snd b - fst b + 1)%nat.
Proof.
  intros A V ps k c E. unfold make_cosmo in E. destruct (Nat.ltb_spec (length A) (length ps)) as [L|L]; [discriminate|]. destruct (existsb _ _) eqn:X; [discriminate|].
  destruct (nonzero_bounds _) as [l r] eqn:B. injection E as <-. cbn. repeat split; try reflexivity; try assumption.
  intros i Hi Z. assert (Y : existsb (fun a => if Req_EM_T a 0 then true else false) (firstn (length ps) A) = true).
  { apply existsb_exists. exists (nth i A 0). split; [|destruct (Req_EM_T (nth i A 0) 0); [reflexivity|contradiction]]. rewrite <- (firstn_skipn (length ps) A) at 1. rewrite app_nth1 by (rewrite firstn_length; lia). apply nth_In. rewrite firstn_length. lia. }
  congruence.
Qed.
Lemma make_some : forall A V ps k, (length ps <= length A)%nat -> (forall i, (i < length ps)%nat -> nth i A 0 <> 0) -> exists c, make_cosmo A V ps k = Some c.
Proof.
  intros A V ps k L H. unfold make_cosmo. destruct (Nat.ltb_spec (length A) (length ps)); [lia|]. destruct (existsb _ _) eqn:X; [|destruct (nonzero_bounds _); eauto].
  apply existsb_exists in X. destruct X as (a & Ha & Ea). destruct (Req_EM_T a 0) as [->|]; [|discriminate]. exfalso. destruct (In_nth _ _ 0 Ha) as (i & Hi & Ei). rewrite firstn_length in Hi.
  apply (H i); [lia|]. rewrite <- (firstn_skipn (length ps) A). rewrite app_nth1 by (rewrite firstn_length; lia). exact Ei.
Qed.
Definition scaled_of (A : list R) (ps : list profiles) (i : nat) : list R := scaled (s_nhb (nth i ps no_profiles)) (nth i A 0).
Lemma scaled_in : forall A ps i, (length ps <= length A)%nat -> (i < length ps)%nat -> In (scaled_of A ps i) (map (fun pa => scaled (s_nhb (fst pa)) (snd pa)) (combine ps A)).
Proof.
  intros A ps. revert A. induction ps as [|p ps IH]; intros [|a A] i L Hi; cbn in L, Hi; try lia. destruct i as [|i]; [now left|]. right. apply (IH A i); lia.
Qed.
Lemma in_scaled : forall A ps l, (length ps <= length A)%nat -> In l (map (fun pa => scaled (s_nhb (fst pa)) (snd pa)) (combine ps A)) -> exists i, (i < length ps)%nat /\ l = scaled_of A ps i.
Proof.
  intros A ps. revert A. induction ps as [|p ps IH]; intros [|a A] l L H; cbn in L, H; try lia; try contradiction. destruct H as [<-|H]; [exists 0%nat; split; [cbn; lia|reflexivity]|].
  destruct (IH A l ltac:(lia) H) as (i & Hi & ->). exists (S i). split; [cbn; lia|reflexivity].
Qed.
Lemma scaled_nth : forall l a k, nth k (scaled l a) 0 = nth k l 0 / a.
Proof. intros l a k. unfold scaled. transitivity (nth k (map (fun r => r / a) l) (0 / a)); [f_equal; unfold Rdiv; ring|apply (map_nth (fun r => r / a))]. Qed.

(** ** The sums of the fast branch *)
Lemma fast_total_eq : forall c T p G i, (c_left c + c_w c <= 51)%nat -> fast_total c T p G i = sumn 153 (fun j => factor c T i j * seen (c_left c) (c_w c) p j * G j).
Proof.
  intros c T p G i H. unfold fast_total. change 153%nat with (3 * 51)%nat. rewrite sumn_blocks. rewrite sumn_swap. apply sumn_ext. intros t Ht.
  rewrite (sumn_window 51 (c_left c) (c_w c)); [|assumption|].
  - apply sumn_ext. intros k Hk. replace (51 * t + (c_left c + k))%nat with (51 * t + c_left c + k)%nat by lia. cbv zeta. f_equal. f_equal. unfold seen.
    replace ((51 * t + c_left c + k) mod 51)%nat with (c_left c + k)%nat. 2: { replace (51 * t + c_left c + k)%nat with (c_left c + k + t * 51)%nat by lia. rewrite Nat.mod_add by lia. symmetry. apply Nat.mod_small. lia. }
    rewrite (proj2 (Nat.leb_le _ _)), (proj2 (Nat.ltb_lt _ _)) by lia. reflexivity.
  - intros k Hk N. unfold seen. replace ((51 * t + k) mod 51)%nat with k. 2: { replace (51 * t + k)%nat with (k + t * 51)%nat by lia. rewrite Nat.mod_add by lia. symmetry. now apply Nat.mod_small. }
    destruct (Nat.leb_spec (c_left c) k); destruct (Nat.ltb_spec k (c_left c + c_w c)); cbn [andb]; try ring. lia.
Qed.
Lemma seen_out : forall c p j, in_window c j = false -> seen (c_left c) (c_w c) p j = 0.
Proof. intros c p j H. unfold seen. unfold in_window in H. now rewrite H. Qed.
Lemma seen_in : forall c p j, in_window c j = true -> seen (c_left c) (c_w c) p j = p j.
Proof. intros c p j H. unfold seen. unfold in_window in H. now rewrite H. Qed.
Lemma seen_all : forall l w p, (forall j, (j < 153)%nat -> ~ (l <= j mod 51 < l + w)%nat -> p j = 0) -> forall j, (j < 153)%nat -> seen l w p j = p j.
Proof. intros l w p H j Hj. unfold seen. destruct (Nat.leb_spec l (j mod 51)); destruct (Nat.ltb_spec (j mod 51) (l + w)); cbn [andb]; auto; symmetry; apply H; lia. Qed.
(** The sum over the profile at hand of what both branches do. *)
Definition visible (c : cosmo) (p : nat -> R) : nat -> R := if k_fast (c_const c) then seen (c_left c) (c_w c) p else p.
Definition updated (c : cosmo) (i : nat) : bool := if k_fast (c_const c) then in_window c i else true.
Definition row (c : cosmo) (T : R) (p G : nat -> R) (i : nat) : R := if k_fast (c_const c) then fast_total c T p G i else slow_total c T p G i.
Definition fits (c : cosmo) : Prop := k_fast (c_const c) = true -> (c_left c + c_w c <= 50)%nat.
Lemma get_Gamma_eq : forall c T p, k_R (c_const c) * T <> 0 -> fits c -> get_Gamma c T p = gamma_loop c (updated c) (row c T p) max_iter (fun _ => 1).
Proof.
  intros c T p H F. unfold get_Gamma. destruct (Req_EM_T _ _); [contradiction|]. unfold fits in F. replace (updated c) with (if k_fast (c_const c) then in_window c else fun _ => true) by (unfold updated; destruct (k_fast (c_const c)); reflexivity).
  replace (row c T p) with (if k_fast (c_const c) then fast_total c T p else slow_total c T p) by (unfold row; destruct (k_fast (c_const c)); reflexivity).
  destruct (k_fast (c_const c)); [|reflexivity]. specialize (F eq_refl). destruct (Nat.ltb_spec 50 (c_left c + c_w c)); [lia|reflexivity].
Qed.
Lemma get_Gamma_defined : forall c T p G, get_Gamma c T p = ok G -> k_R (c_const c) * T <> 0 /\ fits c.
Proof.
  intros c T p G H. unfold get_Gamma in H. destruct (Req_EM_T _ _); [discriminate|]. split; [assumption|]. intros F. rewrite F in H. destruct (Nat.ltb_spec 50 (c_left c + c_w c)); [discriminate|lia].
Qed.
Lemma row_eq : forall c T p, fits c -> forall G i, (i < 153)%nat -> row c T p G i = sumn 153 (fun j => factor c T i j * visible c p j * G j).
Proof. intros c T p F G i _. unfold row, visible. unfold fits in F. destruct (k_fast (c_const c)); [|reflexivity]. apply fast_total_eq. specialize (F eq_refl). lia. Qed.
Lemma visible_out : forall c p j, (j < 153)%nat -> updated c j = false -> visible c p j = 0.
Proof. intros c p j _ H. unfold updated in H. unfold visible. destruct (k_fast (c_const c)); [now apply seen_out|discriminate]. Qed.

(** ** Lists of results *)
Lemma collect_seq : forall (f : nat -> outcome R) n s l, collect (map f (seq s n)) = ok l <-> (length l = n /\ forall i, (i < n)%nat -> f (s + i)%nat = ok (nth i l 0)).
Proof.
  intros f n. induction n as [|n IH]; intros s l; cbn [seq map collect].
  - split; [intros H; injection H as <-; split; [reflexivity|intros i Hi; lia]|]. intros [L _]. destruct l; [reflexivity|discriminate].
  - split.
    + intros H. destruct (f s) as [[a|e]|] eqn:E; try discriminate. cbn [obind] in H. destruct (collect (map f (seq (S s) n))) as [[r|e]|] eqn:C; try discriminate. injection H as <-.
      apply IH in C. destruct C as [L C]. split; [cbn; lia|]. intros [|i] Hi; [rewrite Nat.add_0_r; exact E|]. rewrite Nat.add_succ_r. apply C. lia.
    + intros [L H]. destruct l as [|a l]; [discriminate|]. pose proof (H 0%nat ltac:(lia)) as H0. rewrite Nat.add_0_r in H0. rewrite H0. cbn [nth]. unfold ok at 1. cbn [obind].
      rewrite (proj2 (IH (S s) l)); [reflexivity|]. split; [cbn in L; lia|]. intros i Hi. specialize (H (S i) ltac:(lia)). rewrite Nat.add_succ_r in H. exact H.
Qed.
Lemma collect_total : forall (f : nat -> outcome R) n s, (forall i, (i < n)%nat -> (exists a, f (s + i)%nat = ok a) \/ f (s + i)%nat = throws StdInvalidArgument) ->
  (exists l, collect (map f (seq s n)) = ok l) \/ collect (map f (seq s n)) = throws StdInvalidArgument.
Proof.
  intros f n. induction n as [|n IH]; intros s H; cbn [seq map collect]; [left; exists []; reflexivity|].
  pose proof (H 0%nat ltac:(lia)) as H0. rewrite Nat.add_0_r in H0. destruct H0 as [(a & ->)| ->]; [|now right]. unfold ok at 1 3. cbn [obind].
  destruct (IH (S s)) as [(l & ->)| ->]; [|left; eexists; reflexivity|now right]. intros i Hi. specialize (H (S i) ltac:(lia)). rewrite Nat.add_succ_r in H. exact H.
Qed.

(** ** One component *)
Lemma lngamma_one_eq : forall c T G i Gi, (i < length (c_profiles c))%nat -> sizes_ok (prof c i) = true -> area c i <> 0 -> k_AEFF (c_const c) <> 0 -> get_Gamma c T (pure_psigma c i) = ok Gi ->
  (forall j, (j < 153)%nat -> 0 < G j) -> (forall j, (j < 153)%nat -> 0 < Gi j) -> lngamma_one c T G i = ok (residual (area c i) (k_AEFF (c_const c)) (pure_psigma c i) G Gi).
Proof.
  intros c T G i Gi Hi Sz A0 K0 E PG PGi. unfold lngamma_one. destruct (Nat.leb_spec (length (c_profiles c)) i); [lia|]. rewrite Sz. cbn [negb]. destruct (Req_EM_T (area c i) 0); [contradiction|]. rewrite E. unfold ok at 1. cbn [obind].
  rewrite (osum_val 153 _ (fun j => pure_psigma c i j * (ln (G j) - ln (Gi j)))).
  - cbn [opt_bind]. unfold cdiv. destruct (Req_EM_T (k_AEFF (c_const c)) 0); [contradiction|]. reflexivity.
  - intros j Hj. unfold clog. destruct (Rlt_dec 0 (G j)) as [_|N]; [|exfalso; apply N; auto]. destruct (Rlt_dec 0 (Gi j)) as [_|N]; [|exfalso; apply N; auto]. reflexivity.
Qed.
Lemma lngamma_one_ok : forall c T G i v, lngamma_one c T G i = ok v -> exists Gi, get_Gamma c T (pure_psigma c i) = ok Gi /\ (i < length (c_profiles c))%nat /\ sizes_ok (prof c i) = true /\ area c i <> 0 /\
  (forall j, (j < 153)%nat -> 0 < G j /\ 0 < Gi j) /\ v = residual (area c i) (k_AEFF (c_const c)) (pure_psigma c i) G Gi.
Proof.
  intros c T G i v H. unfold lngamma_one in H. destruct (Nat.leb_spec (length (c_profiles c)) i) as [L|L]; [discriminate|]. destruct (sizes_ok (prof c i)) eqn:Sz; [|discriminate]. cbn [negb] in H. destruct (Req_EM_T (area c i) 0) as [|A0]; [discriminate|].
  destruct (get_Gamma c T (pure_psigma c i)) as [[Gi|e]|] eqn:E; try discriminate. cbn [obind] in H. destruct (osum 153 _) as [s|] eqn:O; [|discriminate]. cbn [opt_bind] in H. unfold cdiv in H. destruct (Req_EM_T (k_AEFF (c_const c)) 0); [discriminate|].
  cbn [opt_bind fin] in H. injection H as <-. exists Gi. destruct (osum_some _ _ _ O) as (g & Hg & ->).
  assert (P : forall j, (j < 153)%nat -> 0 < G j /\ 0 < Gi j /\ g j = pure_psigma c i j * (ln (G j) - ln (Gi j))).
  { intros j Hj. specialize (Hg j Hj). unfold clog in Hg. destruct (Rlt_dec 0 (G j)); [|discriminate]. destruct (Rlt_dec 0 (Gi j)); [|discriminate]. cbn [opt_bind] in Hg. injection Hg as <-. auto. }
  repeat split; try assumption; try (now apply P). unfold residual. f_equal. apply sumn_ext. intros j Hj. now apply P.
Qed.
