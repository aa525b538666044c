(** Proofs about the construction of multifluid mixture models. *)
From Coq Require Import Reals String Ascii List Permutation Lia Lra Bool Psatz.
From Verif Require Import Json_model Util_model Vec_spec Vec_proofs Cubic_model Cubic_spec Cubic_proofs2 Terms_model Multi_model Multi_spec Multi_proofs.
Import ListNotations.
Open Scope R_scope.

(** * Loops *)
Lemma in_pairs : forall N i j, In (i, j) (pairs N) <-> (i < j < N)%nat.
Proof.
  intros N i j. unfold pairs. rewrite in_concat. split.
  - intros [l [Hl Hij]]. apply in_map_iff in Hl. destruct Hl as [a [<- Ha]]. apply in_seq in Ha.
    apply in_map_iff in Hij. destruct Hij as [b [E Hb]]. injection E as -> ->. apply in_seq in Hb. lia.
  - intros H. exists (map (fun j => (i, j)) (seq (S i) (N - S i))). split.
    + apply in_map_iff. exists i. split; auto. apply in_seq. lia.
    + apply in_map_iff. exists j. split; auto. apply in_seq. lia.
Qed.
Lemma map_res_iff : forall A B (f : A -> res B) l bs, map_res f l = Val bs <-> Forall2 (fun a b => f a = Val b) l bs.
Proof.
  induction l as [|a l IH]; intros bs; simpl; split; intros H.
  - injection H as <-. constructor.
  - inversion H. reflexivity.
  - destruct (f a) eqn:E; [|discriminate]. simpl in H. destruct (map_res f l); [|discriminate]. injection H as <-.
    constructor; auto. apply IH. auto.
  - inversion H as [|? b ? bs' E HF]; subst. rewrite E. simpl. apply IH in HF. rewrite HF. reflexivity.
Qed.
Lemma omap_iff : forall A B (f : A -> outcome B) l bs, omap f l = ok bs <-> Forall2 (fun a b => f a = ok b) l bs.
Proof.
  induction l as [|a l IH]; intros bs; simpl; split; intros H.
  - injection H as <-. constructor.
  - inversion H. reflexivity.
  - apply obind_ok in H. destruct H as [b [Eb H]]. apply obind_ok in H. destruct H as [bs' [Ebs H]]. injection H as <-.
    constructor; auto. apply IH. auto.
  - inversion H as [|? b ? bs' E HF]; subst. rewrite E. simpl. apply IH in HF. rewrite HF. reflexivity.
Qed.
Lemma map_res_all : forall A B (f : A -> res B) l, (exists bs, map_res f l = Val bs) <-> (forall a, In a l -> exists b, f a = Val b).
Proof.
  intros A B f l. split.
  - intros [bs H]. apply map_res_iff in H. induction H; intros a0 Ha; simpl in Ha; [contradiction|]. destruct Ha as [<-|Ha]; eauto.
  - induction l as [|a l IH]; intros H; simpl; eauto. destruct (H a (or_introl eq_refl)) as [b ->]. simpl.
    destruct IH as [bs ->]; [intros; apply H; right; auto|]. simpl. eauto.
Qed.
Lemma omap_all : forall A B (f : A -> outcome B) l, (exists bs, omap f l = ok bs) <-> (forall a, In a l -> exists b, f a = ok b).
Proof.
  intros A B f l. split.
  - intros [bs H]. apply omap_iff in H. induction H; intros a0 Ha; simpl in Ha; [contradiction|]. destruct Ha as [<-|Ha]; eauto.
  - induction l as [|a l IH]; intros H; simpl; [unfold ok; eauto|]. destruct (H a (or_introl eq_refl)) as [b ->]. cbn [obind ok].
    destruct IH as [bs ->]; [intros; apply H; right; auto|]. cbn [obind ok]. unfold ok. eauto.
Qed.
Lemma Forall2_nth : forall A B (P : A -> B -> Prop) l bs a b, Forall2 P l bs <->
  length l = length bs /\ forall i, (i < length l)%nat -> P (nth i l a) (nth i bs b).
Proof.
  intros A B P l bs a b. split.
  - induction 1; simpl; split; auto; try lia. intros [|i] Hi; auto. apply IHForall2. lia.
  - revert bs. induction l as [|x l IH]; intros [|y bs] [L H]; simpl in *; try discriminate; constructor.
    + apply (H O). lia. + apply IH. split; auto. intros i Hi. apply (H (S i)). lia.
Qed.
Lemma Forall2_pick : forall A B (P : A -> B -> Prop) l bs r a b, Forall2 P l bs -> Permutation r (seq 0 (length l)) ->
  Forall2 P (pick a r l) (pick b r bs).
Proof.
  intros A B P l bs r a b H Pr. apply (Forall2_nth _ _ _ _ _ a b) in H. destruct H as [L H].
  apply (Forall2_nth _ _ _ _ _ a b). rewrite !pick_length. split; auto. intros i Hi. rewrite !pick_nth' by auto.
  apply H. apply (perm_lt r); auto. apply perm_length in Pr. lia.
Qed.
Lemma pick_perm : forall A (d : A) r l, Permutation r (seq 0 (length l)) -> Permutation l (pick d r l).
Proof.
  intros A d r l P. transitivity (pick d (seq 0 (length l)) l).
  - unfold pick. replace (map (fun i => nth i l d) (seq 0 (length l))) with l; auto.
    clear. induction l as [|a l IH]; simpl; auto. f_equal. rewrite <- seq_shift, map_map. exact IH.
  - unfold pick. apply Permutation_map. symmetry. auto.
Qed.
Lemma Forall2_length : forall A B (P : A -> B -> Prop) l l', Forall2 P l l' -> length l = length l'.
Proof. induction 1; simpl; auto. Qed.
Arguments Forall2_length {A B P l l'}.
Lemma fill_up : forall d u lo i j, (i < j)%nat -> fill d u lo i j = u i j.
Proof. intros. unfold fill. destruct (Nat.ltb_spec i j); [auto|lia]. Qed.
Lemma fill_low : forall d u lo i j, (j < i)%nat -> fill d u lo i j = lo (u j i).
Proof. intros. unfold fill. destruct (Nat.ltb_spec i j); [lia|]. destruct (Nat.ltb_spec j i); [auto|lia]. Qed.

(** * Look-ups in the other order *)
Lemma F_of_sym : forall c a b f, F_of c b a f = F_of c a b f.
Proof.
  intros c a b f. unfold F_of. assert (S := get_BIPdep_sym c a b f).
  destruct (get_BIPdep c b a f) as [[e s]|e], (get_BIPdep c a b f) as [[e' s']|e']; simpl in S; try discriminate;
    injection S as <-; reflexivity.
Qed.
Lemma departure_of_sym : forall d c a b f, departure_of d c b a f = departure_of d c a b f.
Proof.
  intros d c a b f. unfold departure_of. assert (S := get_BIPdep_sym c a b f).
  destruct (get_BIPdep c b a f) as [[e s]|e], (get_BIPdep c a b f) as [[e' s']|e']; simpl in S; try discriminate;
    injection S as <-; reflexivity.
Qed.
Lemma found_sym : forall c a b f, (exists r, get_BIPdep c b a f = Val r) <-> (exists r, get_BIPdep c a b f = Val r).
Proof.
  intros c a b f. assert (S := get_BIPdep_sym c a b f).
  destruct (get_BIPdep c b a f) as [[e s]|e], (get_BIPdep c a b f) as [[e' s']|e']; simpl in *; try discriminate;
    split; intros [r H]; try discriminate; eauto.
Qed.
Lemma bid_swap : forall c a b f T0 T1 v0 v1 p, upper a <> upper b ->
  get_binary_interaction_double c a b f T0 T1 v0 v1 = Val p -> b_betaT p <> 0 -> b_betaV p <> 0 ->
  get_binary_interaction_double c b a f T1 T0 v1 v0 = Val (reversed p).
Proof.
  intros c a b f T0 T1 v0 v1 p N E B1 B2. unfold get_binary_interaction_double in *.
  destruct (get_BIPdep c a b f) as [[el s]|e] eqn:G; [|discriminate]. cbn [bind] in E.
  assert (G' : exists s', get_BIPdep c b a f = Val (el, s') /\ (s' = negb s \/ el = Lorentz_Berthelot /\ s = false /\ s' = false)).
  { destruct (get_BIPdep_swap c a b f el s N G) as [H|[H [H1 H2]]]; [exists (negb s)|exists s]; subst; auto. }
  destruct G' as [s' [G' S]]. rewrite G'. cbn [bind].
  destruct (j_contains el "betaT" && j_contains el "gammaT" && j_contains el "betaV" && j_contains el "gammaV") eqn:K.
  - destruct (bind (j_at el "betaT") j_double) as [bT|] eqn:E1; [|discriminate]. cbn [bind] in *.
    destruct (bind (j_at el "gammaT") j_double) as [gT|] eqn:E2; [|discriminate]. cbn [bind] in *.
    destruct (bind (j_at el "betaV") j_double) as [bV|] eqn:E3; [|discriminate]. cbn [bind] in *.
    destruct (bind (j_at el "gammaV") j_double) as [gV|] eqn:E4; [|discriminate]. cbn [bind] in *.
    destruct S as [->|[-> [-> ->]]].
    + destruct s; injection E as <-; cbn [b_betaT b_betaV negb] in *; f_equal; unfold reversed; cbn [b_betaT b_betaV b_gammaT b_gammaV].
      * f_equal; field; intros ->; unfold Rdiv in *; rewrite Rinv_0 in *; lra.
      * f_equal; unfold Rdiv; ring.
    + simpl in E1, E3. injection E1 as <-. injection E3 as <-. injection E as <-. f_equal. unfold reversed. simpl.
      rewrite !Rinv_1. reflexivity.
  - destruct (j_contains el "xi" && j_contains el "zeta"); [|discriminate].
    destruct (bind (j_at el "xi") j_double) as [xi|]; [|discriminate]. cbn [bind] in *.
    destruct (bind (j_at el "zeta") j_double) as [zeta|]; [|discriminate]. cbn [bind] in *.
    injection E as <-. f_equal. unfold reversed. cbn [b_betaT b_betaV b_gammaT b_gammaV]. rewrite Rinv_1.
    f_equal. { rewrite (Rplus_comm T1), (Rmult_comm T1). reflexivity. }
    rewrite (Rplus_comm v1), (Rplus_comm (1 / Rpower (1 / v1) (1 / 3))). reflexivity.
Qed.

Lemma hashes_perm : forall l l', Permutation l l' -> forall hs, hashes l = Val hs -> exists hs', hashes l' = Val hs' /\ length hs' = length hs.
Proof.
  induction 1 as [|x l l' HP IH|x y l|l1 l2 l3 H1 IH1 H2 IH2]; intros hs E; eauto.
  - simpl in *. destruct (j_at x "INFO"); [|discriminate]. cbn [bind] in *. destruct (j_contains a "HASH"); auto.
    destruct (bind (j_at a "HASH") j_string); [|discriminate]. cbn [bind] in *. destruct (hashes l); [|discriminate].
    cbn [bind] in *. injection E as <-. destruct (IH a1 eq_refl) as [hs' [-> L]]. cbn [bind]. eexists. split; [reflexivity|]. simpl. auto.
  - simpl in *. destruct (j_at x "INFO") as [ix|], (j_at y "INFO") as [iy|]; try discriminate; cbn [bind] in *; try discriminate.
    + destruct (j_contains ix "HASH"), (j_contains iy "HASH"); eauto.
      * destruct (bind (j_at ix "HASH") j_string), (bind (j_at iy "HASH") j_string); cbn [bind] in *; try discriminate.
        destruct (hashes l); cbn [bind] in *; [|discriminate]. injection E as <-. eexists. split; [reflexivity|]. reflexivity.
    + destruct (j_contains iy "HASH"); try discriminate. destruct (bind (j_at iy "HASH") j_string); discriminate.
  - destruct (IH1 _ E) as [hs' [E' L']]. destruct (IH2 _ E') as [hs'' [E'' L'']]. exists hs''. split; auto. lia.
Qed.
Lemma hashes_full : forall l hs, hashes l = Val hs -> (length hs <= length l)%nat /\
  (length hs = length l <-> Forall2 (fun j h => info j "HASH" = Val h) l hs).
Proof.
  induction l as [|j l IH]; simpl; intros hs E. { injection E as <-. split; auto. split; constructor. }
  unfold info at 1. destruct (j_at j "INFO") as [i|] eqn:Ei; [|discriminate]. cbn [bind] in *.
  destruct (j_contains i "HASH") eqn:C.
  - destruct (bind (j_at i "HASH") j_string) eqn:Eh; [|discriminate]. cbn [bind] in *. destruct (hashes l) as [hs'|]; [|discriminate].
    cbn [bind] in *. injection E as <-. destruct (IH hs' eq_refl) as [I1 I2]. simpl. split; [lia|]. split.
    + intros Q. constructor. { unfold info. rewrite Ei. cbn [bind]. exact Eh. } apply I2. lia.
    + intros Q. inversion Q; subst. f_equal. apply I2. auto.
  - destruct (IH hs E) as [I1 I2]. split; [lia|]. split; [lia|]. intros Q. apply Forall2_length in Q. simpl in Q. lia.
Qed.
Lemma hashes_of_full : forall l hs, Forall2 (fun j h => info j "HASH" = Val h) l hs -> hashes l = Val hs.
Proof.
  induction 1 as [|j h l hs E HF IH]; simpl; auto. unfold info in E. destruct (j_at j "INFO") as [i|]; [|discriminate]. cbn [bind] in *.
  destruct (j_at i "HASH") eqn:Eh; [|discriminate]. rewrite (contains_at _ _ _ Eh). cbn [bind] in *. rewrite E. cbn [bind].
  rewrite IH. reflexivity.
Qed.

(** * The matrices of a relabelled mixture *)
Section Relabel.
Variables (r : list nat) (N : nat).
Hypothesis P : Permutation r (seq 0 N).
Let Lr : length r = N := perm_length r N P.

Lemma F_relabelled : forall c ids f F, length ids = N -> get_F_matrix c ids f = Val F ->
  exists F', get_F_matrix c (pick EmptyString r ids) f = Val F' /\ matrix_pick N r F F' /\ symmetric N F.
Proof.
  intros c ids f F L E. unfold get_F_matrix in *.
  destruct (map_res _ (pairs (length ids))) as [vs|] eqn:M in E; [|discriminate]. cbn [bind] in E. injection E as <-.
  assert (A : exists vs, map_res (fun '(i, j) => F_of c (nth i ids EmptyString) (nth j ids EmptyString) f) (pairs (length ids)) = Val vs) by eauto.
  rewrite map_res_all in A. clear M vs.
  assert (A' : exists vs, map_res (fun '(i, j) => F_of c (nth i (pick EmptyString r ids) EmptyString) (nth j (pick EmptyString r ids) EmptyString) f)
     (pairs (length (pick EmptyString r ids))) = Val vs).
  { apply map_res_all. intros [i j] Hij. rewrite pick_length, Lr in Hij. apply in_pairs in Hij. rewrite !pick_nth' by lia.
    assert (Hi := perm_lt r N i P ltac:(lia)). assert (Hj := perm_lt r N j P ltac:(lia)).
    assert (Ne := perm_inj r N i j P ltac:(lia) ltac:(lia) ltac:(lia)).
    destruct (Nat.lt_ge_cases (nth i r O) (nth j r O)).
    - apply (A (nth i r O, nth j r O)). apply in_pairs. lia.
    - rewrite F_of_sym. apply (A (nth j r O, nth i r O)). apply in_pairs. lia. }
  destruct A' as [vs ->]. cbn [bind]. eexists. split; [reflexivity|]. split.
  - intros i j Hi Hj Ne. assert (Hi' := perm_lt r N i P Hi). assert (Hj' := perm_lt r N j P Hj).
    assert (Ne' := perm_inj r N i j P Hi Hj Ne).
    destruct (Nat.lt_ge_cases i j); [rewrite fill_up by auto|rewrite fill_low by lia]; rewrite !pick_nth' by lia;
    (destruct (Nat.lt_ge_cases (nth i r O) (nth j r O)); [rewrite fill_up by auto|rewrite fill_low by lia]); auto; rewrite F_of_sym; auto.
  - intros i j Hi Hj Ne. destruct (Nat.lt_ge_cases i j);
      [rewrite fill_up by auto; rewrite fill_low by auto|rewrite fill_low by lia; rewrite fill_up by lia]; auto.
Qed.
Lemma dep_relabelled : forall d c ids f dep, length ids = N -> get_departures d c ids f = ok dep ->
  exists dep', get_departures d c (pick EmptyString r ids) f = ok dep' /\
    (forall i j, (i < N)%nat -> (j < N)%nat -> i <> j -> dep' i j = dep (nth i r O) (nth j r O)) /\
    (forall i j, (i < N)%nat -> (j < N)%nat -> i <> j -> dep i j = dep j i).
Proof.
  intros d c ids f dep L E. unfold get_departures in *. apply obind_ok in E. destruct E as [ts [M E]].
  apply (f_equal (fun o : outcome (nat -> nat -> list term) => match o with Some (Val x) => x | _ => dep end)) in E. cbv beta iota delta [ok] in E. subst dep.
  assert (A : exists vs, omap (fun '(i, j) => departure_of d c (nth i ids EmptyString) (nth j ids EmptyString) f) (pairs (length ids)) = ok vs) by eauto.
  rewrite omap_all in A. clear M ts.
  assert (A' : exists vs, omap (fun '(i, j) => departure_of d c (nth i (pick EmptyString r ids) EmptyString) (nth j (pick EmptyString r ids) EmptyString) f)
     (pairs (length (pick EmptyString r ids))) = ok vs).
  { apply omap_all. intros [i j] Hij. rewrite pick_length, Lr in Hij. apply in_pairs in Hij. rewrite !pick_nth' by lia.
    assert (Hi := perm_lt r N i P ltac:(lia)). assert (Hj := perm_lt r N j P ltac:(lia)).
    assert (Ne := perm_inj r N i j P ltac:(lia) ltac:(lia) ltac:(lia)).
    destruct (Nat.lt_ge_cases (nth i r O) (nth j r O)).
    - apply (A (nth i r O, nth j r O)). apply in_pairs. lia.
    - rewrite departure_of_sym. apply (A (nth j r O, nth i r O)). apply in_pairs. lia. }
  destruct A' as [vs ->]. cbn [obind ok]. eexists. split; [reflexivity|]. split.
  - intros i j Hi Hj Ne. assert (Hi' := perm_lt r N i P Hi). assert (Hj' := perm_lt r N j P Hj).
    assert (Ne' := perm_inj r N i j P Hi Hj Ne). rewrite !pick_nth' by lia.
    destruct (Nat.ltb_spec i j), (Nat.ltb_spec (nth i r O) (nth j r O)); auto.
    + destruct (Nat.ltb_spec (nth j r O) (nth i r O)); [|lia]. rewrite departure_of_sym. auto.
    + destruct (Nat.ltb_spec j i); [|lia]. rewrite departure_of_sym. auto.
    + destruct (Nat.ltb_spec j i); [|lia]. destruct (Nat.ltb_spec (nth j r O) (nth i r O)); [|lia]. auto.
  - intros i j Hi Hj Ne. destruct (Nat.ltb_spec i j), (Nat.ltb_spec j i); auto; lia.
Qed.
Lemma bips_relabelled : forall c ids f Tc vc b, length ids = N -> distinct ids -> length Tc = N -> length vc = N ->
  get_BIP_matrices c ids f Tc vc = Val b ->
  (forall i j, (i < N)%nat -> (j < N)%nat -> i <> j -> m_betaT b i j <> 0 /\ m_betaV b i j <> 0) ->
  (exists b', get_BIP_matrices c (pick EmptyString r ids) f (pick 0 r Tc) (pick 0 r vc) = Val b' /\
    matrix_pick N r (m_betaT b) (m_betaT b') /\ matrix_pick N r (m_gammaT b) (m_gammaT b') /\
    matrix_pick N r (m_betaV b) (m_betaV b') /\ matrix_pick N r (m_gammaV b) (m_gammaV b')) /\
  reciprocal N (m_betaT b) /\ symmetric N (m_gammaT b) /\ reciprocal N (m_betaV b) /\ symmetric N (m_gammaV b).
Proof.
  intros c ids f Tc vc b L D LT Lv E NZ. unfold get_BIP_matrices in E.
  set (look := fun i j => get_binary_interaction_double c (nth i ids EmptyString) (nth j ids EmptyString) f
                    (nth i Tc 0) (nth j Tc 0) (nth i vc 0) (nth j vc 0)) in *.
  change (bind (map_res (fun '(i, j) => look i j) (pairs (length ids))) (fun _ => Val {| m_betaT := fill 0 (fun i j => b_betaT (value bip0 (look i j))) (fun b => 1 / b);
         m_gammaT := fill 0 (fun i j => b_gammaT (value bip0 (look i j))) (fun g => g);
         m_betaV := fill 0 (fun i j => b_betaV (value bip0 (look i j))) (fun b => 1 / b);
         m_gammaV := fill 0 (fun i j => b_gammaV (value bip0 (look i j))) (fun g => g) |}) = Val b) in E.
  destruct (map_res (fun '(i, j) => look i j) (pairs (length ids))) as [vs|] eqn:M; [|discriminate]. cbn [bind] in E. injection E as <-.
  cbn [m_betaT m_betaV m_gammaT m_gammaV] in *.
  assert (A : exists vs, map_res (fun '(i, j) => look i j) (pairs (length ids)) = Val vs) by eauto.
  rewrite map_res_all in A. clear M vs.
  (* every pair, in either order *)
  assert (UP : forall i j, (i < j < N)%nat -> exists p, look i j = Val p /\ b_betaT p <> 0 /\ b_betaV p <> 0).
  { intros i j Hij. destruct (A (i, j)) as [p Hp]; [apply in_pairs; lia|]. exists p. split; auto.
    destruct (NZ i j) as [Z1 Z2]; try lia. rewrite !fill_up in Z1, Z2 by lia. rewrite Hp in Z1, Z2. auto. }
  assert (LOW : forall i j, (j < i < N)%nat -> exists p, look j i = Val p /\ look i j = Val (reversed p) /\ b_betaT p <> 0 /\ b_betaV p <> 0).
  { intros i j Hij. destruct (UP j i ltac:(lia)) as [p [Hp [Z1 Z2]]]. exists p. repeat split; auto.
    apply bid_swap; auto. intros Q. apply upper_spec in Q. apply (D j i) in Q; auto; lia. }
  assert (VAL : forall g gr lo, (forall p, b_betaT p <> 0 -> b_betaV p <> 0 -> lo (g p) = g (reversed p)) -> (gr = lo) ->
     forall i j, (i < N)%nat -> (j < N)%nat -> i <> j -> fill 0 (fun i j => g (value bip0 (look i j))) gr i j = g (value bip0 (look i j))).
  { intros g gr lo H -> i j Hi Hj Ne. destruct (Nat.lt_ge_cases i j); [rewrite fill_up by auto; auto|rewrite fill_low by lia].
    destruct (LOW i j ltac:(lia)) as [p (H1 & H2 & H3 & H4)]. rewrite H1, H2. cbn [value]. apply H; auto. }
  assert (VbT := VAL b_betaT _ (fun b => 1 / b) ltac:(intros p ? ?; unfold reversed, Rdiv; simpl; ring) eq_refl).
  assert (VbV := VAL b_betaV _ (fun b => 1 / b) ltac:(intros p ? ?; unfold reversed, Rdiv; simpl; ring) eq_refl).
  assert (VgT := VAL b_gammaT _ (fun b => b) ltac:(intros; reflexivity) eq_refl).
  assert (VgV := VAL b_gammaV _ (fun b => b) ltac:(intros; reflexivity) eq_refl). clear VAL.
  assert (VAL' : forall i j, (i < N)%nat -> (j < N)%nat -> i <> j -> exists p, look i j = Val p /\ look j i = Val (reversed p) /\ b_betaT p <> 0 /\ b_betaV p <> 0).
  { intros i j Hi Hj Ne. destruct (Nat.lt_ge_cases i j).
    - destruct (LOW j i ltac:(lia)) as [p (H1 & H2 & H3 & H4)]. exists p. auto.
    - destruct (LOW i j ltac:(lia)) as [p (H1 & H2 & H3 & H4)]. exists (reversed p). split; auto. split.
      + rewrite H1. f_equal. unfold reversed. simpl. rewrite !Rinv_inv by auto. destruct p; reflexivity.
      + simpl. split; apply Rinv_neq_0_compat; auto. }
  split.
  - set (look' := fun i j => get_binary_interaction_double c (nth i (pick EmptyString r ids) EmptyString) (nth j (pick EmptyString r ids) EmptyString) f
                    (nth i (pick 0 r Tc) 0) (nth j (pick 0 r Tc) 0) (nth i (pick 0 r vc) 0) (nth j (pick 0 r vc) 0)).
    unfold get_BIP_matrices.
    change (exists b', bind (map_res (fun '(i, j) => look' i j) (pairs (length (pick EmptyString r ids)))) (fun _ => Val {| m_betaT := fill 0 (fun i j => b_betaT (value bip0 (look' i j))) (fun b => 1 / b);
         m_gammaT := fill 0 (fun i j => b_gammaT (value bip0 (look' i j))) (fun g => g);
         m_betaV := fill 0 (fun i j => b_betaV (value bip0 (look' i j))) (fun b => 1 / b);
         m_gammaV := fill 0 (fun i j => b_gammaV (value bip0 (look' i j))) (fun g => g) |}) = Val b' /\
      matrix_pick N r (fill 0 (fun i j => b_betaT (value bip0 (look i j))) (fun b => 1 / b)) (m_betaT b') /\
      matrix_pick N r (fill 0 (fun i j => b_gammaT (value bip0 (look i j))) (fun g => g)) (m_gammaT b') /\
      matrix_pick N r (fill 0 (fun i j => b_betaV (value bip0 (look i j))) (fun b => 1 / b)) (m_betaV b') /\
      matrix_pick N r (fill 0 (fun i j => b_gammaV (value bip0 (look i j))) (fun g => g)) (m_gammaV b')).
    assert (LK : forall i j, (i < N)%nat -> (j < N)%nat -> look' i j = look (nth i r O) (nth j r O)).
    { intros i j Hi Hj. unfold look', look. rewrite !pick_nth' by lia. reflexivity. }
    assert (A' : exists vs, map_res (fun '(i, j) => look' i j) (pairs (length (pick EmptyString r ids))) = Val vs).
    { apply map_res_all. intros [i j] Hij. rewrite pick_length, Lr in Hij. apply in_pairs in Hij. rewrite LK by lia.
      destruct (VAL' (nth i r O) (nth j r O)) as [p [Hp _]]; eauto using perm_lt.
      - apply (perm_lt r N); auto; lia. - apply (perm_lt r N); auto; lia. - apply (perm_inj r N); auto; lia. }
    destruct A' as [vs ->]. cbn [bind]. eexists. split; [reflexivity|]. cbn [m_betaT m_betaV m_gammaT m_gammaV].
    assert (G : forall g lo, (forall p, b_betaT p <> 0 -> b_betaV p <> 0 -> lo (g p) = g (reversed p)) ->
      forall i j, (i < N)%nat -> (j < N)%nat -> i <> j ->
      fill 0 (fun i j => g (value bip0 (look' i j))) lo i j = g (value bip0 (look (nth i r O) (nth j r O)))).
    { intros g lo H i j Hi Hj Ne. destruct (Nat.lt_ge_cases i j); [rewrite fill_up by auto; rewrite LK by auto; auto|rewrite fill_low by lia; rewrite LK by auto].
      destruct (VAL' (nth j r O) (nth i r O)) as [p (H1 & H2 & H3 & H4)]; try (apply (perm_lt r N); auto; fail).
      { apply (perm_inj r N); auto. } rewrite H1, H2. cbn [value]. apply H; auto. }
    repeat split; intros i j Hi Hj Ne;
      assert (Hi' := perm_lt r N i P Hi); assert (Hj' := perm_lt r N j P Hj); assert (Ne' := perm_inj r N i j P Hi Hj Ne).
    + rewrite VbT by auto. apply G; auto. intros; unfold reversed, Rdiv; simpl; ring.
    + rewrite VgT by auto. apply G; auto.
    + rewrite VbV by auto. apply G; auto. intros; unfold reversed, Rdiv; simpl; ring.
    + rewrite VgV by auto. apply G; auto.
  - repeat split; intros i j Hi Hj Ne; destruct (VAL' i j Hi Hj Ne) as [p (H1 & H2 & H3 & H4)].
    + rewrite !VbT by auto. rewrite H1, H2. simpl. field. auto.
    + rewrite !VgT by auto. rewrite H1, H2. reflexivity.
    + rewrite !VbV by auto. rewrite H1, H2. simpl. field. auto.
    + rewrite !VgV by auto. rewrite H1, H2. reflexivity.
Qed.

(** the choice of identifiers *)
Definition same_ids (s s' : string * list string) : Prop := fst s' = fst s /\ length (snd s) = N /\ snd s' = pick EmptyString r (snd s).
Lemma try_relabelled : forall c ids f, length ids = N ->
  (exists v, map_res (fun '(i, j) => get_BIPdep c (nth i ids EmptyString) (nth j ids EmptyString) f) (pairs (length ids)) = Val v) <->
  (exists v, map_res (fun '(i, j) => get_BIPdep c (nth i (pick EmptyString r ids) EmptyString) (nth j (pick EmptyString r ids) EmptyString) f)
     (pairs (length (pick EmptyString r ids))) = Val v).
Proof.
  intros c ids f L. rewrite !map_res_all. rewrite pick_length, Lr, L. split; intros A [i j] Hij; apply in_pairs in Hij.
  - rewrite !pick_nth' by lia.
    assert (Hi := perm_lt r N i P ltac:(lia)). assert (Hj := perm_lt r N j P ltac:(lia)).
    assert (Ne := perm_inj r N i j P ltac:(lia) ltac:(lia) ltac:(lia)).
    destruct (Nat.lt_ge_cases (nth i r O) (nth j r O)).
    + apply (A (nth i r O, nth j r O)). apply in_pairs. lia.
    + apply found_sym. apply (A (nth j r O, nth i r O)). apply in_pairs. lia.
  - assert (IN : forall k, (k < N)%nat -> exists q, (q < N)%nat /\ nth q r O = k).
    { intros k Hk. assert (In k r) by (apply (Permutation_in _ (Permutation_sym P)); apply in_seq; lia).
      destruct (In_nth r k O H) as [q [Hq Eq]]. exists q. split; auto. lia. }
    destruct (IN i ltac:(lia)) as [p [Hp Ep]], (IN j ltac:(lia)) as [q [Hq Eq]].
    assert (p <> q) by (intros ->; lia).
    destruct (Nat.lt_ge_cases p q).
    + assert (A1 := A (p, q) ltac:(apply in_pairs; lia)). simpl in A1. rewrite !pick_nth' in A1 by lia. rewrite Ep, Eq in A1. exact A1.
    + assert (A1 := A (q, p) ltac:(apply in_pairs; lia)). simpl in A1. rewrite !pick_nth' in A1 by lia. rewrite Ep, Eq in A1.
      apply found_sym. exact A1.
Qed.
Lemma select_relabelled : forall c f set set', Forall2 same_ids set set' -> select_identifier c set' f = select_identifier c set f.
Proof.
  intros c f set set' H. induction H as [|[k ids] [k' ids'] set set' [H1 [H2 H3]] HF IH]; simpl in *; auto. subst.
  assert (T := try_relabelled c ids f H2).
  destruct (map_res (fun '(i, j) => get_BIPdep c (nth i (pick EmptyString r ids) EmptyString) (nth j (pick EmptyString r ids) EmptyString) f)
     (pairs (length (pick EmptyString r ids)))), (map_res (fun '(i, j) => get_BIPdep c (nth i ids EmptyString) (nth j ids EmptyString) f) (pairs (length ids))); auto.
  - destruct (proj2 T) as [v Q]; [eauto|discriminate]. - destruct (proj1 T) as [v Q]; [eauto|discriminate].
Qed.
Lemma lookup_relabelled : forall k set set' ids, Forall2 same_ids set set' -> lookup k set = Some ids ->
  lookup k set' = Some (pick EmptyString r ids) /\ length ids = N.
Proof.
  intros k set set' ids H. induction H as [|[k1 ids1] [k' ids'] set set' [H1 [H2 H3]] HF IH]; simpl in *; [discriminate|]. subst.
  destruct (String.eqb k k1); auto. injection 1 as <-. auto.
Qed.
Lemma collect_relabelled : forall l set, length l = N -> collect_identifiers l = Val set ->
  exists set', collect_identifiers (pick JNull r l) = Val set' /\ Forall2 same_ids set set'.
Proof.
  intros l set L E. unfold collect_identifiers in *.
  destruct (map_res (fun j => info j "NAME") l) as [nm|] eqn:E1; [|discriminate]. cbn [bind] in E.
  destruct (map_res (fun j => info j "CAS") l) as [cs|] eqn:E2; [|discriminate]. cbn [bind] in E.
  destruct (map_res (fun j => info j "REFPROP_NAME") l) as [rp|] eqn:E3; [|discriminate]. cbn [bind] in E.
  destruct (hashes l) as [hs|] eqn:E4; [|discriminate]. cbn [bind] in E. injection E as <-.
  assert (Pl : Permutation r (seq 0 (length l))) by (rewrite L; auto).
  apply map_res_iff in E1, E2, E3.
  assert (L1 := Forall2_length E1). assert (L2 := Forall2_length E2). assert (L3 := Forall2_length E3).
  rewrite (proj2 (map_res_iff _ _ (fun j => info j "NAME") _ _) (Forall2_pick _ _ _ _ _ r JNull EmptyString E1 Pl)). cbn [bind].
  rewrite (proj2 (map_res_iff _ _ (fun j => info j "CAS") _ _) (Forall2_pick _ _ _ _ _ r JNull EmptyString E2 Pl)). cbn [bind].
  rewrite (proj2 (map_res_iff _ _ (fun j => info j "REFPROP_NAME") _ _) (Forall2_pick _ _ _ _ _ r JNull EmptyString E3 Pl)). cbn [bind].
  destruct (hashes_perm _ _ (pick_perm _ JNull r l Pl) _ E4) as [hs' [E5 L5]]. rewrite E5. cbn [bind].
  eexists. split; [reflexivity|]. rewrite pick_length, Lr, L5, <- L2, L.
  assert (T : forall k ids, length l = length ids -> same_ids (k, ids) (k, pick EmptyString r ids)).
  { intros k ids Hl. split; [|split]; simpl; auto. lia. }
  simpl app. constructor; [apply T; auto|]. constructor; [apply T; auto|]. constructor; [apply T; auto|].
  destruct (Nat.eqb_spec (length hs) N) as [Q|Q]; constructor; [|constructor].
  assert (HF := proj1 (proj2 (hashes_full _ _ E4)) ltac:(lia)).
  assert (HF' := Forall2_pick _ _ _ _ _ r JNull EmptyString HF Pl). apply hashes_of_full in HF'. rewrite E5 in HF'. injection HF' as ->.
  apply T. lia.
Qed.
End Relabel.

(** * A built model *)
Lemma select_in : forall c f set key, select_identifier c set f = Val key -> exists ids, lookup key set = Some ids.
Proof.
  intros c f set key. induction set as [|[k ids] set IH]; simpl; [discriminate|].
  destruct (String.eqb_spec key k) as [->|N]; [eauto|].
  destruct (map_res _ (pairs (length ids))); auto. injection 1 as ->. congruence.
Qed.
Lemma lookup_length : forall pures set key ids, collect_identifiers pures = Val set -> lookup key set = Some ids -> length ids = length pures.
Proof.
  intros pures set key ids E. unfold collect_identifiers in E.
  destruct (map_res (fun j => info j "NAME") pures) as [nm|] eqn:E1; [|discriminate]. cbn [bind] in E.
  destruct (map_res (fun j => info j "CAS") pures) as [cs|] eqn:E2; [|discriminate]. cbn [bind] in E.
  destruct (map_res (fun j => info j "REFPROP_NAME") pures) as [rp|] eqn:E3; [|discriminate]. cbn [bind] in E.
  destruct (hashes pures) as [hs|] eqn:E4; [|discriminate]. cbn [bind] in E. injection E as <-.
  apply map_res_iff in E1, E2, E3. apply Forall2_length in E1, E2, E3.
  simpl. repeat match goal with |- context [String.eqb ?a ?b] => destruct (String.eqb a b) end;
    try (injection 1 as <-; auto; fail).
  destruct (Nat.eqb_spec (length hs) (length cs)); simpl; [|discriminate].
  destruct (String.eqb key "hash"); [|discriminate]. injection 1 as <-. lia.
Qed.
Record built (pures : list json) (B D flags : json) (m : multifluid) (Tcvc : list (R * R)) (EOSs : list (list term)) (Rvals : list R)
    (ids : list string) (F : nat -> nat -> R) (dep : nat -> nat -> list term) (b : bips) (rm : json) : Prop := {
  bu_Tcvc : omap get_Tcvc1 pures = ok Tcvc;
  bu_EOSs : omap get_EOS1 pures = ok EOSs;
  bu_Rvals : omap get_R1 pures = ok Rvals;
  bu_ids : chosen_identifiers pures B flags ids;
  bu_F : get_F_matrix B ids flags = Val F;
  bu_dep : get_departures D B ids flags = ok dep;
  bu_bips : get_BIP_matrices B ids flags (map fst Tcvc) (map snd Tcvc) = Val b;
  bu_rm : (if j_contains flags "Rmodel" then Some (j_at flags "Rmodel") else ok JNull) = ok rm;
  bu_m : m = {| mf_red := GERGreducing b (map fst Tcvc) (map snd Tcvc); mf_eos := map terms_alphar EOSs; mf_F := F;
    mf_dep := fun i j => terms_alphar (dep i j);
    mf_R := if match rm with JStr s => String.eqb s "CODATA" | _ => false end then CODATA else MoleFractionWeighted Rvals |} }.
Lemma some_ok : forall A (x : res A) a, Some x = ok a -> x = Val a.
Proof. intros A x a E. injection E as ->. reflexivity. Qed.
Lemma build_inv : forall pures B D flags m, build_multifluid pures B D flags = ok m ->
  exists Tcvc EOSs Rvals ids F dep b rm, built pures B D flags m Tcvc EOSs Rvals ids F dep b rm.
Proof.
  intros pures B D flags m E. unfold build_multifluid in E.
  apply obind_ok in E. destruct E as [Tcvc [E1 E]]. apply obind_ok in E. destruct E as [EOSs [E2 E]].
  apply obind_ok in E. destruct E as [Rvals [E3 E]]. apply obind_ok in E. destruct E as [set [E4 E]]. apply some_ok in E4.
  apply obind_ok in E. destruct E as [key [E5 E]]. apply some_ok in E5.
  destruct (select_in _ _ _ _ E5) as [ids E6]. cbv zeta in E. rewrite E6 in E.
  apply obind_ok in E. destruct E as [F [E7 E]]. apply some_ok in E7. apply obind_ok in E. destruct E as [dep [E8 E]].
  apply obind_ok in E. destruct E as [b [E9 E]]. apply some_ok in E9. apply obind_ok in E. destruct E as [rm [E10 E]].
  exists Tcvc, EOSs, Rvals, ids, F, dep, b, rm. constructor; auto.
  - exists set, key. auto.
  - apply (f_equal (fun o : outcome multifluid => match o with Some (Val x) => x | _ => m end)) in E. symmetry. exact E.
Qed.
Lemma build_of : forall pures B D flags m Tcvc EOSs Rvals ids F dep b rm,
  built pures B D flags m Tcvc EOSs Rvals ids F dep b rm -> build_multifluid pures B D flags = ok m.
Proof.
  intros pures B D flags m Tcvc EOSs Rvals ids F dep b rm [E1 E2 E3 [set [key [E4 [E5 E6]]]] E7 E8 E9 E10 ->].
  unfold build_multifluid. rewrite E1. cbn [obind ok]. rewrite E2. cbn [obind ok]. rewrite E3. cbn [obind ok].
  rewrite E4. cbn [obind ok]. rewrite E5. cbn [obind ok]. rewrite E6. rewrite E7. cbn [obind ok]. rewrite E8. cbn [obind ok].
  rewrite E9. cbn [obind ok]. unfold ok in E10. destruct (j_contains flags "Rmodel"); [apply some_ok in E10; rewrite E10|injection E10 as <-]; reflexivity.
Qed.
Lemma map_pick : forall A B (f : A -> B) d r l, map f (pick d r l) = pick (f d) r (map f l).
Proof. intros. unfold pick. rewrite map_map. apply map_ext. intros. symmetry. apply map_nth. Qed.
Lemma pick_default : forall A (d d' : A) r l, (forall i, In i r -> (i < length l)%nat) -> pick d r l = pick d' r l.
Proof. intros. unfold pick. apply map_ext_in. intros. apply nth_indep. auto. Qed.
Lemma build_relabelled : forall pures B D flags m r, build_multifluid pures B D flags = ok m ->
  Permutation r (seq 0 (length pures)) ->
  (forall ids, chosen_identifiers pures B flags ids -> distinct ids) ->
  (forall i j, (i < length pures)%nat -> (j < length pures)%nat -> i <> j ->
     get_BIP m i j "betaT" <> Val 0 /\ get_BIP m i j "betaV" <> Val 0) ->
  exists m', build_multifluid (pick JNull r pures) B D flags = ok m' /\ relabelled r m m' /\ consistent m /\
    length (mf_eos m) = length pures /\
    (match mf_R m, mf_R m' with MoleFractionWeighted Rs, MoleFractionWeighted Rs' => length Rs = length pures /\ Rs' = pick 0 r Rs
                               | CODATA, CODATA => True | _, _ => False end).
Proof.
  intros pures B D flags m r E P DI NZ. set (N := length pures) in *.
  destruct (build_inv _ _ _ _ _ E) as (Tcvc & EOSs & Rvals & ids & F & dep & b & rm & BU).
  destruct BU as [E1 E2 E3 E4 E7 E8 E9 E10 Em]. specialize (DI ids E4).
  destruct E4 as [set [key [C1 [C2 C3]]]].
  assert (Lids := lookup_length _ _ _ _ C1 C3).
  destruct (collect_relabelled r N P pures set eq_refl C1) as [set' [C1' S]].
  destruct (lookup_relabelled r N key _ _ _ S C3) as [C3' _].
  assert (C2' := select_relabelled r N P B flags _ _ S). rewrite C2 in C2'.
  apply omap_iff in E1, E2, E3. assert (L1 := Forall2_length E1). assert (L2 := Forall2_length E2). assert (L3 := Forall2_length E3).
  fold N in Lids, L1, L2, L3.
  assert (RT : forall i, In i r -> (i < N)%nat) by (intros i Hi; apply (Permutation_in _ P) in Hi; apply in_seq in Hi; lia).
  destruct (F_relabelled r N P B ids flags F Lids E7) as [F' [E7' [MF SF]]].
  destruct (dep_relabelled r N P D B ids flags dep Lids E8) as [dep' [E8' [MD SD]]].
  assert (NZ' : forall i j, (i < N)%nat -> (j < N)%nat -> i <> j -> m_betaT b i j <> 0 /\ m_betaV b i j <> 0).
  { intros i j Hi Hj Ne. destruct (NZ i j Hi Hj Ne) as [Z1 Z2]. rewrite Em in Z1, Z2. unfold get_BIP in Z1, Z2.
    cbn [mf_eos mf_red mf_F] in *. rewrite map_length in *.
    assert (Q1 : String.eqb "betaT" "F" || String.eqb "betaT" "Fij" = false) by reflexivity.
    assert (Q2 : String.eqb "betaV" "F" || String.eqb "betaV" "Fij" = false) by reflexivity.
    rewrite Q1 in Z1. rewrite Q2 in Z2. cbn [andb] in *. unfold red_get_BIP in *. cbn [red_size] in *. rewrite map_length in *.
    simpl get_mat in *. cbn [bind] in *. rewrite <- L1 in *.
    destruct (Nat.ltb_spec i N); [|lia]. destruct (Nat.ltb_spec j N); [|lia]. cbn [andb] in *. split; congruence. }
  destruct (bips_relabelled r N P B ids flags (map fst Tcvc) (map snd Tcvc) b Lids DI) as [[b' [E9' M]] RC]; auto; try (rewrite map_length; auto; fail).
  eexists. split; [|split; [|split; [|split]]].
  - eapply build_of. constructor.
    + apply omap_iff. apply (Forall2_pick _ _ _ _ _ r JNull (0, 0) E1 P).
    + apply omap_iff. apply (Forall2_pick _ _ _ _ _ r JNull [] E2 P).
    + apply omap_iff. apply (Forall2_pick _ _ _ _ _ r JNull 0 E3 P).
    + exists set', key. split; [exact C1'|]. split; [exact C2'|]. exact C3'.
    + exact E7'. + exact E8'.
    + rewrite !map_pick. exact E9'.
    + exact E10. + reflexivity.
  - rewrite Em. constructor; cbn [mf_eos mf_red mf_F mf_dep]; rewrite ?map_length, ?pick_length; rewrite <- ?L2.
    + simpl. rewrite !map_length, !map_pick. cbn [fst snd]. split; [auto|]. split; [auto|]. split; [reflexivity|]. split; [reflexivity|]. exact M.
    + apply (perm_length _ _ P).
    + intros i Hi. rewrite map_pick.
      rewrite (nth_error_nth' (pick (terms_alphar []) r (map terms_alphar EOSs)) (terms_alphar [])) by (rewrite pick_length, (perm_length _ _ P); auto).
      rewrite pick_nth' by (rewrite (perm_length _ _ P); auto). symmetry. apply nth_error_nth'. rewrite map_length, <- L2. apply (perm_lt r N); auto.
    + exact MF.
    + intros i j Hi Hj Ne tau delta. rewrite MD by auto. reflexivity.
  - rewrite Em. constructor; cbn [mf_eos mf_red mf_F mf_dep]; rewrite ?map_length; rewrite <- ?L2.
    + exact RC. + exact SF. + intros i j Hi Hj Ne tau delta. rewrite SD by auto. reflexivity.
  - rewrite Em. cbn [mf_eos]. rewrite map_length. auto.
  - rewrite Em. cbn [mf_R]. destruct (match rm with JStr s => String.eqb s "CODATA" | _ => false end); auto.
Qed.

(** * Alias maps *)
Lemma field_info : forall j k v, info j k = Val v <-> field j k v.
Proof.
  intros j k v. unfold info, field. split.
  - destruct (j_at j "INFO") as [i|] eqn:E; [|discriminate]. cbn [bind]. destruct (j_at i k) as [w|] eqn:Ew; [|discriminate].
    cbn [bind]. destruct w; try discriminate. injection 1 as ->. exists i. auto.
  - intros [i [E1 E2]]. rewrite E1. cbn [bind]. rewrite E2. reflexivity.
Qed.
Definition subset {A} (m m' : list (string * A)) : Prop := forall k v, lookup k m = Some v -> lookup k m' = Some v.
Lemma add_alias_spec : forall v p m m', add_alias v p m = Val m' ->
  lookup v m = None /\ subset m m' /\ lookup v m' = Some p /\ (forall k q, lookup k m' = Some q -> lookup k m = Some q \/ (k = v /\ q = p)).
Proof.
  intros v p m m'. unfold add_alias. destruct (lookup v m) eqn:E; [discriminate|]. injection 1 as <-.
  split; auto. split; [|split].
  - intros k q Hk. simpl. destruct (String.eqb_spec k v); [congruence|auto].
  - simpl. rewrite String.eqb_refl. reflexivity.
  - intros k q. simpl. destruct (String.eqb_spec k v) as [->|]; auto. injection 1 as <-. auto.
Qed.
Lemma add_aliases_spec : forall skip vs p m m', add_aliases skip vs p m = Val m' ->
  subset m m' /\ (forall v, In v vs -> skip v = false -> lookup v m = None /\ lookup v m' = Some p) /\
  (forall k q, lookup k m' = Some q -> lookup k m = Some q \/ (In k vs /\ skip k = false /\ q = p)).
Proof.
  intros skip. induction vs as [|v vs IH]; intros p m m' E; simpl in E.
  - injection E as <-. split; [intros ? ? ?; auto|]. split; [intros v []|auto].
  - destruct (skip v) eqn:Sk.
    + destruct (IH _ _ _ E) as [I1 [I2 I3]]. split; auto. split.
      * intros w [<-|Hw] Hs; [congruence|auto].
      * intros k q Hk. destruct (I3 k q Hk) as [|[? ?]]; auto. right. split; simpl; auto.
    + destruct (add_alias v p m) as [m1|] eqn:E1; [|discriminate]. cbn [bind] in E. apply add_alias_spec in E1.
      destruct E1 as [A1 [A2 [A3 A4]]]. destruct (IH _ _ _ E) as [I1 [I2 I3]]. split; [|split].
      * intros k q Hk. apply I1. apply A2. auto.
      * intros w [<-|Hw] Hs; [auto|]. destruct (I2 w Hw Hs) as [J1 J2]. split; auto.
        destruct (lookup w m) eqn:Q; auto. apply A2 in Q. congruence.
      * intros k q Hk. destruct (I3 k q Hk) as [H|[? ?]]; [|right; split; simpl; auto].
        destruct (A4 k q H) as [|[-> ->]]; auto. right. split; simpl; auto.
Qed.
Lemma aliases_spec : forall j l, bind (j_at j "INFO") (fun i => bind (j_at i "ALIASES") (j_valarray j_string)) = Val l ->
  forall v, In v l <-> alias_of j v.
Proof.
  intros j l E v. unfold alias_of. destruct (j_at j "INFO") as [i|]; [|discriminate]. cbn [bind] in E.
  destruct (j_at i "ALIASES") as [a|] eqn:Ea; [|discriminate]. cbn [bind] in E.
  destruct a as [| | | |la|]; try discriminate. cbn [j_valarray] in E. apply map_res_iff in E.
  assert (IN : In v l <-> In (JStr v) la).
  { clear Ea. induction E as [|x y la l H HF IH]; simpl; [tauto|]. destruct x; try discriminate. injection H as ->.
    rewrite IH. split; intros [H|H]; auto; left; congruence. }
  rewrite IN. split.
  - intros H. exists i, la. auto.
  - intros [i' [l' [H1 [H2 H3]]]]. injection H1 as <-. rewrite Ea in H2. injection H2 as <-. auto.
Qed.
Lemma add_file_spec : forall p j m m', add_file p j m = Val m' ->
  subset m m' /\ (forall v, identifies j v -> lookup v m = None /\ lookup v m' = Some p) /\
  (forall k q, lookup k m' = Some q -> lookup k m = Some q \/ (identifies j k /\ q = p)).
Proof.
  intros p j m m' E. unfold add_file in E.
  destruct (info j "REFPROP_NAME") as [rp|] eqn:Er; [|discriminate]. cbn [bind] in E.
  destruct (info j "NAME") as [nm|] eqn:En; [|discriminate]. cbn [bind] in E.
  destruct (add_alias nm p m) as [m1|] eqn:E1; [|discriminate]. cbn [bind] in E.
  destruct (info j "CAS") as [cs|] eqn:Ec; [|discriminate]. cbn [bind] in E.
  destruct (add_alias cs p m1) as [m2|] eqn:E2; [|discriminate]. cbn [bind] in E.
  destruct (if String.eqb rp nm || String.eqb rp "N/A" then Val m2 else add_alias rp p m2) as [m3|] eqn:E3; [|discriminate]. cbn [bind] in E.
  destruct (bind (j_at j "INFO") (fun i => bind (j_at i "ALIASES") (j_valarray j_string))) as [al|] eqn:Ea; [|discriminate]. cbn [bind] in E.
  apply add_alias_spec in E1, E2. destruct E1 as [A1 [A2 [A3 A4]]], E2 as [B1 [B2 [B3 B4]]].
  assert (E3' : subset m2 m3 /\ (rp <> nm -> rp <> "N/A"%string -> lookup rp m2 = None /\ lookup rp m3 = Some p) /\
     (forall k q, lookup k m3 = Some q -> lookup k m2 = Some q \/ (k = rp /\ rp <> nm /\ rp <> "N/A"%string /\ q = p))).
  { destruct (String.eqb_spec rp nm) as [Q|Q]; simpl in E3.
    - injection E3 as <-. split; [intros ? ? ?; auto|]. split; [contradiction|auto].
    - destruct (String.eqb_spec rp "N/A") as [Q'|Q']; [injection E3 as <-; split; [intros ? ? ?; auto|]; split; [contradiction|auto]|].
      apply add_alias_spec in E3. destruct E3 as [C1 [C2 [C3 C4]]]. split; auto. split; auto.
      intros k q Hk. destruct (C4 k q Hk) as [|[-> ->]]; auto. }
  clear E3. destruct E3' as [C2 [C3 C4]].
  apply add_aliases_spec in E. destruct E as [D1 [D2 D3]]. assert (AL := aliases_spec _ _ Ea).
  assert (FR : forall v, field j "REFPROP_NAME" v -> v = rp) by (intros v Hv; apply field_info in Hv; congruence).
  assert (FN : forall v, field j "NAME" v -> v = nm) by (intros v Hv; apply field_info in Hv; congruence).
  assert (FC : forall v, field j "CAS" v -> v = cs) by (intros v Hv; apply field_info in Hv; congruence).
  apply field_info in Er, En, Ec.
  assert (NONE : forall v, lookup v m3 = None -> lookup v m = None).
  { intros v Hv. destruct (lookup v m) eqn:Q; auto. apply A2, B2, C2 in Q. congruence. }
  assert (NM : lookup nm m = None /\ lookup nm m' = Some p) by (split; auto).
  assert (RP : rp <> "N/A"%string -> lookup rp m = None /\ lookup rp m' = Some p).
  { intros Q. destruct (string_dec rp nm) as [->|Q2]; [exact NM|]. destruct (C3 Q2 Q) as [U1 U2]. split; [|auto].
    destruct (lookup rp m) eqn:W; auto. apply A2, B2 in W. congruence. }
  split; [|split].
  - intros k q Hk. auto.
  - intros v [H|[H|[[H Q]|[H Q]]]].
    + apply FN in H. subst. exact NM.
    + apply FC in H. subst. split; [|auto]. destruct (lookup cs m) eqn:W; auto. apply A2 in W. congruence.
    + apply FR in H. subst. auto.
    + destruct (string_dec v nm) as [->|N1]; [exact NM|]. destruct (string_dec v rp) as [->|N2].
      * apply RP. intros W. apply Q. split; auto.
      * apply AL in H. destruct (D2 v H) as [U1 U2]; [|split; auto].
        destruct (String.eqb_spec v rp); [contradiction|]. destruct (String.eqb_spec v nm); [contradiction|]. reflexivity.
  - intros k q Hk. destruct (D3 k q Hk) as [H|[H1 [H2 ->]]].
    + destruct (C4 k q H) as [H'|[-> [U1 [U2 ->]]]].
      * destruct (B4 k q H') as [H''|[-> ->]].
        -- destruct (A4 k q H'') as [|[-> ->]]; auto. right. split; auto. left. auto.
        -- right. split; auto. right. left. auto.
      * right. split; auto. right. right. left. auto.
    + right. split; auto. right. right. right. apply AL in H1. split; auto. intros [-> W]. apply FR in W.
      rewrite <- W in H2. discriminate.
Qed.
Lemma alias_map_spec : forall fs paths m m', build_alias_map fs paths m = Val m' ->
  subset m m' /\
  (forall p, In p paths -> exists j, load_a_JSON_file fs p = Val j /\ forall v, identifies j v -> lookup v m = None /\ lookup v m' = Some p) /\
  (forall k q, lookup k m' = Some q -> lookup k m = Some q \/ (In q paths /\ exists j, load_a_JSON_file fs q = Val j /\ identifies j k)) /\
  (forall l1 p l2 q l3 j1 j2 v, paths = l1 ++ p :: l2 ++ q :: l3 -> load_a_JSON_file fs p = Val j1 -> load_a_JSON_file fs q = Val j2 ->
     identifies j1 v -> identifies j2 v -> False).
Proof.
  intros fs. induction paths as [|p paths IH]; intros m m' E; simpl in E.
  - injection E as <-. split; [intros ? ? ?; auto|]. split; [intros p []|]. split; auto. intros [|] ? ? ? ? ? ? ? Q; discriminate.
  - destruct (load_a_JSON_file fs p) as [j|] eqn:Ej; [|discriminate]. cbn [bind] in E.
    destruct (add_file p j m) as [m1|] eqn:E1; [|discriminate]. cbn [bind] in E.
    apply add_file_spec in E1. destruct E1 as [A1 [A2 A3]]. destruct (IH _ _ E) as [I1 [I2 [I3 I4]]].
    split; [|split; [|split]].
    + intros k v Hk. auto.
    + intros q [<-|Hq].
      * exists j. split; auto. intros v Hv. destruct (A2 v Hv). auto.
      * destruct (I2 q Hq) as [j' [Ej' H]]. exists j'. split; auto. intros v Hv. destruct (H v Hv) as [H1 H2]. split; auto.
        destruct (lookup v m) eqn:Q; auto. apply A1 in Q. congruence.
    + intros k q Hk. destruct (I3 k q Hk) as [H|[H1 H2]]; [|right; split; simpl; auto].
      destruct (A3 k q H) as [|[H1 ->]]; auto. right. split; simpl; auto. eauto.
    + intros l1 p' l2 q l3 j1 j2 v Q L1 L2 D1 D2. destruct l1 as [|p0 l1]; simpl in Q; injection Q as Q1 Q2.
      * subst p'. rewrite Ej in L1. injection L1 as <-. destruct (A2 v D1) as [_ H1].
        destruct (I2 q) as [j' [Ej' H2]]. { rewrite Q2. apply in_or_app. right. left. auto. }
        rewrite L2 in Ej'. injection Ej' as <-. destruct (H2 v D2) as [H3 _]. congruence.
      * exact (I4 l1 p' l2 q l3 j1 j2 v Q2 L1 L2 D1 D2).
Qed.
