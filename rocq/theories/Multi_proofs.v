(** Proofs about the multifluid mixture models. *)
From Coq Require Import Reals String Ascii List Permutation Lia Lra Bool Psatz.
From Verif Require Import Json_model Util_model Vec_spec Vec_proofs Cubic_model Cubic_spec Cubic_proofs2 Terms_model Multi_model Multi_spec.
Import ListNotations.
Open Scope R_scope.

(** * Case of letters *)
Lemma upper_char_spec : forall c d, upper_char c = upper_char d <-> c = d \/ letter_pair c d \/ letter_pair d c.
Proof.
  assert (U : forall c, (nat_of_ascii (upper_char c) = nat_of_ascii c - 32 /\ 97 <= nat_of_ascii c <= 122 \/
                         nat_of_ascii (upper_char c) = nat_of_ascii c /\ ~ 97 <= nat_of_ascii c <= 122)%nat).
  { intros c. unfold upper_char. assert (B := nat_ascii_bounded c).
    destruct (Nat.leb_spec 97 (nat_of_ascii c)); simpl; [|right; split; [auto|lia]].
    destruct (Nat.leb_spec (nat_of_ascii c) 122); simpl; [|right; split; [auto|lia]].
    left. rewrite nat_ascii_embedding by lia. lia. }
  assert (I : forall c d, nat_of_ascii c = nat_of_ascii d -> c = d).
  { intros c d E. rewrite <- (ascii_nat_embedding c), <- (ascii_nat_embedding d), E. reflexivity. }
  intros c d. split.
  - intros E. assert (En : nat_of_ascii (upper_char c) = nat_of_ascii (upper_char d)) by (rewrite E; auto).
    destruct (U c) as [[Uc Hc]|[Uc Hc]], (U d) as [[Ud Hd]|[Ud Hd]].
    + left. apply I. lia.
    + right. right. exists (nat_of_ascii d - 65)%nat. lia.
    + right. left. exists (nat_of_ascii c - 65)%nat. lia.
    + left. apply I. lia.
  - intros [->|[[k [Hk [A B]]]|[k [Hk [A B]]]]]; auto; apply I;
      destruct (U c) as [[Uc Hc]|[Uc Hc]], (U d) as [[Ud Hd]|[Ud Hd]]; lia.
Qed.
Lemma upper_spec : forall s t, upper s = upper t <-> same_name s t.
Proof.
  induction s as [|c s IH]; destruct t as [|d t]; simpl; split; intros H; try discriminate; try constructor;
    try (inversion H; fail); auto.
  - injection H as H1 H2. apply upper_char_spec. auto.
  - injection H as H1 H2. apply IH. auto.
  - inversion H; subst. f_equal; [apply upper_char_spec; auto|apply IH; auto].
Qed.
Lemma same_name_refl : forall s, same_name s s.
Proof. intros. apply upper_spec. reflexivity. Qed.
Lemma same_name_sym : forall s t, same_name s t -> same_name t s.
Proof. intros s t H. apply upper_spec. symmetry. apply upper_spec. auto. Qed.
Lemma same_name_trans : forall s t u, same_name s t -> same_name t u -> same_name s u.
Proof. intros s t u H1 H2. apply upper_spec. transitivity (upper t); apply upper_spec; auto. Qed.

(** * The passes over the database *)
Definition swap_found (r : res (option (json * bool))) : res (option (json * bool)) :=
  match r with Val (Some (el, s)) => Val (Some (el, negb s)) | _ => r end.
Lemma scan_swap : forall k1 k2 norm skip a b, a <> b -> forall l,
  scan k1 k2 norm skip b a l = swap_found (scan k1 k2 norm skip a b l).
Proof.
  intros k1 k2 norm skip a b N l. induction l as [|el l IH]; simpl; auto.
  destruct (skip && negb (j_contains el k1)); auto.
  destruct (bind (j_at el k1) j_string) as [n1|e]; simpl; auto.
  destruct (bind (j_at el k2) j_string) as [n2|e]; simpl; auto.
  destruct (String.eqb_spec a (norm n1)) as [A1|A1], (String.eqb_spec b (norm n2)) as [B2|B2],
    (String.eqb_spec a (norm n2)) as [A2|A2], (String.eqb_spec b (norm n1)) as [B1|B1]; simpl; auto; congruence.
Qed.
Definition drop_swap {A} (r : res (A * bool)) : res A := match r with Val (el, _) => Val el | Err e => Err e end.
Definition drop_swap' {A} (r : res (option (A * bool))) : res (option A) :=
  match r with Val (Some (el, _)) => Val (Some el) | Val None => Val None | Err e => Err e end.
Lemma scan_sym : forall k1 k2 norm skip a b l,
  drop_swap' (scan k1 k2 norm skip b a l) = drop_swap' (scan k1 k2 norm skip a b l).
Proof.
  intros. destruct (string_dec a b) as [->|N]; auto. rewrite (scan_swap _ _ _ _ a b N).
  destruct (scan k1 k2 norm skip a b l) as [[[el s]|]|e]; reflexivity.
Qed.
Lemma get_BIPdep_sym : forall c a b f, drop_swap (get_BIPdep c b a f) = drop_swap (get_BIPdep c a b f).
Proof.
  intros c a b f; destruct c as [| | | |l|]; try reflexivity. unfold get_BIPdep.
  destruct (match l with [] => false | JObj _ :: _ => false | _ => true end); auto.
  destruct (j_contains f "force-estimate"); auto.
  pose proof (scan_sym "hash1" "hash2" upper true (upper a) (upper b) l) as S0.
  pose proof (scan_sym "Name1" "Name2" upper false (upper a) (upper b) l) as S1.
  pose proof (scan_sym "CAS1" "CAS2" (fun s => s) false a b l) as S2.
  destruct (scan "hash1" "hash2" upper true (upper b) (upper a) l) as [[[e0 s0]|]|],
    (scan "hash1" "hash2" upper true (upper a) (upper b) l) as [[[e0' s0']|]|]; simpl in *; try discriminate; auto; try congruence.
  destruct (scan "Name1" "Name2" upper false (upper b) (upper a) l) as [[[e1 s1]|]|],
    (scan "Name1" "Name2" upper false (upper a) (upper b) l) as [[[e1' s1']|]|]; simpl in *; try discriminate; auto; try congruence.
  destruct (scan "CAS1" "CAS2" (fun s => s) false b a l) as [[[e2 s2]|]|],
    (scan "CAS1" "CAS2" (fun s => s) false a b l) as [[[e2' s2']|]|]; simpl in *; try discriminate; auto; try congruence.
Qed.
(** An estimate, or a record found in the database *)
Lemma estimate_inv : forall f el s, estimate f = Val (el, s) -> el = Lorentz_Berthelot /\ s = false.
Proof.
  intros f el s. unfold estimate. destruct (bind (j_at f "estimate") j_string); simpl; [|discriminate].
  destruct (String.eqb a "Lorentz-Berthelot"); [|discriminate]. injection 1 as <- <-. auto.
Qed.
Lemma get_BIPdep_swap : forall c a b f el s, upper a <> upper b -> get_BIPdep c a b f = Val (el, s) ->
  get_BIPdep c b a f = Val (el, negb s) \/ (get_BIPdep c b a f = Val (el, s) /\ el = Lorentz_Berthelot /\ s = false).
Proof.
  intros c a b f el s N; destruct c as [| | | |l|]; try discriminate. unfold get_BIPdep.
  assert (N' : a <> b) by congruence.
  destruct (match l with [] => false | JObj _ :: _ => false | _ => true end); [discriminate|].
  destruct (j_contains f "force-estimate"). { intros E. right. split; auto. apply (estimate_inv _ _ _ E). }
  rewrite (scan_swap "hash1" "hash2" upper true (upper a) (upper b) N).
  rewrite (scan_swap "Name1" "Name2" upper false (upper a) (upper b) N).
  rewrite (scan_swap "CAS1" "CAS2" (fun s => s) false a b N').
  destruct (scan "hash1" "hash2" upper true (upper a) (upper b) l) as [[[e0 s0]|]|]; simpl; try discriminate.
  { injection 1 as <- <-. left. auto. }
  destruct (scan "Name1" "Name2" upper false (upper a) (upper b) l) as [[[e1 s1]|]|]; simpl; try discriminate.
  { injection 1 as <- <-. left. auto. }
  destruct (scan "CAS1" "CAS2" (fun s => s) false a b l) as [[[e2 s2]|]|]; simpl; try discriminate.
  { injection 1 as <- <-. left. auto. }
  destruct (j_contains f "estimate"); [|discriminate]. intros E. right. split; auto. apply (estimate_inv _ _ _ E).
Qed.

(** Completeness of a pass *)
Definition key1 (k : kind) : string := match k with ByHash => "hash1" | ByName => "Name1" | ByCAS => "CAS1" end.
Definition key2 (k : kind) : string := match k with ByHash => "hash2" | ByName => "Name2" | ByCAS => "CAS2" end.
Definition norm_of (k : kind) : string -> string := match k with ByCAS => fun s => s | _ => upper end.
Definition skip_of (k : kind) : bool := match k with ByHash => true | _ => false end.
Lemma listed_keys : forall k el a b, listed k el a b <->
  exists s t, j_at el (key1 k) = Val (JStr s) /\ j_at el (key2 k) = Val (JStr t) /\
    norm_of k a = norm_of k s /\ norm_of k b = norm_of k t.
Proof.
  intros [| |] el a b; simpl.
  - split; intros [s [t [A [B [C D]]]]]; exists s, t; repeat split; auto; apply upper_spec; auto.
  - split; intros [s [t [A [B [C D]]]]]; exists s, t; repeat split; auto; apply upper_spec; auto.
  - split. { intros [A B]. exists a, b. auto. } intros [s [t [A [B [-> ->]]]]]. auto.
Qed.
Lemma contains_at : forall j k v, j_at j k = Val v -> j_contains j k = true.
Proof. intros [] k v; simpl; try discriminate. destruct (lookup k l); [auto|discriminate]. Qed.
Lemma at_string : forall j k s, j_at j k = Val (JStr s) -> bind (j_at j k) j_string = Val s.
Proof. intros j k s E. rewrite E. reflexivity. Qed.
Lemma complete_keys : forall k el, complete_record el ->
  (skip_of k = true /\ j_contains el (key1 k) = false) \/
  exists s t, j_at el (key1 k) = Val (JStr s) /\ j_at el (key2 k) = Val (JStr t).
Proof.
  intros [| |] el (N1 & N2 & C1 & C2 & H); simpl.
  - destruct (j_contains el "hash1") eqn:E; [right|left; auto]. destruct (H eq_refl) as [[s Hs] [t Ht]]. eauto.
  - right. destruct N1 as [s Hs], N2 as [t Ht]. eauto.
  - right. destruct C1 as [s Hs], C2 as [t Ht]. eauto.
Qed.
Lemma scan_none : forall k l a b, List.Forall complete_record l ->
  (forall el, In el l -> ~ listed_either k el a b) ->
  scan (key1 k) (key2 k) (norm_of k) (skip_of k) (norm_of k a) (norm_of k b) l = Val None.
Proof.
  intros k l a b W NL. induction W as [|el l We W IH]; simpl; auto.
  assert (IH' := IH (fun e He => NL e (or_intror He))). clear IH.
  destruct (complete_keys k el We) as [[S C]|[s [t [A B]]]].
  - rewrite C, S in *. exact IH'.
  - rewrite (contains_at _ _ _ A), andb_false_r. rewrite (at_string _ _ _ A), (at_string _ _ _ B). cbn [bind].
    assert (N := NL el (or_introl eq_refl)).
    destruct (String.eqb_spec (norm_of k a) (norm_of k s)), (String.eqb_spec (norm_of k b) (norm_of k t)); simpl;
      try (exfalso; apply N; left; apply listed_keys; exists s, t; auto; fail);
    destruct (String.eqb_spec (norm_of k a) (norm_of k t)), (String.eqb_spec (norm_of k b) (norm_of k s)); simpl;
      try (exfalso; apply N; right; apply listed_keys; exists s, t; auto; fail); exact IH'.
Qed.
Lemma scan_some : forall k l a b, List.Forall complete_record l ->
  (exists el, In el l /\ listed_either k el a b) ->
  exists l1 el l2 s, l = l1 ++ el :: l2 /\ (forall e, In e l1 -> ~ listed_either k e a b) /\
    (if s : bool then listed k el b a /\ ~ listed k el a b else listed k el a b) /\
    scan (key1 k) (key2 k) (norm_of k) (skip_of k) (norm_of k a) (norm_of k b) l = Val (Some (el, s)).
Proof.
  intros k l a b W. induction W as [|el l We W IH]; intros [e [He HL]]; [destruct He|]. simpl.
  assert (STEP : listed_either k el a b \/ ~ listed_either k el a b /\ exists e, In e l /\ listed_either k e a b).
  { destruct (complete_keys k el We) as [[S C]|[s [t [A B]]]].
    - right. assert (NL : ~ listed_either k el a b).
      { intros [HH|HH]; apply listed_keys in HH; destruct HH as [s [t [A _]]]; apply contains_at in A; congruence. }
      split; auto. exists e. destruct He as [->|He]; [contradiction|auto].
    - assert (D : listed_either k el a b \/ ~ listed_either k el a b).
      { unfold listed_either. rewrite !listed_keys.
        destruct (string_dec (norm_of k a) (norm_of k s)), (string_dec (norm_of k b) (norm_of k t)).
        { left. left. exists s, t. auto. }
        all: destruct (string_dec (norm_of k a) (norm_of k t)), (string_dec (norm_of k b) (norm_of k s)).
        all: try (left; right; exists s, t; auto; fail).
        all: right; intros [[s' [t' (A' & B' & ?)]]|[s' [t' (A' & B' & ?)]]];
          assert (s' = s) by congruence; assert (t' = t) by congruence; subst; intuition congruence. }
      destruct D as [D|D]; [auto|right]. split; auto. exists e. destruct He as [->|He]; [contradiction|auto]. }
  destruct STEP as [D|[ND EX]].
  - exists [], el, l.
    assert (exists s t, j_at el (key1 k) = Val (JStr s) /\ j_at el (key2 k) = Val (JStr t)) as [s [t [A B]]].
    { destruct D as [D|D]; apply listed_keys in D; destruct D as [s [t [A [B _]]]]; eauto. }
    rewrite (contains_at _ _ _ A), andb_false_r. rewrite (at_string _ _ _ A), (at_string _ _ _ B). cbn [bind].
    destruct (String.eqb_spec (norm_of k a) (norm_of k s)) as [E1|E1], (String.eqb_spec (norm_of k b) (norm_of k t)) as [E2|E2]; simpl.
    { exists false. repeat split; auto. apply listed_keys. exists s, t. auto. }
    1-3: assert (NL : ~ listed k el a b);
      [intros HH; apply listed_keys in HH; destruct HH as [s1 [t1 (A1 & B1 & C1 & D1)]];
       rewrite A in A1; injection A1 as <-; rewrite B in B1; injection B1 as <-; contradiction|].
    1-3: destruct D as [D|D]; [contradiction|]; assert (D2 := D); apply listed_keys in D2;
      destruct D2 as [s1 [t1 (A1 & B1 & C1 & D1)]];
      rewrite A in A1; injection A1 as <-; rewrite B in B1; injection B1 as <-.
    1-3: rewrite D1, C1, !String.eqb_refl; exists true; simpl; repeat split; auto.
  - destruct (IH EX) as (l1 & el1 & l2 & s & -> & F1 & F2 & F3).
    exists (el :: l1), el1, l2, s. split; [reflexivity|]. split; [|split; auto].
    + intros e' [<-|He']; auto.
    + destruct (complete_keys k el We) as [[S C]|[s' [t [A B]]]].
      * rewrite C, S in *. exact F3.
      * rewrite (contains_at _ _ _ A), andb_false_r. rewrite (at_string _ _ _ A), (at_string _ _ _ B). cbn [bind].
        destruct (String.eqb_spec (norm_of k a) (norm_of k s')), (String.eqb_spec (norm_of k b) (norm_of k t)); simpl;
          try (exfalso; apply ND; left; apply listed_keys; exists s', t; auto; fail);
        destruct (String.eqb_spec (norm_of k a) (norm_of k t)), (String.eqb_spec (norm_of k b) (norm_of k s')); simpl;
          try (exfalso; apply ND; right; apply listed_keys; exists s', t; auto; fail); exact F3.
Qed.

(** * Sums over pairs and permutations *)
Lemma sumn_list : forall n f, sumn n f = fold_right Rplus 0 (map f (seq 0 n)).
Proof.
  assert (F : forall (l : list R) a, fold_right Rplus 0 (l ++ [a]) = fold_right Rplus 0 l + a).
  { induction l; intros; simpl; [lra|]. rewrite IHl. lra. }
  induction n; intros f; [reflexivity|]. rewrite seq_S, map_app. cbn [map]. rewrite F, <- IHn. reflexivity.
Qed.
Lemma sum_perm : forall l l' : list R, Permutation l l' -> fold_right Rplus 0 l = fold_right Rplus 0 l'.
Proof. induction 1; simpl; try lra. Qed.
Lemma sumn_perm : forall r n f, Permutation r (seq 0 n) -> sumn n (fun i => f (nth i r O)) = sumn n f.
Proof.
  intros r n f P. rewrite !sumn_list. apply sum_perm.
  assert (L : length r = n) by (apply Permutation_length in P; rewrite seq_length in P; auto).
  replace (map (fun i => f (nth i r O)) (seq 0 n)) with (map f r).
  - apply Permutation_map. auto.
  - rewrite <- L. clear. rewrite <- (map_map (fun i => nth i r O) f). f_equal.
    induction r as [|a r IH]; simpl; auto. f_equal. rewrite <- seq_shift, map_map. exact IH.
Qed.
Lemma perm_lt : forall r n i, Permutation r (seq 0 n) -> (i < n)%nat -> (nth i r O < n)%nat.
Proof.
  intros r n i P Hi. assert (L : length r = n) by (apply Permutation_length in P; rewrite seq_length in P; auto).
  assert (In (nth i r O) (seq 0 n)) by (apply (Permutation_in _ P); apply nth_In; lia). apply in_seq in H. lia.
Qed.
Lemma perm_inj : forall r n i j, Permutation r (seq 0 n) -> (i < n)%nat -> (j < n)%nat -> i <> j -> nth i r O <> nth j r O.
Proof.
  intros r n i j P Hi Hj N E. assert (L : length r = n) by (apply Permutation_length in P; rewrite seq_length in P; auto).
  apply N. assert (ND : NoDup r) by (apply (Permutation_NoDup (Permutation_sym P)); apply seq_NoDup).
  apply (proj1 (NoDup_nth r O) ND); lia.
Qed.
Lemma perm_length : forall r n, Permutation r (seq 0 n) -> length r = n.
Proof. intros r n P. apply Permutation_length in P. rewrite seq_length in P. auto. Qed.

Definition offdiag (f : nat -> nat -> R) (i j : nat) : R := if Nat.eqb i j then 0 else f i j.
Lemma sum_pairs_half : forall n f, (forall i j, (i < n)%nat -> (j < n)%nat -> i <> j -> f i j = f j i) ->
  2 * sum_pairs n f = sumn n (fun i => sumn n (fun j => offdiag f i j)).
Proof.
  intros n f S. unfold sum_pairs.
  transitivity (sumn n (fun i => sumn n (fun j => if Nat.ltb i j then f i j else 0)) +
                sumn n (fun i => sumn n (fun j => if Nat.ltb j i then f i j else 0))).
  - rewrite double. f_equal. rewrite sumn_swap. apply sumn_ext. intros i Hi. apply sumn_ext. intros j Hj.
    destruct (Nat.ltb_spec j i); auto. apply S; auto. lia.
  - rewrite <- sumn_plus. apply sumn_ext. intros i Hi. rewrite <- sumn_plus. apply sumn_ext. intros j Hj.
    unfold offdiag. destruct (Nat.eqb_spec i j), (Nat.ltb_spec i j), (Nat.ltb_spec j i); lra || lia.
Qed.
Lemma sum_pairs_perm : forall r n f f', Permutation r (seq 0 n) ->
  (forall i j, (i < n)%nat -> (j < n)%nat -> i <> j -> f i j = f j i) ->
  (forall i j, (i < n)%nat -> (j < n)%nat -> i <> j -> f' i j = f (nth i r O) (nth j r O)) ->
  sum_pairs n f' = sum_pairs n f.
Proof.
  intros r n f f' P S E.
  assert (S' : forall i j, (i < n)%nat -> (j < n)%nat -> i <> j -> f' i j = f' j i).
  { intros i j Hi Hj N. rewrite !E by auto. apply S; eauto using perm_lt, perm_inj. }
  assert (2 * sum_pairs n f' = 2 * sum_pairs n f); [|lra].
  rewrite !sum_pairs_half by auto.
  rewrite <- (sumn_perm r n (fun i => sumn n (fun j => offdiag f i j)) P).
  apply sumn_ext. intros i Hi. rewrite <- (sumn_perm r n (fun j => offdiag f (nth i r O) j) P).
  apply sumn_ext. intros j Hj. unfold offdiag.
  destruct (Nat.eqb_spec i j) as [->|N]; [rewrite Nat.eqb_refl; auto|].
  destruct (Nat.eqb_spec (nth i r O) (nth j r O)) as [Q|_]; [exfalso; revert Q; apply (perm_inj r n); auto|]. auto.
Qed.

(** * The reducing functions *)
Lemma Y_pair_sym : forall n z beta Yij g, (forall i, (i < n)%nat -> 0 <= nth i z 0) -> reciprocal n beta -> symmetric n g ->
  (forall i j, (i < n)%nat -> (j < n)%nat -> i <> j -> Yij i j = beta i j * g i j) ->
  forall i j, (i < n)%nat -> (j < n)%nat -> i <> j -> Y_pair z beta Yij i j = Y_pair z beta Yij j i.
Proof.
  intros n z beta Yij g Z B G E i j Hi Hj N. unfold Y_pair. rewrite !E by auto. rewrite (G j i) by auto.
  specialize (B i j Hi Hj N). pose proof (Z i Hi) as Zi. pose proof (Z j Hj) as Zj.
  set (b := beta i j) in *. set (c := beta j i) in *. set (x := nth i z 0) in *. set (y := nth j z 0) in *.
  assert (b <> 0) by (intros Q; rewrite Q in B; lra).
  assert (Ec : c = / b) by (apply (Rmult_eq_reg_l b); auto; rewrite B; field; auto).
  assert (0 < b * b) by nra.
  assert (D : c * c * y + x = (b * b * x + y) / (b * b)) by (rewrite Ec; field; auto).
  destruct (Req_EM_T (b * b * x + y) 0) as [Q|Q].
  - assert (x = 0) by nra. assert (y = 0) by nra. subst x. subst y. rewrite H1, H2.
    destruct (Req_EM_T (c * c * 0 + 0) 0); [ring|exfalso; lra].
  - destruct (Req_EM_T (c * c * y + x) 0) as [Q'|Q'].
    + exfalso. rewrite D in Q'. apply Q. apply (Rmult_eq_reg_r (/ (b * b))); [|apply Rinv_neq_0_compat; lra].
      unfold Rdiv in Q'. rewrite Q'. ring.
    + rewrite D, Ec. field. repeat split; auto.
Qed.
Lemma YT_form : forall b Tc i j, i <> j -> YT b Tc i j = m_betaT b i j * (2 * m_gammaT b i j * sqrt (nth i Tc 0 * nth j Tc 0)).
Proof.
  intros b Tc i j N. unfold YT. destruct (Nat.eqb_spec i j); [contradiction|].
  destruct (Nat.le_gt_cases i j).
  - rewrite Nat.min_l, Nat.max_r by lia. ring.
  - rewrite Nat.min_r, Nat.max_l by lia. rewrite (Rmult_comm (nth j Tc 0)). ring.
Qed.
Lemma Yv_form : forall b vc i j, i <> j ->
  Yv b vc i j = m_betaV b i j * (1 / 4 * m_gammaV b i j * (cbrt (nth i vc 0) + cbrt (nth j vc 0)) ^ 3).
Proof.
  intros b Tc i j N. unfold Yv. destruct (Nat.eqb_spec i j); [contradiction|].
  destruct (Nat.le_gt_cases i j).
  - rewrite Nat.min_l, Nat.max_r by lia. field.
  - rewrite Nat.min_r, Nat.max_l by lia. field.
Qed.
Lemma Y_perm : forall r n z Yc beta Yij g beta' Yij', Permutation r (seq 0 n) -> length z = n ->
  (forall i, (i < n)%nat -> 0 <= nth i z 0) -> reciprocal n beta -> symmetric n g ->
  (forall i j, (i < n)%nat -> (j < n)%nat -> i <> j -> Yij i j = beta i j * g i j) ->
  matrix_pick n r beta beta' -> matrix_pick n r Yij Yij' ->
  Y (pick 0 r z) (pick 0 r Yc) beta' Yij' = Y z Yc beta Yij.
Proof.
  intros r n z Yc beta Yij g beta' Yij' P L Z B G E Eb EY. unfold Y.
  assert (Lr := perm_length _ _ P). rewrite pick_length, Lr, L. f_equal.
  - rewrite <- (sumn_perm r n (fun i => nth i z 0 ^ 2 * nth i Yc 0) P). apply sumn_ext. intros i Hi.
    rewrite !pick_nth by lia. reflexivity.
  - apply (sum_pairs_perm r); auto.
    + apply (Y_pair_sym n z beta Yij g); auto.
    + intros i j Hi Hj N. unfold Y_pair. rewrite !pick_nth by lia. rewrite Eb, EY by auto. reflexivity.
Qed.
Lemma invY_perm : forall r n z phi lambda Yij phi' lambda' Yij', Permutation r (seq 0 n) -> length z = n ->
  full_pick n r phi phi' -> full_pick n r lambda lambda' -> full_pick n r Yij Yij' ->
  invY (pick 0 r z) phi' lambda' Yij' = invY z phi lambda Yij.
Proof.
  intros r n z phi lambda Yij phi' lambda' Yij' P L E1 E2 E3. unfold invY.
  assert (Lr := perm_length _ _ P). rewrite pick_length, Lr, L.
  rewrite <- (sumn_perm r n (fun i => nth i z 0 * (sumn n (fun j => nth j z 0 * phi i j * Yij i j) +
     sumn n (fun j => nth j z 0 * cbrt (lambda i j) * cbrt (Yij i j)) ^ 3)) P).
  apply sumn_ext. intros i Hi. rewrite !pick_nth by lia. f_equal. f_equal; [|f_equal].
  - rewrite <- (sumn_perm r n (fun j => nth j z 0 * phi (nth i r O) j * Yij (nth i r O) j) P).
    apply sumn_ext. intros j Hj. rewrite !pick_nth by lia. rewrite E1, E3 by auto. reflexivity.
  - rewrite <- (sumn_perm r n (fun j => nth j z 0 * cbrt (lambda (nth i r O) j) * cbrt (Yij (nth i r O) j)) P).
    apply sumn_ext. intros j Hj. rewrite !pick_nth by lia. rewrite E2, E3 by auto. reflexivity.
Qed.
Lemma reducing_perm : forall r n a a' z, Permutation r (seq 0 n) -> length z = n ->
  (forall i, (i < n)%nat -> 0 <= nth i z 0) -> consistent_reducing n a -> reducing_relabelled n r a a' ->
  get_Tr a' (pick 0 r z) = get_Tr a z /\ get_rhor a' (pick 0 r z) = get_rhor a z.
Proof.
  intros r n [b Tc vc|pT lT pV lV Tc vc] [b' Tc' vc'|pT' lT' pV' lV' Tc' vc'] z P L Z C; simpl; try contradiction.
  - intros (LT & Lv & -> & -> & E1 & E2 & E3 & E4). destruct C as (C1 & C2 & C3 & C4).
    assert (Lr := perm_length _ _ P). split; [|f_equal].
    + apply (Y_perm r n z Tc (m_betaT b) (YT b Tc) (fun i j => 2 * m_gammaT b i j * sqrt (nth i Tc 0 * nth j Tc 0))); auto.
      * intros i j Hi Hj N. rewrite (C2 i j) by auto. rewrite (Rmult_comm (nth i Tc 0)). reflexivity.
      * intros. apply YT_form. auto.
      * intros i j Hi Hj N. rewrite !YT_form by eauto using perm_inj. rewrite E1, E2 by auto.
        rewrite !pick_nth by lia. reflexivity.
    + apply (Y_perm r n z vc (m_betaV b) (Yv b vc) (fun i j => 1 / 4 * m_gammaV b i j * (cbrt (nth i vc 0) + cbrt (nth j vc 0)) ^ 3)); auto.
      * intros i j Hi Hj N. rewrite (C4 i j) by auto. rewrite (Rplus_comm (cbrt (nth i vc 0))). reflexivity.
      * intros. apply Yv_form. auto.
      * intros i j Hi Hj N. rewrite !Yv_form by eauto using perm_inj. rewrite E3, E4 by auto.
        rewrite !pick_nth by lia. reflexivity.
  - intros (LT & Lv & -> & -> & E1 & E2 & E3 & E4).
    assert (Lr := perm_length _ _ P). split; [|f_equal]; apply (invY_perm r n); auto;
    intros i j Hi Hj; unfold invYT, invYv; rewrite !pick_nth by lia; reflexivity.
Qed.

(** * Sums of evaluations *)
Lemma obind_ok : forall A B (x : outcome A) (f : A -> outcome B) b, obind x f = ok b -> exists a, x = ok a /\ f a = ok b.
Proof. intros A B [[a|e]|] f b E; simpl in E; try discriminate. exists a. auto. Qed.
Lemma esum_ok : forall n f v, esum n f = ok v <-> exists g, (forall i, (i < n)%nat -> f i = ok (g i)) /\ v = sumn n g.
Proof.
  induction n; intros f v; simpl; split.
  - injection 1 as <-. exists (fun _ => 0). split; auto. intros; lia.
  - intros [g [_ ->]]. reflexivity.
  - intros E. apply obind_ok in E. destruct E as [a [Ea E]]. apply obind_ok in E. destruct E as [b [Eb E]].
    injection E as <-. apply IHn in Ea. destruct Ea as [g [Hg ->]].
    exists (fun i => if Nat.eqb i n then b else g i). split.
    + intros i Hi. destruct (Nat.eqb_spec i n) as [->|]; auto. apply Hg. lia.
    + rewrite Nat.eqb_refl. f_equal. apply sumn_ext. intros i Hi. destruct (Nat.eqb_spec i n); [lia|auto].
  - intros [g [Hg ->]]. rewrite (proj2 (IHn f (sumn n g))). 2:{ exists g. split; auto. }
    cbn [obind ok]. rewrite Hg by lia. reflexivity.
Qed.
Lemma esum_value : forall n f g, (forall i, (i < n)%nat -> f i = ok (g i)) -> esum n f = ok (sumn n g).
Proof. intros n f g H. apply esum_ok. eauto. Qed.
(** a function of the index for a statement about each index *)
Lemma choose : forall n (P : nat -> R -> Prop), (forall i, (i < n)%nat -> exists v, P i v) -> exists g, forall i, (i < n)%nat -> P i (g i).
Proof.
  induction n; intros P H. { exists (fun _ => 0). intros; lia. }
  destruct (IHn P) as [g Hg]; [intros; apply H; lia|]. destruct (H n) as [v Hv]; [lia|].
  exists (fun i => if Nat.eqb i n then v else g i). intros i Hi. destruct (Nat.eqb_spec i n) as [->|]; auto. apply Hg. lia.
Qed.
Lemma choose2 : forall n m (P : nat -> nat -> R -> Prop),
  (forall i j, (i < n)%nat -> (j < m)%nat -> exists v, P i j v) -> exists g, forall i j, (i < n)%nat -> (j < m)%nat -> P i j (g i j).
Proof.
  induction n; intros m P H. { exists (fun _ _ => 0). intros; lia. }
  destruct (IHn m P) as [g Hg]; [intros; apply H; lia|]. destruct (choose m (P n)) as [v Hv]; [intros; apply H; lia|].
  exists (fun i => if Nat.eqb i n then v else g i). intros i j Hi Hj. destruct (Nat.eqb_spec i n) as [->|]; auto. apply Hg; lia.
Qed.
Lemma corr_ok : forall l tau delta x v, corr_alphar l tau delta x = ok v <->
  exists a, (forall i, (i < length x)%nat -> corr_alphari l tau delta i = ok (a i)) /\ v = sumn (length x) (fun i => nth i x 0 * a i).
Proof.
  intros l tau delta x v. unfold corr_alphar. rewrite esum_ok. split.
  - intros [g [Hg ->]]. destruct (choose (length x) (fun i a => corr_alphari l tau delta i = ok a /\ g i = nth i x 0 * a)) as [a Ha].
    { intros i Hi. specialize (Hg i Hi). apply obind_ok in Hg. destruct Hg as [a [Ea Eg]]. injection Eg as <-. eauto. }
    exists a. split. { intros; apply Ha; auto. } apply sumn_ext. intros; apply Ha; auto.
  - intros [a [Ha ->]]. exists (fun i => nth i x 0 * a i). split; auto. intros i Hi. rewrite Ha by auto. reflexivity.
Qed.
Lemma dep_ok : forall N F dep tau delta x v, (length x <= N)%nat -> dep_alphar N F dep tau delta x = ok v <->
  exists a, (forall i j, (i < j < length x)%nat -> dep i j tau delta = ok (a i j)) /\
    v = sum_pairs (length x) (fun i j => nth i x 0 * nth j x 0 * F i j * a i j).
Proof.
  intros N F dep tau delta x v LN. unfold dep_alphar. destruct (Nat.ltb_spec N (length x)); [lia|]. rewrite esum_ok. split.
  - intros [g [Hg ->]].
    destruct (choose2 (length x) (length x) (fun i j a => (i < j)%nat -> dep i j tau delta = ok a)) as [a Ha].
    { intros i j Hi Hj. specialize (Hg i Hi). apply esum_ok in Hg. destruct Hg as [h [Hh _]].
      specialize (Hh j Hj). destruct (Nat.ltb_spec i j); [|exists 0; intros; lia].
      apply obind_ok in Hh. destruct Hh as [b [Eb _]]. eauto. }
    exists a. split. { intros i j Hij. apply Ha; lia. }
    unfold sum_pairs. apply sumn_ext. intros i Hi. specialize (Hg i Hi).
    rewrite (esum_value _ _ (fun j => if Nat.ltb i j then nth i x 0 * nth j x 0 * F i j * a i j else 0)) in Hg.
    + injection Hg as <-. reflexivity.
    + intros j Hj. destruct (Nat.ltb_spec i j); auto. rewrite Ha by auto. reflexivity.
  - intros [a [Ha ->]]. exists (fun i => sumn (length x) (fun j => if Nat.ltb i j then nth i x 0 * nth j x 0 * F i j * a i j else 0)).
    split; [|reflexivity]. intros i Hi. apply esum_value. intros j Hj. destruct (Nat.ltb_spec i j); auto. rewrite Ha by lia. reflexivity.
Qed.
(** When the mixture evaluates, all its parts do. *)
Lemma taudelta_ok : forall m tau delta x v, (1 < length x)%nat -> alphar_taudelta m tau delta x = ok v <->
  length x = length (mf_eos m) /\ exists a d,
    (forall i, (i < length x)%nat -> corr_alphari (mf_eos m) tau delta i = ok (a i)) /\
    (forall i j, (i < j < length x)%nat -> mf_dep m i j tau delta = ok (d i j)) /\
    v = sumn (length x) (fun i => nth i x 0 * a i) + sum_pairs (length x) (fun i j => nth i x 0 * nth j x 0 * mf_F m i j * d i j).
Proof.
  intros m tau delta x v L1. unfold alphar_taudelta.
  destruct (Nat.eqb_spec (length x) (length (mf_eos m))) as [L|L]; simpl negb; cbv iota.
  2:{ split; [discriminate|]. intros [Q _]. contradiction. }
  destruct (Nat.eqb_spec (length x) 1); [lia|]. split.
  - intros E. split; auto. apply obind_ok in E. destruct E as [u [Eu E]]. apply obind_ok in E. destruct E as [w [Ew E]].
    injection E as <-. apply corr_ok in Eu. destruct Eu as [a [Ha ->]]. apply dep_ok in Ew; [|lia]. destruct Ew as [d [Hd ->]].
    exists a, d. auto.
  - intros [_ [a [d [Ha [Hd ->]]]]].
    rewrite (proj2 (corr_ok (mf_eos m) tau delta x (sumn (length x) (fun i => nth i x 0 * a i)))) by eauto.
    cbn [obind ok].
    rewrite (proj2 (dep_ok (length (mf_eos m)) (mf_F m) (mf_dep m) tau delta x
      (sum_pairs (length x) (fun i j => nth i x 0 * nth j x 0 * mf_F m i j * d i j)) ltac:(lia))) by eauto.
    reflexivity.
Qed.
Lemma corr_alphari_perm : forall m m' r tau delta i, relabelled r m m' -> (i < length (mf_eos m))%nat ->
  corr_alphari (mf_eos m') tau delta i = corr_alphari (mf_eos m) tau delta (nth i r O).
Proof. intros m m' r tau delta i Rl Hi. unfold corr_alphari. rewrite (rl_eos _ _ _ Rl i Hi). reflexivity. Qed.
Lemma taudelta_perm : forall m m' r tau delta x v, Permutation r (seq 0 (length (mf_eos m))) ->
  consistent m -> relabelled r m m' -> alphar_taudelta m tau delta x = ok v -> alphar_taudelta m' tau delta (pick 0 r x) = ok v.
Proof.
  intros m m' r tau delta x v P C Rl E. assert (Lr := perm_length _ _ P).
  assert (L : length x = length (mf_eos m)).
  { unfold alphar_taudelta in E. destruct (Nat.eqb_spec (length x) (length (mf_eos m))); auto. discriminate. }
  destruct (Nat.le_gt_cases (length x) 1) as [L1|L1].
  - unfold alphar_taudelta in *. rewrite pick_length, Lr, (rl_len _ _ _ Rl), Nat.eqb_refl. rewrite L, Nat.eqb_refl in E. cbn [negb] in *.
    destruct (Nat.eqb_spec (length (mf_eos m)) 1) as [L2|L2].
    + rewrite (corr_alphari_perm m m' r) by (auto; lia). assert (nth 0 r O = O) by (pose proof (perm_lt r _ 0 P ltac:(lia)); lia).
      rewrite H. exact E.
    + assert (L0 : length (mf_eos m) = O) by lia. unfold corr_alphar, dep_alphar in *. rewrite pick_length, Lr, L0 in *.
      replace (length x) with O in * by lia. exact E.
  - apply taudelta_ok in E; auto. destruct E as [_ [a [d [Ha [Hd ->]]]]].
    apply taudelta_ok. { rewrite pick_length. lia. }
    rewrite pick_length, Lr, <- L. split. { rewrite (rl_len _ _ _ Rl). auto. }
    exists (fun i => a (nth i r O)), (fun i j => if Nat.ltb (nth i r O) (nth j r O) then d (nth i r O) (nth j r O) else d (nth j r O) (nth i r O)).
    rewrite <- L in P. split; [|split].
    + intros i Hi. rewrite (corr_alphari_perm m m' r) by (auto; lia). apply Ha. eauto using perm_lt.
    + intros i j Hij. rewrite (rl_dep _ _ _ Rl i j) by lia.
      assert (Hi := perm_lt r _ i P ltac:(lia)). assert (Hj := perm_lt r _ j P ltac:(lia)).
      assert (N := perm_inj r _ i j P ltac:(lia) ltac:(lia) ltac:(lia)).
      destruct (Nat.ltb_spec (nth i r O) (nth j r O)); [apply Hd; lia|].
      rewrite (co_dep _ C) by lia. apply Hd. lia.
    + symmetry. f_equal.
      * rewrite <- (sumn_perm r _ (fun i => nth i x 0 * a i) P). apply sumn_ext. intros i Hi. rewrite pick_nth by lia. reflexivity.
      * set (d' := fun i j => if Nat.ltb i j then d i j else d j i).
        transitivity (sum_pairs (length x) (fun i j => nth i x 0 * nth j x 0 * mf_F m i j * d' i j)).
        -- apply (sum_pairs_perm r); auto.
           ++ intros i j Hi Hj N. rewrite (co_F _ C i j) by lia. unfold d'.
              destruct (Nat.ltb_spec i j), (Nat.ltb_spec j i); try lia; ring.
           ++ intros i j Hi Hj N. rewrite !pick_nth by lia. rewrite (rl_F _ _ _ Rl i j) by lia. reflexivity.
        -- unfold sum_pairs. apply sumn_ext. intros i Hi. apply sumn_ext. intros j Hj. unfold d'. destruct (Nat.ltb i j); auto.
Qed.
