(** Theorems about the terms of the multifluid equations of state. *)
From Coq Require Import Reals ZArith String List Bool Lia Lra.
From Coquelicot Require Import Coquelicot.
From Verif Require Import Json_model Util_model Numerics_model Vec_spec Vec_proofs Cubic_model Cubic_proofs2 Properties_Cubic2
  Terms_model Terms_spec Terms_proofs Terms_proofs2.
Import ListNotations.
Open Scope R_scope.

(** * C34: both branches of every term are the documented function *)
Theorem C34_terms : forall t tau delta, well_formed t -> 0 < tau -> 0 <= delta ->
  term_alphar t tau delta = Some (Val (textbook t tau delta)).
Proof. exact term_textbook. Qed.

(** At fixed tau, the value at and away from delta = 0 is that of one differentiable
    function. *)
Theorem C34_extension : forall t tau, well_formed t -> 0 < tau ->
  exists f : R -> R, (forall x, ex_derive f x) /\
  forall delta, 0 <= delta -> term_alphar t tau delta = Some (Val (f delta)).
Proof.
  intros t tau W T. destruct (textbook_extends t tau W) as [f [D E]]. exists f. split; auto.
  intros delta H. rewrite term_textbook by auto. rewrite E by auto. reflexivity.
Qed.
Lemma natural_nat : forall k, (k < 1000)%nat -> natural (INR k).
Proof. intros k H. exists k. split; [reflexivity|]. apply Z.lt_le_trans with 1000%Z; [lia|]. vm_compute. discriminate. Qed.
Example C34_met : well_formed (Power [1; 2] [0.5; -1] [INR 1; INR 3] [0; 1] [0%Z; 2%Z]) /\
  well_formed (Gaussian [0.1] [2] [INR 4] [1] [2] [1.2] [0.7]) /\ well_formed (GaoB [1] [1] [INR 1] [1] [1] [1] [1] [1]).
Proof.
  simpl. repeat split; auto; repeat constructor; try (apply (natural_nat 1); lia); try (apply (natural_nat 3); lia);
    try (apply (natural_nat 4); lia); try lia.
Qed.

(** With a density exponent between 0 and 1 the branch at zero density is wrong: the term
    delta^(1/2) is 1 there, and at most 1/2 at all densities in (0, 1/4]. *)
Lemma to_int_half : to_int (1 / 2) = Some 0%Z.
Proof.
  assert (E : trunc (1 / 2) = 0%Z).
  { unfold trunc. destruct (Rle_dec 0 (1 / 2)); [|lra]. unfold Int_part.
    rewrite <- (up_tech (1 / 2) 0) by (simpl; lra). reflexivity. }
  unfold to_int. rewrite E. reflexivity.
Qed.
Theorem C34_fractional_exponent_refuted : exists t v,
  (term_alphar t 1 0 = Some (Val 1)) /\
  forall delta, 0 < delta <= 1 / 4 -> term_alphar t 1 delta = Some (Val (v delta)) /\ 0 < v delta <= 1 / 2.
Proof.
  exists (JustPower [1] [0] [1 / 2]), (fun delta => exp (1 / 2 * ln delta)). split.
  - unfold term_alphar. simpl osum. cbn [length osum nth_error opt_bind]. unfold scaled.
    destruct (Req_EM_T 0 0) as [_|N]; [|lra]. unfold powd. rewrite to_int_half. cbn [opt_bind].
    change 0%Z with (Z.of_nat 0). rewrite powi_nat. cbn [opt_bind]. rewrite Rmult_0_l, exp_0. unfold ok. f_equal. f_equal. simpl. ring.
  - intros delta [H1 H2]. split.
    + unfold term_alphar. cbn [length osum nth_error opt_bind]. unfold scaled.
      destruct (Req_EM_T delta 0); [lra|]. cbn [opt_bind]. unfold ok. rewrite Rmult_0_l, !Rplus_0_l, Rmult_1_l. reflexivity.
    + split; [apply exp_pos|]. assert (E : exp (1 / 2 * ln (1 / 4)) = 1 / 2).
      { replace (1 / 4) with (1 / 2 * (1 / 2)) by field. rewrite ln_mult by lra.
        replace (1 / 2 * (ln (1 / 2) + ln (1 / 2))) with (ln (1 / 2)) by field. apply exp_ln. lra. }
      apply Rle_trans with (exp (1 / 2 * ln (1 / 4))); [|lra]. destruct (Req_dec delta (1 / 4)) as [->|N]; [lra|]. left. apply exp_increasing.
      apply Rmult_lt_compat_l; [lra|]. apply ln_increasing; lra.
Qed.

(** * C30: the terms vanish at zero density *)
Theorem C30_terms : forall t tau, well_formed t -> List.Forall (fun d => d <> 0) (density_exponents t) -> 0 < tau ->
  term_alphar t tau 0 = Some (Val 0).
Proof. intros t tau W D T. rewrite term_textbook by (auto; lra). rewrite textbook_zero by auto. reflexivity. Qed.
Lemma opt_osum_zero : forall N f v, (forall i a, f i = Some a -> a = 0) -> osum N f = Some v -> v = 0.
Proof.
  induction N; simpl; intros f v H E; [injection E as <-; reflexivity|].
  destruct (osum N f) eqn:E1; [|discriminate]. simpl in E. destruct (f N) eqn:E2; [|discriminate]. simpl in E. injection E as <-.
  rewrite (IHN f r), (H N r0); auto. ring.
Qed.
Theorem C30_other_terms : forall t tau v,
  match t with NonAnalytic _ _ _ _ _ _ _ _ | GenericCubicT _ _ _ _ _ _ _ _ | NullTerm => True | _ => False end ->
  term_alphar t tau 0 = Some (Val v) -> v = 0.
Proof.
  intros t tau v K E. destruct t; try contradiction; unfold term_alphar in E.
  - injection E as <-. reflexivity.
  - destruct (_ || _); [discriminate|]. unfold ok in E. injection E as E.
    destruct (osum _ _) eqn:S; [|auto]. subst v. eapply opt_osum_zero; [|exact S].
    intros i a0 Hi. cbv beta in Hi. unfold nonanalytic_i in Hi. destruct (Req_EM_T _ _); [discriminate|].
    destruct (cpow _ _); [|discriminate]. cbn [opt_bind] in Hi. destruct (cpow _ _); [|discriminate]. cbn [opt_bind] in Hi.
    destruct (cpow _ _); [|discriminate]. cbn [opt_bind] in Hi. injection Hi as <-. ring.
  - unfold ok in E. injection E as <-. rewrite Rmult_0_l. apply form_zero.
Qed.
(** ... and so does their sum. *)
Theorem C30_term_sums : forall ts tau, List.Forall (fun t => term_alphar t tau 0 = Some (Val 0)) ts ->
  terms_alphar ts tau 0 = Some (Val 0).
Proof.
  induction 1 as [|t ts E H IH]; [reflexivity|]. simpl. rewrite E. simpl. rewrite IH. simpl. unfold ok. rewrite Rplus_0_l. reflexivity.
Qed.
Example C30_terms_met : List.Forall (fun d => d <> 0) (density_exponents (Power [1; 2] [0.5; -1] [INR 1; INR 3] [0; 1] [0%Z; 2%Z])).
Proof. repeat constructor; simpl; lra. Qed.
(** A two-dimensional Chebyshev expansion is an arbitrary function of the density, and a
    power term may have the exponent 0. *)
Theorem C30_chebyshev_refuted : exists t, term_alphar t 1 0 = Some (Val 1) /\ exists a b c d e, t = Chebyshev2D a b c d e.
Proof.
  exists (Chebyshev2D [[4]] 0 2 0 2). split; [|do 5 eexists; reflexivity].
  unfold term_alphar, chebyshev2D_alphar, Clenshaw2D, Clenshaw1DByRow. simpl. unfold Clenshaw1D. simpl. unfold ok. f_equal. f_equal. field.
Qed.
Theorem C30_zero_exponent_refuted : forall n, term_alphar (JustPower [n] [0] [0]) 1 0 = Some (Val n).
Proof.
  intro n. rewrite term_textbook; [|simpl; repeat split; auto; repeat constructor; apply (natural_nat 0); lia|lra|lra].
  f_equal. f_equal. unfold textbook, power_sum, rpow. simpl. rewrite exp_0. unfold Rpower. rewrite Rmult_0_l, exp_0.
  destruct (Req_EM_T 0 0); [|lra]. destruct (Req_EM_T 0 0); [|lra]. ring.
Qed.

Lemma map_repeat : forall A B (f : A -> B) x k, map f (repeat x k) = repeat (f x) k.
Proof. intros A B f x k. induction k; simpl; [reflexivity|]. rewrite IHk. reflexivity. Qed.

(** * C33: the terms built from a file are the file's function *)

(** ** Power terms of departure functions *)
Theorem C33_departure : forall j n t d l ts tau delta,
  has_array j "n" n -> has_array j "t" t -> has_array j "d" d -> has_array j "l" l ->
  List.Forall natural d -> List.Forall (fun x => 0 <= x) l ->
  build_power_departure j = Some (Val ts) -> 0 < tau -> 0 <= delta ->
  terms_alphar ts tau delta = Some (Val (file_power n t d l tau delta)).
Proof.
  intros j n t d l ts tau delta Hn Ht Hd Hl Nd Pl E T D. unfold build_power_departure in E.
  rewrite (has_size _ _ _ Hn) in E. destruct (Nat.eqb (length n) 0) eqn:N0.
  { apply Nat.eqb_eq in N0. unfold ok in E. injection E as <-. unfold file_power, power_sum. rewrite N0. reflexivity. }
  rewrite (has_eigorzero _ _ _ _ Hn), N0, (has_eigorzero _ _ _ _ Ht), (has_eigorzero _ _ _ _ Hd) in E. cbn [obind] in E.
  rewrite (has_empty _ _ _ Hl) in E. destruct (Nat.eqb (length l) 0) eqn:L0.
  - rewrite (same_length_sizes j _ [length n; length t; length d]) in E
      by (repeat constructor; apply size_array; auto).
    cbn [obind] in E. destruct (Nat.eqb (length (dedup _)) 1) eqn:Q; [|discriminate E]. apply Nat.eqb_eq in Q.
    assert (Lt : length t = length n) by (eapply dedup_one; [exact Q| |]; simpl; auto).
    assert (Ld : length d = length n) by (eapply dedup_one; [exact Q| |]; simpl; auto).
    rewrite Lt, Ld, N0 in E. cbn [negb] in E. rewrite cast_zeros in E. cbn [ub obind ok] in E. unfold ok in E. cbn [obind] in E.
    apply Nat.eqb_eq in L0. destruct l; [|discriminate].
    assert (F : file_power n t d [] tau delta = file_power n t d (repeat 0 (length n)) tau delta).
    { unfold file_power, power_sum. apply sumn_ext. intros i Hi. rewrite nth_repeat. destruct i; reflexivity. }
    rewrite F. replace (repeat 0 (length n)) with (exp_flags (repeat 0 (length n))) in E at 1.
    2:{ unfold exp_flags. rewrite map_repeat. unfold positive. destruct (Rlt_dec 0 0); [lra|reflexivity]. }
    apply (split_ok n t d (repeat 0 (length n)) (repeat 0%Z (length n)) tau delta) with (k := 0%nat) (contiguous := false); auto.
    + apply repeat_length.
    + apply List.Forall_forall. intros x I. apply repeat_spec in I. lra.
    + rewrite map_repeat. reflexivity.
    + apply List.Forall_forall. intros x I. apply repeat_spec in I. subst x. unfold natural_Z. lia.
    + lia.
    + discriminate.
    + rewrite repeat_length, Nat.sub_0_r. exact E.
  - rewrite (same_length_sizes j _ [length n; length t; length d; length l]) in E
      by (repeat constructor; apply size_array; auto).
    cbn [obind] in E. destruct (Nat.eqb (length (dedup _)) 1) eqn:Q; [|discriminate E]. apply Nat.eqb_eq in Q.
    assert (Lt : length t = length n) by (eapply dedup_one; [exact Q| |]; simpl; auto).
    assert (Ld : length d = length n) by (eapply dedup_one; [exact Q| |]; simpl; auto).
    assert (Ll : length l = length n) by (eapply dedup_one; [exact Q| |]; simpl; auto 6).
    rewrite Lt, Ld, N0 in E. cbn [negb] in E. rewrite (has_toeig _ _ _ Hl) in E. cbn [obind] in E.
    assert (Ck := count_le l).
    unfold tail in E. rewrite (proj2 (Nat.leb_le (length l - count_zeros l) (length l))) in E by lia. cbn [ub obind ok] in E. unfold ok in E. cbn [obind] in E.
    replace (length l - (length l - count_zeros l))%nat with (count_zeros l) in E by lia.
    destruct (is_zero (nth 0 l 0) && existsb is_zero (skipn (count_zeros l) l)) eqn:X; [discriminate E|].
    destruct (cast_int l) as [li|] eqn:C; [|discriminate E]. cbn [ub obind ok] in E. unfold ok in E. cbn [obind] in E.
    destruct (all_integers l li) eqn:AI; [|discriminate E]. cbn [negb] in E.
    assert (EI : l = map IZR li) by (apply integers_eq; auto; apply cast_length; auto).
    apply (split_ok n t d l li tau delta) with (k := count_zeros l) (contiguous := is_zero (nth 0 l 0)); auto.
    + eapply cast_natural; eauto.
    + lia.
    + intro Z. rewrite Z in X. cbn [andb] in X. apply count_none in X. apply count_all.
      assert (S := count_app (firstn (count_zeros l) l) (skipn (count_zeros l) l)). rewrite firstn_skipn in S.
      rewrite firstn_length' by auto. lia.
Qed.
(** Which files are accepted. *)
Lemma not_sorted : forall l, existsb is_zero (skipn (count_zeros l) l) = true -> ~ zeros_first l.
Proof.
  intros l H ZF. apply existsb_exists in H. destruct H as [x [I Z]]. apply (In_nth _ _ 0) in I. destruct I as [p [Hp E]].
  rewrite nth_skipn' in E. rewrite skipn_length in Hp. set (q := (count_zeros l + p)%nat) in *.
  assert (Zx : x = 0) by (unfold is_zero in Z; destruct (Req_EM_T x 0); [auto|discriminate]). subst x.
  assert (A : List.Forall (fun x => x = 0) (firstn (S q) l)).
  { apply List.Forall_forall. intros x I. apply (In_nth _ _ 0) in I. destruct I as [i [Hi <-]].
    rewrite firstn_length in Hi. rewrite nth_firstn' by lia. destruct (Nat.eq_dec i q) as [->|]; [auto|].
    apply (ZF i q); [lia|auto]. }
  assert (C : (S q <= count_zeros l)%nat); [|lia].
  assert (B : count_zeros (firstn (S q) l) = S q).
  { transitivity (length (firstn (S q) l)); [|apply firstn_length'; lia]. unfold count_zeros. clear -A.
    induction A as [|x m E A IH]; [reflexivity|]. simpl. subst x. unfold is_zero at 1. destruct (Req_EM_T 0 0); [|lra]. simpl. f_equal. exact IH. }
  rewrite <- (firstn_skipn (S q) l) at 1. rewrite count_app, B. lia.
Qed.
Lemma sorted : forall l, existsb is_zero (skipn (count_zeros l) l) = false -> zeros_first l.
Proof.
  intros l H i k [H1 H2] E. assert (Ck := count_le l). assert (K : (k < count_zeros l)%nat).
  { destruct (Nat.lt_ge_cases k (count_zeros l)); auto. exfalso.
    assert (X : existsb is_zero (skipn (count_zeros l) l) = true); [|congruence].
    apply existsb_exists. exists (nth k l 0). split; [|rewrite E; unfold is_zero; destruct (Req_EM_T 0 0); [reflexivity|lra]].
    replace k with (count_zeros l + (k - count_zeros l))%nat by lia. rewrite <- nth_skipn'. apply nth_In. rewrite skipn_length. lia. }
  apply count_none in H. assert (A : List.Forall (fun x => x = 0) (firstn (count_zeros l) l)).
  { apply count_all. assert (S := count_app (firstn (count_zeros l) l) (skipn (count_zeros l) l)). rewrite firstn_skipn in S.
    rewrite firstn_length' by auto. lia. }
  rewrite <- (nth_firstn' _ (count_zeros l)) by lia. apply (Forall_nth' _ (fun x => x = 0)); [auto|]. rewrite firstn_length' by auto. lia.
Qed.
(** Arrays of the same length are accepted when the exponents start with a non-zero one or
    have their zeros first, and rejected otherwise.*)
Theorem C33_departure_accepts : forall j n t d l,
  has_array j "n" n -> has_array j "t" t -> has_array j "d" d -> has_array j "l" l -> n <> [] ->
  length t = length n -> length d = length n -> length l = length n -> List.Forall natural l ->
  (nth 0 l 0 <> 0 \/ zeros_first l -> exists ts, build_power_departure j = Some (Val ts)) /\
  (nth 0 l 0 = 0 -> ~ zeros_first l -> build_power_departure j = Some (Err StdInvalidArgument)).
Proof.
  intros j n t d l Hn Ht Hd Hl Nn Lt Ld Ll Nl. unfold build_power_departure.
  assert (N0 : Nat.eqb (length n) 0 = false) by (apply Nat.eqb_neq; destruct n; [congruence|discriminate]).
  rewrite (has_size _ _ _ Hn), N0, (has_eigorzero _ _ _ _ Hn), N0, (has_eigorzero _ _ _ _ Ht), (has_eigorzero _ _ _ _ Hd), Lt, Ld, N0.
  cbn [obind]. rewrite (has_empty _ _ _ Hl), Ll, N0.
  rewrite (same_length_sizes j _ [length n; length t; length d; length l]) by (repeat constructor; apply size_array; auto).
  cbn [obind]. rewrite (dedup_const (length n)) by (try discriminate; repeat constructor; auto). cbn [Nat.eqb negb].
  rewrite (has_toeig _ _ _ Hl). cbn [obind]. assert (Ck := count_le l).
  assert (TL : tail (length l - count_zeros l) l = Some (skipn (count_zeros l) l)).
  { unfold tail. rewrite (proj2 (Nat.leb_le _ _)) by lia. do 2 f_equal. lia. }
  rewrite TL. change (ub (Some (skipn (count_zeros l) l))) with (Some (Val (skipn (count_zeros l) l))). cbn [obind].
  destruct (cast_nat l Nl) as [li [C EI]].
  split.
  - intro A.
    replace (is_zero (nth 0 l 0) && existsb is_zero (skipn (count_zeros l) l)) with false.
    2:{ symmetry. destruct A as [A|A].
        - unfold is_zero at 1. destruct (Req_EM_T _ _); [contradiction|reflexivity].
        - destruct (existsb is_zero (skipn (count_zeros l) l)) eqn:X; [|apply andb_false_r]. apply not_sorted in X. contradiction. }
    rewrite C. cbn [ub obind ok]. unfold ok. cbn [obind]. replace (all_integers l li) with true by (rewrite EI; symmetry; apply integers_refl). cbn [negb].
    unfold split_power. destruct (is_zero (list_sum l)); [eexists; reflexivity|]. destruct (_ && _); [|eexists; reflexivity].
    assert (Lf : length (exp_flags l) = length n) by (unfold exp_flags; rewrite map_length; auto).
    assert (Li : length li = length n) by (rewrite <- Ll, EI, map_length; reflexivity).
    unfold head, tail. rewrite Lt, Ld, Lf, Li, Ll.
    rewrite (proj2 (Nat.leb_le (count_zeros l) (length n))) by lia. rewrite (proj2 (Nat.leb_le (length n - count_zeros l) (length n))) by lia.
    cbn [ub obind ok]. unfold ok. cbn [obind]. eexists. reflexivity.
  - intros Z A. destruct (existsb is_zero (skipn (count_zeros l) l)) eqn:X; [|apply sorted in X; contradiction].
    unfold is_zero at 1. destruct (Req_EM_T _ _); [reflexivity|contradiction].
Qed.
(** Arrays of different lengths are rejected. *)
Theorem C33_departure_lengths : forall j n t d l,
  has_array j "n" n -> has_array j "t" t -> has_array j "d" d -> has_array j "l" l -> n <> [] -> l <> [] ->
  (length t <> length n \/ length d <> length n \/ length l <> length n) ->
  build_power_departure j = Some (Err StdInvalidArgument).
Proof.
  intros j n t d l Hn Ht Hd Hl Nn Nl B. unfold build_power_departure.
  assert (N0 : Nat.eqb (length n) 0 = false) by (apply Nat.eqb_neq; destruct n; [congruence|discriminate]).
  assert (L0 : Nat.eqb (length l) 0 = false) by (apply Nat.eqb_neq; destruct l; [congruence|discriminate]).
  rewrite (has_size _ _ _ Hn), N0, (has_eigorzero _ _ _ _ Hn), N0, (has_eigorzero _ _ _ _ Ht), (has_eigorzero _ _ _ _ Hd).
  cbn [obind]. rewrite (has_empty _ _ _ Hl), L0.
  rewrite (same_length_sizes j _ [length n; length t; length d; length l]) by (repeat constructor; apply size_array; auto).
  cbn [obind]. destruct (Nat.eqb (length (dedup [length n; length t; length d; length l])) 1) eqn:Q; [|reflexivity]. exfalso.
  apply Nat.eqb_eq in Q.
  assert (length t = length n) by (eapply dedup_one; [exact Q| |]; simpl; auto).
  assert (length d = length n) by (eapply dedup_one; [exact Q| |]; simpl; auto).
  assert (length l = length n) by (eapply dedup_one; [exact Q| |]; simpl; auto 6). lia.
Qed.
Definition power_file (n t d l : list R) : json :=
  JObj [("type", JStr "ResidualHelmholtzPower"); ("n", JArr (map JNum n)); ("t", JArr (map JNum t));
        ("d", JArr (map JNum d)); ("l", JArr (map JNum l))]%string.
Lemma power_file_has : forall n t d l, has_array (power_file n t d l) "n" n /\ has_array (power_file n t d l) "t" t /\
  has_array (power_file n t d l) "d" d /\ has_array (power_file n t d l) "l" l.
Proof. intros. repeat split; eexists; (split; [reflexivity|]); reflexivity. Qed.
(** the hypotheses are met, by an accepted file (two zeros first) and by a rejected one *)
Example C33_departure_met :
  List.Forall natural [0; 0; 1; 2] /\ zeros_first [0; 0; 1; 2] /\ ~ zeros_first [0; 1; 0; 2] /\ List.Forall (fun x => 0 <= x) [0; 0; 1; 2].
Proof.
  repeat split.
  - repeat constructor; [apply (natural_nat 0)|apply (natural_nat 0)|apply (natural_nat 1)|apply (natural_nat 2)]; lia.
  - intros i k [H1 H2] E. simpl in H2. do 4 (destruct k; [do 4 (destruct i; [simpl in *; first [lia|lra]|]); lia|]). lia.
  - intro Z. specialize (Z 1%nat 2%nat). simpl in Z. assert (1 = 0) by (apply Z; [lia|reflexivity]). lra.
  - repeat constructor; lra.
Qed.
(** Negative exponents whose sum is zero lose their exponential part. *)
Theorem C33_negative_refuted : exists n t d l ts,
  build_power_departure (power_file n t d l) = Some (Val ts) /\ ts = [JustPower n t d] /\ nth 0 l 0 = 1.
Proof.
  exists [1; 1], [0; 0], [1; 1], [1; -1]. eexists. split; [|split; reflexivity].
  unfold build_power_departure. simpl. unfold count_zeros, is_zero. simpl.
  destruct (Req_EM_T 1 0); [lra|]. destruct (Req_EM_T (-1) 0); [lra|]. simpl.
  assert (T1 : to_int 1 = Some 1%Z) by (apply (to_int_nat 1); reflexivity).
  assert (T2 : to_int (-1) = Some (-1)%Z).
  { unfold to_int. replace (trunc (-1)) with (-1)%Z; [reflexivity|]. unfold trunc. destruct (Rle_dec 0 (-1)); [lra|].
    replace (- -1) with (INR 1) by (simpl; ring). rewrite Int_part_INR. reflexivity. }
  rewrite T1, T2. simpl. unfold all_integers. simpl. unfold is_zero. destruct (Req_EM_T (1 - 1) 0); [|lra]. simpl.
  destruct (Req_EM_T (-1 - -1) 0); [|lra]. simpl. unfold split_power, is_zero, list_sum. simpl.
  destruct (Req_EM_T (1 + (-1 + 0)) 0); [reflexivity|lra].
Qed.

(** ** Power terms of pure fluids: the same, for lists of the same length whose exponents
    start with a non-zero one or have their zeros first *)
Theorem C33_fluid_partial : forall j n t d l ts tau delta,
  has_array j "n" n -> has_array j "t" t -> has_array j "d" d -> has_array j "l" l ->
  length t = length n -> length d = length n -> (l = [] \/ length l = length n) ->
  (nth 0 l 0 <> 0 \/ zeros_first l) ->
  List.Forall natural d -> List.Forall (fun x => 0 <= x) l ->
  build_power_fluid j = Some (Val ts) -> 0 < tau -> 0 <= delta ->
  terms_alphar ts tau delta = Some (Val (file_power n t d l tau delta)).
Proof.
  intros j n t d l ts tau delta Hn Ht Hd Hl Lt Ld Ll ZF Nd Pl E T D. unfold build_power_fluid in E.
  rewrite (has_size _ _ _ Hn), (has_eigorzero _ _ _ _ Hn), (has_eigorzero _ _ _ _ Ht), (has_eigorzero _ _ _ _ Hd), Lt, Ld in E.
  assert (RE : forall m : list R, length m = length n -> (if Nat.eqb (length n) 0 then repeat 0 (length n) else m) = m).
  { intros m L. destruct (Nat.eqb (length n) 0) eqn:N0; [|reflexivity]. apply Nat.eqb_eq in N0. rewrite N0 in L. rewrite N0. destruct m; [reflexivity|discriminate]. }
  rewrite !RE in E by auto. cbn [obind] in E.
  rewrite (has_empty _ _ _ Hl) in E. destruct (Nat.eqb (length l) 0) eqn:L0.
  - rewrite cast_zeros in E. cbn [ub obind ok] in E. unfold ok in E. cbn [obind] in E.
    apply Nat.eqb_eq in L0. destruct l; [|discriminate].
    assert (F : file_power n t d [] tau delta = file_power n t d (repeat 0 (length n)) tau delta).
    { unfold file_power, power_sum. apply sumn_ext. intros i Hi. rewrite nth_repeat. destruct i; reflexivity. }
    rewrite F. replace (repeat 0 (length n)) with (exp_flags (repeat 0 (length n))) in E at 1.
    2:{ unfold exp_flags. rewrite map_repeat. unfold positive. destruct (Rlt_dec 0 0); [lra|reflexivity]. }
    apply (split_ok n t d (repeat 0 (length n)) (repeat 0%Z (length n)) tau delta) with (k := 0%nat) (contiguous := false); auto.
    + apply repeat_length.
    + apply List.Forall_forall. intros x I. apply repeat_spec in I. lra.
    + rewrite map_repeat. reflexivity.
    + apply List.Forall_forall. intros x I. apply repeat_spec in I. subst x. unfold natural_Z. lia.
    + lia.
    + discriminate.
    + rewrite repeat_length, Nat.sub_0_r. exact E.
  - destruct Ll as [->|Ll]; [discriminate|].
    rewrite (has_toeig _ _ _ Hl) in E. cbn [obind] in E. rewrite Ll in E. rewrite Nat.ltb_irrefl in E.
    rewrite <- Ll in E. rewrite firstn_all in E.
    destruct (cast_int l) as [li|] eqn:C; [|discriminate E]. cbn [ub obind ok] in E. unfold ok in E. cbn [obind] in E.
    destruct (all_integers l li) eqn:AI; [|discriminate E]. cbn [negb] in E.
    assert (EI : l = map IZR li) by (apply integers_eq; auto; apply cast_length; auto).
    assert (Ck := count_le l).
    apply (split_ok n t d l li tau delta) with (k := count_zeros l) (contiguous := is_zero (nth 0 l 0)); auto.
    + eapply cast_natural; eauto.
    + lia.
    + intro Z. destruct ZF as [ZF|ZF]; [unfold is_zero in Z; destruct (Req_EM_T _ _); [contradiction|discriminate]|].
      destruct (existsb is_zero (skipn (count_zeros l) l)) eqn:X; [apply not_sorted in X; contradiction|].
      apply count_none in X. apply count_all.
      assert (S := count_app (firstn (count_zeros l) l) (skipn (count_zeros l) l)). rewrite firstn_skipn in S.
      rewrite firstn_length' by auto. lia.
Qed.
Ltac decide_R := repeat (match goal with
  | |- context [Req_EM_T ?a ?b] => destruct (Req_EM_T a b); try (exfalso; lra)
  | |- context [Rlt_dec ?a ?b] => destruct (Rlt_dec a b); try (exfalso; lra)
  end; simpl).
Lemma int_0 : to_int 0 = Some 0%Z. Proof. apply (to_int_nat 0). reflexivity. Qed.
Lemma int_1 : to_int 1 = Some 1%Z. Proof. apply (to_int_nat 1). reflexivity. Qed.
Lemma int_2 : to_int 2 = Some 2%Z. Proof. replace 2 with (INR 2) by (simpl; ring). apply to_int_nat. reflexivity. Qed.
(** Without the test that departure functions have, zeros after a non-zero exponent make
    other terms lose their exponential part ... *)
Theorem C33_fluid_zeros_refuted : exists n t d l ts v,
  length t = length n /\ length d = length n /\ length l = length n /\
  build_power_fluid (power_file n t d l) = Some (Val ts) /\ terms_alphar ts 1 1 = Some (Val v) /\
  v <> file_power n t d l 1 1.
Proof.
  exists [1; 1; 1; 1], [0; 0; 0; 0], [1; 1; 1; 1], [0; 1; 0; 2],
    [JustPower [1; 1] [0; 0] [1; 1]; Power [1; 1] [0; 0] [1; 1] [0; 1] [0%Z; 2%Z]].
  eexists. repeat (split; [reflexivity|]). split; [|split].
  - unfold build_power_fluid. simpl. rewrite int_0, int_1, int_2. unfold count_zeros, all_integers, exp_flags, split_power, is_zero, positive, list_sum.
    simpl. decide_R. reflexivity.
  - cbn [terms_alphar].
    rewrite term_textbook; [|simpl; repeat split; auto; repeat constructor; apply (natural_nat 1); lia|lra|lra].
    rewrite term_textbook; [|simpl; repeat split; auto; repeat first [apply List.Forall_nil | apply List.Forall_cons]; first [apply (natural_nat 1); lia|unfold natural_Z; lia]|lra|lra].
    cbn [obind ok]. reflexivity.
  - unfold textbook, file_power, power_sum, rpow. simpl. decide_R. rewrite !Rpower_O by lra.
    replace (Rpower 1 1) with 1 by (symmetry; apply Rpower_1; lra).
    replace (Rpower 1 2) with 1 by (replace 2 with (1 + 1) by ring; rewrite Rpower_plus, Rpower_1; lra).
    replace (- (0) * 1) with 0 by ring. replace (- (1) * 1) with (- (1)) by ring. rewrite exp_0.
    assert (X : exp (- (1)) < 1) by (apply Rlt_le_trans with (exp 0); [apply exp_increasing; lra|rewrite exp_0; lra]). lra.
Qed.
(** ... and a list of exponents that is longer than the others repeats terms, and one
    that is shorter is read past its end. *)
Theorem C33_fluid_lengths_refuted : 
  (forall n1 n2, build_power_fluid (power_file [n1; n2] [0; 0] [1; 1] [0; 0; 1]) =
     Some (Val [JustPower [n1; n2] [0; 0] [1; 1]; Power [n2] [0] [1] [0] [1%Z]])) /\
  (forall n1 n2, build_power_fluid (power_file [n1; n2] [0; 0] [1; 1] [1]) = None).
Proof.
  split; intros; unfold build_power_fluid; simpl; [|reflexivity].
  rewrite int_0, int_1. unfold count_zeros, all_integers, exp_flags, split_power, is_zero, positive, list_sum. simpl. decide_R. reflexivity.
Qed.

(** ** GERG-2004 and Gaussian+Exponential departure functions: the first Npower terms
    are power terms and the others bell-shaped ones *)
Theorem C33_departure_two_parts : forall gerg j n t d l eta beta gamma epsilon k tau delta,
  has_array j "n" n -> has_array j "t" t -> has_array j "d" d -> has_array j "l" l ->
  has_array j "eta" eta -> has_array j "beta" beta -> has_array j "gamma" gamma -> has_array j "epsilon" epsilon ->
  length t = length n -> length d = length n -> length eta = length n -> length beta = length n ->
  length gamma = length n -> length epsilon = length n ->
  index j "Npower" = JNum (INR k) -> j_contains j "Npower" = true -> j_contains j "l" = true ->
  (Z.of_nat k < 2 ^ 31)%Z -> (k <= length n)%nat -> (k <= length l)%nat ->
  List.Forall natural d -> List.Forall natural l -> 0 < tau -> 0 <= delta ->
  exists ts, build_power_plus gerg j = Some (Val ts) /\
  terms_alphar ts tau delta = Some (Val (power_sum n t d (fun i =>
    if Nat.ltb i k then (if Rlt_dec 0 (nth i l 0) then - rpow delta (nth i l 0) else 0)
    else - nth i eta 0 * (delta - nth i epsilon 0) ^ 2
         - nth i beta 0 * (if gerg then delta - nth i gamma 0 else (tau - nth i gamma 0) ^ 2)) tau delta)).
Proof.
  intros gerg j n t d l eta beta gamma epsilon k tau delta Hn Ht Hd Hl He Hb Hg Hp Lt Ld Le Lb Lg Lp NP CN CL Kb Kn Kl Nd Nl T D.
  unfold build_power_plus.
  rewrite (same_length_sizes j _ [length n; length t; length d; length eta; length beta; length gamma; length epsilon])
    by (repeat constructor; apply size_array; auto).
  cbn [obind]. rewrite (dedup_const (length n)) by (try discriminate; repeat constructor; auto). cbn [Nat.eqb negb].
  rewrite CN, NP. cbn [negb j_double obind]. rewrite to_int_nat by auto. cbn [ub]. unfold ok at 1. cbn [obind].
  unfold arrays. rewrite (has_toeig _ _ _ Hn), (has_toeig _ _ _ Ht), (has_toeig _ _ _ Hd), (has_toeig _ _ _ He), (has_toeig _ _ _ Hb),
    (has_toeig _ _ _ Hg), (has_toeig _ _ _ Hp). unfold ok at 1 2 3 4 5 6 7 8. cbn [obind].
  destruct (Z.ltb_spec (Z.of_nat k) 0); [lia|]. rewrite Nat2Z.id, CL, (has_toeig _ _ _ Hl). cbn [obind].
  unfold head, tail. rewrite Lt, Ld, Le, Lb, Lg, Lp. rewrite (proj2 (Nat.leb_le k (length n))), (proj2 (Nat.leb_le k (length l))) by auto.
  rewrite (proj2 (Nat.leb_le (length n - k) (length n))) by lia. replace (length n - (length n - k))%nat with k by lia.
  destruct (cast_nat (firstn k l)) as [li [C EI]]; [apply Forall_firstn; auto|].
  cbn [ub]. unfold ok. cbn [obind]. rewrite C. cbn [ub]. unfold ok. cbn [obind]. eexists. split; [reflexivity|].
  cbn [terms_alphar].
  rewrite (whole_ok (firstn k n) (firstn k t) (firstn k d) (firstn k l) li tau delta); auto;
    try (rewrite !firstn_length' by lia; reflexivity).
  2:{ eapply cast_natural; [exact C|]. apply Forall_firstn. apply List.Forall_forall. intros x I.
      rewrite List.Forall_forall in Nl. destruct (Nl x I) as [m [-> _]]. apply pos_INR. }
  2:{ apply Forall_firstn; auto. }
  rewrite term_textbook; auto; [|destruct gerg; simpl; rewrite !skipn_length; repeat split; try lia; apply Forall_skipn; auto].
  cbn [obind ok]. unfold ok. cbn [obind]. rewrite Rplus_0_r. f_equal. f_equal.
  unfold file_power, power_sum. rewrite firstn_length' by auto.
  replace (length n) with (k + (length n - k))%nat by lia. rewrite sumn_app. f_equal.
  - apply sumn_ext. intros i Hi. rewrite !nth_firstn' by auto. rewrite (proj2 (Nat.ltb_lt i k)) by auto. reflexivity.
  - destruct gerg; unfold textbook, power_sum; rewrite skipn_length; apply sumn_ext; intros i Hi; rewrite !nth_skipn';
      replace (Nat.ltb (k + i) k) with false by (symmetry; apply Nat.ltb_ge; lia); reflexivity.
Qed.
Definition two_part_file (k : nat) (n t d l eta beta gamma epsilon : list R) : json :=
  JObj [("Npower", JNum (INR k)); ("n", JArr (map JNum n)); ("t", JArr (map JNum t)); ("d", JArr (map JNum d)); ("l", JArr (map JNum l));
        ("eta", JArr (map JNum eta)); ("beta", JArr (map JNum beta)); ("gamma", JArr (map JNum gamma)); ("epsilon", JArr (map JNum epsilon))]%string.
Example C33_departure_two_parts_met : let j := two_part_file 1 [1; 2] [1; 1] [1; 1] [2; 0] [0; 1] [0; 1] [0; 1] [0; 0.5] in
  has_array j "n" [1; 2] /\ has_array j "l" [2; 0] /\ index j "Npower" = JNum (INR 1) /\ j_contains j "Npower" = true /\ j_contains j "l" = true.
Proof. repeat split; try (eexists; (split; [reflexivity|]); reflexivity). Qed.

(** ** Exponents of the density that are not integers are truncated without notice in
    these and in exponential terms. *)
Lemma to_int_three_halves : to_int (3 / 2) = Some 1%Z.
Proof.
  assert (E : trunc (3 / 2) = 1%Z).
  { unfold trunc. destruct (Rle_dec 0 (3 / 2)); [|lra]. unfold Int_part.
    rewrite <- (up_tech (3 / 2) 1) by (simpl; lra). reflexivity. }
  unfold to_int. rewrite E. reflexivity.
Qed.
Theorem C33_truncated_exponent_refuted : forall n t d g,
  build_exponential (JObj [("n", JArr [JNum n]); ("t", JArr [JNum t]); ("d", JArr [JNum d]); ("g", JArr [JNum g]); ("l", JArr [JNum (3 / 2)])]%string) =
  Some (Val (Exponential [n] [t] [d] [g] [1%Z])).
Proof. intros. unfold build_exponential. simpl. rewrite to_int_three_halves. reflexivity. Qed.

(** ** The whole file: the terms are added, and an unknown type is an error *)
Lemma terms_app : forall a b tau delta u v, terms_alphar a tau delta = Some (Val u) -> terms_alphar b tau delta = Some (Val v) ->
  terms_alphar (a ++ b) tau delta = Some (Val (u + v)).
Proof.
  induction a as [|t a IH]; simpl; intros b tau delta u v A B.
  - unfold ok in A. injection A as <-. rewrite B, Rplus_0_l. reflexivity.
  - destruct (term_alphar t tau delta) as [[x|]|]; try discriminate. simpl in A.
    destruct (terms_alphar a tau delta) as [[y|]|] eqn:E; try discriminate. simpl in A. unfold ok in A. injection A as <-.
    simpl. rewrite (IH b tau delta y v); auto. simpl. unfold ok. f_equal. f_equal. ring.
Qed.
Theorem C33_fluid_file : forall js vs ts tau delta,
  get_EOS_terms (JArr js) = Some (Val ts) ->
  Forall2 (fun j v => exists tj, build_fluid_term j = Some (Val tj) /\ terms_alphar tj tau delta = Some (Val v)) js vs ->
  terms_alphar ts tau delta = Some (Val (fold_right Rplus 0 vs)).
Proof.
  intros js vs ts tau delta E H. unfold get_EOS_terms in E. destruct (j_empty _); [discriminate|].
  destruct (check_types _); [|discriminate]. cbn [obind j_values] in E. revert ts E.
  induction H as [|j v js vs [tj [B V]] H IH]; intros ts E; simpl in E.
  - unfold ok in E. injection E as <-. reflexivity.
  - rewrite B in E. cbn [obind] in E. destruct (build_fluid_terms js) as [[ts'|]|]; try discriminate. cbn [obind] in E. unfold ok in E. injection E as <-.
    simpl. apply terms_app; auto.
Qed.
Example C33_fluid_file_met : exists ts, get_EOS_terms (JArr [power_file [1; 1] [0; 1] [1; 2] [0; 0]; power_file [2] [0] [1] [1]]) = Some (Val ts).
Proof.
  eexists. unfold get_EOS_terms. simpl. unfold build_fluid_term. simpl. unfold build_power_fluid. simpl. rewrite int_0, int_1.
  unfold count_zeros, all_integers, exp_flags, split_power, is_zero, positive, list_sum. simpl. decide_R. reflexivity.
Qed.
(** (the PC-SAFT term is allowed too; it is not part of the model) *)
Theorem C33_unknown_type : forall js, 
  List.Forall (fun j => exists type, index j "type" = JStr type /\ type <> "ResidualHelmholtzPCSAFTGrossSadowski2001"%string) js ->
  (exists j type, In j js /\ index j "type" = JStr type /\ ~ In type allowed_types) ->
  get_EOS_terms (JArr js) = Some (Err StdInvalidArgument).
Proof.
  intros js A [j [type [I [Ty B]]]]. unfold get_EOS_terms.
  assert (E : check_types js = Err StdInvalidArgument).
  { induction js as [|j' js IH]; [destruct I|]. inversion A as [|? ? [ty [T1 _]] A']; subst. cbn [check_types]. rewrite T1. cbn [bind j_string].
    destruct (existsb (String.eqb ty) allowed_types) eqn:X.
    - destruct I as [->|I]; [|apply IH; auto]. exfalso. apply existsb_exists in X. destruct X as [a [Ia Xa]]. apply String.eqb_eq in Xa. subst a.
      apply B. rewrite T1 in Ty. injection Ty as <-. exact Ia.
    - reflexivity. }
  destruct js as [|j' js]; [destruct I|]. cbn [j_empty length Nat.eqb j_values]. rewrite E. reflexivity.
Qed.
Theorem C33_empty_file : get_EOS_terms (JArr []) = Some (Err InvalidArgument).
Proof. reflexivity. Qed.

Print Assumptions C34_terms.
Print Assumptions C34_extension.
Print Assumptions C34_fractional_exponent_refuted.
Print Assumptions C30_terms.
Print Assumptions C30_other_terms.
Print Assumptions C30_term_sums.
Print Assumptions C30_chebyshev_refuted.
Print Assumptions C30_zero_exponent_refuted.
Print Assumptions C33_departure.
Print Assumptions C33_departure_accepts.
Print Assumptions C33_departure_lengths.
Print Assumptions C33_negative_refuted.
Print Assumptions C33_fluid_partial.
Print Assumptions C33_fluid_zeros_refuted.
Print Assumptions C33_fluid_lengths_refuted.
Print Assumptions C33_departure_two_parts.
Print Assumptions C33_truncated_exponent_refuted.
Print Assumptions C33_fluid_file.
Print Assumptions C33_unknown_type.
Print Assumptions C33_empty_file.
