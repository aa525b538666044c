(** Lemmas about the GERG models. *)
From Coq Require Import Reals ZArith String List Lia Lra Bool.
From Verif Require Import Json_model Vec_spec Vec_proofs Cubic_model Cubic_spec Cubic_proofs2 Terms_model Ideal_model Ideal_proofs Util_model Assoc_model Assoc_proofs4 Multi_proofs2.
From Verif Require Import LKP_proofs VRMie_proofs GERG_tables GERG_reference GERG_model GERG_spec.
Import ListNotations.
Local Open Scope R_scope.

(** * Sums *)
Lemma sumn_first : forall n f, sumn (S n) f = f O + sumn n (fun i => f (S i)).
Proof. induction n as [|n IH]; intro f; [cbn; ring|]. change (sumn (S (S n)) f) with (sumn (S n) f + f (S n)). rewrite IH. cbn [sumn]. ring. Qed.
Lemma upper_ext : forall n f g, (forall i j, (i < j)%nat -> (j < n)%nat -> f i j = g i j) -> upper n f = upper n g.
Proof. intros n f g H. unfold upper. apply sumn_ext. intros i Hi. apply sumn_ext. intros k Hk. apply H; lia. Qed.
Lemma upper_double : forall n F, (forall i j, (i < n)%nat -> (j < n)%nat -> F i j = F j i) ->
  sumn n (fun i => F i i) + upper n (fun i j => 2 * F i j) = sumn n (fun i => sumn n (fun j => F i j)).
Proof.
  intros n F H. rewrite <- upper_full by exact H. unfold upper. rewrite <- sumn_plus. apply sumn_ext. intros i Hi. replace (n - i)%nat with (S (n - S i)) by lia. rewrite sumn_first. rewrite Nat.add_0_r, Nat.eqb_refl, Rmult_1_r. f_equal.
  apply sumn_ext. intros k Hk. replace (i + S k)%nat with (S i + k)%nat by lia. replace (Nat.eqb i (S i + k)) with false by (symmetry; apply Nat.eqb_neq; lia). ring.
Qed.
Lemma upper_half : forall n F, (forall i j, (i < n)%nat -> (j < n)%nat -> F i j = F j i) -> (forall i, (i < n)%nat -> F i i = 0) ->
  upper n F = / 2 * sumn n (fun i => sumn n (fun j => F i j)).
Proof.
  intros n F H Z. rewrite <- upper_double by exact H. rewrite (sumn_0 n (fun i => F i i)) by exact Z. unfold upper. rewrite (sumn_ext n (fun i => sumn (n - S i) (fun k => 2 * F i (S i + k)%nat)) (fun i => 2 * sumn (n - S i) (fun k => F i (S i + k)%nat))) by (intros; apply sumn_scal).
  rewrite sumn_scal. field.
Qed.
Lemma oupper_val : forall n f g, (forall i j, (i < j)%nat -> (j < n)%nat -> f i j = Some (g i j)) -> oupper n f = Some (upper n g).
Proof.
  intros n f g H. unfold oupper, upper. apply osum_val. intros i Hi. apply osum_val. intros k Hk. apply H; lia.
Qed.
Lemma lsum_seq : forall A (f : A -> R) g n, lsum f (map g (seq 0 n)) = sumn n (fun i => f (g i)).
Proof.
  intros A f g n. assert (H : forall m s, lsum f (map g (seq s m)) = sumn m (fun i => f (g (s + i)%nat))).
  { induction m as [|m IH]; intro s; [reflexivity|]. rewrite sumn_first. cbn [seq map lsum fold_right]. fold (lsum f (map g (seq (S s) m))). rewrite IH, Nat.add_0_r. f_equal. apply sumn_ext. intros i _. do 2 f_equal. lia. }
  apply H.
Qed.
Lemma sumn_pos1 : forall n f k, (k < n)%nat -> (forall i, (i < n)%nat -> 0 <= f i) -> 0 < f k -> 0 < sumn n f.
Proof. intros n f k Hk H P. pose proof (sumn_term n f k Hk H). lra. Qed.

(** * The reducing functions *)
Section Red.
Variable x : list R.
Variables beta K : nat -> nat -> R.
Let n := length x.
Hypothesis X : forall i, (i < n)%nat -> 0 <= nth i x 0.
Hypothesis Bpos : forall i j, (i < n)%nat -> (j < n)%nat -> 0 < beta i j.
Hypothesis Bsym : forall i j, (i < n)%nat -> (j < n)%nat -> beta j i = / beta i j.
Hypothesis Bdiag : forall i, (i < n)%nat -> beta i i = 1.
Hypothesis Ksym : forall i j, (i < n)%nat -> (j < n)%nat -> K i j = K j i.
Let Fd i j := nth i x 0 * nth j x 0 * beta i j * weight (beta i j) (nth i x 0) (nth j x 0) * K i j.
Lemma denom_0 : forall b u v, 0 < b -> 0 <= u -> 0 <= v -> b ^ 2 * u + v = 0 -> u = 0 /\ v = 0.
Proof. intros b u v Hb Hu Hv H. assert (0 < b ^ 2) by (apply pow_lt; exact Hb). assert (0 <= b ^ 2 * u) by (apply Rmult_le_pos; lra). split; [|lra]. assert (b ^ 2 * u = 0) by lra. apply Rmult_integral in H2. lra. Qed.
Lemma Fd_sym : forall i j, (i < n)%nat -> (j < n)%nat -> Fd i j = Fd j i.
Proof.
  intros i j Hi Hj. unfold Fd. rewrite (Bsym i j Hi Hj), (Ksym j i Hj Hi). pose proof (Bpos i j Hi Hj) as P. pose proof (X i Hi) as Xi. pose proof (X j Hj) as Xj. unfold weight. set (b := beta i j) in *. set (u := nth i x 0) in *. set (v := nth j x 0) in *.
  destruct (Req_EM_T (b ^ 2 * u + v) 0) as [Z|Z].
  - destruct (denom_0 b u v P Xi Xj Z) as [-> ->]. ring.
  - assert (Z' : (/ b) ^ 2 * v + u <> 0). { intro E. apply Z. replace (b ^ 2 * u + v) with (b ^ 2 * ((/ b) ^ 2 * v + u)) by (field; lra). rewrite E. ring. }
    replace ((/ b) ^ 2 * v + u) with ((b ^ 2 * u + v) / b ^ 2) by (field; lra). clear Z'. generalize (K i j). set (w := b ^ 2 * u + v) in *. clearbody w. intro k. field. split; lra.
Qed.
Lemma red_double : forall Yc, (forall i, (i < n)%nat -> nth i Yc 0 = K i i) ->
  red_Y x Yc beta (fun i j => beta i j * K i j) = sumn n (fun i => sumn n (fun j => Fd i j)).
Proof.
  intros Yc HY. rewrite <- upper_double by exact Fd_sym. unfold red_Y. fold n. f_equal.
  - apply sumn_ext. intros i Hi. unfold Fd, weight. rewrite (Bdiag i Hi), (HY i Hi). destruct (Req_EM_T (nth i x 0) 0) as [->|E]; [ring|]. field. lra.
  - apply upper_ext. intros i j Hij Hj. unfold is0, Fd, weight. unfold POW2. replace (beta i j * beta i j) with (beta i j ^ 2) by ring. destruct (Req_EM_T _ 0) as [E|E].
    + destruct (denom_0 _ _ _ (Bpos i j ltac:(lia) Hj) (X i ltac:(lia)) (X j Hj) E) as [-> _]. ring.
    + field. exact E.
Qed.
Hypothesis Kpos : forall i j, (i < n)%nat -> (j < n)%nat -> 0 < K i j.
Lemma Fd_pos : forall i j, (i < n)%nat -> (j < n)%nat -> 0 <= Fd i j.
Proof.
  intros i j Hi Hj. unfold Fd, weight. pose proof (Bpos i j Hi Hj) as P. pose proof (X i Hi) as Xi. pose proof (X j Hj) as Xj. pose proof (Kpos i j Hi Hj) as Kp. set (b := beta i j) in *. set (u := nth i x 0) in *. set (v := nth j x 0) in *.
  assert (0 <= b ^ 2 * u + v) by (assert (0 <= b ^ 2 * u) by (apply Rmult_le_pos; [apply pow_le; lra|lra]); lra).
  destruct (Req_EM_T (b ^ 2 * u + v) 0) as [Z|Z].
  - destruct (denom_0 b u v P Xi Xj Z) as [-> ->]. rewrite !Rmult_0_l. lra.
  - apply Rmult_le_pos; [|lra]. apply Rmult_le_pos; [apply Rmult_le_pos; [apply Rmult_le_pos; lra|lra]|]. apply Rmult_le_pos; [lra|apply Rlt_le, Rinv_0_lt_compat; lra].
Qed.
Lemma double_pos : (exists k, (k < n)%nat /\ 0 < nth k x 0) -> 0 < sumn n (fun i => sumn n (fun j => Fd i j)).
Proof.
  intros (k & Hk & P). apply (sumn_pos1 n _ k Hk).
  - intros i Hi. apply sumn_pos. intros j Hj. now apply Fd_pos.
  - apply (sumn_pos1 n _ k Hk). { intros j Hj. now apply Fd_pos. } unfold Fd, weight. rewrite (Bdiag k Hk). pose proof (Kpos k k Hk Hk) as Kp. replace (nth k x 0 * nth k x 0 * 1 * ((nth k x 0 + nth k x 0) / (1 ^ 2 * nth k x 0 + nth k x 0)) * K k k) with (nth k x 0 * nth k x 0 * K k k) by (field; lra). apply Rmult_lt_0_compat; [apply Rmult_lt_0_compat|]; assumption.
Qed.
End Red.

(** * Terms *)
Definition dnum_eqb (a b : dnum) : bool := (Z.eqb (dm a) (dm b) && Nat.eqb (de a) (de b))%bool.
(** arrays of one length, not empty; coefficients 0 and 1, with 1 for a positive exponent only *)
Definition pcoef_ok (p : pcoef) : bool :=
  let n := length (pc_n p) in
  (Nat.eqb (length (pc_t p)) n && Nat.eqb (length (pc_d p)) n && Nat.eqb (length (pc_c p)) n && Nat.eqb (length (pc_l p)) n && Nat.ltb 0 n &&
   forallb (fun i => Nat.ltb 0 (nth i (pc_d p) O) && (dnum_eqb (nth i (pc_c p) (d_ 0 0)) (d_ 0 0) || (dnum_eqb (nth i (pc_c p) (d_ 0 0)) (d_ 1 0) && Nat.ltb 0 (nth i (pc_l p) O)))) (seq 0 n))%bool.
Lemma dnum_eqb_eq : forall a b, dnum_eqb a b = true <-> a = b.
Proof. intros [m e] [m' e']. unfold dnum_eqb. cbn. rewrite andb_true_iff, Z.eqb_eq, Nat.eqb_eq. split; [intros [-> ->]; reflexivity|intro H; injection H; auto]. Qed.
Lemma val_0 : val (d_ 0 0) = 0. Proof. unfold val. cbn. field. Qed.
Lemma val_1 : val (d_ 1 0) = 1. Proof. unfold val. cbn. field. Qed.
Lemma clog_val : forall a, 0 < a -> clog a = Some (ln a). Proof. intros a H. unfold clog. destruct (Rlt_dec 0 a); [reflexivity|lra]. Qed.
Lemma exp_pow : forall d k, 0 < d -> exp (INR k * ln d) = d ^ k.
Proof. intros d k H. rewrite <- (Rpower_pow k d H). reflexivity. Qed.
Lemma pure_val : forall p tau delta, pcoef_ok p = true -> 0 < tau -> 0 <= delta -> pure_alphar p tau delta = ok (lsum (pterm_val tau delta) (map pterm_of (pterms p))).
Proof.
  intros p tau delta Hp Ht Hd. unfold pcoef_ok in Hp. rewrite !andb_true_iff in Hp. destruct Hp as (((((H1 & H2) & H3) & H4) & H5) & H6). apply Nat.eqb_eq in H1, H2, H3, H4. apply Nat.ltb_lt in H5. rewrite forallb_forall in H6.
  unfold pure_alphar. replace (Nat.eqb (length (pc_l p)) 0) with false by (symmetry; apply Nat.eqb_neq; lia). cbn [andb]. rewrite H1, H2, H3, H4. cbn [forallb]. rewrite !Nat.leb_refl. cbn [andb negb]. rewrite clog_val by exact Ht. cbn [opt_bind].
  unfold pterms. rewrite map_map, lsum_seq.
  assert (E : forall i, (i < length (pc_n p))%nat -> exp (- (num (pc_c p) i * delta ^ nth i (pc_l p) O)) =
    if Nat.eqb (if Z.eqb (dm (nth i (pc_c p) (d_ 0 0))) 0 then O else nth i (pc_l p) O) 0 then 1 else exp (- delta ^ (if Z.eqb (dm (nth i (pc_c p) (d_ 0 0))) 0 then O else nth i (pc_l p) O))).
  { intros i Hi. specialize (H6 i). rewrite in_seq in H6. specialize (H6 ltac:(lia)). rewrite andb_true_iff, orb_true_iff, andb_true_iff, !dnum_eqb_eq in H6. destruct H6 as [_ [C|[C Lp]]]; unfold num; rewrite C; cbn [dm].
    - cbn. rewrite val_0, Rmult_0_l, Ropp_0. apply exp_0.
    - apply Nat.ltb_lt in Lp. cbn [Z.eqb]. replace (Nat.eqb (nth i (pc_l p) O) 0) with false by (symmetry; apply Nat.eqb_neq; lia). rewrite val_1, Rmult_1_l. reflexivity. }
  destruct (Req_EM_T delta 0) as [Z|Z].
  - unfold fin, ok. do 2 f_equal. apply sumn_ext. intros i Hi. unfold pterm_of, pterm_val. rewrite <- (E i Hi). unfold Rminus. rewrite exp_plus. unfold Rpower, num. ring.
  - rewrite clog_val by lra. cbn [opt_bind]. unfold fin, ok. do 2 f_equal. apply sumn_ext. intros i Hi. unfold pterm_of, pterm_val. rewrite <- (E i Hi). unfold Rminus. rewrite !exp_plus, exp_pow by lra. unfold Rpower, num. ring.
Qed.
Definition dcoef_ok (c : dcoef) : bool :=
  let n := length (dc_n c) in
  (Nat.eqb (length (dc_t c)) n && Nat.eqb (length (dc_d c)) n && Nat.eqb (length (dc_eta c)) n && Nat.eqb (length (dc_beta c)) n && Nat.eqb (length (dc_gamma c)) n && Nat.eqb (length (dc_epsilon c)) n &&
   forallb (fun d => Nat.ltb 0 d) (dc_d c))%bool.
Lemma dep_val : forall c tau delta, dcoef_ok c = true -> 0 < tau -> 0 <= delta -> dep_fun c tau delta = Some (lsum (dterm_val tau delta) (map dterm_of (dterms c))).
Proof.
  intros c tau delta Hc Ht Hd. unfold dcoef_ok in Hc. rewrite !andb_true_iff in Hc. destruct Hc as ((((((H1 & H2) & H3) & H4) & H5) & H6) & _). apply Nat.eqb_eq in H1, H2, H3, H4, H5, H6.
  unfold dep_fun. rewrite H1, H2, H3, H4, H5, H6. cbn [forallb]. rewrite !Nat.leb_refl. cbn [andb negb]. rewrite clog_val by exact Ht. cbn [opt_bind]. unfold dterms. rewrite map_map, lsum_seq.
  destruct (Req_EM_T delta 0) as [Z|Z].
  - f_equal. apply sumn_ext. intros i Hi. unfold dterm_of, dterm_val, num. set (b := nth i (dc_beta c) (d_ 0 0)). set (e := nth i (dc_epsilon c) (d_ 0 0)). set (h := nth i (dc_eta c) (d_ 0 0)). set (g := nth i (dc_gamma c) (d_ 0 0)).
    replace (val (nth i (dc_t c) (d_ 0 0)) * ln tau - val h * ((delta - val e) * (delta - val e)) - val b * (delta - val g)) with (val (nth i (dc_t c) (d_ 0 0)) * ln tau + (- val h * (delta - val e) ^ 2 - val b * (delta - val g))) by ring. rewrite exp_plus. unfold Rpower. ring.
  - rewrite clog_val by lra. cbn [opt_bind]. f_equal. apply sumn_ext. intros i Hi. unfold dterm_of, dterm_val, num. set (b := nth i (dc_beta c) (d_ 0 0)). set (e := nth i (dc_epsilon c) (d_ 0 0)). set (h := nth i (dc_eta c) (d_ 0 0)). set (g := nth i (dc_gamma c) (d_ 0 0)).
    replace (val (nth i (dc_t c) (d_ 0 0)) * ln tau + INR (nth i (dc_d c) O) * ln delta - val h * ((delta - val e) * (delta - val e)) - val b * (delta - val g)) with (val (nth i (dc_t c) (d_ 0 0)) * ln tau + INR (nth i (dc_d c) O) * ln delta + (- val h * (delta - val e) ^ 2 - val b * (delta - val g))) by ring. rewrite !exp_plus, exp_pow by lra. unfold Rpower. ring.
Qed.

(** * A library that fits data, for the components of a mixture *)
Record fits (L : glib) (D : gdata) (names : list string) : Prop := {
  fit_info : forall f, In f names -> exists i, l_info L f = Val i /\ p_Tc i = s_Tc D f /\ p_rhoc i = s_rhoc D f;
  fit_crit : forall f, In f names -> 0 < s_Tc D f /\ 0 < s_rhoc D f;
  fit_bip : forall a b, In a names -> In b names -> a <> b -> l_bip L a b = Val {| bV := s_bv D a b; gV := s_gv D a b; bT := s_bT D a b; gT := s_gT D a b |};
  fit_pos : forall a b, In a names -> In b names -> 0 < s_bv D a b /\ 0 < s_gv D a b /\ 0 < s_bT D a b /\ 0 < s_gT D a b;
  fit_self : forall a, In a names -> s_bv D a a = 1 /\ s_gv D a a = 1 /\ s_bT D a a = 1 /\ s_gT D a a = 1;
  fit_sym : forall a b, In a names -> In b names -> s_bv D b a = / s_bv D a b /\ s_gv D b a = s_gv D a b /\ s_bT D b a = / s_bT D a b /\ s_gT D b a = s_gT D a b;
  fit_pure : forall f, In f names -> exists p, l_pure L f = Val p /\ pcoef_ok p = true /\ map pterm_of (pterms p) = s_pure D f;
  fit_F : forall a b, In a names -> In b names -> F_of L a b = s_F D a b;
  fit_Fself : forall a, In a names -> s_F D a a = 0;
  fit_Fsym : forall a b, In a names -> In b names -> s_F D b a = s_F D a b /\ s_dep D b a = s_dep D a b;
  fit_dep : forall a b, In a names -> In b names -> s_F D a b <> 0 -> exists c, l_dep L a b = Val c /\ dcoef_ok c = true /\ map dterm_of (dterms c) = s_dep D a b }.
Lemma pairs_val : forall B (f : string -> string -> res B) l, (forall a b, In a l -> In b l -> a <> b -> exists v, f a b = Val v) -> NoDup l -> pairs_res f l = Val tt.
Proof.
  intros B f. induction l as [|a l IH]; intros H ND; [reflexivity|]. apply NoDup_cons_iff in ND as [N ND]. cbn [pairs_res]. destruct (proj2 (map_res_all _ _ (f a) l)) as [bs E].
  - intros b Hb. apply H; [now left|now right|]. intros ->. contradiction.
  - rewrite E. cbn [bind]. apply IH; [|exact ND]. intros u v Hu Hv. apply H; now right.
Qed.
Lemma is0_true : forall r, is0 r = true <-> r = 0. Proof. intro r. unfold is0. destruct (Req_EM_T r 0); split; intro; auto; discriminate. Qed.
Lemma third_cube : forall v, 0 < v -> (third v + third v) ^ 3 / 8 = v.
Proof. intros v H. assert (E : third v ^ 3 = v). { unfold third. rewrite <- Rpower_pow by (apply exp_pos). rewrite Rpower_mult. replace (1 / 3 * INR 3) with 1 by (cbn; field). now apply Rpower_1. } transitivity (third v ^ 3); [field|exact E]. Qed.
Lemma third_pos : forall v, 0 < third v. Proof. intro v. apply exp_pos. Qed.
Lemma cbrt_third : forall v, 0 < v -> cbrt v = third v. Proof. intros v H. unfold cbrt. destruct (Rlt_dec 0 v); [reflexivity|lra]. Qed.

Section Fit.
Variables (L : glib) (D : gdata) (names : list string).
Hypothesis FT : fits L D names.
Hypothesis ND : NoDup names.
Let N := length names.
Let name i := nth i names EmptyString.
Lemma name_in : forall i, (i < N)%nat -> In (name i) names. Proof. intros. now apply nth_In. Qed.
Lemma name_neq : forall i j, (i < N)%nat -> (j < N)%nat -> i <> j -> name i <> name j.
Proof. intros i j Hi Hj H E. apply H. apply (proj1 (NoDup_nth names EmptyString) ND); assumption. Qed.
Lemma make_ok : exists m, make_gres L names = Val m /\ length (m_Tc m) = N /\
  (forall i, (i < N)%nat -> nth i (m_Tc m) 0 = s_Tc D (name i) /\ nth i (m_vc m) 0 = 1 / s_rhoc D (name i) /\
     exists p, nth_error (m_pure m) i = Some p /\ pcoef_ok p = true /\ map pterm_of (pterms p) = s_pure D (name i)) /\
  (forall i j, (i < N)%nat -> (j < N)%nat -> i <> j -> m_bip m i j = {| bV := s_bv D (name i) (name j); gV := s_gv D (name i) (name j); bT := s_bT D (name i) (name j); gT := s_gT D (name i) (name j) |}) /\
  (forall i j, (i < N)%nat -> (j < N)%nat -> m_F m i j = s_F D (name i) (name j)) /\
  (forall i j, (i < N)%nat -> (j < N)%nat -> s_F D (name i) (name j) <> 0 -> dcoef_ok (m_dep m i j) = true /\ map dterm_of (dterms (m_dep m i j)) = s_dep D (name i) (name j)).
Proof.
  unfold make_gres.
  destruct (proj2 (map_res_all _ _ (l_info L) names)) as [infos Ei]. { intros f Hf. destruct (fit_info _ _ _ FT f Hf) as (i & E & _). eauto. } rewrite Ei. cbn [bind].
  rewrite (pairs_val _ (l_bip L)) by (try exact ND; intros a b Ha Hb Hab; eexists; now apply (fit_bip _ _ _ FT)). cbn [bind].
  destruct (proj2 (map_res_all _ _ (l_pure L) names)) as [pures Ep]. { intros f Hf. destruct (fit_pure _ _ _ FT f Hf) as (p & E & _). eauto. } rewrite Ep. cbn [bind].
  rewrite pairs_val; [|intros a b Ha Hb Hab|exact ND].
  2:{ destruct (is0 (F_of L a b)) eqn:Z; [eauto|]. assert (NZ : s_F D a b <> 0). { rewrite <- (fit_F _ _ _ FT a b Ha Hb). intro E. apply is0_true in E. congruence. }
      destruct (fit_dep _ _ _ FT a b Ha Hb NZ) as (c & -> & _). cbn [bind]. destruct (fit_Fsym _ _ _ FT a b Ha Hb) as [Fs _]. destruct (fit_dep _ _ _ FT b a Hb Ha) as (c' & -> & _); [now rewrite Fs|]. cbn [bind]. eauto. }
  cbn [bind]. eexists. split; [reflexivity|]. apply map_res_iff in Ei, Ep. cbn [m_Tc m_vc m_bip m_pure m_F m_dep].
  assert (Li : length infos = N) by (unfold N; clear - Ei; induction Ei; cbn; congruence).
  split; [now rewrite map_length|]. split; [|split; [|split]].
  - intros i Hi. assert (Gi : exists v, nth_error infos i = Some v /\ l_info L (name i) = Val v).
    { unfold name, N in *. clear - Ei Hi. revert i Hi. induction Ei as [|a b l l' E F IH]; intros [|i] Hi; cbn in *; try lia; [eauto|]. apply IH. lia. }
    assert (Gp : exists v, nth_error pures i = Some v /\ l_pure L (name i) = Val v).
    { unfold name, N in *. clear - Ep Hi. revert i Hi. induction Ep as [|a b l l' E F IH]; intros [|i] Hi; cbn in *; try lia; [eauto|]. apply IH. lia. }
    destruct Gi as (v & Nv & Ev). destruct Gp as (p & Np & Epp). destruct (fit_info _ _ _ FT (name i) (name_in i Hi)) as (v' & Ev' & T1 & R1). rewrite Ev in Ev'. injection Ev' as <-. destruct (fit_pure _ _ _ FT (name i) (name_in i Hi)) as (p' & Ep' & Ok & Et). rewrite Epp in Ep'. injection Ep' as <-.
    rewrite <- T1, <- R1. split; [apply nth_error_nth; rewrite nth_error_map, Nv; reflexivity|]. split; [apply nth_error_nth; rewrite nth_error_map, Nv; reflexivity|]. exists p. auto.
  - intros i j Hi Hj Hij. fold (name i) (name j). rewrite (fit_bip _ _ _ FT (name i) (name j)); auto using name_in, name_neq.
  - intros i j Hi Hj. apply (fit_F _ _ _ FT); now apply name_in.
  - intros i j Hi Hj NZ. fold (name i) (name j). destruct (fit_dep _ _ _ FT (name i) (name j) (name_in i Hi) (name_in j Hj) NZ) as (c & -> & A & B). auto.
Qed.
Variable x : list R.
Hypothesis Lx : length x = N.
Hypothesis Xp : forall i, (i < N)%nat -> 0 <= nth i x 0.
Hypothesis X1 : exists k, (k < N)%nat /\ 0 < nth k x 0.
Lemma reducing : forall m, make_gres L names = Val m -> get_Tr m x = Tred D names x /\ get_rhor m x = Some (1 / vred D names x) /\ 0 < Tred D names x /\ 0 < vred D names x.
Proof.
  intros m Em. destruct make_ok as (m' & Em' & Lm & Hi & Hb & _). rewrite Em in Em'. injection Em' as <-.
  set (KT := fun i j => s_gT D (name i) (name j) * sqrt (s_Tc D (name i) * s_Tc D (name j))). set (Kv := fun i j => s_gv D (name i) (name j) * ((third (1 / s_rhoc D (name i)) + third (1 / s_rhoc D (name j))) ^ 3 / 8)).
  assert (Lx' : forall i, (i < length x)%nat -> (i < N)%nat) by (rewrite Lx; auto).
  assert (RP : forall i, (i < N)%nat -> 0 < 1 / s_rhoc D (name i)) by (intros i H; apply Rdiv_lt_0_compat; [lra|]; apply (fit_crit _ _ _ FT (name i) (name_in i H))).
  assert (A1 : forall i j, (i < length x)%nat -> (j < length x)%nat -> 0 < s_bT D (name i) (name j)) by (intros; apply (fit_pos _ _ _ FT); apply name_in; auto).
  assert (A2 : forall i j, (i < length x)%nat -> (j < length x)%nat -> s_bT D (name j) (name i) = / s_bT D (name i) (name j)) by (intros; apply (fit_sym _ _ _ FT); apply name_in; auto).
  assert (A3 : forall i, (i < length x)%nat -> s_bT D (name i) (name i) = 1) by (intros; apply (fit_self _ _ _ FT); apply name_in; auto).
  assert (A4 : forall i j, (i < length x)%nat -> (j < length x)%nat -> KT i j = KT j i). { intros i j Hi' Hj'. unfold KT. destruct (fit_sym _ _ _ FT (name j) (name i)) as (_ & _ & _ & ->); [apply name_in; auto|apply name_in; auto|]. rewrite (Rmult_comm (s_Tc D (name i))). reflexivity. }
  assert (A5 : forall i j, (i < length x)%nat -> (j < length x)%nat -> 0 < KT i j). { intros i j Hi' Hj'. unfold KT. apply Rmult_lt_0_compat; [apply (fit_pos _ _ _ FT); apply name_in; auto|]. apply sqrt_lt_R0. apply Rmult_lt_0_compat; apply (fit_crit _ _ _ FT); apply name_in; auto. }
  assert (B1 : forall i j, (i < length x)%nat -> (j < length x)%nat -> 0 < s_bv D (name i) (name j)) by (intros; apply (fit_pos _ _ _ FT); apply name_in; auto).
  assert (B2 : forall i j, (i < length x)%nat -> (j < length x)%nat -> s_bv D (name j) (name i) = / s_bv D (name i) (name j)) by (intros; apply (fit_sym _ _ _ FT); apply name_in; auto).
  assert (B3 : forall i, (i < length x)%nat -> s_bv D (name i) (name i) = 1) by (intros; apply (fit_self _ _ _ FT); apply name_in; auto).
  assert (B4 : forall i j, (i < length x)%nat -> (j < length x)%nat -> Kv i j = Kv j i). { intros i j Hi' Hj'. unfold Kv. destruct (fit_sym _ _ _ FT (name j) (name i)) as (_ & -> & _ & _); [apply name_in; auto|apply name_in; auto|]. rewrite (Rplus_comm (third (1 / s_rhoc D (name i)))). reflexivity. }
  assert (B5 : forall i j, (i < length x)%nat -> (j < length x)%nat -> 0 < Kv i j). { intros i j Hi' Hj'. unfold Kv. apply Rmult_lt_0_compat; [apply (fit_pos _ _ _ FT); apply name_in; auto|]. apply Rdiv_lt_0_compat; [|lra]. apply pow_lt. pose proof (third_pos (1 / s_rhoc D (name i))). pose proof (third_pos (1 / s_rhoc D (name j))). lra. }
  assert (Xq : forall i, (i < length x)%nat -> 0 <= nth i x 0) by auto.
  assert (X1' : exists k, (k < length x)%nat /\ 0 < nth k x 0) by (rewrite Lx; exact X1).
  assert (ET : Tred D names x = sumn (length x) (fun i => sumn (length x) (fun j => nth i x 0 * nth j x 0 * s_bT D (name i) (name j) * weight (s_bT D (name i) (name j)) (nth i x 0) (nth j x 0) * KT i j))).
  { unfold Tred. fold N. rewrite Lx. apply sumn_ext. intros i _. apply sumn_ext. intros j _. unfold KT. fold (name i) (name j). ring. }
  assert (Ev : vred D names x = sumn (length x) (fun i => sumn (length x) (fun j => nth i x 0 * nth j x 0 * s_bv D (name i) (name j) * weight (s_bv D (name i) (name j)) (nth i x 0) (nth j x 0) * Kv i j))).
  { unfold vred. fold N. rewrite Lx. apply sumn_ext. intros i _. apply sumn_ext. intros j _. unfold Kv. fold (name i) (name j). ring. }
  assert (PT : 0 < Tred D names x) by (rewrite ET; now apply (double_pos x (fun i j => s_bT D (name i) (name j)) KT)).
  assert (Pv : 0 < vred D names x) by (rewrite Ev; now apply (double_pos x (fun i j => s_bv D (name i) (name j)) Kv)).
  assert (YE : forall Yc b b' Y Y', (forall i j, (i < j)%nat -> (j < length x)%nat -> b i j = b' i j /\ Y i j = Y' i j) -> red_Y x Yc b Y = red_Y x Yc b' Y').
  { intros Yc b b' Y Y' H. unfold red_Y. f_equal. apply upper_ext. intros i j H1 H2. destruct (H i j H1 H2) as [-> ->]. reflexivity. }
  split; [|split; [|split; assumption]].
  - unfold get_Tr. rewrite (YE _ _ (fun i j => s_bT D (name i) (name j)) _ (fun i j => s_bT D (name i) (name j) * KT i j)).
    + rewrite ET. apply red_double; try assumption. intros i Hi'. unfold KT. destruct (Hi i (Lx' i Hi')) as (-> & _). destruct (fit_self _ _ _ FT (name i)) as (_ & _ & _ & ->); [apply name_in; auto|]. rewrite sqrt_square; [ring|]. apply Rlt_le, (fit_crit _ _ _ FT (name i)). apply name_in; auto.
    + intros i j H1 H2. rewrite Lx in H2. unfold YT. rewrite (Hb i j) by lia. cbn [bT gT]. destruct (Hi i ltac:(lia)) as (-> & _). destruct (Hi j H2) as (-> & _). split; [reflexivity|]. unfold KT. ring.
  - unfold get_rhor. rewrite (YE _ _ (fun i j => s_bv D (name i) (name j)) _ (fun i j => s_bv D (name i) (name j) * Kv i j)).
    + rewrite (red_double x (fun i j => s_bv D (name i) (name j)) Kv); try assumption.
      * rewrite <- Ev. apply cdiv_nz. lra.
      * intros i Hi'. unfold Kv. destruct (Hi i (Lx' i Hi')) as (_ & -> & _). destruct (fit_self _ _ _ FT (name i)) as (_ & -> & _ & _); [apply name_in; auto|]. rewrite third_cube by (apply RP; auto). ring.
    + intros i j H1 H2. rewrite Lx in H2. unfold Yv. rewrite (Hb i j) by lia. cbn [bV gV]. destruct (Hi i ltac:(lia)) as (_ & -> & _). destruct (Hi j H2) as (_ & -> & _). split; [reflexivity|]. unfold Kv. rewrite !cbrt_third by (apply RP; lia). unfold POW3, POW2. field.
Qed.
Lemma eval_ok : forall m T rho, make_gres L names = Val m -> 0 < T -> 0 <= rho -> gres_eval m T rho x = ok (gerg D names x T rho).
Proof.
  intros m T rho Em HT Hr. destruct (reducing m Em) as (ET & Er & PT & Pv). destruct make_ok as (m' & Em' & Lm & Hi & Hb & HF & Hd). rewrite Em in Em'. injection Em' as <-.
  unfold gres_eval. rewrite Er, ET. cbn [opt_bind]. rewrite cdiv_nz. 2:{ apply Rgt_not_eq. apply Rdiv_lt_0_compat; lra. } cbn [opt_bind]. rewrite cdiv_nz by lra. cbn [opt_bind fin]. unfold ok at 1. unfold obind at 1. cbv iota beta.
  replace (rho / (1 / vred D names x)) with (rho * vred D names x) by (field; lra). set (tau := Tred D names x / T). set (delta := rho * vred D names x).
  assert (Ht : 0 < tau) by (apply Rdiv_lt_0_compat; lra). assert (Hdl : 0 <= delta) by (apply Rmult_le_pos; lra).
  unfold corr_alphar. rewrite (osumo_ok _ _ (fun i => nth i x 0 * lsum (pterm_val tau delta) (s_pure D (name i)))).
  2:{ intros i H. rewrite Lx in H. destruct (Hi i H) as (_ & _ & p & -> & Ok & Et). rewrite (pure_val p tau delta Ok Ht Hdl), Et. reflexivity. }
  unfold obind at 1. unfold ok at 1. unfold dep_alphar. rewrite (oupper_val _ _ (fun i j => nth i x 0 * nth j x 0 * s_F D (name i) (name j) * lsum (dterm_val tau delta) (s_dep D (name i) (name j)))).
  2:{ intros i j H1 H2. rewrite Lx in H2. rewrite (HF i j) by lia. unfold is0. destruct (Req_EM_T (s_F D (name i) (name j)) 0) as [Z|Z]; [rewrite Z; f_equal; ring|]. destruct (Hd i j ltac:(lia) H2 Z) as [A B]. rewrite (dep_val _ tau delta A Ht Hdl), B. cbn [opt_bind]. reflexivity. }
  unfold fin, obind, ok. do 2 f_equal. unfold gerg, reduced. fold tau delta. fold N. rewrite Lx. f_equal. rewrite upper_half.
  - reflexivity.
  - intros i j H1 H2. destruct (fit_Fsym _ _ _ FT (name i) (name j) (name_in i H1) (name_in j H2)) as [-> ->]. ring.
  - intros i H1. rewrite (fit_Fself _ _ _ FT (name i) (name_in i H1)). ring.
Qed.
End Fit.
