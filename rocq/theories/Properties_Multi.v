(** Theorems about the multifluid mixture models: C31 (binary interaction parameters),
    C32 (parameters from xi and zeta), C51 (ancillary curves), C53 (identifiers), C54 (gas
    constant), and the parts about these models of C28 (order of components), C29 (pure
    limits) and C30 (zero density). *)
From Coq Require Import Reals String Ascii List Permutation Lia Lra Bool Psatz.
From Verif Require Import Json_model Util_model Vec_spec Vec_proofs Cubic_model Cubic_spec Cubic_proofs2 Terms_model Terms_proofs
  Multi_model Multi_spec Multi_proofs Multi_proofs2.
Import ListNotations.
Open Scope R_scope.

(** ** C31: the look-up of a pair *)
(** A pair that the database lists by hash is found by hash, otherwise by name, otherwise
    by CAS number; it is the first such record, and it is to be read the other way round
    exactly if only the opposite order is listed. *)
Theorem C31_priority : forall l flags a b k, List.Forall complete_record l -> j_contains flags "force-estimate" = false ->
  (exists el, In el l /\ listed_either k el a b) ->
  (forall k' el, preferred k' k -> In el l -> ~ listed_either k' el a b) ->
  exists l1 el l2 s, l = l1 ++ el :: l2 /\ (forall e, In e l1 -> ~ listed_either k e a b) /\
    (if s : bool then listed k el b a /\ ~ listed k el a b else listed k el a b) /\
    get_BIPdep (JArr l) a b flags = Val (el, s).
Proof.
  intros l flags a b k W NF EX HP.
  assert (OBJ : match l with [] => false | JObj _ :: _ => false | _ => true end = false).
  { destruct W as [|el l (( s & Hs) & _) W]; auto. destruct el; auto; discriminate. }
  destruct (scan_some k l a b W EX) as (l1 & el & l2 & s & E1 & E2 & E3 & E4).
  exists l1, el, l2, s. repeat split; auto.
  assert (NONE : forall k', preferred k' k -> scan (key1 k') (key2 k') (norm_of k') (skip_of k') (norm_of k' a) (norm_of k' b) l = Val None).
  { intros k' Hk. apply scan_none; auto. }
  unfold get_BIPdep. rewrite OBJ, NF. destruct k.
  - simpl in E4. rewrite E4. reflexivity.
  - assert (N0 := NONE ByHash I). simpl in N0, E4. rewrite N0. cbn [bind]. rewrite E4. reflexivity.
  - assert (N0 := NONE ByHash I). assert (N1 := NONE ByName I). simpl in N0, N1, E4. rewrite N0. cbn [bind]. rewrite N1. cbn [bind].
    rewrite E4. reflexivity.
Qed.
Definition record (h1 h2 n1 n2 c1 c2 : string) (rest : list (string * json)) : json :=
  JObj ([("hash1", JStr h1); ("hash2", JStr h2); ("Name1", JStr n1); ("Name2", JStr n2); ("CAS1", JStr c1); ("CAS2", JStr c2)]%string ++ rest).
Definition betas (bT gT bV gV F : R) : list (string * json) :=
  [("betaT", JNum bT); ("gammaT", JNum gT); ("betaV", JNum bV); ("gammaV", JNum gV); ("F", JNum F)]%string.
(** the pair is listed by name (in lower case, the other way round) in the first record
    and by hash in the second, which wins *)
Example C31_priority_met :
  let r1 := record "p" "q" "ethane" "methane" "74-84-0" "74-82-8" (betas 2 1 1 1 0) in
  let r2 := record "METHANE" "ETHANE" "x" "y" "z" "w" (betas 3 1 1 1 0) in
  List.Forall complete_record [r1; r2] /\ listed_either ByName r1 "Methane" "Ethane" /\ listed_either ByHash r2 "Methane" "Ethane" /\
  get_BIPdep (JArr [r1; r2]) "Methane" "Ethane" JNull = Val (r2, false) /\
  get_BIPdep (JArr [r1]) "Methane" "Ethane" JNull = Val (r1, true).
Proof.
  intros r1 r2. split; [|split; [|split]].
  - repeat constructor; try (eexists; reflexivity); intros; split; eexists; reflexivity.
  - right. exists "ethane"%string, "methane"%string. repeat split; apply upper_spec; reflexivity.
  - left. exists "METHANE"%string, "ETHANE"%string. repeat split; apply upper_spec; reflexivity.
  - split; reflexivity.
Qed.
(** A pair that is not listed: an exception, or the estimate if one was asked for. *)
Theorem C31_missing : forall l flags a b, List.Forall complete_record l -> j_contains flags "force-estimate" = false ->
  (forall k el, In el l -> ~ listed_either k el a b) ->
  (j_contains flags "estimate" = false -> get_BIPdep (JArr l) a b flags = Err StdInvalidArgument) /\
  (j_at flags "estimate" = Val (JStr "Lorentz-Berthelot") ->
     exists el, get_BIPdep (JArr l) a b flags = Val (el, false) /\
       (forall k, In k ["betaT"; "gammaT"; "betaV"; "gammaV"]%string -> j_at el k = Val (JNum 1)) /\ j_at el "F" = Val (JNum 0)) /\
  (forall s, j_at flags "estimate" = Val (JStr s) -> s <> "Lorentz-Berthelot"%string -> get_BIPdep (JArr l) a b flags = Err StdInvalidArgument).
Proof.
  intros l flags a b W NF NL.
  assert (OBJ : match l with [] => false | JObj _ :: _ => false | _ => true end = false).
  { destruct W as [|el l (( s & Hs) & _) W]; auto. destruct el; auto; discriminate. }
  assert (N0 := scan_none ByHash l a b W (NL ByHash)). assert (N1 := scan_none ByName l a b W (NL ByName)).
  assert (N2 := scan_none ByCAS l a b W (NL ByCAS)). simpl in N0, N1, N2.
  assert (E : get_BIPdep (JArr l) a b flags = if j_contains flags "estimate" then estimate flags else Err StdInvalidArgument).
  { unfold get_BIPdep. rewrite OBJ, NF, N0. cbn [bind]. rewrite N1. cbn [bind]. rewrite N2. reflexivity. }
  rewrite E. split; [|split].
  - intros ->. reflexivity.
  - intros H. exists Lorentz_Berthelot. rewrite (contains_at _ _ _ H). unfold estimate. rewrite H. split; [reflexivity|]. split; [|reflexivity].
    intros k Hk. simpl in Hk. repeat destruct Hk as [<-|Hk]; try reflexivity. destruct Hk.
  - intros s H Ns. rewrite (contains_at _ _ _ H). unfold estimate. rewrite H. cbn [bind j_string].
    destruct (String.eqb_spec s "Lorentz-Berthelot"); [contradiction|reflexivity].
Qed.
(** The estimate is used for every pair if it is forced. *)
Theorem C31_forced : forall l flags a b, (forall el, In el l -> exists o, el = JObj o) ->
  j_contains flags "force-estimate" = true -> j_at flags "estimate" = Val (JStr "Lorentz-Berthelot") ->
  exists el, get_BIPdep (JArr l) a b flags = Val (el, false) /\
    (forall k, In k ["betaT"; "gammaT"; "betaV"; "gammaV"]%string -> j_at el k = Val (JNum 1)) /\ j_at el "F" = Val (JNum 0).
Proof.
  intros l flags a b W NF H. exists Lorentz_Berthelot. unfold get_BIPdep. rewrite NF.
  destruct l as [|el l]; [|destruct (W el (or_introl eq_refl)) as [o ->]]; unfold estimate; rewrite H;
    (split; [reflexivity|]; split; [|reflexivity]; intros k Hk; simpl in Hk; repeat destruct Hk as [<-|Hk]; try reflexivity; destruct Hk).
Qed.
(** The same record for either order of the pair, whatever the database. *)
Theorem C31_same_record : forall collection flags a b,
  (forall el s, get_BIPdep collection a b flags = Val (el, s) -> exists s', get_BIPdep collection b a flags = Val (el, s')) /\
  (forall e, get_BIPdep collection a b flags = Err e -> get_BIPdep collection b a flags = Err e).
Proof.
  intros c flags a b. assert (S := get_BIPdep_sym c a b flags). split; intros.
  - rewrite H in S. destruct (get_BIPdep c b a flags) as [[el' s']|]; simpl in S; [|discriminate]. injection S as ->. eauto.
  - rewrite H in S. destruct (get_BIPdep c b a flags) as [[el' s']|]; simpl in S; [discriminate|]. congruence.
Qed.
(** The parameters for the two orders: 1/beta and the same gamma. *)
Theorem C31_order : forall collection flags a b T0 T1 v0 v1, ~ same_name a b ->
  (forall p, get_binary_interaction_double collection a b flags T0 T1 v0 v1 = Val p -> b_betaT p <> 0 -> b_betaV p <> 0 ->
    get_binary_interaction_double collection b a flags T1 T0 v1 v0 =
    Val {| b_betaT := / b_betaT p; b_gammaT := b_gammaT p; b_betaV := / b_betaV p; b_gammaV := b_gammaV p |}) /\
  (forall e, get_binary_interaction_double collection a b flags T0 T1 v0 v1 = Err e ->
    get_binary_interaction_double collection b a flags T1 T0 v1 v0 = Err e).
Proof.
  intros c flags a b T0 T1 v0 v1 N. split.
  - intros p E Z1 Z2. apply bid_swap; auto. intros Q. apply N. apply upper_spec. auto.
  - intros e. unfold get_binary_interaction_double. assert (S := get_BIPdep_sym c a b flags).
    destruct (get_BIPdep c b a flags) as [[el' s']|], (get_BIPdep c a b flags) as [[el s]|]; simpl in S; try discriminate.
    + injection S as ->. cbn [bind].
      destruct (j_contains el "betaT" && j_contains el "gammaT" && j_contains el "betaV" && j_contains el "gammaV").
      * repeat (match goal with |- context [bind (j_at el ?k) j_double] => destruct (bind (j_at el k) j_double) end; cbn [bind]; try discriminate; auto).
      * destruct (j_contains el "xi" && j_contains el "zeta"); [|auto].
        repeat (match goal with |- context [bind (j_at el ?k) j_double] => destruct (bind (j_at el k) j_double) end; cbn [bind]; try discriminate; auto).
    + cbn [bind]. unfold drop_swap in S. cbn [bind] in S. congruence.
Qed.
Example C31_order_met :
  let c := JArr [record "p" "q" "ethane" "methane" "74-84-0" "74-82-8" (betas 2 3 4 5 0)] in
  ~ same_name "Methane" "Ethane" /\
  get_binary_interaction_double c "Methane" "Ethane" JNull 1 1 1 1 = Val {| b_betaT := 1 / 2; b_gammaT := 3; b_betaV := 1 / 4; b_gammaV := 5 |} /\
  get_binary_interaction_double c "Ethane" "Methane" JNull 1 1 1 1 = Val {| b_betaT := 2; b_gammaT := 3; b_betaV := 4; b_gammaV := 5 |}.
Proof. intros c. split; [|split; reflexivity]. intros Q. apply upper_spec in Q. discriminate. Qed.
(** A record for a fluid with itself is the same seen from both sides, so that the
    hypothesis is needed. *)
Theorem C31_same_fluid_refuted : exists collection p, b_betaT p = 2 /\
  get_binary_interaction_double collection "A" "a" JNull 1 1 1 1 = Val p /\ get_binary_interaction_double collection "a" "A" JNull 1 1 1 1 = Val p.
Proof.
  exists (JArr [record "p" "q" "A" "A" "1" "1" (betas 2 3 4 5 0)]), {| b_betaT := 2; b_gammaT := 3; b_betaV := 4; b_gammaV := 5 |}.
  split; [|split]; reflexivity.
Qed.
(** What a user reads from the finished model. *)
Theorem C31_built : forall pures B D flags m i j, build_multifluid pures B D flags = Some (Val m) ->
  (i < j < length pures)%nat -> exists ids p F,
  chosen_identifiers pures B flags ids /\
  get_binary_interaction_double B (nth i ids EmptyString) (nth j ids EmptyString) flags
     (nth i (red_Tc (mf_red m)) 0) (nth j (red_Tc (mf_red m)) 0) (nth i (red_vc (mf_red m)) 0) (nth j (red_vc (mf_red m)) 0) = Val p /\
  (exists el s, get_BIPdep B (nth i ids EmptyString) (nth j ids EmptyString) flags = Val (el, s) /\ (j_at el "F" = Val (JNum F))) /\
  get_BIP m i j "betaT" = Val (b_betaT p) /\ get_BIP m j i "betaT" = Val (1 / b_betaT p) /\
  get_BIP m i j "betaV" = Val (b_betaV p) /\ get_BIP m j i "betaV" = Val (1 / b_betaV p) /\
  get_BIP m i j "gammaT" = Val (b_gammaT p) /\ get_BIP m j i "gammaT" = Val (b_gammaT p) /\
  get_BIP m i j "gammaV" = Val (b_gammaV p) /\ get_BIP m j i "gammaV" = Val (b_gammaV p) /\
  get_BIP m i j "F" = Val F /\ get_BIP m j i "F" = Val F /\ get_BIP m i j "Fij" = Val F /\ get_BIP m j i "Fij" = Val F.
Proof.
  intros pures B D flags m i j E Hij.
  destruct (build_inv _ _ _ _ _ E) as (Tcvc & EOSs & Rvals & ids & F & dep & b & rm & BU).
  destruct BU as [E1 E2 E3 E4 E7 E8 E9 E10 Em].
  assert (Lids : length ids = length pures) by (destruct E4 as [set [key [C1 [C2 C3]]]]; exact (lookup_length _ _ _ _ C1 C3)).
  apply omap_iff in E1, E2. assert (L1 := Forall2_length E1). assert (L2 := Forall2_length E2).
  unfold get_F_matrix in E7.
  destruct (map_res (fun '(i, j) => F_of B (nth i ids EmptyString) (nth j ids EmptyString) flags) (pairs (length ids))) as [fs|] eqn:MF; [|discriminate].
  cbn [bind] in E7. injection E7 as <-.
  assert (EF : exists f, F_of B (nth i ids EmptyString) (nth j ids EmptyString) flags = Val f).
  { assert (A : exists fs, map_res (fun '(i, j) => F_of B (nth i ids EmptyString) (nth j ids EmptyString) flags) (pairs (length ids)) = Val fs) by eauto.
    rewrite map_res_all in A. apply (A (i, j)). apply in_pairs. lia. }
  destruct EF as [f Ef].
  unfold get_BIP_matrices in E9. cbv zeta in E9.
  destruct (map_res _ (pairs (length ids))) as [ps|] eqn:MB in E9; [|discriminate]. cbn [bind] in E9. injection E9 as <-.
  assert (EP : exists p, get_binary_interaction_double B (nth i ids EmptyString) (nth j ids EmptyString) flags (nth i (map fst Tcvc) 0)
      (nth j (map fst Tcvc) 0) (nth i (map snd Tcvc) 0) (nth j (map snd Tcvc) 0) = Val p).
  { pose proof (proj1 (map_res_all _ _ _ _) (ex_intro _ ps MB)) as A. apply (A (i, j)). apply in_pairs. lia. }
  destruct EP as [p Ep]. exists ids, p, f. split; auto. rewrite Em. cbn [mf_red red_Tc red_vc]. split; auto. split.
  { unfold F_of in Ef. destruct (get_BIPdep B (nth i ids EmptyString) (nth j ids EmptyString) flags) as [[el s]|] eqn:G; [|discriminate].
    exists el, s. split; auto. cbn [bind] in Ef.
    assert (NE : j_empty el = false).
    { destruct el as [| | | |[|]|[|]]; try reflexivity; unfold get_binary_interaction_double in Ep; rewrite G in Ep; discriminate. }
    rewrite NE in Ef. destruct (j_at el "F") as [w|]; [|discriminate]. cbn [bind] in Ef. destruct w; try discriminate. injection Ef as ->. reflexivity. }
  unfold get_BIP, red_get_BIP. cbn [mf_eos mf_red mf_F red_size]. rewrite !map_length, <- L1, <- L2.
  destruct (Nat.ltb_spec i (length pures)); [|lia]. destruct (Nat.ltb_spec j (length pures)); [|lia].
  simpl. repeat split; f_equal; rewrite ?fill_up by lia; rewrite ?fill_low by lia; rewrite ?Ep, ?Ef; reflexivity.
Qed.

(** ** C32: parameters from xi and zeta *)
(** The reducing temperature and volume that come out: the excess is not the one of the
    Lemmon-Jacobsen rule ... *)
Section XiZeta.
Variables (B : json) (a b : string) (flags el : json) (s : bool) (xi zeta T1 T2 v1 v2 : R).
Hypothesis found : get_BIPdep B a b flags = Val (el, s).
Hypothesis no_betas : j_contains el "betaT" && j_contains el "gammaT" && j_contains el "betaV" && j_contains el "gammaV" = false.
Hypothesis has_xi : j_at el "xi" = Val (JNum xi).
Hypothesis has_zeta : j_at el "zeta" = Val (JNum zeta).
Hypotheses (HT1 : 0 < T1) (HT2 : 0 < T2) (Hv1 : 0 < v1) (Hv2 : 0 < v2).

Lemma xizeta_pair : get_binary_interaction_double B a b flags T1 T2 v1 v2 =
  Val {| b_betaT := 1; b_gammaT := (T1 + T2 + xi) / 4 / sqrt (T1 * T2); b_betaV := 1;
         b_gammaV := 16 * (v1 + v2 + zeta) / (cbrt v1 + cbrt v2) ^ 3 |}.
Proof.
  unfold get_binary_interaction_double. rewrite found. cbn [bind]. rewrite no_betas.
  rewrite (contains_at _ _ _ has_xi), (contains_at _ _ _ has_zeta). cbn [andb]. rewrite has_xi, has_zeta. cbn [bind j_double].
  assert (S : 0 < sqrt (T1 * T2)) by (apply sqrt_lt_R0; nra).
  assert (P : forall v, 0 < v -> 1 / Rpower (1 / v) (1 / 3) = cbrt v).
  { intros v Hv. unfold cbrt. destruct (Rlt_dec 0 v); [|lra]. unfold Rpower.
    replace (1 / v) with (/ v) by (field; lra). rewrite ln_Rinv by auto.
    replace (1 / 3 * - ln v) with (- (1 / 3 * ln v)) by ring. rewrite exp_Ropp. field. apply Rgt_not_eq, exp_pos. }
  rewrite !P by auto. destruct (cbrt_cube v1 Hv1) as [_ C1]. destruct (cbrt_cube v2 Hv2) as [_ C2].
  assert (D : 0 < cbrt v1 + cbrt v2) by lra. replace 0.5 with (1 / 2) by lra. replace 0.25 with (1 / 4) by lra.
  f_equal. f_equal; field; lra.
Qed.
Lemma xizeta_matrices : exists bm, get_BIP_matrices B [a; b] flags [T1; T2] [v1; v2] = Val bm /\
  m_betaT bm 0%nat 1%nat = 1 /\ m_betaV bm 0%nat 1%nat = 1 /\ m_gammaT bm 0%nat 1%nat = (T1 + T2 + xi) / 4 / sqrt (T1 * T2) /\
  m_gammaV bm 0%nat 1%nat = 16 * (v1 + v2 + zeta) / (cbrt v1 + cbrt v2) ^ 3.
Proof.
  unfold get_BIP_matrices. cbn [length pairs seq map concat app Nat.sub map_res nth]. rewrite xizeta_pair. cbn [bind].
  eexists. split; [reflexivity|]. cbn [m_betaT m_betaV m_gammaT m_gammaV fill Nat.ltb Nat.leb nth].
  rewrite xizeta_pair. repeat split.
Qed.
Lemma binary_form : forall bm gT gV x1 x2, m_betaT bm 0%nat 1%nat = 1 -> m_betaV bm 0%nat 1%nat = 1 -> m_gammaT bm 0%nat 1%nat = gT -> m_gammaV bm 0%nat 1%nat = gV ->
  x1 + x2 = 1 ->
  get_Tr (GERGreducing bm [T1; T2] [v1; v2]) [x1; x2] = x1 ^ 2 * T1 + x2 ^ 2 * T2 + x1 * x2 * (2 * gT * sqrt (T1 * T2)) /\
  get_rhor (GERGreducing bm [T1; T2] [v1; v2]) [x1; x2] = 1 / (x1 ^ 2 * v1 + x2 ^ 2 * v2 + x1 * x2 * (1 / 4 * gV * (cbrt v1 + cbrt v2) ^ 3)).
Proof.
  intros bm gT gV x1 x2 B1 B2 G1 G2 HX. unfold get_Tr, get_rhor, Y, sum_pairs, Y_pair, YT, Yv.
  cbn [length sumn Nat.ltb Nat.leb Nat.eqb nth min max]. rewrite B1, B2, G1, G2.
  destruct (Req_EM_T (1 * 1 * x1 + x2) 0); [exfalso; lra|].
  rewrite HX. replace (1 * 1 * x1 + x2) with 1 by lra. split; [|f_equal]; field.
Qed.
Theorem C32_value : exists bm, get_BIP_matrices B [a; b] flags [T1; T2] [v1; v2] = Val bm /\ forall x1 x2,
  x1 + x2 = 1 ->
  get_Tr (GERGreducing bm [T1; T2] [v1; v2]) [x1; x2] = x1 ^ 2 * T1 + x2 ^ 2 * T2 + x1 * x2 * (1 / 2 * (T1 + T2 + xi)) /\
  get_rhor (GERGreducing bm [T1; T2] [v1; v2]) [x1; x2] = 1 / (x1 ^ 2 * v1 + x2 ^ 2 * v2 + x1 * x2 * (4 * (v1 + v2 + zeta))).
Proof.
  destruct xizeta_matrices as [bm [E [B1 [B2 [G1 G2]]]]]. exists bm. split; auto. intros x1 x2 HX.
  destruct (binary_form bm _ _ x1 x2 B1 B2 G1 G2 HX) as [-> ->].
  assert (S : 0 < sqrt (T1 * T2)) by (apply sqrt_lt_R0; nra).
  destruct (cbrt_cube v1 Hv1) as [_ C1]. destruct (cbrt_cube v2 Hv2) as [_ C2].
  split; [|f_equal]; field; lra.
Qed.
(** ... but half of it for the temperature and four times it for the volume, for every
    pair and composition (unless it vanishes). *)
Theorem C32_refuted : forall bm x1 x2, get_BIP_matrices B [a; b] flags [T1; T2] [v1; v2] = Val bm ->
  0 < x1 -> 0 < x2 -> x1 + x2 = 1 ->
  (T1 + T2 + xi <> 0 -> get_Tr (GERGreducing bm [T1; T2] [v1; v2]) [x1; x2] <> Lemmon_Jacobsen x1 x2 T1 T2 xi) /\
  (v1 + v2 + zeta <> 0 -> x1 ^ 2 * v1 + x2 ^ 2 * v2 + x1 * x2 * (4 * (v1 + v2 + zeta)) <> 0 -> Lemmon_Jacobsen x1 x2 v1 v2 zeta <> 0 ->
     1 / get_rhor (GERGreducing bm [T1; T2] [v1; v2]) [x1; x2] <> Lemmon_Jacobsen x1 x2 v1 v2 zeta).
Proof.
  intros bm x1 x2 E H1 H2 HX. destruct C32_value as [bm' [E' H]]. rewrite E in E'. injection E' as <-.
  destruct (H x1 x2 HX) as [-> ->]. unfold Lemmon_Jacobsen.
  assert (X : x2 = 1 - x1) by lra. subst x2. assert (0 < x1 * (1 - x1)) by nra.
  split.
  - intros N Q. apply N. apply (Rmult_eq_reg_l (x1 * (1 - x1))); [|lra]. rewrite Rmult_0_r.
    set (t := T1 + T2 + xi) in *. assert (xi = t - T1 - T2) by (unfold t; ring). rewrite H3 in Q. nra.
  - intros N N2 N3 Q. apply N. apply (Rmult_eq_reg_l (x1 * (1 - x1))); [|lra]. rewrite Rmult_0_r.
    rewrite <- Q in N3. replace (1 / (1 / (x1 ^ 2 * v1 + (1 - x1) ^ 2 * v2 + x1 * (1 - x1) * (4 * (v1 + v2 + zeta)))))
      with (x1 ^ 2 * v1 + (1 - x1) ^ 2 * v2 + x1 * (1 - x1) * (4 * (v1 + v2 + zeta))) in Q by (field; auto).
    set (t := v1 + v2 + zeta) in *. assert (zeta = t - v1 - v2) by (unfold t; ring). rewrite H3 in Q. nra.
Qed.
(** With twice the gammaT and a quarter of the gammaV that the code computes, the
    Lemmon-Jacobsen rule results.  Missing: that the code's own values do. *)
Theorem C32_rescaled_partial : exists p, get_binary_interaction_double B a b flags T1 T2 v1 v2 = Val p /\ b_betaT p = 1 /\ b_betaV p = 1 /\
  forall bm x1 x2, m_betaT bm 0%nat 1%nat = 1 -> m_betaV bm 0%nat 1%nat = 1 ->
  m_gammaT bm 0%nat 1%nat = 2 * b_gammaT p -> m_gammaV bm 0%nat 1%nat = b_gammaV p / 4 ->
  x1 + x2 = 1 -> Lemmon_Jacobsen x1 x2 v1 v2 zeta <> 0 ->
  get_Tr (GERGreducing bm [T1; T2] [v1; v2]) [x1; x2] = Lemmon_Jacobsen x1 x2 T1 T2 xi /\
  1 / get_rhor (GERGreducing bm [T1; T2] [v1; v2]) [x1; x2] = Lemmon_Jacobsen x1 x2 v1 v2 zeta.
Proof.
  eexists. split; [exact xizeta_pair|]. split; [reflexivity|]. split; [reflexivity|].
  intros bm x1 x2 B1 B2 G1 G2 HX HLJ. destruct (binary_form bm _ _ x1 x2 B1 B2 G1 G2 HX) as [-> ->]. cbn [b_gammaT b_gammaV].
  assert (S : 0 < sqrt (T1 * T2)) by (apply sqrt_lt_R0; nra).
  destruct (cbrt_cube v1 Hv1) as [_ C1]. destruct (cbrt_cube v2 Hv2) as [_ C2].
  assert (X : x2 = 1 - x1) by lra. subst x2. unfold Lemmon_Jacobsen in *. split. { field; lra. }
  match goal with |- 1 / (1 / ?d) = _ => replace d with (x1 * v1 + (1 - x1) * v2 + x1 * (1 - x1) * zeta) by (field; lra) end.
  field. auto.
Qed.
End XiZeta.
Example C32_met : let el := record "p" "q" "a" "b" "1" "2" [("xi", JNum 3); ("zeta", JNum 1); ("F", JNum 0)]%string in
  get_BIPdep (JArr [el]) "a" "b" JNull = Val (el, false) /\
  j_contains el "betaT" && j_contains el "gammaT" && j_contains el "betaV" && j_contains el "gammaV" = false /\
  j_at el "xi" = Val (JNum 3) /\ j_at el "zeta" = Val (JNum 1) /\ 0 < Lemmon_Jacobsen (1/2) (1/2) 1 1 1.
Proof. repeat split. unfold Lemmon_Jacobsen. lra. Qed.

(** ** C28: order of the components *)
Theorem C28_reducing : forall r N a a' z, Permutation r (seq 0 N) -> length z = N -> (forall i, (i < N)%nat -> 0 <= nth i z 0) ->
  consistent_reducing N a -> reducing_relabelled N r a a' ->
  get_Tr a' (pick 0 r z) = get_Tr a z /\ get_rhor a' (pick 0 r z) = get_rhor a z.
Proof. exact reducing_perm. Qed.
Theorem C28_multifluid : forall m m' r T rho x v, Permutation r (seq 0 (length (mf_eos m))) -> consistent m -> relabelled r m m' ->
  (forall i, (i < length x)%nat -> 0 <= nth i x 0) ->
  mf_alphar m T rho x = Some (Val v) -> mf_alphar m' T rho (pick 0 r x) = Some (Val v).
Proof.
  intros m m' r T rho x v P C Rl X E. unfold mf_alphar in *. rewrite pick_length, (perm_length _ _ P), (rl_len _ _ _ Rl), Nat.eqb_refl.
  destruct (Nat.eqb_spec (length x) (length (mf_eos m))) as [L|]; [|discriminate]. cbn [negb] in *.
  destruct (reducing_perm r _ (mf_red m) (mf_red m') x P L ltac:(intros; apply X; lia) (co_red _ C) (rl_red _ _ _ Rl)) as [-> ->].
  apply (taudelta_perm m m' r); auto.
Qed.
(** From the files: the components in another order give a model with the same values. *)
Theorem C28_built : forall pures B D flags m r, build_multifluid pures B D flags = Some (Val m) ->
  Permutation r (seq 0 (length pures)) ->
  (forall ids, chosen_identifiers pures B flags ids -> distinct ids) ->
  (forall i j, (i < length pures)%nat -> (j < length pures)%nat -> i <> j ->
     get_BIP m i j "betaT" <> Val 0 /\ get_BIP m i j "betaV" <> Val 0) ->
  exists m', build_multifluid (pick JNull r pures) B D flags = Some (Val m') /\
  (forall T rho x v, (forall i, (i < length x)%nat -> 0 <= nth i x 0) ->
     mf_alphar m T rho x = Some (Val v) -> mf_alphar m' T rho (pick 0 r x) = Some (Val v)) /\
  (forall x, length x = length pures -> get_R (mf_R m') (pick 0 r x) = get_R (mf_R m) x).
Proof.
  intros pures B D flags m r E P DI NZ. destruct (build_relabelled _ _ _ _ _ _ E P DI NZ) as (m' & E' & Rl & C & L & RR).
  exists m'. split; [exact E'|]. split.
  - intros T rho x v X. apply C28_multifluid; auto. rewrite L. auto.
  - intros x Lx. destruct (mf_R m) as [Rs|], (mf_R m') as [Rs'|]; try contradiction; [|reflexivity]. destruct RR as [LR ->].
    unfold get_R. rewrite !pick_length, (perm_length _ _ P), LR, Lx, Nat.ltb_irrefl. apply (f_equal (@ok R)).
    rewrite <- (sumn_perm r _ (fun i => nth i x 0 * nth i Rs 0) P). apply sumn_ext. intros i Hi.
    rewrite !pick_nth by (rewrite (perm_length _ _ P); auto). reflexivity.
Qed.
(** two fluids with one Gaussian term each *)
Definition fluid (name cas : string) (Tc rhoc n : R) : json :=
  JObj [("INFO", JObj [("NAME", JStr name); ("CAS", JStr cas); ("REFPROP_NAME", JStr name); ("ALIASES", JArr [])]);
        ("EOS", JArr [JObj [("STATES", JObj [("reducing", JObj [("T", JNum Tc); ("rhomolar", JNum rhoc)])]);
                            ("gas_constant", JNum 8);
                            ("alphar", JArr [JObj [("type", JStr "ResidualHelmholtzGaussian"); ("n", JArr [JNum n]); ("t", JArr [JNum 1]);
                               ("d", JArr [JNum 1]); ("eta", JArr [JNum 1]); ("beta", JArr [JNum 1]); ("gamma", JArr [JNum 1]); ("epsilon", JArr [JNum 1])]])]])]%string.
Definition two_fluids := [fluid "Methane" "74-82-8" 190 10 1; fluid "Ethane" "74-84-0" 305 7 2].
Definition two_BIP := JArr [record "p" "q" "ethane" "methane" "74-84-0" "74-82-8" (betas 2 3 4 5 0)].
Lemma one_gaussian : forall n tau delta, exists v,
  terms_alphar [Gaussian [n] [1] [1] [1] [1] [1] [1]] tau delta = Some (Val v).
Proof.
  intros n tau delta. simpl. unfold scaled. destruct (Req_EM_T delta 0); [|eexists; reflexivity].
  unfold powd. assert (I1 : to_int 1 = Some 1%Z) by (apply (to_int_nat 1); reflexivity). rewrite I1. eexists. reflexivity.
Qed.
Lemma some_value : forall m tau delta x, length x = length (mf_eos m) -> (1 < length x)%nat ->
  (forall i, (i < length x)%nat -> exists a, corr_alphari (mf_eos m) tau delta i = ok a) ->
  (forall i j, (i < j < length x)%nat -> exists d, mf_dep m i j tau delta = ok d) ->
  exists v, alphar_taudelta m tau delta x = Some (Val v).
Proof.
  intros m tau delta x L L1 HA HD.
  destruct (choose (length x) (fun i a => corr_alphari (mf_eos m) tau delta i = ok a) HA) as [a Ha].
  destruct (choose2 (length x) (length x) (fun i j d => (i < j)%nat -> mf_dep m i j tau delta = ok d)) as [d Hd].
  { intros i j Hi Hj. destruct (Nat.lt_ge_cases i j); [destruct (HD i j) as [v Hv]; [lia|eauto]|exists 0; intros; lia]. }
  eexists. apply taudelta_ok; auto. split; auto. exists a, d. split; [exact Ha|split; [intros; apply Hd; lia|reflexivity]].
Qed.
Example C28_built_met : exists m, build_multifluid two_fluids two_BIP (JArr []) JNull = Some (Val m) /\
  (forall ids, chosen_identifiers two_fluids two_BIP JNull ids -> distinct ids) /\
  get_BIP m 0 1 "betaT" = Val (1 / 2) /\ get_BIP m 1 0 "betaT" = Val (1 / (1 / 2)) /\
  exists v, mf_alphar m 200 1 [0.5; 0.5] = Some (Val v).
Proof.
  eexists. split; [reflexivity|]. split; [|split; [reflexivity|split; [reflexivity|]]].
  - intros ids [set [key [E1 [E2 E3]]]]. injection E1 as <-. injection E2 as <-. injection E3 as <-.
    intros [|[|i]] [|[|j]] Hi Hj N Q; simpl in *; try lia; apply upper_spec in Q; discriminate.
  - unfold mf_alphar. cbn [mf_eos map length Nat.eqb negb]. apply some_value; [reflexivity|simpl; lia| |].
    + intros [|[|i]] Hi; simpl in Hi; try lia; apply one_gaussian.
    + intros [|i] [|[|j]] Hi; simpl in Hi; try lia. eexists. reflexivity.
Qed.

(** ** C29: pure limits *)
Lemma nth_pure : forall n i k, (k < n)%nat -> nth k (pure n i) 0 = if Nat.eqb k i then 1 else 0.
Proof. intros. unfold pure. apply (nth_map_seq' (fun k => if Nat.eqb k i then 1 else 0)). auto. Qed.
Lemma pure_length : forall n i, length (pure n i) = n.
Proof. intros. unfold pure. rewrite map_length, seq_length. reflexivity. Qed.
Lemma sumn_pure : forall n i f, (i < n)%nat -> sumn n (fun k => nth k (pure n i) 0 * f k) = f i.
Proof.
  intros n i f Hi. rewrite (sumn_ext n _ (fun k => if Nat.eqb k i then f k else 0)).
  - apply sumn_delta. auto. - intros k Hk. rewrite nth_pure by auto. destruct (Nat.eqb k i); ring.
Qed.
Lemma Y_pure : forall n i Yc beta Yij, (i < n)%nat -> (forall k, beta i k = 0 -> Yij i k = 0) -> Y (pure n i) Yc beta Yij = nth i Yc 0.
Proof.
  intros n i Yc beta Yij Hi H. unfold Y. rewrite pure_length.
  rewrite (sumn_ext n _ (fun k => nth k (pure n i) 0 * nth k Yc 0)).
  2:{ intros k Hk. rewrite nth_pure by auto. destruct (Nat.eqb k i); ring. }
  rewrite (sumn_pure n i (fun k => nth k Yc 0)) by auto.
  unfold sum_pairs. rewrite sumn_0; [ring|]. intros a Ha. apply sumn_0. intros b Hb. destruct (Nat.ltb_spec a b) as [Hab|]; [|reflexivity].
  unfold Y_pair. rewrite !nth_pure by auto.
  destruct (Nat.eqb_spec a i) as [->|Na], (Nat.eqb_spec b i) as [->|Nb]; try lia.
  - destruct (Req_EM_T (beta i b * beta i b * 1 + 0) 0) as [Q|Q].
    + rewrite H. { ring. } apply Rsqr_0_uniq. unfold Rsqr. lra.
    + unfold Rdiv. ring.
  - destruct (Req_EM_T (beta a i * beta a i * 0 + 1) 0) as [Q|Q]; unfold Rdiv; ring.
  - destruct (Req_EM_T (beta a b * beta a b * 0 + 0) 0) as [Q|Q]; unfold Rdiv; ring.
Qed.
(** Whatever the interaction parameters, the reducing functions of a pure component. *)
Theorem C29_reducing : forall b Tc vc i, (i < length Tc)%nat -> length vc = length Tc ->
  get_Tr (GERGreducing b Tc vc) (pure (length Tc) i) = nth i Tc 0 /\
  get_rhor (GERGreducing b Tc vc) (pure (length Tc) i) = 1 / nth i vc 0.
Proof.
  intros b Tc vc i Hi L. unfold get_Tr, get_rhor. split; [|f_equal]; apply Y_pure; auto; intros k Q.
  - unfold YT. rewrite Q. destruct (Nat.eqb i k); ring.
  - unfold Yv. rewrite Q. destruct (Nat.eqb i k); [reflexivity|]. unfold Rdiv. ring.
Qed.
Theorem C29_multifluid : forall m b Tc vc i T rho v, mf_red m = GERGreducing b Tc vc ->
  length Tc = length (mf_eos m) -> length vc = length (mf_eos m) -> (i < length (mf_eos m))%nat ->
  mf_alphar m T rho (pure (length (mf_eos m)) i) = Some (Val v) ->
  exists e, nth_error (mf_eos m) i = Some e /\ e (nth i Tc 0 / T) (rho / (1 / nth i vc 0)) = Some (Val v).
Proof.
  intros m b Tc vc i T rho v ER LT Lv Hi E. unfold mf_alphar in E. rewrite ER in E.
  rewrite pure_length, Nat.eqb_refl in E. cbn [negb] in E.
  destruct (C29_reducing b Tc vc i ltac:(lia) ltac:(lia)) as [R1 R2]. rewrite LT in R1, R2. rewrite R1, R2 in E.
  destruct (Nat.le_gt_cases (length (mf_eos m)) 1) as [L1|L1].
  - unfold alphar_taudelta in E. rewrite pure_length, Nat.eqb_refl in E. cbn [negb] in E.
    destruct (Nat.eqb_spec (length (mf_eos m)) 1) as [_|]; [|lia]. unfold corr_alphari in E. assert (i = O) by lia. subst i.
    destruct (nth_error (mf_eos m) 0) as [e0|]; [|discriminate]. eauto.
  - apply taudelta_ok in E; [|rewrite pure_length; auto]. destruct E as [_ [a [d [Ha [Hd ->]]]]]. rewrite pure_length in *.
    rewrite (sumn_pure _ i a) by auto. unfold sum_pairs. rewrite sumn_0, Rplus_0_r.
    + specialize (Ha i Hi). unfold corr_alphari in Ha. destruct (nth_error (mf_eos m) i) as [e|]; [|discriminate]. eauto.
    + intros p Hp. apply sumn_0. intros q Hq. destruct (Nat.ltb_spec p q); [|reflexivity]. rewrite !nth_pure by auto.
      destruct (Nat.eqb_spec p i), (Nat.eqb_spec q i); subst; try lia; ring.
Qed.
Lemma hashes_one : forall l p hs, In p l -> hashes l = Val hs -> exists h, hashes [p] = Val h.
Proof.
  induction l as [|q l IH]; intros p hs IN G; [destruct IN|]. cbn [hashes] in G. destruct (j_at q "INFO") as [w|] eqn:Ew; [|discriminate].
  cbn [bind] in G. destruct IN as [->|IN].
  - cbn [hashes]. rewrite Ew. cbn [bind]. destruct (j_contains w "HASH"); [|eauto].
    destruct (bind (j_at w "HASH") j_string); [|discriminate]. cbn [bind]. eauto.
  - destruct (j_contains w "HASH"); [|eauto].
    destruct (bind (j_at w "HASH") j_string); [|discriminate]. cbn [bind] in G.
    destruct (hashes l) eqn:Q; [|discriminate]. eauto.
Qed.
(** The model of the component alone, from its file, has the same value. *)
Theorem C29_built : forall pures B D B' D' flags m i T rho v, build_multifluid pures B D flags = Some (Val m) -> (i < length pures)%nat ->
  mf_alphar m T rho (pure (length pures) i) = Some (Val v) ->
  exists m1, build_multifluid [nth i pures JNull] B' D' flags = Some (Val m1) /\ mf_alphar m1 T rho [1] = Some (Val v).
Proof.
  intros pures B D B' D' flags m i T rho v E Hi EV.
  destruct (build_inv _ _ _ _ _ E) as (Tcvc & EOSs & Rvals & ids & F & dep & b & rm & BU).
  destruct BU as [E1 E2 E3 E4 E7 E8 E9 E10 Em].
  apply omap_iff in E1, E2, E3. assert (L1 := Forall2_length E1). assert (L2 := Forall2_length E2). assert (L3 := Forall2_length E3).
  pose proof (proj2 (proj1 (Forall2_nth _ _ _ _ _ JNull (0, 0)) E1) i Hi) as F1.
  pose proof (proj2 (proj1 (Forall2_nth _ _ _ _ _ JNull []) E2) i Hi) as F2.
  pose proof (proj2 (proj1 (Forall2_nth _ _ _ _ _ JNull 0) E3) i Hi) as F3. cbv beta in *.
  assert (CI : exists ids1, chosen_identifiers [nth i pures JNull] B' flags ids1 /\ length ids1 = 1%nat).
  { destruct E4 as [set [key [C1 _]]]. unfold collect_identifiers in C1.
    destruct (map_res (fun j => info j "NAME") pures) as [nm|] eqn:G1; [|discriminate]. cbn [bind] in C1.
    destruct (map_res (fun j => info j "CAS") pures) as [cs|] eqn:G2; [|discriminate]. cbn [bind] in C1.
    destruct (map_res (fun j => info j "REFPROP_NAME") pures) as [rp|] eqn:G3; [|discriminate]. cbn [bind] in C1.
    destruct (hashes pures) as [hs|] eqn:G4; [|discriminate].
    apply map_res_iff in G1, G2, G3.
    pose proof (proj2 (proj1 (Forall2_nth _ _ _ _ _ JNull EmptyString) G1) i Hi) as H1.
    pose proof (proj2 (proj1 (Forall2_nth _ _ _ _ _ JNull EmptyString) G2) i Hi) as H2.
    pose proof (proj2 (proj1 (Forall2_nth _ _ _ _ _ JNull EmptyString) G3) i Hi) as H3. cbv beta in *.
    assert (H4 : exists h, hashes [nth i pures JNull] = Val h).
    { assert (INN : In (nth i pures JNull) pures) by (apply nth_In; auto). exact (hashes_one _ _ _ INN G4). }
    destruct H4 as [h H4].
    exists [nth i cs EmptyString]. split; [|reflexivity].
    eexists. exists "CAS"%string. unfold collect_identifiers. cbn [map_res]. rewrite H1, H2, H3. cbn [bind]. rewrite H4. cbn [bind].
    split; [reflexivity|]. split; reflexivity. }
  destruct CI as [ids1 [CI L]].
  assert (GB : exists b1, get_BIP_matrices B' ids1 flags (map fst [nth i Tcvc (0,0)]) (map snd [nth i Tcvc (0,0)]) = Val b1)
    by (unfold get_BIP_matrices; rewrite L; simpl; eauto).
  destruct GB as [b1 GB].
  assert (GF : exists f1, get_F_matrix B' ids1 flags = Val f1) by (unfold get_F_matrix; rewrite L; simpl; eauto). destruct GF as [f1 GF].
  assert (GD : exists d1, get_departures D' B' ids1 flags = ok d1) by (unfold get_departures; rewrite L; simpl; unfold ok; eauto). destruct GD as [d1 GD].
  eexists. split.
  - eapply build_of. constructor.
    + apply omap_iff. constructor; [exact F1|constructor]. + apply omap_iff. constructor; [exact F2|constructor].
    + apply omap_iff. constructor; [exact F3|constructor]. + exact CI. + exact GF. + exact GD. + exact GB. + exact E10. + reflexivity.
  - assert (LM : length (mf_eos m) = length pures) by (rewrite Em; cbn [mf_eos]; rewrite map_length; auto).
    rewrite <- LM in EV.
    destruct (C29_multifluid m b (map fst Tcvc) (map snd Tcvc) i T rho v) as [e [He Ev]]; try (rewrite ?map_length; lia); auto.
    { rewrite Em. reflexivity. }
    unfold mf_alphar. cbn [mf_eos map length Nat.eqb negb mf_red].
    destruct (C29_reducing b1 (map fst [nth i Tcvc (0,0)]) (map snd [nth i Tcvc (0,0)]) 0 ltac:(simpl; lia) eq_refl) as [R1 R2].
    change (pure (length (map fst [nth i Tcvc (0, 0)])) 0) with [1] in R1, R2. cbn [map] in R1, R2.
    rewrite R1, R2. cbn [nth]. unfold alphar_taudelta. cbn [mf_eos map length Nat.eqb negb]. unfold corr_alphari. cbn [nth_error].
    rewrite Em in He. cbn [mf_eos] in He. rewrite nth_error_map in He. rewrite (nth_error_nth' _ []) in He by lia. cbn [option_map] in He.
    injection He as <-. rewrite <- Ev. f_equal; f_equal.
    + symmetry. apply (map_nth fst Tcvc (0, 0)).
    + f_equal. symmetry. apply (map_nth snd Tcvc (0, 0)).
Qed.
(** A mutant with the invariant form of the reducing function has no pure limits: its
    constructor leaves the diagonals zero, and the reducing temperature of each pure
    component is zero. *)
Theorem C29_invariant_mutant_refuted : forall jj N Tc vc red i, mutant_reducing jj N "invariant" Tc vc = Val red -> length Tc = N -> (i < N)%nat ->
  0 < nth i Tc 0 -> get_Tr red (pure N i) = 0 /\ get_Tr red (pure N i) <> nth i Tc 0.
Proof.
  intros jj N Tc vc red i E L Hi HT. unfold mutant_reducing in E. simpl in E. unfold mutant_matrix in E.
  destruct (map_res (fun '(i, j) => BIP_num jj "phiT" i j) (pairs N)); [|discriminate]. cbn [bind] in E.
  destruct (map_res (fun '(i, j) => BIP_num jj "lambdaT" i j) (pairs N)); [|discriminate]. cbn [bind] in E.
  destruct (map_res (fun '(i, j) => BIP_num jj "phiV" i j) (pairs N)); [|discriminate]. cbn [bind] in E.
  destruct (map_res (fun '(i, j) => BIP_num jj "lambdaV" i j) (pairs N)); [|discriminate]. cbn [bind] in E. injection E as <-.
  assert (Z : get_Tr (Invariant (fill 0 (fun i j => value 0 (BIP_num jj "phiT" i j)) (fun x => x)) (fill 0 (fun i j => value 0 (BIP_num jj "lambdaT" i j)) Ropp)
     (fill 0 (fun i j => value 0 (BIP_num jj "phiV" i j)) (fun x => x)) (fill 0 (fun i j => value 0 (BIP_num jj "lambdaV" i j)) Ropp) Tc vc) (pure N i) = 0).
  { unfold get_Tr, invY. rewrite pure_length. rewrite (sumn_pure N i) by auto.
    rewrite (sumn_ext N _ (fun k => nth k (pure N i) 0 * (fill 0 (fun i j => value 0 (BIP_num jj "phiT" i j)) (fun x => x) i k * invYT Tc i k))) by (intros; ring).
    rewrite (sumn_ext N (fun j => nth j (pure N i) 0 * cbrt _ * cbrt _) (fun k => nth k (pure N i) 0 * (cbrt (fill 0 (fun i j => value 0 (BIP_num jj "lambdaT" i j)) Ropp i k) * cbrt (invYT Tc i k)))) by (intros; ring).
    rewrite !sumn_pure by auto. unfold fill. rewrite Nat.ltb_irrefl.
    replace (cbrt 0) with 0; [ring|]. unfold cbrt. destruct (Rlt_dec 0 0); [lra|]. destruct (Rlt_dec 0 0); [lra|auto]. }
  rewrite Z. split; [reflexivity|lra].
Qed.
Definition mutant_json := JObj [("0", JObj [("1", JObj [("BIP", JObj [("type", JStr "invariant"); ("phiT", JNum 1); ("lambdaT", JNum 0); ("phiV", JNum 1); ("lambdaV", JNum 0); ("Fij", JNum 0)]); ("departure", JObj [("type", JStr "none")])])])]%string.
Example C29_invariant_mutant_met : exists red, mutant_reducing mutant_json 2 "invariant" [100; 200] [1; 2] = Val red.
Proof. eexists. reflexivity. Qed.
Theorem C29_default_mutant : forall jj N type Tc vc red i, mutant_reducing jj N type Tc vc = Val red -> type <> "invariant"%string ->
  length Tc = N -> length vc = N -> (i < N)%nat ->
  get_Tr red (pure N i) = nth i Tc 0 /\ get_rhor red (pure N i) = 1 / nth i vc 0.
Proof.
  intros jj N type Tc vc red i E NT L Lv Hi. unfold mutant_reducing in E. destruct (String.eqb_spec type "invariant"); [contradiction|].
  destruct (mutant_matrix jj N "betaT" (fun x => 1 / x)); [|discriminate]. cbn [bind] in E.
  destruct (mutant_matrix jj N "betaV" (fun x => 1 / x)); [|discriminate]. cbn [bind] in E.
  destruct (mutant_matrix jj N "gammaT" (fun x => x)); [|discriminate]. cbn [bind] in E.
  destruct (mutant_matrix jj N "gammaV" (fun x => x)); [|discriminate]. cbn [bind] in E. injection E as <-.
  rewrite <- L. apply C29_reducing; lia.
Qed.

(** ** C30: zero density *)
Theorem C30_multifluid : forall m T x, length x = length (mf_eos m) ->
  (forall e, In e (mf_eos m) -> forall tau, e tau 0 = Some (Val 0)) ->
  (forall i j tau, (i < j < length x)%nat -> mf_dep m i j tau 0 = Some (Val 0)) ->
  mf_alphar m T 0 x = Some (Val 0).
Proof.
  intros m T x L HE HD. unfold mf_alphar. rewrite L, Nat.eqb_refl. cbn [negb].
  replace (0 / get_rhor (mf_red m) x) with 0 by (unfold Rdiv; ring).
  assert (HA : forall i, (i < length x)%nat -> corr_alphari (mf_eos m) (get_Tr (mf_red m) x / T) 0 i = ok 0).
  { intros i Hi. unfold corr_alphari. destruct (nth_error (mf_eos m) i) eqn:Q.
    - apply HE. apply (nth_error_In _ _ Q). - apply nth_error_None in Q. lia. }
  destruct (Nat.le_gt_cases (length x) 1) as [L1|L1].
  - unfold alphar_taudelta. rewrite L, Nat.eqb_refl. cbn [negb]. destruct (Nat.eqb_spec (length (mf_eos m)) 1).
    + apply HA. lia.
    + assert (Lx : length x = O) by lia. unfold corr_alphar, dep_alphar. rewrite Lx. simpl. unfold ok. rewrite Rplus_0_l. reflexivity.
  - apply taudelta_ok; auto. split; auto. exists (fun _ => 0), (fun _ _ => 0). split; auto. split. { intros. apply HD. auto. }
    rewrite sumn_0 by (intros; ring). unfold sum_pairs. rewrite sumn_0; [ring|]. intros i Hi. apply sumn_0. intros j Hj. destruct (Nat.ltb i j); ring.
Qed.
Example C30_multifluid_met : exists m, length [0.5; 0.5] = length (mf_eos m) /\ (forall e, In e (mf_eos m) -> forall tau, e tau 0 = Some (Val 0)) /\
  (forall i j tau, mf_dep m i j tau 0 = Some (Val 0)).
Proof.
  exists {| mf_red := GERGreducing {| m_betaT := fun _ _ => 1; m_gammaT := fun _ _ => 1; m_betaV := fun _ _ => 1; m_gammaV := fun _ _ => 1 |} [1; 2] [1; 2];
    mf_eos := [fun tau delta => ok (tau * delta); fun tau delta => ok (tau * delta ^ 2)]; mf_F := fun _ _ => 1; mf_dep := fun _ _ tau delta => ok (tau * delta); mf_R := CODATA |}.
  cbn [mf_eos mf_dep]. split; [reflexivity|]. split.
  - intros e [<-|[<-|[]]] tau; unfold ok; f_equal; f_equal; ring.
  - intros. unfold ok. f_equal. f_equal. ring.
Qed.

(** ** C54: the gas constant of a mixture *)
Theorem C54_between : forall Rvals x v lo hi, get_R (MoleFractionWeighted Rvals) x = Some (Val v) ->
  (forall i, (i < length x)%nat -> 0 <= nth i x 0) -> sumn (length x) (fun i => nth i x 0) = 1 ->
  (forall i, (i < length x)%nat -> lo <= nth i Rvals 0 <= hi) -> lo <= v <= hi.
Proof.
  intros Rvals x v lo hi E X S B. unfold get_R in E. destruct (Nat.ltb (length Rvals) (length x)); [discriminate|]. injection E as <-.
  split.
  - replace lo with (sumn (length x) (fun i => nth i x 0 * lo)) by (rewrite sumn_scal_r, S; ring).
    apply sumn_le. intros i Hi. apply Rmult_le_compat_l; auto. apply B; auto.
  - replace hi with (sumn (length x) (fun i => nth i x 0 * hi)) by (rewrite sumn_scal_r, S; ring).
    apply sumn_le. intros i Hi. apply Rmult_le_compat_l; auto. apply B; auto.
Qed.
Theorem C54_pure : forall Rvals i, (i < length Rvals)%nat ->
  get_R (MoleFractionWeighted Rvals) (pure (length Rvals) i) = Some (Val (nth i Rvals 0)).
Proof.
  intros Rvals i Hi. unfold get_R. rewrite pure_length, Nat.ltb_irrefl. unfold ok. f_equal. f_equal. apply (sumn_pure _ i (fun k => nth k Rvals 0)). auto.
Qed.
(** The gas constants are those of the files, unless the model was asked to use the
    CODATA value; equal constants give that constant for every composition. *)
Theorem C54_built : forall pures B D flags m, build_multifluid pures B D flags = Some (Val m) ->
  (j_at flags "Rmodel" = Val (JStr "CODATA") /\ mf_R m = CODATA) \/
  (j_at flags "Rmodel" <> Val (JStr "CODATA") /\ exists Rvals, mf_R m = MoleFractionWeighted Rvals /\ length Rvals = length pures /\
     forall i, (i < length pures)%nat -> exists e rest, j_at (nth i pures JNull) "EOS" = Val (JArr (e :: rest)) /\
       j_at e "gas_constant" = Val (JNum (nth i Rvals 0))).
Proof.
  intros pures B D flags m E. destruct (build_inv _ _ _ _ _ E) as (Tcvc & EOSs & Rvals & ids & F & dep & b & rm & BU).
  destruct BU as [E1 E2 E3 E4 E7 E8 E9 E10 Em].
  assert (RM : (match rm with JStr s => String.eqb s "CODATA" | _ => false end = true /\ j_at flags "Rmodel" = Val (JStr "CODATA")) \/
     (match rm with JStr s => String.eqb s "CODATA" | _ => false end = false /\ j_at flags "Rmodel" <> Val (JStr "CODATA"))).
  { destruct (j_contains flags "Rmodel") eqn:C.
    - apply some_ok in E10. rewrite E10. destruct rm as [| | |s| |]; try (right; split; [reflexivity|discriminate]).
      destruct (String.eqb_spec s "CODATA") as [->|N]; [left; auto|right; split; auto]. congruence.
    - injection E10 as <-. right. split; auto. intros Q. apply contains_at in Q. congruence. }
  destruct RM as [[Q H]|[Q H]]; [left|right]; (split; [exact H|]); rewrite Em; cbn [mf_R]; rewrite Q; [reflexivity|].
  exists Rvals. split; auto. apply omap_iff in E3. apply (Forall2_nth _ _ _ _ _ JNull 0) in E3. destruct E3 as [L H3]. split; auto.
  intros i Hi. specialize (H3 i Hi). unfold get_R1 in H3. destruct (j_at (nth i pures JNull) "EOS") as [e|]; [|discriminate]. cbn [obind] in H3.
  destruct e as [| | | |[|e rest]|]; try discriminate. exists e, rest. split; auto. unfold num in H3. apply some_ok in H3.
  destruct (j_at e "gas_constant") as [w|]; [|discriminate]. cbn [bind] in H3. destruct w; try discriminate. injection H3 as ->. reflexivity.
Qed.
Theorem C54_CODATA : forall x, get_R CODATA x = Some (Val R_gas).
Proof. reflexivity. Qed.
(** Unlike the Helmholtz energy, the gas constant does not check the number of mole
    fractions: too many are read past the end of the array. *)
Theorem C54_size_refuted : forall Rvals x, (length Rvals < length x)%nat -> get_R (MoleFractionWeighted Rvals) x = None.
Proof. intros Rvals x H. unfold get_R. destruct (Nat.ltb_spec (length Rvals) (length x)); [reflexivity|lia]. Qed.
Example C54_met : get_R (MoleFractionWeighted [8; 9]) [0.5; 0.5] = Some (Val (0 + 0.5 * 8 + 0.5 * 9)) /\
  sumn (length [0.5; 0.5]) (fun i => nth i [0.5; 0.5] 0) = 1.
Proof. split; [reflexivity|]. simpl. lra. Qed.

(** ** C53: identifiers *)
(** The kind of identifier chosen finds all pairs, in either order, and no kind before it does. *)
Theorem C53_selected : forall B set flags key, select_identifier B set flags = Val key ->
  exists s1 ids s2, set = s1 ++ (key, ids) :: s2 /\
  (forall i j, (i < length ids)%nat -> (j < length ids)%nat -> i <> j ->
     exists r, get_BIPdep B (nth i ids EmptyString) (nth j ids EmptyString) flags = Val r) /\
  (forall key' ids', In (key', ids') s1 -> exists i j e, (i < j < length ids')%nat /\
     get_BIPdep B (nth i ids' EmptyString) (nth j ids' EmptyString) flags = Err e).
Proof.
  intros B set flags key. induction set as [|[k ids] set IH]; intros E; simpl in E; [discriminate|].
  destruct (map_res (fun '(i, j) => get_BIPdep B (nth i ids EmptyString) (nth j ids EmptyString) flags) (pairs (length ids))) as [vs|] eqn:M.
  - injection E as ->. exists [], ids, set. split; [reflexivity|]. split; [|intros ? ? []].
    assert (A : exists vs, map_res (fun '(i, j) => get_BIPdep B (nth i ids EmptyString) (nth j ids EmptyString) flags) (pairs (length ids)) = Val vs) by eauto.
    rewrite map_res_all in A. intros i j Hi Hj N. destruct (Nat.lt_ge_cases i j).
    + apply (A (i, j)). apply in_pairs. lia.
    + apply found_sym. apply (A (j, i)). apply in_pairs. lia.
  - destruct (IH E) as (s1 & ids1 & s2 & -> & H1 & H2). exists ((k, ids) :: s1), ids1, s2. split; [reflexivity|]. split; auto.
    intros key' ids' [Q|Q]; [|eauto]. injection Q as <- <-.
    assert (EX : exists p, In p (pairs (length ids)) /\ exists e, get_BIPdep B (nth (fst p) ids EmptyString) (nth (snd p) ids EmptyString) flags = Err e).
    { clear - M. revert M. generalize (pairs (length ids)). induction l as [|[i j] l IHl]; simpl; [discriminate|].
      destruct (get_BIPdep B (nth i ids EmptyString) (nth j ids EmptyString) flags) as [r|e'] eqn:G; cbn [bind].
      - destruct (map_res _ l); [discriminate|]. intros H. destruct (IHl H) as [p [Hp He]]. exists p. auto.
      - intros _. exists (i, j). simpl. eauto. }
    destruct EX as [[i j] [Hp [e' He]]]. apply in_pairs in Hp. exists i, j, e'. auto.
Qed.
(** The look-up throws only if every kind of identifier has a pair that is not found. *)
Theorem C53_none : forall B set flags e, select_identifier B set flags = Err e ->
  e = StdInvalidArgument /\ forall key ids, In (key, ids) set -> exists i j e', (i < j < length ids)%nat /\
     get_BIPdep B (nth i ids EmptyString) (nth j ids EmptyString) flags = Err e'.
Proof.
  intros B set flags e. induction set as [|[k ids] set IH]; intros E; simpl in E. { injection E as <-. split; auto. intros ? ? []. }
  destruct (map_res (fun '(i, j) => get_BIPdep B (nth i ids EmptyString) (nth j ids EmptyString) flags) (pairs (length ids))) as [vs|] eqn:M; [discriminate|].
  destruct (IH E) as [I1 I2]. split; auto. intros key' ids' [Q|Q]; [|eauto]. injection Q as <- <-.
  assert (EX : exists p, In p (pairs (length ids)) /\ exists e, get_BIPdep B (nth (fst p) ids EmptyString) (nth (snd p) ids EmptyString) flags = Err e).
  { clear - M. revert M. generalize (pairs (length ids)). induction l as [|[i j] l IHl]; simpl; [discriminate|].
    destruct (get_BIPdep B (nth i ids EmptyString) (nth j ids EmptyString) flags) as [r|e'] eqn:G; cbn [bind].
    - destruct (map_res _ l); [discriminate|]. intros H. destruct (IHl H) as [p [Hp He]]. exists p. auto.
    - intros _. exists (i, j). simpl. eauto. }
  destruct EX as [[i j] [Hp [e' He]]]. apply in_pairs in Hp. exists i, j, e'. auto.
Qed.
(** The identifiers offered are those of the files: all names, all CAS numbers, all
    REFPROP names, and all hashes if every file has one. *)
Theorem C53_offered : forall pures set, collect_identifiers pures = Val set -> forall key ids, lookup key set = Some ids ->
  length ids = length pures /\
  (forall i, (i < length pures)%nat ->
    field (nth i pures JNull) (if String.eqb key "CAS" then "CAS" else if String.eqb key "Name" then "NAME" else if String.eqb key "REFPROP" then "REFPROP_NAME" else "HASH")
      (nth i ids EmptyString)) /\ In key ["CAS"; "Name"; "REFPROP"; "hash"]%string.
Proof.
  intros pures set E key ids H. assert (L := lookup_length _ _ _ _ E H). split; auto. unfold collect_identifiers in E.
  destruct (map_res (fun j => info j "NAME") pures) as [nm|] eqn:E1; [|discriminate]. cbn [bind] in E.
  destruct (map_res (fun j => info j "CAS") pures) as [cs|] eqn:E2; [|discriminate]. cbn [bind] in E.
  destruct (map_res (fun j => info j "REFPROP_NAME") pures) as [rp|] eqn:E3; [|discriminate]. cbn [bind] in E.
  destruct (hashes pures) as [hs|] eqn:E4; [|discriminate]. cbn [bind] in E. injection E as <-.
  apply map_res_iff in E1, E2, E3.
  assert (G : forall k l, Forall2 (fun j s => info j k = Val s) pures l -> forall i, (i < length pures)%nat -> field (nth i pures JNull) k (nth i l EmptyString)).
  { intros k l HF i Hi. apply field_info. exact (proj2 (proj1 (Forall2_nth _ _ _ _ _ JNull EmptyString) HF) i Hi). }
  simpl in H. destruct (String.eqb_spec key "CAS") as [->|]; [injection H as <-; split; [apply (G "CAS"%string cs E2)|simpl; auto]|].
  destruct (String.eqb_spec key "Name") as [->|]; [injection H as <-; split; [apply (G "NAME"%string nm E1)|simpl; auto]|].
  destruct (String.eqb_spec key "REFPROP") as [->|]; [injection H as <-; split; [apply (G "REFPROP_NAME"%string rp E3)|simpl; auto]|].
  destruct (Nat.eqb_spec (length hs) (length cs)) as [Q|]; simpl in H; [|discriminate].
  destruct (String.eqb_spec key "hash") as [->|]; [|discriminate]. injection H as <-. split; [|simpl; auto].
  apply (G "HASH"%string hs). apply (hashes_full _ _ E4). auto.
Qed.
Example C53_selected_met : exists set, collect_identifiers two_fluids = Val set /\ select_identifier two_BIP set JNull = Val "CAS"%string.
Proof. eexists. split; reflexivity. Qed.
(** Every identifier of every file leads to that file, no other string leads anywhere, and
    no string identifies two files. *)
Theorem C53_aliases : forall fs paths m, build_alias_map fs paths [] = Val m ->
  (forall p, In p paths -> exists j, load_a_JSON_file fs p = Val j /\ forall v, identifies j v -> lookup v m = Some p) /\
  (forall v p, lookup v m = Some p -> In p paths /\ exists j, load_a_JSON_file fs p = Val j /\ identifies j v) /\
  (forall l1 p l2 q l3 j1 j2 v, paths = l1 ++ p :: l2 ++ q :: l3 -> load_a_JSON_file fs p = Val j1 -> load_a_JSON_file fs q = Val j2 ->
     ~ (identifies j1 v /\ identifies j2 v)).
Proof.
  intros fs paths m E. destruct (alias_map_spec _ _ _ _ E) as [_ [H1 [H2 H3]]]. split; [|split].
  - intros p Hp. destruct (H1 p Hp) as [j [Ej H]]. exists j. split; auto. intros v Hv. apply H. auto.
  - intros v p Hv. destruct (H2 v p Hv) as [Q|Q]; [discriminate|auto].
  - intros l1 p l2 q l3 j1 j2 v Q L1 L2 [D1 D2]. exact (H3 l1 p l2 q l3 j1 j2 v Q L1 L2 D1 D2).
Qed.
Example C53_aliases_met : exists m,
  build_alias_map {| fs_is_file := fun _ => true; fs_is_file_throws := fun _ => false; fs_open := fun p => Some p;
    fs_parse := fun p => Some (if String.eqb p "/m.json" then fluid "Methane" "74-82-8" 190 10 1 else fluid "Ethane" "74-84-0" 305 7 2) |}
    ["/m.json"; "/e.json"]%string [] = Val m /\ lookup "74-84-0"%string m = Some "/e.json"%string.
Proof. eexists. split; reflexivity. Qed.
(** Every component of a list that loads was given by a path, is JSON data itself, or
    is an identifier of the file that was loaded. *)
Definition resolves (fs : FS) (fluids : string -> res (list string)) (fld : string -> res json) (root : string) (c j : json) : Prop :=
  (exists s, c = JStr ("PATH::" ++ s)%string /\ load_a_JSON_file fs s = Val j) \/
  (exists s, (c = JStr ("FLDPATH::" ++ s)%string \/ c = JStr ("FLD::" ++ s)%string) /\ fld s = Val j) \/
  multilevel_JSON_load fs c (Some root) = Val j \/
  (exists s paths p, c = JStr s /\ fluids root = Val paths /\ In p paths /\ load_a_JSON_file fs p = Val j /\ identifies j s).
Lemma prefix_drop : forall p s, String.prefix p s = true -> s = (p ++ drop (String.length p) s)%string.
Proof.
  induction p as [|c p IH]; intros s H; [destruct s; reflexivity|]. destruct s as [|d s]; [discriminate|]. simpl in *.
  destruct (ascii_dec c d) as [->|]; [|discriminate]. f_equal. auto.
Qed.
Theorem C53_components : forall fs fluids fld root comps js, (forall j, load_a_JSON_file fs root <> Val j) ->
  make_pure_components_JSON fs fluids fld (JArr comps) (Some root) = Val js -> Forall2 (resolves fs fluids fld root) comps js.
Proof.
  intros fs fluids fld root comps js NR E. cbn [make_pure_components_JSON] in E.
  set (good := fun m : amap => match m with None => True | Some m' => exists paths, fluids root = Val paths /\ build_alias_map fs paths [] = Val m' end).
  assert (FA : forall m c j m', good (Some m) -> from_alias fs (Some root) m c = Val (j, m') ->
     good m' /\ exists s paths p, c = JStr s /\ fluids root = Val paths /\ In p paths /\ load_a_JSON_file fs p = Val j /\ identifies j s).
  { intros m c j m' [paths [Fp Bp]] H. unfold from_alias in H. destruct c as [| | |s| |]; try discriminate. cbn [bind j_string] in H.
    destruct (lookup s m) as [p|] eqn:Q.
    - destruct (multilevel_JSON_load fs (JStr p) (Some root)) as [j'|] eqn:M; [|discriminate]. cbn [bind] in H. injection H as <- <-.
      split; [exists paths; auto|]. destruct (C53_aliases _ _ _ Bp) as [_ [H2 _]]. destruct (H2 _ _ Q) as [Hp [j0 [Ej0 Hi]]].
      exists s, paths, p. repeat split; auto.
      + unfold multilevel_JSON_load in M. destruct p as [|c0 p]; [exfalso; apply (NR j'); auto|].
        unfold load_a_JSON_file, is_valid_path in *. destruct (fs_is_file_throws fs (String c0 p)); [discriminate|].
        destruct (fs_is_file fs (String c0 p)); [|discriminate]. cbn [negb andb] in *. exact M.
      + replace j' with j0; auto. unfold multilevel_JSON_load in M. destruct p as [|c0 p]; [exfalso; apply (NR j'); auto|].
        unfold load_a_JSON_file, is_valid_path in *. destruct (fs_is_file_throws fs (String c0 p)); [discriminate|].
        destruct (fs_is_file fs (String c0 p)); [|discriminate]. cbn [negb andb] in *. congruence.
    - cbn [multilevel_JSON_load] in H. destruct (load_a_JSON_file fs root) as [j'|] eqn:Z; [exfalso; apply (NR j'); auto|discriminate]. }
  assert (ONE : forall m c j m', good m -> load_component fs fluids fld (Some root) m c = Val (j, m') -> good m' /\ resolves fs fluids fld root c j).
  { intros m c j m' G H.
    assert (GA : get_or_aliasmap fs fluids (Some root) m c = Val (j, m') -> good m' /\ resolves fs fluids fld root c j).
    { unfold get_or_aliasmap. destruct (multilevel_JSON_load fs c (Some root)) as [j'|] eqn:M.
      - injection 1 as <- <-. split; auto. right. right. left. auto.
      - destruct m as [m0|].
        + intros Q. destruct (FA _ _ _ _ G Q) as [A B]. split; auto. right. right. right. exact B.
        + destruct (fluids root) as [paths|] eqn:Fp; [|discriminate]. cbn [bind]. destruct (build_alias_map fs paths []) as [m0|] eqn:Bp; [|discriminate]. cbn [bind].
          destruct c as [| | |s| |]; try discriminate. cbn [j_string bind]. destruct (lookup s m0); [|discriminate]. intros Q.
          destruct (FA m0 (JStr s) j m') as [A B]; auto. { exists paths. auto. } split; auto. right. right. right. rewrite Fp in *. exact B. }
    destruct c as [| | |s| |]; try (apply GA; exact H). cbn [load_component] in H.
    destruct (String.prefix "PATH::" s) eqn:P1.
    { apply prefix_drop in P1. destruct (load_a_JSON_file fs (drop 6 s)) as [j'|] eqn:Q; [|discriminate]. cbn [bind] in H. injection H as <- <-.
      split; auto. left. exists (drop 6 s). split; auto. f_equal. exact P1. }
    destruct (String.prefix "FLDPATH::" s) eqn:P2.
    { apply prefix_drop in P2. destruct (fld (drop 9 s)) as [j'|] eqn:Q; [|discriminate]. cbn [bind] in H. injection H as <- <-.
      split; auto. right. left. exists (drop 9 s). split; auto. left. f_equal. exact P2. }
    destruct (String.prefix "FLD::" s) eqn:P3; [|apply GA; exact H].
    apply prefix_drop in P3. destruct (fld (drop 5 s)) as [j'|] eqn:Q; [|discriminate]. cbn [bind] in H. injection H as <- <-.
    split; auto. right. left. exists (drop 5 s). split; auto. right. f_equal. exact P3. }
  assert (ALL : forall comps m js, good m -> load_components fs fluids fld (Some root) m comps = Val js -> Forall2 (resolves fs fluids fld root) comps js).
  { clear E js comps. induction comps as [|c comps IH]; intros m js G H; simpl in H. { injection H as <-. constructor. }
    destruct (load_component fs fluids fld (Some root) m c) as [[j m']|] eqn:Q; [|discriminate]. cbn [bind] in H.
    destruct (load_components fs fluids fld (Some root) m' comps) as [js'|] eqn:Q2; [|discriminate]. cbn [bind] in H. injection H as <-.
    destruct (ONE _ _ _ _ G Q) as [G' R1]. constructor; auto. exact (IH m' js' G' Q2). }
  apply (ALL comps None js); simpl; auto.
Qed.
Example C53_components_met :
  let fs := {| fs_is_file := fun p => String.eqb p "/m.json" || String.eqb p "/e.json"; fs_is_file_throws := fun _ => false; fs_open := fun p => Some p;
    fs_parse := fun p => if String.eqb p "/m.json" then Some (fluid "Methane" "74-82-8" 190 10 1) else if String.eqb p "/e.json" then Some (fluid "Ethane" "74-84-0" 305 7 2) else None |} in
  let fluids := fun _ => Val ["/m.json"; "/e.json"]%string in
  (forall j, load_a_JSON_file fs "/root" <> Val j) /\
  make_pure_components_JSON fs fluids (fun _ => Err JsonError) (JArr [JStr "Methane"; JStr "74-84-0"]) (Some "/root"%string) = Val two_fluids /\
  make_pure_components_JSON fs fluids (fun _ => Err JsonError) (JArr [JStr "Methane"; JStr "Water"]) (Some "/root"%string) = Err StdInvalidArgument.
Proof. intros fs fluids. split; [discriminate|]. split; reflexivity. Qed.

(** ** C51: ancillary curves *)
Theorem C51_above : forall a T, an_Tr a < T -> ancillary_val a T = Some (Err InvalidArgument).
Proof. intros a T H. unfold ancillary_val. destruct (Rlt_dec (an_Tr a) T); [reflexivity|lra]. Qed.
Lemma osum_value : forall n f g, (forall i, (i < n)%nat -> f i = Some (g i)) -> osum n f = Some (sumn n g).
Proof.
  induction n; intros f g H; simpl; auto. rewrite (IHn f g) by (intros; apply H; lia). simpl. rewrite H by lia. reflexivity.
Qed.
Theorem C51_curve : forall a T, 0 < T < an_Tr a -> length (an_n a) = length (an_t a) ->
  let RHS := ancillary_sum (an_n a) (an_t a) (1 - T / an_Tr a) * (if an_tau a then an_Tr a / T else 1) in
  ancillary_val a T = Some (Val (if an_noexp a then an_red a * (1 + RHS) else an_red a * exp RHS)).
Proof.
  intros a T [H1 H2] L. unfold ancillary_val. destruct (Rlt_dec (an_Tr a) T); [lra|]. rewrite L, Nat.eqb_refl. cbn [negb].
  assert (TH : 0 < 1 - T / an_Tr a).
  { assert (T / an_Tr a < 1); [|lra]. apply (Rmult_lt_reg_r (an_Tr a)); [lra|]. unfold Rdiv. rewrite Rmult_assoc, Rinv_l by lra. lra. }
  rewrite (osum_value _ _ (fun i => nth i (an_n a) 0 * Rpower (1 - T / an_Tr a) (nth i (an_t a) 0))).
  - unfold ancillary_sum. rewrite L. unfold ok. destruct (an_tau a), (an_noexp a); f_equal; f_equal; rewrite ?Rmult_1_r; try reflexivity; apply Rmult_comm.
  - intros i Hi. unfold cpow. destruct (Req_EM_T (1 - T / an_Tr a) 0); [lra|]. destruct (Rlt_dec 0 (1 - T / an_Tr a)); [|lra].
    simpl. f_equal. ring.
Qed.
Theorem C51_at_reducing : forall a, 0 < an_Tr a -> length (an_n a) = length (an_t a) -> List.Forall (fun t => 0 < t) (an_t a) ->
  ancillary_val a (an_Tr a) = Some (Val (an_red a)).
Proof.
  intros a H L P. unfold ancillary_val. destruct (Rlt_dec (an_Tr a) (an_Tr a)); [lra|]. rewrite L, Nat.eqb_refl. cbn [negb].
  replace (1 - an_Tr a / an_Tr a) with 0 by (field; lra).
  rewrite (osum_value _ _ (fun _ => 0)).
  - rewrite sumn_zero. unfold ok. destruct (an_tau a), (an_noexp a); f_equal; f_equal; rewrite ?Rmult_0_l, ?exp_0; ring.
  - intros i Hi. rewrite List.Forall_forall in P. unfold cpow. destruct (Req_EM_T 0 0); [|lra].
    assert (0 < nth i (an_t a) 0) by (apply P, nth_In; auto).
    destruct (Req_EM_T (nth i (an_t a) 0) 0); [lra|]. destruct (Rlt_dec 0 (nth i (an_t a) 0)); [|lra]. simpl. f_equal. ring.
Qed.
(** An exponent zero is accepted and moves the end point. *)
Theorem C51_zero_exponent_refuted : exists a v, 0 < an_Tr a /\ ancillary_val a (an_Tr a) = Some (Val v) /\ v <> an_red a.
Proof.
  exists {| an_Tr := 1; an_n := [1]; an_t := [0]; an_red := 1; an_tau := false; an_noexp := true |}. eexists. split; [simpl; lra|]. split.
  - unfold ancillary_val. simpl. destruct (Rlt_dec 1 1); [lra|]. unfold cpow. destruct (Req_EM_T (1 - 1 / 1) 0); [|lra].
    destruct (Req_EM_T 0 0); [|lra]. simpl. reflexivity.
  - simpl. lra.
Qed.
(** Liquid and vapour pressures are one curve if the file gives one, and the type
    of the file decides on the functional form. *)
Theorem C51_file : forall j a, make_ancillary j = Val a ->
  j_at j "T_r" = Val (JNum (an_Tr a)) /\ j_at j "reducing_value" = Val (JNum (an_red a)) /\ j_at j "using_tau_r" = Val (JBool (an_tau a)) /\
  (an_noexp a = true <-> j_at j "type" = Val (JStr "rhoLnoexp")).
Proof.
  intros j a E. unfold make_ancillary in E.
  destruct (j_at j "T_r") as [w|]; [|discriminate]. cbn [bind] in E. destruct w; try discriminate. cbn [bind j_double] in E.
  destruct (bind (j_at j "Tmax") j_double); [|discriminate]. cbn [bind] in E.
  destruct (bind (j_at j "Tmin") j_double); [|discriminate]. cbn [bind] in E.
  destruct (j_at j "type") as [w|]; [|discriminate]. cbn [bind] in E. destruct w; try discriminate. cbn [bind j_string] in E.
  destruct (bind (j_at j "description") j_string); [|discriminate]. cbn [bind] in E.
  destruct (bind (j_at j "n") (j_valarray j_double)); [|discriminate]. cbn [bind] in E.
  destruct (bind (j_at j "t") (j_valarray j_double)); [|discriminate]. cbn [bind] in E.
  destruct (j_at j "reducing_value") as [w|]; [|discriminate]. cbn [bind] in E. destruct w; try discriminate. cbn [bind j_double] in E.
  destruct (j_at j "using_tau_r") as [w|]; [|discriminate]. cbn [bind] in E. destruct w; try discriminate. cbn [bind j_bool] in E.
  injection E as <-. cbn [an_Tr an_red an_tau an_noexp]. repeat split; auto.
  - intros Q. apply String.eqb_eq in Q. subst. reflexivity.
  - intros Q. injection Q as ->. reflexivity.
Qed.
Theorem C51_one_pressure : forall j a pS, make_ancillaries j = Val a -> j_at j "pS" = Val pS -> an_pL a = an_pV a /\ make_ancillary pS = Val (an_pL a).
Proof.
  intros j a pS E H. unfold make_ancillaries in E. rewrite (contains_at _ _ _ H), H in E. cbn [bind] in E.
  destruct (bind (j_at j "rhoL") make_ancillary); [|discriminate]. cbn [bind] in E.
  destruct (bind (j_at j "rhoV") make_ancillary); [|discriminate]. cbn [bind] in E.
  destruct (make_ancillary pS); [|discriminate]. cbn [bind] in E. injection E as <-. auto.
Qed.
Theorem C51_parts : forall j a, make_ancillaries j = Val a ->
  (exists L, j_at j "rhoL" = Val L /\ make_ancillary L = Val (an_rhoL a)) /\ (exists V, j_at j "rhoV" = Val V /\ make_ancillary V = Val (an_rhoV a)) /\
  (j_contains j "pS" = false -> (exists L, j_at j "pL" = Val L /\ make_ancillary L = Val (an_pL a)) /\ exists V, j_at j "pV" = Val V /\ make_ancillary V = Val (an_pV a)).
Proof.
  intros j a E. unfold make_ancillaries in E.
  destruct (j_at j "rhoL") as [L|]; [|discriminate]. cbn [bind] in E. destruct (make_ancillary L) eqn:EL; [|discriminate]. cbn [bind] in E.
  destruct (j_at j "rhoV") as [V|]; [|discriminate]. cbn [bind] in E. destruct (make_ancillary V) eqn:EV; [|discriminate]. cbn [bind] in E.
  destruct (j_contains j "pS").
  - destruct (bind (j_at j "pS") make_ancillary); [|discriminate]. cbn [bind] in E. injection E as <-.
    split; [eauto|]. split; [eauto|]. discriminate.
  - destruct (j_at j "pL") as [pL|]; [|discriminate]. cbn [bind] in E. destruct (make_ancillary pL) eqn:EpL; [|discriminate]. cbn [bind] in E.
    destruct (j_at j "pV") as [pV|]; [|discriminate]. cbn [bind] in E. destruct (make_ancillary pV) eqn:EpV; [|discriminate]. cbn [bind] in E.
    injection E as <-. split; [eauto|]. split; [eauto|]. intros _. split; eauto.
Qed.
Definition curve_json := JObj [("T_r", JNum 100); ("Tmax", JNum 100); ("Tmin", JNum 50); ("type", JStr "rhoV"); ("description", JStr "");
  ("n", JArr [JNum 1; JNum 2]); ("t", JArr [JNum 0.5; JNum 3]); ("reducing_value", JNum 7); ("using_tau_r", JBool true)]%string.
Example C51_met : exists a, make_ancillary curve_json = Val a /\ 0 < 80 < an_Tr a /\ length (an_n a) = length (an_t a) /\ List.Forall (fun t => 0 < t) (an_t a) /\
  exists b, make_ancillaries (JObj [("rhoL", curve_json); ("rhoV", curve_json); ("pS", curve_json)]%string) = Val b.
Proof. eexists. split; [reflexivity|]. split; [simpl; lra|]. split; [reflexivity|]. split; [repeat constructor; simpl; lra|]. eexists. reflexivity. Qed.
Print Assumptions C31_priority.
Print Assumptions C31_missing.
Print Assumptions C31_forced.
Print Assumptions C31_same_record.
Print Assumptions C31_order.
Print Assumptions C31_same_fluid_refuted.
Print Assumptions C31_built.
Print Assumptions C32_value.
Print Assumptions C32_refuted.
Print Assumptions C32_rescaled_partial.
Print Assumptions C28_reducing.
Print Assumptions C28_multifluid.
Print Assumptions C28_built.
Print Assumptions C29_reducing.
Print Assumptions C29_multifluid.
Print Assumptions C29_built.
Print Assumptions C29_invariant_mutant_refuted.
Print Assumptions C29_default_mutant.
Print Assumptions C30_multifluid.
Print Assumptions C54_between.
Print Assumptions C54_pure.
Print Assumptions C54_built.
Print Assumptions C54_CODATA.
Print Assumptions C54_size_refuted.
Print Assumptions C53_selected.
Print Assumptions C53_none.
Print Assumptions C53_offered.
Print Assumptions C53_aliases.
Print Assumptions C53_components.
Print Assumptions C51_above.
Print Assumptions C51_curve.
Print Assumptions C51_at_reducing.
Print Assumptions C51_zero_exponent_refuted.
Print Assumptions C51_file.
Print Assumptions C51_one_pressure.
Print Assumptions C51_parts.
