(** Theorems C58 (the multi-fluid approximation) and C59 (mutants). *)
From Coq Require Import Reals String List Lia Lra Bool Psatz.
From Verif Require Import Json_model Vec_spec Vec_proofs Cubic_model Cubic_spec Cubic_proofs2 Terms_model
  Multi_model Multi_spec Multi_proofs Multi_proofs2 Properties_Multi.
Import ListNotations.
Open Scope R_scope.

(** ** The published equations (Kunz and Wagner, 2012) *)
(** the sum over all pairs i < j < n *)
Definition over_pairs (n : nat) (f : nat -> nat -> R) : R := sumn n (fun j => sumn j (fun i => f i j)).
Definition GERG_form (x Yc : list R) (beta gamma Yij : nat -> nat -> R) : R :=
  sumn (length x) (fun i => nth i x 0 ^ 2 * nth i Yc 0) +
  over_pairs (length x) (fun i j => 2 * nth i x 0 * nth j x 0 * beta i j * gamma i j *
    ((nth i x 0 + nth j x 0) / (beta i j ^ 2 * nth i x 0 + nth j x 0)) * Yij i j).
Definition geometric (Tc : list R) (i j : nat) : R := sqrt (nth i Tc 0 * nth j Tc 0).
Definition cubic_mean (vc : list R) (i j : nat) : R := 1 / 8 * (Rpower (nth i vc 0) (1 / 3) + Rpower (nth j vc 0) (1 / 3)) ^ 3.
Definition multifluid_sum (x : list R) (a : nat -> R) (F : nat -> nat -> R) (d : nat -> nat -> R) : R :=
  sumn (length x) (fun i => nth i x 0 * a i) + over_pairs (length x) (fun i j => nth i x 0 * nth j x 0 * F i j * d i j).

Lemma sum_over : forall n f, sum_pairs n f = over_pairs n f.
Proof.
  intros n f. unfold sum_pairs, over_pairs. rewrite sumn_swap. apply sumn_ext. intros j Hj.
  assert (G : forall m, (j <= m)%nat -> sumn m (fun i => if Nat.ltb i j then f i j else 0) = sumn j (fun i => f i j)).
  { induction m; intros Hm.
    - assert (j = O) by lia. subst. reflexivity.
    - simpl. destruct (Nat.ltb_spec m j).
      + assert (j = S m) by lia. subst. simpl. f_equal. apply sumn_ext. intros i Hi. destruct (Nat.ltb_spec i (S m)); [auto|lia].
      + rewrite IHm by lia. ring. }
  apply G. lia.
Qed.
Lemma over_ext : forall n f g, (forall i j, (i < j < n)%nat -> f i j = g i j) -> over_pairs n f = over_pairs n g.
Proof. intros. unfold over_pairs. apply sumn_ext. intros j Hj. apply sumn_ext. intros i Hi. apply H. lia. Qed.
Lemma Y_GERG : forall z Yc beta gamma Yq Yij, (forall i, (i < length z)%nat -> 0 <= nth i z 0) ->
  (forall i j, (i < j < length z)%nat -> beta i j <> 0) ->
  (forall i j, (i < j < length z)%nat -> Yij i j = 2 * beta i j * gamma i j * Yq i j) ->
  Y z Yc beta Yij = GERG_form z Yc beta gamma Yq.
Proof.
  intros z Yc beta gamma Yq Yij X B H. unfold Y, GERG_form. f_equal. rewrite sum_over. apply over_ext. intros i j Hij.
  unfold Y_pair. rewrite (H i j Hij). assert (X1 := X i ltac:(lia)). assert (X2 := X j ltac:(lia)). assert (B1 := B i j Hij).
  assert (B2 : 0 < beta i j * beta i j) by nra.
  destruct (Req_EM_T (beta i j * beta i j * nth i z 0 + nth j z 0) 0) as [Q|Q].
  - assert (Z1 : nth i z 0 = 0) by nra. rewrite Z1. unfold Rdiv. ring.
  - field. replace (beta i j ^ 2) with (beta i j * beta i j) by ring. auto.
Qed.

(** ** C58: the value of a mixture *)
Theorem C58_reducing : forall b Tc vc x, length Tc = length x -> length vc = length x ->
  (forall i, (i < length x)%nat -> 0 <= nth i x 0 /\ 0 < nth i vc 0) ->
  (forall i j, (i < j < length x)%nat -> m_betaT b i j <> 0 /\ m_betaV b i j <> 0) ->
  get_Tr (GERGreducing b Tc vc) x = GERG_form x Tc (m_betaT b) (m_gammaT b) (geometric Tc) /\
  get_rhor (GERGreducing b Tc vc) x = 1 / GERG_form x vc (m_betaV b) (m_gammaV b) (cubic_mean vc).
Proof.
  intros b Tc vc x L1 L2 X B. unfold get_Tr, get_rhor. split; [|f_equal]; apply Y_GERG; try (intros; apply X; auto); try (intros; apply B; auto).
  - intros i j Hij. rewrite YT_form by lia. unfold geometric. ring.
  - intros i j Hij. rewrite Yv_form by lia. unfold cubic_mean, cbrt. destruct (X i ltac:(lia)) as [_ V1]. destruct (X j ltac:(lia)) as [_ V2].
    destruct (Rlt_dec 0 (nth i vc 0)); [|lra]. destruct (Rlt_dec 0 (nth j vc 0)); [|lra]. field.
Qed.
Example C58_reducing_met : let x := [0.2; 0.8; 0] in let vc := [1; 2; 3] in
  forall i, (i < length x)%nat -> 0 <= nth i x 0 /\ 0 < nth i vc 0.
Proof. intros x vc [|[|[|i]]] H; simpl in *; try lia; lra. Qed.
(** A mixture of two or more components evaluates exactly if all its parts do, to the
    multi-fluid approximation at the reduced temperature and density. *)
Theorem C58_value : forall m T rho x v, (1 < length x)%nat ->
  (mf_alphar m T rho x = Some (Val v) <->
   length x = length (mf_eos m) /\
   let tau := get_Tr (mf_red m) x / T in let delta := rho / get_rhor (mf_red m) x in
   exists a d, (forall i, (i < length x)%nat -> exists e, nth_error (mf_eos m) i = Some e /\ e tau delta = Some (Val (a i))) /\
     (forall i j, (i < j < length x)%nat -> mf_dep m i j tau delta = Some (Val (d i j))) /\ v = multifluid_sum x a (mf_F m) d).
Proof.
  intros m T rho x v L1. unfold mf_alphar. cbv zeta. destruct (Nat.eqb_spec (length x) (length (mf_eos m))) as [L|L]; cbn [negb].
  2:{ split; [discriminate|]. intros [Q _]. contradiction. }
  assert (K : forall a tau delta, (forall i, (i < length x)%nat -> corr_alphari (mf_eos m) tau delta i = ok (a i)) <->
    (forall i, (i < length x)%nat -> exists e, nth_error (mf_eos m) i = Some e /\ e tau delta = Some (Val (a i)))).
  { intros a tau delta. split; intros H i Hi; specialize (H i Hi); unfold corr_alphari in *.
    - destruct (nth_error (mf_eos m) i) as [e|]; [|discriminate]. eauto.
    - destruct H as [e [-> E]]. exact E. }
  split.
  - intros E. apply taudelta_ok in E; auto. destruct E as [_ [a [d [Ha [Hd ->]]]]]. split; auto. exists a, d. split; [apply K; exact Ha|]. split; auto.
    unfold multifluid_sum. rewrite sum_over. reflexivity.
  - intros [_ [a [d [Ha [Hd ->]]]]]. apply taudelta_ok; auto. split; auto. exists a, d. split; [apply K; exact Ha|]. split; auto.
    unfold multifluid_sum. rewrite sum_over. reflexivity.
Qed.
(** A model of one component is that component's equation, whatever number is given as its mole fraction. *)
Theorem C58_one : forall m T rho z v, (mf_alphar m T rho [z] = Some (Val v) <->
  exists e, mf_eos m = [e] /\ e (get_Tr (mf_red m) [z] / T) (rho / get_rhor (mf_red m) [z]) = Some (Val v)).
Proof.
  intros m T rho z v. unfold mf_alphar, alphar_taudelta. change (length [z]) with 1%nat.
  destruct (mf_eos m) as [|e [|e2 l]]; cbn [length Nat.eqb negb]; (split; [intros E|intros [e0 [Q E]]]); try discriminate.
  - exists e. auto. - injection Q as ->. exact E.
Qed.
(** A composition of the wrong size throws. *)
Theorem C58_size : forall m T rho x, length x <> length (mf_eos m) -> mf_alphar m T rho x = Some (Err InvalidArgument).
Proof. intros m T rho x H. unfold mf_alphar. destruct (Nat.eqb_spec (length x) (length (mf_eos m))); [contradiction|reflexivity]. Qed.

(** What the parts of a model built from files are. *)
Definition first_EOS (j e : json) : Prop := exists rest, j_at j "EOS" = Val (JArr (e :: rest)).
Definition reducing_state (e : json) (Tc rhoc : R) : Prop :=
  exists s r, j_at e "STATES" = Val s /\ j_at s "reducing" = Val r /\ j_at r "T" = Val (JNum Tc) /\ j_at r "rhomolar" = Val (JNum rhoc).
Definition residual_terms (e : json) (ts : list term) : Prop := exists a, j_at e "alphar" = Val a /\ get_EOS_terms a = Some (Val ts).
(** [d] is the first departure function of the collection [l] with this name *)
Inductive named (name : string) : list json -> json -> Prop :=
| named_here : forall d l, j_at d "Name" = Val (JStr name) -> named name (d :: l) d
| named_later : forall e d l, j_at e "Name" <> Val (JStr name) -> named name l d -> named name (e :: l) d.
Definition departure_terms (D el : json) (ts : list term) : Prop :=
  ((j_contains el "function" = false \/ j_at el "function" = Val (JStr "")) /\ ts = [NullTerm]) \/
  exists name d, j_at el "function" = Val (JStr name) /\ name <> EmptyString /\ named name (j_values D) d /\ build_departure_function d = Some (Val ts).

Lemma cindex_at : forall j k v, cindex j k = ok v <-> j_at j k = Val v.
Proof.
  intros j k v. destruct j; simpl; try (split; discriminate). destruct (lookup k l); split; try discriminate; intros E.
  - injection E as ->. reflexivity. - injection E as ->. reflexivity.
Qed.
Lemma num_at : forall j k v, num j k = ok v <-> j_at j k = Val (JNum v).
Proof.
  intros j k v. unfold num. destruct (j_at j k) as [w|]; [|split; discriminate]. cbn [bind].
  destruct w; try (split; discriminate). split; intros E; injection E as ->; reflexivity.
Qed.
Lemma find_named : forall name l d, find_departure name l = ok d -> named name l d.
Proof.
  intros name l. induction l as [|e l IH]; intros d E; [discriminate|]. simpl in E. apply obind_ok in E. destruct E as [n [En E]].
  apply cindex_at in En.
  assert (OTHER : n <> JStr name -> find_departure name l = ok d -> named name (e :: l) d).
  { intros N Q. apply named_later; [rewrite En; congruence|auto]. }
  destruct n as [| | |s| |]; try (apply OTHER; [discriminate|exact E]).
  destruct (String.eqb_spec s name) as [->|N]; [injection E as <-; apply named_here; auto|apply OTHER; [congruence|exact E]].
Qed.
Lemma departure_inv : forall D B a b flags ts, departure_of D B a b flags = ok ts ->
  exists el s, get_BIPdep B a b flags = Val (el, s) /\ departure_terms D el ts.
Proof.
  intros D B a b flags ts E. unfold departure_of in E. apply obind_ok in E. destruct E as [[el s] [E1 E]]. apply some_ok in E1.
  exists el, s. split; auto. apply obind_ok in E. destruct E as [name [E2 E]].
  assert (N : (name = EmptyString /\ (j_contains el "function" = false \/ j_at el "function" = Val (JStr ""))) \/ j_at el "function" = Val (JStr name)).
  { destruct (j_contains el "function").
    - right. apply some_ok in E2. destruct (j_at el "function") as [w|]; [|discriminate]. cbn [bind] in E2. destruct w; try discriminate. injection E2 as ->. reflexivity.
    - left. injection E2 as <-. auto. }
  destruct (String.eqb_spec name EmptyString) as [->|Ne].
  - injection E as <-. left. split; auto. destruct N as [[_ N]|N]; auto.
  - right. destruct N as [[Q _]|N]; [contradiction|]. destruct (j_empty D); [discriminate|]. apply obind_ok in E. destruct E as [d [E3 E4]].
    exists name, d. split; auto. split; auto. split; auto. apply find_named. auto.
Qed.
Theorem C58_built : forall pures B D flags m, build_multifluid pures B D flags = Some (Val m) ->
  exists b Tc vc ids, mf_red m = GERGreducing b Tc vc /\ length Tc = length pures /\ length vc = length pures /\
  length (mf_eos m) = length pures /\ chosen_identifiers pures B flags ids /\
  (forall i, (i < length pures)%nat -> exists e rhoc ts, first_EOS (nth i pures JNull) e /\
     reducing_state e (nth i Tc 0) rhoc /\ nth i vc 0 = 1 / rhoc /\ residual_terms e ts /\ nth_error (mf_eos m) i = Some (terms_alphar ts)) /\
  (forall i j, (i < j < length pures)%nat -> exists el s ts p,
     get_BIPdep B (nth i ids EmptyString) (nth j ids EmptyString) flags = Val (el, s) /\
     get_binary_interaction_double B (nth i ids EmptyString) (nth j ids EmptyString) flags (nth i Tc 0) (nth j Tc 0) (nth i vc 0) (nth j vc 0) = Val p /\
     m_betaT b i j = b_betaT p /\ m_gammaT b i j = b_gammaT p /\ m_betaV b i j = b_betaV p /\ m_gammaV b i j = b_gammaV p /\
     j_at el "F" = Val (JNum (mf_F m i j)) /\ departure_terms D el ts /\ mf_dep m i j = terms_alphar ts).
Proof.
  intros pures B D flags m E.
  destruct (build_inv _ _ _ _ _ E) as (Tcvc & EOSs & Rvals & ids & F & dep & b & rm & BU).
  destruct BU as [E1 E2 E3 E4 E7 E8 E9 E10 Em].
  assert (Lids : length ids = length pures) by (destruct E4 as [set [key [C1 [C2 C3]]]]; exact (lookup_length _ _ _ _ C1 C3)).
  apply omap_iff in E1, E2. assert (L1 := Forall2_length E1). assert (L2 := Forall2_length E2).
  exists b, (map fst Tcvc), (map snd Tcvc), ids. rewrite Em. cbn [mf_red mf_eos mf_F mf_dep]. rewrite !map_length.
  split; [reflexivity|]. split; [auto|]. split; [auto|]. split; [auto|]. split; [exact E4|]. split.
  - intros i Hi.
    pose proof (proj2 (proj1 (Forall2_nth _ _ _ _ _ JNull (0, 0)) E1) i Hi) as F1. pose proof (proj2 (proj1 (Forall2_nth _ _ _ _ _ JNull []) E2) i Hi) as F2. cbv beta in *.
    unfold get_Tcvc1 in F1. apply obind_ok in F1. destruct F1 as [a [A1 F1]]. apply cindex_at in A1.
    apply obind_ok in F1. destruct F1 as [e [A2 F1]]. destruct a as [| | | |[|e0 rest]|]; try discriminate. injection A2 as ->.
    apply obind_ok in F1. destruct F1 as [s [A3 F1]]. apply cindex_at in A3. apply obind_ok in F1. destruct F1 as [rd [A4 F1]]. apply cindex_at in A4.
    apply obind_ok in F1. destruct F1 as [Tc [A5 F1]]. apply num_at in A5. apply obind_ok in F1. destruct F1 as [rhoc [A6 F1]]. apply num_at in A6.
    assert (F1' : nth i Tcvc (0, 0) = (Tc, 1 / rhoc)) by (injection F1; auto). clear F1.
    unfold get_EOS1 in F2. apply obind_ok in F2. destruct F2 as [a [B1 F2]]. apply cindex_at in B1. rewrite A1 in B1. injection B1 as <-.
    cbn [cindex0 obind ok] in F2. apply obind_ok in F2. destruct F2 as [al [B2 F2]]. apply cindex_at in B2.
    exists e, rhoc, (nth i EOSs []). split; [exists rest; auto|].
    assert (T1 : nth i (map fst Tcvc) 0 = Tc) by (rewrite (map_nth fst Tcvc (0, 0)), F1'; reflexivity).
    assert (T2 : nth i (map snd Tcvc) 0 = 1 / rhoc) by (rewrite (map_nth snd Tcvc (0, 0)), F1'; reflexivity).
    rewrite T1, T2. split; [exists s, rd; auto|]. split; [reflexivity|]. split; [exists al; auto|].
    rewrite nth_error_map, (nth_error_nth' _ []) by lia. reflexivity.
  - intros i j Hij.
    unfold get_F_matrix in E7.
    destruct (map_res (fun '(i, j) => F_of B (nth i ids EmptyString) (nth j ids EmptyString) flags) (pairs (length ids))) as [fs|] eqn:MF; [|discriminate].
    cbn [bind] in E7. injection E7 as <-.
    assert (EF : exists f, F_of B (nth i ids EmptyString) (nth j ids EmptyString) flags = Val f).
    { pose proof (proj1 (map_res_all _ _ _ _) (ex_intro _ fs MF)) as A. apply (A (i, j)). apply in_pairs. lia. }
    destruct EF as [f Ef].
    unfold get_BIP_matrices in E9. cbv zeta in E9.
    destruct (map_res _ (pairs (length ids))) as [ps|] eqn:MB in E9; [|discriminate]. cbn [bind] in E9. injection E9 as <-.
    assert (EP : exists p, get_binary_interaction_double B (nth i ids EmptyString) (nth j ids EmptyString) flags (nth i (map fst Tcvc) 0)
        (nth j (map fst Tcvc) 0) (nth i (map snd Tcvc) 0) (nth j (map snd Tcvc) 0) = Val p).
    { pose proof (proj1 (map_res_all _ _ _ _) (ex_intro _ ps MB)) as A. apply (A (i, j)). apply in_pairs. lia. }
    destruct EP as [p Ep].
    unfold get_departures in E8. apply obind_ok in E8. destruct E8 as [ds [MD E8]].
    assert (ED : exists t, departure_of D B (nth i ids EmptyString) (nth j ids EmptyString) flags = ok t).
    { pose proof (proj1 (omap_all _ _ _ _) (ex_intro _ ds MD)) as A. apply (A (i, j)). apply in_pairs. lia. }
    destruct ED as [ts Ed]. destruct (departure_inv _ _ _ _ _ _ Ed) as [el [s [G1 G2]]].
    exists el, s, ts, p. split; auto. split; auto. cbn [m_betaT m_gammaT m_betaV m_gammaV]. rewrite !fill_up by lia. rewrite Ep, Ef. cbn [value].
    do 4 (split; [reflexivity|]). split.
    { unfold F_of in Ef. rewrite G1 in Ef. cbn [bind] in Ef.
      assert (NE : j_empty el = false).
      { destruct el as [| | | |[|]|[|]]; try reflexivity; unfold get_binary_interaction_double in Ep; rewrite G1 in Ep; discriminate. }
      rewrite NE in Ef. destruct (j_at el "F") as [w|]; [|discriminate]. cbn [bind] in Ef. destruct w; try discriminate. injection Ef as ->. reflexivity. }
    split; auto.
    assert (ED : dep i j = ts); [|rewrite ED; reflexivity].
    apply (f_equal (fun o => match o with Some (Val g) => g i j | _ => [] end)) in E8. simpl in E8. rewrite <- E8.
    destruct (Nat.ltb_spec i j); [|lia]. rewrite Ed. reflexivity.
Qed.

Example C58_built_met : exists m v, build_multifluid two_fluids two_BIP (JArr []) JNull = Some (Val m) /\ mf_alphar m 200 1 [0.5; 0.5] = Some (Val v).
Proof. destruct C28_built_met as [m [E [_ [_ [_ [v V]]]]]]. exists m, v. auto. Qed.
Example departure_terms_met : departure_terms (JArr [JObj [("Name", JStr "KW0"); ("type", JStr "bad")]; JObj [("Name", JStr "KW1"); ("type", JStr "none")]; JObj [("Name", JStr "KW1"); ("type", JStr "bad")]])%string
  (JObj [("function", JStr "KW1")])%string [NullTerm].
Proof.
  right. exists "KW1"%string, (JObj [("Name", JStr "KW1"); ("type", JStr "none")])%string. split; [reflexivity|]. split; [discriminate|]. split; [|reflexivity].
  apply named_later; [simpl; congruence|]. apply named_here. reflexivity.
Qed.

(** ** C59: mutants *)
(** [jj] gives, for the pair (i, j), the parameters and the departure function of the model. *)
Definition repeats (m : multifluid) (b : bips) (jj : json) (i j : nat) : Prop :=
  exists row e bip d ts, j_at jj (str_nat i) = Val row /\ j_at row (str_nat j) = Val e /\ j_at e "BIP" = Val bip /\ j_at e "departure" = Val d /\
    (j_contains bip "type" = false \/ exists s, j_at bip "type" = Val (JStr s) /\ s <> "invariant"%string) /\
    j_at bip "betaT" = Val (JNum (m_betaT b i j)) /\ j_at bip "gammaT" = Val (JNum (m_gammaT b i j)) /\
    j_at bip "betaV" = Val (JNum (m_betaV b i j)) /\ j_at bip "gammaV" = Val (JNum (m_gammaV b i j)) /\
    j_at bip "Fij" = Val (JNum (mf_F m i j)) /\ build_departure_function d = Some (Val ts) /\
    forall tau delta, terms_alphar ts tau delta = mf_dep m i j tau delta.
Lemma mutant_matrix_val : forall jj N key low q, (forall i j, (i < j < N)%nat -> BIP_num jj key i j = Val (q i j)) ->
  exists M, mutant_matrix jj N key low = Val M /\ forall i j, (i < j < N)%nat -> M i j = q i j.
Proof.
  intros jj N key low q H. unfold mutant_matrix.
  assert (A : exists l, map_res (fun '(i, j) => BIP_num jj key i j) (pairs N) = Val l).
  { apply map_res_all. intros [i j] Hij. apply in_pairs in Hij. rewrite H by lia. eauto. }
  destruct A as [l ->]. cbn [bind]. eexists. split; [reflexivity|]. intros i j Hij. rewrite fill_up by lia. rewrite H by lia. reflexivity.
Qed.
Lemma Y_ext : forall z Yc beta Yij beta' Yij', (forall i j, (i < j < length z)%nat -> beta i j = beta' i j /\ Yij i j = Yij' i j) ->
  Y z Yc beta Yij = Y z Yc beta' Yij'.
Proof.
  intros. unfold Y. f_equal. rewrite !sum_over. apply over_ext. intros i j Hij. unfold Y_pair. destruct (H i j Hij) as [-> ->]. reflexivity.
Qed.
Lemma dep_ext : forall N F dep F' dep' tau delta x, (length x <= N)%nat -> (forall i j, (i < j < length x)%nat -> F i j = F' i j /\ dep i j tau delta = dep' i j tau delta) ->
  dep_alphar N F dep tau delta x = dep_alphar N F' dep' tau delta x.
Proof.
  intros N F dep F' dep' tau delta x L H. unfold dep_alphar. destruct (Nat.ltb N (length x)); auto.
  assert (G : forall n f g, (forall i, (i < n)%nat -> f i = g i) -> esum n f = esum n g).
  { induction n; intros f g Q; simpl; auto. rewrite (IHn f g) by auto. rewrite Q by lia. reflexivity. }
  apply G. intros i Hi. apply G. intros j Hj. destruct (Nat.ltb_spec i j); [|reflexivity]. destruct (H i j ltac:(lia)) as [-> ->]. reflexivity.
Qed.
Theorem C59_identity : forall m b Tc vc jj, mf_red m = GERGreducing b Tc vc -> length Tc = length (mf_eos m) -> (1 < length (mf_eos m))%nat ->
  (forall i j, (i < j < length (mf_eos m))%nat -> repeats m b jj i j) ->
  exists m', build_mutant m jj = Some (Val m') /\ mf_R m' = mf_R m /\
  forall T rho x, length x = length (mf_eos m) -> mutant_alphar m' T rho x = mf_alphar m T rho x.
Proof.
  intros m b Tc vc jj ER LT L1 H. unfold build_mutant. rewrite ER. cbn [red_size red_Tc red_vc]. rewrite LT.
  set (N := length (mf_eos m)) in *.
  assert (BN : forall key q, (forall i j, repeats m b jj i j -> (i < j < N)%nat -> exists row e bip, j_at jj (str_nat i) = Val row /\ j_at row (str_nat j) = Val e /\ j_at e "BIP" = Val bip /\ j_at bip key = Val (JNum (q i j))) ->
    forall i j, (i < j < N)%nat -> BIP_num jj key i j = Val (q i j)).
  { intros key q Q i j Hij. destruct (Q i j (H i j Hij) Hij) as [row [e [bip [A [A2 [A3 A4]]]]]]. unfold BIP_num, entry. rewrite A. cbn [bind]. rewrite A2. cbn [bind].
    rewrite A3. cbn [bind]. rewrite A4. reflexivity. }
  assert (MP : forall i j, (i < j < N)%nat -> exists ts, mutant_pair jj i j = ok (mf_F m i j, ts) /\ forall tau delta, terms_alphar ts tau delta = mf_dep m i j tau delta).
  { intros i j Hij. destruct (H i j Hij) as (row & e & bip & d & ts & A1 & A2 & A3 & A4 & A5 & A6 & A7 & A8 & A9 & A10 & A11 & A12).
    exists ts. split; auto. unfold mutant_pair. apply cindex_at in A1, A2. rewrite A1. cbn [obind ok]. rewrite A2. cbn [obind ok]. rewrite A4. cbn [obind].
    rewrite A3. cbn [obind]. apply num_at in A10. rewrite A10. cbn [obind ok]. rewrite A11. reflexivity. }
  assert (OM : exists l, omap (fun '(i, j) => mutant_pair jj i j) (pairs N) = ok l).
  { apply omap_all. intros [i j] Hij. apply in_pairs in Hij. destruct (MP i j ltac:(lia)) as [ts [-> _]]. eauto. }
  destruct OM as [l ->]. cbn [obind ok].
  assert (TY : exists s, bind (entry jj 0 1) (fun e => bind (j_at e "BIP") (fun b0 => if j_contains b0 "type" then bind (j_at b0 "type") j_string else Val EmptyString)) = Val s /\ s <> "invariant"%string).
  { destruct (H 0%nat 1%nat ltac:(lia)) as (row & e & bip & d & ts & A1 & A2 & A3 & A4 & A5 & _). unfold entry. rewrite A1. cbn [bind]. rewrite A2. cbn [bind]. rewrite A3. cbn [bind].
    destruct A5 as [->|[s [A5 N5]]]; [exists EmptyString; split; [reflexivity|discriminate]|].
    rewrite (contains_at _ _ _ A5), A5. exists s. auto. }
  destruct TY as [ty [-> NT]]. cbn [obind].
  destruct (mutant_matrix_val jj N "betaT" (fun x => 1 / x) (m_betaT b)) as [bT [M1 HbT]].
  { apply BN. intros i j (row & e & bip & d & ts & A1 & A2 & A3 & A4 & A5 & A6 & A7 & A8 & A9 & _) _. exists row, e, bip. auto. }
  destruct (mutant_matrix_val jj N "betaV" (fun x => 1 / x) (m_betaV b)) as [bV [M2 HbV]].
  { apply BN. intros i j (row & e & bip & d & ts & A1 & A2 & A3 & A4 & A5 & A6 & A7 & A8 & A9 & _) _. exists row, e, bip. auto. }
  destruct (mutant_matrix_val jj N "gammaT" (fun x => x) (m_gammaT b)) as [gT [M3 HgT]].
  { apply BN. intros i j (row & e & bip & d & ts & A1 & A2 & A3 & A4 & A5 & A6 & A7 & A8 & A9 & _) _. exists row, e, bip. auto. }
  destruct (mutant_matrix_val jj N "gammaV" (fun x => x) (m_gammaV b)) as [gV [M4 HgV]].
  { apply BN. intros i j (row & e & bip & d & ts & A1 & A2 & A3 & A4 & A5 & A6 & A7 & A8 & A9 & _) _. exists row, e, bip. auto. }
  unfold mutant_reducing. destruct (String.eqb_spec ty "invariant"); [contradiction|].
  rewrite M1. cbn [bind]. rewrite M2. cbn [bind]. rewrite M3. cbn [bind]. rewrite M4. cbn [bind obind].
  eexists. split; [reflexivity|]. split; [reflexivity|]. intros T rho x Lx.
  unfold mutant_alphar, mf_alphar. cbn [mf_red mf_eos mf_F mf_dep red_size]. rewrite LT, Lx, Nat.ltb_irrefl. fold N. rewrite Nat.eqb_refl. cbn [negb].
  unfold alphar_taudelta. fold N. rewrite Lx. rewrite Nat.eqb_refl. cbn [negb]. destruct (Nat.eqb_spec N 1); [lia|].
  rewrite ER. unfold get_Tr, get_rhor. cbn [m_betaT m_gammaT m_betaV m_gammaV].
  rewrite (Y_ext x Tc bT (YT {| m_betaT := bT; m_gammaT := gT; m_betaV := bV; m_gammaV := gV |} Tc) (m_betaT b) (YT b Tc)).
  2:{ intros i j Hij. rewrite HbT by lia. split; auto. rewrite !YT_form by lia. cbn [m_betaT m_gammaT]. rewrite HbT, HgT by lia. reflexivity. }
  rewrite (Y_ext x vc bV (Yv {| m_betaT := bT; m_gammaT := gT; m_betaV := bV; m_gammaV := gV |} vc) (m_betaV b) (Yv b vc)).
  2:{ intros i j Hij. rewrite HbV by lia. split; auto. rewrite !Yv_form by lia. cbn [m_betaV m_gammaV]. rewrite HbV, HgV by lia. reflexivity. }
  destruct (corr_alphar (mf_eos m) (Y x Tc (m_betaT b) (YT b Tc) / T) (rho / (1 / Y x vc (m_betaV b) (Yv b vc))) x) as [[a|]|]; try reflexivity. cbn [obind].
  rewrite (dep_ext N (fill 0 (fun i j => fst match mutant_pair jj i j with Some (Val p) => p | _ => (0, []) end) (fun f => f))
    (fun i j => terms_alphar (if Nat.ltb i j then snd match mutant_pair jj i j with Some (Val p) => p | _ => (0, []) end else if Nat.ltb j i then snd match mutant_pair jj j i with Some (Val p) => p | _ => (0, []) end else [NullTerm]))
    (mf_F m) (mf_dep m)); [reflexivity|lia|].
  intros i j Hij. destruct (MP i j ltac:(lia)) as [ts [MPe Hts]]. rewrite fill_up by lia. rewrite MPe. split; [reflexivity|].
  destruct (Nat.ltb_spec i j); [|lia]. apply Hts.
Qed.
Definition same_parameters := JObj [("0", JObj [("1", JObj [("BIP", JObj [("betaT", JNum (1 / 2)); ("gammaT", JNum 3); ("betaV", JNum (1 / 4)); ("gammaV", JNum 5); ("Fij", JNum 0)]);
  ("departure", JObj [("type", JStr "none")])])])]%string.
Example C59_identity_met : exists m b Tc vc, build_multifluid two_fluids two_BIP (JArr []) JNull = Some (Val m) /\ mf_red m = GERGreducing b Tc vc /\
  length Tc = length (mf_eos m) /\ (1 < length (mf_eos m))%nat /\ forall i j, (i < j < length (mf_eos m))%nat -> repeats m b same_parameters i j.
Proof.
  do 4 eexists. split; [reflexivity|]. split; [reflexivity|]. split; [reflexivity|]. split; [simpl; lia|]. intros i j Hij. simpl in Hij.
  assert (i = 0%nat /\ j = 1%nat) as [-> ->] by lia. do 5 eexists. do 4 (split; [reflexivity|]). split; [left; reflexivity|].
  do 6 (split; [reflexivity|]). intros. reflexivity.
Qed.

(** Changing the parameters of one pair does not matter where one of its two components is absent. *)
Lemma Y_pair_absent : forall z beta Yij p q, nth p z 0 = 0 \/ nth q z 0 = 0 -> (beta p q = 0 -> Yij p q = 0) -> Y_pair z beta Yij p q = 0.
Proof.
  intros z beta Yij p q H B. unfold Y_pair. destruct (Req_EM_T _ 0) as [Q|Q].
  - destruct H as [H|H]; rewrite H in *; [ring|]. assert (Z0 : beta p q * beta p q * nth p z 0 = 0) by lra.
    apply Rmult_integral in Z0. destruct Z0 as [Z0|Z0]; [|rewrite Z0; ring]. rewrite B by (apply Rmult_integral in Z0; tauto). ring.
  - unfold Rdiv. destruct H as [-> | ->]; ring.
Qed.
Lemma Y_local : forall z Yc beta Yij beta' Yij' p q, nth p z 0 = 0 \/ nth q z 0 = 0 ->
  (forall i j, (i < j < length z)%nat -> (i, j) <> (p, q) -> beta i j = beta' i j /\ Yij i j = Yij' i j) ->
  (forall i j, (i < j < length z)%nat -> (beta i j = 0 -> Yij i j = 0) /\ (beta' i j = 0 -> Yij' i j = 0)) ->
  Y z Yc beta Yij = Y z Yc beta' Yij'.
Proof.
  intros z Yc beta Yij beta' Yij' p q Z H B. unfold Y. f_equal. rewrite !sum_over. apply over_ext. intros i j Hij.
  destruct (B i j Hij) as [B1 B2].
  assert (D : (i, j) = (p, q) \/ (i, j) <> (p, q)).
  { destruct (Nat.eq_dec i p) as [->|]; [destruct (Nat.eq_dec j q) as [->|]; [auto|]|]; right; congruence. }
  destruct D as [D|D].
  - injection D as -> ->. rewrite !Y_pair_absent; auto.
  - unfold Y_pair. destruct (H i j Hij D) as [-> ->]. reflexivity.
Qed.
Definition default_reducing (m : multifluid) : Prop := exists b Tc vc, mf_red m = GERGreducing b Tc vc.
Lemma mutant_inv : forall base jj m, build_mutant base jj = Some (Val m) -> default_reducing m ->
  let N := red_size (mf_red base) in
  exists b, mf_red m = GERGreducing b (red_Tc (mf_red base)) (red_vc (mf_red base)) /\ mf_eos m = mf_eos base /\
  forall i j, (i < j < N)%nat ->
    m_betaT b i j = value 0 (BIP_num jj "betaT" i j) /\ m_gammaT b i j = value 0 (BIP_num jj "gammaT" i j) /\
    m_betaV b i j = value 0 (BIP_num jj "betaV" i j) /\ m_gammaV b i j = value 0 (BIP_num jj "gammaV" i j) /\
    exists t, mutant_pair jj i j = ok (mf_F m i j, t) /\ mf_dep m i j = terms_alphar t.
Proof.
  intros base jj m E [b0 [Tc0 [vc0 DR]]] N. unfold build_mutant in E. cbv zeta in E. fold N in E. apply obind_ok in E. destruct E as [l [E1 E]].
  apply obind_ok in E. destruct E as [ty [_ E]]. apply obind_ok in E. destruct E as [red [E3 E]]. apply some_ok in E3.
  injection E as <-. cbn [mf_red mf_eos mf_F mf_dep] in *. subst red. unfold mutant_reducing in E3.
  assert (MM : forall key low M, mutant_matrix jj N key low = Val M -> forall i j, (i < j < N)%nat -> M i j = value 0 (BIP_num jj key i j)).
  { intros key low M Q i j Hij. unfold mutant_matrix in Q. destruct (map_res _ _); [|discriminate]. cbn [bind] in Q. injection Q as <-. rewrite fill_up by lia. reflexivity. }
  destruct (String.eqb ty "invariant").
  { destruct (mutant_matrix jj N "phiT" _); [|discriminate]. cbn [bind] in E3. destruct (mutant_matrix jj N "lambdaT" _); [|discriminate]. cbn [bind] in E3.
    destruct (mutant_matrix jj N "phiV" _); [|discriminate]. cbn [bind] in E3. destruct (mutant_matrix jj N "lambdaV" _); discriminate. }
  destruct (mutant_matrix jj N "betaT" _) as [bT|] eqn:M1; [|discriminate]. cbn [bind] in E3.
  destruct (mutant_matrix jj N "betaV" _) as [bV|] eqn:M2; [|discriminate]. cbn [bind] in E3.
  destruct (mutant_matrix jj N "gammaT" _) as [gT|] eqn:M3; [|discriminate]. cbn [bind] in E3.
  destruct (mutant_matrix jj N "gammaV" _) as [gV|] eqn:M4; [|discriminate]. cbn [bind] in E3.
  assert (E4 : GERGreducing {| m_betaT := bT; m_gammaT := gT; m_betaV := bV; m_gammaV := gV |} (red_Tc (mf_red base)) (red_vc (mf_red base)) = GERGreducing b0 Tc0 vc0) by congruence.
  rewrite <- E4. eexists. split; [reflexivity|]. split; [reflexivity|]. intros i j Hij. cbn [m_betaT m_gammaT m_betaV m_gammaV].
  split; [eapply MM; eauto|]. split; [eapply MM; eauto|]. split; [eapply MM; eauto|]. split; [eapply MM; eauto|].
  assert (PM : exists p, mutant_pair jj i j = ok p).
  { pose proof (proj1 (omap_all _ _ _ _) (ex_intro _ l E1)) as A. apply (A (i, j)). apply in_pairs. lia. }
  destruct PM as [[F t] PM]. exists t. rewrite fill_up by lia. rewrite PM. split; [reflexivity|]. destruct (Nat.ltb_spec i j); [|lia]. reflexivity.
Qed.
Theorem C59_local : forall base jj jj' m m' p q T rho x v v',
  build_mutant base jj = Some (Val m) -> build_mutant base jj' = Some (Val m') -> default_reducing m -> default_reducing m' ->
  length x = red_size (mf_red base) -> (forall i j, (i < j < length x)%nat -> (i, j) <> (p, q) -> entry jj i j = entry jj' i j) ->
  length (red_vc (mf_red base)) = length x ->
  nth p x 0 = 0 \/ nth q x 0 = 0 ->
  mutant_alphar m T rho x = Some (Val v) -> mutant_alphar m' T rho x = Some (Val v') -> v = v'.
Proof.
  intros base jj jj' m m' p q T rho x v v' B1 B2 D1 D2 Lx H Lv Z E1 E2.
  destruct (mutant_inv _ _ _ B1 D1) as [b [R1 [S1 P1]]]. destruct (mutant_inv _ _ _ B2 D2) as [b' [R2 [S2 P2]]]. rewrite <- Lx in P1, P2.
  assert (LT : length (red_Tc (mf_red base)) = length x) by (rewrite Lx; destruct (mf_red base); reflexivity).
  set (Tc := red_Tc (mf_red base)) in *. set (vc := red_vc (mf_red base)) in *.
  assert (BN : forall key i j, (i < j < length x)%nat -> (i, j) <> (p, q) -> BIP_num jj key i j = BIP_num jj' key i j).
  { intros. unfold BIP_num. rewrite (H i j) by auto. reflexivity. }
  assert (PQ : forall i j, (i < j < length x)%nat -> (i, j) <> (p, q) -> mf_F m i j = mf_F m' i j /\ mf_dep m i j = mf_dep m' i j).
  { intros i j Hij Nij. destruct (P1 i j Hij) as (_ & _ & _ & _ & t1 & Q1 & D1'). destruct (P2 i j Hij) as (_ & _ & _ & _ & t2 & Q2 & D2').
    assert (MP : forall jq F t, mutant_pair jq i j = ok (F, t) -> exists e, entry jq i j = Val e /\
      ok (F, t) = obind (Some (j_at e "departure")) (fun d => obind (Some (j_at e "BIP")) (fun b => obind (num b "Fij") (fun F => obind (build_departure_function d) (fun t => ok (F, t)))))).
    { intros jq F t Q. unfold mutant_pair in Q. apply obind_ok in Q. destruct Q as [r [Q3 Q]]. apply obind_ok in Q. destruct Q as [e [Q4 Q]].
      apply cindex_at in Q3, Q4. exists e. unfold entry. rewrite Q3. cbn [bind]. split; auto. }
    destruct (MP _ _ _ Q1) as [e1 [X1 Y1]]. destruct (MP _ _ _ Q2) as [e2 [X2 Y2]]. rewrite (H i j Hij Nij), X2 in X1. injection X1 as <-.
    rewrite <- Y2 in Y1. injection Y1 as Y3 Y4. rewrite D1', D2', Y3, Y4. auto. }
  assert (YTE : Y x Tc (m_betaT b) (YT b Tc) = Y x Tc (m_betaT b') (YT b' Tc)).
  { apply (Y_local _ _ _ _ _ _ p q Z).
    - intros i j Hij Nij. destruct (P1 i j Hij) as (A1 & A2 & _). destruct (P2 i j Hij) as (A1' & A2' & _).
      rewrite A1, A1'. split; [f_equal; auto|]. rewrite !YT_form by lia. rewrite A1, A1', A2, A2', (BN "betaT"%string i j), (BN "gammaT"%string i j) by auto. reflexivity.
    - intros i j Hij. rewrite !YT_form by lia. split; intros ->; ring. }
  assert (YVE : Y x vc (m_betaV b) (Yv b vc) = Y x vc (m_betaV b') (Yv b' vc)).
  { apply (Y_local _ _ _ _ _ _ p q Z).
    - intros i j Hij Nij. destruct (P1 i j Hij) as (_ & _ & A1 & A2 & _). destruct (P2 i j Hij) as (_ & _ & A1' & A2' & _).
      rewrite A1, A1'. split; [f_equal; auto|]. rewrite !Yv_form by lia. rewrite A1, A1', A2, A2', (BN "betaV"%string i j), (BN "gammaV"%string i j) by auto. reflexivity.
    - intros i j Hij. rewrite !Yv_form by lia. split; intros ->; unfold Rdiv; ring. }
  unfold mutant_alphar in E1, E2. rewrite R1 in E1. rewrite R2 in E2. cbn [red_size] in E1, E2. rewrite LT, Nat.ltb_irrefl in E1, E2.
  unfold get_Tr, get_rhor in E1, E2. rewrite YTE, YVE in E1. rewrite S1 in E1. rewrite S2 in E2.
  set (tau := Y x Tc (m_betaT b') (YT b' Tc) / T) in *. set (delta := rho / (1 / Y x vc (m_betaV b') (Yv b' vc))) in *.
  apply obind_ok in E1. destruct E1 as [a [C1 E1]]. apply obind_ok in E2. destruct E2 as [a' [C2 E2]]. rewrite C1 in C2. injection C2 as <-.
  apply obind_ok in E1. destruct E1 as [d [C3 E1]]. apply obind_ok in E2. destruct E2 as [d' [C4 E2]].
  apply dep_ok in C3; [|lia]. apply dep_ok in C4; [|lia]. destruct C3 as [f [F1 ->]]. destruct C4 as [f' [F2 ->]].
  assert (SE : sum_pairs (length x) (fun i j => nth i x 0 * nth j x 0 * mf_F m i j * f i j) = sum_pairs (length x) (fun i j => nth i x 0 * nth j x 0 * mf_F m' i j * f' i j)).
  { rewrite !sum_over. apply over_ext. intros i j Hij.
    assert (D : (i, j) = (p, q) \/ (i, j) <> (p, q)).
    { destruct (Nat.eq_dec i p) as [->|]; [destruct (Nat.eq_dec j q) as [->|]; [auto|]|]; right; congruence. }
    destruct D as [D|D].
    - injection D as -> ->. destruct Z as [-> | ->]; ring.
    - destruct (PQ i j Hij D) as [QF QD]. rewrite QF. assert (G1 := F1 i j Hij). rewrite QD, (F2 i j Hij) in G1. injection G1 as ->. reflexivity. }
  rewrite SE in E1. injection E1 as <-; injection E2 as <-; reflexivity.
Qed.
Definition other_parameters := JObj [("0", JObj [("1", JObj [("BIP", JObj [("betaT", JNum 7); ("gammaT", JNum 3); ("betaV", JNum 6); ("gammaV", JNum 5); ("Fij", JNum 2)]);
  ("departure", JObj [("type", JStr "none")])])])]%string.
Example C59_local_met : exists base m m', build_multifluid two_fluids two_BIP (JArr []) JNull = Some (Val base) /\
  build_mutant base same_parameters = Some (Val m) /\ build_mutant base other_parameters = Some (Val m') /\ default_reducing m /\ default_reducing m' /\
  exists v, mutant_alphar m 200 1 [1; 0] = Some (Val v) /\ mutant_alphar m' 200 1 [1; 0] = Some (Val v).
Proof.
  assert (B : exists base m m', build_multifluid two_fluids two_BIP (JArr []) JNull = Some (Val base) /\
    build_mutant base same_parameters = Some (Val m) /\ build_mutant base other_parameters = Some (Val m') /\
    default_reducing m /\ default_reducing m' /\ mf_eos base = map terms_alphar [[Gaussian [1] [1] [1] [1] [1] [1] [1]]; [Gaussian [2] [1] [1] [1] [1] [1] [1]]]).
  { do 3 eexists. do 3 (split; [reflexivity|]). split; [do 3 eexists; reflexivity|]. split; [do 3 eexists; reflexivity|]. reflexivity. }
  destruct B as (base & m & m' & E1 & E2 & E3 & D1 & D2 & EE). exists base, m, m'. repeat (split; [assumption|]).
  destruct (mutant_inv _ _ _ E2 D1) as [b [R1 [S1 P1]]]. destruct (mutant_inv _ _ _ E3 D2) as [b' [R2 [S2 P2]]].
  assert (N2 : red_size (mf_red base) = 2%nat) by (injection E1 as <-; reflexivity).
  assert (LT : length (red_Tc (mf_red base)) = 2%nat) by (injection E1 as <-; reflexivity).
  assert (LV : length (red_vc (mf_red base)) = 2%nat) by (injection E1 as <-; reflexivity).
  assert (G : forall mm jj bb, mf_red mm = GERGreducing bb (red_Tc (mf_red base)) (red_vc (mf_red base)) -> mf_eos mm = mf_eos base ->
     (forall tau delta, mf_dep mm 0 1 tau delta = ok (0 + 0)) -> jj = jj :> json -> exists v, mutant_alphar mm 200 1 [1; 0] = Some (Val v)).
  { intros mm jj bb Rr Se Dd _. unfold mutant_alphar. rewrite Rr, Se, EE. cbn [red_size]. rewrite LT. cbn [Nat.ltb Nat.leb length].
    set (tau := _ / 200). set (delta := 1 / _). destruct (one_gaussian 1 tau delta) as [v1 V1]. destruct (one_gaussian 2 tau delta) as [v2 V2].
    cbn [map].
    assert (C : corr_alphar [terms_alphar [Gaussian [1] [1] [1] [1] [1] [1] [1]]; terms_alphar [Gaussian [2] [1] [1] [1] [1] [1] [1]]] tau delta [1; 0] = ok (sumn (length [1; 0]) (fun i => nth i [1; 0] 0 * nth i [v1; v2] 0))).
    { apply corr_ok. exists (fun i => nth i [v1; v2] 0). split; [|reflexivity]. intros [|[|i]] Hi; simpl in Hi; try lia; unfold corr_alphari; cbn [nth_error nth]; assumption. }
    rewrite C. cbn [obind ok].
    assert (C2 : dep_alphar 2 (mf_F mm) (mf_dep mm) tau delta [1; 0] = ok (sum_pairs (length [1; 0]) (fun i j => nth i [1; 0] 0 * nth j [1; 0] 0 * mf_F mm i j * (0 + 0)))).
    { apply dep_ok; [simpl; lia|]. exists (fun _ _ => 0 + 0). split; [|reflexivity]. intros i j Hij. simpl in Hij. assert (i = 0%nat /\ j = 1%nat) as [-> ->] by lia. apply Dd. }
    rewrite C2. eexists. reflexivity. }
  assert (DD1 : forall tau delta, mf_dep m 0 1 tau delta = ok (0 + 0)).
  { destruct (P1 0%nat 1%nat ltac:(rewrite N2; lia)) as (_ & _ & _ & _ & t & Q & ->).
    apply (f_equal (fun o => match o with Some (Val p) => snd p | _ => [] end)) in Q. cbn [snd ok] in Q. rewrite <- Q. reflexivity. }
  assert (DD2 : forall tau delta, mf_dep m' 0 1 tau delta = ok (0 + 0)).
  { destruct (P2 0%nat 1%nat ltac:(rewrite N2; lia)) as (_ & _ & _ & _ & t & Q & ->).
    apply (f_equal (fun o => match o with Some (Val p) => snd p | _ => [] end)) in Q. cbn [snd ok] in Q. rewrite <- Q. reflexivity. }
  destruct (G m JNull b R1 S1 DD1 eq_refl) as [v V]. destruct (G m' JNull b' R2 S2 DD2 eq_refl) as [v' V'].
  exists v. split; auto. rewrite (C59_local base same_parameters other_parameters m m' 0 1 200 1 [1; 0] v v'); auto.
  intros i j Hij Nij. simpl in Hij. exfalso. apply Nij. f_equal; lia.
Qed.

(** The departure function of a pair, in either order of the two components. *)
Theorem C58_departure_function : forall pures B D flags m i j tau delta, build_multifluid pures B D flags = Some (Val m) ->
  ((i < length pures)%nat -> (j < length pures)%nat -> get_alpharij m i j tau delta = mf_dep m i j tau delta /\
     get_alpharij m i j tau delta = get_alpharij m j i tau delta) /\
  ((length pures <= i)%nat \/ (length pures <= j)%nat -> get_alpharij m i j tau delta = Some (Err InvalidArgument)).
Proof.
  intros pures B D flags m i j tau delta E.
  assert (L : length (mf_eos m) = length pures /\ (forall i j, mf_dep m i j = mf_dep m j i)).
  { unfold build_multifluid in E.
    destruct (omap get_Tcvc1 pures) as [[Tcvc|]|] eqn:E1; try discriminate. cbn [obind] in E.
    destruct (omap get_EOS1 pures) as [[EOSs|]|] eqn:E2; try discriminate. cbn [obind] in E.
    destruct (omap get_R1 pures) as [[Rvals|]|] eqn:E3; try discriminate. cbn [obind] in E.
    destruct (collect_identifiers pures) as [set|] eqn:E4; try discriminate. cbn [obind] in E.
    destruct (select_identifier B set flags) as [key|] eqn:E5; try discriminate. cbn [obind] in E. cbv zeta in E.
    destruct (get_F_matrix B _ flags) as [F|] eqn:E6; try discriminate. cbn [obind] in E.
    destruct (get_departures D B _ flags) as [[dep|]|] eqn:E7; try discriminate. cbn [obind] in E.
    destruct (get_BIP_matrices B _ flags _ _) as [b|] eqn:E8; try discriminate. cbn [obind] in E.
    destruct (if j_contains flags "Rmodel" then _ else _) as [[rm|]|] eqn:E9; try discriminate. cbn [obind] in E.
    injection E as <-. cbn [mf_eos mf_dep]. split.
    - rewrite map_length. apply omap_iff in E2. symmetry. exact (Forall2_length E2).
    - intros a b'. f_equal. unfold get_departures in E7. cbv zeta in E7.
      destruct (omap _ _) as [[l|]|] in E7; try discriminate. cbn [obind] in E7. injection E7 as <-.
      destruct (Nat.lt_trichotomy a b') as [H|[->|H]]; [| reflexivity |];
      assert (H' : Nat.ltb a b' = negb (Nat.ltb b' a)) by (destruct (Nat.ltb_spec a b'), (Nat.ltb_spec b' a); auto; lia);
      rewrite H'; apply Nat.ltb_lt in H; destruct (Nat.ltb b' a); cbn [negb]; try reflexivity. }
  destruct L as [L S]. unfold get_alpharij. rewrite L. split.
  - intros Hi Hj. apply Nat.leb_gt in Hi, Hj. rewrite Hi, Hj. cbn [orb]. now rewrite S.
  - intros [H|H]; apply Nat.leb_le in H; rewrite H; [reflexivity|now rewrite orb_true_r].
Qed.
Example C58_departure_function_met : exists m, build_multifluid two_fluids two_BIP (JArr []) JNull = Some (Val m).
Proof. eexists. reflexivity. Qed.
(** Loading by name: the interaction parameters and departure functions come from the
    files given (for two or more components; a single one needs none). *)
Theorem C58_files : forall fs fluids fld components root BIPpath flags departurepath m,
  build_multifluid_model fs fluids fld components root BIPpath flags departurepath = Some (Val m) ->
  exists pures B D, make_pure_components_JSON fs fluids fld (JArr (map JStr components)) (Some root) = Val pures /\
    build_multifluid pures B D flags = Some (Val m) /\
    ((2 <= length components)%nat ->
       multilevel_JSON_load fs (JStr BIPpath) (Some (root ++ "/dev/mixtures/mixture_binary_pairs.json")%string) = Val B /\
       multilevel_JSON_load fs (JStr departurepath) (Some (root ++ "/dev/mixtures/mixture_departure_functions.json")%string) = Val D).
Proof.
  intros fs fluids fld components root BIPpath flags departurepath m E. unfold build_multifluid_model in E.
  destruct (Nat.ltb_spec 1 (length components)) as [H|H].
  - destruct (multilevel_JSON_load fs (JStr BIPpath) _) as [B|] eqn:EB; [|discriminate]. cbn [bind] in E.
    destruct (multilevel_JSON_load fs (JStr departurepath) _) as [D|] eqn:ED; [|discriminate]. cbn [bind obind] in E.
    destruct (make_pure_components_JSON fs fluids fld _ _) as [pures|] eqn:EP; [|discriminate]. cbn [obind] in E.
    exists pures, B, D. auto.
  - cbn [obind] in E. destruct (make_pure_components_JSON fs fluids fld _ _) as [pures|] eqn:EP; [|discriminate]. cbn [obind] in E.
    exists pures, (JArr []), (JArr []). split; [reflexivity|split; [exact E|lia]].
Qed.
(** The invariant reducing function of a binary mutant, from the numbers in its file. *)
Lemma cbrt3 : forall x, cbrt x ^ 3 = x.
Proof.
  intros x. destruct (Rtotal_order x 0) as [H|[->|H]].
  - assert (E : cbrt x = - cbrt (- x)).
    { unfold cbrt. destruct (Rlt_dec 0 x); [lra|]. destruct (Rlt_dec x 0); [|lra]. destruct (Rlt_dec 0 (- x)); [reflexivity|lra]. }
    rewrite E. replace ((- cbrt (- x)) ^ 3) with (- (cbrt (- x) ^ 3)) by ring. rewrite (proj1 (cbrt_cube (- x) ltac:(lra))). ring.
  - unfold cbrt. destruct (Rlt_dec 0 0); [lra|]. ring.
  - apply cbrt_cube. lra.
Qed.
Lemma cbrt0 : cbrt 0 = 0.
Proof. unfold cbrt. destruct (Rlt_dec 0 0); [lra|]. reflexivity. Qed.
Theorem C59_invariant_binary : forall jj T0 T1 v0 v1 red phiT lambdaT phiV lambdaV x0 x1,
  BIP_num jj "phiT" 0 1 = Val phiT -> BIP_num jj "lambdaT" 0 1 = Val lambdaT ->
  BIP_num jj "phiV" 0 1 = Val phiV -> BIP_num jj "lambdaV" 0 1 = Val lambdaV ->
  mutant_reducing jj 2 "invariant" [T0; T1] [v0; v1] = Val red -> 0 < v0 -> 0 < v1 ->
  get_Tr red [x0; x1] = sqrt (T0 * T1) * (2 * phiT * x0 * x1 + lambdaT * x0 * x1 * (x1 ^ 2 - x0 ^ 2)) /\
  get_rhor red [x0; x1] = 1 / (cubic_mean [v0; v1] 0 1 * (2 * phiV * x0 * x1 + lambdaV * x0 * x1 * (x1 ^ 2 - x0 ^ 2))).
Proof.
  intros jj T0 T1 v0 v1 red phiT lambdaT phiV lambdaV x0 x1 A1 A2 A3 A4 E V0 V1.
  unfold mutant_reducing in E. simpl String.eqb in E. cbv iota in E. unfold mutant_matrix in E.
  cbn [pairs seq map concat app Nat.sub map_res length] in E. rewrite A1, A2, A3, A4 in E. cbn [bind] in E. injection E as <-.
  assert (G : forall phi lam Yij, Yij 0%nat 1%nat = Yij 1%nat 0%nat -> forall key1 key2, BIP_num jj key1 0 1 = Val phi -> BIP_num jj key2 0 1 = Val lam ->
    invY [x0; x1] (fill 0 (fun i j => value 0 (BIP_num jj key1 i j)) (fun x => x)) (fill 0 (fun i j => value 0 (BIP_num jj key2 i j)) Ropp) Yij =
    Yij 0%nat 1%nat * (2 * phi * x0 * x1 + lam * x0 * x1 * (x1 ^ 2 - x0 ^ 2))).
  { intros phi lam Yij Sy key1 key2 K1 K2. unfold invY, fill. cbn [length sumn nth Nat.ltb Nat.leb]. rewrite K1, K2. cbn [value].
    rewrite cbrt0, <- Sy.
    replace (x0 * (0 + x0 * 0 * Yij 0%nat 0%nat + x1 * phi * Yij 0%nat 1%nat + (0 + x0 * 0 * cbrt (Yij 0%nat 0%nat) + x1 * cbrt lam * cbrt (Yij 0%nat 1%nat)) ^ 3))
      with (x0 * (x1 * phi * Yij 0%nat 1%nat + x1 ^ 3 * cbrt lam ^ 3 * cbrt (Yij 0%nat 1%nat) ^ 3)) by ring.
    replace (x1 * (0 + x0 * phi * Yij 0%nat 1%nat + x1 * 0 * Yij 1%nat 1%nat + (0 + x0 * cbrt (- lam) * cbrt (Yij 0%nat 1%nat) + x1 * 0 * cbrt (Yij 1%nat 1%nat)) ^ 3))
      with (x1 * (x0 * phi * Yij 0%nat 1%nat + x0 ^ 3 * cbrt (- lam) ^ 3 * cbrt (Yij 0%nat 1%nat) ^ 3)) by ring.
    rewrite !cbrt3. ring. }
  unfold get_Tr, get_rhor. split.
  - rewrite (G phiT lambdaT) by (auto; unfold invYT; cbn [nth]; f_equal; ring). reflexivity.
  - rewrite (G phiV lambdaV) by (auto; unfold invYv; cbn [nth]; ring). unfold invYv, cubic_mean, cbrt. cbn [nth].
    destruct (Rlt_dec 0 v0); [|lra]. destruct (Rlt_dec 0 v1); [|lra]. reflexivity.
Qed.
Definition invariant_json := JObj [("0", JObj [("1", JObj [("BIP", JObj [("type", JStr "invariant"); ("phiT", JNum 2); ("lambdaT", JNum 3); ("phiV", JNum 4); ("lambdaV", JNum 5); ("Fij", JNum 0)]); ("departure", JObj [("type", JStr "none")])])])]%string.
Example C59_invariant_binary_met : BIP_num invariant_json "phiT" 0 1 = Val 2 /\ BIP_num invariant_json "lambdaT" 0 1 = Val 3 /\
  BIP_num invariant_json "phiV" 0 1 = Val 4 /\ BIP_num invariant_json "lambdaV" 0 1 = Val 5 /\
  exists red, mutant_reducing invariant_json 2 "invariant" [100; 200] [1; 2] = Val red.
Proof. repeat (split; [reflexivity|]). eexists. reflexivity. Qed.
Example C58_files_met :
  let fs := {| fs_is_file := fun p => String.eqb p "/m.json" || String.eqb p "/e.json" || String.eqb p "/b.json" || String.eqb p "/d.json";
    fs_is_file_throws := fun _ => false; fs_open := fun p => Some p;
    fs_parse := fun p => if String.eqb p "/m.json" then Some (fluid "Methane" "74-82-8" 190 10 1) else if String.eqb p "/e.json" then Some (fluid "Ethane" "74-84-0" 305 7 2)
      else if String.eqb p "/b.json" then Some two_BIP else if String.eqb p "/d.json" then Some (JArr []) else None |} in
  let fluids := fun _ => Val ["/m.json"; "/e.json"]%string in
  exists m, build_multifluid_model fs fluids (fun _ => Err JsonError) ["Methane"; "74-84-0"]%string "/root" "/b.json" JNull "/d.json" = Some (Val m).
Proof. intros fs fluids. eexists. reflexivity. Qed.
Print Assumptions C58_reducing.
Print Assumptions C58_value.
Print Assumptions C58_one.
Print Assumptions C58_size.
Print Assumptions C58_built.
Print Assumptions C59_identity.
Print Assumptions C59_local.
Print Assumptions C58_departure_function.
Print Assumptions C58_files.
Print Assumptions C59_invariant_binary.
