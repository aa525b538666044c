(** C67: the PC-SAFT mixture is the one the JSON describes. *)
From Coq Require Import Reals ZArith String List Bool Lra Lia.
From Verif Require Import Util_model Json_model Util_proofs Multi_proofs2 Cubic_model Cubic_spec Vec_spec Vec_proofs PCSAFT_model PCSAFT_spec PCSAFT_proofs2.
Import ListNotations.
Open Scope R_scope.

Lemma jnumber_iff : forall o k v, jnumber (JObj o) k = Val v <-> lookup k o = Some (JNum v).
Proof.
  intros o k v. unfold jnumber, j_at. destruct (lookup k o) as [j|]; cbn [bind].
  - destruct j; cbn [j_double]; split; intros H; try discriminate; [injection H as ->; reflexivity|injection H as ->; reflexivity].
  - split; discriminate.
Qed.
Lemma jstring_iff : forall o k v, bind (j_at (JObj o) k) j_string = Val v <-> lookup k o = Some (JStr v).
Proof.
  intros o k v. unfold j_at. destruct (lookup k o) as [j|]; cbn [bind].
  - destruct j; cbn [j_string]; split; intros H; try discriminate; [injection H as ->; reflexivity|injection H as ->; reflexivity].
  - split; discriminate.
Qed.
Lemma bind_iff : forall A B (x : res A) (f : A -> res B) v, bind x f = Val v <-> exists a, x = Val a /\ f a = Val v.
Proof.
  intros A B x f v. destruct x as [a|e]; cbn [bind]; split.
  - intros H. exists a. auto.
  - intros [a' [E H]]. injection E as <-. exact H.
  - discriminate.
  - intros [a' [E H]]. discriminate.
Qed.
Lemma moments_iff : forall o kp kn p n,
  (if j_contains (JObj o) kp && j_contains (JObj o) kn then bind (jnumber (JObj o) kp) (fun a => bind (jnumber (JObj o) kn) (fun n => Val (a, n))) else Val (0, 0)) = Val (p, n)
  <-> moments o kp kn p n.
Proof.
  intros o kp kn p n. unfold moments, j_contains. destruct (lookup kp o) as [a|] eqn:E1.
  2: { cbn [andb]. split; [intros H; injection H as <- <-; auto|intros [-> ->]; reflexivity]. }
  destruct (lookup kn o) as [b|] eqn:E2; cbn [andb].
  2: { split; [intros H; injection H as <- <-; auto|intros [-> ->]; reflexivity]. }
  rewrite bind_iff. split.
  - intros [a' [E H]]. apply jnumber_iff in E. rewrite bind_iff in H. destruct H as [b' [E' H]]. apply jnumber_iff in E'. injection H as <- <-. split; congruence.
  - intros [-> ->]. exists p. split; [apply jnumber_iff; auto|]. apply bind_iff. exists n. split; [apply jnumber_iff; auto|reflexivity].
Qed.
Lemma one_coeffs_iff : forall j c, one_coeffs j = Val c <-> describes j c.
Proof.
  intros j c. split.
  - intros H. unfold one_coeffs in H. apply bind_iff in H. destruct H as [nm [E1 H]].
    destruct j as [| | | | |o]; try discriminate E1. exists o. split; [reflexivity|].
    apply jstring_iff in E1. apply bind_iff in H. destruct H as [m [E2 H]]. apply jnumber_iff in E2.
    apply bind_iff in H. destruct H as [sg [E3 H]]. apply jnumber_iff in E3. apply bind_iff in H. destruct H as [e [E4 H]]. apply jnumber_iff in E4.
    apply bind_iff in H. destruct H as [bb [E5 H]]. apply jstring_iff in E5.
    apply bind_iff in H. destruct H as [[mu nmu] [E6 H]]. apply moments_iff in E6. apply bind_iff in H. destruct H as [[q nq] [E7 H]]. apply moments_iff in E7.
    injection H as <-. cbn [c_name c_m c_sigma c_eps c_bibtex c_mustar2 c_nmu c_Qstar2 c_nQ fst snd].
    split; [exact E1|]. split; [exact E2|]. split; [exact E3|]. split; [exact E4|]. split; [exact E5|]. split; assumption.
  - intros [o [-> [E1 [E2 [E3 [E4 [E5 [E6 E7]]]]]]]]. unfold one_coeffs.
    apply bind_iff. eexists. split; [apply jstring_iff; exact E1|]. apply bind_iff. eexists. split; [apply jnumber_iff; exact E2|].
    apply bind_iff. eexists. split; [apply jnumber_iff; exact E3|]. apply bind_iff. eexists. split; [apply jnumber_iff; exact E4|].
    apply bind_iff. eexists. split; [apply jstring_iff; exact E5|]. apply bind_iff. eexists. split; [apply moments_iff; exact E6|].
    apply bind_iff. eexists. split; [apply moments_iff; exact E7|]. destruct c. reflexivity.
Qed.
Lemma known_iff : forall n c, get_normal_fluid n = Val c <-> known n c.
Proof.
  intros n c. unfold get_normal_fluid, library. cbn [find c_name normal_fluid].
  destruct (String.eqb_spec "Methane" n) as [<-|N1].
  { split. - intros H. injection H as <-. unfold known. cbn. repeat split; auto. left. repeat split; reflexivity || lra.
    - intros [A [B [C [D [E [F [[_ [G [H I0]]]|[[G _]|[G _]]]]]]]]]; try discriminate G. destruct c. cbn in *. subst. unfold normal_fluid. f_equal. f_equal. lra. }
  destruct (String.eqb_spec "Ethane" n) as [<-|N2].
  { split. - intros H. injection H as <-. unfold known. cbn. repeat split; auto. right; left. repeat split; reflexivity || lra.
    - intros [A [B [C [D [E [F [[G _]|[[_ [G [H I0]]]|[G _]]]]]]]]]; try discriminate G. destruct c. cbn in *. subst. reflexivity. }
  destruct (String.eqb_spec "Propane" n) as [<-|N3].
  { split. - intros H. injection H as <-. unfold known. cbn. repeat split; auto. right; right. repeat split; reflexivity || lra.
    - intros [A [B [C [D [E [F [[G _]|[[G _]|[_ [G [H I0]]]]]]]]]]]; try discriminate G. destruct c. cbn in *. subst. unfold normal_fluid. f_equal. f_equal. lra. }
  split; [discriminate|]. intros [_ [_ [_ [_ [_ [_ [[G _]|[[G _]|[G _]]]]]]]]]; congruence.
Qed.
Lemma ab_iff : forall o a b, spec_ab (JObj o) = Val (a, b) <-> constants o a b.
Proof.
  intros o a b. unfold spec_ab, constants, j_contains, j_at. destruct (lookup "ab" o) as [j|]; cbn [bind].
  2: { split; [intros H; injection H as <- <-; auto|]. intros [[_ [-> ->]]|[[H _]|[H _]]]; [reflexivity|discriminate|discriminate]. }
  destruct j as [| | |v| |]; cbn [j_string bind]; try (split; [discriminate|intros [[H _]|[[H _]|[H _]]]; discriminate]).
  destruct (String.eqb_spec v "Liang-IECR-2012") as [->|N1].
  { split; [intros H; injection H as <- <-; auto|]. intros [[H _]|[[_ [-> ->]]|[H _]]]; [discriminate|reflexivity|discriminate]. }
  destruct (String.eqb_spec v "Liang-IECR-2014") as [->|N2].
  { split; [intros H; injection H as <- <-; auto|]. intros [[H _]|[[H _]|[_ [-> ->]]]]; [discriminate|discriminate|reflexivity]. }
  split; [discriminate|]. intros [[H _]|[[H _]|[H _]]]; congruence.
Qed.
Lemma polar_iff : forall f n cs, polar_part f n cs (polar_lists f n cs).
Proof.
  intros f n cs. unfold polar_lists, polar_part.
  assert (Z : sumn (length cs) (fun i => Rabs (nt (map f cs) i * nt (map n cs) i)) = 0 <-> forall c, In c cs -> f c * n c = 0).
  { split.
    - intros H c Hc. destruct (In_nth cs c c Hc) as [i [Hi E]].
      assert (P : Rabs (nt (map f cs) i * nt (map n cs) i) <= 0).
      { rewrite <- H. apply (sumn_term (length cs) (fun i => Rabs (nt (map f cs) i * nt (map n cs) i)) i); [auto|]. intros; apply Rabs_pos. }
      unfold nt in P. rewrite (nth_indep _ 0 (f c)) in P by (rewrite map_length; auto). rewrite map_nth in P.
      rewrite (nth_indep _ 0 (n c)) in P by (rewrite map_length; auto). rewrite map_nth, E in P.
      pose proof (Rabs_pos (f c * n c)). destruct (Req_dec (f c * n c) 0); [auto|]. pose proof (Rabs_pos_lt _ H1). lra.
    - intros H. rewrite (sumn_ext _ _ (fun _ => 0)). { apply sumn_zero. } intros i Hi. destruct cs as [|c0 cs']; [cbn in Hi; lia|]. set (cs := c0 :: cs') in *.
      unfold nt. rewrite (nth_indep _ 0 (f c0)) by (rewrite map_length; auto). rewrite map_nth.
      rewrite (nth_indep _ 0 (n c0)) by (rewrite map_length; auto). rewrite map_nth.
      rewrite (H (nth i cs c0)) by (apply nth_In; auto). apply Rabs_R0. }
  destruct (Req_EM_T _ 0) as [E|NE].
  - left. split; [reflexivity|]. apply Z. exact E.
  - right. split; [reflexivity|]. destruct (Exists_dec (fun c => f c * n c <> 0) cs) as [X|X].
    + intros c. destruct (Req_EM_T (f c * n c) 0); [right; tauto|left; auto].
    + apply Exists_exists in X. exact X.
    + exfalso. apply NE. apply Z. intros c Hc. destruct (Req_EM_T (f c * n c) 0) as [|N]; [auto|]. exfalso. apply X. apply Exists_exists. exists c. auto.
Qed.
Lemma make_iff : forall cs a b k s, (exists k', check_kmat k (length cs) = Val k' /\ mixture_of cs k' a b s) <-> make_mixture cs a b k = Val s.
Proof.
  intros cs a b k s. unfold make_mixture. rewrite bind_iff. split; intros [k' [E H]]; exists k'; (split; [exact E|]).
  - destruct H as [H1 [H2 [H3 [H4 [H5 [H6 [H7 [H8 [H9 H10]]]]]]]]]. destruct s. cbn in *. subst. f_equal.
    assert (U : forall f n p, polar_part f n cs p -> p = polar_lists f n cs).
    { intros f n p [[-> A]|[-> [c [B C]]]]; destruct (polar_iff f n cs) as [[E1 A1]|[E1 [c' [B1 C1]]]]; rewrite E1; auto; exfalso; firstorder. }
    rewrite (U _ _ _ H9), (U _ _ _ H10). reflexivity.
  - injection H as <-. unfold mixture_of. cbn. repeat split; apply polar_iff.
Qed.
Lemma kmat_iff : forall o N k, interactions o N k <->
  exists ko, spec_kmat (JObj o) = Val ko /\ (match ko with Some k => Nat.eqb (length k) N | None => true end = true) /\ check_kmat (match ko with Some k => k | None => [] end) N = Val k.
Proof.
  intros o N k. unfold interactions, spec_kmat, j_contains, j_at.
  assert (Z : k = zeros N <-> exists ko : option (list (list R)), Val (@None (list (list R))) = Val ko /\ (match ko with Some k => Nat.eqb (length k) N | None => true end = true) /\ check_kmat (match ko with Some k => k | None => [] end) N = Val k).
  { split. - intros ->. exists None. repeat split. - intros [ko [E [_ H]]]. injection E as <-. injection H as <-. reflexivity. }
  destruct (lookup "kmat" o) as [j|]; cbn [bind]; [|exact Z]. destruct j as [| | | |[|r l]|]; try exact Z.
  split.
  - intros [E [L F]]. exists (Some k). split.
    + apply bind_iff. exists k. split; [|reflexivity]. apply build_square_matrix_ok. right. split; [exact E|]. rewrite L. exact F.
    + rewrite L, Nat.eqb_refl. split; [reflexivity|]. destruct k as [|r0 k']; [discriminate E|]. unfold check_kmat. rewrite L, Nat.eqb_refl. reflexivity.
  - intros [ko [E [L H]]]. apply bind_iff in E. destruct E as [m [E E']]. injection E' as <-. apply Nat.eqb_eq in L.
    apply build_square_matrix_ok in E. destruct E as [[E _]|[E F]]; [discriminate|]. unfold check_kmat in H. destruct m as [|r0 m']; [discriminate E|].
    rewrite L, Nat.eqb_refl in H. injection H as <-. split; [exact E|]. split; [exact L|]. rewrite L in F. exact F.
Qed.

(** With coefficients: a mixture is built exactly when each entry describes a component and the
    other fields are understood, and then it is the mixture described. *)
Theorem C67_coeffs : forall o l s, lookup "names" o = None -> lookup "coeffs" o = Some (JArr l) ->
  (PCSAFTfactory (JObj o) = Val s <->
   exists cs k a b, Forall2 describes l cs /\ interactions o (length cs) k /\ constants o a b /\ mixture_of cs k a b s).
Proof.
  intros o l s Hn Hc. unfold PCSAFTfactory. rewrite bind_iff. split.
  - intros [ko [E H]]. apply bind_iff in H. destruct H as [[a b] [E2 H]]. apply ab_iff in E2. unfold j_contains at 1 in H. rewrite Hn in H. unfold j_contains, j_at in H. rewrite Hc in H. cbn [bind j_values] in H.
    apply bind_iff in H. destruct H as [cs [E3 H]]. apply map_res_iff in E3.
    destruct (negb _) eqn:S0 in H; [discriminate|]. apply negb_false_iff in S0. apply make_iff in H. destruct H as [k [E4 H]].
    exists cs, k, a, b. split; [|split; [|split; [exact E2|exact H]]].
    + clear -E3; induction E3; constructor; auto. apply one_coeffs_iff; auto.
    + apply kmat_iff. exists ko. auto.
  - intros [cs [k [a [b [F [K [C M]]]]]]]. apply kmat_iff in K. destruct K as [ko [E [S0 E4]]]. exists ko. split; [exact E|].
    apply bind_iff. exists (a, b). split; [apply ab_iff; exact C|]. unfold j_contains at 1. rewrite Hn. unfold j_contains, j_at. rewrite Hc. cbn [bind j_values].
    apply bind_iff. exists cs. split. { apply map_res_iff. clear -F. induction F; constructor; auto. apply one_coeffs_iff; auto. }
    rewrite S0. cbn [negb fst snd]. apply make_iff. exists k. auto.
Qed.
(** With names, which take precedence over coefficients *)
Theorem C67_names : forall o l s, lookup "names" o = Some (JArr l) ->
  (PCSAFTfactory (JObj o) = Val s <->
   exists names cs k a b, l = map JStr names /\ Forall2 known names cs /\ interactions o (length cs) k /\ constants o a b /\ mixture_of cs k a b s).
Proof.
  assert (W : forall l names, map_res j_string l = Val names <-> l = map JStr names).
  { intros l names. rewrite map_res_iff. split.
    - intros F. induction F as [|j n l0 ns H F IH]; [reflexivity|]. cbn [map]. rewrite IH. f_equal. destruct j; try discriminate H. injection H as ->. reflexivity.
    - intros ->. induction names; constructor; auto. }
  intros o l s Hn. unfold PCSAFTfactory. rewrite bind_iff. split.
  - intros [ko [E H]]. apply bind_iff in H. destruct H as [[a b] [E2 H]]. apply ab_iff in E2. unfold j_contains at 1 in H. rewrite Hn in H. unfold j_at in H. rewrite Hn in H. cbn [bind j_valarray] in H.
    apply bind_iff in H. destruct H as [names [E5 H]]. apply W in E5. destruct (negb _) eqn:S0 in H; [discriminate|]. apply negb_false_iff in S0.
    apply bind_iff in H. destruct H as [cs [E3 H]]. apply map_res_iff in E3. apply make_iff in H. destruct H as [k [E4 H]].
    exists names, cs, k, a, b. split; [exact E5|]. split; [|split; [|split; [exact E2|exact H]]].
    + clear -E3. induction E3; constructor; auto. apply known_iff; auto.
    + apply kmat_iff. exists ko. split; [exact E|]. split; [|exact E4]. assert (L : length cs = length names) by (symmetry; eapply Forall2_length; exact E3). rewrite L. exact S0.
  - intros [names [cs [k [a [b [-> [F [K [C M]]]]]]]]]. assert (L : length names = length cs) by (eapply Forall2_length; exact F).
    apply kmat_iff in K. destruct K as [ko [E [S0 E4]]]. exists ko. split; [exact E|].
    apply bind_iff. exists (a, b). split; [apply ab_iff; exact C|]. unfold j_contains at 1. rewrite Hn. unfold j_at. rewrite Hn. cbn [bind j_valarray].
    apply bind_iff. exists names. split; [apply W; reflexivity|]. rewrite L, S0. cbn [negb fst snd]. apply bind_iff. exists cs. split.
    + apply map_res_iff. clear -F. induction F; constructor; auto. apply known_iff; auto.
    + apply make_iff. exists k. auto.
Qed.
(** What an unusable description is refused with *)
Theorem C67_refusals : forall o,
  (lookup "kmat" o = None -> lookup "ab" o = None ->
    (lookup "names" o = None -> lookup "coeffs" o = None -> PCSAFTfactory (JObj o) = Err StdInvalidArgument) /\
    (forall names, lookup "names" o = Some (JArr (map JStr names)) -> (exists n, In n names /\ forall c, ~ known n c) -> PCSAFTfactory (JObj o) = Err StdInvalidArgument)) /\
  (lookup "kmat" o = None -> forall v, lookup "ab" o = Some (JStr v) -> v <> "Liang-IECR-2012"%string -> v <> "Liang-IECR-2014"%string -> PCSAFTfactory (JObj o) = Err InvalidArgument) /\
  (forall k names, lookup "ab" o = None -> lookup "kmat" o = Some (matrix_json k) -> k <> [] -> List.Forall (fun row => length row = length k) k ->
    lookup "names" o = Some (JArr (map JStr names)) -> length names <> length k -> PCSAFTfactory (JObj o) = Err InvalidArgument) /\
  (forall k, lookup "kmat" o = Some (matrix_json k) -> k <> [] -> ~ List.Forall (fun row => length row = length k) k -> PCSAFTfactory (JObj o) = Err StdInvalidArgument).
Proof.
  assert (W : forall names, map_res j_string (map JStr names) = Val names).
  { induction names as [|n ns IH]; [reflexivity|]. cbn [map map_res j_string bind]. rewrite IH. reflexivity. }
  intros o. split; [|split; [|split]].
  - intros Hk Ha. split.
    + intros Hn Hc. unfold PCSAFTfactory, spec_kmat, spec_ab, j_contains. rewrite Hk. cbn [bind]. rewrite Ha. cbn [bind]. rewrite Hn, Hc. reflexivity.
    + intros names Hn [n [Hin Hu]]. unfold PCSAFTfactory, spec_kmat, spec_ab, j_contains, j_at. rewrite Hk. cbn [bind]. rewrite Ha. cbn [bind]. rewrite Hn. cbn [bind j_valarray]. rewrite W. cbn [bind negb].
      assert (E : map_res get_normal_fluid names = Err StdInvalidArgument).
      { clear Hn. induction names as [|a ns IH]; [contradiction|]. cbn [map_res]. destruct Hin as [->|Hin].
        - unfold get_normal_fluid at 1. destruct (find _ library) as [c|] eqn:F; [|reflexivity]. exfalso. apply (Hu c). apply known_iff. unfold get_normal_fluid. rewrite F. reflexivity.
        - unfold get_normal_fluid at 1. destruct (find _ library) as [c|]; [|reflexivity]. cbn [bind]. rewrite IH by auto. reflexivity. }
      rewrite E. reflexivity.
  - intros Hk v Ha N1 N2. unfold PCSAFTfactory, spec_kmat, spec_ab, j_contains, j_at. rewrite Hk. cbn [bind]. rewrite Ha. cbn [bind j_string].
    apply String.eqb_neq in N1, N2. rewrite N1, N2. reflexivity.
  - intros k names Ha Hk NK F Hn L. unfold PCSAFTfactory, spec_kmat, spec_ab, j_contains, j_at. rewrite Hk, Ha. cbn [bind]. unfold matrix_json. destruct k as [|r k']; [congruence|]. cbn [map].
    assert (E : build_square_matrix (matrix_json (r :: k')) = Val (r :: k')) by (apply build_square_matrix_ok; right; split; [reflexivity|exact F]).
    unfold matrix_json in E. cbn [map] in E. rewrite E. cbn [bind]. rewrite Hn. cbn [bind j_valarray]. rewrite W. cbn [bind].
    destruct (Nat.eqb_spec (length (r :: k')) (length names)); [congruence|reflexivity].
  - intros k Hk NK F. unfold PCSAFTfactory, spec_kmat, j_contains, j_at. rewrite Hk. cbn [bind]. unfold matrix_json. destruct k as [|r k']; [congruence|]. cbn [map].
    assert (E : build_square_matrix (matrix_json (r :: k')) = Err StdInvalidArgument).
    { destruct (build_square_matrix (matrix_json (r :: k'))) as [m|e] eqn:E.
      - exfalso. apply build_square_matrix_ok in E. destruct E as [[E _]|[E F']]; [discriminate|].
        assert (Q : forall A B (f : A -> B) (I0 : forall a b, f a = f b -> a = b) u v, map f u = map f v -> u = v).
        { intros A B f I0. induction u as [|a u IH]; intros [|b v] H; try discriminate; [reflexivity|]. injection H as H1 H2. f_equal; auto. }
        unfold matrix_json, rows_json in E. injection E as E. apply F.
        change (map (fun row => JArr (map JNum row)) (r :: k') = map (fun row => JArr (map JNum row)) m) in E.
        apply Q in E; [rewrite E; exact F'|]. intros a b H. injection H as H. apply Q in H; [exact H|]. intros u v H2. injection H2 as H2. exact H2.
      - unfold matrix_json, build_square_matrix in E. cbn [map] in E. fold (matrix_json (r :: k')) in E.
        change (JArr (JArr (map JNum r) :: map (fun row => JArr (map JNum row)) k')) with (rows_json (r :: k')) in E.
        rewrite (proj2 (j_matrix_ok (rows_json (r :: k')) (r :: k')) eq_refl) in E. apply copy_rows_err in E. rewrite E. reflexivity. }
    unfold matrix_json in E. cbn [map] in E. rewrite E. reflexivity.
Qed.
(** Giving both names and coefficients is not refused, although the message of the refusal says so:
    the coefficients are not looked at. *)
Theorem C67_both_refuted : forall o c c', lookup "names" o <> None ->
  PCSAFTfactory (JObj (("coeffs"%string, c) :: o)) = PCSAFTfactory (JObj (("coeffs"%string, c') :: o)).
Proof.
  intros o c c' Hn. unfold PCSAFTfactory.
  assert (G : forall k v, k <> "coeffs"%string -> lookup k (("coeffs"%string, v) :: o) = lookup k o).
  { intros k v H. cbn [lookup]. destruct (String.eqb_spec k "coeffs"); [congruence|reflexivity]. }
  unfold spec_kmat, spec_ab, j_contains, j_at. rewrite !(G "kmat"%string), !(G "ab"%string), !(G "names"%string) by discriminate. destruct (lookup "names" o); [reflexivity|congruence].
Qed.
(** A matrix of interaction parameters that is not an array, or is empty, is ignored, whatever the
    number of components *)
Theorem C67_kmat_ignored_refuted : forall o j, lookup "kmat" o = None -> (forall h t, j <> JArr (h :: t)) ->
  PCSAFTfactory (JObj (("kmat"%string, j) :: o)) = PCSAFTfactory (JObj o).
Proof.
  intros o j Hk Hj. unfold PCSAFTfactory.
  assert (G : forall k v, k <> "kmat"%string -> lookup k (("kmat"%string, v) :: o) = lookup k o).
  { intros k v H. cbn [lookup]. destruct (String.eqb_spec k "kmat"); [congruence|reflexivity]. }
  unfold spec_kmat, spec_ab, j_contains, j_at. rewrite !(G "ab"%string), !(G "names"%string), !(G "coeffs"%string) by discriminate. cbn [lookup String.eqb Ascii.eqb Bool.eqb].
  rewrite Hk. cbn [bind]. destruct j as [| | | |[|h t]|]; try reflexivity. exfalso. eapply Hj. reflexivity.
Qed.
(** A dipole moment without its number of segments is ignored (and so for quadrupoles) *)
Theorem C67_lone_moment_refuted : forall o v,
  (lookup "nmu" o = None -> lookup "(mu^*)^2" o = None -> one_coeffs (JObj (("(mu^*)^2"%string, v) :: o)) = one_coeffs (JObj o)) /\
  (lookup "nQ" o = None -> lookup "(Q^*)^2" o = None -> one_coeffs (JObj (("(Q^*)^2"%string, v) :: o)) = one_coeffs (JObj o)).
Proof.
  intros o v. split; intros Hn Hm; unfold one_coeffs, jnumber, j_contains, j_at.
  - assert (G : forall k v, k <> "(mu^*)^2"%string -> lookup k (("(mu^*)^2"%string, v) :: o) = lookup k o).
    { intros k v0 H. cbn [lookup]. destruct (String.eqb_spec k "(mu^*)^2"); [congruence|reflexivity]. }
    rewrite !(G "name"%string), !(G "m"%string), !(G "sigma_Angstrom"%string), !(G "epsilon_over_k"%string), !(G "BibTeXKey"%string), !(G "nmu"%string), !(G "(Q^*)^2"%string), !(G "nQ"%string) by discriminate.
    rewrite Hn, Hm, !andb_false_r. reflexivity.
  - assert (G : forall k v, k <> "(Q^*)^2"%string -> lookup k (("(Q^*)^2"%string, v) :: o) = lookup k o).
    { intros k v0 H. cbn [lookup]. destruct (String.eqb_spec k "(Q^*)^2"); [congruence|reflexivity]. }
    rewrite !(G "name"%string), !(G "m"%string), !(G "sigma_Angstrom"%string), !(G "epsilon_over_k"%string), !(G "BibTeXKey"%string), !(G "nmu"%string), !(G "(mu^*)^2"%string), !(G "nQ"%string) by discriminate.
    rewrite Hn, Hm, !andb_false_r. reflexivity.
Qed.

(** Methane and ethane by name, with an interaction parameter *)
Definition k12 : list (list R) := [[0; 0.01]; [0.01; 0]].
Definition methane_ethane : list (string * json) :=
  [("names", JArr [JStr "Methane"; JStr "Ethane"]); ("kmat", matrix_json k12)]%string.
Definition C67_mix : mixture := {| pm := [1; 1.6069]; psigma := [3.7039; 3.5206]; peps := [150.03; 191.42]; pkmat := k12;
  pa := GrossSadowski2001_a; pb := GrossSadowski2001_b; pdip := None; pquad := None; pnames := ["Methane"; "Ethane"]%string; pbib := ["Gross-IECR-2001"; "Gross-IECR-2001"]%string |}.
Example C67_names_met : PCSAFTfactory (JObj methane_ethane) = Val C67_mix.
Proof.
  apply (C67_names _ [JStr "Methane"; JStr "Ethane"]%string); [reflexivity|].
  exists ["Methane"; "Ethane"]%string, [normal_fluid "Methane" 1.0000 3.7039 150.03; normal_fluid "Ethane" 1.6069 3.5206 191.42], k12, GrossSadowski2001_a, GrossSadowski2001_b.
  split; [reflexivity|]. split; [constructor; [apply known_iff; reflexivity|constructor; [apply known_iff; reflexivity|constructor]]|]. split.
  { unfold interactions. cbn. split; [reflexivity|]. split; [reflexivity|]. repeat constructor. }
  split; [left; repeat split|]. unfold mixture_of. cbn. replace 1.0000 with 1 by lra.
  repeat split; left; (split; [reflexivity|]); intros c [<-|[<-|[]]]; cbn; ring.
Qed.
(** a polar component by its coefficients: the dipole is taken, the lone quadrupole is not *)
Definition polar_json : list (string * json) :=
  [("name", JStr "A"); ("m", JNum 2); ("sigma_Angstrom", JNum 3); ("epsilon_over_k", JNum 200); ("BibTeXKey", JStr "B");
   ("(mu^*)^2", JNum 1.5); ("nmu", JNum 1); ("(Q^*)^2", JNum 4)]%string.
Definition C67_polar : mixture := {| pm := [2]; psigma := [3]; peps := [200]; pkmat := [[0]]; pa := LiangIECR2014_a; pb := LiangIECR2014_b;
  pdip := Some ([1.5], [1]); pquad := None; pnames := ["A"%string]; pbib := ["B"%string] |}.
Example C67_coeffs_met : PCSAFTfactory (JObj [("coeffs", JArr [JObj polar_json]); ("ab", JStr "Liang-IECR-2014")]%string) = Val C67_polar.
Proof.
  apply (C67_coeffs _ [JObj polar_json]); [reflexivity|reflexivity|].
  exists [{| c_name := "A"%string; c_m := 2; c_sigma := 3; c_eps := 200; c_bibtex := "B"%string; c_mustar2 := 1.5; c_nmu := 1; c_Qstar2 := 0; c_nQ := 0 |}], [[0]], LiangIECR2014_a, LiangIECR2014_b.
  split. { constructor; [|constructor]. exists polar_json. split; [reflexivity|]. unfold moments. cbn. repeat split. }
  split; [reflexivity|]. split; [right; right; repeat split|]. unfold mixture_of. cbn. repeat split.
  - right. split; [reflexivity|]. eexists. split; [left; reflexivity|]. cbn. lra.
  - left. split; [reflexivity|]. intros c [<-|[]]. cbn. ring.
Qed.
Example C67_refusals_met :
  PCSAFTfactory (JObj [("names", JArr [JStr "Methane"; JStr "methane"])]%string) = Err StdInvalidArgument /\
  PCSAFTfactory (JObj [("names", JArr [JStr "Methane"]); ("kmat", matrix_json k12)]%string) = Err InvalidArgument /\
  PCSAFTfactory (JObj [("names", JArr [JStr "Methane"]); ("kmat", matrix_json [[0; 1]])]%string) = Err StdInvalidArgument.
Proof.
  split; [|split].
  - apply (C67_refusals [("names", JArr [JStr "Methane"; JStr "methane"])]%string) with (names := ["Methane"; "methane"]%string); [reflexivity|reflexivity|reflexivity|].
    exists "methane"%string. split; [right; left; reflexivity|]. intros c [_ [_ [_ [_ [_ [_ [[H _]|[[H _]|[H _]]]]]]]]]; discriminate H.
  - apply (proj1 (proj2 (proj2 (C67_refusals [("names", JArr [JStr "Methane"]); ("kmat", matrix_json k12)]%string))) k12 ["Methane"%string]); try reflexivity; try discriminate.
    repeat constructor.
  - apply (proj2 (proj2 (proj2 (C67_refusals [("names", JArr [JStr "Methane"]); ("kmat", matrix_json [[0; 1]])]%string))) [[0; 1]]); try reflexivity; try discriminate.
    intros F. inversion F. discriminate.
Qed.
(** ** The tables of Liang et al. *)
(** The columns of the tables in src/data/PCSAFT.cpp, as integers and numbers of decimals. *)
Definition LiangIECR2012_a_columns : list (list (Z * nat)) :=
  [[(836215101666, 12%nat); (-411727190935913, 15%nat); (319867672916212, 16%nat)];
   [(2201683842453, 12%nat); (237426400571265, 14%nat); (-275137756155503, 14%nat)];
   [(-1125210310939, 11%nat); (-210620603419144, 13%nat); (257581175334397, 13%nat)];
   [(37841836899902, 12%nat); (10565718855671, 11%nat); (-103082737163044, 12%nat)];
   [(-68035304263396, 12%nat); (-298665894225644, 12%nat); (239569856365622, 12%nat)];
   [(69952369867326, 12%nat); (468695983731173, 12%nat); (-320622085430506, 12%nat)];
   [(-42828905226651, 12%nat); (-316673589664169, 12%nat); (18650494276364, 11%nat)]]%Z.
Definition LiangIECR2012_b_columns : list (list (Z * nat)) :=
  [[(627209841336118, 15%nat); (-622507280536237, 15%nat); (-303061275320169, 16%nat)];
   [(402517816132384, 14%nat); (186478114256654, 14%nat); (259554209415371, 14%nat)];
   [(-226660554011051, 13%nat); (-225660800172653, 13%nat); (115803588817289, 13%nat)];
   [(700153445172765, 13%nat); (153069895818654, 12%nat); (-145915305288352, 12%nat)];
   [(-129548046066679, 12%nat); (-321710866534244, 12%nat); (354901071174401, 12%nat)];
   [(150197401680241, 12%nat); (453083735030445, 12%nat); (-151675970200232, 12%nat)];
   [(-869664928046989, 13%nat); (-233232187026907, 12%nat); (-282837925415568, 12%nat)]]%Z.
Definition LiangIECR2014_a_columns : list (list (Z * nat)) :=
  [[(961597, 6%nat); (-333416, 6%nat); (-632483, 7%nat)];
   [(414449, 6%nat); (358440, 6%nat); (287134, 6%nat)];
   [(689253, 6%nat); (-219088, 6%nat); (-105309, 6%nat)];
   [(-743899, 5%nat); (285586, 6%nat); (716607, 5%nat)];
   [(318755, 4%nat); (588256, 5%nat); (-375008, 4%nat)];
   [(-548833, 4%nat); (-224931, 4%nat); (688002, 4%nat)];
   [(273613, 4%nat); (212109, 4%nat); (-403177, 4%nat)]]%Z.
Definition LiangIECR2014_b_columns : list (list (Z * nat)) :=
  [[(548398, 6%nat); (-277226, 6%nat); (-150684, 6%nat)];
   [(207176, 5%nat); (621105, 7%nat); (-507877, 6%nat)];
   [(-184013, 5%nat); (429640, 5%nat); (124227, 5%nat)];
   [(-299683, 4%nat); (-399453, 4%nat); (-487052, 4%nat)];
   [(160445, 3%nat); (214911, 3%nat); (631155, 4%nat)];
   [(-206106, 3%nat); (-232563, 3%nat); (205380, 3%nat)];
   [(516201, 4%nat); (609734, 4%nat); (-262437, 3%nat)]]%Z.
Definition decimal (p : Z * nat) : R := IZR (fst p) / 10 ^ snd p.
Definition tabulates (cols : list (list (Z * nat))) (rows : list (list R)) : Prop :=
  length rows = 3%nat /\ (forall r, In r rows -> length r = 7%nat) /\
  forall i n, (i < 3)%nat -> (n < 7)%nat -> nth n (nth i rows []) 0 = decimal (nth i (nth n cols []) (0%Z, 0%nat)).
Theorem C67_tables : tabulates LiangIECR2012_a_columns LiangIECR2012_a /\ tabulates LiangIECR2012_b_columns LiangIECR2012_b /\
  tabulates LiangIECR2014_a_columns LiangIECR2014_a /\ tabulates LiangIECR2014_b_columns LiangIECR2014_b.
Proof.
  assert (K : forall cols r0 r1 r2, length r0 = 7%nat -> length r1 = 7%nat -> length r2 = 7%nat ->
    (forall n, (n < 7)%nat -> nth n r0 0 = decimal (nth 0 (nth n cols []) (0%Z, 0%nat)) /\ nth n r1 0 = decimal (nth 1 (nth n cols []) (0%Z, 0%nat)) /\
       nth n r2 0 = decimal (nth 2 (nth n cols []) (0%Z, 0%nat))) -> tabulates cols [r0; r1; r2]).
  { intros cols r0 r1 r2 L0 L1 L2 H. split; [reflexivity|]. split; [intros r [<-|[<-|[<-|[]]]]; auto|].
    intros i n Hi Hn. destruct (H n Hn) as (A & B & C). destruct i as [|[|[|i]]]; [exact A|exact B|exact C|lia]. }
  split; [|split; [|split]]; apply K; try reflexivity; intros n Hn;
    (destruct n as [|[|[|[|[|[|[|n]]]]]]]; [| | | | | | |lia]); unfold decimal; cbn [nth fst snd LiangIECR2012_a_columns LiangIECR2012_b_columns LiangIECR2014_a_columns LiangIECR2014_b_columns]; repeat split; lra.
Qed.
(** ** The pure fluid: three numbers *)
Theorem C67_pure : forall o p, pure_factory (JObj o) = Val p <->
  lookup "m" o = Some (JNum (pu_m p)) /\ lookup "sigma / A" o = Some (JNum (pu_sigma p)) /\ lookup "epsilon_over_k" o = Some (JNum (pu_eps p)).
Proof.
  intros o p. unfold pure_factory. rewrite bind_iff. split.
  - intros (m & E & H). apply bind_iff in H. destruct H as (s & E' & H). apply bind_iff in H. destruct H as (e & E'' & H). injection H as <-.
    apply jnumber_iff in E, E', E''. auto.
  - intros (A & B & C). exists (pu_m p). split; [now apply jnumber_iff|]. apply bind_iff. exists (pu_sigma p). split; [now apply jnumber_iff|].
    apply bind_iff. exists (pu_eps p). split; [now apply jnumber_iff|]. now destruct p.
Qed.
Example C67_pure_met : pure_factory (JObj [("m", JNum 1); ("sigma / A", JNum 3.7); ("epsilon_over_k", JNum 150)]%string) = Val {| pu_m := 1; pu_sigma := 3.7; pu_eps := 150 |}.
Proof. apply C67_pure. repeat split. Qed.
Print Assumptions C67_coeffs.
Print Assumptions C67_names.
Print Assumptions C67_refusals.
Print Assumptions C67_both_refuted.
Print Assumptions C67_kmat_ignored_refuted.
Print Assumptions C67_lone_moment_refuted.
Print Assumptions C67_tables.
Print Assumptions C67_pure.
