(** C65: copies and order of the components in PC-SAFT.  C66: the polar contributions.
    C67: building the model from JSON. *)
From Coq Require Import Reals ZArith String List Bool Lra Lia Psatz Permutation.
From Verif Require Import Util_model Json_model Cubic_model Cubic_spec Cubic_proofs2 Vec_spec Vec_proofs Terms_model Ideal_model Ideal_proofs Assoc_model Assoc_proofs3
  PCSAFT_model PCSAFT_spec PCSAFT_proofs PCSAFT_proofs2 PCSAFT_proofs3 Properties_PCSAFT.
Import ListNotations.
Open Scope R_scope.

(** * C65 *)
(** The residual energy and the largest density of a mixture in which components are repeated,
    reordered or left out are those of the mixture with the copies added up. *)
Theorem C65_copies : forall s r x' x T rho, lumped r x' x -> length x = length (pm s) ->
  (forall v, pcsaft_alphar s T rho x = ok v -> pcsaft_alphar (copies r s) T rho x' = ok v) /\
  (forall v, max_rhoN s T x = Some v -> max_rhoN (copies r s) T x' = Some v).
Proof.
  intros s r x' x T rho HL Hx. split; intros v H.
  - eapply alphar_lump; eauto.
  - eapply max_rhoN_lump; eauto.
Qed.
(** The order of the components does not matter *)
Theorem C65_order : forall s r x T rho v, Permutation r (seq 0 (length x)) ->
  pcsaft_alphar s T rho x = ok v -> pcsaft_alphar (copies r s) T rho (pick 0 r x) = ok v.
Proof. intros s r x T rho v P H. eapply alphar_lump; [|exact H]. apply perm_lumped. exact P. Qed.
(** Components with a fraction of zero may be left out *)
Lemma present_lumped : forall r x, NoDup r -> (forall i, In i r -> (i < length x)%nat) ->
  (forall k, (k < length x)%nat -> ~ In k r -> nth k x 0 = 0) -> lumped r (pick 0 r x) x.
Proof.
  intros r x ND HI HZ. split; [unfold pick; apply map_length|]. split; [exact HI|]. intros k Hk.
  destruct (in_dec Nat.eq_dec k r) as [I0|NI].
  - destruct (In_nth _ _ O I0) as [i [Hi E]]. rewrite (sumn_ext _ _ (fun i' => if Nat.eqb i' i then nth i (pick 0 r x) 0 else 0)).
    + rewrite (sumn_delta _ i (fun _ => nth i (pick 0 r x) 0)) by auto. pose proof (nt_pick r x i Hi) as N. unfold nt in N. rewrite N, E. reflexivity.
    + intros i' Hi'. destruct (Nat.eqb_spec (nth i' r O) k) as [E'|NE]; destruct (Nat.eqb_spec i' i) as [->|NE']; auto.
      * exfalso. apply NE'. eapply (proj1 (NoDup_nth r O) ND); auto; congruence.
      * exfalso. apply NE. auto.
  - rewrite HZ by auto. rewrite (sumn_ext _ _ (fun _ => 0)). { rewrite sumn_zero; reflexivity. }
    intros i Hi. destruct (Nat.eqb_spec (nth i r O) k) as [E|]; auto. exfalso. apply NI. rewrite <- E. apply nth_In; auto.
Qed.
Theorem C65_absent : forall s r x T rho v, NoDup r -> (forall i, In i r -> (i < length x)%nat) ->
  (forall k, (k < length x)%nat -> ~ In k r -> nth k x 0 = 0) ->
  pcsaft_alphar s T rho x = ok v -> pcsaft_alphar (copies r s) T rho (pick 0 r x) = ok v.
Proof. intros s r x T rho v A B C H. eapply alphar_lump; [|exact H]. apply present_lumped; auto. Qed.
(** ... for instance all but one *)
Theorem C65_pure : forall s i T rho v, (i < length (pm s))%nat ->
  pcsaft_alphar s T rho (pure (length (pm s)) i) = ok v -> pcsaft_alphar (copies [i] s) T rho [1] = ok v.
Proof. intros s i T rho v Hi H. eapply alphar_lump; [|exact H]. apply pure_lumped. exact Hi. Qed.

(** * C66 *)
Theorem C66_dipolar : forall m sigma eps T rhoN eta x mu n, segments m sigma eps T x -> nonneg n ->
  let a2 := A2DD m sigma eps T rhoN eta x mu n in let a3 := A3DD m sigma eps T rhoN eta x mu n in
  a2 <> 0 -> a2 <> a3 -> dipolar m sigma eps T rhoN eta x mu n = Some (Pade a2 a3).
Proof.
  intros m sigma eps T rhoN eta x mu n HS Hn a2 a3 H0 H. unfold dipolar. rewrite alpha2DD_val, alpha3DD_val by auto. cbn [opt_bind]. apply pade_val; auto.
Qed.
(** The three-body part of the quadrupolar contribution is evaluated with the constants of the
    dipolar integral *)
Theorem C66_quadrupolar : forall m sigma eps T rhoN eta x Q n, segments m sigma eps T x -> nonneg n ->
  let a2 := A2QQ m sigma eps T rhoN eta x Q n in let a3 := A3QQ m sigma eps T rhoN eta x JDD_3ijk_c Q n in
  a2 <> 0 -> a2 <> a3 -> quadrupolar m sigma eps T rhoN eta x Q n = Some (Pade a2 a3).
Proof.
  intros m sigma eps T rhoN eta x Q n HS Hn a2 a3 H0 H. unfold quadrupolar. rewrite alpha2QQ_val, alpha3QQ_val by auto. cbn [opt_bind]. apply pade_val; auto.
Qed.
Theorem C66_diquadrupolar : forall m sigma eps T rhoN eta x mu nmu Q nQ, segments m sigma eps T x -> nonneg nmu -> nonneg nQ ->
  let a2 := A2DQ m sigma eps T rhoN eta x mu nmu Q nQ in let a3 := A3DQ m sigma eps T rhoN eta x mu nmu Q nQ in
  a2 <> 0 -> a2 <> a3 -> diquadrupolar m sigma eps T rhoN eta x mu nmu Q nQ = Some (Pade a2 a3).
Proof.
  intros m sigma eps T rhoN eta x mu nmu Q nQ HS Hn Hq a2 a3 H0 H. unfold diquadrupolar. rewrite alpha2DQ_val, alpha3DQ_val by auto. cbn [opt_bind]. apply pade_val; auto.
Qed.
(** The combined contribution has the dipolar part if some component has a dipole, the
    quadrupolar part if some component has a quadrupole, and the cross term if both are there *)
Definition carries (p n : list R) : Prop := exists i, (i < length p)%nat /\ 0 < nth i n 0 * nth i p 0.
Lemma some_positive_iff : forall p n, some_positive p n = true <-> carries p n.
Proof.
  intros p n. unfold some_positive, carries, nt. rewrite existsb_exists. split.
  - intros [i [I0 H]]. apply in_seq in I0. exists i. split; [lia|]. destruct (Rlt_dec 0 _); [auto|discriminate].
  - intros [i [Hi H]]. exists i. split; [apply in_seq; lia|]. destruct (Rlt_dec 0 _); [reflexivity|contradiction].
Qed.
Lemma some_positive_not : forall p n, ~ carries p n -> some_positive p n = false.
Proof. intros p n H. destruct (some_positive p n) eqn:E; [|reflexivity]. apply some_positive_iff in E. contradiction. Qed.
Theorem C66_multipolar : forall m sigma eps T rhoN eta x mu nmu Q nQ,
  let dd := dipolar m sigma eps T rhoN eta x mu nmu in let qq := quadrupolar m sigma eps T rhoN eta x Q nQ in
  let dq := diquadrupolar m sigma eps T rhoN eta x mu nmu Q nQ in let all := multipolar m sigma eps T rhoN eta x mu nmu Q nQ in
  (~ carries mu nmu -> ~ carries Q nQ -> all = Some 0) /\
  (carries mu nmu -> ~ carries Q nQ -> all = dd) /\
  (~ carries mu nmu -> carries Q nQ -> all = qq) /\
  (carries mu nmu -> carries Q nQ -> forall v, all = Some v <-> exists a b c, dd = Some a /\ qq = Some b /\ dq = Some c /\ v = a + b + c).
Proof.
  intros. unfold all, multipolar. fold dd qq dq. split; [|split; [|split]].
  - intros A B. rewrite !some_positive_not by auto. cbn [opt_bind andb]. apply Some_eq. ring.
  - intros A B. apply some_positive_iff in A. rewrite A, (some_positive_not Q nQ B). cbn [andb]. destruct dd as [a|]; cbn [opt_bind]; [|reflexivity]. apply Some_eq. ring.
  - intros A B. apply some_positive_iff in B. rewrite B, (some_positive_not mu nmu A). cbn [andb opt_bind]. destruct qq as [a|]; cbn [opt_bind]; [|reflexivity]. apply Some_eq. ring.
  - intros A B v. apply some_positive_iff in A. apply some_positive_iff in B. rewrite A, B. cbn [andb].
    split.
    + intros H. destruct dd as [a|], qq as [b|], dq as [c|]; cbn [opt_bind] in H; try discriminate H.
      injection H as <-. exists a, b, c. repeat split; reflexivity.
    + intros [a [b [c [-> [-> [-> ->]]]]]]. reflexivity.
Qed.
(** The energy of a polar mixture below close packing *)
Theorem C66_alphar : forall s T rho x mu nmu Q nQ, state s T rho x -> 0 < rho -> (forall i, (i < length x)%nat -> 0 < nth i (peps s) 0) ->
  pdip s = Some (mu, nmu) -> pquad s = Some (Q, nQ) -> nonneg nmu -> nonneg nQ ->
  let r := numdens rho in let eta := packing s T rho x in
  let d2 := A2DD (pm s) (psigma s) (peps s) T r eta x mu nmu in let d3 := A3DD (pm s) (psigma s) (peps s) T r eta x mu nmu in
  let q2 := A2QQ (pm s) (psigma s) (peps s) T r eta x Q nQ in let q3 := A3QQ (pm s) (psigma s) (peps s) T r eta x JDD_3ijk_c Q nQ in
  d2 <> 0 -> d2 <> d3 -> q2 <> 0 -> q2 <> q3 ->
  pcsaft_alphar s T rho x = ok (hc_doc s T rho x + disp_doc s T rho x + Pade d2 d3 + Pade q2 q3).
Proof.
  intros s T rho x mu nmu Q nQ HS R0 He Hd Hq Hn Hn' r eta d2 d3 q2 q3 H1 H2 H3 H4.
  destruct HS as [HC [HA [HT [Hr Hp]]]]. pose proof (proj1 HA) as L.
  assert (SG : segments (pm s) (psigma s) (peps s) T x).
  { split; auto. intros i Hi. split; [|split]; [| |auto]; apply HC; rewrite <- L; auto. }
  unfold pcsaft_alphar. rewrite L, Nat.eqb_refl. cbn [negb]. rewrite (hardchain_val s T rho x HC HA HT Hr Hp), Hd, Hq. cbn [opt_bind h_eta h_hc h_disp].
  change (rho * N_A * / 10 ^ 30) with r. fold eta. rewrite C66_dipolar by auto. cbn [opt_bind]. rewrite C66_quadrupolar by auto. cbn [opt_bind fin].
  f_equal. f_equal. fold d2 d3 q2 q3. repeat f_equal. unfold hc_plain, hc_doc. pose proof (DD_pos s T x HC HA HT) as PD. rewrite hs_BMCSL; auto.
  - rewrite !xi_DD. reflexivity.
  - unfold packing in Hp. rewrite xi_DD in Hp. auto.
  - apply Rgt_not_eq. apply numdens_pos. auto.
Qed.
(** Without a polar component the energy at zero density is zero (C39_value).  With one there is
    no energy at zero density, whatever the mixture: the approximant is zero over zero. *)
Theorem C66_zero_density_refuted : forall s T x v, pdip s <> None \/ pquad s <> None -> pcsaft_alphar s T 0 x <> ok v.
Proof.
  intros s T x v H E. unfold pcsaft_alphar in E. destruct (negb _); [discriminate|]. destruct (hardchain s T 0 x) as [h|]; [|discriminate]. cbn [opt_bind] in E.
  replace (0 * N_A * / 10 ^ 30) with 0 in E by ring.
  assert (D : forall mu n, dipolar (pm s) (psigma s) (peps s) T 0 (h_eta h) x mu n = None).
  { intros mu n. unfold dipolar, get_alpha2DD. destruct (osum _ _) as [w|]; cbn [opt_bind]; [|reflexivity]. replace (- PI * 0 * w) with 0 by ring.
    destruct (get_alpha3DD _ _ _ _ _ _ _ _ _); cbn [opt_bind]; [|reflexivity]. unfold pade, cdiv. destruct (Req_EM_T 0 0); [reflexivity|contradiction]. }
  assert (Q : forall mu n, quadrupolar (pm s) (psigma s) (peps s) T 0 (h_eta h) x mu n = None).
  { intros mu n. unfold quadrupolar, get_alpha2QQ. destruct (osum _ _) as [w|]; cbn [opt_bind]; [|reflexivity]. replace (- PI * POW2 (3 / 4) * 0 * w) with 0 by ring.
    destruct (get_alpha3QQ _ _ _ _ _ _ _ _ _); cbn [opt_bind]; [|reflexivity]. unfold pade, cdiv. destruct (Req_EM_T 0 0); [reflexivity|contradiction]. }
  destruct (pdip s) as [[mu n]|]. { rewrite D in E. discriminate. }
  cbn [opt_bind] in E. destruct (pquad s) as [[mu n]|]. { rewrite Q in E. discriminate. }
  destruct H; congruence.
Qed.
(** Nor is there one when the components with a dipole are all absent *)
Theorem C66_absent_refuted : forall s T rho x v mu n, pdip s = Some (mu, n) ->
  (forall i, (i < length x)%nat -> nth i n 0 <> 0 -> nth i x 0 = 0) -> pcsaft_alphar s T rho x <> ok v.
Proof.
  intros s T rho x v mu n Hd H E. unfold pcsaft_alphar in E. destruct (negb _); [discriminate|]. destruct (hardchain s T rho x) as [h|]; [|discriminate]. cbn [opt_bind] in E.
  rewrite Hd in E.
  assert (D : dipolar (pm s) (psigma s) (peps s) T (rho * N_A * / 10 ^ 30) (h_eta h) x mu n = None).
  { unfold dipolar. rewrite alpha2DD_form. destruct (Pairs _ _ _) as [w|] eqn:EP; cbn [opt_bind]; [|reflexivity].
    assert (W : w = 0).
    { destruct (pairs_some _ _ _ _ EP) as [_ ->]. rewrite (sumn_ext _ _ (fun _ => 0)). { apply sumn_zero. }
      intros i Hi. destruct (Req_dec (nth i n 0) 0) as [Z|NZ].
      - rewrite (sumn_ext _ _ (fun _ => 0)). { rewrite sumn_zero. ring. }
        intros j Hj. unfold P2DD. destruct (Rlt_dec 0 _) as [L|L]. { exfalso. unfold nt in L. rewrite Z, Rmult_0_l in L. lra. } cbn [dflt]. ring.
      - unfold nt at 1. rewrite (H i Hi NZ). ring. }
    rewrite W. replace (- PI * (rho * N_A * / 10 ^ 30) * 0) with 0 by ring.
    destruct (get_alpha3DD _ _ _ _ _ _ _ _ _); cbn [opt_bind]; [|reflexivity]. unfold pade, cdiv. destruct (Req_EM_T 0 0); [reflexivity|contradiction]. }
  rewrite D in E. discriminate.
Qed.
(** The constants published for the quadrupolar three-body integral are tabulated in the program,
    and give another value *)
Theorem C66_quadrupolar_integral_refuted :
  ~ (forall m sigma eps T rhoN eta x Q n, segments m sigma eps T x -> nonneg n ->
     get_alpha3QQ m sigma eps T rhoN eta x Q n = Some (A3QQ m sigma eps T rhoN eta x JQQ_3ijk_c Q n)).
Proof.
  intros K. assert (S1 : segments [1] [1] [1] 1 [1]).
  { split; [lra|]. intros i Hi. cbn in Hi. assert (i = 0)%nat by lia. subst. cbn. lra. }
  assert (N1 : nonneg [1]) by (intros [|[|i]]; cbn; lra).
  specialize (K [1] [1] [1] 1 1 0 [1] [1] [1] S1 N1). rewrite alpha3QQ_val in K by auto. injection K as K.
  assert (M : m3 [1] 0 0 0 = 1).
  { unfold m3. cbn [nth]. replace (1 * 1 * 1) with 1 by ring. unfold Rpower. rewrite ln_1, Rmult_0_r, exp_0. apply Rmin_left. lra. }
  unfold A3QQ, triple_sum in K. cbn [length sumn] in K. rewrite M in K. cbn [nth] in K. unfold J_triple, poly, table, sg2 in K. cbn [sumn nth JDD_3ijk_c JQQ_3ijk_c pow] in K.
  pose proof PI_RGT_0 as PP. assert (0 < PI * PI) by nra.
  assert (E : (1 + 1) / 2 = 1) by field. rewrite E in K. nra.
Qed.

(** * Concrete cases *)
(** methane counted twice, and ethane before methane *)
Example C65_copies_met : pcsaft_alphar (copies [0; 1; 0]%nat mix2) 300 5000 [1 / 3; 1 / 2; 1 / 6] = ok (hc_doc mix2 300 5000 [1 / 2; 1 / 2] + disp_doc mix2 300 5000 [1 / 2; 1 / 2]) /\
  copies [0; 1; 0]%nat mix2 <> mix2 /\ pm (copies [0; 1; 0]%nat mix2) = [1; 1.6069; 1].
Proof.
  split; [|split]; [| |reflexivity].
  - apply (C65_copies mix2 [0; 1; 0]%nat [1 / 3; 1 / 2; 1 / 6] [1 / 2; 1 / 2] 300 5000); [|reflexivity|apply C39_value_met].
    split; [reflexivity|]. split. { intros i [<-|[<-|[<-|[]]]]; cbn; lia. } intros [|[|k]] Hk; cbn in *; [lra|lra|lia].
  - intros E. apply (f_equal (fun s => length (pm s))) in E. discriminate E.
Qed.
Example C65_order_met : pcsaft_alphar (copies [1; 0]%nat mix2) 300 5000 [1 / 2; 1 / 2] = ok (hc_doc mix2 300 5000 [1 / 2; 1 / 2] + disp_doc mix2 300 5000 [1 / 2; 1 / 2]) /\
  psigma (copies [1; 0]%nat mix2) = [3.5206; 3.7039].
Proof.
  split; [|reflexivity]. apply (C65_order mix2 [1; 0]%nat [1 / 2; 1 / 2] 300 5000); [apply perm_swap|apply C39_value_met].
Qed.
Lemma mix2_pure_state : state mix2 300 5000 [0; 1].
Proof.
  assert (A : amounts mix2 [0; 1]). { split; [reflexivity|]. split. - intros [|[|i]] Hi; cbn in *; [lra|lra|lia]. - exists 1%nat. cbn. split; [lia|lra]. }
  split; [apply mix2_chains|]. split; [exact A|]. split; [lra|]. split; [lra|].
  eapply Rle_lt_trans; [apply packing_le; [apply mix2_chains|exact A|lra|lra]|]. cbn [length sumn nth pm psigma mix2].
  pose proof numdens_5000 as N5. pose proof (numdens_nonneg 5000 ltac:(lra)) as N0. pose proof PI_4 as P4. pose proof PI_RGT_0 as P0.
  set (S0 := 0 + _ + _). assert (B : 0 <= S0 <= 71) by (unfold S0; lra).
  assert (Q : PI / 6 * numdens 5000 <= 0.0031) by nra. assert (0 <= PI / 6 * numdens 5000) by (apply Rmult_le_pos; lra). nra.
Qed.
Example C65_absent_met : exists v, pcsaft_alphar mix2 300 5000 [0; 1] = ok v /\ pcsaft_alphar (copies [1]%nat mix2) 300 5000 [1] = ok v /\ pm (copies [1]%nat mix2) = [1.6069].
Proof.
  eexists. pose proof (proj2 (C39_value mix2 300 5000 _ mix2_pure_state eq_refl eq_refl) ltac:(lra)) as V. split; [exact V|]. split; [|reflexivity].
  apply (C65_absent mix2 [1]%nat [0; 1] 300 5000); [| | |exact V].
  - repeat constructor. intros [].
  - intros i [<-|[]]. cbn. lia.
  - intros [|[|k]] Hk Hn; cbn in *; [reflexivity|exfalso; apply Hn; auto|lia].
Qed.
Example C65_pure_met : exists v, pcsaft_alphar mix2 300 5000 (pure 2 1) = ok v /\ pcsaft_alphar (copies [1]%nat mix2) 300 5000 [1] = ok v.
Proof.
  eexists. pose proof (proj2 (C39_value mix2 300 5000 _ mix2_pure_state eq_refl eq_refl) ltac:(lra)) as V. split; [exact V|].
  apply (C65_pure mix2 1 300 5000); [cbn; lia|exact V].
Qed.

(** A dipolar and quadrupolar fluid *)
Definition polar1 : mixture := {| pm := [1]; psigma := [3]; peps := [200]; pkmat := [[0]]; pa := GrossSadowski2001_a; pb := GrossSadowski2001_b;
  pdip := Some ([1], [1]); pquad := Some ([1], [1]); pnames := ["A"%string]; pbib := ["B"%string] |}.
Lemma polar1_state : state polar1 200 1000 [1].
Proof.
  assert (C : chains polar1) by (split; [reflexivity|]; split; [reflexivity|]; intros [|i] Hi; cbn in *; [lra|lia]).
  assert (A : amounts polar1 [1]). { split; [reflexivity|]. split. - intros [|i] Hi; cbn in *; [lra|lia]. - exists 0%nat. cbn. split; [lia|lra]. }
  split; [exact C|]. split; [exact A|]. split; [lra|]. split; [lra|].
  eapply Rle_lt_trans; [apply packing_le; [exact C|exact A|lra|lra]|]. cbn [length sumn nth pm psigma polar1].
  assert (N5 : numdens 1000 <= 0.0031) by (unfold numdens, N_A; apply Rmult_le_reg_r with (10 ^ 30); [lra|]; unfold Rdiv; rewrite Rmult_assoc, Rinv_l by lra; lra).
  pose proof (numdens_nonneg 1000 ltac:(lra)) as N0. pose proof PI_4 as P4. pose proof PI_RGT_0 as P0.
  assert (Q : PI / 6 * numdens 1000 <= 0.0031) by nra. assert (0 <= PI / 6 * numdens 1000) by (apply Rmult_le_pos; lra). nra.
Qed.
Lemma polar1_packing : 0 <= packing polar1 200 1000 [1] <= 0.1.
Proof.
  destruct polar1_state as [C [A [_ [_ _]]]]. split.
  - unfold packing, xi. apply Rmult_le_pos. { apply Rmult_le_pos; [pose proof PI_RGT_0; lra|apply numdens_nonneg; lra]. } left. apply moment_pos; auto; lra.
  - eapply Rle_trans; [apply packing_le; [exact C|exact A|lra|lra]|]. cbn [length sumn nth pm psigma polar1].
    assert (N5 : numdens 1000 <= 0.0031) by (unfold numdens, N_A; apply Rmult_le_reg_r with (10 ^ 30); [lra|]; unfold Rdiv; rewrite Rmult_assoc, Rinv_l by lra; lra).
    pose proof (numdens_nonneg 1000 ltac:(lra)) as N0. pose proof PI_4 as P4. pose proof PI_RGT_0 as P0.
    assert (Q : PI / 6 * numdens 1000 <= 0.0031) by nra. assert (0 <= PI / 6 * numdens 1000) by (apply Rmult_le_pos; lra). nra.
Qed.
Lemma polar1_signs : forall r eta, 0 < r -> 0 <= eta <= 0.1 ->
  A2DD [1] [3] [200] 200 r eta [1] [1] [1] < 0 /\ 0 < A3DD [1] [3] [200] 200 r eta [1] [1] [1] /\
  A2QQ [1] [3] [200] 200 r eta [1] [1] [1] < 0 /\ 0 < A3QQ [1] [3] [200] 200 r eta [1] JDD_3ijk_c [1] [1].
Proof.
  intros r eta Hr He. pose proof PI_RGT_0 as PP. assert (P2 : 0 < PI ^ 2) by (apply pow_lt; lra). assert (R2 : 0 < r ^ 2) by (apply pow_lt; lra).
  assert (M2 : m2 [1] 0 0 = 1). { unfold m2. cbn [nth]. rewrite Rmult_1_r, sqrt_1. apply Rmin_left. lra. }
  assert (M3 : m3 [1] 0 0 0 = 1). { unfold m3. cbn [nth]. replace (1 * 1 * 1) with 1 by ring. unfold Rpower. rewrite ln_1, Rmult_0_r, exp_0. apply Rmin_left. lra. }
  assert (TS : Ts [200] 200 0 0 = 1). { unfold Ts. cbn [nth]. rewrite sqrt_square by lra. field. }
  assert (SG : sg2 [3] 0 0 = 3) by (unfold sg2; cbn [nth]; field).
  assert (E2 : 0 <= eta ^ 2 <= 0.01) by nra. assert (E3 : 0 <= eta ^ 3 <= 0.001) by nra. assert (E4 : 0 <= eta ^ 4 <= 0.0001) by nra.
  assert (J1 : 0 < J_pair JDD_2ij_a JDD_2ij_b 5 eta 1 1). { unfold J_pair, poly, table. cbn [sumn nth JDD_2ij_a JDD_2ij_b]. rewrite pow_O, pow_1. lra. }
  assert (J2' : 0 < J_pair JQQ_2ij_a JQQ_2ij_b 5 eta 1 1). { unfold J_pair, poly, table. cbn [sumn nth JQQ_2ij_a JQQ_2ij_b]. rewrite pow_O, pow_1. lra. }
  assert (J3' : J_triple JDD_3ijk_c 5 eta 1 < 0). { unfold J_triple, poly, table. cbn [sumn nth JDD_3ijk_c]. rewrite pow_O, pow_1. lra. }
  unfold A2DD, A3DD, A2QQ, A3QQ, pair_sum, triple_sum. cbn [length sumn]. rewrite M2, M3, TS, SG. cbn [nth].
  set (a := J_pair JDD_2ij_a _ _ _ _ _) in *. set (b := J_pair JQQ_2ij_a _ _ _ _ _) in *. set (c := J_triple _ _ _ _) in *.
  assert (PR : 0 < PI * r) by (apply Rmult_lt_0_compat; auto). assert (PR2 : 0 < PI ^ 2 * r ^ 2) by (apply Rmult_lt_0_compat; auto).
  assert (PRa : 0 < PI * r * a) by (apply Rmult_lt_0_compat; auto). assert (PRb : 0 < PI * r * b) by (apply Rmult_lt_0_compat; auto).
  assert (PRc : 0 < PI ^ 2 * r ^ 2 * - c) by (apply Rmult_lt_0_compat; lra).
  split; [|split; [|split]].
  - match goal with |- ?e < 0 => replace e with (- 27 * (PI * r * a)) by field end. lra.
  - match goal with |- 0 < ?e => replace e with (4 / 3 * 729 * (PI ^ 2 * r ^ 2 * - c)) by field end. lra.
  - match goal with |- ?e < 0 => replace e with (- 27 * (9 / 16) * (PI * r * b)) by field end. lra.
  - match goal with |- 0 < ?e => replace e with (4 / 3 * (27 / 64) * 729 * (PI ^ 2 * r ^ 2 * - c)) by field end. lra.
Qed.
Example C66_alphar_met : let r := numdens 1000 in let eta := packing polar1 200 1000 [1] in
  pcsaft_alphar polar1 200 1000 [1] = ok (hc_doc polar1 200 1000 [1] + disp_doc polar1 200 1000 [1]
    + Pade (A2DD [1] [3] [200] 200 r eta [1] [1] [1]) (A3DD [1] [3] [200] 200 r eta [1] [1] [1])
    + Pade (A2QQ [1] [3] [200] 200 r eta [1] [1] [1]) (A3QQ [1] [3] [200] 200 r eta [1] JDD_3ijk_c [1] [1])).
Proof.
  intros r eta. assert (Pr : 0 < r) by (apply numdens_pos; lra). destruct (polar1_signs r eta Pr polar1_packing) as [S1 [S2 [S3 S4]]].
  assert (NN : nonneg [1]) by (intros [|[|i]]; cbn; lra).
  apply (C66_alphar polar1 200 1000 [1] [1] [1] [1] [1] polar1_state); try lra; try reflexivity; auto; cbn [pm psigma peps polar1]; fold r eta; try lra.
  intros [|i] Hi; cbn in *; [lra|lia].
Qed.
Example C66_parts_met : let r := numdens 1000 in let eta := 0.05 in
  segments [1] [3] [200] 200 [1] /\ nonneg [1] /\ carries [1] [1] /\
  (exists v, dipolar [1] [3] [200] 200 r eta [1] [1] [1] = Some v /\ v < 0) /\ (exists v, quadrupolar [1] [3] [200] 200 r eta [1] [1] [1] = Some v /\ v < 0) /\
  multipolar [1] [3] [200] 200 r eta [1] [1] [1] [0] [0] = dipolar [1] [3] [200] 200 r eta [1] [1] [1].
Proof.
  intros r eta. assert (Pr : 0 < r) by (apply numdens_pos; lra). destruct (polar1_signs r eta Pr ltac:(unfold eta; lra)) as [S1 [S2 [S3 S4]]].
  assert (NN : nonneg [1]) by (intros [|[|i]]; cbn; lra).
  assert (SS : segments [1] [3] [200] 200 [1]) by (split; [lra|]; intros [|i] Hi; cbn in *; [lra|lia]).
  assert (PD : forall a b, a < 0 -> 0 < b -> Pade a b < 0).
  { intros a b Ha Hb. unfold Pade. assert (b / a < 0) by (unfold Rdiv; pose proof (Rinv_lt_0_compat a Ha); nra).
    unfold Rdiv at 1. pose proof (Rinv_0_lt_compat (1 - b / a) ltac:(lra)). nra. }
  split; [exact SS|]. split; [exact NN|]. assert (CC : carries [1] [1]) by (exists 0%nat; cbn; split; [lia|lra]). split; [exact CC|]. split; [|split].
  - eexists. split; [apply C66_dipolar; auto; lra|]. apply PD; auto.
  - eexists. split; [apply C66_quadrupolar; auto; lra|]. apply PD; auto.
  - apply (C66_multipolar [1] [3] [200] 200 r eta [1] [1] [1] [0] [0]); [exact CC|]. intros [[|i] [Hi H]]; cbn in *; [lra|lia].
Qed.
(** At zero density the same fluid has no energy, and neither has methane with an absent polar
    component, although methane alone has one *)
Definition mix_absent : mixture := {| pm := [1; 1.6069]; psigma := [3.7039; 3.5206]; peps := [150.03; 191.42]; pkmat := [[0; 0]; [0; 0]];
  pa := GrossSadowski2001_a; pb := GrossSadowski2001_b; pdip := Some ([0; 1], [0; 1]); pquad := None; pnames := []; pbib := [] |}.
Example C66_refuted_met : (forall v, pcsaft_alphar polar1 200 0 [1] <> ok v) /\ (forall v, pcsaft_alphar mix_absent 300 5000 [1; 0] <> ok v) /\
  exists v, pcsaft_alphar (one_component 1 3.7039 150.03) 300 5000 [1] = ok v.
Proof.
  split; [|split].
  - intros v. apply C66_zero_density_refuted. left. discriminate.
  - intros v. eapply C66_absent_refuted; [reflexivity|]. intros [|[|i]] Hi H; cbn in *; [lra|reflexivity|lia].
  - destruct (C39_pure 1 3.7039 150.03 300 5000) as [v [_ V]]; try lra; [|exists v; exact V].
    eapply Rle_lt_trans; [apply packing_le; [| |lra|lra]|].
    + split; [reflexivity|]. split; [reflexivity|]. intros [|i] Hi; cbn in *; [lra|lia].
    + split; [reflexivity|]. split. * intros [|i] Hi; cbn in *; [lra|lia]. * exists 0%nat. cbn. split; [lia|lra].
    + cbn [length sumn nth pm psigma one_component].
      pose proof numdens_5000 as N5. pose proof (numdens_nonneg 5000 ltac:(lra)) as N0. pose proof PI_4 as P4. pose proof PI_RGT_0 as P0.
      set (S0 := 0 + _). assert (B : 0 <= S0 <= 71) by (unfold S0; lra).
      assert (Q : PI / 6 * numdens 5000 <= 0.0031) by nra. assert (0 <= PI / 6 * numdens 5000) by (apply Rmult_le_pos; lra). nra.
Qed.
Example C66_diquadrupolar_met : exists v, diquadrupolar [1] [3] [200] 200 (1 / 1000) 0 [1] [1] [1] [1] [1] = Some v /\ v < 0.
Proof.
  assert (NN : nonneg [1]) by (intros [|[|i]]; cbn; lra).
  assert (SS : segments [1] [3] [200] 200 [1]) by (split; [lra|]; intros [|i] Hi; cbn in *; [lra|lia]).
  assert (M2 : m2 [1] 0 0 = 1). { unfold m2. cbn [nth]. rewrite Rmult_1_r, sqrt_1. apply Rmin_left. lra. }
  assert (M3 : m3 [1] 0 0 0 = 1). { unfold m3. cbn [nth]. replace (1 * 1 * 1) with 1 by ring. unfold Rpower. rewrite ln_1, Rmult_0_r, exp_0. apply Rmin_left. lra. }
  assert (TS : Ts [200] 200 0 0 = 1). { unfold Ts. cbn [nth]. rewrite sqrt_square by lra. field. }
  assert (SG : sg2 [3] 0 0 = 3) by (unfold sg2; cbn [nth]; field).
  set (a2 := A2DQ [1] [3] [200] 200 (1 / 1000) 0 [1] [1] [1] [1] [1]). set (a3 := A3DQ [1] [3] [200] 200 (1 / 1000) 0 [1] [1] [1] [1] [1]).
  assert (H2 : a2 < - 0.03). { pose proof PI2_3_2 as P3. unfold PI2 in P3. unfold a2, A2DQ, pair_sum. cbn [length sumn]. rewrite M2, TS, SG. unfold J_pair, poly, table. cbn [sumn nth JDQ_2ij_a JDQ_2ij_b pow]. lra. }
  assert (H3 : - 0.03 < a3 < 0). { unfold a3, A3DQ, triple_sum. cbn [length sumn]. rewrite M3, SG. unfold J_triple, poly, table. cbn [sumn nth JDQ_3ijk_c pow]. lra. }
  exists (Pade a2 a3). split; [apply C66_diquadrupolar; auto; fold a2 a3; lra|].
  unfold Pade. replace (a2 / (1 - a3 / a2)) with (a2 * (a2 * / (a2 - a3))) by (field; split; lra).
  assert (/ (a2 - a3) < 0) by (apply Rinv_lt_0_compat; lra). assert (0 < a2 * / (a2 - a3)) by nra. nra.
Qed.
Print Assumptions C65_copies.
Print Assumptions C65_order.
Print Assumptions C65_absent.
Print Assumptions C65_pure.
Print Assumptions C66_dipolar.
Print Assumptions C66_quadrupolar.
Print Assumptions C66_diquadrupolar.
Print Assumptions C66_multipolar.
Print Assumptions C66_alphar.
Print Assumptions C66_zero_density_refuted.
Print Assumptions C66_absent_refuted.
Print Assumptions C66_quadrupolar_integral_refuted.
