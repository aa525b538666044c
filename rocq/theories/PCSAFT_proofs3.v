(** The values of the polar contributions. *)
From Coq Require Import Reals ZArith String List Bool Lra Lia Psatz.
From Verif Require Import Util_model Json_model Cubic_model Cubic_spec Cubic_proofs2 Vec_spec Vec_proofs Terms_model Ideal_model Ideal_proofs Assoc_model Assoc_proofs3 PCSAFT_model PCSAFT_spec PCSAFT_proofs PCSAFT_proofs2.
Import ListNotations.
Open Scope R_scope.

Lemma Pairs_is : forall x P f, (forall i j, (i < length x)%nat -> (j < length x)%nat -> P i j = Some (f i j)) -> Pairs (length x) x P = Some (pair_sum x f).
Proof. intros x P f H. unfold Pairs, pair_sum. apply osum_val. intros i Hi. apply osum_val. intros j Hj. rewrite H by auto. reflexivity. Qed.
Lemma Triples_is : forall x P f, (forall i j k, (i < length x)%nat -> (j < length x)%nat -> (k < length x)%nat -> P i j k = Some (f i j k)) ->
  Triples (length x) x P = Some (triple_sum x f).
Proof.
  intros x P f H. unfold Triples, triple_sum. apply osum_val. intros i Hi. apply osum_val. intros j Hj. apply osum_val. intros k Hk. rewrite H by auto. reflexivity.
Qed.
Lemma polar_c_val : forall c m n, m <> 0 -> polar_c c m n = Some (poly c m n).
Proof. intros c m n H. unfold polar_c, poly. rewrite !cdiv_nz by auto. cbn [opt_bind]. rewrite cdiv_nz by auto. apply Some_eq. unfold entry, table. field. auto. Qed.
Lemma J2_val : forall a b N eta m Tst, m <> 0 -> Tst <> 0 -> J2 a b N eta m Tst = Some (J_pair a b N eta m Tst).
Proof.
  intros. unfold J2, J_pair. apply osum_val. intros n Hn. rewrite !polar_c_val by auto. cbn [opt_bind]. rewrite cdiv_nz by auto. reflexivity.
Qed.
Lemma J3_val : forall c N eta m, m <> 0 -> J3 c N eta m = Some (J_triple c N eta m).
Proof. intros. unfold J3, J_triple. apply osum_val. intros n Hn. rewrite polar_c_val by auto. reflexivity. Qed.

Section Values.
Variables (m sigma eps : list R) (T rhoN eta : R) (x : list R).
Hypothesis HS : segments m sigma eps T x.
Lemma Tp : 0 < T. Proof. apply HS. Qed.
Lemma mp : forall i, (i < length x)%nat -> 0 < nth i m 0. Proof. intros; apply HS; auto. Qed.
Lemma sp : forall i, (i < length x)%nat -> 0 < nth i sigma 0. Proof. intros; apply HS; auto. Qed.
Lemma ep : forall i, (i < length x)%nat -> 0 < nth i eps 0. Proof. intros; apply HS; auto. Qed.
Lemma sg2_pos : forall i j, (i < length x)%nat -> (j < length x)%nat -> 0 < sg2 sigma i j.
Proof. intros i j Hi Hj. unfold sg2. pose proof (sp i Hi). pose proof (sp j Hj). lra. Qed.
Lemma Tstar_val : forall i j, (i < length x)%nat -> (j < length x)%nat -> pair_Tstar eps T i j = Some (Ts eps T i j) /\ 0 < Ts eps T i j.
Proof.
  intros i j Hi Hj. pose proof (ep i Hi). pose proof (ep j Hj). pose proof Tp. assert (P : 0 < nth i eps 0 * nth j eps 0) by (apply Rmult_lt_0_compat; auto).
  pose proof (sqrt_lt_R0 _ P). unfold pair_Tstar, Ts, nt. rewrite csqrt_pos by lra. cbn [opt_bind]. rewrite cdiv_nz by lra. split; [reflexivity|].
  apply Rdiv_lt_0_compat; auto.
Qed.
Lemma m2_val : forall i j, (i < length x)%nat -> (j < length x)%nat -> pair_m m i j = Some (m2 m i j) /\ 0 < m2 m i j.
Proof.
  intros i j Hi Hj. pose proof (mp i Hi). pose proof (mp j Hj). assert (P : 0 < nth i m 0 * nth j m 0) by (apply Rmult_lt_0_compat; auto).
  pose proof (sqrt_lt_R0 _ P). unfold pair_m, m2, nt. rewrite csqrt_pos by lra. cbn [opt_bind]. split; [reflexivity|]. apply Rmin_glb_lt; lra.
Qed.
Lemma m3_val : forall i j k, (i < length x)%nat -> (j < length x)%nat -> (k < length x)%nat -> triple_m m i j k = Some (m3 m i j k) /\ 0 < m3 m i j k.
Proof.
  intros i j k Hi Hj Hk. pose proof (mp i Hi). pose proof (mp j Hj). pose proof (mp k Hk). assert (P : 0 < nth i m 0 * nth j m 0 * nth k m 0) by (repeat apply Rmult_lt_0_compat; auto).
  unfold triple_m, m3, nt, cpow. destruct (Req_EM_T _ 0); [lra|]. destruct (Rlt_dec 0 _); [|contradiction]. cbn [opt_bind]. split; [reflexivity|].
  apply Rmin_glb_lt; [apply exp_pos|lra].
Qed.
Lemma eps2_val : forall i j, unit_pair_eps eps T i j = Some (nth i eps 0 / T * (nth j eps 0 / T)).
Proof. intros. pose proof Tp. unfold unit_pair_eps, nt. rewrite cdiv_nz by lra. cbn [opt_bind]. rewrite cdiv_nz by lra. apply Some_eq. field. lra. Qed.
Lemma eps3_val : forall i j k, unit_triple_eps eps T i j k = Some (nth i eps 0 / T * (nth j eps 0 / T) * (nth k eps 0 / T)).
Proof.
  intros. pose proof Tp. unfold unit_triple_eps, nt. rewrite cdiv_nz by lra. cbn [opt_bind]. rewrite cdiv_nz by lra. cbn [opt_bind]. rewrite cdiv_nz by lra.
  apply Some_eq. field. lra.
Qed.
Lemma zero_of : forall a, 0 <= a -> ~ 0 < a -> a = 0. Proof. intros; lra. Qed.
Ltac pair_setup i j Hi Hj :=
  destruct (Tstar_val i j Hi Hj) as [ET PT]; destruct (m2_val i j Hi Hj) as [Em Pm]; pose proof (sg2_pos i j Hi Hj) as Ps;
  rewrite ET, Em, eps2_val; cbn [opt_bind]; change (mean_sigma sigma i j) with (sg2 sigma i j).
Ltac triple_setup i j k Hi Hj Hk :=
  destruct (m3_val i j k Hi Hj Hk) as [Em Pm]; pose proof (sg2_pos i j Hi Hj) as Ps1; pose proof (sg2_pos i k Hi Hk) as Ps2; pose proof (sg2_pos j k Hj Hk) as Ps3;
  rewrite Em, eps3_val; cbn [opt_bind]; change (mean_sigma sigma i j) with (sg2 sigma i j); change (mean_sigma sigma i k) with (sg2 sigma i k); change (mean_sigma sigma j k) with (sg2 sigma j k).
Lemma P3 : forall n i j k, nonneg n -> ~ 0 < nt n i * nt n j * nt n k -> nth i n 0 * nth j n 0 * nth k n 0 = 0.
Proof. intros n i j k H N. apply zero_of; [|exact N]. repeat apply Rmult_le_pos; apply H. Qed.
Lemma POW_eq : forall a, POW2 a = a ^ 2 /\ POW3 a = a ^ 3 /\ POW4 a = a ^ 4 /\ POW5 a = a ^ 5 /\ POW7 a = a ^ 7.
Proof. intros. unfold POW7, POW5, POW4, POW3, POW2. repeat split; ring. Qed.
Ltac pows := rewrite ?(proj1 (POW_eq _)), ?(proj1 (proj2 (POW_eq _))), ?(proj1 (proj2 (proj2 (POW_eq _)))), ?(proj1 (proj2 (proj2 (proj2 (POW_eq _))))), ?(proj2 (proj2 (proj2 (proj2 (POW_eq _))))).
Lemma alpha2DD_val : forall mu n, nonneg n -> get_alpha2DD m sigma eps T rhoN eta x mu n = Some (A2DD m sigma eps T rhoN eta x mu n).
Proof.
  intros mu n Hn. rewrite alpha2DD_form. unfold A2DD. match goal with |- _ = Some (_ * pair_sum x ?f) => rewrite (Pairs_is x _ f) end; [reflexivity|]. intros i j Hi Hj. cbv beta. unfold P2DD.
  destruct (Rlt_dec 0 _) as [L|L].
  - pair_setup i j Hi Hj. rewrite cdiv_nz by lra. cbn [opt_bind]. unfold get_JDD_2ij. rewrite J2_val by lra. cbn [opt_bind]. apply Some_eq. pows. unfold nt. pose proof Tp. field. lra.
  - assert (Z : nth i n 0 * nth j n 0 = 0) by (apply zero_of; [apply Rmult_le_pos; apply Hn|exact L]). apply Some_eq.
    match goal with |- 0 = ?a * nth i n 0 * nth j n 0 * ?b * ?c * ?d => replace (a * nth i n 0 * nth j n 0 * b * c * d) with (a * (nth i n 0 * nth j n 0) * b * c * d) by ring end. rewrite Z. ring.
Qed.
Lemma alpha2QQ_val : forall mu n, nonneg n -> get_alpha2QQ m sigma eps T rhoN eta x mu n = Some (A2QQ m sigma eps T rhoN eta x mu n).
Proof.
  intros mu n Hn. rewrite alpha2QQ_form. unfold A2QQ. match goal with |- _ = Some (_ * pair_sum x ?f) => rewrite (Pairs_is x _ f) end; [cbn [opt_bind]; pows; reflexivity|]. intros i j Hi Hj. cbv beta. unfold P2QQ.
  destruct (Rlt_dec 0 _) as [L|L].
  - pair_setup i j Hi Hj. pows. rewrite cdiv_nz by (apply pow_nonzero; lra). cbn [opt_bind]. unfold get_JQQ_2ij. rewrite J2_val by lra. cbn [opt_bind]. apply Some_eq. unfold nt. pose proof Tp. field. lra.
  - assert (Z : nth i n 0 * nth j n 0 = 0) by (apply zero_of; [apply Rmult_le_pos; apply Hn|exact L]). apply Some_eq.
    match goal with |- 0 = ?a * nth i n 0 * nth j n 0 * ?b * ?c * ?d => replace (a * nth i n 0 * nth j n 0 * b * c * d) with (a * (nth i n 0 * nth j n 0) * b * c * d) by ring end. rewrite Z. ring.
Qed.
Lemma alpha2DQ_val : forall mu nmu Q nQ, nonneg nmu -> nonneg nQ -> get_alpha2DQ m sigma eps T rhoN eta x mu nmu Q nQ = Some (A2DQ m sigma eps T rhoN eta x mu nmu Q nQ).
Proof.
  intros mu n Q nQ Hn Hq. rewrite alpha2DQ_form. unfold A2DQ. match goal with |- _ = Some (_ * pair_sum x ?f) => rewrite (Pairs_is x _ f) end; [cbn [opt_bind]; apply Some_eq; field|]. intros i j Hi Hj. cbv beta. unfold P2DQ.
  destruct (Rlt_dec 0 _) as [L|L].
  - pair_setup i j Hi Hj. pows. rewrite cdiv_nz by (apply pow_nonzero; lra). cbn [opt_bind]. unfold get_JDQ_2ij. rewrite J2_val by lra. cbn [opt_bind]. apply Some_eq. unfold nt. pose proof Tp. field. lra.
  - assert (Z : nth i n 0 * nth j nQ 0 = 0) by (apply zero_of; [apply Rmult_le_pos; [apply Hn|apply Hq]|exact L]). apply Some_eq.
    match goal with |- 0 = ?a * nth i n 0 * nth j nQ 0 * ?b * ?c * ?d => replace (a * nth i n 0 * nth j nQ 0 * b * c * d) with (a * (nth i n 0 * nth j nQ 0) * b * c * d) by ring end. rewrite Z. ring.
Qed.
Ltac zero3 i j k n Z := match goal with |- 0 = ?a * nth i n 0 * nth j n 0 * nth k n 0 * ?b * ?c * ?d * ?e =>
  replace (a * nth i n 0 * nth j n 0 * nth k n 0 * b * c * d * e) with (a * (nth i n 0 * nth j n 0 * nth k n 0) * b * c * d * e) by ring end; rewrite Z; ring.
Lemma alpha3DD_val : forall mu n, nonneg n -> get_alpha3DD m sigma eps T rhoN eta x mu n = Some (A3DD m sigma eps T rhoN eta x mu n).
Proof.
  intros mu n Hn. rewrite alpha3DD_form. unfold A3DD. match goal with |- _ = Some (_ * triple_sum x ?f) => rewrite (Triples_is x _ f) end; [cbn [opt_bind]; pows; apply Some_eq; field|]. intros i j k Hi Hj Hk. cbv beta. unfold P3DD.
  destruct (Rlt_dec 0 _) as [L|L].
  - triple_setup i j k Hi Hj Hk. pows. rewrite cdiv_nz by (repeat first [apply Rgt_not_eq; assumption | apply Rmult_integral_contrapositive_currified]). cbn [opt_bind]. unfold get_JDD_3ijk. rewrite J3_val by lra. cbn [opt_bind]. apply Some_eq. unfold nt. pose proof Tp. field. repeat split; lra.
  - pose proof (P3 n i j k Hn L) as Z. apply Some_eq. zero3 i j k n Z.
Qed.
Lemma alpha3QQ_val : forall mu n, nonneg n -> get_alpha3QQ m sigma eps T rhoN eta x mu n = Some (A3QQ m sigma eps T rhoN eta x JDD_3ijk_c mu n).
Proof.
  intros mu n Hn. rewrite alpha3QQ_form. unfold A3QQ. match goal with |- _ = Some (_ * triple_sum x ?f) => rewrite (Triples_is x _ f) end; [cbn [opt_bind]; pows; apply Some_eq; field|]. intros i j k Hi Hj Hk. cbv beta. unfold P3QQ.
  destruct (Rlt_dec 0 _) as [L|L].
  - triple_setup i j k Hi Hj Hk. pows. rewrite cdiv_nz by (apply pow_nonzero; repeat first [apply Rgt_not_eq; assumption | apply Rmult_integral_contrapositive_currified]). cbn [opt_bind]. unfold get_JDD_3ijk. rewrite J3_val by lra. cbn [opt_bind]. apply Some_eq. unfold nt. pose proof Tp. field. repeat split; lra.
  - pose proof (P3 n i j k Hn L) as Z. apply Some_eq. zero3 i j k n Z.
Qed.
Lemma alpha3DQ_val : forall mu nmu Q nQ, nonneg nmu -> nonneg nQ -> get_alpha3DQ m sigma eps T rhoN eta x mu nmu Q nQ = Some (A3DQ m sigma eps T rhoN eta x mu nmu Q nQ).
Proof.
  intros mu n Q nQ Hn Hq. rewrite alpha3DQ_form. unfold A3DQ. match goal with |- _ = Some (_ * triple_sum x ?f) => rewrite (Triples_is x _ f) end; [cbn [opt_bind]; pows; reflexivity|]. intros i j k Hi Hj Hk. cbv beta. unfold P3DQ.
  destruct (_ || _) eqn:L.
  - triple_setup i j k Hi Hj Hk. pows. rewrite cdiv_nz by (apply pow_nonzero; repeat first [apply Rgt_not_eq; assumption | apply Rmult_integral_contrapositive_currified]). cbn [opt_bind]. unfold get_JDQ_3ijk. rewrite J3_val by lra. cbn [opt_bind]. apply Some_eq. unfold nt, alpha_GV. generalize 1.19374; intros gv. pose proof Tp. field. repeat split; lra.
  - apply orb_false_iff in L. destruct L as [L1 L2]. destruct (Rlt_dec 0 _) as [|N1] in L1; [discriminate|]. destruct (Rlt_dec 0 _) as [|N2] in L2; [discriminate|].
    assert (Z1 : nth i n 0 * nth j n 0 * nth k nQ 0 = 0) by (apply zero_of; [repeat apply Rmult_le_pos; auto|exact N1]).
    assert (Z2 : nth i n 0 * nth j nQ 0 * nth k nQ 0 = 0) by (apply zero_of; [repeat apply Rmult_le_pos; auto|exact N2]).
    apply Some_eq. generalize 1.19374; intros gv.
    replace (nth i n 0 * nth j n 0 * nth k nQ 0 * nth i mu 0 * nth j mu 0 * nth k Q 0 + gv * nth i n 0 * nth j nQ 0 * nth k nQ 0 * nth i mu 0 * nth j Q 0 * nth k Q 0)
      with ((nth i n 0 * nth j n 0 * nth k nQ 0) * (nth i mu 0 * nth j mu 0 * nth k Q 0) + gv * (nth i n 0 * nth j nQ 0 * nth k nQ 0) * (nth i mu 0 * nth j Q 0 * nth k Q 0)) by ring.
    rewrite Z1, Z2. ring.
Qed.
Lemma pade_val : forall a2 a3, a2 <> 0 -> a2 <> a3 -> pade a2 a3 = Some (Pade a2 a3).
Proof.
  intros a2 a3 H0 H. unfold pade, Pade. rewrite cdiv_nz by auto. cbn [opt_bind]. apply cdiv_nz. intros E. apply H.
  replace a3 with (a3 / a2 * a2) by (field; auto). replace (a3 / a2) with 1 by lra. ring.
Qed.
End Values.
