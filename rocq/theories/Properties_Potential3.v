(** The two-centre Lennard-Jones fluids and the factories of the equations of state in simulation
    units.  See Potential_spec.v for what is expected. *)
From Coq Require Import Reals ZArith String List Bool Lia Lra.
From Coquelicot Require Import Coquelicot.
From Verif Require Import Json_model Vec_spec Vec_proofs Cubic_model Terms_model Ideal_model Ideal_proofs Util_model Assoc_model PCSAFT_model Potential_model Potential_spec Potential_proofs Potential_proofs2
  Derivs_proofs2 Properties_Ideal Properties_PCSAFT3 Properties_Potential Properties_Potential2.
Import ListNotations.
Open Scope R_scope.

Lemma cpow_nonneg : forall x y, 0 <= x -> 0 < y -> exists p, cpow x y = Some p.
Proof.
  intros x y Hx Hy. unfold cpow. destruct (Req_EM_T x 0) as [E|E]; [|destruct (Rlt_dec 0 x); [now eexists|lra]].
  destruct (Req_EM_T y 0); [lra|]. destruct (Rlt_dec 0 y); [now eexists|lra].
Qed.
Lemma cpow_zero : forall y, 0 < y -> cpow 0 y = Some 0.
Proof. intros y Hy. unfold cpow. destruct (Req_EM_T 0 0) as [_|N]; [|congruence]. destruct (Req_EM_T y 0); [lra|]. destruct (Rlt_dec 0 y); [reflexivity|lra]. Qed.
(** The shape parameter is positive for every elongation *)
Lemma alpha_star_pos : forall t L, 0 <= L -> exists a, get_alpha_star t L = Some a /\ 0 < a /\ (L = 0 -> a = 1).
Proof.
  intros t L HL. unfold get_alpha_star. assert (E : tc_alpha t = [1.0; 0.5296092; - 0.4531784; 0.4421075]) by (destruct t; reflexivity). rewrite E. cbn [nth].
  destruct (Req_dec L 0) as [->|N].
  - rewrite cpow_zero by lra. cbn [opt_bind]. eexists. split; [reflexivity|]. split; [lra|intros _; lra].
  - rewrite cpow_pos by lra. cbn [opt_bind]. eexists. split; [reflexivity|]. split; [|tauto].
    set (s := Rpower L 0.5). assert (Hs : 0 < s) by apply exp_pos. assert (E2 : L = s ^ 2). { unfold s. rewrite <- Rpower_pow by apply exp_pos. rewrite Rpower_mult. replace (0.5 * INR 2) with 1 by (cbn; lra). rewrite Rpower_1; lra. }
    assert (E7 : Rpower L 3.5 = s ^ 7). { unfold s. rewrite <- Rpower_pow by apply exp_pos. rewrite Rpower_mult. f_equal. cbn. lra. }
    rewrite E7, E2. assert (A : 0 <= s ^ 4 * (1 / 4 + 3 / 4 * s ^ 4 - s ^ 3)).
    { apply Rmult_le_pos; [apply pow_le; lra|]. replace (1 / 4 + 3 / 4 * s ^ 4 - s ^ 3) with ((s - 1) ^ 2 * (3 / 4 * s ^ 2 + s / 2 + 1 / 4)) by field.
      apply Rmult_le_pos; [apply pow2_ge_0|]. pose proof (pow2_ge_0 s). lra. }
    assert (0 < s ^ 4) by (apply pow_lt; lra). assert (0 < s ^ 8) by (apply pow_lt; lra).
    replace ((s ^ 2) ^ 2) with (s ^ 4) by ring. replace ((s ^ 2) ^ 4) with (s ^ 8) by ring.
    replace (s ^ 4 * (1 / 4 + 3 / 4 * s ^ 4 - s ^ 3)) with (1 / 4 * s ^ 4 + 3 / 4 * s ^ 8 - s ^ 7) in A by field. lra.
Qed.
Lemma T_red_den : forall t L, 0 <= L -> 0 < (nth 0 (tc_t t) 0 + nth 1 (tc_t t) 0 * L) / (1 + nth 2 (tc_t t) 0 * L + nth 3 (tc_t t) 0 * L ^ 2) /\ 1 + nth 2 (tc_t t) 0 * L + nth 3 (tc_t t) 0 * L ^ 2 <> 0.
Proof.
  intros t L HL. pose proof (pow2_ge_0 L). assert (D : 0 < 1 + nth 2 (tc_t t) 0 * L + nth 3 (tc_t t) 0 * L ^ 2) by (destruct t; cbn [tc_t nth]; lra).
  split; [|lra]. apply Rdiv_lt_0_compat; [destruct t; cbn [tc_t nth]; lra|exact D].
Qed.
Lemma T_red_pos : forall t L, 0 <= L -> exists r, get_T_red t L = Some r /\ 0 < r.
Proof.
  intros t L HL. destruct (T_red_den t L HL) as [P N]. unfold get_T_red. rewrite cdiv_nz by exact N. cbn [opt_bind]. unfold csqrt. destruct (Rle_dec 0 _) as [_|C]; [|lra]. cbn [opt_bind].
  eexists. split; [reflexivity|]. pose proof (sqrt_lt_R0 _ P). destruct (Req_EM_T L 0); lra.
Qed.
Lemma rho_red_pos : forall t L, 0 <= L -> exists r, get_rho_red t L = Some r /\ 0 < r.
Proof.
  intros t L HL. pose proof (pow2_ge_0 L). assert (D : 0 < 1 + nth 2 (tc_rho t) 0 * L + nth 3 (tc_rho t) 0 * L ^ 2) by (destruct t; cbn [tc_rho nth]; lra).
  unfold get_rho_red. rewrite cdiv_nz by lra. eexists. split; [reflexivity|]. apply Rdiv_lt_0_compat; [destruct t; cbn [tc_rho nth]; lra|exact D].
Qed.
Lemma eta_some : forall t L, 0 <= L -> exists r, get_eta_over_rho t L = Some r.
Proof. intros t L HL. unfold get_eta_over_rho. destruct (cpow_nonneg L 2.5 HL) as [p ->]; [lra|]. cbn [opt_bind]. now eexists. Qed.
Definition packing_2c (tau delta : R) : R := delta / (0.67793 + (1 - 0.67793) * Rpower tau 0.3674).
Lemma hard_den : forall tau, 0 < 0.67793 + (1 - 0.67793) * Rpower tau 0.3674.
Proof. intro tau. pose proof (exp_pos (0.3674 * ln tau)). unfold Rpower. lra. Qed.
Lemma hardsphere_iff : forall tau delta alpha v, 0 < tau -> hardsphere tau delta alpha = Some v <->
  packing_2c tau delta < 1 /\ v = (alpha ^ 2 - 1) * ln (1 - packing_2c tau delta) + ((alpha ^ 2 + 3 * alpha) * packing_2c tau delta - 3 * alpha * packing_2c tau delta ^ 2) / (1 - packing_2c tau delta) ^ 2.
Proof.
  intros tau delta alpha v Ht. unfold hardsphere, hard_a, hard_g. rewrite cpow_pos by exact Ht. cbn [opt_bind]. rewrite cdiv_nz by (apply Rgt_not_eq, hard_den). cbn [opt_bind]. fold (packing_2c tau delta).
  set (e := packing_2c tau delta). unfold clog. destruct (Rlt_dec 0 (1 - e)) as [P|N]; cbn [opt_bind].
  - rewrite cdiv_nz by (apply pow_nonzero; lra). cbn [opt_bind]. split; [intro H; injection H as <-; split; [lra|reflexivity]|intros [_ ->]; reflexivity].
  - split; [discriminate|intros [H _]; lra].
Qed.
Lemma attractive_some : forall t tau delta alpha, 0 < tau -> 0 < alpha -> exists v, attractive t tau delta alpha = Some v.
Proof.
  intros t tau delta alpha Ht Ha. eexists. unfold attractive. apply osum_val. intros i _. rewrite !cpow_pos by assumption. reflexivity.
Qed.
Definition poles (p : polar) : Prop := p = dipole_terms \/ p = quadrupole_terms.
Lemma nth_Forall : forall (P : R -> Prop) l i, List.Forall P l -> (i < length l)%nat -> P (nth i l 0).
Proof. intros P l i H Hi. apply (proj1 (Forall_forall _ _) H). now apply nth_In. Qed.
Lemma pole_orders : forall p i, poles p -> (i < length (po_c p))%nat -> 2 <= nth i (po_m p) 0 /\ 5 <= nth i (po_k p) 0.
Proof.
  intros p i [-> | ->] Hi; split; (apply nth_Forall; [cbn [po_m po_k dipole_terms quadrupole_terms]; unfold tc_md, tc_kd, tc_mq, tc_kq; repeat (constructor; [lra|]); constructor|exact Hi]).
Qed.
Lemma polar_some : forall p tau delta mu, poles p -> 0 < tau -> 0 <= delta -> 0 < mu -> exists v, polar_alphar p tau delta mu = Some v.
Proof.
  intros p tau delta mu HP Ht Hd Hm. eexists. unfold polar_alphar.
  apply (osum_val _ _ (fun i => nth i (po_c p) 0 * Rpower tau (nth i (po_n p) 0 / 2) * (match cpow delta (nth i (po_m p) 0 / 2) with Some x => x | None => 0 end) * Rpower mu (nth i (po_k p) 0 / 4) * exp (- nth i (po_o p) 0 * delta ^ 2))).
  intros i Hi. destruct (pole_orders p i HP Hi) as [M K]. rewrite (cpow_pos tau) by assumption. cbn [opt_bind]. destruct (cpow_nonneg delta (nth i (po_m p) 0 / 2)) as [x ->]; [exact Hd|lra|]. cbn [opt_bind]. now rewrite cpow_pos.
Qed.

(** C70.  The energy of a two-centre fluid of any elongation, with a dipole or a quadrupole or
    neither, has a value at every positive temperature and density exactly when its packing
    fraction is below one *)
Theorem C70_domain : forall m T rho, 0 <= tw_L m -> 0 <= tw_mu_sq m -> poles (tw_pole m) -> 0 < T -> 0 <= rho ->
  (exists v, twocenter_alphar m T rho = Some v) <->
  exists Tred e, get_T_red (tw_type m) (tw_L m) = Some Tred /\ get_eta_over_rho (tw_type m) (tw_L m) = Some e /\ packing_2c (T / Tred) (rho * e) < 1.
Proof.
  intros m T rho HL Hmu HP HT HR. unfold twocenter_alphar. cbv zeta.
  destruct (T_red_pos (tw_type m) _ HL) as (Tr & ET & PT). destruct (rho_red_pos (tw_type m) _ HL) as (Rr & ER & PR). destruct (eta_some (tw_type m) _ HL) as (e & Ee). destruct (alpha_star_pos (tw_type m) _ HL) as (a & Ea & Pa & _).
  rewrite ET, ER, Ee, Ea. cbn [opt_bind]. rewrite !cdiv_nz by lra. cbn [opt_bind].
  assert (Pt : 0 < T / Tr) by (now apply Rdiv_lt_0_compat). assert (Pd : 0 <= rho / Rr) by (apply Rmult_le_pos; [exact HR|apply Rlt_le, Rinv_0_lt_compat, PR]).
  destruct (attractive_some (tw_type m) (T / Tr) (rho / Rr) a Pt Pa) as [v2 E2]. split.
  - intros [v H]. apply obind_iff in H. destruct H as (v1 & E1 & _). exists Tr, e. split; [reflexivity|]. split; [reflexivity|]. now apply (hardsphere_iff _ _ a v1 Pt).
  - intros (Tr' & e' & X1 & X2 & H). injection X1 as <-. injection X2 as <-.
    rewrite (proj2 (hardsphere_iff (T / Tr) (rho * e) a _ Pt) (conj H eq_refl)). cbn [opt_bind]. rewrite E2. cbn [opt_bind].
    destruct (Req_EM_T (tw_mu_sq m) 0) as [_|N]; [now eexists|]. destruct (polar_some (tw_pole m) (T / Tr) (rho / Rr) (tw_mu_sq m) HP Pt Pd) as [v3 E3]; [lra|]. rewrite E3. now eexists.
Qed.
Lemma to_nat_pos : forall r, 1 <= r -> (1 <= to_nat r)%nat.
Proof.
  intros r H. unfold to_nat. pose proof (base_Int_part r) as [_ B]. assert (IZR (Int_part r) > 0) by lra. assert (0 < Int_part r)%Z by (apply lt_IZR; lra). lia.
Qed.
Lemma attractive_orders : forall t i, (i < length (tc_c t))%nat -> 1 <= nth i (tc_n t) 0.
Proof. intros t i Hi. apply nth_Forall; destruct t; first [exact Hi|cbn [tc_n]; repeat (constructor; [lra|]); constructor]. Qed.
(** It is zero at zero density *)
Theorem C68_two_centers : forall m T, 0 <= tw_L m -> 0 <= tw_mu_sq m -> poles (tw_pole m) -> 0 < T -> twocenter_alphar m T 0 = Some 0.
Proof.
  intros m T HL Hmu HP HT. unfold twocenter_alphar. cbv zeta.
  destruct (T_red_pos (tw_type m) _ HL) as (Tr & ET & PT). destruct (rho_red_pos (tw_type m) _ HL) as (Rr & ER & PR). destruct (eta_some (tw_type m) _ HL) as (e & Ee). destruct (alpha_star_pos (tw_type m) _ HL) as (a & Ea & Pa & _).
  rewrite ET, ER, Ee, Ea. cbn [opt_bind]. rewrite !cdiv_nz by lra. cbn [opt_bind]. assert (Pt : 0 < T / Tr) by (now apply Rdiv_lt_0_compat).
  replace (0 / Rr) with 0 by (unfold Rdiv; ring). rewrite Rmult_0_l. assert (Z : packing_2c (T / Tr) 0 = 0) by (unfold packing_2c, Rdiv; ring).
  assert (H : hardsphere (T / Tr) 0 a = Some 0). { apply hardsphere_iff; [exact Pt|]. rewrite Z. split; [lra|]. rewrite Rminus_0_r, ln_1. unfold Rdiv. ring. }
  rewrite H. cbn [opt_bind].
  assert (A : attractive (tw_type m) (T / Tr) 0 a = Some 0).
  { unfold attractive. rewrite (osum_val _ _ (fun _ => 0)); [now rewrite sumn_zero|]. intros i Hi. rewrite !cpow_pos by assumption. cbn [opt_bind]. rewrite pow_i by (pose proof (to_nat_pos _ (attractive_orders _ i Hi)); lia). f_equal. ring. }
  rewrite A. cbn [opt_bind]. rewrite Rplus_0_r. destruct (Req_EM_T (tw_mu_sq m) 0) as [_|N]; [reflexivity|].
  assert (Q : polar_alphar (tw_pole m) (T / Tr) 0 (tw_mu_sq m) = Some 0).
  { unfold polar_alphar. rewrite (osum_val _ _ (fun _ => 0)); [now rewrite sumn_zero|]. intros i Hi. destruct (pole_orders _ i HP Hi) as [M K]. rewrite (cpow_zero (nth i (po_m (tw_pole m)) 0 / 2)) by lra. rewrite (cpow_pos (T / Tr)) by lra. cbn [opt_bind]. rewrite (cpow_pos (tw_mu_sq m)) by lra. cbn [opt_bind]. f_equal. ring. }
  rewrite Q. cbn [opt_bind]. f_equal. ring.
Qed.
Definition dumbbell (mu : R) : twocenter := {| tw_type := MECKE; tw_pole := dipole_terms; tw_L := 0.505; tw_mu_sq := mu |}.
Example C70_domain_met : exists v, twocenter_alphar (dumbbell 2) 3 0 = Some v.
Proof. exists 0. apply C68_two_centers; cbn; [lra|lra|now left|lra]. Qed.
(** A squared moment that is negative has no value *)
Theorem C70_negative_moment : forall m T rho, poles (tw_pole m) -> tw_mu_sq m < 0 -> twocenter_alphar m T rho = None.
Proof.
  intros m T rho HP H. destruct (twocenter_alphar m T rho) as [v|] eqn:E; [|reflexivity]. exfalso. unfold twocenter_alphar in E. cbv zeta in E.
  do 8 (apply obind_iff in E; destruct E as (? & _ & E)). destruct (Req_EM_T (tw_mu_sq m) 0) as [X|_]; [lra|]. apply obind_iff in E. destruct E as (p & Ep & _).
  unfold polar_alphar in Ep. destruct (osum_some _ _ _ Ep) as (g & Hg & _). assert (L0 : (0 < length (po_c (tw_pole m)))%nat) by (destruct HP as [-> | ->]; cbn; lia).
  specialize (Hg 0%nat L0). do 2 (apply obind_iff in Hg; destruct Hg as (? & _ & Hg)). apply obind_iff in Hg. destruct Hg as (q & Hq & _).
  unfold cpow in Hq. destruct (Req_EM_T (tw_mu_sq m) 0); [lra|]. destruct (Rlt_dec 0 (tw_mu_sq m)); [lra|discriminate].
Qed.
(** Spheres: at zero elongation the hard part is that of Carnahan and Starling *)
Theorem C70_spheres : forall m T rho v, tw_L m = 0 -> tw_mu_sq m = 0 -> 0 < T -> twocenter_alphar m T rho = Some v ->
  exists eta a Tred Rred, get_T_red (tw_type m) 0 = Some Tred /\ get_rho_red (tw_type m) 0 = Some Rred /\
    eta = 0.5256 * rho / (0.67793 + (1 - 0.67793) * Rpower (T / Tred) 0.3674) /\ attractive (tw_type m) (T / Tred) (rho / Rred) 1 = Some a /\ v = carnahan_starling eta + a.
Proof.
  intros m T rho v HL Hmu HT H. unfold twocenter_alphar in H. cbv zeta in H. rewrite HL, Hmu in H.
  destruct (T_red_pos (tw_type m) 0) as (Tr & ET & PT); [lra|]. destruct (rho_red_pos (tw_type m) 0) as (Rr & ER & PR); [lra|]. destruct (alpha_star_pos (tw_type m) 0) as (a & Ea & Pa & A1); [lra|]. rewrite (A1 eq_refl) in *.
  assert (Ee : get_eta_over_rho (tw_type m) 0 = Some 0.5256). { unfold get_eta_over_rho. rewrite cpow_zero by lra. cbn [opt_bind]. f_equal. destruct (tw_type m); cbn [tc_eta_rho nth]; lra. }
  rewrite ET, ER, Ee, Ea in H. cbn [opt_bind] in H. rewrite !cdiv_nz in H by lra. cbn [opt_bind] in H. assert (Pt : 0 < T / Tr) by (now apply Rdiv_lt_0_compat).
  apply obind_iff in H. destruct H as (v1 & E1 & H). apply obind_iff in H. destruct H as (v2 & E2 & H). destruct (Req_EM_T 0 0) as [_|N]; [|congruence]. injection H as <-.
  apply hardsphere_iff in E1; [|exact Pt]. destruct E1 as [P1 ->]. exists (packing_2c (T / Tr) (rho * 0.5256)), v2, Tr, Rr. split; [exact ET|]. split; [exact ER|]. split.
  - unfold packing_2c. f_equal. ring.
  - split; [exact E2|]. f_equal. unfold carnahan_starling. field. lra.
Qed.
(** A vanishing moment: the polar model with a zero moment is the model without, and models with
    small moments are close to it *)
Theorem C70_no_moment : forall name L, build_two_center_model_dipole name L 0 = build_two_center_model name L /\
  forall m m' T rho, build_two_center_model name L = Val m -> build_two_center_model_quadrupole name L 0 = Val m' -> twocenter_alphar m' T rho = twocenter_alphar m T rho.
Proof.
  intros name L. split; [reflexivity|]. intros m m' T rho. unfold build_two_center_model, build_two_center_model_quadrupole. destruct (modelmap name) as [t|]; cbn [bind]; [|discriminate].
  intros H1 H2. injection H1 as <-. injection H2 as <-. unfold twocenter_alphar. cbn [tw_type tw_L tw_mu_sq tw_pole]. destruct (Req_EM_T 0 0) as [_|N]; [reflexivity|congruence].
Qed.
Theorem C70_small_moment : forall t p L T rho v0, poles p -> 0 <= L -> 0 < T -> 0 <= rho ->
  twocenter_alphar {| tw_type := t; tw_pole := p; tw_L := L; tw_mu_sq := 0 |} T rho = Some v0 ->
  exists B, forall mu, 0 < mu <= 1 -> exists v, twocenter_alphar {| tw_type := t; tw_pole := p; tw_L := L; tw_mu_sq := mu |} T rho = Some v /\ Rabs (v - v0) <= B * mu.
Proof.
  intros t p L T rho v0 HP HL HT HR H. unfold twocenter_alphar in *. cbv zeta in *. cbn [tw_type tw_L tw_mu_sq tw_pole] in *.
  destruct (T_red_pos t L HL) as (Tr & ET & PT). destruct (rho_red_pos t L HL) as (Rr & ER & PR). destruct (eta_some t L HL) as (e & Ee). destruct (alpha_star_pos t L HL) as (a & Ea & Pa & _).
  rewrite ET, ER, Ee, Ea in *. cbn [opt_bind] in *. rewrite !cdiv_nz in * by lra. cbn [opt_bind] in *.
  assert (Pt : 0 < T / Tr) by (now apply Rdiv_lt_0_compat). assert (Pd : 0 <= rho / Rr) by (apply Rmult_le_pos; [exact HR|apply Rlt_le, Rinv_0_lt_compat, PR]).
  apply obind_iff in H. destruct H as (v1 & E1 & H). apply obind_iff in H. destruct H as (v2 & E2 & H). destruct (Req_EM_T 0 0) as [_|N]; [|congruence]. injection H as <-.
  set (w := fun i => nth i (po_c p) 0 * Rpower (T / Tr) (nth i (po_n p) 0 / 2) * (match cpow (rho / Rr) (nth i (po_m p) 0 / 2) with Some x => x | None => 0 end) * exp (- nth i (po_o p) 0 * (rho / Rr) ^ 2)).
  exists (sumn (length (po_c p)) (fun i => Rabs (w i))). intros mu [M0 M1]. rewrite E1, E2. cbn [opt_bind]. destruct (Req_EM_T mu 0) as [X|_]; [lra|].
  assert (Q : polar_alphar p (T / Tr) (rho / Rr) mu = Some (sumn (length (po_c p)) (fun i => w i * Rpower mu (nth i (po_k p) 0 / 4)))).
  { unfold polar_alphar. apply osum_val. intros i Hi. destruct (pole_orders p i HP Hi) as [M K]. rewrite (cpow_pos (T / Tr)) by assumption. cbn [opt_bind]. unfold w.
    destruct (cpow_nonneg (rho / Rr) (nth i (po_m p) 0 / 2)) as [x ->]; [exact Pd|lra|]. cbn [opt_bind]. rewrite (cpow_pos mu) by assumption. cbn [opt_bind]. f_equal. ring. }
  rewrite Q. cbn [opt_bind]. eexists. split; [reflexivity|]. replace (v1 + v2 + sumn (length (po_c p)) (fun i => w i * Rpower mu (nth i (po_k p) 0 / 4)) - (v1 + v2)) with (sumn (length (po_c p)) (fun i => w i * Rpower mu (nth i (po_k p) 0 / 4))) by ring.
  eapply Rle_trans; [apply sumn_abs|]. rewrite <- sumn_scal_r. apply sumn_le. intros i Hi. destruct (pole_orders p i HP Hi) as [_ K]. rewrite Rabs_mult. apply Rmult_le_compat_l; [apply Rabs_pos|].
  rewrite Rabs_right by (apply Rle_ge, Rlt_le, exp_pos). rewrite <- (Rpower_1 mu) at 2 by exact M0. assert (LM : ln mu <= 0). { rewrite <- ln_1. destruct (Req_dec mu 1) as [->|N1]; [lra|]. apply Rlt_le, ln_increasing; lra. }
  assert (LE : nth i (po_k p) 0 / 4 * ln mu <= 1 * ln mu) by nra. unfold Rpower. destruct LE as [LE|LE]; [apply Rlt_le, exp_increasing, LE|rewrite LE; lra].
Qed.
Example C70_small_moment_met : twocenter_alphar (dumbbell 0) 3 0 = Some 0.
Proof. apply C68_two_centers; cbn; [lra|lra|now left|lra]. Qed.
(** The reducing temperature of the spheres is a quarter of that of very short dumbbells *)
Theorem C70_reducing_temperature : forall t, exists s, 0 < s /\ get_T_red t 0 = Some (s / 4) /\
  forall eps, 0 < eps -> exists d, 0 < d /\ forall L, 0 < L < d -> exists w, get_T_red t L = Some w /\ Rabs (w - s) < eps.
Proof.
  intro t. set (f := fun L => sqrt ((nth 0 (tc_t t) 0 + nth 1 (tc_t t) 0 * L) / (1 + nth 2 (tc_t t) 0 * L + nth 3 (tc_t t) 0 * L ^ 2))).
  destruct (T_red_den t 0) as [P0 N0]; [lra|]. assert (C : continuous f 0).
  { unfold f. apply (continuous_comp (fun L => (nth 0 (tc_t t) 0 + nth 1 (tc_t t) 0 * L) / (1 + nth 2 (tc_t t) 0 * L + nth 3 (tc_t t) 0 * L ^ 2)) sqrt); [|apply continuous_sqrt].
    apply cont_div; [cont|cont|exact N0]. }
  exists (f 0). split; [apply sqrt_lt_R0, P0|]. split.
  - unfold get_T_red. rewrite cdiv_nz by exact N0. cbn [opt_bind]. unfold csqrt. destruct (Rle_dec 0 _) as [_|X]; [|lra]. cbn [opt_bind]. destruct (Req_EM_T 0 0) as [_|X]; [|congruence]. change (Some (0.25 * f 0) = Some (f 0 / 4)). f_equal. lra.
  - intros eps He. assert (B : locally 0 (fun y => Rabs (f y - f 0) < eps)). { apply (C (fun w => Rabs (w - f 0) < eps)). exists (mkposreal eps He). intros w Hw. exact Hw. }
    destruct (locally_ball _ _ B) as (d & Hd & H). exists d. split; [exact Hd|]. intros L [L0 L1]. exists (f L). split; [|apply H; rewrite Rminus_0_r, Rabs_right; lra].
    destruct (T_red_den t L) as [P N]; [lra|]. unfold get_T_red. rewrite cdiv_nz by exact N. cbn [opt_bind]. unfold csqrt. destruct (Rle_dec 0 _) as [_|X]; [|lra]. cbn [opt_bind]. destruct (Req_EM_T L 0) as [X|_]; [lra|]. reflexivity.
Qed.
(** What the factories need: the author is one of two names, the lengths and moments are numbers *)
Definition author_of (name : string) (t : ctype) : Prop := (name = "2CLJF_Mecke"%string /\ t = MECKE) \/ (name = "2CLJF_Lisal"%string /\ t = LISAL).
Lemma modelmap_iff : forall name t, modelmap name = Val t <-> author_of name t.
Proof.
  intros name t. unfold modelmap, author_of. destruct (String.eqb_spec name "2CLJF_Mecke") as [->|N1].
  - split; [intro H; injection H as <-; tauto|intros [[_ ->]|[X _]]; [reflexivity|discriminate]].
  - destruct (String.eqb_spec name "2CLJF_Lisal") as [->|N2]; [split; [intro H; injection H as <-; tauto|intros [[X _]|[_ ->]]; [discriminate|reflexivity]]|].
    split; [discriminate|intros [[X _]|[X _]]; congruence].
Qed.
Lemma number_iff : forall o k v, number (JObj o) k = Val v <-> lookup k o = Some (JNum v).
Proof. exact jnumber_iff. Qed.
Lemma text_iff : forall o k v, text (JObj o) k = Val v <-> lookup k o = Some (JStr v).
Proof. exact jstring_iff. Qed.
Theorem C70_factories : forall o p,
  (make_SW_EspindolaHeredia2009 (JObj o) = Val p <-> exists l, lookup "lambda" o = Some (JNum l) /\ p = SquareWell l) /\
  (make_EXP6_Kataoka1992 (JObj o) = Val p <-> exists a, lookup "alpha" o = Some (JNum a) /\ p = Exp6 ((a - 8) / 10)) /\
  (make_Mie_Pohl2023 (JObj o) = Val p <-> exists l, lookup "lambda_r" o = Some (JNum l) /\ p = MiePohl l) /\
  (make_Mie_Chaparro2023 (JObj o) = Val p <-> exists r a, lookup "lambda_r" o = Some (JNum r) /\ lookup "lambda_a" o = Some (JNum a) /\ p = MieChaparro r a) /\
  (make_2CLJF (JObj o) = Val p <-> exists n t L, lookup "author" o = Some (JStr n) /\ author_of n t /\ lookup "L^*" o = Some (JNum L) /\
     exists q, p = TwoCenter {| tw_type := t; tw_pole := q; tw_L := L; tw_mu_sq := 0 |} /\ q = dipole_terms) /\
  (make_2CLJF_Dipole (JObj o) = Val p <-> exists n t L mu, lookup "author" o = Some (JStr n) /\ author_of n t /\ lookup "L^*" o = Some (JNum L) /\ lookup "(mu^*)^2" o = Some (JNum mu) /\
     p = TwoCenter {| tw_type := t; tw_pole := dipole_terms; tw_L := L; tw_mu_sq := mu |}) /\
  (make_2CLJF_Quadrupole (JObj o) = Val p <-> exists n t L Q, lookup "author" o = Some (JStr n) /\ author_of n t /\ lookup "L^*" o = Some (JNum L) /\ lookup "(Q^*)^2" o = Some (JNum Q) /\
     p = TwoCenter {| tw_type := t; tw_pole := quadrupole_terms; tw_L := L; tw_mu_sq := Q |}).
Proof.
  intros o p. refine (conj _ (conj _ (conj _ (conj _ (conj _ (conj _ _)))))).
  - unfold make_SW_EspindolaHeredia2009. rewrite bind_iff. split; intros (l & H & E); [apply number_iff in H; injection E as <-; eauto|subst; exists l; split; [now apply number_iff|reflexivity]].
  - unfold make_EXP6_Kataoka1992. rewrite bind_iff. split; intros (l & H & E); [apply number_iff in H; injection E as <-; eauto|subst; exists l; split; [now apply number_iff|reflexivity]].
  - unfold make_Mie_Pohl2023. rewrite bind_iff. split; intros (l & H & E); [apply number_iff in H; injection E as <-; eauto|subst; exists l; split; [now apply number_iff|reflexivity]].
  - unfold make_Mie_Chaparro2023. rewrite bind_iff. split.
    + intros (r & H & E). apply number_iff in H. apply bind_iff in E. destruct E as (a & H2 & E). apply number_iff in H2. injection E as <-. eauto.
    + intros (r & a & H1 & H2 & ->). exists r. split; [now apply number_iff|]. apply bind_iff. exists a. split; [now apply number_iff|reflexivity].
  - unfold make_2CLJF. rewrite bind_iff. split.
    + intros (n & H & E). apply text_iff in H. apply bind_iff in E. destruct E as (L & H2 & E). apply number_iff in H2. apply bind_iff in E. destruct E as (m & H3 & E). injection E as <-.
      unfold build_two_center_model in H3. apply bind_iff in H3. destruct H3 as (t & H3 & E). apply modelmap_iff in H3. injection E as <-. exists n, t, L. repeat (split; [assumption|]). now eexists.
    + intros (n & t & L & H1 & H2 & H3 & q & -> & ->). exists n. split; [now apply text_iff|]. apply bind_iff. exists L. split; [now apply number_iff|]. apply bind_iff. eexists. split; [|reflexivity].
      unfold build_two_center_model. apply bind_iff. exists t. split; [now apply modelmap_iff|reflexivity].
  - unfold make_2CLJF_Dipole. rewrite bind_iff. split.
    + intros (n & H & E). apply text_iff in H. apply bind_iff in E. destruct E as (L & H2 & E). apply number_iff in H2. apply bind_iff in E. destruct E as (mu & H4 & E). apply number_iff in H4. apply bind_iff in E. destruct E as (m & H3 & E). injection E as <-.
      unfold build_two_center_model_dipole in H3. apply bind_iff in H3. destruct H3 as (t & H3 & E). apply modelmap_iff in H3. injection E as <-. exists n, t, L, mu. repeat (split; [assumption|]). reflexivity.
    + intros (n & t & L & mu & H1 & H2 & H3 & H4 & ->). exists n. split; [now apply text_iff|]. apply bind_iff. exists L. split; [now apply number_iff|]. apply bind_iff. exists mu. split; [now apply number_iff|]. apply bind_iff. eexists. split; [|reflexivity].
      unfold build_two_center_model_dipole. apply bind_iff. exists t. split; [now apply modelmap_iff|reflexivity].
  - unfold make_2CLJF_Quadrupole. rewrite bind_iff. split.
    + intros (n & H & E). apply text_iff in H. apply bind_iff in E. destruct E as (L & H2 & E). apply number_iff in H2. apply bind_iff in E. destruct E as (mu & H4 & E). apply number_iff in H4. apply bind_iff in E. destruct E as (m & H3 & E). injection E as <-.
      unfold build_two_center_model_quadrupole in H3. apply bind_iff in H3. destruct H3 as (t & H3 & E). apply modelmap_iff in H3. injection E as <-. exists n, t, L, mu. repeat (split; [assumption|]). reflexivity.
    + intros (n & t & L & mu & H1 & H2 & H3 & H4 & ->). exists n. split; [now apply text_iff|]. apply bind_iff. exists L. split; [now apply number_iff|]. apply bind_iff. exists mu. split; [now apply number_iff|]. apply bind_iff. eexists. split; [|reflexivity].
      unfold build_two_center_model_quadrupole. apply bind_iff. exists t. split; [now apply modelmap_iff|reflexivity].
Qed.
(** The model the factory makes from a file is the one with the values of the file *)
Theorem C70_models_made : forall net o T rho,
  (forall p l, make_SW_EspindolaHeredia2009 (JObj o) = Val p -> lookup "lambda" o = Some (JNum l) -> potential_alphar net p T rho = sw_alphar l T rho) /\
  (forall p a, make_EXP6_Kataoka1992 (JObj o) = Val p -> lookup "alpha" o = Some (JNum a) -> potential_alphar net p T rho = exp6_alphar a T rho) /\
  (forall p l, make_Mie_Pohl2023 (JObj o) = Val p -> lookup "lambda_r" o = Some (JNum l) -> potential_alphar net p T rho = pohl_alphar l T rho) /\
  (forall p r a v, make_Mie_Chaparro2023 (JObj o) = Val p -> lookup "lambda_r" o = Some (JNum r) -> lookup "lambda_a" o = Some (JNum a) ->
     potential_alphar net p T rho = Some v -> exists al, mie_alpha r a = Some al /\ chaparro_alphar net al T rho = Some v).
Proof.
  intros net o T rho. pose proof (C70_factories o) as F. split; [|split; [|split]].
  - intros p l H E. apply F in H. destruct H as (l' & E' & ->). rewrite E in E'. injection E' as <-. reflexivity.
  - intros p l H E. destruct (F p) as (_ & F2 & _). apply F2 in H. destruct H as (l' & E' & ->). rewrite E in E'. injection E' as <-. reflexivity.
  - intros p l H E. destruct (F p) as (_ & _ & F3 & _). apply F3 in H. destruct H as (l' & E' & ->). rewrite E in E'. injection E' as <-. reflexivity.
  - intros p r a v H E1 E2 Hv. destruct (F p) as (_ & _ & _ & F4 & _). apply F4 in H. destruct H as (r' & a' & E1' & E2' & ->). rewrite E1 in E1'. rewrite E2 in E2'. injection E1' as <-. injection E2' as <-.
    cbn [potential_alphar] in Hv. apply obind_iff in Hv. exact Hv.
Qed.
(** An unknown author is refused *)
Theorem C70_unknown_author : forall o n L, lookup "author" o = Some (JStr n) -> lookup "L^*" o = Some (JNum L) -> n <> "2CLJF_Mecke"%string -> n <> "2CLJF_Lisal"%string ->
  make_2CLJF (JObj o) = Err StdOutOfRange.
Proof.
  intros o n L H1 H2 N1 N2. unfold make_2CLJF. rewrite (proj2 (text_iff _ _ _) H1). cbn [bind]. rewrite (proj2 (number_iff _ _ _) H2). cbn [bind].
  unfold build_two_center_model, modelmap. apply String.eqb_neq in N1, N2. now rewrite N1, N2.
Qed.
Example C70_factory_met : exists p, make_2CLJF_Dipole (JObj [("author"%string, JStr "2CLJF_Lisal"); ("L^*"%string, JNum 0.5); ("(mu^*)^2"%string, JNum 1)]) = Val p.
Proof. eexists. reflexivity. Qed.
Print Assumptions C70_domain.
Print Assumptions C68_two_centers.
Print Assumptions C70_negative_moment.
Print Assumptions C70_spheres.
Print Assumptions C70_no_moment.
Print Assumptions C70_small_moment.
Print Assumptions C70_reducing_temperature.
Print Assumptions C70_factories.
Print Assumptions C70_models_made.
Print Assumptions C70_unknown_author.
