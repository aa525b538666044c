(** Corresponding states in one and two fluids.  See Reduced_spec.v for what is expected. *)
From Coq Require Import Reals ZArith String List Bool Lia Lra Psatz.
From Coquelicot Require Import Coquelicot.
From Verif Require Import Json_model Vec_spec Vec_proofs Cubic_model Terms_model Terms_proofs2 Ideal_model Ideal_proofs Assoc_model Multi_model LKP_proofs Reduced_model Reduced_spec.
Import ListNotations.
Open Scope R_scope.

(** * C76: ammonia and water *)
Lemma cpow_nat : forall d n, 0 <= d -> (0 < n)%nat -> cpow d (INR n) = Some (d ^ n).
Proof.
  intros d n D N. destruct (Rle_lt_or_eq_dec _ _ D) as [P|<-].
  - rewrite cpow_pos by auto. now rewrite Rpower_pow.
  - unfold cpow. destruct (Req_EM_T 0 0) as [_|C]; [|lra]. assert (0 < INR n) by (apply lt_0_INR; auto).
    destruct (Req_EM_T (INR n) 0); [lra|]. destruct (Rlt_dec 0 (INR n)); [|lra]. rewrite pow_i by auto. reflexivity.
Qed.
Lemma exp_term : forall tau delta i a t d e, 0 < tau -> 0 <= delta -> nth i aw_a 0 = a -> nth i aw_t 0 = t -> nth i aw_d 0 = INR d -> nth i aw_e 0 = INR e ->
  (0 < d)%nat -> (0 < e)%nat -> aw_exp tau delta i = Some (TR_term tau delta (a, t, d, e)).
Proof.
  intros tau delta i a t d e HT HD Ea Et Ed Ee D E. unfold aw_exp, aw_pow. rewrite Ea, Et, Ed, Ee, cpow_pos by auto. cbn [opt_bind].
  rewrite !cpow_nat by auto. reflexivity.
Qed.
Ltac term_i := apply exp_term; cbn [nth aw_a aw_t aw_d aw_e INR]; try assumption; try lra; lia.
Lemma power_le_1 : forall x a, 0 < x <= 1 -> 0 < a -> 0 < Rpower x a <= 1.
Proof.
  intros x a [X0 X1] A. split; [apply exp_pos|]. unfold Rpower. rewrite <- exp_0.
  assert (L : ln x <= 0) by (rewrite <- ln_1; destruct X1 as [X1| ->]; [left; apply ln_increasing|]; lra).
  destruct (Rle_lt_or_eq_dec (a * ln x) 0) as [C|C]; [nra|left; now apply exp_increasing|rewrite C; lra].
Qed.
Lemma cross : forall x a k, 0 < x <= 1 -> 0 < a -> 0 < k -> 0 <= 2 * x * (1 - Rpower x a) * k.
Proof.
  intros x a k X A K. pose proof (power_le_1 x a X A) as [P0 P1]. apply Rmult_le_pos; [|lra].
  apply Rmult_le_pos; lra.
Qed.
Lemma TR_T_pos : forall x, 0 < x <= 1 -> 0 < TR_T x.
Proof.
  intros x X. unfold TR_T. pose proof (cross x 1.125455 (0.9648407 / 2 * (647.096 + 405.4)) X ltac:(lra) ltac:(lra)). nra.
Qed.
Lemma TR_V_pos : forall x, 0 < x <= 1 -> 0 < TR_V x.
Proof.
  intros x X. unfold TR_V. pose proof (cross x 0.8978069 (1.2395117 / 2 * (0.018015268 / 322 + 0.01703026 / 225)) X ltac:(lra) ltac:(lra)). nra.
Qed.
(** The published equation, for every mixture with some ammonia *)
Theorem C76_reducing : forall x y, 0 < x <= 1 -> aw_Tred [x; y] = Some (Val (TR_T x)) /\ 0 < TR_T x /\ aw_rhored [x; y] = Some (Val (/ TR_V x)) /\ 0 < TR_V x.
Proof.
  intros x y X. pose proof (TR_T_pos x X). pose proof (TR_V_pos x X) as V. repeat split; auto.
  - unfold aw_Tred. destruct (Req_EM_T x 0); [lra|]. rewrite cpow_pos by lra. cbn [opt_bind fin]. unfold ok. do 2 f_equal.
    unfold TR_T, TcNH3, TcH2O, aw_kT, aw_alpha. lra.
  - unfold aw_rhored. destruct (Req_EM_T x 0); [lra|]. rewrite cpow_pos by lra. cbn [opt_bind].
    match goal with |- fin (cdiv 1 ?e) = _ => replace e with (TR_V x) by (unfold TR_V, vcNH3, vcH2O, aw_kV, aw_beta; lra) end.
    rewrite cdiv_nz by lra. cbn [fin]. unfold ok. do 2 f_equal. field. lra.
Qed.
Lemma departure_val : forall tau delta x, 0 < tau -> 0 <= delta -> 0 < x -> aw_departure tau delta x = Some (TR_departure tau delta x).
Proof.
  intros tau delta x HT HD HX. unfold aw_departure, TR_departure.
  assert (S1 : aw_pow tau delta 1 = Some (- 0.01855822 * Rpower tau 1.5 * delta ^ 4)).
  { unfold aw_pow. cbn [nth aw_a aw_t aw_d]. rewrite cpow_pos by auto. cbn [opt_bind]. replace 4 with (INR 4) by (cbn; lra). rewrite cpow_nat by (auto; lia).
    cbn [opt_bind]. f_equal. f_equal. f_equal. lra. }
  assert (S2 : aw_sum tau delta 2 6 = Some (total (TR_term tau delta) TR_2_6)).
  { unfold aw_sum. cbn [Nat.add Nat.sub osum].
    rewrite (exp_term tau delta 2 0.0525801 0.5 5 1) by (cbn [nth aw_a aw_t aw_d aw_e INR]; try assumption; try lra; lia).
    rewrite (exp_term tau delta 3 3.552874e-10 6.5 15 1) by (cbn [nth aw_a aw_t aw_d aw_e INR]; try assumption; try lra; lia).
    rewrite (exp_term tau delta 4 5.451379e-6 1.75 12 1) by (cbn [nth aw_a aw_t aw_d aw_e INR]; try assumption; try lra; lia).
    rewrite (exp_term tau delta 5 (- 5.998546e-13) 15 12 1) by (cbn [nth aw_a aw_t aw_d aw_e INR]; try assumption; try lra; lia).
    rewrite (exp_term tau delta 6 (- 3.687808e-6) 6 15 2) by (cbn [nth aw_a aw_t aw_d aw_e INR]; try assumption; try lra; lia).
    cbn [opt_bind total TR_2_6]. f_equal. ring. }
  assert (S3 : aw_sum tau delta 7 13 = Some (total (TR_term tau delta) TR_7_13)).
  { unfold aw_sum. cbn [Nat.add Nat.sub osum].
    rewrite (exp_term tau delta 7 0.2586192 (- 1) 4 1) by (cbn [nth aw_a aw_t aw_d aw_e INR]; try assumption; try lra; lia).
    rewrite (exp_term tau delta 8 (- 1.368072e-8) 4 15 1) by (cbn [nth aw_a aw_t aw_d aw_e INR]; try assumption; try lra; lia).
    rewrite (exp_term tau delta 9 0.01226146 3.5 4 1) by (cbn [nth aw_a aw_t aw_d aw_e INR]; try assumption; try lra; lia).
    rewrite (exp_term tau delta 10 (- 0.07181443) 0 5 1) by (cbn [nth aw_a aw_t aw_d aw_e INR]; try assumption; try lra; lia).
    rewrite (exp_term tau delta 11 0.09970849 (- 1) 6 2) by (cbn [nth aw_a aw_t aw_d aw_e INR]; try assumption; try lra; lia).
    rewrite (exp_term tau delta 12 1.0584086e-3 8 10 2) by (cbn [nth aw_a aw_t aw_d aw_e INR]; try assumption; try lra; lia).
    rewrite (exp_term tau delta 13 (- 0.1963687) 7.5 6 2) by (cbn [nth aw_a aw_t aw_d aw_e INR]; try assumption; try lra; lia).
    cbn [opt_bind total TR_7_13]. f_equal. ring. }
  assert (S4 : aw_sum tau delta 14 14 = Some (TR_term tau delta (- 0.7777897, 4, 2%nat, 2%nat))).
  { unfold aw_sum. cbn [Nat.add Nat.sub osum].
    rewrite (exp_term tau delta 14 (- 0.7777897) 4 2 2) by (cbn [nth aw_a aw_t aw_d aw_e INR]; try assumption; try lra; lia).
    cbn [opt_bind]. f_equal. ring. }
  rewrite S1, S2, S3, S4. cbn [opt_bind]. destruct (Req_EM_T x 0); [lra|]. rewrite cpow_pos by auto. cbn [opt_bind]. f_equal. ring.
Qed.
Theorem C76_published : forall nh3 h2o T rho x y a0 a1, 0 < x <= 1 -> 0 < T -> 0 <= rho ->
  nh3 (TR_T x / T) (rho * TR_V x) = Some (Val a0) -> h2o (TR_T x / T) (rho * TR_V x) = Some (Val a1) ->
  aw_alphar nh3 h2o T rho [x; y] = Some (Val (x * a0 + (1 - x) * a1 + TR_departure (TR_T x / T) (rho * TR_V x) x)).
Proof.
  intros nh3 h2o T rho x y a0 a1 X HT HR E0 E1. destruct (C76_reducing x y X) as (ET & PT & EV & PV).
  unfold aw_alphar. rewrite ET, EV. cbn [obind bind]. unfold obind.
  rewrite cdiv_nz by (apply Rgt_not_eq; now apply Rinv_0_lt_compat). rewrite cdiv_nz by lra. cbn [fin ok].
  replace (rho / / TR_V x) with (rho * TR_V x) by (field; lra). unfold ok. rewrite E0, E1.
  rewrite departure_val; [|now apply Rdiv_lt_0_compat|apply Rmult_le_pos; lra|lra]. cbn [fin ok]. unfold ok. do 2 f_equal. ring.
Qed.
(** Pure ammonia: its own equation of state with its own reducing parameters *)
Theorem C76_ammonia : forall nh3 h2o T rho a0 a1, 0 < T -> 0 <= rho ->
  nh3 (405.4 / T) (rho * (0.01703026 / 225)) = Some (Val a0) -> h2o (405.4 / T) (rho * (0.01703026 / 225)) = Some (Val a1) ->
  aw_alphar nh3 h2o T rho [1; 0] = nh3 (405.4 / T) (rho * (0.01703026 / 225)).
Proof.
  intros nh3 h2o T rho a0 a1 HT HR E0 E1.
  assert (P : forall a, Rpower 1 a = 1) by (intro a; unfold Rpower; rewrite ln_1, Rmult_0_r; apply exp_0).
  assert (ET : TR_T 1 = 405.4) by (unfold TR_T; rewrite P; lra).
  assert (EV : TR_V 1 = 0.01703026 / 225) by (unfold TR_V; rewrite P; lra).
  rewrite (C76_published nh3 h2o T rho 1 0 a0 a1) by (rewrite ?ET, ?EV; try assumption; lra). rewrite E0. do 2 f_equal.
  unfold TR_departure. rewrite P. ring.
Qed.
(** Pure water cannot be calculated, although the limit exists: the reducing parameters tend to
    those of water and the departure to zero *)
Theorem C76_water_refuted : forall nh3 h2o T rho, aw_alphar nh3 h2o T rho [0; 1] = Some (Err InvalidArgument).
Proof. intros. unfold aw_alphar, aw_Tred. destruct (Req_EM_T 0 0); [reflexivity|lra]. Qed.
Theorem C76_water_limit : forall x, 0 < x <= 1 ->
  Rabs (TR_T x - 647.096) <= 3000 * x /\ Rabs (TR_V x - 0.018015268 / 322) <= x / 1000 /\
  forall tau delta, exists K, forall x, 0 < x <= 1 -> Rabs (TR_departure tau delta x) <= K * x.
Proof.
  intros x X. split; [|split].
  - unfold TR_T. pose proof (power_le_1 x 1.125455 X ltac:(lra)) as [P0 P1]. set (p := Rpower x 1.125455) in *.
    apply Rabs_le. split; nra.
  - unfold TR_V. pose proof (power_le_1 x 0.8978069 X ltac:(lra)) as [P0 P1]. set (p := Rpower x 0.8978069) in *.
    assert (A : 0.0000559 < 0.018015268 / 322 < 0.000056) by lra. assert (B : 0.0000756 < 0.01703026 / 225 < 0.0000757) by lra.
    set (a := 0.018015268 / 322) in *. set (b := 0.01703026 / 225) in *. clearbody a b p.
    assert (Q : 0 <= (1 - p) * (1.2395117 / 2 * (a + b)) <= 0.0000817) by (split; nra).
    assert (Q2 : 0 <= 2 * x * ((1 - p) * (1.2395117 / 2 * (a + b))) <= 2 * x * 0.0000817) by (split; nra).
    replace ((1 - x) ^ 2 * a + x ^ 2 * b + 2 * x * (1 - p) * (1.2395117 / 2 * (a + b)) - a)
      with (x * (x * (a + b) - 2 * a) + 2 * x * ((1 - p) * (1.2395117 / 2 * (a + b)))) by ring.
    assert (Q3 : - 0.000112 <= x * (a + b) - 2 * a <= 0.0000757) by (split; nra).
    apply Rabs_le. split; nra.
  - intros tau delta.
    set (A := - 0.01855822 * Rpower tau 1.5 * delta ^ 4 + total (TR_term tau delta) TR_2_6).
    set (B := total (TR_term tau delta) TR_7_13). set (C := TR_term tau delta (- 0.7777897, 4, 2%nat, 2%nat)).
    exists (Rabs A + Rabs B + Rabs C). intros z Z. unfold TR_departure. fold A B C.
    pose proof (power_le_1 z 0.5248379 Z ltac:(lra)) as [P0 P1]. set (p := Rpower z 0.5248379) in *. clearbody p.
    rewrite Rabs_mult. rewrite (Rabs_pos_eq (z * (1 - p))) by (apply Rmult_le_pos; lra).
    assert (S : Rabs (A + z * B + z ^ 2 * C) <= Rabs A + Rabs B + Rabs C).
    { apply Rle_trans with (Rabs A + Rabs (z * B) + Rabs (z ^ 2 * C)).
      - apply Rle_trans with (Rabs (A + z * B) + Rabs (z ^ 2 * C)); [apply Rabs_triang|]. pose proof (Rabs_triang A (z * B)). lra.
      - rewrite !Rabs_mult. rewrite (Rabs_pos_eq z) by lra. rewrite (Rabs_pos_eq (z ^ 2)) by nra.
        pose proof (Rabs_pos B). pose proof (Rabs_pos C). assert (z ^ 2 <= 1) by nra. nra. }
    pose proof (Rabs_pos (A + z * B + z ^ 2 * C)). assert (0 <= z * (1 - p) <= z) by (split; nra).
    apply Rle_trans with (z * Rabs (A + z * B + z ^ 2 * C)); [nra|]. rewrite (Rmult_comm _ z). apply Rmult_le_compat_l; lra.
Qed.
(** Without density the departure vanishes *)
Theorem C76_ideal_gas : forall nh3 h2o T x y, 0 < x <= 1 -> 0 < T -> (forall tau, 0 < tau -> nh3 tau 0 = Some (Val 0) /\ h2o tau 0 = Some (Val 0)) ->
  aw_alphar nh3 h2o T 0 [x; y] = Some (Val 0).
Proof.
  intros nh3 h2o T x y X HT P. assert (PT : 0 < TR_T x / T) by (apply Rdiv_lt_0_compat; [now apply TR_T_pos|exact HT]). destruct (P _ PT) as [E0 E1].
  rewrite (C76_published nh3 h2o T 0 x y 0 0) by (rewrite ?Rmult_0_l; try assumption; lra). do 2 f_equal. rewrite Rmult_0_l.
  unfold TR_departure, TR_2_6, TR_7_13, TR_term. cbn [total]. ring.
Qed.
(** The fraction of water is not looked at *)
Theorem C76_second_fraction : forall nh3 h2o T rho x y z, aw_alphar nh3 h2o T rho [x; y] = aw_alphar nh3 h2o T rho [x; z].
Proof. intros. reflexivity. Qed.
Theorem C76_components : forall nh3 h2o T rho x, length x <> 2%nat -> aw_alphar nh3 h2o T rho x = Some (Err InvalidArgument).
Proof. intros nh3 h2o T rho [|a [|b [|c x]]] H; try reflexivity. exfalso. now apply H. Qed.
Example C76_met : exists v, aw_alphar (fun _ d => Some (Val d)) (fun t d => Some (Val (t * d))) 400 1000 [0.5; 0.5] = Some (Val v).
Proof. eexists. apply C76_published; try lra; reflexivity. Qed.

(** * C77: extended corresponding states *)
(** The reference fluid at the conformal state *)
Theorem C77_conformal : forall ref e T rho x c0 c1 l d0 d1 l', e_f e = c0 :: c1 :: l -> e_h e = d0 :: d1 :: l' -> 0 < T -> 0 < e_T e -> 0 < e_Tr e ->
  e_Z e <> 0 -> e_r e <> 0 ->
  let theta := HE_theta (e_w e - e_wr e) c0 c1 (T / e_T e) in let phi := HE_phi (e_Zr e) (e_Z e) (e_w e - e_wr e) d0 d1 (T / e_T e) in
  theta <> 0 -> ecs_alphar ref e T rho x = ref (T / (e_T e / e_Tr e * theta)) (rho * (e_rr e / e_r e * phi)) x.
Proof.
  intros ref e T rho x c0 c1 l d0 d1 l' Ef Eh HT H1 H2 H3 H4 theta phi N. unfold ecs_alphar. rewrite Ef, Eh. rewrite cdiv_nz by lra. unfold obind, fin, ok.
  unfold clog. destruct (Rlt_dec 0 (T / e_T e)) as [_|C]; [|exfalso; apply C; now apply Rdiv_lt_0_compat].
  rewrite !cdiv_nz by (try assumption; lra). rewrite cdiv_nz; [reflexivity|]. apply Rmult_integral_contrapositive_currified; [|exact N].
  apply Rgt_not_eq. now apply Rdiv_lt_0_compat.
Qed.
(** A fluid with the constants of the reference fluid is the reference fluid, whatever the
    coefficients are *)
Theorem C77_reference : forall ref e T rho x, (2 <= length (e_f e))%nat -> (2 <= length (e_h e))%nat -> 0 < T -> 0 < e_T e -> e_Z e <> 0 -> e_r e <> 0 ->
  e_wr e = e_w e -> e_Zr e = e_Z e -> e_Tr e = e_T e -> e_rr e = e_r e -> ecs_alphar ref e T rho x = ref T rho x.
Proof.
  intros ref e T rho x Lf Lh HT H1 H3 H4 E1 E2 E3 E4.
  destruct (e_f e) as [|c0 [|c1 l]] eqn:Ef; cbn in Lf; try lia. destruct (e_h e) as [|d0 [|d1 l']] eqn:Eh; cbn in Lh; try lia.
  assert (TH : HE_theta (e_w e - e_wr e) c0 c1 (T / e_T e) = 1) by (unfold HE_theta; rewrite E1; ring).
  rewrite (C77_conformal ref e T rho x c0 c1 l d0 d1 l') by (try assumption; try lra; rewrite TH; lra). rewrite TH. unfold HE_phi. rewrite E1, E2, E3, E4. f_equal; field; lra.
Qed.
(** ... as far as the residual energy is concerned: the gas constant is not that of the reference
    fluid, and the pressures differ *)
Theorem C77_gas_constant_refuted : forall r T rho Ar01, 0 < T -> 0 < rho -> 1 + Ar01 <> 0 -> r <> R_gas ->
  rho * ecs_R * T * (1 + Ar01) <> rho * r * T * (1 + Ar01).
Proof.
  intros r T rho Ar01 HT HR A N E. apply N. unfold ecs_R in E. apply (Rmult_eq_reg_l (rho * T * (1 + Ar01))); [rewrite !(Rmult_comm _ r), !(Rmult_comm _ R_gas); lra|].
  apply Rmult_integral_contrapositive_currified; [|exact A]. apply Rgt_not_eq. now apply Rmult_lt_0_compat.
Qed.
Example C77_gas_constant_met : 8.314371357587 <> R_gas.
Proof. unfold R_gas. lra. Qed.
(** Fluids with one acentric factor follow the simple law of corresponding states *)
Theorem C77_simple : forall ref e T rho x, (2 <= length (e_f e))%nat -> (2 <= length (e_h e))%nat -> 0 < T -> 0 < e_T e -> 0 < e_Tr e -> e_Z e <> 0 -> e_r e <> 0 ->
  e_wr e = e_w e -> e_Zr e = e_Z e -> ecs_alphar ref e T rho x = ref (e_Tr e * (T / e_T e)) (e_rr e * (rho / e_r e)) x.
Proof.
  intros ref e T rho x Lf Lh HT H1 H2 H3 H4 E1 E2.
  destruct (e_f e) as [|c0 [|c1 l]] eqn:Ef; cbn in Lf; try lia. destruct (e_h e) as [|d0 [|d1 l']] eqn:Eh; cbn in Lh; try lia.
  assert (TH : HE_theta (e_w e - e_wr e) c0 c1 (T / e_T e) = 1) by (unfold HE_theta; rewrite E1; ring).
  rewrite (C77_conformal ref e T rho x c0 c1 l d0 d1 l') by (try assumption; try lra; rewrite TH; lra). rewrite TH. unfold HE_phi. rewrite E1, E2. f_equal; field; repeat split; try assumption; lra.
Qed.
(** The constructor accepts any number of coefficients, the evaluation reads two of each *)
Definition ecs_json (fc hc : list R) : json :=
  JObj [("reference_fluid", JObj [("name", JStr "R113"); ("acentric", JNum 0.25253); ("Z_crit", JNum 0.280191); ("T_crit / K", JNum 487.21); ("rhomolar_crit / mol/m^3", JNum 2988.659)]);
        ("fluid", JObj [("acentric", JNum 0.3297); ("Z_crit", JNum 0.2714); ("T_crit / K", JNum 374.18); ("rhomolar_crit / mol/m^3", JNum 5030.4);
                        ("f_T_coeffs", JArr (map JNum fc)); ("h_T_coeffs", JArr (map JNum hc))])]%string.
Theorem C77_coefficients_refuted : forall M (build : json -> res M) m fc hc, build (JStr "R113") = Val m ->
  exists e, make_ecs build (ecs_json fc hc) = Val (m, e) /\
  forall ref T rho x, 0 < T -> (length fc < 2)%nat \/ (length hc < 2)%nat -> ecs_alphar ref e T rho x = None.
Proof.
  intros M build m fc hc B. eexists. split.
  - unfold make_ecs, ecs_json, jnum. cbn [j_at lookup String.eqb Ascii.eqb Bool.eqb bind]. rewrite B. cbn [bind j_double]. 
    change (j_at (JObj [("acentric"%string, JNum 0.3297); ("Z_crit"%string, JNum 0.2714); ("T_crit / K"%string, JNum 374.18); ("rhomolar_crit / mol/m^3"%string, JNum 5030.4);
                        ("f_T_coeffs"%string, JArr (map JNum fc)); ("h_T_coeffs"%string, JArr (map JNum hc))]) "f_T_coeffs") with (Val (JArr (map JNum fc))).
    cbn [bind]. rewrite !valarray_nums. cbn [bind]. reflexivity.
  - intros ref T rho x HT L. unfold ecs_alphar. cbn [e_T e_f e_h]. rewrite cdiv_nz by lra. unfold obind, fin, ok.
    destruct fc as [|? [|? ?]], hc as [|? [|? ?]]; try reflexivity. cbn in L. lia.
Qed.
Example C77_met : exists m e, make_ecs (fun j => j_string j) (ecs_json [0.02; -0.9] [0.3; -0.1]) = Val (m, e) /\ (2 <= length (e_f e))%nat /\ (2 <= length (e_h e))%nat /\
  0 < e_T e /\ 0 < e_Tr e /\ e_Z e <> 0 /\ e_r e <> 0 /\ HE_theta (e_w e - e_wr e) 0.02 (-0.9) (374.18 / e_T e) <> 0.
Proof.
  do 2 eexists. split; [reflexivity|]. cbn [e_f e_h e_T e_Tr e_Z e_r e_w e_wr length]. repeat split; try lra; try lia.
  unfold HE_theta. replace (374.18 / 374.18) with 1 by lra. rewrite ln_1. lra.
Qed.
(** The constants are read from the two objects, each from its own key; anything that is missing or
    of another type is refused. *)
Definition holds (j : json) (k : string) (v : json) : Prop := exists o, j = JObj o /\ lookup k o = Some v.
Lemma at_holds : forall j k v, j_at j k = Val v <-> holds j k v.
Proof.
  intros j k v. unfold holds. split.
  - destruct j as [| | | | |o]; try discriminate. cbn [j_at]. destruct (lookup k o) eqn:E; [|discriminate]. intro H. injection H as <-. eauto.
  - intros (o & -> & E). cbn [j_at]. now rewrite E.
Qed.
Lemma bind_iff : forall A B (a : res A) (f : A -> res B) b, bind a f = Val b <-> exists v, a = Val v /\ f v = Val b.
Proof. intros A B [v|e] f b; cbn; split; [eauto|intros (w & E & H); injection E as <-; exact H|discriminate|intros (w & E & _); discriminate]. Qed.
Lemma num_holds : forall j k r, jnum j k = Val r <-> holds j k (JNum r).
Proof.
  intros j k r. unfold jnum. rewrite bind_iff. split.
  - intros (v & H & E). apply at_holds in H. destruct v; try discriminate. injection E as ->. exact H.
  - intro H. exists (JNum r). split; [now apply at_holds|reflexivity].
Qed.
Lemma map_nums : forall l rs, map_res j_double l = Val rs <-> l = map JNum rs.
Proof.
  induction l as [|j l IH]; intro rs; cbn [map_res].
  - split; [intro H; injection H as <-; reflexivity|destruct rs; [reflexivity|discriminate]].
  - rewrite bind_iff. split.
    + intros (v & E & H). apply bind_iff in H as (vs & E' & H). injection H as <-. apply IH in E' as ->. destruct j; try discriminate. injection E as ->. reflexivity.
    + destruct rs as [|r rs]; [discriminate|]. cbn [map]. intro H. injection H as -> E. exists r. split; [reflexivity|]. apply bind_iff. exists rs. split; [now apply IH|reflexivity].
Qed.
Lemma array_holds : forall j k rs, bind (j_at j k) (j_valarray j_double) = Val rs <-> holds j k (JArr (map JNum rs)).
Proof.
  intros j k rs. rewrite bind_iff. split.
  - intros (v & H & E). apply at_holds in H. destruct v as [| | | |l|]; try discriminate. cbn [j_valarray] in E. apply map_nums in E as ->. exact H.
  - intro H. exists (JArr (map JNum rs)). split; [now apply at_holds|]. cbn [j_valarray]. now apply map_nums.
Qed.
Theorem C77_read : forall M (build : json -> res M) j m e, make_ecs build j = Val (m, e) <->
  exists r f name, holds j "reference_fluid" r /\ holds j "fluid" f /\ holds r "name" name /\ build name = Val m /\
    holds r "acentric" (JNum (e_wr e)) /\ holds r "Z_crit" (JNum (e_Zr e)) /\ holds r "T_crit / K" (JNum (e_Tr e)) /\ holds r "rhomolar_crit / mol/m^3" (JNum (e_rr e)) /\
    holds f "acentric" (JNum (e_w e)) /\ holds f "Z_crit" (JNum (e_Z e)) /\ holds f "T_crit / K" (JNum (e_T e)) /\ holds f "rhomolar_crit / mol/m^3" (JNum (e_r e)) /\
    holds f "f_T_coeffs" (JArr (map JNum (e_f e))) /\ holds f "h_T_coeffs" (JArr (map JNum (e_h e))).
Proof.
  intros M build j m e. unfold make_ecs. split.
  - intro H. repeat (apply bind_iff in H as (? & ? & H)). injection H as <- <-. cbn [e_wr e_Zr e_Tr e_rr e_w e_Z e_T e_r e_f e_h].
    repeat match goal with E : bind (j_at _ _) (j_valarray _) = Val _ |- _ => apply array_holds in E | E : jnum _ _ = Val _ |- _ => apply num_holds in E | E : j_at _ _ = Val _ |- _ => apply at_holds in E | E : bind (j_at _ _) build = Val _ |- _ => apply bind_iff in E as (? & ? & ?) end.
    do 3 eexists. repeat (split; [eassumption|]). eassumption.
  - intros (r & f & name & H1 & H2 & H3 & H4 & H5 & H6 & H7 & H8 & H9 & H10 & H11 & H12 & H13 & H14).
    repeat match goal with E : holds _ _ (JNum _) |- _ => apply num_holds in E; rewrite ?E | E : holds _ _ (JArr (map JNum _)) |- _ => apply array_holds in E end. apply at_holds in H1, H2, H3.
    rewrite H1. cbn [bind]. rewrite H3. cbn [bind]. rewrite H4. cbn [bind]. rewrite H5. cbn [bind]. rewrite H6. cbn [bind]. rewrite H7. cbn [bind]. rewrite H8. cbn [bind]. rewrite H2. cbn [bind]. rewrite H9. cbn [bind]. rewrite H10. cbn [bind]. rewrite H11. cbn [bind]. rewrite H12. cbn [bind]. rewrite H13. cbn [bind]. rewrite H14. cbn [bind]. destruct e; reflexivity.
Qed.
Print Assumptions C76_reducing.
Print Assumptions C76_published.
Print Assumptions C76_ammonia.
Print Assumptions C76_water_refuted.
Print Assumptions C76_water_limit.
Print Assumptions C76_ideal_gas.
Print Assumptions C76_second_fraction.
Print Assumptions C76_components.
Print Assumptions C77_conformal.
Print Assumptions C77_reference.
Print Assumptions C77_gas_constant_refuted.
Print Assumptions C77_simple.
Print Assumptions C77_coefficients_refuted.
Print Assumptions C77_read.
