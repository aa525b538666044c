(** C39: PC-SAFT, the hard-chain and dispersion contributions. *)
From Coq Require Import Reals ZArith String List Lra Lia Psatz.
From Coquelicot Require Import Coquelicot.
From Verif Require Import Util_model Json_model Cubic_model Vec_spec Vec_proofs Terms_model Ideal_model Ideal_proofs Derivs_proofs2 Assoc_model Assoc_proofs3 Properties_Ideal PCSAFT_model PCSAFT_spec PCSAFT_proofs.
Import ListNotations.
Open Scope R_scope.

(** ** C1 and C2 *)
(** C1 is the reciprocal of the documented compressibility expression, which is positive for
    chains of any length at any packing fraction below one: no pole can be met. *)
Theorem C39_C1 : forall eta mbar, 0 <= eta < 1 -> 0 < mbar -> 0 < chain_Z eta mbar /\ C1 eta mbar = Some (/ chain_Z eta mbar).
Proof.
  intros eta m He Hm. pose proof (chain_Z_pos eta m He Hm). split; auto. apply C1_val; lra.
Qed.
(** Wherever C1 has a value, it has one nearby, and C2 is its derivative *)
Theorem C39_C2_derivative : forall eta mbar c, C1 eta mbar = Some c ->
  exists f c2, (forall c', C1 eta mbar = Some c' -> f eta = c') /\ locally eta (fun e => C1 e mbar = Some (f e)) /\ C2 eta mbar = Some c2 /\ is_derive f eta c2.
Proof.
  intros eta m c H. destruct (C1_some _ _ _ H) as [H1 [H2 H3]].
  assert (D : is_derive (fun e => chain_Z e m) eta
    (m * (- 4 * eta * eta + 20 * eta + 8) / (1 - eta) ^ 5 + (1 - m) * (2 * eta * eta * eta + 12 * eta * eta - 48 * eta + 40) / ((1 - eta) * (2 - eta)) ^ 3)).
  { unfold chain_Z. assert (1 - eta <> 0) by lra. assert (2 - eta <> 0) by lra. auto_derive.
    - repeat split; auto; repeat apply Rmult_integral_contrapositive_currified; auto; lra.
    - field. split; lra. }
  exists (fun e => / chain_Z e m). eexists. split; [|split; [|split]].
  - intros c' H'. rewrite (C1_val eta m H1 H2 H3) in H'. injection H' as <-. reflexivity.
  - assert (L1 : locally eta (fun e => e <> 1)) by (apply (open_neq 1); auto).
    assert (L2 : locally eta (fun e => e <> 2)) by (apply (open_neq 2); auto).
    assert (L3 : locally eta (fun e => chain_Z e m <> 0)).
    { pose proof (ex_derive_continuous _ _ (ex_intro _ _ D)) as K. exact (K (fun y => y <> 0) (open_neq 0 _ H3)). }
    generalize (filter_and _ _ L1 (filter_and _ _ L2 L3)). apply filter_imp. intros e [A [B C]]. apply C1_val; auto.
  - unfold C2. rewrite (C1_val eta m H1 H2 H3). cbn [opt_bind].
    rewrite cdiv_nz by (apply pow_nonzero; lra). cbn [opt_bind].
    rewrite cdiv_nz by (apply pow_nonzero; apply Rmult_integral_contrapositive_currified; lra). cbn [opt_bind]. reflexivity.
  - evar_last. { apply is_derive_inv; [exact D|auto]. } 
    simpl. field. repeat split; auto; lra.
Qed.

(** ** the hard-sphere term *)
(** The formula used when the packing fraction is zero and the general one are the same function
    of the density wherever the latter makes sense *)
Theorem C39_hs_branches : forall D r, 0 < D 0%nat -> 0 < D 3%nat -> D 3%nat * r < 1 -> r <> 0 ->
  let zeta n := D n * r in
  hs_zero zeta D = hs_general zeta /\ hs_general zeta = Some (BMCSL (zeta 0%nat) (zeta 1%nat) (zeta 2%nat) (zeta 3%nat)).
Proof.
  intros D r H0 H3 HU Hr zeta. unfold zeta. rewrite hs_zero_val, hs_general_val by auto. split; [reflexivity|].
  apply Some_eq. apply hs_BMCSL; auto.
Qed.
Lemma hs_derive : forall D, 0 < D 0%nat -> 0 < D 3%nat -> is_derive (hs D) 0 (3 * D 1%nat * D 2%nat / D 0%nat + D 3%nat).
Proof.
  intros D H0 H3. unfold hs. auto_derive.
    + repeat split; rewrite ?Rmult_0_r, ?Rminus_0_r; try lra; try (apply Rgt_not_eq; repeat apply Rmult_lt_0_compat; lra).
    + field. lra.
Qed.
(** At every density below close packing the term has a value; it is zero at zero density and its
    slope there is that of the documented mixture *)
Theorem C39_hs_low_density : forall D, 0 < D 0%nat -> 0 < D 3%nat ->
  exists f, (forall r, D 3%nat * r < 1 -> get_alphar_hs (fun n => D n * r) D = Some (f r)) /\
    (forall r, D 3%nat * r < 1 -> r <> 0 -> f r = BMCSL (D 0%nat * r) (D 1%nat * r) (D 2%nat * r) (D 3%nat * r)) /\
    f 0 = 0 /\ is_derive f 0 (3 * D 1%nat * D 2%nat / D 0%nat + D 3%nat).
Proof.
  intros D H0 H3. exists (hs D). split; [|split; [|split]].
  - intros; apply hs_val; auto.
  - intros; apply hs_BMCSL; auto.
  - apply hs_0.
  - apply hs_derive; auto.
Qed.
(** With equal spheres it is the expression of Carnahan and Starling *)
Theorem C39_hs_Carnahan_Starling : forall d c eta, 0 < d -> 0 < c -> 0 <= eta < 1 ->
  let D n := c * d ^ n in
  get_alphar_hs (fun n => D n * (eta / (c * d ^ 3))) D = Some ((4 * eta - 3 * eta ^ 2) / (1 - eta) ^ 2).
Proof.
  intros d c eta Hd Hc He D. unfold D.
  assert (P : 0 < c * d ^ 3) by (apply Rmult_lt_0_compat; [auto|apply pow_lt; auto]).
  assert (E : c * d ^ 3 * (eta / (c * d ^ 3)) = eta) by (field; split; lra).
  rewrite (hs_val (fun n => c * d ^ n) (eta / (c * d ^ 3))); [|cbv beta; simpl; lra|auto|rewrite E; lra].
  apply Some_eq. unfold hs. rewrite E. simpl pow. field. repeat split; lra.
Qed.

(** ** the residual Helmholtz energy of mixtures without polar parts *)
Lemma alphar_plain : forall s T rho x, state s T rho x -> pdip s = None -> pquad s = None ->
  pcsaft_alphar s T rho x = ok (hc_plain s T rho x + disp_doc s T rho x).
Proof.
  intros s T rho x [HC [HA [HT [Hr He]]]] Hd Hq. unfold pcsaft_alphar.
  rewrite (proj1 HA), Nat.eqb_refl. cbn [negb]. rewrite (hardchain_val s T rho x HC HA HT Hr He), Hd, Hq. cbn [opt_bind fin h_hc h_disp].
  rewrite !Rplus_0_r. reflexivity.
Qed.
Lemma numdens_pos : forall rho, 0 < rho -> 0 < numdens rho.
Proof. intros. unfold numdens, N_A. apply Rmult_lt_0_compat; [apply Rmult_lt_0_compat; [auto|]|]; lra. Qed.
(** In every state it has a value: the documented one, and zero at zero density *)
Theorem C39_value : forall s T rho x, state s T rho x -> pdip s = None -> pquad s = None ->
  (rho = 0 -> pcsaft_alphar s T rho x = ok 0) /\
  (0 < rho -> pcsaft_alphar s T rho x = ok (hc_doc s T rho x + disp_doc s T rho x)).
Proof.
  intros s T rho x HS Hd Hq. pose proof (alphar_plain s T rho x HS Hd Hq) as E. destruct HS as [HC [HA [HT [Hr He]]]].
  pose proof (DD_pos s T x HC HA HT) as PD. split; intros R0.
  - rewrite E. f_equal. f_equal. subst rho. assert (N0 : numdens 0 = 0) by (unfold numdens, Rdiv; ring).
    unfold hc_plain, disp_doc. rewrite N0, hs_0, !Rmult_0_r, !Rmult_0_l.
    rewrite (sumn_ext _ _ (fun _ => 0)).
    + rewrite sumn_zero by reflexivity. ring.
    + intros i Hi. rewrite !xi_DD, N0, !Rmult_0_r. unfold contact.
      replace (1 / (1 - 0) + diam s T i / 2 * (3 * 0 / (1 - 0) ^ 2) + (diam s T i / 2) ^ 2 * (2 * 0 ^ 2 / (1 - 0) ^ 3)) with 1 by field.
      rewrite ln_1. ring.
  - rewrite E. f_equal. f_equal. f_equal. unfold hc_plain, hc_doc. rewrite hs_BMCSL; auto.
    + rewrite !xi_DD. reflexivity.
    + unfold packing in He. rewrite xi_DD in He. auto.
    + apply Rgt_not_eq. apply numdens_pos. auto.
Qed.
Lemma derive_at_0 : forall h : R -> R, ex_derive h 0 -> is_derive (fun r => r * h r) 0 (h 0).
Proof.
  intros h [l Hl]. evar_last. { apply (is_derive_mult (fun r => r) h 0 1 l); [apply (is_derive_id (K := R_AbsRing))|exact Hl|]. intros; apply Rmult_comm. }
  change (1 * h 0 + 0 * l = h 0). ring.
Qed.
Lemma contact_derive : forall d a b, is_derive (fun r => ln (contact d (a * r) (b * r))) 0 (b + 3 / 2 * d * a).
Proof.
  intros d a b. unfold contact. auto_derive.
  - rewrite !Rmult_0_r, !Ropp_0, !Rplus_0_r. repeat split; try lra.
  - rewrite !Rmult_0_r, !Ropp_0, !Rplus_0_r. field.
Qed.
Lemma linear_derive : forall a b, is_derive (fun r => r * a / b) 0 (a / b).
Proof. intros. auto_derive; [exact I|unfold Rdiv; ring]. Qed.
Lemma ex_series : forall c m k, ex_derive (fun r => power_series c m (k * r)) 0.
Proof. intros. unfold power_series. simpl sumn. auto_derive. exact I. Qed.
Lemma series_0 : forall c m k, power_series c m (k * 0) = table c 0 0 + (m - 1) / m * table c 1 0 + (m - 1) / m * ((m - 2) / m) * table c 2 0.
Proof. intros. unfold power_series. rewrite Rmult_0_r. simpl sumn. simpl pow. ring. Qed.
(** The slope at zero density, the second virial coefficient, in closed form *)
Theorem C39_virial : forall s T x, chains s -> amounts s x -> 0 < T -> pdip s = None -> pquad s = None ->
  let M := moment s T x in
  exists f, (forall rho, 0 <= rho -> packing s T rho x < 1 -> pcsaft_alphar s T rho x = ok (f rho)) /\
  is_derive f 0 (N_A / 10 ^ 30 *
    (chain s x * (PI / 6 * (3 * M 1%nat * M 2%nat / M 0%nat + M 3%nat))
     - sumn (length x) (fun i => nth i x 0 * ((nth i (pm s) 0 - 1) * (PI / 6 * (M 3%nat + 3 / 2 * diam s T i * M 2%nat))))
     - 2 * PI * (table (pa s) 0 0 + (chain s x - 1) / chain s x * table (pa s) 1 0 + (chain s x - 1) / chain s x * ((chain s x - 2) / chain s x) * table (pa s) 2 0) * pair_mean s T x 1
     - PI * chain s x * (table (pb s) 0 0 + (chain s x - 1) / chain s x * table (pb s) 1 0 + (chain s x - 1) / chain s x * ((chain s x - 2) / chain s x) * table (pb s) 2 0) * pair_mean s T x 2)).
Proof.
  intros s T x HC HA HT Hd Hq M. pose proof (DD_pos s T x HC HA HT) as PD. set (D := DD s T x) in *.
  set (mb := chain s x). assert (Pm : 0 < mb) by (apply chain_pos; auto).
  set (g := fun r => mb * hs D r
     - sumn (length x) (fun i => nth i x 0 * ((nth i (pm s) 0 - 1) * ln (contact (diam s T i) (D 2%nat * r) (D 3%nat * r))))
     + r * (- 2 * PI * pair_mean s T x 1 * power_series (pa s) mb (D 3%nat * r)
            - PI * mb * pair_mean s T x 2 * (/ chain_Z (D 3%nat * r) mb * power_series (pb s) mb (D 3%nat * r)))).
  exists (fun rho => g (numdens rho)). split.
  - intros rho Hr He. rewrite alphar_plain; auto. 2: { split; [auto|split; [auto|split; [auto|split; auto]]]. }
    f_equal. f_equal. unfold g, hc_plain, disp_doc, packing. fold D mb. rewrite !xi_DD. fold D. ring.
  - assert (G : is_derive g 0 (mb * (3 * D 1%nat * D 2%nat / D 0%nat + D 3%nat)
        - sumn (length x) (fun i => nth i x 0 * ((nth i (pm s) 0 - 1) * (D 3%nat + 3 / 2 * diam s T i * D 2%nat)))
        + (- 2 * PI * pair_mean s T x 1 * power_series (pa s) mb (D 3%nat * 0)
            - PI * mb * pair_mean s T x 2 * (/ chain_Z (D 3%nat * 0) mb * power_series (pb s) mb (D 3%nat * 0))))).
    { unfold g. apply (is_derive_plus (V := R_NormedModule)). apply (is_derive_minus (V := R_NormedModule)).
      - apply (is_derive_scal (hs D) 0 mb). apply hs_derive; apply PD.
      - apply is_derive_sumn. intros i Hi. apply (is_derive_scal _ 0 (nth i x 0)). apply (is_derive_scal _ 0 (nth i (pm s) 0 - 1)). apply contact_derive.
      - apply (derive_at_0 (fun r => - 2 * PI * pair_mean s T x 1 * power_series (pa s) mb (D 3%nat * r)
            - PI * mb * pair_mean s T x 2 * (/ chain_Z (D 3%nat * r) mb * power_series (pb s) mb (D 3%nat * r)))).
        apply (ex_derive_minus (V := R_NormedModule)).
        + apply (ex_derive_scal (fun r => power_series (pa s) mb (D 3%nat * r)) _ 0). apply ex_series.
        + apply (ex_derive_scal (fun r => / chain_Z (D 3%nat * r) mb * power_series (pb s) mb (D 3%nat * r)) _ 0).
          apply ex_derive_mult; [|apply ex_series]. unfold chain_Z. auto_derive.
          rewrite !Rmult_0_r, !Ropp_0, !Rplus_0_r. repeat split; lra. }
    assert (DN : is_derive numdens 0 (N_A / 10 ^ 30)) by (unfold numdens; apply linear_derive).
    evar_last.
    { apply (is_derive_comp g numdens 0). - replace (numdens 0) with 0 by (unfold numdens, Rdiv; ring). exact G.
      - exact DN. }
    match goal with |- @eq _ (scal ?a ?b) ?c => change (@eq R (Rmult a b) c) end. rewrite !series_0. assert (Z0 : chain_Z (D 3%nat * 0) mb = 1) by (unfold chain_Z; field; lra). rewrite Z0.
    unfold D, DD. fold M. rewrite (sumn_ext _ _ (fun i => PI / 6 * nth i x 0 * ((nth i (pm s) 0 - 1) * (M 3%nat + 3 / 2 * diam s T i * M 2%nat)))) by (intros; ring).
    rewrite (sumn_ext _ (fun i => nth i x 0 * ((nth i (pm s) 0 - 1) * (PI / 6 * _))) (fun i => PI / 6 * nth i x 0 * ((nth i (pm s) 0 - 1) * (M 3%nat + 3 / 2 * diam s T i * M 2%nat)))) by (intros; ring).
    assert (0 < M 0%nat) by (apply moment_pos; auto). pose proof PI_RGT_0. field. repeat split; lra.
Qed.

(** ** the largest density *)
Theorem C39_max_density : forall s T x, chains s -> amounts s x -> 0 < T ->
  exists rN, max_rhoN s T x = Some rN /\ 0 < rN /\ packing s T (rN / N_A) x = 0.74.
Proof.
  intros s T x HC HA HT. pose proof (moment_pos s T x HC HA HT 3) as PM. pose proof PI_RGT_0. pose proof (proj1 HA) as L.
  assert (PN : 0 < N_A) by (unfold N_A; lra).
  eexists. split; [|split].
  - unfold max_rhoN. rewrite (osequence_build _ (diam s T)) by (intros; cbn [Nat.add]; apply seg_d_val; lra). cbn [opt_bind].
    rewrite (sumn_ext (length (pm s)) _ (fun i => nth i x 0 * nth i (pm s) 0 * diam s T i ^ 3)).
    2: { intros i Hi. unfold nt. rewrite (nth_map_seq' _ _ _ Hi). reflexivity. }
    rewrite <- L. fold (moment s T x 3). rewrite cdiv_nz by lra. cbn [opt_bind]. reflexivity.
  - apply Rmult_lt_0_compat; [|lra]. apply Rdiv_lt_0_compat; [|auto]. apply Rdiv_lt_0_compat; lra.
  - unfold packing, xi, numdens. generalize 0.74. intros c. field. repeat split; lra.
Qed.

(** ** the implementation for pure fluids *)
Definition one_component (m sigma eps : R) : mixture :=
  {| pm := [m]; psigma := [sigma]; peps := [eps]; pkmat := [[0]]; pa := GrossSadowski2001_a; pb := GrossSadowski2001_b;
     pdip := None; pquad := None; pnames := []; pbib := [] |}.
Lemma pure_table_a : forall n i, (n < 7)%nat -> (i < 3)%nat -> nth i (nth n pure_coeff []) 0 = table GrossSadowski2001_a i n.
Proof. intros n i Hn Hi. do 7 (destruct n as [|n]; [do 3 (destruct i as [|i]; [cbn; lra|]); lia|]). lia. Qed.
Lemma pure_table_b : forall n i, (n < 7)%nat -> (i < 3)%nat -> nth (3 + i) (nth n pure_coeff []) 0 = table GrossSadowski2001_b i n.
Proof. intros n i Hn Hi. do 7 (destruct n as [|n]; [do 3 (destruct i as [|i]; [cbn; lra|]); lia|]). lia. Qed.
Ltac nz := repeat first [assumption | apply Rmult_integral_contrapositive_currified].
Theorem C39_pure : forall m sigma eps T rho, 0 < m -> 0 < sigma -> 0 <= eps -> 0 < T -> 0 <= rho ->
  packing (one_component m sigma eps) T rho [1] < 1 ->
  exists v, pure_alphar {| pu_m := m; pu_sigma := sigma; pu_eps := eps |} T rho = Some v /\
            pcsaft_alphar (one_component m sigma eps) T rho [1] = ok v.
Proof.
  intros m sg e T rho Hm Hs He HT Hr Hp. set (s := one_component m sg e) in *.
  assert (HC : chains s).
  { split; [reflexivity|]. split; [reflexivity|]. intros i Hi. cbn in Hi. assert (i = 0)%nat by lia. subst. cbn. lra. }
  assert (HA : amounts s [1]).
  { split; [reflexivity|]. split. - intros i Hi. cbn in Hi. assert (i = 0)%nat by lia. subst. cbn. lra. - exists 0%nat. cbn. split; [lia|lra]. }
  exists (hc_plain s T rho [1] + disp_doc s T rho [1]). split.
  2: { apply alphar_plain; auto. split; [auto|split; [auto|split; [auto|split; auto]]]. }
  set (d := diameter T sg e). assert (Pd : 0 < d) by (apply diameter_pos; auto).
  set (D := fun n => PI / 6 * m * d ^ n). set (r := numdens rho).
  pose proof PI_RGT_0 as PP.
  assert (ED : forall n, DD s T [1] n = D n).
  { intros n. unfold DD, moment, D. cbn [length sumn nth pm s one_component]. unfold diam. cbn [nth psigma peps s one_component]. fold d. ring. }
  assert (EX : forall n, xi s T rho [1] n = D n * r) by (intros; rewrite xi_DD, ED; reflexivity).
  assert (PD : forall n, 0 < D n) by (intros; unfold D; apply Rmult_lt_0_compat; [apply Rmult_lt_0_compat; lra|apply pow_lt; auto]).
  assert (Pr : 0 <= r) by (apply numdens_nonneg; auto).
  unfold packing in Hp. rewrite EX in Hp.
  assert (Cm : chain s [1] = m) by (unfold chain; cbn [length sumn nth pm s one_component]; ring).
  set (eta := D 3%nat * r) in *. assert (P0 : 0 <= eta) by (unfold eta; specialize (PD 3%nat); nra).
  unfold pure_alphar. cbn [pu_m pu_sigma pu_eps]. rewrite seg_d_val by lra. cbn [opt_bind]. fold d.
  change (fun n : nat => PI / 6 * m * d ^ n) with D.
  fold (numdens rho). fold r.
  replace (r * (PI / 6 * m * d ^ 0)) with (D 0%nat * r) by (unfold D; ring).
  replace (r * (PI / 6 * m * d ^ 1)) with (D 1%nat * r) by (unfold D; ring).
  replace (r * (PI / 6 * m * d ^ 2)) with (D 2%nat * r) by (unfold D; ring).
  replace (r * (PI / 6 * m * d ^ 3)) with eta by (unfold eta, D; ring).
  fold (D 0%nat) (D 1%nat) (D 2%nat) (D 3%nat).
  match goal with |- opt_bind ?h _ = _ => assert (EH : h = Some (hs D r)) end.
  { pose proof (PD 0%nat) as Q0. pose proof (PD 3%nat) as Q3. assert (PU : 0 < 1 - eta) by lra.
    destruct (Req_EM_T (D 0%nat * r) 0) as [E0|NE].
    - change (hs_zero (fun n => D n * r) D = Some (hs D r)). apply hs_zero_val; auto.
    - assert (Nr : r <> 0) by (intros E; apply NE; rewrite E; ring). assert (Ne : eta <> 0) by (apply Rmult_integral_contrapositive_currified; lra).
      assert (N1 : 1 - eta <> 0) by lra.
      rewrite cdiv_nz by lra. cbn [opt_bind]. rewrite cdiv_nz by nz. cbn [opt_bind].
      rewrite cdiv_nz by nz. cbn [opt_bind]. rewrite clog_pos by lra. cbn [opt_bind].
      rewrite cdiv_nz by auto. apply Some_eq. rewrite hs_BMCSL by auto. unfold BMCSL. fold eta. field. repeat split; auto; lra. }
  rewrite EH. cbn [opt_bind]. clear EH.
  assert (N1 : 1 - eta <> 0) by lra. assert (N2 : 2 - eta <> 0) by lra.
  rewrite cdiv_nz by auto. cbn [opt_bind]. rewrite cdiv_nz by nz. cbn [opt_bind].
  rewrite cdiv_nz by nz. cbn [opt_bind].
  match goal with |- opt_bind (clog ?g) _ = _ => replace g with (contact d (D 2%nat * r) eta) by (unfold contact; field; auto) end.
  rewrite clog_pos by (apply contact_pos; auto; specialize (PD 2%nat); nra). cbn [opt_bind].
  rewrite cdiv_nz by nz. cbn [opt_bind].
  rewrite cdiv_nz by nz. cbn [opt_bind].
  rewrite cdiv_nz by nz. cbn [opt_bind].
  match goal with |- context [1 + ?a + ?b] => replace (1 + a + b) with (chain_Z eta m) by (unfold chain_Z; field; auto) end.
  rewrite (osum_val 7 _ (fun n => (table GrossSadowski2001_a 0 n + (m - 1) / m * table GrossSadowski2001_a 1 n + (m - 1) / m * ((m - 2) / m) * table GrossSadowski2001_a 2 n) * eta ^ n)).
  2: { intros n Hn. unfold pure_im. rewrite !cdiv_nz by lra. cbn [opt_bind Nat.add]. rewrite !pure_table_a by (auto; lia). apply Some_eq. ring. }
  cbn [opt_bind].
  rewrite (osum_val 7 _ (fun n => (table GrossSadowski2001_b 0 n + (m - 1) / m * table GrossSadowski2001_b 1 n + (m - 1) / m * ((m - 2) / m) * table GrossSadowski2001_b 2 n) * eta ^ n)).
  2: { intros n Hn. unfold pure_im. rewrite !cdiv_nz by lra. cbn [opt_bind].
       change 3%nat with (3 + 0)%nat at 1. rewrite (pure_table_b n 0), (pure_table_b n 1), (pure_table_b n 2) by (auto; lia). apply Some_eq. ring. }
  cbn [opt_bind].
  fold (power_series GrossSadowski2001_a m eta) (power_series GrossSadowski2001_b m eta).
  assert (PZ : 0 < chain_Z eta m) by (apply chain_Z_pos; lra).
  rewrite cdiv_nz by lra. cbn [opt_bind]. rewrite cdiv_nz by lra. cbn [opt_bind]. rewrite cdiv_nz by (apply Rmult_integral_contrapositive_currified; lra). cbn [opt_bind].
  apply Some_eq. unfold hc_plain, disp_doc, packing. rewrite Cm. rewrite !EX. fold eta r.
  assert (EE : hs (DD s T [1]) r = hs D r) by (unfold hs; rewrite !ED; reflexivity). rewrite EE.
  assert (EP : forall p, pair_mean s T [1] p = m * m * (e / T) ^ p * sg ^ 3).
  { intros p. unfold pair_mean, pair_energy, pair_size, table. cbn [length sumn nth pm psigma peps pkmat s one_component].
    rewrite sqrt_square by auto. replace ((sg + sg) / 2) with sg by field. replace (e * (1 - 0)) with e by ring. ring. }
  rewrite !EP. cbn [length sumn nth pm pa pb s one_component]. unfold diam. cbn [nth psigma peps s one_component]. fold d.
  unfold kappa1, kappa2. cbn [pu_m pu_sigma pu_eps]. field. lra.
Qed.

(** * Concrete cases *)
(** Methane and ethane, half and half, at 300 K and 5000 mol/m^3 *)
Definition mix2 : mixture := {| pm := [1; 1.6069]; psigma := [3.7039; 3.5206]; peps := [150.03; 191.42]; pkmat := [[0; 0.01]; [0.01; 0]];
  pa := GrossSadowski2001_a; pb := GrossSadowski2001_b; pdip := None; pquad := None; pnames := ["Methane"; "Ethane"]%string; pbib := ["Gross-IECR-2001"; "Gross-IECR-2001"]%string |}.
Lemma mix2_chains : chains mix2.
Proof. split; [reflexivity|]. split; [reflexivity|]. intros [|[|i]] Hi; cbn in *; [lra|lra|lia]. Qed.
Lemma mix2_amounts : amounts mix2 [1 / 2; 1 / 2].
Proof. split; [reflexivity|]. split. - intros [|[|i]] Hi; cbn in *; [lra|lra|lia]. - exists 0%nat. cbn. split; [lia|lra]. Qed.
Lemma diameter_le : forall T sg e, 0 < sg -> 0 <= e -> 0 < T -> 0 <= diameter T sg e <= sg.
Proof. intros T sg e H1 H2 H3. pose proof (diameter_pos T sg e H3 H1 H2). split; [lra|]. unfold diameter. pose proof (exp_pos (- 3 * e / T)). nra. Qed.
Lemma packing_le : forall s T rho x, chains s -> amounts s x -> 0 < T -> 0 <= rho ->
  packing s T rho x <= PI / 6 * numdens rho * sumn (length x) (fun i => nth i x 0 * nth i (pm s) 0 * nth i (psigma s) 0 ^ 3).
Proof.
  intros s T rho x HC HA HT Hr. unfold packing, xi, moment. apply Rmult_le_compat_l.
  - apply Rmult_le_pos; [pose proof PI_RGT_0; lra|apply numdens_nonneg; auto].
  - apply sumn_le. intros i Hi. destruct HA as [L [P _]]. destruct HC as [_ [_ C]]. rewrite L in Hi. destruct (C i Hi) as [C1 [C2 C3]]. rewrite <- L in Hi.
    apply Rmult_le_compat_l. { apply Rmult_le_pos; [apply P; auto|lra]. } apply pow_incr. apply diameter_le; auto.
Qed.
Lemma numdens_5000 : numdens 5000 <= 0.0031.
Proof. unfold numdens, N_A. apply Rmult_le_reg_r with (10 ^ 30); [lra|]. unfold Rdiv. rewrite Rmult_assoc, Rinv_l by lra. lra. Qed.
Lemma mix2_packing : packing mix2 300 5000 [1 / 2; 1 / 2] < 1.
Proof.
  eapply Rle_lt_trans; [apply packing_le; [apply mix2_chains|apply mix2_amounts|lra|lra]|]. cbn [length sumn nth pm psigma mix2].
  pose proof numdens_5000 as N5. pose proof (numdens_nonneg 5000 ltac:(lra)) as N0. pose proof PI_4 as P4. pose proof PI_RGT_0 as P0.
  set (S0 := 0 + _ + _). assert (B : 0 <= S0 <= 70) by (unfold S0; lra).
  assert (Q : PI / 6 * numdens 5000 <= 0.0031) by nra. assert (0 <= PI / 6 * numdens 5000) by (apply Rmult_le_pos; lra). nra.
Qed.
Lemma mix2_state : state mix2 300 5000 [1 / 2; 1 / 2].
Proof. split; [apply mix2_chains|]. split; [apply mix2_amounts|]. split; [lra|]. split; [lra|]. apply mix2_packing. Qed.
Example C39_value_met : pcsaft_alphar mix2 300 5000 [1 / 2; 1 / 2] = ok (hc_doc mix2 300 5000 [1 / 2; 1 / 2] + disp_doc mix2 300 5000 [1 / 2; 1 / 2]) /\ pcsaft_alphar mix2 300 0 [1 / 2; 1 / 2] = ok 0.
Proof.
  split. { apply (proj2 (C39_value mix2 300 5000 _ mix2_state eq_refl eq_refl)). lra. }
  apply (C39_value mix2 300 0 [1 / 2; 1 / 2]); try reflexivity. split; [apply mix2_chains|]. split; [apply mix2_amounts|]. split; [lra|]. split; [lra|].
  unfold packing, xi, numdens. replace (PI / 6 * (0 * N_A / 10 ^ 30) * moment mix2 300 [1 / 2; 1 / 2] 3) with 0 by (unfold Rdiv; ring). lra.
Qed.
Example C39_virial_met : exists f v, (forall rho, 0 <= rho -> packing mix2 300 rho [1 / 2; 1 / 2] < 1 -> pcsaft_alphar mix2 300 rho [1 / 2; 1 / 2] = ok (f rho)) /\ is_derive f 0 v.
Proof.
  destruct (C39_virial mix2 300 [1 / 2; 1 / 2] mix2_chains mix2_amounts ltac:(lra) eq_refl eq_refl) as [f [A B]]. exists f. eexists. split; [exact A|exact B].
Qed.
Example C39_max_density_met : exists rN, max_rhoN mix2 300 [1 / 2; 1 / 2] = Some rN /\ 0 < rN /\ packing mix2 300 (rN / N_A) [1 / 2; 1 / 2] = 0.74.
Proof. apply C39_max_density; [apply mix2_chains|apply mix2_amounts|lra]. Qed.
Example C39_pure_met : exists v, pure_alphar {| pu_m := 1.6069; pu_sigma := 3.5206; pu_eps := 191.42 |} 300 5000 = Some v /\ pcsaft_alphar (one_component 1.6069 3.5206 191.42) 300 5000 [1] = ok v.
Proof.
  apply C39_pure; try lra. eapply Rle_lt_trans; [apply packing_le; [| |lra|lra]|].
  - split; [reflexivity|]. split; [reflexivity|]. intros [|i] Hi; cbn in *; [lra|lia].
  - split; [reflexivity|]. split. + intros [|i] Hi; cbn in *; [lra|lia]. + exists 0%nat. cbn. split; [lia|lra].
  - cbn [length sumn nth pm psigma one_component].
    pose proof numdens_5000 as N5. pose proof (numdens_nonneg 5000 ltac:(lra)) as N0. pose proof PI_4 as P4. pose proof PI_RGT_0 as P0.
    set (S0 := 0 + _). assert (B : 0 <= S0 <= 71) by (unfold S0; lra).
    assert (Q : PI / 6 * numdens 5000 <= 0.0031) by nra. assert (0 <= PI / 6 * numdens 5000) by (apply Rmult_le_pos; lra). nra.
Qed.
Example C39_C1_met : chain_Z (1 / 2) 2 = 113 - 74 / 9 /\ C1 (1 / 2) 2 = Some (/ (113 - 74 / 9)) /\ exists f c2, locally (1 / 2) (fun e => C1 e 2 = Some (f e)) /\ C2 (1 / 2) 2 = Some c2 /\ is_derive f (1 / 2) c2.
Proof.
  assert (E : chain_Z (1 / 2) 2 = 113 - 74 / 9) by (unfold chain_Z; field_simplify; lra). split; [exact E|].
  destruct (C39_C1 (1 / 2) 2 ltac:(lra) ltac:(lra)) as [_ H]. rewrite E in H. split; [exact H|].
  destruct (C39_C2_derivative _ _ _ H) as [f [c2 [_ [A [B D]]]]]. exists f, c2. auto.
Qed.
Example C39_hs_met : let D (n : nat) := 1 in hs_general (fun n => D n * (1 / 2)) = Some 5 /\ get_alphar_hs (fun n => D n * 0) D = Some 0 /\ get_alphar_hs (fun n => 1 * 1 ^ n * ((1 / 2) / (1 * 1 ^ 3))) (fun n => 1 * 1 ^ n) = Some 5.
Proof.
  intros D. split; [|split].
  - destruct (C39_hs_branches D (1 / 2)) as [_ E]; unfold D in *; try lra. rewrite E. apply Some_eq. unfold BMCSL. replace ((1 * (1 / 2)) ^ 3 / (1 * (1 / 2)) ^ 2 - 1 * (1 / 2)) with 0 by field. field.
  - destruct (C39_hs_low_density D) as [f [A [_ [B _]]]]; unfold D in *; try lra. rewrite A by lra. rewrite B. reflexivity.
  - rewrite (C39_hs_Carnahan_Starling 1 1 (1 / 2)) by lra. apply Some_eq. field.
Qed.
Print Assumptions C39_C1.
Print Assumptions C39_C2_derivative.
Print Assumptions C39_hs_branches.
Print Assumptions C39_hs_low_density.
Print Assumptions C39_hs_Carnahan_Starling.
Print Assumptions C39_value.
Print Assumptions C39_virial.
Print Assumptions C39_max_density.
Print Assumptions C39_pure.
