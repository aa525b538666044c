(** Equations of state in simulation units: dilute limit, domain and consistency of energies with
    the published pressures.  See Potential_spec.v for what is expected. *)
From Coq Require Import Reals ZArith String List Bool Lia Lra.
From Coquelicot Require Import Coquelicot.
From Verif Require Import Json_model Vec_spec Vec_proofs Cubic_model Terms_model Ideal_model Ideal_proofs Util_model Assoc_model Potential_model Potential_spec Potential_proofs Potential_proofs2
  Derivs_proofs2 Properties_Ideal Properties_Potential.
Import ListNotations.
Open Scope R_scope.

(** C68.  The exp-6 equation has a value exactly for the repulsion parameters above 8 *)
Theorem C68_exp6_domain : forall alpha T rho, 0 < T -> (exists v, exp6_alphar alpha T rho = Some v) <-> 8 < alpha.
Proof.
  intros alpha T rho HT. unfold exp6_alphar, exp6_alphastar. split.
  - intros [v H]. destruct (osum_list_some _ _ _ _ H (1%nat, 0.0, - 0.50, - 0.6850148) (or_introl eq_refl)) as [w Hw].
    unfold exp6_term in Hw. rewrite cpow_pos in Hw by exact HT. cbn [opt_bind] in Hw. unfold cpow in Hw.
    destruct (Req_EM_T ((alpha - 8) / 10) 0) as [E|E].
    + destruct (Req_EM_T (- 0.50) 0) as [X|_]; [lra|]. destruct (Rlt_dec 0 (- 0.50)); [lra|discriminate].
    + destruct (Rlt_dec 0 ((alpha - 8) / 10)); [lra|discriminate].
  - intro H. eexists. apply exp6_val; [exact HT|lra].
Qed.
Theorem C68_exp6_dilute : forall alpha T, 8 < alpha -> 0 < T -> exp6_alphar alpha T 0 = Some 0.
Proof.
  intros alpha T Ha HT. unfold exp6_alphar, exp6_alphastar. rewrite exp6_val by lra. f_equal. apply lsum_zero. intros c Hc.
  pose proof (proj1 (Forall_forall _ _) exp6_orders c Hc) as P. destruct c as [[[p q] r] A]. cbn in P. unfold e6. rewrite pow_i by lia. ring.
Qed.
(** the parameter can be read back *)
Theorem C68_exp6_alpha : forall alpha, exp6_get_alpha (exp6_alphastar alpha) = alpha.
Proof. intro alpha. unfold exp6_get_alpha, exp6_alphastar. field. Qed.
Example C68_exp6_met : (exists v, exp6_alphar 14 1.2 0.7 = Some v) /\ exp6_alphar 7 1.2 0.7 = None.
Proof.
  split; [apply C68_exp6_domain; lra|]. destruct (exp6_alphar 7 1.2 0.7) eqn:E; [|reflexivity]. exfalso.
  assert (8 < 7) by (apply (C68_exp6_domain 7 1.2 0.7); [lra|now exists r]). lra.
Qed.
(** The Mie equation of Pohl has a value at every positive temperature and every density, and is
    zero at zero density *)
Lemma pohl_defined : forall lr T, 1 <= lr -> 0 < T -> exists f : R -> R, f 0 = 0 /\ forall rho, pohl_alphar lr T rho = Some (f rho).
Proof.
  intros lr T HL HT. assert (Hlr : lr <> 0) by lra. assert (H3 : lr ^ 3 <> 0) by (now apply pow_nonzero).
  assert (L10 : 0 < ln 10) by (rewrite <- ln_1; apply ln_increasing; lra).
  assert (Ll : 0 <= ln lr). { rewrite <- ln_1. destruct (Req_dec lr 1) as [->|N]; [lra|]. apply Rlt_le, ln_increasing; lra. }
  assert (Q : 0 <= ln lr / ln 10) by (apply Rmult_le_pos; [exact Ll|apply Rlt_le, Rinv_0_lt_compat, L10]).
  set (Tc := 0.668 + 6.84 / lr + 145 / lr ^ 3). set (rhoc := 0.2516 + 0.049 * (ln lr / ln 10)).
  assert (ETc : pohl_Tc lr = Some Tc) by (unfold pohl_Tc; rewrite !cdiv_nz by assumption; reflexivity).
  assert (Erc : pohl_rhoc lr = Some rhoc) by (unfold pohl_rhoc; rewrite clog_pos by lra; reflexivity).
  assert (Hrc : 0 < rhoc) by (unfold rhoc; lra).
  assert (HTc : 0 < Tc). { unfold Tc. assert (0 < 6.84 / lr) by (apply Rdiv_lt_0_compat; lra). assert (0 < 145 / lr ^ 3) by (apply Rdiv_lt_0_compat; [lra|apply pow_lt; lra]). lra. }
  set (n := fun (c1 c2 : list R) i => nth i c1 0 + nth i c2 0 / lr). set (tau := Tc / T). assert (Htau : 0 < tau) by (now apply Rdiv_lt_0_compat).
  exists (fun rho => sumn 6 (fun i => n pohl_c1_pol pohl_c2_pol i * Rpower tau (nth i pohl_t_pol 0) * (rho / rhoc) ^ nth i pohl_d_pol 0%nat)
    + sumn 6 (fun i => n pohl_c1_exp pohl_c2_exp i * Rpower tau (nth i pohl_t_exp 0) * (rho / rhoc) ^ nth i pohl_d_exp 0%nat * exp (- (rho / rhoc) ^ nth i pohl_p 0%nat))
    + sumn 4 (fun i => n pohl_c1_gbs pohl_c2_gbs i * Rpower tau (nth i pohl_t_gbs 0) * (rho / rhoc) ^ nth i pohl_d_gbs 0%nat *
                                exp (- nth i pohl_eta 0 * (rho / rhoc - nth i pohl_eps 0) ^ 2 - nth i pohl_beta 0 * (tau - nth i pohl_gam 0) ^ 2))).
  split.
  - replace (0 / rhoc) with 0 by (unfold Rdiv; ring).
    cbn [sumn nth pohl_d_pol pohl_d_exp pohl_d_gbs pohl_p]. rewrite !(pow_i 1), !(pow_i 2), !(pow_i 3), !(pow_i 4), !(pow_i 5) by lia. ring.
  - intro rho. unfold pohl_alphar. rewrite ETc, Erc. cbn [opt_bind]. rewrite !cdiv_nz by lra. cbn [opt_bind]. fold tau.
    rewrite (osum_val 6 _ (fun i => n pohl_c1_pol pohl_c2_pol i * Rpower tau (nth i pohl_t_pol 0) * (rho / rhoc) ^ nth i pohl_d_pol 0%nat)).
    2: { intros i _. unfold pohl_n. rewrite cdiv_nz by exact Hlr. cbn [opt_bind]. rewrite cpow_pos by exact Htau. reflexivity. }
    rewrite (osum_val 6 _ (fun i => n pohl_c1_exp pohl_c2_exp i * Rpower tau (nth i pohl_t_exp 0) * (rho / rhoc) ^ nth i pohl_d_exp 0%nat * exp (- (rho / rhoc) ^ nth i pohl_p 0%nat))).
    2: { intros i _. unfold pohl_n. rewrite cdiv_nz by exact Hlr. cbn [opt_bind]. rewrite cpow_pos by exact Htau. reflexivity. }
    rewrite (osum_val 4 _ (fun i => n pohl_c1_gbs pohl_c2_gbs i * Rpower tau (nth i pohl_t_gbs 0) * (rho / rhoc) ^ nth i pohl_d_gbs 0%nat *
                                exp (- nth i pohl_eta 0 * (rho / rhoc - nth i pohl_eps 0) ^ 2 - nth i pohl_beta 0 * (tau - nth i pohl_gam 0) ^ 2))).
    2: { intros i _. unfold pohl_n. rewrite cdiv_nz by exact Hlr. cbn [opt_bind]. rewrite cpow_pos by exact Htau. reflexivity. }
    reflexivity.
Qed.
Theorem C68_Pohl : forall lr T, 1 <= lr -> 0 < T -> pohl_alphar lr T 0 = Some 0 /\ forall rho, exists v, pohl_alphar lr T rho = Some v.
Proof.
  intros lr T HL HT. destruct (pohl_defined lr T HL HT) as (f & Z & H). split; [now rewrite H, Z|]. intro rho. rewrite H. now eexists.
Qed.
Example C68_Pohl_met : exists v, pohl_alphar 12 1.3 0.4 = Some v.
Proof. apply C68_Pohl; lra. Qed.
(** The network equation: zero at zero density whatever the weights, and bounded by its last layer *)
Theorem C68_Chaparro : forall net alpha T, T <> 0 -> layers net <> [] ->
  chaparro_alphar net alpha T 0 = Some 0 /\
  forall rho, exists v, chaparro_alphar net alpha T rho = Some v /\ Rabs v <= 2 * sumn (length (last net)) (fun i => Rabs (nth i (last net) 0)) / Rabs T.
Proof.
  intros net alpha T HT HN. unfold chaparro_alphar. rewrite cdiv_nz by exact HT. cbn [opt_bind]. split.
  - rewrite cdiv_nz by exact HT. f_equal. unfold Rdiv. ring.
  - intro rho. rewrite cdiv_nz by exact HT. eexists. split; [reflexivity|]. unfold Rdiv at 1. rewrite Rabs_mult, Rabs_inv. unfold Rdiv.
    apply Rmult_le_compat_r; [apply Rlt_le, Rinv_0_lt_compat; now apply Rabs_pos_lt|].
    unfold Rminus. eapply Rle_trans; [apply Rabs_triang|]. rewrite Rabs_Ropp. pose proof (evaluate_bound net [alpha; rho; 1 * / T] HN). pose proof (evaluate_bound net [alpha; 0; 1 * / T] HN). lra.
Qed.
Example C68_Chaparro_met : Rabs (1) <= 1 /\ layers {| layers := [(fun _ _ => 1, [0; 1])]; last := [2; -3] |} <> [].
Proof. split; [rewrite Rabs_R1; lra|discriminate]. Qed.
(** The prefactor of the potential is that of the Mie potential: it is the integral of its attraction *)
Theorem C68_mie_alpha : forall lr la, 3 < la -> la < lr ->
  mie_alpha lr la = Some (lr / (lr - la) * Rpower (lr / la) (la / (lr - la)) * (1 / (la - 3) - 1 / (lr - 3))) /\
  0 < lr / (lr - la) * Rpower (lr / la) (la / (lr - la)) * (1 / (la - 3) - 1 / (lr - 3)).
Proof.
  intros lr la H3 H. unfold mie_alpha. rewrite !cdiv_nz by lra. cbn [opt_bind]. rewrite cpow_pos by (apply Rdiv_lt_0_compat; lra). split; [reflexivity|].
  apply Rmult_lt_0_compat; [apply Rmult_lt_0_compat; [apply Rdiv_lt_0_compat; lra|apply exp_pos]|].
  replace (1 / (la - 3) - 1 / (lr - 3)) with ((lr - la) / ((la - 3) * (lr - 3))) by (field; lra). apply Rdiv_lt_0_compat; [lra|]. apply Rmult_lt_0_compat; lra.
Qed.
Example C68_mie_alpha_met : exists v, mie_alpha 12 6 = Some v.
Proof. eexists. apply C68_mie_alpha; lra. Qed.
(** Chains *)
Theorem C68_chain : forall monomer m T, T <> 0 -> monomer T 0 = Some 0 -> chain_alphar monomer m T 0 = Some 0.
Proof.
  intros monomer m T HT H. unfold chain_alphar, g_LJ. rewrite Rmult_0_l, H. cbn [opt_bind]. rewrite cdiv_nz by exact HT. cbn [opt_bind].
  assert (Z : sumn 5 (fun i => sumn 5 (fun j => nth (j + 1) (nth (i + 1) chain_a []) 0 * 0 ^ (i + 1) * (1 / T) ^ j)) = 0).
  { rewrite (sumn_ext 5 _ (fun _ => 0)); [apply sumn_zero|]. intros i _. rewrite (sumn_ext 5 _ (fun _ => 0)); [apply sumn_zero|]. intros j _. rewrite pow_i by lia. ring. }
  rewrite Z, Rplus_0_r, clog_pos by lra. cbn [opt_bind]. rewrite ln_1. f_equal. ring.
Qed.
(** A chain of one segment is the monomer, wherever its contact value is positive *)
Theorem C70_one_segment : forall monomer T rho g, g_LJ T rho = Some g -> 0 < g -> chain_alphar monomer 1 T rho = monomer T rho.
Proof.
  intros monomer T rho g Hg P. unfold chain_alphar. rewrite Rmult_1_r. destruct (monomer T rho) as [a|]; [|reflexivity]. cbn [opt_bind]. rewrite Hg. cbn [opt_bind].
  rewrite clog_pos by exact P. cbn [opt_bind]. f_equal. ring.
Qed.
(** A chain in general: its energy per chain is that of its segments, at the density of segments,
    with m - 1 bonds each contributing minus the logarithm of the contact value *)
Theorem C70_chain : forall monomer m T rho v, chain_alphar monomer m T rho = Some v <->
  exists a g, monomer T (m * rho) = Some a /\ g_LJ T (m * rho) = Some g /\ 0 < g /\ v = m * a - (m - 1) * ln g.
Proof.
  intros monomer m T rho v. unfold chain_alphar. rewrite (Rmult_comm rho m). split.
  - intro H. apply obind_iff in H. destruct H as (a & Ea & H). apply obind_iff in H. destruct H as (g & Eg & H). apply obind_iff in H. destruct H as (l & El & H). injection H as <-.
    unfold clog in El. destruct (Rlt_dec 0 g) as [P|]; [|discriminate]. injection El as <-. exists a, g. repeat split; try assumption. ring.
  - intros (a & g & -> & -> & P & ->). cbn [opt_bind]. rewrite clog_pos by exact P. cbn [opt_bind]. f_equal. ring.
Qed.
Example C70_chain_met : exists g, g_LJ 1 0 = Some g /\ 0 < g.
Proof.
  unfold g_LJ. rewrite cdiv_nz by lra. cbn [opt_bind]. eexists. split; [reflexivity|]. cbn [sumn Nat.add]. rewrite !pow_i by lia. rewrite !Rmult_0_r, !Rmult_0_l. lra.
Qed.

(** Lennard-Jones: the equation of Johnson, Zollweg and Gubbins *)
Definition ai (T : R) (i : nat) : R := match get_ai i T with Some a => a | None => 0 end.
Lemma ai_val : forall T i, 0 < T -> get_ai i T = Some (ai T i).
Proof.
  intros T i HT. unfold ai. destruct (get_ai i T) as [a|] eqn:E; [reflexivity|]. exfalso. revert E. unfold get_ai, csqrt. destruct (Rle_dec 0 T) as [_|N]; [|lra].
  do 9 (destruct i as [|i]; [cbn [opt_bind]; discriminate|]). discriminate.
Qed.
Lemma johnson_val : forall T rho, 0 < T -> johnson_alphar T rho =
  Some ((sumn 8 (fun k => ai T (k + 1) * rho ^ (k + 1) / INR (k + 1)) + sumn 6 (fun k => get_bi (k + 1) T * get_G k (exp (- johnson_gamma * rho ^ 2)) rho)) / T).
Proof.
  intros T rho HT. unfold johnson_alphar. cbv zeta. destruct (Req_EM_T T 0) as [E|_]; [lra|].
  rewrite (osum_val 8 _ (fun k => ai T (k + 1) * rho ^ (k + 1) / INR (k + 1))) by (intros k _; rewrite ai_val by exact HT; reflexivity).
  cbn [opt_bind]. now rewrite cdiv_nz by lra.
Qed.
Theorem C68_Johnson : forall T, 0 < T -> johnson_alphar T 0 = Some 0 /\ forall rho, exists v, johnson_alphar T rho = Some v.
Proof.
  intros T HT. split; [|intro rho; rewrite johnson_val by exact HT; now eexists]. rewrite johnson_val by exact HT. f_equal.
  rewrite (sumn_ext 8 _ (fun _ => 0)). 2: { intros k _. rewrite pow_i by lia. unfold Rdiv. ring. }
  rewrite (sumn_ext 6 _ (fun _ => 0)). 2: { intros k _. rewrite pow_i, Rmult_0_r, exp_0, G_zero by lia. ring. }
  rewrite !sumn_zero. unfold Rdiv. ring.
Qed.
(** C69.  Its density derivative gives the pressure of the modified Benedict-Webb-Rubin equation *)
Theorem C69_Johnson : forall T rho, 0 < T -> derivative_at (johnson_alphar T) rho (mbwr (ai T) (fun i => get_bi i T) 3 rho / T).
Proof.
  intros T rho HT. eexists. split; [|exists 1; split; [lra|intros y _; now apply johnson_val]].
  apply (is_derive_ext (fun r => / T * (sumn 8 (fun k => ai T (k + 1) * r ^ (k + 1) / INR (k + 1)) + sumn 6 (fun k => get_bi (k + 1) T * get_G k (exp (- johnson_gamma * r ^ 2)) r)))).
  { intro r. unfold Rdiv. apply Rmult_comm. }
  replace (mbwr (ai T) (fun i => get_bi i T) 3 rho / T) with (/ T * mbwr (ai T) (fun i => get_bi i T) 3 rho) by (unfold Rdiv; apply Rmult_comm).
  apply is_derive_scal. unfold mbwr.
  apply (is_derive_plus (fun r => sumn 8 (fun k => ai T (k + 1) * r ^ (k + 1) / INR (k + 1))) (fun r => sumn 6 (fun k => get_bi (k + 1) T * get_G k (exp (- johnson_gamma * r ^ 2)) r))).
  - apply (is_derive_sumn 8 (fun k r => ai T (k + 1) * r ^ (k + 1) / INR (k + 1)) (fun k => ai T (k + 1) * rho ^ k)). intros k _.
    apply (is_derive_ext (fun r => ai T (k + 1) / INR (k + 1) * r ^ (k + 1))). { intro r. unfold Rdiv. asR. ring. }
    evar_last; [apply is_derive_scal, is_derive_Reals, derivable_pt_lim_pow|]. replace (pred (k + 1)) with k by lia. asR. field. apply not_0_INR. lia.
  - rewrite <- sumn_scal. apply (is_derive_sumn 6 (fun k r => get_bi (k + 1) T * get_G k (exp (- johnson_gamma * r ^ 2)) r) (fun k => exp (- (3) * rho ^ 2) * (get_bi (k + 1) T * rho ^ (2 * k + 1)))). intros k _.
    evar_last; [apply is_derive_scal, G_derive|]. unfold johnson_gamma. asR. ring.
Qed.
Example C69_Johnson_met : johnson_alphar 1.3 0 = Some 0 /\ derivative_at (johnson_alphar 1.3) 0.6 (mbwr (ai 1.3) (fun i => get_bi i 1.3) 3 0.6 / 1.3).
Proof. split; [apply C68_Johnson; lra|apply C69_Johnson; lra]. Qed.

(** The equation of Kolafa and Nezbeda.  Its hybrid Barker-Henderson diameter and its second virial
    correction have the derivatives the code gives, with respect to 1/T *)
Theorem C69_diameter : forall T, 0 < T -> exists d, get_d_dhBH_d1T T = Some d /\ derivative_at (fun b => get_dhBH (1 / b)) (1 / T) d.
Proof.
  intros T HT. unfold get_d_dhBH_d1T. rewrite powers'_val by exact HT. cbn [opt_bind]. eexists. split; [reflexivity|].
  destruct (near_inverse T HT) as (r & Hr & N).
  exists (fun b => kn_ln_dhBH * ln (1 / b) + lsum (fun c => snd c * Rpower (1 / b) (fst c / 2)) kn_dhBH). split.
  - rewrite Rmult_plus_distr_l. apply (is_derive_plus (fun b => kn_ln_dhBH * ln (1 / b)) (fun b => lsum (fun c => snd c * Rpower (1 / b) (fst c / 2)) kn_dhBH)).
    + evar_last; [apply is_derive_scal, is_derive_ln_inv, HT|]. asR. ring.
    + now apply is_derive_powers.
  - exists r. split; [exact Hr|]. intros b Hb. specialize (N b Hb). unfold get_dhBH. rewrite clog_pos by exact N. cbn [opt_bind]. rewrite powers_val by exact N. reflexivity.
Qed.
Theorem C69_virial_correction : forall T, 0 < T -> exists d, get_d_DeltaB2hBH_d1T T = Some d /\ derivative_at (fun b => get_DeltaB2hBH (1 / b)) (1 / T) d.
Proof.
  intros T HT. unfold get_d_DeltaB2hBH_d1T. rewrite powers'_val by exact HT. cbn [opt_bind]. eexists. split; [reflexivity|].
  destruct (near_inverse T HT) as (r & Hr & N). exists (fun b => lsum (fun c => snd c * Rpower (1 / b) (fst c / 2)) kn_DeltaB2). split; [now apply is_derive_powers|].
  exists r. split; [exact Hr|]. intros b Hb. specialize (N b Hb). unfold get_DeltaB2hBH. now rewrite powers_val by exact N.
Qed.
(** its hard-sphere energy is the one of the compressibility factor of hard spheres *)
Theorem C69_hard_spheres : forall T rho d, 0 < T -> get_dhBH T = Some d -> PI / 6 * rho * d ^ 3 < 1 ->
  exists D, derivative_at (get_ahs T) rho D /\ rho * (D / T) = z_hard_spheres (PI / 6 * rho * d ^ 3) - 1.
Proof.
  intros T rho d HT Hd H. set (c := PI / 6 * d ^ 3). assert (Hc : c * rho < 1) by (unfold c; lra).
  exists (T * (c * (4 - 2 * (c * rho) + (c * rho) ^ 2 / 3 - 2 / 3 * (c * rho) ^ 3) / (1 - c * rho) ^ 3)). split.
  - eexists. split; [apply is_derive_scal, zhs_derive, Hc|]. assert (C : continuous (fun r => 1 - c * r) rho) by cont.
    assert (L : locally rho (fun r => 0 < 1 - c * r)). { apply (C (fun v => 0 < v)). apply (open_gt 0). lra. }
    destruct (locally_ball _ _ L) as (e & He & B). exists e. split; [exact He|]. intros y Hy. specialize (B y Hy). apply (get_ahs_val T y d Hd). unfold c in B. lra.
  - replace (PI / 6 * rho * d ^ 3) with (c * rho) by (unfold c; ring). rewrite z_minus_one by exact Hc. field. split; lra.
Qed.
Lemma dhBH_some : forall T, 0 < T -> exists d, get_dhBH T = Some d.
Proof. intros T HT. unfold get_dhBH. rewrite clog_pos by exact HT. cbn [opt_bind]. rewrite powers_val by exact HT. now eexists. Qed.
Example C69_hard_spheres_met : exists d, get_dhBH 1.5 = Some d /\ PI / 6 * 0 * d ^ 3 < 1.
Proof. destruct (dhBH_some 1.5) as [d Hd]; [lra|]. exists d. split; [exact Hd|]. rewrite Rmult_0_r, Rmult_0_l. lra. Qed.
(** it has a value wherever the packing fraction is below one, and is zero at zero density, with the
    second virial coefficient 2 pi/3 d^3 plus the correction *)
Lemma kn_val : forall T rho d B, 0 < T -> get_dhBH T = Some d -> get_DeltaB2hBH T = Some B -> PI / 6 * rho * d ^ 3 < 1 ->
  kn_alphar T rho = Some ((T * (5 / 3 * ln (1 - PI / 6 * d ^ 3 * rho) + PI / 6 * d ^ 3 * rho * (34 - 33 * (PI / 6 * d ^ 3 * rho) + 4 * (PI / 6 * d ^ 3 * rho) ^ 2) / (6 * (1 - PI / 6 * d ^ 3 * rho) ^ 2))
    + exp (- kn_gamma * rho ^ 2) * rho * T * B + knsum T rho) / T).
Proof.
  intros T rho d B HT Hd HB H. unfold kn_alphar. rewrite kn_C_val by exact HT. cbn [opt_bind]. rewrite (get_ahs_val T rho d Hd H). cbn [opt_bind]. rewrite HB. cbn [opt_bind]. now rewrite cdiv_nz by lra.
Qed.
Theorem C68_Kolafa : forall T rho, 0 < T -> (exists v, kn_alphar T rho = Some v) <-> exists d, get_dhBH T = Some d /\ PI / 6 * rho * d ^ 3 < 1.
Proof.
  intros T rho HT. split.
  - intros [v H]. unfold kn_alphar in H. apply obind_iff in H. destruct H as (s & _ & H). apply obind_iff in H. destruct H as (a & Ea & _).
    unfold get_ahs in Ea. apply obind_iff in Ea. destruct Ea as (d & Ed & Ea). exists d. split; [exact Ed|]. cbv zeta in Ea. apply obind_iff in Ea. destruct Ea as (l & El & _).
    unfold clog in El. destruct (Rlt_dec 0 (1 - PI / 6 * rho * d ^ 3)); [lra|discriminate].
  - intros (d & Hd & H). eexists. eapply kn_val; [exact HT|exact Hd|unfold get_DeltaB2hBH; now apply powers_val|exact H].
Qed.
Theorem C69_Kolafa_virial : forall T, 0 < T -> kn_alphar T 0 = Some 0 /\
  exists d B, get_dhBH T = Some d /\ get_DeltaB2hBH T = Some B /\ derivative_at (kn_alphar T) 0 (2 * PI / 3 * d ^ 3 + B).
Proof.
  intros T HT. destruct (dhBH_some T HT) as [d Hd]. assert (HB : exists B, get_DeltaB2hBH T = Some B) by (eexists; unfold get_DeltaB2hBH; now apply powers_val). destruct HB as [B HB].
  assert (Z : PI / 6 * 0 * d ^ 3 < 1) by (rewrite Rmult_0_r, Rmult_0_l; lra). split.
  - rewrite (kn_val T 0 d B HT Hd HB Z). f_equal. rewrite !Rmult_0_r, !Rmult_0_l, !Rminus_0_r, ln_1. unfold knsum.
    rewrite lsum_zero. 2: { intros c Hc. pose proof (proj1 (Forall_forall _ _) kn_orders c Hc) as P. destruct c as [[i j] C]. cbn in P. rewrite pow_i by lia. ring. }
    unfold Rdiv. ring.
  - exists d, B. split; [exact Hd|]. split; [exact HB|]. set (c := PI / 6 * d ^ 3). assert (Hc : c * 0 < 1) by lra.
    eexists. split.
    2: { assert (C : continuous (fun r => 1 - c * r) 0) by cont. assert (L : locally 0 (fun r => 0 < 1 - c * r)). { apply (C (fun v => 0 < v)). apply (open_gt 0). lra. }
      destruct (locally_ball _ _ L) as (e & He & Bl). exists e. split; [exact He|]. intros y Hy. specialize (Bl y Hy). apply (kn_val T y d B HT Hd HB). unfold c in Bl. lra. }
    fold c.
    apply (is_derive_ext (fun r => / T * (T * (5 / 3 * ln (1 - c * r) + c * r * (34 - 33 * (c * r) + 4 * (c * r) ^ 2) / (6 * (1 - c * r) ^ 2)) + exp (- kn_gamma * r ^ 2) * r * T * B + knsum T r))).
    { intro r. unfold Rdiv. apply Rmult_comm. }
    assert (D1 := zhs_derive c 0 Hc).
    assert (D2 : is_derive (fun r => exp (- kn_gamma * r ^ 2) * r * T * B) 0 (T * B)).
    { auto_derive; [exact I|]. rewrite !Rmult_0_l, !Rmult_0_r, exp_0. ring. }
    assert (D3 := is_derive_high T kn_Cij kn_orders).
    evar_last; [apply is_derive_scal; apply (is_derive_plus (fun r => T * (5 / 3 * ln (1 - c * r) + c * r * (34 - 33 * (c * r) + 4 * (c * r) ^ 2) / (6 * (1 - c * r) ^ 2)) + exp (- kn_gamma * r ^ 2) * r * T * B) (knsum T) 0);
      [apply (is_derive_plus (fun r => T * (5 / 3 * ln (1 - c * r) + c * r * (34 - 33 * (c * r) + 4 * (c * r) ^ 2) / (6 * (1 - c * r) ^ 2))) (fun r => exp (- kn_gamma * r ^ 2) * r * T * B) 0); [apply is_derive_scal, D1|exact D2]|exact D3]|].
    asR. change (/ T * ((T * (c * (4 - 2 * (c * 0) + (c * 0) ^ 2 / 3 - 2 / 3 * (c * 0) ^ 3) / (1 - c * 0) ^ 3) + T * B) + 0) = 2 * PI / 3 * d ^ 3 + B).
    unfold c. rewrite !Rmult_0_r. field. lra.
Qed.
Print Assumptions C68_exp6_domain.
Print Assumptions C68_exp6_dilute.
Print Assumptions C68_exp6_alpha.
Print Assumptions C68_Pohl.
Print Assumptions C68_Chaparro.
Print Assumptions C68_mie_alpha.
Print Assumptions C68_chain.
Print Assumptions C70_one_segment.
Print Assumptions C70_chain.
Print Assumptions C68_Johnson.
Print Assumptions C69_Johnson.
Print Assumptions C69_diameter.
Print Assumptions C69_virial_correction.
Print Assumptions C69_hard_spheres.
Print Assumptions C68_Kolafa.
Print Assumptions C69_Kolafa_virial.
