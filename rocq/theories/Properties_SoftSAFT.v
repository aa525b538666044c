(** C79: SAFT models put together from parts, and multifluid models with association.
    C80: softSAFT. *)
From Coq Require Import Reals ZArith String List Lia Lra Permutation.
From Verif Require Import Json_model Vec_spec Vec_proofs Cubic_model Cubic_spec Cubic_proofs2 Derivs_spec Terms_model Ideal_model Ideal_proofs Potential_model.
From Verif Require Import LKP_spec LKP_proofs Properties_Potential2 SoftSAFT_model.
From Verif Require Assoc_model PCSAFT_model Multi_model Terms_proofs2.
Import ListNotations.
Local Open Scope R_scope.

(** * C80: softSAFT *)
(** ** What the published mixing rules say *)
(** Parameters of real chains: as many energies and diameters as segment numbers, all positive *)
Definition chains (s : soft) : Prop := length (so_eps s) = length (so_m s) /\ length (so_sigma s) = length (so_m s) /\
  forall i, (i < length (so_m s))%nat -> 0 < nth i (so_m s) 0 /\ 0 < nth i (so_eps s) 0 /\ 0 < nth i (so_sigma s) 0.
Definition m_i (s : soft) (i : nat) : R := nth i (so_m s) 0.
Definition sigma_ij (s : soft) (i j : nat) : R := (nth i (so_sigma s) 0 + nth j (so_sigma s) 0) / 2.
Definition eps_ij (s : soft) (i j : nat) : R := sqrt (nth i (so_eps s) 0 * nth j (so_eps s) 0).
(** the segments per molecule *)
Definition m_mean (s : soft) (x : list R) : R := mean x (m_i s).
(** van der Waals one-fluid rules in the fractions of the segments, x_i m_i / m *)
Definition sigma3_mix (s : soft) (x : list R) : R :=
  quadratic_mean x (fun i j => m_i s i * m_i s j * sigma_ij s i j ^ 3) / m_mean s x ^ 2.
Definition eps_mix (s : soft) (x : list R) : R :=
  quadratic_mean x (fun i j => m_i s i * m_i s j * sigma_ij s i j ^ 3 * eps_ij s i j) / m_mean s x ^ 2 / sigma3_mix s x.

Lemma sumn_pos1 : forall n f, (forall i, (i < n)%nat -> 0 <= f i) -> (exists k, (k < n)%nat /\ 0 < f k) -> 0 < sumn n f.
Proof.
  induction n as [|n IH]; intros f P (k & Hk & Q); [lia|]. cbn [sumn].
  assert (0 <= f n) by (apply P; lia). assert (0 <= sumn n f). { clear - P. induction n; cbn [sumn]; [lra|]. assert (0 <= f n) by (apply P; lia). assert (0 <= sumn n f) by (apply IHn; intros; apply P; lia). lra. }
  destruct (Nat.eq_dec k n) as [->|Ne]; [lra|]. assert (0 < sumn n f); [|lra]. apply IH; [intros; apply P; lia|]. exists k. split; [lia|exact Q].
Qed.
Lemma has_part : forall x, composition x -> exists k, (k < length x)%nat /\ 0 < nth k x 0.
Proof.
  intros x [P S]. destruct (Exists_dec (fun k => 0 < nth k x 0) (seq 0 (length x)) ltac:(intro; apply Rlt_dec)) as [E|N].
  - apply Exists_exists in E. destruct E as (k & I & Q). apply in_seq in I. exists k. split; [lia|exact Q].
  - exfalso. assert (sumn (length x) (fun i => nth i x 0) = 0); [|lra]. rewrite (sumn_ext _ _ (fun _ => 0)); [apply sumn_zero|].
    intros i Hi. specialize (P i Hi). destruct (Rlt_dec 0 (nth i x 0)) as [Q|Q]; [|lra]. exfalso. apply N. apply Exists_exists. exists i. split; [apply in_seq; lia|exact Q].
Qed.
Lemma m_mean_pos : forall s x, chains s -> (length x <= length (so_m s))%nat -> composition x -> 0 < m_mean s x.
Proof.
  intros s x (_ & _ & P) L C. destruct (has_part x C) as (k & Hk & Q). destruct C as [C _]. unfold m_mean, mean, m_i. apply sumn_pos1.
  - intros i Hi. apply Rmult_le_pos; [auto|]. apply Rlt_le. apply P. lia.
  - exists k. split; [exact Hk|]. apply Rmult_lt_0_compat; [exact Q|]. apply P. lia.
Qed.
Lemma quad_pos : forall x q, composition x -> (forall i j, (i < length x)%nat -> (j < length x)%nat -> 0 < q i j) -> 0 < quadratic_mean x q.
Proof.
  intros x q C P. destruct (has_part x C) as (k & Hk & Q). destruct C as [C _]. unfold quadratic_mean.
  assert (T : forall i j, (i < length x)%nat -> (j < length x)%nat -> 0 <= nth i x 0 * nth j x 0 * q i j).
  { intros. apply Rmult_le_pos; [apply Rmult_le_pos; auto|]. apply Rlt_le. auto. }
  apply sumn_pos1.
  - intros i Hi. clear - T Hi. assert (forall n, (n <= length x)%nat -> 0 <= sumn n (fun j => nth i x 0 * nth j x 0 * q i j)); [|auto].
    induction n; intro L; cbn [sumn]; [lra|]. assert (0 <= nth i x 0 * nth n x 0 * q i n) by (apply T; lia). assert (0 <= sumn n (fun j => nth i x 0 * nth j x 0 * q i j)) by (apply IHn; lia). lra.
  - exists k. split; [exact Hk|]. apply sumn_pos1; [intros; auto|]. exists k. split; [exact Hk|]. apply Rmult_lt_0_compat; [now apply Rmult_lt_0_compat|auto].
Qed.
Lemma s3_pos : forall s i j, chains s -> (i < length (so_m s))%nat -> (j < length (so_m s))%nat -> 0 < m_i s i * m_i s j * sigma_ij s i j ^ 3.
Proof.
  intros s i j (_ & _ & P) Hi Hj. destruct (P i Hi) as (? & ? & ?), (P j Hj) as (? & ? & ?). apply Rmult_lt_0_compat; [now apply Rmult_lt_0_compat|]. apply pow_lt. unfold sigma_ij. lra.
Qed.
Lemma eps_pos : forall s i j, chains s -> (i < length (so_m s))%nat -> (j < length (so_m s))%nat -> 0 < eps_ij s i j.
Proof. intros s i j (_ & _ & P) Hi Hj. apply sqrt_lt_R0. destruct (P i Hi) as (? & ? & ?), (P j Hj) as (? & ? & ?). now apply Rmult_lt_0_compat. Qed.
Lemma mix_pos : forall s x, chains s -> (length x <= length (so_m s))%nat -> composition x -> 0 < sigma3_mix s x /\ 0 < eps_mix s x.
Proof.
  intros s x H L C. pose proof (m_mean_pos s x H L C) as M.
  assert (S : 0 < sigma3_mix s x).
  { apply Rdiv_lt_0_compat; [|now apply pow_lt]. apply quad_pos; [exact C|]. intros. apply s3_pos; auto; lia. }
  split; [exact S|]. apply Rdiv_lt_0_compat; [|exact S]. apply Rdiv_lt_0_compat; [|now apply pow_lt]. apply quad_pos; [exact C|]. intros.
  apply Rmult_lt_0_compat; [apply s3_pos|apply eps_pos]; auto; lia.
Qed.
Lemma soft_g_chain : forall T rho, soft_g T rho = g_LJ T rho. Proof. reflexivity. Qed.
Lemma den_square : forall s x, sumn (length x) (fun i => sumn (length x) (fun j => soft_den s x i j)) = m_mean s x ^ 2.
Proof.
  intros s x. unfold m_mean, mean. rewrite (sumn_ext _ _ (fun i => (nth i x 0 * m_i s i) * sumn (length x) (fun j => nth j x 0 * m_i s j))).
  - replace (sumn (length x) (fun i => nth i x 0 * m_i s i) ^ 2) with (sumn (length x) (fun i => nth i x 0 * m_i s i) * sumn (length x) (fun i => nth i x 0 * m_i s i)) by ring.
    generalize (sumn (length x) (fun j => nth j x 0 * m_i s j)) at 1 3. intro K. generalize (length x). induction n; cbn [sumn]; [ring|]. rewrite IHn. ring.
  - intros i _. generalize (length x). induction n; cbn [sumn]; [ring|]. rewrite IHn. unfold soft_den, m_i. ring.
Qed.

(** The mixture is the Lennard-Jones chain of the mean number of segments with the parameters of
    the mixing rules *)
Theorem C80_mixture : forall s T rho x, chains s -> (length x <= length (so_m s))%nat -> composition x ->
  soft_alphar s T rho x = chain_alphar johnson_alphar (m_mean s x) (T / eps_mix s x) (rho * Assoc_model.N_A * sigma3_mix s x).
Proof.
  intros s T rho x H L C. pose proof (m_mean_pos s x H L C) as M. destruct (mix_pos s x H L C) as [S E]. pose proof H as (L1 & L2 & P).
  unfold soft_alphar. rewrite L1, L2. replace (Nat.leb (length x) (length (so_m s))) with true by (symmetry; apply Nat.leb_le; lia). cbn [andb].
  rewrite (osum_val _ _ (fun i => sumn (length x) (fun j => soft_den s x i j * soft_sigma3 s i j * eps_ij s i j))).
  2:{ intros i Hi. apply osum_val. intros j Hj. unfold soft_eps, Assoc_model.csqrt. destruct (P i) as (? & ? & ?), (P j) as (? & ? & ?); try lia.
      destruct (Rle_dec 0 (nth i (so_eps s) 0 * nth j (so_eps s) 0)) as [_|N]; [reflexivity|]. exfalso. apply N. apply Rlt_le. now apply Rmult_lt_0_compat. }
  cbn [opt_bind]. rewrite den_square.
  assert (D : m_mean s x ^ 2 <> 0) by (apply pow_nonzero; lra).
  replace (sumn (length x) (fun i => sumn (length x) (fun j => soft_den s x i j * soft_sigma3 s i j))) with (quadratic_mean x (fun i j => m_i s i * m_i s j * sigma_ij s i j ^ 3)).
  2:{ unfold quadratic_mean. apply sumn_ext. intros i _. apply sumn_ext. intros j _. unfold soft_den, soft_sigma3, m_i, sigma_ij. cbv zeta. ring. }
  replace (sumn (length x) (fun i => sumn (length x) (fun j => soft_den s x i j * soft_sigma3 s i j * eps_ij s i j)))
    with (quadratic_mean x (fun i j => m_i s i * m_i s j * sigma_ij s i j ^ 3 * eps_ij s i j)).
  2:{ unfold quadratic_mean. apply sumn_ext. intros i _. apply sumn_ext. intros j _. unfold soft_den, soft_sigma3, m_i, sigma_ij. cbv zeta. ring. }
  rewrite !cdiv_nz by exact D. cbn [opt_bind]. fold (sigma3_mix s x). rewrite cdiv_nz by lra. cbn [opt_bind]. fold (eps_mix s x). rewrite cdiv_nz by lra. cbn [opt_bind].
  replace (sumn (length x) (fun i => nth i (so_m s) 0 * nth i x 0)) with (m_mean s x) by (unfold m_mean, mean, m_i; apply sumn_ext; intros; ring).
  unfold chain_alphar. replace (rho * Assoc_model.N_A * sigma3_mix s x * m_mean s x) with (rho * m_mean s x * Assoc_model.N_A * sigma3_mix s x) by ring.
  destruct (johnson_alphar _ _) as [a|]; [|reflexivity]. cbn [opt_bind]. rewrite soft_g_chain. destruct (g_LJ _ _) as [g|]; [|reflexivity]. cbn [opt_bind].
  destruct (clog g) as [l|]; [|reflexivity]. cbn [opt_bind]. f_equal. ring.
Qed.
(** Ideal gas *)
Theorem C80_ideal_gas : forall s T x, chains s -> (length x <= length (so_m s))%nat -> composition x -> 0 < T -> soft_alphar s T 0 x = Some 0.
Proof.
  intros s T x H L C HT. rewrite C80_mixture by assumption. destruct (mix_pos s x H L C) as [_ E]. assert (0 < T / eps_mix s x) by now apply Rdiv_lt_0_compat.
  rewrite !Rmult_0_l. unfold chain_alphar. rewrite Rmult_0_l. destruct (C68_Johnson (T / eps_mix s x)) as [-> _]; [assumption|]. cbn [opt_bind].
  unfold g_LJ. rewrite cdiv_nz by lra. cbn [opt_bind]. cbn [sumn Nat.add]. rewrite !pow_i by lia. rewrite !Rmult_0_r, !Rmult_0_l.
  unfold clog. destruct (Rlt_dec _ _) as [_|N]; [|exfalso; apply N; lra]. cbn [opt_bind]. f_equal.
  match goal with |- context [ln ?v] => replace v with 1 by ring end. rewrite ln_1. ring.
Qed.
(** Copies: the mixture in which component i is a copy of component r_i *)
Definition pick_soft (r : list nat) (s : soft) : soft := {| so_m := pick 0 r (so_m s); so_eps := pick 0 r (so_eps s); so_sigma := pick 0 r (so_sigma s) |}.
Theorem C80_copies : forall r x' x s, lumped r x' x -> length (so_m s) = length x -> length (so_eps s) = length x -> length (so_sigma s) = length x ->
  (forall i, (i < length x)%nat -> 0 < nth i (so_eps s) 0) ->
  forall T rho, soft_alphar (pick_soft r s) T rho x' = soft_alphar s T rho x.
Proof.
  intros r x' x s HL L1 L2 L3 P T rho. pose proof HL as (Lr & _ & _). pose proof (lumped_lt r x' x) as LT.
  unfold soft_alphar, pick_soft. cbn [so_m so_eps so_sigma]. rewrite !pick_length, L1, L2, L3, Lr, !Nat.leb_refl. cbn [andb].
  change {| so_m := pick 0 r (so_m s); so_eps := pick 0 r (so_eps s); so_sigma := pick 0 r (so_sigma s) |} with (pick_soft r s).
  assert (E : forall n (s0 : soft) (y : list R), (forall i, (i < n)%nat -> 0 < nth i (so_eps s0) 0) ->
    osum n (fun i => osum n (fun j => e <-- soft_eps s0 i j; Some (soft_den s0 y i j * soft_sigma3 s0 i j * e))) =
    Some (sumn n (fun i => sumn n (fun j => soft_den s0 y i j * soft_sigma3 s0 i j * eps_ij s0 i j)))).
  { intros n s0 y Q. apply osum_val. intros i Hi. apply osum_val. intros j Hj. unfold soft_eps, Assoc_model.csqrt.
    destruct (Rle_dec 0 (nth i (so_eps s0) 0 * nth j (so_eps s0) 0)) as [_|N]; [reflexivity|]. exfalso. apply N. apply Rlt_le. apply Rmult_lt_0_compat; auto. }
  rewrite !E; [|exact P|]. 2:{ intros i Hi. unfold pick_soft. cbn [so_eps]. rewrite pick_nth by lia. apply P. apply LT; [exact HL|lia]. }
  assert (D : forall q' q : nat -> nat -> R, (forall i j, (i < length r)%nat -> (j < length r)%nat -> q' i j = q (nth i r O) (nth j r O)) ->
    sumn (length r) (fun i => sumn (length r) (fun j => soft_den (pick_soft r s) x' i j * q' i j)) =
    sumn (length x) (fun i => sumn (length x) (fun j => soft_den s x i j * q i j))).
  { intros q' q Q. rewrite (sumn_ext (length r) _ (fun i => sumn (length r) (fun j => nth i x' 0 * nth j x' 0 * (m_i (pick_soft r s) i * m_i (pick_soft r s) j * q' i j)))).
    2:{ intros. apply sumn_ext. intros. unfold soft_den, m_i. ring. }
    rewrite (sumn_ext (length x) _ (fun i => sumn (length x) (fun j => nth i x 0 * nth j x 0 * (m_i s i * m_i s j * q i j)))).
    2:{ intros. apply sumn_ext. intros. unfold soft_den, m_i. ring. }
    apply lump_quad; [exact HL|]. intros i j Hi Hj. rewrite Q by assumption. unfold m_i, pick_soft. cbn [so_m]. rewrite !pick_nth by assumption. reflexivity. }
  assert (Q3 : forall i j, (i < length r)%nat -> (j < length r)%nat -> soft_sigma3 (pick_soft r s) i j = soft_sigma3 s (nth i r O) (nth j r O)).
  { intros i j Hi Hj. unfold soft_sigma3, pick_soft. cbn [so_sigma]. rewrite !pick_nth by assumption. reflexivity. }
  assert (Q4 : forall i j, (i < length r)%nat -> (j < length r)%nat -> eps_ij (pick_soft r s) i j = eps_ij s (nth i r O) (nth j r O)).
  { intros i j Hi Hj. unfold eps_ij, pick_soft. cbn [so_eps]. rewrite !pick_nth by assumption. reflexivity. }
  rewrite (D _ _ Q3).
  rewrite (sumn_ext (length r) (fun i => sumn (length r) (fun j => soft_den (pick_soft r s) x' i j)) (fun i => sumn (length r) (fun j => soft_den (pick_soft r s) x' i j * 1))) by (intros; apply sumn_ext; intros; ring).
  rewrite (D (fun _ _ => 1) (fun _ _ => 1)) by reflexivity.
  rewrite (sumn_ext (length x) (fun i => sumn (length x) (fun j => soft_den s x i j)) (fun i => sumn (length x) (fun j => soft_den s x i j * 1))) by (intros; apply sumn_ext; intros; ring).
  rewrite (sumn_ext (length r) (fun i => sumn (length r) (fun j => soft_den (pick_soft r s) x' i j * soft_sigma3 (pick_soft r s) i j * eps_ij (pick_soft r s) i j))
    (fun i => sumn (length r) (fun j => soft_den (pick_soft r s) x' i j * (soft_sigma3 (pick_soft r s) i j * eps_ij (pick_soft r s) i j)))) by (intros; apply sumn_ext; intros; ring).
  rewrite (D _ (fun i j => soft_sigma3 s i j * eps_ij s i j)) by (intros; rewrite Q3, Q4 by assumption; reflexivity).
  rewrite (sumn_ext (length x) (fun i => sumn (length x) (fun j => soft_den s x i j * soft_sigma3 s i j * eps_ij s i j))
    (fun i => sumn (length x) (fun j => soft_den s x i j * (soft_sigma3 s i j * eps_ij s i j)))) by (intros; apply sumn_ext; intros; ring).
  replace (sumn (length r) (fun i => nth i (pick 0 r (so_m s)) 0 * nth i x' 0)) with (sumn (length x) (fun i => nth i (so_m s) 0 * nth i x 0)); [reflexivity|].
  rewrite (sumn_ext (length x) _ (fun i => nth i x 0 * nth i (so_m s) 0)) by (intros; ring). rewrite (sumn_ext (length r) _ (fun i => nth i x' 0 * nth i (pick 0 r (so_m s)) 0)) by (intros; ring).
  symmetry. apply lump_mean; [exact HL|]. intros. now rewrite pick_nth.
Qed.
Theorem C80_order : forall r x s, Permutation r (seq 0 (length x)) -> chains s -> length x = length (so_m s) ->
  forall T rho, soft_alphar (pick_soft r s) T rho (pick 0 r x) = soft_alphar s T rho x.
Proof. intros r x s Hr (L1 & L2 & P) L T rho. apply C80_copies; try lia; [now apply perm_lumped|]. intros i Hi. apply P. lia. Qed.
Theorem C80_division : forall x j y s, (j < length x)%nat -> chains s -> length x = length (so_m s) ->
  forall T rho, soft_alphar (pick_soft (seq 0 (length x) ++ [j]) s) T rho (replace j (nth j x 0 - y) x ++ [y]) = soft_alphar s T rho x.
Proof. intros x j y s Hj (L1 & L2 & P) L T rho. apply C80_copies; try lia; [now apply split_lumped|]. intros i Hi. apply P. lia. Qed.
(** A pure component is its own Lennard-Jones chain *)
Theorem C80_pure : forall s i T rho, chains s -> (i < length (so_m s))%nat ->
  soft_alphar s T rho (pure (length (so_m s)) i) =
  chain_alphar johnson_alphar (nth i (so_m s) 0) (T / nth i (so_eps s) 0) (rho * Assoc_model.N_A * nth i (so_sigma s) 0 ^ 3).
Proof.
  intros s i T rho H Hi. pose proof H as (L1 & L2 & P). destruct (P i Hi) as (Pm & Pe & Ps).
  rewrite <- (C80_copies [i] [1] (pure (length (so_m s)) i) s); try (rewrite pure_length; lia); [|now apply pure_lumped|intros k Hk; rewrite pure_length in Hk; now apply P].
  unfold pick_soft. cbn [pick map]. set (s1 := {| so_m := [nth i (so_m s) 0]; so_eps := _; so_sigma := _ |}).
  assert (H1 : chains s1). { unfold chains, s1. cbn. repeat split; replace i0 with O by lia; assumption. }
  rewrite C80_mixture; [|exact H1|cbn; lia|split; [|cbn; ring]; intros k Hk; cbn in Hk; replace k with O by lia; cbn; lra].
  assert (E1 : m_mean s1 [1] = nth i (so_m s) 0) by (unfold m_mean, mean, m_i, s1; cbn; ring).
  assert (E2 : sigma3_mix s1 [1] = nth i (so_sigma s) 0 ^ 3).
  { unfold sigma3_mix. rewrite E1. unfold quadratic_mean, m_i, sigma_ij, s1. cbn -[pow]. field. lra. }
  assert (E3 : eps_mix s1 [1] = nth i (so_eps s) 0).
  { unfold eps_mix. rewrite E1, E2. unfold quadratic_mean, m_i, sigma_ij, eps_ij, s1. cbn -[pow]. rewrite sqrt_square by lra. field. lra. }
  rewrite E1, E2, E3. reflexivity.
Qed.
(** ... and of one segment the Lennard-Jones fluid wherever the contact value is positive *)
Theorem C80_monomer : forall s i T rho g, chains s -> (i < length (so_m s))%nat -> nth i (so_m s) 0 = 1 ->
  g_LJ (T / nth i (so_eps s) 0) (rho * Assoc_model.N_A * nth i (so_sigma s) 0 ^ 3) = Some g -> 0 < g ->
  soft_alphar s T rho (pure (length (so_m s)) i) = johnson_alphar (T / nth i (so_eps s) 0) (rho * Assoc_model.N_A * nth i (so_sigma s) 0 ^ 3).
Proof. intros s i T rho g H Hi M G P. rewrite C80_pure by assumption. rewrite M. eapply C70_one_segment; eassumption. Qed.
(** Chains of equal segments: only the mean number of segments matters *)
Theorem C80_equal_segments : forall s x T rho e d, chains s -> length x = length (so_m s) -> composition x ->
  (forall i, (i < length x)%nat -> nth i (so_eps s) 0 = e /\ nth i (so_sigma s) 0 = d) ->
  soft_alphar s T rho x = chain_alphar johnson_alphar (m_mean s x) (T / e) (rho * Assoc_model.N_A * d ^ 3).
Proof.
  intros s x T rho e d H L C Q. rewrite C80_mixture by (assumption || lia). pose proof (m_mean_pos s x H ltac:(lia) C) as M.
  assert (0 < e /\ 0 < d) as [Pe Pd]. { destruct (has_part x C) as (k & Hk & _). destruct (Q k Hk) as [<- <-]. destruct H as (_ & _ & P). destruct (P k) as (? & ? & ?); [lia|]. auto. }
  assert (SQ : quadratic_mean x (fun i j => m_i s i * m_i s j) = m_mean s x ^ 2).
  { rewrite <- den_square. unfold quadratic_mean. apply sumn_ext. intros. apply sumn_ext. intros. unfold soft_den, m_i. ring. }
  assert (K : forall c q, (forall i j, (i < length x)%nat -> (j < length x)%nat -> q i j = c * (m_i s i * m_i s j)) -> quadratic_mean x q = c * m_mean s x ^ 2).
  { intros c q E. rewrite <- SQ. unfold quadratic_mean. rewrite (sumn_ext _ _ (fun i => c * sumn (length x) (fun j => nth i x 0 * nth j x 0 * (m_i s i * m_i s j)))).
    - generalize (length x) at 1 3. induction n; cbn [sumn]; [ring|]. rewrite IHn. ring.
    - intros i Hi. rewrite (sumn_ext _ _ (fun j => c * (nth i x 0 * nth j x 0 * (m_i s i * m_i s j)))) by (intros; rewrite E by assumption; ring).
      generalize (length x). induction n; cbn [sumn]; [ring|]. rewrite IHn. ring. }
  assert (E3 : sigma3_mix s x = d ^ 3). { unfold sigma3_mix. rewrite (K (d ^ 3)); [field; lra|]. intros i j Hi Hj. unfold sigma_ij. destruct (Q i Hi) as [_ ->], (Q j Hj) as [_ ->]. field. }
  assert (EE : eps_mix s x = e).
  { unfold eps_mix. rewrite E3, (K (d ^ 3 * e)); [field; split; lra|]. intros i j Hi Hj. unfold sigma_ij, eps_ij. destruct (Q i Hi) as [-> ->], (Q j Hj) as [-> ->]. rewrite sqrt_square by lra. field. }
  now rewrite E3, EE.
Qed.
(** Numbers of fractions and parameters are not compared: too many fractions are undefined
    behaviour, and the components without a fraction are dropped *)
Theorem C80_sizes_refuted : forall s T rho x, (length (so_m s) < length x \/ length (so_eps s) < length x \/ length (so_sigma s) < length x)%nat -> soft_alphar s T rho x = None.
Proof.
  intros s T rho x H. unfold soft_alphar. destruct (Nat.leb (length x) (length (so_m s))) eqn:E1; [|reflexivity]. destruct (Nat.leb (length x) (length (so_eps s))) eqn:E2; [|reflexivity].
  destruct (Nat.leb (length x) (length (so_sigma s))) eqn:E3; [|reflexivity]. apply Nat.leb_le in E1, E2, E3. lia.
Qed.
Theorem C80_fewer_fractions_refuted : forall s T rho x, (length x <= length (so_m s))%nat -> (length x <= length (so_eps s))%nat -> (length x <= length (so_sigma s))%nat ->
  soft_alphar s T rho x = soft_alphar {| so_m := firstn (length x) (so_m s); so_eps := firstn (length x) (so_eps s); so_sigma := firstn (length x) (so_sigma s) |} T rho x.
Proof.
  assert (F : forall l n i, (i < n)%nat -> nth i (firstn n l) 0 = nth i l 0).
  { induction l as [|a l IH]; intros n i Hi; [now rewrite firstn_nil|]. destruct n; [lia|]. destruct i; [reflexivity|]. cbn. apply IH. lia. }
  assert (OE : forall n f g, (forall i, (i < n)%nat -> f i = g i) -> osum n f = osum n g).
  { induction n as [|n IH]; intros f g E; cbn [osum]; [reflexivity|]. rewrite (IH f g) by (intros; apply E; lia). now rewrite (E n) by lia. }
  intros s T rho x H1 H2 H3. unfold soft_alphar. cbn [so_m so_eps so_sigma]. rewrite !firstn_length_le by assumption.
  rewrite (proj2 (Nat.leb_le _ _) H1), (proj2 (Nat.leb_le _ _) H2), (proj2 (Nat.leb_le _ _) H3), !Nat.leb_refl. cbn [andb]. cbv zeta.
  set (s1 := {| so_m := _; so_eps := _; so_sigma := _ |}).
  assert (D : forall i j, (i < length x)%nat -> (j < length x)%nat -> soft_den s1 x i j = soft_den s x i j) by (intros; unfold soft_den, s1; cbn [so_m]; now rewrite !F by assumption).
  assert (S3 : forall i j, (i < length x)%nat -> (j < length x)%nat -> soft_sigma3 s1 i j = soft_sigma3 s i j) by (intros; unfold soft_sigma3, s1; cbn [so_sigma]; now rewrite !F by assumption).
  assert (SE : forall i j, (i < length x)%nat -> (j < length x)%nat -> soft_eps s1 i j = soft_eps s i j) by (intros; unfold soft_eps, s1; cbn [so_eps]; now rewrite !F by assumption).
  rewrite (OE (length x) (fun i => osum (length x) (fun j => e <-- soft_eps s1 i j; Some (soft_den s1 x i j * soft_sigma3 s1 i j * e))) (fun i => osum (length x) (fun j => e <-- soft_eps s i j; Some (soft_den s x i j * soft_sigma3 s i j * e))))
    by (intros; apply OE; intros; now rewrite SE, D, S3 by assumption).
  rewrite (sumn_ext _ (fun i => sumn (length x) (fun j => soft_den s1 x i j * soft_sigma3 s1 i j)) (fun i => sumn (length x) (fun j => soft_den s x i j * soft_sigma3 s i j)))
    by (intros; apply sumn_ext; intros; now rewrite D, S3 by assumption).
  rewrite (sumn_ext _ (fun i => sumn (length x) (fun j => soft_den s1 x i j)) (fun i => sumn (length x) (fun j => soft_den s x i j)))
    by (intros; apply sumn_ext; intros; now rewrite D by assumption).
  rewrite (sumn_ext _ (fun i => nth i (firstn (length x) (so_m s)) 0 * nth i x 0) (fun i => nth i (so_m s) 0 * nth i x 0)) by (intros; now rewrite F by assumption).
  reflexivity.
Qed.
(** From JSON *)
Definition jnums (l : list R) : json := JArr (map JNum l).
Theorem C80_json : forall l a m b e c s, lookup "m" l = Some (jnums (a :: m)) -> lookup "epsilon/kB / K" l = Some (jnums (b :: e)) -> lookup "sigma / m" l = Some (jnums (c :: s)) ->
  make_soft (JObj l) = ok {| so_m := a :: m; so_eps := b :: e; so_sigma := c :: s |}.
Proof.
  intros l a m b e c s H1 H2 H3. unfold make_soft, Assoc_model.toEig. cbn [j_at]. rewrite H1, H2, H3. unfold jnums. cbn [bind]. rewrite !Terms_proofs2.valarray_nums. reflexivity.
Qed.
Definition soft_keys : list string := ["m"; "epsilon/kB / K"; "sigma / m"]%string.
Theorem C80_json_missing : forall l key, In key soft_keys -> lookup key l = None ->
  (forall s, make_soft (JObj l) <> ok s) /\
  ((forall k v, In k soft_keys -> lookup k l = Some v -> exists a t, v = jnums (a :: t)) -> make_soft (JObj l) = throws JsonError).
Proof.
  intros l key I N.
  assert (C : forall k, Assoc_model.toEig (JObj l) k = match lookup k l with None => throws JsonError | Some v => obind (Some (j_valarray j_double v)) (fun l0 => match l0 with [] => None | _ => ok l0 end) end).
  { intro k. unfold Assoc_model.toEig. cbn [j_at]. destruct (lookup k l); reflexivity. }
  split.
  - intros s H. unfold make_soft in H. rewrite !C in H. destruct I as [<-|[<-|[<-|[]]]]; rewrite N in H; cbn in H;
      repeat match type of H with context [match ?v with _ => _ end] => destruct v; cbn in H; try discriminate end; discriminate.
  - intro A. unfold make_soft. rewrite !C.
    assert (D : forall k, In k soft_keys -> lookup k l = None \/ exists a t, lookup k l = Some (jnums (a :: t))).
    { intros k Ik. destruct (lookup k l) as [v|] eqn:E; [right|now left]. destruct (A k v Ik E) as (a & t & ->). eauto. }
    assert (K1 : In "m"%string soft_keys) by (cbn; auto). assert (K2 : In "epsilon/kB / K"%string soft_keys) by (cbn; auto). assert (K3 : In "sigma / m"%string soft_keys) by (cbn; auto).
    assert (V : forall a t, j_valarray j_double (jnums (a :: t)) = Val (a :: t)) by (intros; apply Terms_proofs2.valarray_nums).
    destruct (D _ K1) as [E1|(a1 & t1 & E1)]; rewrite E1; [reflexivity|]. rewrite V. cbn [obind ok].
    destruct (D _ K2) as [E2|(a2 & t2 & E2)]; rewrite E2; [reflexivity|]. rewrite V. cbn [obind ok].
    destruct (D _ K3) as [E3|(a3 & t3 & E3)]; rewrite E3; [reflexivity|]. exfalso. destruct I as [<-|[<-|[<-|[]]]]; congruence.
Qed.
(** Empty arrays are not refused: the address of their first element is taken *)
Theorem C80_empty_refuted : forall l, lookup "m" l = Some (jnums []) -> make_soft (JObj l) = None.
Proof. intros l H. unfold make_soft, Assoc_model.toEig. cbn [j_at]. rewrite H. reflexivity. Qed.
(** Methane and propane *)
Definition soft_met : soft := {| so_m := [1; 1.776]; so_eps := [147.302; 225.883]; so_sigma := [3.722e-10; 3.831e-10] |}.
Example C80_met : chains soft_met /\ composition [0.25; 0.75] /\ make_soft (JObj [("m", jnums [1; 1.776]); ("epsilon/kB / K", jnums [147.302; 225.883]); ("sigma / m", jnums [3.722e-10; 3.831e-10])]%string) = ok soft_met.
Proof.
  split; [|split].
  - unfold chains, soft_met. cbn [so_m so_eps so_sigma length]. repeat split; destruct i as [|[|i]]; cbn [nth]; try lia; lra.
  - split; [|cbn; lra]. intros i Hi. cbn in Hi. destruct i as [|[|i]]; cbn [nth]; try lia; lra.
  - reflexivity.
Qed.

(** * C79: models put together from parts *)
Section Parts.
Variable VR : Type.
Variable make_vr : json -> outcome VR.
Variable vr_alphar : VR -> R -> R -> list R -> outcome R.
Variable bc : nat -> nat -> nat -> R.
Definition wraps {A B} (x : outcome A) (f : A -> B) : outcome B := obind x (fun a => ok (f a)).
(** The kinds of the first part and the models they name *)
Theorem C79_kinds : forall l kind mj, lookup "kind" l = Some (JStr kind) -> lookup "model" l = Some mj ->
  (In kind ["PCSAFT"; "PC-SAFT"]%string -> make_nonpolar VR make_vr (JObj l) = wraps (Some (PCSAFT_model.PCSAFTfactory mj)) (NPpcsaft VR)) /\
  (In kind ["SAFTVRMie"; "SAFT-VR-Mie"]%string -> make_nonpolar VR make_vr (JObj l) = wraps (make_vr mj) (NPvrmie VR)) /\
  (In kind ["Johnson+Johnson"; "softSAFT"]%string -> make_nonpolar VR make_vr (JObj l) = wraps (make_soft mj) (NPsoft VR)) /\
  (In kind ["2CLJF"; "2CLJ"]%string -> forall o author L, mj = JObj o -> lookup "author" o = Some (JStr author) -> lookup "L^*" o = Some (JNum L) ->
     make_nonpolar VR make_vr (JObj l) = wraps (Some (build_two_center_model author L)) (NPtwo VR)).
Proof.
  intros l kind mj K M. unfold make_nonpolar. cbn [j_at]. rewrite K, M.
  repeat split; intro I; try (destruct I as [<-|[<-|[]]]; reflexivity).
  intros o author L -> A HL. destruct I as [<-|[<-|[]]]; cbn -[build_two_center_model lookup]; rewrite A, HL; reflexivity.
Qed.
(** Other kinds, and kinds and models that are missing, are refused *)
Definition nonpolar_kinds : list string := ["PCSAFT"; "PC-SAFT"; "SAFTVRMie"; "SAFT-VR-Mie"; "Johnson+Johnson"; "softSAFT"; "2CLJF"; "2CLJ"]%string.
Theorem C79_refused : forall l,
  (forall kind, lookup "kind" l = Some (JStr kind) -> ~ In kind nonpolar_kinds -> make_nonpolar VR make_vr (JObj l) = throws StdInvalidArgument) /\
  (lookup "kind" l = None -> make_nonpolar VR make_vr (JObj l) = throws JsonError) /\
  (forall kind, lookup "kind" l = Some (JStr kind) -> In kind nonpolar_kinds -> lookup "model" l = None -> make_nonpolar VR make_vr (JObj l) = throws JsonError).
Proof.
  intro l. unfold make_nonpolar. cbn [j_at]. repeat split.
  - intros kind -> N. cbn [bind j_string obind].
    assert (F : forall k, In k nonpolar_kinds -> String.eqb kind k = false). { intros k I. apply String.eqb_neq. intros ->. now apply N. }
    rewrite !F by (cbn; tauto). reflexivity.
  - intros ->. reflexivity.
  - intros kind -> I ->. cbn [bind j_string obind]. repeat (destruct I as [<-|I]; [reflexivity|]). contradiction.
Qed.
(** Association is optional and has two names, which mean the same *)
Theorem C79_association : forall l,
  (forall kind mj, lookup "kind" l = Some (JStr kind) -> lookup "model" l = Some mj -> In kind ["canonical"; "Dufal"]%string -> make_association (JObj l) = Assoc_model.factory mj) /\
  (forall kind, lookup "kind" l = Some (JStr kind) -> ~ In kind ["canonical"; "Dufal"]%string -> make_association (JObj l) = throws StdInvalidArgument) /\
  (lookup "kind" l = None -> make_association (JObj l) = throws JsonError).
Proof.
  intro l. unfold make_association. cbn [j_at]. repeat split.
  - intros kind mj -> -> I. cbn [bind j_string obind]. destruct I as [<-|[<-|[]]]; cbn [String.eqb orb Ascii.eqb Bool.eqb obind]; destruct (Assoc_model.factory mj) as [[?|?]|]; reflexivity.
  - intros kind -> N. cbn [bind j_string obind].
    assert (F : forall k, In k ["canonical"; "Dufal"]%string -> String.eqb kind k = false). { intros k I. apply String.eqb_neq. intros ->. now apply N. }
    rewrite !F by (cbn; tauto). reflexivity.
  - intros ->. reflexivity.
Qed.
(** What is built: both parts from their keys, the second one only if its key is there *)
Theorem C79_built : forall l g, make_generic VR make_vr (JObj l) = ok g <->
  exists nj np, lookup "nonpolar" l = Some nj /\ make_nonpolar VR make_vr nj = ok np /\ ge_nonpolar VR g = np /\
  match lookup "association" l with None => ge_assoc VR g = None | Some aj => exists a, make_association aj = ok a /\ ge_assoc VR g = Some a end.
Proof.
  intros l [gn ga]. unfold make_generic. cbn [j_at j_contains ge_nonpolar ge_assoc]. destruct (lookup "nonpolar" l) as [nj|]; cbn [obind].
  2:{ split; [discriminate|]. intros (nj & np & E & _). discriminate. }
  destruct (make_nonpolar VR make_vr nj) as [[np|e]|] eqn:EN; cbn [obind].
  2,3: split; [discriminate|intros (nj' & np & E & E' & _); injection E as <-; rewrite EN in E'; discriminate].
  destruct (lookup "association" l) as [aj|]; cbn [obind].
  - destruct (make_association aj) as [[a|e]|] eqn:EA; cbn [obind].
    + split; [intro H; injection H as <- <-; exists nj, np; repeat split; auto; now exists a|].
      intros (nj' & np' & E & E' & -> & a' & Ea & ->). injection E as <-. rewrite EN in E'. unfold ok in *. congruence.
    + split; [discriminate|]. intros (? & ? & _ & _ & _ & a & Ea & _). discriminate.
    + split; [discriminate|]. intros (? & ? & _ & _ & _ & a & Ea & _). discriminate.
  - split; [intro H; injection H as <- <-; exists nj, np; auto|]. intros (nj' & np' & E & E' & -> & ->). injection E as <-. rewrite EN in E'. unfold ok in *. congruence.
Qed.
(** The residual energy is the sum of those of the parts: exactly if all of them have a value *)
Theorem C79_sum : forall g T rho x v, generic_alphar VR vr_alphar bc g T rho x = ok v <->
  exists a b, nonpolar_alphar VR vr_alphar (ge_nonpolar VR g) T rho x = ok a /\ v = a + b /\
  match ge_assoc VR g with None => b = 0 | Some s => Assoc_model.alphar bc s T rho x = ok b end.
Proof.
  intros g T rho x v. unfold generic_alphar. destruct (nonpolar_alphar VR vr_alphar (ge_nonpolar VR g) T rho x) as [[a|e]|]; cbn [obind].
  2,3: split; [discriminate|intros (a & b & E & _); discriminate].
  destruct (ge_assoc VR g) as [s|].
  - destruct (Assoc_model.alphar bc s T rho x) as [[b|e]|]; cbn [obind].
    + split; [intro H; injection H as <-; exists a, b; auto|]. intros (a' & b' & E & -> & E'). unfold ok in *. congruence.
    + split; [discriminate|]. intros (? & ? & _ & _ & E). discriminate.
    + split; [discriminate|]. intros (? & ? & _ & _ & E). discriminate.
  - split; [intro H; injection H as <-; exists a, 0; repeat split; ring|]. intros (a' & b & E & -> & ->). unfold ok in *. injection E as <-. do 2 f_equal. ring.
Qed.
(** ... of the named model *)
Theorem C79_parts : forall T rho x,
  (forall m, nonpolar_alphar VR vr_alphar (NPpcsaft VR m) T rho x = PCSAFT_model.pcsaft_alphar m T rho x) /\
  (forall m, nonpolar_alphar VR vr_alphar (NPvrmie VR m) T rho x = vr_alphar m T rho x) /\
  (forall m v, nonpolar_alphar VR vr_alphar (NPsoft VR m) T rho x = ok v <-> soft_alphar m T rho x = Some v) /\
  (forall m v, nonpolar_alphar VR vr_alphar (NPtwo VR m) T rho x = ok v <-> twocenter_alphar m T rho = Some v).
Proof.
  intros T rho x. repeat split; intros; cbn [nonpolar_alphar] in *; unfold Assoc_model.fin, ok in *.
  - destruct (soft_alphar m T rho x); congruence.
  - rewrite H. reflexivity.
  - destruct (twocenter_alphar m T rho); congruence.
  - rewrite H. reflexivity.
Qed.
(** Both parts throw: the exception of the first one *)
Theorem C79_exceptions : forall g T rho x e,
  (nonpolar_alphar VR vr_alphar (ge_nonpolar VR g) T rho x = throws e -> generic_alphar VR vr_alphar bc g T rho x = throws e) /\
  (forall a s, nonpolar_alphar VR vr_alphar (ge_nonpolar VR g) T rho x = ok a -> ge_assoc VR g = Some s -> length x <> length (Assoc_model.N_sites (Assoc_model.as_mapper s)) ->
     generic_alphar VR vr_alphar bc g T rho x = throws InvalidArgument).
Proof.
  intros g T rho x e. split; intros; unfold generic_alphar.
  - rewrite H. reflexivity.
  - rewrite H, H0. cbn [obind ok]. unfold Assoc_model.alphar. destruct (Nat.eqb_spec (length x) (length (Assoc_model.N_sites (Assoc_model.as_mapper s)))); [contradiction|reflexivity].
Qed.
End Parts.

(** Multifluid models with association *)
Theorem C79_multifluid : forall mff l m, make_mfassoc mff (JObj l) = ok m <->
  exists mj o aj, lookup "multifluid" l = Some mj /\ mff mj = ok (fst m) /\ lookup "association" l = Some o /\ j_at o "model" = Val aj /\ Assoc_model.factory aj = ok (snd m).
Proof.
  intros mff l [m a]. unfold make_mfassoc. cbn [j_at fst snd]. destruct (lookup "multifluid" l) as [mj|]; cbn [obind].
  2:{ split; [discriminate|]. intros (? & ? & ? & E & _). discriminate. }
  destruct (mff mj) as [[m'|e]|] eqn:EM; cbn [obind].
  2,3: split; [discriminate|intros (mj' & o & aj & E & E' & _); injection E as <-; rewrite EM in E'; discriminate].
  destruct (lookup "association" l) as [o|]; cbn [obind bind].
  2:{ split; [discriminate|]. intros (? & ? & ? & _ & _ & E & _). discriminate. }
  destruct (j_at o "model") as [aj|e] eqn:EJ; cbn [obind].
  2:{ split; [discriminate|]. intros (? & o' & ? & _ & _ & E & E' & _). injection E as <-. rewrite EJ in E'. discriminate. }
  destruct (Assoc_model.factory aj) as [[a'|e]|] eqn:EF; cbn [obind].
  - split; [intro H; injection H as <- <-; exists mj, o, aj; auto|]. intros (mj' & o' & aj' & E1 & E2 & E3 & E4 & E5). injection E1 as <-. injection E3 as <-. rewrite EJ in E4. injection E4 as <-. rewrite EM in E2. rewrite EF in E5. unfold ok in *. congruence.
  - split; [discriminate|]. intros (mj' & o' & aj' & E1 & E2 & E3 & E4 & E5). injection E3 as <-. rewrite EJ in E4. injection E4 as <-. rewrite EF in E5. discriminate.
  - split; [discriminate|]. intros (mj' & o' & aj' & E1 & E2 & E3 & E4 & E5). injection E3 as <-. rewrite EJ in E4. injection E4 as <-. rewrite EF in E5. discriminate.
Qed.
Theorem C79_multifluid_sum : forall bc m a T rho x v, mfassoc_alphar bc (m, a) T rho x = ok v <->
  exists v1 v2, Multi_model.mf_alphar m T rho x = ok v1 /\ Assoc_model.alphar bc a T rho x = ok v2 /\ v = v1 + v2.
Proof.
  intros bc m a T rho x v. unfold mfassoc_alphar. cbn [fst snd]. destruct (Multi_model.mf_alphar m T rho x) as [[v1|e]|]; cbn [obind].
  2,3: split; [discriminate|intros (? & ? & E & _); discriminate].
  destruct (Assoc_model.alphar bc a T rho x) as [[v2|e]|]; cbn [obind].
  2,3: split; [discriminate|intros (? & ? & _ & E & _); discriminate].
  split; [intro H; injection H as <-; exists v1, v2; auto|]. intros (w1 & w2 & E1 & E2 & E3). unfold ok in *. congruence.
Qed.
(** The gas constant is not that of the multifluid model: the pressures differ though the
    association vanishes *)
Theorem C79_gas_constant_refuted : forall m r x T rho Ar01, Multi_model.get_R (Multi_model.mf_R m) x = ok r -> 0 < T -> 0 < rho -> 1 + Ar01 <> 0 -> r <> R_gas ->
  rho * mfassoc_R * T * (1 + Ar01) <> rho * r * T * (1 + Ar01).
Proof.
  intros m r x T rho Ar01 _ HT HR A N E. apply N. unfold mfassoc_R in E. apply (Rmult_eq_reg_l (rho * T * (1 + Ar01))); [lra|].
  apply Rmult_integral_contrapositive_currified; [|exact A]. apply Rgt_not_eq. now apply Rmult_lt_0_compat.
Qed.
Example C79_gas_constant_met : exists c r, Multi_model.get_R c [1] = ok r /\ r <> R_gas.
Proof. exists (Multi_model.MoleFractionWeighted [8.314371357587]), 8.314371357587. split; [cbn; unfold ok; do 2 f_equal; ring|]. unfold R_gas. lra. Qed.
Print Assumptions C80_mixture.
Print Assumptions C80_ideal_gas.
Print Assumptions C80_copies.
Print Assumptions C80_order.
Print Assumptions C80_division.
Print Assumptions C80_pure.
Print Assumptions C80_monomer.
Print Assumptions C80_equal_segments.
Print Assumptions C80_sizes_refuted.
Print Assumptions C80_fewer_fractions_refuted.
Print Assumptions C80_json.
Print Assumptions C80_json_missing.
Print Assumptions C80_empty_refuted.
Print Assumptions C79_kinds.
Print Assumptions C79_refused.
Print Assumptions C79_association.
Print Assumptions C79_built.
Print Assumptions C79_sum.
Print Assumptions C79_parts.
Print Assumptions C79_exceptions.
Print Assumptions C79_multifluid.
Print Assumptions C79_multifluid_sum.
Print Assumptions C79_gas_constant_refuted.
