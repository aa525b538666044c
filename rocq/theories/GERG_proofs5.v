(** The tables of the ideal gas of the GERG models, and mixtures. *)
From Coq Require Import Reals ZArith String List Lia Lra Bool.
From Coquelicot Require Import Coquelicot.
From Verif Require Import Json_model Vec_spec Vec_proofs Cubic_model Cubic_spec Terms_model Ideal_model Ideal_proofs Util_model Assoc_model Multi_proofs2 LKP_proofs.
From Verif Require Import GERG_tables GERG_reference GERG_model GERG_spec GERG_proofs GERG_proofs2 GERG_proofs3 GERG_proofs4.
Import ListNotations.
Local Open Scope R_scope.

(** * Comparing decimal numbers *)
Definition dle (a b : dnum) : bool := Z.leb (dm a * 10 ^ Z.of_nat (de b)) (dm b * 10 ^ Z.of_nat (de a)).
Definition dlt (a b : dnum) : bool := Z.ltb (dm a * 10 ^ Z.of_nat (de b)) (dm b * 10 ^ Z.of_nat (de a)).
Definition dopp (a : dnum) : dnum := d_ (- dm a) (de a).
Definition dabs (a : dnum) : dnum := d_ (Z.abs (dm a)) (de a).
Lemma p10 : forall k, IZR (10 ^ Z.of_nat k) = 10 ^ k. Proof. intro k. now rewrite <- pow_IZR. Qed.
Lemma p10_pos : forall k, 0 < 10 ^ k. Proof. intro k. apply pow_lt. lra. Qed.
Lemma dle_val : forall a b, dle a b = true -> val a <= val b.
Proof.
  intros a b H. apply Z.leb_le, IZR_le in H. rewrite !mult_IZR, !p10 in H. unfold val. pose proof (p10_pos (de a)) as Pa. pose proof (p10_pos (de b)) as Pb. apply Rmult_le_reg_r with (10 ^ de a * 10 ^ de b); [now apply Rmult_lt_0_compat|].
  replace (IZR (dm a) / 10 ^ de a * (10 ^ de a * 10 ^ de b)) with (IZR (dm a) * 10 ^ de b) by (field; lra). replace (IZR (dm b) / 10 ^ de b * (10 ^ de a * 10 ^ de b)) with (IZR (dm b) * 10 ^ de a) by (field; lra). exact H.
Qed.
Lemma dlt_val : forall a b, dlt a b = true -> val a < val b.
Proof.
  intros a b H. apply Z.ltb_lt, IZR_lt in H. rewrite !mult_IZR, !p10 in H. unfold val. pose proof (p10_pos (de a)) as Pa. pose proof (p10_pos (de b)) as Pb. apply Rmult_lt_reg_r with (10 ^ de a * 10 ^ de b); [now apply Rmult_lt_0_compat|].
  replace (IZR (dm a) / 10 ^ de a * (10 ^ de a * 10 ^ de b)) with (IZR (dm a) * 10 ^ de b) by (field; lra). replace (IZR (dm b) / 10 ^ de b * (10 ^ de a * 10 ^ de b)) with (IZR (dm b) * 10 ^ de a) by (field; lra). exact H.
Qed.
Lemma dopp_val : forall a, val (dopp a) = - val a. Proof. intro a. unfold val, dopp. cbn. rewrite opp_IZR. unfold Rdiv. ring. Qed.
Lemma dabs_val : forall a, val (dabs a) = Rabs (val a).
Proof. intro a. unfold val, dabs. cbn. rewrite abs_IZR. unfold Rdiv. rewrite Rabs_mult. f_equal. symmetry. apply Rabs_right. apply Rle_ge, Rlt_le, Rinv_0_lt_compat, p10_pos. Qed.
Lemma dm0_val : forall a, val a <> 0 <-> dm a <> 0%Z.
Proof. intro a. unfold val. split; intros H E; apply H; [rewrite E; unfold Rdiv; ring|]. apply Rmult_integral in E as [E|E]; [now apply eq_IZR|]. pose proof (p10_pos (de a)) as P. apply Rinv_neq_0_compat in E; [contradiction|lra]. Qed.
Definition zero (a : dnum) : bool := Z.eqb (dm a) 0.
Lemma zero_val : forall a, zero a = true <-> val a = 0.
Proof. intro a. unfold zero. rewrite Z.eqb_eq. pose proof (dm0_val a) as [H1 H2]. split; intro H; [destruct (Req_EM_T (val a) 0); [assumption|tauto]|]. destruct (Z.eq_dec (dm a) 0); [assumption|tauto]. Qed.

(** * Coefficients *)
Definition icheck (e : list dnum * list dnum) : bool :=
  let n k := nth (k - 1) (fst e) (d_ 0 0) in let th k := nth (k - 4) (snd e) (d_ 0 0) in
  (Nat.eqb (length (fst e)) 7 && Nat.eqb (length (snd e)) 4 &&
   (zero (n 4%nat) || negb (zero (th 4%nat))) && (zero (n 6%nat) || negb (zero (th 6%nat))) &&
   dlt (d_ 0 0) (n 3%nat) && dlt (dopp (n 5%nat)) (n 3%nat) && dle (d_ 0 0) (n 4%nat) && dle (d_ 0 0) (n 6%nat) &&
   (dle (d_ 0 0) (n 7%nat) || (dle (dopp (n 7%nat)) (n 6%nat) && negb (zero (th 6%nat)) && dle (dabs (th 6%nat)) (dabs (th 7%nat)))))%bool.
Definition dideal08 (f : string) : option (list dnum * list dnum) := orelse (assoc ideal08 f) (assoc ideal04 f).
Definition ieqb (a b : list dnum * list dnum) : bool := (list_eqb dnum_eqb (fst a) (fst b) && list_eqb dnum_eqb (snd a) (snd b))%bool.
Definition ifits (look : string -> option (list dnum * list dnum)) (t : list (string * (list dnum * list dnum))) (f : string) : bool :=
  match look f with Some e => (ieqb e (keyed ([], []) t f) && icheck e)%bool | None => false end.
Definition table08 : list (string * (list dnum * list dnum)) := ideal08 ++ ideal04.
Lemma icheck04 : forallb (ifits (assoc ideal04) ideal04) names04 = true. Proof. vm_compute. reflexivity. Qed.
Lemma icheck08 : forallb (ifits dideal08 table08) names08 = true. Proof. vm_compute. reflexivity. Qed.
Lemma ideal04_d : forall f, get_ideal04 f = bind (opt_res (assoc ideal04 f)) icoef_of.
Proof. intro f. unfold get_ideal04. destruct (assoc ideal04 f); reflexivity. Qed.
Lemma ideal08_d : forall f, get_ideal08 f = bind (opt_res (dideal08 f)) icoef_of.
Proof. intro f. unfold get_ideal08, get_ideal04, dideal08. destruct (assoc ideal08 f); [reflexivity|]. destruct (assoc ideal04 f); reflexivity. Qed.
Lemma icoef_arg : forall e, arg (icoef_of e). Proof. intros [n th]. unfold icoef_of. destruct (negb _); [reflexivity|]. destruct (negb _); cbn; auto. Qed.
Record icond (n th : nat -> R) : Prop := {
  ic4 : n 4%nat <> 0 -> th 4%nat <> 0; ic6 : n 6%nat <> 0 -> th 6%nat <> 0;
  ic3 : Rmax 0 (- n 5%nat) < n 3%nat; ip4 : 0 <= n 4%nat; ip6 : 0 <= n 6%nat;
  ip7 : 0 <= n 7%nat \/ (- n 7%nat <= n 6%nat /\ th 6%nat <> 0 /\ Rabs (th 6%nat) <= Rabs (th 7%nat)) }.
Lemma icheck_cond : forall e, icheck e = true -> exists c, icoef_of e = Val c /\
  (forall k, (3 <= k <= 7)%nat -> nth k (i_n0 c) 0 = val (nth (k - 1) (fst e) (d_ 0 0))) /\ (forall k, (4 <= k <= 7)%nat -> nth k (i_th0 c) 0 = val (nth (k - 4) (snd e) (d_ 0 0))) /\
  icond (fun k => nth k (i_n0 c) 0) (fun k => nth k (i_th0 c) 0).
Proof.
  intros [n th] H. unfold icheck in H. cbn [fst snd] in H. rewrite !andb_true_iff in H. destruct H as ((((((((L1 & L2) & H4) & H6) & H3) & H5) & P4) & P6) & P7).
  unfold icoef_of. rewrite L1, L2. cbn [negb]. eexists. split; [reflexivity|]. cbn [i_n0 i_th0 fst snd]. apply Nat.eqb_eq in L1, L2.
  destruct n as [|a1 [|a2 [|a3 [|a4 [|a5 [|a6 [|a7 [|]]]]]]]]; try discriminate L1. destruct th as [|b4 [|b5 [|b6 [|b7 [|]]]]]; try discriminate L2.
  split; [intros k Hk; destruct k as [|[|[|[|[|[|[|[|k]]]]]]]]; try lia; reflexivity|]. split; [intros k Hk; destruct k as [|[|[|[|[|[|[|[|k]]]]]]]]; try lia; reflexivity|].
  cbn in H4, H6, H3, H5, P4, P6, P7. rewrite orb_true_iff, negb_true_iff in H4, H6.
  assert (Z : forall a b, zero a = true \/ zero b = false -> val a <> 0 -> val b <> 0). { intros a b [E|E] N; [apply zero_val in E; contradiction|]. intro E'. apply zero_val in E'. congruence. }
  apply dlt_val in H3, H5. apply dle_val in P4, P6. rewrite val_0 in H3, P4, P6. rewrite dopp_val in H5.
  split; cbn [nth map app].
  - now apply Z.
  - now apply Z.
  - apply Rmax_lub_lt; lra.
  - exact P4.
  - exact P6.
  - rewrite orb_true_iff, !andb_true_iff, negb_true_iff in P7. destruct P7 as [P|[[P P'] P'']]; [left; apply dle_val in P; now rewrite val_0 in P|]. right. apply dle_val in P, P''. rewrite dopp_val in P. rewrite !dabs_val in P''. split; [exact P|]. split; [|exact P'']. intro E. apply zero_val in E. congruence.
Qed.
Lemma gerg_ideal_ext : forall q n1 n2 n th n' th' Tc rc T rho, (forall k, (3 <= k <= 7)%nat -> n k = n' k) -> (forall k, (4 <= k <= 7)%nat -> th k = th' k) -> gerg_ideal q n1 n2 n th Tc rc T rho = gerg_ideal q n1 n2 n' th' Tc rc T rho.
Proof. intros q n1 n2 n th n' th' Tc rc T rho Hn Ht. unfold gerg_ideal. rewrite !Hn, !Ht by lia. reflexivity. Qed.

(** * Mixtures *)
Section Mix.
Variables (L : glib) (D : gdata) (tab : list (string * (list dnum * list dnum))) (look : string -> option (list dnum * list dnum)) (all : list string).
Hypothesis Fit : forall names, incl names all -> fits L D names.
Hypothesis IL : forall f, l_ideal L f = bind (opt_res (look f)) icoef_of.
Hypothesis IC : forallb (ifits look tab) all = true.
Hypothesis Known : forall f i, l_info L f = Val i -> In f all.
Hypothesis Iarg : forall f, arg (l_info L f).
Lemma ideal_of : forall f, In f all -> exists c, l_ideal L f = Val c /\
  (forall k, (3 <= k <= 7)%nat -> nth k (i_n0 c) 0 = ideal_n tab f k) /\ (forall k, (4 <= k <= 7)%nat -> nth k (i_th0 c) 0 = ideal_th tab f k) /\ icond (fun k => nth k (i_n0 c) 0) (fun k => nth k (i_th0 c) 0).
Proof.
  intros f Hf. pose proof (proj1 (forallb_forall _ _) IC f Hf) as H. unfold ifits in H. rewrite IL. destruct (look f) as [e|]; [|discriminate]. apply andb_true_iff in H as [H1 H2]. unfold ieqb in H1. apply andb_true_iff in H1 as [E1 E2].
  assert (EQ : forall a b, dnum_eqb a b = true -> a = b) by (intros a b; apply dnum_eqb_eq). apply (list_eqb_eq _ _ EQ) in E1, E2. destruct (icheck_cond e H2) as (c & Hc & N & T & C). exists c. unfold ideal_n, ideal_th. rewrite <- E1, <- E2. auto.
Qed.
Lemma make_ideal_iff : forall names, ((exists m, make_gideal L names = Val m) <-> incl names all) /\ (~ incl names all -> make_gideal L names = Err StdInvalidArgument).
Proof.
  intro names. assert (A : arg (make_gideal L names)).
  { unfold make_gideal. pose proof (map_res_arg _ _ (l_info L) names (fun f _ => Iarg f)) as A1. destruct (map_res (l_info L) names); cbn [bind]; [|exact A1]. assert (A2 : arg (map_res (l_ideal L) names)). { apply map_res_arg. intros f _. rewrite IL. pose proof (opt_res_arg _ (look f)) as O. destruct (opt_res (look f)); cbn [bind]; [apply icoef_arg|exact O]. } destruct (map_res (l_ideal L) names); cbn [bind]; [exact Logic.I|exact A2]. }
  assert (G : (exists m, make_gideal L names = Val m) <-> incl names all).
  { split.
    - intros [m H] f Hf. unfold make_gideal in H. destruct (map_res (l_info L) names) as [infos|] eqn:M; cbn [bind] in H; [|discriminate]. destruct (proj1 (map_res_all _ _ (l_info L) names) (ex_intro _ infos M) f Hf) as [i E]. exact (Known f i E).
    - intro I. unfold make_gideal. destruct (proj2 (map_res_all _ _ (l_info L) names)) as [infos ->]. { intros f Hf. destruct (fit_info _ _ _ (Fit names I) f Hf) as (i & E & _). eauto. } cbn [bind]. destruct (proj2 (map_res_all _ _ (l_ideal L) names)) as [cs ->]. { intros f Hf. destruct (ideal_of f (I f Hf)) as (c & E & _). eauto. } cbn [bind]. eauto. }
  split; [exact G|]. intro N. destruct (make_gideal L names) as [m|e]; [contradiction N; apply G; eauto|]. cbn in A. now subst.
Qed.
(** the constants of the components *)
Definition c_of (f : string) : icoef := match l_ideal L f with Val c => c | Err _ => {| i_n0 := []; i_th0 := [] |} end.
Definition N1 (f : string) : R := n1_of (c_of f) (s_Tc D f) (s_rhoc D f).
Definition N2 (f : string) : R := n2_of (c_of f) (s_Tc D f).
Lemma crit : forall f, In f all -> 0 < s_Tc D f /\ 0 < s_rhoc D f.
Proof. intros f Hf. assert (I : incl [f] all) by (intros z [<-|[]]; exact Hf). exact (fit_crit _ _ _ (Fit [f] I) f (or_introl eq_refl)). Qed.
Lemma aid_ideal : forall f T rho, In f all -> aid (c_of f) (s_Tc D f) (s_rhoc D f) T rho = ideal_gas tab D N1 N2 f T rho.
Proof.
  intros f T rho Hf. unfold ideal_gas, aid. destruct (ideal_of f Hf) as (c & Ec & Hn & Ht & _). unfold N1, N2, c_of. rewrite Ec. apply gerg_ideal_ext; assumption.
Qed.
Lemma c_of_cond : forall f, In f all -> icond (fun k => nth k (i_n0 (c_of f)) 0) (fun k => nth k (i_th0 (c_of f)) 0).
Proof. intros f Hf. destruct (ideal_of f Hf) as (c & Ec & _ & _ & C). unfold c_of. rewrite Ec. exact C. Qed.
Lemma mix_val : forall names m x T rho, make_gideal L names = Val m -> length x = length names -> 0 < T -> 0 < rho -> gideal_alphar m T rho x = ok (ideal_mix (ideal_gas tab D N1 N2) names x T rho).
Proof.
  intros names m x T rho H Lx HT Hr. pose proof (proj1 (proj1 (make_ideal_iff names)) (ex_intro _ m H)) as I. unfold make_gideal in H. destruct (map_res (l_info L) names) as [infos|] eqn:M; cbn [bind] in H; [|discriminate]. destruct (map_res (l_ideal L) names) as [cs|] eqn:C; cbn [bind] in H; [|discriminate]. injection H as <-.
  apply map_res_iff in M, C. assert (Li : length infos = length names) by (clear - M; induction M; cbn; congruence). unfold gideal_alphar. cbn [g_Tc g_rhoc g_coeffs]. rewrite map_length, Li, Lx, Nat.eqb_refl. cbn [negb].
  unfold ideal_mix. erewrite osum_val; [reflexivity|]. intros i Hi. cbn beta. destruct (Rlt_dec 0 (nth i x 0)) as [P|P]; [|reflexivity].
  assert (Gi : exists v, nth_error infos i = Some v /\ l_info L (nth i names EmptyString) = Val v). { clear - M Hi. revert i Hi. induction M as [|a b l l' E F IH]; intros [|i] Hi; cbn in *; try lia; [eauto|]. apply IH. lia. }
  assert (Gc : exists v, nth_error cs i = Some v /\ l_ideal L (nth i names EmptyString) = Val v). { clear - C Hi. revert i Hi. induction C as [|a b l l' E F IH]; intros [|i] Hi; cbn in *; try lia; [eauto|]. apply IH. lia. }
  destruct Gi as (v & Nv & Ev). destruct Gc as (c & Nc & Ec). assert (Hf : In (nth i names EmptyString) names) by (now apply nth_In). set (f := nth i names EmptyString) in *. destruct (fit_info _ _ _ (Fit names I) f Hf) as (v' & Ev' & T1 & R1). rewrite Ev in Ev'. injection Ev' as <-.
  rewrite Nc. replace (nth i (map p_Tc infos) 0) with (s_Tc D f) by (symmetry; rewrite <- T1; apply nth_error_nth; rewrite nth_error_map, Nv; reflexivity). replace (nth i (map p_rhoc infos) 0) with (s_rhoc D f) by (symmetry; rewrite <- R1; apply nth_error_nth; rewrite nth_error_map, Nv; reflexivity).
  pose proof (I f Hf) as Ha. pose proof (c_of_cond f Ha) as Cc. pose proof (aid_ideal f T rho Ha) as Ea. unfold c_of in Cc, Ea. rewrite Ec in Cc, Ea. destruct (crit f Ha) as [P1 P2].
  rewrite (ideal_val c (ic4 _ _ Cc) (ic6 _ _ Cc) (s_Tc D f) (s_rhoc D f) P1 P2 T rho HT Hr). cbn [opt_bind]. rewrite clog_val by exact P. cbn [opt_bind]. unfold aid in Ea. rewrite Ea. reflexivity.
Qed.
End Mix.
