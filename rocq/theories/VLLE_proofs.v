(** Lemmas about the three-phase solvers: the iteration, the residual and its Jacobian. *)
From Coq Require Import Reals ZArith List Bool Lia Lra.
From Coquelicot Require Import Coquelicot.
From Verif Require Import Json_model Cubic_model Derivs_model Derivs_spec Derivs_proofs Derivs_proofs2 Vec_spec Vec_proofs Iso_model Iso_spec Iso_proofs
  Trace_spec Trace_proofs PhaseEq_model PhaseEq_spec PhaseEq_proofs PhaseEq_proofs2 Float_model VLE_model VLE_spec VLE_proofs VLE_proofs2 VLE_proofs3 VLLE_model VLLE_spec.
Import ListNotations.
Open Scope R_scope.

Section Run.
Variable n : nat.
Variable system : list fl -> outcome (list fl * list (list fl)).
Hypothesis Hsys : forall x r J, system x = ok (r, J) -> length r = n.
Variable qr : list (list fl) -> list fl -> list fl.
Hypothesis Hqr : forall J b, length (qr J b) = length b.
Variables (atol reltol axtol relxtol : fl).
Notation loop := (vlle_loop system qr atol reltol axtol relxtol).
Notation passes := (vlle_passes n system qr atol reltol axtol relxtol).
Notation ends := (vlle_ends n atol reltol axtol relxtol).

Lemma below_iff : forall dx x, length dx = n -> length x = n -> (below axtol relxtol dx x = true <-> step_test n axtol relxtol dx x).
Proof. intros dx x L1 L2. unfold below. rewrite forallb_combine by lia. rewrite L1. reflexivity. Qed.
Lemma residual_iff : forall r, length r = n -> (small atol reltol r r = true <-> residual_test n atol reltol r).
Proof. intros r L. unfold small. rewrite forallb_combine by lia. rewrite L. reflexivity. Qed.
Lemma change_iff : forall dx x, length dx = n -> length x = n -> (stalled x dx = true <-> change_test n dx x).
Proof.
  intros dx x L1 L2. unfold stalled. rewrite forallb_el. rewrite zip_length, L2 by lia. unfold change_test, less.
  split; intros H i Hi; specialize (H i Hi); [rewrite zip_el in H by lia|rewrite zip_el by lia]; exact H.
Qed.
Lemma vlle_loop_run : forall k0 x code y, loop (S k0) x = ok (code, y) -> length x = n ->
  exists k X Rs D, X 0%nat = x /\ X k = y /\ (1 <= k)%nat /\ (Z.of_nat k <= Z.of_nat (S k0))%Z /\ passes k X Rs D /\ ends (Z.of_nat (S k0)) code k X Rs D.
Proof.
  induction k0 as [|k0 IH]; intros x code y H Lx.
  all: cbn [vlle_loop] in H; apply obind_inv in H; destruct H as ([r J] & EA & H); pose proof (Hsys _ _ _ EA) as Lr;
    set (dx := qr J (map fopp r)) in *; assert (Ld : length dx = n) by (unfold dx; rewrite Hqr, map_length; exact Lr);
    set (x1 := zip fadd x dx) in *; assert (Lx1 : length x1 = n) by (unfold x1; rewrite zip_length; lia);
    assert (P1 : vlle_pass n system qr x r dx x1) by (split; [exists J; auto|]; unfold x1; rewrite zip_map by lia; now rewrite Lx);
    pose proof (below_iff dx x1 Ld Lx1) as I1; pose proof (residual_iff r Lr) as I2; pose proof (change_iff dx x1 Ld Lx1) as I3;
    destruct (below axtol relxtol dx x1) eqn:S1;
    [ injection H as <- <-; exists 1%nat, (shift x (fun _ => x1)), (fun _ => r), (fun _ => dx); split; [reflexivity|]; split; [reflexivity|]; split; [lia|];
      split; [lia|]; split; [intros [|i] Hi; [split; [exact P1|lia]|lia]|]; exists 0%nat; split; [reflexivity|]; left; exact (proj1 I1 eq_refl) | ];
    destruct (small atol reltol r r) eqn:S2;
    [ injection H as <- <-; exists 1%nat, (shift x (fun _ => x1)), (fun _ => r), (fun _ => dx); split; [reflexivity|]; split; [reflexivity|]; split; [lia|];
      split; [lia|]; split; [intros [|i] Hi; [split; [exact P1|lia]|lia]|]; exists 0%nat; split; [reflexivity|]; split; [exact (proj1 I2 eq_refl)|exact (not_iff _ _ I1 eq_refl)] | ];
    destruct (stalled x1 dx) eqn:S3;
    [ injection H as <- <-; exists 1%nat, (shift x (fun _ => x1)), (fun _ => r), (fun _ => dx); split; [reflexivity|]; split; [reflexivity|]; split; [lia|];
      split; [lia|]; split; [intros [|i] Hi; [split; [exact P1|lia]|lia]|]; exists 0%nat; split; [reflexivity|]; right; split; [exact (not_iff _ _ I2 eq_refl)|exact (proj1 I3 eq_refl)] | ];
    assert (GO : vlle_goes_on n atol reltol axtol relxtol r dx x1) by (split; [exact (not_iff _ _ I1 eq_refl)|split; [exact (not_iff _ _ I2 eq_refl)|exact (not_iff _ _ I3 eq_refl)]]).
  - injection H as <- <-. exists 1%nat, (shift x (fun _ => x1)), (fun _ => r), (fun _ => dx). split; [reflexivity|]. split; [reflexivity|]. split; [lia|].
    split; [lia|]. split; [intros [|i] Hi; [split; [exact P1|lia]|lia]|]. exists 0%nat. split; [reflexivity|]. split; [lia|exact GO].
  - destruct (IH x1 code y H Lx1) as (k & X & Rs & D & X0 & Xk & K1 & Hk & PS & EN).
    exists (S k), (shift x X), (shift r Rs), (shift dx D). split; [reflexivity|]. split; [exact Xk|]. split; [lia|]. split; [lia|]. split.
    + intros [|i] Hi; cbn [shift]; [rewrite X0; split; [exact P1|intros _; exact GO]|].
      destruct (PS i ltac:(lia)) as [A B]. split; [exact A|]. intros Hs. apply B. lia.
    + destruct EN as (i & -> & E). exists (S i). split; [reflexivity|]. cbn [shift]. destruct code; try exact E. destruct E as [E1 E2]. split; [lia|exact E2].
Qed.
Lemma vlle_loop_total : (forall x, length x = n -> exists r J, system x = ok (r, J)) ->
  forall k x, length x = n -> exists code y, loop k x = ok (code, y).
Proof.
  intros T. induction k as [|k IH]; intros x Lx; cbn [vlle_loop]; [eauto|].
  destruct (T x Lx) as (r & J & E). rewrite E. cbn [obind ok]. pose proof (Hsys _ _ _ E) as Lr.
  set (dx := qr J (map fopp r)). assert (Ld : length dx = n) by (unfold dx; rewrite Hqr, map_length; exact Lr).
  assert (Lx1 : length (zip fadd x dx) = n) by (rewrite zip_length; lia).
  destruct (below _ _ _ _); [eauto|]. destruct (small _ _ _ _); [eauto|]. destruct (stalled _ _); [eauto|]. destruct k; [eauto|]. exact (IH _ Lx1).
Qed.
End Run.

Lemma vlle_T_len : forall m T x r J, vlle_T_assemble m T x = ok (r, J) -> length r = 6%nat.
Proof.
  intros m T x r J H. unfold vlle_T_assemble in H. do 3 (apply obind_inv in H; destruct H as (? & _ & H)). injection H as <- _. reflexivity.
Qed.
Lemma vlle_p_len : forall m p x r J, vlle_p_assemble m p x = ok (r, J) -> length r = 7%nat.
Proof.
  intros m p x r J H. unfold vlle_p_assemble in H. do 9 (apply obind_inv in H; destruct H as (? & _ & H)). injection H as <- _. reflexivity.
Qed.

(** ** A part of the unknowns along a curve *)
Definition part (o : nat) (v : list R) : list R := firstn 2 (skipn o v).
Lemma part_len : forall o v, (o + 2 <= length v)%nat -> length (part o v) = 2%nat.
Proof. intros o v H. unfold part. rewrite firstn_length, skipn_length. lia. Qed.
Lemma part_nth : forall o v i, (i < 2)%nat -> nth i (part o v) 0 = nth (o + i) v 0.
Proof. intros o v i H. unfold part. rewrite nth_firstn by auto. apply nth_skipn. Qed.
Lemma part_path : forall x d X o T dT tau, curve x d X -> (o + 2 <= length x)%nat -> tau 0 = T -> is_derive tau 0 dT ->
  path T (part o x) dT (part o d) tau (fun s => part o (X s)).
Proof.
  intros x d X o T dT tau C Ho E D. constructor; auto.
  - now rewrite (cv_0 _ _ _ C).
  - intros s. rewrite !part_len; auto. now rewrite (cv_len _ _ _ C).
  - rewrite part_len by auto. intros i Hi. rewrite part_nth by auto.
    refine (is_derive_ext _ _ _ _ _ (cv_d _ _ _ C (o + i)%nat ltac:(lia))). intros s. symmetry. now apply part_nth.
Qed.
Lemma part_ders : forall x d X o T dT tau f fT fr, curve x d X -> (o + 2 <= length x)%nat -> tau 0 = T -> is_derive tau 0 dT ->
  ders T (part o x) f fT fr -> is_derive (fun s => f (tau s) (part o (X s))) 0 (dT * fT + (fr 0%nat * nth o d 0 + fr 1%nat * nth (S o) d 0)).
Proof.
  intros x d X o T dT tau f fT fr C Ho E D A. specialize (A _ _ _ _ (part_path x d X o T dT tau C Ho E D)).
  eapply is_derive_eq; [|exact A]. rewrite part_len by auto. rewrite sum2, !part_nth by lia. rewrite Nat.add_0_r, Nat.add_1_r. ring.
Qed.

Section Phases.
Variable ad : (list R -> R) -> list nat -> list R -> R.
Hypothesis Had : AD_exact ad.
Variable alphar : R -> R -> list R -> R.
Variable Rgas : list R -> R.
Variable Rg : R.
Hypothesis HR : forall x, Rgas x = Rg.
Hypothesis HR0 : 0 < Rg.
Variable m : eos.
Hypothesis EV : evaluates ad alphar Rgas m.
Notation qp := (q_p ad alphar Rgas Rg).
Notation qdp := (q_dpdrho ad alphar Rgas Rg).
Notation Mu := (mu ad alphar Rgas Rg).
Notation HT' := (Ht ad alphar Rgas Rg).
Notation qdT := (build_d2PsirdTdrhoi ad alphar Rgas).
Notation dpdT := (get_dpdT_constrhovec ad alphar Rgas).

Lemma eval_fin : forall T rho, 0 < T -> positive rho -> exists q, eval_phase m (Fin T) (fin rho) = ok q /\
  ph_R q = Fin Rg /\ ph_rho q = fin rho /\
  (forall i, (i < length rho)%nat -> ph_mu q i = Fin (Mu T rho i)) /\ ph_p q = Fin (qp T rho) /\
  (forall i, (i < length rho)%nat -> ph_dp q i = Fin (qdp T rho i)) /\
  (forall i j, (i < length rho)%nat -> (j < length rho)%nat -> ph_H q i j = Fin (HT' T rho i j)).
Proof.
  intros T rho HT Hp. pose proof (total_pos _ Hp) as Tt. assert (Q : vsum rho <> 0) by (rewrite vsum_total; lra).
  eexists. unfold eval_phase. rewrite (ev_fgh _ _ _ _ EV T rho HT Tt). cbn [obind ok].
  assert (F : map (fun r => fdiv r (fsum (fin rho))) (fin rho) = fin (map (fun r => r / vsum rho) rho)).
  { rewrite fsum_fin. unfold fin. rewrite !map_map. apply map_ext. intros a. now apply fdiv_fin. }
  rewrite F, (ev_R _ _ _ _ EV), HR. change (fmul (Fin Rg) (Fin T)) with (Fin (Rg * T)).
  split; [reflexivity|]. cbn. split; [reflexivity|]. split; [reflexivity|]. split; [|split; [|split]].
  - intros i Hi. unfold ph_mu. cbn. apply mu_fin; auto. now apply Hp.
  - unfold ph_p. cbn. apply phase_p_fin.
  - intros i Hi. unfold ph_dp. cbn. now apply phase_dp_fin.
  - intros i j Hi Hj. unfold ph_H. cbn [ph_h ph_RT ph_rho]. rewrite hess_fin, el_fin by auto. unfold Ht. destruct (Nat.eqb i j); [|reflexivity].
    rewrite fdiv_fin by (apply Rgt_not_eq, Hp; auto). reflexivity.
Qed.

(** residuals and rows, at the temperature [T] and with a change of it as last column *)
Definition dmu (T : R) (rho : list R) (i : nat) : R := nth i (qdT T rho) 0 + Rg * ln (nth i rho 0).
Definition res_rows (T : R) (V L1 L2 : list R) : list R :=
  [Mu T V 0 + - Mu T L1 0; Mu T V 1 + - Mu T L1 1; Mu T L1 0 + - Mu T L2 0; Mu T L1 1 + - Mu T L2 1; qp T V + - qp T L1; qp T L1 + - qp T L2].
Definition jac_rows6 (T : R) (V L1 L2 : list R) : list (list R) :=
  [ [HT' T V 0 0; HT' T V 0 1; - HT' T L1 0 0; - HT' T L1 0 1; 0; 0];
    [HT' T V 1 0; HT' T V 1 1; - HT' T L1 1 0; - HT' T L1 1 1; 0; 0];
    [0; 0; HT' T L1 0 0; HT' T L1 0 1; - HT' T L2 0 0; - HT' T L2 0 1];
    [0; 0; HT' T L1 1 0; HT' T L1 1 1; - HT' T L2 1 0; - HT' T L2 1 1];
    [qdp T V 0; qdp T V 1; - qdp T L1 0; - qdp T L1 1; 0; 0];
    [0; 0; qdp T L1 0; qdp T L1 1; - qdp T L2 0; - qdp T L2 1] ].
Definition T_col (T : R) (V L1 L2 : list R) : list R :=
  [dmu T V 0 + - dmu T L1 0; dmu T V 1 + - dmu T L1 1; dmu T L1 0 + - dmu T L2 0; dmu T L1 1 + - dmu T L2 1; dpdT T V + - dpdT T L1; dpdT T L1 + - dpdT T L2].
Definition jac_rows7 (T : R) (V L1 L2 : list R) : list (list R) :=
  map (fun q => fst q ++ [snd q]) (combine (jac_rows6 T V L1 L2) (T_col T V L1 L2)) ++ [[qdp T V 0; qdp T V 1; 0; 0; 0; 0; dpdT T V]].

Lemma three_app : forall (V L1 L2 : list R) t, length V = 2%nat -> length L1 = 2%nat -> length L2 = 2%nat ->
  let x := V ++ L1 ++ L2 ++ t in
  firstn 2 (fin x) = fin V /\ firstn 2 (skipn 2 (fin x)) = fin L1 /\ firstn 2 (skipn 4 (fin x)) = fin L2 /\ skipn 4 (fin x) = fin (L2 ++ t) /\
  part 0 x = V /\ part 2 x = L1 /\ part 4 x = L2.
Proof.
  intros V L1 L2 t A B C x. unfold x. destruct V as [|v0 [|v1 [|]]]; try discriminate. destruct L1 as [|a0 [|a1 [|]]]; try discriminate.
  destruct L2 as [|b0 [|b1 [|]]]; try discriminate. cbn. auto 10.
Qed.
Lemma vlle_T_fin : forall T V L1 L2, 0 < T -> length V = 2%nat -> length L1 = 2%nat -> length L2 = 2%nat -> positive V -> positive L1 -> positive L2 ->
  vlle_T_assemble m (Fin T) (fin (V ++ L1 ++ L2)) = ok (fin (res_rows T V L1 L2), fins (jac_rows6 T V L1 L2)).
Proof.
  intros T V L1 L2 HT NV N1 N2 PV P1 P2. destruct (three_app V L1 L2 [] NV N1 N2) as (E1 & E2 & _ & E4 & _). cbv zeta in *. rewrite app_nil_r in *.
  unfold vlle_T_assemble. rewrite E1, E2, E4.
  destruct (eval_fin T V HT PV) as (q1 & Q1 & _ & _ & M1 & p1 & D1 & H1). destruct (eval_fin T L1 HT P1) as (q2 & Q2 & _ & _ & M2 & p2 & D2 & H2).
  destruct (eval_fin T L2 HT P2) as (q3 & Q3 & _ & _ & M3 & p3 & D3 & H3). rewrite Q1, Q2, Q3. cbn [obind ok]. rewrite NV in *. rewrite N1 in *. rewrite N2 in *.
  rewrite !M1, !M2, !M3, p1, p2, p3, !H1, !H2, !H3, !D1, !D2, !D3 by lia. reflexivity.
Qed.
Lemma vlle_p_fin : forall p T V L1 L2, 0 < T -> length V = 2%nat -> length L1 = 2%nat -> length L2 = 2%nat -> positive V -> positive L1 -> positive L2 ->
  vlle_p_assemble m (Fin p) (fin (V ++ L1 ++ L2 ++ [T])) = ok (fin (res_rows T V L1 L2 ++ [qp T V + - p]), fins (jac_rows7 T V L1 L2)).
Proof.
  intros p T V L1 L2 HT NV N1 N2 PV P1 P2. destruct (three_app V L1 L2 [T] NV N1 N2) as (E1 & E2 & E3 & _ & _). cbv zeta in *.
  unfold vlle_p_assemble. rewrite E1, E2, E3.
  assert (ET : el (fin (V ++ L1 ++ L2 ++ [T])) 6 = Fin T).
  { rewrite el_fin by (rewrite !app_length, NV, N1, N2; cbn; lia). f_equal. rewrite !app_nth2 by lia. now rewrite NV, N1, N2. }
  rewrite ET.
  destruct (eval_fin T V HT PV) as (q1 & Q1 & R1 & O1 & M1 & p1 & D1 & H1). destruct (eval_fin T L1 HT P1) as (q2 & Q2 & R2 & O2 & M2 & p2 & D2 & H2).
  destruct (eval_fin T L2 HT P2) as (q3 & Q3 & R3 & O3 & M3 & p3 & D3 & H3). rewrite Q1, Q2, Q3. cbn [obind ok]. rewrite NV in *. rewrite N1 in *. rewrite N2 in *.
  rewrite !(ev_d2 _ _ _ _ EV) by (auto using total_pos). rewrite !(ev_dpdT _ _ _ _ EV) by (auto using total_pos). cbn [obind ok].
  rewrite !M1, !M2, !M3, p1, p2, p3, !H1, !H2, !H3, !D1, !D2, !D3, R1, R2, R3, O1, O2, O3 by lia.
  rewrite !el_fin by (rewrite ?dT_len; lia). rewrite !flog_fin by (first [apply PV|apply P1|apply P2]; lia).
  unfold ok. do 2 f_equal. f_equal.
  unfold jac_rows7, jac_rows6, T_col, dmu, fins, fin. cbn [map combine fst snd app fmul fsub fadd fopp].
  repeat match goal with |- _ :: _ = _ :: _ => apply f_equal2 | |- Fin _ = Fin _ => apply f_equal; ring | |- [] = [] => reflexivity end.
Qed.

Section Jac.
Variables (T : R) (V L1 L2 : list R).
Hypothesis HT : 0 < T.
Hypothesis NV : length V = 2%nat.
Hypothesis N1 : length L1 = 2%nat.
Hypothesis N2 : length L2 = 2%nat.
Hypothesis PV : positive V.
Hypothesis P1 : positive L1.
Hypothesis P2 : positive L2.
Hypothesis SV : smooth_joint alphar Rgas T V.
Hypothesis S1 : smooth_joint alphar Rgas T L1.
Hypothesis S2 : smooth_joint alphar Rgas T L2.
(** a quantity f of one phase minus (or without) the same quantity of another one *)
Lemma diff_row : forall x d X o o' tau dT (f : R -> list R -> R) fT fr gT gr, curve x d X -> (o + 2 <= length x)%nat -> (o' + 2 <= length x)%nat ->
  tau 0 = T -> is_derive tau 0 dT -> ders T (part o x) f fT fr -> ders T (part o' x) f gT gr ->
  is_derive (fun s => f (tau s) (part o (X s)) + - f (tau s) (part o' (X s))) 0
    (dT * (fT + - gT) + (fr 0%nat * nth o d 0 + fr 1%nat * nth (S o) d 0) + (- gr 0%nat * nth o' d 0 + - gr 1%nat * nth (S o') d 0)).
Proof.
  intros x d X o o' tau dT f fT fr gT gr C H1 H2 E D A B.
  pose proof (part_ders x d X o T dT tau f fT fr C H1 E D A) as Q1.
  pose proof (part_ders x d X o' T dT tau _ _ _ C H2 E D (ders_opp T _ _ _ _ B)) as Q2.
  eapply is_derive_eq; [|exact (is_derive_plus' _ _ _ _ _ Q1 Q2)]. cbv beta. ring.
Qed.
Lemma sum6 : forall f, sumn 6 f = f 0%nat + f 1%nat + f 2%nat + f 3%nat + f 4%nat + f 5%nat. Proof. intros. cbn. ring. Qed.
Lemma sum7 : forall f, sumn 7 f = f 0%nat + f 1%nat + f 2%nat + f 3%nat + f 4%nat + f 5%nat + f 6%nat. Proof. intros. cbn. ring. Qed.

Definition fns (tau : list R -> R) : list (list R -> R) :=
  [ (fun y => Mu (tau y) (part 0 y) 0 + - Mu (tau y) (part 2 y) 0); (fun y => Mu (tau y) (part 0 y) 1 + - Mu (tau y) (part 2 y) 1);
    (fun y => Mu (tau y) (part 2 y) 0 + - Mu (tau y) (part 4 y) 0); (fun y => Mu (tau y) (part 2 y) 1 + - Mu (tau y) (part 4 y) 1);
    (fun y => qp (tau y) (part 0 y) + - qp (tau y) (part 2 y)); (fun y => qp (tau y) (part 2 y) + - qp (tau y) (part 4 y)) ].
Lemma curve_parts_positive : forall x d X o tau dT, curve x d X -> (o + 2 <= length x)%nat -> positive (part o x) -> tau 0 = T -> is_derive tau 0 dT ->
  locally 0 (fun s => positive (part o (X s))).
Proof. intros x d X o tau dT C Ho P E D. exact (path_positive _ _ _ _ _ _ (part_path x d X o T dT tau C Ho E D) P). Qed.

Definition vlle_T_F (y : list R) : outcome (list fl) := obind (vlle_T_assemble m (Fin T) (fin y)) (fun q => ok (fst q)).
Lemma vlle_T_jac : has_jacobian vlle_T_F (V ++ L1 ++ L2) (res_rows T V L1 L2) (jac_rows6 T V L1 L2).
Proof.
  set (x := V ++ L1 ++ L2). destruct (three_app V L1 L2 [] NV N1 N2) as (_ & _ & _ & _ & E1 & E2 & E3). cbv zeta in *. rewrite app_nil_r in *. fold x in E1, E2, E3.
  assert (Lx : length x = 6%nat) by (unfold x; rewrite !app_length; lia).
  set (rows := combine (fns (fun _ => T)) (jac_rows6 T V L1 L2)).
  assert (R1 : res_rows T V L1 L2 = map (fun r => fst r x) rows) by (unfold rows, res_rows, fns, jac_rows6; cbn [combine map fst]; now rewrite E1, E2, E3).
  assert (R2 : jac_rows6 T V L1 L2 = map snd rows) by reflexivity. rewrite R1, R2. apply jac_rows.
  - intros row Hr. rewrite Lx. unfold rows in Hr. cbn in Hr. repeat (destruct Hr as [<-|Hr]; [reflexivity|]). destruct Hr.
  - unfold vlle_T_F, x. rewrite vlle_T_fin by auto. cbn [obind ok fst]. now rewrite R1.
  - intros d X C. pose proof (is_derive_cst T 0) as D0.
    assert (F0 : locally 0 (fun s => positive (part 0 (X s)))) by (apply (curve_parts_positive x d X 0 (fun _ => T) 0); auto; [lia|now rewrite E1]).
    assert (F1 : locally 0 (fun s => positive (part 2 (X s)))) by (apply (curve_parts_positive x d X 2 (fun _ => T) 0); auto; [lia|now rewrite E2]).
    assert (F2 : locally 0 (fun s => positive (part 4 (X s)))) by (apply (curve_parts_positive x d X 4 (fun _ => T) 0); auto; [lia|now rewrite E3]).
    eapply filter_imp; [|exact (filter_and _ _ F0 (filter_and _ _ F1 F2))].
    intros s (A & B & Cc). pose proof (cv_len _ _ _ C s) as Ls. rewrite Lx in Ls.
    assert (XE : X s = part 0 (X s) ++ part 2 (X s) ++ part 4 (X s)).
    { destruct (X s) as [|x0 [|x1 [|x2 [|x3 [|x4 [|x5 [|]]]]]]]; try discriminate. reflexivity. }
    unfold vlle_T_F. rewrite XE at 1. rewrite vlle_T_fin by (auto; apply part_len; lia). cbn [obind ok fst]. reflexivity.
  - intros row Hr d X C. rewrite Lx. pose proof (is_derive_cst T 0) as D0.
    pose proof (fun o o' f fT fr gT gr H1 H2 => diff_row x d X o o' (fun _ => T) 0 f fT fr gT gr C H1 H2 eq_refl D0) as DR.
    assert (MV : forall i, (i < 2)%nat -> ders T (part 0 x) (fun t y => Mu t y i) (dmu T V i) (fun j => HT' T V i j)) by (intros i Hi; rewrite E1; apply ders_mu; auto; lia).
    assert (M1 : forall i, (i < 2)%nat -> ders T (part 2 x) (fun t y => Mu t y i) (dmu T L1 i) (fun j => HT' T L1 i j)) by (intros i Hi; rewrite E2; apply ders_mu; auto; lia).
    assert (M2 : forall i, (i < 2)%nat -> ders T (part 4 x) (fun t y => Mu t y i) (dmu T L2 i) (fun j => HT' T L2 i j)) by (intros i Hi; rewrite E3; apply ders_mu; auto; lia).
    assert (QV : ders T (part 0 x) qp (dpdT T V) (qdp T V)) by (rewrite E1; apply ders_qp; auto).
    assert (Q1 : ders T (part 2 x) qp (dpdT T L1) (qdp T L1)) by (rewrite E2; apply ders_qp; auto).
    assert (Q2 : ders T (part 4 x) qp (dpdT T L2) (qdp T L2)) by (rewrite E3; apply ders_qp; auto).
    unfold rows in Hr. cbn in Hr. repeat destruct Hr as [<-|Hr]; cbn [fst snd]; try destruct Hr; rewrite sum6; cbn [nth].
    + eapply is_derive_eq; [|exact (DR 0%nat 2%nat _ _ _ _ _ ltac:(lia) ltac:(lia) (MV 0%nat ltac:(lia)) (M1 0%nat ltac:(lia)))]. cbv beta. ring.
    + eapply is_derive_eq; [|exact (DR 0%nat 2%nat _ _ _ _ _ ltac:(lia) ltac:(lia) (MV 1%nat ltac:(lia)) (M1 1%nat ltac:(lia)))]. cbv beta. ring.
    + eapply is_derive_eq; [|exact (DR 2%nat 4%nat _ _ _ _ _ ltac:(lia) ltac:(lia) (M1 0%nat ltac:(lia)) (M2 0%nat ltac:(lia)))]. cbv beta. ring.
    + eapply is_derive_eq; [|exact (DR 2%nat 4%nat _ _ _ _ _ ltac:(lia) ltac:(lia) (M1 1%nat ltac:(lia)) (M2 1%nat ltac:(lia)))]. cbv beta. ring.
    + eapply is_derive_eq; [|exact (DR 0%nat 2%nat _ _ _ _ _ ltac:(lia) ltac:(lia) QV Q1)]. ring.
    + eapply is_derive_eq; [|exact (DR 2%nat 4%nat _ _ _ _ _ ltac:(lia) ltac:(lia) Q1 Q2)]. ring.
Qed.

Variable p : R.
Definition vlle_p_F (y : list R) : outcome (list fl) := obind (vlle_p_assemble m (Fin p) (fin y)) (fun q => ok (fst q)).
Lemma vlle_p_jac : has_jacobian vlle_p_F (V ++ L1 ++ L2 ++ [T]) (res_rows T V L1 L2 ++ [qp T V + - p]) (jac_rows7 T V L1 L2).
Proof.
  set (x := V ++ L1 ++ L2 ++ [T]). destruct (three_app V L1 L2 [T] NV N1 N2) as (_ & _ & _ & _ & E1 & E2 & E3). cbv zeta in *. fold x in E1, E2, E3.
  assert (Lx : length x = 7%nat) by (unfold x; rewrite !app_length; cbn; lia).
  assert (T6 : nth 6 x 0 = T) by (unfold x; rewrite !app_nth2 by lia; now rewrite NV, N1, N2).
  set (tau := fun y : list R => nth 6 y 0).
  set (rows := combine (fns tau ++ [fun y => qp (tau y) (part 0 y) + - p]) (jac_rows7 T V L1 L2)).
  assert (R1 : res_rows T V L1 L2 ++ [qp T V + - p] = map (fun r => fst r x) rows) by (unfold rows, res_rows, fns, jac_rows7, jac_rows6, T_col, tau; cbn [combine map fst snd app]; now rewrite E1, E2, E3, T6).
  assert (R2 : jac_rows7 T V L1 L2 = map snd rows) by reflexivity. rewrite R1, R2. apply jac_rows.
  - intros row Hr. rewrite Lx. unfold rows in Hr. cbn in Hr. repeat (destruct Hr as [<-|Hr]; [reflexivity|]). destruct Hr.
  - unfold vlle_p_F, x. rewrite vlle_p_fin by auto. cbn [obind ok fst]. now rewrite R1.
  - intros d X C. assert (D0 : is_derive (fun s => tau (X s)) 0 (nth 6 d 0)) by (apply (cv_d _ _ _ C 6%nat); lia).
    assert (T0 : tau (X 0) = T) by (unfold tau; rewrite (cv_0 _ _ _ C); exact T6).
    assert (LT : locally 0 (fun s => 0 < tau (X s))) by (apply (locally_pos_c _ 0 _ D0); rewrite T0; exact HT).
    assert (F0 : locally 0 (fun s => positive (part 0 (X s)))) by (apply (curve_parts_positive x d X 0 (fun s => tau (X s)) (nth 6 d 0) C); auto; [lia|now rewrite E1]).
    assert (F1 : locally 0 (fun s => positive (part 2 (X s)))) by (apply (curve_parts_positive x d X 2 (fun s => tau (X s)) (nth 6 d 0) C); auto; [lia|now rewrite E2]).
    assert (F2 : locally 0 (fun s => positive (part 4 (X s)))) by (apply (curve_parts_positive x d X 4 (fun s => tau (X s)) (nth 6 d 0) C); auto; [lia|now rewrite E3]).
    eapply filter_imp; [|exact (filter_and _ _ LT (filter_and _ _ F0 (filter_and _ _ F1 F2)))].
    intros s (Ts & A & B & Cc). pose proof (cv_len _ _ _ C s) as Ls. rewrite Lx in Ls.
    assert (XE : X s = part 0 (X s) ++ part 2 (X s) ++ part 4 (X s) ++ [tau (X s)]).
    { destruct (X s) as [|x0 [|x1 [|x2 [|x3 [|x4 [|x5 [|x6 [|]]]]]]]]; try discriminate. reflexivity. }
    unfold vlle_p_F. rewrite XE at 1. rewrite vlle_p_fin by (auto; apply part_len; lia). cbn [obind ok fst]. reflexivity.
  - intros row Hr d X C. rewrite Lx. assert (D0 : is_derive (fun s => tau (X s)) 0 (nth 6 d 0)) by (apply (cv_d _ _ _ C 6%nat); lia).
    assert (T0 : tau (X 0) = T) by (unfold tau; rewrite (cv_0 _ _ _ C); exact T6).
    pose proof (fun o o' f fT fr gT gr H1 H2 => diff_row x d X o o' (fun s => tau (X s)) (nth 6 d 0) f fT fr gT gr C H1 H2 T0 D0) as DR.
    assert (MV : forall i, (i < 2)%nat -> ders T (part 0 x) (fun t y => Mu t y i) (dmu T V i) (fun j => HT' T V i j)) by (intros i Hi; rewrite E1; apply ders_mu; auto; lia).
    assert (M1 : forall i, (i < 2)%nat -> ders T (part 2 x) (fun t y => Mu t y i) (dmu T L1 i) (fun j => HT' T L1 i j)) by (intros i Hi; rewrite E2; apply ders_mu; auto; lia).
    assert (M2 : forall i, (i < 2)%nat -> ders T (part 4 x) (fun t y => Mu t y i) (dmu T L2 i) (fun j => HT' T L2 i j)) by (intros i Hi; rewrite E3; apply ders_mu; auto; lia).
    assert (QV : ders T (part 0 x) qp (dpdT T V) (qdp T V)) by (rewrite E1; apply ders_qp; auto).
    assert (Q1 : ders T (part 2 x) qp (dpdT T L1) (qdp T L1)) by (rewrite E2; apply ders_qp; auto).
    assert (Q2 : ders T (part 4 x) qp (dpdT T L2) (qdp T L2)) by (rewrite E3; apply ders_qp; auto).
    unfold rows in Hr. cbn in Hr. repeat destruct Hr as [<-|Hr]; cbn [fst snd]; try destruct Hr; rewrite sum7; cbn [nth].
    + eapply is_derive_eq; [|exact (DR 0%nat 2%nat _ _ _ _ _ ltac:(lia) ltac:(lia) (MV 0%nat ltac:(lia)) (M1 0%nat ltac:(lia)))]. cbv beta. ring.
    + eapply is_derive_eq; [|exact (DR 0%nat 2%nat _ _ _ _ _ ltac:(lia) ltac:(lia) (MV 1%nat ltac:(lia)) (M1 1%nat ltac:(lia)))]. cbv beta. ring.
    + eapply is_derive_eq; [|exact (DR 2%nat 4%nat _ _ _ _ _ ltac:(lia) ltac:(lia) (M1 0%nat ltac:(lia)) (M2 0%nat ltac:(lia)))]. cbv beta. ring.
    + eapply is_derive_eq; [|exact (DR 2%nat 4%nat _ _ _ _ _ ltac:(lia) ltac:(lia) (M1 1%nat ltac:(lia)) (M2 1%nat ltac:(lia)))]. cbv beta. ring.
    + eapply is_derive_eq; [|exact (DR 0%nat 2%nat _ _ _ _ _ ltac:(lia) ltac:(lia) QV Q1)]. ring.
    + eapply is_derive_eq; [|exact (DR 2%nat 4%nat _ _ _ _ _ ltac:(lia) ltac:(lia) Q1 Q2)]. ring.
    + pose proof (part_ders x d X 0 T (nth 6 d 0) (fun s => tau (X s)) qp _ _ C ltac:(lia) T0 D0 QV) as Q.
      eapply is_derive_eq; [|exact (is_derive_plus' _ _ _ _ _ Q (is_derive_cst (- p) 0))]. ring.
Qed.
End Jac.
End Phases.
