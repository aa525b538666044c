(** Lemmas about the equations of state in simulation units. *)
From Coq Require Import Reals ZArith String List Bool Lia Lra.
From Coquelicot Require Import Coquelicot.
From Verif Require Import Json_model Vec_spec Vec_proofs Cubic_model Terms_model Ideal_model Ideal_proofs Util_model Assoc_model Potential_model Potential_spec
  Derivs_proofs2 Properties_Ideal.
Import ListNotations.
Open Scope R_scope.

Lemma cdiv_iff : forall a b q, cdiv a b = Some q <-> b <> 0 /\ q = a / b.
Proof. intros a b q. unfold cdiv. destruct (Req_EM_T b 0); split; [discriminate|tauto|intro H; injection H as <-; tauto|intros [_ ->]; reflexivity]. Qed.
Lemma obind_iff : forall {A B} (m : option A) (f : A -> option B) v, (a <-- m; f a) = Some v <-> exists a, m = Some a /\ f a = Some v.
Proof. intros A B m f v. destruct m as [a|]; cbn; split; [intro H; now exists a|intros (b & E & H); now injection E as <-|discriminate|intros (b & E & _); discriminate]. Qed.

(** * Square well *)
Definition gam (n : nat) (l : R) : R := let g := sw_gamma n in nth 1 g 0 * l + nth 2 g 0 * l ^ 2 + sw_Rn g l / sw_Qn g l.
Definition Knum (i : nat) (l : R) : R := sumn 4 (fun k => nth (k + 1) (sw_theta i) 0 * l ^ (k + 1)).
Definition Kden (i : nat) (rho l : R) : R := 1 + rho * sumn 3 (fun k => nth (k + 5) (sw_theta i) 0 * l ^ (k + 1)).
Definition wa1 (rho l : R) : R := sw_a2i 1 l * rho ^ 1 + sw_a31 l * rho ^ 2 + sumn 4 (fun k => gam (k + 1) l * rho ^ (k + 3)).
Definition wa2 (x rho l : R) : R := sw_Chi rho l * exp (x * rho + sw_phii 1 l * rho ^ 3 + sw_phii 2 l * rho ^ 4).
Definition wa3 (i : nat) (x rho l : R) : R := sw_a2i i l * rho * exp (x * rho + Knum i l * rho ^ 2 / Kden i rho l).
Definition sw_value (x2 x3 x4 l T rho : R) : R :=
  - (3) * PI * rho * (PI * rho - 8) / (PI * rho - 6) ^ 2 + wa1 rho l / T + wa2 x2 rho l / T ^ 2 + wa3 3 x3 rho l / T ^ 3 + wa3 4 x4 rho l / T ^ 4.
Definition sw_ok (l T rho : R) : Prop :=
  (forall n, (n < 4)%nat -> sw_Qn (sw_gamma (n + 1)) l <> 0) /\ l ^ 3 - 1 <> 0 /\ Kden 3 rho l <> 0 /\ Kden 4 rho l <> 0 /\ PI * rho - 6 <> 0 /\ T <> 0.
Lemma a2i_nz : forall i l, sw_a2i i l <> 0 <-> l ^ 3 - 1 <> 0.
Proof.
  intros i l. unfold sw_a2i. pose proof PI_RGT_0. pose proof (lt_INR 0 (fact i) (lt_O_fact i)) as F. cbn [INR] in F.
  assert (K : - (2) * PI / (3 * INR (fact i)) < 0).
  { replace (- (2) * PI / (3 * INR (fact i))) with (- (2 * PI / (3 * INR (fact i)))) by (field; lra). assert (0 < 2 * PI / (3 * INR (fact i))) by (apply Rdiv_lt_0_compat; lra). lra. }
  split; intros H1 H2; apply H1; [rewrite H2; ring|]. apply Rmult_integral in H2. destruct H2; lra.
Qed.
Lemma sw_iff : forall l T rho v, sw_alphar l T rho = Some v <->
  sw_ok l T rho /\ v = sw_value (sw_a32 l / sw_a2i 2 l) (sw_a33 l / sw_a2i 3 l) (sw_a34 l / sw_a2i 4 l) l T rho.
Proof.
  intros l T rho v. split.
  - intro H. unfold sw_alphar in H. apply obind_iff in H. destruct H as (a1 & E1 & H). apply obind_iff in H. destruct H as (a2 & E2 & H).
    apply obind_iff in H. destruct H as (a3 & E3 & H). apply obind_iff in H. destruct H as (a4 & E4 & H). apply obind_iff in H. destruct H as (h & E5 & H).
    apply obind_iff in H. destruct H as (q1 & F1 & H). apply obind_iff in H. destruct H as (q2 & F2 & H). apply obind_iff in H. destruct H as (q3 & F3 & H).
    apply obind_iff in H. destruct H as (q4 & F4 & H). injection H as <-.
    unfold sw_a1 in E1. apply obind_iff in E1. destruct E1 as (s & Es & E1). injection E1 as <-.
    assert (G : forall k, (k < 4)%nat -> sw_Qn (sw_gamma (k + 1)) l <> 0 ).
    { intros k Hk. destruct (osum_some _ _ _ Es) as (w & Ew & _). specialize (Ew k Hk). apply obind_iff in Ew. destruct Ew as (g & Eg & _).
      unfold sw_gamman in Eg. apply obind_iff in Eg. destruct Eg as (q & Eq & _). now apply cdiv_iff in Eq. }
    assert (Es' : s = sumn 4 (fun k => gam (k + 1) l * rho ^ (k + 3))).
    { rewrite (osum_val 4 _ (fun k => gam (k + 1) l * rho ^ (k + 3))) in Es; [now injection Es as <-|].
      intros k Hk. unfold sw_gamman. rewrite cdiv_nz by (now apply G). reflexivity. }
    unfold sw_a2, sw_xi2 in E2. apply obind_iff in E2. destruct E2 as (x2 & X2 & E2). apply cdiv_iff in X2. destruct X2 as [X2 ->]. injection E2 as <-.
    unfold sw_a3, sw_xi3 in E3. apply obind_iff in E3. destruct E3 as (x3 & X3 & E3). apply cdiv_iff in X3. destruct X3 as [X3 ->].
    apply obind_iff in E3. destruct E3 as (k3 & K3 & E3). apply cdiv_iff in K3. destruct K3 as [K3 ->]. injection E3 as <-.
    unfold sw_a4, sw_xi4 in E4. apply obind_iff in E4. destruct E4 as (x4 & X4 & E4). apply cdiv_iff in X4. destruct X4 as [X4 ->].
    apply obind_iff in E4. destruct E4 as (k4 & K4 & E4). apply cdiv_iff in K4. destruct K4 as [K4 ->]. injection E4 as <-.
    apply cdiv_iff in E5. destruct E5 as [H5 ->]. apply cdiv_iff in F1. destruct F1 as [HT ->]. apply cdiv_iff in F2. destruct F2 as [_ ->].
    apply cdiv_iff in F3. destruct F3 as [_ ->]. apply cdiv_iff in F4. destruct F4 as [_ ->]. split.
    + split; [exact G|]. split; [now apply (a2i_nz 2)|]. split; [exact K3|]. split; [exact K4|]. split; [|exact HT].
      intro Z. apply H5. rewrite Z. cbn. ring.
    + subst s. reflexivity.
  - intros [(G & L & K3 & K4 & H5 & HT) ->]. unfold sw_alphar, sw_a1.
    rewrite (osum_val 4 _ (fun k => gam (k + 1) l * rho ^ (k + 3))).
    2: { intros k Hk. unfold sw_gamman. rewrite cdiv_nz by (now apply G). reflexivity. }
    cbn [opt_bind]. unfold sw_a2, sw_xi2. rewrite cdiv_nz by (now apply a2i_nz). cbn [opt_bind].
    unfold sw_a3, sw_xi3. rewrite cdiv_nz by (now apply a2i_nz). cbn [opt_bind]. unfold sw_Ki. rewrite cdiv_nz by exact K3. cbn [opt_bind].
    unfold sw_a4, sw_xi4. rewrite cdiv_nz by (now apply a2i_nz). cbn [opt_bind]. unfold sw_Ki. rewrite cdiv_nz by exact K4. cbn [opt_bind].
    unfold sw_aHS. rewrite cdiv_nz by (now apply pow_nonzero). cbn [opt_bind]. rewrite !cdiv_nz by (first [exact HT|now apply pow_nonzero]). reflexivity.
Qed.
Lemma cont_sumn : forall n (f : nat -> R -> R) x, (forall k, (k < n)%nat -> continuous (f k) x) -> continuous (fun y => sumn n (fun k => f k y)) x.
Proof.
  intros n f x H. induction n as [|n IH]; cbn [sumn]; [apply continuous_const|].
  apply (continuous_plus (fun y => sumn n (fun k => f k y)) (f n)); [apply IH; intros; apply H; lia|apply H; lia].
Qed.
Lemma cont_id : forall x : R, continuous (fun y : R => y) x.
Proof. intro x. apply continuous_id. Qed.
Lemma cont_pow : forall n x, continuous (fun y => y ^ n) x.
Proof. intros n x. apply (ex_derive_continuous (fun y => y ^ n)). auto_derive. exact I. Qed.
Lemma cont_cube : forall n x, continuous (fun y => (y ^ 3 - 1) ^ n) x.
Proof. intros n x. apply (ex_derive_continuous (fun y => (y ^ 3 - 1) ^ n)). auto_derive. exact I. Qed.
Lemma cont_mult : forall (f g : R -> R) x, continuous f x -> continuous g x -> continuous (fun y => f y * g y) x.
Proof. intros f g x Hf Hg. now apply (continuous_mult (K := R_AbsRing) f g). Qed.
Lemma cont_plus : forall (f g : R -> R) x, continuous f x -> continuous g x -> continuous (fun y => f y + g y) x.
Proof. intros f g x Hf Hg. now apply (continuous_plus (V := R_NormedModule) f g). Qed.
Lemma cont_minus : forall (f g : R -> R) x, continuous f x -> continuous g x -> continuous (fun y => f y - g y) x.
Proof. intros f g x Hf Hg. now apply (continuous_minus (V := R_NormedModule) f g). Qed.
Lemma cont_opp : forall (f : R -> R) x, continuous f x -> continuous (fun y => - f y) x.
Proof. intros f x H. now apply (continuous_opp (V := R_NormedModule) f). Qed.
Lemma cont_c : forall (c : R) x, continuous (fun _ : R => c) x.
Proof. intros c x. apply continuous_const. Qed.
Lemma cont_div : forall (f g : R -> R) x, continuous f x -> continuous g x -> g x <> 0 -> continuous (fun y => f y / g y) x.
Proof.
  intros f g x Hf Hg N. apply (cont_mult f (fun y => / g y)); [exact Hf|]. apply (continuous_comp g Rinv); [exact Hg|]. now apply continuous_Rinv.
Qed.
Lemma cont_exp : forall (f : R -> R) x, continuous f x -> continuous (fun y => exp (f y)) x.
Proof. intros f x Hf. apply (continuous_comp f exp); [exact Hf|]. apply continuous_exp. Qed.
Lemma cont_nz : forall (f : R -> R) x, continuous f x -> f x <> 0 -> locally x (fun y => f y <> 0).
Proof. intros f x Hf N. apply (Hf (fun v => v <> 0)). now apply (open_neq 0 (f x)). Qed.
Ltac cont := repeat first
  [ assumption
  | match goal with
    | |- continuous (fun _ => ?c) _ => apply cont_c
    | |- continuous (fun y => y) _ => apply cont_id
    | |- continuous (Rmult ?a) _ => apply (cont_mult (fun _ => a) (fun y => y))
    | |- continuous (fun y => sumn _ _) _ => apply cont_sumn; intros
    | |- continuous (fun y => y ^ _) _ => apply cont_pow
    | |- continuous (fun y => (y ^ 3 - 1) ^ _) _ => apply cont_cube
    | |- continuous (fun y => _ - _) _ => apply cont_minus
    | |- continuous (fun y => _ + _) _ => apply cont_plus
    | |- continuous (fun y => - _) _ => apply cont_opp
    | |- continuous (fun y => _ * _) _ => apply cont_mult
    | |- continuous (fun y => exp _) _ => apply cont_exp
    end ].
Lemma cont_P1 : forall x, continuous sw_P1 x. Proof. intro x. unfold sw_P1. cont. Qed.
Lemma cont_P2 : forall x, continuous sw_P2 x. Proof. intro x. unfold sw_P2. cont. Qed.
Lemma cont_P3 : forall x, continuous sw_P3 x. Proof. intro x. unfold sw_P3. cont. Qed.
Lemma cont_P4 : forall x, continuous sw_P4 x. Proof. intro x. unfold sw_P4. cont. Qed.
Lemma cont_P5 : forall x, continuous sw_P5 x. Proof. intro x. unfold sw_P5. cont. Qed.
Lemma cont_a2i : forall i x, continuous (sw_a2i i) x. Proof. intros i x. unfold sw_a2i. cont. Qed.
Lemma cont_min2 : forall x, continuous (fun l => Rmin l 2) x.
Proof.
  intro x. apply continuity_pt_filterlim. intros eps He. exists eps. split; [exact He|]. intros y [_ Hy]. unfold dist in *. cbn in *. unfold R_dist in *.
  unfold Rmin. destruct (Rle_dec y 2), (Rle_dec x 2); unfold Rabs in *; repeat destruct Rcase_abs; lra.
Qed.
Lemma cont_a31 : forall x, continuous sw_a31 x.
Proof.
  intro x. unfold sw_a31. apply cont_mult; [cont|]. apply (continuous_comp (fun l => Rmin l 2) sw_P1); [apply cont_min2|apply cont_P1].
Qed.
Lemma cont_if : forall (f g : R -> R) x, x <> 2 -> continuous f x -> continuous g x -> continuous (fun l => if Rle_dec l 2 then f l else g l) x.
Proof.
  intros f g x N Hf Hg. destruct (Rlt_le_dec x 2) as [L|L].
  - apply (continuous_ext_loc _ f); [|exact Hf]. assert (D : 0 < 2 - x) by lra. exists (mkposreal _ D). intros y Hy. unfold ball in Hy. cbn in Hy. unfold AbsRing_ball, abs, minus, plus, opp in Hy. cbn in Hy.
    destruct (Rle_dec y 2) as [|C]; [reflexivity|]. exfalso. unfold Rabs in Hy. destruct Rcase_abs; lra.
  - apply (continuous_ext_loc _ g); [|exact Hg]. assert (D : 0 < x - 2) by lra. exists (mkposreal _ D). intros y Hy. unfold ball in Hy. cbn in Hy. unfold AbsRing_ball, abs, minus, plus, opp in Hy. cbn in Hy.
    destruct (Rle_dec y 2) as [C|]; [|reflexivity]. exfalso. unfold Rabs in Hy. destruct Rcase_abs; lra.
Qed.
Ltac contP := repeat (
  match goal with
  | |- continuous sw_P1 _ => apply cont_P1
  | |- continuous sw_P2 _ => apply cont_P2
  | |- continuous sw_P3 _ => apply cont_P3
  | |- continuous sw_P4 _ => apply cont_P4
  | |- continuous sw_P5 _ => apply cont_P5
  | |- continuous (fun y => sw_P1 y) _ => apply cont_P1
  | |- continuous (fun y => sw_P2 y) _ => apply cont_P2
  | |- continuous (fun y => sw_P3 y) _ => apply cont_P3
  | |- continuous (fun y => sw_P4 y) _ => apply cont_P4
  | |- continuous (fun y => sw_P5 y) _ => apply cont_P5
  | |- continuous (fun _ => ?c) _ => apply cont_c
  | |- continuous (fun y => _ / ?c) _ => apply (cont_mult _ (fun _ => / c))
  | |- continuous (fun y => _ - _) _ => apply cont_minus
  | |- continuous (fun y => _ + _) _ => apply cont_plus
  | |- continuous (fun y => - _) _ => apply cont_opp
  | |- continuous (fun y => _ * _) _ => apply cont_mult
  end ).
Lemma cont_a32 : forall x, x <> 2 -> continuous sw_a32 x.
Proof. intros x N. unfold sw_a32. apply cont_if; [exact N| |]; contP. Qed.
Lemma cont_a33 : forall x, x <> 2 -> continuous sw_a33 x.
Proof. intros x N. unfold sw_a33. apply cont_if; [exact N| |]; contP. Qed.
Lemma cont_a34 : forall x, x <> 2 -> continuous sw_a34 x.
Proof. intros x N. unfold sw_a34. apply cont_if; [exact N| |]; contP. Qed.
Lemma cont_Qn : forall g x, continuous (sw_Qn g) x.
Proof. intros g x. unfold sw_Qn. cont. Qed.
Lemma cont_Rn : forall g x, continuous (sw_Rn g) x.
Proof. intros g x. unfold sw_Rn. cont. Qed.
Lemma cont_gam : forall n x, sw_Qn (sw_gamma n) x <> 0 -> continuous (gam n) x.
Proof.
  intros n x N. unfold gam. cbv zeta. apply cont_plus; [|apply cont_div; [apply cont_Rn|apply cont_Qn|exact N]]. apply cont_plus; apply cont_mult; cont.
Qed.
Lemma cont_Kden : forall i rho x, continuous (Kden i rho) x.
Proof. intros i rho x. unfold Kden. cont. Qed.
Lemma cont_value : forall (x2 x3 x4 : R -> R) l T rho, sw_ok l T rho -> continuous x2 l -> continuous x3 l -> continuous x4 l ->
  continuous (fun y => sw_value (x2 y) (x3 y) (x4 y) y T rho) l.
Proof.
  intros x2 x3 x4 l T rho (G & L & K3 & K4 & H5 & HT) C2 C3 C4. unfold sw_value.
  assert (W3 : forall i, Kden i rho l <> 0 -> forall x, continuous x l -> continuous (fun y => wa3 i (x y) rho y) l).
  { intros i Ki x Cx. unfold wa3. apply cont_mult; [apply cont_mult; [apply cont_a2i|cont]|]. apply cont_exp. apply cont_plus; [cont|].
    apply cont_div; [unfold Knum; cont|apply cont_Kden|exact Ki]. }
  repeat apply cont_plus.
  - apply cont_c.
  - apply (cont_mult (wa1 rho) (fun _ => / T)); [|apply cont_c]. unfold wa1. apply cont_plus; [apply cont_plus; apply cont_mult; first [apply cont_a2i|apply cont_a31|apply cont_c]|].
    apply cont_sumn. intros k Hk. apply cont_mult; [|apply cont_c]. apply cont_gam. now apply G.
  - apply (cont_mult (fun y => wa2 (x2 y) rho y) (fun _ => / T ^ 2)); [|apply cont_c]. unfold wa2, sw_Chi. apply cont_mult.
    + apply cont_mult; [apply cont_mult; [apply cont_a2i|apply cont_c]|apply cont_c].
    + apply cont_exp. unfold sw_phii. cont.
  - apply (cont_mult (fun y => wa3 3 (x3 y) rho y) (fun _ => / T ^ 3)); [|apply cont_c]. now apply W3.
  - apply (cont_mult (fun y => wa3 4 (x4 y) rho y) (fun _ => / T ^ 4)); [|apply cont_c]. now apply W3.
Qed.
Lemma ok_locally : forall l T rho, sw_ok l T rho -> locally l (fun y => sw_ok y T rho).
Proof.
  intros l T rho (G & L & K3 & K4 & H5 & HT). unfold sw_ok.
  assert (A : locally l (fun y => forall n, (n < 4)%nat -> sw_Qn (sw_gamma (n + 1)) y <> 0)).
  { pose proof (cont_nz _ l (cont_Qn (sw_gamma 1) l) (G 0%nat ltac:(lia))) as Q1. pose proof (cont_nz _ l (cont_Qn (sw_gamma 2) l) (G 1%nat ltac:(lia))) as Q2.
    pose proof (cont_nz _ l (cont_Qn (sw_gamma 3) l) (G 2%nat ltac:(lia))) as Q3. pose proof (cont_nz _ l (cont_Qn (sw_gamma 4) l) (G 3%nat ltac:(lia))) as Q4.
    generalize (filter_and _ _ Q1 (filter_and _ _ Q2 (filter_and _ _ Q3 Q4))). apply filter_imp. intros y (A1 & A2 & A3 & A4) n Hn.
    destruct n as [|[|[|[|n]]]]; try assumption. }
  pose proof (cont_nz (fun y => y ^ 3 - 1) l ltac:(cont) L) as B. pose proof (cont_nz _ l (cont_Kden 3 rho l) K3) as C3. pose proof (cont_nz _ l (cont_Kden 4 rho l) K4) as C4.
  generalize (filter_and _ _ A (filter_and _ _ B (filter_and _ _ C3 C4))). apply filter_imp. intros y (A1 & A2 & A3 & A4). tauto.
Qed.
Lemma locally_ball : forall (P : R -> Prop) x, locally x P -> exists d, 0 < d /\ forall y, Rabs (y - x) < d -> P y.
Proof. intros P x [e H]. exists e. split; [apply cond_pos|]. intros y Hy. apply H. exact Hy. Qed.
Lemma ball_locally : forall (P : R -> Prop) x d, 0 < d -> (forall y, Rabs (y - x) < d -> P y) -> locally x P.
Proof. intros P x d Hd H. exists (mkposreal d Hd). intros y Hy. apply H. exact Hy. Qed.
Lemma continuous_at_of : forall (f : R -> option R) (F : R -> R) x, locally x (fun y => f y = Some (F y)) -> continuous F x -> continuous_at f x.
Proof.
  intros f F x L C. exists (F x). split; [now apply (locally_singleton _ _ L)|]. intros eps He.
  assert (B : locally x (fun y => Rabs (F y - F x) < eps)).
  { apply (C (fun v => Rabs (v - F x) < eps)). exists (mkposreal eps He). intros v Hv. exact Hv. }
  destruct (locally_ball _ _ (filter_and _ _ L B)) as (d & Hd & H). exists d. split; [exact Hd|]. intros y Hy. destruct (H y Hy) as [E1 E2]. now exists (F y).
Qed.
Lemma quartic1 : forall u, 0 < 0.605635 - 0.254959 * u + 0.0377111 * u ^ 2 - 0.00210896 * u ^ 3 + 0.0000452328 * u ^ 4.
Proof.
  intro u. pose proof (pow2_ge_0 (u ^ 2 - 1318100 / 56541 * u + 95.7)) as H1.
  pose proof (pow2_ge_0 (u - 9387842889525 / 1580038967158)) as H2. lra.
Qed.
Lemma quartic2 : forall u, 0 < 1.29255 - 0.554993 * u + 0.0857543 * u ^ 2 - 0.00492511 * u ^ 3 + 0.000107067 * u ^ 4.
Proof.
  intro u. pose proof (pow2_ge_0 (u ^ 2 - 2462555 / 107067 * u + 89.07)) as H1.
  pose proof (pow2_ge_0 (u - 622666619870205 / 107519867908454)) as H2. lra.
Qed.
Lemma quartic3 : forall u, 0 < 0.99813 - 0.440314 * u + 0.0708793 * u ^ 2 - 0.00416274 * u ^ 3 + 0.0000917291 * u ^ 4.
Proof.
  intro u. pose proof (pow2_ge_0 (u ^ 2 - 20813700 / 917291 * u + 83.4)) as H1.
  pose proof (pow2_ge_0 (u - 1067973062498050 / 191525031472523)) as H2. lra.
Qed.
Lemma quartic4 : forall u, 0 < 1.01682 - 0.445247 * u + 0.0725107 * u ^ 2 - 0.00427862 * u ^ 3 + 0.0000949723 * u ^ 4.
Proof.
  intro u. pose proof (pow2_ge_0 (u ^ 2 - 21393100 / 949723 * u + 80.77)) as H1.
  pose proof (pow2_ge_0 (u - 23663028214264950 / 4264061192909867)) as H2. lra.
Qed.
Lemma Qn_nz : forall l n, 1 <= l -> (n < 4)%nat -> sw_Qn (sw_gamma (n + 1)) l <> 0.
Proof.
  intros l n L Hn. assert (U : 0 <= l ^ 3 - 1). { assert (1 ^ 3 <= l ^ 3) by (apply pow_incr; lra). lra. }
  set (u := l ^ 3 - 1) in *. assert (U3 : 0 <= u ^ 3) by (now apply pow_le).
  pose proof (Rmult_le_pos _ _ U3 (Rlt_le _ _ (quartic1 u))) as P1. pose proof (Rmult_le_pos _ _ U3 (Rlt_le _ _ (quartic2 u))) as P2.
  pose proof (Rmult_le_pos _ _ U3 (Rlt_le _ _ (quartic3 u))) as P3. pose proof (Rmult_le_pos _ _ U3 (Rlt_le _ _ (quartic4 u))) as P4.
  unfold sw_Qn. fold u. destruct n as [|[|[|[|n]]]]; [| | | |lia]; cbn [Nat.add sw_gamma sumn nth]; intro H; [clear P2 P3 P4|clear P1 P3 P4|clear P1 P2 P4|clear P1 P2 P3]; lra.
Qed.
Lemma Kden_pos : forall i l rho, (i = 3 \/ i = 4)%nat -> 1 <= l -> l <= 8 -> 0 <= rho -> 0 < Kden i rho l.
Proof.
  intros i l rho Hi L1 L8 R0. unfold Kden. destruct Hi as [-> | ->]; cbn [Nat.add sw_theta sumn nth].
  - assert (0 <= rho * (l * (23.2271 - 2.63477 * l))). { apply Rmult_le_pos; [exact R0|]. apply Rmult_le_pos; lra. } lra.
  - assert (0 <= rho * (l * (- 16.7882 + l * (19.5315 - 1.27373 * l)))).
    { apply Rmult_le_pos; [exact R0|]. apply Rmult_le_pos; [lra|]. assert (0 <= (l - 1) * (8 - l)) by (apply Rmult_le_pos; lra). lra. }
    lra.
Qed.
Lemma sw_ok_intro : forall l T rho, 1 < l -> l <= 8 -> T <> 0 -> 0 <= rho -> PI * rho <> 6 -> sw_ok l T rho.
Proof.
  intros l T rho L1 L8 HT R0 HP. split; [intros n Hn; apply Qn_nz; [lra|exact Hn]|]. split.
  - assert (1 < l ^ 3) by (apply Rlt_pow_R1; [exact L1|lia]). lra.
  - split; [apply Rgt_not_eq, Kden_pos; [tauto|lra|lra|exact R0]|]. split; [apply Rgt_not_eq, Kden_pos; [tauto|lra|lra|exact R0]|]. split; [lra|exact HT].
Qed.
Lemma is_derive_times : forall (G : R -> R), continuous G 0 -> is_derive (fun r => r * G r) 0 (G 0).
Proof.
  intros G C. apply is_derive_Reals. intros eps He.
  assert (B : locally 0 (fun y => Rabs (G y - G 0) < eps)).
  { apply (C (fun v => Rabs (v - G 0) < eps)). exists (mkposreal eps He). intros v Hv. exact Hv. }
  destruct (locally_ball _ _ B) as (d & Hd & H). exists (mkposreal d Hd). intros h Hh Hd'. cbn in Hd'.
  replace (((0 + h) * G (0 + h) - 0 * G 0) / h - G 0) with (G h - G 0).
  - apply H. now rewrite Rminus_0_r.
  - rewrite Rplus_0_l. now field.
Qed.
Lemma sw_factor : forall x2 x3 x4 l T rho, sw_value x2 x3 x4 l T rho = rho *
  (- (3) * PI * (PI * rho - 8) / (PI * rho - 6) ^ 2 + (sw_a2i 1 l + sw_a31 l * rho + sumn 4 (fun k => gam (k + 1) l * rho ^ (k + 2))) / T
   + sw_a2i 2 l * (1 - rho ^ 2 / 1.5129) * exp (x2 * rho + sw_phii 1 l * rho ^ 3 + sw_phii 2 l * rho ^ 4) / T ^ 2
   + sw_a2i 3 l * exp (x3 * rho + Knum 3 l * rho ^ 2 / Kden 3 rho l) / T ^ 3
   + sw_a2i 4 l * exp (x4 * rho + Knum 4 l * rho ^ 2 / Kden 4 rho l) / T ^ 4).
Proof.
  intros. unfold sw_value, wa1, wa2, wa3, sw_Chi. cbn [sumn Nat.add]. unfold Rdiv. ring.
Qed.
Lemma carnahan_sw : forall rho, PI * rho - 6 <> 0 -> - (3) * PI * rho * (PI * rho - 8) / (PI * rho - 6) ^ 2 = carnahan_starling (PI / 6 * rho).
Proof. intros rho H. unfold carnahan_starling. field. split; [lra|exact H]. Qed.
