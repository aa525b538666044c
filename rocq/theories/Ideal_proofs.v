(** Lemmas about the ideal-gas terms. *)
From Coq Require Import Reals ZArith String List Lia Lra Bool Psatz.
From Coquelicot Require Import Coquelicot.
From Verif Require Import Json_model Vec_spec Vec_proofs Cubic_model Terms_model Ideal_model Ideal_spec Derivs_proofs2.
Import ListNotations.
Open Scope R_scope.

Lemma clog_pos : forall x, 0 < x -> clog x = Some (ln x).
Proof. intros. unfold clog. destruct (Rlt_dec 0 x); [reflexivity|lra]. Qed.
Lemma cdiv_nz : forall a b, b <> 0 -> cdiv a b = Some (a / b).
Proof. intros. unfold cdiv. destruct (Req_EM_T b 0); [contradiction|reflexivity]. Qed.
Lemma cpow_pos : forall x y, 0 < x -> cpow x y = Some (Rpower x y).
Proof. intros. unfold cpow. destruct (Req_EM_T x 0); [lra|]. destruct (Rlt_dec 0 x); [reflexivity|lra]. Qed.
Lemma osum_val : forall n f g, (forall i, (i < n)%nat -> f i = Some (g i)) -> osum n f = Some (sumn n g).
Proof. induction n; intros f g H; simpl; [reflexivity|]. rewrite (IHn f g) by auto. rewrite H by lia. reflexivity. Qed.
Lemma osum_some : forall n f v, osum n f = Some v -> exists g, (forall i, (i < n)%nat -> f i = Some (g i)) /\ v = sumn n g.
Proof.
  induction n; intros f v E; simpl in E. { injection E as <-. exists (fun _ => 0). split; [lia|reflexivity]. }
  destruct (osum n f) as [a|] eqn:Ea; [|discriminate]. cbn [opt_bind] in E. destruct (f n) as [b|] eqn:Eb; [|discriminate]. cbn [opt_bind] in E.
  injection E as <-. destruct (IHn _ _ Ea) as [g [Hg ->]]. exists (fun i => if Nat.eqb i n then b else g i). split.
  - intros i Hi. destruct (Nat.eqb_spec i n) as [->|]; auto. apply Hg. lia.
  - simpl. rewrite Nat.eqb_refl. f_equal. apply sumn_ext. intros i Hi. destruct (Nat.eqb_spec i n); [lia|reflexivity].
Qed.

(** ** Heat capacities *)
Lemma has_cp_ext : forall f g cp cq, (forall T, 0 < T -> f T = g T) -> (forall T, 0 < T -> cp T = cq T) -> has_cp f cp -> has_cp g cq.
Proof.
  intros f g cp cq H Hc [f1 [f2 K]]. exists f1, f2. intros T HT. destruct (K T HT) as [D1 [D2 E]]. split; [|split; auto].
  - apply (is_derive_ext_loc f g); auto. exists (mkposreal T HT). intros y Hy. apply H.
    unfold ball in Hy. simpl in Hy. unfold AbsRing_ball, abs, minus, plus, opp in Hy. simpl in Hy. apply Rabs_def2 in Hy. lra.
  - rewrite <- Hc; auto.
Qed.
Lemma has_cp_const : forall a, has_cp (fun _ => a) (fun _ => 0).
Proof.
  intros a. exists (fun _ => 0), (fun _ => 0). intros T HT. split; [apply (is_derive_const a T)|]. split; [apply (is_derive_const 0 T)|]. ring.
Qed.
Lemma has_cp_plus : forall f g cp cq, has_cp f cp -> has_cp g cq -> has_cp (fun T => f T + g T) (fun T => cp T + cq T).
Proof.
  intros f g cp cq [f1 [f2 K]] [g1 [g2 L]]. exists (fun T => f1 T + g1 T), (fun T => f2 T + g2 T). intros T HT.
  destruct (K T HT) as [D1 [D2 E]]. destruct (L T HT) as [D3 [D4 E2]].
  split; [apply (is_derive_plus f g T); auto|]. split; [apply (is_derive_plus f1 g1 T); auto|]. rewrite E, E2. ring.
Qed.
Lemma has_cp_scal : forall k f cp, has_cp f cp -> has_cp (fun T => k * f T) (fun T => k * cp T).
Proof.
  intros k f cp [f1 [f2 K]]. exists (fun T => k * f1 T), (fun T => k * f2 T). intros T HT. destruct (K T HT) as [D1 [D2 E]].
  split; [apply (is_derive_scal f T k); auto|]. split; [apply (is_derive_scal f1 T k); auto|]. rewrite E. ring.
Qed.
Lemma has_cp_sumn : forall n (f cp : nat -> R -> R), (forall i, (i < n)%nat -> has_cp (f i) (cp i)) ->
  has_cp (fun T => sumn n (fun i => f i T)) (fun T => sumn n (fun i => cp i T)).
Proof.
  induction n; intros f cp H. { simpl. apply has_cp_const. }
  simpl. apply has_cp_plus; [apply IHn; intros; apply H; lia|apply H; lia].
Qed.
Lemma has_cp_over : forall n (f cp : nat -> R -> R), (forall i, (i < length n)%nat -> has_cp (f i) (cp i)) ->
  has_cp (fun T => over n (fun i => f i T)) (fun T => over n (fun i => cp i T)).
Proof.
  intros n f cp H. unfold over. apply (has_cp_sumn (length n) (fun i T => nth i n 0 * f i T) (fun i T => nth i n 0 * cp i T)).
  intros i Hi. apply has_cp_scal. auto.
Qed.
Lemma over_opp : forall n f, - over n f = over n (fun i => - f i).
Proof. intros. unfold over. replace (- sumn (length n) (fun i => nth i n 0 * f i)) with (-1 * sumn (length n) (fun i => nth i n 0 * f i)) by ring. rewrite <- sumn_scal. apply sumn_ext. intros. ring. Qed.

Lemma cp_ln : has_cp ln (fun _ => -1).
Proof.
  exists (fun T => / T), (fun T => - / (T * T)). intros T HT. split; [apply is_derive_ln; auto|]. split.
  - auto_derive; [lra|]. field. lra. - field. lra.
Qed.
Lemma cp_inv : has_cp (fun T => / T) (fun _ => 0).
Proof.
  exists (fun T => - / (T * T)), (fun T => 2 / (T * T * T)). intros T HT. split; [auto_derive; [lra|field; lra]|]. split.
  - auto_derive; [nra|field; lra]. - field. lra.
Qed.
Lemma cp_power : forall t, has_cp (fun T => Rpower T t) (fun T => - (t * (t + 1) * Rpower T t)).
Proof.
  intros t. exists (fun T => t * Rpower T t / T), (fun T => t * (t - 1) * Rpower T t / (T * T)). intros T HT. unfold Rpower.
  split; [auto_derive; [auto|field; lra]|]. split; [auto_derive; [repeat split; lra|field; lra]|]. field. lra.
Qed.
Lemma cp_general : forall c d th, (forall T, 0 < T -> 0 < c + d * exp (th / T)) ->
  has_cp (fun T => ln (c + d * exp (th / T))) (fun T => - ((th / T) ^ 2 * c * d * exp (th / T) / (c + d * exp (th / T)) ^ 2)).
Proof.
  intros c d th P. exists (fun T => - (d * exp (th / T) * th) / ((c + d * exp (th / T)) * (T * T))),
    (fun T => d * exp (th / T) * th * th * c / ((c + d * exp (th / T)) ^ 2 * (T * T * (T * T))) + 2 * (d * exp (th / T) * th) / ((c + d * exp (th / T)) * (T * T * T))).
  intros T HT. assert (PT := P T HT). unfold Rdiv in *. split; [auto_derive; [repeat split; lra|field; lra]|]. split.
  - auto_derive; [repeat split; try lra; apply Rmult_integral_contrapositive_currified; [lra|nra]|]. field. split; lra.
  - field. lra.
Qed.
Lemma cp_PE : forall th, 0 < th -> has_cp (fun T => ln (1 - exp (- th / T))) (fun T => (th / T) ^ 2 * exp (th / T) / (exp (th / T) - 1) ^ 2).
Proof.
  intros th Hth. assert (PP : forall T, 0 < T -> 0 < th / T) by (intros; apply Rdiv_lt_0_compat; auto).
  assert (P : forall T, 0 < T -> 0 < 1 + -1 * exp (- th / T)).
  { intros T HT. assert (0 < th / T) by auto. assert (exp (- th / T) < 1); [|lra]. rewrite <- exp_0. apply exp_increasing. unfold Rdiv in *. lra. }
  refine (has_cp_ext _ _ _ _ _ _ (cp_general 1 (-1) (- th) P)).
  - intros. f_equal. ring.
  - intros T HT. specialize (PP T HT). specialize (P T HT). replace (- th / T) with (- (th / T)) in * by (unfold Rdiv; ring). rewrite exp_Ropp in *. set (u := th / T) in *.
    assert (E1 : 1 < exp u). { rewrite <- exp_0. apply exp_increasing. auto. } field. lra.
Qed.
Lemma cosh_pos : forall x, 0 < cosh x.
Proof. intros. unfold cosh. assert (E1 := exp_pos x). assert (E2 := exp_pos (- x)). lra. Qed.
Lemma sinh_pos : forall x, 0 < x -> 0 < sinh x.
Proof. intros x H. unfold sinh. assert (exp (- x) < exp x) by (apply exp_increasing; lra). lra. Qed.
Lemma cosh_sq : forall x, cosh x * cosh x - sinh x * sinh x = 1.
Proof.
  intros. unfold cosh, sinh. assert (E : exp x * exp (- x) = 1) by (rewrite <- exp_plus; replace (x + - x) with 0 by ring; apply exp_0). nra.
Qed.
Lemma cp_cosh : forall th, has_cp (fun T => ln (Rabs (cosh (th / T)))) (fun T => - (th / T / cosh (th / T)) ^ 2).
Proof.
  intros th.
  assert (K : has_cp (fun T => ln (cosh (th / T))) (fun T => - (th / T / cosh (th / T)) ^ 2)).
  { exists (fun T => - (th * sinh (th / T)) / (cosh (th / T) * (T * T))),
      (fun T => th * th / (cosh (th / T) ^ 2 * (T * T * (T * T))) + 2 * (th * sinh (th / T)) / (cosh (th / T) * (T * T * T))).
    intros T HT. assert (C := cosh_pos (th / T)). assert (Q := cosh_sq (th / T)).
    assert (DC : is_derive (fun T => cosh (th / T)) T (sinh (th / T) * (- th / (T * T)))).
    { unfold cosh, sinh. auto_derive; [lra|]. unfold Rdiv. field. lra. }
    assert (DS : is_derive (fun T => sinh (th / T)) T (cosh (th / T) * (- th / (T * T)))).
    { unfold cosh, sinh. auto_derive; [lra|]. unfold Rdiv. field. lra. }
    split; [|split].
    - evar_last. { apply (is_derive_comp ln (fun T => cosh (th / T)) T); [apply is_derive_ln; auto|exact DC]. }
      unfold scal; simpl; unfold mult; simpl. field. lra.
    - evar_last.
      { apply (is_derive_div (fun T => - (th * sinh (th / T))) (fun T => cosh (th / T) * (T * T)) T).
        - apply (is_derive_opp (fun T => th * sinh (th / T))). apply (is_derive_scal (fun T => sinh (th / T)) T th). exact DS.
        - apply (is_derive_mult (fun T => cosh (th / T)) (fun T => T * T)); [exact DC| |intros; apply Rmult_comm].
          auto_derive; [auto|]. reflexivity.
        - nra. }
      unfold opp, mult, scal, plus; simpl; unfold mult, plus; simpl.
      set (c := cosh (th / T)) in *. set (s := sinh (th / T)) in *. set (a := T * T) in *. 
      assert (SS : s * s = c * c - 1) by lra. unfold a. field_simplify_eq; [|lra]. 
      replace (s ^ 2) with (c * c - 1) by (rewrite <- SS; ring). ring.
    - field. lra. }
  refine (has_cp_ext _ _ _ _ _ _ K); auto. intros T HT. rewrite Rabs_pos_eq; auto. left. apply cosh_pos.
Qed.
Lemma cp_sinh : forall th, th <> 0 -> has_cp (fun T => ln (Rabs (sinh (th / T)))) (fun T => (th / T / sinh (th / T)) ^ 2).
Proof.
  intros th0 N0.
  assert (K : forall th, 0 < th -> has_cp (fun T => ln (sinh (th / T))) (fun T => (th / T / sinh (th / T)) ^ 2)).
  { intros th Hth. exists (fun T => - (th * cosh (th / T)) / (sinh (th / T) * (T * T))),
      (fun T => - (th * th) / (sinh (th / T) ^ 2 * (T * T * (T * T))) + 2 * (th * cosh (th / T)) / (sinh (th / T) * (T * T * T))).
    intros T HT. assert (C := sinh_pos (th / T) ltac:(apply Rdiv_lt_0_compat; auto)). assert (Q := cosh_sq (th / T)).
    assert (DC : is_derive (fun T => cosh (th / T)) T (sinh (th / T) * (- th / (T * T)))).
    { unfold cosh, sinh. auto_derive; [lra|]. unfold Rdiv. field. lra. }
    assert (DS : is_derive (fun T => sinh (th / T)) T (cosh (th / T) * (- th / (T * T)))).
    { unfold cosh, sinh. auto_derive; [lra|]. unfold Rdiv. field. lra. }
    split; [|split].
    - evar_last. { apply (is_derive_comp ln (fun T => sinh (th / T)) T); [apply is_derive_ln; auto|exact DS]. }
      unfold scal; simpl; unfold mult; simpl. field. lra.
    - evar_last.
      { apply (is_derive_div (fun T => - (th * cosh (th / T))) (fun T => sinh (th / T) * (T * T)) T).
        - apply (is_derive_opp (fun T => th * cosh (th / T))). apply (is_derive_scal (fun T => cosh (th / T)) T th). exact DC.
        - apply (is_derive_mult (fun T => sinh (th / T)) (fun T => T * T)); [exact DS| |intros; apply Rmult_comm].
          auto_derive; [auto|]. reflexivity.
        - apply Rgt_not_eq; apply Rmult_lt_0_compat; [exact C|nra]. }
      unfold opp, mult, scal, plus; simpl; unfold mult, plus; simpl.
      set (c := cosh (th / T)) in *. set (s := sinh (th / T)) in *.
      assert (SS : c * c = s * s + 1) by lra. field_simplify_eq; [|lra].
      replace (c ^ 2) with (s * s + 1) by (rewrite <- SS; ring). ring.
    - field. lra. }
  assert (A : 0 < Rabs th0) by (apply Rabs_pos_lt; auto).
  assert (EA : forall T, 0 < T -> sinh (Rabs th0 / T) = Rabs (sinh (th0 / T))).
  { intros T HT. destruct (Rle_or_lt 0 th0) as [G|G].
    - rewrite (Rabs_pos_eq th0) by auto. rewrite Rabs_pos_eq; auto. left. apply sinh_pos. apply Rdiv_lt_0_compat; lra.
    - rewrite (Rabs_left th0) by auto.
      replace (sinh (th0 / T)) with (- sinh (- th0 / T)).
      2:{ unfold sinh. replace (- (- th0 / T)) with (th0 / T) by (unfold Rdiv; ring). replace (- (th0 / T)) with (- th0 / T) by (unfold Rdiv; ring). unfold Rdiv. ring. }
      rewrite Rabs_Ropp, Rabs_pos_eq; auto. left. apply sinh_pos. apply Rdiv_lt_0_compat; lra. }
  refine (has_cp_ext _ _ _ _ _ _ (K _ A)).
  - intros T HT. rewrite EA; auto.
  - intros T HT. rewrite EA by auto. assert (Q : Rabs th0 ^ 2 = th0 ^ 2) by (rewrite <- !Rsqr_pow2; symmetry; apply Rsqr_abs).
    assert (Q2 : Rabs (sinh (th0 / T)) ^ 2 = sinh (th0 / T) ^ 2) by (rewrite <- !Rsqr_pow2; symmetry; apply Rsqr_abs).
    unfold Rdiv. rewrite !Rpow_mult_distr, Q. rewrite !pow_inv. fold (Rdiv th0 T). rewrite Q2. reflexivity.
Qed.
Lemma cp_Cp0Constant : forall c T0, 0 < T0 -> has_cp (fun T => c * ((T - T0) / T - ln (T / T0))) (fun _ => c).
Proof.
  intros c T0 H0. refine (has_cp_ext (fun T => c * (1 + (- T0 * / T + -1 * ln T + ln T0))) _ (fun T => c * (0 + (- T0 * 0 + -1 * -1 + 0))) _ _ _ _).
  - intros T HT. unfold Rdiv at 2. rewrite ln_mult, ln_Rinv by (auto; apply Rinv_0_lt_compat; auto). field. lra.
  - intros. ring.
  - apply has_cp_scal. apply has_cp_plus; [apply has_cp_const|]. apply has_cp_plus; [|apply has_cp_const].
    apply has_cp_plus; [apply has_cp_scal, cp_inv|apply has_cp_scal, cp_ln].
Qed.
Lemma cp_Cp0PowerT : forall c t T0, t <> 0 -> t <> -1 ->
  has_cp (fun T => c * (Rpower T t * (1 / (t + 1) - 1 / t) - Rpower T0 (t + 1) / (T * (t + 1)) + Rpower T0 t / t)) (fun T => c * Rpower T t).
Proof.
  intros c t T0 N0 N1. refine (has_cp_ext (fun T => c * ((1 / (t + 1) - 1 / t) * Rpower T t + (- (Rpower T0 (t + 1) / (t + 1)) * / T + Rpower T0 t / t))) _
    (fun T => c * ((1 / (t + 1) - 1 / t) * - (t * (t + 1) * Rpower T t) + (- (Rpower T0 (t + 1) / (t + 1)) * 0 + 0))) _ _ _ _).
  - intros T HT. field. repeat split; lra.
  - intros T HT. field. split; lra.
  - apply has_cp_scal. apply has_cp_plus; [apply has_cp_scal, cp_power|]. apply has_cp_plus; [apply has_cp_scal, cp_inv|apply has_cp_const].
Qed.
