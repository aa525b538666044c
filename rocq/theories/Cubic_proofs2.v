(** Lemmas about mixing rules and about the constants of the cubic equations. *)
From Coq Require Import Reals String List Permutation Lia Lra Bool Psatz.
From Coquelicot Require Import Coquelicot.
From Verif Require Import Json_model Vec_spec Vec_proofs Derivs_spec Derivs_proofs2 Cubic_model Cubic_spec Cubic_proofs.
Import ListNotations.
Open Scope R_scope.

(** ** Copies of components *)
Lemma pick_length : forall A (d : A) r l, length (pick d r l) = length r.
Proof. intros. unfold pick. apply map_length. Qed.
Lemma pick_nth : forall r l i, (i < length r)%nat -> nth i (pick 0 r l) 0 = nth (nth i r O) l 0.
Proof.
  intros. unfold pick. rewrite (nth_indep _ 0 (nth O l 0)) by (rewrite map_length; lia).
  apply (map_nth (fun i => nth i l 0)).
Qed.
Lemma pick_nth' : forall A (d : A) r l i, (i < length r)%nat -> nth i (pick d r l) d = nth (nth i r O) l d.
Proof.
  intros. unfold pick. rewrite (nth_indep _ d (nth O l d)) by (rewrite map_length; lia).
  apply (map_nth (fun i => nth i l d)).
Qed.
Lemma pick_alpha : forall d r l i T, (i < length r)%nat -> (nth i r O < length l)%nat ->
  alpha_at (pick d r l) i T = alpha_at l (nth i r O) T.
Proof.
  intros. unfold alpha_at, pick. rewrite nth_error_map.
  rewrite (nth_error_nth' r O) by lia. simpl. rewrite (nth_error_nth' l d) by lia. reflexivity.
Qed.
Lemma lumped_lt : forall r x' x i, lumped r x' x -> (i < length r)%nat -> (nth i r O < length x)%nat.
Proof. intros r x' x i [_ [H _]] Hi. apply H. apply nth_In. lia. Qed.
Lemma lump : forall r x' x (g : nat -> R), lumped r x' x ->
  sumn (length r) (fun i => nth i x' 0 * g (nth i r O)) = sumn (length x) (fun k => nth k x 0 * g k).
Proof.
  intros r x' x g HL. destruct (HL) as [L [HI HS]].
  rewrite (sumn_ext (length x) _ (fun k => sumn (length r) (fun i =>
     if Nat.eqb k (nth i r O) then nth i x' 0 * g k else 0))).
  - rewrite sumn_swap. apply sumn_ext. intros i Hi.
    rewrite (sumn_delta (length x) (nth i r O) (fun k => nth i x' 0 * g k)); auto.
    eapply lumped_lt; eauto.
  - intros k Hk. rewrite HS by auto. rewrite <- sumn_scal_r. apply sumn_ext. intros i Hi.
    rewrite Nat.eqb_sym. destruct (Nat.eqb k (nth i r O)); ring.
Qed.
Lemma lump_mean : forall r x' x (q' q : nat -> R), lumped r x' x ->
  (forall i, (i < length r)%nat -> q' i = q (nth i r O)) ->
  sumn (length r) (fun i => nth i x' 0 * q' i) = sumn (length x) (fun k => nth k x 0 * q k).
Proof.
  intros. rewrite <- (lump r x' x q H). apply sumn_ext. intros i Hi. rewrite H0 by auto. reflexivity.
Qed.
Lemma lump_quad : forall r x' x (q' q : nat -> nat -> R), lumped r x' x ->
  (forall i j, (i < length r)%nat -> (j < length r)%nat -> q' i j = q (nth i r O) (nth j r O)) ->
  sumn (length r) (fun i => sumn (length r) (fun j => nth i x' 0 * nth j x' 0 * q' i j)) =
  sumn (length x) (fun i => sumn (length x) (fun j => nth i x 0 * nth j x 0 * q i j)).
Proof.
  intros r x' x q' q HL HQ.
  transitivity (sumn (length r) (fun i => nth i x' 0 * sumn (length x) (fun j => nth j x 0 * q (nth i r O) j))).
  - apply sumn_ext. intros i Hi. rewrite <- (lump_mean r x' x (q' i) (q (nth i r O)) HL) by auto.
    rewrite <- sumn_scal. apply sumn_ext. intros. ring.
  - rewrite (lump r x' x (fun i => sumn (length x) (fun j => nth j x 0 * q i j)) HL).
    apply sumn_ext. intros i Hi. rewrite <- sumn_scal. apply sumn_ext. intros. ring.
Qed.
(** the same with the weights inside, as in the quantum-corrected and RK-PR codes *)
Lemma lump_quad' : forall r x' x (q' q : nat -> nat -> R), lumped r x' x ->
  (forall i j, (i < length r)%nat -> (j < length r)%nat -> q' i j = q (nth i r O) (nth j r O)) ->
  forall F F' : nat -> nat -> R,
  (forall i j, F' i j = nth i x' 0 * nth j x' 0 * q' i j) -> (forall i j, F i j = nth i x 0 * nth j x 0 * q i j) ->
  sumn (length r) (fun i => sumn (length r) (fun j => F' i j)) =
  sumn (length x) (fun i => sumn (length x) (fun j => F i j)).
Proof.
  intros r x' x q' q HL HQ F F' E' E.
  transitivity (sumn (length r) (fun i => sumn (length r) (fun j => nth i x' 0 * nth j x' 0 * q' i j))).
  - apply sumn_ext; intros; apply sumn_ext; intros; auto.
  - rewrite (lump_quad r x' x q' q HL HQ). apply sumn_ext; intros; apply sumn_ext; intros; auto.
Qed.

Lemma perm_lumped : forall r x, Permutation r (seq 0 (length x)) -> lumped r (pick 0 r x) x.
Proof.
  intros r x P. assert (L : length r = length x) by (apply Permutation_length in P; rewrite seq_length in P; auto).
  split; [apply pick_length|split].
  - intros i Hi. apply (Permutation_in _ P) in Hi. apply in_seq in Hi. lia.
  - intros k Hk.
    assert (Hin : In k r) by (apply (Permutation_in _ (Permutation_sym P)); apply in_seq; lia).
    assert (ND : NoDup r) by (apply (Permutation_NoDup (Permutation_sym P)); apply seq_NoDup).
    destruct (In_nth r k O Hin) as [p [Hp Ep]].
    rewrite (sumn_ext _ _ (fun i => if Nat.eqb i p then nth i (pick 0 r x) 0 else 0)).
    + rewrite (sumn_delta (length r) p (fun i => nth i (pick 0 r x) 0)) by auto. rewrite pick_nth by auto. rewrite Ep. reflexivity.
    + intros i Hi. destruct (Nat.eqb_spec i p) as [->|N].
      * rewrite Ep, Nat.eqb_refl. reflexivity.
      * destruct (Nat.eqb_spec (nth i r O) k) as [E|]; auto. exfalso. apply N.
        apply (proj1 (NoDup_nth r O) ND); auto. congruence.
Qed.
Lemma sumn_S : forall n f, sumn (S n) f = sumn n f + f n. Proof. reflexivity. Qed.
(** component [j] divided into two identical ones *)
Lemma split_lumped : forall x j s, (j < length x)%nat ->
  lumped (seq 0 (length x) ++ [j]) (replace j (nth j x 0 - s) x ++ [s]) x.
Proof.
  intros x j s Hj. assert (Lr : length (replace j (nth j x 0 - s) x) = length x)
    by (unfold replace; rewrite map_length, seq_length; auto).
  split; [rewrite !app_length, Lr, seq_length; auto|split].
  - intros i Hi. apply in_app_or in Hi. destruct Hi as [Hi|[<-|[]]]; auto. apply in_seq in Hi. lia.
  - intros k Hk. rewrite app_length, seq_length. simpl length. rewrite Nat.add_1_r, sumn_S.
    rewrite (app_nth2 (seq 0 (length x))) by (rewrite seq_length; lia). rewrite seq_length, Nat.sub_diag.
    rewrite (app_nth2 (replace j (nth j x 0 - s) x)) by (rewrite Lr; lia). rewrite Lr, Nat.sub_diag. simpl nth.
    rewrite (sumn_ext _ _ (fun i => if Nat.eqb i k then nth i (replace j (nth j x 0 - s) x) 0 else 0)).
    + rewrite (sumn_delta (length x) k (fun i => nth i (replace j (nth j x 0 - s) x) 0)) by auto.
      unfold replace. rewrite nth_map_seq' by auto.
      rewrite Nat.eqb_sym. destruct (Nat.eqb_spec j k); [subst; ring|ring].
    + intros i Hi. rewrite !app_nth1 by (rewrite ?Lr, ?seq_length; lia). rewrite seq_nth by lia. reflexivity.
Qed.
Lemma pure_length : forall n i, length (pure n i) = n.
Proof. intros. unfold pure. rewrite map_length, seq_length. reflexivity. Qed.
Lemma pure_lumped : forall n i, (i < n)%nat -> lumped [i] [1] (pure n i).
Proof.
  intros n i Hi. split; [reflexivity|split].
  - intros k [<-|[]]. rewrite pure_length. auto.
  - rewrite pure_length. intros k Hk. unfold pure. rewrite nth_map_seq' by auto. simpl.
    rewrite Nat.eqb_sym. destruct (Nat.eqb i k); ring.
Qed.

(** ** Constants *)
Lemma cbrt_cube : forall x, 0 < x -> cbrt x ^ 3 = x /\ 0 < cbrt x.
Proof.
  intros x Hx. unfold cbrt. destruct (Rlt_dec 0 x); [|lra]. split.
  - rewrite <- Rpower_pow by (apply exp_pos). rewrite Rpower_mult.
    replace (1 / 3 * INR 3) with 1 by (simpl; field). apply Rpower_1; auto.
  - apply exp_pos.
Qed.
Lemma cbrt_mult : forall x y, 0 < x -> 0 < y -> cbrt x * cbrt y = cbrt (x * y).
Proof.
  intros x y Hx Hy. assert (0 < x * y) by (apply Rmult_lt_0_compat; auto).
  unfold cbrt. destruct (Rlt_dec 0 x); [|lra]. destruct (Rlt_dec 0 y); [|lra]. destruct (Rlt_dec 0 (x * y)); [|lra].
  apply Rpower_mult_distr; auto.
Qed.
Lemma cbrt_8 : cbrt 8 = 2.
Proof.
  unfold cbrt. destruct (Rlt_dec 0 8); [|lra]. replace 8 with (2 ^ 3) by ring.
  rewrite <- Rpower_pow by lra. rewrite Rpower_mult. replace (INR 3 * (1 / 3)) with 1 by (simpl; field). apply Rpower_1; lra.
Qed.
Lemma cbrt2_gt1 : 1 < cbrt 2.
Proof. destruct (cbrt_cube 2 ltac:(lra)) as [E P]. destruct (Rlt_or_le 1 (cbrt 2)); auto. exfalso. nra. Qed.

Lemma vdW_constants : critical_constants (0 + 0) (0 * 0) (27 / 64) (1 / 8) (3 / 8).
Proof. unfold critical_constants. lra. Qed.
Lemma SRK_constants : critical_constants (1 + 0) (1 * 0) SRK_OmegaA SRK_OmegaB (1 / 3).
Proof.
  unfold critical_constants, SRK_OmegaA, SRK_OmegaB.
  destruct (cbrt_cube 2 ltac:(lra)) as [E P]. assert (G := cbrt2_gt1). set (c := cbrt 2) in *.
  assert (A : 1 / (9 * (c - 1)) = (c ^ 2 + c + 1) / 9).
  { apply (Rmult_eq_reg_r (9 * (c - 1))); [|lra]. field_simplify; [|lra]. 
    replace (c ^ 3 - 1) with 1 by lra. reflexivity. }
  split; [lra|]. split.
  - rewrite A. field.
  - field. lra.
Qed.
Lemma rk_constants : forall d, -1 < d ->
  critical_constants (d + (1 - d) / (1 + d)) (d * ((1 - d) / (1 + d))) (rk_OmegaA d) (rk_OmegaB d) (rk_y d * rk_OmegaB d)
  /\ 1 < rk_y d /\ 0 < rk_OmegaB d.
Proof.
  intros d Hd. assert (H0 : 0 < 2 * (1 + d)) by lra.
  assert (H1 : 0 < 4 / (1 + d)) by (apply Rdiv_lt_0_compat; lra).
  destruct (cbrt_cube _ H0) as [E0 P0]. destruct (cbrt_cube _ H1) as [E1 P1].
  assert (PQ := cbrt_mult _ _ H0 H1). replace (2 * (1 + d) * (4 / (1 + d))) with 8 in PQ by (field; lra).
  rewrite cbrt_8 in PQ.
  assert (U : d + (1 - d) / (1 + d) = rk_d1 d) by (unfold rk_d1; field; lra).
  assert (W : d * ((1 - d) / (1 + d)) = 1 - rk_d1 d) by (unfold rk_d1; field; lra).
  assert (Y1 : 1 < rk_y d) by (unfold rk_y; lra).
  assert (Hd1 : 0 < rk_d1 d) by (unfold rk_d1; apply Rdiv_lt_0_compat; nra).
  assert (Hden : 0 < 3 * rk_y d + rk_d1 d - 1) by lra.
  assert (Y3 : (rk_y d - 1) ^ 3 = 6 * (rk_y d - 1) + 4 + 2 * rk_d1 d).
  { unfold rk_y at 1 2. set (p := cbrt (2 * (1 + d))) in *. set (q := cbrt (4 / (1 + d))) in *.
    replace (1 + p + q - 1) with (p + q) by ring.
    replace ((p + q) ^ 3) with (p ^ 3 + q ^ 3 + 3 * (p * q) * (p + q)) by ring.
    rewrite PQ, E0, E1. unfold rk_d1. field. lra. }
  assert (D2 : 0 < (3 * rk_y d + rk_d1 d - 1)) by lra.
  split; [|split; auto; unfold rk_OmegaB; apply Rdiv_lt_0_compat; lra].
  unfold critical_constants. rewrite U, W. unfold rk_OmegaA, rk_OmegaB.
  set (y := rk_y d) in *. set (u := rk_d1 d) in *. 
  split; [field; lra|]. split; [field; lra|].
  assert (y ^ 3 = 3 * y ^ 2 + 3 * y + 2 * u - 1) by (replace (y ^ 3) with ((y - 1) ^ 3 + 3 * y ^ 2 - 3 * y + 1) by ring; rewrite Y3; ring).
  replace ((y * (1 / (3 * y + u - 1))) ^ 3) with (y ^ 3 / (3 * y + u - 1) ^ 3) by (field; lra).
  rewrite H. field. lra.
Qed.
(** The Peng-Robinson constants: the exact co-volume is a root of a cubic, the coded
    decimals are this root and the attraction constant it gives, rounded. *)
Lemma PR_constants : exists A B, critical_constants 2 (-1) A B ((1 - B) / 3) /\
  Rabs (PR_OmegaB - B) <= / 10 ^ 20 /\ Rabs (PR_OmegaA - A) <= / 10 ^ 19.
Proof.
  destruct (IVT_cor (fun B => 64 * B ^ 3 + 6 * B ^ 2 + 12 * B - 1) 
     (PR_OmegaB - / 10 ^ 20) (PR_OmegaB + / 10 ^ 20)) as [B [[L U] E]].
  - reg.
  - unfold PR_OmegaB. lra.
  - unfold PR_OmegaB. apply Rge_le. rewrite Rmult_comm. 
    assert (forall a b, 0 <= a -> b <= 0 -> 0 >= a * b) by (intros; nra). apply H; lra.
  - exists (3 * ((1 - B) / 3) ^ 2 + 3 * B ^ 2 + 2 * B), B.
    assert (EE : 64 * B ^ 3 = 1 - 12 * B - 6 * B ^ 2) by lra.
    split; [|split].
    + unfold critical_constants. split; [field|]. split; [field|]. 
      assert (X : forall b, ((1 - b) / 3) ^ 3 - ((3 * ((1 - b) / 3) ^ 2 + 3 * b ^ 2 + 2 * b) * b + -1 * b ^ 2 + -1 * b ^ 3)
         = (1 - 12 * b - 6 * b ^ 2 - 64 * b ^ 3) / 27) by (intro; field).
      specialize (X B). lra.
    + apply Rabs_le. lra.
    + unfold PR_OmegaA, PR_OmegaB in *. 
      replace (3 * ((1 - B) / 3) ^ 2 + 3 * B ^ 2 + 2 * B) with (1 / 3 + 4 / 3 * B + 10 / 3 * (B * B)) by field.
      set (e := B - 0.077796073903888455972). 
      assert (He : - / 10 ^ 20 <= e <= / 10 ^ 20) by (unfold e; lra).
      replace B with (0.077796073903888455972 + e) by (unfold e; ring). clearbody e.
      assert (e * e <= / 10 ^ 30) by nra. assert (0 <= e * e) by nra.
      apply Rabs_le. lra.
Qed.

(** ** The volume-shifted evaluation of the quantum-corrected equation *)
Lemma shifted_pressure : forall D1 D2 a b Rg T rho c : R, D1 <> D2 -> b <> 0 -> Rg * T <> 0 -> 0 < rho -> 0 < 1 / rho + c ->
  0 < 1 / rho + c - b -> 0 < 1 / rho + c + D1 * b -> 0 < 1 / rho + c + D2 * b ->
  pressure_of Rg (fun T r => cubic_form D1 D2 a b Rg T (1 / (1 / r + c))) T rho =
  cubic_textbook Rg a b D1 D2 T (1 / rho + c) + Rg * T * (rho - 1 / (1 / rho + c)).
Proof.
  intros D1 D2 a b Rg T rho c HD Hb HRT Hr Hv H1 H2 H3.
  set (r0 := 1 / (1 / rho + c)).
  assert (H0 : 0 < r0) by (unfold r0; apply Rdiv_lt_0_compat; lra).
  assert (VV : forall V : R, V <> 0 -> V = 1 / (1 / V)) by (intros; field; auto).
  assert (E0 : 1 / rho + c = 1 / r0) by (apply VV; lra).
  rewrite E0 in H1, H2, H3.
  assert (Q1 : 0 < 1 - b * r0).
  { replace (1 - b * r0) with ((1 / r0 - b) * r0) by (field; lra). apply Rmult_lt_0_compat; auto. }
  assert (Q2 : 0 < D1 * b * r0 + 1).
  { replace (D1 * b * r0 + 1) with ((1 / r0 + D1 * b) * r0) by (field; lra). apply Rmult_lt_0_compat; auto. }
  assert (Q3 : 0 < D2 * b * r0 + 1).
  { replace (D2 * b * r0 + 1) with ((1 / r0 + D2 * b) * r0) by (field; lra). apply Rmult_lt_0_compat; auto. }
  assert (G := form_derive D1 D2 a b Rg T r0 HD Hb HRT H0 Q1 Q2 Q3).
  set (X := Rg * T * (1 / r0 + b / (1 - b * r0)) - a / ((D1 * b * r0 + 1) * (D2 * b * r0 + 1))) in *.
  assert (Dr : is_derive (fun r : R => 1 / (1 / r + c)) rho ((r0 / rho) ^ 2)).
  { auto_derive; [split; lra|]. unfold r0. assert (1 / rho + c <> 0) by lra.
    assert (1 + c * rho <> 0). { intro E. apply H. replace (1 / rho + c) with ((1 + c * rho) / rho) by (field; lra). rewrite E. field; lra. }
    field. split; [lra|]. lra. }
  assert (C : is_derive (fun r : R => Rg * T * (ln (1 / (1 / r + c)) + cubic_form D1 D2 a b Rg T (1 / (1 / r + c)))) rho
     ((r0 / rho) ^ 2 * X)).
  { exact (is_derive_comp (fun r : R => Rg * T * (ln r + cubic_form D1 D2 a b Rg T r)) (fun r : R => 1 / (1 / r + c)) rho X _ G Dr). }
  assert (L : is_derive (fun r : R => Rg * T * (ln r - ln (1 / (1 / r + c)))) rho (Rg * T * (1 / rho - r0 / rho ^ 2))).
  { assert (1 / rho + c <> 0) by lra.
    assert (1 + c * rho <> 0). { intro E. apply H. replace (1 / rho + c) with ((1 + c * rho) / rho) by (field; lra). rewrite E. field; lra. }
    auto_derive. 
    - repeat split; try lra. apply Rdiv_lt_0_compat; lra.
    - unfold r0. field. repeat split; try lra. }
  assert (S := is_derive_plus _ _ _ _ _ C L).
  rewrite (pressure_of_ok _ _ _ _ (plus ((r0 / rho) ^ 2 * X) (Rg * T * (1 / rho - r0 / rho ^ 2)))).
  - unfold plus. simpl. rewrite E0. unfold X, cubic_textbook. field. repeat split; try lra; auto.
  - refine (is_derive_ext _ _ _ _ _ S). intro t. unfold plus. simpl. eqR. ring.
Qed.
