(** Polynomial extended corresponding states.  See Reduced_spec.v for what is expected. *)
From Coq Require Import Reals ZArith String List Bool Lia Lra Psatz.
From Coquelicot Require Import Coquelicot.
From Verif Require Import Json_model Vec_spec Vec_proofs Cubic_model Terms_model Terms_proofs2 Ideal_model Ideal_proofs Assoc_model Multi_model LKP_spec LKP_proofs Reduced_model Reduced_spec.
Import ListNotations.
Open Scope R_scope.

(** A matrix with the rows the polynomials need *)
Definition large (m : pmat) : Prop := (6 <= p_rows m)%nat /\ (3 <= p_cols m)%nat.
(** Two fluids with positive critical constants *)
Definition two_fluids (p : pecs) : Prop :=
  0 < nth 0 (pe_Tc p) 0 /\ 0 < nth 1 (pe_Tc p) 0 /\ 0 < nth 0 (pe_vc p) 0 /\ 0 < nth 1 (pe_vc p) 0.
Definition cT (p : pecs) (i : nat) : R := nth i (pe_Tc p) 0.
Definition cv (p : pecs) (i : nat) : R := nth i (pe_vc p) 0.
(** The reducing temperature and volume *)
Definition red_T (p : pecs) (T rho x0 x1 : R) : R :=
  PE_reduce (cT p 0) (cT p 1) (PE_YT (cT p 0) (cT p 1)) (PE_f (p_at (pe_t p)) x0 (PE_YT (cT p 0) (cT p 1) / T) (rho * PE_Yv (cv p 0) (cv p 1))) x0 x1.
Definition red_v (p : pecs) (T rho x0 x1 : R) : R :=
  PE_reduce (cv p 0) (cv p 1) (PE_Yv (cv p 0) (cv p 1)) (PE_f (p_at (pe_d p)) x0 (PE_YT (cT p 0) (cT p 1) / T) (rho * PE_Yv (cv p 0) (cv p 1))) x0 x1.

Lemma Yv_pos : forall a b, 0 < PE_Yv a b.
Proof. intros a b. unfold PE_Yv. apply pow_lt. pose proof (exp_pos (1 / 3 * ln a)). pose proof (exp_pos (1 / 3 * ln b)). unfold Rpower. lra. Qed.
Lemma vscale_val : forall p, two_fluids p -> pe_vscale p = Some (PE_Yv (cv p 0) (cv p 1)).
Proof.
  intros p (A & B & C & D). unfold pe_vscale, cv, PE_Yv. rewrite !cpow_pos by auto. cbn [opt_bind]. f_equal.
  generalize (Rpower (nth 0 (pe_vc p) 0) (1 / 3)) (Rpower (nth 1 (pe_vc p) 0) (1 / 3)). intros a b. lra.
Qed.
Lemma Tscale_val : forall p, two_fluids p -> pe_Tscale p = Some (PE_YT (cT p 0) (cT p 1)).
Proof.
  intros p (A & B & C & D). unfold pe_Tscale, csqrt, cT, PE_YT. destruct (Rle_dec 0 _) as [_|N]; [reflexivity|]. exfalso. apply N. apply Rlt_le. now apply Rmult_lt_0_compat.
Qed.
Lemma poly_val : forall m x tau delta, large m -> pe_poly m x tau delta = Some (PE_f (p_at m) x tau delta).
Proof.
  intros m x tau delta [A B]. unfold pe_poly. apply Nat.leb_le in A. apply Nat.leb_le in B. rewrite A, B. cbn [andb]. f_equal.
  unfold PE_f, PE_coeff, pe_row. ring.
Qed.
(** C78.  The reducing parameters are those of the polynomials *)
Theorem C78_reducing : forall p T rho x0 x1, two_fluids p -> large (pe_t p) -> large (pe_d p) -> T <> 0 ->
  pe_tr p T rho x0 x1 = Some (red_T p T rho x0 x1) /\
  (red_v p T rho x0 x1 <> 0 -> pe_dr p T rho x0 x1 = Some (/ red_v p T rho x0 x1)).
Proof.
  intros p T rho x0 x1 F Lt Ld HT. pose proof (Yv_pos (cv p 0) (cv p 1)) as Y. assert (IY : 1 / PE_Yv (cv p 0) (cv p 1) <> 0) by (apply Rgt_not_eq; apply Rdiv_lt_0_compat; lra).
  unfold pe_tr, pe_dr. rewrite vscale_val, Tscale_val by auto. cbn [opt_bind]. rewrite (cdiv_nz 1 (PE_Yv _ _)) by lra. cbn [opt_bind].
  rewrite (cdiv_nz _ T) by auto. cbn [opt_bind]. rewrite (cdiv_nz rho) by exact IY. rewrite (cdiv_nz 1 (1 / _)) by exact IY. cbn [opt_bind]. rewrite !poly_val by auto. cbn [opt_bind].
  replace (rho / (1 / PE_Yv (cv p 0) (cv p 1))) with (rho * PE_Yv (cv p 0) (cv p 1)) by (field; lra).
  replace (1 / (1 / PE_Yv (cv p 0) (cv p 1))) with (PE_Yv (cv p 0) (cv p 1)) by (field; lra). split.
  - f_equal. unfold red_T, PE_reduce, cT. ring.
  - intro N. match goal with |- cdiv 1 ?e = _ => replace e with (red_v p T rho x0 x1) by (unfold red_v, PE_reduce, cv; ring) end.
    rewrite cdiv_nz by exact N. f_equal. field. exact N.
Qed.
(** The residual energy is the sum over the pure fluids at the reduced state *)
Theorem C78_alphar : forall base p T rho x0 x1, two_fluids p -> large (pe_t p) -> large (pe_d p) -> T <> 0 -> red_v p T rho x0 x1 <> 0 ->
  pecs_alphar base p T rho [x0; x1] = corr_alphar (mf_eos base) (red_T p T rho x0 x1 / T) (rho * red_v p T rho x0 x1) [x0; x1].
Proof.
  intros base p T rho x0 x1 F Lt Ld HT N. destruct (C78_reducing p T rho x0 x1 F Lt Ld HT) as [E1 E2]. unfold pecs_alphar. rewrite E1, (E2 N). unfold obind, fin, ok.
  rewrite cdiv_nz by now apply Rinv_neq_0_compat. rewrite cdiv_nz by auto. replace (rho / / red_v p T rho x0 x1) with (rho * red_v p T rho x0 x1) by (field; auto). reflexivity.
Qed.
Lemma corr2 : forall e0 e1 tau delta x0 x1 a0 a1, e0 tau delta = ok a0 -> e1 tau delta = ok a1 -> corr_alphar [e0; e1] tau delta [x0; x1] = ok (x0 * a0 + x1 * a1).
Proof. intros e0 e1 tau delta x0 x1 a0 a1 E0 E1. unfold corr_alphar, corr_alphari. cbn [length esum nth_error nth]. rewrite E0, E1. cbn. unfold ok. do 2 f_equal. ring. Qed.
(** A pure fluid is its own equation of state with its own critical constants *)
Theorem C78_pure : forall base p e0 e1 T rho a0 a1, two_fluids p -> large (pe_t p) -> large (pe_d p) -> T <> 0 -> mf_eos base = [e0; e1] ->
  (e0 (cT p 0 / T) (rho * cv p 0) = Some (Val a0) -> e1 (cT p 0 / T) (rho * cv p 0) = Some (Val a1) ->
   pecs_alphar base p T rho [1; 0] = e0 (cT p 0 / T) (rho * cv p 0)) /\
  (e0 (cT p 1 / T) (rho * cv p 1) = Some (Val a0) -> e1 (cT p 1 / T) (rho * cv p 1) = Some (Val a1) ->
   pecs_alphar base p T rho [0; 1] = e1 (cT p 1 / T) (rho * cv p 1)).
Proof.
  intros base p e0 e1 T rho a0 a1 F Lt Ld HT E. assert (F' := F). destruct F' as (A & B & C & D).
  assert (T0 : red_T p T rho 1 0 = cT p 0) by (unfold red_T, PE_reduce; ring). assert (V0 : red_v p T rho 1 0 = cv p 0) by (unfold red_v, PE_reduce; ring).
  assert (T1 : red_T p T rho 0 1 = cT p 1) by (unfold red_T, PE_reduce; ring). assert (V1 : red_v p T rho 0 1 = cv p 1) by (unfold red_v, PE_reduce; ring).
  split; intros H0 H1; rewrite C78_alphar by (try assumption; rewrite ?V0, ?V1; unfold cv; lra); rewrite ?T0, ?V0, ?T1, ?V1, E, (corr2 _ _ _ _ _ _ _ _ H0 H1), ?H0, ?H1; unfold ok; do 2 f_equal; ring.
Qed.
(** With the polynomials equal to one the mixture is that of the Lorentz-Berthelot rules, without
    departure *)
Definition identity_poly (m : pmat) : Prop := large m /\ p_at m 0 0 = 1 /\ forall i j, (i < 6)%nat -> (j < 3)%nat -> (i, j) <> (0, 0)%nat -> p_at m i j = 0.
Lemma identity_f : forall m x tau delta, identity_poly m -> PE_f (p_at m) x tau delta = 1.
Proof.
  intros m x tau delta (_ & H & Z). unfold PE_f, PE_coeff. rewrite H.
  rewrite !Z by (try lia; congruence). ring.
Qed.
Theorem C78_Lorentz_Berthelot : forall base p b T rho x0 x1, two_fluids p -> length (pe_Tc p) = 2%nat -> length (pe_vc p) = 2%nat -> length (mf_eos base) = 2%nat ->
  identity_poly (pe_t p) -> identity_poly (pe_d p) -> T <> 0 -> 0 <= x0 -> 0 <= x1 -> 0 < x0 + x1 ->
  mf_red base = GERGreducing b (pe_Tc p) (pe_vc p) -> m_betaT b 0 1 = 1 -> m_gammaT b 0 1 = 1 -> m_betaV b 0 1 = 1 -> m_gammaV b 0 1 = 1 ->
  mf_F base 0 1 = 0 -> (forall tau delta, exists a, mf_dep base 0 1 tau delta = Some (Val a)) ->
  pecs_alphar base p T rho [x0; x1] = mf_alphar base T rho [x0; x1].
Proof.
  intros base p b T rho x0 x1 F LT LV LE It Id HT X0 X1 XS ER B1 B2 B3 B4 BF BD. assert (F' := F). destruct F' as (A & B & C & D).
  pose proof (Yv_pos (cv p 0) (cv p 1)) as Y.
  assert (ET : red_T p T rho x0 x1 = get_Tr (mf_red base) [x0; x1]).
  { rewrite ER. unfold red_T, PE_reduce. rewrite identity_f by exact It. unfold get_Tr, Multi_model.Y, sum_pairs, Y_pair, YT. cbn [length sumn Nat.ltb Nat.leb nth Nat.eqb min max].
    rewrite B1, B2. destruct (Req_EM_T (1 * 1 * x0 + x1) 0); [lra|]. unfold PE_YT, cT. field. lra. }
  assert (EV : red_v p T rho x0 x1 = Multi_model.Y [x0; x1] (pe_vc p) (m_betaV b) (Yv b (pe_vc p))).
  { unfold red_v, PE_reduce. rewrite identity_f by exact Id. unfold Multi_model.Y, sum_pairs, Y_pair, Yv. cbn [length sumn Nat.ltb Nat.leb nth Nat.eqb min max].
    rewrite B3, B4. destruct (Req_EM_T (1 * 1 * x0 + x1) 0); [lra|]. unfold PE_Yv, cv. rewrite !third_cbrt by auto. unfold LKP_spec.third. field. lra. }
  assert (VP : 0 < red_v p T rho x0 x1).
  { unfold red_v, PE_reduce. rewrite identity_f by exact Id. fold (cv p 0) in C. fold (cv p 1) in D.
    assert (0 <= 2 * x0 * x1 * PE_Yv (cv p 0) (cv p 1) * 1) by (rewrite Rmult_1_r; apply Rmult_le_pos; [apply Rmult_le_pos; lra|lra]). destruct (Req_dec x0 0) as [->|N0].
    - assert (0 < x1 ^ 2) by nra. nra.
    - assert (0 < x0 ^ 2) by nra. assert (0 <= x1 ^ 2) by nra. nra. }
  rewrite C78_alphar; [|exact F|apply It|apply Id|exact HT|lra].
  unfold mf_alphar, alphar_taudelta. rewrite LE. cbn [length Nat.eqb negb]. rewrite ET, EV, ER. cbn [get_rhor].
  replace (rho / (1 / Multi_model.Y [x0; x1] (pe_vc p) (m_betaV b) (Yv b (pe_vc p)))) with (rho * Multi_model.Y [x0; x1] (pe_vc p) (m_betaV b) (Yv b (pe_vc p))) by (field; lra).
  set (tau := get_Tr _ _ / T). set (delta := rho * _). unfold dep_alphar. cbn [length Nat.ltb Nat.leb esum].
  destruct (BD tau delta) as [a EA]. change (mf_dep base 0 1 tau delta) with (mf_dep base 0 1 tau delta). rewrite EA, BF. 
  destruct (corr_alphar (mf_eos base) tau delta [x0; x1]) as [[v|e]|]; try reflexivity. cbn. unfold ok. do 2 f_equal. cbn. ring.
Qed.
(** The order of the components does not matter when the coefficients do not depend on the
    composition *)
Definition constant_coefficients (m : pmat) : Prop := forall i, (i < 6)%nat -> p_at m i 1 = 0 /\ p_at m i 2 = 0.
Theorem C78_order_partial : forall base base' p p' e0 e1 T rho x0 x1, two_fluids p -> large (pe_t p) -> large (pe_d p) ->
  constant_coefficients (pe_t p) -> constant_coefficients (pe_d p) -> T <> 0 -> red_v p T rho x0 x1 <> 0 ->
  mf_eos base = [e0; e1] -> mf_eos base' = [e1; e0] -> pe_t p' = pe_t p -> pe_d p' = pe_d p ->
  pe_Tc p' = [cT p 1; cT p 0] -> pe_vc p' = [cv p 1; cv p 0] -> (forall tau delta, exists a0 a1, e0 tau delta = Some (Val a0) /\ e1 tau delta = Some (Val a1)) ->
  pecs_alphar base' p' T rho [x1; x0] = pecs_alphar base p T rho [x0; x1].
Proof.
  intros base base' p p' e0 e1 T rho x0 x1 F Lt Ld Ct Cd HT N E E' Et Ed ET EV HE. assert (F' := F). destruct F' as (A & B & C & D).
  assert (G : two_fluids p') by (unfold two_fluids; rewrite ET, EV; cbn [nth]; auto).
  assert (PF : forall m x y tau delta, constant_coefficients m -> PE_f (p_at m) x tau delta = PE_f (p_at m) y tau delta).
  { intros m x y tau delta H. unfold PE_f, PE_coeff. pose proof (H 0%nat ltac:(lia)) as [-> ->]. pose proof (H 1%nat ltac:(lia)) as [-> ->]. pose proof (H 2%nat ltac:(lia)) as [-> ->].
    pose proof (H 3%nat ltac:(lia)) as [-> ->]. pose proof (H 4%nat ltac:(lia)) as [-> ->]. pose proof (H 5%nat ltac:(lia)) as [-> ->]. ring. }
  assert (YT_ : PE_YT (cT p' 0) (cT p' 1) = PE_YT (cT p 0) (cT p 1)) by (unfold cT at 1 2; rewrite ET; cbn [nth]; unfold PE_YT; f_equal; ring).
  assert (YV_ : PE_Yv (cv p' 0) (cv p' 1) = PE_Yv (cv p 0) (cv p 1)) by (unfold cv at 1 2; rewrite EV; cbn [nth]; unfold PE_Yv; f_equal; f_equal; ring).
  assert (RT : red_T p' T rho x1 x0 = red_T p T rho x0 x1).
  { unfold red_T. rewrite YT_, YV_, Et, (PF (pe_t p) x1 x0) by exact Ct. unfold cT at 1 2. rewrite ET. cbn [nth]. unfold PE_reduce. ring. }
  assert (RV : red_v p' T rho x1 x0 = red_v p T rho x0 x1).
  { unfold red_v. rewrite YT_, YV_, Ed, (PF (pe_d p) x1 x0) by exact Cd. unfold cv at 1 2. rewrite EV. cbn [nth]. unfold PE_reduce. ring. }
  rewrite (C78_alphar base p) by auto. rewrite (C78_alphar base' p') by (try assumption; rewrite ?Et, ?Ed, ?RV; auto). rewrite RT, RV, E, E'.
  destruct (HE (red_T p T rho x0 x1 / T) (rho * red_v p T rho x0 x1)) as (a0 & a1 & H0 & H1). rewrite (corr2 _ _ _ _ _ _ _ _ H0 H1), (corr2 _ _ _ _ _ _ _ _ H1 H0).
  unfold ok. do 2 f_equal. ring.
Qed.
(** Otherwise the first component is a special one: the same mixture of two equal fluids given the
    other way round has another energy *)
Definition first_only : pmat := {| p_rows := 6; p_cols := 3; p_at := fun i j => if (Nat.eqb i 0 && Nat.eqb j 1)%bool then 1 else 0 |}.
Theorem C78_order_refuted : forall base p, let e := (fun tau _ => Some (Val tau)) in mf_eos base = [e; e] ->
  pe_Tc p = [1; 1] -> pe_vc p = [1; 1] -> pe_t p = first_only -> pe_d p = first_only ->
  pecs_alphar base p 1 1 [1 / 4; 3 / 4] <> pecs_alphar base p 1 1 [3 / 4; 1 / 4].
Proof.
  intros base p e E ET EV Et Ed.
  assert (F : two_fluids p) by (unfold two_fluids; rewrite ET, EV; cbn; lra). assert (L : large first_only) by (split; cbn; lia).
  assert (P : PE_Yv 1 1 = 1). { unfold PE_Yv. assert (Q : Rpower 1 (1 / 3) = 1) by (unfold Rpower; rewrite ln_1, Rmult_0_r; apply exp_0). rewrite Q. lra. }
  assert (Q : PE_YT 1 1 = 1) by (unfold PE_YT; rewrite Rmult_1_l; apply sqrt_1).
  assert (FF : forall x tau delta, PE_f (p_at first_only) x tau delta = x) by (intros; unfold PE_f, PE_coeff; cbn; ring).
  assert (RT : forall x y, red_T p 1 1 x y = x ^ 2 + y ^ 2 + 2 * x * y * x).
  { intros. unfold red_T, cT, cv. rewrite ET, EV, Et. cbn [nth]. rewrite P, Q, FF. unfold PE_reduce. ring. }
  assert (RV : forall x y, red_v p 1 1 x y = x ^ 2 + y ^ 2 + 2 * x * y * x).
  { intros. unfold red_v, cT, cv. rewrite ET, EV, Ed. cbn [nth]. rewrite P, Q, FF. unfold PE_reduce. ring. }
  rewrite !C78_alphar by (rewrite ?Et, ?Ed, ?RV; try assumption; lra). rewrite E, !(corr2 _ _ _ _ _ _ _ _ eq_refl eq_refl), !RT. unfold ok. intro H. injection H as H. lra.
Qed.
Theorem C78_components : forall base p T rho x, length x <> 2%nat -> pecs_alphar base p T rho x = Some (Err InvalidArgument).
Proof. intros base p T rho [|a [|b [|c x]]] H; try reflexivity. exfalso. now apply H. Qed.
(** The matrices are read as they are given when all rows have one length; a row that is shorter
    than the first is an exception *)
Definition jmatrix (l : list (list R)) : json := JArr (map (fun r => JArr (map JNum r)) l).
Lemma elem_nums : forall r k, (k < length r)%nat -> bind (j_elem (JArr (map JNum r)) k) j_double = Val (nth k r 0).
Proof. intros r k H. cbn [j_elem bind]. rewrite (nth_indep _ _ (JNum 0)) by now rewrite map_length. now rewrite map_nth. Qed.
Lemma elem_row : forall l i, (i < length l)%nat -> j_elem (jmatrix l) i = Val (JArr (map JNum (nth i l []))).
Proof. intros l i H. cbn [j_elem jmatrix]. rewrite (nth_indep _ _ (JArr (map JNum []))) by now rewrite map_length. now rewrite (map_nth (fun r => JArr (map JNum r))). Qed.
Lemma map_res_all : forall A B (f : A -> res B) l, (forall a, In a l -> exists b, f a = Val b) -> exists bs, map_res f l = Val bs.
Proof.
  intros A B f l. induction l as [|a l IH]; intro H; [now exists []|]. destruct (H a) as [b E]; [now left|]. destruct IH as [bs IH]; [intros c C; apply H; now right|].
  exists (b :: bs). cbn. rewrite E. cbn. rewrite IH. reflexivity.
Qed.
Lemma map_res_err : forall A B (f : A -> res B) l e, (forall a, In a l -> (exists b, f a = Val b) \/ f a = Err e) -> (exists a, In a l /\ f a = Err e) -> map_res f l = Err e.
Proof.
  intros A B f l e. induction l as [|a l IH]; intros H (c & I & E); [contradiction|]. cbn. destruct (H a) as [[b Eb]|Eb]; [now left| |rewrite Eb; reflexivity].
  rewrite Eb. cbn. destruct I as [->|I]; [congruence|]. rewrite IH; [reflexivity| |eauto]. intros d D. apply H. now right.
Qed.
Theorem C78_read : forall l n, l <> [] -> List.Forall (fun r => length r = n) l ->
  exists m, read_matrix (jmatrix l) = Val m /\ p_rows m = length l /\ p_cols m = n /\ forall i j, (i < length l)%nat -> (j < n)%nat -> p_at m i j = nth j (nth i l []) 0.
Proof.
  intros l n NE HL. assert (L0 : (0 < length l)%nat) by (destruct l; [congruence|cbn; lia]).
  assert (HN : forall i, (i < length l)%nat -> length (nth i l []) = n). { intros i Hi. rewrite List.Forall_forall in HL. apply HL. now apply nth_In. }
  unfold read_matrix. rewrite elem_row by auto. cbn [bind]. 
  assert (E1 : j_size (JArr (map JNum (nth 0 l []))) = n) by (cbn; rewrite map_length; auto). assert (E2 : j_size (jmatrix l) = length l) by (cbn; apply map_length).
  rewrite E1, E2. set (read := fun i k => bind (j_elem (jmatrix l) i) (fun r => bind (j_elem r k) j_double)).
  assert (RD : forall i k, (i < length l)%nat -> (k < n)%nat -> read i k = Val (nth k (nth i l []) 0)).
  { intros i k Hi Hk. unfold read. rewrite elem_row by auto. cbn [bind]. apply elem_nums. rewrite HN; auto. }
  destruct (map_res_all _ _ (fun ik => read (fst ik) (snd ik)) (list_prod (seq 0 (length l)) (seq 0 n))) as [bs EB].
  { intros [i k] I. apply in_prod_iff in I. destruct I as [Ii Ik]. apply in_seq in Ii. apply in_seq in Ik. eexists. cbn [fst snd]. apply RD; lia. }
  unfold read in EB. rewrite EB. cbn [bind]. eexists. split; [reflexivity|]. cbn [p_rows p_cols p_at]. repeat split. intros i j Hi Hj.
  fold (read i j). rewrite RD by auto. reflexivity.
Qed.
Theorem C78_ragged : forall l i, (i < length l)%nat -> (length (nth i l []) < length (nth 0 l []))%nat -> read_matrix (jmatrix l) = Err JsonError.
Proof.
  intros l i Hi HS. unfold read_matrix. rewrite elem_row by lia. cbn [bind].
  rewrite map_res_err with (e := JsonError); [reflexivity| |].
  - intros [a k] I. apply in_prod_iff in I. destruct I as [Ii Ik]. apply in_seq in Ii. apply in_seq in Ik. cbn [fst snd]. cbn [jmatrix j_size] in Ii. rewrite map_length in Ii.
    rewrite elem_row by lia. cbn [bind]. destruct (Nat.lt_ge_cases k (length (nth a l []))) as [C|C].
    + left. eexists. now apply elem_nums.
    + right. cbn [j_elem bind]. rewrite nth_overflow by now rewrite map_length. reflexivity.
  - exists (i, length (nth i l [])). split.
    + apply in_prod_iff. split; apply in_seq; cbn [jmatrix j_size]; rewrite map_length; lia.
    + cbn [fst snd]. rewrite elem_row by auto. cbn [bind j_elem]. rewrite nth_overflow by now rewrite map_length. reflexivity.
Qed.
(** Elements beyond the first row's length are dropped silently *)
Theorem C78_long_row_refuted : exists m, read_matrix (jmatrix [[1]; [2; 3]]) = Val m /\ p_cols m = 1%nat /\ p_at m 1 0 = 2.
Proof. eexists. split; [reflexivity|]. split; reflexivity. Qed.
(** Matrices with fewer rows or columns than the polynomials have are accepted, and evaluating is undefined *)
Theorem C78_small_refuted : forall base m m' T rho x0 x1 p, read_matrix (jmatrix (repeat [1; 0; 0] m)) = Val (pe_t p) -> read_matrix (jmatrix (repeat [1; 0; 0] m')) = Val (pe_d p) ->
  two_fluids p -> T <> 0 -> (0 < m < 6)%nat -> pecs_alphar base p T rho [x0; x1] = None.
Proof.
  intros base m m' T rho x0 x1 p Et Ed F HT Hm. assert (R6 : Nat.leb 6 (p_rows (pe_t p)) = false).
  { destruct (C78_read (repeat [1; 0; 0] m) 3) as (q & Eq & Rq & _).
    - destruct m; [lia|discriminate].
    - apply List.Forall_forall. intros r I. apply repeat_spec in I. now subst.
    - rewrite Et in Eq. injection Eq as <-. rewrite Rq, repeat_length. apply Nat.leb_gt. lia. }
  pose proof (Yv_pos (cv p 0) (cv p 1)) as Y. unfold pecs_alphar, pe_tr. rewrite vscale_val, Tscale_val by auto. cbn [opt_bind]. rewrite (cdiv_nz 1 (PE_Yv _ _)) by lra. cbn [opt_bind].
  rewrite (cdiv_nz _ T) by auto. cbn [opt_bind]. rewrite (cdiv_nz rho) by (apply Rgt_not_eq; apply Rdiv_lt_0_compat; lra). cbn [opt_bind]. unfold pe_poly. rewrite R6. reflexivity.
Qed.
(** A missing matrix is an exception *)
Theorem C78_missing : forall base l, lookup "tr_coeffs" l = None \/ lookup "dr_coeffs" l = None -> build_pecs base (JObj l) = Err InvalidArgument.
Proof.
  intros base l H. unfold build_pecs, make_pecs. cbn [j_contains]. destruct H as [-> | ->]; [reflexivity|]. destruct (lookup "tr_coeffs" l); reflexivity.
Qed.
Theorem C78_built : forall base l a b t d, lookup "tr_coeffs" l = Some a -> lookup "dr_coeffs" l = Some b -> read_matrix a = Val t -> read_matrix b = Val d ->
  build_pecs base (JObj l) = Val {| pe_Tc := red_Tc (mf_red base); pe_vc := red_vc (mf_red base); pe_t := t; pe_d := d |}.
Proof. intros base l a b t d H1 H2 H3 H4. unfold build_pecs, make_pecs. cbn [j_contains j_at]. rewrite H1, H2. cbn [negb bind]. rewrite H3, H4. reflexivity. Qed.
Example C78_met : exists t, read_matrix (jmatrix [[1; 0; 0]; [0; 0; 0]; [0; 0; 0]; [0; 0; 0]; [0; 0; 0]; [0; 0; 0]]) = Val t /\ identity_poly t /\
  two_fluids {| pe_Tc := [300; 400]; pe_vc := [1e-4; 2e-4]; pe_t := t; pe_d := t |}.
Proof.
  destruct (C78_read [[1; 0; 0]; [0; 0; 0]; [0; 0; 0]; [0; 0; 0]; [0; 0; 0]; [0; 0; 0]] 3) as (t & E & Rw & Cl & V); [discriminate|repeat constructor|]. exists t.
  split; [exact E|]. split.
  - split; [split; [rewrite Rw; cbn; lia|lia]|]. cbn [length] in V. split; [rewrite V by lia; reflexivity|]. intros i j Hi Hj N. rewrite V by lia.
    destruct i as [|[|[|[|[|[|i]]]]]], j as [|[|[|j]]]; try reflexivity; try lia. congruence.
  - unfold two_fluids. cbn. lra.
Qed.
Print Assumptions C78_reducing.
Print Assumptions C78_alphar.
Print Assumptions C78_pure.
Print Assumptions C78_Lorentz_Berthelot.
Print Assumptions C78_order_partial.
Print Assumptions C78_order_refuted.
Print Assumptions C78_components.
Print Assumptions C78_read.
Print Assumptions C78_ragged.
Print Assumptions C78_long_row_refuted.
Print Assumptions C78_small_refuted.
Print Assumptions C78_missing.
Print Assumptions C78_built.
