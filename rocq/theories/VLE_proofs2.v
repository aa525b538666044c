(** Lemmas about the vapor-liquid equilibrium solvers: residuals and Jacobians. *)
From Coq Require Import Reals ZArith List Bool Lia Lra.
From Coquelicot Require Import Coquelicot.
From Verif Require Import Json_model Cubic_model Derivs_model Derivs_spec Derivs_proofs Derivs_proofs2 Vec_spec Vec_proofs Iso_model Iso_spec Iso_proofs
  Trace_spec Trace_proofs PhaseEq_model PhaseEq_spec PhaseEq_proofs PhaseEq_proofs2 Float_model VLE_model VLE_spec VLE_proofs.
Import ListNotations.
Open Scope R_scope.

(** ** Finite arithmetic *)
Lemma el_fin : forall v i, (i < length v)%nat -> el (fin v) i = Fin (nth i v 0).
Proof. intros v i H. unfold el, fin. rewrite (nth_indep _ NaN (Fin 0)) by now rewrite map_length. apply map_nth. Qed.
Lemma fin_len : forall v, length (fin v) = length v. Proof. intros. apply map_length. Qed.
Lemma el2_fins : forall M i j, (i < length M)%nat -> (j < length (nth i M []))%nat -> el2 (fins M) i j = Fin (nth j (nth i M []) 0).
Proof.
  intros M i j Hi Hj. unfold el2, fins. rewrite (nth_indep _ [] (fin [])) by now rewrite map_length. rewrite map_nth. now apply el_fin.
Qed.
Lemma fsum_fin : forall v, fsum (fin v) = Fin (vsum v).
Proof. induction v as [|a v IH]; [reflexivity|]. cbn [fin map fsum fold_right vsum]. fold (fin v). unfold fsum in IH. rewrite IH. reflexivity. Qed.
Lemma fdot_fin : forall a b, length a = length b -> fdot (fin a) (fin b) = Fin (vdot a b).
Proof.
  intros a b L. unfold fdot. rewrite zip_map by now rewrite !fin_len. rewrite fin_len.
  rewrite (map_ext_in _ (fun i => Fin (nth i a 0 * nth i b 0))).
  - unfold vdot, each. rewrite <- (fsum_fin (map _ _)). unfold fin. now rewrite map_map.
  - intros i Hi. apply in_seq in Hi. rewrite !el_fin by lia. reflexivity.
Qed.
Lemma fdiv_fin : forall a b, b <> 0 -> fdiv (Fin a) (Fin b) = Fin (a / b).
Proof. intros a b H. cbn [fdiv]. destruct (Req_EM_T b 0); [contradiction|reflexivity]. Qed.
Lemma flog_fin : forall a, 0 < a -> flog (Fin a) = Fin (ln a).
Proof. intros a H. cbn [flog]. destruct (Rlt_dec 0 a); [reflexivity|lra]. Qed.
Lemma fsub_fin : forall a b, fsub (Fin a) (Fin b) = Fin (a - b). Proof. reflexivity. Qed.
Lemma fin_app : forall a b, fin (a ++ b) = fin a ++ fin b. Proof. intros. apply map_app. Qed.
Lemma fin_firstn : forall n v, firstn n (fin v) = fin (firstn n v). Proof. intros. apply firstn_map. Qed.
Lemma fin_skipn : forall n v, skipn n (fin v) = fin (skipn n v). Proof. intros. unfold fin. rewrite <- skipn_map. reflexivity. Qed.

Section Phases.
Variable ad : (list R -> R) -> list nat -> list R -> R.
Hypothesis Had : AD_exact ad.
Variable alphar : R -> R -> list R -> R.
Variable Rgas : list R -> R.
Variable Rg : R.
Hypothesis HR : forall x, Rgas x = Rg.
Hypothesis HR0 : 0 < Rg.
Variable m : eos.
Hypothesis EV : evaluates ad alphar Rgas m.
Notation qgrad := (build_Psir_gradient ad alphar Rgas).
Notation qHess := (build_Psir_Hessian ad alphar Rgas).
Notation qdT := (build_d2PsirdTdrhoi ad alphar Rgas).
Notation qp := (q_p ad alphar Rgas Rg).
Notation qdp := (q_dpdrho ad alphar Rgas Rg).

Lemma grad_len : forall T rho, length (qgrad T rho) = length rho. Proof. intros. apply each_length. Qed.
Lemma dT_len : forall T rho, length (qdT T rho) = length rho. Proof. intros. apply each_length. Qed.
Definition mu (T : R) (rho : list R) (i : nat) : R := nth i (qgrad T rho) 0 + Rg * T * ln (nth i rho 0).
Definition Ht (T : R) (rho : list R) (i j : nat) : R := nth j (nth i (qHess T rho) []) 0 + (if Nat.eqb i j then Rg * T / nth i rho 0 else 0).

Lemma phase_p_fin : forall T rho, phase_p (Fin (Rg * T)) (fin rho) (Fin (get_Psir alphar Rgas T rho)) (fin (qgrad T rho)) = Fin (qp T rho).
Proof.
  intros T rho. unfold phase_p. rewrite fsum_fin, fdot_fin by now rewrite grad_len. cbn [fmul fsub fopp fadd]. f_equal.
  unfold q_p, q_rho, q_Psir, q_grad. ring.
Qed.
Lemma phase_dp_fin : forall T rho i, (i < length rho)%nat -> el (phase_dp (Fin (Rg * T)) (fin rho) (fins (qHess T rho))) i = Fin (qdp T rho i).
Proof.
  intros T rho i Hi. unfold phase_dp, fins. rewrite map_map. unfold el.
  rewrite (nth_indep _ NaN (fadd (Fin (Rg * T)) (fdot (fin []) (fin rho)))) by (rewrite map_length, hessian_len; lia).
  rewrite (map_nth (fun row => fadd (Fin (Rg * T)) (fdot (fin row) (fin rho)))).
  rewrite fdot_fin by now rewrite hessian_row_len. cbn [fadd]. f_equal. unfold q_dpdrho. f_equal.
  rewrite vdot_sumn, hessian_row_len, vsum_each by auto. apply sumn_ext. intros j Hj.
  rewrite Rmult_comm. f_equal. exact (Hess_sym ad alphar Rgas T rho i j Hi Hj).
Qed.
Lemma mu_fin : forall T rho i, (i < length rho)%nat -> 0 < nth i rho 0 ->
  fadd (el (fin (qgrad T rho)) i) (fmul (Fin (Rg * T)) (flog (el (fin rho) i))) = Fin (mu T rho i).
Proof. intros T rho i Hi P. rewrite !el_fin by (rewrite ?grad_len; auto). rewrite flog_fin by auto. reflexivity. Qed.
Lemma hess_fin : forall T rho i j, (i < length rho)%nat -> (j < length rho)%nat -> el2 (fins (qHess T rho)) i j = Fin (nth j (nth i (qHess T rho) []) 0).
Proof. intros. apply el2_fins; [now rewrite hessian_len|now rewrite hessian_row_len]. Qed.
Lemma pos_el : forall v i, positive v -> (i < length v)%nat -> flt (Fin 0) (el (fin v) i) = true.
Proof. intros v i [_ P] Hi. rewrite el_fin by auto. cbn [flt]. specialize (P i Hi). destruct (Rlt_dec 0 (nth i v 0)); [reflexivity|contradiction]. Qed.
Lemma nonzero_pos : forall L V i, positive L -> positive V -> (i < length L)%nat -> (i < length V)%nat -> nonzero (fin L) (fin V) i = true.
Proof. intros. unfold nonzero. now rewrite !pos_el. Qed.
Lemma mu_r_fin : forall T L V i, positive L -> positive V -> (i < length L)%nat -> (i < length V)%nat ->
  mu_r (Fin (Rg * T)) (fin L) (fin V) (fin (qgrad T L)) (fin (qgrad T V)) i = Fin (mu T L i - mu T V i).
Proof.
  intros T L V i PL PV HL HV. unfold mu_r. rewrite nonzero_pos by auto. pose proof (proj2 PL i HL). pose proof (proj2 PV i HV). now rewrite !mu_fin by auto.
Qed.
Lemma mu_diag_fin : forall T L V rho i, positive L -> positive V -> (i < length L)%nat -> (i < length V)%nat -> positive rho -> (i < length rho)%nat ->
  mu_diag (Fin (Rg * T)) (fin L) (fin V) (fin rho) (fins (qHess T rho)) i = Fin (Ht T rho i i).
Proof.
  intros T L V rho i PL PV HL HV Pr Hr. unfold mu_diag. rewrite nonzero_pos, hess_fin, el_fin by auto.
  rewrite fdiv_fin by (apply Rgt_not_eq, Pr; auto). cbn [fadd]. unfold Ht. now rewrite Nat.eqb_refl.
Qed.

(** ** The rows *)
Section State.
Variable T : R.
Variable rho : list R.
Hypothesis HT : 0 < T.
Hypothesis Hpos : positive rho.
Hypothesis Sm : smooth_joint alphar Rgas T rho.
Lemma ders_mu : forall i, (i < length rho)%nat ->
  ders T rho (fun t y => mu t y i) (nth i (qdT T rho) 0 + Rg * ln (nth i rho 0)) (fun j => Ht T rho i j).
Proof.
  intros i Hi. destruct Sm as (G & H & X). pose proof (proj2 Hpos i Hi) as Pi. pose proof (total_pos _ Hpos) as Pt.
  assert (D1 : is_derive ln (nth i rho 0) (/ nth i rho 0)) by (apply is_derive_ln; exact Pi).
  pose proof (ders_comp T rho ln _ (fun _ y => nth i y 0) _ _ D1 (ders_rho T rho i Hi)) as A.
  pose proof (ders_mult T rho _ _ _ _ _ _ (ders_scal T rho Rg _ _ _ (ders_T T rho)) A) as B.
  pose proof (ders_plus T rho _ _ _ _ _ _ (ders_grad ad Had alphar Rgas T rho G H X i Hi) B) as C.
  refine (ders_eq T rho _ _ _ _ _ _ _ C); cbv beta; unfold q_graddT, q_Hess.
  - ring.
  - intros j Hj. unfold Ht. rewrite (Nat.eqb_sym i j). destruct (Nat.eqb j i); field; lra.
Qed.
Lemma ders_qp : ders T rho qp (get_dpdT_constrhovec ad alphar Rgas T rho) (qdp T rho).
Proof.
  destruct Sm as (G & H & X). pose proof (total_pos _ Hpos) as Pt.
  refine (ders_eq T rho _ _ _ _ _ _ _ (ders_p ad Had alphar Rgas Rg HR HR0 T rho HT Pt G H X)); [|auto].
  unfold q_dpdT, get_dpdT_constrhovec, q_rho. rewrite HR. rewrite (qdT_val ad Had alphar Rgas Rg HR HR0 T rho HT Pt G H X).
  now rewrite (dPsirdT_ok ad Had alphar Rgas T rho _ (gradient_head _ _ _ _ (near_self _ _ (tw_grad _ _ _ _ X)))).
Qed.
Lemma qp_val : qp T rho = p_of alphar Rgas T rho.
Proof. destruct Sm as (G & H & X). exact (p_val ad Had alphar Rgas Rg HR HR0 T rho HT (total_pos _ Hpos) G H X). Qed.
Lemma ders_frac : forall i, (i < length rho)%nat -> ders T rho (fun _ y => nth i y 0 / vsum y) 0
  (fun j => (vsum rho * (if Nat.eqb i j then 1 else 0) - nth i rho 0) / (vsum rho * vsum rho)).
Proof.
  intros i Hi. pose proof (total_pos _ Hpos) as Pt. assert (Q : vsum rho <> 0) by (rewrite vsum_total; lra).
  assert (S : ders T rho (fun _ y => vsum y) 0 (fun _ => 1)) by (apply (ders_ext T rho (fun _ y => total y)); [intros; apply vsum_total|apply ders_total]).
  refine (ders_eq T rho _ _ _ _ _ _ _ (ders_mult T rho _ _ _ _ _ _ (ders_rho T rho i Hi) (ders_inv T rho (fun _ y => vsum y) _ _ Q S))); cbv beta.
  - ring.
  - intros j Hj. rewrite (Nat.eqb_sym i j). destruct (Nat.eqb j i); field; auto.
Qed.
End State.
(** equal chemical potentials, equal fugacities *)
Lemma mu_fugacity : forall T L V GL GV i, 0 < T -> positive L -> positive V -> length V = length L -> (i < length L)%nat ->
  gradient_of alphar Rgas T L GL -> gradient_of alphar Rgas T V GV ->
  (mu T L i - mu T V i = 0 <-> fugacity Rg T L GL i = fugacity Rg T V GV i).
Proof.
  intros T L V GL GV i HT PL PV LV Hi A B. assert (Hv : (i < length V)%nat) by lia.
  pose proof (proj2 PL i Hi) as P1. pose proof (proj2 PV i Hv) as P2. pose proof (Rmult_lt_0_compat _ _ HR0 HT) as P3.
  unfold mu. rewrite (gradient_ok ad Had alphar Rgas T L GL i A Hi), (gradient_ok ad Had alphar Rgas T V GV i B Hv).
  assert (E : forall a g, 0 < a -> a * (Rg * T) * exp (g / (Rg * T)) = Rg * T * exp ((g + Rg * T * ln a) / (Rg * T))).
  { intros a g Ha. replace ((g + Rg * T * ln a) / (Rg * T)) with (ln a + g / (Rg * T)) by (field; split; lra).
    rewrite exp_plus, exp_ln by auto. ring. }
  unfold fugacity. rewrite !E by auto. split; intros Q.
  - f_equal. f_equal. f_equal. lra.
  - apply Rmult_eq_reg_l in Q; [|lra]. apply exp_inv in Q. unfold Rdiv in Q. apply Rmult_eq_reg_r in Q; [lra|]. apply Rinv_neq_0_compat. lra.
Qed.
End Phases.

(** ** Assembling a Jacobian from its rows *)
Lemma jac_rows : forall (F : list R -> outcome (list fl)) x (rows : list ((list R -> R) * list R)),
  (forall row, In row rows -> length (snd row) = length x) ->
  F x = ok (fin (map (fun r => fst r x) rows)) ->
  (forall d X, curve x d X -> locally 0 (fun s => F (X s) = ok (fin (map (fun r => fst r (X s)) rows)))) ->
  (forall row, In row rows -> forall d X, curve x d X -> is_derive (fun s => fst row (X s)) 0 (sumn (length x) (fun j => nth j (snd row) 0 * nth j d 0))) ->
  has_jacobian F x (map (fun r => fst r x) rows) (map snd rows).
Proof.
  intros F x rows L E0 EL D. split; [exact E0|]. split; [now rewrite !map_length|]. split.
  - intros row Hr. apply in_map_iff in Hr. destruct Hr as (p & <- & Hp). auto.
  - intros d X C. exists (fun k s => nth k (map (fun r => fst r (X s)) rows) 0). split.
    + eapply filter_imp; [|exact (EL d X C)]. intros s ->. do 2 f_equal. apply list_ext; rewrite !map_length, ?seq_length; [reflexivity|].
      intros k Hk. rewrite (nth_map_seq' (fun k => nth k (map (fun r => fst r (X s)) rows) 0)) by auto. reflexivity.
    + rewrite map_length. intros k Hk. set (r0 := ((fun _ => 0) : list R -> R, @nil R)).
      assert (Q : forall s, nth k (map (fun r => fst r (X s)) rows) 0 = fst (nth k rows r0) (X s)).
      { intros s. rewrite (nth_indep _ 0 (fst r0 (X s))) by now rewrite map_length. apply (map_nth (fun r => fst r (X s))). }
      assert (Q2 : nth k (map snd rows) [] = snd (nth k rows r0)) by exact (map_nth snd rows r0 k).
      rewrite Q2. refine (is_derive_ext _ _ _ _ _ (D (nth k rows r0) (nth_In _ _ Hk) d X C)). intros s. symmetry. apply Q.
Qed.
Lemma nth_firstn : forall (v : list R) n i, (i < n)%nat -> nth i (firstn n v) 0 = nth i v 0.
Proof. induction v as [|a v IH]; intros [|n] [|i] H; simpl; auto; try lia. apply IH. lia. Qed.
Lemma nth_skipn : forall (v : list R) n i, nth i (skipn n v) 0 = nth (n + i) v 0.
Proof. induction v as [|a v IH]; intros [|n] i; simpl; auto. now destruct i. Qed.
(** The two phases along a curve of the stacked concentrations. *)
Lemma split_path : forall T dT tau L V d X N, length L = N -> length V = N -> curve (L ++ V) d X -> tau 0 = T -> is_derive tau 0 dT ->
  path T L dT (firstn N d) tau (fun s => firstn N (X s)) /\ path T V dT (skipn N d) tau (fun s => skipn N (X s)).
Proof.
  intros T dT tau L V d X N LL LV C E D. pose proof (cv_0 _ _ _ C) as C0. pose proof (cv_len _ _ _ C) as CL.
  assert (Ln : length (L ++ V) = (N + N)%nat) by (rewrite app_length; lia).
  split; constructor; auto.
  - rewrite C0. rewrite <- LL. rewrite firstn_app, Nat.sub_diag, firstn_all, firstn_O. apply app_nil_r.
  - intros s. rewrite firstn_length, CL, Ln. lia.
  - intros i Hi. rewrite nth_firstn by lia. refine (is_derive_ext _ _ _ _ _ (cv_d _ _ _ C i ltac:(lia))). intros s. symmetry. apply nth_firstn. lia.
  - rewrite C0. rewrite <- LL. rewrite skipn_app, Nat.sub_diag, skipn_all, skipn_O. reflexivity.
  - intros s. rewrite skipn_length, CL, Ln. lia.
  - intros i Hi. rewrite nth_skipn. refine (is_derive_ext _ _ _ _ _ (cv_d _ _ _ C (N + i)%nat ltac:(lia))). intros s. symmetry. apply nth_skipn.
Qed.
Lemma path_positive : forall T rho dT d tau c, path T rho dT d tau c -> positive rho -> locally 0 (fun s => positive (c s)).
Proof.
  intros T rho dT d tau c P [H1 H2].
  assert (N : near rho (fun y => forall i, (i < length y)%nat -> 0 < nth i y 0)) by (apply near_pos; auto).
  eapply filter_imp; [|apply (near_curve _ _ c 0 N)].
  - intros s Hs. split; [rewrite (path_len _ _ _ _ _ _ P); auto|exact Hs].
  - apply (path_rho _ _ _ _ _ _ P).
  - apply (path_len _ _ _ _ _ _ P).
  - intros i Hi. eexists. apply (path_drho _ _ _ _ _ _ P i Hi).
Qed.
Lemma ders_opp : forall T rho f fT fr, ders T rho f fT fr -> ders T rho (fun t y => - f t y) (- fT) (fun i => - fr i).
Proof.
  intros T rho f fT fr D. refine (ders_eq T rho _ _ _ _ _ _ _ (ders_ext T rho _ _ _ _ _ (ders_scal T rho (-1) _ _ _ D))).
  - ring.
  - intros; ring.
  - intros; ring.
Qed.
Lemma rowdot2 : forall N (a b : nat -> R) d,
  sumn (N + N) (fun j => nth j (map a (seq 0 N) ++ map b (seq 0 N)) 0 * nth j d 0) =
  sumn N (fun i => a i * nth i (firstn N d) 0) + sumn N (fun i => b i * nth i (skipn N d) 0).
Proof.
  intros N a b d. rewrite sumn_app. f_equal; apply sumn_ext; intros i Hi.
  - rewrite app_nth1 by (rewrite map_length, seq_length; auto). now rewrite nth_map_seq', nth_firstn.
  - rewrite app_nth2 by (rewrite map_length, seq_length; lia). rewrite map_length, seq_length. replace (N + i - N)%nat with i by lia.
    now rewrite nth_map_seq', nth_skipn.
Qed.
Lemma two_ders : forall T dT tau L V d X N f g fT fr gT gr, length L = N -> length V = N -> curve (L ++ V) d X -> tau 0 = T -> is_derive tau 0 dT ->
  ders T L f fT fr -> ders T V g gT gr ->
  is_derive (fun s => f (tau s) (firstn N (X s)) + g (tau s) (skipn N (X s))) 0
    (dT * (fT + gT) + sumn (N + N) (fun j => nth j (map fr (seq 0 N) ++ map gr (seq 0 N)) 0 * nth j d 0)).
Proof.
  intros T dT tau L V d X N f g fT fr gT gr LL LV C E D A B. destruct (split_path T dT tau L V d X N LL LV C E D) as [P1 P2].
  specialize (A _ _ _ _ P1). specialize (B _ _ _ _ P2). rewrite rowdot2. rewrite LL in A. rewrite LV in B.
  eapply is_derive_eq; [|exact (is_derive_plus' _ _ _ _ _ A B)]. ring.
Qed.
Lemma two_const : forall T L V d X N f g fT fr gT gr, length L = N -> length V = N -> curve (L ++ V) d X ->
  ders T L f fT fr -> ders T V g gT gr ->
  is_derive (fun s => f T (firstn N (X s)) + g T (skipn N (X s))) 0
    (sumn (N + N) (fun j => nth j (map fr (seq 0 N) ++ map gr (seq 0 N)) 0 * nth j d 0)).
Proof.
  intros T L V d X N f g fT fr gT gr LL LV C A B.
  eapply is_derive_eq; [|exact (two_ders T 0 (fun _ => T) L V d X N f g fT fr gT gr LL LV C eq_refl (is_derive_cst T 0) A B)]. ring.
Qed.
Lemma split_app : forall (L V : list R), firstn (length L) (L ++ V) = L /\ skipn (length L) (L ++ V) = V.
Proof.
  intros. split; [rewrite firstn_app, Nat.sub_diag, firstn_all, firstn_O; apply app_nil_r|rewrite skipn_app, Nat.sub_diag, skipn_all; reflexivity].
Qed.

Section Binary.
Variable ad : (list R -> R) -> list nat -> list R -> R.
Hypothesis Had : AD_exact ad.
Variable alphar : R -> R -> list R -> R.
Variable Rgas : list R -> R.
Variable Rg : R.
Hypothesis HR : forall x, Rgas x = Rg.
Hypothesis HR0 : 0 < Rg.
Variable m : eos.
Hypothesis EV : evaluates ad alphar Rgas m.
Notation qp := (q_p ad alphar Rgas Rg).
Notation qdp := (q_dpdrho ad alphar Rgas Rg).
Notation Mu := (mu ad alphar Rgas Rg).
Notation HT' := (Ht ad alphar Rgas Rg).
Variable T : R.
Hypothesis HT : 0 < T.
Definition dx0 (L : list R) (j : nat) : R := (vsum L * (if Nat.eqb 0 j then 1 else 0) - nth 0 L 0) / (vsum L * vsum L).
Definition tx_r (x0 : R) (L V : list R) : list R := [Mu T L 0 + - Mu T V 0; Mu T L 1 + - Mu T V 1; qp T L + - qp T V; nth 0 L 0 / vsum L + - x0].
Definition tx_J (L V : list R) : list (list R) :=
  [ map (HT' T L 0) (seq 0 2) ++ map (fun j => - HT' T V 0 j) (seq 0 2); map (HT' T L 1) (seq 0 2) ++ map (fun j => - HT' T V 1 j) (seq 0 2);
    map (qdp T L) (seq 0 2) ++ map (fun j => - qdp T V j) (seq 0 2); map (dx0 L) (seq 0 2) ++ map (fun _ => 0) (seq 0 2) ].
Lemma mu_rows_fin : forall L V, length L = 2%nat -> length V = 2%nat -> positive L -> positive V ->
  mu_rows (Fin (Rg * T)) (fin L) (fin V) (fins (build_Psir_Hessian ad alphar Rgas T L)) (fins (build_Psir_Hessian ad alphar Rgas T V)) =
  fins [ map (HT' T L 0) (seq 0 2) ++ map (fun j => - HT' T V 0 j) (seq 0 2); map (HT' T L 1) (seq 0 2) ++ map (fun j => - HT' T V 1 j) (seq 0 2) ].
Proof.
  intros L V LL LV PL PV. unfold mu_rows.
  rewrite !(mu_diag_fin ad alphar Rgas Rg T L V) by (auto; lia). rewrite !hess_fin by lia.
  cbn [fins map fin seq app fopp]. unfold Ht. cbn [Nat.eqb]. now rewrite !Rplus_0_r.
Qed.
Lemma tx_fin : forall xspec L V, length L = 2%nat -> length V = 2%nat -> positive L -> positive V -> (1 <= length xspec)%nat ->
  tx_assemble m (Fin T) (Fin (Rg * T)) (fin xspec) (fin (L ++ V)) = ok (fin (tx_r (nth 0 xspec 0) L V), fins (tx_J L V)).
Proof.
  intros xspec L V LL LV PL PV Lx. unfold tx_assemble. destruct (split_app L V) as [S1 S2]. rewrite LL in S1, S2.
  rewrite fin_firstn, fin_skipn, S1, S2. pose proof (total_pos _ PL) as TL. pose proof (total_pos _ PV) as TV.
  rewrite (ev_fgh _ _ _ _ EV T L HT TL). cbn [obind ok]. rewrite (ev_fgh _ _ _ _ EV T V HT TV). cbn [obind ok].
  rewrite mu_rows_fin by auto. rewrite !(mu_r_fin ad alphar Rgas Rg T L V) by (auto; lia). rewrite !phase_p_fin, !phase_dp_fin by lia.
  rewrite !fsum_fin, !el_fin by lia. assert (Q : vsum L <> 0) by (rewrite vsum_total; lra).
  cbn [fmul fsub fopp fadd]. rewrite !fdiv_fin by (auto using Rmult_integral_contrapositive_currified).
  cbn [fsub fadd fopp]. unfold tx_r, tx_J. cbn [fins map fin seq app]. unfold dx0. cbn [Nat.eqb].
  unfold ok. do 3 f_equal. f_equal. f_equal. f_equal. rewrite Rmult_1_r, Rmult_0_r, Rminus_0_l. reflexivity.
Qed.
Definition tp_r (p : R) (L V : list R) : list R := [Mu T L 0 + - Mu T V 0; Mu T L 1 + - Mu T V 1; (qp T V + - p) / p; (qp T L + - p) / p].
Definition tp_J (p : R) (L V : list R) : list (list R) :=
  [ map (HT' T L 0) (seq 0 2) ++ map (fun j => - HT' T V 0 j) (seq 0 2); map (HT' T L 1) (seq 0 2) ++ map (fun j => - HT' T V 1 j) (seq 0 2);
    map (fun _ => 0) (seq 0 2) ++ map (fun j => qdp T V j / p) (seq 0 2); map (fun j => qdp T L j / p) (seq 0 2) ++ map (fun _ => 0) (seq 0 2) ].
Lemma tp_RT_fin : forall L, 0 < total L -> tp_RT m (Fin T) (fin L) = Fin (Rg * T).
Proof.
  intros L H. unfold tp_RT. rewrite fsum_fin. assert (Q : vsum L <> 0) by (rewrite vsum_total; lra).
  replace (map (fun r => fdiv r (Fin (vsum L))) (fin L)) with (fin (map (fun r => r / vsum L) L)).
  - rewrite (ev_R _ _ _ _ EV), HR. reflexivity.
  - unfold fin. rewrite !map_map. apply map_ext. intros r. now rewrite fdiv_fin.
Qed.
Lemma tp_fin : forall p L V, p <> 0 -> length L = 2%nat -> length V = 2%nat -> positive L -> positive V ->
  tp_residual m (Fin T) (Fin p) (fin (L ++ V)) = ok (fin (tp_r p L V)) /\ tp_jacobian m (Fin T) (Fin p) (fin (L ++ V)) = ok (fins (tp_J p L V)).
Proof.
  intros p L V Hp LL LV PL PV. unfold tp_residual, tp_jacobian. destruct (split_app L V) as [S1 S2]. rewrite LL in S1, S2.
  rewrite fin_firstn, fin_skipn, S1, S2. pose proof (total_pos _ PL) as TL. pose proof (total_pos _ PV) as TV.
  rewrite (ev_fgh _ _ _ _ EV T L HT TL). cbn [obind ok]. rewrite (ev_fgh _ _ _ _ EV T V HT TV). cbn [obind ok].
  rewrite tp_RT_fin by auto.
  rewrite mu_rows_fin by auto. rewrite !(mu_r_fin ad alphar Rgas Rg T L V) by (auto; lia). rewrite !phase_p_fin, !phase_dp_fin by lia.
  cbn [fsub fopp fadd]. rewrite !fdiv_fin by auto. split; reflexivity.
Qed.

Definition tx_rows (x0 : R) (L V : list R) : list ((list R -> R) * list R) :=
  [ (fun y => Mu T (firstn 2 y) 0 + - Mu T (skipn 2 y) 0, nth 0 (tx_J L V) []); (fun y => Mu T (firstn 2 y) 1 + - Mu T (skipn 2 y) 1, nth 1 (tx_J L V) []);
    (fun y => qp T (firstn 2 y) + - qp T (skipn 2 y), nth 2 (tx_J L V) []); (fun y => nth 0 (firstn 2 y) 0 / vsum (firstn 2 y) + - x0, nth 3 (tx_J L V) []) ].
Lemma near_binary : forall L V d X, length L = 2%nat -> length V = 2%nat -> positive L -> positive V -> curve (L ++ V) d X ->
  locally 0 (fun s => positive (firstn 2 (X s)) /\ positive (skipn 2 (X s)) /\ length (firstn 2 (X s)) = 2%nat /\ length (skipn 2 (X s)) = 2%nat).
Proof.
  intros L V d X LL LV PL PV C. destruct (split_path T 0 (fun _ => T) L V d X 2 LL LV C eq_refl (is_derive_cst T 0)) as [P1 P2].
  eapply filter_imp; [|apply (filter_and _ _ (path_positive _ _ _ _ _ _ P1 PL) (path_positive _ _ _ _ _ _ P2 PV))].
  intros s [A B]. split; [exact A|]. split; [exact B|]. rewrite (path_len _ _ _ _ _ _ P1), (path_len _ _ _ _ _ _ P2). auto.
Qed.
Lemma tx_jac : forall xspec L V, length L = 2%nat -> length V = 2%nat -> positive L -> positive V -> (1 <= length xspec)%nat ->
  smooth_joint alphar Rgas T L -> smooth_joint alphar Rgas T V ->
  has_jacobian (fun y => obind (tx_assemble m (Fin T) (Fin (Rg * T)) (fin xspec) (fin y)) (fun p => ok (fst p))) (L ++ V)
    (tx_r (nth 0 xspec 0) L V) (tx_J L V).
Proof.
  intros xspec L V LL LV PL PV Lx SL SV. destruct (split_app L V) as [S1 S2]. rewrite LL in S1, S2.
  assert (L4 : length (L ++ V) = 4%nat) by (rewrite app_length; lia).
  assert (E : tx_r (nth 0 xspec 0) L V = map (fun r => fst r (L ++ V)) (tx_rows (nth 0 xspec 0) L V)).
  { unfold tx_rows. cbn [map fst]. rewrite S1, S2. reflexivity. }
  rewrite E. change (tx_J L V) with (map snd (tx_rows (nth 0 xspec 0) L V)). apply jac_rows.
  - intros row Hr. rewrite L4. unfold tx_rows in Hr. cbn [In] in Hr. repeat destruct Hr as [<-|Hr]; try reflexivity. destruct Hr.
  - rewrite tx_fin by auto. cbn [obind ok fst]. now rewrite E.
  - intros d X C. eapply filter_imp; [|exact (near_binary L V d X LL LV PL PV C)]. intros s (A & B & LA & LB).
    rewrite <- (firstn_skipn 2 (X s)) at 1. rewrite tx_fin by auto. reflexivity.
  - intros row Hr d X C. rewrite L4. unfold tx_rows in Hr. cbn [In] in Hr.
    assert (H0 : (0 < length L)%nat) by lia. assert (H0' : (0 < length V)%nat) by lia.
    assert (H1 : (1 < length L)%nat) by lia. assert (H1' : (1 < length V)%nat) by lia.
    destruct Hr as [<-|[<-|[<-|[<-|[]]]]]; cbn [fst snd tx_J nth].
    + exact (two_const T L V d X 2 _ _ _ _ _ _ LL LV C (ders_mu ad Had alphar Rgas Rg T L PL SL 0 H0)
        (ders_opp _ _ _ _ _ (ders_mu ad Had alphar Rgas Rg T V PV SV 0 H0'))).
    + exact (two_const T L V d X 2 _ _ _ _ _ _ LL LV C (ders_mu ad Had alphar Rgas Rg T L PL SL 1 H1)
        (ders_opp _ _ _ _ _ (ders_mu ad Had alphar Rgas Rg T V PV SV 1 H1'))).
    + exact (two_const T L V d X 2 _ _ _ _ _ _ LL LV C (ders_qp ad Had alphar Rgas Rg HR HR0 T L HT PL SL)
        (ders_opp _ _ _ _ _ (ders_qp ad Had alphar Rgas Rg HR HR0 T V HT PV SV))).
    + exact (two_const T L V d X 2 _ (fun _ _ => - nth 0 xspec 0) _ _ _ _ LL LV C (ders_frac T L PL 0 H0) (ders_cst T V _)).
Qed.
Definition tp_rows (p : R) (L V : list R) : list ((list R -> R) * list R) :=
  [ (fun y => Mu T (firstn 2 y) 0 + - Mu T (skipn 2 y) 0, nth 0 (tp_J p L V) []); (fun y => Mu T (firstn 2 y) 1 + - Mu T (skipn 2 y) 1, nth 1 (tp_J p L V) []);
    (fun y => (qp T (skipn 2 y) + - p) / p, nth 2 (tp_J p L V) []); (fun y => (qp T (firstn 2 y) + - p) / p, nth 3 (tp_J p L V) []) ].
Lemma ders_rel : forall rho p f fT fr, p <> 0 -> ders T rho f fT fr -> ders T rho (fun t y => (f t y + - p) / p) (fT / p) (fun j => fr j / p).
Proof.
  intros rho p f fT fr Hp D.
  refine (ders_eq T rho _ _ _ _ _ _ _ (ders_ext T rho _ _ _ _ _ (ders_scal T rho (/ p) _ _ _ (ders_plus T rho _ _ _ _ _ _ D (ders_cst T rho (- p)))))); cbv beta.
  - field; auto.
  - intros; field; auto.
  - intros; field; auto.
Qed.
Lemma tp_jac : forall p L V, p <> 0 -> length L = 2%nat -> length V = 2%nat -> positive L -> positive V ->
  smooth_joint alphar Rgas T L -> smooth_joint alphar Rgas T V ->
  has_jacobian (fun y => tp_residual m (Fin T) (Fin p) (fin y)) (L ++ V) (tp_r p L V) (tp_J p L V).
Proof.
  intros p L V Hp LL LV PL PV SL SV. destruct (split_app L V) as [S1 S2]. rewrite LL in S1, S2.
  assert (L4 : length (L ++ V) = 4%nat) by (rewrite app_length; lia).
  assert (E : tp_r p L V = map (fun r => fst r (L ++ V)) (tp_rows p L V)).
  { unfold tp_rows. cbn [map fst]. rewrite S1, S2. reflexivity. }
  rewrite E. change (tp_J p L V) with (map snd (tp_rows p L V)). apply jac_rows.
  - intros row Hr. rewrite L4. unfold tp_rows in Hr. cbn [In] in Hr. repeat destruct Hr as [<-|Hr]; try reflexivity. destruct Hr.
  - rewrite (proj1 (tp_fin p L V Hp LL LV PL PV)). now rewrite E.
  - intros d X C. eapply filter_imp; [|exact (near_binary L V d X LL LV PL PV C)]. intros s (A & B & LA & LB).
    rewrite <- (firstn_skipn 2 (X s)) at 1. rewrite (proj1 (tp_fin p _ _ Hp LA LB A B)). reflexivity.
  - intros row Hr d X C. rewrite L4. unfold tp_rows in Hr. cbn [In] in Hr.
    assert (H0 : (0 < length L)%nat) by lia. assert (H0' : (0 < length V)%nat) by lia.
    assert (H1 : (1 < length L)%nat) by lia. assert (H1' : (1 < length V)%nat) by lia.
    destruct Hr as [<-|[<-|[<-|[<-|[]]]]]; cbn [fst snd tp_J nth].
    + exact (two_const T L V d X 2 _ _ _ _ _ _ LL LV C (ders_mu ad Had alphar Rgas Rg T L PL SL 0 H0)
        (ders_opp _ _ _ _ _ (ders_mu ad Had alphar Rgas Rg T V PV SV 0 H0'))).
    + exact (two_const T L V d X 2 _ _ _ _ _ _ LL LV C (ders_mu ad Had alphar Rgas Rg T L PL SL 1 H1)
        (ders_opp _ _ _ _ _ (ders_mu ad Had alphar Rgas Rg T V PV SV 1 H1'))).
    + refine (is_derive_ext _ _ _ _ _ (two_const T L V d X 2 (fun _ _ => 0) _ _ _ _ _ LL LV C (ders_cst T L 0)
        (ders_rel V p _ _ _ Hp (ders_qp ad Had alphar Rgas Rg HR HR0 T V HT PV SV)))). intros s. cbv beta. apply Rplus_0_l.
    + refine (is_derive_ext _ _ _ _ _ (two_const T L V d X 2 _ (fun _ _ => 0) _ _ _ _ LL LV C
        (ders_rel L p _ _ _ Hp (ders_qp ad Had alphar Rgas Rg HR HR0 T L HT PL SL)) (ders_cst T V 0))). intros s. cbv beta. apply Rplus_0_r.
Qed.
End Binary.
