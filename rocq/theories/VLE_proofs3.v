(** Lemmas about [mixture_VLE_px]: residual, Jacobian, iteration. *)
From Coq Require Import Reals ZArith List Bool Lia Lra.
From Coquelicot Require Import Coquelicot.
From Verif Require Import Json_model Cubic_model Derivs_model Derivs_spec Derivs_proofs Derivs_proofs2 Vec_spec Vec_proofs Iso_model Iso_spec Iso_proofs
  Trace_spec Trace_proofs PhaseEq_model PhaseEq_spec PhaseEq_proofs PhaseEq_proofs2 Float_model VLE_model VLE_spec VLE_proofs VLE_proofs2.
Import ListNotations.
Open Scope R_scope.

Section Px.
Variable ad : (list R -> R) -> list nat -> list R -> R.
Hypothesis Had : AD_exact ad.
Variable alphar : R -> R -> list R -> R.
Variable Rgas : list R -> R.
Variable Rg : R.
Hypothesis HR : forall x, Rgas x = Rg.
Hypothesis HR0 : 0 < Rg.
Variable m : eos.
Hypothesis EV : evaluates ad alphar Rgas m.
Notation qp := (q_p ad alphar Rgas Rg).
Notation qdp := (q_dpdrho ad alphar Rgas Rg).
Notation Mu := (mu ad alphar Rgas Rg).
Notation HT' := (Ht ad alphar Rgas Rg).
Notation qdT := (build_d2PsirdTdrhoi ad alphar Rgas).
Notation dpdT := (get_dpdT_constrhovec ad alphar Rgas).
Variables (p : R) (xspec : list R).
Hypothesis Hp : p <> 0.
Notation N := (length xspec).

Definition px_row_mu (T : R) (L V : list R) (i : nat) : list R :=
  (nth i (qdT T L) 0 + - nth i (qdT T V) 0 + Rg * ln (nth i L 0 / nth i V 0)) :: map (HT' T L i) (seq 0 N) ++ map (fun j => - HT' T V i j) (seq 0 N).
Definition px_row_pL (T : R) (L : list R) : list R := dpdT T L / p :: map (fun j => qdp T L j / p) (seq 0 N) ++ map (fun _ => 0) (seq 0 N).
Definition px_row_pV (T : R) (V : list R) : list R := dpdT T V / p :: map (fun _ => 0) (seq 0 N) ++ map (fun j => qdp T V j / p) (seq 0 N).
Definition px_row_x (L : list R) (i : nat) : list R :=
  0 :: map (fun j => (vsum L * (if Nat.eqb i j then 1 else 0) - nth i L 0) / (vsum L * vsum L)) (seq 0 N) ++ map (fun _ => 0) (seq 0 N).
Definition px_rows (T : R) (L V : list R) : list ((R -> list R -> list R -> R) * list R) :=
  map (fun i => (fun t l v => Mu t l i + - Mu t v i, px_row_mu T L V i)) (seq 0 N) ++
  [ (fun t l v => qp t l / p + - (1), px_row_pL T L); (fun t l v => qp t v / p + - (1), px_row_pV T V) ] ++
  map (fun i => (fun t l v => nth i l 0 / vsum l + - nth i xspec 0, px_row_x L i)) (seq 0 (N - 1)).

Lemma fins_app : forall a b, fins (a ++ b) = fins a ++ fins b. Proof. intros. apply map_app. Qed.
Lemma fin_row : forall a f g, fin (a :: map f (seq 0 N) ++ map g (seq 0 N)) =
  Fin a :: map (fun j => Fin (f j)) (seq 0 N) ++ map (fun j => Fin (g j)) (seq 0 N).
Proof. intros. cbn [fin map]. fold (fin (map f (seq 0 N) ++ map g (seq 0 N))). rewrite fin_app. unfold fin. now rewrite !map_map. Qed.
Lemma row_eq : forall (a b : fl) (f f' g g' : nat -> fl), a = b -> (forall j, (j < N)%nat -> f j = f' j) -> (forall j, (j < N)%nat -> g j = g' j) ->
  a :: map f (seq 0 N) ++ map g (seq 0 N) = b :: map f' (seq 0 N) ++ map g' (seq 0 N).
Proof.
  intros a b f f' g g' -> F G. f_equal. f_equal; apply map_ext_in; intros j Hj; apply in_seq in Hj; auto with arith.
  - apply F. lia.
  - apply G. lia.
Qed.
Lemma ln_quot : forall a b, 0 < a -> 0 < b -> ln (a / b) = ln a - ln b.
Proof. intros a b Ha Hb. unfold Rdiv. rewrite ln_mult by (auto; now apply Rinv_0_lt_compat). rewrite ln_Rinv by auto. ring. Qed.
Lemma fin_map : forall (f : nat -> R) l, fin (map f l) = map (fun i => Fin (f i)) l. Proof. intros. apply map_map. Qed.
Lemma fins_map : forall (f : nat -> list R) l, fins (map f l) = map (fun i => fin (f i)) l. Proof. intros. apply map_map. Qed.
Lemma px_fin : forall T L V, 0 < T -> length L = N -> length V = N -> positive L -> positive V ->
  px_assemble m (Fin p) (fin xspec) (Fin T) (fin (L ++ V)) =
  ok (fin (map (fun r => fst r T L V) (px_rows T L V)), fins (map snd (px_rows T L V))).
Proof.
  intros T L V HT LL LV PL PV. unfold px_assemble. rewrite fin_len. destruct (split_app L V) as [S1 S2]. rewrite LL in S1, S2.
  rewrite fin_firstn, fin_skipn, S1, S2. pose proof (total_pos _ PL) as TL. pose proof (total_pos _ PV) as TV.
  rewrite (ev_R _ _ _ _ EV), HR. change (fmul (Fin Rg) (Fin T)) with (Fin (Rg * T)).
  rewrite (ev_fgh _ _ _ _ EV T L HT TL). cbn [obind ok]. rewrite (ev_fgh _ _ _ _ EV T V HT TV). cbn [obind ok].
  rewrite (ev_d2 _ _ _ _ EV T L HT TL). cbn [obind ok]. rewrite (ev_d2 _ _ _ _ EV T V HT TV). cbn [obind ok].
  rewrite (ev_dpdT _ _ _ _ EV T L HT TL). cbn [obind ok]. rewrite (ev_dpdT _ _ _ _ EV T V HT TV). cbn [obind ok].
  assert (Q : vsum L <> 0) by (rewrite vsum_total; lra).
  assert (QQ : vsum L * vsum L <> 0) by (auto using Rmult_integral_contrapositive_currified).
  rewrite !phase_p_fin, fsum_fin, !fdiv_fin by auto. change (fmul (Fin (vsum L)) (Fin (vsum L))) with (Fin (vsum L * vsum L)). unfold each_i. rewrite !fin_len.
  unfold px_rows. rewrite !map_app, fin_app, fins_app, !map_map. cbn [fst snd map]. unfold ok. do 2 f_equal. f_equal.
  - f_equal; [|rewrite fin_app; f_equal].
    + rewrite fin_map. apply map_ext_in. intros i Hi. apply in_seq in Hi.
      pose proof (proj2 PL i ltac:(lia)). pose proof (proj2 PV i ltac:(lia)). now rewrite !mu_fin by (auto; lia).
    + rewrite fin_map. apply map_ext_in. intros i Hi. apply in_seq in Hi. rewrite !el_fin by lia. rewrite fdiv_fin by auto. reflexivity.
  - assert (HI : forall rho i j, length rho = N -> positive rho -> (i < N)%nat -> (j < N)%nat ->
      fadd (el2 (fins (build_Psir_Hessian ad alphar Rgas T rho)) i j) (if Nat.eqb i j then fdiv (Fin (Rg * T)) (el (fin rho) i) else Fin 0) = Fin (HT' T rho i j)).
    { intros rho i j Lr Pr Hi Hj. rewrite hess_fin, el_fin by lia. unfold Ht. destruct (Nat.eqb i j); [|reflexivity].
      rewrite fdiv_fin by (apply Rgt_not_eq, Pr; lia). reflexivity. }
    f_equal; [|rewrite fins_app; f_equal; [cbn [fins map]; f_equal; [|f_equal]|]].
    + rewrite fins_map. apply map_ext_in. intros i Hi. apply in_seq in Hi. unfold px_row_mu. rewrite fin_row. apply row_eq.
      * rewrite !el_fin by (rewrite ?dT_len; lia). pose proof (proj2 PL i ltac:(lia)) as P1. pose proof (proj2 PV i ltac:(lia)) as P2.
        rewrite fdiv_fin by lra. rewrite flog_fin by (unfold Rdiv; apply Rmult_lt_0_compat; [auto|now apply Rinv_0_lt_compat]). reflexivity.
      * intros j Hj. rewrite HI by (auto; lia). reflexivity.
      * intros j Hj. rewrite HI by (auto; lia). reflexivity.
    + unfold px_row_pL. rewrite fin_row. apply row_eq; auto. intros j Hj. rewrite phase_dp_fin by lia. now rewrite fdiv_fin.
    + unfold px_row_pV. rewrite fin_row. apply row_eq; auto. intros j Hj. rewrite phase_dp_fin by lia. now rewrite fdiv_fin.
    + rewrite fins_map. apply map_ext_in. intros i Hi. apply in_seq in Hi. unfold px_row_x. rewrite fin_row. apply row_eq; auto.
      intros j Hj. rewrite el_fin by lia. unfold delta. destruct (Nat.eqb i j); cbn [fmul fsub fadd fopp]; rewrite fdiv_fin by auto; reflexivity.
Qed.

Lemma ders_rel1 : forall T rho f fT fr, ders T rho f fT fr -> ders T rho (fun t y => f t y / p + - (1)) (fT / p) (fun j => fr j / p).
Proof.
  intros T rho f fT fr D.
  refine (ders_eq T rho _ _ _ _ _ _ _ (ders_ext T rho _ _ _ _ _ (ders_plus T rho _ _ _ _ _ _ (ders_scal T rho (/ p) _ _ _ D) (ders_cst T rho (- (1)))))); cbv beta.
  - field; auto.
  - intros; field; auto.
  - intros; field; auto.
Qed.
Lemma curve_tl : forall T x d X, curve (T :: x) d X -> curve x (tl d) (fun s => tl (X s)) /\ hd 0 (X 0) = T /\ is_derive (fun s => hd 0 (X s)) 0 (nth 0 d 0).
Proof.
  intros T x d X [C0 CL CD]. split; [constructor|split].
  - now rewrite C0.
  - intros s. specialize (CL s). destruct (X s); [discriminate|]. now injection CL.
  - intros j Hj. rewrite nth_tl. refine (is_derive_ext _ _ _ _ _ (CD (S j) ltac:(simpl; lia))). intros s. symmetry. apply nth_tl.
  - now rewrite C0.
  - refine (is_derive_ext _ _ _ _ _ (CD 0%nat ltac:(simpl; lia))). intros s. now destruct (X s).
Qed.
Definition px_F (y : list R) : outcome (list fl) :=
  obind (px_assemble m (Fin p) (fin xspec) (Fin (hd 0 y)) (fin (tl y))) (fun q => ok (fst q)).
Lemma px_jac : forall T L V, 0 < T -> length L = N -> length V = N -> positive L -> positive V ->
  smooth_joint alphar Rgas T L -> smooth_joint alphar Rgas T V ->
  has_jacobian px_F (T :: L ++ V) (map (fun r => fst r T L V) (px_rows T L V)) (map snd (px_rows T L V)).
Proof.
  intros T L V HT LL LV PL PV SL SV. destruct (split_app L V) as [S1 S2]. rewrite LL in S1, S2.
  set (rows := map (fun r => (fun y => fst r (hd 0 y) (firstn N (tl y)) (skipn N (tl y)), snd r)) (px_rows T L V)).
  assert (E : map (fun r => fst r T L V) (px_rows T L V) = map (fun r => fst r (T :: L ++ V)) rows).
  { unfold rows. rewrite map_map. cbn [fst hd tl]. now rewrite S1, S2. }
  assert (E2 : map snd (px_rows T L V) = map snd rows) by (unfold rows; now rewrite map_map).
  assert (Ln : length (T :: L ++ V) = S (N + N)) by (cbn [length]; rewrite app_length; lia).
  rewrite E, E2. apply jac_rows.
  - intros row Hr. unfold rows in Hr. apply in_map_iff in Hr. destruct Hr as (r & <- & Hr). cbn [snd]. rewrite Ln. unfold px_rows in Hr.
    rewrite !in_app_iff in Hr. destruct Hr as [Hr|[[<-|[<-|[]]]|Hr]].
    + apply in_map_iff in Hr. destruct Hr as (i & <- & _). cbn [snd]. unfold px_row_mu. cbn [length]. now rewrite app_length, !map_length, seq_length.
    + cbn [snd]. unfold px_row_pL. cbn [length]. now rewrite app_length, !map_length, seq_length.
    + cbn [snd]. unfold px_row_pV. cbn [length]. now rewrite app_length, !map_length, seq_length.
    + apply in_map_iff in Hr. destruct Hr as (i & <- & _). cbn [snd]. unfold px_row_x. cbn [length]. now rewrite app_length, !map_length, seq_length.
  - unfold px_F. cbn [hd tl]. rewrite px_fin by auto. cbn [obind ok fst]. now rewrite E.
  - intros d X C. destruct (curve_tl T (L ++ V) d X C) as (C' & H0 & D0).
    destruct (split_path T (nth 0 d 0) (fun s => hd 0 (X s)) L V (tl d) _ N LL LV C' H0 D0) as [P1 P2].
    assert (LT : locally 0 (fun s => 0 < hd 0 (X s))) by (apply (locally_pos_c _ 0 _ D0); rewrite H0; exact HT).
    eapply filter_imp; [|apply (filter_and _ _ LT (filter_and _ _ (path_positive _ _ _ _ _ _ P1 PL) (path_positive _ _ _ _ _ _ P2 PV)))].
    intros s (Ts & A & B). unfold px_F. rewrite <- (firstn_skipn N (tl (X s))) at 1.
    pose proof (path_len _ _ _ _ _ _ P1 s) as L1. pose proof (path_len _ _ _ _ _ _ P2 s) as L2. rewrite LL in L1. rewrite LV in L2.
    rewrite px_fin by auto. cbn [obind ok fst]. unfold rows. rewrite map_map. cbn [fst]. unfold px_rows. rewrite !map_app, !map_map. reflexivity.
  - intros row Hr d X C. destruct (curve_tl T (L ++ V) d X C) as (C' & H0 & D0). rewrite Ln.
    pose proof (fun f g fT fr gT gr => two_ders T (nth 0 d 0) (fun s => hd 0 (X s)) L V (tl d) _ N f g fT fr gT gr LL LV C' H0 D0) as TD.
    assert (RD : forall a f g, sumn (S (N + N)) (fun j => nth j (a :: map f (seq 0 N) ++ map g (seq 0 N)) 0 * nth j d 0) =
       nth 0 d 0 * a + sumn (N + N) (fun j => nth j (map f (seq 0 N) ++ map g (seq 0 N)) 0 * nth j (tl d) 0)).
    { intros a f g. rewrite sumn_S_l. cbn [nth]. rewrite (Rmult_comm a). f_equal. apply sumn_ext. intros j Hj. now rewrite nth_tl. }
    unfold rows in Hr. apply in_map_iff in Hr. destruct Hr as (r & <- & Hr). cbn [fst snd]. unfold px_rows in Hr.
    rewrite !in_app_iff in Hr. destruct Hr as [Hr|[[<-|[<-|[]]]|Hr]]; [apply in_map_iff in Hr; destruct Hr as (i & <- & Hi); apply in_seq in Hi| | |apply in_map_iff in Hr; destruct Hr as (i & <- & Hi); apply in_seq in Hi]; cbn [fst snd].
    + assert (Hi1 : (i < length L)%nat) by lia. assert (Hi2 : (i < length V)%nat) by lia.
      unfold px_row_mu. rewrite RD. eapply is_derive_eq; [|exact (TD _ _ _ _ _ _ (ders_mu ad Had alphar Rgas Rg T L PL SL i Hi1)
        (ders_opp _ _ _ _ _ (ders_mu ad Had alphar Rgas Rg T V PV SV i Hi2)))].
      rewrite ln_quot by (first [apply PL; lia|apply PV; lia]). f_equal. ring.
    + unfold px_row_pL. rewrite RD. eapply is_derive_eq; [|refine (is_derive_ext _ _ _ _ _ (TD _ (fun _ _ => 0) _ _ _ _
        (ders_rel1 T L _ _ _ (ders_qp ad Had alphar Rgas Rg HR HR0 T L HT PL SL)) (ders_cst T V 0)))]; [f_equal; ring|intros s; apply Rplus_0_r].
    + unfold px_row_pV. rewrite RD. eapply is_derive_eq; [|refine (is_derive_ext _ _ _ _ _ (TD (fun _ _ => 0) _ _ _ _ _ (ders_cst T L 0)
        (ders_rel1 T V _ _ _ (ders_qp ad Had alphar Rgas Rg HR HR0 T V HT PV SV))))]; [f_equal; ring|intros s; apply Rplus_0_l].
    + unfold px_row_x. rewrite RD. eapply is_derive_eq; [|exact (TD _ (fun _ _ => - nth i xspec 0) _ _ _ _ (ders_frac T L PL i ltac:(lia)) (ders_cst T V _))].
      f_equal. ring.
Qed.
End Px.

Lemma all_nonfinite : forall dx, (no_finite dx = true <-> forall i, (i < length dx)%nat -> isfinite (el dx i) = false).
Proof. intros dx. unfold no_finite. rewrite forallb_el. split; intros H i Hi; specialize (H i Hi); destruct (isfinite (el dx i)); auto; discriminate. Qed.
Lemma some_finite : forall dx, no_finite dx = false -> exists i, (i < length dx)%nat /\ isfinite (el dx i) = true.
Proof.
  induction dx as [|a dx IH]; intros H; [discriminate|]. unfold no_finite in *. cbn [forallb] in H. destruct (isfinite a) eqn:E.
  - exists 0%nat. split; [simpl; lia|exact E].
  - destruct IH as (i & Hi & Hf); [exact H|]. exists (S i). split; [simpl; lia|exact Hf].
Qed.
Section PxRun.
Variable m : eos.
Variable qr : list (list fl) -> list fl -> list fl.
Hypothesis Hqr : forall J b, length (qr J b) = length b.
Variables (p_spec : fl) (xspec : list fl) (T0 atol reltol axtol relxtol : fl).
Hypothesis HN : (1 <= length xspec)%nat.
Notation n := (S (2 * length xspec)).
Notation loop := (px_loop m qr p_spec xspec T0 atol reltol axtol relxtol).
Notation pass := (px_pass m qr p_spec xspec).
Notation goes_on := (px_goes_on xspec T0 atol reltol axtol relxtol).
Notation passes := (px_passes m qr p_spec xspec T0 atol reltol axtol relxtol).
Notation ends := (px_ends m qr p_spec xspec T0 atol reltol axtol relxtol).

Lemma px_len : forall T x r J, px_assemble m p_spec xspec T x = ok (r, J) -> length r = n.
Proof.
  intros T x r J H. unfold px_assemble in H.
  apply obind_inv in H. destruct H as ([[? ?] ?] & _ & H). apply obind_inv in H. destruct H as ([[? ?] ?] & _ & H).
  do 4 (apply obind_inv in H; destruct H as (? & _ & H)). injection H as <- _.
  rewrite app_length. cbn [app length]. unfold each_i. rewrite !map_length, !seq_length. lia.
Qed.
Lemma el_cons : forall a v i, el (a :: v) (S i) = el v i. Proof. reflexivity. Qed.
Lemma px_small_iff : forall a b dx s, length dx = n -> length (snd s) = (2 * length xspec)%nat ->
  (small a b dx (T0 :: snd s) = true <-> px_small_step xspec T0 a b dx s).
Proof.
  intros a b dx s L1 L2. unfold small. rewrite forallb_combine by (cbn [length]; lia). rewrite L1. unfold px_small_step, less.
  split; intros H i Hi; specialize (H i Hi); destruct i; exact H.
Qed.
Lemma px_res_iff : forall a b r, length r = n -> (small a b r r = true <-> px_small_residual xspec a b r).
Proof. intros a b r L. unfold small. rewrite forallb_combine by lia. rewrite L. reflexivity. Qed.
Lemma px_stalled_iff : forall dx s, length dx = n -> length (snd s) = (2 * length xspec)%nat ->
  (stalled (T0 :: snd s) dx = true <-> px_no_change xspec T0 dx s).
Proof.
  intros dx s L1 L2. unfold stalled. rewrite forallb_el. rewrite zip_length by (cbn [length]; lia). cbn [length]. rewrite L2. unfold px_no_change, less.
  split; intros H i Hi; specialize (H i Hi); [rewrite zip_el in H by (cbn [length]; lia)|rewrite zip_el by (cbn [length]; lia)]; destruct i; exact H.
Qed.
Lemma px_loop_run : forall k0 T x code T' x', loop (S k0) T x = ok (code, T', x') -> length x = (2 * length xspec)%nat ->
  exists k X Rs D, X 0%nat = (T, x) /\ X k = (T', x') /\ (Z.of_nat k <= Z.of_nat (S k0))%Z /\ passes k X Rs D /\ ends (Z.of_nat (S k0)) code k X Rs D.
Proof.
  induction k0 as [|k0 IH]; intros T x code T' x' H Lx.
  all: cbn [px_loop] in H; apply obind_inv in H; destruct H as ([r J] & EA & H); pose proof (px_len _ _ _ _ EA) as Lr;
    set (dx := qr J (map fopp r)) in *; assert (Ld : length dx = n) by (unfold dx; rewrite Hqr, map_length; exact Lr);
    assert (NW : px_step m qr p_spec xspec (T, x) r dx) by (exists J; auto);
    destruct (no_finite dx) eqn:NF;
    [ injection H as <- <- <-; exists 0%nat, (fun _ => (T, x)), (fun _ => []), (fun _ => []); split; [reflexivity|]; split; [reflexivity|];
      split; [lia|]; split; [intros i Hi; lia|]; split; [lia|]; split; [intros i Hi; lia|]; exists r, dx; split; [exact NW|]; rewrite <- Ld; now apply all_nonfinite | ];
    set (T1 := fadd T (el dx 0)) in *; set (x1 := zip fadd x (skipn 1 dx)) in *;
    assert (Ls : length (skipn 1 dx) = (2 * length xspec)%nat) by (rewrite skipn_length; lia);
    assert (Lx1 : length x1 = (2 * length xspec)%nat) by (unfold x1; rewrite zip_length; lia);
    assert (P1 : pass (T, x) r dx (T1, x1)) by (split; [exact NW|split; [rewrite <- Ld; now apply some_finite|split; [reflexivity|]]];
      cbn [fst snd]; unfold x1; rewrite zip_map by lia; rewrite Lx; apply map_ext; intros i; f_equal; destruct dx; [discriminate|reflexivity]);
    pose proof (px_small_iff axtol relxtol dx (T1, x1) Ld Lx1) as I1; pose proof (px_res_iff atol reltol r Lr) as I2; pose proof (px_stalled_iff dx (T1, x1) Ld Lx1) as I3;
    cbn [snd] in I1, I3;
    destruct (small axtol relxtol dx (T0 :: x1)) eqn:S1;
    [ injection H as <- <- <-; exists 1%nat, (shift (T, x) (fun _ => (T1, x1))), (fun _ => r), (fun _ => dx); split; [reflexivity|]; split; [reflexivity|];
      split; [lia|]; split; [intros [|i] Hi; [split; [exact P1|lia]|lia]|]; exists 0%nat; split; [reflexivity|]; left; exact (proj1 I1 eq_refl) | ];
    destruct (small atol reltol r r) eqn:S2;
    [ injection H as <- <- <-; exists 1%nat, (shift (T, x) (fun _ => (T1, x1))), (fun _ => r), (fun _ => dx); split; [reflexivity|]; split; [reflexivity|];
      split; [lia|]; split; [intros [|i] Hi; [split; [exact P1|lia]|lia]|]; exists 0%nat; split; [reflexivity|]; split; [exact (proj1 I2 eq_refl)|exact (not_iff _ _ I1 eq_refl)] | ];
    destruct (stalled (T0 :: x1) dx) eqn:S3;
    [ injection H as <- <- <-; exists 1%nat, (shift (T, x) (fun _ => (T1, x1))), (fun _ => r), (fun _ => dx); split; [reflexivity|]; split; [reflexivity|];
      split; [lia|]; split; [intros [|i] Hi; [split; [exact P1|lia]|lia]|]; exists 0%nat; split; [reflexivity|]; right; split; [exact (not_iff _ _ I2 eq_refl)|exact (proj1 I3 eq_refl)] | ];
    assert (GO : goes_on r dx (T1, x1)) by (split; [exact (not_iff _ _ I1 eq_refl)|split; [exact (not_iff _ _ I2 eq_refl)|exact (not_iff _ _ I3 eq_refl)]]).
  - injection H as <- <- <-. exists 1%nat, (shift (T, x) (fun _ => (T1, x1))), (fun _ => r), (fun _ => dx). split; [reflexivity|]. split; [reflexivity|].
    split; [lia|]. split; [intros [|i] Hi; [split; [exact P1|lia]|lia]|]. split; [lia|]. exists 0%nat. split; [reflexivity|exact GO].
  - destruct (IH T1 x1 code T' x' H Lx1) as (k & X & Rs & D & X0 & Xk & Hk & PS & EN).
    exists (S k), (shift (T, x) X), (shift r Rs), (shift dx D). split; [reflexivity|]. split; [exact Xk|]. split; [lia|]. split.
    + intros [|i] Hi; cbn [shift]; [rewrite X0; split; [exact P1|intros _; exact GO]|].
      destruct (PS i ltac:(lia)) as [A B]. split; [exact A|]. intros Hs. apply B. lia.
    + destruct code; cbn [px_ends] in EN |- *; try (cbn [shift]; exact EN).
      * lia.
      * destruct EN as (i & -> & E). exists (S i). split; [reflexivity|]. cbn [shift]. exact E.
      * destruct EN as (i & -> & E). exists (S i). split; [reflexivity|]. cbn [shift]. exact E.
      * destruct EN as (E & i & -> & E'). split; [lia|]. exists (S i). split; [reflexivity|]. cbn [shift]. exact E'.
      * destruct EN as (E & E1 & E2). split; [lia|]. split; [|exact E2]. intros [|i] Hi; cbn [shift]; [rewrite X0; exact GO|]. apply E1. lia.
Qed.
End PxRun.
