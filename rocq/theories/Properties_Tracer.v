(** C48: the tracers of phase envelopes. *)
From Coq Require Import Reals ZArith List Bool Lia Lra.
From Verif Require Import Json_model Cubic_model Float_model VLE_model VLE_spec Tracer_model Tracer_spec Tracer_proofs.
Import ListNotations.
Open Scope R_scope.

(** what the results hold *)
Definition points_of (r : traced) : list point := match r with Rows l | WithMeta l => l end.
(** [c] after the first guess: reversed if the first step would make a concentration negative *)
Definition first_direction (init_c dt : fl) (x d : list fl) (c : fl) : Prop :=
  ((exists i, (i < length x)%nat /\ (i < length d)%nat /\ less (fadd (el x i) (fmul (el d i) dt)) (Fin 0)) /\ c = fmul init_c (Fin (-1))) \/
  (~ (exists i, (i < length x)%nat /\ (i < length d)%nat /\ less (fadd (el x i) (fmul (el d i) dt)) (Fin 0)) /\ c = init_c).
Lemma existsb_zip : forall (P : fl -> bool) f a b, existsb P (zip f a b) = true <-> exists i, (i < length a)%nat /\ (i < length b)%nat /\ P (f (el a i) (el b i)) = true.
Proof.
  intros P f. unfold zip. induction a as [|x a IH]; intros [|y b]; cbn [combine map existsb length].
  - split; [discriminate|]. intros (i & H & _). lia.
  - split; [discriminate|]. intros (i & H & _). lia.
  - split; [discriminate|]. intros (i & _ & H & _). lia.
  - cbn [fst snd]. rewrite orb_true_iff, IH. split.
    + intros [H|(i & A & B & C)]; [exists 0%nat; repeat split; auto; lia|exists (S i); repeat split; auto; lia].
    + intros ([|i] & A & B & C); [now left|right; exists i; repeat split; auto; lia].
Qed.
Lemma initial_c_ok : forall x d dt c, first_direction c dt x d (initial_c x d dt c).
Proof.
  intros x d dt c. unfold first_direction, initial_c, less. destruct (existsb _ _) eqn:E.
  - left. split; [|reflexivity]. now apply existsb_zip in E.
  - right. split; [|reflexivity]. intros H. assert (K := proj2 (existsb_zip (fun v => flt v (Fin 0)) (fun a b => fadd a (fmul b dt)) x d) H). rewrite E in K. discriminate.
Qed.

(** ** Isotherms *)
(** A trace that is returned holds the given point and then, one for one, the accepted steps
    of the integrator, and ends at the requested number of steps, with an exception of the
    integrator or at the first state that meets a criterion for stopping. *)
Theorem C48_isotherm : forall stepper drhodp pressure crit solve o fuel L0 V0 r,
  trace_VLE_isotherm_binary stepper drhodp pressure crit solve o fuel L0 V0 = Some (Val r) ->
  length L0 = 2%nat /\ length V0 = 2%nat /\ (r = Rows (points_of r) /\ o_revision o = 1%Z \/ r = WithMeta (points_of r) /\ o_revision o = 2%Z) /\
  ((o_max_steps o <= 0)%Z -> points_of r = []) /\
  ((0 < o_max_steps o)%Z -> exists c d q l, points_of r = q :: l /\ (length l <= Z.to_nat (o_max_steps o))%nat /\
     isotherm_deriv drhodp (o_init_c o) (zeros 4) (L0 ++ V0) = Val d /\ first_direction (o_init_c o) (o_init_dt o) (L0 ++ V0) d c /\
     pt_x q = L0 ++ V0 /\ pt_t q = Fin 0 /\ pt_dt q = o_init_dt o /\
     recorded (isotherm_deriv drhodp c) (isotherm_pressures pressure) (fun X => (frac0 (liq X), frac0 (vap X))) (isotherm_crits crit o) c (zeros 4) (zeros 4) q /\
     run stepper (isotherm_deriv drhodp c) (isotherm_pressures pressure) (fun X => (frac0 (liq X), frac0 (vap X))) (isotherm_crits crit o)
       (isotherm_stop pressure crit o) (isotherm_polish solve o) c (o_max_dt o) (o_order o) (Z.to_nat (o_max_steps o)) (zeros 4) q l).
Proof.
  intros stepper drhodp pressure crit solve o fuel L0 V0 r E. unfold trace_VLE_isotherm_binary in E.
  destruct (Nat.eqb_spec (length L0) 2) as [N2|]; [|discriminate]. destruct (Nat.eqb_spec (length L0) (length V0)) as [NV|]; [|discriminate]. cbn [negb] in E.
  destruct (isotherm_deriv drhodp (o_init_c o) (zeros 4) (L0 ++ V0)) as [d|e] eqn:D; [|discriminate]. cbv zeta in E.
  destruct (isotherm_loop _ _ _ _ _ _ _ _ _ _ _ _) as [[data|e]|] eqn:LP; [|discriminate|discriminate].
  assert (Q : points_of r = data /\ (r = Rows (points_of r) /\ o_revision o = 1%Z \/ r = WithMeta (points_of r) /\ o_revision o = 2%Z)).
  { destruct (Z.eqb_spec (o_revision o) 1); [injection E as <-; auto|]. destruct (Z.eqb_spec (o_revision o) 2); [injection E as <-; auto|discriminate]. }
  destruct Q as [Q QR]. split; [exact N2|]. split; [congruence|]. split; [exact QR|]. rewrite Q. split.
  - intros H. destruct fuel as [|fuel]; [discriminate|]. unfold isotherm_loop in LP. rewrite loop_empty in LP by auto. congruence.
  - intros H. apply loop_from_start in LP; auto. destruct LP as (q & l & -> & X & T & DT & RC & RN). exists (initial_c (L0 ++ V0) d (o_init_dt o) (o_init_c o)), d, q, l.
    split; [reflexivity|]. split; [eapply run_length, RN|]. split; [reflexivity|]. split; [apply initial_c_ok|]. split; [exact X|]. split; [exact T|]. split; [exact DT|]. split; [exact RC|exact RN].
Qed.
(** Other sizes than two are refused; an unknown revision only at the end, an unknown order of
    the integrator only when the first step is due. *)
Theorem C48_isotherm_refusals : forall stepper drhodp pressure crit solve o fuel L0 V0,
  (length L0 <> 2%nat \/ length V0 <> length L0 -> trace_VLE_isotherm_binary stepper drhodp pressure crit solve o fuel L0 V0 = Some (Err InvalidArgument)) /\
  ((o_revision o <> 1 -> o_revision o <> 2 -> forall r, trace_VLE_isotherm_binary stepper drhodp pressure crit solve o fuel L0 V0 <> Some (Val r))%Z) /\
  ((o_order o <> 1 -> o_order o <> 5 -> 0 < o_max_steps o -> forall r, trace_VLE_isotherm_binary stepper drhodp pressure crit solve o fuel L0 V0 <> Some (Val r))%Z).
Proof.
  intros stepper drhodp pressure crit solve o fuel L0 V0. split; [|split].
  - intros H. unfold trace_VLE_isotherm_binary. destruct (Nat.eqb_spec (length L0) 2) as [N2|]; [|reflexivity]. destruct (Nat.eqb_spec (length L0) (length V0)) as [NV|]; [lia|reflexivity].
  - intros N1 N2 r E. apply C48_isotherm in E. destruct E as (_ & _ & [[_ E]|[_ E]] & _); contradiction.
  - intros N1 N5 H r E. unfold trace_VLE_isotherm_binary in E. destruct (negb _); [discriminate|]. destruct (negb _); [discriminate|].
    destruct (isotherm_deriv _ _ _ _) as [d|e]; [|discriminate]. destruct (isotherm_loop _ _ _ _ _ _ _ _ _ _ _ _) as [[data|e]|] eqn:LP; try discriminate.
    unfold isotherm_loop in LP. destruct fuel as [|fuel]; [discriminate|]. rewrite first_pass in LP by auto. destruct (store _ _ _ _ _ _) as [[s q]|e]; [|discriminate].
    cbn [trace_loop] in LP. destruct (Z.ltb_spec 0 (o_max_steps o)); [|lia]. cbn [Z.eqb Nat.eqb andb] in LP. unfold attempt in LP.
    destruct (Z.eqb_spec (o_order o) 5); [contradiction|]. destruct (Z.eqb_spec (o_order o) 1); [contradiction|]. discriminate.
Qed.
(** ** Ends *)
(** If the integrator refuses at most [k] steps in a row, the tracers come back after at most
    (k + 1) passes per requested step and one more. *)
Theorem C48_ends : forall stepper k, patient stepper k ->
  (forall drhodp pressure crit solve o L0 V0 fuel, (S k * Z.to_nat (o_max_steps o) + 1 <= fuel)%nat -> trace_VLE_isotherm_binary stepper drhodp pressure crit solve o fuel L0 V0 <> None) /\
  (forall drhodT pressure crit solve o T0 L0 V0 fuel, (S k * Z.to_nat (o_max_steps o) + 1 <= fuel)%nat -> trace_VLE_isobar_binary stepper drhodT pressure crit solve o fuel T0 L0 V0 <> None) /\
  (forall drhodT3 polish3 crit pressure o T0 V0 L10 L20 fuel, (S k * Z.to_nat (v_max_steps o) + 1 <= fuel)%nat -> trace_VLLE_binary stepper drhodT3 polish3 crit pressure o fuel T0 V0 L10 L20 <> None).
Proof.
  intros stepper k HK. split; [|split].
  - intros drhodp pressure crit solve o L0 V0 fuel Hf. unfold trace_VLE_isotherm_binary. destruct (negb _); [discriminate|]. destruct (negb _); [discriminate|].
    destruct (isotherm_deriv _ _ _ _) as [d|e]; [|discriminate]. unfold isotherm_loop.
    match goal with |- match ?t with _ => _ end <> None => assert (t <> None) by (eapply (loop_ends _ _ _ _ _ _ _ _ _ _ _ k HK (Z.to_nat (o_max_steps o))); lia); destruct t as [[|]|]; [discriminate|discriminate|contradiction] end.
  - intros drhodT pressure crit solve o T0 L0 V0 fuel Hf. unfold trace_VLE_isobar_binary. destruct (negb _); [discriminate|]. destruct (negb _); [discriminate|].
    destruct (isobar_deriv _ _ _ _) as [d|e]; [|discriminate]. unfold isobar_loop. eapply (loop_ends _ _ _ _ _ _ _ _ _ _ _ k HK (Z.to_nat (o_max_steps o))); lia.
  - intros drhodT3 polish3 crit pressure o T0 V0 L10 L20 fuel Hf. unfold trace_VLLE_binary. apply (loop3_ends _ _ _ _ _ _ k HK (Z.to_nat (v_max_steps o))); lia.
Qed.
(** a stepper that always refuses *)
Definition stubborn : stepper_type := fun _ _ _ dt => Refused (fdiv dt (Fin 2)).
(** But the number of retries is not limited, not even by [max_step_retries]: with a stepper
    that always refuses the tracers never come back. *)
Theorem C48_retries_refuted :
  (forall drhodT3 polish3 crit pressure o T0 V0 L10 L20 fuel, (0 < v_max_steps o)%Z -> trace_VLLE_binary stubborn drhodT3 polish3 crit pressure o fuel T0 V0 L10 L20 = None) /\
  (forall solve crit p dL dV o L0 V0 fuel, (0 < o_max_steps o)%Z -> o_order o = 5%Z -> o_crit o = false -> length L0 = 2%nat -> length V0 = 2%nat ->
     trace_VLE_isotherm_binary stubborn (fun _ _ => Val (dL, dV)) (fun _ => Val p) crit solve o fuel L0 V0 = None).
Proof.
  split.
  - intros drhodT3 polish3 crit pressure o T0 V0 L10 L20 fuel H. unfold trace_VLLE_binary. generalize (v_init_dT o). induction fuel as [|fuel IH]; intros dT; [reflexivity|].
    cbn [vlle_trace_loop stubborn]. destruct (Z.ltb_spec 0 (v_max_steps o)); [|lia]. apply IH.
  - intros solve crit p dL dV o L0 V0 fuel H O5 OC N1 N2. unfold trace_VLE_isotherm_binary. rewrite N1, N2. cbn [Nat.eqb negb].
    destruct (isotherm_deriv _ _ _ _) as [d|e] eqn:D; [|discriminate]. cbv zeta.
    assert (LP : forall c fuel s l, isotherm_loop stubborn (fun _ _ => Val (dL, dV)) (fun _ => Val p) crit solve o c fuel 0 1 s l = None).
    { intros c. unfold isotherm_loop. induction fuel0 as [|f IH]; intros s l; [reflexivity|]. cbn [trace_loop Z.eqb Nat.eqb andb]. destruct (Z.ltb_spec 0 (o_max_steps o)); [|lia].
      unfold attempt. destruct (Z.eqb_spec (o_order o) 5) as [_|]; [|contradiction]. unfold stubborn at 1. rewrite (retry_irrelevant _ _ _ _ _ _ _ _ _ _ _ _ _ 1%nat 0%nat). apply IH. }
    unfold isotherm_loop. destruct fuel as [|fuel]; [reflexivity|]. rewrite first_pass by auto.
    destruct (store _ _ _ _ _ _) as [[s q]|e] eqn:ST.
    + fold (isotherm_loop stubborn (fun _ _ => Val (dL, dV)) (fun _ => Val p) crit solve o). unfold isotherm_loop in LP. now rewrite LP.
    + unfold store, isotherm_pressures, isotherm_crits in ST. rewrite OC in ST. discriminate.
Qed.

(** ** Directions *)
(** Along the points of an isotherm at which the derivative can be evaluated, the derivative
    of the liquid concentrations never turns back; it is tangent to the envelope, and if the
    derivatives with respect to pressure are numbers, not all zero, its norm is that of c. *)
Theorem C48_direction : forall drhodp c prev X d, isotherm_deriv drhodp c prev X = Val d -> ~ less (fdot (firstn 2 d) (firstn 2 prev)) (Fin 0).
Proof.
  intros drhodp c prev X d E. unfold isotherm_deriv in E. destruct (drhodp (liq X) (vap X)) as [[dL dV]|e]; [|discriminate]. cbn [bind] in E. cbv zeta in E. unfold less.
  set (w := map _ (dL ++ dV)) in E. destruct (flt (fdot (firstn 2 w) (firstn 2 prev)) (Fin 0)) eqn:F.
  - assert (K : d = flip 4 w) by congruence. rewrite K, flipped by (auto; lia). discriminate.
  - assert (K : d = w) by congruence. rewrite K, F. discriminate.
Qed.
Definition sumsq (v : list R) : R := fold_right (fun a s => a * a + s) 0 v.
Lemma norm2_fin : forall v, norm2 (fin v) = Fin (sumsq v).
Proof. unfold norm2, fsum, fin, sumsq. induction v as [|a v IH]; [reflexivity|]. cbn [map fold_right fmul]. rewrite IH. reflexivity. Qed.
Lemma sumsq_pos : forall v, 0 <= sumsq v.
Proof. induction v as [|a v IH]; cbn [sumsq fold_right]; [lra|]. fold (sumsq v). pose proof (Rle_0_sqr a) as H. unfold Rsqr in H. lra. Qed.
Lemma sumsq_app : forall u v, sumsq (u ++ v) = sumsq u + sumsq v.
Proof. induction u as [|a u IH]; intros v; cbn [app sumsq fold_right]; [unfold sumsq; lra|]. fold (sumsq (u ++ v)) (sumsq u). rewrite IH. ring. Qed.
Lemma sumsq_scale : forall k v, sumsq (map (fun a => k * a) v) = k * k * sumsq v.
Proof. induction v as [|a v IH]; cbn [map sumsq fold_right]; [ring|]. fold (sumsq (map (fun a => k * a) v)) (sumsq v). rewrite IH. ring. Qed.
Theorem C48_tangent : forall drhodp c prev X dL dV, drhodp (liq X) (vap X) = Val (fin dL, fin dV) -> length dL = 2%nat -> length dV = 2%nat -> sumsq dL + sumsq dV <> 0 ->
  exists k, isotherm_deriv drhodp (Fin c) prev X = Val (fin (map (fun a => k * a) (dL ++ dV))) /\ k * k * (sumsq dL + sumsq dV) = c * c.
Proof.
  intros drhodp c prev X dL dV E N1 N2 NZ. unfold isotherm_deriv. rewrite E. cbn [bind]. rewrite !norm2_fin. cbn [fadd fsqrt].
  pose proof (sumsq_pos dL) as P1. pose proof (sumsq_pos dV) as P2. destruct (Rlt_dec (sumsq dL + sumsq dV) 0) as [|_]; [lra|].
  assert (Hn : 0 < sumsq dL + sumsq dV) by lra. set (n := sumsq dL + sumsq dV) in *. pose proof (sqrt_lt_R0 n Hn) as Hs. cbn [fdiv]. destruct (Req_EM_T (sqrt n) 0); [lra|].
  assert (M : map (fun a => fmul (fmul (Fin c) a) (Fin (1 / sqrt n))) (fin dL ++ fin dV) = fin (map (fun a => c / sqrt n * a) (dL ++ dV))).
  { unfold fin. rewrite <- map_app, !map_map. apply map_ext. intros a. cbn [fmul]. f_equal. field. lra. }
  rewrite M. assert (SQ : forall k, k = 1 \/ k = -1 -> k * (c / sqrt n) * (k * (c / sqrt n)) * n = c * c).
  { intros k Hk. assert (KK : k * k = 1) by (destruct Hk as [->| ->]; ring). assert (SN : sqrt n * sqrt n = n) by (apply sqrt_sqrt; lra).
    transitivity (k * k * (c * c) * (n / (sqrt n * sqrt n))); [field; lra|]. rewrite SN, KK. field. lra. }
  destruct (flt _ _).
  - exists (-1 * (c / sqrt n)). split; [|apply SQ; now right]. f_equal. unfold flip.
    assert (LL : length (fin (map (fun a => c / sqrt n * a) (dL ++ dV))) = 4%nat) by (unfold fin; rewrite !map_length, app_length; lia).
    rewrite firstn_all2, skipn_all2, app_nil_r by lia. unfold fin. rewrite !map_map. apply map_ext. intros a. cbn [fmul]. f_equal. ring.
  - exists (1 * (c / sqrt n)). split; [|apply SQ; now left]. f_equal. unfold fin. rewrite !map_map. apply map_ext. intros a. f_equal. ring.
Qed.
Example C48_tangent_met : exists k, isotherm_deriv (fun _ _ => Val (fin [3; 0], fin [0; 4])) (Fin 1) (zeros 4) (fin [1; 1; 2; 2]) = Val (fin (map (fun a => k * a) [3; 0; 0; 4])) /\ k * k * 25 = 1.
Proof.
  destruct (C48_tangent (fun _ _ => Val (fin [3; 0], fin [0; 4])) 1 (zeros 4) (fin [1; 1; 2; 2]) [3; 0] [0; 4]) as (k & E & K); try reflexivity; [unfold sumsq; cbn; lra|].
  exists k. split; [exact E|]. unfold sumsq in K. cbn in K. lra.
Qed.
(** Isobars: dT/dt lacks the factor c, and the reversal spares the last concentration.  With
    c = -1 temperature rises while the concentrations change as for falling temperature. *)
Theorem C48_isobar_tangent_refuted : forall dL dV T x, length dL = 2%nat -> length dV = 2%nat -> sumsq dL + sumsq dV = 1 ->
  isobar_deriv (fun _ _ _ => Val (fin dL, fin dV)) (Fin (-1)) (zeros 5) (T :: x) = Val (fin (1 :: map (fun a => - a) (dL ++ dV))) /\
  (forall prev, less (fdot (fin [1; nth 0 dL 0]) (firstn 2 prev)) (Fin 0) ->
     isobar_deriv (fun _ _ _ => Val (fin dL, fin dV)) (Fin 1) prev (T :: x) = Val (fin [-1; - nth 0 dL 0; - nth 1 dL 0; - nth 0 dV 0; nth 1 dV 0])).
Proof.
  intros dL dV T x N1 N2 S. destruct dL as [|a [|b [|]]]; try discriminate. destruct dV as [|c [|d [|]]]; try discriminate.
  assert (K : fdiv (Fin 1) (fsqrt (fadd (norm2 (fin [a; b])) (norm2 (fin [c; d])))) = Fin 1).
  { rewrite !norm2_fin. cbn [fadd]. rewrite S. cbn [fsqrt]. destruct (Rlt_dec 1 0); [lra|]. rewrite sqrt_1. cbn [fdiv]. destruct (Req_EM_T 1 0); [lra|]. f_equal. field. }
  split.
  - unfold isobar_deriv. cbn [bind]. rewrite K. cbn [fin map app fmul firstn zeros repeat]. replace (flt _ _) with false.
    + f_equal. repeat (apply f_equal2; [try reflexivity; f_equal; ring|]). reflexivity.
    + symmetry. unfold fdot, zip, fsum. cbn [combine map fst snd fold_right fmul fadd flt]. destruct (Rlt_dec _ 0); [lra|reflexivity].
  - intros prev F. unfold less in F. cbn [nth] in F. unfold isobar_deriv. cbn [bind]. rewrite K. cbn [fin map app fmul]. cbn [firstn].
    replace (1 * a * 1) with a by ring. cbn [fin map] in F. cbn [firstn] in F. rewrite F. f_equal. unfold flip. cbn [firstn skipn map app fmul nth].
    repeat (apply f_equal2; [f_equal; ring|]). reflexivity.
Qed.
Example C48_isobar_tangent_refuted_met : sumsq [3 / 5; 0] + sumsq [0; 4 / 5] = 1 /\ less (fdot (fin [1; 3 / 5]) (firstn 2 (fin [-1; 1; 0; 0; 0]))) (Fin 0).
Proof.
  split; [unfold sumsq; cbn; lra|]. unfold less, fdot, zip, fsum. cbn [firstn fin map combine fst snd fold_right fmul fadd flt]. destruct (Rlt_dec _ 0); [reflexivity|lra].
Qed.

(** ** What a recorded point satisfies *)
Definition all_finite (v : list fl) : Prop := forall a, In a v -> exists r, a = Fin r.
Definition fractions_inside (v : list fl) : Prop := forall a, In a v -> ~ less (fdiv a (fsum v)) (Fin 0) /\ ~ less (Fin 1) (fdiv a (fsum v)).
Lemma existsb_not : forall (A : Type) (P : A -> bool) l, existsb P l = false <-> forall a, In a l -> P a = false.
Proof.
  intros A P. induction l as [|x l IH]; cbn [existsb].
  - split; [intros _ a []|reflexivity].
  - rewrite orb_false_iff, IH. split; [intros [H K] a [<-|I]; auto|]. intros H. split; [apply H; now left|]. intros a I. apply H. now right.
Qed.
Lemma not_less : forall a b, ~ less a b <-> flt a b = false.
Proof. intros a b. unfold less. destruct (flt a b); split; congruence. Qed.
Lemma outside_false : forall L V, outside L V = false <-> all_finite L /\ all_finite V /\ fractions_inside L /\ fractions_inside V.
Proof.
  intros L V. unfold outside. rewrite !orb_false_iff, !existsb_not.
  assert (FI : forall W, (forall a, In a W -> negb (isfinite a) = false) <-> all_finite W).
  { intros W. split; [intros K a I; specialize (K a I); destruct a; try discriminate; eauto|]. intros K a I. now destruct (K a I) as [r ->]. }
  assert (FR : forall W, fractions_inside W <-> (forall a, In a (map (fun r => fdiv r (fsum W)) W) -> flt a (Fin 0) = false) /\ (forall a, In a (map (fun r => fdiv r (fsum W)) W) -> flt (Fin 1) a = false)).
  { intros W. unfold fractions_inside. split.
    - intros K. split; intros a I; apply in_map_iff in I; destruct I as (r & <- & I); destruct (K r I); now apply not_less.
    - intros [K1 K2] a I. rewrite !not_less. split; [apply K1|apply K2]; apply in_map_iff; eauto. }
  rewrite !FI, !FR. tauto.
Qed.
(** A step is kept exactly if the concentrations are numbers, mole fractions from 0 to 1, the
    pressure of the liquid not above the limit, and, if they are wanted, the first criticality
    condition of neither phase below its limit. *)
Theorem C48_isotherm_checks : forall pressure crit o X, isotherm_stop pressure crit o X = Val false <->
  all_finite (firstn 2 X) /\ all_finite (skipn 2 X) /\ fractions_inside (firstn 2 X) /\ fractions_inside (skipn 2 X) /\
  (exists p, pressure (firstn 2 X) = Val p /\ ~ less (o_p_term o) p) /\
  (o_crit o = true -> exists a b, crit (firstn 2 X) = Val a /\ crit (skipn 2 X) = Val b /\ ~ less (el a 0) (o_crit_term o) /\ ~ less (el b 0) (o_crit_term o)).
Proof.
  intros pressure crit o X. unfold isotherm_stop, liq, vap. pose proof (outside_false (firstn 2 X) (skipn 2 X)) as O.
  destruct (pressure (firstn 2 X)) as [p|e]; cbn [bind].
  2: { split; [discriminate|]. intros (_ & _ & _ & _ & (p & H & _) & _). discriminate. }
  assert (P : (exists p0, Val p = Val p0 /\ ~ less (o_p_term o) p0) <-> flt (o_p_term o) p = false).
  { split; [intros (p0 & H & K); injection H as <-; now apply not_less|]. intros H. exists p. split; [reflexivity|now apply not_less]. }
  rewrite P. destruct (o_crit o); cbn [bind].
  - unfold both_crits. destruct (crit (firstn 2 X)) as [a|e]; cbn [bind].
    2: { split; [discriminate|]. intros (_ & _ & _ & _ & _ & H). destruct (H eq_refl) as (? & ? & K & _). discriminate. }
    destruct (crit (skipn 2 X)) as [b|e]; cbn [bind].
    2: { split; [discriminate|]. intros (_ & _ & _ & _ & _ & H). destruct (H eq_refl) as (? & ? & _ & K & _). discriminate. }
    split.
    + intros E. injection E as E. rewrite !orb_false_iff in E. destruct E as [[[A B] C] D]. apply O in D. destruct D as (D1 & D2 & D3 & D4). repeat (split; [assumption|]).
      intros _. exists a, b. rewrite !not_less. auto.
    + intros (D1 & D2 & D3 & D4 & C & H). destruct (H eq_refl) as (a' & b' & Ea & Eb & A & B). injection Ea as <-. injection Eb as <-. rewrite not_less in A, B.
      f_equal. rewrite A, B, C. cbn [orb]. tauto.
  - split.
    + intros E. injection E as E. rewrite !orb_false_iff in E. cbn [orb] in E. destruct E as [C D]. apply O in D. destruct D as (D1 & D2 & D3 & D4). repeat (split; [assumption|]). discriminate.
    + intros (D1 & D2 & D3 & D4 & C & _). f_equal. rewrite C. cbn [orb]. tauto.
Qed.
(** ... and likewise for isobars, without a limit for the pressure; the state begins with the
    temperature. *)
Theorem C48_isobar_checks : forall crit o T x, isobar_stop crit o (T :: x) = Val false <->
  all_finite (firstn 2 x) /\ all_finite (skipn 2 x) /\ fractions_inside (firstn 2 x) /\ fractions_inside (skipn 2 x) /\
  (o_crit o = true -> exists a b, crit T (firstn 2 x) = Val a /\ crit T (skipn 2 x) = Val b /\ ~ less (el a 0) (o_crit_term o) /\ ~ less (el b 0) (o_crit_term o)).
Proof.
  intros crit o T x. unfold isobar_stop. change (liqp (T :: x)) with (firstn 2 x). change (vapp (T :: x)) with (skipn 2 x). change (Temp (T :: x)) with T.
  pose proof (outside_false (firstn 2 x) (skipn 2 x)) as O. destruct (o_crit o); cbn [bind].
  - unfold both_crits. destruct (crit T (firstn 2 x)) as [a|e]; cbn [bind].
    2: { split; [discriminate|]. intros (_ & _ & _ & _ & H). destruct (H eq_refl) as (? & ? & K & _). discriminate. }
    destruct (crit T (skipn 2 x)) as [b|e]; cbn [bind].
    2: { split; [discriminate|]. intros (_ & _ & _ & _ & H). destruct (H eq_refl) as (? & ? & _ & K & _). discriminate. }
    split.
    + intros E. injection E as E. rewrite !orb_false_iff in E. destruct E as [[A B] D]. apply O in D. destruct D as (D1 & D2 & D3 & D4). repeat (split; [assumption|]).
      intros _. exists a, b. rewrite !not_less. auto.
    + intros (D1 & D2 & D3 & D4 & H). destruct (H eq_refl) as (a' & b' & Ea & Eb & A & B). injection Ea as <-. injection Eb as <-. rewrite not_less in A, B.
      f_equal. rewrite A, B. cbn [orb]. tauto.
  - split.
    + intros E. injection E as E. cbn [orb] in E. apply O in E. destruct E as (D1 & D2 & D3 & D4). repeat (split; [assumption|]). discriminate.
    + intros (D1 & D2 & D3 & D4 & _). f_equal. cbn [orb]. tauto.
Qed.
(** Fractions from 0 to 1 do not mean concentrations above 0. *)
Theorem C48_negative_refuted : forall pressure crit o p, o_crit o = false -> pressure (fin [-1; -1]) = Val p -> ~ less (o_p_term o) p ->
  isotherm_stop pressure crit o (fin [-1; -1; -1; -1]) = Val false.
Proof.
  intros pressure crit o p OC P PT. apply C48_isotherm_checks. change (firstn 2 (fin [-1; -1; -1; -1])) with (fin [-1; -1]). change (skipn 2 (fin [-1; -1; -1; -1])) with (fin [-1; -1]).
  assert (F : all_finite (fin [-1; -1])) by (intros a I; apply in_map_iff in I; destruct I as (r & <- & _); eauto).
  assert (G : fractions_inside (fin [-1; -1])).
  { intros a I. apply in_map_iff in I. destruct I as (r & <- & I). unfold less, fsum. cbn [fin map fold_right fadd fdiv]. destruct (Req_EM_T (-1 + (-1 + 0)) 0); [lra|]. cbn [flt].
    assert (r = -1) by (destruct I as [|[|[]]]; auto). subst r. destruct (Rlt_dec (-1 / (-1 + (-1 + 0))) 0); [exfalso; lra|]. destruct (Rlt_dec 1 (-1 / (-1 + (-1 + 0)))); [exfalso; lra|]. split; discriminate. }
  repeat (split; [assumption|]). split; [eauto|]. rewrite OC. discriminate.
Qed.
(** What is recorded after such a step: the state itself, or if polishing is wanted the
    solution of the solver at the composition of the liquid, if it is not too far away; if it
    is, the state itself or an exception. *)
Definition too_far (tol : fl) (L L' : list fl) : Prop := exists i, (i < length L)%nat /\ (i < length L')%nat /\ less (fmul tol (el L i)) (fabs (fsub (el L i) (el L' i))).
Lemma too_far_ok : forall tol L L', polish_rejected tol L L' = true <-> too_far tol L L'.
Proof.
  intros tol L L'. unfold polish_rejected, too_far, less. revert L'. induction L as [|a L IH]; intros [|b L']; cbn [combine existsb length].
  1-3: split; [discriminate|]; intros (i & H1 & H2 & _); lia.
  cbn [fst snd]. rewrite orb_true_iff, IH. split.
  - intros [H|(i & A & B & C)]; [exists 0%nat; repeat split; auto; lia|exists (S i); repeat split; auto; lia].
  - intros ([|i] & A & B & C); [now left|right; exists i; repeat split; auto; lia].
Qed.
Definition composition (v : list fl) : list fl := map (fun a => fdiv a (fsum v)) v.
Theorem C48_isotherm_polish : forall solve o X r, isotherm_polish solve o X = r <->
  (o_polish o = false /\ r = Val X) \/
  (o_polish o = true /\ (exists e, solve (firstn 2 X) (skipn 2 X) (composition (firstn 2 X)) = Err e /\ r = Err e)) \/
  (o_polish o = true /\ exists L V, solve (firstn 2 X) (skipn 2 X) (composition (firstn 2 X)) = Val (L, V) /\
     (~ too_far (o_polish_reltol o) (firstn 2 X) L /\ r = Val (L ++ V) \/
      too_far (o_polish_reltol o) (firstn 2 X) L /\ (o_polish_throws o = true /\ r = Err IterationFailure \/ o_polish_throws o = false /\ r = Val X))).
Proof.
  intros solve o X r. unfold isotherm_polish, liq, vap, composition. destruct (o_polish o).
  2: { split; [intros <-; auto|]. intros [[_ H]|[[H _]|[H _]]]; congruence. }
  destruct (solve _ _ _) as [[L V]|e]; cbn [bind].
  2: { split; [intros <-; right; left; eauto|]. intros [[H _]|[(_ & e' & H & K)|(_ & L & V & H & _)]]; congruence. }
  pose proof (too_far_ok (o_polish_reltol o) (firstn 2 X) L) as TF. destruct (polish_rejected _ _ _).
  - split.
    + intros <-. right. right. split; [reflexivity|]. exists L, V. split; [reflexivity|]. right. split; [tauto|]. destruct (o_polish_throws o); auto.
    + intros [[H _]|[(_ & e' & H & K)|(_ & L' & V' & H & [[N _]|[_ [[-> K]|[-> K]]]])]]; try congruence. exfalso. apply N. assert (L' = L) by congruence. subst L'. tauto.
  - split.
    + intros <-. right. right. split; [reflexivity|]. exists L, V. split; [reflexivity|]. left. split; [intros H; apply TF in H; discriminate|reflexivity].
    + intros [[H _]|[(_ & e' & H & K)|(_ & L' & V' & H & [[_ K]|[N _]])]]; try congruence. exfalso. assert (L' = L) by congruence. subst L'. apply TF in N. discriminate.
Qed.
Theorem C48_isobar_polish : forall solve o T x r, isobar_polish solve o (T :: x) = r <->
  (o_polish o = false /\ r = Val (T :: x)) \/
  (o_polish o = true /\ (exists e, solve (composition (firstn 2 x)) T (firstn 2 x) (skipn 2 x) = Err e /\ r = Err e)) \/
  (o_polish o = true /\ exists T' L V, solve (composition (firstn 2 x)) T (firstn 2 x) (skipn 2 x) = Val (T', L, V) /\
     (~ too_far (o_polish_reltol o) (firstn 2 x) L /\ r = Val (T' :: L ++ V) \/
      too_far (o_polish_reltol o) (firstn 2 x) L /\ (o_polish_throws o = true /\ r = Err IterationFailure \/ o_polish_throws o = false /\ r = Val (T :: x)))).
Proof.
  intros solve o T x r. unfold isobar_polish, composition. change (liqp (T :: x)) with (firstn 2 x). change (vapp (T :: x)) with (skipn 2 x). change (Temp (T :: x)) with T. destruct (o_polish o).
  2: { split; [intros <-; auto|]. intros [[_ H]|[[H _]|[H _]]]; congruence. }
  destruct (solve _ _ _ _) as [[[T1 L] V]|e]; cbn [bind].
  2: { split; [intros <-; right; left; eauto|]. intros [[H _]|[(_ & e' & H & K)|(_ & T' & L & V & H & _)]]; congruence. }
  pose proof (too_far_ok (o_polish_reltol o) (firstn 2 x) L) as TF. destruct (polish_rejected _ _ _).
  - split.
    + intros <-. right. right. split; [reflexivity|]. exists T1, L, V. split; [reflexivity|]. right. split; [tauto|]. destruct (o_polish_throws o); auto.
    + intros [[H _]|[(_ & e' & H & K)|(_ & T' & L' & V' & H & [[N _]|[_ [[-> K]|[-> K]]]])]]; try congruence. exfalso. apply N. assert (L' = L) by congruence. subst L'. tauto.
  - split.
    + intros <-. right. right. split; [reflexivity|]. exists T1, L, V. split; [reflexivity|]. left. split; [intros H; apply TF in H; discriminate|reflexivity].
    + intros [[H _]|[(_ & e' & H & K)|(_ & T' & L' & V' & H & [[_ K]|[N _]])]]; try congruence. exfalso. assert (L' = L) by congruence. subst L'. apply TF in N. discriminate.
Qed.

(** ** Isobars *)
Theorem C48_isobar : forall stepper drhodT pressure crit solve o fuel T0 L0 V0 data,
  trace_VLE_isobar_binary stepper drhodT pressure crit solve o fuel T0 L0 V0 = Some (Val data) ->
  length L0 = 2%nat /\ length V0 = 2%nat /\
  ((o_max_steps o <= 0)%Z -> data = []) /\
  ((0 < o_max_steps o)%Z -> exists c d q l, data = q :: l /\ (length l <= Z.to_nat (o_max_steps o))%nat /\
     isobar_deriv drhodT (o_init_c o) (zeros 5) (T0 :: L0 ++ V0) = Val d /\ first_direction (o_init_c o) (o_init_dt o) (T0 :: L0 ++ V0) d c /\
     pt_x q = T0 :: L0 ++ V0 /\ pt_t q = Fin 0 /\ pt_dt q = o_init_dt o /\
     recorded (isobar_deriv drhodT c) (isobar_pressures pressure) (fun X => (frac0 (liqp X), frac0 (vapp X))) (isobar_crits crit o) c (zeros 5) (zeros 5) q /\
     run stepper (isobar_deriv drhodT c) (isobar_pressures pressure) (fun X => (frac0 (liqp X), frac0 (vapp X))) (isobar_crits crit o)
       (isobar_stop crit o) (isobar_polish solve o) c (o_max_dt o) (o_order o) (Z.to_nat (o_max_steps o)) (zeros 5) q l).
Proof.
  intros stepper drhodT pressure crit solve o fuel T0 L0 V0 data E. unfold trace_VLE_isobar_binary in E.
  destruct (Nat.eqb_spec (length L0) 2) as [N2|]; [|discriminate]. destruct (Nat.eqb_spec (length L0) (length V0)) as [NV|]; [|discriminate]. cbn [negb] in E.
  destruct (isobar_deriv drhodT (o_init_c o) (zeros 5) (T0 :: L0 ++ V0)) as [d|e] eqn:D; [|discriminate]. cbv zeta in E.
  split; [exact N2|]. split; [congruence|]. split.
  - intros H. destruct fuel as [|fuel]; [discriminate|]. unfold isobar_loop in E. rewrite loop_empty in E by auto. congruence.
  - intros H. apply loop_from_start in E; auto. destruct E as (q & l & -> & X & T & DT & RC & RN). exists (initial_c (T0 :: L0 ++ V0) d (o_init_dt o) (o_init_c o)), d, q, l.
    split; [reflexivity|]. split; [eapply run_length, RN|]. split; [reflexivity|]. split; [apply initial_c_ok|]. split; [exact X|]. split; [exact T|]. split; [exact DT|]. split; [exact RC|exact RN].
Qed.
Theorem C48_isobar_refusals : forall stepper drhodT pressure crit solve o fuel T0 L0 V0,
  (length L0 <> 2%nat \/ length V0 <> length L0 -> trace_VLE_isobar_binary stepper drhodT pressure crit solve o fuel T0 L0 V0 = Some (Err InvalidArgument)) /\
  ((o_order o <> 1 -> o_order o <> 5 -> 0 < o_max_steps o -> forall r, trace_VLE_isobar_binary stepper drhodT pressure crit solve o fuel T0 L0 V0 <> Some (Val r))%Z).
Proof.
  intros stepper drhodT pressure crit solve o fuel T0 L0 V0. split.
  - intros H. unfold trace_VLE_isobar_binary. destruct (Nat.eqb_spec (length L0) 2) as [N2|]; [|reflexivity]. destruct (Nat.eqb_spec (length L0) (length V0)) as [NV|]; [lia|reflexivity].
  - intros N1 N5 H r E. unfold trace_VLE_isobar_binary in E. destruct (negb _); [discriminate|]. destruct (negb _); [discriminate|].
    destruct (isobar_deriv _ _ _ _) as [d|e]; [|discriminate]. unfold isobar_loop in E. destruct fuel as [|fuel]; [discriminate|]. cbv zeta in E. rewrite first_pass in E by auto.
    destruct (store _ _ _ _ _ _) as [[s q]|e]; [|discriminate].
    cbn [trace_loop] in E. destruct (Z.ltb_spec 0 (o_max_steps o)); [|lia]. cbn [Z.eqb Nat.eqb andb] in E. unfold attempt in E.
    destruct (Z.eqb_spec (o_order o) 5); [contradiction|]. destruct (Z.eqb_spec (o_order o) 1); [contradiction|]. discriminate.
Qed.
(** The test for turning back looks at the temperature and the first liquid concentration. *)
Theorem C48_isobar_direction : forall drhodT c prev X d, isobar_deriv drhodT c prev X = Val d -> ~ less (fdot (firstn 2 d) (firstn 2 prev)) (Fin 0).
Proof.
  intros drhodT c prev X d E. unfold isobar_deriv in E. destruct (drhodT (Temp X) (liqp X) (vapp X)) as [[dL dV]|e]; [|discriminate]. cbn [bind] in E. cbv zeta in E. unfold less.
  set (w := _ :: map _ (dL ++ dV)) in E. destruct (flt (fdot (firstn 2 w) (firstn 2 prev)) (Fin 0)) eqn:F.
  - assert (K : d = flip 4 w) by congruence. rewrite K, flipped by (auto; lia). discriminate.
  - assert (K : d = w) by congruence. rewrite K, F. discriminate.
Qed.
(** Tangent only with c = 1 and where nothing is reversed. *)
Theorem C48_isobar_tangent_partial : forall drhodT prev T x dL dV, drhodT T (firstn 2 x) (skipn 2 x) = Val (fin dL, fin dV) -> length dL = 2%nat -> length dV = 2%nat -> 0 < sumsq dL + sumsq dV ->
  let k := 1 / sqrt (sumsq dL + sumsq dV) in ~ less (fdot (fin [k; k * nth 0 dL 0]) (firstn 2 prev)) (Fin 0) ->
  isobar_deriv drhodT (Fin 1) prev (T :: x) = Val (fin (map (fun a => k * a) (1 :: dL ++ dV))) /\ k * k * (sumsq dL + sumsq dV) = 1.
Proof.
  intros drhodT prev T x dL dV E N1 N2 HP k NL. apply not_less in NL. unfold isobar_deriv. change (liqp (T :: x)) with (firstn 2 x). change (vapp (T :: x)) with (skipn 2 x). change (Temp (T :: x)) with T.
  rewrite E. cbn [bind]. rewrite !norm2_fin. cbn [fadd fsqrt]. destruct (Rlt_dec (sumsq dL + sumsq dV) 0) as [|_]; [lra|].
  pose proof (sqrt_lt_R0 _ HP) as Hs. cbn [fdiv]. destruct (Req_EM_T (sqrt (sumsq dL + sumsq dV)) 0) as [|_]; [lra|]. fold k.
  assert (M : Fin k :: map (fun a => fmul (fmul (Fin 1) a) (Fin k)) (fin dL ++ fin dV) = fin (map (fun a => k * a) (1 :: dL ++ dV))).
  { unfold fin. rewrite <- map_app. cbn [map]. rewrite !map_map. f_equal; [f_equal; ring|]. apply map_ext. intros a. cbn [fmul]. f_equal. ring. }
  cbv zeta. rewrite M. split.
  - destruct dL as [|a [|b [|]]]; try discriminate. cbn [app map fin] in NL |- *. cbn [firstn nth] in NL |- *. replace (k * 1) with k by ring. rewrite NL. reflexivity.
  - unfold k. assert (SN : sqrt (sumsq dL + sumsq dV) * sqrt (sumsq dL + sumsq dV) = sumsq dL + sumsq dV) by (apply sqrt_sqrt; lra).
    transitivity ((sumsq dL + sumsq dV) / (sqrt (sumsq dL + sumsq dV) * sqrt (sumsq dL + sumsq dV))); [field; lra|]. rewrite SN. field. lra.
Qed.

(** ** Step sizes and derivatives along a trace *)
Lemma fmin_max : forall a b, ~ less b (fmin a b).
Proof.
  intros a b. apply not_less. unfold fmin. destruct (flt b a) eqn:E; [|exact E]. destruct b as [r|[|]|]; cbn [flt] in *; try reflexivity; try discriminate. destruct (Rlt_dec r r); [lra|reflexivity].
Qed.
(** Between consecutive points of a trace of order 5 the step size is at most [max_dt] (not
    so the first one); with order 1 it is constant and the parameter advances by it. *)
Theorem C48_step_sizes : forall stepper deriv pressures fractions crits stop polish c max_dt order n old q l a b,
  run stepper deriv pressures fractions crits stop polish c max_dt order n old q l -> consecutive (q :: l) a b ->
  (order = 5%Z -> ~ less max_dt (pt_dt b)) /\ (order = 1%Z -> pt_dt b = pt_dt a /\ pt_t b = fadd (pt_t a) (pt_dt a)).
Proof.
  intros stepper deriv pressures fractions crits stop polish c max_dt order n old q l a b R C. destruct (run_consecutive _ _ _ _ _ _ _ _ _ _ _ _ _ _ _ _ R C) as (o & x & M & _).
  destruct M as [(O & dt1 & dt2 & _ & _ & ->)|(O & d & _ & _ & T & D)]; split; intros H; try congruence; [apply fmin_max|auto].
Qed.
Example C48_step_sizes_met : forall (a : fl), ~ less (Fin 1) (fmin a (Fin 1)) /\ fmin (Fin 2) (Fin 1) = Fin 1.
Proof. intros a. split; [apply fmin_max|]. unfold fmin, flt. destruct (Rlt_dec 1 2); [reflexivity|lra]. Qed.
(** Along a trace the direction is that of the point before wherever the derivative can be
    evaluated. *)
Theorem C48_no_return : forall stepper drhodp pressure crit solve o fuel L0 V0 r a b,
  trace_VLE_isotherm_binary stepper drhodp pressure crit solve o fuel L0 V0 = Some (Val r) -> consecutive (points_of r) a b ->
  (exists d, drhodp (firstn 2 (pt_x b)) (skipn 2 (pt_x b)) = Val d) -> ~ less (fdot (firstn 2 (pt_drho b)) (firstn 2 (pt_drho a))) (Fin 0).
Proof.
  intros stepper drhodp pressure crit solve o fuel L0 V0 r a b E C (d & D). apply C48_isotherm in E. destruct E as (_ & _ & _ & E0 & E1).
  destruct (Z.leb_spec (o_max_steps o) 0) as [H|H]; [rewrite (E0 H) in C; inversion C|]. destruct (E1 H) as (c & d0 & q & l & EQ & _ & _ & _ & _ & _ & _ & _ & R). rewrite EQ in C.
  destruct (run_consecutive _ _ _ _ _ _ _ _ _ _ _ _ _ _ _ _ R C) as (old & x & _ & _ & _ & RC). destruct RC as (_ & _ & _ & _ & [K|[(e & K) _]]); [now apply C48_direction in K|].
  exfalso. unfold isotherm_deriv, liq, vap in K. rewrite D in K. destruct d as [dL dV]. discriminate.
Qed.

(** ** A trace *)
Definition whole : stepper_type := fun _ x t dt => Taken x (fadd t dt) dt.
Definition some_options (polish : bool) (steps order : Z) : toptions :=
  {| o_init_dt := Fin 1; o_max_dt := Fin 2; o_init_c := Fin 1; o_p_term := Fin 10; o_crit_term := Fin 0; o_max_steps := steps; o_order := order; o_revision := 1;
     o_polish := polish; o_polish_throws := true; o_polish_reltol := Fin 0; o_crit := false |}.
Definition nans : list fl := [NaN; NaN].
Lemma inside_ones : all_finite (fin [1; 1]) /\ fractions_inside (fin [1; 1]).
Proof.
  split; [intros a I; apply in_map_iff in I; destruct I as (r & <- & _); eauto|].
  intros a I. apply in_map_iff in I. destruct I as (r & <- & I). unfold less, fsum. cbn [fin map fold_right fadd fdiv]. destruct (Req_EM_T (1 + (1 + 0)) 0); [lra|]. cbn [flt].
  assert (r = 1) by (destruct I as [|[|[]]]; auto). subst r. destruct (Rlt_dec (1 / (1 + (1 + 0))) 0); [exfalso; lra|]. destruct (Rlt_dec 1 (1 / (1 + (1 + 0)))); [exfalso; lra|]. split; discriminate.
Qed.
Lemma one_step : forall polish solve L V, isotherm_polish solve (some_options polish 1 5) (fin [1; 1; 1; 1]) = Val (L ++ V) ->
  exists q q', trace_VLE_isotherm_binary whole (fun _ _ => Val (fin [3; 0], fin [0; 4])) (fun _ => Val (Fin 1)) (fun _ => Val []) solve (some_options polish 1 5) 3 (fin [1; 1]) (fin [1; 1]) = Some (Val (Rows [q; q'])) /\
    pt_x q = fin [1; 1; 1; 1] /\ pt_x q' = L ++ V.
Proof.
  intros polish solve L V P. unfold trace_VLE_isotherm_binary. change (fin [1; 1] ++ fin [1; 1]) with (fin [1; 1; 1; 1]). cbn [length fin map Nat.eqb negb].
  change [Fin 1; Fin 1; Fin 1; Fin 1] with (fin [1; 1; 1; 1]). change [Fin 1; Fin 1] with (fin [1; 1]).
  assert (SP : isotherm_stop (fun _ => Val (Fin 1)) (fun _ => Val []) (some_options polish 1 5) (fin [1; 1; 1; 1]) = Val false).
  { apply C48_isotherm_checks. change (firstn 2 (fin [1; 1; 1; 1])) with (fin [1; 1]). change (skipn 2 (fin [1; 1; 1; 1])) with (fin [1; 1]). destruct inside_ones as [A B]. repeat (split; [assumption|]).
    split; [|discriminate]. exists (Fin 1). split; [reflexivity|]. apply not_less. cbn [some_options o_p_term flt]. destruct (Rlt_dec 10 1); [lra|reflexivity]. }
  assert (CR : forall X, isotherm_crits (fun _ => Val []) (some_options polish 1 5) X = Val None) by reflexivity.
  destruct (isotherm_deriv _ _ (zeros 4) (fin [1; 1; 1; 1])) as [d|e] eqn:D; [|discriminate]. cbv zeta. unfold isotherm_loop. rewrite first_pass by (cbn; lia).
  change (o_max_steps (some_options polish 1 5)) with 1%Z. change (o_order (some_options polish 1 5)) with 5%Z. change (o_revision (some_options polish 1 5)) with 1%Z.
  remember (some_options polish 1 5) as o eqn:EO. unfold store at 1, isotherm_pressures at 1. cbn [bind st_x st_t st_dt st_prev st_last]. rewrite CR. cbn [bind trace_loop Z.ltb Z.compare Z.eqb Nat.eqb andb].
  unfold attempt at 1. cbn [Z.eqb Pos.eqb whole st_x st_t st_dt st_prev st_last]. rewrite SP, P. cbn [bind]. unfold store at 1, isotherm_pressures at 1. cbn [bind st_x st_t st_dt st_prev st_last]. rewrite CR.
  cbn [bind Z.add Z.ltb Z.compare Pos.compare Pos.compare_cont app Z.eqb Pos.eqb].
  eexists. eexists. split; [reflexivity|]. cbn [pt_x st_x]. auto.
Qed.
Example C48_isotherm_met : exists q q', trace_VLE_isotherm_binary whole (fun _ _ => Val (fin [3; 0], fin [0; 4])) (fun _ => Val (Fin 1)) (fun _ => Val []) (fun _ _ _ => Err IterationFailure)
  (some_options false 1 5) 3 (fin [1; 1]) (fin [1; 1]) = Some (Val (Rows [q; q'])).
Proof. destruct (one_step false (fun _ _ _ => Err IterationFailure) (fin [1; 1]) (fin [1; 1])) as (q & q' & E & _); [reflexivity|]. eauto. Qed.
Example C48_ends_met : patient whole 0.
Proof. intros sys x t dt. exact I. Qed.
(** Polished values that are not numbers are never too far away, and recorded, even if the
    tolerance is zero and exceptions are wanted. *)
Theorem C48_polished_refuted : exists solve q q',
  trace_VLE_isotherm_binary whole (fun _ _ => Val (fin [3; 0], fin [0; 4])) (fun _ => Val (Fin 1)) (fun _ => Val []) solve (some_options true 1 5) 3 (fin [1; 1]) (fin [1; 1]) = Some (Val (Rows [q; q'])) /\
  pt_x q' = [NaN; NaN; NaN; NaN].
Proof.
  destruct (one_step true (fun _ _ _ => Val (nans, nans)) nans nans) as (q & q' & E & _ & X).
  - apply C48_isotherm_polish. right. right. split; [reflexivity|]. exists nans, nans. split; [reflexivity|]. left. split; [|reflexivity].
    intros (i & H & _ & F). change (firstn 2 (fin [1; 1; 1; 1])) with (fin [1; 1]) in *. cbn [length fin map] in H. destruct i as [|[|i]]; [| |lia]; discriminate F.
  - exists (fun _ _ _ => Val (nans, nans)), q, q'. auto.
Qed.

(** ** Three phases *)
(** The recorded points are the accepted steps, without the given state, each with its
    pressure and criticality conditions, none of them meeting a criterion for stopping. *)
Theorem C48_vlle : forall stepper drhodT3 polish3 crit pressure o fuel T0 V0 L10 L20 l,
  trace_VLLE_binary stepper drhodT3 polish3 crit pressure o fuel T0 V0 L10 L20 = Some (Val l) ->
  run3 stepper drhodT3 polish3 crit pressure o (Z.to_nat (v_max_steps o)) (V0 ++ L10 ++ L20) T0 (v_init_dT o) l /\
  (length l <= Z.to_nat (v_max_steps o))%nat /\ (forall q, In q l -> evaluated3 crit pressure q /\ ~ final3 o q).
Proof.
  intros stepper drhodT3 polish3 crit pressure o fuel T0 V0 L10 L20 l E. unfold trace_VLLE_binary in E. apply loop3_run with (dT0 := v_init_dT o) in E; [|constructor].
  destruct E as (l' & E & R). cbn [app] in E. subst l'. rewrite Z.sub_0_r in R. split; [exact R|]. split; [eapply run3_length, R|]. intros q I. eapply run3_all; eassumption.
Qed.
Definition some_voptions : voptions := {| v_init_dT := Fin (-1); v_max_dT := Fin 1; v_T_limit := Fin 0; v_max_steps := 2; v_max_retries := 10; v_polish := false; v_composition := false; v_composition_tol := Fin 0 |}.
(** a stepper that makes its steps a thousand times longer *)
Definition bold : stepper_type := fun _ x t dt => Taken x (fadd t dt) (fmul dt (Fin 1000)).
(** [max_dT] does not bound the steps of a trace towards lower temperatures: here the second
    one goes down by 1000 K though [max_dT] is 1 K. *)
Theorem C48_vlle_max_dT_refuted : exists a b,
  trace_VLLE_binary bold (fun _ _ => Val []) (fun _ x => Val x) (fun _ _ => Val []) (fun _ _ => Val (Fin 1)) some_voptions 3 (Fin 2000) (fin [1; 1]) (fin [1; 1]) (fin [1; 1]) = Some (Val [a; b]) /\
  v_max_dT some_voptions = Fin 1 /\ vp_T a = Fin 1999 /\ vp_T b = Fin 999.
Proof.
  assert (EN : forall T x, 0 < T -> vlle_entry (fun _ _ => Val []) (fun _ _ => Val (Fin 1)) some_voptions (Fin T) x = Val (false, {| vp_T := Fin T; vp_x := x; vp_crit := [[]; []; []]; vp_p := Fin 1 |})).
  { intros T x H. unfold vlle_entry. cbn [bind some_voptions v_init_dT v_T_limit v_composition v_max_retries isfinite negb orb flt andb Z.ltb Z.compare]. f_equal. f_equal.
    destruct (Rlt_dec 0 (-1)); [lra|]. destruct (Rlt_dec (-1) 0); [|lra]. destruct (Rlt_dec T 0); [lra|]. reflexivity. }
  assert (M : fmin (Fin (-1 * 1000)) (Fin 1) = Fin (-1000)).
  { unfold fmin, flt. destruct (Rlt_dec 1 (-1 * 1000)); [lra|]. f_equal. ring. }
  assert (O1 : v_max_steps some_voptions = 2%Z) by reflexivity. assert (O2 : v_init_dT some_voptions = Fin (-1)) by reflexivity. assert (O3 : v_max_dT some_voptions = Fin 1) by reflexivity.
  assert (O4 : v_polish some_voptions = false) by reflexivity.
  remember some_voptions as o eqn:EO. unfold trace_VLLE_binary. cbn [vlle_trace_loop]. rewrite O1, O2, O3, O4. cbn [Z.ltb Z.compare Pos.compare Pos.compare_cont bold bind fadd fmul Z.add Pos.add Pos.succ].
  rewrite EN by lra. cbn [bind app Z.add]. rewrite M. cbn [fadd fmul]. rewrite EN by lra. cbn [bind app]. eexists. eexists. split; [reflexivity|]. cbn [vp_T v_max_dT]. split; [reflexivity|]. split; f_equal; lra.
Qed.
Example C48_isobar_met : exists q, trace_VLE_isobar_binary (fun _ _ _ _ => Threw) (fun _ _ _ => Val (fin [3; 0], fin [0; 4])) (fun _ _ => Val (Fin 1)) (fun _ _ => Val []) (fun _ _ _ _ => Err IterationFailure)
  (some_options false 1 5) 2 (Fin 300) (fin [1; 1]) (fin [1; 1]) = Some (Val [q]) /\ pt_x q = fin [300; 1; 1; 1; 1].
Proof.
  unfold trace_VLE_isobar_binary. cbn [length fin map Nat.eqb negb app]. destruct (isobar_deriv _ _ (zeros 5) _) as [d|e] eqn:D; [|discriminate]. cbv zeta. unfold isobar_loop. rewrite first_pass by (cbn; lia).
  eexists. split; reflexivity.
Qed.
Example C48_isobar_tangent_met : 0 < sumsq [3; 0] + sumsq [0; 4] /\ (forall k, ~ less (fdot (fin [k; k * nth 0 [3; 0] 0]) (firstn 2 (zeros 5))) (Fin 0)).
Proof.
  split; [unfold sumsq; cbn; lra|]. intros k. apply not_less. unfold fdot, zip, fsum. cbn [zeros repeat firstn fin map combine fst snd fold_right fmul fadd flt nth]. destruct (Rlt_dec _ 0); [lra|reflexivity].
Qed.
Example C48_no_return_met : exists q q', trace_VLE_isotherm_binary whole (fun _ _ => Val (fin [3; 0], fin [0; 4])) (fun _ => Val (Fin 1)) (fun _ => Val []) (fun _ _ _ => Err IterationFailure)
  (some_options false 1 5) 3 (fin [1; 1]) (fin [1; 1]) = Some (Val (Rows [q; q'])) /\ ~ less (fdot (firstn 2 (pt_drho q')) (firstn 2 (pt_drho q))) (Fin 0).
Proof.
  destruct C48_isotherm_met as (q & q' & E). exists q, q'. split; [exact E|]. apply (C48_no_return _ _ _ _ _ _ _ _ _ _ q q' E); [constructor|eauto].
Qed.
Print Assumptions C48_isotherm.
Print Assumptions C48_isotherm_refusals.
Print Assumptions C48_ends.
Print Assumptions C48_retries_refuted.
Print Assumptions C48_direction.
Print Assumptions C48_tangent.
Print Assumptions C48_isobar_tangent_refuted.
Print Assumptions C48_isotherm_checks.
Print Assumptions C48_isobar_checks.
Print Assumptions C48_negative_refuted.
Print Assumptions C48_isotherm_polish.
Print Assumptions C48_isobar_polish.
Print Assumptions C48_isobar.
Print Assumptions C48_isobar_refusals.
Print Assumptions C48_isobar_direction.
Print Assumptions C48_isobar_tangent_partial.
Print Assumptions C48_step_sizes.
Print Assumptions C48_no_return.
Print Assumptions C48_polished_refuted.
Print Assumptions C48_vlle.
Print Assumptions C48_vlle_max_dT_refuted.
