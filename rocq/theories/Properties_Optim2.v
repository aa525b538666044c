(** C71: the contributions to the cost. *)
From Coq Require Import Reals ZArith String List Bool Lia Lra.
From Verif Require Import Json_model Cubic_model Float_model VLE_model VLE_spec Tracer_model Optim_model.
Import ListNotations.
Open Scope R_scope.

(** Data points with a missing field are refused, complete ones are appended. *)
Theorem C71_fields : forall cs,
  (forall T r g v w, add_one_contribution cs (SatRhoL T r g v w) = Val (cs ++ [SatRhoL T r g v w])) /\
  (forall T p r g v wr wp Rg, add_one_contribution cs (SatRhoLP T p r g v wr wp Rg) =
     if existsb (fun o => match o with None => true | _ => false end) [T; p; r; g; v] then Err InvalidArgument else Val (cs ++ [SatRhoLP T p r g v wr wp Rg])) /\
  (forall T p r w g v A M Rg wr wp ww, add_one_contribution cs (SatRhoLPW T p r w g v A M Rg wr wp ww) =
     if existsb (fun o => match o with None => true | _ => false end) [T; p; r; w; g; v; A; M; Rg] then Err InvalidArgument else Val (cs ++ [SatRhoLPW T p r w g v A M Rg wr wp ww])) /\
  (forall T p g w A M Rg ww, add_one_contribution cs (SOS T p g w A M Rg ww) =
     if existsb (fun o => match o with None => true | _ => false end) [T; p; g; w; A; M; Rg] then Err InvalidArgument else Val (cs ++ [SOS T p g w A M Rg ww])) /\
  (forall T r p w Rg, add_one_contribution cs (PVT T r p w Rg) =
     if existsb (fun o => match o with None => true | _ => false end) [T; r; p] then Err InvalidArgument else Val (cs ++ [PVT T r p w Rg])).
Proof.
  intros cs. split; [reflexivity|]. assert (K : forall l, present l = negb (existsb (fun o => match o with None => true | _ => false end) l)).
  { unfold present. induction l as [|[a|] l IH]; cbn [forallb existsb]; [reflexivity|exact IH|reflexivity]. }
  unfold add_one_contribution, fields_ok. repeat split; intros; rewrite K; destruct (existsb _ _); reflexivity.
Qed.
(** Then the evaluation raises exceptions of the thermodynamic model only. *)
Theorem C71_total : forall cs cs' c m, add_one_contribution cs c = Val cs' ->
  (forall T a b, exists v, m_VLE m T a b = Val v) -> (forall T a, exists v, m_Ar0n m T a = Val v) -> (forall T a, exists v, m_Ar01 m T a = Val v) ->
  (forall T a, exists v, m_Ar11 m T a = Val v) -> (forall T a, exists v, m_Ar20 m T a = Val v) -> exists v, calculate m c = Val v.
Proof.
  intros cs cs' c m H E1 E2 E3 E4 E5. unfold add_one_contribution in H. destruct (fields_ok c) eqn:F; [|discriminate].
  assert (SD : forall T p Rg n rho, exists v, sos_density m n T p Rg rho = Val v).
  { intros T p Rg. induction n as [|n IH]; intros rho; cbn [sos_density]; [eauto|]. destruct (E2 T rho) as ((a1 & a2) & ->). cbn [bind]. destruct (_ || _); eauto. }
  destruct c as [T r g v w|T p r g v wr wp Rg|T p r w g v A M Rg wr wp ww|T p g w A M Rg ww|T r p w Rg]; cbn [fields_ok present forallb] in F; cbn [calculate].
  - destruct (E1 T g v) as (x & ->). cbn [bind]. eauto.
  - destruct T as [T|], p as [p|], r as [r|], g as [g|], v as [v|]; try discriminate F. cbn [value bind]. destruct (E1 T g v) as (x & ->). cbn [bind]. destruct (E3 T x) as (y & ->). cbn [bind]. eauto.
  - destruct T as [T|], p as [p|], r as [r|], w as [w|], g as [g|], v as [v|], A as [A|], M as [M|], Rg as [Rg|]; try discriminate F. cbn [value bind]. destruct (E1 T g v) as (x & ->). cbn [bind].
    destruct (E2 T x) as ((a1 & a2) & ->). cbn [bind]. destruct (E4 T x) as (y & ->). cbn [bind]. destruct (E5 T x) as (z & ->). cbn [bind]. eauto.
  - destruct T as [T|], p as [p|], g as [g|], w as [w|], A as [A|], M as [M|], Rg as [Rg|]; try discriminate F. cbn [value bind]. destruct (SD T p Rg 10%nat g) as (x & ->). cbn [bind].
    destruct (E2 T x) as ((a1 & a2) & ->). cbn [bind]. destruct (E4 T x) as (y & ->). cbn [bind]. destruct (E5 T x) as (z & ->). cbn [bind]. eauto.
  - destruct T as [T|], r as [r|], p as [p|]; try discriminate F. cbn [value bind]. destruct (E2 T r) as ((a1 & a2) & ->). cbn [bind]. eauto.
Qed.

(** ** Values *)
(** relative deviation of a calculated from a measured value *)
Definition rel (calc measured : R) : R := Rabs (calc - measured) / measured.
Definition pressure (rho Rg T Ar01 : R) : R := rho * Rg * T * (1 + Ar01).
(** d p / d rho at constant temperature; d p / d T at constant density; isochoric heat capacity *)
Definition dpdrho (Rg T Ar01 Ar02 : R) : R := Rg * T * (1 + 2 * Ar01 + Ar02).
Definition dpdT (rho Rg Ar01 Ar11 : R) : R := rho * Rg * (1 + Ar01 - Ar11).
Definition cv (Rg Ao20 Ar20 : R) : R := - Rg * (Ao20 + Ar20).
(** w^2 = (dp/drho + T (dp/dT)^2 / (rho^2 cv)) / M *)
Definition is_sound_speed (w rho Rg T M Ar01 Ar02 Ar11 Ar20 Ao20 : R) : Prop :=
  0 <= w /\ M * (w * w) = dpdrho Rg T Ar01 Ar02 + T * (dpdT rho Rg Ar01 Ar11 * dpdT rho Rg Ar01 Ar11) / (rho * rho * cv Rg Ao20 Ar20).
Lemma deviation_fin : forall a b w, b <> 0 -> deviation (Fin a) (Fin b) (Fin w) = Fin (rel a b * w).
Proof. intros a b w H. unfold deviation, rel, fsub. cbn [fopp fadd fabs fdiv]. destruct (Req_EM_T b 0); [contradiction|reflexivity]. Qed.
Lemma pressure_fin : forall rho Rg T a, pressure_of (Fin rho) (Fin Rg) (Fin T) (Fin a) = Fin (pressure rho Rg T a).
Proof. reflexivity. Qed.
Lemma sound_fin : forall a1 a2 a11 a20 Ao20 Rg T M rho w, Rg <> 0 -> rho <> 0 -> 0 < M -> Ao20 + a20 <> 0 -> is_sound_speed w rho Rg T M a1 a2 a11 a20 Ao20 ->
  sound_speed (Fin a1) (Fin a2) (Fin a11) (Fin a20) (Fin Ao20) (Fin Rg) (Fin T) (Fin M) = Fin w.
Proof.
  intros a1 a2 a11 a20 Ao20 Rg T M rho w HR Hr HM HC [W0 W]. unfold sound_speed, fsub. cbn [fopp fadd fmul fdiv]. destruct (Req_EM_T (Ao20 + a20) 0); [contradiction|]. cbn [fopp fadd fmul fdiv].
  destruct (Req_EM_T M 0); [lra|].
  assert (E : (1 + 2 * a1 + a2 + - ((1 + a1 + - a11) * (1 + a1 + - a11) / (Ao20 + a20))) * Rg * T / M = w * w).
  { apply (Rmult_eq_reg_l M); [|lra]. rewrite W. unfold dpdrho, dpdT, cv. field. repeat split; try lra; auto. }
  rewrite E. cbn [fsqrt]. destruct (Rlt_dec (w * w) 0); [nra|]. f_equal. now apply sqrt_square.
Qed.
(** The speed of sound is the thermodynamic one: w^2 M is dp/drho at constant entropy. *)
Theorem C71_sound_speed : forall a1 a2 a11 a20 Ao20 Rg T M rho w, 0 < Rg -> 0 < rho -> 0 < M -> Ao20 + a20 <> 0 -> is_sound_speed w rho Rg T M a1 a2 a11 a20 Ao20 ->
  sound_speed (Fin a1) (Fin a2) (Fin a11) (Fin a20) (Fin Ao20) (Fin Rg) (Fin T) (Fin M) = Fin w.
Proof. intros. apply sound_fin with (rho := rho); auto; apply Rgt_not_eq; lra. Qed.
(** an ideal monatomic gas: M w^2 = 5/3 Rg T *)
Example C71_sound_speed_met : is_sound_speed 5 1 1 3 (1 / 5) 0 0 0 0 (- (3 / 2)).
Proof. split; [lra|]. unfold dpdrho, dpdT, cv. field. Qed.

(** the value of each kind of contribution, for finite data *)
Theorem C71_values : forall m,
  (forall T rexp g v w r, m_VLE m T g v = Val (Fin r) -> calculate m (SatRhoL T (Fin rexp) g v (Fin w)) = Val (Fin (Rabs (r - rexp) * w))) /\
  (forall T p rexp g v wr wp Rg r a, m_VLE m (Fin T) g v = Val (Fin r) -> m_Ar01 m (Fin T) (Fin r) = Val (Fin a) -> rexp <> 0 -> p <> 0 ->
     calculate m (SatRhoLP (Some (Fin T)) (Some (Fin p)) (Some (Fin rexp)) (Some g) (Some v) (Fin wr) (Fin wp) (Fin Rg)) = Val (Fin (rel r rexp * wr + rel (pressure r Rg T a) p * wp))) /\
  (forall T p rexp wexp g v A M Rg wr wp ww r a1 a2 a11 a20 w, m_VLE m (Fin T) g v = Val (Fin r) -> m_Ar0n m (Fin T) (Fin r) = Val (Fin a1, Fin a2) ->
     m_Ar11 m (Fin T) (Fin r) = Val (Fin a11) -> m_Ar20 m (Fin T) (Fin r) = Val (Fin a20) -> rexp <> 0 -> p <> 0 -> wexp <> 0 ->
     Rg <> 0 -> r <> 0 -> 0 < M -> A + a20 <> 0 -> is_sound_speed w r Rg T M a1 a2 a11 a20 A ->
     calculate m (SatRhoLPW (Some (Fin T)) (Some (Fin p)) (Some (Fin rexp)) (Some (Fin wexp)) (Some g) (Some v) (Some (Fin A)) (Some (Fin M)) (Some (Fin Rg)) (Fin wr) (Fin wp) (Fin ww)) =
       Val (Fin (rel r rexp * wr + rel (pressure r Rg T a1) p * wp + rel w wexp * ww))) /\
  (forall T rho p w Rg a1 a2, m_Ar0n m (Fin T) (Fin rho) = Val (Fin a1, Fin a2) -> rho <> 0 -> dpdrho Rg T a1 a2 <> 0 ->
     calculate m (PVT (Some (Fin T)) (Some (Fin rho)) (Some (Fin p)) (Fin w) (Fin Rg)) = Val (Fin (Rabs ((pressure rho Rg T a1 - p) / rho / dpdrho Rg T a1 a2) * w))).
Proof.
  intros m. split; [|split; [|split]].
  - intros T rexp g v w r E. cbn [calculate]. rewrite E. reflexivity.
  - intros T p rexp g v wr wp Rg r a E1 E2 H1 H2. cbn [calculate value bind]. rewrite E1. cbn [bind]. rewrite E2. cbn [bind]. rewrite pressure_fin, !deviation_fin by assumption. reflexivity.
  - intros T p rexp wexp g v A M Rg wr wp ww r a1 a2 a11 a20 w E1 E2 E3 E4 H1 H2 H3 H4 H5 H6 H7 W. cbn [calculate value bind]. rewrite E1. cbn [bind]. rewrite E2. cbn [bind]. rewrite E3. cbn [bind]. rewrite E4. cbn [bind].
    rewrite pressure_fin, (sound_fin a1 a2 a11 a20 A Rg T M r w) by assumption. rewrite !deviation_fin by assumption. cbn [feq].
    destruct (Req_EM_T wr 0) as [->|], (Req_EM_T wp 0) as [->|], (Req_EM_T ww 0) as [->|]; cbn [fadd]; f_equal; f_equal; ring.
  - intros T rho p w Rg a1 a2 E H1 H2. cbn [calculate value bind]. rewrite E. cbn [bind]. rewrite pressure_fin. unfold fsub. cbn [fopp fadd fdiv]. destruct (Req_EM_T rho 0); [contradiction|].
    change (dpdrho_of (Fin Rg) (Fin T) (Fin a1) (Fin a2)) with (Fin (dpdrho Rg T a1 a2)). cbn [fdiv]. destruct (Req_EM_T (dpdrho Rg T a1 a2) 0); [contradiction|]. reflexivity.
Qed.
(** With positive weights and measured values a contribution is never negative, and zero
    exactly if the calculated values are the measured ones. *)
Lemma rel_zero : forall a b, 0 < b -> 0 <= rel a b /\ (rel a b = 0 <-> a = b).
Proof.
  intros a b H. unfold rel. pose proof (Rabs_pos (a - b)) as P. assert (D : 0 < / b) by now apply Rinv_0_lt_compat. unfold Rdiv. split; [nra|]. split.
  - intros E. assert (Rabs (a - b) = 0) by nra. destruct (Req_dec (a - b) 0); [lra|]. exfalso. now apply (Rabs_no_R0 (a - b)).
  - intros ->. rewrite Rminus_diag_eq by reflexivity. rewrite Rabs_R0. ring.
Qed.
Theorem C71_zero :
  (forall r rexp w, 0 < w -> 0 <= Rabs (r - rexp) * w /\ (Rabs (r - rexp) * w = 0 <-> r = rexp)) /\
  (forall r rexp wr p pexp wp, 0 < wr -> 0 < wp -> 0 < rexp -> 0 < pexp -> 0 <= rel r rexp * wr + rel p pexp * wp /\ (rel r rexp * wr + rel p pexp * wp = 0 <-> r = rexp /\ p = pexp)) /\
  (forall r rexp wr p pexp wp w wexp ww, 0 < wr -> 0 < wp -> 0 < ww -> 0 < rexp -> 0 < pexp -> 0 < wexp ->
     0 <= rel r rexp * wr + rel p pexp * wp + rel w wexp * ww /\ (rel r rexp * wr + rel p pexp * wp + rel w wexp * ww = 0 <-> r = rexp /\ p = pexp /\ w = wexp)) /\
  (forall p pexp rho d w, 0 < w -> rho <> 0 -> d <> 0 -> 0 <= Rabs ((p - pexp) / rho / d) * w /\ (Rabs ((p - pexp) / rho / d) * w = 0 <-> p = pexp)).
Proof.
  assert (AZ : forall a w, 0 < w -> 0 <= Rabs a * w /\ (Rabs a * w = 0 <-> a = 0)).
  { intros a w H. pose proof (Rabs_pos a) as P. split; [nra|]. split; [|intros ->; rewrite Rabs_R0; ring]. intros E. destruct (Req_dec a 0) as [|N]; [assumption|]. exfalso. apply (Rabs_no_R0 a N). nra. }
  split; [|split; [|split]].
  - intros r rexp w H. destruct (AZ (r - rexp) w H) as [A B]. split; [exact A|]. rewrite B. lra.
  - intros r rexp wr p pexp wp H1 H2 H3 H4. destruct (rel_zero r rexp H3) as [A B]. destruct (rel_zero p pexp H4) as [C D]. rewrite <- B, <- D. split; [nra|]. split; [intros E; split; nra|intros [-> ->]; ring].
  - intros r rexp wr p pexp wp w wexp ww H1 H2 H3 H4 H5 H6. destruct (rel_zero r rexp H4) as [A B]. destruct (rel_zero p pexp H5) as [C D]. destruct (rel_zero w wexp H6) as [E F]. rewrite <- B, <- D, <- F.
    assert (P1 : 0 <= rel r rexp * wr) by nra. assert (P2 : 0 <= rel p pexp * wp) by nra. assert (P3 : 0 <= rel w wexp * ww) by nra. split; [lra|]. split; [|intros (-> & -> & ->); ring].
    intros G. assert (Q1 : rel r rexp * wr = 0) by lra. assert (Q2 : rel p pexp * wp = 0) by lra. assert (Q3 : rel w wexp * ww = 0) by lra.
    repeat split; [apply Rmult_integral in Q1|apply Rmult_integral in Q2|apply Rmult_integral in Q3]; lra.
  - intros p pexp rho d w H H1 H2. destruct (AZ ((p - pexp) / rho / d) w H) as [A B]. split; [exact A|]. rewrite B. split.
    + intros E. assert (K : p - pexp = ((p - pexp) / rho / d) * rho * d) by (field; auto). rewrite E in K. lra.
    + intros ->. unfold Rminus. rewrite Rplus_opp_r. unfold Rdiv. ring.
Qed.
(** A weight of zero leaves its part out of [SatRhoLPW], even if that part is not a number; in
    the other kinds it does not. *)
Theorem C71_zero_weight : forall m T p rexp wexp g v A M Rg r a1 a2 a11 a20, m_VLE m T g v = Val r -> m_Ar0n m T r = Val (a1, a2) -> m_Ar11 m T r = Val a11 -> m_Ar20 m T r = Val a20 ->
  calculate m (SatRhoLPW (Some T) (Some p) (Some rexp) (Some wexp) (Some g) (Some v) (Some A) (Some M) (Some Rg) (Fin 0) (Fin 0) (Fin 0)) = Val (Fin 0).
Proof.
  intros m T p rexp wexp g v A M Rg r a1 a2 a11 a20 E1 E2 E3 E4. cbn [calculate value bind]. rewrite E1. cbn [bind]. rewrite E2. cbn [bind]. rewrite E3. cbn [bind]. rewrite E4. cbn [bind feq].
  destruct (Req_EM_T 0 0); [|contradiction]. cbn [fadd]. f_equal. f_equal. ring.
Qed.
Theorem C71_zero_weight_refuted : forall m T p rexp g v Rg a, m_VLE m T g v = Val NaN -> m_Ar01 m T NaN = Val a ->
  calculate m (SatRhoLP (Some T) (Some p) (Some rexp) (Some g) (Some v) (Fin 0) (Fin 0) Rg) = Val NaN.
Proof. intros m T p rexp g v Rg a E1 E2. cbn [calculate value bind]. rewrite E1. cbn [bind]. rewrite E2. cbn [bind]. unfold deviation at 1, fsub at 1. cbn [fadd fabs fdiv]. now destruct rexp as [|[]|]. Qed.

(** ** The density of a speed-of-sound point *)
Definition residual (m : eosf) (T p Rg rho res change : fl) : Prop :=
  exists a1 a2, m_Ar0n m T rho = Val (a1, a2) /\ res = fdiv (fsub (pressure_of rho Rg T a1) p) p /\ change = fdiv (fopp res) (fdiv (dpdrho_of Rg T a1 a2) p).
(** n applications of the step of Newton's method *)
Inductive newton (m : eosf) (T p Rg : fl) : nat -> fl -> fl -> Prop :=
  | newton_0 : forall rho, newton m T p Rg 0 rho rho
  | newton_S : forall n rho rho' res change, residual m T p Rg rho res change -> newton m T p Rg n (fadd rho change) rho' -> newton m T p Rg (S n) rho rho'.
(** The density is that of Newton's method after ten steps, or earlier if the residual is below
    1e-12 or the next step is within 1e-10 of the density itself. *)
Theorem C71_density : forall m T p Rg rho rho', sos_density m 10 T p Rg rho = Val rho' ->
  exists n, (n <= 10)%nat /\ newton m T p Rg n rho rho' /\
    (n = 10%nat \/ exists res change, residual m T p Rg rho' res change /\ (less (fabs res) (Fin (1 / 10 ^ 12)) \/ less (fabs (fsub (fdiv change rho') (Fin 1))) (Fin (1 / 10 ^ 10)))).
Proof.
  intros m T p Rg.
  enough (K : forall N rho rho', sos_density m N T p Rg rho = Val rho' -> exists n, (n <= N)%nat /\ newton m T p Rg n rho rho' /\
    (n = N \/ exists res change, residual m T p Rg rho' res change /\ (less (fabs res) (Fin (1 / 10 ^ 12)) \/ less (fabs (fsub (fdiv change rho') (Fin 1))) (Fin (1 / 10 ^ 10))))) by exact (K 10%nat).
  induction N as [|N IH]; intros rho rho' E; cbn [sos_density] in E.
  - exists 0%nat. split; [lia|]. injection E as <-. split; [constructor|now left].
  - destruct (m_Ar0n m T rho) as [[a1 a2]|e] eqn:A; [|discriminate]. cbn [bind] in E.
    set (res := fdiv (fsub (pressure_of rho Rg T a1) p) p) in *. set (change := fdiv (fopp res) (fdiv (dpdrho_of Rg T a1 a2) p)) in *.
    assert (RS : residual m T p Rg rho res change) by (exists a1, a2; auto). destruct (_ || _) eqn:B.
    + injection E as <-. exists 0%nat. split; [lia|]. split; [constructor|]. right. exists res, change. split; [exact RS|]. apply orb_true_iff in B. unfold less. destruct B as [B|B]; [right|left]; exact B.
    + apply IH in E. destruct E as (n & Hn & NW & F). exists (S n). split; [lia|]. split; [econstructor; eassumption|]. destruct F as [->|F]; [now left|now right].
Qed.
(** So a guess of half the density of an ideal gas is taken for the solution: the step doubles
    it, which ends the iteration. *)
Theorem C71_density_refuted : forall m T Rg rho, 0 < T -> 0 < Rg -> 0 < rho -> (forall r, m_Ar0n m (Fin T) (Fin r) = Val (Fin 0, Fin 0)) ->
  sos_density m 10 (Fin T) (Fin (pressure (2 * rho) Rg T 0)) (Fin Rg) (Fin rho) = Val (Fin rho) /\ pressure rho Rg T 0 = / 2 * pressure (2 * rho) Rg T 0.
Proof.
  intros m T Rg rho HT HR Hr A. split; [|unfold pressure; field]. cbn [sos_density]. rewrite A. cbn [bind]. rewrite pressure_fin. change (dpdrho_of (Fin Rg) (Fin T) (Fin 0) (Fin 0)) with (Fin (dpdrho Rg T 0 0)).
  assert (HP : 0 < pressure (2 * rho) Rg T 0) by (unfold pressure; repeat apply Rmult_lt_0_compat; lra). assert (HD : 0 < dpdrho Rg T 0 0) by (unfold dpdrho; repeat apply Rmult_lt_0_compat; lra).
  unfold fsub. cbn [fopp fadd fdiv]. destruct (Req_EM_T (pressure (2 * rho) Rg T 0) 0); [lra|]. cbn [fopp fdiv].
  assert (HQ : 0 < dpdrho Rg T 0 0 / pressure (2 * rho) Rg T 0) by (apply Rmult_lt_0_compat; [exact HD|now apply Rinv_0_lt_compat]).
  destruct (Req_EM_T (dpdrho Rg T 0 0 / pressure (2 * rho) Rg T 0) 0); [lra|]. cbn [fdiv]. destruct (Req_EM_T rho 0); [lra|]. cbn [fadd fabs flt].
  match goal with |- context [Rabs (?t + - (1))] => assert (E : t = 1) end.
  { unfold pressure, dpdrho. field. repeat split; lra. }
  rewrite E. rewrite Rplus_opp_r, Rabs_R0. destruct (Rlt_dec 0 (1 / 10 ^ 10)) as [|N]; [reflexivity|]. exfalso. apply N. apply Rdiv_lt_0_compat; [lra|apply pow_lt; lra].
Qed.
Example C71_density_met : exists m, forall r, m_Ar0n m (Fin 300) (Fin r) = Val (Fin 0, Fin 0).
Proof. exists {| m_VLE := fun _ _ _ => Val (Fin 3); m_Ar0n := fun _ _ => Val (Fin 0, Fin 0); m_Ar01 := fun _ _ => Val (Fin 0); m_Ar11 := fun _ _ => Val (Fin 0); m_Ar20 := fun _ _ => Val (Fin 0) |}. reflexivity. Qed.
Print Assumptions C71_fields.
Print Assumptions C71_total.
Print Assumptions C71_sound_speed.
Print Assumptions C71_values.
Print Assumptions C71_zero.
Print Assumptions C71_zero_weight.
Print Assumptions C71_zero_weight_refuted.
Print Assumptions C71_density.
Print Assumptions C71_density_refuted.
