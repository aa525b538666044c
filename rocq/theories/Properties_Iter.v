(** Theorems C42 (the Newton iteration), C43 (stopping conditions) and C60 (residuals). *)
From Coq Require Import Reals ZArith String Ascii List Lia Lra Bool Psatz.
From Coquelicot Require Import Coquelicot.
From Verif Require Import Json_model Cubic_model Derivs_model Derivs_spec Float_model Iter_model Iter_spec Iter_proofs.
Import ListNotations.
Open Scope R_scope.

(** ** C42: the history of a call *)
Theorem C42_steps : forall calc lu vals rel cs idx N s s' why, idx <> [] ->
  take_steps calc lu vals rel cs idx N s = Some (s', Val why) -> stops_right (newton calc lu vals rel) cs N idx s s' why.
Proof.
  intros calc lu vals rel cs idx N s s' why NI H. unfold take_steps in H. destruct (Z.leb_spec N 0); [discriminate|]. rewrite steps_gloop in H.
  destruct (gloop_val _ _ _ _ _ _ _ _ NI H) as [[E _]|[k [x [dx [r [W [L D]]]]]]]; [lia|].
  exists k, x, dx, r. split; [apply (walk_ext _ _ _ _ _ _ _ _ _ _ _ (fun a b c => proj1 (step_newton calc lu vals rel a b c)) W)|]. split; [lia|].
  destruct D as [D|[D1 D2]]; [left; exact D|right; split; [lia|exact D2]].
Qed.
Theorem C42_steps_logrho : forall calc lu vals rel cs idx N s s' why, idx <> [] ->
  take_steps_logrho calc lu vals rel cs idx N s = Some (s', Val why) -> stops_right (newton_log calc lu vals rel) cs N idx s s' why.
Proof.
  intros calc lu vals rel cs idx N s s' why NI H. unfold take_steps_logrho in H. destruct (Z.leb_spec N 0); [discriminate|]. rewrite log_gloop in H.
  destruct (gloop_val _ _ _ _ _ _ _ _ NI H) as [[E _]|[k [x [dx [r [W [L D]]]]]]]; [lia|].
  exists k, x, dx, r. split; [apply (walk_ext _ _ _ _ _ _ _ _ _ _ _ (fun a b c => proj1 (step_newton_log calc lu vals rel a b c)) W)|]. split; [lia|].
  destruct D as [D|[D1 D2]]; [left; exact D|right; split; [lia|exact D2]].
Qed.
(** Exceptions: N <= 0 changes nothing; otherwise the evaluation at the last point threw,
    and the object holds the state reached before it. *)
Definition stopped_by (is_step : vec -> vec -> vec -> Prop) (throws : vec -> error -> Prop) cs N idx s s' e : Prop :=
  exists k x dx r, walk is_step cs N idx s s' k x dx r /\ (Z.of_nat k < N)%Z /\ throws (nr_Trho s') e /\ nr_msg s' = nr_msg s /\
  forall i b, (i < k)%nat -> In b cs -> c_stop b (asked N idx x dx r i) = keep_going.
Theorem C42_exceptions : forall calc lu vals rel cs idx N s s' e (log : bool), idx <> [] ->
  (if log then take_steps_logrho else take_steps) calc lu vals rel cs idx N s = Some (s', Err e) ->
  ((N <= 0)%Z /\ e = InvalidArgument /\ s' = s) \/
  ((0 < N)%Z /\ stopped_by ((if log then newton_log else newton) calc lu vals rel) (fun x e => calc x = Some (Err e)) cs N idx s s' e).
Proof.
  intros calc lu vals rel cs idx N s s' e log NI H.
  destruct log; unfold take_steps_logrho, take_steps in H; destruct (Z.leb_spec N 0); try (injection H as <- <-; auto); right; (split; [lia|]);
    rewrite ?log_gloop, ?steps_gloop in H; destruct (gloop_err _ _ _ _ _ _ _ _ NI H) as [k [x [dx [r [W [L [E [M G]]]]]]]]; exists k, x, dx, r.
  - split; [apply (walk_ext _ _ _ _ _ _ _ _ _ _ _ (fun a b c => proj1 (step_newton_log calc lu vals rel a b c)) W)|]. split; [lia|]. split; [|auto].
    unfold step_log in E. destruct (calc (nr_Trho s')) as [[im|e1]|]; try discriminate. injection E as <-. reflexivity.
  - split; [apply (walk_ext _ _ _ _ _ _ _ _ _ _ _ (fun a b c => proj1 (step_newton calc lu vals rel a b c)) W)|]. split; [lia|]. split; [|auto].
    unfold step_of in E. destruct (calc (nr_Trho s')) as [[im|e1]|]; try discriminate. injection E as <-. reflexivity.
Qed.
Theorem C42_nonpositive : forall calc lu vals rel cs idx N s, (N <= 0)%Z ->
  take_steps calc lu vals rel cs idx N s = Some (s, Err InvalidArgument) /\ take_steps_logrho calc lu vals rel cs idx N s = Some (s, Err InvalidArgument).
Proof. intros. unfold take_steps, take_steps_logrho. destruct (Z.leb_spec N 0); [auto|lia]. Qed.
(** A call returns whenever the model can be evaluated. *)
Theorem C42_returns : forall calc lu vals rel cs idx N s, (0 < N)%Z -> (forall x, exists im, calc x = Some (Val im)) ->
  (exists s' why, take_steps calc lu vals rel cs idx N s = Some (s', Val why)) /\
  (exists s' why, take_steps_logrho calc lu vals rel cs idx N s = Some (s', Val why)).
Proof.
  intros calc lu vals rel cs idx N s HN H. unfold take_steps, take_steps_logrho. destruct (Z.leb_spec N 0); [lia|]. split.
  - rewrite steps_gloop. apply gloop_total. intros x. destruct (H x) as [im E]. unfold step_of. rewrite E. eauto.
  - rewrite log_gloop. apply gloop_total. intros x. destruct (H x) as [im E]. unfold step_log. rewrite E. eauto.
Qed.

(** ** C42: what a step does *)
Definition finite_matrices (calc : vec -> outcome matrices) (x : vec) v0 v1 J00 J01 J10 J11 : Prop :=
  calc x = Some (Val {| im_v := (Fin v0, Fin v1); im_J := ((Fin J00, Fin J01), (Fin J10, Fin J11)) |}).
(** a target value by which the residual is divided must not be zero *)
Definition divisible (rel : bool * bool) (t0 t1 : R) : Prop := (fst rel = true -> t0 <> 0) /\ (snd rel = true -> t1 <> 0).
Lemma rel_fin : forall (b : bool) a t, (b = true -> t <> 0) -> relative b (Fin a) (Fin t) = Fin (a * (if b then / t else 1)).
Proof. intros [|] a t H; simpl; [|f_equal; ring]. destruct (Req_EM_T t 0); [exfalso; apply H; auto|reflexivity]. Qed.
Lemma rel_nz : forall (b : bool) t, (b = true -> t <> 0) -> (if b then / t else 1) <> 0.
Proof. intros [|] t H; [apply Rinv_neq_0_compat; auto|lra]. Qed.
(** The increment solves the linearised equations exactly, with or without relative residuals. *)
Theorem C42_newton : forall calc lu rel t0 t1 x dx r v0 v1 J00 J01 J10 J11, lu_exact lu -> divisible rel t0 t1 ->
  finite_matrices calc x v0 v1 J00 J01 J10 J11 -> J00 * J11 - J01 * J10 <> 0 -> newton calc lu (Fin t0, Fin t1) rel x dx r ->
  exists dT drho, dx = (Fin dT, Fin drho) /\ v0 + J00 * dT + J01 * drho = t0 /\ v1 + J10 * dT + J11 * drho = t1.
Proof.
  intros calc lu rel t0 t1 x dx r v0 v1 J00 J01 J10 J11 HL [D0 D1] HF HD [w0 [w1 [a [b [c [d [E [Er Ex]]]]]]]]. unfold finite_matrices in HF. rewrite HF in E. injection E as <- <- <- <- <- <-.
  cbn [fst snd fsub fopp fadd] in *. rewrite !rel_fin in Ex by auto. rewrite !rel_fin in Er by auto. rewrite Er in Ex. cbn [fst snd fopp] in Ex.
  assert (N0 := rel_nz _ _ D0). assert (N1 := rel_nz _ _ D1). set (k0 := if fst rel then / t0 else 1) in *. set (k1 := if snd rel then / t1 else 1) in *.
  destruct (HL (J00 * k0) (J01 * k0) (J10 * k1) (J11 * k1) (- ((v0 + - t0) * k0)) (- ((v1 + - t1) * k1))) as [s [t [Es [E0 E1]]]].
  { replace (J00 * k0 * (J11 * k1) - J01 * k0 * (J10 * k1)) with ((J00 * J11 - J01 * J10) * (k0 * k1)) by ring. auto. }
  exists s, t. split; [rewrite Ex, Es; reflexivity|]. split; [apply (Rmult_eq_reg_l k0); auto; lra|apply (Rmult_eq_reg_l k1); auto; lra].
Qed.
(** With the logarithm of the density as unknown: a positive density stays positive. *)
Theorem C42_newton_logrho : forall calc lu rel t0 t1 T rho dx r v0 v1 J00 J01 J10 J11, lu_exact lu -> divisible rel t0 t1 -> 0 < rho ->
  finite_matrices calc (T, Fin rho) v0 v1 J00 J01 J10 J11 -> J00 * J11 - J01 * J10 <> 0 -> newton_log calc lu (Fin t0, Fin t1) rel (T, Fin rho) dx r ->
  exists dT dln, dx = (Fin dT, Fin (rho * (exp dln - 1))) /\ v0 + J00 * dT + J01 * (rho * dln) = t0 /\ v1 + J10 * dT + J11 * (rho * dln) = t1 /\
  exists rho', vadd (T, Fin rho) dx = (fadd T (Fin dT), Fin rho') /\ 0 < rho' /\ ln rho' = ln rho + dln.
Proof.
  intros calc lu rel t0 t1 T rho dx r v0 v1 J00 J01 J10 J11 HL [D0 D1] Hr HF HD [w0 [w1 [a [b [c [d [eT [el [E [Er [Es Ex]]]]]]]]]]]. unfold finite_matrices in HF. rewrite HF in E. injection E as <- <- <- <- <- <-.
  cbn [fst snd fsub fopp fadd fmul] in *. rewrite !rel_fin in Es by auto. rewrite !rel_fin in Er by auto. rewrite Er in Es. cbn [fst snd fopp] in Es.
  assert (N0 := rel_nz _ _ D0). assert (N1 := rel_nz _ _ D1). set (k0 := if fst rel then / t0 else 1) in *. set (k1 := if snd rel then / t1 else 1) in *.
  destruct (HL (J00 * k0) (J01 * rho * k0) (J10 * k1) (J11 * rho * k1) (- ((v0 + - t0) * k0)) (- ((v1 + - t1) * k1))) as [s [t [Eu [E0 E1]]]].
  { replace (J00 * k0 * (J11 * rho * k1) - J01 * rho * k0 * (J10 * k1)) with ((J00 * J11 - J01 * J10) * (rho * k0 * k1)) by ring.
    assert (rho <> 0) by lra. repeat (apply Rmult_integral_contrapositive_currified; auto). }
  rewrite Eu in Es. injection Es as -> ->. exists s, t. split; [rewrite Ex; reflexivity|].
  split; [apply (Rmult_eq_reg_l k0); auto; lra|]. split; [apply (Rmult_eq_reg_l k1); auto; lra|].
  exists (rho * exp t). split; [|split].
  - rewrite Ex. unfold vadd. cbn. f_equal. f_equal. ring.
  - apply Rmult_lt_0_compat; auto. apply exp_pos.
  - rewrite ln_mult, ln_exp by (auto; apply exp_pos). reflexivity.
Qed.
(** With temperature and density as inputs one step reaches the targets. *)
Theorem C42_TD : forall (swap : bool) A Rg z lu rel t0 t1 cs N s T rho, let vars := if swap then ["D"; "T"]%char else ["T"; "D"]%char in
  lu_exact lu -> divisible rel t0 t1 -> (0 < N)%Z -> nr_Trho s = (Fin T, Fin rho) -> T <> 0 -> rho <> 0 ->
  nonconstant vars = Some [] /\
  exists s', take_steps (calc_matrices vars A Rg z) lu (Fin t0, Fin t1) rel cs [] N s = Some (s', Val success) /\
  nr_Trho s' = (if swap then (Fin t1, Fin t0) else (Fin t0, Fin t1)) /\ nr_count s' = (nr_count s + 1)%Z.
Proof.
  intros swap A Rg z lu rel t0 t1 cs N s T rho vars HL HD HN Hs HT Hr. split; [unfold vars; destruct swap; reflexivity|].
  unfold take_steps. destruct (Z.leb_spec N 0); [lia|]. rewrite steps_gloop. destruct (Z.to_nat N) eqn:EN; [lia|]. cbn [gloop].
  destruct (step_of _ _ _ _ _) as [[[d r]|e]|] eqn:E.
  2,3: unfold step_of in E; rewrite Hs in E; unfold calc_matrices in E; destruct (Req_EM_T T 0); [contradiction|]; destruct (Req_EM_T rho 0); [contradiction|]; unfold vars in E; destruct swap; discriminate.
  assert (W := proj1 (step_newton _ _ _ _ _ _ _) E). rewrite Hs in W. eexists. split; [reflexivity|]. cbn [nr_Trho nr_count]. split; [|reflexivity]. rewrite Hs.
  assert (C : finite_matrices (calc_matrices vars A Rg z) (Fin T, Fin rho) (if swap then rho else T) (if swap then T else rho) (if swap then 0 else 1) (if swap then 1 else 0) (if swap then 1 else 0) (if swap then 0 else 1)).
  { unfold finite_matrices, calc_matrices. destruct (Req_EM_T T 0); [contradiction|]. destruct (Req_EM_T rho 0); [contradiction|]. unfold vars. destruct swap; reflexivity. }
  destruct (C42_newton _ _ _ _ _ _ _ _ _ _ _ _ _ _ HL HD C ltac:(destruct swap; lra) W) as [dT [dr [-> [E0 E1]]]]. unfold vadd. cbn [fst snd fadd].
  destruct swap; f_equal; f_equal; lra.
Qed.
(** Finding: in the logarithmic form the single step for temperature and density inputs
    does not reach the target density, but is reported as a success. *)
Theorem C42_TD_logrho_refuted : forall A Rg z lu cs, lu_exact lu ->
  let s := {| nr_Trho := (Fin 300, Fin 1); nr_count := 0; nr_msg := "" |} in
  exists s', take_steps_logrho (calc_matrices ["T"; "D"]%char A Rg z) lu (Fin 300, Fin 2) (false, false) cs [] 10 s = Some (s', Val success) /\
  nr_count s' = 1%Z /\ nr_Trho s' = (Fin 300, Fin (exp 1)) /\ exp 1 <> 2.
Proof.
  intros A Rg z lu cs HL s. unfold take_steps_logrho. cbn [Z.leb Z.compare]. rewrite log_gloop. change (Z.to_nat 10) with 10%nat. cbn [gloop].
  assert (C : finite_matrices (calc_matrices ["T"; "D"]%char A Rg z) (Fin 300, Fin 1) 300 1 1 0 0 1).
  { unfold finite_matrices, calc_matrices. destruct (Req_EM_T 300 0); [lra|]. destruct (Req_EM_T 1 0); [lra|]. reflexivity. }
  destruct (step_log _ _ _ _ (nr_Trho s)) as [[[d r]|e]|] eqn:E.
  2,3: unfold step_log in E; cbn [s nr_Trho] in E; rewrite C in E; discriminate.
  assert (W := proj1 (step_newton_log _ _ _ _ _ _ _) E). cbn [s nr_Trho] in W.
  assert (DD : 1 * 1 - 0 * 0 <> 0) by lra. assert (DV : divisible (false, false) 300 2) by (split; intros Q; discriminate Q).
  destruct (C42_newton_logrho _ _ _ _ _ _ _ _ _ _ _ _ _ _ _ HL DV Rlt_0_1 C DD W) as [dT [dl [Ed [E0 [E1 [rho' [V [P L]]]]]]]].
  eexists. split; [reflexivity|]. cbn [nr_count nr_Trho s]. split; [reflexivity|]. rewrite V. cbn [fadd]. rewrite ln_1 in L.
  assert (dT = 0) by lra. assert (D1 : dl = 1) by lra. split.
  - f_equal; [f_equal; lra|]. f_equal. rewrite <- (exp_ln rho') by auto. f_equal. lra.
  - assert (H2 := exp_ineq1 (1/2) ltac:(lra)). assert (exp 1 = exp (1/2) * exp (1/2)) by (rewrite <- exp_plus; f_equal; lra). nra.
Qed.
(** The constructor's list of varied quantities: temperature (0) unless T is given, density
    (1) unless D is given. *)
Theorem C42_varied : forall v0 v1 rest, exists idx, nonconstant (v0 :: v1 :: rest) = Some idx /\
  (In 0%nat idx <-> v0 <> "T"%char /\ v1 <> "T"%char) /\ (In 1%nat idx <-> v0 <> "D"%char /\ v1 <> "D"%char).
Proof.
  intros v0 v1 rest. eexists. split; [reflexivity|].
  destruct (Ascii.eqb_spec v0 "T"), (Ascii.eqb_spec v1 "T"), (Ascii.eqb_spec v0 "D"), (Ascii.eqb_spec v1 "D"); simpl; split; split; intros H; try tauto; try (destruct H as [H|H]; [discriminate|tauto]); try (intuition congruence).
Qed.
(** ** C42: path integration *)
(** Whenever the Jacobian is regular, the increment solves J (dT, drho) = rate * dt, also if
    some of its entries are zero. *)
Lemma fdiv_inf : forall a s, fdiv (Fin a) (Inf s) = Fin 0. Proof. reflexivity. Qed.
Lemma slope : forall p q r s, q * r - p * s <> 0 -> s <> 0 -> fsub (Fin p) (fdiv (fmul (Fin q) (Fin r)) (Fin s)) = Fin (- (q * r - p * s) / s) /\ - (q * r - p * s) / s <> 0.
Proof.
  intros p q r s D S. cbn [fmul fdiv]. destruct (Req_EM_T s 0); [contradiction|]. cbn. split; [f_equal; field; auto|].
  unfold Rdiv. apply Rmult_integral_contrapositive. split; [lra|apply Rinv_neq_0_compat; auto].
Qed.
Lemma slope_inf : forall p q r, q * r <> 0 -> exists t, fsub (Fin p) (fdiv (fmul (Fin q) (Fin r)) (Fin 0)) = Inf t.
Proof. intros p q r D. cbn [fmul fdiv]. destruct (Req_EM_T 0 0); [|lra]. destruct (Req_EM_T (q * r) 0); [contradiction|]. cbn. eauto. Qed.
Theorem C42_path_step : forall J00 J01 J10 J11 rx ry h, J00 * J11 - J01 * J10 <> 0 ->
  exists dT drho, path_step ((Fin J00, Fin J01), (Fin J10, Fin J11)) (Fin rx) (Fin ry) (Fin h) = (Fin dT, Fin drho) /\
  J00 * dT + J01 * drho = rx * h /\ J10 * dT + J11 * drho = ry * h.
Proof.
  intros J00 J01 J10 J11 rx ry h D. set (det := J00 * J11 - J01 * J10) in *.
  (* each of the four slopes is +-det over an entry, or infinite if the entry is zero *)
  assert (Q : forall p q r s a, q * r - p * s = det \/ q * r - p * s = - det -> exists e, fdiv (Fin a) (fsub (Fin p) (fdiv (fmul (Fin q) (Fin r)) (Fin s))) = Fin e /\ e * (q * r - p * s) = - (a * s)).
  { intros p q r s a H. assert (H' : q * r - p * s <> 0) by (destruct H as [-> | ->]; lra). destruct (Req_EM_T s 0) as [->|S].
    - destruct (slope_inf p q r) as [t ->]; [lra|]. exists 0. split; [reflexivity|ring].
    - destruct (slope p q r s H' S) as [-> N]. cbn [fdiv]. destruct (Req_EM_T _ 0); [contradiction|]. eexists. split; [reflexivity|]. field. auto. }
  unfold path_step. cbn [fst snd].
  destruct (Q J00 J01 J10 J11 rx) as [e1 [-> E1]]; [right; unfold det; ring|].
  destruct (Q J10 J11 J00 J01 ry) as [e2 [-> E2]]; [left; unfold det; ring|].
  destruct (Q J01 J00 J11 J10 rx) as [e3 [-> E3]]; [left; unfold det; ring|].
  destruct (Q J11 J10 J01 J00 ry) as [e4 [-> E4]]; [right; unfold det; ring|].
  cbn [fadd fmul]. eexists. eexists. split; [reflexivity|]. split; apply (Rmult_eq_reg_l det); auto.
  - replace (det * (J00 * ((e1 + e2) * h) + J01 * ((e3 + e4) * h))) with (h * (J00 * (- (e1 * (J01 * J10 - J00 * J11)) + e2 * (J11 * J00 - J10 * J01)) + J01 * (e3 * (J00 * J11 - J01 * J10) - e4 * (J10 * J01 - J11 * J00)))) by (unfold det; ring).
    rewrite E1, E2, E3, E4. unfold det. ring.
  - replace (det * (J10 * ((e1 + e2) * h) + J11 * ((e3 + e4) * h))) with (h * (J10 * (- (e1 * (J01 * J10 - J00 * J11)) + e2 * (J11 * J00 - J10 * J01)) + J11 * (e3 * (J00 * J11 - J01 * J10) - e4 * (J10 * J01 - J11 * J00)))) by (unfold det; ring).
    rewrite E1, E2, E3, E4. unfold det. ring.
Qed.
(** The integration is N such steps along the straight line to the target values. *)
Theorem C42_path : forall calc vals x0 N x' v', (0 < N)%nat -> path_integration calc vals x0 N = Some (Val (x', v')) ->
  exists (x : nat -> vec) (im : nat -> matrices), x O = x0 /\ x N = x' /\ im_v (im N) = v' /\ (forall i, (i <= N)%nat -> calc (x i) = Some (Val (im i))) /\
  forall i, (i < N)%nat -> forall t0 t1 v0 v1 J00 J01 J10 J11, vals = (Fin t0, Fin t1) -> im_v (im O) = (Fin v0, Fin v1) ->
    im_J (im i) = ((Fin J00, Fin J01), (Fin J10, Fin J11)) -> J00 * J11 - J01 * J10 <> 0 ->
    exists dT drho, x (S i) = vadd (x i) (Fin dT, Fin drho) /\ J00 * dT + J01 * drho = (t0 - v0) / INR N /\ J10 * dT + J11 * drho = (t1 - v1) / INR N.
Proof.
  intros calc vals x0 N x' v' HN H. unfold path_integration in H. destruct (calc x0) as [[im0|e]|] eqn:E0; try discriminate. cbn [obind] in H.
  assert (G : forall n rate dt y imy, calc y = Some (Val imy) -> path_loop calc n rate dt y imy = Some (Val (x', v')) ->
    exists (x : nat -> vec) (im : nat -> matrices), x O = y /\ im O = imy /\ x n = x' /\ im_v (im n) = v' /\ (forall i, (i <= n)%nat -> calc (x i) = Some (Val (im i))) /\
    forall i, (i < n)%nat -> x (S i) = vadd (x i) (path_step (im_J (im i)) (fst rate) (snd rate) dt)).
  { induction n as [|n IH]; intros rate dt y imy Ey L; simpl in L.
    - injection L as <- <-. exists (fun _ => y), (fun _ => imy). repeat split; intros; auto; lia.
    - destruct (calc (vadd y _)) as [[im1|e1]|] eqn:E1; try discriminate. cbn [obind] in L. destruct (IH _ _ _ _ E1 L) as [x [im [X0 [I0 [Xn [In [C S]]]]]]].
      exists (fun i => match i with O => y | S j => x j end), (fun i => match i with O => imy | S j => im j end). repeat split; auto.
      + intros [|i] Hi; [exact Ey|]. apply C. lia.
      + intros [|i] Hi; [exact X0|]. apply S. lia. }
  destruct (G _ _ _ _ _ E0 H) as [x [im [X0 [I0 [Xn [In [C S]]]]]]]. exists x, im. repeat split; auto.
  intros i Hi t0 t1 v0 v1 J00 J01 J10 J11 -> EV EJ D. rewrite (S i Hi), EJ. rewrite I0 in EV. rewrite EV. cbn [vsub fst snd fsub fopp fadd fdiv].
  assert (HI : INR N <> 0) by (apply not_0_INR; lia). destruct (Req_EM_T (INR N) 0); [contradiction|].
  destruct (C42_path_step J00 J01 J10 J11 (t0 + - v0) (t1 + - v1) (1 / INR N) D) as [dT [dr [-> [A B]]]]. exists dT, dr. split; [reflexivity|]. rewrite A, B. split; field; auto.
Qed.

(** ** C43: the stopping conditions *)
Definition verdict (c : condition) (d : sdata) (fires : reason) (P : Prop) : Prop := (P /\ c_stop c d = fires) \/ (~ P /\ c_stop c d = keep_going).
Theorem C43_MaxAbsError : forall mx t d a b, is_max mx -> sd_r d = (Fin a, Fin b) ->
  verdict (MaxAbsError mx (Fin t)) d success (Rabs a < t /\ Rabs b < t).
Proof.
  intros mx t d a b M E. unfold verdict. cbn [MaxAbsError c_stop]. rewrite E. cbn [fst snd fabs]. rewrite M by discriminate. cbn [flt].
  destruct (Rlt_dec (Rabs a) (Rabs b)); cbn [flt]; [destruct (Rlt_dec (Rabs b) t)|destruct (Rlt_dec (Rabs a) t)]; [left|right|left|right]; (split; [|reflexivity]); lra.
Qed.
Theorem C43_MaxAbsError_infinite : forall mx t d s a, is_max mx -> a <> NaN -> sd_r d = (Inf s, a) \/ sd_r d = (a, Inf s) ->
  c_stop (MaxAbsError mx (Fin t)) d = keep_going.
Proof.
  intros mx t d s a M NA E. cbn [MaxAbsError c_stop]. destruct E as [-> | ->]; cbn [fst snd fabs]; rewrite M by (destruct a; discriminate || contradiction); destruct a as [a|u|]; try contradiction; reflexivity.
Qed.
(** Finding: with either of Eigen's implementations of the maximum (comparing first < second,
    or the SSE2 instruction), one residual being NaN can be reported as a success. *)
Definition scalar_max (a b : fl) : fl := if flt a b then b else a.
Definition sse_max (a b : fl) : fl := if flt b a then a else b.
Theorem C43_MaxAbsError_nan_refuted : is_max scalar_max /\ (forall a b, a <> NaN -> b <> NaN -> flt (sse_max a b) (scalar_max a b) = false /\ flt (scalar_max a b) (sse_max a b) = false) /\
  forall t N x dx idx, 0 < t -> c_stop (MaxAbsError scalar_max (Fin t)) {| sd_N := N; sd_x := x; sd_dx := dx; sd_r := (Fin 0, NaN); sd_idx := idx |} = success /\
  c_stop (MaxAbsError sse_max (Fin t)) {| sd_N := N; sd_x := x; sd_dx := dx; sd_r := (NaN, Fin 0); sd_idx := idx |} = success.
Proof.
  split; [intros a b _ _; reflexivity|]. split.
  - intros a b Na Nb. unfold sse_max, scalar_max. destruct a as [a|[|]|], b as [b|[|]|]; try contradiction; simpl; try (split; reflexivity);
      try (split; destruct (Rlt_dec _ _); auto; lra).
    destruct (Rlt_dec b a); [destruct (Rlt_dec a b); [lra|]|destruct (Rlt_dec a b)]; simpl; split; destruct (Rlt_dec _ _); auto; lra.
  - intros t N x dx idx Ht. cbn. rewrite Rabs_R0. destruct (Rlt_dec 0 t); [auto|lra].
Qed.
(** The smallest of the relative step sizes counts: one small step among the varied
    quantities is enough. *)
Theorem C43_MinRelStepsize : forall t d x0 x1 d0 d1, t <= 1e99 -> sd_x d = (Fin x0, Fin x1) -> sd_dx d = (Fin d0, Fin d1) -> x0 <> 0 -> x1 <> 0 ->
  (forall i, In i (sd_idx d) -> (i <= 1)%nat) ->
  verdict (MinRelStepsize (Fin t)) d success (In 0%nat (sd_idx d) /\ Rabs (d0 / x0) < t \/ In 1%nat (sd_idx d) /\ Rabs (d1 / x1) < t).
Proof.
  intros t d x0 x1 d0 d1 Ht E1 E2 N0 N1 HI. unfold verdict. cbn [MinRelStepsize c_stop]. unfold min_rel. rewrite E1, E2.
  set (val := fun i => match i with O => Rabs (d0 / x0) | _ => Rabs (d1 / x1) end).
  assert (EV : forall i, fabs (fdiv (vget (Fin d0, Fin d1) i) (vget (Fin x0, Fin x1) i)) = Fin (val i)).
  { intros [|i]; cbn [vget fst snd fdiv]; [destruct (Req_EM_T x0 0)|destruct (Req_EM_T x1 0)]; try contradiction; reflexivity. }
  assert (G : forall l m, exists w, fold_left (fun minval i => fmin (fabs (fdiv (vget (Fin d0, Fin d1) i) (vget (Fin x0, Fin x1) i))) minval) l (Fin m) = Fin w /\
    (w < t <-> m < t \/ exists i, In i l /\ val i < t)).
  { induction l as [|i l IH]; intros m; cbn [fold_left].
    - exists m. split; [reflexivity|]. split; [auto|]. intros [H|[i [[] _]]]; auto.
    - rewrite EV. unfold fmin at 2. cbn [flt]. destruct (Rlt_dec m (val i)) as [L|L].
      + destruct (IH m) as [w [-> W]]. exists w. split; [reflexivity|]. rewrite W. split; intros [H|[j [Hj Hv]]]; auto; [right; exists j; split; [right|]; auto| ].
        destruct Hj as [<-|Hj]; [left; lra|right; exists j; auto].
      + destruct (IH (val i)) as [w [-> W]]. exists w. split; [reflexivity|]. rewrite W. split.
        * intros [H|[j [Hj Hv]]]; right; [exists i|exists j]; split; auto; [left|right]; auto.
        * intros [H|[j [[<-|Hj] Hv]]]; [left; lra|left; auto|right; exists j; auto]. }
  destruct (G (sd_idx d) 1e99) as [w [-> W]]. cbn [flt]. destruct (Rlt_dec w t) as [L|L]; [left|right]; (split; [|reflexivity]).
  - apply W in L. destruct L as [L|[[|[|i]] [Hi Hv]]]; [lra|left|right|specialize (HI _ Hi); lia]; auto.
  - intros H. apply L, W. right. destruct H as [[Hi Hv]|[Hi Hv]]; [exists 0%nat|exists 1%nat]; auto.
Qed.
(** Finding: a temperature step that is NaN is ignored if the density step is small. *)
Theorem C43_MinRelStepsize_nan_refuted : forall t N r T rho, 0 < t -> rho <> 0 ->
  c_stop (MinRelStepsize (Fin t)) {| sd_N := N; sd_x := (Fin T, Fin rho); sd_dx := (NaN, Fin 0); sd_r := r; sd_idx := [0%nat; 1%nat] |} = success.
Proof.
  intros t N r T rho Ht Hr. cbn [MinRelStepsize c_stop]. unfold min_rel. cbn [sd_idx fold_left sd_dx sd_x vget fst snd].
  assert (E0 : fmin (fabs (fdiv NaN (Fin T))) (Fin 1e99) = NaN) by reflexivity. rewrite E0. cbn [fdiv]. destruct (Req_EM_T rho 0); [contradiction|].
  cbn. replace (0 / rho) with 0 by (field; auto). rewrite Rabs_R0. destruct (Rlt_dec 0 t); [reflexivity|lra].
Qed.
Theorem C43_NanXDX : forall d, (forall i, In i (sd_idx d) -> (i <= 1)%nat) ->
  verdict NanXDXError d fatal (exists i, In i (sd_idx d) /\ ~ ((exists a, vget (sd_x d) i = Fin a) /\ exists b, vget (sd_dx d) i = Fin b)).
Proof.
  intros d _. unfold verdict. cbn [NanXDXError c_stop]. destruct (existsb _ _) eqn:E; [left|right]; (split; [|reflexivity]).
  - apply existsb_exists in E. destruct E as [i [Hi E]]. exists i. split; auto. intros [[a Ea] [b Eb]]. rewrite Ea, Eb in E. discriminate.
  - intros [i [Hi H]]. assert (K := existsb_exists (fun i => negb (isfinite (vget (sd_x d) i)) || negb (isfinite (vget (sd_dx d) i))) (sd_idx d)).
    rewrite E in K. assert (F : negb (isfinite (vget (sd_x d) i)) || negb (isfinite (vget (sd_dx d) i)) = true); [|apply (proj2 K) in F || (assert (false = true) by (apply K; eauto); discriminate); discriminate].
    destruct (vget (sd_x d) i) as [a| |] eqn:Ea, (vget (sd_dx d) i) as [b| |] eqn:Eb; try reflexivity. exfalso. apply H. eauto.
Qed.
Theorem C43_NegativeX : forall d, 
  verdict NegativeXError d fatal (exists i, In i (sd_idx d) /\ (vget (sd_x d) i = Inf true \/ exists a, vget (sd_x d) i = Fin a /\ a < 0)).
Proof.
  intros d. unfold verdict. cbn [NegativeXError c_stop].
  assert (K := existsb_exists (fun i => flt (vget (sd_x d) i) (Fin 0)) (sd_idx d)).
  assert (P : forall v, flt v (Fin 0) = true <-> (v = Inf true \/ exists a, v = Fin a /\ a < 0)).
  { intros [a|[|]|]; cbn [flt]; split; intros H; auto; try discriminate.
    - destruct (Rlt_dec a 0); [eauto|discriminate].
    - destruct H as [H|[b [H L]]]; [discriminate|]. injection H as <-. destruct (Rlt_dec a 0); [auto|lra].
    - destruct H as [H|[b [H L]]]; discriminate.
    - destruct H as [H|[b [H L]]]; discriminate. }
  destruct (existsb _ _) eqn:E; [left|right]; (split; [|reflexivity]).
  - destruct (proj1 K eq_refl) as [i [Hi F]]. exists i. split; auto. apply P. auto.
  - intros [i [Hi H]]. assert (false = true) by (apply K; exists i; split; auto; apply P; auto). discriminate.
Qed.
(** What the step-count condition tests: the number of steps asked for in this call. *)
Definition is_int (z : Z) : Prop := (- 2 ^ 31 <= z < 2 ^ 31)%Z.
Theorem C43_StepCount_partial : forall Nmax d, is_int Nmax -> (0 < sd_N d)%Z -> is_int (sd_N d) ->
  verdict (StepCountError Nmax) d fatal (0 <= Nmax <= sd_N d)%Z.
Proof.
  intros Nmax d HM HN HI. unfold verdict, is_int in *. cbn [StepCountError c_stop]. unfold to_size. rewrite (Z.mod_small (sd_N d)) by lia.
  destruct (Z_lt_le_dec Nmax 0) as [L|L].
  - assert (E : (Nmax mod 2 ^ 64 = Nmax + 2 ^ 64)%Z) by (symmetry; apply Z.mod_unique with (-1)%Z; lia). rewrite E. right. split; [lia|]. destruct (Z.leb_spec (Nmax + 2 ^ 64) (sd_N d)); [lia|reflexivity].
  - rewrite (Z.mod_small Nmax) by lia. destruct (Z.leb_spec Nmax (sd_N d)); [left|right]; (split; [lia|reflexivity]).
Qed.
(** Finding: the documentation says that the number of steps taken so far is tested.  With a
    limit not above the number of steps asked for, the first step is declared fatal; with a
    larger limit the condition never fires, however often the call is repeated. *)
Theorem C43_StepCount_refuted : forall calc lu vals rel idx Nmax s im, (0 < Nmax < 2 ^ 31)%Z -> idx <> [] -> calc (nr_Trho s) = Some (Val im) ->
  (exists s', take_steps calc lu vals rel [StepCountError Nmax] idx Nmax s = Some (s', Val fatal) /\ nr_count s' = (nr_count s + 1)%Z) /\
  forall N s1 s2 why, (0 < N < Nmax)%Z -> take_steps calc lu vals rel [StepCountError Nmax] idx N s1 = Some (s2, Val why) ->
    nr_count s2 = (nr_count s1 + N)%Z /\ nr_msg s2 = nr_msg s1.
Proof.
  intros calc lu vals rel idx Nmax s im HM NI HC. split.
  - unfold take_steps. destruct (Z.leb_spec Nmax 0); [lia|]. destruct (Z.to_nat Nmax) eqn:EN; [lia|]. cbn [steps]. rewrite HC. destruct idx as [|i l] eqn:EI; [contradiction|].
    cbn [first_stop StepCountError c_stop sd_N]. rewrite Z.leb_refl. eexists. split; reflexivity.
  - intros N s1 s2 why HN H. apply C42_steps in H; auto. destruct H as [k [x [dx [r [[W1 W2 W3 W4 W5] [L [[b [c [a [Ec [Hb [Hc [Hk Hm]]]]]]]|[D1 [_ [_ D2]]]]]]]]]].
    + exfalso. destruct b as [|b0 b]; simpl in Ec; [|destruct b; discriminate]. injection Ec as <- _. cbn [StepCountError c_stop asked sd_N] in Hc.
      unfold to_size in Hc. rewrite !Z.mod_small in Hc by lia. destruct (Z.leb_spec Nmax N); [lia|]. auto.
    + split; [lia|auto].
Qed.

(** ** C60: the residuals *)
(** The quick evaluation used for residuals gives the values of the iteration matrices, for
    every list of variables (including errors). *)
Theorem C60_values : forall vars A Rg T rho z,
  alpha_get_vals vars A Rg T rho = obind (build_iteration_Jv vars A Rg T rho z) (fun rows => ok (map row_v rows)).
Proof.
  intros vars A Rg T rho z. unfold alpha_get_vals, build_iteration_Jv. generalize 0%nat. induction vars as [|c vars IH]; intros i; [reflexivity|].
  cbn [vals_loop Jv_loop]. assert (E : one_val A Rg T rho c = match build_row A Rg T rho c with Some r => Some (row_v r) | None => None end).
  { unfold one_val, build_row. destruct (c =? "T")%char; [reflexivity|]. destruct (c =? "D")%char; [reflexivity|]. destruct (c =? "P")%char; [reflexivity|].
    destruct (c =? "S")%char; [reflexivity|]. destruct (c =? "H")%char; [reflexivity|]. destruct (c =? "U")%char; reflexivity. }
  rewrite E. destruct (build_row A Rg T rho c) as [r|]; [|reflexivity]. destruct (Nat.leb 2 i); [reflexivity|]. rewrite IH.
  destruct (Jv_loop A Rg T rho (S i) vars) as [[rows|e]|]; reflexivity.
Qed.
(** [calc_maxabsr] is the largest entry of [calc_r]. *)
Theorem C60_maxabsr : forall mx vars A Rg z vals rel T rho r, T <> 0 -> rho <> 0 ->
  calc_r (calc_matrices vars A Rg z) vals rel (Fin T, Fin rho) = Some (Val r) ->
  calc_maxabsr mx vars A Rg vals rel T rho = Some (Val (mx (fabs (fst r)) (fabs (snd r)))).
Proof.
  intros mx vars A Rg z vals rel T rho r HT Hr H. unfold calc_r, calc_matrices, calc_maxabsr in *. destruct (Req_EM_T T 0); [contradiction|]. destruct (Req_EM_T rho 0); [contradiction|].
  rewrite (C60_values _ _ _ _ _ z). destruct (build_iteration_Jv vars (A T rho) Rg T rho z) as [[rows|e]|]; try discriminate. cbn [obind] in *.
  destruct rows as [|a [|b [|c rows]]]; try discriminate. cbn [lift_rows obind im_v] in H. injection H as <-. reflexivity.
Qed.
(** The unscaled step of [calc_step] and the step taken agree. *)
Theorem C60_calc_step : forall calc lu qr rel t0 t1 x dx r v0 v1 J00 J01 J10 J11, lu_exact lu -> lu_exact qr -> divisible rel t0 t1 ->
  finite_matrices calc x v0 v1 J00 J01 J10 J11 -> J00 * J11 - J01 * J10 <> 0 -> newton calc lu (Fin t0, Fin t1) rel x dx r ->
  exists im, calc_step calc (Fin t0, Fin t1) qr x = Some (Val (dx, im)).
Proof.
  intros calc lu qr rel t0 t1 x dx r v0 v1 J00 J01 J10 J11 HL HQ HR HF HD W. destruct (C42_newton _ _ _ _ _ _ _ _ _ _ _ _ _ _ HL HR HF HD W) as [dT [dr [-> [E0 E1]]]].
  unfold calc_step. rewrite HF. cbn [obind im_J im_v vsub vopp fst snd fsub fopp fadd].
  destruct (HQ J00 J01 J10 J11 (- (v0 + - t0)) (- (v1 + - t1)) HD) as [s [t [Eq [F0 F1]]]]. exists {| im_v := (Fin v0, Fin v1); im_J := ((Fin J00, Fin J01), (Fin J10, Fin J11)) |}.
  match goal with |- context [qr ?a ?b] => replace (qr a b) with (Fin s, Fin t) by (symmetry; exact Eq) end. unfold ok. do 3 f_equal.
  f_equal; f_equal; apply (Rmult_eq_reg_l (J00 * J11 - J01 * J10)); auto.
  - replace ((J00 * J11 - J01 * J10) * s) with (J11 * (J00 * s + J01 * t) - J01 * (J10 * s + J11 * t)) by ring. replace ((J00 * J11 - J01 * J10) * dT) with (J11 * (J00 * dT + J01 * dr) - J01 * (J10 * dT + J11 * dr)) by ring.
    rewrite F0, F1. replace (J00 * dT + J01 * dr) with (t0 - v0) by lra. replace (J10 * dT + J11 * dr) with (t1 - v1) by lra. ring.
  - replace ((J00 * J11 - J01 * J10) * t) with (J00 * (J10 * s + J11 * t) - J10 * (J00 * s + J01 * t)) by ring. replace ((J00 * J11 - J01 * J10) * dr) with (J00 * (J10 * dT + J11 * dr) - J10 * (J00 * dT + J01 * dr)) by ring.
    rewrite F0, F1. replace (J00 * dT + J01 * dr) with (t0 - v0) by lra. replace (J10 * dT + J11 * dr) with (t1 - v1) by lra. ring.
Qed.

(** ** A case: an ideal gas, given temperature and pressure *)
Definition cramer (J : mat22) (p : vec) : vec :=
  match J, p with
  | ((Fin a, Fin b), (Fin c, Fin d)), (Fin p, Fin q) => (Fin ((p * d - b * q) / (a * d - b * c)), Fin ((a * q - p * c) / (a * d - b * c)))
  | _, _ => (NaN, NaN)
  end.
Example cramer_exact : lu_exact cramer.
Proof. intros a b c d p q D. eexists. eexists. split; [reflexivity|]. split; field; auto. Qed.
Definition ideal_A (T rho : R) (i j : nat) : R := match i, j with 0%nat, 1%nat => 1 | 0%nat, 2%nat => -1 | _, _ => 0 end.
Lemma ideal_matrices : forall T rho, 0 < T -> 0 < rho -> finite_matrices (calc_matrices ["T"; "P"]%char ideal_A 8 [1]) (Fin T, Fin rho) T (8 * T * rho) 1 0 (8 * rho) (8 * T).
Proof.
  intros T rho HT Hr. unfold finite_matrices, calc_matrices. destruct (Req_EM_T T 0); [lra|]. destruct (Req_EM_T rho 0); [lra|]. unfold build_iteration_Jv. cbn [Jv_loop].
  unfold build_row. cbn [Ascii.eqb Bool.eqb ideal_A Nat.leb obind lift_rows row_v row_J0 row_J1]. unfold ok. f_equal. f_equal. f_equal; repeat (f_equal; try (field; lra)).
Qed.
Definition ideal_conditions := [NanXDXError; MaxAbsError scalar_max (Fin 1e-6); NegativeXError].
Lemma ideal_step : forall rho, 0 < rho -> step_of (calc_matrices ["T"; "P"]%char ideal_A 8 [1]) cramer (Fin 300, Fin 4800) (false, true) (Fin 300, Fin rho) =
  Some (Val ((Fin 0, Fin (2 - rho)), (Fin 0, Fin (rho / 2 - 1)))).
Proof.
  intros rho Hr. unfold step_of. assert (E := ideal_matrices 300 rho ltac:(lra) Hr). unfold finite_matrices in E. rewrite E.
  unfold scale_r, scale_J, vsub, vopp, vdivs. cbn [im_v im_J fst snd fsub fopp fadd fdiv]. destruct (Req_EM_T 4800 0); [lra|]. cbn [cramer fopp].
  repeat match goal with |- Some _ = Some _ => f_equal | |- Val _ = Val _ => f_equal | |- (_, _) = (_, _) => f_equal | |- Fin _ = Fin _ => f_equal; field end.
Qed.
Example C42_steps_met : let s := {| nr_Trho := (Fin 300, Fin 1); nr_count := 0; nr_msg := "" |} in
  take_steps (calc_matrices ["T"; "P"]%char ideal_A 8 [1]) cramer (Fin 300, Fin 4800) (false, true) ideal_conditions [1%nat] 10 s =
  Some ({| nr_Trho := (Fin 300, Fin 2); nr_count := 2; nr_msg := "MaxAbsErrorCondition" |}, Val success).
Proof.
  intros s. unfold take_steps. cbn [Z.leb Z.compare]. rewrite steps_gloop. change (Z.to_nat 10) with (2 + 8)%nat. generalize 8%nat as n. intros n. cbn [Nat.add gloop nr_Trho s]. rewrite ideal_step by lra. cbv iota beta.
  assert (F1 : forall N x dx, c_stop (MaxAbsError scalar_max (Fin 1e-6)) {| sd_N := N; sd_x := x; sd_dx := dx; sd_r := (Fin 0, Fin (1 / 2 - 1)); sd_idx := [1%nat] |} = keep_going).
  { intros. destruct (C43_MaxAbsError scalar_max 1e-6 {| sd_N := N; sd_x := x; sd_dx := dx; sd_r := (Fin 0, Fin (1 / 2 - 1)); sd_idx := [1%nat] |} 0 (1 / 2 - 1)) as [[[_ K] _]|[_ K]]; auto.
    - intros ? ? _ _; reflexivity.
    - exfalso. replace (1 / 2 - 1) with (- (1 / 2)) in K by lra. rewrite Rabs_Ropp, Rabs_pos_eq in K by lra. lra. }
  assert (F2 : forall N x dx e, e = 0 -> c_stop (MaxAbsError scalar_max (Fin 1e-6)) {| sd_N := N; sd_x := x; sd_dx := dx; sd_r := (Fin 0, Fin e); sd_idx := [1%nat] |} = success).
  { intros N x dx e ->. destruct (C43_MaxAbsError scalar_max 1e-6 {| sd_N := N; sd_x := x; sd_dx := dx; sd_r := (Fin 0, Fin 0); sd_idx := [1%nat] |} 0 0) as [[_ K]|[K _]]; auto.
    - intros ? ? _ _; reflexivity.
    - exfalso. apply K. rewrite Rabs_R0. lra. }
  cbn [first_stop ideal_conditions]. cbn [NanXDXError c_stop existsb sd_idx sd_x sd_dx vget fst snd isfinite negb orb]. cbn [NanXDXError c_stop existsb sd_idx sd_x sd_dx vget fst snd isfinite negb orb] in *.
  rewrite F1. cbn [NegativeXError c_stop existsb sd_idx sd_x vget snd flt orb]. destruct (Rlt_dec 1 0); [lra|]. cbv iota beta.
  assert (V1 : vadd (Fin 300, Fin 1) (Fin 0, Fin (2 - 1)) = (Fin 300, Fin 2)) by (unfold vadd; cbn [fst snd fadd]; f_equal; f_equal; ring).
  assert (V2 : vadd (Fin 300, Fin 2) (Fin 0, Fin (2 - 2)) = (Fin 300, Fin 2)) by (unfold vadd; cbn [fst snd fadd]; f_equal; f_equal; ring).
  cbn [nr_Trho nr_count]. rewrite V1. rewrite ideal_step by lra. cbv iota beta.
  cbn [first_stop ideal_conditions]. cbn [NanXDXError c_stop existsb sd_idx sd_x sd_dx vget fst snd isfinite negb orb].
  rewrite F2 by field. rewrite V2. reflexivity.
Qed.
Example C42_TD_met : exists s', take_steps (calc_matrices ["D"; "T"]%char ideal_A 8 [1]) cramer (Fin 5, Fin 400) (true, true) ideal_conditions [] 3
    {| nr_Trho := (Fin 300, Fin 1); nr_count := 7; nr_msg := "" |} = Some (s', Val success) /\ nr_Trho s' = (Fin 400, Fin 5) /\ nr_count s' = 8%Z.
Proof.
  destruct (C42_TD true ideal_A 8 [1] cramer (true, true) 5 400 ideal_conditions 3 {| nr_Trho := (Fin 300, Fin 1); nr_count := 7; nr_msg := "" |} 300 1
    cramer_exact) as [_ [s' [E [P C]]]]; try lra; try reflexivity; [split; intros _; lra|]. exists s'. auto.
Qed.
Example C42_exceptions_met : exists s', take_steps (calc_matrices ["T"; "Q"]%char ideal_A 8 [1]) cramer (Fin 5, Fin 400) (true, true) [] [1%nat] 3
    {| nr_Trho := (Fin 300, Fin 1); nr_count := 7; nr_msg := "" |} = Some (s', Err StdInvalidArgument) /\ nr_count s' = 7%Z.
Proof.
  unfold take_steps. cbn [Z.leb Z.compare]. change (Z.to_nat 3) with (1 + 2)%nat. generalize 2%nat. intros n. cbn [Nat.add steps nr_Trho].
  unfold calc_matrices at 1. destruct (Req_EM_T 300 0); [lra|]. destruct (Req_EM_T 1 0); [lra|]. eexists. split; reflexivity.
Qed.
Example C42_path_step_met : exists dT drho, path_step ((Fin 1, Fin 0), (Fin 8, Fin 2400)) (Fin 100) (Fin 4800) (Fin (1 / 10)) = (Fin dT, Fin drho) /\ dT = 10.
Proof.
  destruct (C42_path_step 1 0 8 2400 100 4800 (1 / 10) ltac:(lra)) as [dT [dr [E [E0 _]]]]. exists dT, dr. split; [exact E|]. lra.
Qed.
(** ** C42: resetting the iteration *)
(** After a reset nothing of the history is left: a call that takes steps from there passes
    through the same points, counts its own steps only, and returns the same for the same reason,
    whatever the iteration did before. *)
Theorem C42_reset : forall calc lu vals rel cs idx N T rho before1 before2 s why (log : bool),
  (if log then take_steps_logrho else take_steps) calc lu vals rel cs idx N (nr_reset T rho before1) = Some (s, Val why) ->
  (1 <= nr_count s <= N)%Z /\
  exists s2, (if log then take_steps_logrho else take_steps) calc lu vals rel cs idx N (nr_reset T rho before2) = Some (s2, Val why) /\
    nr_Trho s2 = nr_Trho s /\ nr_count s2 = nr_count s.
Proof.
  intros calc lu vals rel cs idx N T rho b1 b2 s why log H.
  assert (K1 : forall n M a b s why, nr_Trho a = nr_Trho b -> nr_count a = nr_count b -> (0 < n)%nat ->
    steps calc lu vals rel cs idx n M a = Some (s, Val why) ->
    (nr_count a + 1 <= nr_count s <= nr_count a + Z.of_nat n)%Z /\ exists s2, steps calc lu vals rel cs idx n M b = Some (s2, Val why) /\ nr_Trho s2 = nr_Trho s /\ nr_count s2 = nr_count s).
  { clear. induction n as [|n IH]; intros M a b s why E1 E2 Hn H; [lia|]. cbn [steps] in H |- *. rewrite <- E1, <- E2.
    destruct (calc (nr_Trho a)) as [[im|e]|]; try discriminate.
    destruct idx as [|i0 idx']; [injection H as <- <-; cbn; split; [lia|eexists; split; [reflexivity|split; reflexivity]]|].
    match type of H with match ?t with _ => _ end = _ => destruct t as [[w0 m0]|] end.
    - injection H as <- <-. cbn. split; [lia|]. eexists. split; [reflexivity|split; reflexivity].
    - destruct n as [|n]; [cbn in H |- *; injection H as <- <-; cbn; split; [lia|eexists; split; [reflexivity|split; reflexivity]]|].
      destruct (IH M _ _ _ _ (eq_refl : nr_Trho {| nr_Trho := _; nr_count := _; nr_msg := nr_msg a |} = nr_Trho {| nr_Trho := _; nr_count := _; nr_msg := nr_msg b |}) eq_refl ltac:(lia) H) as [B E].
      cbn [nr_count] in B. split; [lia|exact E]. }
  assert (K2 : forall n M a b s why, nr_Trho a = nr_Trho b -> nr_count a = nr_count b -> (0 < n)%nat ->
    steps_logrho calc lu vals rel cs idx n M a = Some (s, Val why) ->
    (nr_count a + 1 <= nr_count s <= nr_count a + Z.of_nat n)%Z /\ exists s2, steps_logrho calc lu vals rel cs idx n M b = Some (s2, Val why) /\ nr_Trho s2 = nr_Trho s /\ nr_count s2 = nr_count s).
  { clear. induction n as [|n IH]; intros M a b s why E1 E2 Hn H; [lia|]. cbn [steps_logrho] in H |- *. rewrite <- E1, <- E2.
    destruct (calc (nr_Trho a)) as [[im|e]|]; try discriminate.
    destruct idx as [|i0 idx']; [injection H as <- <-; cbn; split; [lia|eexists; split; [reflexivity|split; reflexivity]]|].
    match type of H with match ?t with _ => _ end = _ => destruct t as [[w0 m0]|] end.
    - injection H as <- <-. cbn. split; [lia|]. eexists. split; [reflexivity|split; reflexivity].
    - destruct n as [|n]; [cbn in H |- *; injection H as <- <-; cbn; split; [lia|eexists; split; [reflexivity|split; reflexivity]]|].
      destruct (IH M _ _ _ _ (eq_refl : nr_Trho {| nr_Trho := _; nr_count := _; nr_msg := nr_msg a |} = nr_Trho {| nr_Trho := _; nr_count := _; nr_msg := nr_msg b |}) eq_refl ltac:(lia) H) as [B E].
      cbn [nr_count] in B. split; [lia|exact E]. }
  destruct log; unfold take_steps_logrho, take_steps in *; (destruct (Z.leb_spec N 0); [discriminate|]);
    [destruct (K2 (Z.to_nat N) N (nr_reset T rho b1) (nr_reset T rho b2) _ _ eq_refl eq_refl ltac:(lia) H) as [B E]|destruct (K1 (Z.to_nat N) N (nr_reset T rho b1) (nr_reset T rho b2) _ _ eq_refl eq_refl ltac:(lia) H) as [B E]];
    cbn [nr_count nr_reset] in B; (split; [lia|exact E]).
Qed.
Example C42_reset_met : exists s, take_steps (fun _ => Some (Val {| im_v := (Fin 1, Fin 2); im_J := ((Fin 1, Fin 0), (Fin 0, Fin 1)) |})) (fun _ r => r) (Fin 0, Fin 0) (false, false) [] [0%nat] 3
    (nr_reset (Fin 300) (Fin 1) {| nr_Trho := (NaN, NaN); nr_count := 17; nr_msg := "" |}) = Some (s, Val fatal) /\ nr_count s = 3%Z.
Proof. eexists. split; reflexivity. Qed.

Print Assumptions C42_steps.
Print Assumptions C42_steps_logrho.
Print Assumptions C42_exceptions.
Print Assumptions C42_nonpositive.
Print Assumptions C42_returns.
Print Assumptions C42_newton.
Print Assumptions C42_newton_logrho.
Print Assumptions C42_TD.
Print Assumptions C42_TD_logrho_refuted.
Print Assumptions C42_varied.
Print Assumptions C42_path_step.
Print Assumptions C42_path.
Print Assumptions C43_MaxAbsError.
Print Assumptions C43_MaxAbsError_infinite.
Print Assumptions C43_MaxAbsError_nan_refuted.
Print Assumptions C43_MinRelStepsize.
Print Assumptions C43_MinRelStepsize_nan_refuted.
Print Assumptions C43_NanXDX.
Print Assumptions C43_NegativeX.
Print Assumptions C43_StepCount_partial.
Print Assumptions C43_StepCount_refuted.
Print Assumptions C60_values.
Print Assumptions C60_maxabsr.
Print Assumptions C60_calc_step.
Print Assumptions C42_reset.
