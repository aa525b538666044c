(** C52: the tracer of critical curves of binary mixtures. *)
From Coq Require Import Reals ZArith List Bool Lia Lra.
From Verif Require Import Json_model Cubic_model Float_model VLE_model VLE_spec Tracer_model Tracer_spec Tracer_proofs Properties_Tracer
  CritTrace_model CritTrace_spec CritTrace_proofs.
Import ListNotations.
Open Scope R_scope.

Definition start (T0 : fl) (rho0 : list fl) (o : coptions) : cstate := {| cs_x := T0 :: rho0; cs_t := Fin 0; cs_dt := c_init_dt o; cs_last := []; cs_count := 0 |}.
(** ** What is returned *)
(** A trace that is returned holds the given state and then the accepted steps of the
    integrator, polished if wanted; [crun] tells when it ends. *)
Theorem C52_trace : forall stepper drhodT pressure conds splus stable polishers solve_pure o fuel T0 rho0 out,
  trace_critical_arclength_binary stepper drhodT pressure conds splus stable polishers solve_pure o fuel T0 rho0 = Some (Val out) ->
  exists d c sf, crit_deriv drhodT o (c_init_c o) [] (T0 :: rho0) = Val d /\ first_direction (c_init_c o) (c_init_dt o) rho0 (tl d) c /\
  exists pts last, out = pts ++ last /\
    ((c_max_steps o <= 0)%Z /\ pts = [] /\ sf = start T0 rho0 o \/
     (0 < c_max_steps o)%Z /\ exists q l, pts = q :: l /\ records_state drhodT pressure conds splus stable o c (start T0 rho0 o) q /\
       crun stepper (crit_deriv drhodT o c) polishers o (records_state drhodT pressure conds splus stable o c) 0 (start T0 rho0 o) l sf) /\
    (c_endpoint o = false -> last = []) /\ (length last <= 1)%nat.
Proof.
  intros stepper drhodT pressure conds splus stable polishers solve_pure o fuel T0 rho0 out E. unfold trace_critical_arclength_binary in E.
  destruct (crit_deriv drhodT o (c_init_c o) [] (T0 :: rho0)) as [d|e] eqn:D; [|discriminate]. fold (start T0 rho0 o) in E. cbv zeta in E.
  destruct (crit_loop _ _ _ _ _ _ _ _ _ _ _ _ _ _) as [[(data & sf)|e]|] eqn:LP; [|discriminate|discriminate].
  exists d, (initial_c rho0 (tl d) (c_init_dt o) (c_init_c o)), sf. split; [reflexivity|]. split; [apply initial_c_ok|].
  assert (Q : exists last, out = data ++ last /\ (c_endpoint o = false -> last = []) /\ (length last <= 1)%nat).
  { destruct (c_endpoint o).
    - destruct (endpoint _ _ _ _ _ _ _ _ _) as [q|e]; cbn [bind] in E; [|discriminate]. injection E as <-. exists (match q with Some q => [q] | None => [] end).
      split; [reflexivity|]. split; [discriminate|]. destruct q; cbn; lia.
    - injection E as <-. exists []. split; [now rewrite app_nil_r|]. split; [reflexivity|cbn; lia]. }
  destruct Q as (last & Q1 & Q2 & Q3). exists data, last. split; [exact Q1|]. split; [|auto]. destruct (Z.le_gt_cases (c_max_steps o) 0) as [M|M].
  - left. split; [exact M|]. destruct fuel as [|fuel]; [discriminate|]. cbn [crit_loop] in LP. destruct (Z.ltb_spec 0 (c_max_steps o)); [lia|]. injection LP as <- <-. auto.
  - right. split; [lia|]. apply CritTrace_proofs.loop_from_start in LP; [|lia]. destruct LP as (q & l & P1 & P2 & P3). exists q, l. auto.
Qed.
Lemma deriv_nonnegative : forall drhodT o c last X d, c_terminate_negative o = true -> crit_deriv drhodT o c last X = Val d -> nonnegative X.
Proof.
  intros drhodT o c last X d H E i Hi K. unfold crit_deriv in E. rewrite H in E. cbn [andb] in E.
  assert (A : any_negative (tl X) = true); [|rewrite A in E; discriminate]. unfold any_negative. apply existsb_exists. exists (el (tl X) i). split; [now apply nth_In|exact K].
Qed.
(** There are at most as many steps as wanted.  Every point holds the pressure, the conditions,
    the entropy and the derivative of its own state; all but the first and the pure fluid at
    the end have a mole fraction between 0 and 1, and with [terminate_negative_density] no
    point has a negative concentration. *)
Theorem C52_points : forall stepper drhodT pressure conds splus stable polishers solve_pure o fuel T0 rho0 out,
  trace_critical_arclength_binary stepper drhodT pressure conds splus stable polishers solve_pure o fuel T0 rho0 = Some (Val out) -> c_endpoint o = false ->
  (length out <= Z.to_nat (c_max_steps o) + 1)%nat /\
  forall k q, nth_error out k = Some q ->
    pressure (temp (cp_x q)) (conc (cp_x q)) = Val (cp_p q) /\ conds (temp (cp_x q)) (conc (cp_x q)) = Val (cp_conds q) /\ splus (temp (cp_x q)) (conc (cp_x q)) = Val (cp_splus q) /\
    (exists last, crit_deriv drhodT o (cp_c q) last (cp_x q) = Val (cp_dx q)) /\ (k = 0%nat -> cp_x q = T0 :: rho0) /\ (k <> 0%nat -> in_range (cp_x q)) /\
    (c_terminate_negative o = true -> nonnegative (cp_x q)).
Proof.
  intros stepper drhodT pressure conds splus stable polishers solve_pure o fuel T0 rho0 out E EP. destruct (C52_trace _ _ _ _ _ _ _ _ _ _ _ _ _ E) as (d & c & sf & _ & _ & pts & last & -> & K & L0 & _).
  rewrite (L0 EP), app_nil_r. destruct K as [(M & -> & _)|(M & q0 & l & -> & R0 & RN)]; [split; [cbn; lia|intros [|k] q; discriminate]|].
  split; [apply CritTrace_proofs.run_length in RN; cbn [length]; rewrite Z.sub_0_r in RN; lia|].
  intros k q H.
  assert (RS : (exists s, records_state drhodT pressure conds splus stable o c s q) /\ (k = 0%nat -> cp_x q = T0 :: rho0) /\ (k <> 0%nat -> in_range (cp_x q))).
  { destruct k as [|k].
    - cbn in H. injection H as <-. split; [now exists (start T0 rho0 o)|]. split; [|contradiction]. intros _. now destruct R0 as (R0 & _).
    - cbn in H. apply nth_error_In in H. destruct (CritTrace_proofs.run_all _ _ _ _ _ _ _ _ _ _ _ _ _ _ RN H) as (A & B). split; [exact B|]. split; [discriminate|auto]. }
  destruct RS as ((s & RS) & A & B). destruct RS as (X & _ & C & P & CO & SP & DX & _). rewrite <- X in *.
  split; [exact P|]. split; [exact CO|]. split; [exact SP|]. split; [now exists (cs_last s); rewrite C|]. split; [exact A|]. split; [exact B|]. intros TN. eapply deriv_nonnegative; eauto.
Qed.
(** A polished state that is kept differs in temperature and in each concentration by no more
    than the given fractions. *)
Theorem C52_polish_bounds : forall polishers o T rho x', polishes polishers o (Fin T :: fin rho) x' -> c_polish o = true -> forall rT rr, c_reltol_T o = Fin rT -> c_reltol_rho o = Fin rr ->
  forall T' rho', x' = Fin T' :: fin rho' -> Rabs (T - T') <= rT * T /\ forall i, (i < length rho)%nat -> (i < length rho')%nat -> Rabs (nth i rho 0 - nth i rho' 0) <= rr * nth i rho 0.
Proof.
  intros polishers o T rho x' H CP rT rr HT Hr T' rho' ->. destruct H as [(H & _)|(_ & k & _ & (CT & CR) & _)]; [congruence|]. cbn [temp conc nth tl] in *. rewrite HT in CT. rewrite Hr in CR.
  assert (N : forall a b, ~ less (Fin a) (Fin b) -> b <= a). { intros a b N. unfold less in N. cbn in N. destruct (Rlt_dec a b); [contradiction|lra]. }
  split; [now apply N|]. intros i H1 H2. unfold fin in CR. specialize (CR i ltac:(now rewrite map_length) ltac:(now rewrite map_length)).
  unfold el in CR. rewrite !(nth_indep _ NaN (Fin 0)) in CR by (now rewrite map_length). rewrite !(map_nth Fin) in CR. now apply N in CR.
Qed.
(** ** Ends *)
Theorem C52_ends : forall stepper k, patient stepper k -> forall drhodT pressure conds splus stable polishers solve_pure o T0 rho0 fuel, (S k * Z.to_nat (c_max_steps o) + 1 <= fuel)%nat ->
  trace_critical_arclength_binary stepper drhodT pressure conds splus stable polishers solve_pure o fuel T0 rho0 <> None.
Proof.
  intros stepper k HK drhodT pressure conds splus stable polishers solve_pure o T0 rho0 fuel Hf. unfold trace_critical_arclength_binary. destruct (crit_deriv _ _ _ _ _) as [d|e]; [|discriminate]. cbv zeta.
  match goal with |- match ?t with _ => _ end <> None => assert (t <> None) by (eapply (CritTrace_proofs.loop_ends _ _ _ _ _ _ _ _ _ k HK (Z.to_nat (c_max_steps o))); lia); destruct t as [[(data & s)|]|]; [discriminate|discriminate|contradiction] end.
Qed.
(** The number of refused steps in a row is not limited. *)
Theorem C52_retries_refuted : forall conds splus stable polishers solve_pure o p dr T0 rho0 fuel, (0 < c_max_steps o)%Z -> c_order o = 5%Z -> c_terminate_negative o = false -> c_calc_stability o = false ->
  conds T0 rho0 = Val [] -> splus T0 rho0 = Val p ->
  trace_critical_arclength_binary stubborn (fun _ _ => Val dr) (fun _ _ => Val p) conds splus stable polishers solve_pure o fuel T0 rho0 = None.
Proof.
  intros conds splus stable polishers solve_pure o p dr T0 rho0 fuel M O5 TN CS HC HS. unfold trace_critical_arclength_binary.
  destruct (crit_deriv _ _ _ _ _) as [d|e] eqn:D; [|unfold crit_deriv in D; rewrite TN in D; discriminate]. cbv zeta.
  set (c := initial_c _ _ _ _). fold (start T0 rho0 o).
  assert (LP : forall fuel s l, crit_loop stubborn (fun _ _ => Val dr) (fun _ _ => Val p) conds splus stable polishers o c fuel 0 1 s l = None).
  { induction fuel0 as [|f IH]; intros s l; [reflexivity|]. cbn [crit_loop Z.eqb Nat.eqb andb]. destruct (Z.ltb_spec 0 (c_max_steps o)); [|lia].
    unfold crit_deriv at 1. rewrite TN. cbn [andb bind]. unfold crit_attempt. destruct (Z.eqb_spec (c_order o) 5) as [_|]; [|contradiction]. unfold stubborn at 1.
    rewrite (CritTrace_proofs.retry_irrelevant _ _ _ _ _ _ _ _ _ _ _ 1%nat 0%nat). apply IH. }
  destruct fuel as [|fuel]; [reflexivity|]. rewrite CritTrace_proofs.first_pass by auto.
  destruct (crit_deriv _ _ _ (cs_last _) _) as [d'|e] eqn:D'; [|unfold crit_deriv in D'; rewrite TN in D'; discriminate].
  unfold crit_store. cbn [start cs_x el nth tl]. change (bind (Val p) ?f) with (f p). cbv beta. rewrite HC. cbn [bind]. rewrite HS. cbn [bind cs_last start] in *. cbn [start cs_x cs_last] in D'. rewrite D'. cbn [bind]. rewrite CS. cbn [bind].
  fold (start T0 rho0 o). now rewrite LP.
Qed.
(** An order of integration other than 1 and 5, a negative starting concentration and a
    derivative that cannot be evaluated are refused. *)
Theorem C52_refusals : forall stepper drhodT pressure conds splus stable polishers solve_pure o fuel T0 rho0,
  (c_order o <> 1%Z -> c_order o <> 5%Z -> (0 < c_max_steps o)%Z -> forall out, trace_critical_arclength_binary stepper drhodT pressure conds splus stable polishers solve_pure o fuel T0 rho0 <> Some (Val out)) /\
  (c_terminate_negative o = true -> (exists i, (i < length rho0)%nat /\ less (el rho0 i) (Fin 0)) ->
     trace_critical_arclength_binary stepper drhodT pressure conds splus stable polishers solve_pure o fuel T0 rho0 = Some (Err StdInvalidArgument)) /\
  (forall e, nonnegative (T0 :: rho0) -> drhodT T0 rho0 = Err e -> trace_critical_arclength_binary stepper drhodT pressure conds splus stable polishers solve_pure o fuel T0 rho0 = Some (Err e)).
Proof.
  intros stepper drhodT pressure conds splus stable polishers solve_pure o fuel T0 rho0. split; [|split].
  - intros N1 N5 M out E. unfold trace_critical_arclength_binary in E. destruct (crit_deriv _ _ _ _ _) as [d|e]; [|discriminate]. cbv zeta in E.
    destruct (crit_loop _ _ _ _ _ _ _ _ _ _ _ _ _ _) as [[(data & sf)|e]|] eqn:LP; [|discriminate|discriminate].
    destruct fuel as [|fuel]; [discriminate|]. cbn [crit_loop] in LP. destruct (Z.ltb_spec 0 (c_max_steps o)); [|lia]. destruct (bind _ _) as [data'|e]; [|discriminate].
    unfold crit_attempt in LP. destruct (Z.eqb_spec (c_order o) 5); [contradiction|]. destruct (Z.eqb_spec (c_order o) 1); [contradiction|]. discriminate.
  - intros TN (i & Hi & L). unfold trace_critical_arclength_binary, crit_deriv at 1. cbn [tl].
    assert (A : any_negative rho0 = true) by (apply existsb_exists; exists (el rho0 i); split; [now apply nth_In|exact L]). now rewrite TN, A.
  - intros e NN E. unfold trace_critical_arclength_binary, crit_deriv at 1. cbn [tl el nth]. rewrite E.
    assert (A : any_negative rho0 = false). { apply not_true_iff_false. intros A. apply existsb_exists in A. destruct A as (a & I & L). apply (In_nth _ _ NaN) in I. destruct I as (i & Hi & <-). now apply (NN i Hi). }
    rewrite A, andb_false_r. reflexivity.
Qed.
(** ** Directions *)
(** The derivative never points away from the last direction; without one it is the tangent
    in the direction of [c], with arclength in the space of concentrations. *)
Theorem C52_direction : forall drhodT o c last X d, crit_deriv drhodT o c last X = Val d -> last <> [] -> ~ less (fdot (tl d) last) (Fin 0).
Proof.
  intros drhodT o c last X d E NE. unfold crit_deriv in E. destruct (_ && _); [discriminate|]. destruct (drhodT _ _) as [dr|e]; [|discriminate]. cbn [bind] in E. cbv zeta in E.
  set (w := map _ dr) in E. destruct last as [|a last]; [contradiction|]. unfold less. destruct (flt (fdot w (a :: last)) (Fin 0)) eqn:F; injection E as <-; cbn [map tl].
  - rewrite dot_flip. destruct w as [|b w]; [cbn; destruct (Rlt_dec 0 0); [lra|discriminate]|]. apply neg_opp in F. rewrite F. discriminate.
  - rewrite F. discriminate.
Qed.
Theorem C52_tangent : forall drhodT o c last X dr, drhodT (temp X) (conc X) = Val (fin dr) -> sumsq dr <> 0 -> (c_terminate_negative o = true -> nonnegative X) ->
  exists k, (k = c / sqrt (sumsq dr) \/ k = - c / sqrt (sumsq dr) /\ last <> []) /\ crit_deriv drhodT o (Fin c) last X = Val (fin (k :: map (fun a => k * a) dr)) /\ k * k * sumsq dr = c * c.
Proof.
  intros drhodT o c last X dr E NZ NN. unfold crit_deriv. change (el X 0) with (temp X). change (tl X) with (conc X). rewrite E.
  assert (A : c_terminate_negative o && any_negative (conc X) = false).
  { destruct (c_terminate_negative o) eqn:TN; [|reflexivity]. cbn [andb]. apply not_true_iff_false. intros A. apply existsb_exists in A. destruct A as (a & I & L). apply (In_nth _ _ NaN) in I. destruct I as (i & Hi & <-). now apply (NN eq_refl i Hi). }
  rewrite A. cbn [bind]. rewrite norm2_fin. cbn [fsqrt]. pose proof (sumsq_pos dr) as P. destruct (Rlt_dec (sumsq dr) 0) as [|_]; [lra|].
  assert (Hn : 0 < sumsq dr) by lra. pose proof (sqrt_lt_R0 _ Hn) as Hs. set (n := sumsq dr) in *. cbn [fdiv]. destruct (Req_EM_T (sqrt n) 0); [lra|].
  assert (SN : sqrt n * sqrt n = n) by (apply sqrt_sqrt; lra).
  assert (M : forall k, k = c / sqrt n -> fmul (Fin c) (Fin (1 / sqrt n)) :: map (fun a => fmul (Fin c) (fmul a (Fin (1 / sqrt n)))) (fin dr) = fin (k :: map (fun a => k * a) dr)).
  { intros k ->. unfold fin. cbn [map fmul]. f_equal; [f_equal; field; lra|]. rewrite !map_map. apply map_ext. intros a. cbn [fmul]. f_equal. field. lra. }
  assert (MI : map (fun a => fmul a (Fin (-1))) (fin (c / sqrt n :: map (fun a => c / sqrt n * a) dr)) = fin (- c / sqrt n :: map (fun a => - c / sqrt n * a) dr)).
  { unfold fin. cbn [map fmul]. f_equal; [f_equal; field; lra|]. rewrite !map_map. apply map_ext. intros a. cbn [fmul]. f_equal. field. lra. }
  assert (KK : c / sqrt n * (c / sqrt n) * n = c * c) by (rewrite <- SN at 3; field; lra).
  assert (KK' : - c / sqrt n * (- c / sqrt n) * n = c * c) by (rewrite <- SN at 3; field; lra).
  cbv zeta. rewrite (M _ eq_refl). destruct last as [|a last]; [|destruct (flt _ _)].
  - exists (c / sqrt n). auto.
  - exists (- c / sqrt n). split; [right; split; [reflexivity|discriminate]|]. rewrite MI. auto.
  - exists (c / sqrt n). auto.
Qed.
Print Assumptions C52_trace.
Print Assumptions C52_points.
Print Assumptions C52_polish_bounds.
Print Assumptions C52_ends.
Print Assumptions C52_retries_refuted.
Print Assumptions C52_refusals.
Print Assumptions C52_direction.
Print Assumptions C52_tangent.
