(** Proofs about the tracers. *)
From Coq Require Import Reals ZArith List Bool Lia Lra.
From Verif Require Import Json_model Cubic_model Float_model VLE_model VLE_spec Tracer_model Tracer_spec.
Import ListNotations.
Open Scope R_scope.

Section Loop.
Variable stepper : stepper_type.
Variable deriv : list fl -> list fl -> res (list fl).
Variable pressures : list fl -> res (fl * fl).
Variable fractions : list fl -> fl * fl.
Variable crits : list fl -> res (option (list fl * list fl)).
Variable stop : list fl -> res bool.
Variable polish : list fl -> res (list fl).
Variables (c max_dt : fl) (max_steps order : Z).
Notation loop := (trace_loop stepper deriv pressures fractions crits stop polish c max_dt max_steps order).
Notation run := (run stepper deriv pressures fractions crits stop polish c max_dt order).
Notation refusals := (refusals stepper).

Lemma store_inv : forall s s' q, store deriv pressures fractions crits c s = Val (s', q) ->
  s' = {| st_x := st_x s; st_t := st_t s; st_dt := st_dt s; st_last := pt_drho q; st_prev := st_prev s |} /\
  pt_x q = st_x s /\ pt_t q = st_t s /\ pt_dt q = st_dt s /\ recorded deriv pressures fractions crits c (st_last s) (st_prev s) q.
Proof.
  intros s s' q. unfold store, recorded. destruct (pressures (st_x s)) as [pp|] eqn:P; [|discriminate]. cbn [bind].
  destruct (crits (st_x s)) as [cr|] eqn:C; [|discriminate]. cbn [bind]. intros H. injection H as <- <-. cbn [pt_x pt_t pt_dt pt_c pt_p pt_frac pt_crit pt_drho].
  repeat split; auto. destruct (deriv (st_prev s) (st_x s)) as [d|e] eqn:D; [now left|right]. split; [eauto|reflexivity].
Qed.
Lemma retry_irrelevant : forall fuel istep a b s data, loop fuel istep (S a) s data = loop fuel istep (S b) s data.
Proof.
  induction fuel as [|fuel IH]; intros istep a b s data; [reflexivity|]. cbn [trace_loop Nat.eqb]. rewrite andb_false_r.
  destruct (istep <? max_steps)%Z; [|reflexivity]. destruct (attempt _ _ _ _ _) as [[|dt|x t dt]|e]; try reflexivity. apply IH.
Qed.
Lemma first_pass : forall fuel s, (0 < max_steps)%Z ->
  loop (S fuel) 0 0 s [] = match store deriv pressures fractions crits c s with Val (s', q) => loop (S fuel) 0 1 s' [q] | Err e => Some (Err e) end.
Proof.
  intros fuel s H. cbn [trace_loop]. destruct (Z.ltb_spec 0 max_steps); [|lia]. cbn [Z.eqb Nat.eqb andb].
  destruct (store deriv pressures fractions crits c s) as [[s' q]|e]; cbn [bind app]; [|reflexivity].
  destruct (attempt _ _ _ _ _) as [[|dt|x t dt]|e]; try reflexivity. apply retry_irrelevant.
Qed.
(** the state is that of the point [q], but for refusals since *)
Definition at_point (old : list fl) (q : point) (s : tstate) : Prop :=
  st_x s = pt_x q /\ st_t s = pt_t q /\ st_last s = pt_drho q /\ st_prev s = old /\
  refusals (fun x _ => deriv old x) (pt_x q) (pt_t q) (pt_dt q) (st_dt s) /\ (order <> 5%Z -> st_dt s = pt_dt q).
Lemma refusals_end : forall sys x t a b d, refusals sys x t a b -> stepper sys x t b = Refused d -> refusals sys x t a d.
Proof. intros sys x t a b d H. induction H as [|a a1 b E H IH]; intros R; [eapply more; [exact R|constructor]|eapply more; [exact E|now apply IH]]. Qed.
Lemma attempt_inv : forall old q s r, at_point old q s -> attempt stepper deriv max_dt order s = Val r ->
  match r with
  | Threw => step_throws stepper deriv order old q
  | Refused dt => order = 5%Z /\ stepper (fun x _ => deriv old x) (pt_x q) (pt_t q) (st_dt s) = Refused dt
  | Taken x t dt => moves stepper deriv max_dt order old q x t dt
  end.
Proof.
  intros old q s r (X & T & _ & P & R & O) E. unfold attempt in E. rewrite P, X, T in E. destruct (Z.eqb_spec order 5) as [H5|N5].
  - injection E as <-. destruct (stepper _ (pt_x q) (pt_t q) (st_dt s)) as [|dt|x t dt] eqn:SS.
    + left. split; [exact H5|]. eauto.
    + auto.
    + left. split; [exact H5|]. exists (st_dt s), dt. auto.
  - rewrite (O N5) in E. destruct (Z.eqb_spec order 1) as [H1|]; [|discriminate]. injection E as <-. destruct (deriv old (pt_x q)) as [d|e] eqn:D.
    + right. split; [exact H1|]. exists d. auto.
    + right. split; [exact H1|]. eauto.
Qed.
Lemma loop_run : forall fuel istep retry s data out old q, loop fuel istep retry s data = Some (Val out) -> ((istep =? 0)%Z && Nat.eqb retry 0) = false -> (0 <= istep)%Z ->
  at_point old q s -> exists l, out = data ++ l /\ run (Z.to_nat (max_steps - istep)) old q l.
Proof.
  induction fuel as [|fuel IH]; intros istep retry s data out old q E F Hi A; [discriminate|]. cbn [trace_loop] in E. rewrite F in E.
  destruct (Z.ltb_spec istep max_steps) as [L|L].
  2: { injection E as <-. exists []. split; [now rewrite app_nil_r|]. replace (Z.to_nat _) with 0%nat by lia. constructor. }
  destruct (attempt stepper deriv max_dt order s) as [r|e] eqn:AT; [|discriminate]. pose proof (attempt_inv _ _ _ _ A AT) as V. destruct r as [|dt|x t dt].
  - injection E as <-. exists []. split; [now rewrite app_nil_r|]. now apply run_throws.
  - destruct V as [O5 V]. apply (IH _ _ _ _ _ old q E); [cbn [Nat.eqb]; apply andb_false_r|exact Hi|]. destruct A as (A1 & A2 & A3 & A4 & A5 & A6).
    repeat split; cbn [st_x st_t st_last st_prev st_dt]; auto. { eapply refusals_end; eassumption. } { intros N; contradiction. }
  - destruct (stop x) as [[|]|e] eqn:SP; [| |discriminate].
    + injection E as <-. exists []. split; [now rewrite app_nil_r|]. eapply run_stops; eassumption.
    + destruct (polish x) as [x'|e] eqn:P; [|discriminate]. cbn [bind] in E. destruct (store _ _ _ _ _ _) as [[s' q']|e] eqn:ST; [|discriminate].
      apply store_inv in ST. cbn [st_x st_t st_dt st_last st_prev] in ST. destruct ST as (-> & X & T & D & RC).
      destruct A as (A1 & A2 & A3 & A4 & A5 & A6).
      destruct (IH _ _ _ _ _ (pt_drho q) q' E) as (l & -> & RN).
      * destruct (Z.eqb_spec (istep + 1) 0); [lia|reflexivity].
      * lia.
      * repeat split; cbn [st_x st_t st_last st_prev st_dt]; auto. rewrite D. constructor.
      * exists (q' :: l). split; [now rewrite <- app_assoc|]. replace (Z.to_nat (max_steps - istep)) with (S (Z.to_nat (max_steps - (istep + 1)))) by lia.
        constructor; [|exact RN]. exists x. rewrite T, D, X. split; [exact V|]. split; [exact SP|]. split; [exact P|]. rewrite <- A3, <- A4. exact RC.
Qed.
Lemma loop_from_start : forall fuel s out, loop fuel 0 0 s [] = Some (Val out) -> (0 < max_steps)%Z ->
  exists q l, out = q :: l /\ pt_x q = st_x s /\ pt_t q = st_t s /\ pt_dt q = st_dt s /\ recorded deriv pressures fractions crits c (st_last s) (st_prev s) q /\
    run (Z.to_nat max_steps) (st_prev s) q l.
Proof.
  intros fuel s out E H. destruct fuel as [|fuel]; [discriminate|]. rewrite first_pass in E by auto.
  destruct (store deriv pressures fractions crits c s) as [[s' q]|e] eqn:ST; [|discriminate]. apply store_inv in ST. destruct ST as (-> & X & T & D & RC).
  destruct (loop_run _ _ _ _ _ _ (st_prev s) q E) as (l & -> & RN); [reflexivity|lia| |].
  - repeat split; cbn [st_x st_t st_last st_prev st_dt]; auto. rewrite D. constructor.
  - exists q, l. rewrite Z.sub_0_r in RN. auto 10.
Qed.
Lemma loop_empty : forall fuel s, (max_steps <= 0)%Z -> loop (S fuel) 0 0 s [] = Some (Val []).
Proof. intros fuel s H. cbn [trace_loop]. destruct (Z.ltb_spec 0 max_steps); [lia|reflexivity]. Qed.

(** ** The loop ends if the stepper does not refuse for ever *)
Lemma loop_ends : forall k, patient stepper k -> forall n istep, (Z.to_nat (max_steps - istep) <= n)%nat -> (0 <= istep)%Z ->
  forall fuel retry s data, (S k * n + 1 <= fuel)%nat -> loop fuel istep retry s data <> None.
Proof.
  intros k HK. induction n as [|n IHn]; intros istep Hn Hi.
  - intros [|fuel] retry s data Hf; [lia|]. cbn [trace_loop]. destruct (Z.ltb_spec istep max_steps); [lia|discriminate].
  - assert (IN : forall j fuel retry s data, accepts_within stepper j (fun x _ => deriv (st_prev s) x) (st_x s) (st_t s) (st_dt s) -> (j + 1 + (S k * n + 1) <= fuel)%nat -> loop fuel istep retry s data <> None).
    { induction j as [|j IHj]; intros fuel retry s data AW Hf; (destruct fuel as [|fuel]; [lia|]); cbn [trace_loop];
        (destruct (Z.ltb_spec istep max_steps); [|discriminate]);
        (destruct ((istep =? 0)%Z && Nat.eqb retry 0); [destruct (store deriv pressures fractions crits c s) as [[s' q]|e] eqn:ST; cbn [bind]; [|discriminate]|]);
        [apply store_inv in ST; destruct ST as (-> & _)| |apply store_inv in ST; destruct ST as (-> & _)|];
        unfold attempt; cbn [st_x st_t st_dt st_prev st_last]; (destruct (order =? 5)%Z; [|destruct (order =? 1)%Z; [|discriminate]]).
      all: cbn [accepts_within] in AW.
      all: try (destruct (stepper (fun x _ => deriv (st_prev s) x) (st_x s) (st_t s) (st_dt s)) as [|dt|x t dt] eqn:SS; [discriminate| |]).
      all: try contradiction.
      all: try (apply IHj; [exact AW|lia]).
      all: try (destruct (stop x) as [[|]|e]; [discriminate| |discriminate]; destruct (bind (polish x) _) as [[s' q']|e]; [|discriminate]; apply IHn; lia).
      all: (destruct (deriv (st_prev s) (st_x s)) as [d|e]; [|discriminate]); (destruct (stop _) as [[|]|e]; [discriminate| |discriminate]); (destruct (bind (polish _) _) as [[s' q']|e]; [|discriminate]); apply IHn; lia. }
    intros fuel retry s data Hf. apply (IN k); [apply HK|lia].
Qed.
(** the number of points *)
Lemma run_length : forall n old q l, run n old q l -> (length l <= n)%nat.
Proof. intros n old q l H. induction H; cbn [length]; lia. Qed.
Lemma run_consecutive : forall n old q l a b, run n old q l -> consecutive (q :: l) a b -> exists old', follows stepper deriv pressures fractions crits stop polish c max_dt order old' a b.
Proof.
  intros n old q l a b H. induction H as [| | |n old q q' l F R IH]; intros K.
  1-3: inversion K as [|? ? ? ? K']; subst; inversion K'.
  inversion K as [|? ? ? ? K']; subst; [eauto|now apply IH].
Qed.
End Loop.

(** ** Reversing a direction *)
Lemma fmul_opp : forall a b, fmul (fmul a (Fin (-1))) b = fopp (fmul a b).
Proof.
  intros [r|s|] [r'|s'|]; cbn [fmul fopp]; try reflexivity.
  - f_equal. ring.
  - unfold rneg. destruct (Req_EM_T (r * -1) 0), (Req_EM_T r 0); try lra; try reflexivity. cbn [fopp]. f_equal.
    destruct (Rlt_dec (r * -1) 0), (Rlt_dec r 0); try lra; destruct s'; reflexivity.
  - unfold rneg. destruct (Req_EM_T (-1) 0); [lra|]. cbn [fmul]. unfold rneg. destruct (Req_EM_T r' 0); [reflexivity|]. cbn [fopp]. f_equal.
    destruct (Rlt_dec (-1) 0); [|lra]. destruct s, (Rlt_dec r' 0); reflexivity.
  - unfold rneg. destruct (Req_EM_T (-1) 0); [lra|]. cbn [fmul fopp]. destruct (Rlt_dec (-1) 0); [|lra]. destruct s, s'; reflexivity.
  - destruct (Req_EM_T (-1) 0); [lra|]. reflexivity.
Qed.
Lemma fopp_add : forall a b, fadd (fopp a) (fopp b) = fopp (fadd a b).
Proof. intros [r|s|] [r'|s'|]; cbn [fadd fopp]; try reflexivity; [f_equal; ring|]. destruct s, s'; reflexivity. Qed.
Lemma dot_flip : forall a b, fdot (map (fun v => fmul v (Fin (-1))) a) b = match a, b with [], _ | _, [] => Fin 0 | _, _ => fopp (fdot a b) end.
Proof.
  unfold fdot, zip, fsum. induction a as [|x a IH]; intros [|y b]; try reflexivity. cbn [map combine fold_right fst snd]. rewrite IH, fmul_opp, <- fopp_add. f_equal.
  destruct a; [|destruct b]; cbn [map combine fold_right fopp]; try (now rewrite Ropp_0); reflexivity.
Qed.
Lemma neg_opp : forall a, flt a (Fin 0) = true -> flt (fopp a) (Fin 0) = false.
Proof. intros [r|[|]|]; cbn [flt fopp negb]; try reflexivity; try discriminate. destruct (Rlt_dec r 0), (Rlt_dec (- r) 0); auto; lra. Qed.
Lemma flipped : forall n d prev, (2 <= n)%nat -> flt (fdot (firstn 2 d) (firstn 2 prev)) (Fin 0) = true -> flt (fdot (firstn 2 (flip n d)) (firstn 2 prev)) (Fin 0) = false.
Proof.
  intros n d prev Hn H. assert (E : firstn 2 (flip n d) = map (fun v => fmul v (Fin (-1))) (firstn 2 d)).
  { unfold flip. destruct n as [|[|n]]; [lia|lia|]. destruct d as [|a [|b d]]; cbn; try reflexivity; now destruct n. }
  rewrite E, dot_flip. destruct (firstn 2 d) as [|a l] eqn:D; [cbn; destruct (Rlt_dec 0 0); auto; lra|].
  destruct (firstn 2 prev) as [|b l'] eqn:P; [cbn; destruct (Rlt_dec 0 0); auto; lra|]. now apply neg_opp.
Qed.

(** ** Three phases *)
Section Three.
Variable stepper : stepper_type.
Variable drhodT3 : list fl -> fl -> res (list fl).
Variable polish3 : fl -> list fl -> res (list fl).
Variable crit : fl -> list fl -> res (list fl).
Variable pressure : fl -> list fl -> res fl.
Variable o : voptions.
Notation loop3 := (vlle_trace_loop stepper drhodT3 polish3 crit pressure o).
Notation run3 := (run3 stepper drhodT3 polish3 crit pressure o).
Lemma entry_inv : forall T x b q, vlle_entry crit pressure o T x = Val (b, q) -> vp_T q = T /\ vp_x q = x /\ evaluated3 crit pressure q /\ (b = true <-> final3 o q).
Proof.
  intros T x b q. unfold vlle_entry. destruct (crit T (ph 0 x)) as [cV|] eqn:C0; [|discriminate]. destruct (crit T (ph 1 x)) as [cL1|] eqn:C1; [|discriminate].
  destruct (crit T (ph 2 x)) as [cL2|] eqn:C2; [|discriminate]. cbn [bind]. destruct (pressure T (ph 0 x)) as [p|] eqn:P; [|discriminate]. cbn [bind]. intros H.
  injection H as <- <-. split; [reflexivity|]. split; [reflexivity|]. split.
  - split; [exact P|]. exists cV, cL1, cL2. auto.
  - unfold final3, less. cbn [vp_p vp_T vp_x]. rewrite !orb_true_iff, !andb_true_iff, negb_true_iff, Z.ltb_lt.
    assert (M : compositions_meet o x = true <-> exists i j, (i < j < 3)%nat /\ flt (fabs (fsub (first_fraction (phase3 i x)) (first_fraction (phase3 j x)))) (v_composition_tol o) = true).
    { assert (SY : forall a b, fabs (fsub a b) = fabs (fsub b a)).
      { intros [r|s|] [r'|s'|]; unfold fsub; cbn [fopp fadd fabs]; try reflexivity; [f_equal; rewrite <- Rabs_Ropp; f_equal; ring|].
        destruct s, s'; reflexivity. }
      unfold compositions_meet. cbv zeta. change frac0 with first_fraction. change (ph 0) with (phase3 0). change (ph 1) with (phase3 1). change (ph 2) with (phase3 2).
      cbn [existsb]. rewrite !orb_true_iff. split.
      - intros [H|[H|[H|H]]]; [exists 1%nat, 2%nat|exists 0%nat, 1%nat; rewrite SY|exists 0%nat, 2%nat; rewrite SY|discriminate]; (split; [lia|exact H]).
      - intros (i & j & (I1 & I2) & H). destruct i as [|[|i]]; [| |lia].
        + destruct j as [|[|[|j]]]; [lia| | |lia]; rewrite SY in H; auto.
        + destruct j as [|[|[|j]]]; [lia|lia| |lia]; auto. }
    rewrite M. tauto.
Qed.
Lemma loop3_run : forall fuel iter x T dT0 dT data out, loop3 fuel iter x T dT data = Some (Val out) -> refusals stepper drhodT3 x T dT0 dT ->
  exists l, out = data ++ l /\ run3 (Z.to_nat (v_max_steps o - iter)) x T dT0 l.
Proof.
  induction fuel as [|fuel IH]; intros iter x T dT0 dT data out E RF; [discriminate|]. cbn [vlle_trace_loop] in E.
  destruct (Z.ltb_spec iter (v_max_steps o)) as [L|L].
  2: { injection E as <-. exists []. split; [now rewrite app_nil_r|]. replace (Z.to_nat _) with 0%nat by lia. constructor. }
  destruct (stepper drhodT3 x T dT) as [|dT1|y T1 dT1] eqn:SS.
  - injection E as <-. exists []. split; [now rewrite app_nil_r|]. eapply run3_throws; eassumption.
  - apply (IH _ _ _ dT0 _ _ _ E). eapply refusals_end; eassumption.
  - destruct (if v_polish o then polish3 T1 y else Val y) as [x'|e] eqn:P; [|discriminate]. cbn [bind] in E.
    destruct (vlle_entry crit pressure o T1 x') as [[b q]|e] eqn:EN; [|discriminate]. cbn [bind] in E. apply entry_inv in EN. destruct EN as (VT & VX & EV & FI).
    assert (MV : moves3 stepper drhodT3 polish3 o x T dT0 (vp_x q) (vp_T q) (fmin dT1 (v_max_dT o))).
    { exists dT, dT1, y. rewrite VT, VX. auto. }
    destruct b.
    + injection E as <-. exists []. split; [now rewrite app_nil_r|]. eapply run3_stops; [exact MV|exact EV|tauto].
    + apply IH with (dT0 := fmin dT1 (v_max_dT o)) in E; [|constructor]. destruct E as (l & -> & RN). exists (q :: l). split; [now rewrite <- app_assoc|].
      replace (Z.to_nat (v_max_steps o - iter)) with (S (Z.to_nat (v_max_steps o - (iter + 1)))) by lia.
      eapply run3_next; [exact MV|exact EV| |rewrite VX, VT; exact RN]. rewrite <- FI. discriminate.
Qed.
Lemma loop3_ends : forall k, patient stepper k -> forall n iter, (Z.to_nat (v_max_steps o - iter) <= n)%nat ->
  forall fuel x T dT data, (S k * n + 1 <= fuel)%nat -> loop3 fuel iter x T dT data <> None.
Proof.
  intros k HK. induction n as [|n IHn]; intros iter Hn.
  - intros [|fuel] x T dT data Hf; [lia|]. cbn [vlle_trace_loop]. destruct (Z.ltb_spec iter (v_max_steps o)); [lia|discriminate].
  - assert (IN : forall j fuel x T dT data, accepts_within stepper j drhodT3 x T dT -> (j + 1 + (S k * n + 1) <= fuel)%nat -> loop3 fuel iter x T dT data <> None).
    { induction j as [|j IHj]; intros fuel x T dT data AW Hf; (destruct fuel as [|fuel]; [lia|]); cbn [vlle_trace_loop];
        (destruct (Z.ltb_spec iter (v_max_steps o)); [|discriminate]); cbn [accepts_within] in AW;
        (destruct (stepper drhodT3 x T dT) as [|dT1|y T1 dT1]; [discriminate| |]).
      all: try contradiction.
      all: try (apply IHj; [exact AW|lia]).
      all: destruct (bind _ _) as [[x' [[|] q]]|e]; [discriminate| |discriminate]; apply IHn; lia. }
    intros fuel x T dT data Hf. apply (IN k); [apply HK|lia].
Qed.
Lemma run3_length : forall n x T dT l, run3 n x T dT l -> (length l <= n)%nat.
Proof. intros n x T dT l H. induction H; cbn [length]; lia. Qed.
Lemma run3_all : forall n x T dT l q, run3 n x T dT l -> In q l -> evaluated3 crit pressure q /\ ~ final3 o q.
Proof. intros n x T dT l q H. induction H as [| | |n x T dT a dT' l M E F R IH]; intros I; try (now destruct I). destruct I as [<-|I]; auto. Qed.
End Three.
