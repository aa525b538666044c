(** Proofs about the tracer of critical curves. *)
From Coq Require Import Reals ZArith List Bool Lia Lra.
From Verif Require Import Json_model Cubic_model Float_model VLE_model VLE_spec Tracer_model Tracer_spec Tracer_proofs CritTrace_model CritTrace_spec.
Import ListNotations.
Open Scope R_scope.

Lemma temp_el : forall x, el x 0 = temp x.
Proof. reflexivity. Qed.
Lemma out_of_range_iff : forall x, out_of_range (tl x) = false <-> in_range x.
Proof. intros x. unfold out_of_range, in_range, frac0, conc, less. cbv zeta. rewrite orb_false_iff, !not_true_iff_false. reflexivity. Qed.
Lemma out_of_range_true : forall x, out_of_range (tl x) = true -> ~ in_range x.
Proof. intros x H K. apply out_of_range_iff in K. congruence. Qed.
Lemma refused_iff : forall o x x', change_refused o (temp x) (conc x) (temp x') (conc x') = false <-> close o x x'.
Proof.
  intros o x x'. unfold change_refused, close, less. rewrite orb_false_iff, not_true_iff_false. split; intros (A & B); (split; [exact A|]).
  - intros i H1 H2. rewrite not_true_iff_false. revert i H1 H2 B. generalize (conc x) (conc x'). induction l as [|a l IH]; intros [|b l'] i H1 H2 B; cbn [length] in *; try lia.
    cbn [combine existsb fst snd] in B. apply orb_false_iff in B. destruct B as [B0 B]. destruct i as [|i]; [exact B0|]. apply (IH l' i); auto; lia.
  - assert (B' : forall i, (i < length (conc x))%nat -> (i < length (conc x'))%nat -> flt (fmul (c_reltol_rho o) (el (conc x) i)) (fabs (fsub (el (conc x) i) (el (conc x') i))) = false)
      by (intros i H1 H2; apply not_true_iff_false, B; auto).
    clear B. revert B'. generalize (conc x) (conc x'). induction l as [|a l IH]; intros [|b l'] B; cbn [combine existsb]; auto. apply orb_false_iff. split.
    + apply (B 0%nat); cbn; lia.
    + apply IH. intros i H1 H2. apply (B (S i)); cbn; lia.
Qed.
Lemma first_polished_some : forall o ps z x x', z = fdiv (el (conc x) 0) (fsum (conc x)) -> first_polished o ps z (temp x) (conc x) = Some x' ->
  exists k, proposes ps k x x' /\ close o x x' /\ forall j y, (j < k)%nat -> proposes ps j x y -> ~ close o x y.
Proof.
  intros o ps z x x' Hz. induction ps as [|p ps IH]; intros E; [discriminate|]. cbn [first_polished] in E.
  assert (UP : (exists k, proposes ps k x x' /\ close o x x' /\ forall j y, (j < k)%nat -> proposes ps j x y -> ~ close o x y) -> (forall y, proposes (p :: ps) 0 x y -> ~ close o x y) ->
    exists k, proposes (p :: ps) k x x' /\ close o x x' /\ forall j y, (j < k)%nat -> proposes (p :: ps) j x y -> ~ close o x y).
  { intros (k & (Lk & Pk & Ek) & C & F) N. exists (S k). split; [split; [cbn [length]; lia|auto]|]. split; [exact C|].
    intros [|j] y Hj P; [now apply N|]. apply (F j); [lia|]. destruct P as (P1 & P2 & P3). split; [cbn [length] in P1; lia|auto]. }
  destruct (p z (temp x) (conc x)) as [(Tn & rn)|e] eqn:P.
  - destruct (change_refused o (temp x) (conc x) Tn rn) eqn:C.
    + apply UP; [now apply IH|]. intros y (_ & P2 & P3) K. cbn [nth] in P2. rewrite <- Hz, P in P2. injection P2 as -> ->. apply refused_iff in K. congruence.
    + injection E as <-. exists 0%nat. split; [split; [cbn [length]; lia|split; [cbn [nth]; now rewrite <- Hz|reflexivity]]|]. split; [now apply refused_iff|]. intros j y Hj. lia.
  - apply UP; [now apply IH|]. intros y (_ & P2 & _) K. cbn [nth] in P2. rewrite <- Hz, P in P2. discriminate.
Qed.
Lemma first_polished_none : forall o ps z x, z = fdiv (el (conc x) 0) (fsum (conc x)) -> first_polished o ps z (temp x) (conc x) = None -> forall k y, proposes ps k x y -> ~ close o x y.
Proof.
  intros o ps z x Hz. induction ps as [|p ps IH]; intros E k y (Lk & Pk & Ek) K; [cbn in Lk; lia|]. cbn [first_polished] in E. destruct k as [|k].
  - cbn [nth] in Pk. rewrite <- Hz in Pk. rewrite Pk in E. apply refused_iff in K. rewrite K in E. discriminate.
  - assert (E' : first_polished o ps z (temp x) (conc x) = None) by (destruct (p z (temp x) (conc x)) as [(Tn & rn)|e]; [destruct (change_refused _ _ _ _ _); [exact E|discriminate]|exact E]).
    apply (IH E' k y); [split; [cbn [length] in Lk; lia|auto]|exact K].
Qed.
Lemma polished_inv : forall ps o x r, crit_polished ps o x = Val r -> match r with Some x' => polishes ps o x x' | None => unpolished ps o x end.
Proof.
  intros ps o x r E. unfold crit_polished in E. destruct (c_polish o) eqn:CP.
  - destruct (first_polished o ps _ _ _) as [x'|] eqn:F.
    + injection E as <-. right. split; [exact CP|]. eapply first_polished_some; [reflexivity|exact F].
    + destruct (c_polish_throws o) eqn:PT; [discriminate|]. injection E as <-. split; [exact CP|]. split; [exact PT|]. eapply first_polished_none; [reflexivity|exact F].
  - injection E as <-. left. auto.
Qed.

Section Loop.
Variable stepper : stepper_type.
Variable drhodT : fl -> list fl -> res (list fl).
Variable pressure : fl -> list fl -> res fl.
Variable conds : fl -> list fl -> res (list fl).
Variable splus : fl -> list fl -> res fl.
Variable stable : fl -> list fl -> fl -> res bool.
Variable polishers : list (fl -> fl -> list fl -> res (fl * list fl)).
Variable o : coptions.
Variable c : fl.
Notation deriv := (crit_deriv drhodT o c).
Notation loop := (crit_loop stepper drhodT pressure conds splus stable polishers o c).
Notation records := (records_state drhodT pressure conds splus stable o c).
Notation run := (crun stepper deriv polishers o records).
Notation store := (crit_store drhodT pressure conds splus stable o c).
Lemma store_records : forall s q, store s = Val q -> records s q.
Proof.
  intros s q. unfold crit_store, records_state, temp, conc, el. destruct (pressure _ _) as [p|]; [|discriminate]. cbn [bind]. destruct (conds _ _) as [cr|]; [|discriminate]. cbn [bind].
  destruct (splus _ _) as [sp|]; [|discriminate]. cbn [bind]. destruct (deriv _ _) as [dx|] eqn:D; [|discriminate]. cbn [bind]. destruct (c_calc_stability o).
  - destruct (stable _ _ _) as [b|]; [|discriminate]. cbn [bind]. intros H. injection H as <-. cbn. repeat split; auto. right. eauto.
  - cbn [bind]. intros H. injection H as <-. cbn. repeat split; auto.
Qed.
(** the state [s] is [s0] but for refusals since *)
Definition since (s0 s : cstate) : Prop :=
  cs_x s = cs_x s0 /\ cs_t s = cs_t s0 /\ cs_last s = cs_last s0 /\ cs_count s = cs_count s0 /\
  refusals stepper (fun x _ => deriv (cs_last s0) x) (cs_x s0) (cs_t s0) (cs_dt s0) (cs_dt s) /\ (c_order o <> 5%Z -> cs_dt s = cs_dt s0).
Lemma since_refl : forall s, since s s.
Proof. intros s. repeat split; auto. constructor. Qed.
Lemma loop_run : forall fuel iter retry s data out sf s0, loop fuel iter retry s data = Some (Val (out, sf)) -> ((iter =? 0)%Z && Nat.eqb retry 0) = false -> (0 <= iter)%Z ->
  since s0 s -> ((c_max_steps o <= iter)%Z -> s = s0) -> exists l, out = data ++ l /\ run iter s0 l sf.
Proof.
  induction fuel as [|fuel IH]; intros iter retry s data out sf s0 E F Hi A M; [discriminate|]. cbn [crit_loop] in E. rewrite F in E.
  destruct (Z.ltb_spec iter (c_max_steps o)) as [L|L].
  2: { injection E as <- <-. exists []. split; [now rewrite app_nil_r|]. rewrite M by auto. now constructor. }
  assert (A' := A). destruct A' as (AX & AT & AL & AC & AR & AO).
  destruct (deriv (cs_last s) (cs_x s)) as [d|e] eqn:D; [|discriminate]. cbn [bind] in E.
  destruct (crit_attempt stepper drhodT o c s) as [r|e] eqn:AP; [|discriminate].
  assert (ST : match r with Threw => fails stepper deriv o s0 s | Refused dt => c_order o = 5%Z /\ stepper (fun x _ => deriv (cs_last s) x) (cs_x s) (cs_t s) (cs_dt s) = Refused dt
                | Taken x t dt => steps stepper deriv o s0 x t dt end).
  { unfold crit_attempt in AP. destruct (Z.eqb_spec (c_order o) 5) as [O5|N5].
    - injection AP as <-. destruct (stepper _ _ _ _) as [|dt|x t dt] eqn:SS; rewrite AL, AX, AT in SS.
      + repeat split; auto.
      + split; [exact O5|reflexivity].
      + left. split; [exact O5|]. exists (cs_dt s), dt. auto.
    - destruct (Z.eqb_spec (c_order o) 1) as [O1|]; [|discriminate]. rewrite D in AP. injection AP as <-. right. split; [exact O1|]. exists d. rewrite <- AL, <- AX, <- AT, <- (AO N5). auto. }
  destruct r as [|dt|x t dt].
  - injection E as <- <-. exists []. split; [now rewrite app_nil_r|]. now apply crun_throws.
  - destruct ST as (O5 & SS). apply (IH _ _ _ _ _ _ s0 E); [cbn [Nat.eqb]; apply andb_false_r|exact Hi| |intros; lia].
    repeat split; cbn [cs_x cs_t cs_last cs_count cs_dt]; auto; [|intros N; contradiction]. eapply refusals_end; [exact AR|]. now rewrite <- AL, <- AX, <- AT.
  - destruct (out_of_range (tl x)) eqn:OR.
    { injection E as <- <-. exists []. split; [now rewrite app_nil_r|]. apply crun_leaves; auto. now apply out_of_range_true. }
    apply out_of_range_iff in OR. destruct (crit_polished polishers o x) as [[x'|]|e] eqn:P; [| |discriminate]; apply polished_inv in P.
    2: { injection E as <- <-. exists []. split; [now rewrite app_nil_r|]. apply crun_unpolished; auto. }
    destruct (if (c_skip_dircheck o <=? iter)%Z then _ else _) as [last|e] eqn:LA; [|discriminate]. cbv zeta in E.
    set (s' := {| cs_x := x'; cs_t := t; cs_dt := dt; cs_last := last; cs_count := _ |}) in E.
    assert (AD : advances deriv polishers o iter s0 x s').
    { split; [exact P|]. split.
      - destruct (Z.leb_spec (c_skip_dircheck o) iter) as [LE|LE]; cbn [s' cs_last].
        + right. split; [exact LE|]. exists d. cbn [bind] in LA. rewrite <- AL, <- AX. split; [exact D|congruence].
        + left. split; [exact LE|]. cbn. congruence.
      - unfold s'. cbn [cs_x cs_count]. unfold less. rewrite temp_el in *. rewrite <- AX, temp_el, <- AC. destruct (flt _ _) eqn:FL; [left|right]; (split; [|reflexivity]); congruence. }
    assert (ST' : steps stepper deriv o s0 x (cs_t s') (cs_dt s')) by exact ST.
    destruct (out_of_range (tl x')) eqn:OR'.
    { injection E as <- <-. exists []. split; [now rewrite app_nil_r|]. eapply (crun_polished_out _ _ _ _ _ _ _ x); eauto. now apply out_of_range_true. }
    apply out_of_range_iff in OR'. change x' with (cs_x s') in OR'. destruct (store s') as [q|e] eqn:SQ; [|discriminate]. apply store_records in SQ.
    change (if flt (fabs (fsub (el x' 0) (el (cs_x s) 0))) (c_T_tol o) then (cs_count s + 1)%Z else 0%Z) with (cs_count s') in E.
    destruct (Z.ltb_spec (c_small_T_count o) (cs_count s')) as [SC|SC].
    + injection E as <- <-. exists [q]. split; [reflexivity|]. eapply (crun_stalls _ _ _ _ _ _ _ x); eauto.
    + destruct (IH _ _ _ _ _ _ s' E) as (l & -> & RN); [destruct (Z.eqb_spec (iter + 1) 0); [lia|reflexivity]|lia|apply since_refl|reflexivity|].
      exists (q :: l). split; [now rewrite <- app_assoc|]. eapply (crun_next _ _ _ _ _ _ _ x); eauto.
Qed.
Lemma retry_irrelevant : forall fuel iter a b s data, loop fuel iter (S a) s data = loop fuel iter (S b) s data.
Proof.
  induction fuel as [|fuel IH]; intros iter a b s data; [reflexivity|]. cbn [crit_loop Nat.eqb]. rewrite andb_false_r.
  destruct (iter <? c_max_steps o)%Z; [|reflexivity]. destruct (bind _ _) as [data'|e]; [|reflexivity].
  destruct (crit_attempt _ _ _ _ _) as [[|dt|x t dt]|e]; try reflexivity. apply IH.
Qed.
Lemma first_pass : forall fuel s, (0 < c_max_steps o)%Z ->
  loop (S fuel) 0 0 s [] = match deriv (cs_last s) (cs_x s) with Err e => Some (Err e) | Val _ => match store s with Val q => loop (S fuel) 0 1 s [q] | Err e => Some (Err e) end end.
Proof.
  intros fuel s H. cbn [crit_loop]. destruct (Z.ltb_spec 0 (c_max_steps o)); [|lia]. cbn [Z.eqb Nat.eqb andb].
  destruct (deriv (cs_last s) (cs_x s)) as [d|e]; [|reflexivity]. cbn [bind]. destruct (store s) as [q|e]; cbn [bind app]; [|reflexivity].
  destruct (crit_attempt _ _ _ _ _) as [[|dt|x t dt]|e]; try reflexivity. apply retry_irrelevant.
Qed.
Lemma loop_from_start : forall fuel s out sf, loop fuel 0 0 s [] = Some (Val (out, sf)) -> (0 < c_max_steps o)%Z ->
  exists q l, out = q :: l /\ records s q /\ run 0 s l sf.
Proof.
  intros fuel s out sf E H. destruct fuel as [|fuel]; [discriminate|]. rewrite first_pass in E by auto. destruct (deriv _ _) as [d|e]; [|discriminate].
  destruct (store s) as [q|e] eqn:ST; [|discriminate]. apply store_records in ST.
  destruct (loop_run _ _ _ _ _ _ _ s E) as (l & -> & RN); [reflexivity|lia|apply since_refl|reflexivity|]. exists q, l. auto.
Qed.
Lemma run_length : forall iter s l sf, run iter s l sf -> (length l <= Z.to_nat (c_max_steps o - iter))%nat.
Proof. intros iter s l sf H. induction H; cbn [length]; lia. Qed.
Lemma run_all : forall iter s l sf q, run iter s l sf -> In q l -> in_range (cp_x q) /\ exists s', records s' q.
Proof.
  intros iter s l sf q H. induction H; intros I; try (now destruct I).
  - destruct I as [<-|[]]. match goal with H : records_state _ _ _ _ _ _ _ _ _ |- _ => assert (K := H); destruct K as (K & _) end. rewrite K. eauto.
  - destruct I as [<-|I]; [|now apply IHcrun]. match goal with H : records_state _ _ _ _ _ _ _ _ _ |- _ => assert (K := H); destruct K as (K & _) end. rewrite K. eauto.
Qed.

(** ** The loop ends if the stepper does not refuse for ever *)
Lemma loop_ends : forall k, patient stepper k -> forall n iter, (Z.to_nat (c_max_steps o - iter) <= n)%nat -> (0 <= iter)%Z ->
  forall fuel retry s data, (S k * n + 1 <= fuel)%nat -> loop fuel iter retry s data <> None.
Proof.
  intros k HK. induction n as [|n IHn]; intros iter Hn Hi.
  - intros [|fuel] retry s data Hf; [lia|]. cbn [crit_loop]. destruct (Z.ltb_spec iter (c_max_steps o)); [lia|discriminate].
  - assert (IN : forall j fuel retry s data, accepts_within stepper j (fun x _ => deriv (cs_last s) x) (cs_x s) (cs_t s) (cs_dt s) -> (j + 1 + (S k * n + 1) <= fuel)%nat -> loop fuel iter retry s data <> None).
    { assert (AFT : forall fuel x t dt s data, (S k * n + 1 <= fuel)%nat ->
        (if out_of_range (tl x) then Some (Val (data, {| cs_x := x; cs_t := t; cs_dt := dt; cs_last := cs_last s; cs_count := cs_count s |})) else
          match crit_polished polishers o x with
          | Err e => Some (Err e)
          | Val None => Some (Val (data, {| cs_x := x; cs_t := t; cs_dt := dt; cs_last := cs_last s; cs_count := cs_count s |}))
          | Val (Some x') =>
            match (if (c_skip_dircheck o <=? iter)%Z then bind (deriv (cs_last s) (cs_x s)) (fun d => Val (tl d)) else Val (cs_last s)) with
            | Err e => Some (Err e)
            | Val last =>
              let count := if flt (fabs (fsub (el x' 0) (el (cs_x s) 0))) (c_T_tol o) then (cs_count s + 1)%Z else 0%Z in
              let s' := {| cs_x := x'; cs_t := t; cs_dt := dt; cs_last := last; cs_count := count |} in
              if out_of_range (tl x') then Some (Val (data, s')) else
              match store s' with
              | Err e => Some (Err e)
              | Val q => if (c_small_T_count o <? count)%Z then Some (Val (data ++ [q], s')) else loop fuel (iter + 1)%Z 0 s' (data ++ [q])
              end
            end
          end) <> None).
      { intros fuel x t dt s data Hf. destruct (out_of_range _); [discriminate|]. destruct (crit_polished _ _ _) as [[x'|]|]; [|discriminate|discriminate].
        destruct (if (c_skip_dircheck o <=? iter)%Z then _ else _) as [last|]; [|discriminate]. cbv zeta. destruct (out_of_range (tl x')); [discriminate|].
        destruct (store _) as [q|]; [|discriminate]. destruct (c_small_T_count o <? _)%Z; [discriminate|]. apply IHn; lia. }
      induction j as [|j IHj]; intros fuel retry s data AW Hf; (destruct fuel as [|fuel]; [lia|]); cbn [crit_loop];
        (destruct (Z.ltb_spec iter (c_max_steps o)); [|discriminate]); (destruct (bind _ _) as [data'|e]; [|discriminate]);
        unfold crit_attempt; (destruct (c_order o =? 5)%Z; [|destruct (c_order o =? 1)%Z; [|discriminate]]); cbn [accepts_within] in AW.
      all: try (destruct (stepper (fun x _ => deriv (cs_last s) x) (cs_x s) (cs_t s) (cs_dt s)) as [|dt|x t dt]; [discriminate| |]).
      all: try contradiction.
      all: try (apply IHj; [exact AW|lia]).
      all: try (apply AFT; lia).
      all: destruct (deriv (cs_last s) (cs_x s)) as [d|e] eqn:DD; [rewrite <- DD; apply AFT; lia|discriminate]. }
    intros fuel retry s data Hf. apply (IN k); [apply HK|lia].
Qed.
End Loop.
