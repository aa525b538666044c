(** C49, C50, C71: the optimisation of parameters. *)
From Coq Require Import Reals ZArith String Ascii List Bool Lia Lra.
From Verif Require Import Json_model Cubic_model Float_model VLE_model VLE_spec Tracer_model Optim_model Optim_spec Optim_proofs Optim_proofs2.
Import ListNotations.
Open Scope R_scope.

Lemma nodup_r : forall (A : Type) (a b : list A), NoDup (a ++ b) -> NoDup b.
Proof. induction a as [|x a IH]; intros b H; [exact H|]. cbn [app] in H. inversion H; auto. Qed.

(** ** C50: where the parameters are written *)
Lemma build_run : forall jbase pps x j, build_JSON jbase pps x = Val j -> length x = length pps /\ run_writes (writes x pps) jbase = Val j.
Proof. intros jbase pps x j H. unfold build_JSON in H. destruct (Nat.eqb_spec (length x) (length pps)); [|discriminate]. cbn [negb] in H. now rewrite write_params_run in H. Qed.
(** Each pointer of parameter k leads to its value, unless it is, or lies below, a pointer of
    another parameter. *)
Theorem C50_written : forall jbase pps x j k a ps p, build_JSON jbase pps x = Val j -> nth_error x k = Some a -> nth_error pps k = Some ps -> In p ps ->
  (forall k' ps' p', nth_error pps k' = Some ps' -> In p' ps' -> prefix p' p -> k' = k /\ p' = p) -> at_path p j (JNum a).
Proof.
  intros jbase pps x j k a ps p H X P I C. apply build_run in H. destruct H as [L H]. apply resolve_iff. eapply written; [exact H| |].
  - apply in_writes. exists k, a, ps. auto.
  - intros q v W PR. apply in_writes in W. destruct W as (k' & a' & ps' & X' & P' & I' & ->). destruct (C k' ps' q P' I' PR) as [-> ->]. split; [reflexivity|]. congruence.
Qed.
(** Every other place is as in the base document: the same value or, still, none. *)
Theorem C50_rest : forall jbase pps x j q, build_JSON jbase pps x = Val j -> (forall ps p, In ps pps -> In p ps -> apart p q) -> forall v, at_path q j v <-> at_path q jbase v.
Proof.
  intros jbase pps x j q H C v. apply build_run in H. destruct H as [L H]. rewrite <- !resolve_iff. rewrite (untouched _ _ _ q H); [tauto|].
  intros p u W. apply in_writes in W. destruct W as (k & a & ps & _ & P & I & _). apply (C ps p); [eapply nth_error_In, P|exact I].
Qed.
(** The objects and arrays above keep their keys and lengths. *)
Theorem C50_above : forall jbase pps x j q v, build_JSON jbase pps x = Val j -> (forall ps p, In ps pps -> In p ps -> ~ prefix p q) -> at_path q jbase v -> exists v', at_path q j v' /\ same_shape v v'.
Proof.
  intros jbase pps x j q v H C A. apply build_run in H. destruct H as [L H]. apply resolve_iff in A. destruct (above _ _ _ q v H A) as (b & B & S).
  - intros p u W. apply in_writes in W. destruct W as (k & a & ps & _ & P & I & _). apply (C ps p); [eapply nth_error_In, P|exact I].
  - exists b. split; [now apply resolve_iff|exact S].
Qed.
(** Numbers of parameters and pointers that differ are refused; a pointer to a place that is
    not in the base document raises the exception of the JSON library; if all places are there
    and none lies below another, the document is made. *)
Theorem C50_refusals : forall jbase pps x,
  (length x <> length pps -> build_JSON jbase pps x = Err InvalidArgument) /\
  (length x = length pps -> (exists ps p, In ps pps /\ In p ps /\ forall v, ~ at_path p jbase v) -> build_JSON jbase pps x = Err JsonError) /\
  (length x = length pps -> (forall ps p, In ps pps -> In p ps -> exists v, at_path p jbase v) ->
     (forall ps p ps' p', In ps pps -> In p ps -> In ps' pps -> In p' ps' -> prefix p p' -> p = p') -> exists j, build_JSON jbase pps x = Val j).
Proof.
  intros jbase pps x. unfold build_JSON. split; [|split].
  - intros H. destruct (Nat.eqb_spec (length x) (length pps)); [contradiction|reflexivity].
  - intros L (ps & p & I1 & I2 & NP). rewrite L, Nat.eqb_refl. cbn [negb]. rewrite write_params_run. destruct (run_writes _ _) as [j|e] eqn:E; [|now rewrite (run_error _ _ _ E)].
    exfalso. apply In_nth_error in I1. destruct I1 as (k & P). destruct (nth_error x k) as [a|] eqn:X.
    + assert (K : resolve p jbase <> None) by (eapply (all_there _ _ _ E (numbers x pps) p (JNum a)), in_writes; exists k, a, ps; auto). destruct (resolve p jbase) as [v|] eqn:RS; [|contradiction]. apply resolve_iff in RS. eapply NP, RS.
    + apply nth_error_None in X. assert (k < length pps)%nat by (apply nth_error_Some; congruence). lia.
  - intros L T C. rewrite L, Nat.eqb_refl. cbn [negb]. rewrite write_params_run. apply succeed.
    + intros p v W. apply in_writes in W. destruct W as (k & a & ps & _ & P & I & _). destruct (T ps p) as (u & A); [eapply nth_error_In, P|exact I|]. apply resolve_iff in A. congruence.
    + intros p v q u W1 W2 PR. apply in_writes in W1, W2. destruct W1 as (k & a & ps & _ & P & I & _). destruct W2 as (k' & a' & ps' & _ & P' & I' & _).
      apply (C ps p ps' q); auto; eapply nth_error_In; eassumption.
Qed.
(** a document with two places *)
Definition doc : json := JObj [("kind"%string, JStr "PCSAFT"); ("model"%string, JArr [JObj [("m"%string, JNum 1); ("sigma"%string, JNum 2)]])].
Definition at_m : list string := ["model"; "0"; "m"]%string.
Definition at_sigma : list string := ["model"; "0"; "sigma"]%string.
Example C50_met : build_JSON doc [[at_m]; [at_sigma]] [3; 4] = Val (JObj [("kind"%string, JStr "PCSAFT"); ("model"%string, JArr [JObj [("m"%string, JNum 3); ("sigma"%string, JNum 4)]])]) /\
  at_path at_m doc (JNum 1) /\ apart at_m at_sigma /\ ~ prefix at_m ["model"; "0"]%string.
Proof.
  split; [reflexivity|]. split; [apply resolve_iff; reflexivity|]. split; [split|]; intros (r & H); discriminate H.
Qed.
(** Pointers that overlap are not refused: of two equal ones the last value stays, and a place
    below one written before is gone. *)
Theorem C50_overlap_refuted :
  build_JSON doc [[at_m]; [at_m]] [3; 4] = build_JSON doc [[at_m]] [4] /\
  build_JSON doc [[at_m]; [["model"; "0"]]]%string [3; 4] = Val (JObj [("kind"%string, JStr "PCSAFT"); ("model"%string, JArr [JNum 4])]) /\
  build_JSON doc [[["model"; "0"]]; [at_m]]%string [4; 3] = Err JsonError.
Proof. repeat split. Qed.
(** Every place can be written as text for the constructor: keys with the characters / and ~
    are escaped. *)
Theorem C50_text : forall p, parse_pointer (pointer_text p) = Val p.
Proof. exact parse_text. Qed.
Example C50_text_met : pointer_text ["a/b"; "c~1"; ""; "0"]%string = "/a~1b/c~01//0"%string.
Proof. reflexivity. Qed.
(** The constructor takes one text or a list of texts per parameter; anything that does not
    begin with a slash is refused. *)
Theorem C50_constructor : forall l, (forall l', make_pointers (map (fun pp => match pp with inl p => One (pointer_text p) | inr ps => Many (map pointer_text ps) end) l') =
    Val (map (fun pp => match pp with inl p => [p] | inr ps => ps end) l')) /\
  ((exists s, In (One s) l /\ s <> EmptyString /\ forall r, s <> String "/" r) -> exists e, make_pointers l = Err e).
Proof.
  intros l. split.
  - unfold make_pointers. induction l' as [|[p|ps] l' IH]; cbn [map map_res]; [reflexivity|..].
    + rewrite parse_text. cbn [bind]. rewrite IH. reflexivity.
    + assert (M : map_res parse_pointer (map pointer_text ps) = Val ps) by (induction ps as [|p ps IHp]; cbn [map map_res]; [reflexivity|]; rewrite parse_text; cbn [bind]; now rewrite IHp).
      rewrite M. cbn [bind]. rewrite IH. reflexivity.
  - intros (s & I & NE & NS). unfold make_pointers. induction l as [|a l IH]; [destruct I|]. cbn [map_res]. destruct I as [->|I].
    + exists JsonError. destruct s as [|c r]; [contradiction|]. cbn [parse_pointer]. destruct (Ascii.eqb_spec c "/") as [->|]; [now destruct (NS r)|]. reflexivity.
    + destruct (match a with One s => _ | Many ss => _ end) as [b|e]; cbn [bind]; [|eauto]. destruct (IH I) as (e & ->). cbn [bind]. eauto.
Qed.

(** ** C49: one thread or many *)
Section Threads.
Variable make_model : json -> res eosf.
Variable jbase : json.
Variable pps : list (list (list string)).
Variable cs : list contribution.
(** Whatever the number of threads and the order in which they work: the sum of the
    contributions, each not finite one replaced by 1e30. *)
Theorem C49_value : forall x n_threads m r, (0 < n_threads)%nat -> prepare make_model jbase pps x = Val m -> threaded_returns make_model jbase pps cs x n_threads r ->
  exists vs, Forall2 (fun c v => calculate m c = Val v) cs vs /\ r = Val (fold_left fadd (map clamp vs) (Fin 0)).
Proof.
  intros x N m r HN P H. unfold threaded_returns in H. rewrite P in H. destruct H as (n & s & ST & J & ->).
  assert (G : good m cs N s) by (eapply good_steps; [exact ST|reflexivity|apply good_start]).
  assert (BF := joined_buffer m cs N s HN G J). assert (LB := g_buffer _ _ _ _ G).
  assert (Q : exists vs, Forall2 (fun c v => calculate m c = Val v) cs vs /\ buffer s = map clamp vs).
  { revert BF LB. generalize (buffer s). generalize cs. clear. induction cs as [|c l IH]; intros [|b bs] BF LB; try discriminate LB.
    - exists []. split; [constructor|reflexivity].
    - destruct (BF 0%nat c eq_refl) as (v & V & B). cbn [nth_error] in B. injection B as ->. destruct (IH bs) as (vs & F & E); [intros i c' C'; exact (BF (S i) c' C')|cbn [length] in LB; lia|].
      exists (v :: vs). split; [now constructor|]. cbn [map]. congruence. }
  destruct Q as (vs & F & E). exists vs. split; [exact F|]. unfold total. now rewrite E.
Qed.
(** So the result is that of [cost_function] if all contributions are finite. *)
Theorem C49_same : forall x n_threads m vs r, (0 < n_threads)%nat -> prepare make_model jbase pps x = Val m -> Forall2 (fun c v => calculate m c = Val v) cs vs ->
  (forall v, In v vs -> isfinite v = true) -> threaded_returns make_model jbase pps cs x n_threads r -> r = cost_function make_model jbase pps cs x.
Proof.
  intros x N m vs r HN P F FI H. destruct (C49_value x N m r HN P H) as (vs' & F' & ->). assert (vs' = vs).
  { clear - F F'. revert vs' F'. induction F as [|c v l vs E F IH]; intros vs' F'; inversion F' as [|? ? ? ? E']; subst; [reflexivity|]. f_equal; [congruence|auto]. }
  subst vs'. unfold cost_function. rewrite P. cbn [bind]. rewrite (add_up_values m cs vs F). cbn [bind]. rewrite (sum_finite vs (Fin 0) eq_refl FI). now rewrite clamp_finite.
Qed.
(** No schedule is stuck or goes on for ever: there are at most 4 steps per contribution and
    one more, and before the end there is always a next one; and no two threads ever have the
    same place of the buffer. *)
Theorem C49_ends : forall m n_threads n b, (0 < n_threads)%nat -> steps m cs (Running (start cs n_threads)) n b ->
  (n <= 4 * length cs + 1)%nat /\
  match b with
  | Terminated => True
  | Running s => (joined cs s \/ exists b', step m cs b b') /\
      (forall t1 t2 i, nth_error (threads s) t1 = Some (Evaluating i) \/ nth_error (threads s) t1 = Some (Looking i) -> nth_error (threads s) t2 = Some (Evaluating i) \/ nth_error (threads s) t2 = Some (Looking i) -> t1 = t2)
  end.
Proof.
  intros m N n b HN ST. split.
  - pose proof (steps_bound m cs n _ _ ST _ eq_refl) as B. rewrite (remaining_start cs N) in B. lia.
  - destruct b as [s|]; [|exact I]. assert (G : good m cs N s) by (eapply good_steps; [exact ST|reflexivity|apply good_start]). split; [now apply (progress m cs N)|].
    pose proof (g_nodup _ _ _ _ G) as ND. apply nodup_r in ND. clear - ND. intros t1 t2 i. generalize dependent t2. generalize dependent t1. induction (threads s) as [|t ts IH]; intros t1 t2 H1 H2.
    + destruct t1; destruct H1; discriminate.
    + cbn [active flat_map] in ND. fold (active ts) in ND. assert (ND2 : NoDup (active ts)) by (now apply nodup_r in ND).
      assert (IN : forall k, nth_error ts k = Some (Evaluating i) \/ nth_error ts k = Some (Looking i) -> In i (active ts)) by (intros k [K|K]; apply in_active; apply nth_error_In in K; auto).
      assert (NO : Some t = Some (Evaluating i) \/ Some t = Some (Looking i) -> ~ In i (active ts)).
      { intros K I. assert (TK : task t = [i]) by (destruct K as [K|K]; injection K as ->; reflexivity). rewrite TK in ND. cbn [app] in ND. inversion ND; contradiction. }
      destruct t1 as [|t1], t2 as [|t2]; cbn [nth_error] in H1, H2; [reflexivity|exfalso; apply (NO H1); eauto|exfalso; apply (NO H2); eauto|]. f_equal. now apply IH.
Qed.
(** If a contribution raises an exception, [cost_function] raises it, but with threads the
    process is terminated: no value is returned, and no exception. *)
Theorem C49_throws_refuted : forall x n_threads m c e, (0 < n_threads)%nat -> prepare make_model jbase pps x = Val m -> In c cs -> calculate m c = Err e ->
  (exists e', cost_function make_model jbase pps cs x = Err e') /\ (forall r, ~ threaded_returns make_model jbase pps cs x n_threads r).
Proof.
  intros x N m c e HN P I E. split.
  - unfold cost_function. rewrite P. cbn [bind]. generalize (Fin 0). induction cs as [|d l IH]; intros a; [destruct I|]. cbn [add_up]. destruct I as [->|I].
    + rewrite E. cbn [bind]. eauto.
    + destruct (calculate m d) as [v|e']; cbn [bind]; [now apply IH|eauto].
  - intros r H. destruct (C49_value x N m r HN P H) as (vs & F & _). clear - I E F. induction F as [|d v l vs D F IH]; [destruct I|]. destruct I as [->|I]; [congruence|auto].
Qed.
End Threads.
Definition nan_point : contribution := SatRhoL (Fin 300) (Fin 1) (Fin 1) (Fin 1) NaN.
Definition good_point : contribution := SatRhoL (Fin 300) (Fin 1) (Fin 1) (Fin 1) (Fin 2).
Definition some_eos : eosf := {| m_VLE := fun _ _ _ => Val (Fin 3); m_Ar0n := fun _ _ => Val (Fin 0, Fin 0); m_Ar01 := fun _ _ => Val (Fin 0); m_Ar11 := fun _ _ => Val (Fin 0); m_Ar20 := fun _ _ => Val (Fin 0) |}.
(** a run of two threads and two contributions *)
Lemma two_threads : forall c d v w, calculate some_eos c = Val v -> calculate some_eos d = Val w ->
  threaded_returns (fun _ => Val some_eos) doc [[at_m]] [c; d] [2] 2 (Val (fadd (fadd (Fin 0) (clamp v)) (clamp w))).
Proof.
  intros c d v w C D. unfold threaded_returns. change (prepare _ _ _ _) with (@Val eosf some_eos). cbv iota.
  eexists. exists {| posted := 2; queue := []; threads := [Idle; Idle]; buffer := [clamp v; clamp w] |}. split; [|split; [|reflexivity]].
  2: { split; [reflexivity|]. split; [|now left]. intros t [<-|[<-|[]]]; reflexivity. }
  unfold start. cbn [repeat length].
  eapply steps_S; [apply s_post; cbn; lia|]. eapply steps_S; [apply s_post; cbn; lia|]. cbn [app].
  eapply steps_S; [apply (s_take some_eos _ 2 0 [1%nat] _ _ 1); reflexivity|]. eapply steps_S; [apply (s_take some_eos _ 2 1 [] _ _ 0); reflexivity|]. cbn [set_nth firstn skipn app].
  eapply steps_S; [apply (s_write some_eos _ 2 [] _ _ 0 1 d w); auto|]. eapply steps_S; [apply (s_write some_eos _ 2 [] _ _ 1 0 c v); auto|]. cbn [set_nth firstn skipn app].
  eapply steps_S; [apply (s_look some_eos _ 2 [] _ _ 0 1 w); reflexivity|]. eapply steps_S; [apply (s_look some_eos _ 2 [] _ _ 1 0 v); reflexivity|]. cbn [set_nth firstn skipn app]. apply steps_0.
Qed.
Example C49_met : threaded_returns (fun _ => Val some_eos) doc [[at_m]] [good_point; good_point] [2] 2 (cost_function (fun _ => Val some_eos) doc [[at_m]] [good_point; good_point] [2]).
Proof.
  assert (V : calculate some_eos good_point = Val (Fin (Rabs (3 + - (1)) * 2))) by reflexivity. pose proof (two_threads _ _ _ _ V V) as T.
  assert (F : Forall2 (fun c v => calculate some_eos c = Val v) [good_point; good_point] [Fin (Rabs (3 + - (1)) * 2); Fin (Rabs (3 + - (1)) * 2)]) by (repeat constructor; exact V).
  assert (E := C49_same (fun _ => Val some_eos) doc [[at_m]] [good_point; good_point] [2] 2 some_eos _ _ ltac:(lia) eq_refl F ltac:(intros v [<-|[<-|[]]]; reflexivity) T). now rewrite <- E.
Qed.
(** If contributions are not finite the results differ: 1e30 for each of them against 1e30
    altogether. *)
Theorem C49_not_finite_refuted :
  cost_function (fun _ => Val some_eos) doc [[at_m]] [nan_point; nan_point] [2] = Val (Fin (10 ^ 30)) /\
  threaded_returns (fun _ => Val some_eos) doc [[at_m]] [nan_point; nan_point] [2] 2 (Val (Fin (2 * 10 ^ 30))).
Proof.
  split; [reflexivity|]. assert (V : calculate some_eos nan_point = Val NaN) by reflexivity. pose proof (two_threads _ _ _ _ V V) as T. unfold clamp in T. cbn [isfinite huge fadd] in T.
  replace (2 * 10 ^ 30) with (0 + 10 ^ 30 + 10 ^ 30) by ring. exact T.
Qed.
(** Without a thread nothing is evaluated and the cost is zero. *)
Theorem C49_no_thread_refuted : forall make_model jbase pps cs x m, prepare make_model jbase pps x = Val m -> threaded_returns make_model jbase pps cs x 0 (Val (Fin 0)).
Proof.
  intros make_model jbase pps cs x m P. unfold threaded_returns. rewrite P.
  assert (K : forall n q b, (n <= length cs)%nat -> exists q', steps m cs (Running {| posted := length cs - n; queue := q; threads := []; buffer := b |}) n (Running {| posted := length cs; queue := q'; threads := []; buffer := b |})).
  { induction n as [|n IH]; intros q b Hn; [exists q; rewrite Nat.sub_0_r; constructor|]. destruct (IH (q ++ [(length cs - S n)%nat]) b) as (q' & ST); [lia|]. exists q'. eapply steps_S; [apply s_post; lia|].
    replace (S (length cs - S n)) with (length cs - n)%nat by lia. exact ST. }
  destruct (K (length cs) [] (repeat (Fin 0) (length cs)) (le_n _)) as (q' & ST). rewrite Nat.sub_diag in ST. exists (length cs). eexists. split; [exact ST|]. split.
  - split; [reflexivity|]. cbn [threads]. split; [intros t []|now right].
  - unfold total. cbn [buffer]. f_equal. clear. generalize (length cs). intros n. assert (Z : Fin 0 = fadd (Fin 0) (Fin 0)) by (cbn; f_equal; ring). induction n as [|n IH]; cbn [repeat fold_left]; [reflexivity|]. now rewrite <- Z.
Qed.
Print Assumptions C50_written.
Print Assumptions C50_rest.
Print Assumptions C50_above.
Print Assumptions C50_refusals.
Print Assumptions C50_overlap_refuted.
Print Assumptions C50_text.
Print Assumptions C50_constructor.
Print Assumptions C49_value.
Print Assumptions C49_same.
Print Assumptions C49_ends.
Print Assumptions C49_throws_refuted.
Print Assumptions C49_not_finite_refuted.
Print Assumptions C49_no_thread_refuted.
