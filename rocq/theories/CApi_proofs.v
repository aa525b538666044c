(** Proofs about the C interface model. *)
From Coq Require Import ZArith String Ascii Bool Lia List.
From Verif Require Import CApi_model CApi_spec.
Import ListNotations.
Open Scope Z_scope.

(** ** Integer conversions *)

Lemma to_i64_range k : is_i64 (to_i64 k).
Proof.
  unfold is_i64, to_i64.
  pose proof (Z.mod_pos_bound k (2^64) ltac:(lia)).
  destruct (Z.ltb_spec (k mod 2^64) (2^63)); lia.
Qed.

Lemma to_u64_i64 k : to_u64 (to_i64 k) = k mod 2 ^ 64.
Proof.
  unfold to_u64, to_i64.
  destruct (Z.ltb_spec (k mod 2^64) (2^63)).
  - now rewrite Z.mod_mod by lia.
  - replace (k mod 2^64 - 2^64) with (k mod 2^64 + (-1) * 2^64) by lia.
    rewrite Z.mod_add by lia. now rewrite Z.mod_mod by lia.
Qed.

Lemma to_u64_inj h h' : is_i64 h -> is_i64 h' -> to_u64 h = to_u64 h' -> h = h'.
Proof.
  unfold is_i64, to_u64. intros A B H.
  assert (D : (h - h') mod 2^64 = 0).
  { rewrite Zminus_mod, H, Z.sub_diag. reflexivity. }
  apply Z.mod_divide in D; [|lia]. destruct D as [q Hq]. 
  assert (q = 0) by nia. lia.
Qed.

Lemma to_i64_succ n : to_i64 (to_i64 n + 1) = to_i64 (n + 1).
Proof.
  assert (E : (to_i64 n + 1) mod 2^64 = (n + 1) mod 2^64).
  { rewrite <- (Zplus_mod_idemp_l (to_i64 n)).
    change (to_i64 n mod 2^64) with (to_u64 (to_i64 n)).
    rewrite to_u64_i64. now rewrite Zplus_mod_idemp_l. }
  unfold to_i64 at 1 3. now rewrite E.
Qed.

Lemma to_i64_inj_small a b :
  0 <= a < 2^64 -> 0 <= b < 2^64 -> to_i64 a = to_i64 b -> a = b.
Proof.
  intros A B H. apply (f_equal to_u64) in H.
  rewrite !to_u64_i64, !Z.mod_small in H; lia.
Qed.

(** ** Histories grow at the end *)

Lemma run_app E s cs c :
  run E s (cs ++ [c]) =
  let '(s1, es) := run E s cs in
  let '(s2, r) := step E s1 c in
  (s2, es ++ [(c, r)]).
Proof.
  revert s. induction cs as [|c0 cs IH]; intros s; simpl.
  - destruct (step E s c). reflexivity.
  - destruct (step E s c0) as [s1 r1]. rewrite IH.
    destruct (run E s1 cs) as [s2 es].
    destruct (step E s2 c). reflexivity.
Qed.

Lemma history_app E cs c :
  history E (cs ++ [c]) =
  history E cs ++ [(c, snd (step E (fst (run E (init E) cs)) c))].
Proof.
  unfold history. rewrite run_app.
  destruct (run E (init E) cs) as [s es]. simpl.
  destruct (step E s c) as [s2 r]. reflexivity.
Qed.

Lemma handles_app {E} (H1 H2 : list (event E)) :
  handles (H1 ++ H2) = handles H1 ++ handles H2.
Proof.
  induction H1 as [|[c r] H1 IH]; simpl; [reflexivity|].
  destruct (r_uuid r); simpl; now rewrite IH.
Qed.

Lemma count_builds_app {E} (cs cs' : list (call E)) :
  count_builds (cs ++ cs') = count_builds cs + count_builds cs'.
Proof. unfold count_builds. rewrite filter_app, app_length. lia. Qed.

Lemma count_builds_nonneg {E} (cs : list (call E)) : 0 <= count_builds cs.
Proof. unfold count_builds. lia. Qed.

(** ** [denotes] under extension of the history *)

Lemma denotes_snoc_build {E} (H : list (event E)) js buf blen r h m :
  denotes (H ++ [(Build js buf blen, r)]) h m <->
  denotes H h m \/ (r_uuid r = Some h /\ describes E js m).
Proof.
  split.
  - intros (H1 & js1 & b1 & l1 & r1 & H2 & EQ & U & D & F).
    destruct H2 as [|e H2 _] using rev_ind.
    + apply app_inj_tail in EQ as [-> EQ]. inversion EQ; subst. right. auto.
    + rewrite app_comm_cons, app_assoc in EQ.
      apply app_inj_tail in EQ as [-> <-]. left.
      exists H1, js1, b1, l1, r1, H2. repeat split; auto.
      intros b' l' r' I. apply (F b' l' r'). apply in_or_app; auto.
  - intros [(H1 & js1 & b1 & l1 & r1 & H2 & EQ & U & D & F) | [U D]].
    + exists H1, js1, b1, l1, r1, (H2 ++ [(Build js buf blen, r)]). subst H.
      split; [now rewrite <- app_assoc|]. repeat split; auto.
      intros b' l' r' I. apply in_app_or in I as [I|[I|[]]]; [now apply (F b' l' r')|discriminate].
    + exists H, js, buf, blen, r, []. repeat split; auto.
Qed.

Lemma denotes_snoc_free {E} (H : list (event E)) h0 buf blen r h m :
  denotes (H ++ [(Free h0 buf blen, r)]) h m <-> denotes H h m /\ h <> h0.
Proof.
  split.
  - intros (H1 & js1 & b1 & l1 & r1 & H2 & EQ & U & D & F).
    destruct H2 as [|e H2 _] using rev_ind.
    + apply app_inj_tail in EQ as [-> EQ]. discriminate.
    + rewrite app_comm_cons, app_assoc in EQ.
      apply app_inj_tail in EQ as [-> <-]. split.
      * exists H1, js1, b1, l1, r1, H2. repeat split; auto.
        intros b' l' r' I. apply (F b' l' r'). apply in_or_app; auto.
      * intros ->. apply (F buf blen r). apply in_or_app; right; left; reflexivity.
  - intros [(H1 & js1 & b1 & l1 & r1 & H2 & EQ & U & D & F) N].
    exists H1, js1, b1, l1, r1, (H2 ++ [(Free h0 buf blen, r)]). subst H.
    split; [now rewrite <- app_assoc|]. repeat split; auto.
    intros b' l' r' I. apply in_app_or in I as [I|[I|[]]]; [now apply (F b' l' r')|].
    inversion I. congruence.
Qed.

Lemma denotes_snoc_get {E} (H : list (event E)) h0 q buf blen r h m :
  denotes (H ++ [(Get h0 q buf blen, r)]) h m <-> denotes H h m.
Proof.
  split.
  - intros (H1 & js1 & b1 & l1 & r1 & H2 & EQ & U & D & F).
    destruct H2 as [|e H2 _] using rev_ind.
    + apply app_inj_tail in EQ as [-> EQ]. discriminate.
    + rewrite app_comm_cons, app_assoc in EQ.
      apply app_inj_tail in EQ as [-> <-].
      exists H1, js1, b1, l1, r1, H2. repeat split; auto.
      intros b' l' r' I. apply (F b' l' r'). apply in_or_app; auto.
  - intros (H1 & js1 & b1 & l1 & r1 & H2 & EQ & U & D & F).
    exists H1, js1, b1, l1, r1, (H2 ++ [(Get h0 q buf blen, r)]). subst H.
    split; [now rewrite <- app_assoc|]. repeat split; auto.
    intros b' l' r' I. apply in_app_or in I as [I|[I|[]]]; [now apply (F b' l' r')|discriminate].
Qed.

Lemma denotes_handle {E} (H : list (event E)) h m : denotes H h m -> In h (handles H).
Proof.
  intros (H1 & js1 & b1 & l1 & r1 & H2 & EQ & U & D & F). subst H.
  rewrite handles_app. apply in_or_app. right. simpl. rewrite U. left; reflexivity.
Qed.

(** ** The invariant *)

Record inv {E} (cs : list (call E)) (s : state E) (H : list (event E)) : Prop := {
  inv_n : exists n, 0 <= n <= count_builds cs /\ next_index s = to_i64 n /\
      (forall h, In h (handles H) -> exists k, 0 <= k < n /\ h = to_i64 k) ;
  inv_nodup : NoDup (handles H);
  inv_lib : forall h m, is_i64 h ->
      (library s (to_u64 h) = Some m <-> denotes H h m)
}.

Lemma build_model_cases E s js buf blen :
  (exists m, describes E js m /\
     build_model E s js buf blen =
     (mkState (to_i64 (next_index s + 1)) (emplace (library s) (to_u64 (next_index s)) m),
      mkReply (Returns 0 buf) (Some (next_index s)) None)) \/
  ((forall m, ~ describes E js m) /\
   exists e, (build_model E s js buf blen =
      (s, mkReply (exception_handler E e buf blen) None None) /\
      ce_parse E js = Throw e) \/
    (build_model E s js buf blen =
      (mkState (to_i64 (next_index s + 1)) (library s),
       mkReply (exception_handler E e buf blen) None None) /\
     (e = Foreign /\ (exists j, ce_parse E js = Ok j /\ ce_make E j = Throw Foreign) \/
      exists e' j, ce_parse E js = Ok j /\ ce_make E j = Throw e' /\ e' <> Foreign /\
        e = TeqpC 30 (load_prefix ++ c_str (what e'))))).
Proof.
  unfold build_model, describes.
  destruct (ce_parse E js) as [j|e] eqn:P.
  - destruct (ce_make E j) as [m|e] eqn:M.
    + left. exists m. split; [exists j; auto|reflexivity].
    + right. split.
      * intros m (j' & E1 & E2). inversion E1; subst. congruence.
      * destruct e as [c msg|msg|].
        -- eexists. right. split; [reflexivity|]. right.
           exists (TeqpC c msg), j. repeat split; auto; discriminate.
        -- eexists. right. split; [reflexivity|]. right.
           exists (StdExn msg), j. repeat split; auto; discriminate.
        -- exists Foreign. right. split; [reflexivity|]. left. eauto.
  - right. split.
    + intros m (j' & E1 & E2). discriminate.
    + exists e. left. auto.
Qed.

Lemma getter_state E s h q buf blen : fst (getter E s h q buf blen) = s.
Proof. unfold getter. destruct (library s (to_u64 h)); [destruct (ce_query E m q)|]; reflexivity. Qed.

Lemma getter_uuid E s h q buf blen : r_uuid (snd (getter E s h q buf blen)) = None.
Proof. unfold getter. destruct (library s (to_u64 h)); [destruct (ce_query E m q)|]; reflexivity. Qed.

Lemma inv_run E cs :
  Forall call_ok cs -> count_builds cs <= 2 ^ 64 ->
  inv cs (fst (run E (init E) cs)) (history E cs).
Proof.
  induction cs as [|c cs IH] using rev_ind; intros OK CNT.
  - constructor; simpl.
    + exists 0. split; [unfold count_builds; simpl; lia|]. split; [reflexivity|].
      intros h [].
    + constructor.
    + intros h m _. split; [discriminate|].
      intros (H1 & js1 & b1 & l1 & r1 & H2 & EQ & _). destruct H1; discriminate.
  - apply Forall_app in OK as [OKc OK1].
    assert (OKl : call_ok c) by (inversion OK1; assumption). clear OK1.
    rewrite count_builds_app in CNT.
    assert (CNN : 0 <= count_builds [c]) by apply count_builds_nonneg.
    specialize (IH OKc ltac:(lia)).
    unfold history in *. rewrite run_app.
    destruct (run E (init E) cs) as [s H] eqn:RUN. simpl in IH.
    destruct IH as [(n & Hn & Hnx & Hh) ND LIB].
    destruct c as [js buf blen | h0 buf blen | h0 q buf blen]; simpl step.
    + (* Build *)
      assert (CB : count_builds (cs ++ [Build js buf blen]) = count_builds cs + 1)
        by (rewrite count_builds_app; reflexivity).
      assert (CB1 : count_builds [@Build E js buf blen] = 1) by reflexivity.
      destruct (build_model_cases E s js buf blen)
        as [(m & D & EQ) | (ND' & e & [(EQ & _) | (EQ & _)])]; rewrite EQ; simpl.
      * (* success *)
        assert (U : to_u64 (next_index s) = n).
        { rewrite Hnx, to_u64_i64. apply Z.mod_small. lia. }
        assert (FRESH : ~ In (next_index s) (handles H)).
        { intros I. apply Hh in I as (k & Hk & EQk).
          rewrite Hnx in EQk. apply to_i64_inj_small in EQk; lia. }
        assert (ABSENT : library s (to_u64 (next_index s)) = None).
        { destruct (library s (to_u64 (next_index s))) as [m0|] eqn:L; [|reflexivity].
          exfalso. apply FRESH. apply (denotes_handle H _ m0). apply LIB; [|exact L].
          rewrite Hnx. apply to_i64_range. }
        constructor; simpl.
        -- exists (n + 1). rewrite CB. split; [lia|]. split.
           { now rewrite Hnx, to_i64_succ. }
           intros h I. rewrite handles_app in I. apply in_app_or in I as [I|I].
           { apply Hh in I as (k & ? & ?). exists k. split; [lia|assumption]. }
           { simpl in I. destruct I as [<-|[]]. exists n. split; [lia|assumption]. }
        -- rewrite handles_app. simpl.
           apply NoDup_Add with (a := next_index s) (l := handles H).
           { replace (handles H) with (handles H ++ []) at 1 by apply app_nil_r.
             apply Add_app. }
           { split; assumption. }
        -- intros h m' Hi. rewrite denotes_snoc_build. simpl.
           unfold emplace. rewrite ABSENT.
           destruct (Z.eqb_spec (to_u64 h) (to_u64 (next_index s))) as [EQU|NE].
           { assert (h = next_index s).
             { apply to_u64_inj; auto. rewrite Hnx. apply to_i64_range. }
             subst h. split.
             - intros X. inversion X; subst. right; auto.
             - intros [X|[_ D']].
               + exfalso. apply FRESH. eapply denotes_handle; eauto.
               + destruct D as (j & P & M), D' as (j' & P' & M').
                 rewrite P in P'. inversion P'; subst. congruence. }
           { split.
             - intros X. left. apply LIB; assumption.
             - intros [X|[X _]]; [apply LIB; assumption|].
               exfalso. apply NE. congruence. }
      * (* parse failure *)
        constructor; simpl.
        -- exists n. rewrite CB. split; [lia|]. split; [assumption|].
           intros h I. rewrite handles_app in I. simpl in I. rewrite app_nil_r in I. auto.
        -- rewrite handles_app. simpl. now rewrite app_nil_r.
        -- intros h m' Hi. rewrite denotes_snoc_build. simpl. rewrite (LIB h m' Hi).
           split; [auto|]. intros [X|[X _]]; [assumption|discriminate].
      * (* construction failure *)
        constructor; simpl.
        -- exists (n + 1). rewrite CB. split; [lia|]. split.
           { now rewrite Hnx, to_i64_succ. }
           intros h I. rewrite handles_app in I. simpl in I. rewrite app_nil_r in I.
           apply Hh in I as (k & ? & ?). exists k. split; [lia|assumption].
        -- rewrite handles_app. simpl. now rewrite app_nil_r.
        -- intros h m' Hi. rewrite denotes_snoc_build. simpl. rewrite (LIB h m' Hi).
           split; [auto|]. intros [X|[X _]]; [assumption|discriminate].
    + (* Free *)
      assert (CB : count_builds (cs ++ [Free h0 buf blen]) = count_builds cs)
        by (rewrite count_builds_app; unfold count_builds; simpl; lia).
      constructor; simpl.
      * exists n. rewrite CB. split; [lia|]. split; [assumption|].
        intros h I. rewrite handles_app in I. simpl in I. rewrite app_nil_r in I. auto.
      * rewrite handles_app. simpl. now rewrite app_nil_r.
      * intros h m Hi. rewrite denotes_snoc_free. unfold erase.
        destruct (Z.eqb_spec (to_u64 h) (to_u64 h0)) as [EQU|NE].
        -- split; [discriminate|]. intros [_ N]. exfalso. apply N.
           apply to_u64_inj; auto.
        -- rewrite (LIB h m Hi). split; [|tauto]. intros X. split; [assumption|].
           congruence.
    + (* Get *)
      assert (CB : count_builds (cs ++ [Get h0 q buf blen]) = count_builds cs)
        by (rewrite count_builds_app; unfold count_builds; simpl; lia).
      pose proof (getter_state E s h0 q buf blen) as GS.
      pose proof (getter_uuid E s h0 q buf blen) as GU.
      destruct (getter E s h0 q buf blen) as [s2 r]. simpl in *. subst s2.
      constructor; simpl.
      * exists n. rewrite CB. split; [lia|]. split; [assumption|].
        intros h I. rewrite handles_app in I. simpl in I. rewrite GU in I.
        rewrite app_nil_r in I. auto.
      * rewrite handles_app. simpl. rewrite GU. now rewrite app_nil_r.
      * intros h m Hi. rewrite denotes_snoc_get. apply LIB; assumption.
Qed.

(** ** C01 *)
Lemma handles_fresh E cs :
  Forall call_ok cs -> count_builds cs <= 2 ^ 64 -> NoDup (handles (history E cs)).
Proof. intros A B. apply (inv_nodup _ _ _ (inv_run E cs A B)). Qed.

Lemma handles_i64 E cs h :
  Forall call_ok cs -> count_builds cs <= 2 ^ 64 ->
  In h (handles (history E cs)) -> is_i64 h.
Proof.
  intros A B I. destruct (inv_n _ _ _ (inv_run E cs A B)) as (n & _ & _ & Hh).
  apply Hh in I. destruct I as (k & _ & Hk). rewrite Hk. apply to_i64_range.
Qed.

(** ** C02 *)
Lemma getter_live E cs h q buf blen m :
  Forall call_ok cs -> count_builds cs <= 2 ^ 64 -> is_i64 h ->
  denotes (history E cs) h m ->
  exists r, history E (cs ++ [Get h q buf blen]) = history E cs ++ [(Get h q buf blen, r)] /\
    match ce_query E m q with
    | Ok v => r_done r = Returns 0 buf /\ r_val r = Some v
    | Throw e => r_done r = exception_handler E e buf blen /\ r_val r = None
    end.
Proof.
  intros A B Hi D. eexists. split; [apply history_app|].
  apply (inv_lib _ _ _ (inv_run E cs A B)) in D; [|assumption].
  unfold step, getter. rewrite D. destruct (ce_query E m q); simpl; auto.
Qed.

Lemma getter_dead E cs h q buf blen :
  Forall call_ok cs -> count_builds cs <= 2 ^ 64 -> is_i64 h ->
  (forall m, ~ denotes (history E cs) h m) ->
  exists r, history E (cs ++ [Get h q buf blen]) = history E cs ++ [(Get h q buf blen, r)] /\
    r_val r = None /\
    r_done r = with_buffer 9999 (write_error buf blen (ce_generic E)).
Proof.
  intros A B Hi D. eexists. split; [apply history_app|].
  destruct (library (fst (run E (init E) cs)) (to_u64 h)) as [m|] eqn:L.
  - exfalso. apply (D m). now apply (inv_lib _ _ _ (inv_run E cs A B)).
  - unfold step, getter. rewrite L. simpl. auto.
Qed.

Lemma free_kills E cs h buf blen m :
  ~ denotes (history E (cs ++ [Free h buf blen])) h m.
Proof. rewrite history_app. rewrite denotes_snoc_free. tauto. Qed.

Lemma denotes_unique E cs h m m' :
  Forall call_ok cs -> count_builds cs <= 2 ^ 64 -> is_i64 h ->
  denotes (history E cs) h m -> denotes (history E cs) h m' -> m = m'.
Proof.
  intros A B Hi D D'.
  apply (inv_lib _ _ _ (inv_run E cs A B)) in D, D'; auto. congruence.
Qed.

(** ** C04: the error buffer *)

Lemma c_str_no_nul s : ~ In NUL (c_str s).
Proof.
  induction s as [|c s IH]; simpl; [tauto|].
  destruct (Ascii.eqb_spec c NUL); [simpl; tauto|].
  simpl. intros [X|X]; [congruence|tauto].
Qed.

Lemma c_str_length s : (length (c_str s) <= length s)%nat.
Proof.
  induction s as [|c s IH]; simpl; [lia|].
  destruct (Ascii.eqb c NUL); simpl; lia.
Qed.

Lemma strcpy_fits dst src :
  (length src < length dst)%nat ->
  exists buf, strcpy dst src = Some buf /\ length buf = length dst /\
    holds_string buf (c_str src).
Proof.
  intros L. unfold strcpy.
  pose proof (c_str_length src) as CL.
  assert (LB : length (c_str src ++ [NUL]) = S (length (c_str src)))
    by (rewrite app_length; simpl; lia).
  destruct (Nat.leb_spec (length (c_str src ++ [NUL])) (length dst)); [|lia].
  eexists. split; [reflexivity|]. split.
  - rewrite app_length, skipn_length. lia.
  - exists (skipn (length (c_str src ++ [NUL])) dst). split.
    + rewrite <- app_assoc. reflexivity.
    + apply c_str_no_nul.
Qed.

Lemma to_size_t_small blen : 0 <= blen < 2 ^ 31 -> to_size_t blen = blen.
Proof. intros. unfold to_size_t. apply Z.mod_small. lia. Qed.

Lemma write_error_safe buf blen msg :
  buffer_ok buf blen ->
  exists buf', write_error buf blen msg = Some buf' /\ length buf' = length buf /\
    (Z.of_nat (length msg) < blen -> holds_string buf' (c_str msg)) /\
    (2 <= blen -> Z.of_nat (length msg) >= blen ->
       holds_string buf' toolong_message \/ holds_string buf' question).
Proof.
  intros [EQ R]. unfold write_error. rewrite (to_size_t_small blen R).
  destruct (Z.ltb_spec (Z.of_nat (length msg)) blen) as [F|F].
  - destruct (strcpy_fits buf msg ltac:(lia)) as (b & S1 & S2 & S3).
    exists b. repeat split; auto. intros _ X. lia.
  - destruct (Z.ltb_spec (Z.of_nat (length toolong_message)) blen) as [G|G].
    + destruct (strcpy_fits buf toolong_message ltac:(lia)) as (b & S1 & S2 & S3).
      exists b. repeat split; auto; lia.
    + destruct (Z.ltb_spec 1 blen) as [K|K].
      * assert (length question = 1%nat) by reflexivity.
        destruct (strcpy_fits buf question ltac:(lia)) as (b & S1 & S2 & S3).
        exists b. repeat split; auto; lia.
      * exists buf. repeat split; auto; lia.
Qed.

Lemma write_error_negative_overrun :
  exists buf blen msg, blen < 0 /\ - 2 ^ 31 <= blen /\
    write_error buf blen msg = None.
Proof.
  exists [], (-1), (list_ascii_of_string "boom").
  split; [lia|]. split; [lia|]. reflexivity.
Qed.

(** ** C03 *)

Lemma handler_good E e buf blen :
  good_exn e -> buffer_ok buf blen ->
  exists code buf', exception_handler E e buf blen = Returns code buf' /\ code <> 0.
Proof.
  intros G B. destruct e as [c msg|msg|]; simpl in *; [| |tauto].
  - destruct (write_error_safe buf blen msg B) as (b & -> & _). simpl. eauto.
  - destruct (write_error_safe buf blen (ce_generic E) B) as (b & -> & _). simpl.
    exists 9999, b. split; [reflexivity|lia].
Qed.

Lemma build_outcome E s js buf blen :
  std_only E -> buffer_ok buf blen ->
  let '(s', r) := build_model E s js buf blen in
  (reports_success r /\ (exists m, describes E js m) /\ r_uuid r <> None) \/
  (reports_failure r /\ (forall m, ~ describes E js m) /\ r_uuid r = None /\
   (forall k, library s' k = library s k)).
Proof.
  intros (SP & SM & SQ) B.
  destruct (build_model_cases E s js buf blen)
    as [(m & D & EQ) | (ND' & e & [(EQ & P) | (EQ & M)])]; rewrite EQ.
  - left. split; [exists buf; reflexivity|]. split; [eauto|discriminate].
  - right. destruct (handler_good E e buf blen (SP _ _ P) B) as (c & b & HE & NZ).
    split; [exists c, b; auto|]. auto.
  - right. assert (G : good_exn e).
    { destruct M as [(-> & j & P & M)|(e' & j & P & M & NF & ->)]; [now apply SM in M|].
      simpl. lia. }
    destruct (handler_good E e buf blen G B) as (c & b & HE & NZ).
    split; [exists c, b; auto|]. auto.
Qed.

Lemma getter_outcome E s h q buf blen :
  std_only E -> buffer_ok buf blen ->
  let '(s', r) := getter E s h q buf blen in
  s' = s /\ r_uuid r = None /\
  ((reports_success r /\ r_val r <> None) \/ (reports_failure r /\ r_val r = None)).
Proof.
  intros (SP & SM & SQ) B. unfold getter.
  destruct (library s (to_u64 h)) as [m|].
  - destruct (ce_query E m q) as [v|e] eqn:Q.
    + split; [reflexivity|]. split; [reflexivity|]. left.
      split; [exists buf; reflexivity|discriminate].
    + split; [reflexivity|]. split; [reflexivity|]. right.
      destruct (handler_good E e buf blen (SQ _ _ _ Q) B) as (c & b & HE & NZ).
      split; [exists c, b; auto|reflexivity].
  - split; [reflexivity|]. split; [reflexivity|]. right.
    destruct (handler_good E out_of_range buf blen I B) as (c & b & HE & NZ).
    split; [exists c, b; auto|reflexivity].
Qed.

(** The text written for a [std::exception] does not depend on the exception. *)
(** ** C05: schedules *)

Definition pc_id {E} (p : pc E) : option Z :=
  match p with
  | PHasId _ u | PMade _ u | PRead _ u _ | PInserted u | PDone u => Some u
  | _ => None
  end.
Definition before_id {E} (p : pc E) : bool :=
  match p with PStart _ | PParsed _ => true | _ => false end.

Definition ids {E} (ps : list (pc E)) : list Z :=
  flat_map (fun p => match pc_id p with Some u => [u] | None => [] end) ps.

Lemma nth_error_split_set {A} (l : list A) n x y :
  nth_error l n = Some x ->
  exists l1 l2, l = l1 ++ x :: l2 /\ set_nth n y l = l1 ++ y :: l2.
Proof.
  revert n. induction l as [|a l IH]; intros [|n] H; simpl in *; try discriminate.
  - inversion H; subst. exists [], l. auto.
  - destruct (IH n H) as (l1 & l2 & -> & E2). exists (a :: l1), l2. simpl. now rewrite E2.
Qed.

(** Invariant: [n] ids handed out, all distinct, and the number of threads that
    may still draw one keeps the total within 2^64. *)
Definition cinv {E} (c : config E) : Prop :=
  exists n, 0 <= n /\ next_index (fst c) = to_i64 n /\
    n + Z.of_nat (length (filter before_id (snd c))) <= 2 ^ 64 /\
    NoDup (ids (snd c)) /\
    (forall u, In u (ids (snd c)) -> exists k, 0 <= k < n /\ u = to_i64 k).

Lemma ids_mid {E} (l1 l2 : list (pc E)) p :
  ids (l1 ++ p :: l2) =
  ids l1 ++ (match pc_id p with Some u => [u] | None => [] end) ++ ids l2.
Proof. unfold ids. rewrite flat_map_app. reflexivity. Qed.

Lemma filter_mid {E} (l1 l2 : list (pc E)) p :
  Z.of_nat (length (filter before_id (l1 ++ p :: l2))) =
  Z.of_nat (length (filter before_id (l1 ++ l2))) + (if before_id p then 1 else 0).
Proof.
  rewrite !filter_app, !app_length. simpl. destruct (before_id p); simpl; lia.
Qed.

Lemma NoDup_drop {A} (l1 l2 l : list A) : NoDup (l1 ++ l ++ l2) -> NoDup (l1 ++ l2).
Proof.
  induction l as [|a l IH]; simpl; [auto|]. intros N.
  apply IH. now apply NoDup_remove_1 in N.
Qed.

(** Both step functions have the same effect on counter and ids. *)
Definition id_step {E} (s : state E) (p : pc E) (s' : state E) (p' : pc E) : Prop :=
  (next_index s' = next_index s /\ (before_id p' = true -> before_id p = true) /\
     (pc_id p' = None \/ pc_id p' = pc_id p)) \/
  (next_index s' = to_i64 (next_index s + 1) /\ before_id p = true /\ before_id p' = false /\
     pc_id p = None /\ pc_id p' = Some (next_index s)).

Lemma thread_step_id E s p :
  id_step s p (fst (thread_step E s p)) (snd (thread_step E s p)).
Proof.
  unfold id_step.
  destruct p; simpl; auto 10.
  - destruct (ce_parse E js); simpl; left; auto.
  - destruct (ce_make E j); simpl; left; split; auto; split; auto; discriminate.
Qed.
Lemma locked_thread_step_id E s p :
  id_step s p (fst (locked_thread_step E s p)) (snd (locked_thread_step E s p)).
Proof.
  destruct p; try apply thread_step_id. unfold id_step. simpl. left. auto.
Qed.

Lemma cinv_id_step {E} s ps t p s' p' :
  @cinv E (s, ps) -> nth_error ps t = Some p -> id_step s p s' p' ->
  cinv (s', set_nth t p' ps).
Proof.
  intros (n & Hn & HX & HC & ND & HI) NT ST. simpl in *.
  destruct (nth_error_split_set ps t p p' NT) as (l1 & l2 & -> & E2).
  unfold cinv. simpl. rewrite E2.
  rewrite filter_mid in HC. rewrite ids_mid in ND, HI.
  destruct ST as [(SX & SB & SI)|(SX & SB & SB' & SI & SI')].
  - exists n. split; [assumption|]. split; [congruence|]. split.
    { rewrite filter_mid. destruct (before_id p') eqn:B'.
      - rewrite (SB eq_refl) in HC. lia.
      - destruct (before_id p); lia. }
    rewrite ids_mid.
    destruct SI as [SI|SI]; rewrite SI.
    + split; [simpl; now apply NoDup_drop in ND|].
      intros u I. apply HI. simpl in I. rewrite !in_app_iff in *. tauto.
    + split; assumption.
  - assert (0 <= Z.of_nat (length (filter before_id (l1 ++ l2)))) by lia.
    rewrite SB in HC. rewrite SI in ND, HI. simpl in ND, HI.
    exists (n + 1). split; [lia|]. split; [now rewrite SX, HX, to_i64_succ|].
    rewrite filter_mid, SB', ids_mid, SI'. split; [lia|]. simpl. split.
    + apply NoDup_Add with (a := next_index s) (l := ids l1 ++ ids l2); [apply Add_app|].
      split; [assumption|]. intros I. destruct (HI _ I) as (k & Hk & EQ).
      rewrite HX in EQ. apply to_i64_inj_small in EQ; lia.
    + intros u I. rewrite in_app_iff in I. simpl in I.
      destruct I as [I|[I|I]].
      * destruct (HI u ltac:(rewrite in_app_iff; auto)) as (k & ? & ?). exists k. split; [lia|auto].
      * exists n. split; [lia|congruence].
      * destruct (HI u ltac:(rewrite in_app_iff; auto)) as (k & ? & ?). exists k. split; [lia|auto].
Qed.

Lemma cinv_step E c t : @cinv E c -> cinv (sched_step E c t).
Proof.
  intros I. unfold sched_step. destruct c as [s ps]. simpl.
  destruct (nth_error ps t) as [p|] eqn:NT; [|assumption].
  pose proof (thread_step_id E s p) as ST.
  destruct (thread_step E s p) as [s' p']. eapply cinv_id_step; eauto.
Qed.
Lemma cinv_locked_step E c t : @cinv E c -> cinv (locked_sched_step E c t).
Proof.
  intros I. unfold locked_sched_step. destruct c as [s ps]. simpl.
  destruct (nth_error ps t) as [p|] eqn:NT; [|assumption].
  pose proof (locked_thread_step_id E s p) as ST.
  destruct (locked_thread_step E s p) as [s' p']. eapply cinv_id_step; eauto.
Qed.

Lemma done_in_ids {E} (ps : list (pc E)) : NoDup (ids ps) -> NoDup (done_handles ps).
Proof.
  unfold done_handles, ids. induction ps as [|p ps IH]; simpl; [auto|].
  intros N.
  assert (SUB : forall u, In u (flat_map (fun p => match p with PDone uid => [uid] | _ => [] end) ps) ->
     In u (flat_map (fun p => match @pc_id E p with Some u => [u] | None => [] end) ps)).
  { intros u I. apply in_flat_map in I as (q & Iq & Iu). apply in_flat_map. exists q.
    split; [assumption|]. destruct q; simpl in *; tauto. }
  destruct p; simpl in *; try (apply IH; assumption);
    inversion N; subst; try (apply IH; assumption).
  constructor; [|apply IH; assumption]. intros I. apply SUB in I. contradiction.
Qed.

Lemma cinv_start {E} s (jss : list (list ascii)) k :
  0 <= k -> next_index s = to_i64 k -> k + Z.of_nat (length jss) <= 2 ^ 64 ->
  @cinv E (s, map PStart jss).
Proof.
  intros K NX L. exists k. simpl. split; [assumption|]. split; [assumption|].
  assert (ids (map (@PStart E) jss) = []) as ->.
  { induction jss; simpl; auto. apply IHjss. simpl in L. lia. }
  split.
  - replace (length (filter before_id (map (@PStart E) jss))) with (length jss); [assumption|].
    clear L. induction jss; simpl; auto.
  - split; [constructor|]. intros u [].
Qed.

Lemma cinv_run E c sched : @cinv E c -> cinv (run_schedule E c sched).
Proof.
  revert c. induction sched as [|t sched IH]; intros c I; simpl; [assumption|].
  apply IH. now apply cinv_step.
Qed.
Lemma concurrent_distinct E (jss : list (list ascii)) sched :
  Z.of_nat (length jss) <= 2 ^ 64 ->
  NoDup (done_handles (snd (run_schedule E (init E, map PStart jss) sched))).
Proof.
  intros L. apply done_in_ids.
  destruct (cinv_run E _ sched (cinv_start (init E) jss 0 ltac:(lia) eq_refl ltac:(lia)))
    as (n & _ & _ & _ & ND & _). exact ND.
Qed.

(** With the insertion serialised, every completed thread's model is in the map. *)
Definition inserted {E} (p : pc E) : option Z :=
  match p with PInserted u | PDone u => Some u | _ => None end.

Lemma nth_error_set_nth {A} (l : list A) t t' x :
  nth_error (set_nth t x l) t' =
  if Nat.eqb t t' then match nth_error l t with Some _ => Some x | None => None end
  else nth_error l t'.
Proof.
  revert t t'. induction l as [|a l IH]; intros [|t] [|t']; simpl; auto.
  now destruct (Nat.eqb t t').
Qed.

(** [PRead] never occurs in serialised executions. *)
(** With serialised insertions each completed thread finds its own model. *)
Definition tinv {E} (lib : Z -> option (Model E)) (js : list ascii) (p : pc E) : Prop :=
  match p with
  | PStart js' => js' = js
  | PParsed j => ce_parse E js = Ok j
  | PHasId j _ => ce_parse E js = Ok j
  | PMade m _ => describes E js m
  | PRead _ _ _ => False
  | PInserted u | PDone u => exists m, describes E js m /\ lib (to_u64 u) = Some m
  | PFailed => True
  end.
Definition minv {E} (jss : list (list ascii)) (c : config E) : Prop :=
  cinv c /\
  (forall t p, nth_error (snd c) t = Some p ->
     exists js, nth_error jss t = Some js /\ tinv (library (fst c)) js p) /\
  (forall k m, library (fst c) k = Some m ->
     exists t p u, nth_error (snd c) t = Some p /\ inserted p = Some u /\ to_u64 u = k).

Lemma ids_unique {E} (ps : list (pc E)) t t' p p' u :
  NoDup (ids ps) -> nth_error ps t = Some p -> nth_error ps t' = Some p' ->
  pc_id p = Some u -> pc_id p' = Some u -> t = t'.
Proof.
  assert (IN : forall (ps : list (pc E)) t p u, nth_error ps t = Some p -> pc_id p = Some u -> In u (ids ps)).
  { clear. intros ps t p u H I. unfold ids. apply in_flat_map. exists p. split; [eapply nth_error_In; eauto|].
    rewrite I. now left. }
  revert t t'. induction ps as [|q ps IH]; intros t t' ND H H' I I'; [destruct t; discriminate|].
  change (ids (q :: ps)) with ((match pc_id q with Some u => [u] | None => [] end) ++ ids ps) in ND.
  destruct t as [|t], t' as [|t']; simpl in H, H'.
  - reflexivity.
  - inversion H; subst q. rewrite I in ND. simpl in ND. inversion ND; subst. exfalso. eauto.
  - inversion H'; subst q. rewrite I' in ND. simpl in ND. inversion ND; subst. exfalso. eauto.
  - f_equal. eapply IH; eauto. destruct (pc_id q); [|exact ND]. now inversion ND.
Qed.

Lemma tinv_mono {E} (lib lib' : Z -> option (Model E)) js p :
  (forall k m, lib k = Some m -> lib' k = Some m) -> tinv lib js p -> tinv lib' js p.
Proof.
  intros M. destruct p; simpl; auto; intros (m & D & L); exists m; auto.
Qed.

Lemma pc_id_inserted {E} (p : pc E) u : inserted p = Some u -> pc_id p = Some u.
Proof. destruct p; simpl; auto; discriminate. Qed.

Lemma minv_step E jss c t : @minv E jss c -> minv jss (locked_sched_step E c t).
Proof.
  intros (CI & TI & KI).
  assert (C' := cinv_locked_step E c t CI).
  unfold locked_sched_step in *. destruct c as [s ps]. simpl in *.
  destruct (nth_error ps t) as [p|] eqn:NT; [|repeat split; assumption].
  destruct (TI t p NT) as (js & NJ & TP).
  (* what the step does to the library and to the thread *)
  assert (STEP : let '(s', p') := locked_thread_step E s p in
     (forall k m, library s k = Some m -> library s' k = Some m) /\ tinv (library s') js p' /\
     (forall u, inserted p = Some u -> inserted p' = Some u) /\
     (forall k m, library s' k = Some m -> library s k = Some m \/
        exists u, inserted p' = Some u /\ to_u64 u = k)).
  { destruct p as [js0|j|j uid|m uid|m uid seen|uid|uid|]; simpl in TP |- *; try contradiction.
    - subst js0. destruct (ce_parse E js) as [j|e] eqn:P; simpl; repeat split; auto; discriminate.
    - simpl. repeat split; auto; discriminate.
    - destruct (ce_make E j) as [m|e] eqn:MK; simpl; repeat split; auto; try discriminate.
      exists j; auto.
    - assert (AB : library s (to_u64 uid) = None).
      { destruct (library s (to_u64 uid)) as [m0|] eqn:L; [|reflexivity]. exfalso.
        destruct (KI _ _ L) as (t' & p' & u & NT' & IU & EU).
        destruct CI as (n & Hn & HX & HC & ND & HI). simpl in *.
        assert (IN : forall tt (q : pc E) v, nth_error ps tt = Some q -> pc_id q = Some v -> is_i64 v).
        { intros tt q v Hq Hv. destruct (HI v) as (k & _ & ->); [|apply to_i64_range].
          unfold ids. apply in_flat_map. exists q. split; [eapply nth_error_In; eauto|]. rewrite Hv. now left. }
        assert (u = uid).
        { apply to_u64_inj; auto.
          - eapply IN; [exact NT'|]. now apply pc_id_inserted.
          - eapply IN; [exact NT|reflexivity]. }
        subst u. assert (t' = t) by (eapply (ids_unique ps t' t p' (PMade m uid) uid); eauto using @pc_id_inserted).
        subst t'. rewrite NT in NT'. inversion NT'; subst p'. discriminate. }
      unfold emplace. simpl. rewrite AB. split; [|split; [|split]].
      + intros k m0 L. destruct (Z.eqb_spec k (to_u64 uid)); [congruence|assumption].
      + exists m. split; [assumption|]. now rewrite Z.eqb_refl.
      + discriminate.
      + intros k m0 L. destruct (Z.eqb_spec k (to_u64 uid)); [right; exists uid; auto|left; assumption].
    - simpl. repeat split; auto.
    - simpl. repeat split; auto.
    - simpl. repeat split; auto. }
  destruct (locked_thread_step E s p) as [s' p']. destruct STEP as (S1 & S2 & S3 & S4).
  split; [exact C'|]. split; simpl.
  - intros t' q NT'. rewrite nth_error_set_nth in NT'. destruct (Nat.eqb_spec t t') as [<-|NE].
    + rewrite NT in NT'. inversion NT'; subst q. exists js. auto.
    + destruct (TI t' q NT') as (js' & NJ' & TP'). exists js'. split; [assumption|]. eapply tinv_mono; eauto.
  - intros k m L. destruct (S4 k m L) as [L0|(u & IU & EU)].
    + destruct (KI k m L0) as (t' & q & u & NT' & IU & EU).
      destruct (Nat.eq_dec t t') as [<-|NE].
      * rewrite NT in NT'. inversion NT'; subst q. exists t, p', u.
        rewrite nth_error_set_nth, Nat.eqb_refl, NT. auto.
      * exists t', q, u. rewrite nth_error_set_nth. destruct (Nat.eqb_spec t t'); [contradiction|auto].
    + exists t, p', u. rewrite nth_error_set_nth, Nat.eqb_refl, NT. auto.
Qed.

Lemma concurrent_locked_own E (jss : list (list ascii)) sched t u :
  Z.of_nat (length jss) <= 2 ^ 64 ->
  let '(s, ps) := run_locked E (init E, map PStart jss) sched in
  nth_error ps t = Some (PDone u) ->
  exists js m, nth_error jss t = Some js /\ describes E js m /\ library s (to_u64 u) = Some m.
Proof.
  intros L.
  assert (MI : minv jss (init E, map PStart jss)).
  { split; [apply (cinv_start (init E) jss 0); auto; lia|]. split; simpl; [|discriminate].
    intros t' p NT. rewrite nth_error_map in NT. destruct (nth_error jss t') as [js|]; [|discriminate].
    inversion NT; subst p. exists js. split; reflexivity. }
  assert (MR : minv jss (run_locked E (init E, map PStart jss) sched)).
  { revert MI. generalize (init E, map (@PStart E) jss). induction sched as [|t' sched IH]; intros c MI; simpl; [assumption|].
    apply IH. now apply minv_step. }
  destruct (run_locked E (init E, map PStart jss) sched) as [s ps]. intro H.
  destruct MR as (_ & TI & _). destruct (TI t _ H) as (js & NJ & m & D & LB). exists js, m. auto.
Qed.

(** A tiny concrete environment used for examples and counterexamples:
    JSON text = model = query; texts starting with a digit parse, and building
    fails on the empty text. *)
Definition toyE : CEnv := {|
  Json := list ascii; Model := list ascii; Query := nat; Val := nat;
  ce_parse := fun s => match s with
                       | [] => Throw (StdExn (list_ascii_of_string "parse error"))
                       | _ => Ok s end;
  ce_make := fun j => if (length j <=? 1)%nat
                      then Throw (StdExn (list_ascii_of_string "bad kind")) else Ok j;
  ce_query := fun m q => if (q <=? 3)%nat then Ok (q + length m)%nat
                         else Throw (StdExn (list_ascii_of_string "bad order"));
  ce_generic := list_ascii_of_string "std::exception"
|}.

Definition txt (s : string) : list ascii := list_ascii_of_string s.

Lemma concurrent_lost_update :
  exists E jss sched u,
    In u (done_handles (snd (run_schedule E (init E, map PStart jss) sched))) /\
    library (fst (run_schedule E (init E, map PStart jss) sched)) (to_u64 u) = None.
Proof.
  exists toyE, [txt "vdW"; txt "PRx"],
    [0;0;0;0; 1;1;1;1; 0;0;1;1]%nat, 0.
  split; vm_compute; auto.
Qed.
