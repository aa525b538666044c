(** Properties C01-C05 of the C interface. *)
From Coq Require Import ZArith String Ascii Bool Lia List.
From Verif Require Import CApi_model CApi_spec CApi_proofs.
Import ListNotations.
Open Scope Z_scope.

(** C01: in every history with at most 2^64 builds, all handles ever handed out
    are different (freed handles are never handed out again). *)
Theorem C01_handles_never_reused :
  forall (E : CEnv) (cs : list (call E)),
    Forall call_ok cs -> count_builds cs <= 2 ^ 64 ->
    NoDup (handles (history E cs)).
Proof. exact handles_fresh. Qed.
Print Assumptions C01_handles_never_reused.

Theorem C01_handles_fit_the_C_type :
  forall (E : CEnv) (cs : list (call E)) (h : Z),
    Forall call_ok cs -> count_builds cs <= 2 ^ 64 ->
    In h (handles (history E cs)) -> is_i64 h.
Proof. exact handles_i64. Qed.
Print Assumptions C01_handles_fit_the_C_type.

(** A history with two successful builds, a failing one, a free and a build
    after the free. *)
Definition demo : list (call toyE) :=
  [ @Build toyE (txt "vdW") [] 0; Build (txt "x") [] 0; Build (txt "PRxx") [] 0;
    Free 0 [] 0; Build (txt "SRKyy") [] 0 ].
Example C01_demo :
  Forall call_ok demo /\ count_builds demo <= 2 ^ 64 /\
  handles (history toyE demo) = [0; 2; 3].
Proof.
  split; [|split; [vm_compute; discriminate|reflexivity]].
  unfold demo. repeat constructor; simpl; unfold is_i64; lia.
Qed.

(** C02: a held handle answers with its own model, whatever happened before. *)
Theorem C02_handle_keeps_its_model :
  forall (E : CEnv) (cs : list (call E)) h q buf blen m,
    Forall call_ok cs -> count_builds cs <= 2 ^ 64 -> is_i64 h ->
    denotes (history E cs) h m ->
    exists r,
      history E (cs ++ [Get h q buf blen]) = history E cs ++ [(Get h q buf blen, r)] /\
      match ce_query E m q with
      | Ok v => r_done r = Returns 0 buf /\ r_val r = Some v
      | Throw e => r_done r = exception_handler E e buf blen /\ r_val r = None
      end.
Proof. exact getter_live. Qed.
Print Assumptions C02_handle_keeps_its_model.

(** ... a handle that is not held (never handed out, or freed) is an error. *)
Theorem C02_unheld_handle_is_an_error :
  forall (E : CEnv) (cs : list (call E)) h q buf blen,
    Forall call_ok cs -> count_builds cs <= 2 ^ 64 -> is_i64 h ->
    (forall m, ~ denotes (history E cs) h m) ->
    exists r,
      history E (cs ++ [Get h q buf blen]) = history E cs ++ [(Get h q buf blen, r)] /\
      r_val r = None /\
      r_done r = with_buffer 9999 (write_error buf blen (ce_generic E)).
Proof. exact getter_dead. Qed.
Print Assumptions C02_unheld_handle_is_an_error.

Theorem C02_free_releases :
  forall (E : CEnv) (cs : list (call E)) h buf blen m,
    ~ denotes (history E (cs ++ [Free h buf blen])) h m.
Proof. exact free_kills. Qed.
Print Assumptions C02_free_releases.

Theorem C02_handle_denotes_one_model :
  forall (E : CEnv) (cs : list (call E)) h m m',
    Forall call_ok cs -> count_builds cs <= 2 ^ 64 -> is_i64 h ->
    denotes (history E cs) h m -> denotes (history E cs) h m' -> m = m'.
Proof. exact denotes_unique. Qed.
Print Assumptions C02_handle_denotes_one_model.

Example C02_demo : denotes (history toyE demo) 2 (txt "PRxx").
Proof.
  exists (firstn 2 (history toyE demo)), (txt "PRxx"), [], 0,
    (mkReply (Returns 0 []) (Some 2) None), (skipn 3 (history toyE demo)).
  split; [reflexivity|]. split; [reflexivity|]. split.
  - exists (txt "PRxx"). split; reflexivity.
  - intros buf' blen' r' I. simpl in I. 
    destruct I as [I|[I|[]]]; inversion I.
Qed.
Example C02_demo_freed : forall m, ~ denotes (history toyE demo) 0 m.
Proof.
  intros m D.
  apply (inv_lib _ _ _ (inv_run toyE demo
    (proj1 C01_demo) (proj1 (proj2 C01_demo)))) in D; [|unfold is_i64; lia].
  vm_compute in D. discriminate.
Qed.

(** C03: a build either succeeds, writes the handle and returns 0, or reports a
    non-zero code, writes no handle and leaves every model as it was. *)
Theorem C03_build_all_or_nothing :
  forall (E : CEnv) (s : state E) js buf blen,
    std_only E -> buffer_ok buf blen ->
    let '(s', r) := build_model E s js buf blen in
    (reports_success r /\ (exists m, describes E js m) /\ r_uuid r <> None) \/
    (reports_failure r /\ (forall m, ~ describes E js m) /\ r_uuid r = None /\
     (forall k, library s' k = library s k)).
Proof. exact build_outcome. Qed.
Print Assumptions C03_build_all_or_nothing.

Theorem C03_getter_all_or_nothing :
  forall (E : CEnv) (s : state E) h q buf blen,
    std_only E -> buffer_ok buf blen ->
    let '(s', r) := getter E s h q buf blen in
    s' = s /\ r_uuid r = None /\
    ((reports_success r /\ r_val r <> None) \/ (reports_failure r /\ r_val r = None)).
Proof. exact getter_outcome. Qed.
Print Assumptions C03_getter_all_or_nothing.

Example C03_demo : std_only toyE /\ buffer_ok [NUL; NUL; NUL] 3.
Proof.
  split; [|split; simpl; lia].
  split; [|split]; simpl.
  - intros [|c js] e X; inversion X. exact I.
  - intros j e X. destruct (length j <=? 1)%nat; inversion X. exact I.
  - intros m q e X. destruct (q <=? 3)%nat; inversion X. exact I.
Qed.

(** Finding (C03): the text reported for a [std::exception] is the same whatever
    the exception was: [exception_handler] catches by value and slices. *)
Theorem C03_error_text_identifies_error_refuted :
  exists (E : CEnv) (s : state E) h q1 q2 buf blen msg1 msg2 m,
    library s (to_u64 h) = Some m /\
    ce_query E m q1 = Throw (StdExn msg1) /\ ce_query E m q2 = Throw (StdExn msg2) /\
    msg1 <> msg2 /\
    (Z.of_nat (length msg1) < blen /\ Z.of_nat (length msg2) < blen) /\
    buffer_ok buf blen /\
    r_done (snd (getter E s h q1 buf blen)) = r_done (snd (getter E s h q2 buf blen)).
Proof.
  pose (E := {| Json := unit; Model := unit; Query := bool; Val := unit;
                ce_parse := fun _ => Ok tt; ce_make := fun _ => Ok tt;
                ce_query := fun _ q => Throw (StdExn (if q then txt "bad order" else txt "no conv"));
                ce_generic := txt "std::exception" |}).
  exists E, (@mkState E 1 (fun k => if k =? 0 then Some (tt : Model E) else None)), 0, true, false,
    (repeat NUL 20), 20, (txt "bad order"), (txt "no conv"), tt.
  repeat split; try reflexivity; try discriminate; simpl; lia.
Qed.
Print Assumptions C03_error_text_identifies_error_refuted.

(** C04: with a buffer of the declared (non-negative) length, nothing is written
    outside it; the message is delivered if it fits, else a substitute. *)
Theorem C04_error_buffer_never_overrun_partial :
  forall buf blen msg,
    buffer_ok buf blen ->
    exists buf', write_error buf blen msg = Some buf' /\ length buf' = length buf /\
      (Z.of_nat (length msg) < blen -> holds_string buf' (c_str msg)) /\
      (2 <= blen -> Z.of_nat (length msg) >= blen ->
         holds_string buf' toolong_message \/ holds_string buf' question).
Proof. exact write_error_safe. Qed.
Print Assumptions C04_error_buffer_never_overrun_partial.

Example C04_demo :
  buffer_ok (repeat NUL 6) 6 /\
  write_error (repeat NUL 6) 6 (txt "boom") = Some (txt "boom" ++ [NUL; NUL]) /\
  write_error (repeat NUL 6) 6 (txt "boom!!") = Some (txt "?" ++ repeat NUL 5).
Proof. repeat split; simpl; lia. Qed.

(** Finding (C04): a negative length is converted to a huge unsigned one, so the
    message is copied whatever the true size of the buffer. *)
Theorem C04_error_buffer_refuted :
  exists buf blen msg, blen < 0 /\ - 2 ^ 31 <= blen /\ write_error buf blen msg = None.
Proof. exact write_error_negative_overrun. Qed.
Print Assumptions C04_error_buffer_refuted.

(** C05: whatever the schedule, threads that complete hold distinct handles. *)
Theorem C05_concurrent_handles_distinct_partial :
  forall (E : CEnv) (jss : list (list ascii)) (sched : list nat),
    Z.of_nat (length jss) <= 2 ^ 64 ->
    NoDup (done_handles (snd (run_schedule E (init E, map PStart jss) sched))).
Proof. exact concurrent_distinct. Qed.
Print Assumptions C05_concurrent_handles_distinct_partial.

Example C05_demo :
  done_handles (snd (run_schedule toyE
     (init toyE, map PStart [txt "vdW"; txt "x"; txt "PRx"])
     [2;0;2;1;0;2;1;0;2;0;0;2;2;0;1]%nat)) = [1; 0].
Proof. reflexivity. Qed.

(** Finding (C05): the map is not protected, so a schedule of two builds
    exists after which a handle that was returned with success is unknown. *)
Theorem C05_concurrent_handles_usable_refuted :
  exists E jss sched u,
    In u (done_handles (snd (run_schedule E (init E, map PStart jss) sched))) /\
    library (fst (run_schedule E (init E, map PStart jss) sched)) (to_u64 u) = None.
Proof. exact concurrent_lost_update. Qed.
Print Assumptions C05_concurrent_handles_usable_refuted.

(** If the insertions are serialised (e.g. the caller holds a lock), in every schedule
    each thread that completes finds under its handle the model its own text describes. *)
Theorem C05_serialised_insertions_usable :
  forall (E : CEnv) (jss : list (list ascii)) (sched : list nat) t u,
    Z.of_nat (length jss) <= 2 ^ 64 ->
    let '(s, ps) := run_locked E (init E, map PStart jss) sched in
    nth_error ps t = Some (PDone u) ->
    exists js m, nth_error jss t = Some js /\ describes E js m /\ library s (to_u64 u) = Some m.
Proof. exact concurrent_locked_own. Qed.
Print Assumptions C05_serialised_insertions_usable.
Example C05_serialised_demo :
  let '(s, ps) := run_locked toyE (init toyE, map PStart [txt "vdW"; txt "PRx"]) [0;1;1;0;1;0;0;1;1;0]%nat in
  nth_error ps 0 = Some (PDone 1) /\ library s 1 = Some (txt "vdW").
Proof. split; vm_compute; reflexivity. Qed.
