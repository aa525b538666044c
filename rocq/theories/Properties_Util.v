(** Properties C06-C12: factory registry, validation gate, containers, integer
    powers, dot product and JSON helpers. *)
From Coq Require Import Reals ZArith String List Bool Lia Lra.
From Verif Require Import Json_model Util_model Registry_model Util_proofs.
Import ListNotations.

(** C06: whatever was registered before and after, a kind is served by its first
    registration: built-in kinds (present in [reg]) are never replaced, and the
    first of several registrations of a new kind wins. *)
Theorem C06_first_registration_wins :
  forall M (reg : registry M) (ops : list (string * makefunc M)) (k : string),
    lookup k (run_adds M reg ops) =
    match lookup k reg with Some g => Some g | None => lookup k ops end.
Proof. intros. apply lookup_run_adds. Qed.
Print Assumptions C06_first_registration_wins.

(** ... registering an existing kind throws InvalidArgument and changes nothing. *)
Theorem C06_no_overwrite :
  forall M (reg : registry M) k f g,
    lookup k reg = Some g ->
    add_factory M reg k f = (reg, Err InvalidArgument).
Proof. intros M reg k f g H. unfold add_factory. now rewrite H. Qed.
Print Assumptions C06_no_overwrite.

(** ... building a model of a registered kind gives the same outcome whatever
    registrations happen afterwards. *)
Theorem C06_registrations_do_not_disturb :
  forall M (reg : registry M) ops sch j validate k f,
    j_at j "kind" = Val (JStr k) -> lookup k reg = Some f ->
    build_model_ptr M (run_adds M reg ops) sch j validate =
    build_model_ptr M reg sch j validate.
Proof. intros M reg ops sch j validate k f. exact (registered_stay reg ops sch j validate k f). Qed.
Print Assumptions C06_registrations_do_not_disturb.

(** ... and a kind nobody registered is refused without running any factory. *)
Theorem C06_unknown_kind_refused :
  forall M (reg : registry M) sch j validate k spec,
    j_at j "kind" = Val (JStr k) -> j_at j "model" = Val spec -> lookup k reg = None ->
    b_calls M (build_model_ptr M reg sch j validate) = [] /\
    b_result M (build_model_ptr M reg sch j validate) = Err StdInvalidArgument.
Proof.
  intros M reg sch j v k spec K S L. unfold build_model_ptr. rewrite K. simpl. rewrite S, L. auto.
Qed.
Print Assumptions C06_unknown_kind_refused.

Definition demo_reg : registry nat :=
  [("vdW1"%string, fun _ => Val 1%nat); ("PR"%string, fun _ => Val 2%nat)].
Definition demo_json : json :=
  JObj [("kind", JStr "mine"); ("model", JObj [])]%string.
Example C06_demo :
  let reg := run_adds nat demo_reg
       [("PR", fun _ => Val 7%nat); ("mine", fun _ => Val 8%nat); ("mine", fun _ => Val 9%nat)]%string in
  b_result nat (build_model_ptr nat reg (fun _ => None) demo_json true) = Val 8%nat /\
  b_result nat (build_model_ptr nat reg (fun _ => None)
       (JObj [("kind", JStr "PR"); ("model", JNull)]%string) true) = Val 2%nat.
Proof. split; reflexivity. Qed.

(** C07: the validation gate.  [effective] is the JSON's own flag if present. *)
Definition effective_validate (j : json) (arg : bool) (b : bool) : Prop :=
  match j_contains j "validate" with
  | true => j_at j "validate" = Val (JBool b)
  | false => b = arg
  end.

Theorem C07_validation_gate :
  forall M (reg : registry M) (sch : schemas) j arg k spec f b,
    j_at j "kind" = Val (JStr k) -> j_at j "model" = Val spec -> lookup k reg = Some f ->
    effective_validate j arg b ->
    let out := build_model_ptr M reg sch j arg in
    (* the schema is consulted and rejects *)
    (b = true -> forall errs, sch k = Some errs -> errs spec <> [] ->
       b_calls M out = [] /\ b_result M out = Err (ValidationError (errs spec))) /\
    (* in every other case the factory runs exactly once on the spec *)
    ((b = false \/ sch k = None \/ (exists errs, sch k = Some errs /\ errs spec = [])) ->
       b_calls M out = [(k, spec)] /\ b_result M out = f spec).
Proof.
  intros M reg sch j arg k spec f b K S L EV out. unfold out, build_model_ptr.
  rewrite K. simpl. rewrite S, L.
  assert (E : (if j_contains j "validate" then bind (j_at j "validate") j_bool else Val arg) = Val b).
  { unfold effective_validate in EV. destruct (j_contains j "validate").
    - now rewrite EV.
    - now subst. }
  rewrite E. split.
  - intros -> errs SK NE. rewrite SK. destruct (errs spec); [congruence|auto].
  - intros [->|[SK|(errs & SK & EMP)]].
    + auto.
    + rewrite SK. destruct b; auto.
    + rewrite SK, EMP. destruct b; auto.
Qed.
Print Assumptions C07_validation_gate.

Theorem C07_bad_validate_flag_throws :
  forall M (reg : registry M) (sch : schemas) j arg k spec f v,
    j_at j "kind" = Val (JStr k) -> j_at j "model" = Val spec -> lookup k reg = Some f ->
    j_at j "validate" = Val v -> (forall b, v <> JBool b) ->
    b_calls M (build_model_ptr M reg sch j arg) = [] /\
    b_result M (build_model_ptr M reg sch j arg) = Err JsonError.
Proof.
  intros M reg sch j arg k spec f v K S L V NB. unfold build_model_ptr.
  rewrite K. simpl. rewrite S, L.
  assert (C : j_contains j "validate" = true).
  { unfold j_at in V. unfold j_contains. destruct j; try discriminate.
    destruct (lookup "validate" l); [reflexivity|discriminate]. }
  rewrite C, V. simpl. destruct v; simpl; auto. exfalso. now apply (NB b).
Qed.
Print Assumptions C07_bad_validate_flag_throws.

Example C07_demo :
  let j := JObj [("kind", JStr "PR"); ("model", JNull); ("validate", JBool false)]%string in
  effective_validate j true false /\
  b_result nat (build_model_ptr nat demo_reg (fun _ => Some (fun _ => ["bad"%string])) j true) = Val 2%nat /\
  b_result nat (build_model_ptr nat demo_reg (fun _ => Some (fun _ => ["bad"%string]))
     (JObj [("kind", JStr "PR"); ("model", JNull)]%string) true) = Err (ValidationError ["bad"%string]).
Proof. repeat split; reflexivity. Qed.

(** The message of a validation error lists the errors separated by the delimiter. *)
Theorem C07_error_message_is_joined_list :
  forall delim errs, errors_to_string delim errs = String.concat delim errs.
Proof. exact errors_to_string_concat. Qed.
Print Assumptions C07_error_message_is_joined_list.

(** C08 *)
Theorem C08_container_history :
  forall Inst (vs : list Inst),
    let '(c, ids) := add_all Inst (empty_container Inst) vs in
    ids = seq 1 (length vs) /\ csize Inst c = length vs /\
    (forall i v, nth_error vs i = Some v -> get_model Inst c (S i) = Val v) /\
    (forall id, (id = 0 \/ id > length vs)%nat -> get_model Inst c id = Err StdOutOfRange).
Proof. exact container_history. Qed.
Print Assumptions C08_container_history.
Example C08_demo :
  snd (add_all nat (empty_container nat) [10; 20; 30]%nat) = [1; 2; 3]%nat.
Proof. reflexivity. Qed.

(** C09 *)
Open Scope R_scope.
Theorem C09_powi_is_power :
  forall (x : R) (n : Z),
    n <> INT_MIN -> ((n < 0)%Z -> x <> 0) -> powi x n = Some (powerRZ x n).
Proof. exact powi_ok. Qed.
Print Assumptions C09_powi_is_power.
Theorem C09_powi_int_min_overflows_refuted :
  exists n : Z, (- 2 ^ 31 <= n < 2 ^ 31)%Z /\ forall x, powi x n = None.
Proof. exists INT_MIN. split; [unfold INT_MIN; lia|exact powi_int_min]. Qed.
Print Assumptions C09_powi_int_min_overflows_refuted.
Theorem C09_POW_templates :
  forall x,
  POW2 x = x ^ 2 /\ POW3 x = x ^ 3 /\ POW4 x = x ^ 4 /\ POW5 x = x ^ 5 /\
  POW7 x = x ^ 7 /\ POW8 x = x ^ 8 /\ POW10 x = x ^ 10 /\ POW12 x = x ^ 12 /\
  pow2 x = x ^ 2 /\ pow3 x = x ^ 3.
Proof. exact POWs_ok. Qed.
Print Assumptions C09_POW_templates.
Example C09_demo : powi 2 (-7) = Some (/ 128) /\ powi 3 11 = Some 177147.
Proof.
  split; rewrite powi_ok; try (unfold INT_MIN; lia); try (intros; lra); simpl; f_equal; field.
Qed.

(** C10: [rsum (map (a*b) (combine x y))] is the sum of the products. *)
Theorem C10_dot_product :
  forall x y,
  contiguous_dotproduct x y =
  if Nat.eqb (length x) (length y)
  then Val (Some (fold_right Rplus 0 (map (fun p => fst p * snd p) (combine x y))))
  else Err InvalidArgument.
Proof. exact dot_ok. Qed.
Print Assumptions C10_dot_product.
Example C10_demo : contiguous_dotproduct [1;2;3] [4;5;6] = Val (Some 32) /\
                   contiguous_dotproduct [1;2] [4] = Err InvalidArgument.
Proof. split; rewrite dot_ok; simpl; [do 2 f_equal; lra|reflexivity]. Qed.

(** C11: accepted inputs are exactly null and square arrays of arrays of
    numbers, and the result has exactly those entries; the errors are of two
    kinds. *)
Theorem C11_square_matrix_reader :
  forall (j : json) (m : list (list R)),
    build_square_matrix j = Val m <->
    (j = JNull /\ m = []) \/
    (j = JArr (map (fun row => JArr (map JNum row)) m) /\
     Forall (fun row => length row = length m) m).
Proof. exact build_square_matrix_ok. Qed.
Print Assumptions C11_square_matrix_reader.
Theorem C11_square_matrix_errors :
  forall j e, build_square_matrix j = Err e -> e = InvalidArgument \/ e = StdInvalidArgument.
Proof. exact build_square_matrix_err. Qed.
Print Assumptions C11_square_matrix_errors.
Theorem C11_all_same_length :
  forall j ks b, all_same_length j ks = Val b ->
    (b = true <-> ks <> [] /\ exists n, forall k, In k ks ->
        exists v, j_at j k = Val v /\ j_size v = n).
Proof. exact all_same_length_ok. Qed.
Print Assumptions C11_all_same_length.
Example C11_demo :
  build_square_matrix (JArr [JArr [JNum 0; JNum 1]; JArr [JNum 1; JNum 0]]) =
    Val [[0; 1]; [1; 0]] /\
  build_square_matrix (JArr [JArr [JNum 0; JNum 1]; JArr [JNum 1]]) = Err StdInvalidArgument /\
  build_square_matrix (JStr "abc") = Err InvalidArgument /\
  all_same_length (JObj [("a", JArr [JNull; JNull]); ("b", JArr [JNum 1])])%string ["a"; "b"]%string
    = Val false.
Proof. repeat split; reflexivity. Qed.

(** C12: where the data come from.  The specification as a relation: *)
Inductive resolves (fs : FS) (dflt : option string) : json -> res json -> Prop :=
| use_object l : resolves fs dflt (JObj l) (Val (JObj l))
| use_array a l : resolves fs dflt (JArr (a :: l)) (Val (JArr (a :: l)))
| use_file s text v :
    s <> EmptyString -> fs_is_file_throws fs s = false -> fs_is_file fs s = true ->
    fs_open fs s = Some text -> fs_parse fs text = Some v ->
    resolves fs dflt (JStr s) (Val v)
| bad_file s :
    s <> EmptyString -> fs_is_file_throws fs s = false -> fs_is_file fs s = true ->
    (fs_open fs s = None \/ exists text, fs_open fs s = Some text /\ fs_parse fs text = None) ->
    resolves fs dflt (JStr s) (Err StdInvalidArgument)
| use_text s v :
    s <> EmptyString -> (fs_is_file_throws fs s = true \/ fs_is_file fs s = false) ->
    fs_parse fs s = Some v -> resolves fs dflt (JStr s) (Val v)
| bad_text s :
    s <> EmptyString -> (fs_is_file_throws fs s = true \/ fs_is_file fs s = false) ->
    fs_parse fs s = None -> resolves fs dflt (JStr s) (Err JsonError)
| use_default j p :
    j = JNull \/ j = JArr [] \/ j = JStr EmptyString -> dflt = Some p ->
    resolves fs dflt j (load_a_JSON_file fs p)
| no_default j :
    j = JNull \/ j = JArr [] \/ j = JStr EmptyString -> dflt = None ->
    resolves fs dflt j (Err InvalidArgument)
| scalar_b b : resolves fs dflt (JBool b) (Err InvalidArgument)
| scalar_n r : resolves fs dflt (JNum r) (Err InvalidArgument).

Theorem C12_multilevel_load_resolution :
  forall fs j dflt out,
    multilevel_JSON_load fs j dflt = out <-> resolves fs dflt j out.
Proof.
  intros fs j dflt out. split.
  - intros <-. destruct j as [|b|r|s|[|a l]|l]; simpl;
      [ | apply scalar_b | apply scalar_n | | | apply use_array | apply use_object ];
      try (destruct dflt; [apply use_default; auto|apply no_default; auto]; fail).
    destruct s as [|c s].
    + destruct dflt; [apply use_default; auto|apply no_default; auto].
    + set (str := String c s). unfold is_valid_path.
      destruct (fs_is_file_throws fs str) eqn:T; simpl.
      * destruct (fs_parse fs str) eqn:P; [apply use_text|apply bad_text]; auto; discriminate.
      * destruct (fs_is_file fs str) eqn:F.
        -- unfold load_a_JSON_file. rewrite T, F. simpl.
           destruct (fs_open fs str) as [text|] eqn:O.
           ++ destruct (fs_parse fs text) eqn:P.
              ** eapply use_file; eauto; discriminate.
              ** apply bad_file; eauto; discriminate.
           ++ apply bad_file; auto; discriminate.
        -- destruct (fs_parse fs str) eqn:P; [apply use_text|apply bad_text]; auto; discriminate.
  - intros H. destruct H; simpl; try reflexivity.
    + destruct s as [|c s]; [congruence|]. unfold is_valid_path. rewrite H0, H1. simpl.
      unfold load_a_JSON_file. now rewrite H0, H1, H2, H3.
    + destruct s as [|c s]; [congruence|]. unfold is_valid_path. rewrite H0, H1. simpl.
      unfold load_a_JSON_file. rewrite H0, H1. simpl.
      destruct H2 as [->|(text & -> & ->)]; reflexivity.
    + destruct s as [|c s]; [congruence|]. unfold is_valid_path.
      destruct H0 as [->| ->]; rewrite ?andb_false_r; simpl; now rewrite H1.
    + destruct s as [|c s]; [congruence|]. unfold is_valid_path.
      destruct H0 as [->| ->]; rewrite ?andb_false_r; simpl; now rewrite H1.
    + destruct H as [->|[->| ->]]; now subst.
    + destruct H as [->|[->| ->]]; now subst.
Qed.
Print Assumptions C12_multilevel_load_resolution.

Example C12_demo :
  let fs := {| fs_is_file := fun s => String.eqb s "a.json";
               fs_is_file_throws := fun s => String.eqb s "toolong";
               fs_open := fun _ => Some "text"%string;
               fs_parse := fun s => if String.eqb s "text" then Some (JBool true)
                                    else if String.eqb s "toolong" then Some JNull else None |} in
  multilevel_JSON_load fs (JStr "a.json") None = Val (JBool true) /\
  multilevel_JSON_load fs (JStr "toolong") None = Val JNull /\
  multilevel_JSON_load fs (JStr "nofile") None = Err JsonError /\
  multilevel_JSON_load fs JNull (Some "a.json"%string) = Val (JBool true).
Proof. repeat split; reflexivity. Qed.
