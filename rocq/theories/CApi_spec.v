(** Specification vocabulary for the C interface, in terms of what a caller
    sees: the calls made and the replies received. *)
From Coq Require Import ZArith String Ascii Bool Lia List.
From Verif Require Import CApi_model.
Import ListNotations.
Open Scope Z_scope.

(** A value a C [long long int] can hold. *)
Definition is_i64 (h : Z) : Prop := - 2 ^ 63 <= h < 2 ^ 63.

(** Arguments the C prototypes can carry. *)
Definition call_ok {E} (c : call E) : Prop :=
  match c with
  | Build _ _ _ => True
  | Free h _ _ => is_i64 h
  | Get h _ _ _ => is_i64 h
  end.

Definition is_build {E} (c : call E) : bool :=
  match c with Build _ _ _ => true | _ => false end.

Definition count_builds {E} (cs : list (call E)) : Z :=
  Z.of_nat (length (filter is_build cs)).

(** The handles handed out in a history, oldest first. *)
Fixpoint handles {E} (H : list (event E)) : list Z :=
  match H with
  | [] => []
  | (_, r) :: H' => match r_uuid r with
                    | Some h => h :: handles H'
                    | None => handles H'
                    end
  end.

(** The model a JSON text describes. *)
Definition describes (E : CEnv) (js : list ascii) (m : Model E) : Prop :=
  exists j, ce_parse E js = Ok j /\ ce_make E j = Ok m.

(** According to the history [H], the caller holds handle [h], obtained from a
    [build_model] of a text describing [m], and has not freed it since. *)
Definition denotes {E} (H : list (event E)) (h : Z) (m : Model E) : Prop :=
  exists H1 js buf blen r H2,
    H = H1 ++ (Build js buf blen, r) :: H2 /\
    r_uuid r = Some h /\
    describes E js m /\
    (forall buf' blen' r', ~ In (Free h buf' blen', r') H2).

(** The caller is told the call failed. *)
Definition reports_failure {E} (r : reply E) : Prop :=
  exists code buf, r_done r = Returns code buf /\ code <> 0.
Definition reports_success {E} (r : reply E) : Prop :=
  exists buf, r_done r = Returns 0 buf.

(** No exception foreign to [std::exception] is thrown, and no library code
    throws a [teqpcException] with code 0. *)
Definition good_exn (e : exn) : Prop :=
  match e with Foreign => False | TeqpC c _ => c <> 0 | StdExn _ => True end.
Definition std_only (E : CEnv) : Prop :=
  (forall js e, ce_parse E js = Throw e -> good_exn e) /\
  (forall j e, ce_make E j = Throw e -> good_exn e) /\
  (forall m q e, ce_query E m q = Throw e -> good_exn e).

(** The buffer belongs to the caller and has the declared length. *)
Definition buffer_ok (buf : list ascii) (blen : Z) : Prop :=
  blen = Z.of_nat (length buf) /\ 0 <= blen < 2 ^ 31.

(** [buf] holds the NUL-terminated C string [s]. *)
Definition holds_string (buf : list ascii) (s : list ascii) : Prop :=
  exists rest, buf = s ++ NUL :: rest /\ ~ In NUL s.

(** Threads that completed successfully, with their handles. *)
Definition done_handles {E} (ps : list (pc E)) : list Z :=
  flat_map (fun p => match p with PDone uid => [uid] | _ => [] end) ps.
