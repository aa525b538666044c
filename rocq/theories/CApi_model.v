(** Model of the C interface of teqp: [interface/C/teqpc.cpp].

    Modelled: the handle counter, the library of models, [build_model],
    [free_model], the eight getters (which all share one body) and the
    exception-to-error-code translation with its write into the caller's
    message buffer.
    Not modelled: the numerical contents of the models (an arbitrary function
    [ce_query]) and JSON parsing (an arbitrary function [ce_parse]). *)
From Coq Require Import ZArith String Ascii Bool Lia List.
Import ListNotations.
Open Scope Z_scope.

(** ** Exceptions that may reach the C boundary.
    [include/teqp/exceptions.hpp] lines 7-15 ([teqpcException]) and C++
    [std::exception]; [Foreign] is anything not derived from
    [std::exception]. *)
Inductive exn :=
| TeqpC (code : Z) (msg : list ascii)   (* teqpcException(code,msg) *)
| StdExn (msg : list ascii)             (* any other std::exception *)
| Foreign.                              (* not derived from std::exception *)

Inductive result (A : Type) := Ok (a : A) | Throw (e : exn).
Arguments Ok {A} a. Arguments Throw {A} e.

(** Everything the C interface calls but does not define.
    [ce_parse]   : nlohmann::json::parse (teqpc.cpp line 78)
    [ce_make]    : cppinterface::make_model (line 81)
    [ce_query]   : the call [library.at(uuid)->get_XXX(...)] (lines 111, 125,
                   139, 153, 168, 182, 196, 210), one [Query] per getter and
                   argument list
    [ce_generic] : the text of [what()] of a [std::exception] object copied by
                   value (line 69 catches by value, so the message is sliced;
                   the text is implementation defined). *)
Record CEnv := {
  Json : Type;
  Model : Type;
  Query : Type;
  Val : Type;
  ce_parse : list ascii -> result Json;
  ce_make : Json -> result Model;
  ce_query : Model -> Query -> result Val;
  ce_generic : list ascii
}.

(** ** The error message buffer *)

Definition NUL : ascii := Ascii.zero.

(** [std::string::c_str] seen through [strcpy]: the bytes before the first NUL. *)
Fixpoint c_str (s : list ascii) : list ascii :=
  match s with
  | [] => []
  | c :: s' => if Ascii.eqb c NUL then [] else c :: c_str s'
  end.

(** [strcpy(dst, src)]: copies the characters and the terminating NUL.
    [dst] is the memory the caller owns; writing past its end is undefined
    behaviour, the [None] outcome. *)
Definition strcpy (dst : list ascii) (src : list ascii) : option (list ascii) :=
  let bytes := c_str src ++ [NUL] in
  if (length bytes <=? length dst)%nat
  then Some (bytes ++ skipn (length bytes) dst)
  else None.

(** [static_cast<std::size_t>(int)] on a 64 bit platform. *)
Definition to_size_t (n : Z) : Z := n mod 2 ^ 64.

Definition toolong_message : list ascii :=
  list_ascii_of_string "Error message too long for buffer".
Definition question : list ascii := list_ascii_of_string "?".

(** [write_error], teqpc.cpp lines 47-60.  [dst] is the memory behind
    [message_buffer], [buffer_length] the [int] passed by the caller. *)
Definition write_error (dst : list ascii) (buffer_length : Z) (msg : list ascii)
  : option (list ascii) :=
  if Z.of_nat (length msg) <? to_size_t buffer_length then strcpy dst msg
  else if Z.of_nat (length toolong_message) <? to_size_t buffer_length
       then strcpy dst toolong_message
  else if 1 <? buffer_length then strcpy dst question
  else Some dst.

(** What the caller observes of a failing call. [Escapes] is an exception
    leaving an [extern "C"] function; [MemoryError] an out-of-bounds write. *)
Inductive completion :=
| Returns (code : Z) (buffer : list ascii)
| MemoryError
| Escapes.

Definition with_buffer (code : Z) (b : option (list ascii)) : completion :=
  match b with Some buf => Returns code buf | None => MemoryError end.

(** [exception_handler], teqpc.cpp lines 45-73. *)
Definition exception_handler (E : CEnv) (e : exn) (dst : list ascii) (blen : Z)
  : completion :=
  match e with
  | TeqpC code msg => with_buffer code (write_error dst blen msg)
  | StdExn _ => with_buffer 9999 (write_error dst blen (ce_generic E))
  | Foreign => Escapes
  end.

(** ** Handles *)

(** Handles are [long long int] (signed 64 bit); the map key is
    [unsigned long long int] (teqpc.cpp lines 41-43). *)
Definition to_u64 (h : Z) : Z := h mod 2 ^ 64.
Definition to_i64 (k : Z) : Z :=
  let r := k mod 2 ^ 64 in if r <? 2 ^ 63 then r else r - 2 ^ 64.

Record state (E : CEnv) := mkState {
  next_index : Z;                         (* line 41 *)
  library : Z -> option (Model E)         (* line 43: key -> model *)
}.
Arguments next_index {E}. Arguments library {E}. Arguments mkState {E}.

Definition init (E : CEnv) : state E := mkState 0 (fun _ => None).

(** [unordered_map::emplace]: does nothing if the key is already present. *)
Definition emplace {M} (lib : Z -> option M) (k : Z) (m : M) : Z -> option M :=
  match lib k with
  | Some _ => lib
  | None => fun k' => if k' =? k then Some m else lib k'
  end.

(** [unordered_map::erase] by key. *)
Definition erase {M} (lib : Z -> option M) (k : Z) : Z -> option M :=
  fun k' => if k' =? k then None else lib k'.

(** The memory effects visible to the caller besides the return code. *)
Record reply (E : CEnv) := mkReply {
  r_done : completion;
  r_uuid : option Z;        (* value written to *uuid, if any *)
  r_val : option (Val E)    (* value written to *val, if any *)
}.
Arguments r_done {E}. Arguments r_uuid {E}. Arguments r_val {E}.
Arguments mkReply {E}.

(** Calls.  Each carries the caller's error buffer and its declared length. *)
Inductive call (E : CEnv) :=
| Build (js : list ascii) (buf : list ascii) (blen : Z)
| Free (h : Z) (buf : list ascii) (blen : Z)
| Get (h : Z) (q : Query E) (buf : list ascii) (blen : Z).
Arguments Build {E}. Arguments Free {E}. Arguments Get {E}.

Definition load_prefix : list ascii := list_ascii_of_string "Unable to load with error:".

(** The text of [e.what()] for an exception caught by reference (line 84). *)
Definition what (e : exn) : list ascii :=
  match e with TeqpC _ m => m | StdExn m => m | Foreign => [] end.

(** [build_model], teqpc.cpp lines 75-92.  The parse happens before the
    counter is advanced; the counter is advanced even if construction fails. *)
Definition build_model (E : CEnv) (s : state E) (js buf : list ascii) (blen : Z)
  : state E * reply E :=
  match ce_parse E js with
  | Throw e => (s, mkReply (exception_handler E e buf blen) None None)
  | Ok j =>
      let uid := next_index s in
      let next := to_i64 (next_index s + 1) in
      match ce_make E j with
      | Throw Foreign => (mkState next (library s),
                          mkReply (exception_handler E Foreign buf blen) None None)
      | Throw e => (mkState next (library s),
                    mkReply (exception_handler E
                               (TeqpC 30 (load_prefix ++ c_str (what e))) buf blen)
                      None None)
      | Ok m => (mkState next (emplace (library s) (to_u64 uid) m),
                 mkReply (Returns 0 buf) (Some uid) None)
      end
  end.

(** [free_model], teqpc.cpp lines 94-103: erasing an absent key is no error. *)
Definition free_model (E : CEnv) (s : state E) (h : Z) (buf : list ascii) (blen : Z)
  : state E * reply E :=
  (mkState (next_index s) (erase (library s) (to_u64 h)),
   mkReply (Returns 0 buf) None None).

(** The message of the [std::out_of_range] thrown by [unordered_map::at]
    is lost by slicing in [exception_handler], so its text is irrelevant. *)
Definition out_of_range : exn := StdExn (list_ascii_of_string "_Map_base::at").

(** The getters, teqpc.cpp lines 105-216: all have this body. *)
Definition getter (E : CEnv) (s : state E) (h : Z) (q : Query E)
  (buf : list ascii) (blen : Z) : state E * reply E :=
  match library s (to_u64 h) with
  | None => (s, mkReply (exception_handler E out_of_range buf blen) None None)
  | Some m =>
      match ce_query E m q with
      | Throw e => (s, mkReply (exception_handler E e buf blen) None None)
      | Ok v => (s, mkReply (Returns 0 buf) None (Some v))
      end
  end.

Definition step (E : CEnv) (s : state E) (c : call E) : state E * reply E :=
  match c with
  | Build js buf blen => build_model E s js buf blen
  | Free h buf blen => free_model E s h buf blen
  | Get h q buf blen => getter E s h q buf blen
  end.

(** A history: the calls made so far with their replies, oldest first. *)
Notation event E := (call E * reply E)%type.

Fixpoint run (E : CEnv) (s : state E) (cs : list (call E))
  : state E * list (event E) :=
  match cs with
  | [] => (s, [])
  | c :: cs' =>
      let '(s1, r) := step E s c in
      let '(s2, es) := run E s1 cs' in
      (s2, (c, r) :: es)
  end.

Definition history (E : CEnv) (cs : list (call E)) : list (event E) :=
  snd (run E (init E) cs).

(** ** Concurrent use: threads calling [build_model] at the same time.

    Small steps of one call: parse; the atomic [next_index++] (line 79);
    construction of the model (line 81, purely local); the map insertion,
    which is NOT atomic and not protected by any lock, modelled as a read of
    the map followed by a write of the updated map; the return. *)
Inductive pc (E : CEnv) :=
| PStart (js : list ascii)
| PParsed (j : Json E)
| PHasId (j : Json E) (uid : Z)
| PMade (m : Model E) (uid : Z)
| PRead (m : Model E) (uid : Z) (seen : Z -> option (Model E))
| PInserted (uid : Z)
| PDone (uid : Z)
| PFailed.
Arguments PStart {E}. Arguments PParsed {E}. Arguments PHasId {E}.
Arguments PMade {E}. Arguments PRead {E}. Arguments PInserted {E}.
Arguments PDone {E}. Arguments PFailed {E}.

(** One step of one thread on the shared state. *)
Definition thread_step (E : CEnv) (s : state E) (p : pc E) : state E * pc E :=
  match p with
  | PStart js => match ce_parse E js with
                 | Ok j => (s, PParsed j) | Throw _ => (s, PFailed) end
  | PParsed j => (mkState (to_i64 (next_index s + 1)) (library s),
                  PHasId j (next_index s))
  | PHasId j uid => match ce_make E j with
                    | Ok m => (s, PMade m uid) | Throw _ => (s, PFailed) end
  | PMade m uid => (s, PRead m uid (library s))
  | PRead m uid seen => (mkState (next_index s) (emplace seen (to_u64 uid) m),
                         PInserted uid)
  | PInserted uid => (s, PDone uid)
  | PDone uid => (s, PDone uid)
  | PFailed => (s, PFailed)
  end.

Definition config (E : CEnv) : Type := state E * list (pc E).

Fixpoint set_nth {A} (n : nat) (x : A) (l : list A) : list A :=
  match l, n with
  | [], _ => []
  | _ :: t, O => x :: t
  | h :: t, S n' => h :: set_nth n' x t
  end.

(** Scheduling thread [t]. *)
Definition sched_step (E : CEnv) (c : config E) (t : nat) : config E :=
  match nth_error (snd c) t with
  | None => c
  | Some p => let '(s', p') := thread_step E (fst c) p in
              (s', set_nth t p' (snd c))
  end.

Definition run_schedule (E : CEnv) (c : config E) (sched : list nat) : config E :=
  fold_left (sched_step E) sched c.

(** A variant in which the caller serialises the map insertion (read and write
    of the map in one step), e.g. by an external lock around the insertion. *)
Definition locked_thread_step (E : CEnv) (s : state E) (p : pc E) : state E * pc E :=
  match p with
  | PMade m uid => (mkState (next_index s) (emplace (library s) (to_u64 uid) m),
                    PInserted uid)
  | _ => thread_step E s p
  end.
Definition locked_sched_step (E : CEnv) (c : config E) (t : nat) : config E :=
  match nth_error (snd c) t with
  | None => c
  | Some p => let '(s', p') := locked_thread_step E (fst c) p in
              (s', set_nth t p' (snd c))
  end.
Definition run_locked (E : CEnv) (c : config E) (sched : list nat) : config E :=
  fold_left (locked_sched_step E) sched c.
