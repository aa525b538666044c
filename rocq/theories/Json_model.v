(** JSON values as used by teqp (nlohmann::json) and the JSON helpers of
    [include/teqp/json_tools.hpp].
    Simplification: numbers are reals (integer/unsigned/float are one case);
    objects are association lists, looked up by the first match (nlohmann
    objects have unique keys). *)
From Coq Require Import Reals String List Bool Lia.
Import ListNotations.

Inductive json :=
| JNull
| JBool (b : bool)
| JNum (r : R)
| JStr (s : string)
| JArr (l : list json)
| JObj (l : list (string * json)).

(** Error classes that a caller can tell apart. *)
Inductive error :=
| InvalidArgument        (* teqp::InvalidArgument *)
| StdInvalidArgument     (* std::invalid_argument *)
| StdOutOfRange          (* std::out_of_range *)
| JsonError              (* nlohmann::json::exception (type_error, out_of_range, parse_error) *)
| ValidationError (errs : list string)  (* teqp::JSONValidationError *)
| NotImplemented         (* teqp::NotImplementedError *)
| IterationFailure       (* teqp::IterationFailure *)
| OtherError (code : nat).

Inductive res (A : Type) := Val (a : A) | Err (e : error).
Arguments Val {A} a. Arguments Err {A} e.

Definition bind {A B} (x : res A) (f : A -> res B) : res B :=
  match x with Val a => f a | Err e => Err e end.

(** [std::map]-like lookup in an object. *)
Fixpoint lookup {A} (k : string) (l : list (string * A)) : option A :=
  match l with
  | [] => None
  | (k', v) :: l' => if String.eqb k k' then Some v else lookup k l'
  end.

(** [j.at(key)]: type_error on non-objects, out_of_range on a missing key. *)
Definition j_at (j : json) (k : string) : res json :=
  match j with
  | JObj l => match lookup k l with Some v => Val v | None => Err JsonError end
  | _ => Err JsonError
  end.

(** [j.contains(key)]: false on non-objects. *)
Definition j_contains (j : json) (k : string) : bool :=
  match j with
  | JObj l => match lookup k l with Some _ => true | None => false end
  | _ => false
  end.

(** [j.size()]: 0 for null, element count for arrays/objects, 1 otherwise. *)
Definition j_size (j : json) : nat :=
  match j with
  | JNull => 0
  | JArr l => length l
  | JObj l => length l
  | _ => 1
  end.

(** Implicit conversions of nlohmann::json. *)
Definition j_string (j : json) : res string :=
  match j with JStr s => Val s | _ => Err JsonError end.
Definition j_bool (j : json) : res bool :=
  match j with JBool b => Val b | _ => Err JsonError end.
Definition j_double (j : json) : res R :=
  match j with JNum r => Val r | _ => Err JsonError end.

Fixpoint map_res {A B} (f : A -> res B) (l : list A) : res (list B) :=
  match l with
  | [] => Val []
  | a :: l' => bind (f a) (fun b => bind (map_res f l') (fun bs => Val (b :: bs)))
  end.

(** Conversion to [std::valarray<T>]: only arrays, element by element. *)
Definition j_valarray {B} (f : json -> res B) (j : json) : res (list B) :=
  match j with JArr l => map_res f l | _ => Err JsonError end.

(** [all_same_length], json_tools.hpp lines 39-43.  The set of lengths has one
    element; [at] may throw. *)
Fixpoint dedup (l : list nat) : list nat :=
  match l with
  | [] => []
  | a :: l' => if existsb (Nat.eqb a) l' then dedup l' else a :: dedup l'
  end.
Definition all_same_length (j : json) (ks : list string) : res bool :=
  bind (map_res (fun k => bind (j_at j k) (fun v => Val (j_size v))) ks)
       (fun lens => Val (Nat.eqb (length (dedup lens)) 1)).

(** The copy loop of [build_square_matrix], lines 57-65: row [i] must have
    [n] entries. *)
Fixpoint copy_rows (n : nat) (m : list (list R)) : res (list (list R)) :=
  match m with
  | [] => Val []
  | row :: m' => if Nat.eqb (length row) n
                 then bind (copy_rows n m') (fun rows => Val (row :: rows))
                 else Err StdInvalidArgument
  end.

(** [build_square_matrix], json_tools.hpp lines 45-71; a matrix is its list of rows. *)
Definition build_square_matrix (j : json) : res (list (list R)) :=
  match j with
  | JNull => Val []
  | JArr [] => Val []
  | _ => match j_valarray (j_valarray j_double) j with
         | Err JsonError => Err InvalidArgument
         | Err e => Err e
         | Val m => copy_rows (length m) m
         end
  end.

(** What the loader needs from the outside world. *)
Record FS := {
  fs_is_file : string -> bool;            (* std::filesystem::is_regular_file *)
  fs_is_file_throws : string -> bool;     (* ... or it throws (e.g. name too long) *)
  fs_open : string -> option string;      (* contents, None if it cannot be opened *)
  fs_parse : string -> option json        (* nlohmann::json::parse *)
}.

(** [load_a_JSON_file], json_tools.hpp lines 18-32 ([is_regular_file] throwing is
    [OtherError 1], a std::filesystem_error). *)
Definition load_a_JSON_file (fs : FS) (path : string) : res json :=
  if fs_is_file_throws fs path then Err (OtherError 1)
  else if negb (fs_is_file fs path) then Err StdInvalidArgument
  else match fs_open fs path with
       | None => Err StdInvalidArgument
       | Some text => match fs_parse fs text with
                      | None => Err StdInvalidArgument
                      | Some j => Val j
                      end
       end.

(** [is_valid_path], lines 84-91: can the file system be asked at all? *)
Definition is_valid_path (fs : FS) (s : string) : bool := negb (fs_is_file_throws fs s).

(** [multilevel_JSON_load], json_tools.hpp lines 82-125. *)
Definition multilevel_JSON_load (fs : FS) (j : json) (default_path : option string)
  : res json :=
  match j with
  | JNull | JArr [] | JStr EmptyString =>
      match default_path with
      | Some p => load_a_JSON_file fs p
      | None => Err InvalidArgument
      end
  | JObj _ => Val j
  | JArr (_ :: _) => Val j
  | JStr s => if is_valid_path fs s && fs_is_file fs s
              then load_a_JSON_file fs s
              else match fs_parse fs s with Some v => Val v | None => Err JsonError end
  | JBool _ | JNum _ => Err InvalidArgument
  end.

(** [JSONValidationError::errors_to_string], exceptions.hpp lines 53-61. *)
Fixpoint append_errors (delim : string) (o : string) (es : list string) : string :=
  match es with
  | [] => o
  | e :: es' => append_errors delim (o ++ (delim ++ e))%string es'
  end.
Definition errors_to_string (delim : string) (errors : list string) : string :=
  match errors with
  | [] => EmptyString
  | e0 :: es => append_errors delim e0 es
  end.
