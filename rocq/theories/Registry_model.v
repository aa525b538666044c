(** Model factory registry of [interface/CPP/teqp_impl_factory.cpp] and
    [ModelContainer] of [include/teqp/containers.hpp]. *)
From Coq Require Import Reals String List Bool Lia.
From Verif Require Import Json_model.
Import ListNotations.

Section Registry.
Variable Model : Type.

(** A factory function: builds a model from its spec or throws. *)
Definition makefunc := json -> res Model.

(** [pointer_factory] (line 52): an [unordered_map] from kind to factory. *)
Definition registry := list (string * makefunc).

(** [model_schema_library] (line 9) with the validator: kind -> the list of
    validation errors of a spec, if a schema exists for that kind. *)
Definition schemas := string -> option (json -> list string).

(** What a call of [build_model_ptr] does: which factory functions it ran on
    which specs, and its result. *)
Record built := mkBuilt { b_calls : list (string * json); b_result : res Model }.

Definition fail (e : error) : built := mkBuilt [] (Err e).

(** [build_model_ptr], teqp_impl_factory.cpp lines 101-127. *)
Definition build_model_ptr (reg : registry) (sch : schemas) (j : json) (validate : bool)
  : built :=
  match bind (j_at j "kind") j_string with
  | Err e => fail e
  | Val kind =>
    match j_at j "model" with
    | Err e => fail e
    | Val spec =>
      match lookup kind reg with
      | None => fail StdInvalidArgument
      | Some f =>
        let run := mkBuilt [(kind, spec)] (f spec) in
        match (if j_contains j "validate"
               then bind (j_at j "validate") j_bool else Val validate) with
        | Err e => fail e
        | Val do_validation =>
          if do_validation then
            match sch kind with
            | None => run
            | Some errs => match errs spec with
                           | [] => run
                           | es => fail (ValidationError es)
                           end
            end
          else run
        end
      end
    end
  end.

(** [add_model_pointer_factory_function], lines 137-144. *)
Definition add_factory (reg : registry) (key : string) (f : makefunc)
  : registry * res unit :=
  match lookup key reg with
  | None => ((key, f) :: reg, Val tt)
  | Some _ => (reg, Err InvalidArgument)
  end.

(** A history of registrations. *)
Fixpoint run_adds (reg : registry) (ops : list (string * makefunc)) : registry :=
  match ops with
  | [] => reg
  | (k, f) :: ops' => run_adds (fst (add_factory reg k f)) ops'
  end.

End Registry.
Arguments lookup {A}.

Section Container.
Variable Inst : Type.

(** [ModelContainer], containers.hpp lines 9-48: [last_id] and the map
    [modcoll].  Simplification: [mid] (size_t) does not wrap. *)
Record container := mkC { last_id : nat; modcoll : list (nat * Inst) }.
Definition empty_container := mkC 0 [].

Fixpoint find_id (id : nat) (l : list (nat * Inst)) : option Inst :=
  match l with
  | [] => None
  | (k, v) :: l' => if Nat.eqb id k then Some v else find_id id l'
  end.

(** [std::map::emplace]: keeps an existing entry. *)
Definition map_emplace (l : list (nat * Inst)) (k : nat) (v : Inst) :=
  match find_id k l with Some _ => l | None => (k, v) :: l end.

(** [new_id] and [add_model], lines 20-29. *)
Definition add_model (c : container) (v : Inst) : container * nat :=
  let uid := S (last_id c) in
  (mkC uid (map_emplace (modcoll c) uid v), uid).

(** [get_model], lines 31-33. *)
Definition get_model (c : container) (id : nat) : res Inst :=
  match find_id id (modcoll c) with Some v => Val v | None => Err StdOutOfRange end.

(** [size], line 19. *)
Definition csize (c : container) : nat := length (modcoll c).

Fixpoint add_all (c : container) (vs : list Inst) : container * list nat :=
  match vs with
  | [] => (c, [])
  | v :: vs' => let '(c1, id) := add_model c v in
                let '(c2, ids) := add_all c1 vs' in (c2, id :: ids)
  end.
End Container.
