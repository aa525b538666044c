(** [include/teqp/cpp/deriv_adapter.hpp]: the holders of models behind the interface, and the derivatives
    in extended precision. *)
From Coq Require Import Reals ZArith List Bool.
From Verif Require Import Json_model Cubic_model Numerics_model.
Import ListNotations.
Local Open Scope R_scope.

(** * Objects and holders *)
(** Types of models are numbers; a type expression says whether it is [const]. *)
Record ty := { ty_const : bool; ty_of : nat }.
(** Lines 20-42: [Owner<ModelType>] and [ConstViewer<ModelType>] *)
Inductive holder := Owner (t : ty) | Viewer (t : ty).
(** Memory: the model of some type at an address, if it is alive; what a model is made of is left open *)
Definition memory (V : Type) := nat -> option (nat * V).
Definition update {V} (m : memory V) (l : nat) (o : option (nat * V)) : memory V := fun k => if Nat.eqb k l then o else m k.
(** [DerivativeAdapter<ModelPack>], lines 97-106: its type and the address of the model it refers to *)
Record adapter := { ad_holder : holder; ad_model : nat }.

(** [own], lines 225-228, and [make_owned], lines 230-233. The argument of [Owner o(std::move(tp))] is a
    [const TemplatedModel&&] whatever was given, so that the argument deduced for the class template is
    [const TemplatedModel]; the member is a copy (line 28), at the address [fresh]. *)
Definition make_owned {V} (m : memory V) (l fresh : nat) : option (memory V * adapter) :=
  match m l with
  | None => None
  | Some (t, v) => Some (update m fresh (Some (t, v)), {| ad_holder := Owner {| ty_const := true; ty_of := t |}; ad_model := fresh |})
  end.
(** [view], lines 221-224, and [make_cview], lines 235-238: a reference to the argument *)
Definition make_cview {V} (m : memory V) (l : nat) : option (memory V * adapter) :=
  match m l with
  | None => None
  | Some (t, v) => Some (m, {| ad_holder := Viewer {| ty_const := true; ty_of := t |}; ad_model := l |})
  end.
Definition ty_eqb (a b : ty) : bool := Bool.eqb (ty_const a) (ty_const b) && Nat.eqb (ty_of a) (ty_of b).
Definition is_viewer (t : ty) (a : adapter) : bool := match ad_holder a with Viewer t' => ty_eqb t t' | Owner _ => false end.
Definition is_owner (t : ty) (a : adapter) : bool := match ad_holder a with Owner t' => ty_eqb t t' | Viewer _ => false end.
(** [get_model_cref<ModelType>], lines 245-263; [None] is the null pointer. [const ModelType] is [const]
    whether [ModelType] is or not. *)
Definition get_model_cref (t : ty) (am : option adapter) : res nat :=
  match am with
  | None => Err InvalidArgument
  | Some a => let ct := {| ty_const := true; ty_of := ty_of t |} in
      if is_viewer ct a then Val (ad_model a) else if is_owner ct a then Val (ad_model a) else Err InvalidArgument
  end.
(** [get_model_ref<ModelType>], lines 270-283 *)
Definition get_model_ref (t : ty) (am : option adapter) : res nat :=
  match am with
  | None => Err InvalidArgument
  | Some a => if is_owner t a then Val (ad_model a) else Err InvalidArgument
  end.
(** [get_type_index], lines 108-110, of the holder's [typeid(ModelType)] (lines 28 and 41), which ignores
    [const] *)
Definition get_type_index (a : adapter) : nat := match ad_holder a with Owner t | Viewer t => ty_of t end.
(** Evaluation through the interface: the model that is referred to; undefined when it is gone *)
Definition held {V} (m : memory V) (a : adapter) : option (nat * V) := m (ad_model a).
(** What a caller does to objects: assignment to a live one, end of life, a new one elsewhere *)
Inductive action (V : Type) := Assign (l : nat) (v : V) | Destroy (l : nat) | Create (l t : nat) (v : V).
Arguments Assign {V}. Arguments Destroy {V}. Arguments Create {V}.
Definition target {V} (c : action V) : nat := match c with Assign l _ | Destroy l | Create l _ _ => l end.
Definition act {V} (m : memory V) (c : action V) : memory V :=
  match c with
  | Assign l v => match m l with Some (t, _) => update m l (Some (t, v)) | None => m end
  | Destroy l => update m l None
  | Create l t v => update m l (Some (t, v))
  end.
Definition acts {V} (m : memory V) (cs : list (action V)) : memory V := fold_left act cs m.

(** * Derivatives in extended precision *)
(** [get_Ar01ep], [get_Ar02ep], [get_Ar03ep], lines 141-167: numbers of 100 digits are reals; the increment
    is 1e-16 of the density; without density the quotient is 0/0 *)
Definition get_Ar0nep (n : nat) (alphar : R -> R -> list R -> R) (T rho : R) (z : list R) : outcome R :=
  if Req_EM_T rho 0 then None
  else Some (bind (centered_diff (Z.of_nat n) 4 (fun r => alphar T r z) rho (1e-16 * rho)) (fun d => Val (rho ^ n * d))).
(** [AbstractModel::get_neff], AbstractModel_implementation.cpp lines 10-12, of the three derivatives *)
Definition neff (Ar01 Ar11 Ar20 : R) : R := -3 * (Ar01 - Ar11) / Ar20.
