(** What the theorems about the optimisation of parameters speak of. *)
From Coq Require Import Reals String Ascii List Decimal DecimalString.
From Verif Require Import Json_model Float_model Optim_model.
Import ListNotations.

(** ** Places in a JSON document *)
(** the decimal text of a number *)
Definition decimal (n : nat) : string := NilZero.string_of_uint (Nat.to_uint n).
(** [at_path p j v]: following the keys and indices of [p] from [j] leads to [v] *)
Inductive at_path : list string -> json -> json -> Prop :=
  | at_here : forall j, at_path [] j j
  | at_key : forall k p l c v, lookup k l = Some c -> at_path p c v -> at_path (k :: p) (JObj l) v
  | at_index : forall i p l c v, nth_error l i = Some c -> at_path p c v -> at_path (decimal i :: p) (JArr l) v.
Definition prefix (p q : list string) : Prop := exists r, q = p ++ r.
Definition apart (p q : list string) : Prop := ~ prefix p q /\ ~ prefix q p.
(** objects with the same keys, arrays of the same length *)
Definition same_shape (a b : json) : Prop :=
  match a, b with
  | JObj l, JObj l' => map fst l = map fst l'
  | JArr l, JArr l' => length l = length l'
  | _, _ => a = b
  end.

(** ** Escaped tokens: ~ is written ~0 and / is written ~1 *)
Fixpoint escape (s : string) : string :=
  match s with
  | EmptyString => EmptyString
  | String c r => if Ascii.eqb c "~" then String "~" (String "0" (escape r)) else if Ascii.eqb c "/" then String "~" (String "1" (escape r)) else String c (escape r)
  end.
Fixpoint pointer_text (p : list string) : string := match p with [] => EmptyString | t :: p => String "/" (append (escape t) (pointer_text p)) end.
