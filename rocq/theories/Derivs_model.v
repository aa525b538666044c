(** Model of [include/teqp/derivs.hpp] (TDXDerivatives, VirialDerivatives) and of
    [include/teqp/cpp/derivs.hpp] (build_iteration_Jv).

    The algorithmic-differentiation libraries are external: [ad f orders xs] stands
    for [derivatives(f, wrt(...), at(xs))], the derivative of [f] of the given order
    in each of its arguments ([autodiff::Real], [HigherOrderDual], complex step and
    multicomplex are not distinguished).  Doubles are reals. *)
From Coq Require Import Reals ZArith String List Bool Ascii.
From Verif Require Import Json_model.
Import ListNotations.
Open Scope R_scope.

(** Outcome of a call that may index an Eigen array out of bounds: [None]. *)
Definition outcome (A : Type) := option (res A).

Section TDX.
Variable ad : (list R -> R) -> list nat -> list R -> R.
Variable alphar : R -> R -> list R -> R.                    (* T, rho, molefrac *)
Variable alphar_taudelta : option (R -> R -> list R -> R).  (* absent in most models *)

(** [TDXDerivatives::get_Agenxy], lines 150-235. *)
Definition get_Agenxy (iT iD : nat) (T rho : R) (z : list R) : R :=
  match iT, iD with
  | O, O => alphar T rho z
  | O, S _ => rho ^ iD * ad (fun l => match l with [r] => alphar T r z | _ => 0 end) [iD] [rho]
  | S _, O => (1 / T) ^ iT *
      ad (fun l => match l with [u] => alphar (1 / u) rho z | _ => 0 end) [iT] [1 / T]
  | S _, S _ => (1 / T) ^ iT * rho ^ iD *
      ad (fun l => match l with [u; r] => alphar (1 / u) r z | _ => 0 end) [iT; iD] [1 / T; rho]
  end.

(** [get_Ar], lines 627-682; orders are C [int]s. *)
Definition get_Ar (itau idelta : Z) (T rho : R) (z : list R) : res R :=
  if (itau =? 0)%Z then
    if (idelta =? 0)%Z then Val (get_Agenxy 0 0 T rho z)
    else if (idelta =? 1)%Z then Val (get_Agenxy 0 1 T rho z)
    else if (idelta =? 2)%Z then Val (get_Agenxy 0 2 T rho z)
    else if (idelta =? 3)%Z then Val (get_Agenxy 0 3 T rho z)
    else Err StdInvalidArgument
  else if (itau =? 1)%Z then
    if (idelta =? 0)%Z then Val (get_Agenxy 1 0 T rho z)
    else if (idelta =? 1)%Z then Val (get_Agenxy 1 1 T rho z)
    else if (idelta =? 2)%Z then Val (get_Agenxy 1 2 T rho z)
    else Err StdInvalidArgument
  else if (itau =? 2)%Z then
    if (idelta =? 0)%Z then Val (get_Agenxy 2 0 T rho z)
    else if (idelta =? 1)%Z then Val (get_Agenxy 2 1 T rho z)
    else Err StdInvalidArgument
  else if (itau =? 3)%Z then
    if (idelta =? 0)%Z then Val (get_Agenxy 3 0 T rho z)
    else Err StdInvalidArgument
  else Err StdInvalidArgument.

(** [get_neff], lines 684-690. *)
Definition get_neff (T rho : R) (z : list R) : R :=
  -3 * (get_Agenxy 0 1 T rho z - get_Agenxy 1 1 T rho z) / get_Agenxy 2 0 T rho z.

(** [get_Agen0n] and [get_Agenn0], lines 543-597: all orders up to [n]. *)
Definition get_Agen0n (n : nat) (T rho : R) (z : list R) : list R :=
  map (fun k => rho ^ k * ad (fun l => match l with [r] => alphar T r z | _ => 0 end) [k] [rho])
      (seq 0 (S n)).
Definition get_Agenn0 (n : nat) (T rho : R) (z : list R) : list R :=
  map (fun k => (1 / T) ^ k *
         ad (fun l => match l with [u] => alphar (1 / u) rho z | _ => 0 end) [k] [1 / T])
      (seq 0 (S n)).

(** [DerivativeHolderSquare<2>], lines 1513-1538; entries that the constructor
    does not write are [None]. *)
Definition deriv_mat2 (T rho : R) (z : list R) (i j : nat) : option R :=
  match i, j with
  | 0%nat, 0%nat => nth_error (get_Agenn0 2 T rho z) 0   (* written twice, the second write wins *)
  | 0%nat, 1%nat => nth_error (get_Agen0n 2 T rho z) 1
  | 0%nat, 2%nat => nth_error (get_Agen0n 2 T rho z) 2
  | 1%nat, 0%nat => nth_error (get_Agenn0 2 T rho z) 1
  | 2%nat, 0%nat => nth_error (get_Agenn0 2 T rho z) 2
  | 1%nat, 1%nat => Some (get_Agenxy 1 1 T rho z)
  | _, _ => None
  end.

(** [molefracdual[i] = xi_]. *)
Fixpoint upd (i : nat) (v : R) (z : list R) : list R :=
  match z, i with
  | [], _ => []
  | _ :: z', O => v :: z'
  | x :: z', S i' => x :: upd i' v z'
  end.

(** An [int] index into the mole fractions; [None] when out of bounds. *)
Definition index (z : list R) (i : Z) : option nat :=
  if ((0 <=? i) && (i <? Z.of_nat (length z)))%Z then Some (Z.to_nat i) else None.

(** Lines 247-259, 423-439, 448-466: [get_ATrhoXi], [get_ATrhoXiXj], [get_ATrhoXiXjXk]. *)
Definition get_ATrhoXi (iT iD iXi : nat) (T rho : R) (z : list R) (i : Z) : outcome R :=
  match index z i with
  | None => None
  | Some i' => Some (Val ((1 / T) ^ iT * rho ^ iD *
      ad (fun l => match l with [u; r; xi] => alphar (1 / u) r (upd i' xi z) | _ => 0 end)
         [iT; iD; iXi] [1 / T; rho; nth i' z 0]))
  end.
Definition get_ATrhoXiXj (iT iD iXi iXj : nat) (T rho : R) (z : list R) (i j : Z) : outcome R :=
  if (i =? j)%Z then Some (Err InvalidArgument) else
  match index z i, index z j with
  | Some i', Some j' => Some (Val ((1 / T) ^ iT * rho ^ iD *
      ad (fun l => match l with
                   | [u; r; xi; xj] => alphar (1 / u) r (upd j' xj (upd i' xi z)) | _ => 0 end)
         [iT; iD; iXi; iXj] [1 / T; rho; nth i' z 0; nth j' z 0]))
  | _, _ => None
  end.
Definition get_ATrhoXiXjXk (iT iD iXi iXj iXk : nat) (T rho : R) (z : list R) (i j k : Z) : outcome R :=
  if ((i =? j) || (j =? k) || (i =? k))%Z then Some (Err InvalidArgument) else
  match index z i, index z j, index z k with
  | Some i', Some j', Some k' => Some (Val ((1 / T) ^ iT * rho ^ iD *
      ad (fun l => match l with
                   | [u; r; xi; xj; xk] => alphar (1 / u) r (upd k' xk (upd j' xj (upd i' xi z)))
                   | _ => 0 end)
         [iT; iD; iXi; iXj; iXk] [1 / T; rho; nth i' z 0; nth j' z 0; nth k' z 0]))
  | _, _, _ => None
  end.

(** The X-macro tables, lines 261-284, 294-309, 319-331. *)
Definition ATrhoXi_combinations : list (list nat) :=
  [[0;0;1]; [0;0;2]; [0;0;3];
   [1;0;0]; [1;0;1]; [1;0;2]; [1;0;3];
   [0;1;0]; [0;1;1]; [0;1;2]; [0;1;3];
   [2;0;0]; [2;0;1]; [2;0;2]; [2;0;3];
   [1;1;0]; [1;1;1]; [1;1;2]; [1;1;3];
   [0;2;0]; [0;2;1]; [0;2;2]; [0;2;3]]%nat.
Definition ATrhoXiXj_combinations : list (list nat) :=
  [[0;0;1;0]; [0;0;2;0]; [0;0;0;1]; [0;0;0;2]; [0;0;1;1];
   [1;0;1;0]; [1;0;2;0]; [1;0;0;1]; [1;0;0;2]; [1;0;1;1];
   [0;1;1;0]; [0;1;2;0]; [0;1;0;1]; [0;1;0;2]; [0;1;1;1]]%nat.
Definition ATrhoXiXjXk_combinations : list (list nat) :=
  [[0;0;0;1;1]; [0;0;1;0;1]; [0;0;1;1;0]; [0;0;1;1;1];
   [1;0;0;1;1]; [1;0;1;0;1]; [1;0;1;1;0]; [1;0;1;1;1];
   [0;1;0;1;1]; [0;1;1;0;1]; [0;1;1;1;0]; [0;1;1;1;1]]%nat.

(** [if (iT == a && iD == b && ...)] for a table entry. *)
Fixpoint matches (req : list Z) (entry : list nat) : bool :=
  match req, entry with
  | [], [] => true
  | r :: req', e :: entry' => ((r =? Z.of_nat e)%Z && matches req' entry')%bool
  | _, _ => false
  end.
(** The generated chain of [if]s: the first matching entry is called. *)
Fixpoint dispatch (tab : list (list nat)) (req : list Z) (call : list nat -> outcome R) : outcome R :=
  match tab with
  | [] => Some (Err InvalidArgument)
  | e :: tab' => if matches req e then call e else dispatch tab' req call
  end.

(** [get_ATrhoXi_runtime] etc., lines 286-292, 311-317, 333-339. *)
Definition get_ATrhoXi_runtime (T : R) (iT : Z) (rho : R) (iD : Z) (z : list R) (i iXi : Z) : outcome R :=
  dispatch ATrhoXi_combinations [iT; iD; iXi]
    (fun e => match e with [a; b; c] => get_ATrhoXi a b c T rho z i | _ => None end).
Definition get_ATrhoXiXj_runtime (T : R) (iT : Z) (rho : R) (iD : Z) (z : list R) (i iXi j iXj : Z) : outcome R :=
  dispatch ATrhoXiXj_combinations [iT; iD; iXi; iXj]
    (fun e => match e with [a; b; c; d] => get_ATrhoXiXj a b c d T rho z i j | _ => None end).
Definition get_ATrhoXiXjXk_runtime (T : R) (iT : Z) (rho : R) (iD : Z) (z : list R) (i iXi j iXj k iXk : Z)
  : outcome R :=
  dispatch ATrhoXiXjXk_combinations [iT; iD; iXi; iXj; iXk]
    (fun f => match f with [a; b; c; d; e] => get_ATrhoXiXjXk a b c d e T rho z i j k | _ => None end).

(** [AlpharTauDeltaCaller], lines 133-140: the overload without an
    [alphar_taudelta] method throws. *)
Definition get_AtaudeltaXi (iT iD iXi : nat) (tau delta : R) (z : list R) (i : Z) : outcome R :=
  match index z i with
  | None => None
  | Some i' => match alphar_taudelta with
    | None => Some (Err NotImplemented)
    | Some f => Some (Val (tau ^ iT * delta ^ iD *
        ad (fun l => match l with [t; d; xi] => f t d (upd i' xi z) | _ => 0 end)
           [iT; iD; iXi] [tau; delta; nth i' z 0]))
    end
  end.
(** [get_AtaudeltaXiXj], lines 354-369, and [get_AtaudeltaXiXjXk], lines 371-387. *)
Definition get_AtaudeltaXiXj (iT iD iXi iXj : nat) (tau delta : R) (z : list R) (i j : Z) : outcome R :=
  if (i =? j)%Z then Some (Err InvalidArgument) else
  match index z i, index z j with
  | Some i', Some j' => match alphar_taudelta with
    | None => Some (Err NotImplemented)
    | Some f => Some (Val (tau ^ iT * delta ^ iD *
        ad (fun l => match l with [t; d; xi; xj] => f t d (upd j' xj (upd i' xi z)) | _ => 0 end)
           [iT; iD; iXi; iXj] [tau; delta; nth i' z 0; nth j' z 0]))
    end
  | _, _ => None
  end.
Definition get_AtaudeltaXiXjXk (iT iD iXi iXj iXk : nat) (tau delta : R) (z : list R) (i j k : Z) : outcome R :=
  if ((i =? j) || (j =? k) || (i =? k))%Z then Some (Err InvalidArgument) else
  match index z i, index z j, index z k with
  | Some i', Some j', Some k' => match alphar_taudelta with
    | None => Some (Err NotImplemented)
    | Some f => Some (Val (tau ^ iT * delta ^ iD *
        ad (fun l => match l with
                     | [t; d; xi; xj; xk] => f t d (upd k' xk (upd j' xj (upd i' xi z)))
                     | _ => 0 end)
           [iT; iD; iXi; iXj; iXk] [tau; delta; nth i' z 0; nth j' z 0; nth k' z 0]))
    end
  | _, _, _ => None
  end.
(** [get_AtaudeltaXi_runtime], lines 389-398: here the order (0,0,0) is served too. *)
Definition get_AtaudeltaXi_runtime (tau : R) (iT : Z) (delta : R) (iD : Z) (z : list R) (i iXi : Z) : outcome R :=
  if ((iT =? 0) && (iD =? 0) && (iXi =? 0))%Z then
    match alphar_taudelta with
    | None => Some (Err NotImplemented)
    | Some f => Some (Val (f tau delta z))
    end
  else
  dispatch ATrhoXi_combinations [iT; iD; iXi]
    (fun e => match e with [a; b; c] => get_AtaudeltaXi a b c tau delta z i | _ => None end).
(** [get_AtaudeltaXiXj_runtime], lines 400-406, and [get_AtaudeltaXiXjXk_runtime], lines 408-414. *)
Definition get_AtaudeltaXiXj_runtime (tau : R) (iT : Z) (delta : R) (iD : Z) (z : list R) (i iXi j iXj : Z)
  : outcome R :=
  dispatch ATrhoXiXj_combinations [iT; iD; iXi; iXj]
    (fun e => match e with [a; b; c; d] => get_AtaudeltaXiXj a b c d tau delta z i j | _ => None end).
Definition get_AtaudeltaXiXjXk_runtime (tau : R) (iT : Z) (delta : R) (iD : Z) (z : list R)
  (i iXi j iXj k iXk : Z) : outcome R :=
  dispatch ATrhoXiXjXk_combinations [iT; iD; iXi; iXj; iXk]
    (fun f => match f with
              | [a; b; c; d; e] => get_AtaudeltaXiXjXk a b c d e tau delta z i j k | _ => None end).

End TDX.

(** ** [build_iteration_Jv], cpp/derivs.hpp lines 25-94 *)

Record row := mkrow { row_v : R; row_J0 : R; row_J1 : R }.

Definition build_row (A : nat -> nat -> R) (Rg T rho : R) (var : ascii) : option row :=
  let Trecip := 1 / T in
  let dTrecipdT := - Trecip * Trecip in
  let alpha := A 0%nat 0%nat in
  let dalphadTrecip := A 1%nat 0%nat / Trecip in
  let dalphadrho := A 0%nat 1%nat / rho in
  let d2alphadTrecip2 := A 2%nat 0%nat / (Trecip * Trecip) in
  let d2alphadTrecipdrho := A 1%nat 1%nat / (Trecip * rho) in
  let d2alphadrho2 := A 0%nat 2%nat / (rho * rho) in
  let a := alpha * Rg * T in
  let dadTrecip := Rg / (Trecip * Trecip) * (Trecip * dalphadTrecip - alpha) in
  let d2adTrecip2 := Rg / (Trecip * Trecip * Trecip) *
        (Trecip * Trecip * d2alphadTrecip2 - 2 * Trecip * dalphadTrecip + 2 * alpha) in
  let dadrho := Rg / Trecip * dalphadrho in
  let d2adrho2 := Rg / Trecip * d2alphadrho2 in
  let d2adTrecipdrho := Rg / (Trecip * Trecip) * (Trecip * d2alphadTrecipdrho - dalphadrho) in
  if (var =? "T")%char then Some (mkrow T 1 0)
  else if (var =? "D")%char then Some (mkrow rho 0 1)
  else if (var =? "P")%char then
    Some (mkrow (rho * rho * dadrho)
                (rho * rho * d2adTrecipdrho * dTrecipdT)
                (rho * rho * d2adrho2 + 2 * rho * dadrho))
  else if (var =? "S")%char then
    Some (mkrow (Trecip * Trecip * dadTrecip)
                ((Trecip * Trecip * d2adTrecip2 + 2 * Trecip * dadTrecip) * dTrecipdT)
                (Trecip * Trecip * d2adTrecipdrho))
  else if (var =? "H")%char then
    Some (mkrow (a + Trecip * dadTrecip + rho * dadrho)
                ((Trecip * d2adTrecip2 + rho * d2adTrecipdrho + 2 * dadTrecip) * dTrecipdT)
                (Trecip * d2adTrecipdrho + rho * d2adrho2 + 2 * dadrho))
  else if (var =? "U")%char then
    Some (mkrow (a + Trecip * dadTrecip)
                ((Trecip * d2adTrecip2 + 2 * dadTrecip) * dTrecipdT)
                (Trecip * d2adTrecipdrho + dadrho))
  else None.

(** The loop over [vars]; a third valid variable writes outside the 2x2
    Jacobian ([None]). *)
Fixpoint Jv_loop (A : nat -> nat -> R) (Rg T rho : R) (i : nat) (vars : list ascii) : outcome (list row) :=
  match vars with
  | [] => Some (Val [])
  | c :: vars' =>
      match build_row A Rg T rho c with
      | None => Some (Err StdInvalidArgument)
      | Some r =>
          if Nat.leb 2 i then None else
          match Jv_loop A Rg T rho (S i) vars' with
          | None => None
          | Some (Err e) => Some (Err e)
          | Some (Val rs) => Some (Val (r :: rs))
          end
      end
  end.
Definition build_iteration_Jv (vars : list ascii) (A : nat -> nat -> R) (Rg T rho : R) (z : list R)
  : outcome (list row) := Jv_loop A Rg T rho 0 vars.

(** ** [VirialDerivatives], derivs.hpp lines 693-868 *)

Section Virial.
Variable ad : (list R -> R) -> list nat -> list R -> R.
Variable alphar : R -> R -> list R -> R.

Definition in_rho (T : R) (z : list R) (l : list R) : R :=
  match l with [r] => alphar T r z | _ => 0 end.

(** [get_B2vir], lines 696-701 (complex step = exact derivative). *)
Definition get_B2vir (T : R) (z : list R) : R := ad (in_rho T z) [1%nat] [0].

(** [get_Bnvir<N>], lines 713-752: the map from n to B_n, n = 2..N;
    [tgamma(n-2+1) = (n-2)!]. *)
Definition get_Bnvir (N : nat) (T : R) (z : list R) : list (nat * R) :=
  map (fun n => (n, let d := ad (in_rho T z) [(n - 1)%nat] [0] in
                    if Nat.ltb 3 n then d / INR (fact (n - 2)) else d))
      (seq 2 (N - 1)).
(** [get_Bnvir_runtime], lines 756-769. *)
Definition get_Bnvir_runtime (N : Z) (T : R) (z : list R) : res (list (nat * R)) :=
  if ((2 <=? N) && (N <=? 9))%Z then Val (get_Bnvir (Z.to_nat N) T z) else Err StdInvalidArgument.

(** [get_dmBnvirdTm<N,m>], lines 783-812. *)
Definition get_dmBnvirdTm (N m : nat) (T : R) (z : list R) : R :=
  ad (fun l => match l with [t; r] => alphar t r z | _ => 0 end) [m; (N - 1)%nat] [T; 0]
  / INR (fact (N - 2)).
(** [get_dmBnvirdTm_runtime], lines 816-849. *)
Definition get_dmBnvirdTm_runtime (N m : Z) (T : R) (z : list R) : res R :=
  if ((2 <=? N) && (N <=? 4))%Z then
    if (m =? 0)%Z then
      match find (fun nb => Nat.eqb (fst nb) (Z.to_nat N)) (get_Bnvir (Z.to_nat N) T z) with
      | Some (_, b) => Val b | None => Val 0 (* std::map operator[] default *)
      end
    else if ((1 <=? m) && (m <=? 3))%Z then Val (get_dmBnvirdTm (Z.to_nat N) (Z.to_nat m) T z)
    else Err StdInvalidArgument
  else Err StdInvalidArgument.

(** [get_B12vir], lines 856-867. *)
Definition get_B12vir (T : R) (z : list R) : res R :=
  match z with
  | [z0; z1] =>
      let B2 := get_B2vir T z in
      let B20 := get_B2vir T [1; 0] in
      let B21 := get_B2vir T [0; 1] in
      Val ((B2 - z0 * z0 * B20 - (1 - z0) * (1 - z0) * B21) / (2 * z0 * (1 - z0)))
  | _ => Err StdInvalidArgument
  end.
End Virial.
