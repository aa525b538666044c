(** Model of [include/teqp/ideal_eosterms.hpp]: the ideal-gas Helmholtz-energy terms, the
    mixture of ideal gases and the conversion of the ideal-gas part of CoolProp files.

    Doubles are reals.  [None] is undefined behaviour (an index outside an array) or a
    value that is not a finite number (a logarithm of a number that is not positive, a
    division by zero, a power that is infinite or not a number).  A power with a negative
    base counts as not a number whatever its exponent.  The gas constant [R] that every
    term stores is never used and is left out of the terms. *)
From Coq Require Import Reals ZArith String List Bool Lia.
From Verif Require Import Json_model Util_model Vec_spec Cubic_model Terms_model.
Import ListNotations.
Open Scope R_scope.

Definition clog (x : R) : option R := if Rlt_dec 0 x then Some (ln x) else None.
Definition cdiv (a b : R) : option R := if Req_EM_T b 0 then None else Some (a / b).

Inductive igterm :=
| IgConstant (a : R)                 (* lines 14-24 *)
| IgLead (a1 a2 : R)                 (* lines 58-68 *)
| IgLogT (a : R)                     (* lines 35-45 *)
| IgPowerT (n t : list R)            (* lines 73-87 *)
| IgPlanckEinstein (n theta : list R)                     (* lines 92-106 *)
| IgPlanckEinsteinGeneralized (n c d theta : list R)      (* lines 111-131 *)
| IgCosh (n theta : list R)          (* lines 138-154 *)
| IgSinh (n theta : list R)          (* lines 161-177 *)
| IgCp0Constant (c T0 : R)           (* lines 186-202 *)
| IgCp0PowerT (c t T0 : R).          (* lines 210-227 *)

(** [alphaig] of each class, lines as cited above *)
Definition igterm_alphaig (k : igterm) (T rho : R) : option R :=
  match k with
  | IgConstant a => Some a
  | IgLead a1 a2 => l <-- clog rho; q <-- cdiv a2 T; Some (l + a1 + q)
  | IgLogT a => l <-- clog T; Some (a * l)
  | IgPowerT n t => osum (length n) (fun i =>
      ni <-- nth_error n i; ti <-- nth_error t i; p <-- cpow T ti; Some (ni * p))
  | IgPlanckEinstein n theta => osum (length n) (fun i =>
      ni <-- nth_error n i; th <-- nth_error theta i; q <-- cdiv (- th) T; l <-- clog (1 - exp q); Some (ni * l))
  | IgPlanckEinsteinGeneralized n c d theta => osum (length n) (fun i =>
      ni <-- nth_error n i; ci <-- nth_error c i; di <-- nth_error d i; th <-- nth_error theta i;
      q <-- cdiv th T; l <-- clog (ci + di * exp q); Some (ni * l))
  | IgCosh n theta => osum (length n) (fun i =>
      ni <-- nth_error n i; th <-- nth_error theta i; q <-- cdiv th T; l <-- clog (Rabs (cosh q)); Some (ni * l))
  | IgSinh n theta => osum (length n) (fun i =>
      ni <-- nth_error n i; th <-- nth_error theta i; q <-- cdiv th T; l <-- clog (Rabs (sinh q)); Some (ni * l))
  | IgCp0Constant c T0 => q <-- cdiv (T - T0) T; r <-- cdiv T T0; l <-- clog r; Some (c * (q - l))
  | IgCp0PowerT c t T0 =>
      p <-- cpow T t; a <-- cdiv 1 (t + 1); b <-- cdiv 1 t; p0 <-- cpow T0 (t + 1); q <-- cdiv p0 (T * (t + 1));
      p1 <-- cpow T0 t; s <-- cdiv p1 t; Some (c * (p * (a - b) - q + s))
  end.

(** [PureIdealHelmholtz::alphaig], lines 291-299 *)
Fixpoint pure_alphaig (l : list igterm) (T rho : R) : option R :=
  match l with
  | [] => Some 0
  | k :: l' => a <-- igterm_alphaig k T rho; b <-- pure_alphaig l' T rho; Some (a + b)
  end.

(** The constructor of [PureIdealHelmholtz], lines 244-289.  Arguments of one constructor
    are read in an unspecified order; all their exceptions are JSON errors. *)
Definition build_igterm (j : json) : res igterm :=
  match j with
  | JObj _ =>
      let numk k := bind (j_at j k) j_double in
      let arr k := bind (j_at j k) (j_valarray j_double) in
      bind (j_at j "type") (fun ty =>
      match ty with
      | JStr type =>
          if String.eqb type "Constant" then bind (numk "a"%string) (fun a => Val (IgConstant a))
          else if String.eqb type "Lead" then bind (numk "a_1"%string) (fun a1 => bind (numk "a_2"%string) (fun a2 => Val (IgLead a1 a2)))
          else if String.eqb type "LogT" then bind (numk "a"%string) (fun a => Val (IgLogT a))
          else if String.eqb type "PowerT" then bind (arr "n"%string) (fun n => bind (arr "t"%string) (fun t => Val (IgPowerT n t)))
          else if String.eqb type "PlanckEinstein" then bind (arr "n"%string) (fun n => bind (arr "theta"%string) (fun th => Val (IgPlanckEinstein n th)))
          else if String.eqb type "PlanckEinsteinGeneralized" then
            bind (arr "n"%string) (fun n => bind (arr "c"%string) (fun c => bind (arr "d"%string) (fun d => bind (arr "theta"%string) (fun th =>
            Val (IgPlanckEinsteinGeneralized n c d th)))))
          else if String.eqb type "GERG2004Cosh" then bind (arr "n"%string) (fun n => bind (arr "theta"%string) (fun th => Val (IgCosh n th)))
          else if String.eqb type "GERG2004Sinh" then bind (arr "n"%string) (fun n => bind (arr "theta"%string) (fun th => Val (IgSinh n th)))
          else if String.eqb type "Cp0Constant" then bind (numk "c"%string) (fun c => bind (numk "T_0"%string) (fun T0 => Val (IgCp0Constant c T0)))
          else if String.eqb type "Cp0PowerT" then
            bind (numk "c"%string) (fun c => bind (numk "t"%string) (fun t => bind (numk "T_0"%string) (fun T0 => Val (IgCp0PowerT c t T0))))
          else Err InvalidArgument
      | _ => Err JsonError
      end)
  | _ => Err InvalidArgument
  end.
Definition build_pure_ideal (j : json) : res (list igterm) :=
  match j with
  | JArr _ => Err InvalidArgument
  | _ => bind (bind (j_at j "R") j_double) (fun _ => bind (j_at j "terms") (fun ts => map_res build_igterm (j_values ts)))
  end.

(** [IdealHelmholtz]: the constructor, lines 316-323, and [alphaig], lines 325-343 (also [alphar], 345-349) *)
Definition build_ideal (j : json) : res (list (list igterm)) :=
  match j with JArr l => map_res build_pure_ideal l | _ => Err InvalidArgument end.
Definition ideal_alphaig (pures : list (list igterm)) (T rho : R) (x : list R) : outcome R :=
  if negb (Nat.eqb (length x) (length pures)) then throws InvalidArgument
  else match osum (length pures) (fun i =>
         xi <-- nth_error x i; p <-- nth_error pures i;
         if Req_EM_T xi 0 then Some 0 else a <-- pure_alphaig p T rho; l <-- clog xi; Some (xi * (a + l)))
       with Some v => ok v | None => None end.

(** * Conversion of CoolProp files *)
Definition lift_o {A} (x : option A) : outcome A := match x with Some a => ok a | None => None end.
Definition jnums (l : list R) : json := JArr (map JNum l).
(** the entries [n[i] *= pow(Tri, t[i])], lines 407-410 *)
Fixpoint scale_power (Tri : R) (n t : list R) : option (list R) :=
  match n, t with
  | [], _ => Some []
  | ni :: n', ti :: t' => p <-- cpow Tri ti; r <-- scale_power Tri n' t'; Some (ni * p :: r)
  | _ :: _, [] => None
  end.
(** [t[i] *= -1] for [i < n.size()] *)
Fixpoint negate_first (k : nat) (t : list R) : list R :=
  match k, t with S k', ti :: t' => ti * -1 :: negate_first k' t' | _, _ => t end.
(** the loop of the polynomial heat capacity, lines 419-426 *)
Fixpoint poly_terms (Rg T0 : R) (t c : list R) : option (list json) :=
  match t, c with
  | [], _ => Some []
  | ti :: t', ci :: c' =>
      r <-- poly_terms Rg T0 t' c';
      Some ((if Req_EM_T ti 0 then JObj [("type", JStr "Cp0Constant"); ("c", JNum ci); ("T_0", JNum T0); ("R", JNum Rg)]
             else JObj [("type", JStr "Cp0PowerT"); ("c", JNum ci); ("t", JNum ti); ("T_0", JNum T0); ("R", JNum Rg)])%string :: r)
  | _ :: _, [] => None
  end.
Definition nonzero (x : R) : bool := if Rlt_dec 1e-14 (Rabs x) then true else false.
(** [CoolProp2teqp_alphaig_term_reformatter], lines 359-475 *)
Definition reformat (j : json) (Tri rhori Rg : R) : outcome (list json) :=
  let numk k := Some (bind (j_at j k) j_double) : outcome R in
  let arr k := Some (bind (j_at j k) (j_valarray j_double)) : outcome (list R) in
  obind (Some (j_at j "type")) (fun ty =>
  match ty with
  | JStr type =>
      if String.eqb type "IdealGasHelmholtzLead" then
        obind (numk "a1"%string) (fun a1 => obind (numk "a2"%string) (fun a2 => obind (lift_o (clog rhori)) (fun l =>
        ok [JObj [("type", JStr "Lead"); ("a_1", JNum (a1 - l)); ("a_2", JNum (a2 * Tri)); ("R", JNum Rg)]%string])))
      else if String.eqb type "IdealGasHelmholtzEnthalpyEntropyOffset" then
        obind (numk "a1"%string) (fun a1 => obind (numk "a2"%string) (fun a2 =>
        ok [JObj [("type", JStr "PowerT"); ("n", jnums [a1; a2 * Tri]); ("t", jnums [0; -1]); ("R", JNum Rg)]%string]))
      else if String.eqb type "IdealGasHelmholtzLogTau" then
        obind (numk "a"%string) (fun a => obind (lift_o (clog Tri)) (fun l =>
        ok [JObj [("type", JStr "Constant"); ("a", JNum (a * l)); ("R", JNum Rg)];
            JObj [("type", JStr "LogT"); ("a", JNum (- a)); ("R", JNum Rg)]]%string))
      else if String.eqb type "IdealGasHelmholtzPlanckEinstein" then
        obind (arr "n"%string) (fun n => obind (arr "t"%string) (fun t =>
        ok [JObj [("type", JStr "PlanckEinstein"); ("n", jnums n); ("theta", jnums (map (fun x => x * Tri) t)); ("R", JNum Rg)]%string]))
      else if String.eqb type "IdealGasHelmholtzPlanckEinsteinFunctionT" then
        obind (arr "n"%string) (fun n => obind (arr "v"%string) (fun v =>
        ok [JObj [("type", JStr "PlanckEinstein"); ("n", jnums n); ("theta", jnums v); ("R", JNum Rg)]%string]))
      else if String.eqb type "IdealGasHelmholtzPlanckEinsteinGeneralized" then
        obind (arr "n"%string) (fun n => obind (arr "c"%string) (fun c => obind (arr "d"%string) (fun d => obind (arr "t"%string) (fun t =>
        ok [JObj [("type", JStr "PlanckEinsteinGeneralized"); ("n", jnums n); ("c", jnums c); ("d", jnums d);
                  ("theta", jnums (map (fun x => x * Tri) t)); ("R", JNum Rg)]%string]))))
      else if String.eqb type "IdealGasHelmholtzPower" then
        obind (arr "n"%string) (fun n => obind (arr "t"%string) (fun t => obind (lift_o (scale_power Tri n t)) (fun n' =>
        ok [JObj [("type", JStr "PowerT"); ("n", jnums n'); ("t", jnums (negate_first (length n) t)); ("R", JNum Rg)]%string])))
      else if String.eqb type "IdealGasHelmholtzCP0PolyT" then
        obind (arr "t"%string) (fun t => obind (arr "c"%string) (fun c => obind (numk "T0"%string) (fun T0 =>
        lift_o (poly_terms Rg T0 t c))))
      else if String.eqb type "IdealGasHelmholtzCP0Constant" then
        (* [term.at("cp_over_R")] is copied as JSON *)
        obind (numk "T0"%string) (fun T0 => obind (Some (j_at j "cp_over_R")) (fun c =>
        ok [JObj [("type", JStr "Cp0Constant"); ("c", c); ("T_0", JNum T0); ("R", JNum Rg)]%string]))
      else if String.eqb type "IdealGasHelmholtzCP0AlyLee" then
        obind (arr "c"%string) (fun k => obind (numk "T0"%string) (fun T0 =>
        obind (lift_o (nth_error k 0)) (fun k0 => obind (lift_o (nth_error k 1)) (fun k1 =>
        obind (lift_o (if nonzero k1 then k2 <-- nth_error k 2; Some [(k1, (-2 * k2, (1, -1)))] else Some [])) (fun sinh_part =>
        obind (lift_o (nth_error k 3)) (fun k3 =>
        obind (lift_o (if nonzero k3 then k4 <-- nth_error k 4; Some [(- k3, (-2 * k4, (1, 1)))] else Some [])) (fun cosh_part =>
        let all := sinh_part ++ cosh_part in
        ok ((if nonzero k0 then [JObj [("type", JStr "Cp0Constant"); ("c", JNum k0); ("T_0", JNum T0); ("R", JNum Rg)]%string] else []) ++
            [JObj [("type", JStr "PlanckEinsteinGeneralized"); ("n", jnums (map fst all));
                   ("c", jnums (map (fun p => fst (snd (snd p))) all)); ("d", jnums (map (fun p => snd (snd (snd p))) all));
                   ("theta", jnums (map (fun p => fst (snd p)) all)); ("R", JNum Rg)]%string]))))))))
      else throws InvalidArgument
  | _ => throws JsonError
  end).

(** [convert_CoolProp_idealgas], lines 489-526.  An index past the end of the array, or a
    null, gives null (and then a JSON error); a negative index is a huge unsigned one and
    makes the array throw [std::length_error] ([OtherError 3]). *)
Definition eos_at (j : json) (index : Z) : res json :=
  match j with
  | JNull => if (index <? 0)%Z then Err (OtherError 3) else Val JNull
  | JArr l => if (index <? 0)%Z then Err (OtherError 3) else Val (nth (Z.to_nat index) l JNull)
  | _ => Err JsonError
  end.
Fixpoint reformat_all (l : list json) (Tri rhori Rg : R) : outcome (list json) :=
  match l with
  | [] => ok []
  | j :: l' => obind (reformat j Tri rhori Rg) (fun a => obind (reformat_all l' Tri rhori Rg) (fun b => ok (a ++ b)))
  end.
Definition convert_CoolProp_idealgas (fs : FS) (s : string) (index : Z) : outcome json :=
  obind (Some (match load_a_JSON_file fs s with
               | Val j => Val j
               | Err _ => match fs_parse fs s with Some j => Val j | None => Err JsonError end end)) (fun j =>
  obind (Some (bind (j_at j "EOS") (fun e => eos_at e index))) (fun e =>
  obind (Some (j_at e "alpha0")) (fun a0 =>
  obind (Some (bind (j_at e "STATES") (fun s => bind (j_at s "reducing") (fun r => bind (j_at r "T") j_double)))) (fun Tri =>
  obind (Some (bind (j_at e "STATES") (fun s => bind (j_at s "reducing") (fun r => bind (j_at r "rhomolar") j_double)))) (fun rhori =>
  obind (Some (bind (j_at e "gas_constant") j_double)) (fun Rg =>
  obind (reformat_all (j_values a0) Tri rhori Rg) (fun ts =>
  ok (JObj [("terms", JArr ts); ("R", JNum Rg)]%string)))))))).
