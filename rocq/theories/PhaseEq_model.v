(** Model of [include/teqp/algorithms/phase_equil.hpp].

    [ad] is the algorithmic-differentiation library (as in [Derivs_model]); the residual
    model and the optional ideal-gas model are given by their [alpha] and gas constant.
    [None]: the process is terminated (a [throw;] outside a handler) or memory outside an
    array is accessed (the assertions of the matrix library are off in release builds). *)
From Coq Require Import Reals ZArith List Bool.
From Verif Require Import Json_model Derivs_model Iso_model.
Import ListNotations.
Open Scope R_scope.

(** ** Variables: lines 345-364, 400-411 *)
Record unpacked := { u_T : R; u_rhovecs : list (list R); u_betas : list R }.
(** [pack], lines 351-363: the sizes come from [betas] and the first phase *)
Definition pack (u : unpacked) : option (list R) :=
  match u_rhovecs u with
  | [] => None
  | r0 :: _ =>
      let Nphases := length (u_betas u) in
      let phases := firstn Nphases (u_rhovecs u) in
      if Nat.leb Nphases (length (u_rhovecs u)) && forallb (fun r => Nat.eqb (length r) (length r0)) phases
      then Some (u_T u :: concat phases ++ u_betas u) else None
  end.
(** the [Map]s of [call] *)
Definition T_of (x : list R) : R := nth 0 x 0.
Definition rho_of (Nc : nat) (x : list R) (ph : nat) : list R := map (fun i => nth (1 + ph * Nc + i) x 0) (seq 0 Nc).
Definition beta_of (Nc Nph : nat) (x : list R) (ph : nat) : R := nth (1 + Nc * Nph + ph) x 0.
(** the size of the unknowns, line 389 *)
Definition Nindependent (Nc Nph : nat) : nat := 1 + (Nc + 1) * Nph.
(** a row of the Jacobian: temperature, concentrations of the phases, phase fractions *)
Definition flat (Nc Nph : nat) (jT : R) (jrho : nat -> nat -> R) (jb : nat -> R) : list R :=
  jT :: concat (map (fun ph => map (jrho ph) (seq 0 Nc)) (seq 0 Nph)) ++ map jb (seq 0 Nph).

(** lines 321-339 *)
Definition get_Ncomponents (rhovecs : list (list R)) : option nat :=
  match nodup Nat.eq_dec (map (@length R) rhovecs) with
  | [n] => if Nat.eqb n 0 then None else Some n
  | _ => None
  end.

(** The specification equations, lines 103-316. *)
Inductive spec :=
| TSpecification (T : R) | BetaSpecification (beta : R) (iphase : nat) | PSpecification (p : R)
| MolarVolumeSpecification (v : R) | MolarEntropySpecification (s : R)
| MolarInternalEnergySpecification (u : R) | MolarEnthalpySpecification (h : R).

Record gpe := { g_z : list R; g_Nc : nat; g_Nph : nat; g_specs : list spec }.
(** the constructor, lines 382-400 *)
Definition make_gpe (zbulk : list R) (init : unpacked) (specs : list spec) : outcome gpe :=
  match get_Ncomponents (u_rhovecs init) with
  | None => None
  | Some Nc =>
      if negb (Nat.eqb (length (u_betas init)) (length (u_rhovecs init))) then Some (Err InvalidArgument)
      else if negb (Nat.eqb (length specs) 2) then Some (Err InvalidArgument)
      else Some (Val {| g_z := zbulk; g_Nc := Nc; g_Nph := length (u_betas init); g_specs := specs |})
  end.

Section PhaseEq.
Variable ad : (list R -> R) -> list nat -> list R -> R.
Variable alphar : R -> R -> list R -> R.
Variable Rgas : list R -> R.
Variable ideal : option ((R -> R -> list R -> R) * (list R -> R)).   (* idealgasptr *)

(** ** Lines 13-33, 416-430 *)
Section Phase.
Variable R0 : R.   (* residptr.get_R(zbulk) *)
Variable T : R.
Variable rhovec : list R.
Definition q_rho : R := vsum rhovec.
Definition q_Psir : R := get_Psir alphar Rgas T rhovec.
Definition q_grad : list R := build_Psir_gradient ad alphar Rgas T rhovec.
Definition q_Hess : list (list R) := build_Psir_Hessian ad alphar Rgas T rhovec.
Definition q_dT : R := q_rho * R0 * (- get_Agenxy ad alphar 1 0 T q_rho (molefrac_of rhovec)) + q_Psir / T.
Definition q_graddT : list R := build_d2PsirdTdrhoi ad alphar Rgas T rhovec.
Definition q_p : R := q_rho * R0 * T - q_Psir + vdot rhovec q_grad.
Definition q_dpdT : R := q_rho * R0 - q_dT + vdot rhovec q_graddT.
(** [rhovec^T * Hessian], component j *)
Definition q_dpdrho (j : nat) : R := R0 * T + vsum (each rhovec (fun i => nth i rhovec 0 * nth j (nth i q_Hess []) 0)).
(** lines 440-444, 448-452 *)
Definition q_lnf (i : nat) : R := ln (nth i rhovec 0 * R0 * T) + 1 / (R0 * T) * nth i q_grad 0.
Definition q_dlnfdT (i : nat) : R := 1 / T + 1 / (R0 * T) * nth i q_graddT 0 - 1 / (R0 * T * T) * nth i q_grad 0.
Definition q_dlnfdrho (i j : nat) : R :=
  (if Nat.eqb i j then 1 / nth i rhovec 0 else 0) + 1 / (R0 * T) * nth j (nth i q_Hess []) 0.

(** ** Lines 35-84, 525-543: caloric properties with the ideal-gas model (aig, Rig) *)
Variable aig : R -> R -> list R -> R.
Variable Rig : list R -> R.
Definition c_Psi : R := get_Agenxy ad aig 0 0 T q_rho (molefrac_of rhovec) * R0 * T * q_rho.
Definition c_dT : R := q_rho * R0 * (- get_Agenxy ad aig 1 0 T q_rho (molefrac_of rhovec)) + c_Psi / T.
Definition c_d2T : R := q_rho * R0 / T * get_Agenxy ad aig 2 0 T q_rho (molefrac_of rhovec).
Definition c_d2Tr : R := q_rho * R0 / T * get_Agenxy ad alphar 2 0 T q_rho (molefrac_of rhovec).
Definition c_grad (i : nat) : R := nth i (build_Psir_gradient ad aig Rig T rhovec) 0.
Definition c_graddT (i : nat) : R := nth i (build_d2PsirdTdrhoi ad aig Rig T rhovec) 0.
Definition c_s : R := - 1 / q_rho * (c_dT + q_dT).
Definition c_dsdT : R := - 1 / q_rho * (c_d2T + c_d2Tr).
Definition c_dsdrho (i : nat) : R :=
  - 1 / q_rho * (c_graddT i + nth i q_graddT 0) + 1 / q_rho / q_rho * (c_dT + q_dT).
Definition c_a : R := (c_Psi + q_Psir) / q_rho.
Definition c_dadT : R := 1 / q_rho * (c_dT + q_dT).
Definition c_dadrho (i : nat) : R := 1 / q_rho * (c_grad i + nth i q_grad 0) - 1 / q_rho / q_rho * (c_Psi + q_Psir).
Definition c_u : R := c_a + T * c_s.
Definition c_dudT : R := c_dadT + c_s + T * c_dsdT.
Definition c_dudrho (i : nat) : R := c_dadrho i + T * c_dsdrho i.
Definition c_h : R := c_u + q_p / q_rho.
Definition c_dhdT : R := c_dudT + q_dpdT / q_rho.
Definition c_dhdrho (i : nat) : R := c_dudrho i + q_dpdrho i / q_rho - q_p / q_rho / q_rho.
End Phase.

(** sum over the phases *)
Definition sum_phases (Nph : nat) (f : nat -> R) : R := vsum (map f (seq 0 Nph)).

(** A caloric specification, lines 186-316: overall value and its derivatives. *)
Definition caloric_row (Nc Nph : nat) (x : list R) (target : R) (v dvdT : nat -> R) (dvdrho : nat -> nat -> R) : R * list R :=
  (sum_phases Nph (fun ph => beta_of Nc Nph x ph * v ph) - target,
   flat Nc Nph (sum_phases Nph (fun ph => beta_of Nc Nph x ph * dvdT ph))
     (fun ph i => beta_of Nc Nph x ph * dvdrho ph i) v).

(** [r_Jacobian] of the specifications, lines 103-316 *)
Definition spec_row (R0 : R) (Nc Nph : nat) (x : list R) (s : spec) : outcome (R * list R) :=
  let T := T_of x in
  let rho := rho_of Nc x in
  match s with
  | TSpecification T0 => Some (Val (T - T0, flat Nc Nph 1 (fun _ _ => 0) (fun _ => 0)))
  | BetaSpecification b k =>
      if Nat.ltb k Nph then
        Some (Val (beta_of Nc Nph x k - b, flat Nc Nph 0 (fun _ _ => 0) (fun ph => if Nat.eqb ph k then 1 else 0)))
      else None
  | PSpecification p =>
      Some (Val (q_p R0 T (rho 0%nat) - p,
                 flat Nc Nph (q_dpdT R0 T (rho 0%nat)) (fun ph j => if Nat.eqb ph 0 then q_dpdrho R0 T (rho 0%nat) j else 0) (fun _ => 0)))
  | MolarVolumeSpecification v =>
      Some (Val (sum_phases Nph (fun ph => beta_of Nc Nph x ph / q_rho (rho ph)) - v,
                 flat Nc Nph 0 (fun ph _ => - beta_of Nc Nph x ph / q_rho (rho ph) / q_rho (rho ph))
                   (fun ph => 1 / q_rho (rho ph))))
  | MolarEntropySpecification s0 =>
      match ideal with
      | None => Some (Err InvalidArgument)
      | Some (aig, Rig) =>
          Some (Val (caloric_row Nc Nph x s0 (fun ph => c_s R0 T (rho ph) aig) (fun ph => c_dsdT R0 T (rho ph) aig)
                       (fun ph => c_dsdrho R0 T (rho ph) aig Rig)))
      end
  | MolarInternalEnergySpecification u0 =>
      match ideal with
      | None => Some (Err InvalidArgument)
      | Some (aig, Rig) =>
          Some (Val (caloric_row Nc Nph x u0 (fun ph => c_u R0 T (rho ph) aig) (fun ph => c_dudT R0 T (rho ph) aig)
                       (fun ph => c_dudrho R0 T (rho ph) aig Rig)))
      end
  | MolarEnthalpySpecification h0 =>
      match ideal with
      | None => Some (Err InvalidArgument)
      | Some (aig, Rig) =>
          Some (Val (caloric_row Nc Nph x h0 (fun ph => c_h R0 T (rho ph) aig) (fun ph => c_dhdT R0 T (rho ph) aig)
                       (fun ph => c_dhdrho R0 T (rho ph) aig Rig)))
      end
  end.

(** ** [call], lines 406-583 *)
(** equality of the logarithms of the fugacities, lines 432-475; the loop over the blocks
    of the row runs over the number of components *)
Definition lnf_rows (R0 : R) (Nc Nph : nat) (x : list R) : list (R * list R) :=
  let T := T_of x in
  let rho := rho_of Nc x in
  concat (map (fun ph => map (fun i =>
    (q_lnf R0 T (rho 0%nat) i - q_lnf R0 T (rho ph) i,
     flat Nc Nph (q_dlnfdT R0 T (rho 0%nat) i - q_dlnfdT R0 T (rho ph) i)
       (fun phj j => if Nat.ltb phj Nc then
          (if Nat.eqb phj 0 then q_dlnfdrho R0 T (rho 0%nat) i j else - q_dlnfdrho R0 T (rho ph) i j) else 0)
       (fun _ => 0))) (seq 0 Nc)) (seq 1 (Nph - 1))).
(** equality of the pressures, lines 477-499 *)
Definition p_rows (R0 : R) (Nc Nph : nat) (x : list R) : list (R * list R) :=
  let T := T_of x in
  let rho := rho_of Nc x in
  map (fun ph =>
    (q_p R0 T (rho 0%nat) - q_p R0 T (rho ph),
     flat Nc Nph (q_dpdT R0 T (rho 0%nat) - q_dpdT R0 T (rho ph))
       (fun phj j => if Nat.eqb phj 0 then q_dpdrho R0 T (rho 0%nat) j else - q_dpdrho R0 T (rho ph) j)
       (fun _ => 0))) (seq 1 (Nph - 1)).
(** material balances, lines 501-516 *)
Definition balance_rows (Nc Nph : nat) (zbulk x : list R) : list (R * list R) :=
  let rho := rho_of Nc x in
  map (fun i =>
    (sum_phases Nph (fun ph => beta_of Nc Nph x ph * (nth i (rho ph) 0 / vsum (rho ph))) - nth i zbulk 0,
     flat Nc Nph 0
       (fun ph j => beta_of Nc Nph x ph * ((if Nat.eqb i j then 1 else 0) - nth i (rho ph) 0 / vsum (rho ph)) / vsum (rho ph))
       (fun ph => nth i (rho ph) 0 / vsum (rho ph)))) (seq 0 (Nc - 1)).
(** sum of the phase fractions, lines 518-521 *)
Definition sum_row (Nc Nph : nat) (x : list R) : R * list R :=
  (sum_phases Nph (beta_of Nc Nph x) - 1, flat Nc Nph 0 (fun _ _ => 0) (fun _ => 1)).

Definition always_rows (R0 : R) (Nc Nph : nat) (zbulk x : list R) : list (R * list R) :=
  lnf_rows R0 Nc Nph x ++ p_rows R0 Nc Nph x ++ balance_rows Nc Nph zbulk x ++ [sum_row Nc Nph x].

Fixpoint spec_rows (R0 : R) (Nc Nph : nat) (x : list R) (l : list spec) : outcome (list (R * list R)) :=
  match l with
  | [] => Some (Val [])
  | s :: l' =>
      match spec_row R0 Nc Nph x s with
      | None => None
      | Some (Err e) => Some (Err e)
      | Some (Val rw) =>
          match spec_rows R0 Nc Nph x l' with
          | None => None | Some (Err e) => Some (Err e) | Some (Val rows) => Some (Val (rw :: rows))
          end
      end
  end.

(** residual vector and Jacobian *)
Definition call (g : gpe) (x : list R) : outcome (list R * list (list R)) :=
  let Nc := g_Nc g in
  let Nph := g_Nph g in
  if negb (Nat.eqb (length x) (Nindependent Nc Nph)) then Some (Err InvalidArgument) else
  if Nat.ltb 1 Nph && Nat.ltb Nph Nc then None else   (* J.block(irow, 1+Nphases*Ncomp, Ncomp, Ncomp) *)
  if Nat.ltb (length (g_z g)) (Nc - 1) then None else
  let R0 := Rgas (g_z g) in
  match spec_rows R0 Nc Nph x (g_specs g) with
  | None => None
  | Some (Err e) => Some (Err e)
  | Some (Val rows) =>
      let all := always_rows R0 Nc Nph (g_z g) x ++ rows in
      Some (Val (map fst all, map snd all))
  end.
End PhaseEq.
