(** What the theorems about ideal gases speak of. *)
From Coq Require Import Reals String List.
From Coquelicot Require Import Coquelicot.
From Verif Require Import Json_model Vec_spec.
Import ListNotations.
Open Scope R_scope.

(** A part [f] of the ideal-gas Helmholtz energy divided by RT contributes the heat
    capacity [cp] (divided by R): cp = - tau^2 (d^2 f / d tau^2) = - (T^2 f'' + 2 T f'). *)
Definition has_cp (f cp : R -> R) : Prop :=
  exists f1 f2 : R -> R, forall T, 0 < T ->
    is_derive f T (f1 T) /\ is_derive f1 T (f2 T) /\ cp T = - (T * T * f2 T + 2 * T * f1 T).

Definition kind_is (j : json) (type : string) : Prop := j_at j "type" = Val (JStr type).
Definition number (j : json) (k : string) (v : R) : Prop := j_at j k = Val (JNum v).
Definition numbers (j : json) (k : string) (l : list R) : Prop := j_at j k = Val (JArr (map JNum l)).
Definition over (n : list R) (f : nat -> R) : R := sumn (length n) (fun i => nth i n 0 * f i).

(** The documented terms: the JSON, the value at (T, rho) and the heat capacity. *)
Inductive documented : json -> (R -> R -> R) -> (R -> R) -> Prop :=
| doc_Constant : forall j a, kind_is j "Constant" -> number j "a" a ->
    documented j (fun _ _ => a) (fun _ => 0)
| doc_Lead : forall j a1 a2, kind_is j "Lead" -> number j "a_1" a1 -> number j "a_2" a2 ->
    documented j (fun T rho => ln rho + a1 + a2 / T) (fun _ => 0)
| doc_LogT : forall j a, kind_is j "LogT" -> number j "a" a ->
    documented j (fun T _ => a * ln T) (fun _ => - a)
| doc_PowerT : forall j n t, kind_is j "PowerT" -> numbers j "n" n -> numbers j "t" t -> length t = length n ->
    documented j (fun T _ => over n (fun i => Rpower T (nth i t 0)))
      (fun T => - over n (fun i => nth i t 0 * (nth i t 0 + 1) * Rpower T (nth i t 0)))
| doc_PlanckEinstein : forall j n th, kind_is j "PlanckEinstein" -> numbers j "n" n -> numbers j "theta" th ->
    length th = length n -> (forall i, (i < length n)%nat -> 0 < nth i th 0) ->
    documented j (fun T _ => over n (fun i => ln (1 - exp (- nth i th 0 / T))))
      (fun T => over n (fun i => (nth i th 0 / T) ^ 2 * exp (nth i th 0 / T) / (exp (nth i th 0 / T) - 1) ^ 2))
| doc_Generalized : forall j n c d th, kind_is j "PlanckEinsteinGeneralized" -> numbers j "n" n -> numbers j "c" c -> numbers j "d" d ->
    numbers j "theta" th -> length c = length n -> length d = length n -> length th = length n ->
    (forall i T, (i < length n)%nat -> 0 < T -> 0 < nth i c 0 + nth i d 0 * exp (nth i th 0 / T)) ->
    documented j (fun T _ => over n (fun i => ln (nth i c 0 + nth i d 0 * exp (nth i th 0 / T))))
      (fun T => - over n (fun i => (nth i th 0 / T) ^ 2 * nth i c 0 * nth i d 0 * exp (nth i th 0 / T) /
                                   (nth i c 0 + nth i d 0 * exp (nth i th 0 / T)) ^ 2))
| doc_Cosh : forall j n th, kind_is j "GERG2004Cosh" -> numbers j "n" n -> numbers j "theta" th -> length th = length n ->
    documented j (fun T _ => over n (fun i => ln (Rabs (cosh (nth i th 0 / T)))))
      (fun T => - over n (fun i => (nth i th 0 / T / cosh (nth i th 0 / T)) ^ 2))
| doc_Sinh : forall j n th, kind_is j "GERG2004Sinh" -> numbers j "n" n -> numbers j "theta" th -> length th = length n ->
    (forall i, (i < length n)%nat -> nth i th 0 <> 0) ->
    documented j (fun T _ => over n (fun i => ln (Rabs (sinh (nth i th 0 / T)))))
      (fun T => over n (fun i => (nth i th 0 / T / sinh (nth i th 0 / T)) ^ 2))
| doc_Cp0Constant : forall j c T0, kind_is j "Cp0Constant" -> number j "c" c -> number j "T_0" T0 -> 0 < T0 ->
    documented j (fun T _ => c * ((T - T0) / T - ln (T / T0))) (fun _ => c)
| doc_Cp0PowerT : forall j c t T0, kind_is j "Cp0PowerT" -> number j "c" c -> number j "t" t -> number j "T_0" T0 -> 0 < T0 ->
    t <> 0 -> t <> -1 ->
    documented j (fun T _ => c * (Rpower T t * (1 / (t + 1) - 1 / t) - Rpower T0 (t + 1) / (T * (t + 1)) + Rpower T0 t / t))
      (fun T => c * Rpower T t).

(** ** CoolProp's terms
    A heat capacity [cp] (divided by R) and a reference temperature: enthalpy and entropy
    are integrated from the reference temperature. *)
Definition from_cp (cp : R -> R) (T0 T : R) : R := RInt cp T0 T / T - RInt (fun s => cp s / s) T0 T.
(** the JSON and the value, at tau = Tr / T and delta = rho / rhor *)
Inductive coolprop (Tr rhor : R) : json -> (R -> R -> R) -> Prop :=
| cp_Lead : forall j a1 a2, kind_is j "IdealGasHelmholtzLead" -> number j "a1" a1 -> number j "a2" a2 ->
    coolprop Tr rhor j (fun T rho => ln (rho / rhor) + a1 + a2 * (Tr / T))
| cp_Offset : forall j a1 a2, kind_is j "IdealGasHelmholtzEnthalpyEntropyOffset" -> number j "a1" a1 -> number j "a2" a2 ->
    coolprop Tr rhor j (fun T _ => a1 + a2 * (Tr / T))
| cp_LogTau : forall j a, kind_is j "IdealGasHelmholtzLogTau" -> number j "a" a ->
    coolprop Tr rhor j (fun T _ => a * ln (Tr / T))
| cp_PlanckEinstein : forall j n t, kind_is j "IdealGasHelmholtzPlanckEinstein" -> numbers j "n" n -> numbers j "t" t ->
    length t = length n -> (forall i, (i < length n)%nat -> 0 < nth i t 0) ->
    coolprop Tr rhor j (fun T _ => over n (fun i => ln (1 - exp (- nth i t 0 * (Tr / T)))))
| cp_FunctionT : forall j n v, kind_is j "IdealGasHelmholtzPlanckEinsteinFunctionT" -> numbers j "n" n -> numbers j "v" v ->
    length v = length n -> (forall i, (i < length n)%nat -> 0 < nth i v 0) ->
    coolprop Tr rhor j (fun T _ => over n (fun i => ln (1 - exp (- nth i v 0 / T))))
| cp_Generalized : forall j n c d t, kind_is j "IdealGasHelmholtzPlanckEinsteinGeneralized" -> numbers j "n" n -> numbers j "c" c ->
    numbers j "d" d -> numbers j "t" t -> length c = length n -> length d = length n -> length t = length n ->
    (forall i tau, (i < length n)%nat -> 0 < tau -> 0 < nth i c 0 + nth i d 0 * exp (nth i t 0 * tau)) ->
    coolprop Tr rhor j (fun T _ => over n (fun i => ln (nth i c 0 + nth i d 0 * exp (nth i t 0 * (Tr / T)))))
| cp_Power : forall j n t, kind_is j "IdealGasHelmholtzPower" -> numbers j "n" n -> numbers j "t" t -> length t = length n ->
    coolprop Tr rhor j (fun T _ => over n (fun i => Rpower (Tr / T) (nth i t 0)))
| cp_PolyT : forall j c t T0, kind_is j "IdealGasHelmholtzCP0PolyT" -> numbers j "c" c -> numbers j "t" t -> number j "T0" T0 ->
    length t = length c -> 0 < T0 -> (forall i, (i < length c)%nat -> nth i t 0 <> -1) ->
    coolprop Tr rhor j (fun T _ => from_cp (fun s => over c (fun i => Rpower s (nth i t 0))) T0 T)
| cp_Constant : forall j c T0, kind_is j "IdealGasHelmholtzCP0Constant" -> number j "cp_over_R" c -> number j "T0" T0 -> 0 < T0 ->
    coolprop Tr rhor j (fun T _ => from_cp (fun _ => c) T0 T).
(** The heat capacity of Aly and Lee. *)
Definition Aly_Lee (A B C D E T : R) : R := A + B * (C / T / sinh (C / T)) ^ 2 + D * (E / T / cosh (E / T)) ^ 2.

(** the sum of the values of a list of terms *)
Definition total (l : list (R -> R -> R)) (T rho : R) : R := fold_right (fun v s => v T rho + s) 0 l.
Definition total1 (l : list (R -> R)) (T : R) : R := fold_right (fun v s => v T + s) 0 l.
