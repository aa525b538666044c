(** What the GERG-2004 and GERG-2008 equations of state are (Kunz et al., GERG TM15, 2007; Kunz
    and Wagner, J. Chem. Eng. Data 57, 3032, 2012), in terms of tables that are data here, and the
    tables of the reference implementation as such data.  Nothing here is taken from the model. *)
From Coq Require Import Reals ZArith String List Bool.
From Verif Require Import Vec_spec GERG_tables GERG_reference.
Import ListNotations.
Local Open Scope R_scope.

(** ** The equation *)
(** one term of a pure fluid: n, t, d, c, without an exponential if c = 0 *)
Definition pterm : Type := R * R * nat * nat.
(** one term of a departure function: n, t, d, eta, epsilon, beta, gamma *)
Definition dterm : Type := R * R * nat * R * R * R * R.
Record gdata := {
  s_Tc : string -> R; s_rhoc : string -> R;
  s_bT : string -> string -> R; s_gT : string -> string -> R; s_bv : string -> string -> R; s_gv : string -> string -> R;
  s_pure : string -> list pterm;
  s_F : string -> string -> R; s_dep : string -> string -> list dterm }.
Definition lsum {A} (f : A -> R) (l : list A) : R := fold_right (fun a s => f a + s) 0 l.
Definition pterm_val (tau delta : R) (p : pterm) : R :=
  let '(n, t, d, c) := p in n * delta ^ d * Rpower tau t * (if Nat.eqb c 0 then 1 else exp (- delta ^ c)).
Definition dterm_val (tau delta : R) (p : dterm) : R :=
  let '(n, t, d, eta, eps, beta, gamma) := p in n * delta ^ d * Rpower tau t * exp (- eta * (delta - eps) ^ 2 - beta * (delta - gamma)).
Section Equation.
Variable D : gdata.
Variable names : list string.
Variable x : list R.
Let N := length names.
Let name i := nth i names EmptyString.
Let xi i := nth i x 0.
(** the weight of a pair in the reducing functions *)
Definition weight (beta xi xj : R) : R := (xi + xj) / (beta ^ 2 * xi + xj).
Definition Tred : R := sumn N (fun i => sumn N (fun j =>
  xi i * xi j * s_bT D (name i) (name j) * s_gT D (name i) (name j) * weight (s_bT D (name i) (name j)) (xi i) (xi j) * sqrt (s_Tc D (name i) * s_Tc D (name j)))).
Definition third (v : R) : R := Rpower v (1 / 3).
Definition vred : R := sumn N (fun i => sumn N (fun j =>
  xi i * xi j * s_bv D (name i) (name j) * s_gv D (name i) (name j) * weight (s_bv D (name i) (name j)) (xi i) (xi j) * ((third (1 / s_rhoc D (name i)) + third (1 / s_rhoc D (name j))) ^ 3 / 8))).
(** every pair counts once in the departure, so half of the sum over ordered pairs *)
Definition reduced (tau delta : R) : R :=
  sumn N (fun i => xi i * lsum (pterm_val tau delta) (s_pure D (name i))) +
  / 2 * sumn N (fun i => sumn N (fun j => xi i * xi j * s_F D (name i) (name j) * lsum (dterm_val tau delta) (s_dep D (name i) (name j)))).
Definition gerg (T rho : R) : R := reduced (Tred / T) (rho * vred).
End Equation.

(** ** Tables of decimal numbers as such data *)
(** critical temperature in K and density in mol/dm3; the parameters of a pair, and whether they are
    for this order or for the other one; the terms of pure fluids; the factor of the departure
    function of a pair with its terms *)
Record tables := {
  t_Tc : string -> dnum; t_rhoc : string -> dnum; t_pair : string -> string -> bip * bool;
  t_pure : string -> list (dnum * dnum * nat * nat);
  t_excess : string -> string -> option (dnum * list (dnum * dnum * nat * dnum * dnum * dnum * dnum)) }.
(** gamma does not depend on the order, beta is inverted in the other order *)
Definition directed (b : dnum) (forward : bool) : R := if forward then val b else / val b.
Definition dterm_of (e : dnum * dnum * nat * dnum * dnum * dnum * dnum) : dterm :=
  let '(n, t, d, eta, eps, beta, gamma) := e in (val n, val t, d, val eta, val eps, val beta, val gamma).
Definition pterm_of (e : dnum * dnum * nat * nat) : pterm := let '(n, t, d, c) := e in (val n, val t, d, c).
Definition data_of (t : tables) : gdata := {|
  s_Tc := fun f => val (t_Tc t f);
  s_rhoc := fun f => 1000 * val (t_rhoc t f);
  s_bT := fun f1 f2 => directed (b_T (fst (t_pair t f1 f2))) (snd (t_pair t f1 f2));
  s_gT := fun f1 f2 => val (g_T (fst (t_pair t f1 f2)));
  s_bv := fun f1 f2 => directed (b_V (fst (t_pair t f1 f2))) (snd (t_pair t f1 f2));
  s_gv := fun f1 f2 => val (g_V (fst (t_pair t f1 f2)));
  s_pure := fun f => map pterm_of (t_pure t f);
  s_F := fun f1 f2 => match t_excess t f1 f2 with Some (F, _) => val F | None => 0 end;
  s_dep := fun f1 f2 => match t_excess t f1 f2 with Some (_, l) => map dterm_of l | None => [] end |}.
Definition unit_bip : bip := {| b_V := d_ 1 0; g_V := d_ 1 0; b_T := d_ 1 0; g_T := d_ 1 0 |}.

(** *** The tables of the reference implementation *)
Fixpoint position (f : string) (l : list string) : nat := match l with [] => O | g :: l' => if String.eqb g f then O else S (position f l') end.
(** its numbers start from one *)
Definition number (f : string) : nat := S (position f ref_names).
Definition at1 {A} (d : A) (l : list A) (f : string) : A := nth (position f ref_names) l d.
Definition pair_is (i j : nat) {A} (e : (nat * nat) * A) : bool := (Nat.eqb (fst (fst e)) i && Nat.eqb (snd (fst e)) j)%bool.
Definition look {A} (l : list ((nat * nat) * A)) (i j : nat) : option A := option_map snd (find (pair_is i j) l).
(** it has parameters for i < j *)
Definition ref_pair (f1 f2 : string) : bip * bool :=
  match look ref_bip (number f1) (number f2) with
  | Some b => (b, true)
  | None => match look ref_bip (number f2) (number f1) with Some b => (b, false) | None => (unit_bip, true) end
  end.
Definition ref_excess_of (f1 f2 : string) : option (dnum * nat) :=
  match look ref_F (number f1) (number f2) with Some e => Some e | None => look ref_F (number f2) (number f1) end.
Definition ref_dterms (k : nat) : list (dnum * dnum * nat * dnum * dnum * dnum * dnum) := match find (fun e => Nat.eqb (fst e) k) ref_excess with Some e => snd e | None => [] end.
Definition reference : tables := {|
  t_Tc := at1 (d_ 1 0) ref_Tc; t_rhoc := at1 (d_ 1 0) ref_Dc; t_pair := ref_pair; t_pure := at1 [] ref_pure;
  t_excess := fun f1 f2 => match ref_excess_of f1 f2 with Some (F, k) => Some (F, ref_dterms k) | None => None end |}.
Definition ref_data : gdata := data_of reference.

(** *** The tables in the code: the first entry with the key, for a pair in either order *)
Definition keyed {A} (d : A) (l : list (string * A)) (f : string) : A := match find (fun e => String.eqb (fst e) f) l with Some e => snd e | None => d end.
Definition same_pair (f1 f2 : string) {A} (e : (string * string) * A) : bool :=
  ((String.eqb (fst (fst e)) f1 && String.eqb (snd (fst e)) f2) || (String.eqb (fst (fst e)) f2 && String.eqb (snd (fst e)) f1))%bool.
(** the terms of arrays; c times the power l is the exponent, c is 0 or 1 *)
Definition pterms (p : pcoef) : list (dnum * dnum * nat * nat) :=
  map (fun i => (nth i (pc_n p) (d_ 0 0), nth i (pc_t p) (d_ 0 0), nth i (pc_d p) O, if Z.eqb (dm (nth i (pc_c p) (d_ 0 0))) 0 then O else nth i (pc_l p) O)) (seq 0 (length (pc_n p))).
Definition dterms (c : dcoef) : list (dnum * dnum * nat * dnum * dnum * dnum * dnum) :=
  map (fun i => let g l := nth i l (d_ 0 0) in (g (dc_n c), g (dc_t c), nth i (dc_d c) O, g (dc_eta c), g (dc_epsilon c), g (dc_beta c), g (dc_gamma c))) (seq 0 (length (dc_n c))).
Definition code_tables (info : list (string * (dnum * dnum * dnum))) (pair : list ((string * string) * bip)) (pure : list (string * pcoef)) : tables := {|
  t_Tc := fun f => snd (fst (keyed (d_ 1 0, d_ 1 0, d_ 1 0) info f));
  t_rhoc := fun f => fst (fst (keyed (d_ 1 0, d_ 1 0, d_ 1 0) info f));
  t_pair := fun f1 f2 => match find (same_pair f1 f2) pair with Some e => (snd e, String.eqb (fst (fst e)) f1) | None => (unit_bip, true) end;
  t_pure := fun f => pterms (keyed helium04 pure f);
  t_excess := fun f1 f2 => match find (same_pair f1 f2) F04, find (same_pair f1 f2) (dep04 ++ map (fun p => (p, dep_generalized)) generalized04) with
    | Some F, Some c => Some (snd F, dterms (snd c)) | _, _ => None end |}.
Definition pure04 : list (string * pcoef) :=
  map (fun e => (fst e, main04 (snd e))) n_main04 ++ map (fun e => (fst e, mne04 (snd e))) n_mne04 ++
  [("carbondioxide", carbondioxide04); ("hydrogen", hydrogen04); ("water", water04); ("helium", helium04)]%string.
Definition tables04 : tables := code_tables info04 bip04 pure04.
Definition tables08 : tables := code_tables (info08 ++ info04) (bip08 ++ bip04) (map (fun e => (fst e, main08 (snd e))) n_main08 ++ pure04).

(** ** The ideal gas: n3 to n7 and theta4 to theta7 of a component *)
Definition gerg_ideal (rstar_r n1 n2 : R) (n th : nat -> R) (Tc rhoc T rho : R) : R :=
  let tau := Tc / T in
  ln (rho / rhoc) + rstar_r * (n1 + n2 * tau + n 3%nat * ln tau
    + n 4%nat * ln (Rabs (sinh (th 4%nat * tau))) - n 5%nat * ln (cosh (th 5%nat * tau))
    + n 6%nat * ln (Rabs (sinh (th 6%nat * tau))) - n 7%nat * ln (cosh (th 7%nat * tau))).

(** n1 to n7 and theta4 to theta7 as listed in a table *)
Definition ideal_n (t : list (string * (list dnum * list dnum))) (f : string) (k : nat) : R := val (nth (k - 1) (fst (keyed ([], []) t f)) (d_ 0 0)).
Definition ideal_th (t : list (string * (list dnum * list dnum))) (f : string) (k : nat) : R := val (nth (k - 4) (snd (keyed ([], []) t f)) (d_ 0 0)).
(** the gas constant of the coefficients relative to that of the model *)
Definition gas_ratio : R := 8.314510 / 8.314472.
Definition ideal_gas (t : list (string * (list dnum * list dnum))) (D : gdata) (n1 n2 : string -> R) (f : string) (T rho : R) : R :=
  gerg_ideal gas_ratio (n1 f) (n2 f) (ideal_n t f) (ideal_th t f) (s_Tc D f) (s_rhoc D f) T rho.
(** ideal mixing; components with fractions that are not positive do not take part *)
Definition ideal_mix (a : string -> R -> R -> R) (names : list string) (x : list R) (T rho : R) : R :=
  sumn (length names) (fun i => if Rlt_dec 0 (nth i x 0) then nth i x 0 * (a (nth i names EmptyString) T rho + ln (nth i x 0)) else 0).
(** the reference state: 298.15 K, the ideal gas at 101325 Pa *)
Definition T_ref : R := 298.15.
Definition rho_ref : R := 101325 / (8.314472 * T_ref).

(** ** States: fractions that are not negative and not all zero *)
Definition fractions (n : nat) (x : list R) : Prop := length x = n /\ (forall i, (i < n)%nat -> 0 <= nth i x 0) /\ exists i, (i < n)%nat /\ 0 < nth i x 0.
