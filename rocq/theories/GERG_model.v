(** Model of the GERG-2004 and GERG-2008 equations of state, [include/teqp/models/GERG/GERG.hpp],
    and of their factories, [interface/CPP/model_factory_GERG.cpp].  The tables are in GERG_tables.

    Doubles are reals.  [None] is a value that is not finite (division by zero, the logarithm of a
    number that is not positive) or undefined behaviour.  Critical constants and the parameters of
    pairs are positive in all tables (see C83_tables), so that the roots, reciprocals and cube roots
    the constructor takes of them are finite. *)
From Coq Require Import Reals ZArith String List Bool.
From Verif Require Import Json_model Vec_spec Cubic_model Terms_model Ideal_model Util_model Assoc_model GERG_tables.
Import ListNotations.
Local Open Scope R_scope.

(** * Lookups *)
(** [find] in a map, keys compared as strings; the first of equal keys is kept *)
Fixpoint assoc {A} (l : list (string * A)) (k : string) : option A :=
  match l with [] => None | (k', a) :: l' => if String.eqb k' k then Some a else assoc l' k end.
Fixpoint assoc2 {A} (l : list ((string * string) * A)) (k1 k2 : string) : option A :=
  match l with [] => None | ((a, b), v) :: l' => if (String.eqb a k1 && String.eqb b k2)%bool then Some v else assoc2 l' k1 k2 end.
(** [PureInfo], lines 22-24, in SI units *)
Record pinfo := { p_rhoc : R; p_Tc : R; p_M : R }.
(** lines 461-464 and 977-980 *)
Definition pinfo_of (i : dnum * dnum * dnum) : pinfo :=
  let '(rc, Tc, M) := i in {| p_rhoc := val rc * 1000; p_Tc := val Tc; p_M := val M / 1000 |}.
(** [GERG2004::get_pure_info], lines 433-465 *)
Definition get_info04 (f : string) : res pinfo := match assoc info04 f with Some i => Val (pinfo_of i) | None => Err StdInvalidArgument end.
(** [GERG2008::get_pure_info], lines 964-986 *)
Definition get_info08 (f : string) : res pinfo := match assoc info08 f with Some i => Val (pinfo_of i) | None => get_info04 f end.
(** [AlphaigCoeffs], lines 36-38: the arrays padded so that the indices are those of the paper *)
Record icoef := { i_n0 : list R; i_th0 : list R }.
(** lines 492-504 and 1135-1147 *)
Definition icoef_of (c : list dnum * list dnum) : res icoef :=
  let '(n, th) := c in
  if negb (Nat.eqb (length n) 7) then Err StdInvalidArgument
  else if negb (Nat.eqb (length th) 4) then Err StdInvalidArgument
  else Val {| i_n0 := 0 :: map val n; i_th0 := [0; 0; 0; 0] ++ map val th |}.
(** [GERG2004::get_alphaig_coeffs], lines 468-509 *)
Definition get_ideal04 (f : string) : res icoef := match assoc ideal04 f with Some c => icoef_of c | None => Err StdInvalidArgument end.
(** [GERG2008::get_alphaig_coeffs], lines 1122-1152 *)
Definition get_ideal08 (f : string) : res icoef := match assoc ideal08 f with Some c => icoef_of c | None => get_ideal04 f end.
(** [GERG2004::get_pure_coeffs], lines 511-591 *)
Definition get_pure04 (f : string) : res pcoef :=
  match assoc n_main04 f with
  | Some n => Val (main04 n)
  | None => match assoc n_mne04 f with
    | Some n => Val (mne04 n)
    | None =>
        if String.eqb f "carbondioxide" then Val carbondioxide04
        else if String.eqb f "hydrogen" then Val hydrogen04
        else if String.eqb f "water" then Val water04
        else if String.eqb f "helium" then Val helium04
        else Err StdInvalidArgument
    end
  end.
(** [GERG2008::get_pure_coeffs], lines 1094-1120 *)
Definition get_pure08 (f : string) : res pcoef := match assoc n_main08 f with Some n => Val (main08 n) | None => get_pure04 f end.
(** [BetasGammas], lines 29-31 *)
Record bipR := { bV : R; gV : R; bT : R; gT : R }.
Definition bip_of (b : bip) : bipR := {| bV := val (b_V b); gV := val (g_V b); bT := val (b_T b); gT := val (g_T b) |}.
(** lines 758-764 and 1083-1089: in the other order the betas are inverted *)
Definition bip_back (b : bip) : bipR := {| bV := 1 / val (b_V b); gV := val (g_V b); bT := 1 / val (b_T b); gT := val (g_T b) |}.
(** [GERG2004::get_betasgammas], lines 595-766 *)
Definition get_bip04 (f1 f2 : string) : res bipR :=
  match assoc2 bip04 f1 f2 with
  | Some b => Val (bip_of b)
  | None => match assoc2 bip04 f2 f1 with Some b => Val (bip_back b) | None => Err StdInvalidArgument end
  end.
(** [GERG2008::get_betasgammas], lines 992-1092 *)
Definition get_bip08 (f1 f2 : string) : res bipR :=
  match assoc2 bip08 f1 f2 with
  | Some b => Val (bip_of b)
  | None => match assoc2 bip08 f2 f1 with Some b => Val (bip_back b) | None => get_bip04 f1 f2 end
  end.
(** [get_Fij] with [ok_missing], lines 768-802; the GERG-2008 model uses the same function *)
Definition get_F (f1 f2 : string) : option R :=
  match assoc2 F04 f1 f2 with Some v => Some (val v) | None => match assoc2 F04 f2 f1 with Some v => Some (val v) | None => None end end.
(** [get_departurecoeffs], lines 805-900: pairs are sorted and then compared, which is to compare
    them without regard to the order *)
Definition unordered (p : string * string) (f1 f2 : string) : bool :=
  ((String.eqb (fst p) f1 && String.eqb (snd p) f2) || (String.eqb (fst p) f2 && String.eqb (snd p) f1))%bool.
Definition get_dep (f1 f2 : string) : res dcoef :=
  match find (fun e => unordered (fst e) f1 f2) dep04 with
  | Some e => Val (snd e)
  | None => if existsb (fun p => unordered p f1 f2) generalized04 then Val dep_generalized else Err StdInvalidArgument
  end.
(** the functions with which the classes are made, lines 907, 932, 1160, 1187 *)
Record glib := { l_info : string -> res pinfo; l_bip : string -> string -> res bipR; l_pure : string -> res pcoef;
                 l_F : string -> string -> option R; l_dep : string -> string -> res dcoef; l_ideal : string -> res icoef }.
Definition lib04 : glib := {| l_info := get_info04; l_bip := get_bip04; l_pure := get_pure04; l_F := get_F; l_dep := get_dep; l_ideal := get_ideal04 |}.
Definition lib08 : glib := {| l_info := get_info08; l_bip := get_bip08; l_pure := get_pure08; l_F := get_F; l_dep := get_dep; l_ideal := get_ideal08 |}.

(** * Residual model *)
(** The members of [GERG200XReducing], [GERG200XCorrespondingStatesTerm] and
    [GERG200XDepartureTerm]; elements of matrices are used for i < j only *)
Record gres := { m_Tc : list R; m_vc : list R; m_bip : nat -> nat -> bipR; m_pure : list pcoef; m_F : nat -> nat -> R; m_dep : nat -> nat -> dcoef }.
Section Make.
Variable L : glib.
(** a lookup for every pair i < j, lines 153-155, 290-292 *)
Fixpoint pairs_res {B} (f : string -> string -> res B) (l : list string) : res unit :=
  match l with [] => Val tt | a :: l' => bind (map_res (f a) l') (fun _ => pairs_res f l') end.
Definition F_of (a b : string) : R := match l_F L a b with Some v => v | None => 0 end.
Definition is0 (r : R) : bool := if Req_EM_T r 0 then true else false.
(** the constructors, lines 136-174, 215-224, 287-320 and 907.  The matrices are functions of the
    names, and what throws is the lookup.  The coefficients of a departure function are looked
    up in both orders, here pair by pair *)
Definition make_gres (names : list string) : res gres :=
  let name i := nth i names EmptyString in
  bind (map_res (l_info L) names) (fun infos =>
  bind (pairs_res (l_bip L) names) (fun _ =>
  bind (map_res (l_pure L) names) (fun pures =>
  bind (pairs_res (fun a b => if is0 (F_of a b) then Val tt else bind (l_dep L a b) (fun _ => bind (l_dep L b a) (fun _ => Val tt))) names) (fun _ =>
  Val {| m_Tc := map p_Tc infos; m_vc := map (fun i => 1 / p_rhoc i) infos;
         m_bip := fun i j => match l_bip L (name i) (name j) with Val b => b | Err _ => {| bV := 1; gV := 1; bT := 1; gT := 1 |} end;
         m_pure := pures; m_F := fun i j => F_of (name i) (name j);
         m_dep := fun i j => match l_dep L (name i) (name j) with Val d => d | Err _ => dep_generalized end |})))).
End Make.
(** sums over i < j, lines 185-187 and 331-332 *)
Definition upper (n : nat) (f : nat -> nat -> R) : R := sumn n (fun i => sumn (n - S i) (fun k => f i (S i + k)%nat)).
Definition oupper (n : nat) (f : nat -> nat -> option R) : option R := osum n (fun i => osum (n - S i) (fun k => f i (S i + k)%nat)).
(** [Y], lines 179-195 *)
Definition red_Y (z Yc : list R) (beta Yij : nat -> nat -> R) : R :=
  let x i := nth i z 0 in
  sumn (length z) (fun i => x i * x i * nth i Yc 0) +
  upper (length z) (fun i j => let denom := POW2 (beta i j) * x i + x j in
    if is0 denom then 0 else 2 * x i * x j * (x i + x j) / denom * Yij i j).
(** [YT], [Yv], lines 161-164 *)
Definition YT (m : gres) (i j : nat) : R := bT (m_bip m i j) * gT (m_bip m i j) * sqrt (nth i (m_Tc m) 0 * nth j (m_Tc m) 0).
Definition Yv (m : gres) (i j : nat) : R := 1 / 8 * bV (m_bip m i j) * gV (m_bip m i j) * POW3 (cbrt (nth i (m_vc m) 0) + cbrt (nth j (m_vc m) 0)).
(** [get_Tr], [get_rhor], lines 197-205 *)
Definition get_Tr (m : gres) (z : list R) : R := red_Y z (m_Tc m) (fun i j => bT (m_bip m i j)) (YT m).
Definition get_rhor (m : gres) (z : list R) : option R := cdiv 1 (red_Y z (m_vc m) (fun i j => bV (m_bip m i j)) (Yv m)).
Definition num (l : list dnum) (i : nat) : R := val (nth i l (d_ 0 0)).
(** [GERG200XPureFluidEOS::alphar], lines 103-122; an index outside an array is undefined behaviour *)
Definition pure_alphar (p : pcoef) (tau delta : R) : outcome R :=
  let N := length (pc_n p) in
  if (Nat.eqb (length (pc_l p)) 0 && Nat.ltb 0 N)%bool then throws StdInvalidArgument
  else if negb (forallb (Nat.leb N) [length (pc_t p); length (pc_d p); length (pc_c p); length (pc_l p)]) then None
  else fin (
    lt <-- clog tau;
    if Req_EM_T delta 0 then
      Some (sumn N (fun i => num (pc_n p) i * exp (num (pc_t p) i * lt - num (pc_c p) i * delta ^ nth i (pc_l p) O) * delta ^ nth i (pc_d p) O))
    else
      ld <-- clog delta;
      Some (sumn N (fun i => num (pc_n p) i * exp (num (pc_t p) i * lt + INR (nth i (pc_d p) O) * ld - num (pc_c p) i * delta ^ nth i (pc_l p) O)))).
(** [GERG200XCorrespondingStatesTerm::alphar], lines 227-240, for the right number of fractions *)
Definition corr_alphar (m : gres) (tau delta : R) (x : list R) : outcome R :=
  osumo (length x) (fun i => obind (match nth_error (m_pure m) i with Some p => pure_alphar p tau delta | None => None end) (fun a => ok (nth i x 0 * a))).
(** [GERG200XDepartureFunction::alphar], lines 257-274 *)
Definition dep_fun (c : dcoef) (tau delta : R) : option R :=
  let N := length (dc_n c) in
  if negb (forallb (Nat.leb N) [length (dc_t c); length (dc_d c); length (dc_eta c); length (dc_beta c); length (dc_gamma c); length (dc_epsilon c)]) then None
  else
    lt <-- clog tau;
    if Req_EM_T delta 0 then
      Some (sumn N (fun i => num (dc_n c) i * exp (num (dc_t c) i * lt - num (dc_eta c) i * ((delta - num (dc_epsilon c) i) * (delta - num (dc_epsilon c) i)) - num (dc_beta c) i * (delta - num (dc_gamma c) i)) * delta ^ nth i (dc_d c) O))
    else
      ld <-- clog delta;
      Some (sumn N (fun i => num (dc_n c) i * exp (num (dc_t c) i * lt + INR (nth i (dc_d c) O) * ld - num (dc_eta c) i * ((delta - num (dc_epsilon c) i) * (delta - num (dc_epsilon c) i)) - num (dc_beta c) i * (delta - num (dc_gamma c) i)))).
(** [GERG200XDepartureTerm::alphar], lines 322-340; the number of fractions has been compared *)
Definition dep_alphar (m : gres) (tau delta : R) (x : list R) : option R :=
  oupper (length x) (fun i j => if is0 (m_F m i j) then Some 0 else d <-- dep_fun (m_dep m i j) tau delta; Some (nth i x 0 * nth j x 0 * m_F m i j * d)).
(** lines 918-923 and 1174-1179 *)
Definition gres_eval (m : gres) (T rho : R) (x : list R) : outcome R :=
  obind (fin (rr <-- get_rhor m x; delta <-- cdiv rho rr; tau <-- cdiv (get_Tr m x) T; Some (tau, delta))) (fun td =>
  let '(tau, delta) := td in
  obind (corr_alphar m tau delta x) (fun a => obind (fin (dep_alphar m tau delta x)) (fun b => ok (a + b)))).
(** [GERG2004ResidualModel::alphar], lines 914-925: the reducing functions are evaluated first, and
    read beyond the end of the critical constants if there are too many fractions; the exception
    for the wrong number comes afterwards, lines 232-234 *)
Definition gres04_alphar (m : gres) (T rho : R) (x : list R) : outcome R :=
  if Nat.ltb (length (m_Tc m)) (length x) then None
  else if Nat.ltb (length x) (length (m_Tc m)) then throws StdInvalidArgument
  else gres_eval m T rho x.
(** [GERG2008ResidualModel::alphar], lines 1167-1181 *)
Definition gres08_alphar (m : gres) (T rho : R) (x : list R) : outcome R :=
  if negb (Nat.eqb (length x) (length (m_Tc m))) then throws StdInvalidArgument else gres_eval m T rho x.
(** lines 909-912, 934-937, 1162-1165, 1189-1192 *)
Definition gerg_R : R := 8.314472.

(** * Ideal gas *)
(** lines 350-351 *)
Definition Rstar : R := 8.314510.
(** [GERG200XAlphaig], lines 343-396.  The two integration constants are functions of the rest and
    are calculated when they are needed, not in the constructor, which does not throw if they are
    not finite *)
Record gideal := { g_Tc : list R; g_rhoc : list R; g_coeffs : list icoef }.
Definition make_gideal (L : glib) (names : list string) : res gideal :=
  bind (map_res (l_info L) names) (fun infos => bind (map_res (l_ideal L) names) (fun cs =>
  Val {| g_Tc := map p_Tc infos; g_rhoc := map p_rhoc infos; g_coeffs := cs |})).
(** the exact solution of two equations in place of the QR decomposition of line 72 *)
Definition solve2 (a00 a01 a10 a11 b0 b1 : R) : option (R * R) :=
  let det := a00 * a11 - a01 * a10 in
  u <-- cdiv (b0 * a11 - a01 * b1) det; v <-- cdiv (a00 * b1 - b0 * a10) det; Some (u, v).
(** [recalc_integration_constants], lines 49-75 *)
Definition recalc (c : icoef) (T Tci rho rhoci r : R) : option (R * R) :=
  let n k := nth k (i_n0 c) 0 in let th k := nth k (i_th0 c) 0 in
  tau <-- cdiv Tci T; ltau <-- clog tau; q <-- cdiv rho rhoci; lq <-- clog q;
  let lterm (f : R -> R) k := if is0 (n k) then Some 0 else l <-- clog (Rabs (f (th k * tau))); Some (n k * l) in
  let hterm k := if is0 (n k) then Some 0 else h <-- cdiv (n k * th k * tau) (tanh (th k * tau)); Some h in
  s4 <-- lterm sinh 4%nat; s6 <-- lterm sinh 6%nat; c5 <-- lterm cosh 5%nat; c7 <-- lterm cosh 7%nat;
  h4 <-- hterm 4%nat; h6 <-- hterm 6%nat;
  let A00 := lq + r * (n 3%nat * ltau + s4 + s6 - c5 - c7) in
  let A10 := r * (n 3%nat + h4 + h6 - n 5%nat * th 5%nat * tau * tanh (th 5%nat * tau) - n 7%nat * th 7%nat * tau * tanh (th 7%nat * tau)) in
  solve2 0 (r * tau) (0 - r) (r * tau - r * tau) (- 1 - A10) (- A10 + A00).
(** lines 377-381 *)
Definition T0 : R := 298.15.
Definition p0 : R := 101325.
Definition constants (c : icoef) (Tci rhoci : R) : option (R * R) := recalc c T0 Tci (p0 / (gerg_R * T0)) rhoci (Rstar / gerg_R).
(** [alphaig_pure], lines 396-409 *)
Definition ideal_pure (c : icoef) (Tci rhoci T rho : R) : option R :=
  let n k := nth k (i_n0 c) 0 in let th k := nth k (i_th0 c) 0 in
  n12 <-- constants c Tci rhoci;
  tau <-- cdiv Tci T; ltau <-- clog tau;
  let lterm (f : R -> R) k := if is0 (th k) then Some 0 else l <-- clog (Rabs (f (th k * tau))); Some (n k * l) in
  s4 <-- lterm sinh 4%nat; s6 <-- lterm sinh 6%nat; c5 <-- lterm cosh 5%nat; c7 <-- lterm cosh 7%nat;
  q <-- cdiv rho rhoci; lq <-- clog q;
  Some (lq + Rstar / gerg_R * (fst n12 + snd n12 * tau + n 3%nat * ltau + s4 + s6 - c5 - c7)).
(** [alphaig] and [alphar] of the ideal-gas models, lines 411-423, 939-947 and 1194-1202 *)
Definition gideal_alphar (m : gideal) (T rho : R) (x : list R) : outcome R :=
  if negb (Nat.eqb (length x) (length (g_Tc m))) then throws StdInvalidArgument
  else fin (osum (length x) (fun i =>
    if Rlt_dec 0 (nth i x 0) then
      match nth_error (g_coeffs m) i with
      | Some c => a <-- ideal_pure c (nth i (g_Tc m) 0) (nth i (g_rhoc m) 0) T rho; l <-- clog (nth i x 0); Some (nth i x 0 * (a + l))
      | None => None
      end
    else Some 0)).

(** * Factories, model_factory_GERG.cpp lines 8-19 *)
Definition spec_names (spec : json) : res (list string) := bind (j_at spec "names") (j_valarray j_string).
Definition gres_factory (L : glib) (spec : json) : res gres := bind (spec_names spec) (make_gres L).
Definition gideal_factory (L : glib) (spec : json) : res gideal := bind (spec_names spec) (make_gideal L).
