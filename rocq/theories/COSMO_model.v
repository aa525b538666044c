(** Model of COSMO-SAC, [include/teqp/models/activity/COSMOSAC.hpp], and of its branch of
    [ares_model_factory] in [include/teqp/models/activity/activity_models.hpp].

    Doubles are reals; [None] is a value that is not finite, an index outside an array or arrays of
    different sizes.  The charge densities of the 51 segments are exact (in the code the middle one
    is zero up to rounding).  An array of the 153 segments is a function on 0..152: 51 times the kind
    (not hydrogen bonding, OH, other) and the number of the charge density. *)
From Coq Require Import Reals ZArith String List Bool.
From Verif Require Import Json_model Vec_spec Cubic_model Terms_model Ideal_model Assoc_model.
Import ListNotations.
Local Open Scope R_scope.

(** [FluidSigmaProfiles], lines 33-37: of the profiles the second columns; the first ones are stored and not used *)
Record profiles := { s_nhb : list R; s_oh : list R; s_ot : list R }.
(** lines 39-46 *)
Definition q0 : R := 79.53.
Definition r0 : R := 66.69.
Definition z_coordination : R := 10.
(** lines 50-67 *)
Record constants := { k_AEFF : R; k_OH_OH : R; k_OT_OT : R; k_OH_OT : R; k_A_ES : R; k_B_ES : R; k_R : R; k_tol : R; k_fast : bool }.
Definition default_constants : constants :=
  {| k_AEFF := 7.25; k_OH_OH := 4013.78; k_OT_OT := 932.31; k_OH_OT := 3016.43; k_A_ES := 6525.69; k_B_ES := 1.4859e8;
     k_R := 1.38064903e-23 * 6.022140758e23 / 4184; k_tol := 1e-8; k_fast := true |}.
(** [profile_type], line 69 *)
Inductive kind := NHB | OH | OT.
Definition kind_of (t : nat) : kind := match t with O => NHB | 1%nat => OH | _ => OT end.
Definition profile (p : profiles) (t : kind) : list R := match t with NHB => s_nhb p | OH => s_oh p | OT => s_ot p end.

(** [get_nonzero_bounds], lines 88-101 *)
Definition is_seg (r : R) : bool := if Rlt_dec (/ 10 ^ 16) (Rabs r) then true else false.
Fixpoint first_seg (l : list R) (i : nat) : nat := match l with [] => O | r :: l' => if is_seg r then i else first_seg l' (S i) end.
(** downwards from the end, not as far as [lo] *)
Fixpoint last_seg (l : list R) (lo i : nat) : nat :=
  match i with
  | O => length l
  | S i' => if Nat.ltb lo i' then if is_seg (nth i' l 0) then i' else last_seg l lo i' else length l
  end.
Definition bounds_of (l : list R) : nat * nat := let lo := first_seg l O in (lo, last_seg l lo (length l)).
Definition nonzero_bounds (ps : list (list R)) : nat * nat :=
  fold_left (fun b l => (Nat.min (fst (bounds_of l)) (fst b), Nat.max (snd (bounds_of l)) (snd b))) ps (51%nat, O).
(** the class and its constructor, lines 71-85 *)
Record cosmo := { c_A : list R; c_V : list R; c_profiles : list profiles; c_const : constants; c_left : nat; c_w : nat }.
(** [psigma], line 29: division by the area *)
Definition scaled (l : list R) (a : R) : list R := map (fun r => r / a) l.
Definition make_cosmo (A V : list R) (ps : list profiles) (k : constants) : option cosmo :=
  if Nat.ltb (length A) (length ps) then None
  else if existsb (fun a => if Req_EM_T a 0 then true else false) (firstn (length ps) A) then None
  else let '(l, r) := nonzero_bounds (map (fun pa => scaled (s_nhb (fst pa)) (snd pa)) (combine ps A)) in
    Some {| c_A := A; c_V := V; c_profiles := ps; c_const := k; c_left := l; c_w := r - l + 1 |}.

Section COSMO.
Variable c : cosmo.
Let N := length (c_profiles c).
Definition prof (i : nat) : profiles := nth i (c_profiles c) {| s_nhb := []; s_oh := []; s_ot := [] |}.
Definition area (i : nat) : R := nth i (c_A c) 0.
(** a profile of all 153 segments; every part must have 51 *)
Definition sizes_ok (p : profiles) : bool := (Nat.eqb (length (s_nhb p)) 51 && Nat.eqb (length (s_oh p)) 51 && Nat.eqb (length (s_ot p)) 51)%bool.
Definition all_segments (p : profiles) (j : nat) : R := nth (j mod 51) (profile p (kind_of (j / 51))) 0.
(** [get_psigma_mix], lines 103-120, for the three kinds *)
Definition psigma_mix (x : list R) : option (nat -> R) :=
  if Nat.ltb N (length x) then None
  else if negb (forallb (fun i => sizes_ok (prof i)) (seq 0 (length x))) then None
  else if Req_EM_T (sumn (length x) (fun i => nth i x 0 * area i)) 0 then None
  else Some (fun j => sumn (length x) (fun i => nth i x 0 * all_segments (prof i) j) / sumn (length x) (fun i => nth i x 0 * area i)).
(** [get_c_hb], lines 127-147 *)
Definition c_hb (t s : kind) : R :=
  match t, s with
  | OH, OH => k_OH_OH (c_const c)
  | OT, OT => k_OT_OT (c_const c)
  | OH, OT => k_OH_OT (c_const c)
  | OT, OH => k_OH_OT (c_const c)
  | _, _ => 0
  end.
(** [get_DELTAW], lines 148-163, and [get_DELTAW_fast], lines 164-179, which has the same elements in
    the window.  [get_AA], lines 181-193, is not called and not modelled *)
Definition charge_at (m : nat) : R := - 0.025 + 2 * 0.025 / 50 * INR m.
Definition DELTAW (T : R) (t s : kind) (m n : nat) : R :=
  let hb := if Rle_dec 0 (charge_at m * charge_at n) then 0 else c_hb t s in
  (k_A_ES (c_const c) + k_B_ES (c_const c) / (T * T)) * (charge_at m + charge_at n) ^ 2 - hb * (charge_at m - charge_at n) ^ 2.
(** the Boltzmann factors, lines 227 and 258, without the profile *)
Definition factor (T : R) (i j : nat) : R :=
  exp (- DELTAW T (kind_of (i / 51)) (kind_of (j / 51)) (i mod 51) (j mod 51) / (k_R (c_const c) * T)).
(** the loops of lines 228-243 and 263-289: [upd] the segments that are updated, [tot] the sums of
    rows; on the last of 501 turns there is an exception *)
Fixpoint gamma_loop (upd : nat -> bool) (tot : (nat -> R) -> nat -> R) (fuel : nat) (G : nat -> R) : outcome (nat -> R) :=
  let new i := if upd i then 1 / tot G i else 1 in
  let G' i := if upd i then (G i + new i) / 2 else G i in
  if forallb (fun i => if upd i then if Req_EM_T (tot G i) 0 then false else if Req_EM_T (G' i) 0 then false else true else true) (seq 0 153) then
    if forallb (fun i => if Rlt_dec (Rabs ((G' i - new i) / G' i)) (k_tol (c_const c)) then true else false) (seq 0 153) then ok G'
    else match fuel with O => throws StdInvalidArgument | S f => gamma_loop upd tot f G' end
  else None.
Definition max_iter : nat := 500.
(** the two branches of [get_Gamma], lines 202-297 *)
Definition slow_total (T : R) (p G : nat -> R) (i : nat) : R := sumn 153 (fun j => factor T i j * p j * G j).
Definition in_window (i : nat) : bool := (Nat.leb (c_left c) (i mod 51) && Nat.ltb (i mod 51) (c_left c + c_w c))%bool.
Definition fast_total (T : R) (p G : nat -> R) (i : nat) : R :=
  sumn (c_w c) (fun k => sumn 3 (fun t => let j := (51 * t + c_left c + k)%nat in factor T i j * p j * G j)).
Definition get_Gamma (T : R) (p : nat -> R) : outcome (nat -> R) :=
  if Req_EM_T (k_R (c_const c) * T) 0 then None
  else if k_fast (c_const c) then
    (* the loops of lines 169-170 run to ileft + w inclusive in an array of 51 *)
    if Nat.ltb 50 (c_left c + c_w c) then None
    else gamma_loop in_window (fast_total T p) max_iter (fun _ => 1)
  else gamma_loop (fun _ => true) (slow_total T p) max_iter (fun _ => 1).
(** [get_lngamma_resid] of one component, lines 302-312 *)
Definition pure_psigma (i j : nat) : R := all_segments (prof i) j / area i.
Definition lngamma_one (T : R) (Gmix : nat -> R) (i : nat) : outcome R :=
  if Nat.leb N i then None else if negb (sizes_ok (prof i)) then None else if Req_EM_T (area i) 0 then None else
  obind (get_Gamma T (pure_psigma i)) (fun Gi =>
  fin (s <-- osum 153 (fun j => a <-- clog (Gmix j); b <-- clog (Gi j); Some (pure_psigma i j * (a - b)));
       f <-- cdiv (area i) (k_AEFF (c_const c)); Some (f * s))).
Fixpoint collect {A} (l : list (outcome A)) : outcome (list A) :=
  match l with [] => ok [] | o :: l' => obind o (fun a => obind (collect l') (fun r => ok (a :: r))) end.
(** of all components, lines 321-341 *)
Definition lngamma_resid (T : R) (x : list R) : outcome (list R) :=
  match psigma_mix x with
  | None => None
  | Some p => obind (get_Gamma T p) (fun G => collect (map (lngamma_one T G) (seq 0 (length x))))
  end.
(** [operator()], lines 397-400 *)
Definition cosmo_ares (T : R) (x : list R) : outcome R :=
  obind (lngamma_resid T x) (fun l => ok (sumn (length x) (fun i => nth i x 0 * nth i l 0))).
(** [calc_lngamma_comb], lines 346-362 *)
Definition lngamma_comb (x : list R) : outcome (list R) :=
  if negb (Nat.eqb (length (c_A c)) (length (c_V c))) then None
  else if negb (Nat.eqb (length x) (length (c_A c))) then throws InvalidArgument (* types.hpp lines 239-241 *) else
  let q i := nth i (c_A c) 0 / q0 in let r i := nth i (c_V c) 0 / r0 in
  let l i := z_coordination / 2 * (r i - q i) - (r i - 1) in
  let dot f := sumn (length x) (fun i => nth i x 0 * f i) in
  fin (osequence (map (fun i =>
    phi <-- cdiv (r i) (dot r); theta <-- cdiv (q i) (dot q); tp <-- cdiv theta phi; a <-- clog phi; b <-- clog tp;
    Some (a + z_coordination / 2 * q i * b + l i - phi * dot l)) (seq 0 (length x)))).
End COSMO.

(** * The branch "COSMO-SAC-2010" of [ares_model_factory], activity_models.hpp lines 163-190 (which
    prints two of the constants) *)
Definition doubles (j : json) (k : string) : res (list R) := bind (j_at j k) (j_valarray j_double).
(** lines 169-174 *)
Definition read_profile (j : json) (k : string) : res (list R) :=
  bind (j_at j k) (fun p => bind (doubles p "sigma / e/A^2") (fun _ => doubles p "p(sigma)*A / A^2")).
(** [json::value] *)
Definition value {A} (j : json) (k : string) (f : json -> res A) (d : A) : res A :=
  match j with JObj _ => if j_contains j k then bind (j_at j k) f else Val d | _ => Err JsonError end.
Definition read_constants (j : json) : res constants :=
  if j_contains j "constants" then bind (j_at j "constants") (fun q =>
    let d := default_constants in
    bind (value q "A_ES / kcal A^4 /(mol e^2)" j_double (k_A_ES d)) (fun a =>
    bind (value q "B_ES / kcal A^4 K^2/(mol e^2)" j_double (k_B_ES d)) (fun b =>
    bind (value q "fast_Gamma" j_bool (k_fast d)) (fun f =>
    Val {| k_AEFF := k_AEFF d; k_OH_OH := k_OH_OH d; k_OT_OT := k_OT_OT d; k_OH_OT := k_OH_OT d; k_A_ES := a; k_B_ES := b; k_R := k_R d; k_tol := k_tol d; k_fast := f |}))))
  else Val default_constants.
Definition cosmo_factory (j : json) : outcome cosmo :=
  obind (Some (doubles j "A_COSMOSAC / A^2")) (fun A => obind (Some (doubles j "V_COSMOSAC / A^3")) (fun V =>
  obind (Some (bind (j_at j "profiles") (fun l => map_res (fun p =>
    bind (read_profile p "nhb") (fun a => bind (read_profile p "oh") (fun b => bind (read_profile p "ot") (fun c => Val {| s_nhb := a; s_oh := b; s_ot := c |})))) (j_values l)))) (fun ps =>
  obind (Some (read_constants j)) (fun k => fin (make_cosmo A V ps k))))).
