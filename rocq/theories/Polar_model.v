(** Model of the polar contributions of Gubbins and Twu and of Gray and Gubbins,
    [include/teqp/models/saft/polar_terms.hpp], with the correlation integrals of
    [include/teqp/models/saft/correlation_integrals.hpp].  Doubles are reals; [None] is a value that is
    not finite or an index outside an array. *)
From Coq Require Import Reals ZArith String List Bool.
From Verif Require Import Json_model Vec_spec Cubic_model Terms_model Ideal_model Util_model Assoc_model GERG_tables Polar_tables.
From Verif Require VRMie_model.
Import ListNotations.
Local Open Scope R_scope.

(** * Correlation integrals *)
Definition coef (l : list dnum) (i : nat) : R := val (nth i l (d_ 0 0)).
Fixpoint first {K} (eqb : K -> K -> bool) (k : K) (l : list (K * list dnum)) : option (list dnum) :=
  match l with [] => None | (k', v) :: l' => if eqb k' k then Some v else first eqb k l' end.
(** [std::map::at] *)
Definition at_key {K} (eqb : K -> K -> bool) (l : list (K * list dnum)) (k : K) : res (list dnum) :=
  match first eqb k l with Some v => Val v | None => Err StdOutOfRange end.
Definition pair_eqb (a b : nat * nat) : bool := (Nat.eqb (fst a) (fst b) && Nat.eqb (snd a) (snd b))%bool.
Definition triple_eqb (a b : nat * nat * nat) : bool := (pair_eqb (fst a) (fst b) && Nat.eqb (snd a) (snd b))%bool.
Definition key_eqb (a b : (nat * nat * nat) * (nat * nat * nat)) : bool := (triple_eqb (fst a) (fst b) && triple_eqb (snd a) (snd b))%bool.

(** [LuckasJIntegral::get_J], lines 49-57.  At zero density the logarithm is minus infinity and the
    exponent 1/T, at sqrt 2 it is zero and the exponent zero *)
Definition luckas_J_val (n : nat) (a : list dnum) (T rho : R) : option R :=
  let A k := coef a k + coef a (3 + k) * rho + coef a (6 + k) * rho * rho + coef a (9 + k) * rho * rho * rho in
  z2 <-- cdiv 1 (INR n);
  p1 <-- cpow T (0.3 + 0.05 * INR n); p2 <-- cpow T z2;
  e <-- (if Req_EM_T rho 0 then cdiv 1 T
         else l <-- clog (rho / sqrt 2);
              if Req_EM_T l 0 then Some 0 else q <-- cdiv 4 (Rabs l ^ 3); cdiv 1 (T + q));
  Some ((A 0%nat + A 1%nat * p1 + A 2%nat * p2) * exp e).
(** [LuckasKIntegral::get_K], lines 82-92 *)
Definition luckas_K_val (a : list dnum) (T rho : R) : option R :=
  let b k := coef a k + coef a (4 + k) * rho + coef a (8 + k) * rho * rho + coef a (12 + k) * rho * rho * rho in
  let e := exp ((1 - rho / sqrt 2) ^ 4) in
  Some (b 0%nat + b 1%nat * T + b 2%nat * e ^ 2 + b 3%nat * e ^ 3).
(** [GubbinsTwuJIntegral::get_J] and [GubbinsTwuKIntegral::get_K], lines 142-145 and 172-175 *)
Definition twu_val (a : list dnum) (T rho : R) : option R :=
  l <-- clog T;
  Some (exp (coef a 0 * rho * rho * l + coef a 1 * rho * rho + coef a 2 * rho * l + coef a 3 * rho + coef a 4 * l + coef a 5)).
(** the sign, line 168 *)
Definition twu_sign (k : nat * nat) : R := if pair_eqb k (334, 445)%nat then -1 else 1.
Definition twu_K_val (k : nat * nat) (a : list dnum) (T rho : R) : option R := v <-- twu_val a T rho; Some (twu_sign k * v).
(** [GottschalkJIntegral::get_J], lines 231-246 *)
Definition gottschalk_J_val (n : nat) (ab : list dnum) (T rho : R) : option R :=
  r <-- cdiv 1 T;
  Some ((sumn 5 (fun i => sumn 4 (fun j => coef ab (4 * i + j) * rho ^ i * T ^ j))
       + sumn 5 (fun i => sumn 3 (fun j => coef ab (20 + 3 * i + j) * rho ^ i * T ^ j * exp r))) ^ (n - 2)).
(** [GottschalkKIntegral::get_K], lines 369-392; j - 1 is the index of the inner loops *)
Definition gottschalk_K_val (abc : list dnum) (T rho : R) : option R :=
  r <-- cdiv (1 - rho / 3) T; s <-- cdiv ((1 - rho / 3) * (1 - rho / 3)) T;
  Some (sumn 4 (fun i => sumn 2 (fun j => coef abc (2 * i + j) * rho ^ i * exp r ^ S j))
      + sumn 4 (fun i => sumn 2 (fun j => coef abc (8 + 2 * i + j) * rho ^ i * exp s ^ S j))
      + sumn 6 (fun i => sumn 4 (fun j => coef abc (16 + 4 * i + j) * rho ^ i * T ^ j))).
(** [int2key], lines 350-358 *)
Definition int2key (i : nat) : res (nat * nat * nat) :=
  if Nat.ltb i 222 then Err InvalidArgument else if Nat.ltb 999 i then Err InvalidArgument
  else Val (i / 100 mod 10, i / 10 mod 10, i mod 10)%nat.

(** the constructors, lines 41, 74, 137, 164, 228 and 366 *)
Import VRMie_model.
Definition make_J (k : integrals) (n : nat) : res (R -> R -> option R) :=
  match k with
  | Luckas => bind (at_key Nat.eqb luckas_J n) (fun a => Val (luckas_J_val n a))
  | GubbinsTwu => bind (at_key Nat.eqb twu_J n) (fun a => Val (twu_val a))
  | Gottschalk => bind (at_key Nat.eqb gottschalk_J n) (fun a => Val (gottschalk_J_val n a))
  end.
Definition make_K (k : integrals) (n : nat * nat) : res (R -> R -> option R) :=
  match k with
  | Luckas => bind (at_key pair_eqb luckas_K n) (fun a => Val (luckas_K_val a))
  | GubbinsTwu => bind (at_key pair_eqb twu_K n) (fun a => Val (twu_K_val n a))
  | Gottschalk => bind (int2key (fst n)) (fun k1 => bind (int2key (snd n)) (fun k2 =>
      bind (at_key key_eqb gottschalk_K (k1, k2)) (fun a => Val (gottschalk_K_val a))))
  end.
(** the members of the contributions, polar_terms.hpp lines 55-64 and 290-299: all of them exist
    (C85_pairs, C85_triplets) *)
Definition the_J (k : integrals) (n : nat) (T rho : R) : option R := match make_J k n with Val f => f T rho | Err _ => None end.
Definition the_K (k : integrals) (n : nat * nat) (T rho : R) : option R := match make_K k n with Val f => f T rho | Err _ => None end.

(** * polar_terms.hpp *)
(** [multipolar_rhostar_approach], polar_terms/types.hpp lines 10-21 *)
Inductive approach := kInvalid | use_packing_fraction | calculate_Gubbins_rhostar.
(** [MultipolarContributionGubbinsTwuTermsGT] *)
Record pterms := { r_alpha2 : R; r_alpha3 : R; r_alpha : R }.
Section Integrals.
Variables (J : nat -> R -> R -> option R) (K : nat * nat -> R -> R -> option R).
(** [get_Kijk], lines 27-29 *)
Definition get_Kijk (n : nat * nat) (rs Tij Tik Tjk : R) : option R :=
  a <-- K n Tij rs; b <-- K n Tik rs; c <-- K n Tjk rs; cpow (a * b * c) (1 / 3).
(** [get_Kijk_334445], lines 35-37 *)
Definition get_Kijk_neg (n : nat * nat) (rs Tij Tik Tjk : R) : option R :=
  a <-- K n Tij rs; b <-- K n Tik rs; c <-- K n Tjk rs; p <-- cpow (- (a * b * c)) (1 / 3); Some (- p).
(** [get_rhostar], lines 219-245 and 547-573, the same in both classes *)
Definition get_rhostar (ap : approach) (sigma : list R) (rhoN eta : R) (x : list R) : outcome R :=
  match ap with
  | calculate_Gubbins_rhostar =>
      if Nat.ltb (length sigma) (length x) then None
      else ok (rhoN * sumn (length x) (fun i => sumn (length x) (fun j => nth i x 0 * nth j x 0 * POW3 ((nth i sigma 0 + nth j sigma 0) / 2))))
  | use_packing_fraction => ok (eta / (PI / 6))
  | kInvalid => throws InvalidArgument
  end.

(** ** [MultipolarContributionGubbinsTwu] *)
Record gtwu := { t_sigma : list R; t_eps : list R; t_mu2 : list R; t_Q2 : list R; t_approach : approach }.
(** the constructor, lines 71-93.  Its last loops read [epsilon_over_k] at all indices of [sigma_m];
    the root of a negative product is not a number *)
Definition make_gtwu (sigma eps mu2 Q2 : list R) (ap : approach) : outcome gtwu :=
  if negb (Nat.eqb (length sigma) (length mu2)) then throws InvalidArgument
  else if negb (Nat.eqb (length sigma) (length Q2)) then throws InvalidArgument
  else if Nat.ltb (length eps) (length sigma) then None
  else ok {| t_sigma := sigma; t_eps := eps; t_mu2 := mu2; t_Q2 := Q2; t_approach := ap |}.
Definition total_abs (l : list R) : R := sumn (length l) (fun i => Rabs (nth i l 0)).
(** [has_a_polar], lines 71 and 344 *)
Definition has_polar (a b : list R) : bool := if Rlt_dec 0 (total_abs a) then true else if Rlt_dec 0 (total_abs b) then true else false.
Section GT.
Variable g : gtwu.
Variables (T rhoN rs : R) (x : list R).
Let sg i := nth i (t_sigma g) 0.
Let mu2 i := nth i (t_mu2 g) 0.
Let Q2 i := nth i (t_Q2 g) 0.
Let xi i := nth i x 0.
Let N := length x.
(** lines 86-89 *)
Let sij i j := (sg i + sg j) / 2.
Let eij i j := csqrt (nth i (t_eps g) 0 * nth j (t_eps g) 0).
(** lines 111-113 *)
Definition Tstar (i j : nat) : option R := e <-- eij i j; cdiv T e.
(** [get_alpha2], lines 96-133; the three sums one after the other *)
Definition gt_sum2 (num : nat -> nat -> R) (p n : nat) : option R :=
  osum N (fun i => osum N (fun j =>
    Ti <-- Tstar i i; Tj <-- Tstar j j; leading <-- cdiv (xi i * xi j) (Ti * Tj); Tij <-- Tstar i j;
    d <-- cdiv (num i j) (sij i j ^ p); v <-- J n Tij rs; Some (leading * d * v))).
Definition gt_alpha2 : option R :=
  a112 <-- gt_sum2 (fun i j => sg i ^ 3 * sg j ^ 3 * mu2 i * mu2 j) 3 6;
  a123 <-- gt_sum2 (fun i j => sg i ^ 3 * sg j ^ 5 * mu2 i * Q2 j) 5 8;
  a224 <-- gt_sum2 (fun i j => sg i ^ 5 * sg j ^ 5 * Q2 i * Q2 j) 7 10;
  Some (- 2 * PI * rhoN / 3 * a112 + 2 * (- PI * rhoN) * a123 + - 14 * PI * rhoN / 5 * a224).
(** [get_alpha3], lines 137-217 *)
Definition gt_sumA (num : nat -> nat -> option R) (p n : nat) : option R :=
  osum N (fun i => osum N (fun j =>
    Ti <-- Tstar i i; Tj <-- Tstar j j; Tij <-- Tstar i j; q <-- cpow (Ti * Tj) (3 / 2); leading <-- cdiv (xi i * xi j) q;
    m <-- num i j; d <-- cdiv m (sij i j ^ p); v <-- J n Tij rs; Some (leading * d * v))).
Definition gt_sumB (guard num den : nat -> nat -> nat -> R) (k : R -> R -> R -> option R) : option R :=
  osum N (fun i => osum N (fun j => osum N (fun l =>
    Ti <-- Tstar i i; Tj <-- Tstar j j; Tl <-- Tstar l l; Tij <-- Tstar i j; Til <-- Tstar i l; Tjl <-- Tstar j l;
    leading <-- cdiv (xi i * xi j * xi l) (Ti * Tj * Tl);
    if Rlt_dec 0 (Rabs (guard i j l)) then
      v <-- k Tij Til Tjl; d <-- cdiv (num i j l) (den i j l); Some (leading * (d * guard i j l) * v)
    else Some 0))).
Definition gt_alpha3 : option R :=
  let half (l : R) := cpow l (11 / 2) in let half' (l : R) := cpow l (15 / 2) in
  A1 <-- gt_sumA (fun i j => p <-- half (sg i * sg j); q <-- csqrt (Q2 i * Q2 j); Some (p * mu2 i * mu2 j * q)) 8 11;
  A2 <-- gt_sumA (fun i j => p <-- half (sg i * sg j); q <-- csqrt (Q2 i * Q2 j); Some (p * mu2 i * mu2 j * q)) 8 11;
  A3 <-- gt_sumA (fun i j => p <-- half (sg i); p' <-- half' (sg j); q <-- csqrt (Q2 i); q' <-- cpow (Q2 j) (3 / 2); Some (p * p' * mu2 i * q * q')) 10 13;
  A4 <-- gt_sumA (fun i j => p <-- half' (sg i * sg j); q <-- cpow (Q2 i) (3 / 2); q' <-- cpow (Q2 j) (3 / 2); Some (p * q * q')) 12 15;
  B1 <-- gt_sumB (fun i j k => mu2 i * mu2 j * mu2 k) (fun i j k => sg i ^ 3 * sg j ^ 3 * sg k ^ 3) (fun i j k => sij i j * sij i k * sij j k) (get_Kijk (222, 333)%nat rs);
  B2 <-- gt_sumB (fun i j k => mu2 i * mu2 j * Q2 k) (fun i j k => sg i ^ 3 * sg j ^ 3 * sg k ^ 5) (fun i j k => sij i j * POW2 (sij i k * sij j k)) (get_Kijk (233, 344)%nat rs);
  B3 <-- gt_sumB (fun i j k => mu2 i * Q2 j * Q2 k) (fun i j k => sg i ^ 3 * sg j ^ 5 * sg k ^ 5) (fun i j k => POW2 (sij i j * sij i k) * POW3 (sij j k)) (get_Kijk_neg (334, 445)%nat rs);
  B4 <-- gt_sumB (fun i j k => Q2 i * Q2 j * Q2 k) (fun i j k => POW5 (sg i * sg j * sg k)) (fun i j k => POW3 (sij i j * sij i k * sij j k)) (get_Kijk (444, 555)%nat rs);
  let alpha3A := 3 * (8 * PI * rhoN / 25 * A1) + 6 * (8 * PI * rhoN / 75 * A2) + 6 * (8 * PI * rhoN / 35 * A3) + 144 * PI * rhoN / 245 * A4 in
  let rhoN2 := rhoN * rhoN in
  let alpha3B := 32 * POW3 PI * rhoN2 / 135 * sqrt (14 * PI / 5) * B1 + 3 * (64 * POW3 PI * rhoN2 / 315 * sqrt (3 * PI) * B2)
    + 3 * (- 32 * POW3 PI * rhoN2 / 45 * sqrt (22 * PI / 63) * B3) + 32 * POW3 PI * rhoN2 / 2025 * sqrt (2002 * PI) * B4 in
  Some (alpha3A + alpha3B).
(** [eval], lines 250-263 *)
Definition gt_eval : option pterms :=
  if Nat.ltb (length (t_sigma g)) (length x) then None
  else if has_polar (t_mu2 g) (t_Q2 g) then
    a2 <-- gt_alpha2; a3 <-- gt_alpha3; r <-- cdiv a3 a2; a <-- cdiv a2 (1 - r); Some {| r_alpha2 := a2; r_alpha3 := a3; r_alpha := a |}
  else Some {| r_alpha2 := 0; r_alpha3 := 0; r_alpha := 0 |}.
End GT.

(** ** [MultipolarContributionGrayGubbins] *)
(** constants.hpp lines 13-16 *)
Definition k_B : R := 1.380649 * / 10 ^ 23.
Definition k_e : R := / (4 * PI * (8.8541878128 * / 10 ^ 12)).
(** lines 283-312; of [PolarizableArrays] the two arrays the others are computed from *)
Record gray := { y_sigma : list R; y_S : nat -> nat -> option R; y_E : nat -> nat -> option R; y_mu : list R; y_Q : list R;
                 y_approach : approach; y_C3 : R; y_C3b : R; y_polar : option (list R * list R) }.
(** [get_C3], [get_C3b], [get_approach], lines 314-325: [json::value] *)
Definition get_number (j : json) (k : string) : res R :=
  match j with JObj _ => if j_contains j k then bind (j_at j k) j_double else Val 1 | _ => Err JsonError end.
Definition get_approach (j : json) : res approach :=
  match j with
  | JObj _ => if j_contains j "approach" then bind (j_at j "approach") (fun a =>
      Val match a with
          | JStr s => if String.eqb s "use_packing_fraction" then use_packing_fraction else if String.eqb s "calculate_Gubbins_rhostar" then calculate_Gubbins_rhostar else kInvalid
          | _ => kInvalid end) else Val use_packing_fraction
  | _ => Err JsonError
  end.
(** [get_polarizable], lines 326-339 *)
Definition get_polarizable (j : json) : res (option (list R * list R)) :=
  if j_contains j "polarizable" then bind (j_at j "polarizable") (fun p =>
    bind (bind (j_at p "alpha_symm / m^3") (j_valarray j_double)) (fun s =>
    bind (bind (j_at p "alpha_asymm / m^3") (j_valarray j_double)) (fun a =>
    Val (Some (map (fun v => v / k_e) s, map (fun v => v / k_e) a)))))
  else Val None.
(** the constructor, lines 342-358; the flags are always given by the callers *)
Definition make_gray (sigma : list R) (SG EK : nat -> nat -> option R) (mu Q : list R) (flags : json) : res gray :=
  bind (get_approach flags) (fun ap => bind (get_number flags "C3") (fun C3 => bind (get_number flags "C3b") (fun C3b =>
  bind (get_polarizable flags) (fun pol =>
  if negb (Nat.eqb (length sigma) (length mu)) then Err InvalidArgument
  else if negb (Nat.eqb (length sigma) (length Q)) then Err InvalidArgument
  else if match pol with Some (s, a) => negb (Nat.eqb (length s) (length sigma)) || negb (Nat.eqb (length a) (length sigma)) | None => false end then Err InvalidArgument
  else Val {| y_sigma := sigma; y_S := SG; y_E := EK; y_mu := mu; y_Q := Q; y_approach := ap; y_C3 := C3; y_C3b := C3b; y_polar := pol |})))).
Section GG.
Variable g : gray.
Variables (T rhoN rs : R) (x : list R).
Let xi i := nth i x 0.
Let N := length x.
Let Q i := nth i (y_Q g) 0.
(** [alpha_symm_C2m2J], [alpha_isotropic_C2m2J] and the gamma of lines 484 and 529 *)
Let symm i := match y_polar g with Some (s, _) => nth i s 0 | None => 0 end.
Let iso i := match y_polar g with Some (s, a) => 1 / 3 * (nth i s 0 + 2 * nth i a 0) | None => 0 end.
Let gamma i := match y_polar g with Some (s, a) => nth i s 0 - nth i a 0 | None => 0 end.
(** [get_In], lines 362-365 *)
Definition get_In (n i j : nat) : option R :=
  s <-- y_S g i j; e <-- y_E g i j; Ts <-- cdiv T e; p <-- cdiv (4 * PI) (s ^ (n - 3)); v <-- J n Ts rs; Some (p * v).
(** [Immm], [ImmQ], [ImQQ], [IQQQ], lines 368-392 *)
Definition gg_K (kf : R -> R -> R -> option R) (c : R) (den : R -> R -> R -> R) (i j k : nat) : option R :=
  eij <-- y_E g i j; eik <-- y_E g i k; ejk <-- y_E g j k; Tij <-- cdiv T eij; Tik <-- cdiv T eik; Tjk <-- cdiv T ejk;
  sij <-- y_S g i j; sik <-- y_S g i k; sjk <-- y_S g j k; co <-- cdiv c (den sij sik sjk); v <-- kf Tij Tik Tjk; Some (co * v).
Definition Immm := gg_K (get_Kijk (222, 333)%nat rs) (64 * POW3 PI / 5 * sqrt (14 * PI / 5)) (fun a b c => a * b * c).
Definition ImmQ := gg_K (get_Kijk (233, 344)%nat rs) (2048 * POW3 PI / 7 * sqrt (3 * PI)) (fun a b c => a * POW2 (b * c)).
Definition ImQQ := gg_K (get_Kijk_neg (334, 445)%nat rs) (- 4096 * POW3 PI / 9 * sqrt (22 * PI / 7)) (fun a b c => POW2 (a * b) * POW3 c).
Definition IQQQ := gg_K (get_Kijk (444, 555)%nat rs) (8192 * POW3 PI / 81 * sqrt (2002 * PI)) (fun a b c => POW3 (a * b * c)).
Section Muprime.
Variable mp : list R.
Let m2 i := POW2 (nth i mp 0).
Let z1 beta i := 1 / 3 * (m2 i * beta) + iso i.
Let z2 (i : nat) := iso i.
(** [get_alpha2], lines 396-434 *)
Definition gg_alpha2 : option R :=
  beta <-- cdiv 1 (k_B * T);
  s <-- osum N (fun i => osum N (fun j =>
    I6 <-- get_In 6 i j; I8 <-- get_In 8 i j; I10 <-- get_In 10 i j;
    Some (xi i * xi j * (3 / 2 * (z1 beta i * z1 beta j - z2 i * z2 j) * I6 + 3 / 2 * z1 beta i * beta * Q j ^ 2 * I8 + 7 / 10 * beta * beta * Q i ^ 2 * Q j ^ 2 * I10))));
  Some (- rhoN * k_e * k_e * s).
(** [get_alpha2_muprime_gradient], lines 438-469: component i *)
Definition gg_grad2 (i : nat) : option R :=
  beta <-- cdiv 1 (k_B * T);
  s <-- osum N (fun j => I6 <-- get_In 6 i j; I8 <-- get_In 8 i j; Some (rhoN * xi j * (2 * z1 beta i * I6 + beta * Q j ^ 2 * I8)));
  Some (- k_e * k_e * (nth i mp 0 * s) * xi i * beta).
(** [get_alpha3], lines 473-508 *)
Definition gg_alpha3 : option R :=
  beta <-- cdiv 1 (k_B * T);
  sa <-- osum N (fun i => osum N (fun j =>
    I11 <-- get_In 11 i j; I13 <-- get_In 13 i j; I15 <-- get_In 15 i j;
    Some (xi i * xi j * ((2 / 5 * beta * beta * m2 i * m2 j + 4 / 5 * gamma i * beta * m2 j + 4 / 25 * gamma i * gamma j) * beta * Q i * Q j * I11
      + 12 / 35 * (beta * m2 i + gamma i) * beta * beta * Q i * POW3 (Q j) * I13 + 36 / 245 * POW3 beta * Q i ^ 3 * Q j ^ 3 * I15))));
  sb <-- osum N (fun i => osum N (fun j => osum N (fun k =>
    a <-- Immm i j k; b <-- ImmQ i j k; c <-- ImQQ i j k; d <-- IQQQ i j k;
    Some (xi i * xi j * xi k * (1 / 2 * (z1 beta i * z1 beta j * z1 beta k - z2 i * z2 j * z2 k) * a
      + y_C3b g * (3 / 160 * z1 beta i * z1 beta j * beta * Q k ^ 2 * b + 3 / 640 * z1 beta i * POW2 beta * Q j ^ 2 * Q k ^ 2 * c)
      + 1 / 6400 * POW3 beta * Q i ^ 2 * Q j ^ 2 * Q k ^ 2 * d)))));
  Some (y_C3 g * (rhoN * sa + rhoN * rhoN * sb) * k_e * k_e * k_e).
(** [get_alpha3_muprime_gradient], lines 512-545: component i.  The sums are not set to zero for each
    component *)
Definition gg_grad3 (i : nat) : option R :=
  beta <-- cdiv 1 (k_B * T);
  s2 <-- osum (S i) (fun i => osum N (fun j =>
    I11 <-- get_In 11 i j; I13 <-- get_In 13 i j;
    Some (rhoN * xi j * (8 / 5 * (beta * m2 j + gamma j) * beta * Q i * Q j * I11 + 24 / 35 * beta * beta * Q i * Q j ^ 3 * I13))));
  s3 <-- osum (S i) (fun i => osum N (fun j => osum N (fun k =>
    a <-- Immm i j k; b <-- ImmQ i j k; c <-- ImQQ i j k;
    Some (POW2 rhoN * xi j * xi k * (z1 beta j * z1 beta k * a + y_C3b g * 1 / 40 * z1 beta j * beta * Q k ^ 2 * b + 1 / 320 * POW2 beta * Q j ^ 2 * Q k ^ 2 * c)))));
  Some (- y_C3 g * (- nth i mp 0 * (s2 + s3)) * k_e * k_e * k_e * xi i * beta).
(** [get_Eprime], lines 577-618 *)
Definition gg_Eprime : outcome (list R) :=
  match y_polar g with
  | None => throws InvalidArgument
  | Some _ =>
      fin (a2 <-- gg_alpha2; a3 <-- gg_alpha3; r <-- cdiv a3 a2;
           osequence (map (fun i => d2 <-- gg_grad2 i; d3 <-- gg_grad3 i; d <-- cdiv ((1 - 2 * a3 / a2) * d2 + d3) (POW2 (1 - r)); Some (- k_B * T * d)) (seq 0 N)))
  end.
End Muprime.
(** [iterate_muprime_SS], lines 622-635 *)
Fixpoint iterate_muprime (steps : nat) (mp : list R) : outcome (list R) :=
  match steps with
  | O => match y_polar g with None => throws InvalidArgument | Some _ => ok mp end
  | S n => obind (gg_Eprime mp) (fun E => iterate_muprime n (map (fun i => nth i (y_mu g) 0 + symm i * nth i E 0) (seq 0 N)))
  end.
(** [eval], lines 640-677 *)
Definition gg_eval : outcome pterms :=
  match y_polar g with
  | None =>
      if Nat.ltb (length (y_sigma g)) (length x) then None else
      if has_polar (y_Q g) (y_mu g) then
        fin (a2 <-- gg_alpha2 (y_mu g); a3 <-- gg_alpha3 (y_mu g);
             if Req_EM_T a2 0 then Some {| r_alpha2 := 0; r_alpha3 := a3; r_alpha := 0 |}
             else r <-- cdiv a3 a2; a <-- cdiv a2 (1 - r); Some {| r_alpha2 := a2; r_alpha3 := a3; r_alpha := a |})
      else ok {| r_alpha2 := 0; r_alpha3 := 0; r_alpha := 0 |}
  | Some _ =>
      if negb (Nat.eqb (length (y_sigma g)) (length x)) then None else
      obind (iterate_muprime 10 (y_mu g)) (fun mp => obind (gg_Eprime mp) (fun E =>
      fin (u <-- cdiv (1 / 2 * sumn N (fun i => xi i * symm i * nth i E 0 * nth i E 0)) (k_B * T);
           a2 <-- gg_alpha2 mp; a3 <-- gg_alpha3 mp; r <-- cdiv a3 a2; a <-- cdiv a2 (1 - r);
           Some {| r_alpha2 := a2; r_alpha3 := a3; r_alpha := a + u |})))
  end.
End GG.
End Integrals.

(** * The contributions in SAFT-VR-Mie *)
(** the visitor, saftvrmie.hpp lines 1090-1107 *)
Definition eval_polar (p : vpolar) (T rhoN eta : R) (x : list R) : outcome R :=
  match p with
  | PolGrossVrabec _ _ _ _ _ _ _ => None
  | PolGubbinsTwu k sigma eps mu2 Q2 b =>
      obind (make_gtwu sigma eps mu2 Q2 (if b then calculate_Gubbins_rhostar else use_packing_fraction)) (fun g =>
      obind (get_rhostar (t_approach g) (t_sigma g) rhoN eta x) (fun rs =>
      fin (t <-- gt_eval (the_J k) (the_K k) g T rhoN rs x; Some (r_alpha t))))
  | PolGrayGubbins k sigma _ SG EK mu Q flags =>
      obind (Some (make_gray sigma SG EK mu Q flags)) (fun g =>
      obind (get_rhostar (y_approach g) (y_sigma g) rhoN eta x) (fun rs =>
      obind (gg_eval (the_J k) (the_K k) g T rhoN rs x) (fun t => ok (r_alpha t))))
  end.
(** what the constructor does with the flags, for [VRMie_model.vrmie_factory] *)
Definition gray_flags (flags : json) (sigma : list R) : res unit :=
  bind (make_gray sigma (fun _ _ => None) (fun _ _ => None) sigma sigma flags) (fun _ => Val tt).
