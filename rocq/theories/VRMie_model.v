(** Model of the SAFT-VR-Mie equation of state, [include/teqp/models/saftvrmie.hpp].

    Doubles are reals, and the decimal approximation of pi is [PI].  [None] is a value that is not
    finite (division by zero, the logarithm of a number that is not positive, the root or a real
    power of a negative number) or undefined behaviour.  Matrices are functions of two indices;
    those that do not depend on the state are calculated when they are needed, not in the
    constructor, where they could not throw either.  [powi(x, n)] and [pow(x, n)] with an integer
    are the power. *)
From Coq Require Import Reals ZArith String List Bool.
From Verif Require Import Json_model Vec_spec Cubic_model Terms_model Ideal_model Util_model Assoc_model Numerics_model.
From Verif Require PCSAFT_model.
Import ListNotations.
Local Open Scope R_scope.

(** * Coefficients and library *)
(** lines 23-35 *)
Record vcoeffs := { vc_name : string; vc_m : R; vc_sigma : R; vc_eps : R; vc_lr : R; vc_la : R;
  vc_mustar2 : R; vc_nmu : R; vc_Qstar2 : R; vc_nQ : R; vc_bib : string }.
(** lines 55-65 *)
Definition vnormal (name : string) (m sigma eps lr la : R) (bib : string) : vcoeffs :=
  {| vc_name := name; vc_m := m; vc_sigma := sigma; vc_eps := eps; vc_lr := lr; vc_la := la;
     vc_mustar2 := 0; vc_nmu := 0; vc_Qstar2 := 0; vc_nQ := 0; vc_bib := bib |}.
(** lines 50-54 *)
Definition vlibrary : list vcoeffs :=
  [vnormal "Methane" 1.0000 3.7412e-10 153.36 12.650 6 "Lafitte-JCP-2001"; vnormal "Ethane" 1.4373 3.7257e-10 206.12 12.400 6 "Lafitte-JCP-2001";
   vnormal "Propane" 1.6845 3.9056e-10 239.89 13.006 6 "Lafitte-JCP-2001"].
(** lines 66-74 *)
Definition vget_normal (name : string) : res vcoeffs :=
  match find (fun c => String.eqb (vc_name c) name) vlibrary with Some c => Val c | None => Err StdInvalidArgument end.
(** lines 75-81 *)
Definition vget_coeffs (names : list string) : res (list vcoeffs) := map_res vget_normal names.

(** * Terms that depend on the components only *)
(** lines 37-44: any other value is the first one of the list, the invalid flag *)
Inductive epsflag := FlInvalid | FlLB | FlLafitte.
(** [phi] by rows, lines 89-96 *)
Definition vphi : list (list R) :=
  [[7.5365557; - 359.44; 1550.9; - 1.19932; - 1911.28; 9236.9; 10];
   [- 37.60463; 1825.6; - 5070.1; 9.063632; 21390.175; - 129430; 10];
   [71.745953; - 3168.0; 6534.6; - 17.9482; - 51320.7; 357230; 0.57];
   [- 46.83552; 1884.2; - 3288.7; 11.34027; 37064.54; - 315530; - 6.7];
   [- 2.467982; - 0.82376; - 2.7171; 20.52142; 1103.742; 1390.2; - 8];
   [- 0.50272; - 3.1935; 2.0883; - 56.6377; - 3264.61; - 4518.2; 0];
   [8.0956883; 3.7090; 0; 40.53683; 2556.181; 4241.6; 0]].
Definition phi_at (row col : nat) : R := nth col (nth row vphi []) 0.
(** [A] by rows, lines 99-103 *)
Definition vA : list (list R) :=
  [[0.81096; 1.7888; - 37.578; 92.284];
   [1.0205; - 19.341; 151.26; - 463.50];
   [- 1.9057; 22.845; - 228.14; 973.92];
   [1.0885; - 6.1962; 106.98; - 677.64]].
(** the members given by the constructor, lines 251-281; sigma in Angstrom *)
Record vrmie := { v_m : list R; v_eps : list R; v_sigma : list R; v_lr : list R; v_la : list R; v_k : list (list R); v_flag : epsflag }.
Section Pairs.
Variable v : vrmie.
(** [get_lambda_k_ij], lines 106-115 *)
Definition lam (l : list R) (i j : nat) : option R := s <-- csqrt ((nth i l 0 - 3) * (nth j l 0 - 3)); Some (3 + s).
Definition lr_ij (i j : nat) : option R := lam (v_lr v) i j.
Definition la_ij (i j : nat) : option R := lam (v_la v) i j.
(** [get_C_ij], lines 118-127 *)
Definition C_ij (i j : nat) : option R :=
  lr <-- lr_ij i j; la <-- la_ij i j;
  q <-- cdiv lr (lr - la); b <-- cdiv lr la; e <-- cdiv la (lr - la); p <-- cpow b e; Some (q * p).
(** [alpha_ij], line 276 *)
Definition alpha_ij (i j : nat) : option R :=
  lr <-- lr_ij i j; la <-- la_ij i j; c <-- C_ij i j; qa <-- cdiv 1 (la - 3); qr <-- cdiv 1 (lr - 3); Some (c * (qa - qr)).
(** [get_fkij], lines 130-147; [k] from 1 *)
Definition fk (k i j : nat) : option R :=
  a <-- alpha_ij i j;
  cdiv (sumn 4 (fun n => phi_at n (k - 1) * a ^ n)) (1 + sumn 3 (fun n => phi_at (n + 4) (k - 1) * a ^ (n + 1))).
(** [get_sigma_ij], lines 150-159 *)
Definition sigma_ij (i j : nat) : R := (nth i (v_sigma v) 0 + nth j (v_sigma v) 0) / 2.
(** [kmat(i,j)]; an element outside the matrix is undefined behaviour *)
Definition kentry (i j : nat) : option R := match nth_error (v_k v) i with Some r => nth_error r j | None => None end.
(** [get_epsilon_ij], lines 164-189, for [i <= j]; the invalid flag throws in the constructor *)
Definition eps_upper (i j : nat) : option R :=
  k <-- kentry i j;
  match v_flag v with
  | FlLafitte => s <-- csqrt (sigma_ij i i ^ 3 * sigma_ij j j ^ 3 * nth i (v_eps v) 0 * nth j (v_eps v) 0); cdiv ((1 - k) * s) (sigma_ij i j ^ 3)
  | _ => s <-- csqrt (nth i (v_eps v) 0 * nth j (v_eps v) 0); Some ((1 - k) * s)
  end.
Definition eps_ij (i j : nat) : option R := if Nat.leb i j then eps_upper i j else eps_upper j i.
(** [get_cij], lines 199-216, Eq. A18 *)
Definition cij (lambda : R) : option (list R) :=
  q <-- cdiv 1 lambda; Some (map (fun row => sumn 4 (fun k => nth k row 0 * q ^ k)) vA).

(** * Diameters *)
(** [get_uii_over_kB], lines 289-293 *)
Definition uii (i : nat) (r : R) : option R :=
  s <-- cdiv (nth i (v_sigma v) 0) r; p1 <-- cpow s (nth i (v_lr v) 0); p2 <-- cpow s (nth i (v_la v) 0);
  c <-- C_ij i i; Some (c * nth i (v_eps v) 0 * (p1 - p2)).
(** the machine precision, line 299 *)
Definition EPS : R := / 2 ^ 52.
(** the residual and its derivatives, lines 305-311 *)
Definition fgh (kappa lr la T j : R) : option (R * R * R) :=
  jlr <-- cpow j lr; jla <-- cpow j la;
  let u := kappa * (jlr - jla) in
  u1 <-- cdiv (kappa * (lr * jlr - la * jla)) j;
  u2 <-- cdiv (kappa * (lr * (lr - 1) * jlr - la * (la - 1) * jla)) (j * j);
  f <-- cdiv (- u) T; g <-- cdiv (- u1) T; h <-- cdiv (- u2) T;
  Some (f - ln EPS, g, h).
(** Halley's method, lines 312-321: at most four steps *)
Fixpoint halley (n : nat) (kappa lr la T j : R) : option R :=
  match n with
  | O => Some j
  | S n' =>
      r <-- fgh kappa lr la T j;
      let '(f, g, h) := r in
      let den := 2 * g * g - f * h in
      if Rlt_dec den EPS then Some j else halley n' kappa lr la T (j - 2 * f * g / den)
  end.
(** [get_j_cutoff_dii], lines 296-327 *)
Definition j_cutoff (i : nat) (T : R) : outcome R :=
  obind (fin (c <-- C_ij i i; e <-- eps_ij i i; q <-- cdiv (- ln EPS * T) (c * e); K <-- clog q; q2 <-- cdiv K (nth i (v_lr v) 0);
              halley 4 (c * e) (nth i (v_lr v) 0) (nth i (v_la v) 0) T (exp q2))) (fun j =>
  if Rlt_dec j 1 then throws IterationFailure else ok j).
(** [quad<10>] of quadrature.hpp, lines 58-67, with an integrand that may have no value *)
Fixpoint oquad (F : R -> option R) (a b : R) (x w : list R) : option R :=
  match x, w with
  | xi :: x', wi :: w' => f <-- F ((b - a) / 2 * xi + (a + b) / 2); s <-- oquad F a b x' w'; Some (wi * f + s)
  | _, _ => Some 0
  end.
(** the integrand, lines 363-365 *)
Definition integrand (i : nat) (T r : R) : option R := u <-- uii i r; q <-- cdiv (- u) T; Some (1 - exp q).
(** [get_dii], lines 362-376 *)
Definition dii (i : nat) (T : R) : outcome R :=
  obind (j_cutoff i T) (fun j =>
  let s := nth i (v_sigma v) 0 in
  obind (fin (rcut <-- cdiv s j; q <-- oquad (integrand i T) rcut s (map dec gl10_x) (map dec gl10_w); Some (rcut + (s - rcut) / 2 * q))) (fun d =>
  if Rlt_dec s d then throws IterationFailure else ok d)).
(** [get_dmat], lines 379-393: the diameters of the components, and the mean for a pair *)
Fixpoint oall {A} (l : list (outcome A)) : outcome (list A) :=
  match l with [] => ok [] | a :: l' => obind a (fun a => obind (oall l') (fun r => ok (a :: r))) end.
Definition diameters (T : R) : outcome (list R) := oall (map (fun i => dii i T) (seq 0 (length (v_m v)))).
End Pairs.

(** * Functions of the packing fraction *)
(** [get_KHS], lines 642-645 *)
Definition KHS (z : R) : option R := cdiv ((1 - z) ^ 4) (1 + 4 * z + 4 * z * z - 4 * z * z * z + z * z * z * z).
(** [get_rhos_dK_HS_drhos], lines 652-657 *)
Definition rho_dKHS (z : R) : option R :=
  q <-- cdiv (- 4 * POW3 (z - 1) * (POW2 z - 5 * z - 2)) (POW2 (POW4 z - 4 * POW3 z + 4 * POW2 z + 4 * z + 1)); Some (q * z).
(** [get_a_HS], lines 660-704; [zeta], [D]: four numbers each *)
Definition a_HS (rhos : R) (zeta D : nat -> R) : option R :=
  if Req_EM_T rhos 0 then
    let U := 1 - zeta 3%nat in
    q1 <-- cdiv (3 * D 1%nat) (D 0%nat); q1 <-- cdiv (q1 * zeta 2%nat) U;
    q2 <-- cdiv (D 2%nat * D 2%nat * zeta 2%nat) (D 3%nat * D 0%nat * U * U);
    l <-- clog U; q3 <-- cdiv (D 2%nat * D 2%nat * D 2%nat) (D 3%nat * D 3%nat * D 0%nat);
    Some (q1 + q2 - l + q3 * l)
  else
    p <-- cdiv 6 (PI * rhos); q1 <-- cdiv (3 * zeta 1%nat * zeta 2%nat) (1 - zeta 3%nat);
    q2 <-- cdiv (POW3 (zeta 2%nat)) (zeta 3%nat * POW2 (1 - zeta 3%nat)); q3 <-- cdiv (POW3 (zeta 2%nat)) (POW2 (zeta 3%nat));
    l <-- clog (1 - zeta 3%nat);
    Some (p * (q1 + q2 + (q3 - zeta 0%nat) * l)).
(** [get_Bhatij], lines 712-717 *)
Definition Bhat (z X I J : R) : option R := q1 <-- cdiv (1 - z / 2) X; q2 <-- cdiv (9 * z * (1 + z)) (2 * X); Some (q1 * I - q2 * J).
(** [get_rhodBijdrho], lines 731-735 *)
Definition rho_dB (z I J B : R) : option R :=
  d <-- cdiv (- 3 * I * (z - 2) - 27 * J * z * (z + 1) + (z - 1) * (I + 9 * J * z + 9 * J * (z + 1))) (2 * POW4 (1 - z));
  Some (B + d * z).
(** [get_a1Shatij], lines 748-753 *)
Definition a1S (zeff lambda : R) : option R := q <-- cdiv (- 1) (lambda - 3); cdiv (q * (1 - zeff / 2)) (POW3 (1 - zeff)).
(** [get_rhoda1Shatijdrho], lines 766-770 *)
Definition rho_da1S (z zeff dzeff lambda : R) : option R :=
  q <-- cdiv ((2 * zeff - 5) * dzeff) (2 * (lambda - 3) * POW4 (zeff - 1)); a <-- a1S zeff lambda; Some (a + q * z).

(** * One pair of components, lines 464-603 *)
(** [I] and [J], lines 472-477 *)
Definition I_ (x0 lambda : R) : option R := p <-- cpow x0 (3 - lambda); cdiv (- (p - 1)) (lambda - 3).
Definition J_ (x0 lambda : R) : option R :=
  p4 <-- cpow x0 (4 - lambda); p3 <-- cpow x0 (3 - lambda);
  cdiv (- (p4 * (lambda - 3) - p3 * (lambda - 4) - 1)) ((lambda - 3) * (lambda - 4)).
(** lines 478-482 *)
Definition Bhat_l (x0 z lambda : R) : option R := i <-- I_ x0 lambda; j <-- J_ x0 lambda; Bhat z (POW3 (1 - z)) i j.
(** [one_term], lines 484-491 *)
Definition one_term (x0 z lambda zeff : R) : option R :=
  p <-- cpow x0 lambda; b <-- Bhat_l x0 z lambda; a <-- a1S zeff lambda; Some (p * (b + a)).
(** lines 492-495 and 509-514 *)
Definition zeff_of (c : list R) (z : R) : R := nth 0 c 0 * z + nth 1 c 0 * POW2 z + nth 2 c 0 * POW3 z + nth 3 c 0 * POW4 z.
Definition dzeff_of (c : list R) (z : R) : R := nth 0 c 0 + nth 1 c 0 * 2 * z + nth 2 c 0 * 3 * POW2 z + nth 3 c 0 * 4 * POW3 z.
(** [rhosda1iidrhos_term], lines 556-562 *)
Definition rho_da1 (x0 z lambda zeff dzeff B : R) : option R :=
  i <-- I_ x0 lambda; j <-- J_ x0 lambda; s <-- rho_da1S z zeff dzeff lambda; b <-- rho_dB z i j B; p <-- cpow x0 lambda; Some (p * (s + b)).

(** what does not depend on the pair, lines 407-462 *)
Record vstate := { s_T : R; s_rhos : R; s_mbar : R; s_xs : list R; s_x : list R; s_d : list R; s_z : R; s_zb : R; s_K : R; s_dK : R }.
Definition dmat (d : list R) (i j : nat) : R := if Nat.eqb i j then nth i d 0 else (nth i d 0 + nth j d 0) / 2.
Section Core.
Variable v : vrmie.
Variable s : vstate.
Definition x0 (i j : nat) : option R := cdiv (sigma_ij v i j) (dmat (s_d s) i j).
(** [a1ij], lines 497-499 *)
Definition a1_pair (i j : nat) : option R :=
  x <-- x0 i j; la <-- la_ij v i j; lr <-- lr_ij v i j; ca <-- cij la; cr <-- cij lr; e <-- eps_ij v i j; c <-- C_ij v i j;
  ta <-- one_term x (s_z s) la (zeff_of ca (s_z s)); tr <-- one_term x (s_z s) lr (zeff_of cr (s_z s));
  Some (2 * PI * s_rhos s * dmat (s_d s) i j ^ 3 * e * c * (ta - tr)).
(** the second-order combination, used in lines 518-520, 576-578 and 583-585 *)
Definition second_terms (i j : nat) : option (R * R * R) :=
  x <-- x0 i j; la <-- la_ij v i j; lr <-- lr_ij v i j; c2a <-- cij (2 * la); c2r <-- cij (2 * lr); car <-- cij (lr + la);
  taa <-- one_term x (s_z s) (2 * la) (zeff_of c2a (s_z s));
  tar <-- one_term x (s_z s) (la + lr) (zeff_of car (s_z s));
  trr <-- one_term x (s_z s) (2 * lr) (zeff_of c2r (s_z s));
  Some (taa, tar, trr).
(** [chi_ij], [a2ij], lines 516-521 *)
Definition a2_pair (i j : nat) : option R :=
  f1 <-- fk v 1 i j; f2 <-- fk v 2 i j; f3 <-- fk v 3 i j; e <-- eps_ij v i j; c <-- C_ij v i j; t <-- second_terms i j;
  let '(taa, tar, trr) := t in
  let zb5 := POW2 (s_zb s) * POW3 (s_zb s) in let zb8 := zb5 * POW3 (s_zb s) in
  let chi := f1 * s_zb s + f2 * zb5 + f3 * zb8 in
  Some (0.5 * s_K s * (1 + chi) * e * POW2 c * (2 * PI * s_rhos s * dmat (s_d s) i j ^ 3 * e) * (taa - 2 * tar + trr)).
(** [a3ij], lines 529-531 *)
Definition a3_pair (i j : nat) : option R :=
  f4 <-- fk v 4 i j; f5 <-- fk v 5 i j; f6 <-- fk v 6 i j; e <-- eps_ij v i j;
  Some (- POW3 e * f4 * s_zb s * exp (f5 * s_zb s + f6 * POW2 (s_zb s))).
(** lines 446-451 and 541 *)
Definition gdHS (x : R) : option R :=
  let z := s_z s in let X3 := POW3 (1 - z) in let X2 := POW2 (1 - z) in
  l <-- clog (1 - z); q0 <-- cdiv (42 * z - 39 * POW2 z + 9 * POW3 z - 2 * POW4 z) (6 * X3);
  k1 <-- cdiv (POW4 z + 6 * POW2 z - 12 * z) (2 * X3); k2 <-- cdiv (- 3 * POW2 z) (8 * X2);
  k3 <-- cdiv (- POW4 z + 3 * POW2 z + 3 * z) (6 * X3);
  Some (exp (- l + q0 + k1 * x + k2 * POW2 x + k3 * POW3 x)).
(** lines 546-568 *)
Definition g1 (i : nat) : option R :=
  let z := s_z s in
  x <-- x0 i i; la <-- la_ij v i i; lr <-- lr_ij v i i; ca <-- cij la; cr <-- cij lr; c <-- C_ij v i i;
  ta <-- one_term x z la (zeff_of ca z); tr <-- one_term x z lr (zeff_of cr z);
  Ba <-- Bhat_l x z la; Br <-- Bhat_l x z lr;
  da <-- rho_da1 x z la (zeff_of ca z) (dzeff_of ca z) Ba; dr <-- rho_da1 x z lr (zeff_of cr z) (dzeff_of cr z) Br;
  Some (3 * (c * (da - dr)) + - c * (la * ta - lr * tr)).
(** lines 573-592 *)
Definition g2MCA (i : nat) : option R :=
  let z := s_z s in
  x <-- x0 i i; la <-- la_ij v i i; lr <-- lr_ij v i i; c2a <-- cij (2 * la); c2r <-- cij (2 * lr); car <-- cij (lr + la); c <-- C_ij v i i;
  t <-- second_terms i i;
  Baa <-- Bhat_l x z (2 * la); Brr <-- Bhat_l x z (2 * lr); Bar <-- Bhat_l x z (la + lr);
  daa <-- rho_da1 x z (2 * la) (zeff_of c2a z) (dzeff_of c2a z) Baa;
  dar <-- rho_da1 x z (la + lr) (zeff_of car z) (dzeff_of car z) Bar;
  drr <-- rho_da1 x z (2 * lr) (zeff_of c2r z) (dzeff_of c2r z) Brr;
  let '(taa, tar, trr) := t in
  let noderiv := - POW2 c * s_K s * (la * taa - (la + lr) * tar + lr * trr) in
  let deriv := 0.5 * POW2 c * (s_dK s * (taa - 2 * tar + trr) + s_K s * (daa - 2 * dar + drr)) in
  Some (3 * deriv + noderiv).
(** lines 594-600 *)
Definition gMie (i : nat) : option R :=
  x <-- x0 i i; g0 <-- gdHS x; a <-- g1 i; b <-- g2MCA i; e <-- eps_ij v i i; be <-- cdiv e (s_T s); al <-- alpha_ij v i i;
  let theta := exp be - 1 in
  let gamma_c := phi_at 0 6 * (- tanh (phi_at 1 6 * (phi_at 2 6 - al)) + 1) * s_zb s * theta * exp (phi_at 3 6 * s_zb s + phi_at 4 6 * POW2 (s_zb s)) in
  q <-- cdiv (be * a + POW2 be * ((1 + gamma_c) * b)) g0;
  Some (g0 * exp q).
(** line 601 *)
Definition chain_i (i : nat) : option R := g <-- gMie i; l <-- clog g; Some (- (nth i (s_x s) 0 * (nth i (v_m v) 0 - 1) * l)).
(** the loops over the upper triangle, lines 464-465, 501-503, 523-524, 532-533 *)
Definition upper_sum (p : nat -> nat -> option R) : option R :=
  let N := length (v_m v) in
  osum N (fun i => osum (N - i) (fun k => let j := (i + k)%nat in
    a <-- p i j; Some (nth i (s_xs s) 0 * nth j (s_xs s) 0 * a * (if Nat.eqb i j then 1 else 2)))).
End Core.

(** what comes out, lines 606-638 *)
Record vcore := { o_mono : R; o_chain : R; o_eta : R; o_a1 : R; o_a2 : R; o_a3 : R }.
(** [get_core_calcs], lines 395-639 *)
Definition vstate_of (v : vrmie) (T rhomolar : R) (x d : list R) : option vstate :=
  let N := length (v_m v) in
  let mbar := sumn N (fun i => nth i x 0 * nth i (v_m v) 0) in
  rhos <-- cdiv (rhomolar * N_A * mbar) (10 ^ 30);
  xs <-- osequence (map (fun i => cdiv (nth i (v_m v) 0 * nth i x 0) mbar) (seq 0 N));
  let zx := PI / 6 * sumn N (fun i => sumn N (fun j => nth i xs 0 * nth j xs 0 * dmat d i j ^ 3 * rhos)) in
  let zb := PI / 6 * rhos * sumn N (fun i => sumn N (fun j => nth i xs 0 * nth j xs 0 * sigma_ij v i j ^ 3)) in
  K <-- KHS zx; dK <-- rho_dKHS zx;
  Some {| s_T := T; s_rhos := rhos; s_mbar := mbar; s_xs := xs; s_x := x; s_d := d; s_z := zx; s_zb := zb; s_K := K; s_dK := dK |}.
Definition D_of (s : vstate) (l : nat) : R := PI / 6 * sumn (length (s_d s)) (fun i => nth i (s_xs s) 0 * nth i (s_d s) 0 ^ l).
Definition core_of (v : vrmie) (s : vstate) : option vcore :=
  a1 <-- upper_sum v s (a1_pair v s); a2 <-- upper_sum v s (a2_pair v s); a3 <-- upper_sum v s (a3_pair v s);
  ch <-- osum (length (v_m v)) (chain_i v s);
  ahs <-- a_HS (s_rhos s) (fun l => D_of s l * s_rhos s) (D_of s);
  let T := s_T s in
  t1 <-- cdiv a1 T; t2 <-- cdiv a2 (T * T); t3 <-- cdiv a3 (T * T * T);
  Some {| o_mono := s_mbar s * (ahs + t1 + t2 + t3); o_chain := ch; o_eta := D_of s 3 * s_rhos s; o_a1 := a1; o_a2 := a2; o_a3 := a3 |}.
Definition core_calcs (v : vrmie) (T rhomolar : R) (x : list R) : outcome vcore :=
  if negb (Nat.eqb (length x) (length (v_m v))) then throws InvalidArgument
  else obind (diameters v T) (fun d => fin (s <-- vstate_of v T rhomolar x d; core_of v s)).
(** [SAFTVRMieNonpolarMixture::alphar], lines 906-915 *)
Definition vrmie_alphar (v : vrmie) (T rhomolar : R) (x : list R) : outcome R :=
  obind (core_calcs v T rhomolar x) (fun o => ok (o_mono o + o_chain o)).
(** [R], lines 901-904 *)
Definition vrmie_R : R := R_gas.

(** * Polar contributions and factories *)
(** [multipolar_contributions_variant] as far as the factory makes its members.  The Gubbins-Twu
    and Gray-Gubbins contributions are data here: they are evaluated by a function of these *)
Inductive integrals := Luckas | GubbinsTwu | Gottschalk.
Inductive vpolar :=
| PolGrossVrabec (m sigma_A eps mustar2 nmu Qstar2 nQ : list R)
| PolGubbinsTwu (k : integrals) (sigma_m eps mubar2 Qbar2 : list R) (Gubbins_rhostar : bool)
| PolGrayGubbins (k : integrals) (sigma_m eps : list R) (SIGMAIJ EPSKIJ : nat -> nat -> option R) (mu Q : list R) (flags : json).
(** lines 922-926; the non-polar class of lines 776-780 keeps the same without the last *)
Record vmixture := { x_names : list string; x_bib : list string; x_terms : vrmie; x_polar : option vpolar }.
(** the constructor of the terms, lines 190-196 and 263-281; [kmat] is given or zero, see
    [build_chain], lines 812-836 and 958-980.  The arrays all have one entry per component, and
    [check_kmat], lines 782-792 and 928-938, accepts an empty matrix *)
Definition check_kmat (k : option (list (list R))) (N : nat) : res (list (list R)) :=
  match k with
  | None => Val (repeat (repeat 0 N) N)
  | Some [] => Val []
  | Some k => if (Nat.eqb (length k) N && forallb (fun r => Nat.eqb (length r) N) k)%bool then Val k else Err InvalidArgument
  end.
(** [get_epsilon_ij(flags)], lines 239-247, the enumeration of lines 37-44 (a value not in
    its list is read as the first) and the refusal of lines 186-188 *)
Definition flag_of (flags : option json) : res epsflag :=
  match flags with
  | None => Val FlLafitte
  | Some j => if j_contains j "epsilon_ij" then bind (j_at j "epsilon_ij") (fun f =>
      match f with JStr s => if String.eqb s "Lorentz-Berthelot" then Val FlLB else if String.eqb s "Lafitte" then Val FlLafitte else Err StdInvalidArgument | _ => Err StdInvalidArgument end)
    else Val FlLafitte
  end.
Definition build_chain (cs : list vcoeffs) (k : option (list (list R))) (flags : option json) : res vrmie :=
  bind (check_kmat k (length cs)) (fun k => bind (flag_of flags) (fun f =>
  Val {| v_m := map vc_m cs; v_eps := map vc_eps cs; v_sigma := map (fun c => vc_sigma c * 10 ^ 10) cs; v_lr := map vc_lr cs; v_la := map vc_la cs; v_k := k; v_flag := f |})).
(** [build_polar], lines 981-1000: the two conditions are the wrong way round *)
Definition build_polar (cs : list vcoeffs) (v : vrmie) : option vpolar :=
  let tot f := sumn (length cs) (fun i => Rabs (nth i (map f cs) 0)) in
  let has_dipolar := if Req_EM_T (tot (fun c => vc_mustar2 c * vc_nmu c)) 0 then true else false in
  let has_quadrupolar := if Req_EM_T (tot (fun c => vc_Qstar2 c * vc_nQ c)) 0 then true else false in
  if (negb has_dipolar && negb has_quadrupolar)%bool then None
  else Some (PolGrossVrabec (v_m v) (v_sigma v) (v_eps v) (map vc_mustar2 cs) (map vc_nmu cs) (map vc_Qstar2 cs) (map vc_nQ cs)).
(** the constructors of lines 1003-1005 *)
Definition mixture_of_coeffs (cs : list vcoeffs) (k : option (list (list R))) (flags : option json) : res vmixture :=
  bind (build_chain cs k flags) (fun v => Val {| x_names := map vc_name cs; x_bib := map vc_bib cs; x_terms := v; x_polar := build_polar cs v |}).
Definition mixture_of_names (names : list string) (k : option (list (list R))) (flags : option json) : res vmixture :=
  bind (vget_coeffs names) (fun cs => mixture_of_coeffs cs k flags).
Definition mixture_of_terms (v : vrmie) (cs : list vcoeffs) (p : option vpolar) : vmixture :=
  {| x_names := map vc_name cs; x_bib := map vc_bib cs; x_terms := v; x_polar := p |}.
Section Polar.
Variable eval_polar : vpolar -> R -> R -> R -> list R -> outcome R.
(** [SAFTVRMieMixture::alphar], lines 1079-1111: the Gross-Vrabec contribution is that of PC-SAFT *)
Definition vpolar_alphar (p : vpolar) (T rhomolar eta : R) (x : list R) : outcome R :=
  match p with
  | PolGrossVrabec m sigma eps mustar2 nmu Qstar2 nQ =>
      fin (PCSAFT_model.multipolar m sigma eps T (rhomolar * N_A * / 10 ^ 30) eta x mustar2 nmu Qstar2 nQ)
  | _ => eval_polar p T (rhomolar * N_A) eta x
  end.
Definition vmixture_alphar (m : vmixture) (T rhomolar : R) (x : list R) : outcome R :=
  obind (core_calcs (x_terms m) T rhomolar x) (fun o =>
  match x_polar m with
  | None => ok (o_mono o + o_chain o)
  | Some p => obind (vpolar_alphar p T rhomolar (o_eta o) x) (fun a => ok (o_mono o + o_chain o + a))
  end).
End Polar.
(** the coefficients of one component, lines 1131-1139 and 1170-1193 *)
Definition vnumber (j : json) (k : string) : res R := bind (j_at j k) j_double.
Definition vsigma_of (j : json) : res R :=
  if j_contains j "sigma_m" then vnumber j "sigma_m" else bind (vnumber j "sigma_Angstrom") (fun s => Val (s / 10 ^ 10)).
Definition vplain (j : json) : res vcoeffs :=
  bind (bind (j_at j "name") j_string) (fun name => bind (vnumber j "m") (fun m => bind (vsigma_of j) (fun s => bind (vnumber j "epsilon_over_k") (fun e =>
  bind (vnumber j "lambda_r") (fun lr => bind (vnumber j "lambda_a") (fun la => bind (bind (j_at j "BibTeXKey") j_string) (fun b =>
  Val {| vc_name := name; vc_m := m; vc_sigma := s; vc_eps := e; vc_lr := lr; vc_la := la; vc_mustar2 := 0; vc_nmu := 0; vc_Qstar2 := 0; vc_nQ := 0; vc_bib := b |}))))))).
Definition vlegacy (j : json) (k n : string) : res (R * R) :=
  if (j_contains j k && j_contains j n)%bool then bind (vnumber j k) (fun a => bind (vnumber j n) (fun b => Val (a, b))) else Val (0, 0).
Definition vone (j : json) : res vcoeffs :=
  bind (vplain j) (fun c => bind (vlegacy j "(mu^*)^2" "nmu") (fun mu => bind (vlegacy j "(Q^*)^2" "nQ") (fun q =>
  Val {| vc_name := vc_name c; vc_m := vc_m c; vc_sigma := vc_sigma c; vc_eps := vc_eps c; vc_lr := vc_lr c; vc_la := vc_la c;
         vc_mustar2 := fst mu; vc_nmu := snd mu; vc_Qstar2 := fst q; vc_nQ := snd q; vc_bib := vc_bib c |}))).
Definition vis_polar (j : json) : bool :=
  ((j_contains j "(mu^*)^2" && j_contains j "nmu") || (j_contains j "(Q^*)^2" && j_contains j "nQ") ||
   (j_contains j "Q_Cm2" || j_contains j "Q_DA" || j_contains j "mu_Cm" || j_contains j "mu_D"))%bool.
(** [SAFTVRMieNonpolarfactory], lines 1114-1150; the matrix as in [PCSAFTfactory] *)
Definition vsized (k : option (list (list R))) (n : nat) : bool := match k with Some k => Nat.eqb (length k) n | None => true end.
Definition nonpolar_factory (spec : json) : res vrmie :=
  bind (PCSAFT_model.spec_kmat spec) (fun k =>
  if j_contains spec "names" then
    bind (bind (j_at spec "names") (j_valarray j_string)) (fun names =>
    if negb (vsized k (length names)) then Err InvalidArgument else bind (vget_coeffs names) (fun cs => build_chain cs k None))
  else if j_contains spec "coeffs" then
    bind (bind (j_at spec "coeffs") (fun l => map_res vplain (j_values l))) (fun cs =>
    if negb (vsized k (length cs)) then Err InvalidArgument else build_chain cs k None)
  else Err StdInvalidArgument).
(** the moments in base SI units, lines 1222-1267 *)
Definition D_to_Cm : R := 3.33564 * / 10 ^ 30.
Definition star_factor : R := / (4 * PI * (8.8541878128 * / 10 ^ 12) * (1.380649 * / 10 ^ 23)).
Definition moment (j : json) (star n si debye : string) (m eps sigma scale : R) (pw : nat) : outcome R :=
  if (j_contains j star && j_contains j n)%bool then
    obind (Some (vnumber j star)) (fun a => fin (q <-- cdiv (a * (m * eps * sigma ^ pw)) star_factor; csqrt q))
  else if j_contains j si then Some (vnumber j si)
  else if j_contains j debye then Some (bind (vnumber j debye) (fun a => Val (a * D_to_Cm / scale)))
  else ok 0.
Definition optional_number (j : json) (k : string) : res R := if j_contains j k then vnumber j k else Val 0.
Record vmoments := { q_m : R; q_sigma : R; q_eps : R; q_mu : R; q_Q : R; q_nmu : R; q_nQ : R }.
Definition moments_of (j : json) : outcome vmoments :=
  obind (Some (vnumber j "m")) (fun m => obind (Some (vsigma_of j)) (fun s => obind (Some (vnumber j "epsilon_over_k")) (fun e =>
  obind (moment j "(mu^*)^2" "nmu" "mu_Cm" "mu_D" m e s 1 3) (fun mu =>
  obind (moment j "(Q^*)^2" "nQ" "Q_Cm2" "Q_DA" m e s (10 ^ 10) 5) (fun q =>
  obind (Some (optional_number j "nmu")) (fun nmu => obind (Some (optional_number j "nQ")) (fun nQ =>
  ok {| q_m := m; q_sigma := s; q_eps := e; q_mu := mu; q_Q := q; q_nmu := nmu; q_nQ := nQ |}))))))).
(** lines 1276-1337 *)
Definition star2 (withm : bool) (f : vmoments -> R) (pw : nat) (q : vmoments) : option R :=
  cdiv (star_factor * f q ^ 2) ((if withm then q_m q else 1) * q_eps q * q_sigma q ^ pw).
Definition vseq (l : list (option R)) : outcome (list R) := fin (osequence l).
Definition polar_of (gray : json -> list R -> res unit) (model : string) (flags : json) (v : vrmie) (qs : list vmoments) : outcome vpolar :=
  let gt k b := obind (vseq (map (star2 false q_mu 3) qs)) (fun mu => obind (vseq (map (star2 false q_Q 5) qs)) (fun Q =>
    ok (PolGubbinsTwu k (map q_sigma qs) (map q_eps qs) mu Q b))) in
  let gg k := obind (Some (gray flags (map q_sigma qs))) (fun _ =>
    ok (PolGrayGubbins k (map q_sigma qs) (map q_eps qs) (fun i j => Some (sigma_ij v i j / 10 ^ 10)) (eps_ij v) (map q_mu qs) (map q_Q qs) flags)) in
  if String.eqb model "GrossVrabec" then
    obind (vseq (map (star2 true q_mu 3) qs)) (fun mu => obind (vseq (map (star2 true q_Q 5) qs)) (fun Q =>
    ok (PolGrossVrabec (map q_m qs) (map (fun q => q_sigma q * 10 ^ 10) qs) (map q_eps qs) mu (map q_nmu qs) Q (map q_nQ qs))))
  else if String.eqb model "GubbinsTwu+Luckas" then gt Luckas false
  else if String.eqb model "GubbinsTwu+GubbinsTwu" then gt GubbinsTwu false
  else if String.eqb model "GubbinsTwu+Gottschalk" then gt Gottschalk false
  else if String.eqb model "GrayGubbins+GubbinsTwu" then gg GubbinsTwu
  else if String.eqb model "GrayGubbins+Luckas" then gg Luckas
  else if String.eqb model "GubbinsTwu+Luckas+GubbinsTwuRhostar" then gt Luckas true
  else if String.eqb model "GubbinsTwu+GubbinsTwu+GubbinsTwuRhostar" then gt GubbinsTwu true
  else throws InvalidArgument.
(** [SAFTVRMiefactory], lines 1152-1344.  [gray] is what the constructor of the Gray-Gubbins
    contribution does with its flags; the flags are looked at only if something is polar *)
Definition vrmie_factory (gray : json -> list R -> res unit) (spec : json) : outcome vmixture :=
  obind (Some (PCSAFT_model.spec_kmat spec)) (fun k =>
  if j_contains spec "names" then
    obind (Some (bind (j_at spec "names") (j_valarray j_string))) (fun names =>
    if negb (vsized k (length names)) then throws InvalidArgument else Some (mixture_of_names names k None))
  else if j_contains spec "coeffs" then
    obind (Some (bind (j_at spec "coeffs") (fun l => Val (j_values l)))) (fun js =>
    obind (Some (map_res vone js)) (fun cs =>
    if negb (vsized k (length cs)) then throws InvalidArgument
    else if negb (existsb vis_polar js) then obind (Some (build_chain cs k None)) (fun v => ok (mixture_of_terms v cs None))
    else
      obind (if j_contains spec "polar_model" then Some (bind (j_at spec "polar_model") j_string) else ok "GrossVrabec"%string) (fun model =>
      let flags := match j_at spec "SAFTVRMie_flags" with Val j => Some j | Err _ => None end in
      let pflags := match j_at spec "polar_flags" with Val j => j | Err _ => JObj [("approach", JStr "use_packing_fraction")]%string end in
      obind (oall (map moments_of js)) (fun qs => obind (Some (build_chain cs k flags)) (fun v =>
      obind (polar_of gray model pflags v qs) (fun p => ok (mixture_of_terms v cs (Some p))))))))
  else throws StdInvalidArgument).
