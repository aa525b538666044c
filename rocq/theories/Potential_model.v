(** Model of the equations of state in simulation units:
    [include/teqp/models/model_potentials/squarewell.hpp], [exp6.hpp], [LJChain.hpp],
    [2center_ljf.hpp], [include/teqp/models/mie/mie.hpp] and [mie/lennardjones/johnson.hpp], and
    their factories in [interface/CPP/model_factory_model_potentials.cpp].

    Doubles are reals, and the decimal approximation of pi is [PI].  [None] is a value that is
    not finite (division by zero, the logarithm of a number that is not positive, a real power
    of a negative number).  [pow(x, n)] and [powi(x, n)] with a non-negative integer [n] are
    the power.  The mole fractions are not used by any of these models and are left out. *)
From Coq Require Import Reals ZArith String List Bool Lia.
From Verif Require Import Json_model Vec_spec Cubic_model Terms_model Ideal_model Util_model Assoc_model.
Import ListNotations.
Open Scope R_scope.

(** * Square well, squarewell.hpp *)
(** lines 40-54 *)
Definition sw_phi (i : nat) : list R :=
  match i with
  | 1%nat => [- 1320.19; 5124.1; - 8145.37; 6895.8; - 3381.42; 968.739; - 151.255; 9.98592]
  | _ => [1049.76; - 4023.29; 6305.95; - 5265.42; 2553.84; - 727.3; 113.631; - 7.56266]
  end.
Definition sw_theta (i : nat) : list R :=
  match i with
  | 3%nat => [0.0; - 945.597; 1326.61; - 471.688; 0.0; 23.2271; - 2.63477; 0.0]
  | _ => [0.0; 4131.09; - 10501.1; 8909.18; - 2521.96; - 16.7882; 19.5315; - 1.27373]
  end.
Definition sw_gamma (n : nat) : list R :=
  match n with
  | 1%nat => [0; - 59.0464; 26.098; 26.4454; 7.40136; 11.0743; - 5.49152; 0.781823; - 0.0319751; 0.827621; 0.605635; - 0.254959; 0.0377111; - 0.00210896; 0.0000452328]
  | 2%nat => [0; 214.316; - 88.1394; 273.3; 95.9759; 71.1228; - 40.2656; 5.94069; - 0.23842; - 2.17558; - 1.29255; 0.554993; - 0.0857543; 0.00492511; - 0.000107067]
  | 3%nat => [0; - 225.479; 88.8202; 250.472; 90.2606; 57.0274; - 33.2376; 4.99527; - 0.195714; 1.84677; 0.99813; - 0.440314; 0.0708793; - 0.00416274; 0.0000917291]
  | _ => [0; 65.0504; - 25.096; 74.3095; 26.2153; 18.4397; - 10.0891; 1.50243; - 0.057694; - 1.87154; - 1.01682; 0.445247; - 0.0725107; 0.00427862; - 0.0000949723]
  end.
(** [Rn], lines 56-63, [Qn], lines 65-72, and [gamman], lines 74-77 *)
Definition sw_Rn (g : list R) (l : R) : R := nth 3 g 0 + sumn 5 (fun k => nth (k + 4) g 0 * (l ^ 3 - 1) ^ (k + 2)).
Definition sw_Qn (g : list R) (l : R) : R := nth 9 g 0 + sumn 5 (fun k => nth (k + 10) g 0 * (l ^ 3 - 1) ^ (k + 3)).
Definition sw_gamman (n : nat) (l : R) : option R :=
  let g := sw_gamma n in
  q <-- cdiv (sw_Rn g l) (sw_Qn g l); Some (nth 1 g 0 * l + nth 2 g 0 * l ^ 2 + q).
(** [phii], lines 79-86 *)
Definition sw_phii (i : nat) (l : R) : R := sumn 8 (fun n => nth n (sw_phi i) 0 * l ^ n).
(** lines 88-92 *)
Definition sw_P1 (l : R) : R := l ^ 6 - 18 * l ^ 4 + 32 * l ^ 3 - 15.
Definition sw_P2 (l : R) : R := - (2) * l ^ 6 + 36 * l ^ 4 - 32 * l ^ 3 - 18 * l ^ 2 + 16.
Definition sw_P3 (l : R) : R := 6 * l ^ 6 - 18 * l ^ 4 + 18 * l ^ 2 - 6.
Definition sw_P4 (l : R) : R := 32 * l ^ 3 - 18 * l ^ 2 - 48.
Definition sw_P5 (l : R) : R := 5 * l ^ 6 - 32 * l ^ 3 + 18 * l ^ 2 + 26.
(** lines 94-117; [-17/2], [-17/6] and [-17/24] are divisions of integers, which truncate *)
Definition sw_a2i (i : nat) (l : R) : R := - (2) * PI / (3 * INR (fact i)) * (l ^ 3 - 1).
Definition sw_a31 (l : R) : R := - (PI / 6) ^ 2 * sw_P1 (Rmin l 2).
Definition sw_a32 (l : R) : R :=
  if Rle_dec l 2 then (PI / 6) ^ 2 * (sw_P2 l - sw_P1 l / 2) else (PI / 6) ^ 2 * (IZR (Z.quot (-17) 2) + sw_P4 l).
Definition sw_a33 (l : R) : R :=
  if Rle_dec l 2 then (PI / 6) ^ 2 * (sw_P2 l - sw_P1 l / 6 - sw_P3 l) else (PI / 6) ^ 2 * (IZR (Z.quot (-17) 6) + sw_P4 l - sw_P5 l).
Definition sw_a34 (l : R) : R :=
  if Rle_dec l 2 then (PI / 6) ^ 2 * (- sw_P1 l / 24 + 7 * sw_P2 l / 12 - 3 * sw_P3 l / 2)
  else (PI / 6) ^ 2 * (IZR (Z.quot (-17) 24) + 7 * sw_P4 l / 12 - 3 * sw_P5 l / 2).
(** lines 119-121 *)
Definition sw_xi2 (l : R) : option R := cdiv (sw_a32 l) (sw_a2i 2 l).
Definition sw_xi3 (l : R) : option R := cdiv (sw_a33 l) (sw_a2i 3 l).
Definition sw_xi4 (l : R) : option R := cdiv (sw_a34 l) (sw_a2i 4 l).
(** [Ki], lines 123-137 *)
Definition sw_Ki (i : nat) (rho l : R) : option R :=
  let t := sw_theta i in
  let num := sumn 4 (fun k => nth (k + 1) t 0 * l ^ (k + 1)) * rho ^ 2 in
  let den := 1 + rho * sumn 3 (fun k => nth (k + 5) t 0 * l ^ (k + 1)) in
  cdiv num den.
(** [Chi], line 140, and [aHS], lines 142-145 *)
Definition sw_Chi (rho l : R) : R := sw_a2i 2 l * rho * (1 - rho ^ 2 / 1.5129).
Definition sw_aHS (rho : R) : option R := cdiv (- (3) * PI * rho * (PI * rho - 8)) ((PI * rho - 6) ^ 2).
(** lines 147-169 *)
Definition sw_a1 (rho l : R) : option R :=
  s <-- osum 4 (fun k => g <-- sw_gamman (k + 1) l; Some (g * rho ^ (k + 3)));
  Some (sw_a2i 1 l * rho ^ 1 + sw_a31 l * rho ^ 2 + s).
Definition sw_a2 (rho l : R) : option R :=
  x <-- sw_xi2 l; Some (sw_Chi rho l * exp (x * rho + sw_phii 1 l * rho ^ 3 + sw_phii 2 l * rho ^ 4)).
Definition sw_a3 (rho l : R) : option R := x <-- sw_xi3 l; k <-- sw_Ki 3 rho l; Some (sw_a2i 3 l * rho * exp (x * rho + k)).
Definition sw_a4 (rho l : R) : option R := x <-- sw_xi4 l; k <-- sw_Ki 4 rho l; Some (sw_a2i 4 l * rho * exp (x * rho + k)).
(** [alphar], lines 188-203 *)
Definition sw_alphar (l T rho : R) : option R :=
  a1 <-- sw_a1 rho l; a2 <-- sw_a2 rho l; a3 <-- sw_a3 rho l; a4 <-- sw_a4 rho l;
  h <-- sw_aHS rho; q1 <-- cdiv a1 T; q2 <-- cdiv a2 (T ^ 2); q3 <-- cdiv a3 (T ^ 3); q4 <-- cdiv a4 (T ^ 4);
  Some (h + q1 + q2 + q3 + q4).

(** * exp-6, exp6.hpp *)
(** lines 22-98: p, q, r, A *)
Definition exp6_c : list (nat * R * R * R) :=
  [(1%nat, 0.0, - 0.50, - 0.6850148); (1%nat, 0.25, - 0.50, 0.4524021); (1%nat, 1.00, - 0.50, - 0.9978102); (1%nat, 2.00, - 0.50, - 1.7569237); (1%nat, 3.00, - 0.50, 0.5178725);
   (1%nat, 0.0, 0.0, 0.9798958); (1%nat, 0.25, 0.0, 2.0371027); (1%nat, 1.00, 0.0, - 5.3831902); (1%nat, 2.00, 0.0, 2.5157204); (1%nat, 3.00, 0.0, - 1.3160448);
   (1%nat, 0.0, 1.50, 0.1106332); (1%nat, 0.25, 1.50, 0.0221654); (1%nat, 1.00, 1.50, - 0.0927995); (1%nat, 2.00, 1.50, 0.0685976); (1%nat, 3.00, 1.50, 0.0455256);
   (2%nat, 0.0, - 0.50, 3.2473965); (2%nat, 0.25, - 0.50, - 7.1216450); (2%nat, 1.00, - 0.50, 6.3146334); (2%nat, 2.00, - 0.50, 3.9169369); (2%nat, 3.00, - 0.50, - 5.7430820);
   (2%nat, 0.0, 0.0, - 2.6474066); (2%nat, 0.25, 0.0, 6.5439167); (2%nat, 1.00, 0.0, - 4.2844410); (2%nat, 2.00, 0.0, - 0.1870927); (2%nat, 3.00, 0.0, - 0.6190643);
   (2%nat, 0.0, 1.50, 1.1307259); (2%nat, 0.25, 1.50, - 2.2454348); (2%nat, 1.00, 1.50, 0.9304036); (2%nat, 2.00, 1.50, 0.8111790); (2%nat, 3.00, 1.50, - 0.6701541);
   (3%nat, 0.0, - 0.50, - 5.2004805); (3%nat, 0.25, - 0.50, 9.9220171); (3%nat, 1.00, - 0.50, - 8.3147421); (3%nat, 2.00, - 0.50, - 10.7043695); (3%nat, 3.00, - 0.50, 16.3647919);
   (3%nat, 0.0, 0.0, 0.4470198); (3%nat, 0.25, 0.0, 1.8149662); (3%nat, 1.00, 0.0, - 6.1030884); (3%nat, 2.00, 0.0, - 6.6081009); (3%nat, 3.00, 0.0, 12.0017595);
   (3%nat, 0.0, 1.50, - 2.4980745); (3%nat, 0.25, 1.50, 6.4317245); (3%nat, 1.00, 1.50, - 0.2996140); (3%nat, 2.00, 1.50, - 4.2253304); (3%nat, 3.00, 1.50, 1.9814978);
   (4%nat, 0.0, - 0.50, 1.3786678); (4%nat, 0.25, - 0.50, - 3.8790855); (4%nat, 1.00, - 0.50, 1.2802448); (4%nat, 2.00, - 0.50, 15.9196701); (4%nat, 3.00, - 0.50, - 17.1450195);
   (4%nat, 0.0, 0.0, 1.8664589); (4%nat, 0.25, 0.0, - 2.6899223); (4%nat, 1.00, 0.0, 10.8094797); (4%nat, 2.00, 0.0, 6.9019051); (4%nat, 3.00, 0.0, - 18.3938751);
   (4%nat, 0.0, 1.50, 3.4184790); (4%nat, 0.25, 1.50, - 8.8453131); (4%nat, 1.00, 1.50, - 2.0526648); (4%nat, 2.00, 1.50, 6.2798786); (4%nat, 3.00, 1.50, - 2.0717278);
   (5%nat, 0.0, - 0.50, 1.0566063); (5%nat, 0.25, - 0.50, - 1.1453161); (5%nat, 1.00, - 0.50, 1.9671011); (5%nat, 2.00, - 0.50, - 7.9601946); (5%nat, 3.00, - 0.50, 6.1615953);
   (5%nat, 0.0, 0.0, - 1.5089417); (5%nat, 0.25, 0.0, 1.0174732); (5%nat, 1.00, 0.0, - 2.4891043); (5%nat, 2.00, 0.0, - 2.3425989); (5%nat, 3.00, 0.0, 8.2107668);
   (5%nat, 0.0, 1.50, - 1.7408895); (5%nat, 0.25, 1.50, 5.0178003); (5%nat, 1.00, 1.50, 1.4885798); (5%nat, 2.00, 1.50, - 3.0418901); (5%nat, 3.00, 1.50, 0.7206789)].
(** the constructor, line 104, and [get_alpha], line 112 *)
Definition exp6_alphastar (alpha : R) : R := (alpha - 8) / 10.
Definition exp6_get_alpha (alphastar : R) : R := alphastar * 10 + 8.
(** [alphar], lines 120-132 *)
Fixpoint osum_list {A} (f : A -> option R) (l : list A) : option R :=
  match l with [] => Some 0 | a :: l' => v <-- f a; s <-- osum_list f l'; Some (v + s) end.
Definition exp6_term (alphastar T rho : R) (c : nat * R * R * R) : option R :=
  let '(p, q, r, A) := c in
  t <-- cpow T (- q); a <-- cpow alphastar r; Some (A * rho ^ p * t * a).
Definition exp6_alphar (alpha T rho : R) : option R := osum_list (exp6_term (exp6_alphastar alpha) T rho) exp6_c.

(** * Lennard-Jones chains, LJChain.hpp *)
(** lines 18-25 *)
Definition chain_a : list (list R) :=
  [[];
   [0; 0.49304346593882; 2.1528349894745; - 15.955682329017; 24.035999666294; - 8.6437958513990];
   [0; - 0.47031983115362; 1.1471647487376; 37.889828024211; - 84.667121491179; 39.643914108411];
   [0; 5.0325486243620; - 25.915399226419; - 18.862251310090; 107.63707381726; - 66.602649735720];
   [0; - 7.3633150434385; 51.553565337453; - 40.519369256098; - 38.796692647218; 44.605139198378];
   [0; 2.9043607296043; - 24.478812869291; 31.500186765040; - 5.3368920371407; - 9.5183440180133]].
(** [g_LJ], lines 30-39; [powi(T, 1 - j)] is the power of 1/T *)
Definition g_LJ (T rho : R) : option R :=
  t <-- cdiv 1 T;
  Some (1 + sumn 5 (fun i => sumn 5 (fun j => nth (j + 1) (nth (i + 1) chain_a []) 0 * rho ^ (i + 1) * t ^ j))).
(** [alphar], lines 46-55; the monomer is any equation of state *)
Definition chain_alphar (monomer : R -> R -> option R) (m T rho : R) : option R :=
  a <-- monomer T (rho * m); g <-- g_LJ T (rho * m); l <-- clog g;
  Some ((1 - m) * l + m * a).

(** * Mie fluids, mie.hpp *)
(** lines 19-35 *)
Definition pohl_c1_pol : list R := [- 0.0192944; 1.38; - 2.2653; 1.6291; - 1.974; 0.40412].
Definition pohl_c1_exp : list R := [0.1845; - 0.3227; 1.1351; 2.232; - 2.344; - 0.4238].
Definition pohl_c1_gbs : list R := [- 4.367; 0.0371; 1.3895; 2.835].
Definition pohl_c2_pol : list R := [0.26021; - 5.525; 8.329; - 19.492; 25.8; - 3.8133].
Definition pohl_c2_exp : list R := [- 5.05; 2.7842; - 9.523; - 30.383; 17.902; 2.2264].
Definition pohl_c2_gbs : list R := [48.445; - 5.506; - 11.643; - 24.36].
Definition pohl_t_pol : list R := [1; 0.236; 0.872; 0.313; 0.407; 0.703].
Definition pohl_t_exp : list R := [1.78; 2.99; 2.866; 1.2; 3.06; 1.073].
Definition pohl_t_gbs : list R := [1.50; 1.03; 4.02; 1.57].
Definition pohl_d_pol : list nat := [4; 1; 1; 2; 2; 3]%nat.
Definition pohl_d_exp : list nat := [1; 1; 3; 2; 2; 5]%nat.
Definition pohl_d_gbs : list nat := [2; 3; 2; 2]%nat.
Definition pohl_p : list nat := [1; 2; 2; 1; 2; 1]%nat.
Definition pohl_eta : list R := [0.362; 0.313; 1.17; 0.957].
Definition pohl_beta : list R := [0.0761; 0.143; 0.63; 1.32].
Definition pohl_gam : list R := [1.55; - 0.0826; 1.505; 1.07].
Definition pohl_eps : list R := [- 1; - 1; - 0.195; - 0.287].
(** the constructor, lines 43-49; [log10] *)
Definition pohl_n (c1 c2 : list R) (lr : R) (i : nat) : option R := q <-- cdiv (nth i c2 0) lr; Some (nth i c1 0 + q).
Definition pohl_Tc (lr : R) : option R := q1 <-- cdiv 6.84 lr; q3 <-- cdiv 145 (lr ^ 3); Some (0.668 + q1 + q3).
Definition pohl_rhoc (lr : R) : option R := l <-- clog lr; Some (0.2516 + 0.049 * (l / ln 10)).
(** [alphar], lines 58-66 *)
Definition pohl_alphar (lr T rho : R) : option R :=
  Tc <-- pohl_Tc lr; rhoc <-- pohl_rhoc lr; tau <-- cdiv Tc T; delta <-- cdiv rho rhoc;
  s1 <-- osum 6 (fun i => n <-- pohl_n pohl_c1_pol pohl_c2_pol lr i; t <-- cpow tau (nth i pohl_t_pol 0); Some (n * t * delta ^ nth i pohl_d_pol 0%nat));
  s2 <-- osum 6 (fun i => n <-- pohl_n pohl_c1_exp pohl_c2_exp lr i; t <-- cpow tau (nth i pohl_t_exp 0);
                          Some (n * t * delta ^ nth i pohl_d_exp 0%nat * exp (- delta ^ nth i pohl_p 0%nat)));
  s3 <-- osum 4 (fun i => n <-- pohl_n pohl_c1_gbs pohl_c2_gbs lr i; t <-- cpow tau (nth i pohl_t_gbs 0);
                          Some (n * t * delta ^ nth i pohl_d_gbs 0%nat *
                                exp (- nth i pohl_eta 0 * (delta - nth i pohl_eps 0) ^ 2 - nth i pohl_beta 0 * (tau - nth i pohl_gam 0) ^ 2)));
  Some (s1 + s2 + s3).
(** The neural network of Chaparro and Mueller, lines 72-130.  Its constants (lines 74-77, defined
    in [src/data/]) are a parameter: four layers of weights and biases, and the last weights *)
Record network := { layers : list ((nat -> nat -> R) * list R); last : list R }.
(** [alpha_helper], lines 84-88 *)
Definition mie_alpha (lr la : R) : option R :=
  q1 <-- cdiv lr (lr - la); q2 <-- cdiv lr la; q3 <-- cdiv la (lr - la); p <-- cpow q2 q3;
  i1 <-- cdiv 1 (la - 3); i2 <-- cdiv 1 (lr - 3);
  Some (q1 * p * (i1 - i2)).
(** lines 110-124: one layer, and the network *)
Definition layer (x : list R) (Wb : (nat -> nat -> R) * list R) : list R :=
  map (fun j => tanh (sumn (length x) (fun i => nth i x 0 * fst Wb i j) + nth j (snd Wb) 0)) (seq 0 (length (snd Wb))).
Definition evaluate (n : network) (x : list R) : R :=
  let y := fold_left layer (layers n) x in sumn (length y) (fun i => nth i y 0 * nth i (last n) 0).
(** [alphar], lines 102-127 *)
Definition chaparro_alphar (n : network) (alpha T rho : R) : option R :=
  t <-- cdiv 1 T; cdiv (evaluate n [alpha; rho; t] - evaluate n [alpha; 0; t]) T.

(** * Lennard-Jones 12-6, johnson.hpp *)
(** Kolafa and Nezbeda, lines 15-55 *)
Definition kn_dhBH : list (R * R) := [(- 2, 0.011117524); (- 1, - 0.076383859); (0, 1.080142248); (1, 0.000693129)].
Definition kn_ln_dhBH : R := - 0.063920968.
Definition kn_DeltaB2 : list (R * R) := [(- 7, - 0.58544978); (- 6, 0.43102052); (- 5, 0.87361369); (- 4, - 4.13749995); (- 3, 2.90616279); (- 2, - 7.02181962); (0, 0.02459877)].
Definition kn_Cij : list (R * nat * R) :=
  [(0, 2%nat, 2.01546797); (0, 3%nat, - 28.17881636); (0, 4%nat, 28.28313847); (0, 5%nat, - 10.42402873); (- 1, 2%nat, - 19.58371655); (- 1, 3%nat, 75.62340289); (- 1, 4%nat, - 120.70586598); (- 1, 5%nat, 93.92740328); (- 1, 6%nat, - 27.37737354); (- 2, 2%nat, 29.34470520); (- 2, 3%nat, - 112.3535693); (- 2, 4%nat, 170.64908980); (- 2, 5%nat, - 123.06669187); (- 2, 6%nat, 34.42288969); (- 4, 2%nat, - 13.37031968); (- 4, 3%nat, 65.38059570); (- 4, 4%nat, - 115.09233113); (- 4, 5%nat, 88.91973082); (- 4, 6%nat, - 25.62099890)].
Definition kn_gamma : R := 1.92907278.
(** [get_dhBH], [get_d_dhBH_d1T], [get_DeltaB2hBH] and [get_d_DeltaB2hBH_d1T], lines 57-93 *)
Definition get_dhBH (T : R) : option R :=
  l <-- clog T; s <-- osum_list (fun c => p <-- cpow T (fst c / 2); Some (snd c * p)) kn_dhBH; Some (kn_ln_dhBH * l + s).
Definition get_d_dhBH_d1T (T : R) : option R :=
  s <-- osum_list (fun c => p <-- cpow T (fst c / 2); Some (fst c / 2 * snd c * p)) kn_dhBH; Some (- T * (kn_ln_dhBH + s)).
Definition get_DeltaB2hBH (T : R) : option R := osum_list (fun c => p <-- cpow T (fst c / 2); Some (snd c * p)) kn_DeltaB2.
Definition get_d_DeltaB2hBH_d1T (T : R) : option R :=
  s <-- osum_list (fun c => p <-- cpow T (fst c / 2); Some (fst c / 2 * snd c * p)) kn_DeltaB2; Some (- T * s).
(** [get_ahs], lines 95-100.  [get_zhs], lines 102-107, cannot be instantiated ([zeta**zeta]) and is
    never used *)
Definition get_ahs (T rho : R) : option R :=
  d <-- get_dhBH T;
  let zeta := PI / 6 * rho * d ^ 3 in
  l <-- clog (1 - zeta); q <-- cdiv (zeta * (34 - 33 * zeta + 4 * zeta ^ 2)) (6 * (1 - zeta) ^ 2);
  Some (T * (5 / 3 * l + q)).
(** [get_a], lines 109-117, and [alphar], lines 124-127 *)
Definition kn_alphar (T rho : R) : option R :=
  s <-- osum_list (fun c => let '(i, j, C) := c in p <-- cpow T (i / 2); Some (C * p * rho ^ j)) kn_Cij;
  a <-- get_ahs T rho; B <-- get_DeltaB2hBH T;
  cdiv (a + exp (- kn_gamma * rho ^ 2) * rho * T * B + s) T.

(** Johnson, Zollweg and Gubbins, lines 158-194 *)
Definition johnson_gamma : R := 3.
Definition johnson_x : list R :=
  [0.0; 0.8623085097507421; 2.976218765822098; - 8.402230115796038; 0.1054136629203555; - 0.8564583828174598; 1.582759470107601; 0.7639421948305453; 1.753173414312048; 2.798291772190376e03; - 4.8394220260857657e-2; 0.9963265197721935; - 3.698000291272493e01; 2.084012299434647e01; 8.305402124717285e01; - 9.574799715203068e02; - 1.477746229234994e02; 6.398607852471505e01; 1.603993673294834e01; 6.805916615864377e01; - 2.791293578795945e03; - 6.245128304568454; - 8.116836104958410e03; 1.488735559561229e01; - 1.059346754655084e04; - 1.131607632802822e02; - 8.867771540418822e03; - 3.986982844450543e01; - 4.689270299917261e03; 2.593535277438717e02; - 2.694523589434903e03; - 7.218487631550215e02; 1.721802063863269e02].
Definition xj (i : nat) : R := nth i johnson_x 0.
(** [get_ai] and [get_bi], lines 196-240, for i = 1..8 and 1..6; [T] is not zero ([alphar] divides by it) *)
Definition get_ai (i : nat) (T : R) : option R :=
  match i with
  | 1%nat => s <-- csqrt T; Some (xj 1 * T + xj 2 * s + xj 3 + xj 4 / T + xj 5 / T ^ 2)
  | 2%nat => Some (xj 6 * T + xj 7 + xj 8 / T + xj 9 / T ^ 2)
  | 3%nat => Some (xj 10 * T + xj 11 + xj 12 / T)
  | 4%nat => Some (xj 13)
  | 5%nat => Some (xj 14 / T + xj 15 / T ^ 2)
  | 6%nat => Some (xj 16 / T)
  | 7%nat => Some (xj 17 / T + xj 18 / T ^ 2)
  | _ => Some (xj 19 / T ^ 2)
  end.
Definition get_bi (i : nat) (T : R) : R :=
  match i with
  | 1%nat => xj 20 / T ^ 2 + xj 21 / T ^ 3
  | 2%nat => xj 22 / T ^ 2 + xj 23 / T ^ 4
  | 3%nat => xj 24 / T ^ 2 + xj 25 / T ^ 3
  | 4%nat => xj 26 / T ^ 2 + xj 27 / T ^ 4
  | 5%nat => xj 28 / T ^ 2 + xj 29 / T ^ 3
  | _ => xj 30 / T ^ 2 + xj 31 / T ^ 3 + xj 32 / T ^ 4
  end.
(** [get_Gi], lines 242-252: [get_Gi (S n)] is the G of index [n + 1] of the text *)
Fixpoint get_G (n : nat) (F rho : R) : R :=
  match n with
  | 0%nat => (1 - F) / (2 * johnson_gamma)
  | S n' => - (F * rho ^ (2 * n) - 2 * INR n * get_G n' F rho) / (2 * johnson_gamma)
  end.
(** [get_alphar], lines 254-265, and [alphar], lines 273-276 *)
Definition johnson_alphar (T rho : R) : option R :=
  let F := exp (- johnson_gamma * rho ^ 2) in
  if Req_EM_T T 0 then None
  else
  s <-- osum 8 (fun k => a <-- get_ai (k + 1) T; Some (a * rho ^ (k + 1) / INR (k + 1)));
  cdiv (s + sumn 6 (fun k => get_bi (k + 1) T * get_G k F rho)) T.

(** * Two centres, 2center_ljf.hpp *)
(** lines 20-22 *)
Inductive ctype := MECKE | LISAL.
Definition modelmap (name : string) : res ctype :=
  if String.eqb name "2CLJF_Mecke" then Val MECKE else if String.eqb name "2CLJF_Lisal" then Val LISAL else Err StdOutOfRange.
(** [p_alpha], lines 28-31 *)
Definition tc_alpha (t : ctype) : list R :=
  match t with
  | MECKE => [1.0; 0.5296092; - 0.4531784; 0.4421075]
  | LISAL => [1.0; 0.5296092; - 0.4531784; 0.4421075]
  end.
(** [p_eta_rho], lines 37-40 *)
Definition tc_eta_rho (t : ctype) : list R :=
  match t with
  | MECKE => [0.5256; 3.2088804; - 3.1499114; 0.43049357]
  | LISAL => [0.5256; 3.2088804; - 3.1499114; 0.43049357]
  end.
(** [p_rho], lines 46-49 *)
Definition tc_rho (t : ctype) : list R :=
  match t with
  | MECKE => [0.3128; 1.11519758; 3.48878614; 6.10644999]
  | LISAL => [0.31258137; 1.2240569; 3.7974509; 6.5490937]
  end.
(** [p_t], lines 56-59 *)
Definition tc_t (t : ctype) : list R :=
  match t with
  | MECKE => [34.0122223; 17.2324198; 0.52922987; 12.7653979]
  | LISAL => [34.037352; 17.733741; 0.53237307; 12.860239]
  end.
(** [c], lines 66-69 *)
Definition tc_c (t : ctype) : list R :=
  match t with
  | MECKE => [- 0.25359778252E+00; 0.94270769752E-02; 0.10937076431E-03; - 0.45230360227E-05; - 0.98945319827E+00; 0.77816220730E+01; - 0.19338901724E+02; 0.16188444167E+02; - 0.47837698146E+01; - 0.37128104806E-05; 0.11481369341E+01; - 0.13600256513E+01; - 0.34629572236E-05; - 0.48388274860E+00; 0.92061274747E+00; - 0.38763633820E+00; - 0.20652959726E+01; 0.53102723110E+01; - 0.45202666343E+01; 0.12858167202E+01; 0.31043103969E-03; 0.76115392332E-05; - 0.15141679018E+01; 0.26132719232E+01; - 0.88015285297E+00; - 0.48730358072E-02; - 0.14612399648E-01; - 0.19908427778E-03; - 0.29960728655E+00; 0.25016932001E+00; 0.16495699794E-01; 0.35210453535E+00; - 0.43243419699E+00; - 0.31194438133E-01]
  | LISAL => [- 0.64211055047e-1; 0.17682583145e-2; - 0.62963373291e0; - 0.35320115512e0; 0.11339264270e2; - 0.33311941616e2; 0.37022843830e2; - 0.18683743554e2; 0.34566448842e1; - 0.11216048862e-5; 0.69315597535e0; - 0.95242644353e0; 0.13303429920e-1; - 0.17518819492e-4; 0.30942693727e-5; 0.44671277084e-1; - 0.84065404026e0; 0.12662354443e1; - 0.43706789738e0; 0.34751432401e-5; - 0.52988956334e-6; 0.37399304905e-1; - 0.32905342462e0; 0.63121341882e-1; - 0.20913100716e-2; - 0.26852824281e-1; 0.70733527178e-1; 0.58291227149e-1; - 0.76337837062e-1; - 0.37502524667e-1; 0.19201247728e-2; - 0.76922623587e-1; 0.12939011597e0; - 0.37539710780e-1]
  end.
(** [m], lines 75-78 *)
Definition tc_m (t : ctype) : list R :=
  match t with
  | MECKE => [- 1.5; - 1.5; - 1.5; - 1.5; - 1.0; - 1.0; - 1.0; - 1.0; - 1.0; - 1.0; - 0.5; - 0.5; - 0.5; 0.0; 0.0; 0.0; 0.0; 0.0; 0.0; 0.0; 0.0; 0.0; - 2.0; - 2.0; - 2.0; - 2.0; 0.0; 0.0; - 4.0; - 4.0; - 4.0; - 3.0; - 3.0; - 3.0]
  | LISAL => [- 1.50; - 1.50; - 1.00; - 1.00; - 1.00; - 1.00; - 1.00; - 1.00; - 1.00; - 1.00; - 0.50; - 0.50; - 0.50; - 0.50; - 0.50; 0.00; 0.00; 0.00; 0.00; 0.00; 0.00; - 3.00; - 2.00; - 2.00; - 2.00; - 1.00; 0.00; - 4.00; - 4.00; - 4.00; - 4.00; 0.00; 0.00; 0.00]
  end.
(** [n], lines 84-87 *)
Definition tc_n (t : ctype) : list R :=
  match t with
  | MECKE => [1.0; 3.0; 7.0; 9.0; 1.0; 2.0; 2.0; 2.0; 2.0; 9.0; 1.0; 1.0; 9.0; 1.0; 1.0; 1.0; 3.0; 3.0; 3.0; 3.0; 5.0; 8.0; 2.0; 2.0; 2.0; 5.0; 5.0; 9.0; 2.0; 2.0; 4.0; 1.0; 1.0; 4]
  | LISAL => [2.0; 5.0; 1.0; 1.0; 2.0; 2.0; 2.0; 2.0; 2.0; 10.0; 1.0; 1.0; 3.0; 9.0; 10.0; 1.0; 2.0; 2.0; 2.0; 9.0; 10.0; 1.0; 1.0; 3.0; 6.0; 3.0; 3.0; 1.0; 1.0; 2.0; 6.0; 1.0; 1.0; 1.0]
  end.
(** [o], lines 93-96 *)
Definition tc_o (t : ctype) : list R :=
  match t with
  | MECKE => [0; - 1; - 2; - 3; 0; - 3; - 2; - 1; 0; - 3; - 3; - 2; - 3; - 3; - 1; 0; 1; 2; 3; 4; 4; - 1; - 2; - 1; 0; - 1; 3; 2; - 3; - 2; - 1; - 3; - 1; 4]
  | LISAL => [- 3; - 2; 0; 1; - 3; - 2; - 1; 0; 1; - 3; - 3; - 2; - 1; - 3; - 2; 0; - 3; - 2; - 1; 0; 2; - 2; 0; 0; 1; 2; - 1; - 3; 0; - 3; - 2; - 3; 1; 3]
  end.
(** [p], lines 102-105 *)
Definition tc_p (t : ctype) : list R :=
  match t with
  | MECKE => [0.0; 0.0; 0.0; 0.0; 0.0; 0.0; 0.0; 0.0; 0.0; 0.0; 0.0; 0.0; 0.0; 0.0; 0.0; 0.0; 0.0; 0.0; 0.0; 0.0; 0.0; 0.0; - 1.0; - 1.0; - 1.0; - 1.0; - 1.0; - 1.0; - 1.0; - 1.0; - 1.0; - 1.0; - 1.0; - 1]
  | LISAL => [0.0; 0.0; 0.0; 0.0; 0.0; 0.0; 0.0; 0.0; 0.0; 0.0; 0.0; 0.0; 0.0; 0.0; 0.0; 0.0; 0.0; 0.0; 0.0; 0.0; 0.0; - 1.0; - 1.0; - 1.0; - 1.0; - 1.0; - 1.0; - 1.0; - 1.0; - 1.0; - 1.0; - 1.0; - 1.0; - 1]
  end.
(** [q], lines 111-114 *)
Definition tc_q (t : ctype) : list R :=
  match t with
  | MECKE => [0.0; 0.0; 0.0; 0.0; 0.0; 0.0; 0.0; 0.0; 0.0; 0.0; 0.0; 0.0; 0.0; 0.0; 0.0; 0.0; 0.0; 0.0; 0.0; 0.0; 0.0; 0.0; 1.0; 1.0; 1.0; 1.0; 1.0; 1.0; 2.0; 2.0; 2.0; 2.0; 2.0; 2]
  | LISAL => [0.0; 0.0; 0.0; 0.0; 0.0; 0.0; 0.0; 0.0; 0.0; 0.0; 0.0; 0.0; 0.0; 0.0; 0.0; 0.0; 0.0; 0.0; 0.0; 0.0; 0.0; 1.0; 1.0; 1.0; 1.0; 1.0; 1.0; 2.0; 2.0; 2.0; 2.0; 2.0; 2.0; 2]
  end.
(** [cd], lines 121-124; the two models have the same values *)
Definition tc_cd : list R :=
  [- 0.423652173318e-01; 0.204459397242e-01; 0.664266837321e-01; - 0.324168341478e-01; - 0.741263275720e-02; - 0.160855507113e-01; 0.435623305093e-02; - 0.105933370736e-03; - 0.132000046519e-05; 0.838157718194e-05; 0.109144074057e-01; 0.257960188278e-01; - 0.544140085185e-03; 0.349568484468e-02; - 0.421407562467e-01; - 0.745992658113e-02; 0.146102252152e-03; 0.566611094911e-03; - 0.378643890614e-02; - 0.365824539450e-01; 0.169287932475e-01; 0.663866480778e-02; 0.294409406715e-01; - 0.112110434947e-01; - 0.182144939032e-05; 0.758594753989e-07; - 0.216942306418e-04; - 0.274025042954e-05].
(** [nd], lines 130-133; the two models have the same values *)
Definition tc_nd : list R :=
  [- 5.0; - 8.0; - 4.0; - 3.0; - 10.0; - 7.0; - 10.0; - 11.0; - 15.0; - 10.0; - 2.0; - 2.0; - 1.0; - 5.0; - 3.0; - 1.0; 1.0; - 9.0; - 7.0; - 2.0; - 1.0; - 5.0; - 2.0; - 1.0; - 8.0; - 5.0; 1.0; - 4.0].
(** [md], lines 139-142; the two models have the same values *)
Definition tc_md : list R :=
  [2.0; 2.0; 2.0; 2.0; 2.0; 2.0; 2.0; 2.0; 2.0; 3.0; 2.0; 3.0; 6.0; 2.0; 3.0; 3.0; 6.0; 2.0; 2.0; 2.0; 2.0; 3.0; 3.0; 3.0; 10.0; 16.0; 4.0; 9.0].
(** [kd], lines 148-151; the two models have the same values *)
Definition tc_kd : list R :=
  [5.0; 6.0; 7.0; 7.0; 9.0; 9.0; 11.0; 15.0; 18.0; 18.0; 5.0; 5.0; 5.0; 6.0; 6.0; 6.0; 6.0; 7.0; 7.0; 7.0; 7.0; 7.0; 7.0; 7.0; 7.0; 7.0; 8.0; 10.0].
(** [od], lines 157-160; the two models have the same values *)
Definition tc_od : list R :=
  [1.0; 1.0; 1.0; 1.0; 1.0; 1.0; 1.0; 1.0; 1.0; 1.0; 0.0; 0.0; 0.0; 0.0; 0.0; 0.0; 0.0; 0.0; 0.0; 0.0; 0.0; 0.0; 0.0; 0.0; 0.0; 0.0; 0.0; 0.0].
(** [cq], lines 167-170; the two models have the same values *)
Definition tc_cq : list R :=
  [- 0.41215428089610E-2; 0.35578044173610E-2; - 0.88809379838910E-3; 0.97379155960910E-4; - 0.60423371932610E-7; - 0.30447863314610E-4; - 0.37893019633710E-3; - 0.27538826735210E-1; 0.11830188842010E-1; - 0.28345123056210E-2; - 0.56770387482810E-4; 0.31470857321210E-2; 0.96378605256910E-3; - 0.12759100242410E-2; 0.36374646323810E-3; 0.30106794309610E-4; 0.29177823112810E-6].
(** [nq], lines 176-179; the two models have the same values *)
Definition tc_nq : list R :=
  [- 8.0; - 6.0; - 4.0; - 10.0; - 20.0; - 8.0; - 3.0; - 3.0; - 2.0; 0.0; - 5.0; - 1.0; - 3.0; - 1.0; 0.0; 0.0; - 10.0].
(** [mq], lines 185-188; the two models have the same values *)
Definition tc_mq : list R :=
  [2.0; 2.0; 2.0; 2.0; 2.0; 2.0; 8.0; 2.0; 2.0; 2.0; 8.0; 2.0; 5.0; 5.0; 5.0; 8.0; 7.0].
(** [kq], lines 194-197; the two models have the same values *)
Definition tc_kq : list R :=
  [11.0; 12.0; 13.0; 16.0; 19.0; 20.0; 7.0; 8.0; 8.0; 8.0; 8.0; 9.0; 10.0; 10.0; 10.0; 10.0; 18.0].
(** [oq], lines 203-206; the two models have the same values *)
Definition tc_oq : list R :=
  [1.0; 1.0; 1.0; 1.0; 1.0; 1.0; 0.0; 0.0; 0.0; 0.0; 0.0; 0.0; 0.0; 0.0; 0.0; 0.0; 0.0].
(** [ReducingDensity] and [ReducingTemperature], lines 214-248 *)
Definition get_alpha_star (t : ctype) (L : R) : option R :=
  p1 <-- cpow L 3.5; Some (nth 0 (tc_alpha t) 0 + nth 1 (tc_alpha t) 0 * L ^ 2 + nth 2 (tc_alpha t) 0 * p1 + nth 3 (tc_alpha t) 0 * L ^ 4).
Definition get_eta_over_rho (t : ctype) (L : R) : option R :=
  p1 <-- cpow L 2.5; Some (nth 0 (tc_eta_rho t) 0 + nth 1 (tc_eta_rho t) 0 * L ^ 2 + nth 2 (tc_eta_rho t) 0 * p1 + nth 3 (tc_eta_rho t) 0 * L ^ 4).
Definition get_rho_red (t : ctype) (L : R) : option R :=
  cdiv (nth 0 (tc_rho t) 0 + nth 1 (tc_rho t) 0 * L) (1 + nth 2 (tc_rho t) 0 * L + nth 3 (tc_rho t) 0 * L ^ 2).
Definition get_T_red (t : ctype) (L : R) : option R :=
  q <-- cdiv (nth 0 (tc_t t) 0 + nth 1 (tc_t t) 0 * L) (1 + nth 2 (tc_t t) 0 * L + nth 3 (tc_t t) 0 * L ^ 2); s <-- csqrt q;
  Some (if Req_EM_T L 0 then 0.25 * s else s).
(** [static_cast<int>] of the exponents of lines 84-87 and 111-114, which are not negative *)
Definition to_nat (r : R) : nat := Z.to_nat (Int_part r).
(** [AttractiveContribution::alphar], lines 254-264 *)
Definition attractive (t : ctype) (tau delta alpha : R) : option R :=
  osum (length (tc_c t)) (fun i =>
    p1 <-- cpow tau (nth i (tc_m t) 0); p2 <-- cpow alpha (nth i (tc_o t) 0);
    Some (nth i (tc_c t) 0 * p1 * delta ^ to_nat (nth i (tc_n t) 0) * p2 * exp (nth i (tc_p t) 0 * delta ^ to_nat (nth i (tc_q t) 0)))).
(** [HardSphereContribution::alphar], lines 268-281 *)
Definition hard_a : R := 0.67793.
Definition hard_g : R := 0.3674.
Definition hardsphere (tau delta alpha : R) : option R :=
  p1 <-- cpow tau hard_g; eta <-- cdiv delta (hard_a + (1 - hard_a) * p1);
  l <-- clog (1 - eta); q <-- cdiv ((alpha ^ 2 + 3 * alpha) * eta - 3 * alpha * eta ^ 2) ((1 - eta) ^ 2);
  Some ((alpha ^ 2 - 1) * l + q).
(** [DipolarContribution::alphar], lines 283-297, also used for quadrupoles ([get_Quadrupolar_contribution],
    lines 398-407, returns a [DipolarContribution] with the other constants) *)
Record polar := { po_c : list R; po_n : list R; po_m : list R; po_k : list R; po_o : list R }.
Definition dipole_terms : polar := {| po_c := tc_cd; po_n := tc_nd; po_m := tc_md; po_k := tc_kd; po_o := tc_od |}.
Definition quadrupole_terms : polar := {| po_c := tc_cq; po_n := tc_nq; po_m := tc_mq; po_k := tc_kq; po_o := tc_oq |}.
Definition polar_alphar (p : polar) (tau delta mu_sq : R) : option R :=
  osum (length (po_c p)) (fun i =>
    p1 <-- cpow tau (nth i (po_n p) 0 / 2); p2 <-- cpow delta (nth i (po_m p) 0 / 2); p3 <-- cpow mu_sq (nth i (po_k p) 0 / 4);
    Some (nth i (po_c p) 0 * p1 * p2 * p3 * exp (- nth i (po_o p) 0 * delta ^ 2))).
(** [Twocenterljf], lines 313-351 *)
Record twocenter := { tw_type : ctype; tw_pole : polar; tw_L : R; tw_mu_sq : R }.
Definition twocenter_alphar (m : twocenter) (T rho : R) : option R :=
  let t := tw_type m in let L := tw_L m in
  Tred <-- get_T_red t L; Rred <-- get_rho_red t L; eta_red <-- get_eta_over_rho t L; alpha <-- get_alpha_star t L;
  delta <-- cdiv rho Rred; tau <-- cdiv T Tred;
  a1 <-- hardsphere tau (rho * eta_red) alpha; a2 <-- attractive t tau delta alpha;
  if Req_EM_T (tw_mu_sq m) 0 then Some (a1 + a2)
  else p <-- polar_alphar (tw_pole m) tau delta (tw_mu_sq m); Some (a1 + a2 + p).
(** lines 409-464 *)
Definition build_two_center_model (name : string) (L : R) : res twocenter :=
  bind (modelmap name) (fun t => Val {| tw_type := t; tw_pole := dipole_terms; tw_L := L; tw_mu_sq := 0 |}).
Definition build_two_center_model_dipole (name : string) (L mu_sq : R) : res twocenter :=
  bind (modelmap name) (fun t => Val {| tw_type := t; tw_pole := dipole_terms; tw_L := L; tw_mu_sq := mu_sq |}).
Definition build_two_center_model_quadrupole (name : string) (L Q_sq : R) : res twocenter :=
  bind (modelmap name) (fun t => Val {| tw_type := t; tw_pole := quadrupole_terms; tw_L := L; tw_mu_sq := Q_sq |}).

(** * model_factory_model_potentials.cpp, lines 13-33.  The order in which the arguments of one
    call are read is not specified; here it is that of the text, and reading fails with the
    exception of the JSON library in any order *)
Inductive potential :=
| SquareWell (lambda : R) | Exp6 (alphastar : R) | MiePohl (lambda_r : R) | MieChaparro (lambda_r lambda_a : R) | TwoCenter (m : twocenter).
Definition number (j : json) (k : string) : res R := bind (j_at j k) j_double.
Definition text (j : json) (k : string) : res string := bind (j_at j k) j_string.
Definition make_SW_EspindolaHeredia2009 (j : json) : res potential := bind (number j "lambda") (fun l => Val (SquareWell l)).
Definition make_EXP6_Kataoka1992 (j : json) : res potential := bind (number j "alpha") (fun a => Val (Exp6 (exp6_alphastar a))).
Definition make_Mie_Pohl2023 (j : json) : res potential := bind (number j "lambda_r") (fun l => Val (MiePohl l)).
Definition make_Mie_Chaparro2023 (j : json) : res potential :=
  bind (number j "lambda_r") (fun r => bind (number j "lambda_a") (fun a => Val (MieChaparro r a))).
Definition make_2CLJF (j : json) : res potential :=
  bind (text j "author") (fun n => bind (number j "L^*") (fun L => bind (build_two_center_model n L) (fun m => Val (TwoCenter m)))).
Definition make_2CLJF_Dipole (j : json) : res potential :=
  bind (text j "author") (fun n => bind (number j "L^*") (fun L => bind (number j "(mu^*)^2") (fun mu =>
  bind (build_two_center_model_dipole n L mu) (fun m => Val (TwoCenter m))))).
Definition make_2CLJF_Quadrupole (j : json) : res potential :=
  bind (text j "author") (fun n => bind (number j "L^*") (fun L => bind (number j "(Q^*)^2") (fun q =>
  bind (build_two_center_model_quadrupole n L q) (fun m => Val (TwoCenter m))))).
(** [alphar] of the model made, given the constants of the network *)
Definition potential_alphar (net : network) (p : potential) (T rho : R) : option R :=
  match p with
  | SquareWell l => sw_alphar l T rho
  | Exp6 a => osum_list (exp6_term a T rho) exp6_c
  | MiePohl l => pohl_alphar l T rho
  | MieChaparro r a => alpha <-- mie_alpha r a; chaparro_alphar net alpha T rho
  | TwoCenter m => twocenter_alphar m T rho
  end.
