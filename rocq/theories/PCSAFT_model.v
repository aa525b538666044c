(** Model of the PC-SAFT equation of state: [include/teqp/models/pcsaft.hpp],
    [include/teqp/models/saft/pcsaftpure.hpp], [src/data/PCSAFT.cpp] and the polar terms in
    [include/teqp/models/saft/polar_terms/GrossVrabec.hpp].

    Doubles are reals, and the decimal approximations of pi are [PI].  [None] is a value that
    is not finite (division by zero, the logarithm of a number that is not positive, the root
    of a negative number) or undefined behaviour.  [pow(x, n)] with an integer [n] is the
    power (proved of [powi] in [Properties_Util]). *)
From Coq Require Import Reals ZArith String List Bool Lia.
From Verif Require Import Json_model Vec_spec Cubic_model Terms_model Ideal_model Util_model Assoc_model.
Import ListNotations.
Open Scope R_scope.

(** * Universal constants, PCSAFT.cpp lines 5-46 *)
Definition GrossSadowski2001_a : list (list R) :=
  [[0.9105631445; 0.6361281449; 2.6861347891; - 26.547362491; 97.759208784; - 159.59154087; 91.297774084];
   [- 0.3084016918; 0.1860531159; - 2.5030047259; 21.419793629; - 65.255885330; 83.318680481; - 33.746922930];
   [- 0.0906148351; 0.4527842806; 0.5962700728; - 1.7241829131; - 4.1302112531; 13.776631870; - 8.6728470368]].
Definition GrossSadowski2001_b : list (list R) :=
  [[0.7240946941; 2.2382791861; - 4.0025849485; - 21.003576815; 26.855641363; 206.55133841; - 355.60235612];
   [- 0.5755498075; 0.6995095521; 3.8925673390; - 17.215471648; 192.67226447; - 161.82646165; - 165.20769346];
   [0.0976883116; - 0.2557574982; - 9.1558561530; 20.642075974; - 38.804430052; 93.626774077; - 29.666905585]].
Definition LiangIECR2012_a : list (list R) :=
  [[0.836215101666; 2.201683842453; - 11.25210310939; 37.841836899902; - 68.035304263396; 69.952369867326; - 42.828905226651];
   [- 0.411727190935913; 2.37426400571265; - 21.0620603419144; 105.65718855671; - 298.665894225644; 468.695983731173; - 316.673589664169];
   [0.0319867672916212; - 2.75137756155503; 25.7581175334397; - 103.082737163044; 239.569856365622; - 320.622085430506; 186.50494276364]].
Definition LiangIECR2012_b : list (list R) :=
  [[0.627209841336118; 4.02517816132384; - 22.6660554011051; 70.0153445172765; - 129.548046066679; 150.197401680241; - 86.9664928046989];
   [- 0.622507280536237; 1.86478114256654; - 22.5660800172653; 153.069895818654; - 321.710866534244; 453.083735030445; - 233.232187026907];
   [- 0.0303061275320169; 2.59554209415371; 11.5803588817289; - 145.915305288352; 354.901071174401; - 151.675970200232; - 282.837925415568]].
Definition LiangIECR2014_a : list (list R) :=
  [[0.961597; 0.414449; 0.689253; - 7.43899; 31.8755; - 54.8833; 27.3613];
   [- 0.333416; 0.358440; - 0.219088; 0.285586; 5.88256; - 22.4931; 21.2109];
   [- 0.0632483; 0.287134; - 0.105309; 7.16607; - 37.5008; 68.8002; - 40.3177]].
Definition LiangIECR2014_b : list (list R) :=
  [[0.548398; 2.07176; - 1.84013; - 29.9683; 160.445; - 206.106; 51.6201];
   [- 0.277226; 0.0621105; 4.29640; - 39.9453; 214.911; - 232.563; 60.9734];
   [- 0.150684; - 0.507877; 1.24227; - 48.7052; 63.1155; 205.380; - 262.437]].
Definition entry (c : list (list R)) (i n : nat) : R := nth n (nth i c []) 0.

(** * pcsaft.hpp *)
(** [SAFTCoeffs], lines 36-46 *)
Record coeffs := { c_name : string; c_m : R; c_sigma : R; c_eps : R; c_bibtex : string; c_mustar2 : R; c_nmu : R; c_Qstar2 : R; c_nQ : R }.
(** [PCSAFTLibrary], lines 49-82 *)
Definition normal_fluid (name : string) (m sigma eps : R) : coeffs :=
  {| c_name := name; c_m := m; c_sigma := sigma; c_eps := eps; c_bibtex := "Gross-IECR-2001"; c_mustar2 := 0; c_nmu := 0; c_Qstar2 := 0; c_nQ := 0 |}.
Definition library : list coeffs :=
  [ normal_fluid "Methane" 1.0000 3.7039 150.03; normal_fluid "Ethane" 1.6069 3.5206 191.42; normal_fluid "Propane" 2.0020 3.6184 208.11 ].
Definition get_normal_fluid (name : string) : res coeffs :=
  match find (fun c => String.eqb (c_name c) name) library with Some c => Val c | None => Err StdInvalidArgument end.

(** [C1], lines 87-93 *)
Definition C1 (eta mbar : R) : option R :=
  let oneeta := 1 - eta in
  q1 <-- cdiv (mbar * (8 * eta - 2 * eta * eta)) (oneeta * oneeta * oneeta * oneeta);
  q2 <-- cdiv ((1 - mbar) * (20 * eta - 27 * eta * eta + 12 * eta * eta * eta - 2 * eta * eta * eta * eta)) ((1 - eta) * (2 - eta) * (1 - eta) * (2 - eta));
  cdiv 1 (1 + q1 + q2).
(** [C2], lines 95-101 *)
Definition C2 (eta mbar : R) : option R :=
  c1 <-- C1 eta mbar;
  q1 <-- cdiv (mbar * (- (4) * eta * eta + 20 * eta + 8)) ((1 - eta) ^ 5);
  q2 <-- cdiv ((1 - mbar) * (2 * eta * eta * eta + 12 * eta * eta - 48 * eta + 40)) (((1 - eta) * (2 - eta)) ^ 3);
  Some (- c1 ^ 2 * (q1 + q2)).

(** [get_alphar_hs], lines 104-147: the branch taken when zeta[3] is zero and the other one *)
Definition hs_zero (zeta D : nat -> R) : option R :=
  let Upsilon := 1 - zeta 3%nat in
  q1 <-- cdiv (3 * D 1%nat) (D 0%nat); q2 <-- cdiv (q1 * zeta 2%nat) Upsilon;
  q3 <-- cdiv (D 2%nat * D 2%nat * zeta 2%nat) (D 3%nat * D 0%nat * Upsilon * Upsilon);
  l <-- clog Upsilon;
  q4 <-- cdiv (D 2%nat * D 2%nat * D 2%nat) (D 3%nat * D 3%nat * D 0%nat);
  Some (q2 + q3 - l + q4 * l).
Definition hs_general (zeta : nat -> R) : option R :=
  let Upsilon := 1 - zeta 3%nat in
  q0 <-- cdiv 1 (zeta 0%nat);
  q1 <-- cdiv (3 * zeta 1%nat * zeta 2%nat) Upsilon;
  q2 <-- cdiv (zeta 2%nat * zeta 2%nat * zeta 2%nat) (zeta 3%nat); q3 <-- cdiv q2 Upsilon; q4 <-- cdiv q3 Upsilon;
  q5 <-- cdiv (zeta 2%nat * zeta 2%nat * zeta 2%nat) (zeta 3%nat * zeta 3%nat);
  l <-- clog (1 - zeta 3%nat);
  Some (q0 * (q1 + q4 + (q5 - zeta 0%nat) * l)).
Definition get_alphar_hs (zeta D : nat -> R) : option R := if Req_EM_T (zeta 3%nat) 0 then hs_zero zeta D else hs_general zeta.

(** [gij_HS], lines 150-161 *)
Definition gij_HS (zeta d : nat -> R) (i j : nat) : option R :=
  let Upsilon := 1 - zeta 3%nat in
  q1 <-- cdiv 1 Upsilon; q <-- cdiv (d i * d j) (d i + d j);
  q2 <-- cdiv (q * 3 * zeta 2%nat) (Upsilon ^ 2);
  q3 <-- cdiv (q ^ 2 * 2 * zeta 2%nat * zeta 2%nat) (Upsilon ^ 3);
  Some (q1 + q2 + q3).

(** The members, lines 190-196 and 308-317; the constructors give all vectors the same
    length and [kmat] that many rows and columns.  [mminus1] is m - 1. *)
Record mixture := { pm : list R; psigma : list R; peps : list R; pkmat : list (list R); pa : list (list R); pb : list (list R);
                    pdip : option (list R * list R); pquad : option (list R * list R); pnames : list string; pbib : list string }.
Definition nt (l : list R) (i : nat) : R := nth i l 0.

(** The segment diameter, lines 219 and 423 *)
Definition seg_d (T sigma eps : R) : option R := q <-- cdiv (- (3) * eps) T; Some (sigma * (1 - 0.12 * exp q)).
(** [PCSAFTHardChainContribution::eval], lines 204-294 *)
Record hc_terms := { h_eta : R; h_hc : R; h_disp : R }.
(** abar and bbar, lines 252-257 *)
Definition universal (c : list (list R)) (mbar : R) (n : nat) : option R :=
  f1 <-- cdiv (mbar - 1) mbar; f2 <-- cdiv (mbar - 2) mbar;
  Some (entry c 0 n + f1 * entry c 1 n + f1 * f2 * entry c 2 n).
Definition integral (c : list (list R)) (mbar eta : R) : option R := osum 7 (fun n => u <-- universal c mbar n; Some (u * eta ^ n)).
(** eij_over_k/T and sigma_ij^3, lines 222-225 *)
Definition pair_ekT (s : mixture) (T : R) (i j : nat) : option R :=
  e <-- csqrt (nt (peps s) i * nt (peps s) j); cdiv (e * (1 - entry (pkmat s) i j)) T.
Definition pair_sigma3 (s : mixture) (i j : nat) : R :=
  let sg := 0.5 * nt (psigma s) i + 0.5 * nt (psigma s) j in sg * sg * sg.
Definition pair_weight (s : mixture) (x : list R) (i j : nat) : R := nt x i * nt x j * nt (pm s) i * nt (pm s) j.
Definition hardchain (s : mixture) (T rhomolar : R) (x : list R) : option hc_terms :=
  let N := length (pm s) in
  ds <-- osequence (map (fun i => seg_d T (nt (psigma s) i) (nt (peps s) i)) (seq 0 N));
  e1 <-- osum N (fun i => osum N (fun j => k <-- pair_ekT s T i j; Some (pair_weight s x i j * k * pair_sigma3 s i j)));
  e2 <-- osum N (fun i => osum N (fun j => k <-- pair_ekT s T i j; Some (pair_weight s x i j * (k * k) * pair_sigma3 s i j)));
  let mbar := sumn N (fun i => nt x i * nt (pm s) i) in
  let rho_A3 := rhomolar * N_A * / 10 ^ 30 in
  let D n := PI / 6 * sumn N (fun i => nt x i * nt (pm s) i * nt ds i ^ n) in
  let zeta n := D n * rho_A3 in
  let eta := zeta 3%nat in
  I1 <-- integral (pa s) mbar eta; I2 <-- integral (pb s) mbar eta;
  lng <-- osum N (fun i => g <-- gij_HS zeta (nt ds) i i; l <-- clog g; Some (nt x i * (nt (pm s) i - 1) * l));
  hs <-- get_alphar_hs zeta D;
  c1 <-- C1 eta mbar;
  Some {| h_eta := eta; h_hc := mbar * hs - lng; h_disp := - (2) * PI * rho_A3 * I1 * e1 - PI * rho_A3 * mbar * c1 * I2 * e2 |}.

(** [max_rhoN], lines 418-426 (the mole fractions are as many as the components) *)
Definition max_rhoN (s : mixture) (T : R) (x : list R) : option R :=
  let N := length (pm s) in
  ds <-- osequence (map (fun i => seg_d T (nt (psigma s) i) (nt (peps s) i)) (seq 0 N));
  q <-- cdiv (6 * 0.74 / PI) (sumn N (fun i => nt x i * nt (pm s) i * nt ds i ^ 3)); Some (q * 10 ^ 30).

(** * GrossVrabec.hpp *)
Definition JDD_2ij_a : list (list R) :=
  [[0.3043504; - 0.1358588; 1.4493329; 0.3556977; - 2.0653308];
   [0.9534641; - 1.8396383; 2.0131180; - 7.3724958; 8.2374135];
   [- 1.1610080; 4.5258607; 0.9751222; - 12.281038; 5.9397575]].
Definition JDD_2ij_b : list (list R) :=
  [[0.2187939; - 1.1896431; 1.1626889; 0; 0];
   [- 0.5873164; 1.2489132; - 0.5085280; 0; 0];
   [3.4869576; - 14.915974; 15.372022; 0; 0]].
Definition JDD_3ijk_c : list (list R) :=
  [[- 0.0646774; 0.1975882; - 0.8087562; 0.6902849; 0.0];
   [- 0.9520876; 2.9924258; - 2.3802636; - 0.2701261; 0.0];
   [- 0.6260979; 1.2924686; 1.6542783; - 3.4396744; 0.0]].
Definition JQQ_2ij_a : list (list R) :=
  [[1.2378308; 2.4355031; 1.6330905; - 1.6118152; 6.9771185];
   [1.2854109; - 11.465615; 22.086893; 7.4691383; - 17.197772];
   [1.7942954; 0.7695103; 7.2647923; 94.486699; - 77.148458]].
Definition JQQ_2ij_b : list (list R) :=
  [[0.4542718; - 4.5016264; 3.5858868; 0.0; 0.0];
   [- 0.8137340; 10.064030; - 10.876631; 0.0; 0.0];
   [6.8682675; - 5.1732238; - 17.240207; 0.0; 0.0]].
Definition JQQ_3ijk_c : list (list R) :=
  [[0.5000437; 6.5318692; - 16.014780; 14.425970; 0.0];
   [2.0002094; - 6.7838658; 20.383246; - 10.895984; 0.0];
   [3.1358271; 7.2475888; 3.0759478; 0.0; 0.0]].
Definition JDQ_2ij_a : list (list R) :=
  [[0.6970950; - 0.6335541; 2.9455090; - 1.4670273];
   [- 0.6734593; - 1.4258991; 4.1944139; 1.0266216];
   [0.6703408; - 4.3384718; 7.2341684; 0]].
Definition JDQ_2ij_b : list (list R) :=
  [[- 0.4840383; 1.9704055; - 2.1185727; 0];
   [0.6765101; - 3.0138675; 0.4674266; 0];
   [- 1.1675601; 2.1348843; 0; 0]].
Definition JDQ_3ijk_c : list (list R) :=
  [[7.846431; 33.42700; 4.689111; 0];
   [- 20.72202; - 58.63904; - 1.764887; 0]].
(** [get_JDD_2ij], [get_JQQ_2ij] and [get_JDQ_2ij] (five, five and four powers), lines 8-25,
    42-59 and 77-94 *)
Definition polar_c (c : list (list R)) (m : R) (n : nat) : option R :=
  f1 <-- cdiv (m - 1) m; f2 <-- cdiv (f1 * (m - 2)) m; Some (entry c 0 n + f1 * entry c 1 n + f2 * entry c 2 n).
Definition J2 (a b : list (list R)) (N : nat) (eta m Tstar : R) : option R :=
  osum N (fun n => an <-- polar_c a m n; bn <-- polar_c b m n; q <-- cdiv bn Tstar; Some ((an + q) * eta ^ n)).
(** [get_JDD_3ijk], [get_JQQ_3ijk] and [get_JDQ_3ijk], lines 28-39, 62-73 and 98-108; the last
    has no third row, which is a row of zeros here *)
Definition J3 (c : list (list R)) (N : nat) (eta m : R) : option R := osum N (fun n => cn <-- polar_c c m n; Some (cn * eta ^ n)).
Definition get_JDD_2ij := J2 JDD_2ij_a JDD_2ij_b 5.
Definition get_JDD_3ijk := J3 JDD_3ijk_c 5.
Definition get_JQQ_2ij := J2 JQQ_2ij_a JQQ_2ij_b 5.
Definition get_JQQ_3ijk := J3 JQQ_3ijk_c 5.
Definition get_JDQ_2ij := J2 JDQ_2ij_a JDQ_2ij_b 4.
Definition get_JDQ_3ijk := J3 JDQ_3ijk_c 4.

Section Polar.
Variables m sigma eps : list R.
Variables (T rhoN eta : R) (x : list R).
(** lines 139-145, 231-237 and 341-347 *)
Definition mean_sigma (i j : nat) : R := (nt sigma i + nt sigma j) / 2.
Definition pair_Tstar (i j : nat) : option R := e <-- csqrt (nt eps i * nt eps j); cdiv T e.
Definition pair_m (i j : nat) : option R := s <-- csqrt (nt m i * nt m j); Some (Rmin s 2).
Definition triple_m (i j k : nat) : option R := p <-- cpow (nt m i * nt m j * nt m k) (1 / 3); Some (Rmin p 2).
Definition pair_eps (i j : nat) : option R := q1 <-- cdiv (nt x i * nt x j * nt eps i) T; cdiv (q1 * nt eps j) T.
Definition triple_eps (i j k : nat) : option R :=
  q1 <-- cdiv (nt x i * nt x j * nt x k * nt eps i) T; q2 <-- cdiv (q1 * nt eps j) T; cdiv (q2 * nt eps k) T.
(** [get_alpha2DD], lines 129-150 *)
Definition get_alpha2DD (mustar2 nmu : list R) : option R :=
  s <-- osum (length x) (fun i => osum (length x) (fun j =>
    let ninj := nt nmu i * nt nmu j in
    if Rlt_dec 0 ninj then
      Tstar <-- pair_Tstar i j; mij <-- pair_m i j; e <-- pair_eps i j; q <-- cdiv (nt sigma i * nt sigma j) (mean_sigma i j);
      J <-- get_JDD_2ij eta mij Tstar;
      Some (e * POW3 q * ninj * nt mustar2 i * nt mustar2 j * J)
    else Some 0));
  Some (- PI * rhoN * s).
(** [get_alpha3DD], lines 153-176 *)
Definition get_alpha3DD (mustar2 nmu : list R) : option R :=
  s <-- osum (length x) (fun i => osum (length x) (fun j => osum (length x) (fun k =>
    let n3 := nt nmu i * nt nmu j * nt nmu k in
    if Rlt_dec 0 n3 then
      mijk <-- triple_m i j k; e <-- triple_eps i j k;
      q <-- cdiv (e * POW3 (nt sigma i * nt sigma j * nt sigma k)) (mean_sigma i j * mean_sigma i k * mean_sigma j k);
      J <-- get_JDD_3ijk eta mijk;
      Some (q * n3 * nt mustar2 i * nt mustar2 j * nt mustar2 k * J)
    else Some 0)));
  Some (- (4) * POW2 PI / 3 * POW2 rhoN * s).
(** [get_alpha2QQ], lines 221-242 *)
Definition get_alpha2QQ (Qstar2 nQ : list R) : option R :=
  s <-- osum (length x) (fun i => osum (length x) (fun j =>
    let ninj := nt nQ i * nt nQ j in
    if Rlt_dec 0 ninj then
      Tstar <-- pair_Tstar i j; mij <-- pair_m i j; e <-- pair_eps i j;
      q <-- cdiv (e * POW5 (nt sigma i * nt sigma j)) (POW7 (mean_sigma i j));
      J <-- get_JQQ_2ij eta mij Tstar;
      Some (q * ninj * nt Qstar2 i * nt Qstar2 j * J)
    else Some 0));
  Some (- PI * POW2 (3 / 4) * rhoN * s).
(** [get_alpha3QQ], lines 245-268; the integral is that of the dipolar term *)
Definition get_alpha3QQ (Qstar2 nQ : list R) : option R :=
  s <-- osum (length x) (fun i => osum (length x) (fun j => osum (length x) (fun k =>
    let n3 := nt nQ i * nt nQ j * nt nQ k in
    if Rlt_dec 0 n3 then
      mijk <-- triple_m i j k; e <-- triple_eps i j k;
      q <-- cdiv (e * POW5 (nt sigma i * nt sigma j * nt sigma k)) (POW3 (mean_sigma i j * mean_sigma i k * mean_sigma j k));
      J <-- get_JDD_3ijk eta mijk;
      Some (q * n3 * nt Qstar2 i * nt Qstar2 j * nt Qstar2 k * J)
    else Some 0)));
  Some (- (4) * POW2 PI / 3 * POW3 (3 / 4) * POW2 rhoN * s).
(** [get_alpha2DQ], lines 331-352 *)
Definition get_alpha2DQ (mustar2 nmu Qstar2 nQ : list R) : option R :=
  s <-- osum (length x) (fun i => osum (length x) (fun j =>
    let ninj := nt nmu i * nt nQ j in
    if Rlt_dec 0 ninj then
      Tstar <-- pair_Tstar i j; mij <-- pair_m i j; e <-- pair_eps i j;
      q <-- cdiv (e * POW3 (nt sigma i) * POW5 (nt sigma j)) (POW5 (mean_sigma i j));
      J <-- get_JDQ_2ij eta mij Tstar;
      Some (q * ninj * nt mustar2 i * nt Qstar2 j * J)
    else Some 0));
  Some (- PI * 9 / 4 * rhoN * s).
(** [get_alpha3DQ], lines 355-381 *)
Definition alpha_GV : R := 1.19374.
Definition get_alpha3DQ (mustar2 nmu Qstar2 nQ : list R) : option R :=
  s <-- osum (length x) (fun i => osum (length x) (fun j => osum (length x) (fun k =>
    let n1 := nt nmu i * nt nmu j * nt nQ k in
    let n2 := nt nmu i * nt nQ j * nt nQ k in
    if (if Rlt_dec 0 n1 then true else false) || (if Rlt_dec 0 n2 then true else false) then
      mijk <-- triple_m i j k; e <-- triple_eps i j k;
      q <-- cdiv (e * POW4 (nt sigma i * nt sigma j * nt sigma k)) (POW2 (mean_sigma i j * mean_sigma i k * mean_sigma j k));
      J <-- get_JDQ_3ijk eta mijk;
      Some (q * (n1 * nt mustar2 i * nt mustar2 j * nt Qstar2 k + n2 * alpha_GV * nt mustar2 i * nt Qstar2 j * nt Qstar2 k) * J)
    else Some 0)));
  Some (- POW2 rhoN * s).
(** the Pade approximant of the three [eval], lines 185, 277, 390, 447, 454 and 461 *)
Definition pade (alpha2 alpha3 : R) : option R := q <-- cdiv alpha3 alpha2; cdiv alpha2 (1 - q).
Definition dipolar (mustar2 nmu : list R) : option R := a2 <-- get_alpha2DD mustar2 nmu; a3 <-- get_alpha3DD mustar2 nmu; pade a2 a3.
Definition quadrupolar (Qstar2 nQ : list R) : option R := a2 <-- get_alpha2QQ Qstar2 nQ; a3 <-- get_alpha3QQ Qstar2 nQ; pade a2 a3.
Definition diquadrupolar (mustar2 nmu Qstar2 nQ : list R) : option R :=
  a2 <-- get_alpha2DQ mustar2 nmu Qstar2 nQ; a3 <-- get_alpha3DQ mustar2 nmu Qstar2 nQ; pade a2 a3.
(** [MultipolarContributionGrossVrabec], lines 418-469: which contributions there are, and their
    sum.  The lengths of the arrays are equal (checked by the constructors); [has_a_polar]
    follows from the condition for the contribution to be present. *)
Definition some_positive (p n : list R) : bool := existsb (fun i => if Rlt_dec 0 (nt n i * nt p i) then true else false) (seq 0 (length p)).
Definition multipolar (mustar2 nmu Qstar2 nQ : list R) : option R :=
  let di := some_positive mustar2 nmu in
  let quad := some_positive Qstar2 nQ in
  dd <-- (if di then dipolar mustar2 nmu else Some 0);
  qq <-- (if quad then quadrupolar Qstar2 nQ else Some 0);
  dq <-- (if di && quad then diquadrupolar mustar2 nmu Qstar2 nQ else Some 0);
  Some (dd + qq + dq).
End Polar.

(** [PCSAFTMixture::alphar], lines 433-451.  The mole fractions are checked first (lines 209-211) *)
Definition pcsaft_alphar (s : mixture) (T rhomolar : R) (x : list R) : outcome R :=
  if negb (Nat.eqb (length x) (length (pm s))) then throws StdInvalidArgument
  else fin (
    h <-- hardchain s T rhomolar x;
    let rho_A3 := rhomolar * N_A * / 10 ^ 30 in
    d <-- match pdip s with Some (mu, n) => dipolar (pm s) (psigma s) (peps s) T rho_A3 (h_eta h) x mu n | None => Some 0 end;
    q <-- match pquad s with Some (Q, n) => quadrupolar (pm s) (psigma s) (peps s) T rho_A3 (h_eta h) x Q n | None => Some 0 end;
    Some (h_hc h + h_disp h + d + q)).

(** [check_kmat], lines 319-329, and the constructor of lines 395-398 with [build_hardchain],
    [build_dipolar] and [build_quadrupolar], lines 334-389 *)
Definition check_kmat (k : list (list R)) (N : nat) : res (list (list R)) :=
  match k with
  | [] => Val (repeat (repeat 0 N) N)
  | _ => if Nat.eqb (length k) N then Val k else Err InvalidArgument
  end.
Definition polar_lists (f n : coeffs -> R) (cs : list coeffs) : option (list R * list R) :=
  if Req_EM_T (sumn (length cs) (fun i => Rabs (nt (map f cs) i * nt (map n cs) i))) 0 then None else Some (map f cs, map n cs).
Definition make_mixture (cs : list coeffs) (a b : list (list R)) (k : list (list R)) : res mixture :=
  bind (check_kmat k (length cs)) (fun k =>
  Val {| pm := map c_m cs; psigma := map c_sigma cs; peps := map c_eps cs; pkmat := k; pa := a; pb := b;
         pdip := polar_lists c_mustar2 c_nmu cs; pquad := polar_lists c_Qstar2 c_nQ cs; pnames := map c_name cs; pbib := map c_bibtex cs |}).

(** [PCSAFTfactory], lines 454-511 *)
Definition jnumber (j : json) (k : string) : res R := bind (j_at j k) j_double.
Definition one_coeffs (j : json) : res coeffs :=
  bind (bind (j_at j "name") j_string) (fun name => bind (jnumber j "m") (fun m => bind (jnumber j "sigma_Angstrom") (fun sg =>
  bind (jnumber j "epsilon_over_k") (fun e => bind (bind (j_at j "BibTeXKey") j_string) (fun bib =>
  bind (if j_contains j "(mu^*)^2" && j_contains j "nmu" then bind (jnumber j "(mu^*)^2") (fun a => bind (jnumber j "nmu") (fun n => Val (a, n))) else Val (0, 0)) (fun mu =>
  bind (if j_contains j "(Q^*)^2" && j_contains j "nQ" then bind (jnumber j "(Q^*)^2") (fun a => bind (jnumber j "nQ") (fun n => Val (a, n))) else Val (0, 0)) (fun q =>
  Val {| c_name := name; c_m := m; c_sigma := sg; c_eps := e; c_bibtex := bib; c_mustar2 := fst mu; c_nmu := snd mu; c_Qstar2 := fst q; c_nQ := snd q |}))))))).
(** lines 456-459: the matrix is used only if it is a non-empty array *)
Definition spec_kmat (spec : json) : res (option (list (list R))) :=
  if j_contains spec "kmat" then
    bind (j_at spec "kmat") (fun k => match k with JArr (_ :: _) => bind (build_square_matrix k) (fun m => Val (Some m)) | _ => Val None end)
  else Val None.
(** lines 460-476 *)
Definition spec_ab (spec : json) : res (list (list R) * list (list R)) :=
  if j_contains spec "ab" then
    bind (bind (j_at spec "ab") j_string) (fun source =>
    if String.eqb source "Liang-IECR-2012" then Val (LiangIECR2012_a, LiangIECR2012_b)
    else if String.eqb source "Liang-IECR-2014" then Val (LiangIECR2014_a, LiangIECR2014_b)
    else Err InvalidArgument)
  else Val (GrossSadowski2001_a, GrossSadowski2001_b).
Definition PCSAFTfactory (spec : json) : res mixture :=
  bind (spec_kmat spec) (fun k => bind (spec_ab spec) (fun ab =>
  let sized n := match k with Some k => Nat.eqb (length k) n | None => true end in
  let kmat := match k with Some k => k | None => [] end in
  if j_contains spec "names" then
    bind (bind (j_at spec "names") (j_valarray j_string)) (fun names =>
    if negb (sized (length names)) then Err InvalidArgument
    else bind (map_res get_normal_fluid names) (fun cs => make_mixture cs (fst ab) (snd ab) kmat))
  else if j_contains spec "coeffs" then
    bind (bind (j_at spec "coeffs") (fun l => map_res one_coeffs (j_values l))) (fun cs =>
    if negb (sized (length cs)) then Err InvalidArgument else make_mixture cs (fst ab) (snd ab) kmat)
  else Err StdInvalidArgument)).

(** * pcsaftpure.hpp *)
(** lines 16-22 *)
Definition pure_coeff : list (list R) :=
  [[0.9105631445; - 0.3084016918; - 0.0906148351; 0.7240946941; - 0.5755498075; 0.0976883116];
   [0.6361281449; 0.1860531159; 0.4527842806; 2.2382791861; 0.6995095521; - 0.2557574982];
   [2.6861347891; - 2.5030047259; 0.5962700728; - 4.0025849485; 3.8925673390; - 9.1558561530];
   [- 26.547362491; 21.419793629; - 1.7241829131; - 21.003576815; - 17.215471648; 20.642075974];
   [97.759208784; - 65.255885330; - 4.1302112531; 26.855641363; 192.67226447; - 38.804430052];
   [- 159.59154087; 83.318680481; 13.776631870; 206.55133841; - 161.82646165; 93.626774077];
   [91.297774084; - 33.746922930; - 8.6728470368; - 355.60235612; - 165.20769346; - 29.666905585]].
(** the constructor, lines 16-30: aim, bim, kappa1, kappa2 *)
Record purefluid := { pu_m : R; pu_sigma : R; pu_eps : R }.
Definition pure_factory (j : json) : res purefluid :=
  bind (jnumber j "m") (fun m => bind (jnumber j "sigma / A") (fun s => bind (jnumber j "epsilon_over_k") (fun e =>
  Val {| pu_m := m; pu_sigma := s; pu_eps := e |}))).
Definition pure_im (col : nat) (m : R) (n : nat) : option R :=
  mfac1 <-- cdiv (m - 1) m; q <-- cdiv (m - 2) m;
  let c k := nth k (nth n pure_coeff []) 0 in
  Some (c col + c (col + 1)%nat * mfac1 + c (col + 2)%nat * (q * mfac1)).
Definition kappa1 (p : purefluid) : R := 2 * PI * pu_eps p * pu_m p ^ 2 * pu_sigma p ^ 3.
Definition kappa2 (p : purefluid) : R := PI * pu_eps p ^ 2 * pu_m p ^ 3 * pu_sigma p ^ 3.
(** [alphar], lines 37-86; the mole fractions are not used *)
Definition pure_alphar (p : purefluid) (T rhomolar : R) : option R :=
  let m := pu_m p in
  let rhoN_A3 := rhomolar * N_A / 10 ^ 30 in
  d <-- seg_d T (pu_sigma p) (pu_eps p);
  let D n := PI / 6 * m * d ^ n in
  let zeta n := rhoN_A3 * D n in
  let onemineta := 1 - zeta 3%nat in
  let onemineta_to2 := onemineta * onemineta in
  let onemineta_to3 := onemineta * onemineta_to2 in
  let onemineta_to4 := onemineta * onemineta_to3 in
  let zeta2_to3 := zeta 2%nat * zeta 2%nat * zeta 2%nat in
  (* the first value may not be finite: it is replaced if zeta[0] is zero *)
  alpha_hs <--
    (if Req_EM_T (zeta 0%nat) 0 then
       q1 <-- cdiv (3 * D 1%nat) (D 0%nat); q2 <-- cdiv (q1 * zeta 2%nat) onemineta;
       q3 <-- cdiv (D 2%nat * D 2%nat * zeta 2%nat) (D 3%nat * D 0%nat * onemineta * onemineta);
       l <-- clog onemineta;
       q4 <-- cdiv (D 2%nat * D 2%nat * D 2%nat) (D 3%nat * D 3%nat * D 0%nat);
       Some (q2 + q3 - l + q4 * l)
     else
       q1 <-- cdiv (3 * zeta 1%nat * zeta 2%nat) onemineta; q2 <-- cdiv zeta2_to3 (zeta 3%nat * onemineta_to2);
       q3 <-- cdiv zeta2_to3 (zeta 3%nat * zeta 3%nat); l <-- clog (1 - zeta 3%nat);
       cdiv (q1 + q2 + (q3 - zeta 0%nat) * l) (zeta 0%nat));
  let fac := d / 2 in
  g1 <-- cdiv 1 onemineta; g2 <-- cdiv (fac * 3 * zeta 2%nat) onemineta_to2;
  g3 <-- cdiv (fac * fac * 2 * (zeta 2%nat * zeta 2%nat)) onemineta_to3;
  lg <-- clog (g1 + g2 + g3);
  let alpha_hc := m * alpha_hs - (m - 1) * lg in
  let eta := zeta 3%nat in
  let eta2 := eta * eta in let eta3 := eta2 * eta in let eta4 := eta2 * eta2 in
  c1 <-- cdiv (m * (8 * eta - 2 * eta2)) onemineta_to4;
  c2 <-- cdiv ((1 - m) * (20 * eta - 27 * eta2 + 12 * eta3 - 2 * eta4)) onemineta_to2; c3 <-- cdiv c2 ((2 - eta) * (2 - eta));
  let c := 1 + c1 + c3 in
  I1 <-- osum 7 (fun n => a <-- pure_im 0 m n; Some (a * eta ^ n));
  I2 <-- osum 7 (fun n => b <-- pure_im 3 m n; Some (b * eta ^ n));
  t1 <-- cdiv (- kappa1 p * rhoN_A3 * I1) T; t2 <-- cdiv (kappa2 p * rhoN_A3 * I2) c; t3 <-- cdiv t2 (T * T);
  Some (alpha_hc + (t1 - t3)).
