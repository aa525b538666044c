(** Models of corresponding states in one or two fluids: [include/teqp/models/ammonia_water.hpp],
    [ECSHuberEly.hpp] and [multifluid_ecs_mutant.hpp].

    Doubles are reals.  [None] is undefined behaviour or a value that is not finite, [Some (Err _)]
    an exception.  [pow] of the C library is [cpow]: defined for bases that are not negative. *)
From Coq Require Import Reals ZArith String List Bool.
From Verif Require Import Json_model Util_model Vec_spec Cubic_model Terms_model Ideal_model Assoc_model Multi_model.
Import ListNotations.
Open Scope R_scope.

(** * Ammonia and water, ammonia_water.hpp *)
(** lines 17-20, with the zero in front *)
Definition aw_a : list R :=
  [0; - 1.855822E-02; 5.258010E-02; 3.552874E-10; 5.451379E-06; - 5.998546E-13; - 3.687808E-06; 0.2586192; - 1.368072E-08; 1.226146E-02; - 7.181443E-02; 9.970849E-02; 1.0584086E-03; - 0.1963687; - 0.7777897].
Definition aw_t : list R := [0; 1.5; 0.5; 6.5; 1.75; 15; 6; - 1; 4; 3.5; 0; - 1; 8; 7.5; 4].
Definition aw_d : list R := [0; 4; 5; 15; 12; 12; 15; 4; 15; 4; 5; 6; 10; 6; 2].
Definition aw_e : list R := [0; 0; 1; 1; 1; 1; 2; 1; 1; 1; 1; 2; 2; 2; 2].
(** lines 24-25 *)
Definition TcNH3 : R := 405.40.
Definition TcH2O : R := 647.096.
Definition aw_kT : R := 0.9648407.
Definition aw_alpha : R := 1.125455.
Definition vcNH3 : R := 0.01703026 / 225.
Definition vcH2O : R := 0.018015268 / 322.
Definition aw_kV : R := 1.2395117.
Definition aw_beta : R := 0.8978069.
(** [R], lines 29-30 *)
Definition aw_R : R := 8.314471.
(** [a[i]*pow(tau, t[i])*pow(delta, d[i])], and with the exponential *)
Definition aw_pow (tau delta : R) (i : nat) : option R :=
  p <-- cpow tau (nth i aw_t 0); q <-- cpow delta (nth i aw_d 0); Some (nth i aw_a 0 * p * q).
Definition aw_exp (tau delta : R) (i : nat) : option R :=
  p <-- aw_pow tau delta i; e <-- cpow delta (nth i aw_e 0); Some (p * exp (- e)).
(** [for (i = lo; i <= hi; ++i)] *)
Definition aw_sum (tau delta : R) (lo hi : nat) : option R := osum (hi + 1 - lo) (fun k => aw_exp tau delta (lo + k)).
(** [alphar_departure], lines 32-45 *)
Definition aw_departure (tau delta x : R) : option R :=
  s1 <-- aw_pow tau delta 1;
  s2 <-- aw_sum tau delta 2 6;
  s3 <-- aw_sum tau delta 7 13;
  s4 <-- aw_sum tau delta 14 14;
  if Req_EM_T x 0 then Some 0
  else p <-- cpow x 0.5248379; Some (x * (1 - p) * (s1 + s2 + x * s3 + x * x * s4)).
(** [get_Treducing], lines 47-59, and [get_rhoreducing], lines 61-73.  Line 55 and line 69 cannot be reached *)
Definition aw_Tred (x : list R) : outcome R :=
  match x with
  | [xN; _] =>
      if Req_EM_T xN 0 then throws InvalidArgument
      else fin (p <-- cpow xN aw_alpha;
                Some (TcNH3 * xN * xN + TcH2O * (1 - xN) * (1 - xN) + 2 * xN * (1 - p) * aw_kT / 2 * (TcNH3 + TcH2O)))
  | _ => throws InvalidArgument
  end.
Definition aw_rhored (x : list R) : outcome R :=
  match x with
  | [xN; _] =>
      if Req_EM_T xN 0 then throws InvalidArgument
      else fin (p <-- cpow xN aw_beta;
                cdiv 1 (vcNH3 * xN * xN + vcH2O * (1 - xN) * (1 - xN) + 2 * xN * (1 - p) * aw_kV / 2 * (vcNH3 + vcH2O)))
  | _ => throws InvalidArgument
  end.
(** [alphar], lines 75-91.  The equations of the two pure fluids, which the class builds from
    hard-coded JSON (the construction is that of Multi_model.v), are arguments *)
Definition aw_alphar (nh3 h2o : eos) (T rho : R) (x : list R) : outcome R :=
  match x with
  | [xN; _] =>
      obind (aw_Tred x) (fun Tred =>
      obind (aw_rhored x) (fun rhored =>
      obind (fin (cdiv rho rhored)) (fun delta =>
      obind (fin (cdiv Tred T)) (fun tau =>
      obind (nh3 tau delta) (fun a0 =>
      obind (h2o tau delta) (fun a1 =>
      obind (fin (aw_departure tau delta xN)) (fun dep =>
      ok (a0 * xN + a1 * (1 - xN) + dep))))))))
  | _ => throws InvalidArgument
  end.

(** * Extended corresponding states of Huber and Ely, ECSHuberEly.hpp *)
(** lines 17-20 *)
Record ecs := { e_wr : R; e_Zr : R; e_Tr : R; e_rr : R; e_w : R; e_Z : R; e_T : R; e_r : R; e_f : list R; e_h : list R }.
Definition jnum (j : json) (k : string) : res R := bind (j_at j k) j_double.
(** The constructor, lines 23-37; [ref] builds the reference model from its name *)
Definition make_ecs {M} (ref : json -> res M) (j : json) : res (M * ecs) :=
  bind (j_at j "reference_fluid") (fun r =>
  bind (bind (j_at r "name") ref) (fun m =>
  bind (jnum r "acentric") (fun wr => bind (jnum r "Z_crit") (fun Zr =>
  bind (jnum r "T_crit / K") (fun Tr => bind (jnum r "rhomolar_crit / mol/m^3") (fun rr =>
  bind (j_at j "fluid") (fun f =>
  bind (jnum f "acentric") (fun w => bind (jnum f "Z_crit") (fun Z =>
  bind (jnum f "T_crit / K") (fun T => bind (jnum f "rhomolar_crit / mol/m^3") (fun rh =>
  bind (bind (j_at f "f_T_coeffs") (j_valarray j_double)) (fun fc =>
  bind (bind (j_at f "h_T_coeffs") (j_valarray j_double)) (fun hc =>
  Val (m, {| e_wr := wr; e_Zr := Zr; e_Tr := Tr; e_rr := rr; e_w := w; e_Z := Z; e_T := T; e_r := rh; e_f := fc; e_h := hc |})))))))))))))).
(** [R], lines 39-42 *)
Definition ecs_R : R := R_gas.
(** [alphar], lines 44-61.  The coefficients are read without a look at the number of them *)
Definition ecs_alphar (ref : R -> R -> list R -> outcome R) (e : ecs) (T rho : R) (x : list R) : outcome R :=
  obind (fin (cdiv T (e_T e))) (fun Tri =>
  match e_f e, e_h e with
  | f0 :: f1 :: _, h0 :: h1 :: _ =>
      obind (fin (clog Tri)) (fun L =>
      let theta := 1 + (e_w e - e_wr e) * (f0 + f1 * L) in
      obind (fin (cdiv (e_Zr e) (e_Z e))) (fun zz =>
      let phi := zz * (1 + (e_w e - e_wr e) * (h0 + h1 * L)) in
      obind (fin (cdiv (e_T e) (e_Tr e))) (fun tt =>
      let f := tt * theta in
      obind (fin (cdiv (e_rr e) (e_r e))) (fun rr =>
      let h := rr * phi in
      obind (fin (cdiv T f)) (fun Teff => ref Teff (rho * h) x)))))
  | _, _ => None
  end).

(** * Polynomial extended corresponding states, multifluid_ecs_mutant.hpp *)
(** A matrix as Eigen stores it: its dimensions and the entries *)
Record pmat := { p_rows : nat; p_cols : nat; p_at : nat -> nat -> R }.
(** [json[i][j]] of a json that may be changed: beyond the end there is a null, and the conversion
    of a null is a type error.  Anything that is no array is a type error as well *)
Definition j_elem (j : json) (i : nat) : res json :=
  match j with JArr l => Val (nth i l JNull) | JNull => Val JNull | _ => Err JsonError end.
(** lines 56-75: the number of columns is that of the first row *)
Definition read_matrix (j : json) : res pmat :=
  bind (j_elem j 0) (fun r0 =>
  let rows := j_size j in
  let cols := j_size r0 in
  let read i k := bind (j_elem j i) (fun r => bind (j_elem r k) j_double) in
  bind (map_res (fun ik => read (fst ik) (snd ik)) (list_prod (seq 0 rows) (seq 0 cols))) (fun _ =>
  Val {| p_rows := rows; p_cols := cols; p_at := fun i k => value 0 (read i k) |})).
Record pecs := { pe_Tc : list R; pe_vc : list R; pe_t : pmat; pe_d : pmat }.
(** [Reducing_ECS], lines 42-77 *)
Definition make_pecs (Tc vc : list R) (j : json) : res pecs :=
  if negb (j_contains j "tr_coeffs") then Err InvalidArgument
  else if negb (j_contains j "dr_coeffs") then Err InvalidArgument
  else bind (j_at j "tr_coeffs") (fun jt => bind (j_at j "dr_coeffs") (fun jd =>
       bind (read_matrix jt) (fun t => bind (read_matrix jd) (fun d => Val {| pe_Tc := Tc; pe_vc := vc; pe_t := t; pe_d := d |})))).
(** One row: lines 85-90 and 108-113 *)
Definition pe_row (m : pmat) (x0 : R) (i : nat) : R := p_at m i 0 + x0 * p_at m i 1 + x0 * x0 * p_at m i 2.
(** The polynomial with its six coefficients; reading outside the matrix is undefined *)
Definition pe_poly (m : pmat) (x0 tau delta : R) : option R :=
  if Nat.leb 6 (p_rows m) && Nat.leb 3 (p_cols m) then
    Some (pe_row m x0 0 + pe_row m x0 1 * delta + pe_row m x0 2 * tau + pe_row m x0 3 * delta * delta
          + pe_row m x0 5 * tau * tau + pe_row m x0 4 * delta * tau)
  else None.
(** [pow(vc, 1.0/3.0)] and the scales, lines 91-94 and 114-118 *)
Definition pe_vscale (p : pecs) : option R :=
  a <-- cpow (nth 0 (pe_vc p) 0) (1 / 3); b <-- cpow (nth 1 (pe_vc p) 0) (1 / 3); Some (0.125 * (a + b) ^ 3).
Definition pe_Tscale (p : pecs) : option R := csqrt (nth 0 (pe_Tc p) 0 * nth 1 (pe_Tc p) 0).
(** [get_tr], lines 82-99, and [get_dr], lines 105-124 *)
Definition pe_tr (p : pecs) (T rho x0 x1 : R) : option R :=
  vs <-- pe_vscale p; dc <-- cdiv 1 vs; ts <-- pe_Tscale p; tau <-- cdiv ts T; delta <-- cdiv rho dc;
  f <-- pe_poly (pe_t p) x0 tau delta;
  Some (x0 ^ 2 * nth 0 (pe_Tc p) 0 + x1 ^ 2 * nth 1 (pe_Tc p) 0 + 2 * x0 * x1 * f * ts).
Definition pe_dr (p : pecs) (T rho x0 x1 : R) : option R :=
  vs <-- pe_vscale p; dc <-- cdiv 1 vs; vscale <-- cdiv 1 dc; ts <-- pe_Tscale p; tau <-- cdiv ts T; delta <-- cdiv rho dc;
  f <-- pe_poly (pe_d p) x0 tau delta;
  cdiv 1 (x0 ^ 2 * nth 0 (pe_vc p) 0 + x1 ^ 2 * nth 1 (pe_vc p) 0 + 2 * x0 * x1 * f * vscale).
(** [MultiFluidAdapter_Ecs::alphar], lines 149-163: the equations of the pure fluids only *)
Definition pecs_alphar (base : multifluid) (p : pecs) (T rho : R) (x : list R) : outcome R :=
  match x with
  | [x0; x1] =>
      obind (fin (pe_tr p T rho x0 x1)) (fun Tred =>
      obind (fin (pe_dr p T rho x0 x1)) (fun rhored =>
      obind (fin (cdiv rho rhored)) (fun delta =>
      obind (fin (cdiv Tred T)) (fun tau => corr_alphar (mf_eos base) tau delta x))))
  | _ => throws InvalidArgument
  end.
(** [build_multifluid_ecs_mutant], lines 166-175 *)
Definition build_pecs (base : multifluid) (j : json) : res pecs := make_pecs (red_Tc (mf_red base)) (red_vc (mf_red base)) j.
