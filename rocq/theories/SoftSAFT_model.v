(** Model of [include/teqp/models/saft/softsaft.hpp], [include/teqp/models/saft/genericsaft.hpp]
    and [include/teqp/models/multifluid_association.hpp].  Doubles are reals; [None] is undefined
    behaviour or a result that is not a number. *)
From Coq Require Import Reals ZArith String List.
From Verif Require Import Json_model Vec_spec Cubic_model Terms_model Ideal_model Potential_model.
From Verif Require Assoc_model PCSAFT_model Multi_model.
Import ListNotations.
Local Open Scope R_scope.

(** * softsaft.hpp *)
(** lines 11-18 *)
Definition soft_a : list (list R) :=
  [[];
   [0; 0.49304346593882; 2.1528349894745; - 15.955682329017; 24.035999666294; - 8.6437958513990];
   [0; - 0.47031983115362; 1.1471647487376; 37.889828024211; - 84.667121491179; 39.643914108411];
   [0; 5.0325486243620; - 25.915399226419; - 18.862251310090; 107.63707381726; - 66.602649735720];
   [0; - 7.3633150434385; 51.553565337453; - 40.519369256098; - 38.796692647218; 44.605139198378];
   [0; 2.9043607296043; - 24.478812869291; 31.500186765040; - 5.3368920371407; - 9.5183440180133]].
(** [g_LJ], lines 20-29; [powi(Tstar, 1-j)] is the power of 1/Tstar *)
Definition soft_g (T rho : R) : option R :=
  t <-- cdiv 1 T;
  Some (1 + sumn 5 (fun i => sumn 5 (fun j => nth (j + 1) (nth (i + 1) soft_a []) 0 * rho ^ (i + 1) * t ^ j))).
(** the class, lines 32-38; the cubes of line 34 are not used anywhere *)
Record soft := { so_m : list R; so_eps : list R; so_sigma : list R }.
(** [toEig], line 36: the address of the first element of an empty vector is undefined; the
    constructor from JSON, line 40.  The order in which the three arguments are evaluated is not
    specified: only the exception of the JSON library can come out of them *)
Definition make_soft (j : json) : outcome soft :=
  obind (Assoc_model.toEig j "m") (fun m => obind (Assoc_model.toEig j "epsilon/kB / K") (fun e =>
  obind (Assoc_model.toEig j "sigma / m") (fun s => ok {| so_m := m; so_eps := e; so_sigma := s |}))).
(** [R], lines 42-45 *)
Definition soft_R : R := R_gas.
(** lines 53-56 *)
Definition soft_sigma3 (s : soft) (i j : nat) : R := let x := (nth i (so_sigma s) 0 + nth j (so_sigma s) 0) / 2 in x * x * x.
(** lines 57-59 *)
Definition soft_eps (s : soft) (i j : nat) : option R := Assoc_model.csqrt (nth i (so_eps s) 0 * nth j (so_eps s) 0).
(** lines 66-70 *)
Definition soft_den (s : soft) (x : list R) (i j : nat) : R := nth i (so_m s) 0 * nth j (so_m s) 0 * nth i x 0 * nth j x 0.
(** [alphar], lines 48-99; an index beyond the end of one of the arrays is undefined *)
Definition soft_alphar (s : soft) (T rhomolar : R) (x : list R) : option R :=
  let N := length x in
  if (Nat.leb N (length (so_m s)) && Nat.leb N (length (so_eps s)) && Nat.leb N (length (so_sigma s)))%bool then
    let m_mix := sumn N (fun i => nth i (so_m s) 0 * nth i x 0) in
    let num1 := sumn N (fun i => sumn N (fun j => soft_den s x i j * soft_sigma3 s i j)) in
    num2 <-- osum N (fun i => osum N (fun j => e <-- soft_eps s i j; Some (soft_den s x i j * soft_sigma3 s i j * e)));
    let den := sumn N (fun i => sumn N (fun j => soft_den s x i j)) in
    sigmamix3 <-- cdiv num1 den; e <-- cdiv num2 den; epskmix <-- cdiv e sigmamix3;
    let rhoN := rhomolar * m_mix * Assoc_model.N_A in
    Tstar <-- cdiv T epskmix;
    let rhostar := rhoN * sigmamix3 in
    a <-- johnson_alphar Tstar rhostar;
    g <-- soft_g Tstar rhostar; l <-- clog g;
    Some (m_mix * a + (1 - m_mix) * l)
  else None.

(** * genericsaft.hpp *)
Section Generic.
(** the non-polar part of SAFT-VR-Mie is any model with a factory *)
Variable VR : Type.
Variable make_vr : json -> outcome VR.
Variable vr_alphar : VR -> R -> R -> list R -> outcome R.
(** the coefficients of the binomial of the association term (see Assoc_model) *)
Variable bc : nat -> nat -> nat -> R.

(** lines 15-17 *)
Inductive nonpolar := NPpcsaft (m : PCSAFT_model.mixture) | NPvrmie (m : VR) | NPsoft (m : soft) | NPtwo (m : twocenter).
(** lines 20-38 *)
Definition make_nonpolar (j : json) : outcome nonpolar :=
  obind (Some (bind (j_at j "kind") j_string)) (fun kind =>
  if (String.eqb kind "PCSAFT" || String.eqb kind "PC-SAFT")%bool then
    obind (Some (j_at j "model")) (fun mj => obind (Some (PCSAFT_model.PCSAFTfactory mj)) (fun m => ok (NPpcsaft m)))
  else if (String.eqb kind "SAFTVRMie" || String.eqb kind "SAFT-VR-Mie")%bool then
    obind (Some (j_at j "model")) (fun mj => obind (make_vr mj) (fun m => ok (NPvrmie m)))
  else if (String.eqb kind "Johnson+Johnson" || String.eqb kind "softSAFT")%bool then
    obind (Some (j_at j "model")) (fun mj => obind (make_soft mj) (fun m => ok (NPsoft m)))
  else if (String.eqb kind "2CLJF" || String.eqb kind "2CLJ")%bool then
    obind (Some (j_at j "model")) (fun mj =>
    obind (Some (bind (j_at mj "author") j_string)) (fun author => obind (Some (bind (j_at mj "L^*") j_double)) (fun L =>
    obind (Some (build_two_center_model author L)) (fun m => ok (NPtwo m)))))
  else throws StdInvalidArgument).
(** lines 39-47 *)
Definition make_association (j : json) : outcome Assoc_model.association :=
  obind (Some (bind (j_at j "kind") j_string)) (fun kind =>
  if (String.eqb kind "canonical" || String.eqb kind "Dufal")%bool then
    obind (Some (j_at j "model")) Assoc_model.factory
  else throws StdInvalidArgument).
(** lines 50-54, 61-63 *)
Record generic := { ge_nonpolar : nonpolar; ge_assoc : option Assoc_model.association }.
Definition make_generic (j : json) : outcome generic :=
  obind (Some (j_at j "nonpolar")) (fun nj => obind (make_nonpolar nj) (fun np =>
  if j_contains j "association" then
    obind (Some (j_at j "association")) (fun aj => obind (make_association aj) (fun a => ok {| ge_nonpolar := np; ge_assoc := Some a |}))
  else ok {| ge_nonpolar := np; ge_assoc := None |})).
(** lines 56-59 *)
Definition generic_R : R := R_gas.
(** lines 65-73; the two-centre fluid does not look at the composition *)
Definition nonpolar_alphar (np : nonpolar) (T rho : R) (x : list R) : outcome R :=
  match np with
  | NPpcsaft m => PCSAFT_model.pcsaft_alphar m T rho x
  | NPvrmie m => vr_alphar m T rho x
  | NPsoft m => Assoc_model.fin (soft_alphar m T rho x)
  | NPtwo m => Assoc_model.fin (twocenter_alphar m T rho)
  end.
Definition generic_alphar (g : generic) (T rho : R) (x : list R) : outcome R :=
  obind (nonpolar_alphar (ge_nonpolar g) T rho x) (fun c =>
  match ge_assoc g with
  | Some a => obind (Assoc_model.alphar bc a T rho x) (fun v => ok (c + v))
  | None => ok c
  end).
End Generic.

(** * multifluid_association.hpp *)
Section MultifluidAssociation.
(** [multifluidfactory]: file names are resolved in Multi_model *)
Variable multifluidfactory : json -> outcome Multi_model.multifluid.
Variable bc : nat -> nat -> nat -> R.
(** lines 9-17 *)
Definition make_mfassoc (j : json) : outcome (Multi_model.multifluid * Assoc_model.association) :=
  obind (Some (j_at j "multifluid")) (fun mj => obind (multifluidfactory mj) (fun m =>
  obind (Some (bind (j_at j "association") (fun aj => j_at aj "model"))) (fun aj => obind (Assoc_model.factory aj) (fun a => ok (m, a))))).
(** lines 21-24 *)
Definition mfassoc_R : R := R_gas.
(** lines 26-32; the order of the two calls is not specified, the first one throws first here *)
Definition mfassoc_alphar (m : Multi_model.multifluid * Assoc_model.association) (T rho : R) (x : list R) : outcome R :=
  obind (Multi_model.mf_alphar (fst m) T rho x) (fun a => obind (Assoc_model.alphar bc (snd m) T rho x) (fun b => ok (a + b))).
End MultifluidAssociation.
