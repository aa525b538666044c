(** Model of the association term:
    [include/teqp/models/association/association.hpp] and
    [include/teqp/models/association/association_types.hpp].

    Doubles are reals.  [None] is undefined behaviour or a value that is not finite
    (division by zero, the root or the logarithm of a negative number); an exception is
    [Some (Err _)].  The [std::map]s are association lists with one entry per key. *)
From Coq Require Import Reals ZArith String List Bool Lia.
From Verif Require Import Json_model Vec_spec Cubic_model Terms_model Ideal_model Util_model Multi_model.
Import ListNotations.
Open Scope R_scope.

(** constants.hpp line 12 *)
Definition N_A : R := 6.02214076 * 10 ^ 23.

(** a double that is not finite stops the model *)
Definition fin {A} (o : option A) : outcome A := match o with Some a => ok a | None => None end.
(** [sqrt]: not a number below zero *)
Definition csqrt (x : R) : option R := if Rle_dec 0 x then Some (sqrt x) else None.

(** * association_types.hpp *)
(** lines 7-18: the line for "2B" is there twice *)
Inductive aclass := a1A | a2B | a3B | a4C | not_associating.
Definition get_association_classes (s : string) : res aclass :=
  if String.eqb s "1A" then Val a1A else if String.eqb s "2B" then Val a2B
  else if String.eqb s "3B" then Val a3B else if String.eqb s "4C" then Val a4C else Err StdInvalidArgument.
(** lines 20-28 *)
Inductive radial := CS | KG.
Definition get_radial_dist (s : string) : res radial :=
  if String.eqb s "CS" then Val CS else if String.eqb s "KG" then Val KG else Err StdInvalidArgument.
(** lines 30-38 *)
Inductive rule := rule_not_set | CR1 | Dufal.
Definition get_Delta_rule (s : string) : res rule :=
  if String.eqb s "CR1" then Val CR1 else if String.eqb s "Dufal" then Val Dufal else Err StdInvalidArgument.
(** lines 40-45 *)
Record canonical := { cd_b : list R; cd_beta : list R; cd_eps : list R; cd_radial : radial }.
(** lines 47-77.  The matrices are functions of (i, j). *)
Record dufal := { df_sigma : list R; df_eps : list R; df_lambda : list R; df_k : nat -> nat -> R;
                  df_eps_HB : list R; df_K_HB : list R;
                  df_EPS : nat -> nat -> R; df_LAMBDA : nat -> nat -> R; df_EPS_HB : nat -> nat -> R; df_KHB : nat -> nat -> R }.
(** [apply_mixing_rules], lines 57-76.  The five matrices are declared [Eigen::ArrayXd], an
    array with one column: [resize(N, N)] and the accesses (i, j) are within Eigen's
    preconditions only for N = 1, and a copy keeps only the first column. *)
Definition apply_mixing_rules (sigma eps lambda : list R) (k : list (list R)) (eps_HB K_HB : list R) : outcome dufal :=
  if negb (Nat.eqb (length sigma) 1) then None
  else if negb (Nat.leb 1 (length eps) && Nat.leb 1 (length lambda) && Nat.leb 1 (length k) && Nat.leb 1 (length eps_HB) && Nat.leb 1 (length K_HB)) then None
  else
  let s i := nth i sigma 0 in let e i := nth i eps 0 in let l i := nth i lambda 0 in
  let kk i j := nth j (nth i k []) 0 in
  ok {| df_sigma := sigma; df_eps := eps; df_lambda := lambda; df_k := kk; df_eps_HB := eps_HB; df_K_HB := K_HB;
        df_EPS := fun i j => (1 - kk i j) * sqrt (POW3 (s i * s j)) / POW3 ((s i + s j) / 2) * sqrt (e i * e j) / R_CODATA2017;
        df_LAMBDA := fun i j => 3 + sqrt ((l i - 3) * (l j - 3));
        df_EPS_HB := fun i j => sqrt (nth i eps_HB 0 * nth j eps_HB 0) / R_CODATA2017;
        df_KHB := fun i j => POW3 ((cbrt (nth i K_HB 0) + cbrt (nth j K_HB 0)) / 2) |}.

(** * association.hpp *)
(** [AssociationOptions], lines 28-38 ([site_order] is never used).  [op_radial] has no
    initialiser: [None] is the indeterminate value *)
Record options := { op_partners : list (string * list string); op_radial : option radial; op_rule : rule; op_mask : list bool;
                    op_explicit : bool; op_alpha : R; op_rtol : R; op_atol : R; op_max_iters : Z }.
Definition default_options : options :=
  {| op_partners := []; op_radial := None; op_rule := CR1; op_mask := []; op_explicit := true; op_alpha := 0.5;
     op_rtol := 1 / 10 ^ 12; op_atol := 1 / 10 ^ 12; op_max_iters := 100 |}.
Definition with_radial (o : options) (r : option radial) : options :=
  {| op_partners := op_partners o; op_radial := r; op_rule := op_rule o; op_mask := op_mask o; op_explicit := op_explicit o;
     op_alpha := op_alpha o; op_rtol := op_rtol o; op_atol := op_atol o; op_max_iters := op_max_iters o |}.
Definition with_mask (o : options) (m : list bool) : options :=
  {| op_partners := op_partners o; op_radial := op_radial o; op_rule := op_rule o; op_mask := m; op_explicit := op_explicit o;
     op_alpha := op_alpha o; op_rtol := op_rtol o; op_atol := op_atol o; op_max_iters := op_max_iters o |}.
Definition with_partners (o : options) (p : list (string * list string)) : options :=
  {| op_partners := p; op_radial := op_radial o; op_rule := op_rule o; op_mask := op_mask o; op_explicit := op_explicit o;
     op_alpha := op_alpha o; op_rtol := op_rtol o; op_atol := op_atol o; op_max_iters := op_max_iters o |}.
Definition with_rule (o : options) (r : rule) : options :=
  {| op_partners := op_partners o; op_radial := op_radial o; op_rule := r; op_mask := op_mask o; op_explicit := op_explicit o;
     op_alpha := op_alpha o; op_rtol := op_rtol o; op_atol := op_atol o; op_max_iters := op_max_iters o |}.

(** conversion of a JSON number to [int]: truncation *)
Definition j_int (j : json) : res Z :=
  match j with JNum r => Val (if Rle_dec 0 r then Int_part r else - Int_part (- r))%Z | _ => Err JsonError end.
(** [from_json], lines 39-44; [get] starts from a value-initialised object, whose
    [radial_dist] is the enumerator 0, [CS] *)
Definition opt_or {A} (j : json) (k : string) (f : json -> res A) (d : A) : res A :=
  if j_contains j k then bind (j_at j k) f else Val d.
Definition options_from_json (j : json) : res options :=
  bind (opt_or j "alpha" j_double (op_alpha default_options)) (fun alpha =>
  bind (opt_or j "rtol" j_double (op_rtol default_options)) (fun rtol =>
  bind (opt_or j "atol" j_double (op_atol default_options)) (fun atol =>
  bind (opt_or j "max_iters" j_int (op_max_iters default_options)) (fun mi =>
  Val {| op_partners := []; op_radial := Some CS; op_rule := CR1; op_mask := []; op_explicit := true; op_alpha := alpha;
         op_rtol := rtol; op_atol := atol; op_max_iters := mi |})))).

(** [m\[k\] = v] and [m.find(k)] of a [std::map] *)
Fixpoint mput {K V} (eqb : K -> K -> bool) (k : K) (v : V) (l : list (K * V)) : list (K * V) :=
  match l with
  | [] => [(k, v)]
  | (k', v') :: l' => if eqb k k' then (k, v) :: l' else (k', v') :: mput eqb k v l'
  end.
Fixpoint mget {K V} (eqb : K -> K -> bool) (k : K) (l : list (K * V)) : option V :=
  match l with
  | [] => None
  | (k', v) :: l' => if eqb k k' then Some v else mget eqb k l'
  end.
(** [std::set<std::string>]: sorted, without repetition *)
Fixpoint set_insert (s : string) (l : list string) : list string :=
  match l with
  | [] => [s]
  | a :: l' => match String.compare s a with Lt => s :: l | Eq => l | Gt => a :: set_insert s l' end
  end.
Definition set_of (l : list string) : list string := fold_left (fun acc s => set_insert s acc) l [].

Notation compsite := (nat * string)%type.
Definition cs_eqb (a b : compsite) : bool := Nat.eqb (fst a) (fst b) && String.eqb (snd a) (snd b).
Definition cc_eqb (a b : nat * nat) : bool := Nat.eqb (fst a) (fst b) && Nat.eqb (snd a) (snd b).

(** [IndexMapper], lines 64-73 ([molecule_sites] is a copy of the input) *)
Record mapper := { to_CompSite : list (nat * compsite); to_siteid : list (compsite * nat); CompCIndex_to_siteid : list ((nat * nat) * nat);
                   counts : list nat; N_sites : list nat; N_unique_sites : list nat; comp_index : list nat }.

(** [++site_counts\[site\]], lines 89-91 *)
Definition count_site (m : list (string * nat)) (s : string) : list (string * nat) :=
  mput String.eqb s (S (match mget String.eqb s m with Some c => c | None => 0%nat end)) m.
Definition site_counts (molecule : list string) : list (string * nat) := fold_left count_site molecule [].

(** lines 97-107.  [counts] and [comp_index] have 1000 entries, and are cut at the end to
    the [siteid] entries written (lines 112-113): here the list of the entries written *)
Fixpoint add_sites (icomp : nat) (sc : list (string * nat)) (sites : list string) (Cindex siteid : nat) (ind : mapper)
  : option (nat * mapper) :=
  match sites with
  | [] => Some (siteid, ind)
  | site :: sites' =>
      if Nat.leb 1000 siteid then None
      else
      add_sites icomp sc sites' (S Cindex) (S siteid)
        {| to_CompSite := mput Nat.eqb siteid (icomp, site) (to_CompSite ind);
           to_siteid := mput cs_eqb (icomp, site) siteid (to_siteid ind);
           CompCIndex_to_siteid := mput cc_eqb (icomp, Cindex) siteid (CompCIndex_to_siteid ind);
           counts := counts ind ++ [match mget String.eqb site sc with Some c => c | None => 0%nat end];
           N_sites := N_sites ind; N_unique_sites := N_unique_sites ind;
           comp_index := comp_index ind ++ [icomp] |}
  end.
(** lines 86-111 *)
Fixpoint add_molecules (mols : list (list string)) (icomp siteid : nat) (ind : mapper) : option mapper :=
  match mols with
  | [] => Some ind
  | m :: mols' =>
      match add_sites icomp (site_counts m) (set_of m) 0 siteid ind with
      | None => None
      | Some (siteid', ind') =>
          add_molecules mols' (S icomp) siteid'
            {| to_CompSite := to_CompSite ind'; to_siteid := to_siteid ind'; CompCIndex_to_siteid := CompCIndex_to_siteid ind';
               counts := counts ind'; N_sites := N_sites ind' ++ [length m];
               N_unique_sites := N_unique_sites ind' ++ [length (set_of m)]; comp_index := comp_index ind' |}
      end
  end.
(** [make_mapper], lines 75-115 *)
Definition make_mapper (mols : list (list string)) : option mapper :=
  add_molecules mols 0 0 {| to_CompSite := []; to_siteid := []; CompCIndex_to_siteid := []; counts := []; N_sites := [];
                            N_unique_sites := []; comp_index := [] |}.

(** [get_DIJ], lines 123-141 *)
Definition comp_site_at (ind : mapper) (I : nat) : outcome compsite :=
  match mget Nat.eqb I (to_CompSite ind) with Some cs => ok cs | None => throws StdOutOfRange end.
Definition contains (l : list string) (s : string) : bool := existsb (String.eqb s) l.
Definition get_DIJ (ind : mapper) (o : options) (I J : nat) : outcome nat :=
  obind (comp_site_at ind I) (fun csI => obind (comp_site_at ind J) (fun csJ =>
  let typed :=
    match op_partners o with
    | [] => fin (nth_error (counts ind) J)
    | _ => match lookup (snd csI) (op_partners o) with
           | None => throws StdOutOfRange
           | Some l => if contains l (snd csJ) then fin (nth_error (counts ind) J) else ok 0%nat
           end
    end in
  match op_mask o with
  | [] => typed
  | mask => if Nat.eqb (fst csI) (fst csJ)
            then obind (fin (nth_error mask (fst csI))) (fun b => if b then typed else ok 0%nat)
            else typed
  end)).
(** [make_D], lines 121-154 *)
Definition make_D (ind : mapper) (o : options) : outcome (list (list nat)) :=
  if negb (Nat.eqb (length (op_mask o)) 0) && negb (Nat.eqb (length (op_mask o)) (length (N_sites ind))) then throws InvalidArgument
  else
  let n := length (to_siteid ind) in
  omap (fun I => omap (fun J => get_DIJ ind o I J) (seq 0 n)) (seq 0 n).

(** the members, lines 170-175 *)
Inductive sidecar := Canonical (d : canonical) | DufalSide (d : dufal).
Record association := { as_options : options; as_mapper : mapper; as_D : list (list nat); as_rule : rule; as_data : sidecar }.
(** the constructor of lines 182-183 *)
Definition make_association (d : sidecar) (mols : list (list string)) (o : options) : outcome association :=
  obind (fin (make_mapper mols)) (fun ind => obind (make_D ind o) (fun D =>
  ok {| as_options := o; as_mapper := ind; as_D := D; as_rule := op_rule o; as_data := d |})).
(** the constructor of lines 177-181; it reads [options.radial_dist] *)
Definition make_association_CR1 (b beta eps : list R) (mols : list (list string)) (o : options) : outcome association :=
  obind (fin (op_radial o)) (fun r =>
  obind (make_association (Canonical {| cd_b := b; cd_beta := beta; cd_eps := eps; cd_radial := r |}) mols o) (fun a =>
  match op_rule o with CR1 => ok a | _ => throws StdInvalidArgument end)).

(** * The factory, lines 155-266 *)
(** [toEig], lines 155-158: [&vec\[0\]] of an empty vector is undefined *)
Definition toEig (j : json) (k : string) : outcome (list R) :=
  obind (Some (bind (j_at j k) (j_valarray j_double))) (fun l => match l with [] => None | _ => ok l end).
(** [get_association_options], lines 159-169 *)
Definition get_association_options (j : json) : res options :=
  if j_contains j "options" then
    bind (j_at j "options") (fun jo => bind (options_from_json jo) (fun o =>
      if j_contains jo "self_association_mask"
      then bind (bind (j_at jo "self_association_mask") (j_valarray j_bool)) (fun m => Val (with_mask o m))
      else Val o))
  else Val default_options.
(** lines 187-192: any iterable of iterables of strings *)
Definition unique_site_types (j : json) : res (list string) :=
  bind (map_res (fun m => map_res j_string (j_values m)) (j_values j)) (fun ls => Val (set_of (concat ls))).
(** lines 194-225; an object of arrays of strings (the array-of-pairs form is not modelled) *)
Definition j_partners (j : json) : res (list (string * list string)) :=
  match j with
  | JObj l => map_res (fun kv => bind (j_valarray j_string (snd kv)) (fun v => Val (fst kv, v))) l
  | JNull => Err JsonError | _ => Err JsonError
  end.
Definition default_partners (types : list string) : list (string * list string) :=
  map (fun s1 => (s1, filter (fun s2 => negb (String.eqb s1 s2)) types)) types.
Definition get_interaction_partners (types : list string) (j : json) : res (list (string * list string)) :=
  if j_contains j "options" && (match j_at j "options" with Val jo => j_contains jo "interaction_partners" | Err _ => false end) then
    bind (bind (bind (j_at j "options") (fun jo => j_at jo "interaction_partners")) j_partners) (fun p =>
    if forallb (fun kv => contains types (fst kv) && forallb (contains types) (snd kv)) p then Val p else Err InvalidArgument)
  else Val (default_partners types).
(** lines 184-266.  The evaluations that can only throw the exception of the JSON library are
    in the order of the text *)
Definition factory (j : json) : outcome association :=
  obind (Some (bind (j_at j "molecule_sites") unique_site_types)) (fun types =>
  if j_contains j "Delta_rule" then
    obind (Some (bind (j_at j "Delta_rule") j_string)) (fun r =>
    if String.eqb r "CR1" then
      obind (toEig j "b / m^3/mol") (fun b => obind (toEig j "beta") (fun beta => obind (toEig j "epsilon / J/mol") (fun eps =>
      obind (Some (get_association_options j)) (fun o =>
      let o1 := with_rule o CR1 in
      obind (fin (op_radial o1)) (fun rd =>
      obind (Some (get_interaction_partners types j)) (fun p =>
      obind (Some (bind (j_at j "molecule_sites") (j_valarray (j_valarray j_string)))) (fun mols =>
      make_association (Canonical {| cd_b := b; cd_beta := beta; cd_eps := eps; cd_radial := rd |}) mols (with_partners o1 p))))))))
    else if String.eqb r "Dufal" then
      obind (toEig j "sigma / m") (fun sigma =>
      obind (if j_contains j "epsilon / J/mol" then toEig j "epsilon / J/mol"
             else if j_contains j "epsilon/kB / K" then obind (toEig j "epsilon/kB / K") (fun l => ok (map (fun e => e * R_CODATA2017) l))
             else throws InvalidArgument) (fun eps =>
      obind (toEig j "lambda_r") (fun lambda =>
      obind (Some (bind (j_at j "kmat") build_square_matrix)) (fun k =>
      obind (toEig j "epsilon_HB / J/mol") (fun eps_HB => obind (toEig j "K_HB / m^3") (fun K_HB =>
      obind (apply_mixing_rules sigma eps lambda k eps_HB K_HB) (fun d =>
      obind (Some (get_association_options j)) (fun o =>
      obind (Some (get_interaction_partners types j)) (fun p =>
      obind (Some (bind (j_at j "molecule_sites") (j_valarray (j_valarray j_string)))) (fun mols =>
      make_association (DufalSide d) mols (with_partners (with_rule o Dufal) p)))))))))))
    else throws StdInvalidArgument)
  else throws StdInvalidArgument).

(** * Evaluation *)
(** the contact value of the radial distribution function, lines 285-296 *)
Definition radial_g (r : radial) (eta : R) : option R :=
  match r with
  | CS => cdiv (2 - eta) (2 * (1 - eta) * (1 - eta) * (1 - eta))
  | KG => cdiv 1 (1 - 1.9 * eta)
  end.
(** [get_I_Dufal], lines 299-321; the coefficients b(k, i, j) are those of Dufal_assoc.cpp *)
Definition Dufal_a (bc : nat -> nat -> nat -> R) (lambda : R) (i j : nat) : R :=
  fst (fold_left (fun ap k => (fst ap + bc k i j * snd ap, snd ap * lambda)) (seq 0 7) (0, 1)).
Definition Dufal_row (bc : nat -> nat -> nat -> R) (Tstar lambda rhoi : R) (i : nat) (summer : R) : R :=
  fst (fold_left (fun sp j => (fst sp + Dufal_a bc lambda i j * rhoi * snd sp, snd sp * Tstar)) (seq 0 (11 - i)) (summer, 1)).
Definition get_I_Dufal (bc : nat -> nat -> nat -> R) (Tstar rhostar lambda : R) : R :=
  fst (fold_left (fun sp i => (Dufal_row bc Tstar lambda (snd sp) i (fst sp), snd sp * rhostar)) (seq 0 11) (0, 1)).
(** lines 345-350 *)
Definition Delta_CR1 (d : canonical) (T g : R) (i j : nat) : option R :=
  bi <-- nth_error (cd_b d) i; bj <-- nth_error (cd_b d) j;
  ei <-- nth_error (cd_eps d) i; ej <-- nth_error (cd_eps d) j;
  ti <-- nth_error (cd_beta d) i; tj <-- nth_error (cd_beta d) j;
  beta_ij <-- csqrt (ti * tj);
  q <-- cdiv ((ei + ej) / 2) (R_CODATA2017 * T);
  Some (g * ((bi + bj) / 2) * beta_ij * (exp q - 1) / N_A).
(** lines 352-357 *)
Definition Delta_Dufal (bc : nat -> nat -> nat -> R) (d : dufal) (T rhostar : R) (i j : nat) : option R :=
  if Nat.leb 1 i || Nat.leb 1 j then None
  else
  Tstar <-- cdiv T (df_EPS d i j);
  q <-- cdiv (df_EPS_HB d i j) T;
  Some ((exp q - 1) * df_KHB d i j * get_I_Dufal bc Tstar rhostar (df_LAMBDA d i j)).
(** lines 323-337 *)
Definition Dufal_rhostar (d : dufal) (rho : R) (x : list R) : option R :=
  if Nat.leb (length x) (length (df_sigma d)) then
    Some (rho * N_A * sumn (length x) (fun i => sumn (length x) (fun j =>
      nth i x 0 * nth j x 0 * POW3 ((nth i (df_sigma d) 0 + nth j (df_sigma d) 0) / 2))))
  else None.
(** [get_Delta], lines 274-367; [std::get] of the wrong alternative throws *)
Definition bad_variant : error := OtherError 1.
Definition matrix (n : nat) (f : nat -> nat -> outcome R) : outcome (list (list R)) :=
  omap (fun I => omap (fun J => f I J) (seq 0 n)) (seq 0 n).
Definition get_Delta (bc : nat -> nat -> nat -> R) (a : association) (T rho : R) (x : list R) : outcome (list (list R)) :=
  let ind := as_mapper a in
  let comps f := matrix (length (to_CompSite ind)) (fun I J =>
    obind (comp_site_at ind I) (fun csI => obind (comp_site_at ind J) (fun csJ => fin (f (fst csI) (fst csJ))))) in
  match as_rule a, as_data a with
  | CR1, Canonical d =>
      if negb (Nat.eqb (length x) (length (cd_b d))) then None
      else
      let bmix := sumn (length x) (fun i => nth i x 0 * nth i (cd_b d) 0) in
      let eta := bmix * rho / 4 in
      obind (fin (radial_g (cd_radial d) eta)) (fun g => comps (Delta_CR1 d T g))
  | Dufal, DufalSide d =>
      obind (fin (Dufal_rhostar d rho x)) (fun rhostar => comps (Delta_Dufal bc d T rhostar))
  | CR1, DufalSide _ | Dufal, Canonical _ => throws bad_variant
  | rule_not_set, _ => match to_CompSite ind with [] => ok [] | _ => throws StdInvalidArgument end
  end.

Definition mentry (m : list (list R)) (i j : nat) : R := nth j (nth i m []) 0.
Definition dcount (m : list (list nat)) (i j : nat) : R := INR (nth j (nth i m []) 0%nat).
(** the right-hand side of the mass-action equation, line 418 *)
Definition rdotX (n : nat) (K : nat -> nat -> R) (X : list R) (i : nat) : R := sumn n (fun j => K i j * nth j X 0).
Fixpoint osequence {A} (l : list (option A)) : option (list A) :=
  match l with [] => Some [] | o :: l' => a <-- o; r <-- osequence l'; Some (a :: r) end.
Definition substitute (n : nat) (K : nat -> nat -> R) (alpha : R) (X : list R) : option (list R) :=
  osequence (map (fun i => q <-- cdiv (1 - alpha) (1 + rdotX n K X i); Some (alpha * nth i X 0 + q)) (seq 0 n)).
(** line 423 *)
Definition close (n : nat) (rtol atol : R) (X Xnew : list R) : bool :=
  forallb (fun i => if Rlt_dec (Rabs (nth i Xnew 0 - nth i X 0)) (rtol * nth i Xnew 0 + atol) then true else false) (seq 0 n).
(** the loop of lines 416-429 *)
Fixpoint iterate (n : nat) (K : nat -> nat -> R) (alpha rtol atol : R) (fuel : nat) (X : list R) : option (list R) :=
  match fuel with
  | 0%nat => Some X
  | S fuel' => Xnew <-- substitute n K alpha X;
               if close n rtol atol X Xnew then Some X else iterate n K alpha rtol atol fuel' Xnew
  end.
(** lines 395-414: comparisons with a value that is not a number are false *)
Definition explicit_roots (kA kB : R) : option (R * R) :=
  let disc := kA * kA - 2 * kA * kB + 2 * kA + kB * kB + 2 * kB + 1 in
  s <-- csqrt disc;
  X1 <-- cdiv (kA - kB - s - 1) (2 * kA);
  X2 <-- cdiv (kA - kB + s - 1) (2 * kA);
  Some (X1, X2).
Definition explicit_X (kA kB X0 : R) : option (list R) :=
  let XA := match explicit_roots kA kB with
            | None => X0
            | Some (X1, X2) =>
                if Rlt_dec X1 0 then (if Rlt_dec 0 X2 then X2 else X0)
                else if Rlt_dec 0 X1 then (if Rlt_dec X2 0 then X1 else X0)
                else X0
            end in
  XB <-- cdiv 1 (1 + kA * XA);
  Some [XA; XB].
(** [successive_substitution], lines 370-432.  The matrix rDDX is a function of (i, j) *)
Definition rDDX (a : association) (Delta : list (list R)) (rho : R) (xj : list R) (i j : nat) : R :=
  rho * N_A * (mentry Delta i j * dcount (as_D a) i j) * nth j xj 0.
Definition zero_diagonal (n : nat) (K : nat -> nat -> R) : bool :=
  forallb (fun i => if Req_EM_T (K i i) 0 then true else false) (seq 0 n).
Definition successive_substitution (bc : nat -> nat -> nat -> R) (a : association) (T rho : R) (x X_init : list R) : outcome (list R) :=
  let ind := as_mapper a in let o := as_options a in
  if negb (Nat.eqb (length X_init) (length (to_siteid ind))) then throws InvalidArgument
  else
  obind (get_Delta bc a T rho x) (fun Delta =>
  let n := length (to_CompSite ind) in
  obind (omap (fun I => obind (comp_site_at ind I) (fun cs => fin (nth_error x (fst cs)))) (seq 0 n)) (fun xj =>
  let K := rDDX a Delta rho xj in
  if op_explicit o && Nat.eqb (length x) 1 && Nat.eqb (length (counts ind)) 2 && zero_diagonal n K then
    let kA := rho * N_A * INR (nth 0 (counts ind) 0%nat) * mentry Delta 0 1 in
    let kB := rho * N_A * INR (nth 1 (counts ind) 0%nat) * mentry Delta 0 1 in
    fin (explicit_X kA kB (nth 0 X_init 0))
  else fin (iterate n K (op_alpha o) (op_rtol o) (op_atol o) (Z.to_nat (op_max_iters o)) X_init))).

(** [alphar], lines 438-461 *)
Fixpoint osumo (n : nat) (f : nat -> outcome R) : outcome R :=
  match n with
  | 0%nat => ok 0
  | S n' => obind (osumo n' f) (fun s => obind (f n') (fun v => ok (s + v)))
  end.
Definition site_energy (a : association) (X : list R) (icomp jsite : nat) : outcome R :=
  obind (match mget cc_eqb (icomp, jsite) (CompCIndex_to_siteid (as_mapper a)) with Some k => ok k | None => throws StdOutOfRange end) (fun I =>
  obind (fin (nth_error X I)) (fun XI => obind (fin (clog XI)) (fun l => obind (fin (nth_error (counts (as_mapper a)) I)) (fun c =>
  ok ((l - XI / 2 + 0.5) * INR c))))).
Definition alphar (bc : nat -> nat -> nat -> R) (a : association) (T rho : R) (x : list R) : outcome R :=
  let ind := as_mapper a in
  if negb (Nat.eqb (length x) (length (N_sites ind))) then throws InvalidArgument
  else
  obind (successive_substitution bc a T rho x (repeat 1 (length (to_siteid ind)))) (fun X =>
  osumo (length x) (fun icomp =>
    obind (osumo (nth icomp (N_unique_sites ind) 0%nat) (site_energy a X icomp)) (fun s => ok (nth icomp x 0 * s)))).
