(** Model of [algorithms/iteration.hpp]: the stopping conditions and the Newton iteration
    for two thermodynamic variables. *)
From Coq Require Import Reals ZArith String Ascii List Bool.
From Verif Require Import Json_model Cubic_model Derivs_model Float_model.
Import ListNotations.
Open Scope R_scope.

(** An [Eigen::Array2d] and a row-major [Eigen::Array22d]. *)
Definition vec := (fl * fl)%type.
Definition mat22 := (vec * vec)%type.
Definition vsub (a b : vec) : vec := (fsub (fst a) (fst b), fsub (snd a) (snd b)).
Definition vadd (a b : vec) : vec := (fadd (fst a) (fst b), fadd (snd a) (snd b)).
Definition vopp (a : vec) : vec := (fopp (fst a), fopp (snd a)).
Definition vget (a : vec) (i : nat) : fl := match i with O => fst a | _ => snd a end.
Definition vdivs (a : vec) (d : fl) : vec := (fdiv (fst a) d, fdiv (snd a) d).

(** [IterationMatrices], cpp/derivs.hpp lines 17-22 *)
Record matrices := { im_v : vec; im_J : mat22 }.

(** lines 16 and 23-29 ([N] is the argument of [take_steps]) *)
Inductive reason := not_specified | keep_going | success | fatal.
Record sdata := { sd_N : Z; sd_x : vec; sd_dx : vec; sd_r : vec; sd_idx : list nat }.
(** [StoppingCondition], lines 37-41: the test and the description.  Simplification: a
    test is a function of the data (the class could keep state between calls). *)
Record condition := { c_stop : sdata -> reason; c_desc : string }.

(** [MaxAbsErrorCondition], lines 43-55.  [mx] is [maxCoeff] of two entries: Eigen leaves
    open what it returns if an entry is NaN. *)
Definition MaxAbsError (mx : fl -> fl -> fl) (threshold : fl) : condition :=
  {| c_stop := fun d => if flt (mx (fabs (fst (sd_r d))) (fabs (snd (sd_r d)))) threshold then success else keep_going;
     c_desc := "MaxAbsErrorCondition" |}.
(** [MinRelStepsizeCondition], lines 57-78 *)
Definition min_rel (d : sdata) : fl :=
  fold_left (fun minval i => fmin (fabs (fdiv (vget (sd_dx d) i) (vget (sd_x d) i))) minval) (sd_idx d) (Fin 1e99).
Definition MinRelStepsize (threshold : fl) : condition :=
  {| c_stop := fun d => if flt (min_rel d) threshold then success else keep_going; c_desc := "MinRelStepsizeCondition" |}.
(** [NanXDXErrorCondition], lines 80-98 *)
Definition NanXDXError : condition :=
  {| c_stop := fun d => if existsb (fun i => negb (isfinite (vget (sd_x d) i)) || negb (isfinite (vget (sd_dx d) i))) (sd_idx d)
                        then fatal else keep_going; c_desc := "NanXDXErrorCondition" |}.
(** [NegativeXErrorCondition], lines 100-109 *)
Definition NegativeXError : condition :=
  {| c_stop := fun d => if existsb (fun i => flt (vget (sd_x d) i) (Fin 0)) (sd_idx d) then fatal else keep_going;
     c_desc := "NegativeXErrorCondition" |}.
(** [StepCountErrorCondition], lines 111-122: the limit is stored as [std::size_t], and the
    comparison converts [N] to it as well. *)
Definition to_size (z : Z) : Z := (z mod 2 ^ 64)%Z.
Definition StepCountError (Nmax : Z) : condition :=
  {| c_stop := fun d => if (to_size Nmax <=? to_size (sd_N d))%Z then fatal else keep_going; c_desc := "StepCountErrorCondition" |}.

(** [AlphaModel::get_vals], lines 170-211: [A] holds the sums of the derivatives of the
    ideal-gas and the residual model (lines 152-157).  More than two variables write outside
    the array ([None]). *)
Definition one_val (A : nat -> nat -> R) (Rg T rho : R) (var : ascii) : option R :=
  let Trecip := 1 / T in
  let alpha := A 0%nat 0%nat in
  let dalphadTrecip := A 1%nat 0%nat / Trecip in
  let dalphadrho := A 0%nat 1%nat / rho in
  let a := alpha * Rg * T in
  let dadTrecip := Rg / (Trecip * Trecip) * (Trecip * dalphadTrecip - alpha) in
  let dadrho := Rg / Trecip * dalphadrho in
  if (var =? "T")%char then Some T
  else if (var =? "D")%char then Some rho
  else if (var =? "P")%char then Some (rho * rho * dadrho)
  else if (var =? "S")%char then Some (Trecip * Trecip * dadTrecip)
  else if (var =? "H")%char then Some (a + Trecip * dadTrecip + rho * dadrho)
  else if (var =? "U")%char then Some (a + Trecip * dadTrecip)
  else None.
Fixpoint vals_loop (A : nat -> nat -> R) (Rg T rho : R) (i : nat) (vars : list ascii) : outcome (list R) :=
  match vars with
  | [] => ok []
  | c :: l => match one_val A Rg T rho c with
              | None => throws StdInvalidArgument
              | Some v => if Nat.leb 2 i then None else obind (vals_loop A Rg T rho (S i) l) (fun vs => ok (v :: vs))
              end
  end.
Definition alpha_get_vals (vars : list ascii) (A : nat -> nat -> R) (Rg T rho : R) : outcome (list R) := vals_loop A Rg T rho 0 vars.

(** The constructor, lines 247-251: which of temperature (0) and density (1) are varied.
    Fewer than two variables are read out of bounds. *)
Definition nonconstant (vars : list ascii) : option (list nat) :=
  match vars with
  | v0 :: v1 :: _ => Some ((if (v0 =? "T")%char || (v1 =? "T")%char then [] else [0%nat]) ++
                           (if (v0 =? "D")%char || (v1 =? "D")%char then [] else [1%nat]))
  | _ => None
  end.

(** [calc_matrices], lines 281-284, at finite temperature and density for a model with the
    derivatives [A T rho] (ideal gas plus residual).  Simplification: at zero or infinite
    temperature or density all entries are NaN. *)
Definition lift_rows (rows : list row) : option matrices :=
  match rows with
  | [a; b] => Some {| im_v := (Fin (row_v a), Fin (row_v b));
                      im_J := ((Fin (row_J0 a), Fin (row_J1 a)), (Fin (row_J0 b), Fin (row_J1 b))) |}
  | _ => None
  end.
Definition calc_matrices (vars : list ascii) (A : R -> R -> nat -> nat -> R) (Rg : R) (z : list R) (x : vec) : outcome matrices :=
  match x with
  | (Fin T, Fin rho) =>
      if Req_EM_T T 0 then ok {| im_v := (NaN, NaN); im_J := ((NaN, NaN), (NaN, NaN)) |}
      else if Req_EM_T rho 0 then ok {| im_v := (NaN, NaN); im_J := ((NaN, NaN), (NaN, NaN)) |}
      else obind (build_iteration_Jv vars (A T rho) Rg T rho z) (fun rows => match lift_rows rows with Some m => ok m | None => None end)
  | _ => ok {| im_v := (NaN, NaN); im_J := ((NaN, NaN), (NaN, NaN)) |}
  end.

(** The members that change, lines 235 and 241-242. *)
Record nrstate := { nr_Trho : vec; nr_count : Z; nr_msg : string }.
(** [reset], lines 271-274 *)
Definition nr_reset (T rho : fl) (s : nrstate) : nrstate := {| nr_Trho := (T, rho); nr_count := 0; nr_msg := nr_msg s |}.

Section NR.
Variable calc : vec -> outcome matrices.      (* calc_matrices *)
Variable lu : mat22 -> vec -> vec.            (* im.J.matrix().fullPivLu().solve *)
Variable vals : vec.
Variable relative_error : bool * bool.
Variable conditions : list condition.
Variable idx : list nat.                      (* nonconstant_indices *)

(** the divisions by the target values: lines 298-299, 304-305, 311-312, 329-330, 379-380 *)
Definition scale_r (r : vec) : vec :=
  (if fst relative_error then fdiv (fst r) (fst vals) else fst r, if snd relative_error then fdiv (snd r) (snd vals) else snd r).
Definition scale_J (J : mat22) : mat22 :=
  (if fst relative_error then vdivs (fst J) (fst vals) else fst J, if snd relative_error then vdivs (snd J) (snd vals) else snd J).

(** [calc_vals], [calc_r] and [calc_J], lines 292-307 *)
Definition calc_vals (x : vec) : outcome vec := obind (calc x) (fun im => ok (im_v im)).
Definition calc_r (x : vec) : outcome vec := obind (calc x) (fun im => ok (scale_r (vsub (im_v im) vals))).
Definition calc_J (x : vec) : outcome mat22 := obind (calc x) (fun im => ok (scale_J (im_J im))).

(** [calc_step] and [calc_just_step], lines 285-291 ([qr] is [colPivHouseholderQr().solve]) *)
Definition calc_step (qr : mat22 -> vec -> vec) (x : vec) : outcome (vec * matrices) :=
  obind (calc x) (fun im => ok (qr (im_J im) (vopp (vsub (im_v im) vals)), im)).

(** The loop over the conditions, lines 344-350 and 409-415: the first one that does not
    say [keep_going]. *)
Fixpoint first_stop (cs : list condition) (d : sdata) : option (reason * string) :=
  match cs with
  | [] => None
  | c :: l => match c_stop c d with keep_going => first_stop l d | r => Some (r, c_desc c) end
  end.

(** [take_steps], lines 319-361.  The state is returned also if an exception leaves it. *)
Definition one_step_message := "Only one step is needed for DT inputs"%string.
Fixpoint steps (fuel : nat) (N : Z) (s : nrstate) : option (nrstate * res reason) :=
  match fuel with
  | O => Some (s, Val fatal)
  | S fuel' =>
      match calc (nr_Trho s) with
      | None => None
      | Some (Err e) => Some (s, Err e)
      | Some (Val im) =>
          let r := scale_r (vsub (im_v im) vals) in
          let J := scale_J (im_J im) in
          let d := lu J (vopp r) in
          let s1 m := {| nr_Trho := vadd (nr_Trho s) d; nr_count := nr_count s + 1; nr_msg := m |} in
          match idx with
          | [] => Some (s1 one_step_message, Val success)
          | _ => match first_stop conditions {| sd_N := N; sd_x := nr_Trho s; sd_dx := d; sd_r := r; sd_idx := idx |} with
                 | Some (why, m) => Some (s1 m, Val why)
                 | None => steps fuel' N (s1 (nr_msg s))
                 end
          end
      end
  end.
Definition take_steps (N : Z) (s : nrstate) : option (nrstate * res reason) :=
  if (N <=? 0)%Z then Some (s, Err InvalidArgument) else steps (Z.to_nat N) N s.

(** [take_steps_logrho], lines 367-447 (without the disabled extended-precision branch) *)
Definition scale_col1 (J : mat22) (rho : fl) : mat22 :=
  ((fst (fst J), fmul (snd (fst J)) rho), (fst (snd J), fmul (snd (snd J)) rho)).
Fixpoint steps_logrho (fuel : nat) (N : Z) (s : nrstate) : option (nrstate * res reason) :=
  match fuel with
  | O => Some (s, Val fatal)
  | S fuel' =>
      match calc (nr_Trho s) with
      | None => None
      | Some (Err e) => Some (s, Err e)
      | Some (Val im) =>
          let r := scale_r (vsub (im_v im) vals) in
          let J := scale_J (scale_col1 (im_J im) (snd (nr_Trho s))) in
          let step := lu J (vopp r) in
          let d := (fst step, fmul (snd (nr_Trho s)) (fsub (fexp (snd step)) (Fin 1))) in
          let s1 m := {| nr_Trho := vadd (nr_Trho s) d; nr_count := nr_count s + 1; nr_msg := m |} in
          let stop := first_stop conditions {| sd_N := N; sd_x := nr_Trho s; sd_dx := d; sd_r := r; sd_idx := idx |} in
          match idx with
          | [] => Some (s1 one_step_message, Val success)
          | _ => match stop with
                 | Some (why, m) => Some (s1 m, Val why)
                 | None => steps_logrho fuel' N (s1 (nr_msg s))
                 end
          end
      end
  end.
Definition take_steps_logrho (N : Z) (s : nrstate) : option (nrstate * res reason) :=
  if (N <=? 0)%Z then Some (s, Err InvalidArgument) else steps_logrho (Z.to_nat N) N s.

(** [path_integration], lines 448-491: the increment of one step and the loop *)
Definition path_step (J : mat22) (dxdt dydt : fl) (dt : fl) : vec :=
  let dxdT_rho := fst (fst J) in let dxdrho_T := snd (fst J) in
  let dydT_rho := fst (snd J) in let dydrho_T := snd (snd J) in
  let dxdT_y := fsub dxdT_rho (fdiv (fmul dxdrho_T dydT_rho) dydrho_T) in
  let dxdrho_y := fsub dxdrho_T (fdiv (fmul dxdT_rho dydrho_T) dydT_rho) in
  let dydT_x := fsub dydT_rho (fdiv (fmul dydrho_T dxdT_rho) dxdrho_T) in
  let dydrho_x := fsub dydrho_T (fdiv (fmul dydT_rho dxdrho_T) dxdT_rho) in
  let dTdt := fadd (fdiv dxdt dxdT_y) (fdiv dydt dydT_x) in
  let drhodt := fadd (fdiv dxdt dxdrho_y) (fdiv dydt dydrho_x) in
  (fmul dTdt dt, fmul drhodt dt).
Fixpoint path_loop (n : nat) (rate : vec) (dt : fl) (x : vec) (im : matrices) : outcome (vec * vec) :=
  match n with
  | O => ok (x, im_v im)
  | S n' => let x' := vadd x (path_step (im_J im) (fst rate) (snd rate) dt) in
            obind (calc x') (fun im' => path_loop n' rate dt x' im')
  end.
Definition path_integration (x : vec) (N : nat) : outcome (vec * vec) :=
  obind (calc x) (fun im => path_loop N (vsub vals (im_v im)) (fdiv (Fin 1) (Fin (INR N))) x im).
End NR.

(** [calc_maxabsr], lines 309-314 *)
Definition calc_maxabsr (mx : fl -> fl -> fl) (vars : list ascii) (A : R -> R -> nat -> nat -> R) (Rg : R) (vals : vec) (rel : bool * bool) (T rho : R) : outcome fl :=
  obind (alpha_get_vals vars (A T rho) Rg T rho) (fun v =>
    match v with
    | [a; b] => let r := scale_r vals rel (vsub (Fin a, Fin b) vals) in ok (mx (fabs (fst r)) (fabs (snd r)))
    | _ => None
    end).
