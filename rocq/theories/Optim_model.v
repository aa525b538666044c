(** Model of [algorithms/pure_param_optimization.hpp]: the contributions to the cost, the JSON
    document made from the parameters, the cost and its evaluation by a pool of threads.

    The calls of the thermodynamic model are functions ([Err] is an exception); that evaluating
    a contribution twice, or at the same time as others, gives the same value is part of this
    assumption.  JSON pointers are those of the JSON library, the pool that of Boost.Asio. *)
From Coq Require Import Reals ZArith String Ascii List Bool.
From Verif Require Import Json_model Cubic_model Float_model VLE_model Tracer_model.
Import ListNotations.
Open Scope R_scope.

(** ** JSON pointers of the library *)
(** the text after the first slash, cut at the others *)
Fixpoint cut (s : string) : string * list string :=
  match s with
  | EmptyString => (EmptyString, [])
  | String c r => let '(t, ts) := cut r in if Ascii.eqb c "/" then (EmptyString, t :: ts) else (String c t, ts)
  end.
(** every tilde is followed by 0 or 1 *)
Fixpoint escapes_ok (s : string) : bool :=
  match s with
  | EmptyString => true
  | String c r =>
      (if Ascii.eqb c "~" then match r with String d _ => Ascii.eqb d "0" || Ascii.eqb d "1" | EmptyString => false end else true) && escapes_ok r
  end.
(** all occurrences of the two characters [a], [b] by [x] *)
Fixpoint replace2 (a b x : ascii) (s : string) : string :=
  match s with
  | EmptyString => EmptyString
  | String c r =>
      match r with
      | String d r' => if Ascii.eqb c a && Ascii.eqb d b then String x (replace2 a b x r') else String c (replace2 a b x r)
      | EmptyString => String c EmptyString
      end
  end.
Definition unescape (s : string) : res string :=
  if escapes_ok s then Val (replace2 "~" "0" "~" (replace2 "~" "1" "/" s)) else Err JsonError.
Definition parse_pointer (s : string) : res (list string) :=
  match s with
  | EmptyString => Val []
  | String c r => if Ascii.eqb c "/" then let '(t, ts) := cut r in map_res unescape (t :: ts) else Err JsonError
  end.
(** [array_index]: digits, without leading zeros *)
Definition digit (c : ascii) : option nat := let n := nat_of_ascii c in if Nat.leb 48 n && Nat.leb n 57 then Some (n - 48)%nat else None.
Fixpoint digits (acc : nat) (s : string) : option nat :=
  match s with
  | EmptyString => Some acc
  | String c r => match digit c with Some d => digits (10 * acc + d)%nat r | None => None end
  end.
Definition array_index (s : string) : option nat :=
  match s with
  | EmptyString => None
  | String c EmptyString => digit c
  | String c r => if Ascii.eqb c "0" then None else digits 0 s
  end.
Fixpoint update (k : string) (v : json) (l : list (string * json)) : list (string * json) :=
  match l with
  | [] => []
  | (k', v') :: l => if String.eqb k k' then (k', v) :: l else (k', v') :: update k v l
  end.
Fixpoint replace_nth (i : nat) (v : json) (l : list json) : list json :=
  match l, i with
  | [], _ => []
  | _ :: l, O => v :: l
  | a :: l, S i => a :: replace_nth i v l
  end.
(** [j.at(ptr) = v] *)
Fixpoint set_at (p : list string) (v j : json) : res json :=
  match p with
  | [] => Val v
  | t :: p =>
    match j with
    | JObj l => match lookup t l with Some c => bind (set_at p v c) (fun c => Val (JObj (update t c l))) | None => Err JsonError end
    | JArr l =>
      match array_index t with
      | Some i => match nth_error l i with Some c => bind (set_at p v c) (fun c => Val (JArr (replace_nth i c l))) | None => Err JsonError end
      | None => Err JsonError
      end
    | _ => Err JsonError
    end
  end.

(** ** [PureParameterOptimizer], lines 178-222 *)
Inductive pointer_arg := One (s : string) | Many (l : list string).
(** [make_pointers], lines 180-196 *)
Definition make_pointers (l : list pointer_arg) : res (list (list (list string))) :=
  map_res (fun a => match a with One s => bind (parse_pointer s) (fun p => Val [p]) | Many ss => map_res parse_pointer ss end) l.
Fixpoint write_all (ps : list (list string)) (v j : json) : res json :=
  match ps with [] => Val j | p :: ps => bind (set_at p v j) (write_all ps v) end.
Fixpoint write_params (x : list R) (pps : list (list (list string))) (j : json) : res json :=
  match x, pps with a :: x, ps :: pps => bind (write_all ps (JNum a) j) (write_params x pps) | _, _ => Val j end.
(** [build_JSON], lines 214-227; the parameters are numbers *)
Definition build_JSON (jbase : json) (pps : list (list (list string))) (x : list R) : res json :=
  if negb (Nat.eqb (length x) (length pps)) then Err InvalidArgument else write_params x pps jbase.

(** ** Contributions, lines 16-175 *)
Record eosf := { m_VLE : fl -> fl -> fl -> res fl;               (* first entry of pure_VLE_T(T, rhoL, rhoV, 10) *)
                 m_Ar0n : fl -> fl -> res (fl * fl);             (* Ar01, Ar02 of get_Ar02n(T, rho, [1]) *)
                 m_Ar01 : fl -> fl -> res fl; m_Ar11 : fl -> fl -> res fl; m_Ar20 : fl -> fl -> res fl }.
Inductive contribution :=
| SatRhoL (T rhoL_exp rhoL_guess rhoV_guess weight : fl)
| SatRhoLP (T p_exp rhoL_exp rhoL_guess rhoV_guess : option fl) (weight_rho weight_p R : fl)
| SatRhoLPW (T p_exp rhoL_exp w_exp rhoL_guess rhoV_guess Ao20 M R : option fl) (weight_rho weight_p weight_w : fl)
| SOS (T p_exp rho_guess w_exp Ao20 M R : option fl) (weight_w : fl)
| PVT (T rho_exp p_exp : option fl) (weight R : fl).
(** [check_fields] and [add_one_contribution], lines 203-206 *)
Definition present (l : list (option fl)) : bool := forallb (fun o => match o with Some _ => true | None => false end) l.
Definition fields_ok (c : contribution) : bool :=
  match c with
  | SatRhoL _ _ _ _ _ => true
  | SatRhoLP T p r g v _ _ _ => present [T; p; r; g; v]
  | SatRhoLPW T p r w g v A M R _ _ _ => present [T; p; r; w; g; v; A; M; R]
  | SOS T p r w A M R _ => present [T; p; r; w; A; M; R]
  | PVT T r p _ _ => present [T; r; p]
  end.
Definition add_one_contribution (cs : list contribution) (c : contribution) : res (list contribution) := if fields_ok c then Val (cs ++ [c]) else Err InvalidArgument.
(** [std::optional::value] *)
Definition value (o : option fl) : res fl := match o with Some v => Val v | None => Err (OtherError 1) end.
Definition deviation (a b w : fl) : fl := fmul (fdiv (fabs (fsub a b)) b) w.
(** lines 105-107, 164-165 *)
Definition sound_speed (Ar01 Ar02 Ar11 Ar20 Ao20 R T M : fl) : fl :=
  let u := fsub (fadd (Fin 1) Ar01) Ar11 in
  let Mw2RT := fsub (fadd (fadd (Fin 1) (fmul (Fin 2) Ar01)) Ar02) (fdiv (fmul u u) (fadd Ao20 Ar20)) in
  fsqrt (fdiv (fmul (fmul Mw2RT R) T) M).
Definition pressure_of (rho R T Ar01 : fl) : fl := fmul (fmul (fmul rho R) T) (fadd (Fin 1) Ar01).
Definition dpdrho_of (R T Ar01 Ar02 : fl) : fl := fmul (fmul R T) (fadd (fadd (Fin 1) (fmul (Fin 2) Ar01)) Ar02).
(** lines 143-156: the density of [SOSPoint]; [abs] is taken to be that for doubles *)
Fixpoint sos_density (m : eosf) (steps : nat) (T p R rho : fl) : res fl :=
  match steps with
  | O => Val rho
  | S steps =>
    bind (m_Ar0n m T rho) (fun '(a1, a2) =>
      let res := fdiv (fsub (pressure_of rho R T a1) p) p in
      let change := fdiv (fopp res) (fdiv (dpdrho_of R T a1 a2) p) in
      if flt (fabs (fsub (fdiv change rho) (Fin 1))) (Fin (1 / 10 ^ 10)) || flt (fabs res) (Fin (1 / 10 ^ 12)) then Val rho
      else sos_density m steps T p R (fadd rho change))
  end.
(** [calculate_contribution] *)
Definition calculate (m : eosf) (c : contribution) : res fl :=
  match c with
  | SatRhoL T rexp rL rV w => bind (m_VLE m T rL rV) (fun r => Val (fmul (fabs (fsub r rexp)) w))
  | SatRhoLP T p rexp rL rV wr wp R =>
      bind (value T) (fun T => bind (value rL) (fun rL => bind (value rV) (fun rV =>
      bind (m_VLE m T rL rV) (fun r => bind (m_Ar01 m T r) (fun a =>
      bind (value rexp) (fun rexp => bind (value p) (fun p =>
        Val (fadd (deviation r rexp wr) (deviation (pressure_of r R T a) p wp)))))))))
  | SatRhoLPW T p rexp wexp rL rV Ao20 M R wr wp ww =>
      bind (value T) (fun T => bind (value rL) (fun rL => bind (value rV) (fun rV =>
      bind (m_VLE m T rL rV) (fun r => bind (m_Ar0n m T r) (fun '(a1, a2) => bind (m_Ar11 m T r) (fun a11 => bind (m_Ar20 m T r) (fun a20 =>
      bind (value R) (fun R => bind (value Ao20) (fun Ao20 => bind (value M) (fun M =>
      bind (value rexp) (fun rexp => bind (value p) (fun p => bind (value wexp) (fun wexp =>
        let part weight cost := if feq weight (Fin 0) then Fin 0 else cost in
        Val (fadd (fadd (part wr (deviation r rexp wr)) (part wp (deviation (pressure_of r R T a1) p wp)))
                  (part ww (deviation (sound_speed a1 a2 a11 a20 Ao20 R T M) wexp ww))))))))))))))))
  | SOS T p rg wexp Ao20 M R ww =>
      bind (value rg) (fun rho => bind (value R) (fun R => bind (value T) (fun T => bind (value p) (fun p =>
      bind (sos_density m 10 T p R rho) (fun rho =>
      bind (m_Ar0n m T rho) (fun '(a1, a2) => bind (m_Ar11 m T rho) (fun a11 => bind (m_Ar20 m T rho) (fun a20 =>
      bind (value Ao20) (fun Ao20 => bind (value M) (fun M => bind (value wexp) (fun wexp =>
        Val (deviation (sound_speed a1 a2 a11 a20 Ao20 R T M) wexp ww))))))))))))
  | PVT T rexp p w R =>
      bind (value T) (fun T => bind (value rexp) (fun rho => bind (m_Ar0n m T rho) (fun '(a1, a2) =>
      bind (value p) (fun p => Val (fmul (fabs (fdiv (fdiv (fsub (pressure_of rho R T a1) p) rho) (dpdrho_of R T a1 a2))) w)))))
  end.

(** ** The cost, lines 229-283 *)
Definition huge : fl := Fin (10 ^ 30).
Definition clamp (a : fl) : fl := if isfinite a then a else huge.
Section Cost.
Variable make_model : json -> res eosf.
Variable jbase : json.
Variable pps : list (list (list string)).
Variable cs : list contribution.
(** lines 229-235; the helpers are not used *)
Definition prepare (x : list R) : res eosf := bind (build_JSON jbase pps x) make_model.
Fixpoint add_up (m : eosf) (l : list contribution) (cost : fl) : res fl :=
  match l with [] => Val cost | c :: l => bind (calculate m c) (fun v => add_up m l (fadd cost v)) end.
(** [cost_function], lines 237-250 *)
Definition cost_function (x : list R) : res fl :=
  bind (prepare x) (fun m => bind (add_up m cs (Fin 0)) (fun cost => Val (if isfinite cost then cost else huge))).
End Cost.

(** *** [cost_function_threaded], lines 252-279, as a transition system *)
(** a thread is idle, is about to evaluate task i, or about to look at what it has written *)
Inductive thread := Idle | Evaluating (i : nat) | Looking (i : nat).
Record pool := { posted : nat; queue : list nat; threads : list thread; buffer : list fl }.
Inductive status := Running (s : pool) | Terminated.
Definition set_nth {A} (i : nat) (a : A) (l : list A) : list A := firstn i l ++ match skipn i l with [] => [] | _ :: r => a :: r end.
Section Pool.
Variable m : eosf.
Variable cs : list contribution.
Variable n_threads : nat.
Definition start : pool := {| posted := 0; queue := []; threads := repeat Idle n_threads; buffer := repeat (Fin 0) (length cs) |}.
(** An exception that leaves a task ends the process ([std::terminate]). *)
Inductive step : status -> status -> Prop :=
  (* lines 258-268: the calling thread posts the next task *)
  | s_post : forall q ts b k, (k < length cs)%nat -> step (Running {| posted := k; queue := q; threads := ts; buffer := b |}) (Running {| posted := S k; queue := q ++ [k]; threads := ts; buffer := b |})
  (* a thread of the pool takes the oldest task *)
  | s_take : forall k i q ts b t, nth_error ts t = Some Idle ->
      step (Running {| posted := k; queue := i :: q; threads := ts; buffer := b |}) (Running {| posted := k; queue := q; threads := set_nth t (Evaluating i) ts; buffer := b |})
  (* line 263 *)
  | s_write : forall k q ts b t i c v, nth_error ts t = Some (Evaluating i) -> nth_error cs i = Some c -> calculate m c = Val v ->
      step (Running {| posted := k; queue := q; threads := ts; buffer := b |}) (Running {| posted := k; queue := q; threads := set_nth t (Looking i) ts; buffer := set_nth i v b |})
  | s_throw : forall k q ts b t i c e, nth_error ts t = Some (Evaluating i) -> nth_error cs i = Some c -> calculate m c = Err e ->
      step (Running {| posted := k; queue := q; threads := ts; buffer := b |}) Terminated
  (* line 264 *)
  | s_look : forall k q ts b t i v, nth_error ts t = Some (Looking i) -> nth_error b i = Some v ->
      step (Running {| posted := k; queue := q; threads := ts; buffer := b |}) (Running {| posted := k; queue := q; threads := set_nth t Idle ts; buffer := set_nth i (clamp v) b |}).
Inductive steps : status -> nat -> status -> Prop :=
  | steps_0 : forall s, steps s 0 s
  | steps_S : forall a b c n, step a b -> steps b n c -> steps a (S n) c.
(** line 270: [join] waits for the threads, which end when no task is left *)
Definition joined (s : pool) : Prop := posted s = length cs /\ (forall t, In t (threads s) -> t = Idle) /\ (queue s = [] \/ threads s = []).
(** lines 271-276 *)
Definition total (s : pool) : fl := fold_left fadd (buffer s) (Fin 0).
End Pool.
(** the values that can be returned *)
Definition threaded_returns (make_model : json -> res eosf) (jbase : json) (pps : list (list (list string))) (cs : list contribution) (x : list R) (n_threads : nat) (r : res fl) : Prop :=
  match prepare make_model jbase pps x with
  | Err e => r = Err e
  | Val m => exists n s, steps m cs (Running (start cs n_threads)) n (Running s) /\ joined cs s /\ r = Val (total s)
  end.
