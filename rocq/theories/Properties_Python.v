(** C96: the functions of the Python package that build models.
    C97: its functions that became methods of models.
    C98: the attributes of models that depend on what the model is. *)
From Coq Require Import Reals ZArith String List Bool Lra Lia.
From Verif Require Import Util_model Json_model Util_proofs Cubic_model PCSAFT_model PCSAFT_spec Properties_PCSAFT3 Multi_model Adapter_model Properties_Adapter Python_model Python_spec.
Import ListNotations.
Local Open Scope R_scope.

(** * C96 *)
Lemma row_list : forall l, j_valarray j_double (to_list l) = Val l.
Proof.
  intros l. change (map_res j_double (map JNum l) = Val l). induction l as [|x l IH]; [reflexivity|]. cbn [map map_res]. change (j_double (JNum x)) with (Val x). cbn [bind]. now rewrite IH.
Qed.
Lemma cubic_kmat : forall mk Tc pc ac k, make_canonical mk (cubic_spec Tc pc ac k) =
  obind (Some (bind (build_square_matrix (to_rows k)) (fun m => Val (Some (mat_of_rows m))))) (fun k => mk Tc pc ac (Some (value_or k (Cubic_model.zeros 0))) None).
Proof.
  intros mk Tc pc ac k. unfold make_canonical, doubles, kmat_of, cubic_spec. cbn [j_at lookup String.eqb Ascii.eqb Bool.eqb bind]. rewrite !row_list. cbn [obind]. cbn [j_contains lookup String.eqb Ascii.eqb Bool.eqb]. reflexivity.
Qed.
Lemma rows_val : forall n k, square_rows n k -> build_square_matrix (to_rows (Some k)) = Val k.
Proof. intros n k [L F]. apply build_square_matrix_ok. right. split; [reflexivity|]. now rewrite L. Qed.
Lemma copy_err : forall n l e, copy_rows n l = Err e -> e = StdInvalidArgument.
Proof.
  intros n l e. induction l as [|x l IH]; cbn [copy_rows]; [discriminate|]. destruct (Nat.eqb (length x) n); [|intros H; inversion H; reflexivity]. destruct (copy_rows n l); cbn [bind]; [discriminate|exact IH].
Qed.
Lemma rows_err : forall k, ~ List.Forall (fun r => length r = length k) k -> build_square_matrix (to_rows (Some k)) = Err StdInvalidArgument.
Proof.
  intros k N. destruct k as [|r k]; [exfalso; apply N; constructor|]. cbn [to_rows map]. unfold build_square_matrix.
  change (JArr (to_list r :: map to_list k)) with (rows_json (r :: k)). rewrite (proj2 (j_matrix_ok (rows_json (r :: k)) (r :: k)) eq_refl). destruct (copy_rows (length (r :: k)) (r :: k)) as [m|e] eqn:E; [|f_equal].
  - apply copy_rows_ok in E. destruct E as [-> F]. contradiction.
  - now apply copy_err in E.
Qed.
(** The cubic equations: the model of the arrays given; without a matrix the interaction parameters are
    zero, with a square one of the size of the arrays they are its entries, and other matrices are
    refused. *)
Definition cubic_function (f : list R -> list R -> list R -> option (list (list R)) -> outcome cubic) (mk : list R -> list R -> list R -> option mat -> option R -> outcome cubic) : Prop :=
  forall Tc pc ac, length pc = length Tc -> length ac = length Tc ->
  (exists c, f Tc pc ac None = ok c /\ mk Tc pc ac None None = ok c /\ forall i j, cb_k c i j = 0) /\
  (forall k, Tc <> [] -> square_rows (length Tc) k -> exists c, f Tc pc ac (Some k) = ok c /\ mk Tc pc ac (Some (mat_of_rows k)) None = ok c /\ forall i j, cb_k c i j = nth j (nth i k []) 0) /\
  (forall k, ~ List.Forall (fun r => length r = length k) k -> f Tc pc ac (Some k) = throws StdInvalidArgument) /\
  (forall k, k <> [] -> List.Forall (fun r => length r = length k) k -> length k <> length Tc -> f Tc pc ac (Some k) = throws InvalidArgument).
Lemma cubic_generic : forall D1 D2 OA OB m f mk,
  (forall Tc pc ac k Rg, mk Tc pc ac k Rg = if Nat.ltb (length ac) (length Tc) then None else make_cubic D1 D2 OA OB Tc pc (basic_alphas m Tc ac) (value_or k (Cubic_model.zeros (length ac))) (value_or Rg R_CODATA2017)) ->
  (forall Tc pc ac k, f Tc pc ac k = make_canonical mk (cubic_spec Tc pc ac k)) -> cubic_function f mk.
Proof.
  intros D1 D2 OA OB m f mk Hm Hf Tc pc ac P A. assert (I1 : Nat.ltb (length ac) (length Tc) = false) by (apply Nat.ltb_ge; lia). assert (I2 : Nat.ltb (length pc) (length Tc) = false) by (apply Nat.ltb_ge; lia).
  split; [|split; [|split]].
  - rewrite Hf, cubic_kmat. cbn [to_rows build_square_matrix bind obind]. rewrite !Hm. cbn [value_or]. rewrite I1. unfold make_cubic. rewrite I2. unfold check_mat, mat_of_rows, Cubic_model.zeros. cbn [cols rows length at_]. rewrite Nat.eqb_refl. cbn [negb]. rewrite A, Nat.eqb_refl. cbn [negb obind]. change (Nat.eqb 0 0) with true. cbv iota. destruct (Nat.eqb (length Tc) 0); (eexists; split; [reflexivity|]; split; [reflexivity|reflexivity]).
  - intros k N S. rewrite Hf, cubic_kmat, (rows_val _ _ S). cbn [bind obind]. rewrite !Hm. cbn [value_or]. rewrite I1. unfold make_cubic. rewrite I2. unfold check_mat, mat_of_rows. cbn [cols rows at_]. destruct S as [L _]. rewrite L, Nat.eqb_refl. cbn [negb obind]. destruct (Nat.eqb_spec (length Tc) 0) as [Z|Z]; [destruct Tc; [congruence|discriminate]|]. eexists. split; [reflexivity|]. split; reflexivity.
  - intros k N. rewrite Hf, cubic_kmat, (rows_err _ N). reflexivity.
  - intros k K F N. rewrite Hf, cubic_kmat, (rows_val (length k) k (conj eq_refl F)). cbn [bind obind]. rewrite Hm. cbn [value_or]. rewrite I1. unfold make_cubic. rewrite I2. unfold check_mat, mat_of_rows. cbn [cols rows at_]. rewrite Nat.eqb_refl. cbn [negb]. destruct (Nat.eqb_spec (length k) 0) as [Z|Z]; [destruct k; [congruence|discriminate]|]. destruct (Nat.eqb_spec (length k) (length Tc)); [contradiction|]. reflexivity.
Qed.
Theorem C96_cubics : cubic_function py_canonical_PR canonical_PR /\ cubic_function py_canonical_SRK canonical_SRK.
Proof. split; eapply cubic_generic; reflexivity. Qed.
Theorem C96_vdW : forall Tc pc, py_vdWEOS Tc pc = Some (make_vdW Tc pc).
Proof. intros Tc pc. unfold py_vdWEOS, vdW_factory, doubles. cbn [j_at lookup String.eqb Ascii.eqb Bool.eqb bind]. rewrite !row_list. reflexivity. Qed.

(** PC-SAFT: the matrix of interaction parameters for [n] components *)
Definition given_matrix (k : option (list (list R))) (n : nat) (K : list (list R)) : Prop :=
  match k with None | Some [] => K = PCSAFT_spec.zeros n | Some k => K = k /\ square_rows n k end.
Lemma interactions_given : forall key v k n K, key <> "kmat"%string -> interactions [(key, v); ("kmat"%string, to_rows k)] n K <-> given_matrix k n K.
Proof.
  intros key v k n K N. unfold interactions. cbn [lookup]. destruct (String.eqb_spec "kmat" key) as [E|_]; [congruence|]. cbn [String.eqb Ascii.eqb Bool.eqb]. destruct k as [[|r k]|]; cbn [to_rows map given_matrix]; [reflexivity| |reflexivity].
  change (JArr (to_list r :: map to_list k)) with (matrix_json (r :: k)). split.
  - intros (E & L & F). assert (EQ : r :: k = K). { change (rows_json (r :: k) = rows_json K) in E. pose proof (proj2 (j_matrix_ok (rows_json (r :: k)) (r :: k)) eq_refl) as A. pose proof (proj2 (j_matrix_ok (rows_json (r :: k)) K) E) as B. congruence. } subst K. split; [reflexivity|]. now split.
  - intros (-> & L & F). split; [reflexivity|]. now split.
Qed.
Theorem C96_names : forall ns k s, ns <> [] ->
  (PCSAFTEOS (Names ns) k = Val s <-> exists cs K, Forall2 known ns cs /\ given_matrix k (length cs) K /\ mixture_of cs K GrossSadowski2001_a GrossSadowski2001_b s).
Proof.
  intros ns k s N. destruct ns as [|n0 ns]; [congruence|]. cbn [PCSAFTEOS]. rewrite (C67_names [("names"%string, JArr (map JStr (n0 :: ns))); ("kmat"%string, to_rows k)] (map JStr (n0 :: ns)) s eq_refl). split.
  - intros (names & cs & K & a & b & E & F & I & C & M). exists cs, K. assert (names = n0 :: ns).
    { clear -E. revert names E. generalize (n0 :: ns) as l. induction l as [|x l IH]; intros [|y names] E; cbn [map] in E; try discriminate; [reflexivity|]. injection E as -> E. f_equal. now apply IH. }
    subst names. split; [exact F|]. split; [apply interactions_given in I; [exact I|discriminate]|]. destruct C as [(_ & -> & ->)|[(C & _)|(C & _)]]; [exact M|discriminate C|discriminate C].
  - intros (cs & K & F & I & M). exists (n0 :: ns), cs, K, GrossSadowski2001_a, GrossSadowski2001_b. split; [reflexivity|]. split; [exact F|]. split; [apply interactions_given; [discriminate|exact I]|]. split; [left; split; [reflexivity|now split]|exact M].
Qed.
Lemma dict_coeffs : forall c, one_coeffs (coeffs_dict c) = Val (without_polar c).
Proof. intros c. reflexivity. Qed.
(** Coefficients: the mixture of the coefficients without those of polar terms *)
Theorem C96_coeffs : forall cs k s, cs <> [] ->
  (PCSAFTEOS (Coeffs cs) k = Val s <-> exists K, given_matrix k (length cs) K /\ mixture_of (map without_polar cs) K GrossSadowski2001_a GrossSadowski2001_b s).
Proof.
  intros cs k s N. destruct cs as [|c0 cs]; [congruence|]. cbn [PCSAFTEOS]. rewrite (C67_coeffs [("coeffs"%string, JArr (map coeffs_dict (c0 :: cs))); ("kmat"%string, to_rows k)] (map coeffs_dict (c0 :: cs)) s eq_refl eq_refl).
  assert (D : forall l l', Forall2 describes (map coeffs_dict l) l' <-> l' = map without_polar l).
  { induction l as [|x l IH]; intros l'; cbn [map]; split.
    - intros F. now inversion F.
    - intros ->. constructor.
    - intros F. inversion F as [|? y ? l2 H1 H2]; subst. apply one_coeffs_iff in H1. rewrite dict_coeffs in H1. injection H1 as <-. f_equal. now apply IH.
    - intros ->. constructor; [apply one_coeffs_iff; apply dict_coeffs|now apply IH]. }
  split.
  - intros (cs' & K & a & b & F & I & C & M). apply D in F. subst cs'. rewrite map_length in I. exists K. split; [apply interactions_given in I; [exact I|discriminate]|]. destruct C as [(_ & -> & ->)|[(C & _)|(C & _)]]; [exact M|discriminate C|discriminate C].
  - intros (K & I & M). exists (map without_polar (c0 :: cs)), K, GrossSadowski2001_a, GrossSadowski2001_b. split; [now apply D|]. split; [rewrite map_length; apply interactions_given; [discriminate|exact I]|]. split; [left; split; [reflexivity|now split]|exact M].
Qed.
Theorem C96_nonpolar : forall cs k s, cs <> [] -> List.Forall nonpolar cs ->
  (PCSAFTEOS (Coeffs cs) k = Val s <-> exists K, given_matrix k (length cs) K /\ mixture_of cs K GrossSadowski2001_a GrossSadowski2001_b s).
Proof.
  intros cs k s N F. rewrite C96_coeffs by assumption. replace (map without_polar cs) with cs; [reflexivity|]. clear N. induction F as [|c cs (A & B & C & D) F IH]; [reflexivity|]. cbn [map]. rewrite <- IH. f_equal. destruct c. cbn in *. now subst.
Qed.
(** It is not the mixture of the coefficients in general: their polar parts are dropped without notice. *)
Theorem C96_polar_refuted : ~ (forall cs k s, cs <> [] -> PCSAFTEOS (Coeffs cs) k = Val s -> exists K, given_matrix k (length cs) K /\ mixture_of cs K GrossSadowski2001_a GrossSadowski2001_b s).
Proof.
  intros H. pose (c := {| c_name := "a"; c_m := 1; c_sigma := 3; c_eps := 100; c_bibtex := "b"; c_mustar2 := 1; c_nmu := 1; c_Qstar2 := 0; c_nQ := 0 |}).
  assert (N : [c] <> []) by discriminate. pose (cs := map without_polar [c]).
  assert (E : exists s, PCSAFTEOS (Coeffs [c]) None = Val s /\ pdip s = None).
  { eexists. split; [reflexivity|]. cbn [pdip]. unfold polar_lists. destruct (Req_EM_T _ 0) as [|X]; [reflexivity|]. exfalso. apply X. cbn. rewrite Rmult_0_l, Rabs_R0. lra. }
  destruct E as (s & E & D). destruct (H [c] None s N E) as (K & _ & M). destruct M as (_ & _ & _ & _ & _ & _ & _ & _ & P & _). rewrite D in P. destruct P as [(_ & P)|(P & _)]; [|discriminate]. specialize (P c (or_introl eq_refl)). cbn in P. lra.
Qed.
Theorem C96_empty : forall k, PCSAFTEOS (Names []) k = Err IndexError /\ PCSAFTEOS (Coeffs []) k = Err IndexError.
Proof. intros k. split; reflexivity. Qed.
Example C96_met : square_rows 2 [[0; 0.1]; [0.1; 0]] /\ Forall2 known ["Methane"%string; "Propane"%string] [normal_fluid "Methane" 1.0000 3.7039 150.03; normal_fluid "Propane" 2.0020 3.6184 208.11] /\
  List.Forall nonpolar [normal_fluid "CO2" 2.0729 2.7852 169.21].
Proof.
  split; [split; [reflexivity|]; apply Forall_cons; [reflexivity|]; apply Forall_cons; [reflexivity|apply Forall_nil]|]. split.
  - constructor; [apply known_iff; reflexivity|]. constructor; [apply known_iff; reflexivity|]. constructor.
  - apply Forall_cons; [|apply Forall_nil]. unfold nonpolar, normal_fluid. cbn. auto.
Qed.

(** * C97 *)
(** Each of the functions, but two, is there at top level and does what the method of the model does; the
    method is one of all models. *)
Theorem C97_forwards : forall (A V : Type) f, In f became_methods -> f <> "get_B2vir"%string -> f <> "get_B12vir"%string ->
  In f class_methods /\ exists g, top_level (A := A) (V := V) f = Val g /\
    (forall model method args, model f = Val method -> g model args = method args) /\ (forall model e args, model f = Err e -> g model args = Err e).
Proof.
  intros A V f H N1 N2. assert (E : existsb (String.eqb f) deprecated_top_level_functions = true /\ In f class_methods).
  { split.
    - apply existsb_exists. exists f. split; [|apply String.eqb_refl]. unfold became_methods in H. unfold deprecated_top_level_functions. cbn [In] in *. intuition congruence.
    - assert (Q : forallb (fun f => existsb (String.eqb f) class_methods) became_methods = true) by reflexivity. rewrite forallb_forall in Q. specialize (Q f H). apply existsb_exists in Q. destruct Q as (x & Q & X). apply String.eqb_eq in X. now subst x. }
  destruct E as [E M]. split; [exact M|]. exists (deprecated_caller f). split; [unfold top_level; now rewrite E|]. unfold deprecated_caller. split; [intros model method args ->; reflexivity|intros model e args ->; reflexivity].
Qed.
(** The two second virial coefficients are not there; what is there instead is no method of models. *)
Theorem C97_virial_refuted : ~ (forall (A V : Type) f, In f became_methods -> exists g, top_level (A := A) (V := V) f = Val g).
Proof. intros H. destruct (H unit unit "get_B2vir"%string ltac:(cbn; tauto)) as (g & E). discriminate. Qed.
Theorem C97_missing : forall (A V : Type), top_level (A := A) (V := V) "get_B2vir" = Err AttributeError /\ top_level (A := A) (V := V) "get_B12vir" = Err AttributeError /\
  forall f g, top_level (A := A) (V := V) f = Val g -> In f became_methods \/ (f = "get_B2virget_B12vir"%string /\ ~ In f class_methods).
Proof.
  intros A V. split; [reflexivity|]. split; [reflexivity|]. intros f g H. unfold top_level in H. destruct (existsb (String.eqb f) deprecated_top_level_functions) eqn:E; [|discriminate]. apply existsb_exists in E. destruct E as (x & E & X). apply String.eqb_eq in X. subst x.
  assert (Q : forallb (fun f => existsb (String.eqb f) became_methods || String.eqb f "get_B2virget_B12vir") deprecated_top_level_functions = true) by reflexivity. rewrite forallb_forall in Q. specialize (Q f E). apply orb_true_iff in Q. destruct Q as [Q|Q].
  - left. apply existsb_exists in Q. destruct Q as (x & Q & X). apply String.eqb_eq in X. now subst x.
  - right. apply String.eqb_eq in Q. subst f. split; [reflexivity|]. intros I. assert (Q : existsb (String.eqb "get_B2virget_B12vir") class_methods = true) by (apply existsb_exists; eexists; split; [exact I|apply String.eqb_refl]). discriminate.
Qed.
Example C97_met : In "pure_VLE_T"%string became_methods /\ In "get_B2vir"%string became_methods /\ "pure_VLE_T"%string <> "get_B2vir"%string.
Proof. cbn. split; [tauto|]. split; [tauto|discriminate]. Qed.

(** * C98 *)
Definition metadata (t : nat) : Prop := t = canonical_cubic_i \/ t = multifluid_i \/ t = multifluidmutant_i.
Lemma attached_access : forall t n acc, In (n, acc) (attached t) ->
  (acc = Reads t /\ n <> "set_meta"%string) \/ (acc = Stored t /\ n <> "set_meta"%string) \/ (acc = Writes t /\ n = "set_meta"%string /\ metadata t).
Proof.
  intros t n acc H. unfold metadata. do 20 (destruct t as [|t]; [cbv in H; repeat (destruct H as [H|H]; [injection H as <- <-; cbv; intuition (discriminate || auto)|]); contradiction|]). cbv in H. contradiction.
Qed.
Lemma attached_nodup : forall t, NoDup (map fst (attached t)) /\ (forall n, In n (map fst (attached t)) -> ~ In n class_methods).
Proof.
  intros t. assert (Q : forall l, (fix nd l := match l with [] => true | x :: l => negb (existsb (String.eqb x) l) && nd l end) l = true -> NoDup l).
  { induction l as [|x l IH]; intros E; [constructor|]. apply andb_true_iff in E. destruct E as [E1 E2]. constructor; [|now apply IH]. intros I. apply negb_true_iff in E1. assert (existsb (String.eqb x) l = true) by (apply existsb_exists; exists x; split; [exact I|apply String.eqb_refl]). congruence. }
  assert (W : forall l, forallb (fun n => negb (existsb (String.eqb n) class_methods)) l = true -> forall n, In n l -> ~ In n class_methods).
  { intros l E n I J. rewrite forallb_forall in E. specialize (E n I). apply negb_true_iff in E. assert (existsb (String.eqb n) class_methods = true) by (apply existsb_exists; exists n; split; [exact J|apply String.eqb_refl]). congruence. }
  do 20 (destruct t as [|t]; [split; [apply Q; vm_compute; reflexivity|apply W; vm_compute; reflexivity]|]). split; [constructor|intros n []].
Qed.
Lemma lookup_in : forall A n (x : A) l, NoDup (map fst l) -> In (n, x) l -> lookup n l = Some x.
Proof.
  intros A n x l. induction l as [|[m y] l IH]; intros D I; [contradiction|]. cbn [map fst] in D. inversion D as [|? ? D1 D2]; subst. cbn [lookup]. destruct I as [I|I].
  - injection I as -> ->. now rewrite String.eqb_refl.
  - destruct (String.eqb_spec n m) as [->|]; [|now apply IH]. exfalso. apply D1. apply in_map_iff. now exists (m, x).
Qed.
(** Attaching succeeds for every model, gives the attributes of its type, each once, and hides no method
    that all models have. *)
Theorem C98_attaches : forall V (m : memory V) l fresh m' a t v, m l = Some (t, v) -> made m l fresh m' a ->
  exists dict, attach_model_specific_methods m' (Some a) = Val dict /\ map fst dict = map fst (attached t) /\ NoDup (map fst dict) /\
  (forall n, In n (map fst dict) -> ~ In n class_methods).
Proof.
  intros V m l fresh m' a t v H M. pose proof (C90_reference V m l fresh m' a t v false t H M) as (E1 & E2 & E3). rewrite Nat.eqb_refl in E3. unfold attach_model_specific_methods. rewrite E2.
  assert (G : forall ps, (forall n acc, In (n, acc) ps -> In (n, acc) (attached t)) -> exists dict, map_res (attach_one m' a) ps = Val dict /\ map fst dict = map fst ps).
  { induction ps as [|[n acc] ps IH]; intros I; [exists []; split; reflexivity|]. destruct IH as (d & D & F); [intros n' acc' J; apply I; now right|].
    assert (X : exists o, attach_one m' a (n, acc) = Val (n, o)).
    { destruct (attached_access t n acc (I n acc (or_introl eq_refl))) as [(-> & _)|[(-> & _)|(-> & _)]]; unfold attach_one; cbn [fst snd]; [eexists; reflexivity| |eexists; reflexivity]. rewrite E3. cbn [bind]. eexists; reflexivity. }
    destruct X as (o & X). exists ((n, o) :: d). cbn [map_res]. rewrite X. cbn [bind]. rewrite D. cbn [bind map fst]. split; [reflexivity|]. now rewrite F. }
  destruct (G (attached t) (fun _ _ I => I)) as (d & D & F). exists d. split; [exact D|]. split; [exact F|]. rewrite F. apply attached_nodup.
Qed.
Lemma dict_has : forall V (m' : memory V) a ps d n acc, map_res (attach_one m' a) ps = Val d -> In (n, acc) ps -> exists o, attach_one m' a (n, acc) = Val (n, o) /\ In (n, o) d.
Proof.
  intros V m' a ps. induction ps as [|p ps IH]; intros d n acc D I; [contradiction|]. cbn [map_res] in D. destruct (attach_one m' a p) as [q|] eqn:E; [|discriminate]. cbn [bind] in D. destruct (map_res (attach_one m' a) ps) as [d'|] eqn:E'; [|discriminate]. cbn [bind] in D. injection D as <-. destruct I as [->|I].
  - assert (Q : fst q = n). { unfold attach_one in E. cbn [fst snd] in E. destruct acc; [injection E as <-; reflexivity|injection E as <-; reflexivity|]. destruct (get_model_cref _ _); [|discriminate]. injection E as <-. reflexivity. }
    destruct q as [n' o]. cbn [fst] in Q. subst n'. exists o. split; [exact E|now left].
  - destruct (IH d' n acc eq_refl I) as (o & A & B). exists o. split; [exact A|now right].
Qed.
(** Every attribute but [set_meta] gives what the model that is held says, whatever was done to other
    objects since it was made. *)
Theorem C98_reads : forall V (m : memory V) l fresh m' a t v dict cs n, m l = Some (t, v) -> make_owned m l fresh = Some (m', a) ->
  attach_model_specific_methods m' (Some a) = Val dict -> List.Forall (fun c => target c <> fresh) cs ->
  In n (map fst (attached t)) -> n <> "set_meta"%string -> use_attribute dict (acts m' cs) a n = Val (Some (t, v)).
Proof.
  intros V m l fresh m' a t v dict cs n H M D F I N. assert (M' : made m l fresh m' a) by now left. pose proof (C90_reference V m l fresh m' a t v false t H M') as (E1 & E2 & E3). rewrite Nat.eqb_refl in E3.
  pose proof (C90_owned V m l fresh m' a t v cs H M F) as O. destruct (C98_attaches V m l fresh m' a t v H M') as (d & D' & _ & ND & _). rewrite D in D'. injection D' as <-.
  apply in_map_iff in I. destruct I as ([n' acc] & <- & I). cbn [fst] in *. unfold attach_model_specific_methods in D. rewrite E2 in D. destruct (dict_has V m' a _ _ _ _ D I) as (o & X & J). unfold use_attribute. rewrite (lookup_in _ _ _ _ ND J).
  unfold held in E1, O. destruct (attached_access t n' acc I) as [(-> & _)|[(-> & _)|(-> & Q & _)]]; [| |contradiction]; unfold attach_one in X; cbn [fst snd] in X.
  - injection X as <-. cbn [use]. rewrite E3. cbn [bind]. now rewrite O.
  - rewrite E3 in X. cbn [bind] in X. injection X as <-. cbn [use]. now rewrite E1.
Qed.
(** Of a view the methods follow the object, and the stored values do not. *)
Theorem C98_view : forall V (m : memory V) l m' a t v w dict n acc, m l = Some (t, v) -> make_cview m l = Some (m', a) ->
  attach_model_specific_methods m' (Some a) = Val dict -> In (n, acc) (attached t) -> n <> "set_meta"%string ->
  use_attribute dict (acts m' [Assign l w]) a n = Val (Some (t, match acc with Stored _ => v | _ => w end)).
Proof.
  intros V m l m' a t v w dict n acc H M D I N. assert (M' : made m l 0 m' a) by now right. pose proof (C90_reference V m l 0 m' a t v false t H M') as (E1 & E2 & E3). rewrite Nat.eqb_refl in E3.
  pose proof (C90_view V m l m' a t v w [] H M (Forall_nil _)) as (_ & O & _). destruct (C98_attaches V m l 0 m' a t v H M') as (d & D' & _ & ND & _). rewrite D in D'. injection D' as <-.
  unfold attach_model_specific_methods in D. rewrite E2 in D. destruct (dict_has V m' a _ _ _ _ D I) as (o & X & J). unfold use_attribute. rewrite (lookup_in _ _ _ _ ND J).
  unfold held in E1, O. cbn [app] in O. destruct (attached_access t n acc I) as [(-> & _)|[(-> & _)|(-> & Q & _)]]; [| |contradiction]; unfold attach_one in X; cbn [fst snd] in X.
  - injection X as <-. cbn [use]. rewrite E3. cbn [bind]. now rewrite O.
  - rewrite E3 in X. cbn [bind] in X. injection X as <-. cbn [use]. now rewrite E1.
Qed.
(** The metadata cannot be set: the method is there, for the models that have metadata, and always throws. *)
Theorem C98_set_meta : forall V (m : memory V) l fresh m' a t v dict m2, m l = Some (t, v) -> made m l fresh m' a ->
  attach_model_specific_methods m' (Some a) = Val dict ->
  (metadata t -> In "set_meta"%string (map fst dict) /\ use_attribute dict m2 a "set_meta" = Err InvalidArgument) /\
  (~ metadata t -> use_attribute dict m2 a "set_meta" = Err AttributeError).
Proof.
  intros V m l fresh m' a t v dict m2 H M D. pose proof (C90_reference V m l fresh m' a t v false t H M) as (E1 & E2 & E3). destruct (C98_attaches V m l fresh m' a t v H M) as (d & D' & F & ND & _). rewrite D in D'. injection D' as <-.
  pose proof (C90_mutable V m l fresh m' a false t M) as (X & _). assert (D2 := D). unfold attach_model_specific_methods in D2. rewrite E2 in D2. split.
  - intros T. assert (I : In ("set_meta"%string, Writes t) (attached t)) by (destruct T as [-> | [-> | ->]]; cbv; tauto). destruct (dict_has V m' a _ _ _ _ D2 I) as (o & Y & J). cbn in Y. injection Y as <-. split; [rewrite F; apply in_map_iff; now exists ("set_meta"%string, Writes t)|].
    unfold use_attribute. rewrite (lookup_in _ _ _ _ ND J). cbn [use]. now rewrite X.
  - intros T. unfold use_attribute. destruct (lookup "set_meta" dict) as [o|] eqn:E; [|reflexivity]. exfalso. assert (I : In "set_meta"%string (map fst dict)).
    { clear -E. induction dict as [|[k x] dict IH]; [discriminate|]. cbn [lookup] in E. destruct (String.eqb_spec "set_meta" k) as [->|]; [now left|right; now apply IH]. }
    rewrite F in I. apply in_map_iff in I. destruct I as ([n acc] & Q & I). cbn [fst] in Q. subst n. destruct (attached_access _ _ _ I) as [(_ & Q)|[(_ & Q)|(_ & _ & Q)]]; congruence || contradiction.
Qed.
Theorem C98_set_meta_refuted : ~ (forall V (m : memory V) l fresh m' a v dict, m l = Some (multifluid_i, v) -> make_owned m l fresh = Some (m', a) ->
  attach_model_specific_methods m' (Some a) = Val dict -> exists o, use_attribute dict m' a "set_meta" = Val o).
Proof.
  intros H. assert (E : exists dict, attach_model_specific_methods (update (fun _ => Some (multifluid_i, tt)) 1 (Some (multifluid_i, tt))) (Some {| ad_holder := Owner {| ty_const := true; ty_of := multifluid_i |}; ad_model := 1 |}) = Val dict) by (eexists; reflexivity).
  destruct E as (dict & E). destruct (H unit (fun _ => Some (multifluid_i, tt)) 0%nat 1%nat _ _ tt dict eq_refl eq_refl E) as (o & O).
  pose proof (C98_set_meta unit (fun _ => Some (multifluid_i, tt)) 0 1 _ _ multifluid_i tt dict (update (fun _ => Some (multifluid_i, tt)) 1 (Some (multifluid_i, tt))) eq_refl (or_introl eq_refl) E) as (Q & _).
  destruct (Q ltac:(right; left; reflexivity)) as (_ & X). rewrite X in O. discriminate.
Qed.
Theorem C98_null : forall V (m : memory V), attach_model_specific_methods m None = Err StdInvalidArgument.
Proof. reflexivity. Qed.
(** Mutants: a new model, made of a multifluid model only, which stays as it was. *)
Theorem C98_mutants : forall V (mutate : V -> res V) kind (m : memory V) l fresh0 m' a t v tmp fresh, m l = Some (t, v) -> made m l fresh0 m' a ->
  tmp <> ad_model a -> fresh <> ad_model a -> tmp <> fresh ->
  (t = multifluid_i -> forall w, mutate v = Val w -> exists m2 b, build_mutant mutate kind m' (Some a) tmp fresh = ok (m2, b) /\ held m2 b = Some (kind, w) /\ get_type_index b = kind /\
    (forall k, k <> tmp -> k <> fresh -> m2 k = m' k) /\ held m2 a = Some (t, v)) /\
  (t = multifluid_i -> forall e, mutate v = Err e -> build_mutant mutate kind m' (Some a) tmp fresh = throws e) /\
  (t <> multifluid_i -> build_mutant mutate kind m' (Some a) tmp fresh = throws InvalidArgument).
Proof.
  intros V mutate kind m l fresh0 m' a t v tmp fresh H M N1 N2 N3. pose proof (C90_reference V m l fresh0 m' a t v false multifluid_i H M) as (E1 & E2 & E3). unfold held in *. unfold build_mutant. rewrite E3. split; [|split].
  - intros ->. rewrite Nat.eqb_refl. cbn [obind]. rewrite E1. intros w ->. cbn [obind]. unfold make_owned. unfold update at 1. rewrite Nat.eqb_refl. do 2 eexists. split; [reflexivity|]. cbn [ad_model]. unfold update. rewrite Nat.eqb_refl. assert (F : Nat.eqb fresh tmp = false) by (apply Nat.eqb_neq; congruence). rewrite F. split; [reflexivity|]. split; [reflexivity|].
    assert (O : forall k, k <> tmp -> k <> fresh -> (if Nat.eqb k tmp then None else if Nat.eqb k fresh then Some (kind, w) else if Nat.eqb k tmp then Some (kind, w) else m' k) = m' k).
    { intros k K1 K2. apply Nat.eqb_neq in K1, K2. now rewrite K1, K2. }
    split; [exact O|]. rewrite O by congruence. exact E1.
  - intros ->. rewrite Nat.eqb_refl. cbn [obind]. rewrite E1. intros e ->. reflexivity.
  - intros T. destruct (Nat.eqb_spec multifluid_i t); [congruence|reflexivity].
Qed.
(** Those of extended corresponding states have none of the attributes of the other multifluid models. *)
Theorem C98_ecs : forall V (m : memory V) l fresh m' a v (m2 : memory V) n, m l = Some (ecs_mutant_i, v) -> made m l fresh m' a ->
  attach_model_specific_methods m' (Some a) = Val [] /\ use_attribute (V := V) [] m2 a n = Err AttributeError.
Proof.
  intros V m l fresh m' a v m2 n H M. pose proof (C90_reference V m l fresh m' a _ v false 0 H M) as (_ & E & _). split; [|reflexivity]. unfold attach_model_specific_methods. rewrite E. reflexivity.
Qed.
(** Ancillaries of the fluids of a multifluid model: those of the fluid asked for, for an index from zero
    up; without an index only of a model of one fluid; too large an index throws. *)
Theorem C98_ancillaries : forall meta l N, j_at meta "pures" = Val (JArr l) -> length l = N -> (Z.of_nat N < 2 ^ 31)%Z ->
  (forall k f, nth_error l k = Some f -> build_ancillaries N meta (Some (Z.of_nat k)) = Some (bind (j_at f "ANCILLARIES") make_ancillaries)) /\
  (forall f, l = [f] -> build_ancillaries N meta None = Some (bind (j_at f "ANCILLARIES") make_ancillaries)) /\
  (N <> 1%nat -> build_ancillaries N meta None = throws InvalidArgument) /\
  (forall k, (Z.of_nat N <= k)%Z -> build_ancillaries N meta (Some k) = throws InvalidArgument).
Proof.
  intros meta l N P L B.
  assert (G : forall k f, nth_error l k = Some f -> build_ancillaries N meta (Some (Z.of_nat k)) = Some (bind (j_at f "ANCILLARIES") make_ancillaries)).
  { intros k f K. assert (KL : (k < length l)%nat) by (apply nth_error_Some; congruence). unfold build_ancillaries. destruct (Z.ltb_spec (Z.of_nat N - 1) (Z.of_nat k)); [lia|]. rewrite P. cbn [obind]. unfold array_index. rewrite Z.mod_small by lia. destruct (Z.ltb_spec (Z.of_nat k) (Z.of_nat (length l))); [|lia]. rewrite Nat2Z.id, K. reflexivity. }
  split; [exact G|]. split; [|split].
  - intros f ->. cbn [length] in L. subst N. exact (G 0%nat f eq_refl).
  - intros K. unfold build_ancillaries. destruct (Nat.eqb_spec N 1); [contradiction|reflexivity].
  - intros k K. unfold build_ancillaries. destruct (Z.ltb_spec (Z.of_nat N - 1) k); [reflexivity|lia].
Qed.
(** A negative index is not refused: -1, the last entry in Python, is undefined behaviour, and smaller ones
    are other errors. *)
Theorem C98_negative : forall meta l N k, j_at meta "pures" = Val (JArr l) -> length l = N -> (Z.of_nat N < 2 ^ 31)%Z -> (- 2 ^ 31 <= k < 0)%Z ->
  build_ancillaries N meta (Some k) = if (k =? -1)%Z then None else throws StdLengthError.
Proof.
  intros meta l N k P L B K. unfold build_ancillaries. destruct (Z.ltb_spec (Z.of_nat N - 1) k); [lia|]. rewrite P. cbn [obind]. unfold array_index. assert (E : (k mod 2 ^ 64 = k + 2 ^ 64)%Z) by (symmetry; apply (Z.mod_unique k (2 ^ 64) (-1)); lia). rewrite E.
  destruct (Z.ltb_spec (k + 2 ^ 64) (Z.of_nat (length l))); [lia|]. destruct (Z.eqb_spec k (-1)) as [->|N1]; [reflexivity|]. destruct (Z.eqb_spec (k + 2 ^ 64 + 1) (2 ^ 64)); [lia|]. destruct (Z.leb_spec (2 ^ 31) (k + 2 ^ 64)); [reflexivity|lia].
Qed.
Theorem C98_index_refuted : ~ (forall meta l N k, j_at meta "pures" = Val (JArr l) -> length l = N -> build_ancillaries N meta (Some k) <> None).
Proof. intros H. apply (H (JObj [("pures"%string, JArr [JNull])]) [JNull] 1%nat (-1)%Z eq_refl eq_refl). reflexivity. Qed.
Example C98_met : exists m' a dict, make_owned (fun k => if Nat.eqb k 3 then Some (PCSAFT_i, true) else None) 3 9 = Some (m', a) /\
  attach_model_specific_methods m' (Some a) = Val dict /\ use_attribute dict (acts m' [Destroy 3%nat]) a "get_m" = Val (Some (PCSAFT_i, true)) /\
  use_attribute dict m' a "get_a" = Err AttributeError.
Proof. do 3 eexists. split; [reflexivity|]. split; [reflexivity|]. split; reflexivity. Qed.
Example C98_mutants_met : exists m2 b, build_mutant (fun v => Val (negb v)) multifluidmutant_i (fun k => if Nat.eqb k 3 then Some (multifluid_i, true) else None)
  (Some {| ad_holder := Owner {| ty_const := true; ty_of := multifluid_i |}; ad_model := 3 |}) 4 5 = ok (m2, b) /\ held m2 b = Some (multifluidmutant_i, false) /\ m2 3%nat = Some (multifluid_i, true).
Proof. do 2 eexists. split; [reflexivity|]. split; reflexivity. Qed.
Example C98_ancillaries_met : nth_error [JNull; JObj [("ANCILLARIES"%string, JNull)]] 1 = Some (JObj [("ANCILLARIES"%string, JNull)]) /\ metadata multifluid_i /\ ~ metadata PCSAFT_i.
Proof. split; [reflexivity|]. split; [right; left; reflexivity|]. intros [H|[H|H]]; discriminate. Qed.
Print Assumptions C96_cubics.
Print Assumptions C96_vdW.
Print Assumptions C96_names.
Print Assumptions C96_coeffs.
Print Assumptions C96_nonpolar.
Print Assumptions C96_polar_refuted.
Print Assumptions C96_empty.
Print Assumptions C97_forwards.
Print Assumptions C97_virial_refuted.
Print Assumptions C97_missing.
Print Assumptions C98_attaches.
Print Assumptions C98_reads.
Print Assumptions C98_view.
Print Assumptions C98_set_meta.
Print Assumptions C98_set_meta_refuted.
Print Assumptions C98_null.
Print Assumptions C98_mutants.
Print Assumptions C98_ecs.
Print Assumptions C98_ancillaries.
Print Assumptions C98_negative.
Print Assumptions C98_index_refuted.
