(** C99: the functions of the Python package that build models reach the factory of their kind. *)
From Coq Require Import Reals String List Bool.
From Verif Require Import Json_model Registry_model Cubic_model PCSAFT_model Python_model Kinds_model.
Import ListNotations.
Local Open Scope string_scope.

(** The factory of the kind that came with the library runs, once, on these parameters, whatever was
    registered since, if the schema of the kind, if there is one, accepts them; otherwise nothing runs
    and its complaints are reported. *)
Definition builds (b : builder) (kind : string) (spec : json) : Prop :=
  forall (Model : Type) (reg : registry Model) ops sch, map fst reg = kinds ->
  exists f, lookup kind reg = Some f /\
  let r := make_model (run_adds Model reg ops) sch b in
  ((forall errs, sch kind = Some errs -> errs spec = []) -> r = mkBuilt Model [(kind, spec)] (f spec)) /\
  (forall errs e es, sch kind = Some errs -> errs spec = e :: es -> r = mkBuilt Model [] (Err (ValidationError (e :: es)))).
Lemma adds_keep : forall Model ops (reg : registry Model) k f, lookup k reg = Some f -> lookup k (run_adds Model reg ops) = Some f.
Proof.
  intros Model ops. induction ops as [|[k' f'] ops IH]; intros reg k f H; [exact H|]. cbn [run_adds]. apply IH. unfold add_factory. destruct (lookup k' reg) eqn:E; cbn [fst]; [exact H|]. cbn [lookup]. destruct (String.eqb_spec k k') as [->|]; [congruence|exact H].
Qed.
Lemma known_kind : forall Model k (reg : registry Model), existsb (String.eqb k) (map fst reg) = true -> exists f, lookup k reg = Some f.
Proof.
  intros Model k reg. induction reg as [|[k' f'] reg IH]; intros H; [discriminate|]. cbn [map fst existsb] in H. cbn [lookup]. destruct (String.eqb k k'); [now exists f'|]. apply IH. exact H.
Qed.
Lemma builds_request : forall b kind spec, builder_request b = Val (request kind spec) -> existsb (String.eqb kind) kinds = true -> builds b kind spec.
Proof.
  intros b kind spec R K Model reg ops sch E. rewrite <- E in K. destruct (known_kind Model kind reg K) as (f & F). exists f. split; [exact F|]. unfold make_model. rewrite R. unfold build_model_ptr, request. cbn [j_at lookup String.eqb Ascii.eqb Bool.eqb bind j_string]. rewrite (adds_keep Model ops reg kind f F). cbn [j_contains lookup String.eqb Ascii.eqb Bool.eqb]. cbv zeta. split.
  - intros A. destruct (sch kind) as [errs|]; [|reflexivity]. now rewrite (A errs eq_refl).
  - intros errs e es S H. rewrite S, H. reflexivity.
Qed.
Definition numbers (l : list R) : json := JArr (map JNum l).
Definition matrix (k : option (list (list R))) : json := match k with None => JNull | Some k => JArr (map numbers k) end.
Theorem C99_builds :
  (forall a b, builds (Make_vdW1 a b) "vdW1" (JObj [("a", JNum a); ("b", JNum b)])) /\
  (forall Tc pc, builds (VdWEOS Tc pc) "vdW" (JObj [("Tcrit / K", numbers Tc); ("pcrit / Pa", numbers pc)])) /\
  (forall Tc pc ac k, builds (Canonical_PR Tc pc ac k) "PR" (JObj [("Tcrit / K", numbers Tc); ("pcrit / Pa", numbers pc); ("acentric", numbers ac); ("kmat", matrix k)])) /\
  (forall Tc pc ac k, builds (Canonical_SRK Tc pc ac k) "SRK" (JObj [("Tcrit / K", numbers Tc); ("pcrit / Pa", numbers pc); ("acentric", numbers ac); ("kmat", matrix k)])) /\
  (forall spec, builds (CPAfactory spec) "CPA" spec) /\
  (forall n ns k, builds (PCSAFT_EOS (Names (n :: ns)) k) "PCSAFT" (JObj [("names", JArr (map JStr (n :: ns))); ("kmat", matrix k)])) /\
  builds AmmoniaWater "AmmoniaWaterTillnerRoth" (JObj []) /\ builds Build_LJ126 "LJ126_TholJPCRD2016" (JObj []) /\
  (forall model, builds (IdealHelmholtz model) "IdealHelmholtz" model) /\
  (forall cs root BIP flags dep, builds (Build_multifluid cs root BIP flags dep) "multifluid"
    (JObj [("components", JArr (map JStr cs)); ("root", JStr root); ("BIP", JStr BIP); ("flags", flags); ("departure", JStr dep)])).
Proof. repeat split; intros; apply builds_request; reflexivity. Qed.
(** Coefficients of PC-SAFT: five fields of each *)
Theorem C99_coeffs : forall c cs k, exists l, builds (PCSAFT_EOS (Coeffs (c :: cs)) k) "PCSAFT" (JObj [("coeffs", JArr l); ("kmat", matrix k)]) /\
  Forall2 (fun c j => exists o, j = JObj o /\ lookup "name" o = Some (JStr (c_name c)) /\ lookup "m" o = Some (JNum (c_m c)) /\ lookup "sigma_Angstrom" o = Some (JNum (c_sigma c)) /\
    lookup "epsilon_over_k" o = Some (JNum (c_eps c)) /\ lookup "BibTeXKey" o = Some (JStr (c_bibtex c)) /\ length o = 5%nat) (c :: cs) l.
Proof.
  intros c cs k. exists (map coeffs_dict (c :: cs)). split; [apply builds_request; reflexivity|]. generalize (c :: cs). intros l. induction l as [|x l IH]; constructor; [|exact IH]. eexists. repeat split.
Qed.
(** An empty list reaches no factory. *)
Theorem C99_empty : forall Model (reg : registry Model) sch a k, a = Names [] \/ a = Coeffs [] -> make_model reg sch (PCSAFT_EOS a k) = mkBuilt Model [] (Err IndexError).
Proof. intros Model reg sch a k [-> | ->]; reflexivity. Qed.
(** With the factories of the cubic equations and of PC-SAFT, the functions are those of C96. *)
Theorem C99_C96 :
  (forall reg sch Tc pc ac k, map fst reg = kinds -> sch "PR" = None -> lookup "PR" reg = Some (fun j => Val (make_canonicalPR j)) ->
    b_result (outcome cubic) (make_model reg sch (Canonical_PR Tc pc ac k)) = Val (py_canonical_PR Tc pc ac k)) /\
  (forall reg sch Tc pc ac k, map fst reg = kinds -> sch "SRK" = None -> lookup "SRK" reg = Some (fun j => Val (make_canonicalSRK j)) ->
    b_result (outcome cubic) (make_model reg sch (Canonical_SRK Tc pc ac k)) = Val (py_canonical_SRK Tc pc ac k)) /\
  (forall reg sch a k, map fst reg = kinds -> sch "PCSAFT" = None -> lookup "PCSAFT" reg = Some PCSAFTfactory ->
    b_result mixture (make_model reg sch (PCSAFT_EOS a k)) = PCSAFTEOS a k).
Proof.
  assert (G : forall Model (reg : registry Model) sch b kind spec f, builds b kind spec -> map fst reg = kinds -> sch kind = None -> lookup kind reg = Some f -> b_result Model (make_model reg sch b) = f spec).
  { intros Model reg sch b kind spec f B E S L. destruct (B Model reg [] sch E) as (f' & L' & X & _). rewrite L in L'. injection L' as <-. cbn [run_adds] in X. rewrite X; [reflexivity|]. intros errs. rewrite S. discriminate. }
  split; [|split].
  - intros reg sch Tc pc ac k E S L. exact (G _ _ _ _ _ _ _ (proj1 (proj2 (proj2 C99_builds)) Tc pc ac k) E S L).
  - intros reg sch Tc pc ac k E S L. exact (G _ _ _ _ _ _ _ (proj1 (proj2 (proj2 (proj2 C99_builds))) Tc pc ac k) E S L).
  - intros reg sch [[|n ns]|[|c cs]] k E S L; [reflexivity| |reflexivity|].
    + refine (G _ _ _ _ _ _ _ _ E S L). apply builds_request; reflexivity.
    + refine (G _ _ _ _ _ _ _ _ E S L). apply builds_request; reflexivity.
Qed.
(** The kinds are all different. *)
Theorem C99_kinds : NoDup kinds.
Proof.
  assert (Q : forall l, (fix nd l := match l with [] => true | x :: l => negb (existsb (String.eqb x) l) && nd l end) l = true -> NoDup l).
  { induction l as [|x l IH]; intros E; [constructor|]. apply andb_true_iff in E. destruct E as [E1 E2]. constructor; [|now apply IH]. intros I. apply negb_true_iff in E1. assert (existsb (String.eqb x) l = true) by (apply existsb_exists; exists x; split; [exact I|apply String.eqb_refl]). congruence. }
  apply Q. vm_compute. reflexivity.
Qed.
Example C99_met : exists reg : registry json, map fst reg = kinds /\ lookup "PR" reg = Some (fun j => Val j) /\
  b_result json (make_model reg (fun _ => None) (Canonical_PR [190%R] [4600000%R] [0%R] None)) = Val (JObj [("Tcrit / K", numbers [190%R]); ("pcrit / Pa", numbers [4600000%R]); ("acentric", numbers [0%R]); ("kmat", JNull)]).
Proof. exists (map (fun k => (k, fun j => Val j)) kinds). split; [reflexivity|]. split; reflexivity. Qed.
Print Assumptions C99_builds.
Print Assumptions C99_coeffs.
Print Assumptions C99_empty.
Print Assumptions C99_C96.
Print Assumptions C99_kinds.
