(** C82: building SAFT-VR-Mie models. *)
From Coq Require Import Reals ZArith String List Lia Lra Bool.
From Verif Require Import Json_model Vec_spec Vec_proofs Cubic_model Cubic_spec Cubic_proofs2 Terms_model Ideal_model Ideal_proofs Util_model Assoc_model Numerics_model.
From Verif Require Import LKP_proofs VRMie_model VRMie_proofs.
From Verif Require PCSAFT_model Properties_CPA2.
Import ListNotations.
Local Open Scope R_scope.

(** The result of the public factory for a mixture, under any reading of the contributions of
    Gubbins, Twu and Gray (which the model leaves open) *)
Section Any.
Variable gray : json -> list R -> res unit.
Variable eval_polar : vpolar -> R -> R -> R -> list R -> outcome R.

(** ** Fluids by name *)
(** what the library has: segments, diameter in m, energy, exponents *)
Definition published_fluid (name : string) : option (R * R * R * R * R) :=
  if String.eqb name "Methane" then Some (1, 3.7412 / 10 ^ 10, 153.36, 12.65, 6)
  else if String.eqb name "Ethane" then Some (1.4373, 3.7257 / 10 ^ 10, 206.12, 12.4, 6)
  else if String.eqb name "Propane" then Some (1.6845, 3.9056 / 10 ^ 10, 239.89, 13.006, 6)
  else None.
Definition names_spec (ns : list string) : json := JObj [("names"%string, JArr (map JStr ns))].
Lemma library_val : forall n, match published_fluid n with
  | Some (m, s, e, lr, la) => exists c, vget_normal n = Val c /\ vc_name c = n /\ vc_m c = m /\ vc_sigma c = s /\ vc_eps c = e /\ vc_lr c = lr /\ vc_la c = la /\ vc_mustar2 c = 0 /\ vc_nmu c = 0 /\ vc_Qstar2 c = 0 /\ vc_nQ c = 0
  | None => vget_normal n = Err StdInvalidArgument end.
Proof.
  intro n. unfold published_fluid, vget_normal, vlibrary. cbn [find vnormal vc_name]. rewrite (String.eqb_sym "Methane"), (String.eqb_sym "Ethane"), (String.eqb_sym "Propane").
  destruct (String.eqb_spec n "Methane") as [->|_]; [|destruct (String.eqb_spec n "Ethane") as [->|_]; [|destruct (String.eqb_spec n "Propane") as [->|_]; [|reflexivity]]];
    eexists; (split; [reflexivity|]); cbn [vnormal vc_name vc_m vc_sigma vc_eps vc_lr vc_la vc_mustar2 vc_nmu vc_Qstar2 vc_nQ]; repeat split; lra.
Qed.
Lemma map_res_val : forall A B (f : A -> res B) l, (forall a, In a l -> exists b, f a = Val b) -> exists bs, map_res f l = Val bs /\ Forall2 (fun a b => f a = Val b) l bs.
Proof.
  induction l as [|a l IH]; intro H; [exists []; split; [reflexivity|constructor]|]. destruct (H a (or_introl eq_refl)) as [b Eb]. destruct IH as (bs & E & F); [intros; apply H; now right|].
  exists (b :: bs). split; [cbn; rewrite Eb; cbn; rewrite E; reflexivity|now constructor].
Qed.
Lemma map_res_err : forall A B (f : A -> res B) l e, (forall a, In a l -> f a = Err e \/ exists b, f a = Val b) -> (exists a, In a l /\ f a = Err e) -> map_res f l = Err e.
Proof.
  induction l as [|a l IH]; intros e H (z & I & Ez); [contradiction|]. cbn. destruct (H a (or_introl eq_refl)) as [Ea|[b Eb]]; [rewrite Ea; reflexivity|]. rewrite Eb. cbn. rewrite (IH e); [reflexivity|intros; apply H; now right|].
  destruct I as [->|I]; [congruence|eauto].
Qed.
Lemma names_read : forall ns, bind (j_at (names_spec ns) "names") (j_valarray j_string) = Val ns.
Proof. intro ns. cbn. induction ns as [|n ns IH]; [reflexivity|]. cbn in *. rewrite IH. reflexivity. Qed.

Lemma no_moments : forall (p n : list R), (forall i, nth i p 0 = 0) -> PCSAFT_model.some_positive p n = false.
Proof.
  intros p n H. unfold PCSAFT_model.some_positive. apply not_true_is_false. intro E. apply existsb_exists in E. destruct E as (i & _ & E). unfold PCSAFT_model.nt in E. rewrite H in E. destruct (Rlt_dec 0 _) as [L|_]; [|discriminate]. lra.
Qed.
Lemma no_number : forall (p n : list R), (forall i, nth i n 0 = 0) -> PCSAFT_model.some_positive p n = false.
Proof.
  intros p n H. unfold PCSAFT_model.some_positive. apply not_true_is_false. intro E. apply existsb_exists in E. destruct E as (i & _ & E). unfold PCSAFT_model.nt in E. rewrite H in E. destruct (Rlt_dec 0 _) as [L|_]; [|discriminate]. lra.
Qed.
(** Known names give a model of these fluids in this order, with the energies combined as Lafitte
    et al. do and no interaction parameters, and its residual Helmholtz energy is that of C81; with
    any other name nothing is built *)
Theorem C82_names : forall ns,
  ((forall n, In n ns -> published_fluid n <> None) ->
   exists m, vrmie_factory gray (names_spec ns) = ok m /\ x_names m = ns /\
   let v := x_terms m in v_flag v = FlLafitte /\ v_k v = repeat (repeat 0 (length ns)) (length ns) /\ length (v_m v) = length ns /\
   (forall i, (i < length ns)%nat -> exists mm s e lr la, published_fluid (nth i ns ""%string) = Some (mm, s, e, lr, la) /\
      nth i (v_m v) 0 = mm /\ nth i (v_sigma v) 0 = s * 10 ^ 10 /\ nth i (v_eps v) 0 = e /\ nth i (v_lr v) 0 = lr /\ nth i (v_la v) 0 = la) /\
   forall T rho x, vmixture_alphar eval_polar m T rho x = vrmie_alphar v T rho x) /\
  ((exists n, In n ns /\ published_fluid n = None) -> vrmie_factory gray (names_spec ns) = throws StdInvalidArgument).
Proof.
  intro ns. unfold vrmie_factory. replace (PCSAFT_model.spec_kmat (names_spec ns)) with (@Val (option (list (list R))) None) by reflexivity.
  unfold obind at 1 3. replace (j_contains (names_spec ns) "names") with true by reflexivity. rewrite names_read. cbn [obind vsized negb]. unfold mixture_of_names. split.
  - intro K. destruct (map_res_val _ _ vget_normal ns) as (cs & Ecs & F).
    { intros n I. pose proof (library_val n) as V. specialize (K n I). destruct (published_fluid n) as [[[[[mm s] e] lr] la]|]; [|congruence]. destruct V as (c & V & _). eauto. }
    unfold vget_coeffs. rewrite Ecs. cbn [bind mixture_of_coeffs build_chain VRMie_model.check_kmat flag_of]. assert (L : length cs = length ns) by (clear - F; induction F; cbn; congruence).
    assert (N : forall i, (i < length ns)%nat -> exists c, nth_error cs i = Some c /\ vget_normal (nth i ns ""%string) = Val c).
    { clear K Ecs. induction F as [|n c ns' cs' E F IH]; intros i Hi; cbn in Hi; [lia|]. destruct i as [|i]; [exists c; auto|]. cbn. apply IH; [cbn in L; lia|lia]. }
    assert (Nth : forall f i c, nth_error cs i = Some c -> nth i (map f cs) 0 = f c). { intros f i c E. apply nth_error_nth. now apply map_nth_error. }
    eexists. split; [reflexivity|]. cbn [x_names x_terms v_flag v_k v_m v_sigma v_eps v_lr v_la]. split; [|split; [reflexivity|split; [now rewrite L|split; [now rewrite map_length|split]]]].
    + clear K Ecs L N Nth. induction F as [|n c ns' cs' E F IH]; [reflexivity|]. cbn. rewrite IH. f_equal. pose proof (library_val n) as V. destruct (published_fluid n) as [[[[[mm s] e] lr] la]|]; [|congruence]. destruct V as (c' & V & Nm & _). congruence.
    + intros i Hi. destruct (N i Hi) as (c & Ec & Ev). pose proof (library_val (nth i ns ""%string)) as V. destruct (published_fluid _) as [[[[[mm s] e] lr] la]|]; [|congruence]. destruct V as (c' & V & _ & A & B & C & D & E & _). assert (c' = c) by congruence. subst c'.
      exists mm, s, e, lr, la. rewrite !(Nth _ i c Ec). subst. repeat split.
    + intros T rho x. unfold vmixture_alphar, vrmie_alphar. cbn [x_terms x_polar]. destruct (core_calcs _ T rho x) as [[o|]|]; [|reflexivity|reflexivity]. cbn [obind].
      destruct (build_polar cs _) as [p|] eqn:Ep; [|reflexivity].
      assert (Z : forall i, nth i (map vc_mustar2 cs) 0 = 0 /\ nth i (map vc_Qstar2 cs) 0 = 0).
      { intro i. destruct (Nat.lt_ge_cases i (length ns)) as [Hi|Hi]; [|rewrite !nth_overflow by (rewrite map_length; lia); auto]. destruct (N i Hi) as (c & Ec & Ev). rewrite !(Nth _ i c Ec). pose proof (library_val (nth i ns ""%string)) as V.
        destruct (published_fluid _) as [[[[[mm s] e] lr] la]|]; [|congruence]. destruct V as (c' & V & _ & _ & _ & _ & _ & _ & A & _ & B & _). assert (c' = c) by congruence. subst c'. auto. }
      unfold build_polar in Ep. cbv zeta in Ep. destruct (negb _ && negb _)%bool; [discriminate|]. injection Ep as <-. cbn [vpolar_alphar]. unfold PCSAFT_model.multipolar. rewrite !no_moments by (intro; apply Z). cbn [andb opt_bind]. unfold fin, obind, ok. f_equal. f_equal. ring.
  - intros (n & I & E). unfold vget_coeffs. rewrite (map_res_err _ _ vget_normal ns StdInvalidArgument); [reflexivity| |].
    + intros a _. pose proof (library_val a) as V. destruct (published_fluid a) as [[[[[mm s] e] lr] la]|]; [|auto]. destruct V as (c & V & _). eauto.
    + exists n. split; [exact I|]. pose proof (library_val n) as V. rewrite E in V. exact V.
Qed.
(** ** Fluids by their coefficients *)
(** what a user writes for one component: the numbers, the diameter in metres or in Angstrom, and
    further entries, for moments *)
Record component := { p_name : string; p_m : R; p_sigma_A : R; p_metres : bool; p_eps : R; p_lr : R; p_la : R; p_bib : string; p_more : list (string * json) }.
Definition component_json (c : component) : json :=
  JObj ([("name", JStr (p_name c)); ("m", JNum (p_m c)); (if p_metres c then ("sigma_m", JNum (p_sigma_A c / 10 ^ 10)) else ("sigma_Angstrom", JNum (p_sigma_A c)));
         ("epsilon_over_k", JNum (p_eps c)); ("lambda_r", JNum (p_lr c)); ("lambda_a", JNum (p_la c)); ("BibTeXKey", JStr (p_bib c))]%string ++ p_more c).
Definition matrix (k : list (list R)) : json := JArr (map (fun r => JArr (map JNum r)) k).
(** the components, a matrix of interaction parameters if wanted, and further entries *)
Definition coeffs_spec (cs : list component) (k : option (list (list R))) (more : list (string * json)) : json :=
  JObj (("coeffs"%string, JArr (map component_json cs)) :: match k with Some k => [("kmat"%string, matrix k)] | None => [] end ++ more).
(** the entries that make a component polar *)
Definition moment_keys : list string := ["(mu^*)^2"; "nmu"; "(Q^*)^2"; "nQ"; "Q_Cm2"; "Q_DA"; "mu_Cm"; "mu_D"]%string.
(** without these nothing is polar: a reduced moment without the number of segments that carry it is
    not looked at *)
Definition polar_keys : list string := ["nmu"; "nQ"; "Q_Cm2"; "Q_DA"; "mu_Cm"; "mu_D"]%string.
Definition without (ks : list string) (l : list (string * json)) : Prop := forall k, In k ks -> lookup k l = None.
(** what C81 is about, for these components *)
Definition terms_for (cs : list component) (k : option (list (list R))) (f : epsflag) : vrmie :=
  {| v_m := map p_m cs; v_eps := map p_eps cs; v_sigma := map p_sigma_A cs; v_lr := map p_lr cs; v_la := map p_la cs;
     v_k := match k with Some k => k | None => repeat (repeat 0 (length cs)) (length cs) end; v_flag := f |}.
Definition good_matrix (n : nat) (k : option (list (list R))) : Prop := match k with Some k => length k = n /\ (0 < n)%nat /\ (forall r, In r k -> length r = n) | None => True end.

Lemma lookup_app : forall A k (a b : list (string * A)), lookup k a = None -> lookup k (a ++ b) = lookup k b.
Proof. induction a as [|[k' x] a IH]; intros b H; [reflexivity|]. cbn in *. destruct (String.eqb k k'); [discriminate|auto]. Qed.
Definition keys_only (c : component) : list (string * json) := match component_json c with JObj l => l | _ => [] end.
Lemma comp_lookup : forall c k, ~ In k ["name"; "m"; "sigma_m"; "sigma_Angstrom"; "epsilon_over_k"; "lambda_r"; "lambda_a"; "BibTeXKey"]%string -> lookup k (keys_only c) = lookup k (p_more c).
Proof.
  intros c k H. unfold keys_only, component_json. apply lookup_app. destruct (p_metres c); cbn [lookup];
    repeat match goal with |- context [String.eqb k ?s] => destruct (String.eqb_spec k s) as [->|_]; [exfalso; apply H; cbn; tauto|] end; reflexivity.
Qed.
Lemma vplain_val : forall c, lookup "sigma_m" (p_more c) = None -> exists y, vplain (component_json c) = Val y /\ vc_name y = p_name c /\ vc_m y = p_m c /\ vc_sigma y = p_sigma_A c / 10 ^ 10 /\ vc_eps y = p_eps c /\ vc_lr y = p_lr c /\ vc_la y = p_la c /\ vc_bib y = p_bib c /\ vc_mustar2 y = 0 /\ vc_nmu y = 0 /\ vc_Qstar2 y = 0 /\ vc_nQ y = 0.
Proof.
  intros [name m s me e lr la b more] H. cbn [p_more] in H. unfold vplain, vsigma_of, vnumber, component_json, j_at, j_contains. cbn [p_name p_m p_sigma_A p_metres p_eps p_lr p_la p_bib p_more]. destruct me.
  - cbn. eexists. split; [reflexivity|]. cbn. repeat split.
  - cbn. rewrite H. cbn. eexists. split; [reflexivity|]. cbn. repeat split.
Qed.
Lemma kmat_read : forall cs k more n, good_matrix n k -> without ["kmat"%string] more -> PCSAFT_model.spec_kmat (coeffs_spec cs k more) = Val k.
Proof.
  intros cs k more n G W. unfold PCSAFT_model.spec_kmat, coeffs_spec, j_contains, j_at. destruct k as [k|].
  - cbn [app lookup String.eqb Ascii.eqb Bool.eqb]. unfold matrix. destruct G as (G1 & G2 & G3). destruct k as [|r k']; [cbn in G1; lia|]. cbn [map bind].
    assert (E : build_square_matrix (JArr (JArr (map JNum r) :: map (fun r => JArr (map JNum r)) k')) = Val (r :: k')) by (apply (Properties_CPA2.kmat_ok (r :: k') n); [discriminate|exact G1|exact G3]).
    rewrite E. reflexivity.
  - cbn [app lookup String.eqb Ascii.eqb Bool.eqb]. rewrite (W "kmat"%string) by (cbn; auto). reflexivity.
Qed.
Lemma contains_comp : forall c k, j_contains (component_json c) k = match lookup k (keys_only c) with Some _ => true | None => false end. Proof. reflexivity. Qed.
Lemma not_polar : forall c, without polar_keys (p_more c) -> vis_polar (component_json c) = false.
Proof.
  intros c W. unfold vis_polar. rewrite !contains_comp. rewrite !comp_lookup by (cbn; intuition discriminate). rewrite (W "nmu"%string), (W "nQ"%string), (W "Q_Cm2"%string), (W "Q_DA"%string), (W "mu_Cm"%string), (W "mu_D"%string) by (cbn; tauto). rewrite !andb_false_r. reflexivity.
Qed.
Lemma vone_plain : forall c, without ("sigma_m"%string :: polar_keys) (p_more c) -> exists y, vone (component_json c) = Val y /\ vplain (component_json c) = Val y.
Proof.
  intros c W. destruct (vplain_val c) as (y & E & _ & _ & _ & _ & _ & _ & _ & Z1 & Z2 & Z3 & Z4); [apply W; cbn; auto|]. unfold vone. rewrite E. cbn [bind]. unfold vlegacy. rewrite !contains_comp. rewrite !comp_lookup by (cbn; intuition discriminate).
  rewrite (W "nmu"%string), (W "nQ"%string) by (cbn; tauto). rewrite !andb_false_r. cbn [bind fst snd]. eexists. split; [reflexivity|].
  destruct y. cbn in *. subst. reflexivity.
Qed.
Definition basic (c : component) (y : vcoeffs) : Prop := vc_name y = p_name c /\ vc_m y = p_m c /\ vc_sigma y = p_sigma_A c / 10 ^ 10 /\ vc_eps y = p_eps c /\ vc_lr y = p_lr c /\ vc_la y = p_la c.
Lemma chain_for : forall cs ys k n flags f, Forall2 basic cs ys -> length cs = n -> good_matrix n k -> flag_of flags = Val f ->
  build_chain ys k flags = Val (terms_for cs k f) /\ map vc_name ys = map p_name cs.
Proof.
  intros cs ys k n flags f F L G Fl. assert (Ly : length ys = n) by (rewrite <- L; clear - F; induction F; cbn; congruence).
  assert (M : map vc_m ys = map p_m cs /\ map vc_eps ys = map p_eps cs /\ map (fun c => vc_sigma c * 10 ^ 10) ys = map p_sigma_A cs /\ map vc_lr ys = map p_lr cs /\ map vc_la ys = map p_la cs /\ map vc_name ys = map p_name cs).
  { clear - F. induction F as [|c y cs ys E F IH]; [repeat split|]. destruct IH as (A & B & C & D & H & I). destruct E as (X1 & X2 & X3 & X4 & X5 & X6). cbn [map].
    rewrite A, B, C, D, H, I, X1, X2, X3, X4, X5, X6. repeat split. f_equal. field. }
  destruct M as (M1 & M2 & M3 & M4 & M5 & M6). split; [|exact M6]. unfold build_chain. replace (VRMie_model.check_kmat k (length ys)) with (Val (match k with Some k => k | None => repeat (repeat 0 n) n end)).
  - cbn [bind]. rewrite Fl. cbn [bind]. unfold terms_for. rewrite M1, M2, M3, M4, M5, L. reflexivity.
  - rewrite Ly. unfold VRMie_model.check_kmat. destruct k as [k|]; [|reflexivity]. destruct G as (G1 & G2 & G3). destruct k as [|r k']; [cbn in G1; lia|]. rewrite G1, Nat.eqb_refl.
    assert (forallb (fun r0 => Nat.eqb (length r0) n) (r :: k') = true) as -> by (apply forallb_forall; intros z I; apply Nat.eqb_eq; auto). reflexivity.
Qed.
(** Components without moments: a model of them, without a polar term, whatever else the
    specification says.  The energies are always combined as Lafitte et al. do: the flags are not
    looked at (see [C82_flags_refuted]) *)
Theorem C82_coefficients : forall cs k more, good_matrix (length cs) k -> without ["kmat"; "names"]%string more -> (forall c, In c cs -> without ("sigma_m"%string :: polar_keys) (p_more c)) ->
  exists m, vrmie_factory gray (coeffs_spec cs k more) = ok m /\ x_names m = map p_name cs /\ x_polar m = None /\ x_terms m = terms_for cs k FlLafitte /\
  (forall T rho x, vmixture_alphar eval_polar m T rho x = vrmie_alphar (terms_for cs k FlLafitte) T rho x) /\
  nonpolar_factory (coeffs_spec cs k more) = Val (terms_for cs k FlLafitte).
Proof.
  intros cs k more G W P. unfold vrmie_factory, nonpolar_factory. rewrite (kmat_read cs k more (length cs) G) by (intros z I; apply W; cbn in *; tauto). unfold obind at 1. cbn [bind].
  assert (Nn : j_contains (coeffs_spec cs k more) "names" = false). { unfold coeffs_spec, j_contains. destruct k as [k|]; cbn [app lookup String.eqb Ascii.eqb Bool.eqb]; rewrite (W "names"%string) by (cbn; auto); reflexivity. }
  rewrite Nn. replace (j_contains (coeffs_spec cs k more) "coeffs") with true by reflexivity. replace (j_at (coeffs_spec cs k more) "coeffs") with (Val (JArr (map component_json cs))) by reflexivity. cbn [bind j_values]. unfold obind at 1.
  destruct (map_res_val _ _ (fun c => vone (component_json c)) cs) as (ys & E & F). { intros c I. destruct (vone_plain c (P c I)) as (y & Ey & _). eauto. }
  assert (MM : forall (f : json -> res vcoeffs) l bs, map_res (fun c => f (component_json c)) l = Val bs -> map_res f (map component_json l) = Val bs).
  { intros f l. induction l as [|c l IH]; intros bs H; [exact H|]. cbn in *. destruct (f (component_json c)) as [y|]; [|discriminate]. cbn in *. destruct (map_res _ l) as [r|] eqn:Er; [|discriminate]. cbn in H. rewrite (IH r eq_refl). exact H. }
  rewrite (MM vone cs ys E). unfold obind at 1.
  assert (F' : Forall2 (fun c y => vplain (component_json c) = Val y) cs ys). { clear - F P. induction F as [|c y cs ys Ey F IH]; [constructor|]. constructor; [|apply IH; intros; apply P; now right]. destruct (vone_plain c (P c (or_introl eq_refl))) as (y' & A & B). congruence. }
  assert (E' : map_res (fun c => vplain (component_json c)) cs = Val ys). { clear - F'. induction F' as [|c y cs ys Ey F IH]; [reflexivity|]. cbn [map_res]. rewrite Ey. cbn [bind]. rewrite IH. reflexivity. }
  rewrite (MM vplain cs ys E'). cbn [bind]. assert (Ly : length ys = length cs) by (clear - F; induction F; cbn; congruence).
  assert (V : vsized k (length ys) = true). { rewrite Ly. unfold vsized. destruct k as [k|]; [|reflexivity]. apply Nat.eqb_eq. apply G. }
  rewrite V. cbn [negb]. replace (existsb vis_polar (map component_json cs)) with false.
  2:{ symmetry. apply not_true_is_false. intro X. apply existsb_exists in X. destruct X as (j & I & Xj). apply in_map_iff in I. destruct I as (c & <- & I). rewrite not_polar in Xj; [discriminate|]. intros z Iz. apply (P c I). now right. }
  cbn [negb]. assert (Fb : Forall2 basic cs ys). { clear - F' P. induction F' as [|c y cs ys Ey F IH]; [constructor|]. constructor; [|apply IH; intros; apply P; now right]. destruct (vplain_val c) as (y' & A & B); [apply (P c); now left|]. assert (y' = y) by congruence. subst y'. unfold basic. tauto. }
  destruct (chain_for cs ys k (length cs) None FlLafitte Fb) as [B Nm]; [reflexivity|exact G|reflexivity|]. rewrite B. unfold obind at 1.
  eexists. split; [reflexivity|]. cbn [mixture_of_terms x_names x_polar x_terms]. split; [exact Nm|]. split; [reflexivity|]. split; [reflexivity|]. split; [|reflexivity].
  intros T rho x. unfold vmixture_alphar, vrmie_alphar. reflexivity.
Qed.
(** Nothing to build from; a matrix of the wrong size *)
Theorem C82_nothing : forall o, lookup "names" o = None -> lookup "coeffs" o = None -> lookup "kmat" o = None ->
  vrmie_factory gray (JObj o) = throws StdInvalidArgument /\ nonpolar_factory (JObj o) = Err StdInvalidArgument.
Proof. intros o N C K. unfold vrmie_factory, nonpolar_factory, PCSAFT_model.spec_kmat, j_contains. rewrite K, N, C. split; reflexivity. Qed.
Theorem C82_matrix_size : forall cs k more, good_matrix (length k) (Some k) -> length k <> length cs -> without ["kmat"; "names"]%string more -> (forall c, In c cs -> without ("sigma_m"%string :: polar_keys) (p_more c)) ->
  vrmie_factory gray (coeffs_spec cs (Some k) more) = throws InvalidArgument /\ nonpolar_factory (coeffs_spec cs (Some k) more) = Err InvalidArgument.
Proof.
  intros cs k more G NE W P. unfold vrmie_factory, nonpolar_factory. rewrite (kmat_read cs (Some k) more (length k) G) by (intros z I; apply W; cbn in *; tauto). unfold obind at 1. cbn [bind].
  assert (Nn : j_contains (coeffs_spec cs (Some k) more) "names" = false). { unfold coeffs_spec, j_contains. cbn [app lookup String.eqb Ascii.eqb Bool.eqb]; rewrite (W "names"%string) by (cbn; auto); reflexivity. }
  rewrite Nn. replace (j_contains (coeffs_spec cs (Some k) more) "coeffs") with true by reflexivity. replace (j_at (coeffs_spec cs (Some k) more) "coeffs") with (Val (JArr (map component_json cs))) by reflexivity. cbn [bind j_values]. unfold obind at 1.
  assert (X : forall f, (forall c, In c cs -> exists y, f (component_json c) = Val y) -> exists ys : list vcoeffs, map_res f (map component_json cs) = Val ys /\ length ys = length cs).
  { intros f. clear. induction cs as [|c cs IH]; intro H; [exists []; auto|]. destruct (H c (or_introl eq_refl)) as [y Ey]. destruct IH as (ys & E & L); [intros; apply H; now right|]. exists (y :: ys). cbn. rewrite Ey. cbn. rewrite E. cbn. auto. }
  destruct (X vone) as (ys & E & L). { intros c I. destruct (vone_plain c (P c I)) as (y & Ey & _). eauto. } destruct (X vplain) as (ys' & E' & L'). { intros c I. destruct (vone_plain c (P c I)) as (y & _ & Ey). eauto. }
  rewrite E, E'. unfold obind at 1. cbn [bind vsized]. rewrite L, L'. apply Nat.eqb_neq in NE. rewrite NE. split; reflexivity.
Qed.

(** ** Moments *)
(** A dipole or a quadrupole is given reduced, in SI units or in Debye (times Angstrom), with the
    number of segments that carry it *)
Inductive given := Nothing | Reduced (v n : R) | SI (v : R) (n : option R) | Debye (v : R) (n : option R).
Definition number_json (k : string) (n : option R) : list (string * json) := match n with Some n => [(k, JNum n)] | None => [] end.
Definition given_json (star num si debye : string) (g : given) : list (string * json) :=
  match g with
  | Nothing => []
  | Reduced v n => [(star, JNum v); (num, JNum n)]
  | SI v n => (si, JNum v) :: number_json num n
  | Debye v n => (debye, JNum v) :: number_json num n
  end.
Definition dipole_json := given_json "(mu^*)^2" "nmu" "mu_Cm" "mu_D".
Definition quadrupole_json := given_json "(Q^*)^2" "nQ" "Q_Cm2" "Q_DA".
(** the reduced moment, squared: mu^2 / (4 pi eps_0 m eps sigma^3), likewise with sigma^5 *)
Definition reduced2 (g : given) (m eps_kB sigma unit : R) (pw : nat) : R :=
  let red q := q ^ 2 / (4 * PI * (8.8541878128 / 10 ^ 12) * (1.380649 / 10 ^ 23)) / (m * eps_kB * sigma ^ pw) in
  match g with Nothing => 0 | Reduced v _ => v | SI v _ => red v | Debye v _ => red (v * (3.33564 / 10 ^ 30) * unit) end.
Definition segments (g : given) : R := match g with Nothing => 0 | Reduced _ n => n | SI _ n | Debye _ n => match n with Some n => n | None => 0 end end.
Record polar_component := { pc_plain : component; pc_mu : given; pc_Q : given }.
Definition full (c : polar_component) : component :=
  {| p_name := p_name (pc_plain c); p_m := p_m (pc_plain c); p_sigma_A := p_sigma_A (pc_plain c); p_metres := p_metres (pc_plain c); p_eps := p_eps (pc_plain c); p_lr := p_lr (pc_plain c); p_la := p_la (pc_plain c);
     p_bib := p_bib (pc_plain c); p_more := dipole_json (pc_mu c) ++ quadrupole_json (pc_Q c) |}.
Definition sensible (c : polar_component) : Prop :=
  0 < p_m (pc_plain c) /\ 0 < p_sigma_A (pc_plain c) /\ 0 < p_eps (pc_plain c) /\ (forall v n, pc_mu c = Reduced v n -> 0 <= v) /\ (forall v n, pc_Q c = Reduced v n -> 0 <= v).
Definition mu2 (c : polar_component) : R := reduced2 (pc_mu c) (p_m (pc_plain c)) (p_eps (pc_plain c)) (p_sigma_A (pc_plain c) / 10 ^ 10) 1 3.
Definition Q2 (c : polar_component) : R := reduced2 (pc_Q c) (p_m (pc_plain c)) (p_eps (pc_plain c)) (p_sigma_A (pc_plain c) / 10 ^ 10) (/ 10 ^ 10) 5.
Definition has_moment (c : polar_component) : bool := match pc_mu c, pc_Q c with Nothing, Nothing => false | _, _ => true end.

Lemma full_dip : forall c k, In k ["(mu^*)^2"; "nmu"; "mu_Cm"; "mu_D"]%string -> lookup k (p_more (full c)) = lookup k (dipole_json (pc_mu c)).
Proof.
  intros c k I. cbn [full p_more]. unfold dipole_json, quadrupole_json, given_json, number_json. cbn [In] in I.
  destruct (pc_mu c) as [|v n|v [n|]|v [n|]]; destruct (pc_Q c) as [|v' n'|v' [n'|]|v' [n'|]]; decompose [or] I; subst; try contradiction; reflexivity.
Qed.
Lemma full_quad : forall c k, In k ["(Q^*)^2"; "nQ"; "Q_Cm2"; "Q_DA"]%string -> lookup k (p_more (full c)) = lookup k (quadrupole_json (pc_Q c)).
Proof.
  intros c k I. cbn [full p_more]. unfold dipole_json, quadrupole_json, given_json, number_json. cbn [In] in I.
  destruct (pc_mu c) as [|v n|v [n|]|v [n|]]; destruct (pc_Q c) as [|v' n'|v' [n'|]|v' [n'|]]; decompose [or] I; subst; try contradiction; reflexivity.
Qed.
Lemma full_sigma : forall c, lookup "sigma_m" (p_more (full c)) = None.
Proof.
  intros c. cbn [full p_more]. unfold dipole_json, quadrupole_json, given_json, number_json.
  destruct (pc_mu c) as [|v n|v [n|]|v [n|]]; destruct (pc_Q c) as [|v' n'|v' [n'|]|v' [n'|]]; reflexivity.
Qed.
Lemma at_comp : forall c k, j_at (component_json c) k = match lookup k (keys_only c) with Some v => Val v | None => Err JsonError end. Proof. reflexivity. Qed.
Lemma number_comp : forall c k, vnumber (component_json c) k = bind (match lookup k (keys_only c) with Some v => Val v | None => Err JsonError end) j_double. Proof. reflexivity. Qed.
Lemma star_pos : 0 < star_factor.
Proof. unfold star_factor. apply Rinv_0_lt_compat. pose proof PI_RGT_0. apply Rmult_lt_0_compat; [apply Rmult_lt_0_compat; [lra|]|]; apply Rmult_lt_0_compat; try lra; apply Rinv_0_lt_compat, pow_lt; lra. Qed.
Lemma star_is : star_factor = / (4 * PI * (8.8541878128 / 10 ^ 12) * (1.380649 / 10 ^ 23)).
Proof. reflexivity. Qed.
(** one moment, read and reduced again *)
Lemma one_moment : forall j star num si debye g m eps sigma unit pw, (forall k, In k [star; num; si; debye] -> j_contains j k = match lookup k (given_json star num si debye g) with Some _ => true | None => false end /\
    vnumber j k = bind (match lookup k (given_json star num si debye g) with Some v => Val v | None => Err JsonError end) j_double) ->
  NoDup [star; num; si; debye] -> 0 < m -> 0 < eps -> 0 < sigma -> 0 < unit -> (forall v n, g = Reduced v n -> 0 <= v) ->
  exists q, moment j star num si debye m eps sigma (/ unit) pw = ok q /\ cdiv (star_factor * q ^ 2) (m * eps * sigma ^ pw) = Some (reduced2 g m eps sigma unit pw).
Proof.
  intros j star num si debye g m eps sigma unit pw H ND Hm He Hs Hu Hg. pose proof star_pos as SP. assert (P : 0 < m * eps * sigma ^ pw) by (repeat apply Rmult_lt_0_compat; try assumption; now apply pow_lt).
  destruct (H star) as [C1 V1]; [cbn; auto|]. destruct (H num) as [C2 V2]; [cbn; auto|]. destruct (H si) as [C3 V3]; [cbn; auto|]. destruct (H debye) as [C4 V4]; [cbn; auto|]. clear H.
  inversion ND as [|? ? N1 ND1]; subst. inversion ND1 as [|? ? N2 ND2]; subst. inversion ND2 as [|? ? N3 ND3]; subst. cbn in N1, N2, N3.
  assert (E12 : String.eqb star num = false) by (apply String.eqb_neq; intuition congruence). assert (E13 : String.eqb star si = false) by (apply String.eqb_neq; intuition congruence). assert (E14 : String.eqb star debye = false) by (apply String.eqb_neq; intuition congruence).
  assert (E23 : String.eqb num si = false) by (apply String.eqb_neq; intuition congruence). assert (E24 : String.eqb num debye = false) by (apply String.eqb_neq; intuition congruence). assert (E34 : String.eqb si debye = false) by (apply String.eqb_neq; intuition congruence).
  unfold moment. rewrite C1, C2, C3, C4, V1, V3, V4.
  assert (Red : forall q, star_factor * q ^ 2 / (m * eps * sigma ^ pw) = q ^ 2 / (4 * PI * (8.8541878128 / 10 ^ 12) * (1.380649 / 10 ^ 23)) / (m * eps * sigma ^ pw)) by (intro q; rewrite star_is; unfold Rdiv; ring).
  destruct g as [|v n|v n|v n]; cbn [given_json lookup andb].
  - exists 0. split; [reflexivity|]. rewrite cdiv_nz by lra. cbn [reduced2]. f_equal. unfold Rdiv. ring.
  - rewrite !String.eqb_refl, (String.eqb_sym num star), E12. cbn [andb bind j_double obind]. rewrite cdiv_nz by lra. cbn [opt_bind]. specialize (Hg v n eq_refl). rewrite csqrt_val by (apply Rmult_le_pos; [apply Rmult_le_pos; lra|apply Rlt_le; now apply Rinv_0_lt_compat]).
    eexists. split; [reflexivity|]. rewrite cdiv_nz by lra. cbn [reduced2]. f_equal. rewrite pow2_sqrt by (apply Rmult_le_pos; [apply Rmult_le_pos; lra|apply Rlt_le; now apply Rinv_0_lt_compat]).
    unfold Rdiv. field. repeat split; try lra. apply pow_nonzero. lra.
  - rewrite E13. replace (lookup star (number_json num n)) with (@None json) by (destruct n; cbn; rewrite ?E12; reflexivity). cbn [andb]. rewrite !String.eqb_refl. cbn [bind j_double]. exists v. split; [reflexivity|]. rewrite cdiv_nz by lra. cbn [reduced2]. f_equal. apply Red.
  - rewrite E14. replace (lookup star (number_json num n)) with (@None json) by (destruct n; cbn; rewrite ?E12; reflexivity). cbn [andb].
    rewrite E34. replace (lookup si (number_json num n)) with (@None json) by (destruct n; cbn; rewrite ?(String.eqb_sym si num), ?E23; reflexivity). rewrite !String.eqb_refl. cbn [bind j_double]. eexists. split; [reflexivity|]. rewrite cdiv_nz by lra. cbn [reduced2]. f_equal. rewrite Red. unfold D_to_Cm.
    replace (v * (3.33564 * / 10 ^ 30) / / unit) with (v * (3.33564 / 10 ^ 30) * unit); [reflexivity|]. unfold Rdiv. rewrite Rinv_inv. reflexivity.
Qed.
Lemma full_keys : forall c k, In k moment_keys -> lookup k (keys_only (full c)) = lookup k (p_more (full c)).
Proof. intros c k I. apply comp_lookup. cbn in I. decompose [or] I; subst; try contradiction; cbn; intuition discriminate. Qed.
Lemma full_moments : forall c, sensible c -> exists q, moments_of (component_json (full c)) = ok q /\ q_m q = p_m (pc_plain c) /\ q_sigma q = p_sigma_A (pc_plain c) / 10 ^ 10 /\ q_eps q = p_eps (pc_plain c) /\
  q_nmu q = segments (pc_mu c) /\ q_nQ q = segments (pc_Q c) /\ star2 true q_mu 3 q = Some (mu2 c) /\ star2 true q_Q 5 q = Some (Q2 c).
Proof.
  intros c (Pm & Ps & Pe & R1 & R2). assert (Ps' : 0 < p_sigma_A (pc_plain c) / 10 ^ 10) by lra.
  assert (Dk : forall k, In k ["(mu^*)^2"; "nmu"; "mu_Cm"; "mu_D"]%string -> lookup k (keys_only (full c)) = lookup k (dipole_json (pc_mu c))).
  { intros k I. rewrite full_keys by (cbn in *; tauto). now apply full_dip. }
  assert (Qk : forall k, In k ["(Q^*)^2"; "nQ"; "Q_Cm2"; "Q_DA"]%string -> lookup k (keys_only (full c)) = lookup k (quadrupole_json (pc_Q c))).
  { intros k I. rewrite full_keys by (cbn in *; tauto). now apply full_quad. }
  destruct (one_moment (component_json (full c)) "(mu^*)^2" "nmu" "mu_Cm" "mu_D" (pc_mu c) (p_m (pc_plain c)) (p_eps (pc_plain c)) (p_sigma_A (pc_plain c) / 10 ^ 10) 1 3) as (qm & Em & Sm); try assumption; try lra.
  { intros k I. rewrite contains_comp, number_comp, Dk by exact I. split; reflexivity. }
  { repeat constructor; cbn; intuition discriminate. }
  destruct (one_moment (component_json (full c)) "(Q^*)^2" "nQ" "Q_Cm2" "Q_DA" (pc_Q c) (p_m (pc_plain c)) (p_eps (pc_plain c)) (p_sigma_A (pc_plain c) / 10 ^ 10) (/ 10 ^ 10) 5) as (qq & Eq & Sq); try assumption; try lra.
  { intros k I. rewrite contains_comp, number_comp, Qk by exact I. split; reflexivity. }
  { repeat constructor; cbn; intuition discriminate. }
  rewrite Rinv_1 in Em. rewrite Rinv_inv in Eq.
  assert (Nm : optional_number (component_json (full c)) "nmu" = Val (segments (pc_mu c))).
  { unfold optional_number. rewrite contains_comp, number_comp, Dk by (cbn; auto). destruct (pc_mu c) as [|v n|v [n|]|v [n|]]; reflexivity. }
  assert (Nq : optional_number (component_json (full c)) "nQ" = Val (segments (pc_Q c))).
  { unfold optional_number. rewrite contains_comp, number_comp, Qk by (cbn; auto). destruct (pc_Q c) as [|v n|v [n|]|v [n|]]; reflexivity. }
  assert (Vs : vsigma_of (component_json (full c)) = Val (p_sigma_A (pc_plain c) / 10 ^ 10)).
  { unfold vsigma_of. unfold component_json, j_contains, vnumber, j_at. cbn [full p_name p_m p_sigma_A p_metres p_eps p_lr p_la p_bib]. destruct (p_metres (pc_plain c)); cbn [app lookup String.eqb Ascii.eqb Bool.eqb]; [reflexivity|]. rewrite full_sigma. reflexivity. }
  assert (Vm : vnumber (component_json (full c)) "m" = Val (p_m (pc_plain c))) by reflexivity.
  assert (Ve : vnumber (component_json (full c)) "epsilon_over_k" = Val (p_eps (pc_plain c))) by (unfold vnumber, component_json, j_at; cbn [full p_metres]; destruct (p_metres (pc_plain c)); reflexivity).
  unfold moments_of. rewrite Vm, Vs, Ve, Nm, Nq. unfold obind at 1 2 3. rewrite Em, Eq. eexists. split; [reflexivity|]. cbn [q_m q_sigma q_eps q_nmu q_nQ q_mu q_Q]. repeat (split; [reflexivity|]). split; [exact Sm|exact Sq].
Qed.
Lemma full_vone : forall c, exists y, vone (component_json (full c)) = Val y /\ basic (full c) y.
Proof.
  intro c. destruct (vplain_val (full c) (full_sigma c)) as (y & E & B). unfold vone. rewrite E. cbn [bind].
  assert (Lm : exists a, vlegacy (component_json (full c)) "(mu^*)^2" "nmu" = Val a).
  { unfold vlegacy. rewrite !contains_comp, !number_comp, !full_keys, !full_dip by (cbn; auto). destruct (pc_mu c) as [|v n|v [n|]|v [n|]]; cbn; eauto. }
  assert (Lq : exists a, vlegacy (component_json (full c)) "(Q^*)^2" "nQ" = Val a).
  { unfold vlegacy. rewrite !contains_comp, !number_comp, !full_keys, !full_quad by (cbn; auto 10). destruct (pc_Q c) as [|v n|v [n|]|v [n|]]; cbn; eauto. }
  destruct Lm as (a & ->). destruct Lq as (b & ->). cbn [bind]. eexists. split; [reflexivity|]. unfold basic. cbn [vc_name vc_m vc_sigma vc_eps vc_lr vc_la]. tauto.
Qed.
Lemma full_polar : forall c, vis_polar (component_json (full c)) = has_moment c.
Proof.
  intro c. unfold vis_polar. rewrite !contains_comp, !full_keys by (cbn; tauto). rewrite (full_dip c "(mu^*)^2"), (full_dip c "nmu"), (full_dip c "mu_Cm"), (full_dip c "mu_D") by (cbn; tauto). rewrite (full_quad c "(Q^*)^2"), (full_quad c "nQ"), (full_quad c "Q_Cm2"), (full_quad c "Q_DA") by (cbn; tauto).
  unfold has_moment. destruct (pc_mu c) as [|v n|v [n|]|v [n|]]; destruct (pc_Q c) as [|v' n'|v' [n'|]|v' [n'|]]; reflexivity.
Qed.
Definition flag_json (f : option epsflag) : list (string * json) :=
  match f with None => [] | Some f => [("SAFTVRMie_flags"%string, JObj [("epsilon_ij"%string, JStr (match f with FlLB => "Lorentz-Berthelot" | FlLafitte => "Lafitte" | FlInvalid => "Invalid" end)%string)])] end.
(** Components of which some have moments, without the name of a polar model: the contribution of
    Gross and Vrabec, of reduced moments that do not depend on how the moments are given, is added
    to the energy of the chains; now the flag for the energies is obeyed *)
Theorem C82_moments : forall cs k f, good_matrix (length cs) k -> f <> Some FlInvalid -> (forall c, In c cs -> sensible c) -> existsb has_moment cs = true ->
  let v := terms_for (map full cs) k (match f with Some f => f | None => FlLafitte end) in
  exists m, vrmie_factory gray (coeffs_spec (map full cs) k (flag_json f)) = ok m /\ x_terms m = v /\
  x_polar m = Some (PolGrossVrabec (v_m v) (v_sigma v) (v_eps v) (map mu2 cs) (map (fun c => segments (pc_mu c)) cs) (map Q2 cs) (map (fun c => segments (pc_Q c)) cs)) /\
  forall T rho x o, core_calcs v T rho x = ok o -> vmixture_alphar eval_polar m T rho x =
    obind (fin (PCSAFT_model.multipolar (v_m v) (v_sigma v) (v_eps v) T (rho * N_A * / 10 ^ 30) (o_eta o) x (map mu2 cs) (map (fun c => segments (pc_mu c)) cs) (map Q2 cs) (map (fun c => segments (pc_Q c)) cs))) (fun a =>
    ok (o_mono o + o_chain o + a)).
Proof.
  intros cs k f G Fi Sn HP v. unfold vrmie_factory. assert (Lc : length (map full cs) = length cs) by apply map_length. rewrite (kmat_read (map full cs) k (flag_json f) (length cs)) by (try exact G; intros z I; destruct f; cbn in *; destruct I as [<-|[]]; reflexivity). unfold obind at 1.
  assert (Nn : j_contains (coeffs_spec (map full cs) k (flag_json f)) "names" = false) by (unfold coeffs_spec, j_contains; destruct k as [k|]; destruct f as [f|]; reflexivity).
  rewrite Nn. replace (j_contains (coeffs_spec (map full cs) k (flag_json f)) "coeffs") with true by reflexivity. replace (j_at (coeffs_spec (map full cs) k (flag_json f)) "coeffs") with (Val (JArr (map component_json (map full cs)))) by reflexivity. cbn [bind j_values]. unfold obind at 1.
  assert (X : exists ys, map_res vone (map component_json (map full cs)) = Val ys /\ Forall2 basic (map full cs) ys).
  { clear. induction cs as [|c cs IH]; [exists []; split; [reflexivity|constructor]|]. destruct IH as (ys & E & F). destruct (full_vone c) as (y & Ey & By). exists (y :: ys). cbn [map map_res]. rewrite Ey. cbn [bind]. rewrite E. split; [reflexivity|now constructor]. }
  destruct X as (ys & E & F). rewrite E. unfold obind at 1. assert (Ly : length ys = length cs) by (rewrite <- Lc; clear - F; induction F; cbn; congruence).
  assert (V : vsized k (length ys) = true). { rewrite Ly. unfold vsized. destruct k as [k|]; [|reflexivity]. apply Nat.eqb_eq. apply G. }
  rewrite V. cbn [negb]. replace (existsb vis_polar (map component_json (map full cs))) with true.
  2:{ symmetry. apply existsb_exists in HP. destruct HP as (c & I & Hc). apply existsb_exists. exists (component_json (full c)). split; [|now rewrite full_polar]. rewrite map_map. now apply (in_map (fun c => component_json (full c))). }
  cbn [negb]. replace (j_contains (coeffs_spec (map full cs) k (flag_json f)) "polar_model") with false by (unfold coeffs_spec, j_contains; destruct k as [k|]; destruct f as [f|]; reflexivity).
  unfold ok at 1. unfold obind at 1.
  assert (Qs : exists qs, oall (map moments_of (map component_json (map full cs))) = ok qs /\
    Forall2 (fun c q => q_m q = p_m (pc_plain c) /\ q_sigma q = p_sigma_A (pc_plain c) / 10 ^ 10 /\ q_eps q = p_eps (pc_plain c) /\ q_nmu q = segments (pc_mu c) /\ q_nQ q = segments (pc_Q c) /\ star2 true q_mu 3 q = Some (mu2 c) /\ star2 true q_Q 5 q = Some (Q2 c)) cs qs).
  { clear - Sn gray eval_polar. induction cs as [|c cs IH]; [exists []; split; [reflexivity|constructor]|]. destruct IH as (qs & Eq & Fq); [intros; apply Sn; now right|]. destruct (full_moments c (Sn c (or_introl eq_refl))) as (q & E1 & E2). exists (q :: qs). cbn [map oall]. rewrite E1. unfold obind at 1, ok at 1. rewrite Eq. split; [reflexivity|]. constructor; assumption. }
  destruct Qs as (qs & Eqs & Fq). rewrite Eqs. unfold obind at 1, ok at 1.
  assert (Fl : flag_of (match j_at (coeffs_spec (map full cs) k (flag_json f)) "SAFTVRMie_flags" with Val j => Some j | Err _ => None end) = Val (match f with Some f => f | None => FlLafitte end)).
  { unfold coeffs_spec, j_at. destruct k as [k|]; (destruct f as [[| |]|]; [congruence|reflexivity|reflexivity|reflexivity]). }
  destruct (chain_for (map full cs) ys k (length cs) _ _ F Lc G Fl) as [B Nm]. rewrite B. fold v. unfold obind at 1.
  assert (M : osequence (map (star2 true q_mu 3) qs) = Some (map mu2 cs) /\ osequence (map (star2 true q_Q 5) qs) = Some (map Q2 cs) /\ map q_m qs = v_m v /\ map (fun q => q_sigma q * 10 ^ 10) qs = v_sigma v /\ map q_eps qs = v_eps v /\
    map q_nmu qs = map (fun c => segments (pc_mu c)) cs /\ map q_nQ qs = map (fun c => segments (pc_Q c)) cs).
  { unfold v, terms_for. cbn [v_m v_sigma v_eps]. clear - Fq. induction Fq as [|c q cs qs (A1 & A2 & A3 & A4 & A5 & A6 & A7) F (B1 & B2 & B3 & B4 & B5 & B6 & B7)]; [repeat split|]. cbn [map osequence]. rewrite A6, A7. cbn [opt_bind]. rewrite B1, B2, B3, B4, B5, B6, B7, A1, A2, A3, A4, A5. cbn [full p_m p_sigma_A p_eps].
    repeat split. f_equal. field. }
  destruct M as (M1 & M2 & M3 & M4 & M5 & M6 & M7). unfold polar_of. replace (String.eqb "GrossVrabec" "GrossVrabec") with true by reflexivity. unfold vseq. rewrite M1, M2, M3, M4, M5, M6, M7. cbn [fin obind].
  eexists. split; [reflexivity|]. cbn [mixture_of_terms x_terms x_polar]. split; [reflexivity|]. split; [reflexivity|].
  intros T rho x o Ho. unfold vmixture_alphar. cbn [x_terms x_polar mixture_of_terms]. rewrite Ho. reflexivity.
Qed.
End Any.

(** ** What does not hold *)
(** "The combining rule asked for in the flags is used": not without moments *)
Theorem C82_flags_refuted : forall gray cs k, good_matrix (length cs) k -> (forall c, In c cs -> without ("sigma_m"%string :: polar_keys) (p_more c)) ->
  exists m, vrmie_factory gray (coeffs_spec cs k (flag_json (Some FlLB))) = ok m /\ v_flag (x_terms m) = FlLafitte.
Proof.
  intros gray cs k G P. destruct (C82_coefficients gray (fun _ _ _ _ _ => None) cs k (flag_json (Some FlLB)) G) as (m & E & _ & _ & T & _); [|exact P|].
  - intros z [<-|[<-|[]]]; reflexivity.
  - exists m. split; [exact E|]. now rewrite T.
Qed.
(** and the two rules differ: equal energies, segments of 1 and 4 Angstrom *)
Example C82_rules_differ : forall m l, let t f := {| v_m := m; v_eps := [1; 1]; v_sigma := [1; 4]; v_lr := l; v_la := l; v_k := [[0; 0]; [0; 0]]; v_flag := f |} in
  eps_ij (t FlLB) 0 1 = Some 1 /\ eps_ij (t FlLafitte) 0 1 = Some (64 / 125).
Proof.
  intros m l t. split.
  - unfold eps_ij, eps_upper, kentry, t. cbn [Nat.leb v_k nth_error opt_bind v_flag v_eps nth]. rewrite csqrt_val by lra. cbn [opt_bind]. rewrite Rmult_1_r, sqrt_1. f_equal. ring.
  - unfold eps_ij, eps_upper, kentry, t. cbn [Nat.leb v_k nth_error opt_bind v_flag v_eps nth]. unfold sigma_ij. cbn [v_sigma nth].
    replace (((1 + 1) / 2) ^ 3 * ((4 + 4) / 2) ^ 3 * 1 * 1) with (8 * 8) by field. rewrite csqrt_val by lra. cbn [opt_bind]. rewrite sqrt_square by lra. rewrite cdiv_nz by (apply pow_nonzero; lra). f_equal. field.
Qed.
(** "A dipole moment contributes": not one in SI units or Debye, unless the number of segments that
    carry it is given too, although nothing says so *)
Theorem C82_dipole_without_number_refuted : forall gray eval_polar cs k f, good_matrix (length cs) k -> f <> Some FlInvalid -> (forall c, In c cs -> sensible c) -> existsb has_moment cs = true ->
  (forall c, In c cs -> pc_Q c = Nothing /\ exists v, pc_mu c = SI v None \/ pc_mu c = Debye v None) ->
  exists m, vrmie_factory gray (coeffs_spec (map full cs) k (flag_json f)) = ok m /\ x_polar m <> None /\ forall T rho x a, vrmie_alphar (x_terms m) T rho x = ok a -> vmixture_alphar eval_polar m T rho x = ok a.
Proof.
  intros gray eval_polar cs k f G Fi Sn HP Nn. destruct (C82_moments gray eval_polar cs k f G Fi Sn HP) as (m & E & Et & Ep & Ha). exists m. split; [exact E|]. split; [rewrite Ep; discriminate|].
  intros T rho x a H. rewrite Et in H. unfold vrmie_alphar in H. destruct (core_calcs _ T rho x) as [[o|]|] eqn:Eo; try discriminate H. rewrite (Ha T rho x o Eo). unfold PCSAFT_model.multipolar.
  assert (Z : (forall i, nth i (map (fun c => segments (pc_mu c)) cs) 0 = 0) /\ (forall i, nth i (map (fun c => segments (pc_Q c)) cs) 0 = 0)).
  { clear - Nn. induction cs as [|c cs IH]; [split; intros [|i]; reflexivity|]. destruct IH as [A B]; [intros; apply Nn; now right|]. destruct (Nn c (or_introl eq_refl)) as (Eq & v & Em). split; intros [|i]; cbn [map nth]; auto; [|rewrite Eq; reflexivity]. destruct Em as [-> | ->]; reflexivity. }
  rewrite !no_number by apply Z. cbn [andb opt_bind]. unfold obind in H. unfold fin, obind. rewrite <- H. unfold ok. f_equal. f_equal. ring.
Qed.
(** "The moments among the coefficients contribute": in the class that is built from coefficients
    directly, not if there are both dipoles and quadrupoles *)
Theorem C82_constructor_refuted : forall cs k flags m, mixture_of_coeffs cs k flags = Val m -> (exists c, In c cs /\ vc_mustar2 c * vc_nmu c <> 0) -> (exists c, In c cs /\ vc_Qstar2 c * vc_nQ c <> 0) ->
  x_polar m = None /\ forall eval_polar T rho x, vmixture_alphar eval_polar m T rho x = vrmie_alphar (x_terms m) T rho x.
Proof.
  intros cs k flags m H D Q. unfold mixture_of_coeffs in H. destruct (build_chain cs k flags) as [v|]; [|discriminate]. cbn [bind] in H. injection H as <-. cbn [x_polar x_terms].
  assert (T : forall f : vcoeffs -> R, (exists c, In c cs /\ f c <> 0) -> sumn (length cs) (fun i => Rabs (nth i (map f cs) 0)) <> 0).
  { intros f (c & I & Nz). apply In_nth with (d := c) in I. destruct I as (i & Hi & E). apply Rgt_not_eq. apply Rlt_le_trans with (Rabs (nth i (map f cs) 0)).
    - apply Rabs_pos_lt. rewrite (nth_indep _ 0 (f c)) by (rewrite map_length; lia). rewrite map_nth, E. exact Nz.
    - revert Hi. generalize (length cs). intros n Hi. induction n as [|n IH]; [lia|]. cbn [sumn]. assert (0 <= sumn n (fun i0 => Rabs (nth i0 (map f cs) 0))) by (apply sumn_pos; intros; apply Rabs_pos).
      destruct (Nat.eq_dec i n) as [->|Ne]; [lra|]. pose proof (IH ltac:(lia)). pose proof (Rabs_pos (nth n (map f cs) 0)). lra. }
  assert (B : build_polar cs v = None). { unfold build_polar. cbv zeta. destruct (Req_EM_T _ 0) as [X|_]; [exfalso; revert X; now apply T|]. destruct (Req_EM_T _ 0) as [X|_]; [exfalso; revert X; now apply T|]. reflexivity. }
  rewrite B. split; [reflexivity|]. intros. unfold vmixture_alphar, vrmie_alphar. reflexivity.
Qed.
(** "A matrix of the wrong size is refused": not an empty one, with which every evaluation reads
    outside the matrix *)
Theorem C82_empty_matrix_refuted : forall cs, cs <> [] -> exists m, mixture_of_coeffs cs (Some []) None = Val m /\ forall T rho x, length x = length cs -> vrmie_alphar (x_terms m) T rho x = None.
Proof.
  intros cs Hc. eexists. split; [reflexivity|]. intros T rho x L. cbn [x_terms]. unfold vrmie_alphar, core_calcs. cbn [v_m]. rewrite map_length, L, Nat.eqb_refl. cbn [negb]. unfold diameters. cbn [v_m]. rewrite map_length.
  destruct cs as [|c cs]; [congruence|]. cbn [length seq map oall]. set (v := {| v_m := _; v_eps := _; v_sigma := _; v_lr := _; v_la := _; v_k := _; v_flag := _ |}).
  assert (J : j_cutoff v 0 T = None). { unfold j_cutoff. destruct (C_ij v 0 0); [|reflexivity]. cbn [opt_bind]. replace (eps_ij v 0 0) with (@None R) by reflexivity. reflexivity. }
  assert (D : dii v 0 T = None) by (unfold dii; rewrite J; reflexivity). rewrite D. reflexivity.
Qed.
(** an unknown polar model is refused *)
Theorem C82_unknown_model : forall gray model flags v qs, ~ In model ["GrossVrabec"; "GubbinsTwu+Luckas"; "GubbinsTwu+GubbinsTwu"; "GubbinsTwu+Gottschalk"; "GrayGubbins+GubbinsTwu"; "GrayGubbins+Luckas"; "GubbinsTwu+Luckas+GubbinsTwuRhostar"; "GubbinsTwu+GubbinsTwu+GubbinsTwuRhostar"]%string ->
  polar_of gray model flags v qs = throws InvalidArgument.
Proof.
  intros gray model flags v qs H. unfold polar_of. repeat match goal with |- context [String.eqb model ?s] => destruct (String.eqb_spec model s) as [->|_]; [exfalso; apply H; cbn; tauto|] end. reflexivity.
Qed.

(** and each known one is what its name says: the integrals after the plus sign, the density made
    dimensionless with the packing fraction unless the name ends with the other variable *)
Theorem C82_polar_models : forall gray flags v qs mu Q, oall (map (fun q => fin (star2 false q_mu 3 q)) qs) = ok mu -> oall (map (fun q => fin (star2 false q_Q 5 q)) qs) = ok Q ->
  (forall tables k r, In (tables, k) [("Luckas", Luckas); ("GubbinsTwu", GubbinsTwu); ("Gottschalk", Gottschalk)]%string -> In r [(""%string, false); ("+GubbinsTwuRhostar"%string, true)] -> (k, r) <> (Gottschalk, ("+GubbinsTwuRhostar"%string, true)) ->
     polar_of gray (("GubbinsTwu+" ++ tables) ++ fst r)%string flags v qs = ok (PolGubbinsTwu k (map q_sigma qs) (map q_eps qs) mu Q (snd r))) /\
  (forall tables k, In (tables, k) [("Luckas", Luckas); ("GubbinsTwu", GubbinsTwu)]%string ->
     (forall e, gray flags (map q_sigma qs) = Err e -> polar_of gray ("GrayGubbins+" ++ tables)%string flags v qs = throws e) /\
     (forall u, gray flags (map q_sigma qs) = Val u -> exists S E, polar_of gray ("GrayGubbins+" ++ tables)%string flags v qs = ok (PolGrayGubbins k (map q_sigma qs) (map q_eps qs) S E (map q_mu qs) (map q_Q qs) flags) /\
        forall i j, S i j = Some (sigma_ij v i j / 10 ^ 10) /\ E i j = eps_ij v i j)).
Proof.
  intros gray flags v qs mu Q H1 H2. assert (VS : forall f, vseq (map f qs) = oall (map (fun q => fin (f q)) qs)).
  { intro f. clear. unfold vseq. induction qs as [|q qs IH]; [reflexivity|]. cbn [map osequence oall]. rewrite <- IH. destruct (f q) as [a|]; [|reflexivity]. cbn [opt_bind]. destruct (osequence (map f qs)); reflexivity. }
  split.
  - intros tables k r [X|[X|[X|[]]]] [Y|[Y|[]]] N; injection X as <- <-; subst r; try congruence; unfold polar_of; cbn [append fst snd String.eqb Ascii.eqb Bool.eqb]; rewrite !VS, H1, H2; reflexivity.
  - intros tables k [X|[X|[]]]; injection X as <- <-; split; intros u G; try (unfold polar_of; cbn [append String.eqb Ascii.eqb Bool.eqb]; rewrite G; reflexivity);
    (do 2 eexists; split; [unfold polar_of; cbn [append String.eqb Ascii.eqb Bool.eqb]; rewrite G; reflexivity|intros; split; reflexivity]).
Qed.
Lemma check_good : forall k n, good_matrix n k -> VRMie_model.check_kmat k n = Val (match k with Some k => k | None => repeat (repeat 0 n) n end).
Proof.
  intros k n G. unfold VRMie_model.check_kmat. destruct k as [k|]; [|reflexivity]. destruct G as (G1 & G2 & G3). destruct k as [|r k']; [cbn in G1; lia|]. rewrite G1, Nat.eqb_refl.
  assert (forallb (fun r0 => Nat.eqb (length r0) n) (r :: k') = true) as -> by (apply forallb_forall; intros z I; apply Nat.eqb_eq; auto). reflexivity.
Qed.
(** The rule for the energies of unlike segments given to the class itself *)
Theorem C82_rule : forall cs k, good_matrix (length cs) k ->
  (forall flags, match flags with None => True | Some (JObj o) => lookup "epsilon_ij" o = None | Some _ => False end -> exists m, mixture_of_coeffs cs k flags = Val m /\ v_flag (x_terms m) = FlLafitte) /\
  (forall o v, lookup "epsilon_ij" o = Some v ->
     (v = JStr "Lorentz-Berthelot" -> exists m, mixture_of_coeffs cs k (Some (JObj o)) = Val m /\ v_flag (x_terms m) = FlLB) /\
     (v = JStr "Lafitte" -> exists m, mixture_of_coeffs cs k (Some (JObj o)) = Val m /\ v_flag (x_terms m) = FlLafitte) /\
     (v <> JStr "Lorentz-Berthelot" -> v <> JStr "Lafitte" -> mixture_of_coeffs cs k (Some (JObj o)) = Err StdInvalidArgument)).
Proof.
  intros cs k G. unfold mixture_of_coeffs, build_chain.
  assert (K : exists k', VRMie_model.check_kmat k (length cs) = Val k').
  { rewrite (check_good k (length cs) G). eexists. reflexivity. }
  destruct K as [k' ->]. cbn [bind]. split.
  - intros flags F. assert (E : flag_of flags = Val FlLafitte). { unfold flag_of. destruct flags as [[]|]; try contradiction; [|reflexivity]. unfold j_contains. now rewrite F. } rewrite E. eexists. split; reflexivity.
  - intros o v L. assert (E : flag_of (Some (JObj o)) = match v with JStr s => if String.eqb s "Lorentz-Berthelot" then Val FlLB else if String.eqb s "Lafitte" then Val FlLafitte else Err StdInvalidArgument | _ => Err StdInvalidArgument end).
    { unfold flag_of, j_contains, j_at. now rewrite L. }
    rewrite E. split; [|split].
    + intros ->. eexists. split; reflexivity.
    + intros ->. eexists. split; reflexivity.
    + intros N1 N2. destruct v as [| |r|s|l|o']; try reflexivity. destruct (String.eqb_spec s "Lorentz-Berthelot") as [->|_]; [congruence|]. destruct (String.eqb_spec s "Lafitte") as [->|_]; [congruence|]. reflexivity.
Qed.
(** Names with a matrix *)
Definition names_matrix_spec (ns : list string) (k : list (list R)) : json := JObj [("names"%string, JArr (map JStr ns)); ("kmat"%string, matrix k)].
Theorem C82_names_matrix : forall gray ns k, good_matrix (length k) (Some k) -> (forall n, In n ns -> published_fluid n <> None) ->
  (length k <> length ns -> vrmie_factory gray (names_matrix_spec ns k) = throws InvalidArgument /\ nonpolar_factory (names_matrix_spec ns k) = Err InvalidArgument) /\
  (length k = length ns -> exists m v, vrmie_factory gray (names_matrix_spec ns k) = ok m /\ x_names m = ns /\ v_k (x_terms m) = k /\ nonpolar_factory (names_matrix_spec ns k) = Val v /\ v = x_terms m).
Proof.
  intros gray ns k G P. assert (KM : PCSAFT_model.spec_kmat (names_matrix_spec ns k) = Val (Some k)).
  { unfold PCSAFT_model.spec_kmat, names_matrix_spec, j_contains, j_at. cbn [app lookup String.eqb Ascii.eqb Bool.eqb]. unfold matrix. destruct G as (G1 & G2 & G3). destruct k as [|r k']; [cbn in G2; lia|]. cbn [map bind].
    assert (E : build_square_matrix (JArr (JArr (map JNum r) :: map (fun r => JArr (map JNum r)) k')) = Val (r :: k')) by (apply (Properties_CPA2.kmat_ok (r :: k') (length (r :: k'))); [discriminate|reflexivity|exact G3]). rewrite E. reflexivity. }
  assert (NR : bind (j_at (names_matrix_spec ns k) "names") (j_valarray j_string) = Val ns) by (exact (names_read ns)).
  unfold vrmie_factory, nonpolar_factory. rewrite KM. unfold obind at 1 3. cbn [bind]. replace (j_contains (names_matrix_spec ns k) "names") with true by reflexivity. rewrite NR. unfold obind at 1 2. cbn [bind vsized]. split; intro L.
  - apply Nat.eqb_neq in L. rewrite L. split; reflexivity.
  - destruct (map_res_val _ _ vget_normal ns) as (cs & Ecs & F).
    { intros n I. pose proof (library_val n) as V. specialize (P n I). destruct (published_fluid n) as [[[[[mm s] e] lr] la]|]; [|congruence]. destruct V as (c & V & _). eauto. }
    assert (Lc : length cs = length k) by (rewrite L; clear - F; induction F; cbn; congruence).
    assert (Q : Nat.eqb (length k) (length ns) = true) by now apply Nat.eqb_eq. rewrite Q. cbn [negb].
    assert (CC : build_chain cs (Some k) None = Val {| v_m := map vc_m cs; v_eps := map vc_eps cs; v_sigma := map (fun c => vc_sigma c * 10 ^ 10) cs; v_lr := map vc_lr cs; v_la := map vc_la cs; v_k := k; v_flag := FlLafitte |}).
    { unfold build_chain. rewrite Lc, (check_good (Some k) (length k) G). reflexivity. }
    assert (MN : mixture_of_names ns (Some k) None = mixture_of_coeffs cs (Some k) None) by (unfold mixture_of_names, vget_coeffs; rewrite Ecs; reflexivity).
    assert (VN : vget_coeffs ns = Val cs) by exact Ecs. cbn [obind bind]. rewrite ?Q. cbn [negb]. rewrite MN, VN. cbn [bind]. unfold mixture_of_coeffs. rewrite CC. cbn [bind].
    do 2 eexists. split; [reflexivity|]. cbn [x_names x_terms v_k]. split; [|split; [reflexivity|split; reflexivity]].
    clear - F P. induction F as [|n c ns' cs' E F IH]; [reflexivity|]. cbn. rewrite IH by (intros z I; apply P; now right). f_equal. pose proof (library_val n) as V. destruct (published_fluid n) as [[[[[mm s] e] lr] la]|]; [|congruence]. destruct V as (c' & V & Nm & _). congruence.
Qed.

(** ** Cases that meet the hypotheses *)
Example C82_names_met : forall gray, exists m, vrmie_factory gray (names_spec ["Propane"; "Methane"]%string) = ok m /\ v_m (x_terms m) = [1.6845; 1] /\ vrmie_factory gray (names_spec ["Methane"; "Water"]%string) = throws StdInvalidArgument.
Proof.
  intro gray. destruct (C82_names gray (fun _ _ _ _ _ => None) ["Propane"; "Methane"]%string) as [A _]. destruct A as (m & E & _ & _ & _ & L & H & _). { intros n [<-|[<-|[]]]; discriminate. }
  exists m. split; [exact E|]. split.
  - destruct (H O ltac:(cbn; lia)) as (m0 & s0 & e0 & r0 & a0 & P0 & M0 & _). destruct (H 1%nat ltac:(cbn; lia)) as (m1 & s1 & e1 & r1 & a1 & P1 & M1 & _).
    cbn in P0, P1. destruct (v_m (x_terms m)) as [|a [|b [|]]]; cbn in L; try lia. cbn in M0, M1. congruence.
  - apply (C82_names gray (fun _ _ _ _ _ => None)). exists "Water"%string. split; [cbn; auto|reflexivity].
Qed.
Definition a_polar (g : given) : polar_component :=
  {| pc_plain := {| p_name := "A"; p_m := 2; p_sigma_A := 3; p_metres := false; p_eps := 200; p_lr := 12; p_la := 6; p_bib := "B"; p_more := [] |}; pc_mu := g; pc_Q := Nothing |}.
Example C82_moments_met : forall gray, exists m, vrmie_factory gray (coeffs_spec (map full [a_polar (Debye 1.8 (Some 1)); a_polar (Reduced 2 1)]) None (flag_json (Some FlLB))) = ok m /\ v_flag (x_terms m) = FlLB /\ x_polar m <> None.
Proof.
  intro gray. destruct (C82_moments gray (fun _ _ _ _ _ => None) [a_polar (Debye 1.8 (Some 1)); a_polar (Reduced 2 1)] None (Some FlLB)) as (m & E & T & P & _); [exact I|discriminate| |reflexivity|].
  - intros c [<-|[<-|[]]]; (split; [cbn; lra|split; [cbn; lra|split; [cbn; lra|split; intros v n; cbn; [intro X; inversion X; lra|discriminate]]]]).
  - exists m. split; [exact E|]. split; [now rewrite T|]. rewrite P. discriminate.
Qed.
Print Assumptions C82_names.
Print Assumptions C82_coefficients.
Print Assumptions C82_nothing.
Print Assumptions C82_matrix_size.
Print Assumptions C82_moments.
Print Assumptions C82_flags_refuted.
Print Assumptions C82_dipole_without_number_refuted.
Print Assumptions C82_constructor_refuted.
Print Assumptions C82_empty_matrix_refuted.
Print Assumptions C82_unknown_model.
Print Assumptions C82_polar_models.
Print Assumptions C82_rule.
Print Assumptions C82_names_matrix.
