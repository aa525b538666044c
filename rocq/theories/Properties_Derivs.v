(** C17 (derivative dispatch), C18 (iteration matrices), C26 (virial coefficients). *)
From Coq Require Import Reals ZArith String List Bool Lia Lra Ascii.
From Coquelicot Require Import Coquelicot.
From Verif Require Import Json_model Derivs_model Derivs_spec Derivs_proofs Derivs_proofs2.
Import ListNotations.
Open Scope R_scope.

Local Notation N := Z.to_nat.
Local Notation in_range z i := (0 <= i < Z.of_nat (length z))%Z.

(** ** A concrete model used by the examples: alphar = -ln(1 + rho) + rho/T *)
Definition ex_alpha (T rho : R) (z : list R) : R := - ln (1 + rho) + rho / T.
Lemma ex_smooth : forall z, smooth2 (fun u r => ex_alpha (1 / u) r z)
  (fun u r => r) (fun u r => - / (1 + r) + u) (fun u r => 0) (fun u r => 1) (fun u r => / (1 + r) ^ 2).
Proof.
  intro z. unfold ex_alpha. constructor; intros u r Hu Hr; cbv beta.
  - apply (is_derive_ext_loc (fun u => - ln (1 + r) + r * u)).
    + eapply filter_imp; [|apply (locally_pos _ Hu)]. intros t Ht. eqR. field. lra.
    + auto_derive; auto. ring.
  - apply (is_derive_ext (fun r => - ln (1 + r) + r * u)).
    + intro t. eqR. field. lra.
    + auto_derive; [lra|]. field. lra.
  - auto_derive; auto.
  - auto_derive; [lra|]. ring.
  - auto_derive; auto.
  - auto_derive; [lra|]. simpl. field. lra.
Qed.
Example ad_contract_met : AD_exact partialN.
Proof. intros f orders xs _. reflexivity. Qed.
Example ex_defined : forall z i j, (i + j <= 2)%nat ->
  definedN (in_Trecip_rho ex_alpha z) [i; j] [1 / 300; 2].
Proof. intros. apply (smooth2_defined _ _ _ _ _ _ _ (ex_smooth z)); auto; lra. Qed.

(** *** C17 *)

(** For every model, temperature, density and composition: the order (itau, idelta)
    gives the scaled partial derivative exactly when itau, idelta >= 0 and
    itau + idelta <= 3; any other request throws [std::invalid_argument]. *)
Theorem C17_get_Ar : forall ad, AD_exact ad -> forall alphar T rho z itau idelta, T <> 0 ->
  ((0 <= itau)%Z -> (0 <= idelta)%Z -> (itau + idelta <= 3)%Z ->
     definedN (in_Trecip_rho alphar z) [N itau; N idelta] [1 / T; rho] ->
     get_Ar ad alphar itau idelta T rho z = Val (Lambda alphar (N itau) (N idelta) T rho z)) /\
  (~ (0 <= itau /\ 0 <= idelta /\ itau + idelta <= 3)%Z ->
     get_Ar ad alphar itau idelta T rho z = Err StdInvalidArgument).
Proof.
  intros ad Had alphar T rho z itau idelta HT. split.
  - intros. rewrite get_Ar_supported by auto. f_equal. now apply get_Agenxy_ok.
  - intros. now apply get_Ar_unsupported.
Qed.
Print Assumptions C17_get_Ar.
Example C17_get_Ar_case : get_Ar partialN ex_alpha 1 1 300 2 [1] = Val (Lambda ex_alpha 1 1 300 2 [1]).
Proof. apply (C17_get_Ar _ ad_contract_met ex_alpha 300 2 [1] 1 1); try lra; try lia. apply ex_defined. simpl; lia. Qed.

(** The first temperature derivative in the familiar form: Ar10 = -T dalphar/dT. *)
Theorem C17_Ar10_is_minus_T_dT : forall ad, AD_exact ad -> forall alphar T rho z d, 0 < T ->
  is_derive (fun t => alphar t rho z) T d ->
  get_Ar ad alphar 1 0 T rho z = Val (- T * d).
Proof.
  intros ad Had alphar T rho z d HT Hd.
  assert (Hu : is_derive (fun u => alphar (1 / u) rho z) (1 / T) (- T * T * d)).
  { assert (E : 1 / (1 / T) = T) by (field; lra).
    eapply is_derive_eq; [|apply (is_derive_recip (fun t => alphar t rho z) (1 / T) d)].
    - rewrite E. ring.
    - apply Rgt_not_eq. apply recip_pos; auto.
    - rewrite E. exact Hd. }
  destruct (C17_get_Ar ad Had alphar T rho z 1 0 ltac:(lra)) as [H _].
  rewrite H; try lia.
  - unfold Lambda. f_equal.
    change (partialN _ [N 1; N 0] [1 / T; rho]) with (Derive (fun u => alphar (1 / u) rho z) (1 / T)).
    assert (D : Derive (fun u => alphar (1 / u) rho z) (1 / T) = - T * T * d) by (apply is_derive_unique; exact Hu).
    rewrite D. simpl. field. lra.
  - cbn [definedN]. split.
    + change (ex_derive (fun u => alphar (1 / u) rho z) (1 / T)). eexists; exact Hu.
    + exists (mkposreal 1 Rlt_0_1). intros y _. split; [exact I|].
      exists (mkposreal 1 Rlt_0_1). intros; exact I.
Qed.
Print Assumptions C17_Ar10_is_minus_T_dT.

(** The 3x3 matrix of derivatives: every entry with i + j <= 2 is the scaled
    partial derivative; the other three entries are never written. *)
Theorem C17_deriv_mat2 : forall ad, AD_exact ad -> forall alphar T rho z, T <> 0 -> forall i j,
  ((i + j <= 2)%nat -> definedN (in_Trecip_rho alphar z) [i; j] [1 / T; rho] ->
     deriv_mat2 ad alphar T rho z i j = Some (Lambda alphar i j T rho z)) /\
  ((2 < i + j)%nat -> deriv_mat2 ad alphar T rho z i j = None).
Proof. exact deriv_mat2_ok. Qed.
Print Assumptions C17_deriv_mat2.
Example C17_deriv_mat2_case : deriv_mat2 partialN ex_alpha 300 2 [1] 2 0 = Some (Lambda ex_alpha 2 0 300 2 [1]).
Proof. apply (C17_deriv_mat2 _ ad_contract_met ex_alpha 300 2 [1] ltac:(lra) 2%nat 0%nat); [lia|]. apply ex_defined. lia. Qed.

(** "All orders up to n" returns the same numbers as the single-order calls. *)
Theorem C17_get_Ar0n_Arn0 : forall ad, AD_exact ad -> forall alphar T rho z, T <> 0 -> forall n k, (k <= n)%nat ->
  (definedN (in_Trecip_rho alphar z) [0%nat; k] [1 / T; rho] ->
     nth_error (get_Agen0n ad alphar n T rho z) k = Some (Lambda alphar 0 k T rho z)) /\
  (definedN (in_Trecip_rho alphar z) [k; 0%nat] [1 / T; rho] ->
     nth_error (get_Agenn0 ad alphar n T rho z) k = Some (Lambda alphar k 0 T rho z)).
Proof. intros. split; intro; [now apply get_Agen0n_ok | now apply get_Agenn0_ok]. Qed.
Print Assumptions C17_get_Ar0n_Arn0.
Example C17_get_Ar0n_case : nth_error (get_Agen0n partialN ex_alpha 3 300 2 [1]) 2 = Some (Lambda ex_alpha 0 2 300 2 [1]).
Proof. apply (C17_get_Ar0n_Arn0 _ ad_contract_met ex_alpha 300 2 [1] ltac:(lra) 3 2); [lia|]. apply ex_defined. lia. Qed.

Theorem C17_neff : forall ad, AD_exact ad -> forall alphar T rho z, T <> 0 ->
  definedN (in_Trecip_rho alphar z) [0; 1]%nat [1 / T; rho] ->
  definedN (in_Trecip_rho alphar z) [1; 1]%nat [1 / T; rho] ->
  definedN (in_Trecip_rho alphar z) [2; 0]%nat [1 / T; rho] ->
  get_neff ad alphar T rho z =
  -3 * (Lambda alphar 0 1 T rho z - Lambda alphar 1 1 T rho z) / Lambda alphar 2 0 T rho z.
Proof. intros. unfold get_neff. now rewrite !get_Agenxy_ok. Qed.
Print Assumptions C17_neff.

(** Derivatives in temperature, density and one, two or three mole fractions. *)
Theorem C17_ATrhoXi : forall ad, AD_exact ad -> forall alphar T rho z iT iD i iXi,
  (supported1 iT iD iXi -> in_range z i ->
     definedN (in_Trecip_rho_X alphar z [N i]) [N iT; N iD; N iXi] [1 / T; rho; nth (N i) z 0] ->
     get_ATrhoXi_runtime ad alphar T iT rho iD z i iXi =
     Some (Val (LambdaX alphar (N iT) (N iD) [N iXi] [N i] T rho z))) /\
  (~ supported1 iT iD iXi ->
     get_ATrhoXi_runtime ad alphar T iT rho iD z i iXi = Some (Err InvalidArgument)).
Proof. intros. split; intros; [now apply ATrhoXi_runtime_ok | now apply ATrhoXi_runtime_bad]. Qed.
Print Assumptions C17_ATrhoXi.

Theorem C17_ATrhoXiXj : forall ad, AD_exact ad -> forall alphar T rho z iT iD i iXi j iXj,
  (supported2 iT iD iXi iXj -> in_range z i -> in_range z j -> i <> j ->
     definedN (in_Trecip_rho_X alphar z [N i; N j]) [N iT; N iD; N iXi; N iXj]
       [1 / T; rho; nth (N i) z 0; nth (N j) z 0] ->
     get_ATrhoXiXj_runtime ad alphar T iT rho iD z i iXi j iXj =
     Some (Val (LambdaX alphar (N iT) (N iD) [N iXi; N iXj] [N i; N j] T rho z))) /\
  (~ supported2 iT iD iXi iXj \/ i = j ->
     get_ATrhoXiXj_runtime ad alphar T iT rho iD z i iXi j iXj = Some (Err InvalidArgument)).
Proof. intros. split; intros; [now apply ATrhoXiXj_runtime_ok | now apply ATrhoXiXj_runtime_bad]. Qed.
Print Assumptions C17_ATrhoXiXj.

Theorem C17_ATrhoXiXjXk : forall ad, AD_exact ad -> forall alphar T rho z iT iD i iXi j iXj k iXk,
  (supported3 iT iD iXi iXj iXk -> in_range z i -> in_range z j -> in_range z k ->
     i <> j -> j <> k -> i <> k ->
     definedN (in_Trecip_rho_X alphar z [N i; N j; N k]) [N iT; N iD; N iXi; N iXj; N iXk]
       [1 / T; rho; nth (N i) z 0; nth (N j) z 0; nth (N k) z 0] ->
     get_ATrhoXiXjXk_runtime ad alphar T iT rho iD z i iXi j iXj k iXk =
     Some (Val (LambdaX alphar (N iT) (N iD) [N iXi; N iXj; N iXk] [N i; N j; N k] T rho z))) /\
  (~ supported3 iT iD iXi iXj iXk \/ i = j \/ j = k \/ i = k ->
     get_ATrhoXiXjXk_runtime ad alphar T iT rho iD z i iXi j iXj k iXk = Some (Err InvalidArgument)).
Proof. intros. split; intros; [now apply ATrhoXiXjXk_runtime_ok | now apply ATrhoXiXjXk_runtime_bad]. Qed.
Print Assumptions C17_ATrhoXiXjXk.

(** A case: a model whose alphar is the product of the first three mole fractions
    and rho; the derivative asked for is d^3/(drho dx0 dx1), taken with dx2 of order 0. *)
Definition ex_mix (T rho : R) (z : list R) : R := rho * nth 0 z 0 * nth 1 z 0 * nth 2 z 0.
Example C17_ATrhoXiXj_case :
  get_ATrhoXiXj_runtime partialN ex_mix 300 0 2 1 [/2; /3; /6] 0 1 1 1
  = Some (Val (LambdaX ex_mix 0 1 [1%nat; 1%nat] [0%nat; 1%nat] 300 2 [/2; /3; /6])).
Proof.
  apply (proj1 (C17_ATrhoXiXj _ ad_contract_met ex_mix 300 2 [/2; /3; /6] 0 1 0 1 1 1)); try (simpl; lia).
  - unfold supported2; lia.
  - set (y := nth (N 1) [/2; /3; /6] 0). set (x := nth (N 0) [/2; /3; /6] 0).
    change (N 0) with 0%nat; change (N 1) with 1%nat.
    assert (L1 : forall (P : R -> Prop) t, (forall s, P s) -> locally t P)
      by (intros P t H; exists (mkposreal 1 Rlt_0_1); intros; apply H).
    assert (E : forall u r a b, in_Trecip_rho_X ex_mix [/2; /3; /6] [0%nat; 1%nat] [u; r; a; b] = r * a * b * / 6)
      by (intros; reflexivity).
    assert (D3 : forall u r a b, Derive (fun b => in_Trecip_rho_X ex_mix [/2; /3; /6] [0%nat; 1%nat] [u; r; a; b]) b = r * a * / 6).
    { intros. apply is_derive_unique. simpl. unfold ex_mix. simpl. auto_derive; auto. ring. }
    assert (D2 : forall u r a b, Derive (fun a => Derive (fun b => in_Trecip_rho_X ex_mix [/2; /3; /6] [0%nat; 1%nat] [u; r; a; b]) b) a = r * / 6).
    { intros. rewrite (Derive_ext _ (fun a => r * a * / 6)) by (intro; apply D3).
      apply is_derive_unique. auto_derive; auto. ring. }
    cbn [definedN]. split; [exact I|]. apply L1; intro u.
    split.
    { change (ex_derive (fun r => Derive (fun a => Derive (fun b => in_Trecip_rho_X ex_mix [/2; /3; /6] [0%nat; 1%nat] [u; r; a; b]) y) x) 2).
      apply (ex_derive_ext (fun r => r * / 6)); [intro; symmetry; apply D2|]. auto_derive; auto. }
    apply L1; intro r. split.
    { change (ex_derive (fun a => Derive (fun b => in_Trecip_rho_X ex_mix [/2; /3; /6] [0%nat; 1%nat] [u; r; a; b]) y) x).
      apply (ex_derive_ext (fun a => r * a * / 6)); [intro; symmetry; apply D3|]. auto_derive; auto. }
    apply L1; intro a. split.
    { change (ex_derive (fun b => in_Trecip_rho_X ex_mix [/2; /3; /6] [0%nat; 1%nat] [u; r; a; b]) y).
      simpl. unfold ex_mix. simpl. auto_derive; auto. }
    apply L1. intro. exact I.
Qed.

(** The (tau, delta) variants, for models that have [alphar_taudelta]. *)
Theorem C17_taudelta : forall ad, AD_exact ad -> forall f tau delta z iT iD i iXi j iXj k iXk,
  (supported1 iT iD iXi -> in_range z i ->
     definedN (in_tau_delta_X f z [N i]) [N iT; N iD; N iXi] [tau; delta; nth (N i) z 0] ->
     get_AtaudeltaXi_runtime ad (Some f) tau iT delta iD z i iXi =
     Some (Val (LambdaX_taudelta f (N iT) (N iD) [N iXi] [N i] tau delta z))) /\
  (supported2 iT iD iXi iXj -> in_range z i -> in_range z j -> i <> j ->
     definedN (in_tau_delta_X f z [N i; N j]) [N iT; N iD; N iXi; N iXj]
       [tau; delta; nth (N i) z 0; nth (N j) z 0] ->
     get_AtaudeltaXiXj_runtime ad (Some f) tau iT delta iD z i iXi j iXj =
     Some (Val (LambdaX_taudelta f (N iT) (N iD) [N iXi; N iXj] [N i; N j] tau delta z))) /\
  (supported3 iT iD iXi iXj iXk -> in_range z i -> in_range z j -> in_range z k ->
     i <> j -> j <> k -> i <> k ->
     definedN (in_tau_delta_X f z [N i; N j; N k]) [N iT; N iD; N iXi; N iXj; N iXk]
       [tau; delta; nth (N i) z 0; nth (N j) z 0; nth (N k) z 0] ->
     get_AtaudeltaXiXjXk_runtime ad (Some f) tau iT delta iD z i iXi j iXj k iXk =
     Some (Val (LambdaX_taudelta f (N iT) (N iD) [N iXi; N iXj; N iXk] [N i; N j; N k] tau delta z))) /\
  (iT = 0 -> iD = 0 -> iXi = 0 ->
     get_AtaudeltaXi_runtime ad (Some f) tau iT delta iD z i iXi = Some (Val (f tau delta z)))%Z.
Proof.
  intros. repeat split; intros.
  - now apply AtaudeltaXi_runtime_ok.
  - now apply AtaudeltaXiXj_runtime_ok.
  - now apply AtaudeltaXiXjXk_runtime_ok.
  - subst. reflexivity.
Qed.
Print Assumptions C17_taudelta.

(** Whatever the model, an order that is not served or a repeated component index
    throws; and a model without [alphar_taudelta] always throws. *)
Theorem C17_taudelta_throws : forall ad atd tau delta z iT iD i iXi j iXj k iXk,
  (~ supported1 iT iD iXi -> ~ (iT = 0 /\ iD = 0 /\ iXi = 0)%Z ->
     get_AtaudeltaXi_runtime ad atd tau iT delta iD z i iXi = Some (Err InvalidArgument)) /\
  (~ supported2 iT iD iXi iXj \/ i = j ->
     get_AtaudeltaXiXj_runtime ad atd tau iT delta iD z i iXi j iXj = Some (Err InvalidArgument)) /\
  (~ supported3 iT iD iXi iXj iXk \/ i = j \/ j = k \/ i = k ->
     get_AtaudeltaXiXjXk_runtime ad atd tau iT delta iD z i iXi j iXj k iXk = Some (Err InvalidArgument)).
Proof. exact Ataudelta_runtime_bad. Qed.
Print Assumptions C17_taudelta_throws.
Theorem C17_taudelta_absent : forall ad tau delta z iT iD i iXi j iXj k iXk,
  (in_range z i -> exists e, get_AtaudeltaXi_runtime ad None tau iT delta iD z i iXi = Some (Err e)) /\
  (in_range z i -> in_range z j ->
     exists e, get_AtaudeltaXiXj_runtime ad None tau iT delta iD z i iXi j iXj = Some (Err e)) /\
  (in_range z i -> in_range z j -> in_range z k ->
     exists e, get_AtaudeltaXiXjXk_runtime ad None tau iT delta iD z i iXi j iXj k iXk = Some (Err e)).
Proof. intros. now apply Ataudelta_absent. Qed.
Print Assumptions C17_taudelta_absent.

(** *** C18 *)

(** For every pair (or fewer) of variables among T, D, P, S, H, U: the value entry
    is the quantity and the two Jacobian entries are its temperature and density
    derivatives, where a = R T alpha. Only the six entries of the derivative matrix
    with i + j <= 2 matter. *)
Theorem C18_rows : forall alpha z g10 g01 g20 g11 g02,
  smooth2 (fun u r => alpha (1 / u) r z) g10 g01 g20 g11 g02 ->
  forall Rg A T rho, 0 < T -> 0 < rho ->
  (forall i j, (i + j <= 2)%nat -> A i j = Lambda alpha i j T rho z) ->
  forall vars, (length vars <= 2)%nat ->
  List.Forall (fun c => In c ["T"; "D"; "P"; "S"; "H"; "U"]%char) vars ->
  exists rows, build_iteration_Jv vars A Rg T rho z = Some (Val rows) /\
    List.Forall2 (fun c r =>
      row_correct (fun T rho => Rg * T * alpha T rho z) T rho c (row_v r) (row_J0 r) (row_J1 r)) vars rows.
Proof.
  intros alpha z g10 g01 g20 g11 g02 Hs Rg A T rho HT Hr HA vars Hl HF.
  apply (Jv_loop_ok alpha z _ _ _ _ _ Hs Rg A T rho HT Hr HA vars 0); auto.
  eapply List.Forall_impl; [|exact HF]. intros c Hc. simpl in Hc.
  destruct Hc as [<-|[<-|[<-|[<-|[<-|[<-|[]]]]]]]; discriminate.
Qed.
Print Assumptions C18_rows.
Example C18_case : exists rows,
  build_iteration_Jv ["P"; "H"]%char (fun i j => Lambda ex_alpha i j 300 2 [1]) 8 300 2 [1] = Some (Val rows) /\
  length rows = 2%nat.
Proof.
  destruct (C18_rows ex_alpha [1] _ _ _ _ _ (ex_smooth [1]) 8 (fun i j => Lambda ex_alpha i j 300 2 [1]) 300 2
    ltac:(lra) ltac:(lra) ltac:(reflexivity) ["P"; "H"]%char ltac:(simpl; lia) ltac:(apply List.Forall_forall; simpl; tauto)) as (rows & E & F).
  - exists rows. split; auto. inversion F as [|? ? ? ? _ F1]; inversion F1 as [|? ? ? ? _ F2]; inversion F2; reflexivity.
Qed.

(** The first letter that names no quantity throws [std::invalid_argument] (here: at
    one of the first three positions, the others being good). *)
Theorem C18_bad_variable : forall alpha z g10 g01 g20 g11 g02,
  smooth2 (fun u r => alpha (1 / u) r z) g10 g01 g20 g11 g02 ->
  forall Rg A T rho, 0 < T -> 0 < rho ->
  (forall i j, (i + j <= 2)%nat -> A i j = Lambda alpha i j T rho z) ->
  forall good c rest, (length good <= 2)%nat ->
  List.Forall (fun c => In c ["T"; "D"; "P"; "S"; "H"; "U"]%char) good ->
  ~ In c ["T"; "D"; "P"; "S"; "H"; "U"]%char ->
  build_iteration_Jv (good ++ c :: rest) A Rg T rho z = Some (Err StdInvalidArgument).
Proof.
  intros alpha z g10 g01 g20 g11 g02 Hs Rg A T rho HT Hr HA good c rest Hl HF Hc.
  apply (Jv_loop_first_bad alpha z _ _ _ _ _ Hs Rg A T rho HT Hr HA good c rest 0); auto.
  - eapply List.Forall_impl; [|exact HF]. intros d Hd. simpl in Hd.
    destruct Hd as [<-|[<-|[<-|[<-|[<-|[<-|[]]]]]]]; discriminate.
  - unfold quantity.
    repeat match goal with |- context[(c =? ?d)%char] =>
      destruct (Ascii.eqb_spec c d); [subst; exfalso; apply Hc; simpl; tauto|] end. reflexivity.
Qed.
Print Assumptions C18_bad_variable.
(** Finding: a third (valid) variable is not rejected: it is written outside the
    2x2 Jacobian. *)
Theorem C18_third_variable_out_of_bounds : forall alpha z g10 g01 g20 g11 g02,
  smooth2 (fun u r => alpha (1 / u) r z) g10 g01 g20 g11 g02 ->
  forall Rg A T rho, 0 < T -> 0 < rho ->
  (forall i j, (i + j <= 2)%nat -> A i j = Lambda alpha i j T rho z) ->
  forall vars, (2 < length vars)%nat ->
  List.Forall (fun c => In c ["T"; "D"; "P"; "S"; "H"; "U"]%char) vars ->
  build_iteration_Jv vars A Rg T rho z = None.
Proof.
  intros alpha z g10 g01 g20 g11 g02 Hs Rg A T rho HT Hr HA vars Hl HF.
  apply (Jv_loop_overrun alpha z _ _ _ _ _ Hs Rg A T rho HT Hr HA vars 0); auto.
  eapply List.Forall_impl; [|exact HF]. intros c Hc. simpl in Hc.
  destruct Hc as [<-|[<-|[<-|[<-|[<-|[<-|[]]]]]]]; discriminate.
Qed.
Print Assumptions C18_third_variable_out_of_bounds.

(** *** C26 *)

(** If alphar is a power series in density near rho = 0 then the compressibility
    factor is Z = 1 + sum_n B_n rho^(n-1), and the numbers returned under the keys
    2..N are exactly these B_n. *)
Theorem C26_virial_coefficients : forall ad, AD_exact ad -> forall alphar T z c,
  Rbar_lt 0 (CV_radius c) -> locally 0 (fun r => alphar T r z = PSeries c r) ->
  exists B : nat -> R, B 1%nat = 0 /\
    locally 0 (fun r => 1 + r * Derive (fun r => alphar T r z) r = 1 + PSeries (fun k => B (S k)) r) /\
    (forall N n, (2 <= n <= N)%nat -> In (n, B n) (get_Bnvir ad alphar N T z)) /\
    get_B2vir ad alphar T z = B 2%nat.
Proof.
  intros ad Had alphar T z c Hc Hf.
  exists (fun n => INR (n - 1) * c (n - 1)%nat). split; [simpl; ring|]. split; [|split].
  - eapply filter_imp; [|exact (Z_series (fun r => alphar T r z) c Hc Hf)].
    intros r H. cbv beta in H. rewrite H. f_equal. apply PSeries_ext. intro n. now rewrite Nat.sub_1_r.
  - intros N n Hn. now apply get_Bnvir_series.
  - unfold get_B2vir. destruct (Derive_n_series (fun r => alphar T r z) c 1 Hc Hf) as [E D].
    rewrite (ad_in_rho ad Had alphar T z 1 E). rewrite D. reflexivity.
Qed.
Print Assumptions C26_virial_coefficients.

Theorem C26_keys_and_range : forall ad alphar N T z,
  ((2 <= N <= 9)%Z -> exists m, get_Bnvir_runtime ad alphar N T z = Val m /\
      map fst m = seq 2 (Z.to_nat N - 1) /\ m = get_Bnvir ad alphar (Z.to_nat N) T z) /\
  (~ (2 <= N <= 9)%Z -> get_Bnvir_runtime ad alphar N T z = Err StdInvalidArgument).
Proof.
  intros. unfold get_Bnvir_runtime. split; intro H.
  - destruct (Z.leb_spec 2 N), (Z.leb_spec N 9); try lia. eexists. split; [reflexivity|]. split; [|reflexivity].
    apply get_Bnvir_keys.
  - destruct (Z.leb_spec 2 N), (Z.leb_spec N 9); try lia; reflexivity.
Qed.
Print Assumptions C26_keys_and_range.

(** The m-th temperature derivative of the n-th virial coefficient, as the
    derivative of the function of temperature that [get_Bnvir] computes. *)
Theorem C26_temperature_derivatives : forall ad, AD_exact ad -> forall alphar z T (N m : Z),
  (2 <= N <= 4)%Z -> (0 <= m <= 3)%Z ->
  (forall t, ex_derive_n (fun r => alphar t r z) (Z.to_nat N - 1) 0) ->
  definedN (fun l => match l with [t; r] => alphar t r z | _ => 0 end)
     [Z.to_nat m; (Z.to_nat N - 1)%nat] [T; 0] ->
  exists B : R -> R,
    (forall t, In (Z.to_nat N, B t) (get_Bnvir ad alphar (Z.to_nat N) t z)) /\
    get_dmBnvirdTm_runtime ad alphar N m T z = Val (Derive_n B (Z.to_nat m) T).
Proof.
  intros ad Had alphar z T N m HN Hm HE HD.
  exists (fun t => Derive_n (fun r => alphar t r z) (Z.to_nat N - 1) 0 / INR (fact (Z.to_nat N - 2))).
  split.
  - intro t. apply get_Bnvir_ok; auto. lia.
  - unfold get_dmBnvirdTm_runtime.
    destruct (Z.leb_spec 2 N), (Z.leb_spec N 4); try lia. cbn [andb].
    destruct (Z.eqb_spec m 0).
    + subst. simpl Derive_n.
      assert (N = 2 \/ N = 3 \/ N = 4)%Z as [->|[->| ->]] by lia.
      * change (Z.to_nat 2) with 2%nat in *. simpl. rewrite (ad_in_rho ad Had alphar T z 1 (HE T)). simpl. f_equal. field.
      * change (Z.to_nat 3) with 3%nat in *. simpl. rewrite (ad_in_rho ad Had alphar T z 2 (HE T)). simpl. f_equal. field.
      * change (Z.to_nat 4) with 4%nat in *. simpl. rewrite (ad_in_rho ad Had alphar T z 3 (HE T)). reflexivity.
    + destruct (Z.leb_spec 1 m), (Z.leb_spec m 3); try lia. cbn [andb]. f_equal.
      now apply get_dmBnvirdTm_ok.
Qed.
Print Assumptions C26_temperature_derivatives.
Theorem C26_temperature_derivatives_range : forall ad alphar z T (N m : Z),
  ~ ((2 <= N <= 4)%Z /\ (0 <= m <= 3)%Z) ->
  get_dmBnvirdTm_runtime ad alphar N m T z = Err StdInvalidArgument.
Proof.
  intros ad alphar z T N m H. unfold get_dmBnvirdTm_runtime.
  destruct (Z.leb_spec 2 N), (Z.leb_spec N 4); try reflexivity. cbn [andb].
  destruct (Z.eqb_spec m 0); [lia|].
  destruct (Z.leb_spec 1 m), (Z.leb_spec m 3); try reflexivity. lia.
Qed.
Print Assumptions C26_temperature_derivatives_range.

(** The cross coefficient: if the mixture's second virial coefficient is the
    quadratic form with coefficients B11, B12, B22, the number returned is B12, at
    every composition that is not a pure component. *)
Theorem C26_cross_coefficient : forall ad alphar T B11 B12 B22,
  (forall z0 z1, z0 + z1 = 1 ->
     get_B2vir ad alphar T [z0; z1] = z0 ^ 2 * B11 + 2 * z0 * z1 * B12 + z1 ^ 2 * B22) ->
  forall z0 z1, z0 + z1 = 1 -> z0 <> 0 -> z1 <> 0 ->
  get_B12vir ad alphar T [z0; z1] = Val B12.
Proof.
  intros ad alphar T B11 B12 B22 H z0 z1 Hz H0 H1. unfold get_B12vir. f_equal.
  rewrite (H z0 z1 Hz), (H 1 0 ltac:(lra)), (H 0 1 ltac:(lra)).
  assert (z1 = 1 - z0) by lra. subst z1. field. split; lra.
Qed.
Print Assumptions C26_cross_coefficient.
Theorem C26_cross_size : forall ad alphar T z, length z <> 2%nat ->
  get_B12vir ad alphar T z = Err StdInvalidArgument.
Proof. intros ad alphar T [|a [|b [|c z]]] H; simpl in H; try reflexivity; lia. Qed.
Print Assumptions C26_cross_size.

(** A case: the quadratic alphar = (x0 rho)^2 + 3 rho, with x0 the first mole fraction. *)
Definition ex_vir (T rho : R) (z : list R) : R := (nth 0 z 0 * rho) ^ 2 + 3 * rho.
Definition ex_coef (z : list R) (n : nat) : R :=
  match n with 1%nat => 3 | 2%nat => (nth 0 z 0) ^ 2 | _ => 0 end.
Example C26_case : forall z, Rbar_lt 0 (CV_radius (ex_coef z)) /\
  locally 0 (fun r => ex_vir 300 r z = PSeries (ex_coef z) r).
Proof.
  intro z. set (q := nth 0 z 0).
  assert (B : forall r, Rbar_le (Rabs r) (CV_radius (ex_coef z))).
  { intro r. destruct (CV_radius_bounded (ex_coef z)) as [H _].
    apply H. exists (3 * Rabs r + (q ^ 2) * Rabs r ^ 2). intro n.
    pose proof (Rabs_pos r). pose proof (pow2_ge_0 q). pose proof (pow2_ge_0 (Rabs r)).
    assert (0 <= q ^ 2 * Rabs r ^ 2) by (apply Rmult_le_pos; auto).
    destruct n as [|[|[|n]]]; simpl; fold q;
      rewrite ?Rmult_0_l, ?Rabs_R0; rewrite ?Rabs_mult, ?Rabs_Rabsolu, ?Rabs_R1; rewrite ?Rmult_1_r.
    - simpl in *. lra.
    - rewrite (Rabs_pos_eq 3) by lra. simpl in *. lra.
    - rewrite <- (Rabs_mult q q), (Rabs_pos_eq (q * q)) by (simpl in *; lra). simpl in *. lra.
    - simpl in *. lra. }
  split.
  - apply Rbar_lt_le_trans with (Rabs 1); [simpl; rewrite Rabs_R1; lra|apply B].
  - exists (mkposreal 1 Rlt_0_1). intros r _.
    assert (Ex : forall c, (forall n, (2 < n)%nat -> c n = 0) -> ex_pseries c r).
    { intros c Hc. apply ex_pseries_R.
      apply (ex_series_incr_n (fun n => c n * r ^ n) 3).
      apply (ex_series_ext (fun _ => 0)).
      - intro n. rewrite (Hc (3 + n)%nat) by lia. eqR. ring.
      - exists 0. apply (filterlim_ext (fun _ => 0)); [|apply filterlim_const].
        intro n. rewrite sum_n_const. eqR. ring. }
    rewrite PSeries_decr_1 by (apply Ex; intros [|[|[|n]]] Hn; simpl; auto; lia).
    rewrite PSeries_decr_1 by (apply Ex; intros [|[|[|n]]] Hn; simpl; auto; lia).
    rewrite PSeries_decr_1 by (apply Ex; intros [|[|[|n]]] Hn; simpl; auto; lia).
    rewrite (PSeries_ext (PS_decr_1 (PS_decr_1 (PS_decr_1 (ex_coef z)))) (fun _ => 0)) by (intro; reflexivity).
    rewrite PSeries_const_0. unfold ex_vir, PS_decr_1, ex_coef. ring.
Qed.
