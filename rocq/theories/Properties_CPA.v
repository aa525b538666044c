(** C64: the cubic-plus-association equation of state. *)
From Coq Require Import Reals ZArith String List Bool Lia Lra Sorting.
From Verif Require Import Json_model Vec_spec Vec_proofs Cubic_model Terms_model Ideal_model Util_model Multi_model
  Assoc_model CPA_model Assoc_spec Assoc_proofs Assoc_proofs2 Assoc_proofs3 Assoc_proofs4 Properties_Assoc Properties_Assoc2.
Import ListNotations.
Open Scope R_scope.

(** * The explicit association schemes *)
(** which sites of a molecule bond to which (Huang and Radosz) *)
Definition bonded (scheme : aclass) (i j : nat) : bool :=
  match scheme with
  | a1A => true
  | a2B => negb (Nat.eqb i j)
  | a3B => xorb (Nat.ltb i 2) (Nat.ltb j 2)
  | a4C => xorb (Nat.ltb i 2) (Nat.ltb j 2)
  | not_associating => false
  end.
Definition n_sites (scheme : aclass) : nat := match scheme with a1A => 1 | a2B => 2 | a3B => 3 | a4C => 4 | not_associating => 0 end.

Lemma quad_root : forall k, 0 < k -> let X := (- 1 + sqrt (1 + 4 * k)) / (2 * k) in 0 < X /\ X <= 1 /\ X * (1 + k * X) = 1.
Proof.
  intros k Hk X. set (s := sqrt (1 + 4 * k)) in *. assert (Hs : s * s = 1 + 4 * k) by (apply sqrt_sqrt; lra). assert (H0 : 0 <= s) by apply sqrt_pos.
  assert (S1 : 1 < s) by nra. assert (U : X * (2 * k) = - 1 + s) by (unfold X; field; lra).
  assert (P : 0 < X) by (unfold X; apply Rdiv_lt_0_compat; lra).
  assert (M : X * (1 + k * X) = 1).
  { apply Rmult_eq_reg_r with (4 * k); [|lra]. replace (X * (1 + k * X) * (4 * k)) with ((X * (2 * k)) * (X * (2 * k)) + 2 * (X * (2 * k))) by ring. rewrite U.
    replace ((- 1 + s) * (- 1 + s) + 2 * (- 1 + s)) with (s * s - 1) by ring. rewrite Hs. ring. }
  split; [exact P|]. split; [nra|exact M].
Qed.
Lemma quad_root3 : forall k, 0 < k -> let X := (- (1 - k) + sqrt (pow2 (1 + k) + 4 * k)) / (4 * k) in
  0 < X <= 1 /\ 0 < 2 * X - 1 <= 1 /\ X * (1 + k * (2 * X - 1)) = 1 /\ (2 * X - 1) * (1 + k * X + k * X) = 1.
Proof.
  intros k Hk X. set (s := sqrt _) in *. assert (Hs : s * s = pow2 (1 + k) + 4 * k) by (apply sqrt_sqrt; unfold pow2; nra). assert (H0 : 0 <= s) by apply sqrt_pos.
  unfold pow2 in Hs. assert (S1 : 1 + k < s) by nra. assert (U : X * (4 * k) = - (1 - k) + s) by (unfold X; field; lra).
  assert (M : 2 * k * (X * X) + (1 - k) * X = 1).
  { apply Rmult_eq_reg_r with (8 * k); [|lra]. replace ((2 * k * (X * X) + (1 - k) * X) * (8 * k)) with ((X * (4 * k)) * (X * (4 * k)) + 2 * (1 - k) * (X * (4 * k))) by ring. rewrite U.
    replace ((- (1 - k) + s) * (- (1 - k) + s) + 2 * (1 - k) * (- (1 - k) + s)) with (s * s - (1 - k) * (1 - k)) by ring. rewrite Hs. ring. }
  assert (P2 : 1 / 2 < X) by nra.
  assert (P1 : X <= 1) by nra.
  repeat split; try lra; nra.
Qed.
(** For every scheme: the fractions lie in (0, 1] and satisfy the mass-action equations *)
Theorem C64_closed_forms : forall scheme N dist eps beta b RT rho D, get_N scheme = Val N -> get_DeltaAB_pure dist eps beta b RT rho = Some D -> 0 < rho * D ->
  exists X, XA_calc_pure N scheme dist eps beta b RT rho = Some X /\ length X = n_sites scheme /\ (forall v, In v X -> fraction v) /\
    mass_action (n_sites scheme) (fun i j => if bonded scheme i j then rho * D else 0) (fun i => nth i X 0).
Proof.
  intros scheme N dist eps beta b RT rho D HN HD Hk. unfold XA_calc_pure. rewrite HD. cbn [opt_bind].
  replace (4 * rho * D) with (4 * (rho * D)) by ring. replace (8 * rho * D) with (4 * (2 * (rho * D))) by ring. replace (2 * rho * D) with (2 * (rho * D)) by ring.
  set (k := rho * D) in *.
  assert (C : forall v, 0 <= v -> csqrt v = Some (sqrt v)) by (intros v Hv; unfold csqrt; destruct (Rle_dec 0 v); [reflexivity|lra]).
  assert (V : forall u v, v <> 0 -> cdiv u v = Some (u / v)) by (intros u v Hv; unfold cdiv; destruct (Req_EM_T v 0); [contradiction|reflexivity]).
  destruct scheme; cbn in HN; try discriminate; injection HN as <-.
  - rewrite C by lra. cbn [opt_bind]. rewrite V by lra. cbn [opt_bind Nat.eqb]. destruct (quad_root k Hk) as (P & Q & M). set (X := (- 1 + sqrt (1 + 4 * k)) / (2 * k)) in *.
    exists [X]. split; [reflexivity|]. split; [reflexivity|]. split; [intros v Hv; cbn in Hv; unfold fraction; decompose [or] Hv; subst; lra || contradiction|].
    intros i Hi. destruct i; [|cbn in Hi; lia]. cbn. lra.
  - rewrite C by lra. cbn [opt_bind]. rewrite V by lra. cbn [opt_bind Nat.eqb]. destruct (quad_root k Hk) as (P & Q & M). set (X := (- 1 + sqrt (1 + 4 * k)) / (2 * k)) in *.
    exists [X; X]. split; [reflexivity|]. split; [reflexivity|]. split; [intros v Hv; cbn in Hv; unfold fraction; decompose [or] Hv; subst; lra || contradiction|].
    intros i Hi. destruct i as [|[|i]]; [| |cbn in Hi; lia]; cbn; lra.
  - rewrite C by (unfold pow2; nra). cbn [opt_bind]. rewrite V by lra. cbn [opt_bind Nat.eqb]. destruct (quad_root3 k Hk) as (P & Q & M1 & M2).
    set (X := (- (1 - k) + sqrt (pow2 (1 + k) + 4 * k)) / (4 * k)) in *.
    exists [X; X; 2 * X - 1]. split; [reflexivity|]. split; [reflexivity|]. split; [intros v Hv; cbn in Hv; unfold fraction; decompose [or] Hv; subst; lra || contradiction|].
    intros i Hi. destruct i as [|[|[|i]]]; [| | |cbn in Hi; lia]; cbn; lra.
  - rewrite C by lra. cbn [opt_bind]. rewrite V by lra. cbn [opt_bind Nat.eqb]. destruct (quad_root (2 * k) ltac:(lra)) as (P & Q & M).
    replace (2 * (2 * k)) with (4 * k) in * by ring. set (X := (- 1 + sqrt (1 + 4 * (2 * k))) / (4 * k)) in *.
    exists [X; X; X; X]. split; [reflexivity|]. split; [reflexivity|]. split; [intros v Hv; cbn in Hv; unfold fraction; decompose [or] Hv; subst; lra || contradiction|].
    intros i Hi. destruct i as [|[|[|[|i]]]]; [| | | |cbn in Hi; lia]; cbn; lra.
Qed.
(** the strength of the association, and when it is positive *)
Theorem C64_strength : forall dist eps beta b RT rho, RT <> 0 ->
  let eta := rho * b / 4 in
  (match dist with CS => 1 - eta <> 0 | KG => 1 - 1.9 * eta <> 0 end) ->
  get_DeltaAB_pure dist eps beta b RT rho =
    Some ((match dist with CS => (1 - eta / 2) / (1 - eta) ^ 3 | KG => 1 / (1 - 1.9 * eta) end) * (exp (eps / RT) - 1) * b * beta).
Proof.
  intros dist eps beta b RT rho HR eta He. unfold get_DeltaAB_pure. replace (rho / 4 * b) with eta by (unfold eta; lra). unfold cdiv.
  destruct dist.
  - destruct (Req_EM_T (2 * pow3 (1 - eta)) 0) as [Z|_].
    + exfalso. unfold pow3, pow2 in Z. apply Rmult_integral in Z. destruct Z as [Z|Z]; [lra|]. apply He. apply Rmult_integral in Z. destruct Z as [Z|Z]; [|exact Z]. apply Rmult_integral in Z. destruct Z; assumption.
    + cbn [opt_bind]. destruct (Req_EM_T RT 0); [contradiction|]. cbn [opt_bind]. f_equal. f_equal. f_equal. f_equal. unfold pow3, pow2. field. exact He.
  - destruct (Req_EM_T (1 - 1.9 * eta) 0); [contradiction|]. cbn [opt_bind]. destruct (Req_EM_T RT 0); [contradiction|]. cbn [opt_bind]. reflexivity.
Qed.
(** At zero density the closed forms divide zero by zero, so the model gives no number although the
    fractions are 1 there *)
Theorem C64_zero_density_refuted : forall scheme N dist eps beta b RT, get_N scheme = Val N -> XA_calc_pure N scheme dist eps beta b RT 0 = None /\
  (forall D, mass_action (n_sites scheme) (fun i j => if bonded scheme i j then 0 * D else 0) (fun _ => 1)).
Proof.
  intros scheme N dist eps beta b RT HN. split.
  - unfold XA_calc_pure. destruct (get_DeltaAB_pure dist eps beta b RT 0) as [D|]; [|reflexivity]. cbn [opt_bind].
    assert (V : forall u v, v = 0 -> cdiv u v = None) by (intros u v ->; unfold cdiv; destruct (Req_EM_T 0 0); [reflexivity|lra]).
    destruct scheme; cbn in HN; try discriminate; destruct (csqrt _); cbn [opt_bind]; try reflexivity; rewrite V by ring; reflexivity.
  - intros D i Hi. rewrite (sumn_ext _ _ (fun _ => 0)); [|intros; destruct (bonded scheme i i0); ring]. rewrite sumn_zero. ring.
Qed.

(** * The association part of a pure fluid *)
Definition one_fluid (scheme : aclass) (dist : radial) (eps beta b Rg : R) : cpaassoc :=
  {| ca_classes := [scheme]; ca_dist := dist; ca_eps := [eps]; ca_beta := [beta]; ca_bi := [b]; ca_N := [n_sites scheme]; ca_R := Rg |}.
Lemma one_fluid_ok : forall scheme dist eps beta b Rg, scheme <> not_associating ->
  make_CPAAssociation [scheme] dist [eps] [beta] [b] Rg = Val (one_fluid scheme dist eps beta b Rg).
Proof. intros scheme dist eps beta b Rg H. destruct scheme; try reflexivity. congruence. Qed.
Lemma osum_ok : forall n f (g : nat -> R), (forall i, (i < n)%nat -> f i = Some (g i)) -> osum n f = Some (sumn n g).
Proof. induction n; intros f g H; cbn; [reflexivity|]. rewrite (IHn f g) by (intros; apply H; lia). cbn [opt_bind]. rewrite H by lia. reflexivity. Qed.
Theorem C64_energy : forall scheme dist eps beta b Rg T rho D c,
  make_CPAAssociation [scheme] dist [eps] [beta] [b] Rg = Val c ->
  get_DeltaAB_pure dist eps beta b (Rg * T) rho = Some D -> 0 < rho * D ->
  exists X, (forall v, In v X -> fraction v) /\ length X = n_sites scheme /\
    mass_action (n_sites scheme) (fun i j => if bonded scheme i j then rho * D else 0) (fun i => nth i X 0) /\
    cpaassoc_alphar c T rho [1] = Some (sumn (n_sites scheme) (fun i => bond_energy (nth i X 0))).
Proof.
  intros scheme dist eps beta b Rg T rho D c Hc HD Hk. destruct (get_N scheme) as [N|] eqn:EN; [|unfold make_CPAAssociation in Hc; cbn [map_res] in Hc; rewrite EN in Hc; discriminate].
  assert (NN : N = n_sites scheme) by (destruct scheme; cbn in EN; try discriminate; injection EN as <-; reflexivity).
  destruct (C64_closed_forms scheme N dist eps beta b (Rg * T) rho D EN HD Hk) as (X & E & L & F & M). exists X. split; [exact F|]. split; [exact L|]. split; [exact M|].
  unfold make_CPAAssociation in Hc. cbn [map_res] in Hc. rewrite EN in Hc. cbn in Hc. injection Hc as <-. unfold cpaassoc_alphar, cpaassoc_X. cbn [ca_bi length Nat.eqb negb ca_N ca_classes ca_eps ca_beta nth_error opt_bind sumn nth ca_dist ca_R].
  replace (0 + b * 1) with b by ring. rewrite E. cbn [opt_bind].
  rewrite (osum_ok _ _ (fun i => ln (nth i X 0) - nth i X 0 / 2)).
  2: { intros i Hi. unfold clog. destruct (F (nth i X 0) (nth_In _ _ Hi)) as [P _]. destruct (Rlt_dec 0 (nth i X 0)); [reflexivity|lra]. }
  cbn [opt_bind]. f_equal. rewrite NN, L. unfold bond_energy. generalize (n_sites scheme). intro n. 
  assert (G : sumn n (fun i => ln (nth i X 0) - nth i X 0 / 2 + 1 / 2) = sumn n (fun i => ln (nth i X 0) - nth i X 0 / 2) + INR n / 2).
  { induction n; [cbn; lra|]. cbn [sumn]. rewrite IHn, S_INR. lra. }
  rewrite G. lra.
Qed.

(** * Agreement of the two implementations *)
Definition sites (scheme : aclass) : list string :=
  match scheme with a2B => ["e"; "H"] | a3B => ["e"; "e"; "H"] | a4C => ["e"; "e"; "H"; "H"] | _ => [] end%string.
Definition eh_opts (dist : radial) : options := with_partners (with_radial default_options (Some dist)) (default_partners ["H"; "e"]%string).
Definition two_kinds (scheme : aclass) : Prop := scheme = a2B \/ scheme = a3B \/ scheme = a4C.
Definition n_e (scheme : aclass) : nat := match scheme with a2B => 1 | _ => 2 end.
Definition n_H (scheme : aclass) : nat := match scheme with a4C => 2 | _ => 1 end.
Definition eh_ind (scheme : aclass) : mapper :=
  {| to_CompSite := [(0, (0, "H")); (1, (0, "e"))]%nat%string; to_siteid := [((0, "H"), 0); ((0, "e"), 1)]%nat%string;
     CompCIndex_to_siteid := [((0, 0), 0); ((0, 1), 1)]%nat; counts := [n_H scheme; n_e scheme]; N_sites := [n_sites scheme]; N_unique_sites := [2]%nat; comp_index := [0; 0]%nat |}.
Definition eh_assoc (scheme : aclass) (dist : radial) (eps beta b : R) : association :=
  {| as_options := eh_opts dist; as_mapper := eh_ind scheme; as_D := [[0%nat; n_e scheme]; [n_H scheme; 0%nat]]; as_rule := CR1;
     as_data := Canonical {| cd_b := [b]; cd_beta := [beta]; cd_eps := [eps]; cd_radial := dist |} |}.
Lemma eh_mapper : forall scheme, two_kinds scheme -> make_mapper [sites scheme] = Some (eh_ind scheme).
Proof. intros scheme H. destruct H as [ -> |[ -> | -> ]]; vm_compute; reflexivity. Qed.
Lemma eh_built : forall scheme dist eps beta b, two_kinds scheme ->
  make_association (Canonical {| cd_b := [b]; cd_beta := [beta]; cd_eps := [eps]; cd_radial := dist |}) [sites scheme] (eh_opts dist) = ok (eh_assoc scheme dist eps beta b).
Proof. intros scheme dist eps beta b H. unfold make_association. rewrite eh_mapper by exact H. destruct H as [ -> |[ -> | -> ]]; reflexivity. Qed.
Theorem C64_agreement : forall bc scheme dist eps beta b T rho D c a, two_kinds scheme ->
  make_CPAAssociation [scheme] dist [eps] [beta] [b] R_CODATA2017 = Val c ->
  make_association_CR1 [b] [beta] [eps] [sites scheme] (eh_opts dist) = ok a ->
  T <> 0 -> 0 <= beta -> 0 < rho -> get_DeltaAB_pure dist eps beta b (R_CODATA2017 * T) rho = Some D -> 0 < D ->
  exists v, cpaassoc_alphar c T rho [1] = Some v /\ alphar bc a T rho [1] = ok v.
Proof.
  intros bc scheme dist eps beta b T rho D c a H2 Hc Ha HT Hb Hr HD PD.
  unfold make_association_CR1 in Ha. cbn [eh_opts with_partners with_radial op_radial fin obind ok] in Ha.
  change (with_partners (with_radial default_options (Some dist)) (default_partners ["H"%string; "e"%string])) with (eh_opts dist) in Ha.
  rewrite (eh_built scheme dist eps beta b H2) in Ha. cbn in Ha. injection Ha as <-.
  set (cd := {| cd_b := [b]; cd_beta := [beta]; cd_eps := [eps]; cd_radial := dist |}).
  set (a := eh_assoc scheme dist eps beta b). pose proof (eh_built scheme dist eps beta b H2) as Hm. fold a cd in Hm. pose proof (make_association_ok _ _ _ _ Hm) as B.
  destruct (C64_energy scheme dist eps beta b R_CODATA2017 T rho D c Hc HD) as (Y & FY & LY & MY & EY); [now apply Rmult_lt_0_compat|].
  pose proof N_A_pos as HN. pose proof R_gas_pos as HRg.
  (* the strengths *)
  assert (TD : total_distinct [sites scheme] = 2%nat) by (destruct H2 as [ -> |[ -> | -> ]]; reflexivity).
  assert (HDelta : exists Delta, get_Delta bc a T rho [1] = ok Delta /\ forall i j, (i < 2)%nat -> (j < 2)%nat -> mentry Delta i j = D / N_A).
  { unfold get_DeltaAB_pure in HD.
    destruct (match dist with CS => cdiv (2 - rho / 4 * b) (2 * pow3 (1 - rho / 4 * b)) | KG => cdiv 1 (1 - 1.9 * (rho / 4 * b)) end) as [g|] eqn:Eg; [|discriminate].
    cbn [opt_bind] in HD. unfold cdiv in HD. destruct (Req_EM_T (R_CODATA2017 * T) 0) as [Z|_]; [discriminate|]. cbn [opt_bind] in HD. injection HD as HD.
    eexists. split.
    - apply (get_Delta_CR1 bc [sites scheme] (eh_opts dist) a cd T rho [1] g B); try reflexivity; [| exact HT |].
      + intros v [<-|[]]. exact Hb.
      + cbn [cd cd_radial cd_b length sumn nth]. rewrite <- Eg. unfold radial_g.
        replace ((0 + 1 * b) * rho / 4) with (rho / 4 * b) by lra. destruct dist; [|reflexivity]. f_equal. unfold pow3, pow2. ring.
    - intros i j Hi Hj. rewrite TD. rewrite mentry_map by assumption. unfold CR1_strength.
      destruct (comp_of_lt [sites scheme] i) as [Li _]; [rewrite TD; exact Hi|]. destruct (comp_of_lt [sites scheme] j) as [Lj _]; [rewrite TD; exact Hj|].
      cbn [length] in Li, Lj. replace (comp_of [sites scheme] i) with 0%nat by lia. replace (comp_of [sites scheme] j) with 0%nat by lia.
      cbn [cd cd_b cd_beta cd_eps nth]. rewrite sqrt_square by exact Hb. replace ((eps + eps) / 2) with eps by lra. rewrite <- HD. field. lra. }
  destruct HDelta as (Delta & ED & MD).
  assert (DP : 0 < D / N_A) by (apply Rdiv_lt_0_compat; assumption).
  assert (P : physical [sites scheme] Delta rho [1]).
  { split; [lra|]. split; [intros v [<-|[]]; lra|]. intros i j Hi Hj. rewrite TD in Hi, Hj. rewrite MD by assumption. lra. }
  destruct (C37_energy bc (Canonical cd) [sites scheme] (eh_opts dist) a T rho [1] Delta Hm eq_refl ED P) as (X & EX & EA & _); [cbn; lra|].
  rewrite TD in EX. cbn [repeat] in EX.
  destruct (C37_explicit bc (Canonical cd) (sites scheme) (eh_opts dist) a T rho [1; 1] Delta (n_H scheme) (n_e scheme) Hm ED P eq_refl eq_refl eq_refl) as (X' & EX' & LX & FX & MX).
  { rewrite !MD by lia. reflexivity. } { reflexivity. } { intros v [<-|[<-|[]]]; unfold fraction; lra. } { left. reflexivity. }
  rewrite EX in EX'. injection EX' as <-.
  (* both lists of fractions solve the same equations *)
  set (K := K_of a Delta rho [1]) in *.
  assert (KP : forall i j, (i < 2)%nat -> (j < 2)%nat -> 0 <= K i j) by (destruct P as (P1 & P2 & P3); rewrite TD in P3; exact (K_of_pos a Delta rho [1] 2 P1 P2 P3)).
  destruct (row_bound 2 K KP) as [Mx HM].
  set (W := [nth (n_e scheme) Y 0; nth 0 Y 0]).
  assert (FYi : forall i, (i < n_sites scheme)%nat -> fraction (nth i Y 0)) by (intros i Hi; apply FY, nth_In; lia).
  assert (K01 : K 0%nat 1%nat = rho * D * INR (n_e scheme)) by (unfold K, K_of, dcount; rewrite MD by lia; cbn [a eh_assoc as_D as_mapper eh_ind comp_index nth]; field; lra).
  assert (K10 : K 1%nat 0%nat = rho * D * INR (n_H scheme)) by (unfold K, K_of, dcount; rewrite MD by lia; cbn [a eh_assoc as_D as_mapper eh_ind comp_index nth]; field; lra).
  assert (K00 : K 0%nat 0%nat = 0) by (unfold K, K_of, dcount; cbn; ring).
  assert (K11 : K 1%nat 1%nat = 0) by (unfold K, K_of, dcount; cbn; ring).
  assert (EQ : forall s, (s < n_sites scheme)%nat -> nth s Y 0 = if Nat.ltb s (n_e scheme) then nth 0 Y 0 else nth (n_e scheme) Y 0).
  { assert (Sym : forall i j, (i < n_sites scheme)%nat -> (j < n_sites scheme)%nat -> (forall l, bonded scheme i l = bonded scheme j l) -> nth i Y 0 = nth j Y 0).
    { intros i j Hi Hj Hl. pose proof (MY i Hi) as Mi. pose proof (MY j Hj) as Mj. rewrite (sumn_ext _ _ (fun l => (if bonded scheme j l then rho * D else 0) * nth l Y 0)) in Mi by (intros l _; now rewrite Hl).
      set (S := sumn (n_sites scheme) (fun l => (if bonded scheme j l then rho * D else 0) * nth l Y 0)) in *. pose proof (FYi i Hi) as [Pi _]. assert (1 + S <> 0) by (intro Z; rewrite Z in Mi; lra). apply Rmult_eq_reg_r with (1 + S); [lra|assumption]. }
    intros s Hs. destruct H2 as [ -> |[ -> | -> ]]; cbn [n_sites n_e] in *; (destruct s as [|[|[|[|s]]]]; try lia; cbn [Nat.ltb Nat.leb]; try reflexivity; apply Sym; try lia; reflexivity). }
  assert (MW : mass_action 2 K (fun i => nth i W 0)).
  { intros i Hi. cbn [sumn]. destruct i as [|[|i]]; [| |lia]; rewrite ?K00, ?K01, ?K10, ?K11; unfold W; cbn [nth].
    - pose proof (MY (n_e scheme)) as M. destruct H2 as [ -> |[ -> | -> ]]; cbn [n_sites n_e n_H] in *; specialize (M ltac:(lia)); cbn [sumn] in M; cbn in M; cbn [INR]; try rewrite (EQ 1%nat) in M by lia; try rewrite (EQ 3%nat) in M by lia; cbn [Nat.ltb Nat.leb] in M; (eapply eq_trans; [|exact M]; ring).
    - pose proof (MY 0%nat) as M. destruct H2 as [ -> |[ -> | -> ]]; cbn [n_sites n_e n_H] in *; specialize (M ltac:(lia)); cbn [sumn] in M; cbn in M; cbn [INR]; try rewrite (EQ 3%nat) in M by lia; cbn [Nat.ltb Nat.leb] in M; (eapply eq_trans; [|exact M]; ring). }
  assert (FW : fracs 2 (fun i => nth i W 0)).
  { intros i Hi. destruct i as [|[|i]]; [| |lia]; unfold W; cbn [nth]; apply FYi; destruct H2 as [ -> |[ -> | -> ]]; cbn; lia. }
  assert (FX2 : fracs 2 (fun i => nth i X 0)) by (intros i Hi; apply FX, nth_In; lia).
  assert (U : forall i, (i < 2)%nat -> nth i X 0 = nth i W 0) by (intros i Hi; exact (solution_unique 2 K Mx KP HM _ _ FX2 FW MX MW i Hi)).
  eexists. split; [exact EY|]. rewrite EA. apply (f_equal (fun v : R => ok v)). cbn [length sumn nth].
  pose proof (U 0%nat ltac:(lia)) as U0. pose proof (U 1%nat ltac:(lia)) as U1. unfold W in U0, U1. cbn [nth] in U0, U1.
  assert (SE : siteX a X 0 "e" = nth 0 Y 0) by (rewrite <- U1; reflexivity). assert (SH : siteX a X 0 "H" = nth (n_e scheme) Y 0) by (rewrite <- U0; reflexivity).
  destruct H2 as [ -> |[ -> | -> ]]; cbn [sites over_sites n_sites n_e sumn] in *; rewrite ?SE, ?SH; try rewrite (EQ 1%nat) by lia; try rewrite (EQ 3%nat) by lia; cbn [Nat.ltb Nat.leb]; ring.
Qed.
Example C64_agreement_met : exists c a D, make_CPAAssociation [a4C] KG [R_CODATA2017 * ln 2] [1] [1] R_CODATA2017 = Val c /\
  make_association_CR1 [1] [1] [R_CODATA2017 * ln 2] [sites a4C] (eh_opts KG) = ok a /\
  get_DeltaAB_pure KG (R_CODATA2017 * ln 2) 1 1 (R_CODATA2017 * 1) 1 = Some D /\ 0 < D.
Proof.
  exists (one_fluid a4C KG (R_CODATA2017 * ln 2) 1 1 R_CODATA2017), (eh_assoc a4C KG (R_CODATA2017 * ln 2) 1 1). eexists.
  split; [reflexivity|]. split.
  - unfold make_association_CR1. pose proof (eh_built a4C KG (R_CODATA2017 * ln 2) 1 1 (or_intror (or_intror eq_refl))) as E.
    cbn [eh_opts with_partners with_radial op_radial fin obind ok]. match goal with |- obind ?t _ = _ => replace t with (ok (eh_assoc a4C KG (R_CODATA2017 * ln 2) 1 1)) by (symmetry; exact E) end. reflexivity.
  - pose proof R_gas_pos. split; [apply C64_strength; lra|]. replace (R_CODATA2017 * ln 2 / (R_CODATA2017 * 1)) with (ln 2) by (field; lra). rewrite exp_ln by lra.
    assert (0 < 1 / (1 - 1.9 * (1 * 1 / 4))) by (apply Rdiv_lt_0_compat; lra). lra.
Qed.

(** * The cubic part *)
(** the attraction parameter of one component *)
Definition soave (a0 c1 Tc T : R) : R := a0 * (1 + c1 * (1 - sqrt (T / Tc))) ^ 2.
Definition el0 (l : list R) (i : nat) : R := nth i l 0.
Theorem C64_cubic : forall f a0 bi c1 Tc Rg k T rho x, let n := length x in
  length a0 = n -> length bi = n -> length c1 = n -> length Tc = n -> length k = n -> (forall row, In row k -> length row = n) ->
  (forall v, In v a0 -> 0 <= v) -> (forall v, In v Tc -> 0 < v) -> 0 < T -> 0 < Rg ->
  let ai i := soave (el0 a0 i) (el0 c1 i) (el0 Tc i) T in
  let a := sumn n (fun i => sumn n (fun j => el0 x i * el0 x j * ((1 - el0 (nth i k []) j) * sqrt (ai i * ai j)))) in
  let b := sumn n (fun i => el0 x i * el0 bi i) in
  let d1 := match f with flag_PR => 1 + sqrt 2 | flag_SRK => 1 end in
  let d2 := match f with flag_PR => 1 - sqrt 2 | flag_SRK => 0 end in
  0 < b -> 0 <= rho -> b * rho < 1 ->
  cpa_cubic_alphar (make_CPACubic f a0 bi c1 Tc Rg (Some k)) T rho x =
    Some (- ln (1 - b * rho) - a / (Rg * T * b * (d1 - d2)) * ln ((1 + d1 * b * rho) / (1 + d2 * b * rho))).
Proof.
  intros f a0 bi c1 Tc Rg k T rho x n L1 L2 L3 L4 L5 L6 P1 P2 HT HR ai a b d1 d2 Hb Hrho Hbr.
  set (c := make_CPACubic f a0 bi c1 Tc Rg (Some k)).
  assert (Ai : forall i, (i < n)%nat -> cpa_ai c T i = Some (ai i) /\ 0 <= ai i).
  { intros i Hi. unfold cpa_ai. cbn [c make_CPACubic cc_a0 cc_c1 cc_Tc].
    rewrite (nth_error_nth' a0 0), (nth_error_nth' c1 0), (nth_error_nth' Tc 0) by lia. cbn [opt_bind].
    assert (TP : 0 < nth i Tc 0) by (apply P2, nth_In; lia). unfold cdiv. destruct (Req_EM_T (nth i Tc 0) 0); [lra|]. cbn [opt_bind].
    unfold csqrt. destruct (Rle_dec 0 (T / nth i Tc 0)) as [_|N]; [|exfalso; apply N; apply Rlt_le, Rdiv_lt_0_compat; assumption]. cbn [opt_bind].
    split; [unfold ai, soave, el0, pow2; f_equal; ring|]. unfold ai, soave. apply Rmult_le_pos; [apply P1, nth_In; lia|apply pow2_ge_0]. }
  assert (Ea : cpa_a c T x = Some a).
  { unfold cpa_a. fold n. apply osum_ok. intros i Hi. destruct (Ai i Hi) as [-> Pi]. cbn [opt_bind]. apply osum_ok. intros j Hj. destruct (Ai j Hj) as [-> Pj]. cbn [opt_bind].
    unfold cpa_kij. cbn [c make_CPACubic cc_k]. rewrite (nth_error_nth' k []) by lia. cbn [opt_bind].
    rewrite (nth_error_nth' (nth i k []) 0) by (rewrite L6 by (apply nth_In; lia); lia). cbn [opt_bind].
    unfold csqrt. destruct (Rle_dec 0 (ai i * ai j)) as [_|N]; [|exfalso; apply N; now apply Rmult_le_pos]. reflexivity. }
  assert (Eb : cpa_b c x = Some b).
  { unfold cpa_b. fold n. apply osum_ok. intros i Hi. cbn [c make_CPACubic cc_bi]. rewrite (nth_error_nth' bi 0) by lia. reflexivity. }
  unfold cpa_cubic_alphar. rewrite Ea, Eb. cbn [opt_bind c make_CPACubic cc_R cc_d1 cc_d2]. fold d1 d2.
  pose proof (sqrt_lt_R0 2 ltac:(lra)) as S2. pose proof (sqrt_sqrt 2 ltac:(lra)) as SS.
  assert (S3 : sqrt 2 < 2) by nra.
  assert (Hd : 0 < d1 - d2) by (unfold d1, d2; destruct f; lra).
  assert (D1 : 0 < d1 * b * rho + 1) by (assert (0 <= d1) by (unfold d1; destruct f; lra); assert (0 <= b * rho) by (apply Rmult_le_pos; lra); rewrite Rmult_assoc; nra).
  assert (D2 : 0 < d2 * b * rho + 1).
  { assert (0 <= b * rho) by (apply Rmult_le_pos; lra). rewrite Rmult_assoc. unfold d2. destruct f; [|lra]. nra. }
  unfold clog at 1. destruct (Rlt_dec 0 (1 - b * rho)); [|lra]. cbn [opt_bind]. unfold cdiv. destruct (Req_EM_T Rg 0); [lra|]. cbn [opt_bind]. destruct (Req_EM_T T 0); [lra|]. cbn [opt_bind].
  destruct (Req_EM_T (d2 * b * rho + 1) 0); [lra|]. cbn [opt_bind]. unfold clog. destruct (Rlt_dec 0 ((d1 * b * rho + 1) / (d2 * b * rho + 1))) as [_|N]; [|exfalso; apply N; now apply Rdiv_lt_0_compat].
  cbn [opt_bind]. destruct (Req_EM_T b 0); [lra|]. cbn [opt_bind]. destruct (Req_EM_T (d1 - d2) 0); [lra|]. cbn [opt_bind]. f_equal.
  rewrite (Rplus_comm (d1 * b * rho) 1), (Rplus_comm (d2 * b * rho) 1). field. lra.
Qed.
Example C64_cubic_met : exists v, cpa_cubic_alphar (make_CPACubic flag_PR [1] [1] [1] [1] 1 (Some [[0]])) 1 (1 / 2) [1] = Some v.
Proof.
  eexists. apply C64_cubic; cbn; try reflexivity; try lra.
  - intros row [<-|[]]. reflexivity.
  - intros v [<-|[]]. lra.
  - intros v [<-|[]]. lra.
Qed.
(** The sum of the two parts; a composition of the wrong length is rejected *)
Theorem C64_sum : forall bc m T rho x,
  (length x <> length (cc_a0 (ce_cubic m)) -> cpa_alphar bc m T rho x = throws InvalidArgument) /\
  (forall c s, length x = length (cc_a0 (ce_cubic m)) -> cpa_cubic_alphar (ce_cubic m) T rho x = Some c -> assoc_alphar bc (ce_assoc m) T rho x = ok s ->
     cpa_alphar bc m T rho x = ok (c + s)).
Proof.
  intros bc m T rho x. unfold cpa_alphar. split.
  - intro N. apply Nat.eqb_neq in N. now rewrite N.
  - intros c s L Ec Es. apply Nat.eqb_eq in L. rewrite L, Ec. cbn [negb fin obind ok]. rewrite Es. reflexivity.
Qed.
Print Assumptions C64_closed_forms.
Print Assumptions C64_strength.
Print Assumptions C64_zero_density_refuted.
Print Assumptions C64_energy.
Print Assumptions C64_agreement.
Print Assumptions C64_cubic.
Print Assumptions C64_sum.
