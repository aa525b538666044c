(** C84: the ideal-gas part of the GERG-2004 and GERG-2008 models. *)
From Coq Require Import Reals ZArith String List Lia Lra Bool.
From Coquelicot Require Import Coquelicot.
From Verif Require Import Json_model Vec_spec Vec_proofs Cubic_model Cubic_spec Terms_model Ideal_model Ideal_proofs Util_model Assoc_model Multi_proofs2 LKP_proofs LKP_spec.
From Verif Require Import GERG_tables GERG_reference GERG_model GERG_spec GERG_proofs GERG_proofs2 GERG_proofs3 GERG_proofs4 GERG_proofs5 Properties_GERG.
Import ListNotations.
Local Open Scope R_scope.

Lemma info04_arg : forall f, arg (l_info lib04 f). Proof. intro f. cbn. rewrite info04_d. apply opt_res_arg. Qed.
Lemma info08_arg : forall f, arg (l_info lib08 f). Proof. intro f. cbn. rewrite info08_d. apply opt_res_arg. Qed.
Lemma imake04 : forall names, ((exists m, make_gideal lib04 names = Val m) <-> incl names names04) /\ (~ incl names names04 -> make_gideal lib04 names = Err StdInvalidArgument).
Proof. exact (make_ideal_iff lib04 (data_of tables04) ideal04 (assoc ideal04) names04 fits04 ideal04_d icheck04 known04 info04_arg). Qed.
Lemma imake08 : forall names, ((exists m, make_gideal lib08 names = Val m) <-> incl names names08) /\ (~ incl names names08 -> make_gideal lib08 names = Err StdInvalidArgument).
Proof. exact (make_ideal_iff lib08 (data_of tables08) table08 dideal08 names08 fits08 ideal08_d icheck08 known08 info08_arg). Qed.

(** A model is made exactly for names from the list of components; repeated names are allowed. *)
Theorem C84_names :
  (forall names, ((exists m, make_gideal lib04 names = Val m) <-> incl names names04) /\ (~ incl names names04 -> make_gideal lib04 names = Err StdInvalidArgument)) /\
  (forall names, ((exists m, make_gideal lib08 names = Val m) <-> incl names names08) /\ (~ incl names names08 -> make_gideal lib08 names = Err StdInvalidArgument)).
Proof. exact (conj imake04 imake08). Qed.
Example C84_names_met : exists m, make_gideal lib08 ["methane"; "n-decane"]%string = Val m. Proof. apply C84_names. sub. Qed.

(** At every temperature and density, for any fractions, the energy is that of the published
    equation with the coefficients n3 to n7 and theta of the tables, and with constants n1, n2 for
    which the enthalpy and the entropy of every component are zero at 298.15 K and 101325 Pa: there
    the energy is -1 and its derivative with respect to the temperature 1/T.  Components with
    fractions that are not positive are left out. *)
Lemma formula_gen : forall L D tab look all, (forall names, incl names all -> fits L D names) -> (forall f, l_ideal L f = bind (opt_res (look f)) icoef_of) -> forallb (ifits look tab) all = true ->
  (forall f i, l_info L f = Val i -> In f all) -> (forall f, arg (l_info L f)) -> exists n1 n2 : string -> R,
  (forall f, In f all -> let a := ideal_gas tab D n1 n2 f in a T_ref rho_ref = - 1 /\ is_derive (fun T => a T rho_ref) T_ref (1 / T_ref)) /\
  (forall names m x T rho, make_gideal L names = Val m -> length x = length names -> 0 < T -> 0 < rho -> gideal_alphar m T rho x = ok (ideal_mix (ideal_gas tab D n1 n2) names x T rho)).
Proof.
  intros L D tab look all Fit IL IC Known Iarg. exists (N1 L D), (N2 L D). split; [|intros; eapply mix_val; eassumption].
  intros f Hf a. pose proof (c_of_cond L tab look all IL IC f Hf) as Cc. destruct (crit L D all Fit f Hf) as [P1 P2]. destruct (aid_reference (c_of L f) (s_Tc D f) (s_rhoc D f) P1) as [R1 R2].
  assert (E : forall T rho, aid (c_of L f) (s_Tc D f) (s_rhoc D f) T rho = a T rho) by (intros; apply (aid_ideal L D tab look all); assumption).
  split; [rewrite <- E; exact R1|]. apply (is_derive_ext (fun T => aid (c_of L f) (s_Tc D f) (s_rhoc D f) T rho_ref)); [intro; apply E|]. change (1 / T_ref) with (1 / T0). rewrite <- R2. apply (aid_T (c_of L f) (ic4 _ _ Cc) (ic6 _ _ Cc) (s_Tc D f) (s_rhoc D f) P1). unfold T0. lra.
Qed.
Theorem C84_formula :
  (exists n1 n2 : string -> R,
   (forall f, In f names04 -> let a := ideal_gas ideal04 (data_of tables04) n1 n2 f in a T_ref rho_ref = - 1 /\ is_derive (fun T => a T rho_ref) T_ref (1 / T_ref)) /\
   (forall names m x T rho, make_gideal lib04 names = Val m -> length x = length names -> 0 < T -> 0 < rho -> gideal_alphar m T rho x = ok (ideal_mix (ideal_gas ideal04 (data_of tables04) n1 n2) names x T rho))) /\
  (exists n1 n2 : string -> R,
   (forall f, In f names08 -> let a := ideal_gas (ideal08 ++ ideal04) (data_of tables08) n1 n2 f in a T_ref rho_ref = - 1 /\ is_derive (fun T => a T rho_ref) T_ref (1 / T_ref)) /\
   (forall names m x T rho, make_gideal lib08 names = Val m -> length x = length names -> 0 < T -> 0 < rho -> gideal_alphar m T rho x = ok (ideal_mix (ideal_gas (ideal08 ++ ideal04) (data_of tables08) n1 n2) names x T rho))).
Proof.
  split.
  - exact (formula_gen lib04 (data_of tables04) ideal04 (assoc ideal04) names04 fits04 ideal04_d icheck04 known04 info04_arg).
  - exact (formula_gen lib08 (data_of tables08) table08 dideal08 names08 fits08 ideal08_d icheck08 known08 info08_arg).
Qed.
Example C84_formula_met : exists m, make_gideal lib08 ["methane"; "n-decane"]%string = Val m /\ length [0.5; 0.5] = length ["methane"; "n-decane"]%string.
Proof. destruct C84_names_met as [m H]. exists m. split; [exact H|reflexivity]. Qed.

(** For any composition the pressure is that of an ideal gas, and the internal energy, - T^2 times
    the derivative of the energy with respect to T, increases with the temperature: the heat capacity
    is positive. *)
Lemma const_d : forall (a t : R), is_derive (fun _ : R => a) t 0. Proof. intros. exact (is_derive_const (K := R_AbsRing) (V := R_NormedModule) a t). Qed.
Lemma sum_d : forall n (f : R -> nat -> R) (g : nat -> R) t, (forall i, (i < n)%nat -> is_derive (fun t => f t i) t (g i)) -> is_derive (fun t => sumn n (f t)) t (sumn n g).
Proof.
  induction n as [|n IH]; intros f g t H; [exact (const_d 0 t)|]. cbn [sumn]. apply (plus_d (fun t => sumn n (f t)) (fun t => f t n)); [apply IH; intros i Hi; apply H; lia|apply H; lia].
Qed.
Lemma thermo_gen : forall L D tab look all, (forall names, incl names all -> fits L D names) -> (forall f, l_ideal L f = bind (opt_res (look f)) icoef_of) -> forallb (ifits look tab) all = true ->
  (forall f i, l_info L f = Val i -> In f all) -> (forall f, arg (l_info L f)) ->
  forall names m x, make_gideal L names = Val m -> length x = length names -> composition x -> exists (a : R -> R -> R) (a1 cv : R -> R), forall T rho, 0 < T -> 0 < rho ->
    gideal_alphar m T rho x = ok (a T rho) /\ is_derive (fun rho => a T rho) rho (1 / rho) /\ is_derive (fun T => a T rho) T (a1 T) /\ is_derive (fun T => - T ^ 2 * a1 T) T (cv T) /\ 0 < cv T.
Proof.
  intros L D tab look all Fit IL IC Known Iarg names m x H Lx [X0 X1]. pose proof (proj1 (proj1 (make_ideal_iff L D tab look all Fit IL IC Known Iarg names)) (ex_intro _ m H)) as I.
  set (a := fun f => ideal_gas tab D (N1 L D) (N2 L D) f). set (nm := fun i => nth i names EmptyString).
  assert (In' : forall i, (i < length names)%nat -> In (nm i) all) by (intros i Hi; apply I, nth_In, Hi).
  assert (E : forall i T rho, (i < length names)%nat -> aid (c_of L (nm i)) (s_Tc D (nm i)) (s_rhoc D (nm i)) T rho = a (nm i) T rho) by (intros; apply (aid_ideal L D tab look all); auto).
  exists (fun T rho => ideal_mix a names x T rho), (fun T => sumn (length names) (fun i => nth i x 0 * aid1 (c_of L (nm i)) (s_Tc D (nm i)) T)), (fun T => sumn (length names) (fun i => nth i x 0 * aid_cv (c_of L (nm i)) (s_Tc D (nm i)) T)).
  intros T rho HT Hr. split; [exact (mix_val L D tab look all Fit IL IC Known Iarg names m x T rho H Lx HT Hr)|].
  assert (Xi : forall i, (i < length names)%nat -> nth i x 0 = 0 \/ 0 < nth i x 0). { intros i Hi. assert (0 <= nth i x 0) by (apply X0; lia). lra. }
  assert (XS : sumn (length names) (fun i => nth i x 0) = 1) by (rewrite <- Lx; exact X1).
  split; [|split; [|split]].
  - replace (1 / rho) with (sumn (length names) (fun i => nth i x 0 * (1 / rho))) by (rewrite sumn_scal_r, XS; ring). unfold ideal_mix. apply (sum_d _ (fun rho i => if Rlt_dec 0 (nth i x 0) then nth i x 0 * (a (nth i names EmptyString) T rho + ln (nth i x 0)) else 0)). intros i Hi. cbn beta.
    destruct (Rlt_dec 0 (nth i x 0)) as [P|P].
    + apply (scal_d (nth i x 0) (fun rho => a (nth i names EmptyString) T rho + ln (nth i x 0))). intros _. replace (1 / rho) with (1 / rho + 0) by ring. apply plus_d; [|apply const_d].
      apply (is_derive_ext (fun rho => aid (c_of L (nm i)) (s_Tc D (nm i)) (s_rhoc D (nm i)) T rho)); [intro; now apply E|]. destruct (crit L D all Fit (nm i) (In' i Hi)) as [P1 P2]. now apply aid_rho.
    + destruct (Xi i Hi) as [->|Q]; [rewrite Rmult_0_l; apply const_d|contradiction].
  - unfold ideal_mix. apply (sum_d _ (fun T i => if Rlt_dec 0 (nth i x 0) then nth i x 0 * (a (nth i names EmptyString) T rho + ln (nth i x 0)) else 0)). intros i Hi. cbn beta. destruct (Rlt_dec 0 (nth i x 0)) as [P|P].
    + apply (scal_d (nth i x 0) (fun T => a (nth i names EmptyString) T rho + ln (nth i x 0))). intros _. replace (aid1 (c_of L (nm i)) (s_Tc D (nm i)) T) with (aid1 (c_of L (nm i)) (s_Tc D (nm i)) T + 0) by ring. apply plus_d; [|apply const_d].
      apply (is_derive_ext (fun T => aid (c_of L (nm i)) (s_Tc D (nm i)) (s_rhoc D (nm i)) T rho)); [intro; now apply E|]. destruct (crit L D all Fit (nm i) (In' i Hi)) as [P1 P2]. pose proof (c_of_cond L tab look all IL IC _ (In' i Hi)) as Cc. exact (aid_T _ (ic4 _ _ Cc) (ic6 _ _ Cc) _ _ P1 T rho HT).
    + destruct (Xi i Hi) as [->|Q]; [rewrite Rmult_0_l; apply const_d|contradiction].
  - apply (is_derive_ext (fun T => sumn (length names) (fun i => nth i x 0 * (- T ^ 2 * aid1 (c_of L (nm i)) (s_Tc D (nm i)) T)))). { intro t. rewrite <- sumn_scal. apply sumn_ext. intros. match goal with |- ?u = ?v => change (@eq R u v) end. ring. }
    apply (sum_d _ (fun T i => nth i x 0 * (- T ^ 2 * aid1 (c_of L (nm i)) (s_Tc D (nm i)) T))). intros i Hi. apply (scal_d (nth i x 0) (fun T => - T ^ 2 * aid1 (c_of L (nm i)) (s_Tc D (nm i)) T)). intros _.
    destruct (crit L D all Fit (nm i) (In' i Hi)) as [P1 P2]. pose proof (c_of_cond L tab look all IL IC _ (In' i Hi)) as Cc. exact (aid_u _ (ic4 _ _ Cc) (ic6 _ _ Cc) _ P1 T HT).
  - assert (CP : forall i, (i < length names)%nat -> 0 < aid_cv (c_of L (nm i)) (s_Tc D (nm i)) T). { intros i Hi. destruct (crit L D all Fit (nm i) (In' i Hi)) as [P1 P2]. pose proof (c_of_cond L tab look all IL IC _ (In' i Hi)) as Cc. exact (aid_cv_pos _ (ic4 _ _ Cc) (ic6 _ _ Cc) _ P1 (ic3 _ _ Cc) (ip4 _ _ Cc) (ip6 _ _ Cc) (ip7 _ _ Cc) T HT). }
    assert (Some1 : exists k, (k < length names)%nat /\ 0 < nth k x 0).
    { destruct (Rle_dec (sumn (length names) (fun i => nth i x 0)) 0) as [Q|Q]; [lra|]. clear - Q Xi. revert Q Xi. generalize (length names) as n. induction n as [|n IH]; intros Q Xi; cbn [sumn] in Q; [lra|]. destruct (Xi n ltac:(lia)) as [Z|P]; [|exists n; split; [lia|exact P]]. rewrite Z in Q. destruct IH as (k & Hk & P); [lra|intros; apply Xi; lia|]. exists k. split; [lia|exact P]. }
    destruct Some1 as (k & Hk & Pk). apply (sumn_pos1 _ _ k Hk); [intros i Hi; specialize (CP i Hi); destruct (Xi i Hi); nra|]. specialize (CP k Hk). now apply Rmult_lt_0_compat.
Qed.
Theorem C84_heat_capacity :
  (forall names m x, make_gideal lib04 names = Val m -> length x = length names -> composition x -> exists (a : R -> R -> R) (a1 cv : R -> R), forall T rho, 0 < T -> 0 < rho ->
    gideal_alphar m T rho x = ok (a T rho) /\ is_derive (fun rho => a T rho) rho (1 / rho) /\ is_derive (fun T => a T rho) T (a1 T) /\ is_derive (fun T => - T ^ 2 * a1 T) T (cv T) /\ 0 < cv T) /\
  (forall names m x, make_gideal lib08 names = Val m -> length x = length names -> composition x -> exists (a : R -> R -> R) (a1 cv : R -> R), forall T rho, 0 < T -> 0 < rho ->
    gideal_alphar m T rho x = ok (a T rho) /\ is_derive (fun rho => a T rho) rho (1 / rho) /\ is_derive (fun T => a T rho) T (a1 T) /\ is_derive (fun T => - T ^ 2 * a1 T) T (cv T) /\ 0 < cv T).
Proof.
  split.
  - exact (thermo_gen lib04 (data_of tables04) ideal04 (assoc ideal04) names04 fits04 ideal04_d icheck04 known04 info04_arg).
  - exact (thermo_gen lib08 (data_of tables08) table08 dideal08 names08 fits08 ideal08_d icheck08 known08 info08_arg).
Qed.
Example C84_heat_capacity_met : exists m, make_gideal lib08 ["methane"; "n-decane"]%string = Val m /\ composition [0.5; 0.5].
Proof. destruct C84_names_met as [m H]. exists m. split; [exact H|]. split; [intros [|[|i]] Hi; cbn in *; try lra; lia|cbn; lra]. Qed.

(** The coefficients are those of the reference implementation: n4 to n7 are equal, its n3 is that
    of the isobaric heat capacity and one larger, and its theta, in K, is theta times the critical
    temperature to nine digits. *)
Definition ref_close (f : string) : bool :=
  match dideal08 f, dinfo08 f with
  | Some (n, th), Some (_, Tc, _) =>
      let rn := at1 [] ref_n0 f in let rth := at1 [] ref_th0 f in
      (Nat.eqb (length rn) 5 && Nat.eqb (length rth) 4 &&
       forallb (fun k => dnum_eqb (nth (k + 3) n (d_ 0 0)) (nth (k + 1) rn (d_ 0 0))) [0; 1; 2; 3]%nat &&
       Z.eqb ((dm (nth 2 n (d_ 0 0)) + 10 ^ Z.of_nat (de (nth 2 n (d_ 0 0)))) * 10 ^ Z.of_nat (de (nth 0 rn (d_ 0 0)))) (dm (nth 0 rn (d_ 0 0)) * 10 ^ Z.of_nat (de (nth 2 n (d_ 0 0)))) &&
       forallb (fun k => let a := nth k th (d_ 0 0) in let b := nth k rth (d_ 0 0) in
         Z.leb (Z.abs (Z.abs (dm a) * dm Tc * 10 ^ Z.of_nat (de b) - dm b * 10 ^ Z.of_nat (de a + de Tc)) * 10 ^ 9) (2 * dm b * 10 ^ Z.of_nat (de a + de Tc))) [0; 1; 2; 3]%nat)%bool
  | _, _ => false
  end.
Lemma ref_close_check : forallb ref_close names08 = true. Proof. vm_compute. reflexivity. Qed.
Theorem C84_reference_tables : forall f, In f names08 ->
  (forall k, (4 <= k <= 7)%nat -> ideal_n (ideal08 ++ ideal04) f k = val (nth (k - 3) (at1 [] ref_n0 f) (d_ 0 0))) /\
  ideal_n (ideal08 ++ ideal04) f 3 + 1 = val (nth 0 (at1 [] ref_n0 f) (d_ 0 0)) /\
  (forall k, (4 <= k <= 7)%nat -> let th := val (nth (k - 4) (at1 [] ref_th0 f) (d_ 0 0)) in Rabs (Rabs (ideal_th (ideal08 ++ ideal04) f k) * val (at1 (d_ 1 0) ref_Tc f) - th) <= 2e-9 * th).
Proof.
  intros f Hf. pose proof (proj1 (forallb_forall _ _) ref_close_check f Hf) as H. pose proof (proj1 (forallb_forall _ _) icheck08 f Hf) as I. unfold ifits in I. unfold ref_close in H.
  destruct (proj1 C83_reference_tables f Hf) as (ET & _). cbn [data_of s_Tc ref_data] in ET. assert (EI : exists rc Tc M, dinfo08 f = Some (rc, Tc, M) /\ val Tc = val (at1 (d_ 1 0) ref_Tc f)).
  { destruct (dinfo08 f) as [[[rc Tc] M]|] eqn:E; [|destruct (dideal08 f) as [[? ?]|]; discriminate]. exists rc, Tc, M. split; [reflexivity|]. assert (In1 : incl [f] names08) by (intros z [<-|[]]; exact Hf). destruct (fit_info _ _ _ (fits08 [f] In1) f (or_introl eq_refl)) as (i & Ei & Ti & _). cbn [l_info lib08] in Ei. rewrite info08_d, E in Ei. injection Ei as <-. cbn [pinfo_of p_Tc] in Ti. rewrite Ti. exact ET. }
  destruct EI as (rc & Tc & M & E & EV). rewrite E in H. destruct (dideal08 f) as [[n th]|]; [|discriminate]. apply andb_true_iff in I as [I _]. unfold ieqb in I. apply andb_true_iff in I as [I1 I2]. assert (EQ : forall a b, dnum_eqb a b = true -> a = b) by (intros a b; apply dnum_eqb_eq). apply (list_eqb_eq _ _ EQ) in I1, I2. unfold ideal_n, ideal_th. change (ideal08 ++ ideal04) with table08. rewrite <- I1, <- I2. cbn [fst snd]. rewrite <- EV.
  rewrite !andb_true_iff in H. destruct H as ((((_ & _) & H1) & H2) & H3). rewrite forallb_forall in H1, H3. split; [|split].
  - intros k Hk. specialize (H1 (k - 4)%nat). rewrite dnum_eqb_eq in H1. replace (k - 1)%nat with (k - 4 + 3)%nat by lia. rewrite H1; [do 2 f_equal; lia|]. cbn. lia.
  - change (3 - 1)%nat with 2%nat. set (a := nth 2 n (d_ 0 0)) in *. set (b := nth 0 _ (d_ 0 0)) in *. apply Z.eqb_eq in H2. apply (f_equal IZR) in H2. rewrite !mult_IZR, plus_IZR, !p10 in H2. unfold val. pose proof (p10_pos (de a)). pose proof (p10_pos (de b)). apply Rmult_eq_reg_r with (10 ^ de a * 10 ^ de b); [|apply Rmult_integral_contrapositive; split; lra].
    replace ((IZR (dm a) / 10 ^ de a + 1) * (10 ^ de a * 10 ^ de b)) with ((IZR (dm a) + 10 ^ de a) * 10 ^ de b) by (field; lra). rewrite H2. field. lra.
  - intros k Hk. specialize (H3 (k - 4)%nat ltac:(cbn; lia)). cbn beta zeta in H3. set (a := nth (k - 4) th (d_ 0 0)) in *. set (b := nth (k - 4) (at1 [] ref_th0 f) (d_ 0 0)) in *. change (10 ^ 9)%Z with 1000000000%Z in H3. apply Z.leb_le, IZR_le in H3. rewrite !mult_IZR, abs_IZR, minus_IZR, !mult_IZR, abs_IZR, !p10, pow_add in H3. cbn zeta. unfold val.
    pose proof (p10_pos (de a)) as Pa. pose proof (p10_pos (de b)) as Pb. pose proof (p10_pos (de Tc)) as Pc. set (A := 10 ^ de a) in *. set (B := 10 ^ de b) in *. set (C := 10 ^ de Tc) in *.
    assert (PP : 0 < A * B * C) by (apply Rmult_lt_0_compat; [apply Rmult_lt_0_compat|]; assumption). apply Rmult_le_reg_r with (A * B * C * 1000000000); [lra|].
    replace (Rabs (IZR (dm a) / A)) with (Rabs (IZR (dm a)) / A) by (unfold Rdiv; rewrite Rabs_mult; f_equal; symmetry; apply Rabs_right, Rle_ge, Rlt_le, Rinv_0_lt_compat, Pa).
    replace (Rabs (Rabs (IZR (dm a)) / A * (IZR (dm Tc) / C) - IZR (dm b) / B) * (A * B * C * 1000000000)) with (Rabs (Rabs (IZR (dm a)) * IZR (dm Tc) * B - IZR (dm b) * (A * C)) * 1000000000).
    + replace (2e-9 * (IZR (dm b) / B) * (A * B * C * 1000000000)) with (2 * IZR (dm b) * (A * C)); [exact H3|]. transitivity (2e-9 * 1000000000 * IZR (dm b) * (A * C) * (B * / B)); [rewrite Rinv_r by lra; lra|unfold Rdiv; lra].
    + set (u := Rabs (IZR (dm a)) / A * (IZR (dm Tc) / C) - IZR (dm b) / B). replace (Rabs (IZR (dm a)) * IZR (dm Tc) * B - IZR (dm b) * (A * C)) with (u * (A * B * C)) by (unfold u; field; repeat split; lra). rewrite Rabs_mult, (Rabs_right (A * B * C)) by lra. ring.
Qed.
Example C84_reference_tables_met : In "nitrogen"%string names08. Proof. cbn. tauto. Qed.

(** Components that are absent, and the order of the others, do not matter. *)
Theorem C84_components : forall names x r T rho, length x = length names -> NoDup r -> (forall i, In i r -> (i < length names)%nat) ->
  (forall i, (i < length names)%nat -> ~ In i r -> nth i x 0 = 0) -> 0 < T -> 0 < rho ->
  (forall m m', make_gideal lib04 names = Val m -> make_gideal lib04 (pick EmptyString r names) = Val m' -> gideal_alphar m' T rho (pick 0 r x) = gideal_alphar m T rho x) /\
  (forall m m', make_gideal lib08 names = Val m -> make_gideal lib08 (pick EmptyString r names) = Val m' -> gideal_alphar m' T rho (pick 0 r x) = gideal_alphar m T rho x).
Proof.
  intros names x r T rho Lx ND Hr Z HT Hrho. assert (G : forall a, ideal_mix a (pick EmptyString r names) (pick 0 r x) T rho = ideal_mix a names x T rho).
  { intro a. unfold ideal_mix. apply (pick_single names x r ND Hr Z (fun f u => if Rlt_dec 0 u then u * (a f T rho + ln u) else 0)). intro f. destruct (Rlt_dec 0 0); [lra|reflexivity]. }
  assert (Lp : length (pick 0 r x) = length (pick EmptyString r names)) by (unfold pick; now rewrite !map_length).
  destruct C84_formula as [(n1 & n2 & _ & F4) (n1' & n2' & _ & F8)]. split; intros m m' H H'.
  - rewrite (F4 _ m' _ T rho H' Lp HT Hrho), (F4 _ m _ T rho H Lx HT Hrho), G. reflexivity.
  - rewrite (F8 _ m' _ T rho H' Lp HT Hrho), (F8 _ m _ T rho H Lx HT Hrho), G. reflexivity.
Qed.
Example C84_components_met : (exists m, make_gideal lib08 ["methane"; "water"; "argon"]%string = Val m) /\ (exists m, make_gideal lib08 (pick EmptyString [2; 0]%nat ["methane"; "water"; "argon"]%string) = Val m).
Proof. split; apply imake08; cbn; sub. Qed.

(** The number of fractions is compared; a temperature or density that is not positive has no finite
    value as soon as some component is present. *)
Lemma ideal_none : forall c Tc rc T rho, 0 < Tc -> 0 < rc -> ~ (0 < T /\ 0 < rho) -> ideal_pure c Tc rc T rho = None.
Proof.
  intros c Tc rc T rho P1 P2 N. unfold ideal_pure. destruct (constants c Tc rc) as [n12|]; [|reflexivity]. cbn [opt_bind]. destruct (Rlt_dec 0 T) as [PT|NT].
  - rewrite cdiv_nz by lra. cbn [opt_bind]. rewrite clog_val by (apply Rdiv_lt_0_compat; lra). cbn [opt_bind].
    match goal with |- opt_bind ?s _ = None => destruct s; [cbn [opt_bind]|reflexivity] end. match goal with |- opt_bind ?s _ = None => destruct s; [cbn [opt_bind]|reflexivity] end. match goal with |- opt_bind ?s _ = None => destruct s; [cbn [opt_bind]|reflexivity] end. match goal with |- opt_bind ?s _ = None => destruct s; [cbn [opt_bind]|reflexivity] end.
    rewrite cdiv_nz by lra. cbn [opt_bind]. unfold clog. destruct (Rlt_dec 0 (rho / rc)) as [Q|Q]; [|reflexivity]. contradiction N. split; [exact PT|]. replace rho with (rho / rc * rc) by (field; lra). now apply Rmult_lt_0_compat.
  - destruct (Req_EM_T T 0) as [->|NZ]; [unfold cdiv; destruct (Req_EM_T 0 0); [reflexivity|contradiction]|]. rewrite cdiv_nz by exact NZ. cbn [opt_bind]. unfold clog. destruct (Rlt_dec 0 (Tc / T)) as [Q|Q]; [|reflexivity]. exfalso. assert (Tc / T < 0). { unfold Rdiv. assert (/ T < 0) by (apply Rinv_lt_0_compat; lra). nra. } lra.
Qed.
Theorem C84_domain : forall L, L = lib04 \/ L = lib08 -> forall names m x T rho, make_gideal L names = Val m ->
  (length x <> length names -> gideal_alphar m T rho x = throws StdInvalidArgument) /\
  (length x = length names -> (exists i, (i < length names)%nat /\ 0 < nth i x 0) -> ((exists a, gideal_alphar m T rho x = ok a) <-> 0 < T /\ 0 < rho)).
Proof.
  intros L HL names m x T rho H. assert (HI : exists all D, (forall names, incl names all -> fits L D names) /\ incl names all).
  { destruct HL as [-> | ->]; [exists names04, (data_of tables04)|exists names08, (data_of tables08)]; (split; [apply fits04 || apply fits08|]); [apply imake04|apply imake08]; eauto. }
  destruct HI as (all & D & Fit & I). assert (H0 := H). unfold make_gideal in H. destruct (map_res (l_info L) names) as [infos|] eqn:M; cbn [bind] in H; [|discriminate]. destruct (map_res (l_ideal L) names) as [cs|] eqn:C; cbn [bind] in H; [|discriminate]. injection H as <-.
  apply map_res_iff in M. assert (Li : length infos = length names) by (clear - M; induction M; cbn; congruence). split.
  - intro N. unfold gideal_alphar. cbn [g_Tc]. rewrite map_length, Li. destruct (Nat.eqb_spec (length x) (length names)); [contradiction|reflexivity].
  - intros Lx (i & Hi & Px). split.
    + intros [v Hv]. unfold gideal_alphar in Hv. cbn [g_Tc g_rhoc g_coeffs] in Hv. rewrite map_length, Li, Lx, Nat.eqb_refl in Hv. cbn [negb] in Hv. unfold fin in Hv. destruct (osum _ _) as [s|] eqn:S; [|discriminate]. destruct (osum_some _ _ _ S) as (g & Hg & _). pose proof (Hg i Hi) as Hw. cbn beta in Hw. destruct (Rlt_dec 0 (nth i x 0)); [|contradiction]. destruct (nth_error cs i) as [c|]; [|discriminate].
      destruct (Rlt_dec 0 T) as [PT|NT], (Rlt_dec 0 rho) as [PR|NR]; [auto|exfalso..]; rewrite ideal_none in Hw; try discriminate Hw; try tauto.
      all: assert (Gi : exists v, nth_error infos i = Some v /\ l_info L (nth i names EmptyString) = Val v) by (clear - M Hi; revert i Hi; induction M as [|a b l l' E F IH]; intros [|i] Hi; cbn in *; try lia; [eauto|]; apply IH; lia).
      all: destruct Gi as (u & Nu & Eu); assert (Hf : In (nth i names EmptyString) names) by (now apply nth_In); destruct (fit_info _ _ _ (Fit names I) _ Hf) as (u' & Eu' & T1 & R1); rewrite Eu in Eu'; injection Eu' as <-; destruct (fit_crit _ _ _ (Fit names I) _ Hf) as [Q1 Q2]; rewrite <- T1 in Q1; rewrite <- R1 in Q2.
      1-6: match goal with U : nth_error ?l ?k = Some ?u |- 0 < nth ?k (map ?p ?l) 0 => replace (nth k (map p l) 0) with (p u) by (symmetry; apply nth_error_nth; rewrite nth_error_map, U; reflexivity); assumption end.
    + intros [PT PR]. destruct C84_formula as [(n1 & n2 & _ & F4) (n1' & n2' & _ & F8)]. destruct HL as [-> | ->]; eexists; [eapply F4|eapply F8]; eassumption.
Qed.
Example C84_domain_met : exists m, make_gideal lib08 ["methane"; "n-decane"]%string = Val m /\ exists i, (i < 2)%nat /\ 0 < nth i [0.5; 0.5] 0.
Proof. destruct C84_names_met as [m H]. exists m. split; [exact H|]. exists O. cbn. split; [lia|lra]. Qed.

(** The factories. *)
Theorem C84_factory : forall L,
  (forall o ns, lookup "names" o = Some (JArr (map JStr ns)) -> gideal_factory L (JObj o) = make_gideal L ns) /\
  (forall spec, ~ (exists o ns, spec = JObj o /\ lookup "names" o = Some (JArr (map JStr ns))) -> gideal_factory L spec = Err JsonError).
Proof. intro L. split; [intros o ns H|intros spec H]; unfold gideal_factory; [rewrite (proj1 spec_names_read o ns H)|rewrite (proj2 spec_names_read spec H)]; reflexivity. Qed.
Example C84_factory_met : exists m, gideal_factory lib08 (JObj [("names"%string, JArr [JStr "methane"; JStr "n-decane"])]) = Val m.
Proof. destruct C84_names_met as [m H]. exists m. rewrite (proj1 (C84_factory lib08) [("names"%string, JArr [JStr "methane"; JStr "n-decane"])] ["methane"; "n-decane"]%string eq_refl). exact H. Qed.
Print Assumptions C84_names.
Print Assumptions C84_formula.
Print Assumptions C84_heat_capacity.
Print Assumptions C84_reference_tables.
Print Assumptions C84_components.
Print Assumptions C84_domain.
Print Assumptions C84_factory.
