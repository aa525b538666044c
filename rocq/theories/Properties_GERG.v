(** C83: the residual part of the GERG-2004 and GERG-2008 models. *)
From Coq Require Import Reals ZArith String List Lia Lra Bool.
From Coquelicot Require Import Coquelicot.
From Verif Require Import Json_model Vec_spec Vec_proofs Cubic_model Cubic_spec Terms_model Ideal_model Util_model Assoc_model Multi_proofs2.
From Verif Require Import GERG_tables GERG_reference GERG_model GERG_spec GERG_proofs GERG_proofs2 GERG_proofs3.
Import ListNotations.
Local Open Scope R_scope.

Lemma make04 : forall names, ((exists m, make_gres lib04 names = Val m) <-> incl names names04 /\ NoDup names) /\ (~ (incl names names04 /\ NoDup names) -> make_gres lib04 names = Err StdInvalidArgument).
Proof. exact (make_iff lib04 dlib04 tables04 names04 stands04 check04 known04 self04 get_pure04_arg). Qed.
Lemma make08 : forall names, ((exists m, make_gres lib08 names = Val m) <-> incl names names08 /\ NoDup names) /\ (~ (incl names names08 /\ NoDup names) -> make_gres lib08 names = Err StdInvalidArgument).
Proof. exact (make_iff lib08 dlib08 tables08 names08 stands08 check08 known08 self08 get_pure08_arg). Qed.
Lemma fits04 : forall names, incl names names04 -> fits lib04 (data_of tables04) names.
Proof. exact (fits_all lib04 dlib04 tables04 names04 stands04 check04). Qed.
Lemma fits08 : forall names, incl names names08 -> fits lib08 (data_of tables08) names.
Proof. exact (fits_all lib08 dlib08 tables08 names08 stands08 check08). Qed.
Lemma size_of : forall L E t all names m, stands L E -> check E t nothing all = true -> incl names all -> NoDup names -> make_gres L names = Val m -> length (m_Tc m) = length names.
Proof. intros L E t all names m St Ck I ND H. destruct (make_ok L (data_of t) names (fits_all L E t all St Ck names I) ND) as (m' & H' & Ln & _). congruence. Qed.
Lemma size04 : forall names m, make_gres lib04 names = Val m -> incl names names04 /\ NoDup names /\ length (m_Tc m) = length names.
Proof. intros names m H. destruct (proj1 (proj1 (make04 names)) (ex_intro _ m H)) as [I ND]. split; [exact I|]. split; [exact ND|]. exact (size_of _ _ _ _ _ _ stands04 check04 I ND H). Qed.
Lemma size08 : forall names m, make_gres lib08 names = Val m -> incl names names08 /\ NoDup names /\ length (m_Tc m) = length names.
Proof. intros names m H. destruct (proj1 (proj1 (make08 names)) (ex_intro _ m H)) as [I ND]. split; [exact I|]. split; [exact ND|]. exact (size_of _ _ _ _ _ _ stands08 check08 I ND H). Qed.
Lemma eval04 : forall m T rho x, length x = length (m_Tc m) -> gres04_alphar m T rho x = gres_eval m T rho x.
Proof. intros m T rho x H. unfold gres04_alphar. rewrite H, Nat.ltb_irrefl. reflexivity. Qed.
Lemma eval08 : forall m T rho x, length x = length (m_Tc m) -> gres08_alphar m T rho x = gres_eval m T rho x.
Proof. intros m T rho x H. unfold gres08_alphar. rewrite H, Nat.eqb_refl. reflexivity. Qed.

(** A model is made exactly for distinct names from the list of components; for other names the
    exception is [std::invalid_argument]. *)
Theorem C83_names :
  (forall names, ((exists m, make_gres lib04 names = Val m) <-> incl names names04 /\ NoDup names) /\ (~ (incl names names04 /\ NoDup names) -> make_gres lib04 names = Err StdInvalidArgument)) /\
  (forall names, ((exists m, make_gres lib08 names = Val m) <-> incl names names08 /\ NoDup names) /\ (~ (incl names names08 /\ NoDup names) -> make_gres lib08 names = Err StdInvalidArgument)).
Proof. exact (conj make04 make08). Qed.
Ltac sub := let f := fresh in let H := fresh in intros f H; cbn in H; repeat (destruct H as [<-|H]; [cbn; tauto|]); contradiction.
Ltac nodup := repeat (constructor; [cbn; intuition discriminate|]); constructor.
Example C83_names_met : (exists m, make_gres lib08 ["methane"; "n-decane"]%string = Val m) /\ make_gres lib04 ["methane"; "n-decane"]%string = Err StdInvalidArgument /\ make_gres lib08 ["methane"; "methane"]%string = Err StdInvalidArgument.
Proof.
  split; [|split].
  - apply (proj2 C83_names). split; [sub|nodup].
  - apply (proj1 C83_names). intros [I _]. specialize (I "n-decane"%string ltac:(cbn; tauto)). cbn in I. intuition discriminate.
  - apply (proj2 C83_names). intros [_ N]. inversion N; subst. cbn in *. tauto.
Qed.

(** At every temperature, density and composition the energy is that of the published equation
    with the tables of the code. *)
Theorem C83_formula :
  (forall names m x T rho, make_gres lib04 names = Val m -> fractions (length names) x -> 0 < T -> 0 <= rho -> gres04_alphar m T rho x = ok (gerg (data_of tables04) names x T rho)) /\
  (forall names m x T rho, make_gres lib08 names = Val m -> fractions (length names) x -> 0 < T -> 0 <= rho -> gres08_alphar m T rho x = ok (gerg (data_of tables08) names x T rho)).
Proof.
  split; intros names m x T rho H (Lx & Xp & X1) HT Hr.
  - destruct (size04 names m H) as (I & ND & Ln). rewrite eval04 by congruence. exact (eval_ok lib04 _ names (fits04 names I) ND x Lx Xp X1 m T rho H HT Hr).
  - destruct (size08 names m H) as (I & ND & Ln). rewrite eval08 by congruence. exact (eval_ok lib08 _ names (fits08 names I) ND x Lx Xp X1 m T rho H HT Hr).
Qed.
Lemma half_half : fractions 2 [0.5; 0.5].
Proof. split; [reflexivity|]. split; [intros [|[|i]] Hi; cbn; lra || lia|]. exists O. cbn. split; [lia|lra]. Qed.
Example C83_formula_met : exists m, make_gres lib08 ["methane"; "n-decane"]%string = Val m /\ fractions (length ["methane"; "n-decane"]%string) [0.5; 0.5].
Proof. destruct C83_names_met as [[m H] _]. exists m. split; [exact H|exact half_half]. Qed.

(** The GERG-2008 model is the equation with the tables of the reference implementation, for all
    mixtures without both butanes. *)
Theorem C83_reference : forall names m x T rho, make_gres lib08 names = Val m -> ~ (In "n-butane"%string names /\ In "isobutane"%string names) ->
  fractions (length names) x -> 0 < T -> 0 <= rho -> gres08_alphar m T rho x = ok (gerg ref_data names x T rho).
Proof.
  intros names m x T rho H NB (Lx & Xp & X1) HT Hr. destruct (size08 names m H) as (I & ND & Ln). rewrite eval08 by congruence. apply (eval_ok lib08 _ names) with (2 := ND); try assumption.
  apply (check_fits lib08 dlib08 reference butanes names08 stands08 check_ref names I). intros a b Ha Hb. unfold butanes. destruct (String.eqb_spec a "n-butane"), (String.eqb_spec b "isobutane"), (String.eqb_spec a "isobutane"), (String.eqb_spec b "n-butane"); cbn; subst; try reflexivity; try discriminate; contradiction NB; auto.
Qed.
Example C83_reference_met : exists m, make_gres lib08 ["methane"; "n-decane"]%string = Val m /\ ~ (In "n-butane"%string ["methane"; "n-decane"]%string /\ In "isobutane"%string ["methane"; "n-decane"]%string).
Proof. destruct C83_names_met as [[m H] _]. exists m. split; [exact H|]. cbn. intuition discriminate. Qed.

(** For the two butanes the betas, which the code has for the other order, agree to nine digits; all
    other data of all components and pairs are the same, the molar masses too. *)
Definition near (e a b : R) : Prop := Rabs (a - b) <= e.
Lemma near_refl : forall a, near 1e-9 a a. Proof. intro a. unfold near. rewrite Rminus_eq_0, Rabs_R0. lra. Qed.
Definition masses_ok (f : string) : bool := match dinfo08 f with Some (_, _, M) => dnum_eqb M (at1 (d_ 1 0) ref_M f) | None => false end.
Lemma masses_check : forallb masses_ok names08 = true. Proof. vm_compute. reflexivity. Qed.
Lemma butanes_near : let c := data_of tables08 in let r := ref_data in forall a b, butanes a b = true ->
  near 1e-9 (s_bT c a b) (s_bT r a b) /\ near 1e-9 (s_bv c a b) (s_bv r a b) /\ s_gT c a b = s_gT r a b /\ s_gv c a b = s_gv r a b /\ s_F c a b = s_F r a b /\ s_dep c a b = s_dep r a b.
Proof.
  intros c r a b H. unfold butanes in H. rewrite orb_true_iff, !andb_true_iff, !String.eqb_eq in H.
  destruct H as [[-> ->]|[-> ->]]; unfold c, r, ref_data; cbn [data_of s_bT s_bv s_gT s_gv s_F s_dep].
  - replace (t_pair tables08 "n-butane" "isobutane") with ({| b_V := d_ 1000880464 9; g_V := d_ 100041444 8; b_T := d_ 1000077547 9; g_T := d_ 1001432824 9 |}, true) by (vm_compute; reflexivity).
    replace (t_pair reference "n-butane" "isobutane") with ({| b_V := d_ 999120311 9; g_V := d_ 100041444 8; b_T := d_ 999922459 9; g_T := d_ 1001432824 9 |}, false) by (vm_compute; reflexivity).
    replace (t_excess tables08 "n-butane" "isobutane") with (t_excess reference "n-butane" "isobutane") by (vm_compute; reflexivity).
    cbn [fst snd b_T b_V g_T g_V directed]. unfold near, val. cbn [dm de]. repeat split; apply Rabs_le; split; lra.
  - replace (t_pair tables08 "isobutane" "n-butane") with ({| b_V := d_ 1000880464 9; g_V := d_ 100041444 8; b_T := d_ 1000077547 9; g_T := d_ 1001432824 9 |}, false) by (vm_compute; reflexivity).
    replace (t_pair reference "isobutane" "n-butane") with ({| b_V := d_ 999120311 9; g_V := d_ 100041444 8; b_T := d_ 999922459 9; g_T := d_ 1001432824 9 |}, true) by (vm_compute; reflexivity).
    replace (t_excess tables08 "isobutane" "n-butane") with (t_excess reference "isobutane" "n-butane") by (vm_compute; reflexivity).
    cbn [fst snd b_T b_V g_T g_V directed]. unfold near, val. cbn [dm de]. repeat split; apply Rabs_le; split; lra.
Qed.
Lemma val_bip_inj : forall a b c d a' b' c' d', Val {| bV := a; gV := b; bT := c; gT := d |} = Val {| bV := a'; gV := b'; bT := c'; gT := d' |} -> a = a' /\ b = b' /\ c = c' /\ d = d'.
Proof. intros * E. injection E. auto. Qed.
Theorem C83_reference_tables : let c := data_of tables08 in let r := ref_data in
  (forall f, In f names08 -> s_Tc c f = s_Tc r f /\ s_rhoc c f = s_rhoc r f /\ s_pure c f = s_pure r f /\ exists i, get_info08 f = Val i /\ p_M i = val (at1 (d_ 1 0) ref_M f) / 1000) /\
  (forall a b, In a names08 -> In b names08 -> a <> b ->
     near 1e-9 (s_bT c a b) (s_bT r a b) /\ near 1e-9 (s_bv c a b) (s_bv r a b) /\ s_gT c a b = s_gT r a b /\ s_gv c a b = s_gv r a b /\ s_F c a b = s_F r a b /\ (s_F r a b <> 0 -> s_dep c a b = s_dep r a b)).
Proof.
  intros c r. split.
  - intros f Hf. assert (F1 : fits lib08 c [f]) by (apply fits08; intros z [<-|[]]; exact Hf). assert (F2 : fits lib08 r [f]). { apply (check_fits lib08 dlib08 reference butanes names08 stands08 check_ref [f]); [intros z [<-|[]]; exact Hf|]. intros a b [<-|[]] [<-|[]]. unfold butanes. destruct (String.eqb_spec f "n-butane"), (String.eqb_spec f "isobutane"); subst; try discriminate; reflexivity. }
    destruct (fit_info _ _ _ F1 f (or_introl eq_refl)) as (i & E1 & T1 & R1). destruct (fit_info _ _ _ F2 f (or_introl eq_refl)) as (i' & E2 & T2 & R2). rewrite E1 in E2. injection E2 as <-.
    destruct (fit_pure _ _ _ F1 f (or_introl eq_refl)) as (p & P1 & _ & Q1). destruct (fit_pure _ _ _ F2 f (or_introl eq_refl)) as (p' & P2 & _ & Q2). rewrite P1 in P2. injection P2 as <-.
    split; [congruence|]. split; [congruence|]. split; [congruence|]. exists i. split; [exact E1|]. pose proof (proj1 (forallb_forall _ _) masses_check f Hf) as M. unfold masses_ok in M. change (get_info08 f = Val i) in E1. rewrite info08_d in E1. destruct (dinfo08 f) as [[[rc Tc] Mf]|]; [|discriminate]. apply dnum_eqb_eq in M. cbn in E1. injection E1 as <-. cbn. now rewrite M.
  - intros a b Ha Hb N. destruct (butanes a b) eqn:B; [destruct (butanes_near a b B) as (H1 & H2 & H3 & H4 & H5 & H6); auto 8|].
    assert (I : incl [a; b] names08) by (intros z [<-|[<-|[]]]; assumption). assert (F1 : fits lib08 c [a; b]) by (apply fits08; exact I).
    assert (F2 : fits lib08 r [a; b]). { apply (check_fits lib08 dlib08 reference butanes names08 stands08 check_ref [a; b] I). assert (B' : butanes b a = false) by (unfold butanes in *; rewrite orb_comm, (andb_comm (String.eqb b "isobutane")), (andb_comm (String.eqb b "n-butane")); exact B).
      assert (S' : forall z, butanes z z = false). { intro z. unfold butanes. destruct (String.eqb_spec z "n-butane"), (String.eqb_spec z "isobutane"); subst; try discriminate; reflexivity. } intros u v [<-|[<-|[]]] [<-|[<-|[]]]; auto. }
    assert (A1 : In a [a; b]) by (now left). assert (A2 : In b [a; b]) by (right; now left).
    pose proof (fit_bip _ _ _ F1 a b A1 A2 N) as P. rewrite (fit_bip _ _ _ F2 a b A1 A2 N) in P. apply val_bip_inj in P as (E1 & E2 & E3 & E4). pose proof (fit_F _ _ _ F1 a b A1 A2) as Q1. pose proof (fit_F _ _ _ F2 a b A1 A2) as Q2. rewrite Q1 in Q2.
    rewrite <- E3, <- E1, <- E4, <- E2. split; [apply near_refl|]. split; [apply near_refl|]. split; [reflexivity|]. split; [reflexivity|]. split; [exact Q2|]. intro NZ. destruct (fit_dep _ _ _ F2 a b A1 A2 NZ) as (d & D1 & _ & D2). rewrite <- Q2 in NZ. destruct (fit_dep _ _ _ F1 a b A1 A2 NZ) as (d' & D1' & _ & D2'). congruence.
Qed.
Example C83_reference_tables_met : In "isobutane"%string names08 /\ In "n-butane"%string names08. Proof. split; cbn; tauto. Qed.

(** GERG-2004 and GERG-2008 are the same for mixtures of components of GERG-2004 other than
    isopentane and carbon monoxide, whose critical constants or mixing parameters were changed. *)
Definition unchanged : list string := filter (fun f => negb (String.eqb f "isopentane" || String.eqb f "carbonmonoxide")) names04.
Lemma check_unchanged : check dlib04 tables08 nothing unchanged = true. Proof. vm_compute. reflexivity. Qed.
Lemma names_incl : incl names04 names08. Proof. intros f H. apply mem_in. apply (proj1 (forallb_forall (mem names08) names04)); [vm_compute; reflexivity|exact H]. Qed.
Theorem C83_2004 : forall names m04 m08 x T rho, incl names names04 -> ~ In "isopentane"%string names -> ~ In "carbonmonoxide"%string names ->
  make_gres lib04 names = Val m04 -> make_gres lib08 names = Val m08 -> fractions (length names) x -> 0 < T -> 0 <= rho -> gres04_alphar m04 T rho x = gres08_alphar m08 T rho x.
Proof.
  intros names m04 m08 x T rho I N1 N2 H4 H8 Hx HT Hr. rewrite (proj2 C83_formula names m08 x T rho H8 Hx HT Hr). destruct Hx as (Lx & Xp & X1). destruct (size04 names m04 H4) as (_ & ND & Ln). rewrite eval04 by congruence.
  apply (eval_ok lib04 _ names) with (2 := ND); try assumption. apply (check_fits lib04 dlib04 tables08 nothing unchanged stands04 check_unchanged); [|reflexivity]. intros f Hf. unfold unchanged. apply filter_In. split; [now apply I|]. destruct (String.eqb_spec f "isopentane"), (String.eqb_spec f "carbonmonoxide"); subst; try contradiction; reflexivity.
Qed.
Example C83_2004_met : exists m04 m08, make_gres lib04 ["methane"; "water"]%string = Val m04 /\ make_gres lib08 ["methane"; "water"]%string = Val m08.
Proof.
  destruct (proj2 (proj1 (make04 ["methane"; "water"]%string))) as [m4 H4]; [split; [sub|nodup]|]. destruct (proj2 (proj1 (make08 ["methane"; "water"]%string))) as [m8 H8]; [split; [sub|nodup]|]. eauto.
Qed.

(** Only the components that are present matter, and their order does not: leaving out components
    whose fraction is zero, and writing the others in any order, gives the same energy. *)
Lemma pick_fractions : forall names x r, fractions (length names) x -> NoDup r -> (forall i, In i r -> (i < length names)%nat) ->
  (forall i, (i < length names)%nat -> ~ In i r -> nth i x 0 = 0) -> fractions (length (pick EmptyString r names)) (pick 0 r x).
Proof.
  intros names x r (Lx & Xp & k & Hk & Pk) ND Hr Z. unfold fractions. replace (length (pick EmptyString r names)) with (length r) by (unfold pick; now rewrite map_length). split; [unfold pick; now rewrite map_length|]. split.
  - intros i Hi. rewrite pick_nth' by exact Hi. apply Xp, Hr, nth_In, Hi.
  - destruct (in_dec Nat.eq_dec k r) as [I|N]; [|rewrite (Z k Hk N) in Pk; lra]. apply (In_nth r k O) in I as (i & Hi & E). exists i. split; [exact Hi|]. rewrite pick_nth' by exact Hi. now rewrite E.
Qed.
Theorem C83_components : forall names x r T rho, fractions (length names) x -> NoDup r -> (forall i, In i r -> (i < length names)%nat) ->
  (forall i, (i < length names)%nat -> ~ In i r -> nth i x 0 = 0) -> 0 < T -> 0 <= rho ->
  (forall m m', make_gres lib04 names = Val m -> make_gres lib04 (pick EmptyString r names) = Val m' -> gres04_alphar m' T rho (pick 0 r x) = gres04_alphar m T rho x) /\
  (forall m m', make_gres lib08 names = Val m -> make_gres lib08 (pick EmptyString r names) = Val m' -> gres08_alphar m' T rho (pick 0 r x) = gres08_alphar m T rho x).
Proof.
  intros names x r T rho Hx ND Hr Z HT Hrho. pose proof (pick_fractions names x r Hx ND Hr Z) as Hx'. split; intros m m' H H'.
  - rewrite (proj1 C83_formula _ m' _ T rho H' Hx' HT Hrho), (proj1 C83_formula _ m _ T rho H Hx HT Hrho). unfold ok. do 2 f_equal. apply pick_gerg; assumption.
  - rewrite (proj2 C83_formula _ m' _ T rho H' Hx' HT Hrho), (proj2 C83_formula _ m _ T rho H Hx HT Hrho). unfold ok. do 2 f_equal. apply pick_gerg; assumption.
Qed.
Example C83_components_met : (exists m, make_gres lib08 ["methane"; "water"; "argon"]%string = Val m) /\ (exists m, make_gres lib08 (pick EmptyString [2; 0]%nat ["methane"; "water"; "argon"]%string) = Val m) /\
  (forall i, (i < 3)%nat -> ~ In i [2; 0]%nat -> nth i [0.5; 0; 0.5] 0 = 0).
Proof.
  split; [apply make08; split; [sub|nodup]|]. split; [apply make08; cbn; split; [sub|nodup]|]. intros [|[|[|i]]] Hi N; cbn in *; try lra; try lia; contradiction N; tauto.
Qed.

(** A pure fluid: reduced by its critical temperature and density. *)
Theorem C83_pure : forall f m T rho, make_gres lib08 [f] = Val m -> 0 < T -> 0 <= rho ->
  gres08_alphar m T rho [1] = ok (lsum (pterm_val (val (at1 (d_ 1 0) ref_Tc f) / T) (rho / (1000 * val (at1 (d_ 1 0) ref_Dc f)))) (map pterm_of (at1 [] ref_pure f))).
Proof.
  intros f m T rho H HT Hr. assert (Hx : fractions (length [f]) [1]). { split; [reflexivity|]. split; [intros [|i] Hi; cbn in *; lra || lia|]. exists O. cbn. split; [lia|lra]. }
  rewrite (C83_reference [f] m [1] T rho H) ; [| |exact Hx|exact HT|exact Hr]. 2:{ intros [[E1|[]] [E2|[]]]. congruence. }
  destruct (size08 [f] m H) as (I & ND & _). assert (F : fits lib08 ref_data [f]). { apply (check_fits lib08 dlib08 reference butanes names08 stands08 check_ref [f] I). intros a b [<-|[]] [<-|[]]. unfold butanes. destruct (String.eqb_spec f "n-butane"), (String.eqb_spec f "isobutane"); subst; try discriminate; reflexivity. }
  destruct (fit_self _ _ _ F f (or_introl eq_refl)) as (S1 & S2 & S3 & S4). destruct (fit_crit _ _ _ F f (or_introl eq_refl)) as (C1 & C2). pose proof (fit_Fself _ _ _ F f (or_introl eq_refl)) as F0.
  unfold gerg, Tred, vred. cbn [length sumn nth]. rewrite S1, S2, S3, S4. unfold weight. replace (0 + (0 + 1 * 1 * 1 * 1 * ((1 + 1) / (1 ^ 2 * 1 + 1)) * sqrt (s_Tc ref_data f * s_Tc ref_data f))) with (s_Tc ref_data f) by (rewrite sqrt_square by lra; field).
  rewrite third_cube by (apply Rdiv_lt_0_compat; lra). replace (rho * (0 + (0 + 1 * 1 * 1 * 1 * ((1 + 1) / (1 ^ 2 * 1 + 1)) * (1 / s_rhoc ref_data f)))) with (rho / s_rhoc ref_data f) by (field; lra).
  unfold reduced. cbn [length sumn nth]. rewrite F0. unfold ok. do 2 f_equal. change (s_Tc ref_data f) with (val (at1 (d_ 1 0) ref_Tc f)). change (s_rhoc ref_data f) with (1000 * val (at1 (d_ 1 0) ref_Dc f)). change (s_pure ref_data f) with (map pterm_of (at1 [] ref_pure f)). set (l := lsum _ (map pterm_of (at1 [] ref_pure f))). ring.
Qed.
Example C83_pure_met : exists m, make_gres lib08 ["n-nonane"%string] = Val m. Proof. apply make08. split; [sub|nodup]. Qed.

(** The energy is a differentiable function of the density, at zero density it is zero, and it goes
    to zero with the density. *)
Theorem C83_low_density : forall names m x T, make_gres lib08 names = Val m -> fractions (length names) x -> 0 < T ->
  gres08_alphar m T 0 x = ok 0 /\
  exists a : R -> R, (forall rho, 0 <= rho -> gres08_alphar m T rho x = ok (a rho)) /\ (forall rho, 0 <= rho -> ex_derive a rho) /\ (forall e, 0 < e -> exists d, 0 < d /\ forall rho, 0 < rho < d -> Rabs (a rho) < e).
Proof.
  intros names m x T H Hx HT. destruct (size08 names m H) as (I & ND & _). pose proof (gerg_0 lib08 (data_of tables08) names x T (fits08 names I)) as Z. split; [rewrite (proj2 C83_formula names m x T 0 H Hx HT (Rle_refl 0)), Z; reflexivity|].
  exists (fun rho => gerg (data_of tables08) names x T rho). split; [|split].
  - intros rho Hr. exact (proj2 C83_formula names m x T rho H Hx HT Hr).
  - intros rho _. apply gerg_derive.
  - intros e He. pose proof (gerg_derive (data_of tables08) names x T 0) as D. apply (ex_derive_continuous (K := R_AbsRing) (V := R_NormedModule)) in D. apply continuity_pt_filterlim in D. destruct (D e He) as (d & Hd & Hc). exists d. split; [exact Hd|]. intros rho [H1 H2]. specialize (Hc rho). cbn in Hc. unfold R_dist in Hc. rewrite Z in Hc. rewrite !Rminus_0_r in Hc. apply Hc. split; [split; [exact Logic.I|lra]|]. rewrite Rabs_right by lra. exact H2.
Qed.
Example C83_low_density_met : exists m, make_gres lib08 ["methane"; "n-decane"]%string = Val m /\ fractions 2 [0.5; 0.5].
Proof. destruct C83_formula_met as (m & H & F). exists m. split; assumption. Qed.

(** The number of fractions: compared by the GERG-2008 model; the GERG-2004 model throws for too few. *)
Theorem C83_size : 
  (forall names m x T rho, make_gres lib08 names = Val m -> length x <> length names -> gres08_alphar m T rho x = throws StdInvalidArgument) /\
  (forall names m x T rho, make_gres lib04 names = Val m -> (length x < length names)%nat -> gres04_alphar m T rho x = throws StdInvalidArgument).
Proof.
  split; intros names m x T rho H N.
  - destruct (size08 names m H) as (_ & _ & Ln). unfold gres08_alphar. rewrite Ln. destruct (Nat.eqb_spec (length x) (length names)); [contradiction|reflexivity].
  - destruct (size04 names m H) as (_ & _ & Ln). unfold gres04_alphar. rewrite Ln. replace (Nat.ltb (length names) (length x)) with false by (symmetry; apply Nat.ltb_ge; lia). replace (Nat.ltb (length x) (length names)) with true by (symmetry; apply Nat.ltb_lt; lia). reflexivity.
Qed.
Example C83_size_met : exists m, make_gres lib04 ["methane"; "water"]%string = Val m /\ (length [1] < length ["methane"; "water"]%string)%nat.
Proof. destruct C83_2004_met as (m & _ & H & _). exists m. cbn. auto. Qed.
(** FULL STATEMENT: a wrong number of fractions gives an exception.  Finding: with too many the
    GERG-2004 model reads beyond the end of its arrays before it compares. *)
Theorem C83_size_2004_refuted : exists names m x, make_gres lib04 names = Val m /\ length x <> length names /\ forall T rho e, gres04_alphar m T rho x = None /\ gres04_alphar m T rho x <> throws e.
Proof.
  destruct C83_2004_met as (m & _ & H & _). exists ["methane"; "water"]%string, m, [0.4; 0.3; 0.3]. split; [exact H|]. split; [discriminate|]. intros T rho e. destruct (size04 _ m H) as (_ & _ & Ln). unfold gres04_alphar. rewrite Ln. cbn. split; [reflexivity|discriminate].
Qed.

(** The parameters: known for every pair of distinct components, positive, and the same in both
    orders up to the inversion of the betas. *)
Theorem C83_tables :
  (forall a b, In a names04 -> In b names04 -> a <> b -> exists p q, get_bip04 a b = Val p /\ get_bip04 b a = Val q /\ 0 < bV p /\ 0 < gV p /\ 0 < bT p /\ 0 < gT p /\ bV q = / bV p /\ gV q = gV p /\ bT q = / bT p /\ gT q = gT p) /\
  (forall a b, In a names08 -> In b names08 -> a <> b -> exists p q, get_bip08 a b = Val p /\ get_bip08 b a = Val q /\ 0 < bV p /\ 0 < gV p /\ 0 < bT p /\ 0 < gT p /\ bV q = / bV p /\ gV q = gV p /\ bT q = / bT p /\ gT q = gT p) /\
  (forall f, In f names04 -> exists i, get_info04 f = Val i /\ 0 < p_Tc i /\ 0 < p_rhoc i) /\ (forall f, In f names08 -> exists i, get_info08 f = Val i /\ 0 < p_Tc i /\ 0 < p_rhoc i).
Proof.
  assert (G : forall L D a b, fits L D [a; b] -> a <> b -> exists p q, l_bip L a b = Val p /\ l_bip L b a = Val q /\ 0 < bV p /\ 0 < gV p /\ 0 < bT p /\ 0 < gT p /\ bV q = / bV p /\ gV q = gV p /\ bT q = / bT p /\ gT q = gT p).
  { intros L D a b F N. assert (A1 : In a [a; b]) by (now left). assert (A2 : In b [a; b]) by (right; now left). eexists. eexists. split; [exact (fit_bip _ _ _ F a b A1 A2 N)|]. split; [exact (fit_bip _ _ _ F b a A2 A1 (not_eq_sym N))|]. cbn [bV gV bT gT].
    destruct (fit_pos _ _ _ F a b A1 A2) as (P1 & P2 & P3 & P4). destruct (fit_sym _ _ _ F a b A1 A2) as (Q1 & Q2 & Q3 & Q4). auto 9. }
  assert (G1 : forall L D f, fits L D [f] -> exists i, l_info L f = Val i /\ 0 < p_Tc i /\ 0 < p_rhoc i).
  { intros L D f F. destruct (fit_info _ _ _ F f (or_introl eq_refl)) as (i & E & T1 & R1). exists i. rewrite T1, R1. split; [exact E|]. apply (fit_crit _ _ _ F f (or_introl eq_refl)). }
  split; [|split; [|split]].
  - intros a b Ha Hb N. apply (G lib04 (data_of tables04) a b); [|exact N]. apply fits04. intros z [<-|[<-|[]]]; assumption.
  - intros a b Ha Hb N. apply (G lib08 (data_of tables08) a b); [|exact N]. apply fits08. intros z [<-|[<-|[]]]; assumption.
  - intros f Hf. apply (G1 lib04 (data_of tables04) f). apply fits04. intros z [<-|[]]; assumption.
  - intros f Hf. apply (G1 lib08 (data_of tables08) f). apply fits08. intros z [<-|[]]; assumption.
Qed.
Example C83_tables_met : In "methane"%string names04 /\ In "argon"%string names04 /\ "methane"%string <> "argon"%string. Proof. split; [cbn; tauto|]. split; [cbn; tauto|discriminate]. Qed.

(** The factories: an object with an array of names under the key "names"; everything else is an
    error of the JSON library. *)
Lemma names_read : forall ns, map_res j_string (map JStr ns) = Val ns.
Proof. induction ns as [|n ns IH]; [reflexivity|]. cbn [map map_res j_string bind]. rewrite IH. reflexivity. Qed.
Lemma names_strings : forall l, (exists ns, l = map JStr ns) \/ map_res j_string l = Err JsonError.
Proof.
  induction l as [|j l IH]; [left; exists []; reflexivity|]. destruct j; try (right; reflexivity). cbn [map_res j_string bind]. destruct IH as [[ns ->]| ->]; [left; eexists (_ :: ns); reflexivity|right; reflexivity].
Qed.
Lemma spec_names_read : (forall o ns, lookup "names" o = Some (JArr (map JStr ns)) -> spec_names (JObj o) = Val ns) /\
  (forall spec, ~ (exists o ns, spec = JObj o /\ lookup "names" o = Some (JArr (map JStr ns))) -> spec_names spec = Err JsonError).
Proof.
  split.
  - intros o ns H. unfold spec_names. cbn [j_at]. rewrite H. cbn [bind j_valarray]. apply names_read.
  - intros spec H. unfold spec_names. destruct spec as [| | | | |o]; try reflexivity. cbn [j_at]. destruct (lookup "names" o) as [v|] eqn:E; [|reflexivity]. destruct v; try reflexivity. cbn [bind j_valarray]. destruct (names_strings l) as [[ns ->]|N]; [|exact N]. contradiction H. eauto.
Qed.
Theorem C83_factory : forall L,
  (forall o ns, lookup "names" o = Some (JArr (map JStr ns)) -> gres_factory L (JObj o) = make_gres L ns) /\
  (forall spec, ~ (exists o ns, spec = JObj o /\ lookup "names" o = Some (JArr (map JStr ns))) -> gres_factory L spec = Err JsonError).
Proof. intro L. split; [intros o ns H|intros spec H]; unfold gres_factory; [rewrite (proj1 spec_names_read o ns H)|rewrite (proj2 spec_names_read spec H)]; reflexivity. Qed.
Example C83_factory_met : exists m, gres_factory lib08 (JObj [("names"%string, JArr [JStr "n-nonane"])]) = Val m.
Proof. destruct C83_pure_met as [m H]. exists m. rewrite (proj1 (C83_factory lib08) [("names"%string, JArr [JStr "n-nonane"])] ["n-nonane"%string] eq_refl). exact H. Qed.
Print Assumptions C83_names.
Print Assumptions C83_formula.
Print Assumptions C83_reference.
Print Assumptions C83_reference_tables.
Print Assumptions C83_2004.
Print Assumptions C83_components.
Print Assumptions C83_pure.
Print Assumptions C83_low_density.
Print Assumptions C83_size.
Print Assumptions C83_size_2004_refuted.
Print Assumptions C83_tables.
Print Assumptions C83_factory.
