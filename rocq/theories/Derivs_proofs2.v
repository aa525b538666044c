(** Proofs for C18 (iteration matrices) and C26 (virial coefficients). *)
From Coq Require Import Reals ZArith String List Bool Lia Lra Ascii.
From Coquelicot Require Import Coquelicot.
From Verif Require Import Json_model Derivs_model Derivs_spec Derivs_proofs.
Import ListNotations.
Open Scope R_scope.

Lemma locally_pos : forall x, 0 < x -> locally x (fun t => 0 < t).
Proof. intros x H. apply (open_gt 0). exact H. Qed.

Lemma recip_pos : forall x, 0 < x -> 0 < 1 / x.
Proof. intros. apply Rdiv_lt_0_compat; lra. Qed.

Lemma is_derive_recip : forall (f : R -> R) T l, T <> 0 -> is_derive f (1 / T) l ->
  is_derive (fun t => f (1 / t)) T (- (1 / T) * (1 / T) * l).
Proof.
  intros f T l HT H.
  assert (is_derive (fun t => 1 / t) T (- (1 / T) * (1 / T))) as Hr.
  { auto_derive; [auto|]. field; auto. }
  exact (is_derive_comp f (fun t => 1 / t) T l _ H Hr).
Qed.

Lemma is_derive_lin : forall (f : R -> R) x l c, is_derive f x l -> is_derive (fun t => c * f t) x (c * l).
Proof. intros. exact (is_derive_scal f x c l H). Qed.
Lemma is_derive_mult' : forall (f g : R -> R) x lf lg, is_derive f x lf -> is_derive g x lg ->
  is_derive (fun t => f t * g t) x (lf * g x + f x * lg).
Proof. intros. apply (is_derive_mult f g x lf lg H H0). intros; apply Rmult_comm. Qed.
Lemma is_derive_plus' : forall (f g : R -> R) x lf lg, is_derive f x lf -> is_derive g x lg ->
  is_derive (fun t => f t + g t) x (lf + lg).
Proof. intros. exact (is_derive_plus f g x lf lg H H0). Qed.
Lemma is_derive_minus' : forall (f g : R -> R) x lf lg, is_derive f x lf -> is_derive g x lg ->
  is_derive (fun t => f t - g t) x (lf - lg).
Proof. intros. exact (is_derive_minus f g x lf lg H H0). Qed.
Lemma is_derive_id' : forall x, is_derive (fun t : R => t) x 1.
Proof. intro. exact (is_derive_id x). Qed.
Lemma is_derive_cst : forall c x : R, is_derive (fun t : R => c) x 0.
Proof. intros. exact (is_derive_const c x). Qed.
Lemma is_derive_eq : forall (f : R -> R) (x l l' : R), l = l' -> is_derive f x l -> is_derive f x l'.
Proof. intros; subst; auto. Qed.

Ltac eqR := match goal with |- @eq _ ?a ?b => change (@eq R a b) end; cbv beta.

Section Jv.
Variable alpha : R -> R -> list R -> R.
Variable z : list R.
Variables g10 g01 g20 g11 g02 : R -> R -> R.
Let g u r := alpha (1 / u) r z.
Hypothesis Hs : smooth2 g g10 g01 g20 g11 g02.
Variable Rg : R.
Let a T rho := Rg * T * alpha T rho z.

Lemma a_g : forall T rho, 0 < T -> a T rho = Rg * T * g (1 / T) rho.
Proof. intros. unfold a, g. do 2 f_equal. field; lra. Qed.

Lemma a_rho : forall T rho, 0 < T -> 0 < rho ->
  is_derive (fun r => a T r) rho (Rg * T * g01 (1 / T) rho).
Proof.
  intros T rho HT Hr. apply (is_derive_ext (fun r => Rg * T * g (1 / T) r)).
  - intro t. symmetry. now apply a_g.
  - apply is_derive_lin. apply (sm_01 _ _ _ _ _ _ Hs); auto. now apply recip_pos.
Qed.

Lemma a_T : forall T rho, 0 < T -> 0 < rho ->
  is_derive (fun t => a t rho) T (Rg * (g (1 / T) rho - 1 / T * g10 (1 / T) rho)).
Proof.
  intros T rho HT Hr. apply (is_derive_ext_loc (fun t => (Rg * t) * g (1 / t) rho)).
  - eapply filter_imp; [|apply (locally_pos T HT)]. intros t Ht. symmetry. now apply a_g.
  - eapply is_derive_eq; [|apply is_derive_mult'].
    2: { apply is_derive_lin. apply is_derive_id'. }
    2: { apply (is_derive_recip (fun u => g u rho)); [lra|].
         apply (sm_10 _ _ _ _ _ _ Hs); auto. now apply recip_pos. }
    cbv beta. field. lra.
Qed.

Lemma p_eq : forall T rho, 0 < T -> 0 < rho -> th_p a T rho = rho ^ 2 * (Rg * T * g01 (1 / T) rho).
Proof. intros. unfold th_p. f_equal. apply is_derive_unique. now apply a_rho. Qed.
Lemma s_eq : forall T rho, 0 < T -> 0 < rho ->
  th_s a T rho = - (Rg * (g (1 / T) rho - 1 / T * g10 (1 / T) rho)).
Proof. intros. unfold th_s. f_equal. apply is_derive_unique. now apply a_T. Qed.

Lemma g_T : forall T rho, 0 < T -> 0 < rho -> is_derive (fun t => g (1 / t) rho) T (- (1 / T) * (1 / T) * g10 (1 / T) rho).
Proof. intros. apply (is_derive_recip (fun u => g u rho)); [lra|]. apply (sm_10 _ _ _ _ _ _ Hs); auto. now apply recip_pos. Qed.
Lemma g01_T : forall T rho, 0 < T -> 0 < rho -> is_derive (fun t => g01 (1 / t) rho) T (- (1 / T) * (1 / T) * g11 (1 / T) rho).
Proof. intros. apply (is_derive_recip (fun u => g01 u rho)); [lra|]. apply (sm_11 _ _ _ _ _ _ Hs); auto. now apply recip_pos. Qed.
Lemma g10_T : forall T rho, 0 < T -> 0 < rho -> is_derive (fun t => g10 (1 / t) rho) T (- (1 / T) * (1 / T) * g20 (1 / T) rho).
Proof. intros. apply (is_derive_recip (fun u => g10 u rho)); [lra|]. apply (sm_20 _ _ _ _ _ _ Hs); auto. now apply recip_pos. Qed.
Lemma recip_T : forall T, 0 < T -> is_derive (fun t => 1 / t) T (- (1 / T) * (1 / T)).
Proof. intros. auto_derive; [lra|]. field; lra. Qed.

Lemma p_T : forall T rho, 0 < T -> 0 < rho ->
  is_derive (fun t => th_p a t rho) T (rho ^ 2 * Rg * (g01 (1 / T) rho - 1 / T * g11 (1 / T) rho)).
Proof.
  intros T rho HT Hr. apply (is_derive_ext_loc (fun t => rho ^ 2 * ((Rg * t) * g01 (1 / t) rho))).
  - eapply filter_imp; [|apply (locally_pos T HT)]. intros t Ht. symmetry. now apply p_eq.
  - eapply is_derive_eq; [|apply is_derive_lin, is_derive_mult';
      [apply is_derive_lin, is_derive_id' | now apply g01_T]].
    cbv beta. field. lra.
Qed.
Lemma p_rho : forall T rho, 0 < T -> 0 < rho ->
  is_derive (fun r => th_p a T r) rho (2 * rho * (Rg * T * g01 (1 / T) rho) + rho ^ 2 * (Rg * T * g02 (1 / T) rho)).
Proof.
  intros T rho HT Hr. apply (is_derive_ext_loc (fun r => r ^ 2 * ((Rg * T) * g01 (1 / T) r))).
  - eapply filter_imp; [|apply (locally_pos rho Hr)]. intros t Ht. symmetry. now apply p_eq.
  - eapply is_derive_eq; [|apply is_derive_mult'; [apply (is_derive_pow (fun r => r) 2 rho 1), is_derive_id' |
      apply is_derive_lin, (sm_02 _ _ _ _ _ _ Hs); auto; now apply recip_pos]].
    simpl. ring.
Qed.
Lemma s_T : forall T rho, 0 < T -> 0 < rho ->
  is_derive (fun t => th_s a t rho) T (- (Rg * (1 / T) ^ 3 * g20 (1 / T) rho)).
Proof.
  intros T rho HT Hr. apply (is_derive_ext_loc (fun t => (- Rg) * (g (1 / t) rho - 1 / t * g10 (1 / t) rho))).
  - eapply filter_imp; [|apply (locally_pos T HT)]. intros t Ht. rewrite s_eq by auto. eqR; ring.
  - eapply is_derive_eq; [|apply is_derive_lin, is_derive_minus'; [now apply g_T |
      apply is_derive_mult'; [now apply recip_T | now apply g10_T]]].
    cbv beta. field. lra.
Qed.
Lemma s_rho : forall T rho, 0 < T -> 0 < rho ->
  is_derive (fun r => th_s a T r) rho (- (Rg * (g01 (1 / T) rho - 1 / T * g11 (1 / T) rho))).
Proof.
  intros T rho HT Hr. apply (is_derive_ext_loc (fun r => (- Rg) * (g (1 / T) r - 1 / T * g10 (1 / T) r))).
  - eapply filter_imp; [|apply (locally_pos rho Hr)]. intros t Ht. rewrite s_eq by auto. eqR; ring.
  - eapply is_derive_eq; [|apply is_derive_lin, is_derive_minus';
      [apply (sm_01 _ _ _ _ _ _ Hs); auto; now apply recip_pos |
       apply is_derive_lin, (sm_11' _ _ _ _ _ _ Hs); auto; now apply recip_pos]].
    cbv beta. ring.
Qed.
Lemma u_T : forall T rho, 0 < T -> 0 < rho ->
  is_derive (fun t => th_u a t rho) T (- (Rg * (1 / T) ^ 2 * g20 (1 / T) rho)).
Proof.
  intros T rho HT Hr. unfold th_u.
  eapply is_derive_eq; [|apply is_derive_plus'; [now apply a_T |
    apply is_derive_mult'; [apply is_derive_id' | now apply s_T]]].
  cbv beta. rewrite s_eq by auto. field. lra.
Qed.
Lemma u_rho : forall T rho, 0 < T -> 0 < rho ->
  is_derive (fun r => th_u a T r) rho (Rg * g11 (1 / T) rho).
Proof.
  intros T rho HT Hr. unfold th_u.
  eapply is_derive_eq; [|apply is_derive_plus'; [now apply a_rho |
    apply is_derive_lin; now apply s_rho]].
  cbv beta. field. lra.
Qed.
Lemma h_T : forall T rho, 0 < T -> 0 < rho ->
  is_derive (fun t => th_h a t rho) T
    (- (Rg * (1 / T) ^ 2 * g20 (1 / T) rho) + rho * Rg * (g01 (1 / T) rho - 1 / T * g11 (1 / T) rho)).
Proof.
  intros T rho HT Hr. unfold th_h.
  apply (is_derive_ext (fun t => th_u a t rho + / rho * th_p a t rho)).
  { intro t. eqR. unfold Rdiv. ring. }
  eapply is_derive_eq; [|apply is_derive_plus'; [now apply u_T | apply is_derive_lin; now apply p_T]].
  cbv beta. field. lra.
Qed.
Lemma h_rho : forall T rho, 0 < T -> 0 < rho ->
  is_derive (fun r => th_h a T r) rho
    (Rg * g11 (1 / T) rho + (Rg * T * g01 (1 / T) rho) + rho * (Rg * T * g02 (1 / T) rho)).
Proof.
  intros T rho HT Hr. unfold th_h.
  apply (is_derive_ext (fun t => th_u a T t + th_p a T t * (1 / t))).
  { intro t. eqR. unfold Rdiv. ring. }
  eapply is_derive_eq; [|apply is_derive_plus'; [now apply u_rho |
    apply is_derive_mult'; [now apply p_rho | now apply recip_T]]].
  cbv beta. rewrite p_eq by auto. field. lra.
Qed.

(** The entries of the derivative matrix. *)
Lemma Lambda_g : forall T rho, 0 < T -> 0 < rho ->
  Lambda alpha 0 0 T rho z = g (1 / T) rho /\
  Lambda alpha 1 0 T rho z = 1 / T * g10 (1 / T) rho /\
  Lambda alpha 0 1 T rho z = rho * g01 (1 / T) rho /\
  Lambda alpha 2 0 T rho z = (1 / T) ^ 2 * g20 (1 / T) rho /\
  Lambda alpha 1 1 T rho z = 1 / T * rho * g11 (1 / T) rho /\
  Lambda alpha 0 2 T rho z = rho ^ 2 * g02 (1 / T) rho.
Proof.
  intros T rho HT Hr. pose proof (recip_pos T HT) as Hu. unfold Lambda.
  assert (P : forall i j, partialN (in_Trecip_rho alpha z) [i; j] [1 / T; rho] =
                 Derive_n (fun u => Derive_n (fun r => g u r) j rho) i (1 / T)) by reflexivity.
  assert (D01 : forall u r, 0 < u -> 0 < r -> Derive (fun r => g u r) r = g01 u r).
  { intros u r H1 H2. apply is_derive_unique. now apply (sm_01 _ _ _ _ _ _ Hs). }
  assert (D10 : forall u r, 0 < u -> 0 < r -> Derive (fun u => g u r) u = g10 u r).
  { intros u r H1 H2. apply is_derive_unique. now apply (sm_10 _ _ _ _ _ _ Hs). }
  rewrite !P. clear P. cbn [Derive_n]. repeat split.
  - simpl. ring.
  - rewrite D10 by auto. simpl. ring.
  - rewrite D01 by auto. simpl. ring.
  - rewrite (Derive_ext_loc _ (fun u => g10 u rho)).
    + f_equal; [simpl; ring|]. apply is_derive_unique. now apply (sm_20 _ _ _ _ _ _ Hs).
    + eapply filter_imp; [|apply (locally_pos _ Hu)]. intros t Ht. cbv beta. now apply D10.
  - rewrite (Derive_ext_loc _ (fun u => g01 u rho)).
    + f_equal; [simpl; ring|]. apply is_derive_unique. now apply (sm_11 _ _ _ _ _ _ Hs).
    + eapply filter_imp; [|apply (locally_pos _ Hu)]. intros t Ht. cbv beta. now apply D01.
  - rewrite (Derive_ext_loc _ (fun r => g01 (1 / T) r)).
    + f_equal; [simpl; ring|]. apply is_derive_unique. now apply (sm_02 _ _ _ _ _ _ Hs).
    + eapply filter_imp; [|apply (locally_pos _ Hr)]. intros t Ht. cbv beta. now apply D01.
Qed.

Lemma build_row_ok : forall A T rho c q, 0 < T -> 0 < rho ->
  (forall i j, (i + j <= 2)%nat -> A i j = Lambda alpha i j T rho z) ->
  quantity a c = Some q ->
  exists r, build_row A Rg T rho c = Some r /\
    row_v r = q T rho /\
    is_derive (fun t => q t rho) T (row_J0 r) /\
    is_derive (fun r' => q T r') rho (row_J1 r).
Proof.
  intros A T rho c q HT Hr HA Hq.
  destruct (Lambda_g T rho HT Hr) as (L00 & L10 & L01 & L20 & L11 & L02).
  pose proof (HA 0%nat 0%nat ltac:(lia)) as E00. rewrite L00 in E00.
  pose proof (HA 1%nat 0%nat ltac:(lia)) as E10. rewrite L10 in E10.
  pose proof (HA 0%nat 1%nat ltac:(lia)) as E01. rewrite L01 in E01.
  pose proof (HA 2%nat 0%nat ltac:(lia)) as E20. rewrite L20 in E20.
  pose proof (HA 1%nat 1%nat ltac:(lia)) as E11. rewrite L11 in E11.
  pose proof (HA 0%nat 2%nat ltac:(lia)) as E02. rewrite L02 in E02.
  unfold quantity in Hq. unfold build_row.
  rewrite E00, E10, E01, E20, E11, E02.
  destruct (c =? "T")%char; [injection Hq as <-|].
  { eexists; split; [reflexivity|]; cbn [row_v row_J0 row_J1]. split; [reflexivity|].
    split; [apply is_derive_id'|apply is_derive_cst]. }
  destruct (c =? "D")%char; [injection Hq as <-|].
  { eexists; split; [reflexivity|]; cbn [row_v row_J0 row_J1]. split; [reflexivity|].
    split; [apply is_derive_cst|apply is_derive_id']. }
  destruct (c =? "P")%char; [injection Hq as <-|].
  { eexists; split; [reflexivity|]; cbn [row_v row_J0 row_J1]. split; [|split].
    - rewrite p_eq by auto. field. lra.
    - eapply is_derive_eq; [|now apply p_T]. field. lra.
    - eapply is_derive_eq; [|now apply p_rho]. field. lra. }
  destruct (c =? "S")%char; [injection Hq as <-|].
  { eexists; split; [reflexivity|]; cbn [row_v row_J0 row_J1]. split; [|split].
    - rewrite s_eq by auto. field. lra.
    - eapply is_derive_eq; [|now apply s_T]. field. lra.
    - eapply is_derive_eq; [|now apply s_rho]. field. lra. }
  destruct (c =? "H")%char; [injection Hq as <-|].
  { eexists; split; [reflexivity|]; cbn [row_v row_J0 row_J1]. split; [|split].
    - unfold th_h, th_u. rewrite p_eq, s_eq, a_g by auto. field. lra.
    - eapply is_derive_eq; [|now apply h_T]. field. lra.
    - eapply is_derive_eq; [|now apply h_rho]. field. lra. }
  destruct (c =? "U")%char; [injection Hq as <-|discriminate].
  { eexists; split; [reflexivity|]; cbn [row_v row_J0 row_J1]. split; [|split].
    - unfold th_u. rewrite s_eq, a_g by auto. field. lra.
    - eapply is_derive_eq; [|now apply u_T]. field. lra.
    - eapply is_derive_eq; [|now apply u_rho]. field. lra. }
Qed.

Lemma build_row_bad : forall A T rho c, quantity a c = None -> build_row A Rg T rho c = None.
Proof.
  intros A T rho c H. unfold quantity in H. unfold build_row.
  repeat match goal with
  | |- context[(c =? ?d)%char] => destruct (c =? d)%char; [discriminate|] end. reflexivity.
Qed.
End Jv.

Section JvLoop.
Variable alpha : R -> R -> list R -> R.
Variable z : list R.
Variables g10 g01 g20 g11 g02 : R -> R -> R.
Hypothesis Hs : smooth2 (fun u r => alpha (1 / u) r z) g10 g01 g20 g11 g02.
Variable Rg : R.
Let a T rho := Rg * T * alpha T rho z.
Variables (A : nat -> nat -> R) (T rho : R).
Hypothesis HT : 0 < T.
Hypothesis Hr : 0 < rho.
Hypothesis HA : forall i j, (i + j <= 2)%nat -> A i j = Lambda alpha i j T rho z.

Local Notation row_is := (fun c r => row_correct a T rho c (row_v r) (row_J0 r) (row_J1 r)).

Lemma Jv_loop_ok : forall vars i, (i + length vars <= 2)%nat ->
  List.Forall (fun c => quantity a c <> None) vars ->
  exists rows, Jv_loop A Rg T rho i vars = Some (Val rows) /\ List.Forall2 row_is vars rows.
Proof.
  induction vars as [|c vars IH]; intros i Hi HF; cbn [Jv_loop].
  - exists []. split; [reflexivity|constructor].
  - inversion_clear HF as [|? ? Hc HF'].
    destruct (quantity a c) as [q|] eqn:Q; [|congruence].
    destruct (build_row_ok alpha z _ _ _ _ _ Hs Rg A T rho c q HT Hr HA Q) as (r & E & V & J0 & J1).
    rewrite E. simpl in Hi. replace (Nat.leb 2 i) with false by (symmetry; apply Nat.leb_gt; lia).
    destruct (IH (S i) ltac:(lia) HF') as (rows & -> & F).
    exists (r :: rows). split; [reflexivity|]. constructor; auto. exists q; auto.
Qed.

Lemma build_row_some : forall c, quantity a c <> None -> build_row A Rg T rho c <> None.
Proof.
  intros c H. destruct (quantity a c) as [q|] eqn:Q; [|congruence].
  destruct (build_row_ok alpha z _ _ _ _ _ Hs Rg A T rho c q HT Hr HA Q) as (r & E & _). congruence.
Qed.

Lemma Jv_loop_first_bad : forall good c rest i, (i + length good <= 2)%nat ->
  List.Forall (fun c => quantity a c <> None) good -> quantity a c = None ->
  Jv_loop A Rg T rho i (good ++ c :: rest) = Some (Err StdInvalidArgument).
Proof.
  induction good as [|d good IH]; intros c rest i Hi HF Hc; cbn [app Jv_loop].
  - now rewrite (build_row_bad alpha z Rg A T rho c Hc).
  - inversion_clear HF as [|? ? Hd HF'].
    destruct (build_row A Rg T rho d) eqn:E; [|exfalso; exact (build_row_some d Hd E)].
    simpl in Hi. replace (Nat.leb 2 i) with false by (symmetry; apply Nat.leb_gt; lia).
    now rewrite (IH c rest (S i) ltac:(lia) HF' Hc).
Qed.

Lemma Jv_loop_overrun : forall vars i, (2 < i + length vars)%nat -> (i <= 2)%nat ->
  List.Forall (fun c => quantity a c <> None) vars ->
  Jv_loop A Rg T rho i vars = None.
Proof.
  induction vars as [|d vars IH]; intros i Hi Hi2 HF; cbn [length] in Hi; [lia|]; cbn [Jv_loop].
  inversion_clear HF as [|? ? Hd HF'].
  destruct (build_row A Rg T rho d) eqn:E; [|exfalso; exact (build_row_some d Hd E)].
  destruct (Nat.leb_spec 2 i); [reflexivity|].
  rewrite (IH (S i)); auto; lia.
Qed.
End JvLoop.

Lemma smooth2_defined : forall alpha z g10 g01 g20 g11 g02,
  smooth2 (fun u r => alpha (1 / u) r z) g10 g01 g20 g11 g02 ->
  forall u r i j, 0 < u -> 0 < r -> (i + j <= 2)%nat ->
  definedN (in_Trecip_rho alpha z) [i; j] [u; r].
Proof.
  intros alpha z g10 g01 g20 g11 g02 Hs u r i j Hu Hr Hij.
  assert (D01 : forall u r, 0 < u -> 0 < r -> Derive (fun r => alpha (1 / u) r z) r = g01 u r).
  { intros u' r' H1 H2. apply is_derive_unique. now apply (sm_01 _ _ _ _ _ _ Hs). }
  assert (D10 : forall u r, 0 < u -> 0 < r -> Derive (fun u => alpha (1 / u) r z) u = g10 u r).
  { intros u' r' H1 H2. apply is_derive_unique. now apply (sm_10 _ _ _ _ _ _ Hs). }
  assert (Triv : forall x : R, locally x (fun _ => True)) by (intro; exists (mkposreal 1 Rlt_0_1); intros; exact I).
  assert (I1 : forall u, 0 < u -> forall j, (j <= 2)%nat -> ex_derive_n (fun r => alpha (1 / u) r z) j r).
  { intros u' Hu' [|[|[|j']]] Hj; try lia; simpl; auto.
    - eexists. now apply (sm_01 _ _ _ _ _ _ Hs).
    - apply (ex_derive_ext_loc (fun r => g01 u' r)).
      + eapply filter_imp; [|apply (locally_pos _ Hr)]. intros t Ht. symmetry. now apply D01.
      + eexists. now apply (sm_02 _ _ _ _ _ _ Hs). }
  cbn [definedN]. split.
  - destruct i as [|[|[|i]]]; [exact I| | |lia]; destruct j as [|[|[|j]]]; try lia;
      cbn [ex_derive_n Derive_n partialN in_Trecip_rho].
    + eexists. now apply (sm_10 _ _ _ _ _ _ Hs).
    + apply (ex_derive_ext_loc (fun u => g01 u r)).
      * eapply filter_imp; [|apply (locally_pos _ Hu)]. intros t Ht. symmetry. now apply D01.
      * eexists. now apply (sm_11 _ _ _ _ _ _ Hs).
    + apply (ex_derive_ext_loc (fun u => g10 u r)).
      * eapply filter_imp; [|apply (locally_pos _ Hu)]. intros t Ht. symmetry. now apply D10.
      * eexists. now apply (sm_20 _ _ _ _ _ _ Hs).
  - eapply filter_imp; [|apply (locally_pos _ Hu)]. intros t Ht. split; [|apply Triv].
    apply (I1 t Ht j). lia.
Qed.

(** ** Virial coefficients *)

Section Vir.
Variable ad : (list R -> R) -> list nat -> list R -> R.
Hypothesis Had : AD_exact ad.
Variable alphar : R -> R -> list R -> R.

Lemma ad_in_rho : forall T z n, ex_derive_n (fun r => alphar T r z) n 0 ->
  ad (in_rho alphar T z) [n] [0] = Derive_n (fun r => alphar T r z) n 0.
Proof.
  intros T z n H. rewrite (Had (in_rho alphar T z) [n] [0]); [reflexivity|].
  cbn [definedN]. split; [exact H|]. exists (mkposreal 1 Rlt_0_1). intros; exact I.
Qed.

Lemma get_Bnvir_ok : forall N T z n, (2 <= n <= N)%nat ->
  ex_derive_n (fun r => alphar T r z) (n - 1) 0 ->
  In (n, Derive_n (fun r => alphar T r z) (n - 1) 0 / INR (fact (n - 2))) (get_Bnvir ad alphar N T z).
Proof.
  intros N T z n Hn D. unfold get_Bnvir. apply in_map_iff. exists n. split; [|apply in_seq; lia].
  f_equal. cbv zeta. rewrite (ad_in_rho T z (n - 1) D).
  destruct (Nat.ltb_spec 3 n); [reflexivity|].
  assert (n = 2 \/ n = 3)%nat as [-> | ->] by lia; simpl; field.
Qed.
Lemma get_Bnvir_keys : forall N T z, map fst (get_Bnvir ad alphar N T z) = seq 2 (N - 1).
Proof. intros. unfold get_Bnvir. rewrite map_map. cbn [fst]. apply map_id. Qed.

(** Power series *)
Lemma Derive_n_series : forall (f : R -> R) (c : nat -> R) n,
  Rbar_lt 0 (CV_radius c) -> locally 0 (fun r => f r = PSeries c r) ->
  ex_derive_n f n 0 /\ Derive_n f n 0 = INR (fact n) * c n.
Proof.
  intros f c n Hc Hf. split.
  - apply ex_derive_n_ext_loc with (f := PSeries c).
    + eapply filter_imp; [|exact Hf]. intros; symmetry; auto.
    + apply ex_derive_n_PSeries. rewrite Rabs_R0. exact Hc.
  - rewrite (Derive_n_ext_loc f (PSeries c) n 0 Hf). rewrite Derive_n_coef by exact Hc. apply Rmult_comm.
Qed.

Lemma INR_fact_ratio : forall n, (2 <= n)%nat -> INR (fact (n - 1)) = INR (n - 1) * INR (fact (n - 2)).
Proof. intros n H. replace (n - 1)%nat with (S (n - 2)) by lia. cbn [fact]. rewrite <- mult_INR. f_equal. Qed.

Lemma get_Bnvir_series : forall N T z n c, (2 <= n <= N)%nat -> Rbar_lt 0 (CV_radius c) ->
  locally 0 (fun r => alphar T r z = PSeries c r) ->
  In (n, INR (n - 1) * c (n - 1)%nat) (get_Bnvir ad alphar N T z).
Proof.
  intros N T z n c Hn Hc Hf.
  destruct (Derive_n_series (fun r => alphar T r z) c (n - 1) Hc Hf) as [E D].
  pose proof (get_Bnvir_ok N T z n Hn E) as H. rewrite D in H.
  replace (INR (n - 1) * c (n - 1)%nat) with (INR (fact (n - 1)) * c (n - 1)%nat / INR (fact (n - 2))); auto.
  rewrite INR_fact_ratio by lia. field. apply INR_fact_neq_0.
Qed.

(** The compressibility factor Z = 1 + rho d(alphar)/drho has the series with
    coefficients k c_k. *)
Lemma Z_series : forall (f : R -> R) c, Rbar_lt 0 (CV_radius c) ->
  locally 0 (fun r => f r = PSeries c r) ->
  locally 0 (fun r => r * Derive f r = PSeries (fun k => INR k * c k) r).
Proof.
  intros f c Hc Hf.
  assert (Hr : locally 0 (fun r => Rbar_lt (Rabs r) (CV_radius c))).
  { destruct (CV_radius c) as [R0| |] eqn:E; simpl in Hc; try contradiction.
    - exists (mkposreal R0 Hc). intros y Hy. unfold ball in Hy; simpl in Hy. unfold AbsRing_ball, abs, minus, plus, opp in Hy; simpl in Hy.
      rewrite Ropp_0, Rplus_0_r in Hy. exact Hy.
    - exists (mkposreal 1 Rlt_0_1). intros; exact I. }
  pose proof (locally_locally 0 _ Hf) as Hf2.
  pose proof (filter_and _ _ Hf2 Hr) as HH.
  eapply filter_imp; [|exact HH]. intros r [H1 H2]. cbv beta in *.
  rewrite (Derive_ext_loc f (PSeries c) r H1).
  rewrite Derive_PSeries by exact H2.
  rewrite <- PSeries_incr_1. apply PSeries_ext. intros [|n]; simpl PS_incr_1.
  - simpl. unfold zero; simpl. ring.
  - unfold PS_derive. reflexivity.
Qed.

Lemma get_dmBnvirdTm_ok : forall N m T z,
  definedN (fun l => match l with [t; r] => alphar t r z | _ => 0 end) [m; (N - 1)%nat] [T; 0] ->
  get_dmBnvirdTm ad alphar N m T z =
  Derive_n (fun t => Derive_n (fun r => alphar t r z) (N - 1) 0 / INR (fact (N - 2))) m T.
Proof.
  intros N m T z D. unfold get_dmBnvirdTm.
  rewrite (Had _ _ _ D). unfold Rdiv.
  rewrite (Derive_n_ext _ (fun t => (/ INR (fact (N - 2))) * Derive_n (fun r => alphar t r z) (N - 1) 0))
    by (intro; apply Rmult_comm).
  rewrite Derive_n_scal_l. rewrite Rmult_comm. reflexivity.
Qed.
End Vir.
