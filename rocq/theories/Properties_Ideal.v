(** Theorems C35 (conversion of CoolProp's ideal-gas terms) and C36 (ideal-gas terms and
    mixtures of ideal gases). *)
From Coq Require Import Reals ZArith String List Lia Lra Bool Psatz Permutation.
From Coquelicot Require Import Coquelicot.
From Verif Require Import Json_model Util_model Vec_spec Vec_proofs Cubic_model Cubic_spec Terms_model Ideal_model Ideal_spec Ideal_proofs.
From Verif Require Import Cubic_proofs2 Multi_proofs.
From Verif Require Iso_proofs.
Import ListNotations.
Open Scope R_scope.

(** ** C36: the terms *)
Lemma doubles : forall l, map_res j_double (map JNum l) = Val l.
Proof. induction l; simpl; [reflexivity|]. rewrite IHl. reflexivity. Qed.
Lemma get_numbers : forall j k l, numbers j k l -> bind (j_at j k) (j_valarray j_double) = Val l.
Proof. intros j k l H. unfold numbers in H. rewrite H. simpl. apply doubles. Qed.
Lemma get_number : forall j k v, number j k v -> bind (j_at j k) j_double = Val v.
Proof. intros j k l H. unfold number in H. rewrite H. reflexivity. Qed.
Lemma is_object : forall j s, kind_is j s -> exists l, j = JObj l.
Proof. intros j s H. unfold kind_is in H. destruct j; try discriminate. eauto. Qed.
Lemma at_nth : forall l i, (i < length l)%nat -> nth_error l i = Some (nth i l 0).
Proof. intros. apply nth_error_nth'. auto. Qed.
Lemma bind_val : forall A B (a : A) (f : A -> res B), bind (Val a) f = f a.
Proof. reflexivity. Qed.
Ltac builds K := let l := fresh "l" in let E := fresh in
  pose proof K as E; apply is_object in E; destruct E as [l ->]; unfold build_igterm; rewrite K; rewrite bind_val; cbv beta iota delta [String.eqb Ascii.eqb Bool.eqb].
Ltac reads := repeat (match goal with H : numbers _ _ _ |- _ => rewrite (get_numbers _ _ _ H) | H : number _ _ _ |- _ => rewrite (get_number _ _ _ H) end; rewrite bind_val; cbv beta).
Lemma built : forall j v cp, documented j v cp -> exists k, build_igterm j = Val k /\
  (forall T rho, 0 < T -> 0 < rho -> igterm_alphaig k T rho = Some (v T rho)) /\ forall rho, has_cp (fun T => v T rho) cp.
Proof.
  intros j v cp H. destruct H as [j a K1 K2|j a1 a2 K1 K2 K3|j a K1 K2|j n t K1 K2 K3 L|j n th K1 K2 K3 L P|j n c d th K1 K2 K3 K4 K5 L1 L2 L3 P|j n th K1 K2 K3 L|j n th K1 K2 K3 L P|j c T0 K1 K2 K3 P|j c t T0 K1 K2 K3 K4 P N0 N1];
  builds K1; reads; (eexists; split; [reflexivity|]); split.
  - intros. reflexivity.
  - intros. apply has_cp_const.
  - intros T rho HT Hr. simpl. rewrite clog_pos, cdiv_nz by lra. reflexivity.
  - intros rho. refine (has_cp_ext (fun T => (ln rho + a1) + a2 * / T) _ (fun _ => 0 + a2 * 0) _ _ _ _); [intros; unfold Rdiv; ring|intros; ring|].
    apply has_cp_plus; [apply has_cp_const|apply has_cp_scal, cp_inv].
  - intros T rho HT Hr. simpl. rewrite clog_pos by lra. reflexivity.
  - intros rho. refine (has_cp_ext _ _ _ _ _ _ (has_cp_scal a _ _ cp_ln)); intros; ring.
  - intros T rho HT Hr. simpl. unfold over. apply osum_val. intros i Hi. rewrite !at_nth by lia. cbn [opt_bind]. rewrite cpow_pos by auto. reflexivity.
  - intros rho. refine (has_cp_ext _ _ _ _ _ _ (has_cp_over n (fun i T => Rpower T (nth i t 0)) _ (fun i _ => cp_power (nth i t 0)))); [reflexivity|].
    intros T HT. rewrite over_opp. reflexivity.
  - intros T rho HT Hr. simpl. unfold over. apply osum_val. intros i Hi. rewrite !at_nth by lia. cbn [opt_bind]. rewrite cdiv_nz by lra. cbn [opt_bind].
    rewrite clog_pos; [reflexivity|]. specialize (P i Hi). assert (0 < nth i th 0 / T) by (apply Rdiv_lt_0_compat; auto).
    assert (exp (- nth i th 0 / T) < 1); [|lra]. rewrite <- exp_0. apply exp_increasing. unfold Rdiv in *. lra.
  - intros rho. exact (has_cp_over n (fun i T => ln (1 - exp (- nth i th 0 / T))) _ (fun i Hi => cp_PE (nth i th 0) (P i Hi))).
  - intros T rho HT Hr. simpl. unfold over. apply osum_val. intros i Hi. rewrite !at_nth by lia. cbn [opt_bind]. rewrite cdiv_nz by lra. cbn [opt_bind].
    rewrite clog_pos; [reflexivity|]. apply P; auto.
  - intros rho. refine (has_cp_ext _ _ _ _ _ _ (has_cp_over n (fun i T => ln (nth i c 0 + nth i d 0 * exp (nth i th 0 / T))) _ (fun i Hi => cp_general (nth i c 0) (nth i d 0) (nth i th 0) (fun T => P i T Hi)))); [reflexivity|].
    intros T HT. rewrite over_opp. reflexivity.
  - intros T rho HT Hr. simpl. unfold over. apply osum_val. intros i Hi. rewrite !at_nth by lia. cbn [opt_bind]. rewrite cdiv_nz by lra. cbn [opt_bind].
    rewrite clog_pos; [reflexivity|]. apply Rabs_pos_lt. apply Rgt_not_eq. apply cosh_pos.
  - intros rho. refine (has_cp_ext _ _ _ _ _ _ (has_cp_over n (fun i T => ln (Rabs (cosh (nth i th 0 / T)))) _ (fun i _ => cp_cosh (nth i th 0)))); [reflexivity|].
    intros T HT. rewrite over_opp. reflexivity.
  - intros T rho HT Hr. simpl. unfold over. apply osum_val. intros i Hi. rewrite !at_nth by lia. cbn [opt_bind]. rewrite cdiv_nz by lra. cbn [opt_bind].
    rewrite clog_pos; [reflexivity|]. apply Rabs_pos_lt. intros Z. specialize (P i Hi).
    assert (Q := cosh_sq (nth i th 0 / T)). 
    assert (NZ : nth i th 0 / T <> 0) by (unfold Rdiv; apply Rmult_integral_contrapositive_currified; [auto|apply Rinv_neq_0_compat; lra]).
    destruct (Rtotal_order 0 (nth i th 0 / T)) as [G|[G|G]]; [|congruence|].
    + assert (S1 := sinh_pos _ G). lra.
    + assert (S1 := sinh_pos (- (nth i th 0 / T)) ltac:(lra)). unfold sinh in *. rewrite Ropp_involutive in S1. lra.
  - intros rho. exact (has_cp_over n (fun i T => ln (Rabs (sinh (nth i th 0 / T)))) _ (fun i Hi => cp_sinh (nth i th 0) (P i Hi))).
  - intros T rho HT Hr. simpl. rewrite cdiv_nz by lra. cbn [opt_bind]. rewrite cdiv_nz by lra. cbn [opt_bind]. rewrite clog_pos by (apply Rdiv_lt_0_compat; auto). reflexivity.
  - intros rho. apply cp_Cp0Constant. auto.
  - intros T rho HT Hr. simpl. rewrite !cpow_pos by auto. cbn [opt_bind]. rewrite !cdiv_nz by (auto; try lra). cbn [opt_bind]. rewrite !cdiv_nz; [reflexivity|auto|].
    apply Rmult_integral_contrapositive_currified; lra.
  - intros rho. apply cp_Cp0PowerT; auto.
Qed.
(** A pure fluid made of documented terms is built, its value is the sum of the documented
    values, and its heat capacity the sum of the documented heat capacities. *)
Definition docs := list ((R -> R -> R) * (R -> R)).
Lemma all_built : forall ts (d : docs), List.Forall2 (fun t d => documented t (fst d) (snd d)) ts d ->
  exists p, map_res build_igterm ts = Val p /\
  (forall T rho, 0 < T -> 0 < rho -> pure_alphaig p T rho = Some (total (map fst d) T rho)) /\
  forall rho, has_cp (fun T => total (map fst d) T rho) (total1 (map snd d)).
Proof.
  induction 1 as [|t e ts d H F IH].
  - exists []. split; [reflexivity|]. split; [reflexivity|]. intros. exact (has_cp_const 0).
  - destruct IH as [p [E [V C]]]. destruct (built _ _ _ H) as [k [Ek [Vk Ck]]]. exists (k :: p). split; [simpl; rewrite Ek; cbn [bind]; rewrite E; reflexivity|]. split.
    + intros T rho HT Hr. simpl. rewrite Vk, V by auto. reflexivity.
    + intros rho. apply (has_cp_plus (fun T => fst e T rho) (fun T => total (map fst d) T rho) (snd e) (total1 (map snd d))); auto.
Qed.
Theorem C36_pure : forall j Rg ts (d : docs), number j "R" Rg -> j_at j "terms" = Val (JArr ts) ->
  List.Forall2 (fun t d => documented t (fst d) (snd d)) ts d ->
  exists p, build_pure_ideal j = Val p /\
  (forall T rho, 0 < T -> 0 < rho -> pure_alphaig p T rho = Some (total (map fst d) T rho)) /\
  forall rho, has_cp (fun T => total (map fst d) T rho) (total1 (map snd d)).
Proof.
  intros j Rg ts d HR HT F. destruct (all_built _ _ F) as [p [E [V C]]]. exists p. split; [|split; auto].
  unfold build_pure_ideal. destruct j as [| | | |l|l]; try (unfold number in HR; discriminate).
  rewrite (get_number _ _ _ HR). cbn [bind]. rewrite HT. cbn [bind j_values]. exact E.
Qed.
Definition argon_like := JObj [("R", JNum 8.3); ("terms", JArr [JObj [("type", JStr "Lead"); ("a_1", JNum 1); ("a_2", JNum (-2))]; JObj [("type", JStr "Cp0PowerT"); ("c", JNum 3); ("t", JNum 2); ("T_0", JNum 300)]])]%string.
Example C36_pure_met : exists ts (d : docs), number argon_like "R" 8.3 /\ j_at argon_like "terms" = Val (JArr ts) /\
  List.Forall2 (fun t d => documented t (fst d) (snd d)) ts d /\ total1 (map snd d) 10 = 300.
Proof.
  eexists. exists [((fun T rho => ln rho + 1 + -2 / T), fun _ => 0);
     ((fun T _ => 3 * (Rpower T 2 * (1 / (2 + 1) - 1 / 2) - Rpower 300 (2 + 1) / (T * (2 + 1)) + Rpower 300 2 / 2)), fun T => 3 * Rpower T 2)].
  split; [reflexivity|]. split; [reflexivity|]. split.
  - constructor; [|constructor; [|constructor]]; cbn [fst snd].
    + apply doc_Lead; reflexivity.
    + apply doc_Cp0PowerT; try reflexivity; lra.
  - cbn [map snd total1 fold_right]. replace 2 with (INR 2) by (simpl; ring). rewrite Rpower_pow by lra. simpl. ring.
Qed.
(** The heat capacity of a value is unique, so the theorem pins it down. *)
Theorem C36_unique : forall f cp cq, has_cp f cp -> has_cp f cq -> forall T, 0 < T -> cp T = cq T.
Proof.
  intros f cp cq [f1 [f2 K]] [g1 [g2 L]] T HT. destruct (K T HT) as [D1 [D2 E]]. destruct (L T HT) as [D3 [D4 E2]].
  assert (F : forall s, 0 < s -> f1 s = g1 s).
  { intros s Hs. destruct (K s Hs) as [A _]. destruct (L s Hs) as [B _]. rewrite <- (is_derive_unique _ _ _ A). apply is_derive_unique. exact B. }
  assert (D5 : is_derive g1 T (f2 T)).
  { apply (is_derive_ext_loc f1 g1); auto. exists (mkposreal T HT). intros y Hy. apply F.
    unfold ball in Hy. simpl in Hy. unfold AbsRing_ball, abs, minus, plus, opp in Hy. simpl in Hy. apply Rabs_def2 in Hy. lra. }
  rewrite E, E2, (F T HT). f_equal. f_equal. f_equal. rewrite <- (is_derive_unique _ _ _ D5). apply is_derive_unique. exact D4.
Qed.
(** A term of any other type is refused. *)
Definition known_types : list string :=
  ["Constant"; "Lead"; "LogT"; "PowerT"; "PlanckEinstein"; "PlanckEinsteinGeneralized"; "GERG2004Cosh"; "GERG2004Sinh"; "Cp0Constant"; "Cp0PowerT"]%string.
Theorem C36_unknown : forall j s, kind_is j s -> ~ In s known_types -> build_igterm j = Err InvalidArgument.
Proof.
  intros j s K N. pose proof K as O. apply is_object in O. destruct O as [l ->]. unfold build_igterm. rewrite K. cbn [bind].
  unfold known_types in N. repeat match goal with |- context [String.eqb s ?k] => destruct (String.eqb_spec s k) as [->|]; [exfalso; apply N; simpl; tauto|] end. reflexivity.
Qed.
Example C36_unknown_met : kind_is (JObj [("type", JStr "Power")])%string "Power" /\ ~ In "Power"%string known_types.
Proof. split; [reflexivity|]. simpl. intuition discriminate. Qed.

(** ** C36: mixtures *)
(** exactly: each present component's value, plus x ln x; absent components are not evaluated *)
Theorem C36_mixture : forall pures T rho x v, ideal_alphaig pures T rho x = Some (Val v) <->
  length x = length pures /\
  exists a, (forall i, (i < length x)%nat -> nth i x 0 = 0 \/ 0 < nth i x 0 /\ pure_alphaig (nth i pures []) T rho = Some (a i)) /\
    v = sumn (length x) (fun i => nth i x 0 * (a i + ln (nth i x 0))).
Proof.
  intros pures T rho x v. unfold ideal_alphaig. destruct (Nat.eqb_spec (length x) (length pures)) as [L|L]; cbn [negb].
  2:{ split; [discriminate|]. intros [Q _]. contradiction. }
  rewrite <- L. split.
  - intros E. split; auto. destruct (osum _ _) as [w|] eqn:Q; [|discriminate]. injection E as ->. apply osum_some in Q. destruct Q as [g [Hg ->]].
    exists (fun i => match pure_alphaig (nth i pures []) T rho with Some a => a | None => 0 end). split.
    + intros i Hi. specialize (Hg i Hi). rewrite at_nth in Hg by auto. cbn [opt_bind] in Hg. rewrite (nth_error_nth' pures []) in Hg by lia. cbn [opt_bind] in Hg.
      destruct (Req_EM_T (nth i x 0) 0); [left; auto|right]. destruct (pure_alphaig _ _ _); [|discriminate]. cbn [opt_bind] in Hg.
      unfold clog in Hg. destruct (Rlt_dec 0 (nth i x 0)); [auto|discriminate].
    + apply sumn_ext. intros i Hi. specialize (Hg i Hi). rewrite at_nth in Hg by auto. cbn [opt_bind] in Hg. rewrite (nth_error_nth' pures []) in Hg by lia. cbn [opt_bind] in Hg.
      destruct (Req_EM_T (nth i x 0) 0) as [Z|Z]. { injection Hg as <-. rewrite Z. ring. }
      destruct (pure_alphaig _ _ _); [|discriminate]. cbn [opt_bind] in Hg. unfold clog in Hg. destruct (Rlt_dec 0 (nth i x 0)); [|discriminate]. injection Hg as <-. reflexivity.
  - intros [_ [a [H ->]]]. rewrite (osum_val _ _ (fun i => nth i x 0 * (a i + ln (nth i x 0)))); [reflexivity|].
    intros i Hi. rewrite at_nth by auto. cbn [opt_bind]. rewrite (nth_error_nth' pures []) by lia. cbn [opt_bind].
    destruct (Req_EM_T (nth i x 0) 0) as [Z|Z]. { rewrite Z. f_equal. ring. }
    destruct (H i Hi) as [Z2|[P E]]; [contradiction|]. rewrite E. cbn [opt_bind]. rewrite clog_pos by auto. reflexivity.
Qed.
Theorem C36_size : forall pures T rho x, length x <> length pures -> ideal_alphaig pures T rho x = Some (Err InvalidArgument).
Proof. intros. unfold ideal_alphaig. destruct (Nat.eqb_spec (length x) (length pures)); [contradiction|reflexivity]. Qed.
(** A component with mole fraction zero may be left out. *)
Fixpoint mix (pures : list (list igterm)) (T rho : R) (x : list R) : option R :=
  match pures, x with
  | p :: ps, xi :: xs => b <-- mix ps T rho xs; a <-- (if Req_EM_T xi 0 then Some 0 else a <-- pure_alphaig p T rho; l <-- clog xi; Some (xi * (a + l))); Some (a + b)
  | _, _ => Some 0
  end.
Lemma osum_S : forall n f, osum (S n) f = (b <-- osum n (fun i => f (S i)); a <-- f O; Some (a + b)).
Proof.
  induction n; intros f. { simpl. destruct (f O); simpl; f_equal; ring. }
  change (osum (S (S n)) f) with (a <-- osum (S n) f; b <-- f (S n); Some (a + b)). rewrite IHn. simpl.
  destruct (osum n (fun i => f (S i))); simpl; [|reflexivity]. destruct (f O); simpl; destruct (f (S n)); simpl; try reflexivity. f_equal. ring.
Qed.
Lemma osum_ext : forall n f g, (forall i, (i < n)%nat -> f i = g i) -> osum n f = osum n g.
Proof. induction n; intros f g H; simpl; [reflexivity|]. rewrite (IHn f g) by auto. rewrite H by lia. reflexivity. Qed.
Lemma mix_eq : forall pures T rho x, length x = length pures ->
  ideal_alphaig pures T rho x = match mix pures T rho x with Some v => ok v | None => None end.
Proof.
  intros pures T rho x L. unfold ideal_alphaig. rewrite L, Nat.eqb_refl. cbn [negb].
  assert (G : forall pures x, length x = length pures -> osum (length pures) (fun i =>
         xi <-- nth_error x i; p <-- nth_error pures i;
         if Req_EM_T xi 0 then Some 0 else a <-- pure_alphaig p T rho; l <-- clog xi; Some (xi * (a + l))) = mix pures T rho x).
  { clear. induction pures as [|p ps IH]; intros [|xi xs] L; try discriminate L; [reflexivity|].
    change (length (p :: ps)) with (S (length ps)). rewrite osum_S. cbn [mix nth_error opt_bind]. rewrite <- IH by (injection L as L; auto). reflexivity. }
  rewrite G by auto. reflexivity.
Qed.
Theorem C36_absent : forall p1 q p2 T rho x1 x2, length x1 = length p1 ->
  ideal_alphaig (p1 ++ q :: p2) T rho (x1 ++ 0 :: x2) = ideal_alphaig (p1 ++ p2) T rho (x1 ++ x2).
Proof.
  intros p1 q p2 T rho x1 x2 L. destruct (Nat.eq_dec (length x2) (length p2)) as [L2|L2].
  2:{ rewrite !C36_size; auto; rewrite !app_length; simpl; lia. }
  rewrite !mix_eq by (rewrite !app_length; simpl; lia).
  assert (G : forall p1 x1, length x1 = length p1 -> mix (p1 ++ q :: p2) T rho (x1 ++ 0 :: x2) = mix (p1 ++ p2) T rho (x1 ++ x2)); [|rewrite G; auto].
  clear. induction p1 as [|p ps IH]; intros [|xi xs] L; try discriminate L.
  - simpl. destruct (Req_EM_T 0 0); [|lra]. destruct (mix p2 T rho x2); simpl; [f_equal; ring|reflexivity].
  - simpl. rewrite IH by (injection L as L; auto). reflexivity.
Qed.
(** ... and the value is the limit for a vanishing mole fraction. *)
Lemma xlnx_small : forall a e, 0 < e -> e < 1 -> Rabs (e * (a + ln e)) <= sqrt e * (Rabs a + 2).
Proof.
  intros a e H0 H1. assert (S0 : 0 < sqrt e) by (apply sqrt_lt_R0; auto). assert (SS : sqrt e * sqrt e = e) by (apply sqrt_sqrt; lra).
  assert (S1 : sqrt e < 1) by (rewrite <- sqrt_1; apply sqrt_lt_1; lra).
  assert (LN : - ln e <= 2 / sqrt e).
  { rewrite <- SS at 1. rewrite ln_mult by auto. assert (Q := exp_ineq1 (ln (/ sqrt e))).
    assert (I0 : 0 < / sqrt e) by (apply Rinv_0_lt_compat; auto). rewrite exp_ln in Q by auto. rewrite ln_Rinv in Q by auto.
    assert (1 < / sqrt e) by (rewrite <- Rinv_1; apply Rinv_lt_contravar; lra).
    assert (ln (sqrt e) < 0) by (rewrite <- ln_1; apply ln_increasing; lra).
    specialize (Q ltac:(lra)). unfold Rdiv. lra. }
  assert (L0 : ln e < 0) by (rewrite <- ln_1; apply ln_increasing; lra).
  assert (M : Rabs (a + ln e) <= Rabs a + 2 / sqrt e). { eapply Rle_trans; [apply Rabs_triang|]. rewrite (Rabs_left (ln e)) by auto. lra. }
  rewrite Rabs_mult, (Rabs_pos_eq e) by lra. apply Rle_trans with (e * (Rabs a + 2 / sqrt e)); [apply Rmult_le_compat_l; lra|].
  assert (Q2 : e * (2 / sqrt e) = 2 * sqrt e) by (rewrite <- SS at 1; field; lra). rewrite Rmult_plus_distr_l, Q2.
  assert (e <= sqrt e) by nra. assert (0 <= Rabs a) by apply Rabs_pos. nra.
Qed.
Theorem C36_limit : forall p1 q p2 T rho x1 x2 v w, length x1 = length p1 -> pure_alphaig q T rho = Some w ->
  ideal_alphaig (p1 ++ q :: p2) T rho (x1 ++ 0 :: x2) = Some (Val v) ->
  forall eps, 0 < eps -> exists d, 0 < d /\ forall e, 0 < e < d ->
    exists u, ideal_alphaig (p1 ++ q :: p2) T rho (x1 ++ e :: x2) = Some (Val u) /\ Rabs (u - v) < eps.
Proof.
  intros p1 q p2 T rho x1 x2 v w L W E eps Heps. set (B := Rabs w + 2).
  assert (HB : 0 < B) by (unfold B; assert (Q := Rabs_pos w); lra).
  assert (L2 : length x2 = length p2).
  { destruct (Nat.eq_dec (length x2) (length p2)); auto. rewrite C36_size in E by (rewrite !app_length; simpl; lia). discriminate. }
  rewrite mix_eq in E by (rewrite !app_length; simpl; lia). destruct (mix _ _ _ _) as [v'|] eqn:M; [|discriminate]. injection E as ->.
  exists (Rmin 1 ((eps / B) * (eps / B))). assert (P : 0 < eps / B) by (apply Rdiv_lt_0_compat; auto). split. { apply Rmin_glb_lt; [lra|nra]. }
  intros e [E0 E1]. assert (e < 1) by (eapply Rlt_le_trans; [exact E1|apply Rmin_l]). assert (e < (eps / B) * (eps / B)) by (eapply Rlt_le_trans; [exact E1|apply Rmin_r]).
  exists (v + e * (w + ln e)). split.
  - rewrite mix_eq by (rewrite !app_length; simpl; lia).
    assert (G : forall p1 x1 v, length x1 = length p1 -> mix (p1 ++ q :: p2) T rho (x1 ++ 0 :: x2) = Some v -> mix (p1 ++ q :: p2) T rho (x1 ++ e :: x2) = Some (v + e * (w + ln e))).
    { clear - W E0. induction p1 as [|p ps IH]; intros [|xi xs] v L M; try discriminate L.
      - simpl in *. destruct (Req_EM_T 0 0); [|lra]. destruct (Req_EM_T e 0); [lra|]. rewrite W. cbn [opt_bind]. rewrite clog_pos by auto.
        destruct (mix p2 T rho x2); [|discriminate]. cbn [opt_bind] in *. injection M as <-. f_equal. ring.
      - cbn [app mix] in *. destruct (mix (ps ++ q :: p2) T rho (xs ++ 0 :: x2)) as [b|] eqn:Q; [|discriminate]. rewrite (IH xs b) by (auto; injection L as L; auto).
        cbn [opt_bind] in *. destruct (if Req_EM_T xi 0 then _ else _) as [a|]; [|discriminate]. cbn [opt_bind] in *. injection M as <-. f_equal. ring. }
    rewrite (G _ _ v); auto.
  - replace (v + e * (w + ln e) - v) with (e * (w + ln e)) by ring. eapply Rle_lt_trans; [apply xlnx_small; auto|]. fold B.
    assert (sqrt e < eps / B). { rewrite <- (sqrt_square (eps / B)) by lra. apply sqrt_lt_1; nra. }
    apply Rlt_le_trans with (eps / B * B); [apply Rmult_lt_compat_r; auto|]. right. field. lra.
Qed.
Example C36_limit_met : exists w v, pure_alphaig [IgLead 1 2] 300 5 = Some w /\ ideal_alphaig ([[IgLogT 3]] ++ [IgLead 1 2] :: []) 300 5 ([1] ++ 0 :: []) = Some (Val v).
Proof.
  assert (A : pure_alphaig [IgLead 1 2] 300 5 = Some (ln 5 + 1 + 2 / 300 + 0)) by (simpl; rewrite clog_pos, cdiv_nz by lra; reflexivity).
  assert (B : pure_alphaig [IgLogT 3] 300 5 = Some (3 * ln 300 + 0)) by (simpl; rewrite clog_pos by lra; reflexivity).
  exists (ln 5 + 1 + 2 / 300 + 0). eexists. split; auto. rewrite mix_eq by reflexivity. cbn [app mix]. rewrite A, B. cbn [opt_bind].
  destruct (Req_EM_T 0 0); [|lra]. destruct (Req_EM_T 1 0); [lra|]. rewrite clog_pos by lra. cbn [opt_bind]. reflexivity.
Qed.
(** Ideal-gas law: with one Lead term in each fluid, the density enters as ln(rho) only. *)
Definition leads (p : list igterm) : nat := length (filter (fun k => match k with IgLead _ _ => true | _ => false end) p).
Theorem C36_density : forall pures T rho x v, 0 < rho -> List.Forall (fun p => leads p = 1%nat) pures -> ideal_alphaig pures T 1 x = Some (Val v) ->
  ideal_alphaig pures T rho x = Some (Val (v + ln rho * sumn (length x) (fun i => nth i x 0))).
Proof.
  intros pures T rho x v Hr F E. apply C36_mixture in E. destruct E as [L [a [H ->]]].
  assert (G : forall p v, pure_alphaig p T 1 = Some v -> pure_alphaig p T rho = Some (v + INR (leads p) * ln rho)).
  { induction p as [|k p IH]; intros w Q; simpl in Q.
    - injection Q as <-. unfold leads. simpl. f_equal. ring.
    - destruct (igterm_alphaig k T 1) as [c|] eqn:Ek; [|discriminate]. cbn [opt_bind] in Q. destruct (pure_alphaig p T 1) as [b|]; [|discriminate]. cbn [opt_bind] in Q. injection Q as <-.
      cbn [pure_alphaig]. rewrite (IH b) by auto. unfold leads in *. destruct k; simpl in Ek |- *; try (rewrite Ek; cbn [opt_bind]; f_equal; ring).
      + (* Constant *) injection Ek as <-. f_equal. ring.
      + (* Lead *) rewrite clog_pos in Ek by lra. rewrite clog_pos by auto. cbn [opt_bind] in *. destruct (cdiv a2 T); [|discriminate]. cbn [opt_bind] in *. injection Ek as <-.
        rewrite ln_1. f_equal. set (m := length (filter _ p)). change (match m with O => 1 | S _ => INR m + 1 end) with (INR (S m)). rewrite S_INR. ring. }
  apply C36_mixture. split; auto. exists (fun i => a i + ln rho). split.
  - intros i Hi. destruct (H i Hi) as [Z|[P Q]]; [auto|right]. split; auto. apply G in Q. rewrite Q. f_equal.
    assert (FI : leads (nth i pures []) = 1%nat). { rewrite List.Forall_forall in F. apply F. apply nth_In. lia. } rewrite FI. simpl. ring.
  - rewrite <- sumn_scal, <- sumn_plus. apply sumn_ext. intros. ring.
Qed.
(** The order of the components does not matter. *)
Theorem C28_ideal : forall r pures T rho x v, Permutation r (seq 0 (length x)) -> ideal_alphaig pures T rho x = Some (Val v) ->
  ideal_alphaig (pick [] r pures) T rho (pick 0 r x) = Some (Val v).
Proof.
  intros r pures T rho x v P E. apply C36_mixture in E. destruct E as [L [a [H ->]]]. assert (Lr := perm_length _ _ P).
  apply C36_mixture. rewrite !pick_length. split; auto. exists (fun i => a (nth i r O)). split.
  - intros i Hi. rewrite pick_nth, pick_nth' by auto. apply H. apply (perm_lt _ _ _ P). lia.
  - rewrite Lr, <- (sumn_perm r _ (fun i => nth i x 0 * (a i + ln (nth i x 0))) P). apply sumn_ext. intros i Hi. rewrite pick_nth by lia. reflexivity.
Qed.
Example C28_ideal_met : Permutation [1; 0]%nat (seq 0 (length [1 / 4; 3 / 4])) /\
  ideal_alphaig [[IgConstant 1]; [IgConstant 2]] 300 1 [1 / 4; 3 / 4] = Some (Val (1 / 4 * (1 + ln (1 / 4)) + 3 / 4 * (2 + ln (3 / 4)))).
Proof.
  split; [apply perm_swap|]. apply C36_mixture. split; [reflexivity|]. exists (fun i => nth i [1; 2] 0). split.
  - intros [|[|i]] Hi; simpl in *; try lia; right; (split; [lra|f_equal; ring]).
  - simpl. ring.
Qed.

(** ** C35: conversion of CoolProp's terms *)
Ltac asR := match goal with |- @eq _ ?a ?b => change (@eq R a b) end.
(** enthalpy and entropy integrals of a power *)
Lemma int_power : forall c t T0 T, 0 < T0 -> 0 < T -> t <> -1 ->
  is_RInt (fun s => c * Rpower s t) T0 T (c * (Rpower T (t + 1) - Rpower T0 (t + 1)) / (t + 1)).
Proof.
  intros c t T0 T H0 HT N.
  assert (P : forall x, Rmin T0 T <= x <= Rmax T0 T -> 0 < x). { intros x [G _]. assert (0 < Rmin T0 T) by (apply Rmin_glb_lt; auto). lra. }
  evar_last.
  - apply (is_RInt_derive (fun s => c * Rpower s (t + 1) / (t + 1)) (fun s => c * Rpower s t)).
    + intros x Hx. specialize (P x Hx).
      apply (is_derive_ext_loc (fun s => c * (Rpower s t * s) / (t + 1))).
      { exists (mkposreal x P). intros y Hy. unfold ball in Hy. simpl in Hy. unfold AbsRing_ball, abs, minus, plus, opp in Hy. simpl in Hy. apply Rabs_def2 in Hy.
        rewrite Rpower_plus, Rpower_1 by lra. reflexivity. }
      unfold Rpower. auto_derive; [auto|]. field. split; lra.
    + intros x Hx. specialize (P x Hx). apply (ex_derive_continuous (fun s => c * Rpower s t)). unfold Rpower. auto_derive. auto.
  - unfold minus, plus, opp. simpl. field. lra.
Qed.
Lemma int_inv : forall c T0 T, 0 < T0 -> 0 < T -> is_RInt (fun s => c * / s) T0 T (c * ln (T / T0)).
Proof.
  intros c T0 T H0 HT.
  assert (P : forall x, Rmin T0 T <= x <= Rmax T0 T -> 0 < x). { intros x [G _]. assert (0 < Rmin T0 T) by (apply Rmin_glb_lt; auto). lra. }
  evar_last.
  - apply (is_RInt_derive (fun s => c * ln s) (fun s => c * / s)).
    + intros x Hx. specialize (P x Hx). auto_derive; [auto|]. field. lra.
    + intros x Hx. specialize (P x Hx). apply (ex_derive_continuous (fun s => c * / s)). auto_derive. lra.
  - unfold minus, plus, opp. simpl. unfold Rdiv. rewrite ln_mult, ln_Rinv by (auto; apply Rinv_0_lt_compat; auto). ring.
Qed.
Definition power_part (c t T0 T : R) : R :=
  if Req_EM_T t 0 then c * ((T - T0) / T - ln (T / T0))
  else c * (Rpower T t * (1 / (t + 1) - 1 / t) - Rpower T0 (t + 1) / (T * (t + 1)) + Rpower T0 t / t).
Lemma poly_ints : forall l T0 T, 0 < T0 -> 0 < T -> List.Forall (fun p : R * R => snd p <> -1) l ->
  exists I J, is_RInt (fun s => fold_right (fun p a => fst p * Rpower s (snd p) + a) 0 l) T0 T I /\
  is_RInt (fun s => fold_right (fun p a => fst p * Rpower s (snd p) + a) 0 l / s) T0 T J /\
  I / T - J = fold_right (fun p a => power_part (fst p) (snd p) T0 T + a) 0 l.
Proof.
  intros l T0 T H0 HT F.
  assert (P : forall x, Rmin T0 T < x < Rmax T0 T -> 0 < x). { intros x [G _]. assert (0 < Rmin T0 T) by (apply Rmin_glb_lt; auto). lra. }
  induction F as [|[c t] l N F IH].
  - exists 0, 0. simpl. split; [|split].
    + evar_last; [apply (is_RInt_const T0 T 0)|]. unfold scal. simpl. unfold mult. simpl. ring.
    + apply (is_RInt_ext (fun _ => 0)); [intros; change (@eq R 0 (0 / x)); unfold Rdiv; ring|]. evar_last; [apply (is_RInt_const T0 T 0)|]. unfold scal. simpl. unfold mult. simpl. ring.
    + unfold Rdiv. ring.
  - destruct IH as [I [J [HI [HJ E]]]]. cbn [fst snd] in *.
    assert (K : exists I1 J1, is_RInt (fun s => c * Rpower s t) T0 T I1 /\ is_RInt (fun s => c * Rpower s t / s) T0 T J1 /\ I1 / T - J1 = power_part c t T0 T).
    { assert (HI1 := int_power c t T0 T H0 HT N). unfold power_part. destruct (Req_EM_T t 0) as [->|N0].
      - eexists. exists (c * ln (T / T0)). split; [exact HI1|]. split.
        + apply (is_RInt_ext (fun s => c * / s)); [|apply int_inv; auto]. intros x Hx. asR. rewrite Rpower_O by auto. unfold Rdiv. ring.
        + rewrite !Rplus_0_l, !Rpower_1 by auto. field. lra.
      - eexists. exists (c * (Rpower T (t - 1 + 1) - Rpower T0 (t - 1 + 1)) / (t - 1 + 1)). split; [exact HI1|]. split.
        + apply (is_RInt_ext (fun s => c * Rpower s (t - 1))); [|apply int_power; auto; lra]. intros x Hx. asR.
          replace (Rpower x t) with (Rpower x (t - 1 + 1)) by (f_equal; ring). rewrite Rpower_plus, Rpower_1 by auto. field. apply Rgt_not_eq, P. auto.
        + replace (t - 1 + 1) with t by ring. rewrite (Rpower_plus t 1 T), Rpower_1 by auto. field. repeat split; lra. }
    destruct K as [I1 [J1 [HI1 [HJ1 E1]]]]. exists (I1 + I), (J1 + J). cbn [fold_right fst snd]. split; [|split].
    + apply (is_RInt_plus (fun s => c * Rpower s t) _ T0 T); auto.
    + apply (is_RInt_ext (fun s => c * Rpower s t / s + fold_right (fun p a => fst p * Rpower s (snd p) + a) 0 l / s)).
      { intros x Hx. asR. cbn [fst snd]. unfold Rdiv. ring. }
      apply (is_RInt_plus (fun s => c * Rpower s t / s) _ T0 T); auto.
    + rewrite <- E1, <- E. unfold Rdiv. ring.
Qed.
Lemma over_combine : forall c t f, length t = length c -> over c (fun i => f (nth i t 0)) = fold_right (fun p a => fst p * f (snd p) + a) 0 (combine c t).
Proof.
  intros c t f. revert t. induction c as [|a c IH]; intros [|b t] L; try discriminate L; [reflexivity|]. simpl. rewrite <- IH by (injection L as L; auto).
  unfold over. change (length (a :: c)) with (S (length c)). rewrite Iso_proofs.sumn_S_l. reflexivity.
Qed.
Lemma from_poly : forall c t T0 T, length t = length c -> 0 < T0 -> 0 < T -> (forall i, (i < length c)%nat -> nth i t 0 <> -1) ->
  from_cp (fun s => over c (fun i => Rpower s (nth i t 0))) T0 T = fold_right (fun p a => power_part (fst p) (snd p) T0 T + a) 0 (combine c t).
Proof.
  intros c t T0 T L H0 HT N.
  destruct (poly_ints (combine c t) T0 T H0 HT) as [I [J [HI [HJ E]]]].
  { apply List.Forall_forall. intros [a b] Hab. destruct (In_nth _ _ (0, 0) Hab) as [i [Hi Q]]. rewrite combine_length in Hi. rewrite combine_nth in Q by auto.
    injection Q as <- <-. simpl. apply N. lia. }
  rewrite <- E. unfold from_cp. f_equal; [f_equal|].
  - apply is_RInt_unique. apply (is_RInt_ext (fun s => fold_right (fun p a => fst p * Rpower s (snd p) + a) 0 (combine c t))); auto.
    intros x Hx. symmetry. apply (over_combine c t (Rpower x)). auto.
  - apply is_RInt_unique. apply (is_RInt_ext (fun s => fold_right (fun p a => fst p * Rpower s (snd p) + a) 0 (combine c t) / s)); auto.
    intros x Hx. f_equal. symmetry. apply (over_combine c t (Rpower x)). auto.
Qed.
(** Each converted term is a list of documented terms of teqp with the same sum. *)
Definition same_sum (ts : list json) (v : R -> R -> R) : Prop :=
  exists d : docs, List.Forall2 (fun t d => documented t (fst d) (snd d)) ts d /\ forall T rho, 0 < T -> 0 < rho -> total (map fst d) T rho = v T rho.
Lemma same_one : forall t v w cp, documented t w cp -> (forall T rho, 0 < T -> 0 < rho -> w T rho = v T rho) -> same_sum [t] v.
Proof.
  intros t v w cp D E. exists [(w, cp)]. split; [constructor; [exact D|constructor]|]. intros T rho HT Hr. simpl. rewrite E by auto. ring.
Qed.
Ltac rbuilds K := unfold reformat; rewrite K; cbn [obind]; cbv beta iota delta [String.eqb Ascii.eqb Bool.eqb].
Lemma obind_val : forall A B (a : A) (f : A -> outcome B), obind (Some (Val a)) f = f a.
Proof. reflexivity. Qed.
Ltac rreads := repeat (match goal with H : numbers _ _ _ |- _ => rewrite (get_numbers _ _ _ H) | H : number _ _ _ |- _ => rewrite (get_number _ _ _ H) | H : 0 < ?x |- context [clog ?x] => rewrite (clog_pos x H) end; cbn [lift_o ok]; try rewrite obind_val; cbv beta).
Lemma nth_map_scale : forall l i k, (i < length l)%nat -> nth i (map (fun x => x * k) l) 0 = nth i l 0 * k.
Proof. intros. rewrite (nth_indep _ 0 (0 * k)) by (rewrite map_length; auto). apply (map_nth (fun x => x * k)). Qed.
Lemma scale_power_val : forall Tr n t, 0 < Tr -> length t = length n -> exists n', scale_power Tr n t = Some n' /\ length n' = length n /\
  (forall i, (i < length n)%nat -> nth i n' 0 = nth i n 0 * Rpower Tr (nth i t 0)) /\
  length (negate_first (length n) t) = length n /\ forall i, (i < length n)%nat -> nth i (negate_first (length n) t) 0 = - nth i t 0.
Proof.
  intros Tr n t HT. revert t. induction n as [|a n IH]; intros [|b t] L; try discriminate L.
  - exists []. simpl. repeat split; intros; lia.
  - destruct (IH t) as [n' [E [L1 [V [L2 W]]]]]; [injection L as L; auto|]. exists (a * Rpower Tr b :: n'). simpl. rewrite cpow_pos by auto. rewrite E. simpl.
    split; [reflexivity|]. split; [lia|]. split; [|split; [lia|]]; intros [|i] Hi; simpl; auto; try ring; [apply V|apply W]; lia.
Qed.
Theorem C35_term : forall Tr rhor Rg j v, 0 < Tr -> 0 < rhor -> coolprop Tr rhor j v ->
  exists ts, reformat j Tr rhor Rg = Some (Val ts) /\ same_sum ts v.
Proof.
  intros Tr rhor Rg j v HTr Hrr H.
  destruct H as [j a1 a2 K1 K2 K3|j a1 a2 K1 K2 K3|j a K1 K2|j n t K1 K2 K3 L P|j n w K1 K2 K3 L P|j n c d t K1 K2 K3 K4 K5 L1 L2 L3 P|j n t K1 K2 K3 L|j c t T0 K1 K2 K3 K4 L H0 N|j c T0 K1 K2 K3 H0]; rbuilds K1; rreads.
  - eexists. split; [reflexivity|].
    eapply same_one; [apply doc_Lead; reflexivity|]. intros T rho HT Hr. cbv beta. unfold Rdiv at 2. rewrite ln_mult, ln_Rinv by (auto; apply Rinv_0_lt_compat; auto). field. lra.
  - eexists. split; [reflexivity|]. eapply same_one; [eapply doc_PowerT; try reflexivity|]. intros T rho HT Hr. unfold over. simpl.
    rewrite Rpower_O by auto. replace (Rpower T (-1)) with (/ T) by (replace (-1) with (Ropp 1) by ring; rewrite Rpower_Ropp, Rpower_1; auto). field. lra.
  - eexists. split; [reflexivity|]. exists [((fun _ _ => a * ln Tr), fun _ => 0); ((fun T _ => - a * ln T), fun _ => - - a)].
    split; [constructor; [cbn [fst snd]; apply doc_Constant; reflexivity|constructor; [cbn [fst snd]; apply doc_LogT; reflexivity|constructor]]|].
    intros T rho HT Hr. simpl. unfold Rdiv. rewrite ln_mult, ln_Rinv by (auto; apply Rinv_0_lt_compat; auto). ring.
  - eexists. split; [reflexivity|]. eapply same_one.
    + eapply (doc_PlanckEinstein _ n (map (fun x => x * Tr) t)); try reflexivity. { rewrite map_length. auto. }
      intros i Hi. rewrite nth_map_scale by lia. apply Rmult_lt_0_compat; auto.
    + intros T rho HT Hr. cbv beta. unfold over. apply sumn_ext. intros i Hi. rewrite nth_map_scale by lia. do 4 f_equal. field. lra.
  - eexists. split; [reflexivity|]. eapply same_one; [eapply (doc_PlanckEinstein _ n w); try reflexivity; auto|]. intros. reflexivity.
  - eexists. split; [reflexivity|]. eapply same_one.
    + eapply (doc_Generalized _ n c d (map (fun x => x * Tr) t)); try reflexivity; auto. { rewrite map_length. auto. }
      intros i T Hi HT. rewrite nth_map_scale by lia. replace (nth i t 0 * Tr / T) with (nth i t 0 * (Tr / T)) by (unfold Rdiv; ring).
      apply P; auto. apply Rdiv_lt_0_compat; auto.
    + intros T rho HT Hr. cbv beta. unfold over. apply sumn_ext. intros i Hi. rewrite nth_map_scale by lia.
      replace (nth i t 0 * Tr / T) with (nth i t 0 * (Tr / T)) by (unfold Rdiv; ring). reflexivity.
  - destruct (scale_power_val Tr n t HTr L) as [n' [E [L1 [V [L2 W]]]]]. rewrite E. cbn [lift_o obind ok]. eexists. split; [reflexivity|].
    eapply same_one; [eapply (doc_PowerT _ n' (negate_first (length n) t)); try reflexivity; lia|].
    intros T rho HT Hr. cbv beta. unfold over. rewrite L1. apply sumn_ext. intros i Hi. rewrite V, W by auto. rewrite Rmult_assoc. f_equal.
    rewrite Rpower_Ropp. unfold Rdiv. rewrite <- Rpower_mult_distr by (auto; apply Rinv_0_lt_compat; auto). f_equal.
    unfold Rpower. rewrite ln_Rinv by auto. rewrite <- exp_Ropp. f_equal. ring.
  - assert (G : forall t c, length t = length c -> List.Forall (fun b => b <> -1) t -> exists ts (d : docs), poly_terms Rg T0 t c = Some ts /\
      List.Forall2 (fun t d => documented t (fst d) (snd d)) ts d /\ forall T rho, 0 < T -> total (map fst d) T rho = fold_right (fun p a => power_part (fst p) (snd p) T0 T + a) 0 (combine c t)).
    { clear - H0. induction t as [|b t IH]; intros [|a c] L F; try discriminate L.
      - exists [], []. split; [reflexivity|]. split; [constructor|reflexivity].
      - inversion F; subst. destruct (IH c) as [ts [d [E [Fd V]]]]; [injection L as L; auto|auto|]. simpl poly_terms. rewrite E. cbn [opt_bind].
        destruct (Req_EM_T b 0) as [B|B].
        + eexists. exists (((fun T _ => a * ((T - T0) / T - ln (T / T0))), fun _ => a) :: d). split; [reflexivity|].
          split; [constructor; [cbn [fst snd]; apply doc_Cp0Constant; try reflexivity; auto|exact Fd]|].
          intros T rho HT. simpl. rewrite (V T rho HT). unfold power_part at 2. destruct (Req_EM_T b 0); [reflexivity|contradiction].
        + eexists. exists (((fun T _ => a * (Rpower T b * (1 / (b + 1) - 1 / b) - Rpower T0 (b + 1) / (T * (b + 1)) + Rpower T0 b / b)), fun T => a * Rpower T b) :: d). split; [reflexivity|].
          split; [constructor; [cbn [fst snd]; apply doc_Cp0PowerT; try reflexivity; auto|exact Fd]|].
          intros T rho HT. simpl. rewrite (V T rho HT). unfold power_part at 2. destruct (Req_EM_T b 0); [contradiction|reflexivity]. }
    destruct (G t c L) as [ts [d [E [Fd V]]]].
    { apply List.Forall_forall. intros b Hb. destruct (In_nth _ _ 0 Hb) as [i [Hi <-]]. apply N. lia. }
    rewrite E. exists ts. split; [reflexivity|]. exists d. split; auto. intros T rho HT Hr. rewrite V by auto. symmetry. apply from_poly; auto.
  - assert (K2' := K2). unfold number in K2'. rewrite K2'. cbn [obind]. eexists. split; [reflexivity|].
    eapply same_one; [apply doc_Cp0Constant; try reflexivity; auto|]. intros T rho HT Hr. cbv beta.
    assert (Q := from_poly [c] [0] T0 T eq_refl H0 HT ltac:(intros [|i] Hi; simpl in *; [lra|lia])).
    simpl in Q. unfold power_part in Q. destruct (Req_EM_T 0 0); [|lra]. rewrite Rplus_0_r in Q. rewrite <- Q. unfold from_cp. f_equal; [f_equal|].
    + apply RInt_ext. intros x Hx. assert (0 < x) by (assert (0 < Rmin T0 T) by (apply Rmin_glb_lt; auto); lra). unfold over. simpl. rewrite Rpower_O by auto. ring.
    + apply RInt_ext. intros x Hx. assert (0 < x) by (assert (0 < Rmin T0 T) by (apply Rmin_glb_lt; auto); lra). unfold over. simpl. rewrite Rpower_O by auto. f_equal. ring.
Qed.
(** The whole file: the converted fluid is accepted and evaluates to the sum of CoolProp's terms. *)
Definition holds_file (fs : FS) (s : string) (j : json) : Prop :=
  load_a_JSON_file fs s = Val j \/ (exists e, load_a_JSON_file fs s = Err e) /\ fs_parse fs s = Some j.
Theorem C35_file : forall fs s j l e i (vs : list (R -> R -> R)) cps st red Tr rhor Rg, holds_file fs s j -> j_at j "EOS" = Val (JArr l) ->
  nth_error l i = Some e -> j_at e "alpha0" = Val (JArr cps) -> j_at e "STATES" = Val st -> j_at st "reducing" = Val red ->
  number red "T" Tr -> number red "rhomolar" rhor -> number e "gas_constant" Rg -> 0 < Tr -> 0 < rhor ->
  List.Forall2 (coolprop Tr rhor) cps vs ->
  exists jt p, convert_CoolProp_idealgas fs s (Z.of_nat i) = Some (Val jt) /\ build_pure_ideal jt = Val p /\
  forall T rho, 0 < T -> 0 < rho -> pure_alphaig p T rho = Some (total vs T rho).
Proof.
  intros fs s j l e i vs cps st red Tr rhor Rg HF HE He HA HS HR HT Hrho HG PT Pr F.
  assert (G : exists ts, reformat_all cps Tr rhor Rg = Some (Val ts) /\ same_sum ts (total vs)).
  { clear - F PT Pr. induction F as [|c v cps' vs H F IH].
    - exists []. split; [reflexivity|]. exists []. split; [constructor|reflexivity].
    - destruct IH as [ts [E [d [Fd V]]]]. destruct (C35_term Tr rhor Rg _ _ PT Pr H) as [ts1 [E1 [d1 [Fd1 V1]]]]. exists (ts1 ++ ts).
      simpl. rewrite E1. cbn [obind]. rewrite E. split; [reflexivity|]. exists (d1 ++ d). split; [apply List.Forall2_app; auto|].
      intros T rho HT Hr. rewrite map_app. unfold total. rewrite fold_right_app. fold (total (map fst d) T rho). rewrite V by auto.
      cbn [fold_right]. rewrite <- (V1 T rho HT Hr). fold (total vs T rho). clear. induction (map fst d1); simpl; [ring|]. rewrite IHl. ring. }
  destruct G as [ts [E [d [Fd V]]]]. destruct (all_built _ _ Fd) as [p [Ep [Vp _]]].
  exists (JObj [("terms", JArr ts); ("R", JNum Rg)]%string), p. split; [|split].
  - unfold convert_CoolProp_idealgas.
    assert (LJ : match load_a_JSON_file fs s with Val j0 => Val j0 | Err _ => match fs_parse fs s with Some j0 => Val j0 | None => Err JsonError end end = Val j).
    { destruct HF as [-> | [[er ->] ->]]; reflexivity. }
    rewrite LJ. cbn [obind]. rewrite HE. cbn [bind]. unfold eos_at. destruct (Z.ltb_spec (Z.of_nat i) 0); [lia|]. rewrite Nat2Z.id, (nth_error_nth _ _ _ He). cbn [obind].
    rewrite HA. cbn [obind]. rewrite HS. cbn [bind]. rewrite HR. cbn [bind]. rewrite (get_number _ _ _ HT), (get_number _ _ _ Hrho). cbn [obind].
    rewrite (get_number _ _ _ HG). cbn [obind j_values]. rewrite E. reflexivity.
  - unfold build_pure_ideal. cbn [j_at lookup String.eqb Ascii.eqb Bool.eqb bind j_double j_values]. exact Ep.
  - intros T rho HT' Hr. rewrite Vp, V by auto. reflexivity.
Qed.
(** Finding: the exponent -1, for which the integral of the heat capacity is a logarithm,
    is converted to a term that never evaluates. *)
Definition reciprocal_cp := JObj [("type", JStr "IdealGasHelmholtzCP0PolyT"); ("c", JArr [JNum 1]); ("t", JArr [JNum (-1)]); ("T0", JNum 300)]%string.
Theorem C35_reciprocal_refuted : exists v : R -> R,
  (forall T, 0 < T -> is_RInt (fun s => / s) 300 T (ln (T / 300)) /\ is_RInt (fun s => / s / s) 300 T (/ 300 - / T) /\ v T = ln (T / 300) / T - (/ 300 - / T)) /\
  forall Tr rhor Rg, exists ts p, reformat reciprocal_cp Tr rhor Rg = Some (Val ts) /\ map_res build_igterm ts = Val p /\
  forall T rho, pure_alphaig p T rho = None.
Proof.
  exists (fun T => ln (T / 300) / T - (/ 300 - / T)). split.
  - intros T HT. assert (P : forall x, Rmin 300 T <= x <= Rmax 300 T -> 0 < x). { intros x [G _]. assert (0 < Rmin 300 T) by (apply Rmin_glb_lt; lra). lra. }
    split; [|split; [|reflexivity]].
    + apply (is_RInt_ext (fun s => 1 * / s)); [intros; asR; ring|]. replace (ln (T / 300)) with (1 * ln (T / 300)) by ring. apply int_inv; lra.
    + evar_last; [apply (is_RInt_derive (fun s => - / s) (fun s => / s / s))|].
      * intros x Hx. specialize (P x Hx). auto_derive; [lra|]. field. lra.
      * intros x Hx. specialize (P x Hx). apply (ex_derive_continuous (fun s => / s / s)). auto_derive. lra.
      * unfold minus, plus, opp. simpl. ring.
  - intros Tr rhor Rg. unfold reformat, reciprocal_cp. simpl. destruct (Req_EM_T (-1) 0); [lra|]. eexists. eexists. split; [reflexivity|]. split; [reflexivity|].
    intros T rho. simpl. destruct (cpow T (-1)); [|reflexivity]. simpl. unfold cdiv at 1. destruct (Req_EM_T (-1 + 1) 0); [reflexivity|lra].
Qed.
(** The Aly-Lee heat capacity: the conversion has the same heat capacity (enthalpy and
    entropy may be counted from another reference).  Constants of magnitude up to 1e-14
    are dropped, and the second temperature parameter must be positive. *)
Definition kept (x : R) : Prop := x = 0 \/ 1e-14 < Rabs x.
Lemma nonzero_kept : forall x, kept x -> (nonzero x = true /\ x <> 0) \/ (nonzero x = false /\ x = 0).
Proof.
  intros x [->|H]; unfold nonzero.
  - right. rewrite Rabs_R0. destruct (Rlt_dec 1e-14 0); [lra|auto].
  - left. destruct (Rlt_dec 1e-14 (Rabs x)); [|lra]. split; auto. intros ->. rewrite Rabs_R0 in H. lra.
Qed.
Lemma AlyLee_sinh : forall B C T, 0 < C -> 0 < T ->
  - (B * ((-2 * C / T) ^ 2 * 1 * -1 * exp (-2 * C / T) / (1 + -1 * exp (-2 * C / T)) ^ 2)) = B * (C / T / sinh (C / T)) ^ 2.
Proof.
  intros B C T HC HT. assert (U : 0 < C / T) by (apply Rdiv_lt_0_compat; auto).
  replace (-2 * C / T) with (- (C / T) + - (C / T)) by (unfold Rdiv; ring). rewrite exp_plus. unfold sinh. rewrite exp_Ropp. 
  assert (E1 : 1 < exp (C / T)) by (rewrite <- exp_0; apply exp_increasing; auto). set (u := C / T) in *. set (e := exp u) in *.
  assert (0 < e * e - 1) by nra. field. repeat split; try lra.
Qed.
Lemma AlyLee_cosh : forall D E T, 0 < T ->
  - (- D * ((-2 * E / T) ^ 2 * 1 * 1 * exp (-2 * E / T) / (1 + 1 * exp (-2 * E / T)) ^ 2)) = D * (E / T / cosh (E / T)) ^ 2.
Proof.
  intros D E T HT. replace (-2 * E / T) with (- (E / T) + - (E / T)) by (unfold Rdiv; ring). rewrite exp_plus. unfold cosh. rewrite exp_Ropp. 
  set (u := E / T) in *. set (e := exp u) in *. assert (E0 : 0 < e) by apply exp_pos.
  field. repeat split; try lra; nra.
Qed.
Theorem C35_AlyLee : forall Tr rhor Rg j A B C D E T0, kind_is j "IdealGasHelmholtzCP0AlyLee" -> numbers j "c" [A; B; C; D; E] -> number j "T0" T0 ->
  0 < T0 -> 0 < C -> kept A -> kept B -> kept D ->
  exists ts p f, reformat j Tr rhor Rg = Some (Val ts) /\ map_res build_igterm ts = Val p /\
  (forall T rho, 0 < T -> 0 < rho -> pure_alphaig p T rho = Some (f T)) /\ has_cp f (Aly_Lee A B C D E).
Proof.
  intros Tr rhor Rg j A B C D E T0 K1 K2 K3 H0 HC KA KB KD. unfold reformat. rewrite K1. cbn [obind]. cbv beta iota delta [String.eqb Ascii.eqb Bool.eqb].
  rreads. cbn [nth_error lift_o obind ok].
  assert (PC : forall T, 0 < T -> 0 < 1 + -1 * exp (-2 * C / T)).
  { intros T HT. assert (0 < C / T) by (apply Rdiv_lt_0_compat; auto). assert (exp (-2 * C / T) < 1); [|lra]. rewrite <- exp_0. apply exp_increasing. unfold Rdiv in *. lra. }
  assert (PD : forall T, 0 < T -> 0 < 1 + 1 * exp (-2 * E / T)) by (intros; assert (Q := exp_pos (-2 * E / T)); lra).
  assert (GB : forall T, 0 < T -> B * (C / T / sinh (C / T)) ^ 2 = - (B * ((-2 * C / T) ^ 2 * 1 * -1 * exp (-2 * C / T) / (1 + -1 * exp (-2 * C / T)) ^ 2))) by (intros; symmetry; apply AlyLee_sinh; auto).
  assert (GD : forall T, 0 < T -> D * (E / T / cosh (E / T)) ^ 2 = - (- D * ((-2 * E / T) ^ 2 * 1 * 1 * exp (-2 * E / T) / (1 + 1 * exp (-2 * E / T)) ^ 2))) by (intros; symmetry; apply AlyLee_cosh; auto).
  (* the Planck-Einstein part: the lists depend on which constants are kept *)
  set (all := (if nonzero B then [(B, (-2 * C, (1, -1)))] else []) ++ (if nonzero D then [(- D, (-2 * E, (1, 1)))] else [])).
  set (n := map fst all). set (c := map (fun p : R * (R * (R * R)) => fst (snd (snd p))) all). set (d := map (fun p : R * (R * (R * R)) => snd (snd (snd p))) all).
  set (th := map (fun p : R * (R * (R * R)) => fst (snd p)) all).
  set (gen := JObj [("type", JStr "PlanckEinsteinGeneralized"); ("n", jnums n); ("c", jnums c); ("d", jnums d); ("theta", jnums th); ("R", JNum Rg)]%string).
  set (con := JObj [("type", JStr "Cp0Constant"); ("c", JNum A); ("T_0", JNum T0); ("R", JNum Rg)]%string).
  set (lhs := obind _ _).
  assert (El : lhs = Some (Val ((if nonzero A then [con] else []) ++ [gen]))).
  { unfold lhs, gen, n, c, d, th, all, con. destruct (nonzero B), (nonzero D); reflexivity. }
  rewrite El. clear lhs El.
  assert (DG : exists w cp, documented gen w cp /\ forall T, 0 < T -> cp T = B * (C / T / sinh (C / T)) ^ 2 + D * (E / T / cosh (E / T)) ^ 2 /\ forall rho, w T rho = w T 1).
  { eexists. eexists. split.
    - apply (doc_Generalized gen n c d th); try reflexivity; unfold n, c, d, th; rewrite ?map_length; auto.
      unfold all. destruct (nonzero B), (nonzero D); simpl; intros [|[|i]] T Hi HT; try lia; simpl; auto.
    - intros T HT. split; [|reflexivity]. rewrite GB, GD by auto. unfold over, n, c, d, th, all.
      destruct (nonzero_kept B KB) as [[-> _]|[-> ->]]; destruct (nonzero_kept D KD) as [[-> _]|[-> ->]]; simpl; ring. }
  destruct DG as [w [cp [Dg Cg]]].
  assert (DA : exists l : docs, List.Forall2 (fun t d => documented t (fst d) (snd d)) ((if nonzero A then [con] else []) ++ [gen]) l /\
    (forall T, 0 < T -> total1 (map snd l) T = Aly_Lee A B C D E T) /\ (forall T rho, 0 < T -> total (map fst l) T rho = total (map fst l) T 1)).
  { destruct (nonzero_kept A KA) as [[-> _]|[-> ->]].
    - exists [((fun T _ => A * ((T - T0) / T - ln (T / T0))), (fun _ => A)); (w, cp)]. split; [|split].
      + constructor; [cbn [fst snd]; apply doc_Cp0Constant; try reflexivity; auto|constructor; [exact Dg|constructor]].
      + intros T HT. simpl. destruct (Cg T HT) as [-> _]. unfold Aly_Lee. ring.
      + intros T rho HT. simpl. destruct (Cg T HT) as [_ ->]. reflexivity.
    - exists [(w, cp)]. split; [constructor; [exact Dg|constructor]|]. split.
      + intros T HT. simpl. destruct (Cg T HT) as [-> _]. unfold Aly_Lee. ring.
      + intros T rho HT. simpl. destruct (Cg T HT) as [_ ->]. reflexivity. }
  destruct DA as [l [Fl [Cl Vl]]]. destruct (all_built _ _ Fl) as [p [Ep [Vp Cp]]].
  eexists. exists p, (fun T => total (map fst l) T 1). split; [reflexivity|]. split; [exact Ep|]. split.
  - intros T rho HT Hr. rewrite Vp by auto. f_equal. auto.
  - refine (has_cp_ext _ _ _ _ _ _ (Cp 1)); [reflexivity|]. intros T HT. rewrite Cl by auto. reflexivity.
Qed.
(** Findings: the formula of Aly and Lee does not depend on the sign of C, but the
    conversion of a file with negative C never evaluates; and a small constant is lost. *)
Definition aly_lee (A B C D E : R) := JObj [("type", JStr "IdealGasHelmholtzCP0AlyLee"); ("c", JArr [JNum A; JNum B; JNum C; JNum D; JNum E]); ("T0", JNum 300)]%string.
Theorem C35_AlyLee_negative_refuted : (forall T, 0 < T -> Aly_Lee 0 1 (-1000) 0 0 T = Aly_Lee 0 1 1000 0 0 T) /\
  forall Tr rhor Rg, exists ts p, reformat (aly_lee 0 1 (-1000) 0 0) Tr rhor Rg = Some (Val ts) /\ map_res build_igterm ts = Val p /\
  forall T rho, 0 < T -> pure_alphaig p T rho = None.
Proof.
  split.
  - intros T HT. unfold Aly_Lee. replace (-1000 / T) with (- (1000 / T)) by (unfold Rdiv; ring). unfold sinh. rewrite Ropp_involutive.
    assert (U : 0 < 1000 / T) by (apply Rdiv_lt_0_compat; lra). assert (exp (- (1000 / T)) < exp (1000 / T)) by (apply exp_increasing; lra).
    replace (0 / T) with 0 by (unfold Rdiv; ring). set (x := exp (1000 / T)) in *. set (y := exp (- (1000 / T))) in *. set (u := 1000 / T) in *.
    f_equal. f_equal. f_equal. field. split; lra.
  - intros Tr rhor Rg. unfold reformat, aly_lee. simpl.
    assert (N0 : nonzero 0 = false) by (unfold nonzero; rewrite Rabs_R0; destruct (Rlt_dec 1e-14 0); [lra|reflexivity]).
    assert (N1 : nonzero 1 = true) by (unfold nonzero; rewrite Rabs_R1; destruct (Rlt_dec 1e-14 1); [reflexivity|lra]).
    rewrite N0, N1. simpl. eexists. eexists. split; [reflexivity|]. split; [reflexivity|]. intros T rho HT. simpl. unfold osum. simpl.
    rewrite cdiv_nz by lra. simpl. unfold clog. set (z := -2 * -1000 / T). assert (Z : 0 < z) by (unfold z; apply Rdiv_lt_0_compat; lra).
    assert (1 < exp z) by (rewrite <- exp_0; apply exp_increasing; auto). destruct (Rlt_dec 0 (1 + -1 * exp z)); [lra|reflexivity].
Qed.
Theorem C35_AlyLee_small_refuted : (forall T, 0 < T -> Aly_Lee 1e-15 0 1000 0 0 T = 1e-15) /\
  forall Tr rhor Rg, exists ts p, reformat (aly_lee 1e-15 0 1000 0 0) Tr rhor Rg = Some (Val ts) /\ map_res build_igterm ts = Val p /\
  forall T rho, pure_alphaig p T rho = Some 0.
Proof.
  split.
  - intros T HT. unfold Aly_Lee. ring.
  - intros Tr rhor Rg. unfold reformat, aly_lee. simpl.
    assert (N0 : nonzero 0 = false) by (unfold nonzero; rewrite Rabs_R0; destruct (Rlt_dec 1e-14 0); [lra|reflexivity]).
    assert (N1 : nonzero 1e-15 = false) by (unfold nonzero; rewrite Rabs_pos_eq by lra; destruct (Rlt_dec 1e-14 1e-15); [lra|reflexivity]).
    rewrite N0, N1. simpl. eexists. eexists. split; [reflexivity|]. split; [reflexivity|]. intros T rho. simpl. f_equal. ring.
Qed.
(** Refusals. *)
Theorem C35_unknown : forall Tr rhor Rg j type, kind_is j type ->
  ~ In type ["IdealGasHelmholtzLead"; "IdealGasHelmholtzEnthalpyEntropyOffset"; "IdealGasHelmholtzLogTau"; "IdealGasHelmholtzPlanckEinstein";
             "IdealGasHelmholtzPlanckEinsteinFunctionT"; "IdealGasHelmholtzPlanckEinsteinGeneralized"; "IdealGasHelmholtzPower";
             "IdealGasHelmholtzCP0PolyT"; "IdealGasHelmholtzCP0Constant"; "IdealGasHelmholtzCP0AlyLee"]%string ->
  reformat j Tr rhor Rg = Some (Err InvalidArgument).
Proof.
  intros Tr rhor Rg j type K N. unfold reformat. rewrite K. cbn [obind].
  repeat match goal with |- context [String.eqb type ?k] => destruct (String.eqb_spec type k) as [->|_]; [exfalso; apply N; repeat (first [left; reflexivity|right])|] end.
  reflexivity.
Qed.
Theorem C35_index : forall fs s j l i, holds_file fs s j -> j_at j "EOS" = Val (JArr l) -> (i < 0 \/ Z.of_nat (length l) <= i)%Z ->
  exists e, convert_CoolProp_idealgas fs s i = Some (Err e).
Proof.
  intros fs s j l i HF HE Hi. unfold convert_CoolProp_idealgas.
  assert (LJ : match load_a_JSON_file fs s with Val j0 => Val j0 | Err _ => match fs_parse fs s with Some j0 => Val j0 | None => Err JsonError end end = Val j).
  { destruct HF as [-> | [[er ->] ->]]; reflexivity. }
  rewrite LJ. cbn [obind]. rewrite HE. cbn [bind]. unfold eos_at. destruct (Z.ltb_spec i 0); [eexists; reflexivity|].
  destruct Hi as [Hi|Hi]; [lia|]. rewrite nth_overflow by lia. cbn [obind]. eexists. reflexivity.
Qed.
Example C35_unknown_met : reformat (JObj [("type", JStr "IdealGasHelmholtzRational")]%string) 150 13000 8 = Some (Err InvalidArgument).
Proof. apply (C35_unknown _ _ _ _ "IdealGasHelmholtzRational"); [reflexivity|]. simpl. intuition discriminate. Qed.
(** A fluid in CoolProp's form, given as a string. *)
Definition coolprop_fluid : json :=
  JObj [("EOS", JArr [JObj [("alpha0", JArr [JObj [("type", JStr "IdealGasHelmholtzLead"); ("a1", JNum 8); ("a2", JNum (-5))];
                                            JObj [("type", JStr "IdealGasHelmholtzLogTau"); ("a", JNum (3 / 2))];
                                            JObj [("type", JStr "IdealGasHelmholtzPlanckEinstein"); ("n", JArr [JNum 1]); ("t", JArr [JNum 2])];
                                            JObj [("type", JStr "IdealGasHelmholtzCP0PolyT"); ("c", JArr [JNum 1; JNum 2]); ("t", JArr [JNum 0; JNum 1]); ("T0", JNum 300)]]);
                            ("STATES", JObj [("reducing", JObj [("T", JNum 150); ("rhomolar", JNum 13000)])]); ("gas_constant", JNum 8)]])]%string.
Example C35_file_met : exists fs s jt p, convert_CoolProp_idealgas fs s 0 = Some (Val jt) /\ build_pure_ideal jt = Val p /\
  forall T rho, 0 < T -> 0 < rho -> pure_alphaig p T rho = Some
    (ln (rho / 13000) + 8 + -5 * (150 / T) + (3 / 2 * ln (150 / T) + (over [1] (fun i => ln (1 - exp (- nth i [2] 0 * (150 / T)))) +
     (from_cp (fun s => over [1; 2] (fun i => Rpower s (nth i [0; 1] 0))) 300 T + 0)))).
Proof.
  exists (Build_FS (fun _ => false) (fun _ => false) (fun _ => None) (fun _ => Some coolprop_fluid)), "..."%string.
  eapply (C35_file _ _ coolprop_fluid _ _ 0
    [(fun T rho => ln (rho / 13000) + 8 + -5 * (150 / T)); (fun T _ => 3 / 2 * ln (150 / T)); (fun T _ => over [1] (fun i => ln (1 - exp (- nth i [2] 0 * (150 / T)))));
     (fun T _ => from_cp (fun s => over [1; 2] (fun i => Rpower s (nth i [0; 1] 0))) 300 T)]); try reflexivity.
  - right. split; [eexists|]; reflexivity.
  - lra.
  - lra.
  - constructor; [|constructor; [|constructor; [|constructor; [|constructor]]]].
    + apply cp_Lead; reflexivity.
    + apply cp_LogTau; reflexivity.
    + apply cp_PlanckEinstein; try reflexivity. intros [|i] Hi; simpl in *; [lra|lia].
    + apply cp_PolyT; try reflexivity; [lra|]. intros [|[|i]] Hi; simpl in *; try lra; lia.
Qed.
Example C35_AlyLee_met : exists ts p f, reformat (aly_lee 4 5 1000 3 2000) 150 13000 8 = Some (Val ts) /\ map_res build_igterm ts = Val p /\
  (forall T rho, 0 < T -> 0 < rho -> pure_alphaig p T rho = Some (f T)) /\ has_cp f (Aly_Lee 4 5 1000 3 2000).
Proof.
  apply (C35_AlyLee _ _ _ _ 4 5 1000 3 2000 300); try reflexivity; try lra; right; rewrite Rabs_pos_eq by lra; lra.
Qed.
(** ** C36: what is not a description of a pure fluid is refused *)
(** Each fluid must be an object with a gas constant and terms: in particular an array (the
    form of a mixture) in the place of a fluid is refused, and so is a list of terms alone. *)
Theorem C36_pure_refused : forall js j, In j js -> (forall fields, j <> JObj fields) -> exists e, build_ideal (JArr js) = Err e.
Proof.
  induction js as [|a js IH]; intros j I0 N; [destruct I0|]. destruct I0 as [ -> | I0]; cbn [build_ideal map_res].
  - assert (X : exists e, build_pure_ideal j = Err e).
    { destruct j as [| | | |l|l]; cbn; eauto. exfalso. now apply (N l). }
    destruct X as [e E]. rewrite E. cbn [bind]. eauto.
  - destruct (build_pure_ideal a) as [p|e]; cbn [bind]; eauto. destruct (IH j I0 N) as [e E]. cbn [build_ideal] in E. rewrite E. cbn [bind]. eauto.
Qed.
Theorem C36_array_refused : forall l, build_pure_ideal (JArr l) = Err InvalidArgument.
Proof. reflexivity. Qed.
Example C36_refused_met : build_ideal (JArr [JArr [JObj []]]) = Err InvalidArgument.
Proof. reflexivity. Qed.

Print Assumptions C36_pure.
Print Assumptions C36_unique.
Print Assumptions C36_unknown.
Print Assumptions C36_mixture.
Print Assumptions C36_size.
Print Assumptions C36_absent.
Print Assumptions C36_limit.
Print Assumptions C36_density.
Print Assumptions C28_ideal.
Print Assumptions C35_term.
Print Assumptions C35_file.
Print Assumptions C35_reciprocal_refuted.
Print Assumptions C35_AlyLee.
Print Assumptions C35_AlyLee_negative_refuted.
Print Assumptions C35_AlyLee_small_refuted.
Print Assumptions C35_unknown.
Print Assumptions C35_index.
Print Assumptions C36_pure_refused.
Print Assumptions C36_array_refused.
