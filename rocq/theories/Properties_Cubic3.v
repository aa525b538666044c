(** Further theorems about the cubic equations of state (C27, C29): alpha functions from
    their JSON descriptions, the factory for generalized cubics, the pure limits of the
    advanced mixing rules and of the quantum-corrected model. *)
From Coq Require Import Reals String List Lia Lra Bool.
From Coquelicot Require Import Coquelicot.
From Verif Require Import Json_model Vec_spec Vec_proofs Cubic_model Cubic_spec Cubic_proofs2.
Import ListNotations.
Open Scope R_scope.

(** ** C27: alpha functions *)
(** The published forms. *)
Definition Mathias_Copeman (c0 c1 c2 Tr : R) : R :=
  (1 + c0 * (1 - sqrt Tr) + c1 * (1 - sqrt Tr) ^ 2 + c2 * (1 - sqrt Tr) ^ 3) ^ 2.
Definition Twu (L M N Tr : R) : R := Rpower Tr (N * (M - 1)) * exp (L * (1 - Rpower Tr (N * M))).
Definition Soave (m Tr : R) : R := (1 + m * (1 - sqrt Tr)) ^ 2.
Theorem C27_alpha_functions : forall Tc j, 
  (forall c0 c1 c2, j_at j "type" = Val (JStr "Mathias-Copeman") -> j_at j "c" = Val (JArr [JNum c0; JNum c1; JNum c2]) ->
     exists f, build_alpha Tc j = Some (Val f) /\ forall T, alpha_val f T = Mathias_Copeman c0 c1 c2 (T / Tc)) /\
  (forall L M N, j_at j "type" = Val (JStr "Twu") -> j_at j "c" = Val (JArr [JNum L; JNum M; JNum N]) ->
     exists f, build_alpha Tc j = Some (Val f) /\ forall T, alpha_val f T = Twu L M N (T / Tc)) /\
  (forall w, j_at j "type" = Val (JStr "PR78") -> j_at j "acentric" = Val (JNum w) ->
     exists f, build_alpha Tc j = Some (Val f) /\ forall T, alpha_val f T = Soave
       (if Rlt_dec w 0.491 then 0.37464 + 1.54226 * w - 0.26992 * w ^ 2 else 0.379642 + 1.48503 * w - 0.164423 * w ^ 2 + 0.016666 * w ^ 3) (T / Tc)) /\
  (forall s, j_at j "type" = Val (JStr s) -> ~ In s ["Mathias-Copeman"; "Twu"; "PR78"]%string -> build_alpha Tc j = Some (Err InvalidArgument)).
Proof.
  intros Tc j. split; [|split; [|split]].
  - intros c0 c1 c2 Ht Hc. exists (MathiasCopeman Tc c0 c1 c2). unfold build_alpha. rewrite Ht, Hc. split; [reflexivity|].
    intros T. simpl. unfold Mathias_Copeman. ring.
  - intros L M N Ht Hc. exists (TwuAlpha Tc L M N). unfold build_alpha. rewrite Ht, Hc. split; [reflexivity|].
    intros T. simpl. unfold Twu. rewrite (Rmult_comm M N). reflexivity.
  - intros w Ht Hw. exists (BasicAlpha Tc (PR_m w)). unfold build_alpha. rewrite Ht, Hw. split; reflexivity.
  - intros s Ht N. unfold build_alpha. rewrite Ht. cbn [bind j_string obind].
    destruct (String.eqb_spec s "Twu") as [->|]; [exfalso; apply N; simpl; auto|].
    destruct (String.eqb_spec s "Mathias-Copeman") as [->|]; [exfalso; apply N; simpl; auto|].
    destruct (String.eqb_spec s "PR78") as [->|]; [exfalso; apply N; simpl; auto|]. reflexivity.
Qed.
Example C27_alpha_functions_met : exists f,
  build_alpha 300 (JObj [("type", JStr "Mathias-Copeman"); ("c", JArr [JNum 1; JNum 2; JNum 3])]%string) = Some (Val f) /\
  alpha_val f 0 = (1 + 1 + 2 + 3) ^ 2.
Proof. eexists. split; [reflexivity|]. simpl. unfold Rdiv. rewrite Rmult_0_l, sqrt_0. ring. Qed.

(** ** C27: the factory for generalized cubics *)
(** Without alpha functions in the specification it builds the canonical equations. *)
Theorem C27_generalized : forall spec Tc pc w k Rg, length w = length Tc ->
  doubles spec "Tcrit / K" = Some (Val Tc) -> doubles spec "pcrit / Pa" = Some (Val pc) -> doubles spec "acentric" = Some (Val w) ->
  j_contains spec "alpha" = false -> kmat_of spec = Some (Val k) ->
  (match Rg with Some r => j_at spec "R / J/mol/K" = Val (JNum r) | None => j_contains spec "R / J/mol/K" = false end) ->
  (j_at spec "type" = Val (JStr "SRK") -> make_generalizedcubic spec = canonical_SRK Tc pc w k Rg) /\
  (j_at spec "type" = Val (JStr "PR") -> make_generalizedcubic spec = canonical_PR Tc pc w k Rg) /\
  (forall s, j_at spec "type" = Val (JStr s) -> ~ In s ["SRK"; "PR"]%string -> make_generalizedcubic spec = Some (Err InvalidArgument)).
Proof.
  intros spec Tc pc w k Rg Lw ET Ep Ew Ea Ek ER.
  assert (R0 : forall f : option R -> outcome cubic, obind (if j_contains spec "R / J/mol/K"
     then Some (bind (j_at spec "R / J/mol/K") (fun v => bind (j_double v) (fun r => Val (Some r)))) else ok None) f = f Rg).
  { intros f. destruct Rg as [r|].
    - assert (C : j_contains spec "R / J/mol/K" = true).
      { unfold j_contains. destruct spec; try discriminate. unfold j_at in ER. destruct (lookup "R / J/mol/K" l); [reflexivity|discriminate]. }
      rewrite C, ER. reflexivity.
    - rewrite ER. reflexivity. }
  split; [|split]; intros; unfold make_generalizedcubic; rewrite ET, Ep, Ew, Ek; unfold obind at 1 2 3 4; rewrite R0;
    unfold generalized_alphas; rewrite Ea; cbn [negb]; unfold canonical_SRK, canonical_PR; rewrite Lw, Nat.ltb_irrefl; rewrite H; cbn [obind is_string].
  - reflexivity.
  - reflexivity.
  - destruct (String.eqb_spec s "PR") as [->|]; [exfalso; apply H0; simpl; auto|].
    destruct (String.eqb_spec s "SRK") as [->|]; [exfalso; apply H0; simpl; auto|]. reflexivity.
Qed.
(** With alpha functions it uses these. *)
Theorem C27_generalized_alpha : forall spec c, make_generalizedcubic spec = Some (Val c) -> j_contains spec "alpha" = true ->
  exists Tc a, doubles spec "Tcrit / K" = Some (Val Tc) /\ j_at spec "alpha" = Val (JArr a) /\
  build_alpha_functions Tc (JArr a) = Some (Val (cb_alphas c)).
Proof.
  intros spec c E C. unfold make_generalizedcubic in E.
  destruct (doubles spec "Tcrit / K") as [[Tc|]|]; try discriminate. cbn [obind] in E.
  destruct (doubles spec "pcrit / Pa") as [[pc|]|]; try discriminate. cbn [obind] in E.
  destruct (doubles spec "acentric") as [[w|]|]; try discriminate. cbn [obind] in E.
  destruct (kmat_of spec) as [[k|]|]; try discriminate. cbn [obind] in E.
  match type of E with obind ?q _ = _ => destruct q as [[Rg|]|] end; try discriminate. cbn [obind] in E.
  destruct (j_at spec "type") as [ty|]; try discriminate. cbn [obind] in E.
  assert (G : forall m D1 D2 OA OB, obind (generalized_alphas spec m Tc w) (fun alphas => make_cubic D1 D2 OA OB Tc pc alphas (value_or k (zeros (length Tc))) (value_or Rg R_CODATA2017)) = Some (Val c) ->
    exists Tc0 a, Some (Val Tc) = Some (Val Tc0) /\ j_at spec "alpha" = Val (JArr a) /\ build_alpha_functions Tc0 (JArr a) = Some (Val (cb_alphas c))).
  { intros m D1 D2 OA OB Q. unfold generalized_alphas in Q. rewrite C in Q. cbn [negb] in Q.
    destruct (j_at spec "alpha") as [a|]; try discriminate. cbn [obind] in Q. destruct a as [| | | |a|]; try discriminate.
    exists Tc, a. split; auto. split; auto. destruct (build_alpha_functions Tc (JArr a)) as [[al|]|]; try discriminate. cbn [obind] in Q.
    unfold make_cubic in Q. destruct (Nat.ltb (length pc) (length Tc)); [discriminate|].
    destruct (check_mat (value_or k (zeros (length Tc))) (length Tc)); [|discriminate]. cbn [obind] in Q. unfold ok in Q. injection Q as <-. reflexivity. }
  destruct (is_string ty "PR"); [exact (G _ _ _ _ _ E)|]. destruct (is_string ty "SRK"); [exact (G _ _ _ _ _ E)|discriminate].
Qed.
Definition spec_example (type : string) : json :=
  JObj [("type", JStr type); ("Tcrit / K", JArr [JNum 300; JNum 400]); ("pcrit / Pa", JArr [JNum 1000; JNum 2000]); ("acentric", JArr [JNum 0.1; JNum 0.2])]%string.
Example C27_generalized_met : exists c, make_generalizedcubic (spec_example "SRK") = Some (Val c) /\
  doubles (spec_example "SRK") "acentric" = Some (Val [0.1; 0.2]) /\ kmat_of (spec_example "SRK") = Some (Val None) /\
  make_generalizedcubic (spec_example "vdW") = Some (Err InvalidArgument).
Proof. eexists. repeat split. Qed.

(** ** C29: pure limits of the advanced mixing rules and of the quantum-corrected model *)
Lemma nth_pure' : forall n i k, (k < n)%nat -> nth k (pure n i) 0 = if Nat.eqb k i then 1 else 0.
Proof. intros. unfold pure. apply (nth_map_seq' (fun k => if Nat.eqb k i then 1 else 0)). auto. Qed.
Lemma len_pure : forall n i, length (pure n i) = n.
Proof. intros. unfold pure. rewrite map_length, seq_length. reflexivity. Qed.
Lemma sum_pure : forall n i f, (i < n)%nat -> sumn n (fun k => nth k (pure n i) 0 * f k) = f i.
Proof.
  intros n i f Hi. rewrite (sumn_ext n _ (fun k => if Nat.eqb k i then f k else 0)).
  - apply sumn_delta. auto. - intros k Hk. rewrite nth_pure' by auto. destruct (Nat.eqb k i); ring.
Qed.
Lemma sum_pure2 : forall n i f, (i < n)%nat -> sumn n (fun k => sumn n (fun l => nth k (pure n i) 0 * nth l (pure n i) 0 * f k l)) = f i i.
Proof.
  intros n i f Hi. rewrite (sumn_ext n _ (fun k => nth k (pure n i) 0 * f k i)).
  - apply (sum_pure n i (fun k => f k i)). auto.
  - intros k Hk. rewrite (sumn_ext n _ (fun l => nth l (pure n i) 0 * (nth k (pure n i) 0 * f k l))) by (intros; ring).
    rewrite (sum_pure n i (fun l => nth k (pure n i) 0 * f k l)) by auto. reflexivity.
Qed.
(** The mixture of the pure component is the Peng-Robinson equation with its own
    attraction and covolume, for either rule for the covolume. *)
Theorem C29_advPR : forall m i T rho, (i < length (ap_alphas m))%nat -> length (ap_ai m) = length (ap_alphas m) ->
  ap_brule m <> NotSpecified -> ap_l m i i = 0 -> ap_s m <> 0 -> 0 < nth i (ap_bi m) 0 -> ap_CEoS m <> 0 ->
  ares_val (ap_ares m) T (pure (length (ap_alphas m)) i) = Some (Val 0) ->
  advPR_alphar m T rho (pure (length (ap_alphas m)) i) =
  Some (Val (cubic_form (1 + sqrt 2) (1 - sqrt 2) (nth i (ap_ai m) 0 * alpha_at (ap_alphas m) i T) (nth i (ap_bi m) 0) (ap_R m) T rho)).
Proof.
  intros m i T rho Hi La Hb Hl Hs Pb HC Hg. unfold advPR_alphar. rewrite len_pure, Nat.eqb_refl, La, Nat.ltb_irrefl. cbn [negb].
  assert (B : advPR_b m (pure (length (ap_alphas m)) i) = Val (nth i (ap_bi m) 0)).
  { unfold advPR_b. destruct (ap_brule m); [contradiction| |]; rewrite len_pure; f_equal.
    - apply (sum_pure _ i (fun k => nth k (ap_bi m) 0)). auto.
    - rewrite sum_pure2 by auto. rewrite Hl. set (r := Rpower (nth i (ap_bi m) 0) (1 / ap_s m)).
      replace ((r + r) / 2) with r by field. unfold r. rewrite Rpower_mult. replace (1 / ap_s m * ap_s m) with 1 by (field; auto).
      rewrite Rpower_1 by auto. ring. }
  rewrite B, Hg. cbn [obind]. unfold ok. f_equal. f_equal. unfold PR_D1, PR_D2. f_equal.
  unfold advPR_am_over_bm. rewrite len_pure.
  rewrite (sumn_ext _ _ (fun k => nth k (pure (length (ap_alphas m)) i) 0 * (nth k (ap_ai m) 0 * alpha_at (ap_alphas m) k T / nth k (ap_bi m) 0)))
    by (intros; unfold Rdiv; ring).
  rewrite (sum_pure _ i (fun k => nth k (ap_ai m) 0 * alpha_at (ap_alphas m) k T / nth k (ap_bi m) 0)) by auto. field. split; lra.
Qed.
Example C29_advPR_met : exists m, make_advPR [300; 400] [1; 2] [BasicAlpha 300 1; BasicAlpha 400 1] NullAres (zeros 2) Quadratic 2 (-1) 8 = Some (Val m) /\
  ap_l m 1%nat 1%nat = 0 /\ 0 < nth 1 (ap_bi m) 0 /\ ares_val (ap_ares m) 300 (pure (length (ap_alphas m)) 1) = Some (Val 0).
Proof. eexists. split; [reflexivity|]. split; [reflexivity|]. split; [|reflexivity]. simpl. unfold PR_OmegaB. lra. Qed.
(** The temperature-dependent covolume of the quantum-corrected model: it is the one of
    Peng-Robinson at the critical temperature, and a component without quantum
    correction (A = 0) has it at every temperature. *)
Theorem C29_quantum : forall m i T, (i < length (q_alphas m))%nat -> at_ (q_k m) i i = 0 -> at_ (q_l m) i i = 0 ->
  let x := pure (length (q_alphas m)) i in let b0 := 0.07780 * q_Ru m * nth i (q_Tc m) 0 / nth i (q_pc m) 0 in
  let damp T := 1 + nth i (q_A m) 0 / (T + nth i (q_B m) 0) in
  (damp (nth i (q_Tc m) 0) <> 0 -> q_b m T x = b0 * (damp T / damp (nth i (q_Tc m) 0)) ^ 3) /\
  (damp (nth i (q_Tc m) 0) <> 0 -> q_b m (nth i (q_Tc m) 0) x = b0) /\
  (nth i (q_A m) 0 = 0 -> q_b m T x = b0) /\
  (0 <= nth i (q_pc m) 0 -> 0 <= alpha_at (q_alphas m) i T ->
     q_a m T x = 0.45723552892138218938 * (q_Ru m * nth i (q_Tc m) 0) ^ 2 / nth i (q_pc m) 0 * alpha_at (q_alphas m) i T) /\
  q_shift m x = nth i (q_c m) 0.
Proof.
  intros m i T Hi Hk Hl x b0 damp.
  assert (B : forall T, q_b m T x = q_bi m i T).
  { intros T0. unfold q_b, x. rewrite (sumn_ext _ _ (fun k => sumn (length (q_alphas m)) (fun l => nth k (pure (length (q_alphas m)) i) 0 * nth l (pure (length (q_alphas m)) i) 0 *
      ((q_bi m k T0 + q_bi m l T0) / 2 * (1 - at_ (q_l m) k l))))) by (intros; apply sumn_ext; intros; field).
    rewrite sum_pure2 by auto. rewrite Hl. field. }
  split; [|split; [|split; [|split]]].
  - intros N. rewrite B. unfold q_bi, b0, damp in *. unfold Rdiv. rewrite Rpow_mult_distr, pow_inv. ring.
  - intros N. rewrite B. unfold q_bi, b0, damp in *. unfold Rdiv in *. rewrite Rinv_r by (apply pow_nonzero; auto). ring.
  - intros A0. rewrite B. unfold q_bi, b0. rewrite A0. unfold Rdiv. rewrite !Rmult_0_l, Rplus_0_r, !pow1, Rinv_1. ring.
  - intros P0 A0. unfold q_a, x.
    rewrite (sumn_ext _ _ (fun k => sumn (length (q_alphas m)) (fun l => nth k (pure (length (q_alphas m)) i) 0 * nth l (pure (length (q_alphas m)) i) 0 *
      (sqrt (q_ai m k T * q_ai m l T) * (1 - at_ (q_k m) k l))))) by (intros; apply sumn_ext; intros; ring).
    rewrite sum_pure2 by auto. rewrite Hk.
    assert (0 <= q_ai m i T).
    { unfold q_ai. apply Rmult_le_pos; auto. unfold Rdiv. apply Rmult_le_pos. { apply Rmult_le_pos; [lra|]. rewrite <- Rsqr_pow2. apply Rle_0_sqr. }
      destruct P0 as [P0| <-]; [left; apply Rinv_0_lt_compat; auto|rewrite Rinv_0; lra]. }
    rewrite sqrt_square by auto. unfold q_ai. rewrite (Rmult_comm (q_Ru m)). ring.
  - unfold q_shift, x. apply (sum_pure _ i (fun k => nth k (q_c m) 0)). auto.
Qed.
Example C29_quantum_met : let m := {| q_Tc := [33]; q_pc := [10 ^ 6]; q_alphas := [BasicAlpha 33 1]; q_A := [3]; q_B := [10]; q_c := [0]; q_k := zeros 1; q_l := zeros 1; q_Ru := 8 |} in
  1 + nth 0 (q_A m) 0 / (nth 0 (q_Tc m) 0 + nth 0 (q_B m) 0) <> 0 /\ at_ (q_l m) 0 0 = 0 /\ 0 <= alpha_at (q_alphas m) 0 20.
Proof. simpl. repeat split; try lra. unfold alpha_at. simpl. rewrite Rmult_1_r. apply Rle_0_sqr. Qed.
Print Assumptions C27_alpha_functions.
Print Assumptions C27_generalized.
Print Assumptions C27_generalized_alpha.
Print Assumptions C29_advPR.
Print Assumptions C29_quantum.
