(** C25: the general phase-equilibrium equations. *)
From Coq Require Import Reals ZArith List Bool Lia Lra.
From Coquelicot Require Import Coquelicot.
From Verif Require Import Json_model Derivs_model Derivs_spec Derivs_proofs Derivs_proofs2 Pure_proofs
  Vec_spec Vec_proofs Iso_model Iso_spec Iso_proofs Properties_Iso Trace_spec Trace_proofs Properties_Trace
  PhaseEq_model PhaseEq_spec PhaseEq_proofs PhaseEq_proofs2.
Import ListNotations.
Open Scope R_scope.

(** ** Packing and unpacking *)
Definition unpack (Nc Nph : nat) (x : list R) : unpacked :=
  {| u_T := T_of x; u_rhovecs := map (rho_of Nc x) (seq 0 Nph); u_betas := map (beta_of Nc Nph x) (seq 0 Nph) |}.

Lemma concat_nth : forall Nc (l : list (list R)) ph i, (forall k, (k < length l)%nat -> length (nth k l []) = Nc) ->
  (ph < length l)%nat -> (i < Nc)%nat -> nth (ph * Nc + i) (concat l) 0 = nth i (nth ph l []) 0.
Proof.
  intros Nc l. induction l as [|a l IH]; intros ph i H Hp Hi; [simpl in Hp; lia|].
  assert (Ha : length a = Nc) by exact (H 0%nat ltac:(simpl; lia)). cbn [concat]. destruct ph as [|ph].
  - cbn [Nat.mul Nat.add nth]. apply app_nth1. lia.
  - rewrite app_nth2 by (simpl; lia). replace (S ph * Nc + i - length a)%nat with (ph * Nc + i)%nat by (simpl; lia).
    cbn [nth]. apply IH; [|simpl in Hp; lia|auto]. intros k Hk. apply (H (S k)). simpl. lia.
Qed.
Lemma concat_len : forall Nc (l : list (list R)), (forall k, (k < length l)%nat -> length (nth k l []) = Nc) -> length (concat l) = (length l * Nc)%nat.
Proof.
  intros Nc l. induction l as [|a l IH]; intros H; [reflexivity|].
  cbn [concat length]. rewrite app_length, IH by (intros k Hk; apply (H (S k)); simpl; lia).
  assert (Ha : length a = Nc) by exact (H 0%nat ltac:(simpl; lia)). rewrite Ha. lia.
Qed.

(** The packed vector holds exactly the unknowns: reading it back gives the temperature,
    the concentrations and the phase fractions that were packed. *)
Theorem C25_pack_unpack : forall Nc Nph u, well_shaped Nc Nph u ->
  exists x, pack u = Some x /\ length x = Nindependent Nc Nph /\ unpack Nc Nph x = u.
Proof.
  intros Nc Nph [T rhos betas] (Hc & Hp & Lr & Lb & Hl). cbn [u_T u_rhovecs u_betas] in *.
  unfold pack. cbn [u_T u_rhovecs u_betas]. destruct rhos as [|r0 rhos]; [simpl in Lr; lia|].
  rewrite Lb, Lr, Nat.leb_refl. replace (firstn Nph (r0 :: rhos)) with (r0 :: rhos) by (rewrite <- Lr; symmetry; apply firstn_all).
  assert (F : forallb (fun r => Nat.eqb (length r) (length r0)) (r0 :: rhos) = true).
  { apply forallb_forall. intros r Hr. apply Nat.eqb_eq. destruct (In_nth _ _ [] Hr) as (k & Hk & <-).
    rewrite Hl by lia. symmetry. exact (Hl 0%nat Hp). }
  rewrite F. cbn [andb]. eexists. split; [reflexivity|].
  assert (Hl' : forall k, (k < length (r0 :: rhos))%nat -> length (nth k (r0 :: rhos) []) = Nc) by (rewrite Lr; exact Hl).
  pose proof (concat_len Nc _ Hl') as CL. split.
  - rewrite ?Lr. cbn [length]. rewrite app_length, CL, Lr, Lb. unfold Nindependent. lia.
  - unfold unpack. f_equal.
    + apply nth_ext with (d := []) (d' := []); [now rewrite map_length, seq_length, Lr|].
      rewrite map_length, seq_length. intros k Hk. rewrite nth_map_seq_l by auto.
      apply list_ext; rewrite rho_of_length; [now rewrite Hl|]. intros i Hi. rewrite rho_of_nth by auto. cbn [Nat.add nth].
      rewrite app_nth1 by (rewrite CL; nia). apply concat_nth; auto; lia.
    + apply list_ext; rewrite map_length, seq_length; auto. intros k Hk. rewrite nth_map_seq' by auto. unfold beta_of.
      cbn [Nat.add nth]. rewrite app_nth2 by (rewrite CL; nia). f_equal. rewrite CL. nia.
Qed.
(** ... and every vector of the right size is the packed form of what is read from it. *)
Theorem C25_unpack_pack : forall Nc Nph x, (1 <= Nc)%nat -> (1 <= Nph)%nat -> length x = Nindependent Nc Nph -> pack (unpack Nc Nph x) = Some x.
Proof.
  intros Nc Nph x Hc Hp Hx.
  assert (W : well_shaped Nc Nph (unpack Nc Nph x)).
  { unfold well_shaped, unpack; cbn [u_rhovecs u_betas]. rewrite !map_length, !seq_length. repeat split; auto.
    intros ph Hph. rewrite nth_map_seq_l by auto. apply rho_of_length. }
  destruct (C25_pack_unpack _ _ _ W) as (y & Ey & Ly & Eu). rewrite Ey. f_equal.
  apply list_ext; [congruence|]. rewrite Ly. intros j Hj. unfold unpack in Eu. injection Eu as ET Er Eb.
  destruct j as [|j]; [exact ET|].
  destruct (lt_dec j (Nph * Nc)) as [H|H].
  - assert (Hq : (j / Nc < Nph)%nat) by (apply Nat.div_lt_upper_bound; lia).
    assert (Hr : (j mod Nc < Nc)%nat) by (apply Nat.mod_upper_bound; lia).
    assert (E : rho_of Nc y (j / Nc) = rho_of Nc x (j / Nc)).
    { pose proof (f_equal (fun l => nth (j / Nc) l []) Er) as E. cbv beta in E. now rewrite !nth_map_seq_l in E by auto. }
    assert (E2 : S j = (1 + (j / Nc) * Nc + j mod Nc)%nat) by (pose proof (Nat.div_mod j Nc ltac:(lia)); lia).
    rewrite E2, <- (rho_of_nth Nc y), <- (rho_of_nth Nc x) by auto. now rewrite E.
  - unfold Nindependent in Hj. assert (Hk : (j - Nph * Nc < Nph)%nat) by nia.
    assert (E : beta_of Nc Nph y (j - Nph * Nc) = beta_of Nc Nph x (j - Nph * Nc)).
    { pose proof (f_equal (fun l => nth (j - Nph * Nc)%nat l 0) Eb) as E. cbv beta in E. now rewrite !nth_map_seq' in E by auto. }
    unfold beta_of in E. now replace (S j) with (1 + Nc * Nph + (j - Nph * Nc))%nat by lia.
Qed.

(** ** Construction *)
Lemma ncomp_ok : forall Nc rhos, (1 <= Nc)%nat -> (1 <= length rhos)%nat -> (forall k, (k < length rhos)%nat -> length (nth k rhos []) = Nc) ->
  get_Ncomponents rhos = Some Nc.
Proof.
  intros Nc rhos Hc Hp H. unfold get_Ncomponents.
  assert (E : nodup Nat.eq_dec (map (@length R) rhos) = [Nc]).
  { revert Hp H. induction rhos as [|a l IH]; intros Hp H; [simpl in Hp; lia|].
    assert (Ha : length a = Nc) by exact (H 0%nat ltac:(simpl; lia)).
    destruct l as [|b l']; [cbn; now rewrite Ha|].
    assert (I : nodup Nat.eq_dec (map (@length R) (b :: l')) = [Nc]) by (apply IH; [simpl; lia|intros k Hk; apply (H (S k)); simpl in *; lia]).
    change (map (@length R) (a :: b :: l')) with (length a :: map (@length R) (b :: l')).
    cbn [nodup]. destruct (in_dec Nat.eq_dec (length a) (map (@length R) (b :: l'))) as [|N]; [exact I|].
    exfalso. apply N. rewrite Ha. apply (nodup_In Nat.eq_dec). rewrite I. now left. }
  rewrite E. destruct Nc; [lia|reflexivity].
Qed.
Theorem C25_construction : forall Nc Nph z u specs, well_shaped Nc Nph u ->
  make_gpe z u specs = if Nat.eqb (length specs) 2 then Some (Val {| g_z := z; g_Nc := Nc; g_Nph := Nph; g_specs := specs |}) else Some (Err InvalidArgument).
Proof.
  intros Nc Nph z u specs (Hc & Hp & Lr & Lb & Hl). unfold make_gpe. rewrite (ncomp_ok Nc) by (auto; try lia; rewrite Lr; auto).
  rewrite Lr, Lb, Nat.eqb_refl. cbn [negb]. destruct (Nat.eqb (length specs) 2); reflexivity.
Qed.
(** A number of phase fractions different from the number of phases is refused; phases of
    different numbers of components terminate the program. *)
Theorem C25_construction_counts : forall Nc z u specs, (1 <= Nc)%nat -> (1 <= length (u_rhovecs u))%nat ->
  (forall k, (k < length (u_rhovecs u))%nat -> length (nth k (u_rhovecs u) []) = Nc) ->
  length (u_betas u) <> length (u_rhovecs u) -> make_gpe z u specs = Some (Err InvalidArgument).
Proof.
  intros Nc z u specs Hc Hp Hl N. unfold make_gpe. rewrite (ncomp_ok Nc) by auto. apply Nat.eqb_neq in N. now rewrite N.
Qed.
Theorem C25_construction_terminates : forall z u specs a b, In a (u_rhovecs u) -> In b (u_rhovecs u) -> length a <> length b ->
  make_gpe z u specs = None.
Proof.
  intros z u specs a b Ha Hb N. unfold make_gpe, get_Ncomponents.
  assert (A : In (length a) (nodup Nat.eq_dec (map (@length R) (u_rhovecs u)))) by (apply nodup_In, in_map; auto).
  assert (B : In (length b) (nodup Nat.eq_dec (map (@length R) (u_rhovecs u)))) by (apply nodup_In, in_map; auto).
  destruct (nodup Nat.eq_dec (map (@length R) (u_rhovecs u))) as [|m [|m' l]]; [reflexivity| |reflexivity].
  destruct A as [A|[]], B as [B|[]]. congruence.
Qed.

Section C25.
Variable ad : (list R -> R) -> list nat -> list R -> R.
Variable alphar : R -> R -> list R -> R.
Variable Rgas : list R -> R.
Variable ideal : option ((R -> R -> list R -> R) * (list R -> R)).
Notation callg := (call ad alphar Rgas ideal).

(** ** Sizes *)
Lemma call_rows : forall g x r J, callg g x = Some (Val (r, J)) ->
  length x = Nindependent (g_Nc g) (g_Nph g) /\
  (forall s, In s (g_specs g) -> exists v, spec_row ad alphar Rgas ideal (Rgas (g_z g)) (g_Nc g) (g_Nph g) x s = Some (Val v)) /\
  let all := always_rows ad alphar Rgas (Rgas (g_z g)) (g_Nc g) (g_Nph g) (g_z g) x ++
             map (spec_row_v ad alphar Rgas ideal (Rgas (g_z g)) (g_Nc g) (g_Nph g) x) (g_specs g) in
  r = map fst all /\ J = map snd all.
Proof.
  intros g x r J E. unfold call in E. destruct (Nat.eqb (length x) (Nindependent (g_Nc g) (g_Nph g))) eqn:El; [|discriminate]. cbn [negb] in E.
  destruct (Nat.ltb 1 (g_Nph g) && Nat.ltb (g_Nph g) (g_Nc g))%bool; [discriminate|].
  destruct (Nat.ltb (length (g_z g)) (g_Nc g - 1)); [discriminate|].
  destruct (spec_rows ad alphar Rgas ideal (Rgas (g_z g)) (g_Nc g) (g_Nph g) x (g_specs g)) as [[rows|]|] eqn:Es; try discriminate.
  destruct (spec_rows_map _ _ _ _ _ _ _ _ _ _ Es) as [-> Hs]. injection E as <- <-.
  apply Nat.eqb_eq in El. repeat split; auto.
Qed.
Definition rows_len (n : nat) (l : list (R * list R)) : Prop := List.Forall (fun r => length (snd r) = n) l.
Lemma always_len : forall R0 Nc Nph z x, (1 <= Nc)%nat -> (1 <= Nph)%nat ->
  length (always_rows ad alphar Rgas R0 Nc Nph z x) = ((Nph - 1) * Nc + (Nph - 1) + Nc)%nat /\
  rows_len (Nindependent Nc Nph) (always_rows ad alphar Rgas R0 Nc Nph z x).
Proof.
  intros R0 Nc Nph z x Hc Hp. unfold always_rows. split.
  - rewrite !app_length. unfold lnf_rows, p_rows, balance_rows. rewrite blocks_length, !map_length, !seq_length. simpl. lia.
  - unfold rows_len. rewrite !Forall_app. repeat split.
    + unfold lnf_rows. apply Forall_concat, Forall_map, Forall_forall. intros ph _. apply Forall_map, Forall_forall. intros i _. apply flat_length.
    + apply Forall_map, Forall_forall. intros ph _. apply flat_length.
    + apply Forall_map, Forall_forall. intros ph _. apply flat_length.
    + constructor; [apply flat_length|constructor].
Qed.
Lemma spec_len : forall R0 Nc Nph x s v, spec_row ad alphar Rgas ideal R0 Nc Nph x s = Some (Val v) -> length (snd v) = Nindependent Nc Nph.
Proof.
  intros R0 Nc Nph x s v. destruct s; simpl; try (intro E; injection E as <-; apply flat_length).
  - destruct (Nat.ltb iphase Nph); [|discriminate]. intro E; injection E as <-. apply flat_length.
  - destruct ideal as [[? ?]|]; [|discriminate]. intro E; injection E as <-. apply flat_length.
  - destruct ideal as [[? ?]|]; [|discriminate]. intro E; injection E as <-. apply flat_length.
  - destruct ideal as [[? ?]|]; [|discriminate]. intro E; injection E as <-. apply flat_length.
Qed.
(** As many equations as unknowns, and a square Jacobian. *)
Theorem C25_square : forall Nc Nph z u specs g x r J, well_shaped Nc Nph u -> make_gpe z u specs = Some (Val g) ->
  callg g x = Some (Val (r, J)) ->
  length r = length x /\ length J = length x /\ List.Forall (fun row => length row = length x) J /\ length x = Nindependent Nc Nph.
Proof.
  intros Nc Nph z u specs g x r J W M E. rewrite (C25_construction Nc Nph) in M by auto.
  destruct (Nat.eqb (length specs) 2) eqn:E2; [|discriminate]. apply Nat.eqb_eq in E2. injection M as <-.
  destruct (call_rows _ _ _ _ E) as (Lx & Hs & -> & ->). cbn [g_Nc g_Nph g_specs g_z] in *. destruct W as (Hc & Hp & _).
  destruct (always_len (Rgas z) Nc Nph z x Hc Hp) as [L F]. rewrite !map_length, !app_length, L, map_length, E2, Lx. unfold Nindependent at 1 2.
  repeat split; try nia. apply Forall_map, Forall_app. split; [exact F|].
  apply Forall_map, Forall_forall. intros s Hin. destruct (Hs s Hin) as [v Ev]. unfold spec_row_v. rewrite Ev. now apply spec_len in Ev.
Qed.

(** ** Outcomes *)
Theorem C25_wrong_size : forall g x, length x <> Nindependent (g_Nc g) (g_Nph g) -> callg g x = Some (Err InvalidArgument).
Proof. intros g x N. unfold call. apply Nat.eqb_neq in N. now rewrite N. Qed.

Definition needs_ideal (s : spec) : bool :=
  match s with MolarEntropySpecification _ | MolarInternalEnergySpecification _ | MolarEnthalpySpecification _ => true | _ => false end.
Definition phase_index_ok (Nph : nat) (s : spec) : Prop := match s with BetaSpecification _ k => (k < Nph)%nat | _ => True end.
(** A vector of the right size is evaluated when there is one phase or at least as many
    phases as components, and the specifications make sense. *)
Theorem C25_evaluates : forall g x, length x = Nindependent (g_Nc g) (g_Nph g) -> (g_Nph g <= 1 \/ g_Nc g <= g_Nph g)%nat ->
  length (g_z g) = g_Nc g -> (forall s, In s (g_specs g) -> phase_index_ok (g_Nph g) s /\ (needs_ideal s = true -> ideal <> None)) ->
  exists r J, callg g x = Some (Val (r, J)).
Proof.
  intros g x Lx Hn Lz Hs. unfold call. rewrite Lx, Nat.eqb_refl. cbn [negb].
  assert (E : (Nat.ltb 1 (g_Nph g) && Nat.ltb (g_Nph g) (g_Nc g))%bool = false).
  { apply andb_false_iff. destruct Hn; [left|right]; apply Nat.ltb_ge; lia. }
  rewrite E. assert (E2 : Nat.ltb (length (g_z g)) (g_Nc g - 1) = false) by (apply Nat.ltb_ge; lia). rewrite E2.
  rewrite spec_rows_val; [eexists _, _; reflexivity|].
  intros s Hin. destruct (Hs s Hin) as [A B].
  destruct s; simpl in *; try (eexists; reflexivity).
  - apply Nat.ltb_lt in A. rewrite A. eexists; reflexivity.
  - destruct ideal as [[? ?]|]; [eexists; reflexivity|exfalso; now apply B].
  - destruct ideal as [[? ?]|]; [eexists; reflexivity|exfalso; now apply B].
  - destruct ideal as [[? ?]|]; [eexists; reflexivity|exfalso; now apply B].
Qed.
(** Finding: with at least two phases but fewer phases than components (vapour-liquid
    equilibrium of a ternary mixture, say) memory outside the Jacobian is written. *)
Theorem C25_more_components_than_phases_refuted : forall g x, length x = Nindependent (g_Nc g) (g_Nph g) ->
  (1 < g_Nph g)%nat -> (g_Nph g < g_Nc g)%nat -> callg g x = None.
Proof.
  intros g x Lx H1 H2. unfold call. rewrite Lx, Nat.eqb_refl. apply Nat.ltb_lt in H1, H2. now rewrite H1, H2.
Qed.
(** A caloric specification without an ideal-gas model is refused, provided the equations
    before it can be evaluated. *)
Theorem C25_caloric_needs_ideal : forall g x s rest, length x = Nindependent (g_Nc g) (g_Nph g) -> (g_Nph g <= 1 \/ g_Nc g <= g_Nph g)%nat ->
  length (g_z g) = g_Nc g -> g_specs g = s :: rest -> ideal = None -> needs_ideal s = true ->
  callg g x = Some (Err InvalidArgument).
Proof.
  intros g x s rest Lx Hn Lz Es Ei Hs. unfold call. rewrite Lx, Nat.eqb_refl. cbn [negb].
  assert (E : (Nat.ltb 1 (g_Nph g) && Nat.ltb (g_Nph g) (g_Nc g))%bool = false).
  { apply andb_false_iff. destruct Hn; [left|right]; apply Nat.ltb_ge; lia. }
  rewrite E. assert (E2 : Nat.ltb (length (g_z g)) (g_Nc g - 1) = false) by (apply Nat.ltb_ge; lia). rewrite E2, Es, Ei.
  destruct s; try discriminate; reflexivity.
Qed.
End C25.

(** ** Zeros of the residual *)
Section Zeros.
Variable ad : (list R -> R) -> list nat -> list R -> R.
Hypothesis Had : AD_exact ad.
Variable alphar : R -> R -> list R -> R.
Variable Rgas : list R -> R.
Variable Rg : R.
Hypothesis HC : const_R Rgas Rg.
Variable ideal : option ((R -> R -> list R -> R) * (list R -> R)).
Variables (aig : R -> R -> list R -> R) (Rig : list R -> R).
Hypothesis Hid : ideal = None \/ ideal = Some (aig, Rig).
Variables (Nc Nph : nat).
Hypothesis HNc : (1 <= Nc)%nat.
Variable x : list R.
Hypothesis Hx : length x = Nindependent Nc Nph.
Hypothesis HT : 0 < T_of x.
Hypothesis Hpos : forall ph, (ph < Nph)%nat -> positive (rho_of Nc x ph).
Hypothesis HX : forall ph, (ph < Nph)%nat -> smooth_joint alphar Rgas (T_of x) (rho_of Nc x ph).
Hypothesis HI : ideal <> None -> (forall y, Rig y = Rg) /\ forall ph, (ph < Nph)%nat -> smooth_joint aig Rig (T_of x) (rho_of Nc x ph).
Variable G : nat -> list R.
Hypothesis HG : forall ph, (ph < Nph)%nat -> gradient_at (Psi_r alphar Rgas (T_of x)) (rho_of Nc x ph) (G ph).

Lemma lnf_fugacity : forall ph i, (ph < Nph)%nat -> (i < Nc)%nat ->
  q_lnf ad alphar Rgas Rg (T_of x) (rho_of Nc x ph) i = ln (fugacity Rg (T_of x) (rho_of Nc x ph) (G ph) i) /\
  0 < fugacity Rg (T_of x) (rho_of Nc x ph) (G ph) i.
Proof.
  intros ph i Hp Hi. destruct HC as [R0 _]. assert (L : (i < length (rho_of Nc x ph))%nat) by now rewrite rho_of_length.
  pose proof (proj2 (Hpos ph Hp) i L) as P. unfold q_lnf, q_grad, fugacity. rewrite (gradient_ok ad Had alphar Rgas _ _ _ i (HG ph Hp) L).
  assert (Q : 0 < nth i (rho_of Nc x ph) 0 * (Rg * T_of x)) by (repeat apply Rmult_lt_0_compat; auto).
  split; [|apply Rmult_lt_0_compat; [auto|apply exp_pos]]. rewrite (ln_mult _ (exp _) Q (exp_pos _)), ln_exp.
  f_equal; [f_equal; ring|unfold Rdiv; ring].
Qed.
Lemma pressure_val : forall ph, (ph < Nph)%nat -> q_p ad alphar Rgas Rg (T_of x) (rho_of Nc x ph) = p_of alphar Rgas (T_of x) (rho_of Nc x ph).
Proof.
  intros ph Hp. destruct HC as [R0 HR]. destruct (HX ph Hp) as (Gx & H & X).
  exact (p_val ad Had alphar Rgas Rg HR R0 _ _ HT (total_pos _ (Hpos ph Hp)) Gx H X).
Qed.
Definition zero_rows (l : list (R * list R)) : Prop := List.Forall (fun r => fst r = 0) l.
Lemma zero_lnf : (1 <= Nph)%nat -> (zero_rows (lnf_rows ad alphar Rgas Rg Nc Nph x) <->
  forall ph i, (ph < Nph)%nat -> (i < Nc)%nat -> fugacity Rg (T_of x) (rho_of Nc x ph) (G ph) i = fugacity Rg (T_of x) (rho_of Nc x 0) (G 0%nat) i).
Proof.
  intro H1. unfold zero_rows, lnf_rows. rewrite Forall_concat, Forall_map, Forall_forall. split.
  - intros H ph i Hp Hi. destruct ph as [|ph]; [reflexivity|].
    assert (In (S ph) (seq 1 (Nph - 1))) as Hin by (apply in_seq; lia). specialize (H _ Hin). rewrite Forall_map, Forall_forall in H.
    assert (In i (seq 0 Nc)) as Hin2 by (apply in_seq; lia). specialize (H _ Hin2). cbn [fst] in H.
    destruct (lnf_fugacity (S ph) i Hp Hi) as [E1 P1]. destruct (lnf_fugacity 0 i ltac:(lia) Hi) as [E0 P0]. rewrite E1, E0 in H.
    apply ln_inv; auto. lra.
  - intros H ph Hin. apply in_seq in Hin. apply Forall_map, Forall_forall. intros i Hi. apply in_seq in Hi. cbn [fst].
    destruct (lnf_fugacity ph i ltac:(lia) ltac:(lia)) as [E1 P1]. destruct (lnf_fugacity 0 i ltac:(lia) ltac:(lia)) as [E0 P0]. rewrite E1, E0, (H ph i) by lia. ring.
Qed.
Lemma zero_p : (1 <= Nph)%nat -> (zero_rows (p_rows ad alphar Rgas Rg Nc Nph x) <->
  forall ph, (ph < Nph)%nat -> p_of alphar Rgas (T_of x) (rho_of Nc x ph) = p_of alphar Rgas (T_of x) (rho_of Nc x 0)).
Proof.
  intro H1. unfold zero_rows, p_rows. rewrite Forall_map, Forall_forall. split.
  - intros H ph Hp. destruct ph as [|ph]; [reflexivity|].
    assert (In (S ph) (seq 1 (Nph - 1))) as Hin by (apply in_seq; lia). specialize (H _ Hin). cbn [fst] in H.
    rewrite !pressure_val in H by lia. lra.
  - intros H ph Hin. apply in_seq in Hin. cbn [fst]. rewrite !pressure_val, (H ph) by lia. ring.
Qed.
Definition bulk (f : list R -> R) : R := sumn Nph (fun ph => beta_of Nc Nph x ph * f (rho_of Nc x ph)).
Lemma overall_bulk : forall f, overall (unpack Nc Nph x) f = bulk f.
Proof.
  intro f. unfold overall, bulk, unpack. cbn [u_betas u_rhovecs]. rewrite map_length, seq_length. apply sumn_ext. intros ph Hp.
  now rewrite nth_map_seq', nth_map_seq_l.
Qed.
Lemma nth_fractions' : forall v i, nth i (fractions v) 0 = nth i v 0 / total v.
Proof. intros v i. unfold fractions. replace 0 with (0 / total v) at 1 by (unfold Rdiv; ring). exact (map_nth (fun r => r / total v) v 0 i). Qed.
Lemma zero_balance : forall z, length z = Nc -> total z = 1 ->
  (zero_rows (balance_rows Nc Nph z x) /\ fst (sum_row Nc Nph x) = 0) <->
  (forall i, (i < length z)%nat -> bulk (fun rho => nth i (fractions rho) 0) = nth i z 0) /\ bulk (fun _ => 1) = 1.
Proof.
  intros z Lz Sz.
  assert (B : bulk (fun _ => 1) = sum_phases Nph (beta_of Nc Nph x)) by (rewrite sum_phases_sumn; apply sumn_ext; intros; ring).
  assert (E : forall i, bulk (fun rho => nth i (fractions rho) 0) =
    sum_phases Nph (fun ph => beta_of Nc Nph x ph * (nth i (rho_of Nc x ph) 0 / vsum (rho_of Nc x ph)))).
  { intro i. rewrite sum_phases_sumn. apply sumn_ext. intros ph Hp. now rewrite nth_fractions', vsum_total. }
  unfold zero_rows, balance_rows, sum_row. rewrite Forall_map, Forall_forall. cbn [fst]. rewrite <- B. split.
  - intros [H H1]. assert (HB : bulk (fun _ => 1) = 1) by lra. split; [|exact HB].
    assert (Hi : forall i, (i < Nc - 1)%nat -> bulk (fun rho => nth i (fractions rho) 0) = nth i z 0).
    { intros i Hi. assert (In i (seq 0 (Nc - 1))) as Hin by (apply in_seq; lia). specialize (H _ Hin). rewrite E. lra. }
    intros i Li. destruct (lt_dec i (Nc - 1)) as [L|L]; [now apply Hi|]. assert (i = Nc - 1)%nat as -> by lia.
    (* the last balance follows from the others *)
    assert (S1 : sumn Nc (fun i => bulk (fun rho => nth i (fractions rho) 0)) = 1).
    { unfold bulk. rewrite (sumn_swap Nc Nph (fun i ph => beta_of Nc Nph x ph * nth i (fractions (rho_of Nc x ph)) 0)).
      rewrite <- HB. unfold bulk. apply sumn_ext. intros ph Hp. rewrite sumn_scal. f_equal.
      rewrite <- (total_fractions (rho_of Nc x ph)) by (apply Rgt_not_eq, total_pos, Hpos, Hp).
      unfold total at 1. unfold fractions. rewrite map_length, rho_of_length. reflexivity. }
    unfold total in Sz. rewrite Lz in Sz. replace Nc with (S (Nc - 1)) in S1, Sz by lia. cbn [sumn] in S1, Sz.
    replace (S (Nc - 1)) with Nc in S1 by lia.
    rewrite (sumn_ext (Nc - 1) _ (fun i => nth i z 0) Hi) in S1. lra.
  - intros [H HB]. split; [|lra]. intros i Hin. apply in_seq in Hin. rewrite <- E, H by lia. ring.
Qed.
Lemma zero_spec : forall s, (1 <= Nph)%nat -> (exists v, spec_row ad alphar Rgas ideal Rg Nc Nph x s = Some (Val v)) ->
  (fst (spec_row_v ad alphar Rgas ideal Rg Nc Nph x s) = 0 <-> spec_holds alphar Rgas aig Rig (unpack Nc Nph x) s).
Proof.
  intros s H1 [v0 E]. destruct HC as [R0 HR].
  assert (K : forall (f : R -> list R -> R) (g : list R -> R) t, (forall ph, (ph < Nph)%nat -> f (T_of x) (rho_of Nc x ph) = g (rho_of Nc x ph)) ->
    (sum_phases Nph (fun ph => beta_of Nc Nph x ph * f (T_of x) (rho_of Nc x ph)) - t = 0 <-> bulk g = t)).
  { intros f g t H. rewrite sum_phases_sumn. unfold bulk.
    rewrite (sumn_ext Nph _ (fun ph => beta_of Nc Nph x ph * g (rho_of Nc x ph))); [split; lra|]. intros ph Hp. now rewrite H. }
  destruct s as [T0|b k|p|v|s0|u0|h0]; unfold spec_row_v; cbn [spec_row spec_holds] in E |- *; try rewrite overall_bulk.
  - cbn [fst unpack u_T]. split; lra.
  - destruct (Nat.ltb k Nph) eqn:Ek; [|discriminate]. apply Nat.ltb_lt in Ek. cbn [fst unpack u_betas]. rewrite nth_map_seq' by auto. split; lra.
  - cbn [fst unpack u_T u_rhovecs]. rewrite nth_map_seq_l by lia. rewrite pressure_val by lia. split; lra.
  - cbn [fst]. apply (K (fun _ y => / q_rho y)). intros ph Hp. unfold q_rho. rewrite vsum_total. unfold Rdiv. ring.
  - destruct Hid as [Hi|Hi]; rewrite Hi in E |- *; [discriminate|]. cbn [fst caloric_row].
    apply (K (fun t y => c_s ad alphar Rgas Rg t y aig)). intros ph Hp. destruct HI as [HRi HXi]; [congruence|].
    destruct (HX ph Hp) as (G1 & H & X). destruct (HXi ph Hp) as (G2 & H2 & X2).
    exact (cs_val ad Had alphar Rgas aig Rig Rg HR HRi R0 _ _ HT (total_pos _ (Hpos ph Hp)) _ _ X _ _ X2).
  - destruct Hid as [Hi|Hi]; rewrite Hi in E |- *; [discriminate|]. cbn [fst caloric_row].
    apply (K (fun t y => c_u ad alphar Rgas Rg t y aig)). intros ph Hp. destruct HI as [HRi HXi]; [congruence|].
    destruct (HX ph Hp) as (G1 & H & X). destruct (HXi ph Hp) as (G2 & H2 & X2).
    exact (cu_val ad Had alphar Rgas aig Rig Rg HR HRi R0 _ _ HT (total_pos _ (Hpos ph Hp)) _ _ X _ _ X2).
  - destruct Hid as [Hi|Hi]; rewrite Hi in E |- *; [discriminate|]. cbn [fst caloric_row].
    apply (K (fun t y => c_h ad alphar Rgas Rg t y aig)). intros ph Hp. destruct HI as [HRi HXi]; [congruence|].
    destruct (HX ph Hp) as (G1 & H & X). destruct (HXi ph Hp) as (G2 & H2 & X2).
    exact (ch_val ad Had alphar Rgas aig Rig Rg HR HRi R0 _ _ HT (total_pos _ (Hpos ph Hp)) _ _ X _ _ X2).
Qed.
End Zeros.

(** The models are smooth at every phase of the state. *)
Definition smooth_state (alphar : R -> R -> list R -> R) (Rgas : list R -> R) (u : unpacked) : Prop :=
  forall ph, (ph < length (u_rhovecs u))%nat -> smooth_joint alphar Rgas (u_T u) (nth ph (u_rhovecs u) []).

Lemma unpacked_facts : forall Nc Nph x, physical (unpack Nc Nph x) ->
  0 < T_of x /\ forall ph, (ph < Nph)%nat -> positive (rho_of Nc x ph).
Proof.
  intros Nc Nph x [H1 H2]. split; [exact H1|]. intros ph Hp. unfold unpack in H2. cbn [u_rhovecs] in H2. specialize (H2 ph).
  rewrite map_length, seq_length, nth_map_seq_l in H2 by auto. auto.
Qed.
Lemma smooth_facts : forall alphar Rgas Nc Nph x, smooth_state alphar Rgas (unpack Nc Nph x) ->
  forall ph, (ph < Nph)%nat -> smooth_joint alphar Rgas (T_of x) (rho_of Nc x ph).
Proof.
  intros alphar Rgas Nc Nph x H ph Hp. specialize (H ph). unfold unpack in H. cbn [u_rhovecs u_T] in H. rewrite map_length, seq_length, nth_map_seq_l in H by auto. auto.
Qed.
Lemma all_zero_app : forall a b, zero_rows (a ++ b) <-> zero_rows a /\ zero_rows b. Proof. intros. apply Forall_app. Qed.

(** The residual vanishes exactly at the equilibrium states: equal fugacities and
    pressures of all phases, the overall composition z, phase fractions summing to one,
    and both specifications satisfied. *)
Theorem C25_zero_iff_equilibrium : forall ad alphar Rgas Rg ideal aig Rig Nc Nph z u specs g x r J G,
  AD_exact ad -> const_R Rgas Rg -> (ideal = None \/ ideal = Some (aig, Rig) /\ const_R Rig Rg /\ smooth_state aig Rig u) ->
  well_shaped Nc Nph u -> physical u -> smooth_state alphar Rgas u ->
  length z = Nc -> total z = 1 ->
  (forall ph, (ph < Nph)%nat -> gradient_at (Psi_r alphar Rgas (u_T u)) (nth ph (u_rhovecs u) []) (G ph)) ->
  make_gpe z u specs = Some (Val g) -> pack u = Some x -> call ad alphar Rgas ideal g x = Some (Val (r, J)) ->
  (List.Forall (fun v => v = 0) r <-> equilibrium alphar Rgas Rg aig Rig z specs u G).
Proof.
  intros ad alphar Rgas Rg ideal aig Rig Nc Nph z u specs g x r J G Had HC Hid W P Sm Lz Sz HG M E C.
  destruct (C25_pack_unpack _ _ _ W) as (x' & E' & Lx & Eu). rewrite E in E'. injection E' as <-.
  rewrite (C25_construction Nc Nph) in M by auto. destruct (Nat.eqb (length specs) 2) eqn:E2; [|discriminate]. injection M as <-.
  destruct (call_rows _ _ _ _ _ _ _ _ C) as (_ & Hs & -> & _). cbn [g_Nc g_Nph g_specs g_z] in *.
  pose proof W as (Hc & Hp & Lr & Lb & _). rewrite <- Eu in *.
  destruct (unpacked_facts _ _ _ P) as [HT Hpos]. pose proof (smooth_facts _ _ _ _ _ Sm) as HX.
  assert (HG' : forall ph, (ph < Nph)%nat -> gradient_at (Psi_r alphar Rgas (T_of x)) (rho_of Nc x ph) (G ph)).
  { intros ph Hph. specialize (HG ph Hph). unfold unpack in HG. cbn [u_rhovecs u_T] in HG. now rewrite nth_map_seq_l in HG by auto. }
  assert (Hid' : ideal = None \/ ideal = Some (aig, Rig)) by tauto.
  assert (HI : ideal <> None -> (forall y, Rig y = Rg) /\ forall ph, (ph < Nph)%nat -> smooth_joint aig Rig (T_of x) (rho_of Nc x ph)).
  { intro N. destruct Hid as [|(_ & [_ A] & B)]; [contradiction|]. split; [exact A|]. exact (smooth_facts _ _ _ _ _ B). }
  destruct HC as [R0 HR]. rewrite HR in *.
  rewrite Forall_map. change (zero_rows (always_rows ad alphar Rgas Rg Nc Nph z x ++ map (spec_row_v ad alphar Rgas ideal Rg Nc Nph x) specs) <->
    equilibrium alphar Rgas Rg aig Rig z specs (unpack Nc Nph x) G).
  unfold always_rows. rewrite !all_zero_app.
  rewrite (zero_lnf ad Had alphar Rgas Rg (conj R0 HR) Nc Nph Hc x Lx HT Hpos G HG' Hp).
  rewrite (zero_p ad Had alphar Rgas Rg (conj R0 HR) Nc Nph Hc x Lx HT Hpos HX Hp).
  assert (ZS : zero_rows [sum_row Nc Nph x] <-> fst (sum_row Nc Nph x) = 0) by (unfold zero_rows; rewrite Forall_cons_iff; intuition).
  rewrite ZS. rewrite (zero_balance Nc Nph Hc x Lx Hpos z Lz Sz).
  assert (ZP : zero_rows (map (spec_row_v ad alphar Rgas ideal Rg Nc Nph x) specs) <-> forall s, In s specs -> spec_holds alphar Rgas aig Rig (unpack Nc Nph x) s).
  { unfold zero_rows. rewrite Forall_map, Forall_forall. split; intros H s Hin; specialize (H s Hin);
      apply (zero_spec ad Had alphar Rgas Rg (conj R0 HR) ideal aig Rig Hid' Nc Nph Hc x Lx HT Hpos HX HI s Hp (Hs s Hin)); exact H. }
  rewrite ZP. unfold equilibrium. rewrite !overall_bulk. cbn [unpack u_T u_rhovecs]. rewrite map_length, seq_length, Lz.
  assert (N0 : nth 0 (map (rho_of Nc x) (seq 0 Nph)) [] = rho_of Nc x 0) by (apply nth_map_seq_l; lia). rewrite N0.
  split.
  - intros ((A & B & D & D1) & F). split; [|split; [|split; [|split]]]; auto.
    + intros ph i Hph Hi. rewrite nth_map_seq_l by auto. auto.
    + intros ph Hph. rewrite nth_map_seq_l by auto. auto.
    + intros i Hi. rewrite overall_bulk. auto.
  - intros (A & B & D & D1 & F). split; [split; [|split]|]; auto.
    + intros ph i Hph Hi. specialize (A ph i Hph Hi). now rewrite nth_map_seq_l in A by auto.
    + intros ph Hph. specialize (B ph Hph). now rewrite nth_map_seq_l in B by auto.
    + split; auto. intros i Hi. specialize (D i Hi). now rewrite overall_bulk in D.
Qed.

(** ** The Jacobian *)
Definition residual (ad : (list R -> R) -> list nat -> list R -> R) alphar Rgas ideal (g : gpe) (y : list R) : list R :=
  match call ad alphar Rgas ideal g y with Some (Val (r, _)) => r | _ => [] end.
(** Row k of the matrix J is the derivative of component k of F along every curve
    through x. *)
Definition row_right (F : list R -> list R) (x : list R) (J : list (list R)) (k : nat) : Prop :=
  forall d X, curve x d X -> is_derive (fun s => nth k (F (X s)) 0) 0 (sumn (length x) (fun j => nth j (nth k J []) 0 * nth j d 0)).

Lemma call_again : forall ad alphar Rgas ideal g x r J y, call ad alphar Rgas ideal g x = Some (Val (r, J)) -> length y = length x ->
  residual ad alphar Rgas ideal g y = map fst (always_rows ad alphar Rgas (Rgas (g_z g)) (g_Nc g) (g_Nph g) (g_z g) y ++
     map (spec_row_v ad alphar Rgas ideal (Rgas (g_z g)) (g_Nc g) (g_Nph g) y) (g_specs g)).
Proof.
  intros ad alphar Rgas ideal g x r J y C Ly. destruct (call_rows _ _ _ _ _ _ _ _ C) as (Lx & Hs & _). unfold residual, call in *.
  rewrite Ly. destruct (negb (Nat.eqb (length x) (Nindependent (g_Nc g) (g_Nph g)))); [discriminate|].
  destruct (Nat.ltb 1 (g_Nph g) && Nat.ltb (g_Nph g) (g_Nc g))%bool; [discriminate|].
  destruct (Nat.ltb (length (g_z g)) (g_Nc g - 1)); [discriminate|].
  rewrite spec_rows_val; [reflexivity|]. intros s Hin. destruct (Hs s Hin) as [v Ev]. apply (spec_row_indep ad alphar Rgas ideal (Rgas (g_z g)) (g_Nc g) (g_Nph g) s x y v Ev).
Qed.
Lemma nth_fst : forall (l : list (R * list R)) k, nth k (map fst l) 0 = fst (nth k l (0, [])).
Proof. intros l k. exact (map_nth fst l (0, []) k). Qed.
Lemma nth_snd : forall (l : list (R * list R)) k, nth k (map snd l) [] = snd (nth k l (0, [])).
Proof. intros l k. exact (map_nth snd l (0, []) k). Qed.

(** the part of the equations: everything / the material balances, the sum of the phase
    fractions and the specifications *)
Lemma jac_all : forall ad alphar Rgas ideal Nc Nph z u specs g x r J, well_shaped Nc Nph u -> make_gpe z u specs = Some (Val g) -> pack u = Some x ->
  call ad alphar Rgas ideal g x = Some (Val (r, J)) ->
  rows_ok Nc Nph x (fun y => always_rows ad alphar Rgas (Rgas z) Nc Nph z y ++ map (spec_row_v ad alphar Rgas ideal (Rgas z) Nc Nph y) specs) ->
  forall k, (k < length r)%nat -> row_right (residual ad alphar Rgas ideal g) x J k.
Proof.
  intros ad alphar Rgas ideal Nc Nph z u specs g x r J W M E C Ok k Hk d X Cv.
  destruct (C25_pack_unpack _ _ _ W) as (x' & E' & Lx & Eu). rewrite E in E'. injection E' as <-.
  rewrite (C25_construction Nc Nph) in M by auto. destruct (Nat.eqb (length specs) 2) eqn:E2; [|discriminate]. injection M as <-.
  destruct (call_rows _ _ _ _ _ _ _ _ C) as (_ & Hs & Er & Ej). cbn [g_Nc g_Nph g_specs g_z] in *.
  rewrite Ej. rewrite Er, map_length in Hk. rewrite nth_snd. destruct Ok as [Ol Ok]. specialize (Ok k Hk d X Cv).
  rewrite Lx. refine (is_derive_ext _ _ _ _ _ Ok). intro s.
  rewrite (call_again _ _ _ _ _ _ _ _ (X s) C (cv_len _ _ _ Cv s)). cbn [g_Nc g_Nph g_specs g_z]. symmetry. apply nth_fst.
Qed.

Section Jacobian.
Variable ad : (list R -> R) -> list nat -> list R -> R.
Hypothesis Had : AD_exact ad.
Variable alphar : R -> R -> list R -> R.
Variable Rgas : list R -> R.
Variable Rg : R.
Hypothesis HC : const_R Rgas Rg.
Variable ideal : option ((R -> R -> list R -> R) * (list R -> R)).
Variables (Nc Nph : nat) (z : list R) (u : unpacked) (specs : list spec) (g : gpe) (x r : list R) (J : list (list R)).
Hypothesis HI : forall aig Rig, ideal = Some (aig, Rig) -> const_R Rig Rg /\ smooth_state aig Rig u.
Hypothesis W : well_shaped Nc Nph u.
Hypothesis P : physical u.
Hypothesis Sm : smooth_state alphar Rgas u.
Hypothesis M : make_gpe z u specs = Some (Val g).
Hypothesis E : pack u = Some x.
Hypothesis C : call ad alphar Rgas ideal g x = Some (Val (r, J)).

Lemma jac_facts : length x = Nindependent Nc Nph /\ unpack Nc Nph x = u /\ 0 < T_of x /\
  (forall ph, (ph < Nph)%nat -> positive (rho_of Nc x ph)) /\
  (forall ph, (ph < Nph)%nat -> smooth_joint alphar Rgas (T_of x) (rho_of Nc x ph)) /\
  (forall aig Rig, ideal = Some (aig, Rig) -> (forall y, Rig y = Rg) /\ forall ph, (ph < Nph)%nat -> smooth_joint aig Rig (T_of x) (rho_of Nc x ph)) /\
  (forall s, In s specs -> exists v, spec_row ad alphar Rgas ideal Rg Nc Nph x s = Some (Val v)).
Proof.
  destruct (C25_pack_unpack _ _ _ W) as (x' & E' & Lx & Eu). rewrite E in E'. injection E' as <-.
  pose proof (C25_construction Nc Nph z u specs W) as M'. rewrite M in M'. destruct (Nat.eqb (length specs) 2) eqn:E2; [|discriminate]. injection M' as Eg.
  pose proof P as P'. pose proof Sm as S'. rewrite <- Eu in P', S'. destruct (unpacked_facts _ _ _ P') as [HT Hpos].
  destruct HC as [R0 HR].
  split; [exact Lx|split; [exact Eu|split; [exact HT|split; [exact Hpos|split; [exact (smooth_facts _ _ _ _ _ S')|split]]]]].
  - intros aig Rig Hi. destruct (HI _ _ Hi) as [[_ A] B]. rewrite <- Eu in B. split; [exact A|exact (smooth_facts _ _ _ _ _ B)].
  - destruct (call_rows _ _ _ _ _ _ _ _ C) as (_ & Hs & _). rewrite Eg in Hs. cbn [g_Nc g_Nph g_specs g_z] in Hs. now rewrite HR in Hs.
Qed.
Lemma specs_ok : rows_ok Nc Nph x (fun y => map (spec_row_v ad alphar Rgas ideal Rg Nc Nph y) specs).
Proof.
  destruct jac_facts as (Lx & Eu & HT & Hpos & HX & HI' & Hs). destruct HC as [R0 HR]. pose proof W as (Hc & Hp & _).
  apply rows_map; [exact Lx|]. intros s Hin. eapply spec_ok; eauto.
Qed.
Lemma tail_ok : rows_ok Nc Nph x (fun y => (balance_rows Nc Nph z y ++ [sum_row Nc Nph y]) ++ map (spec_row_v ad alphar Rgas ideal Rg Nc Nph y) specs).
Proof.
  destruct jac_facts as (Lx & Eu & HT & Hpos & HX & HI' & Hs). pose proof W as (Hc & Hp & _).
  apply (rows_app Nc Nph x Lx (fun y => balance_rows Nc Nph z y ++ [sum_row Nc Nph y])); [|exact specs_ok].
  apply (rows_app Nc Nph x Lx (balance_rows Nc Nph z) (fun y => [sum_row Nc Nph y])).
  - eapply balance_ok; eauto.
  - apply (rows_map Nc Nph x Lx [tt] (fun y _ => sum_row Nc Nph y)). intros _ _. eapply sum_row_ok; eauto.
Qed.
(** One phase of any mixture, or two phases of a binary mixture: the Jacobian is the
    derivative of the residual. (Missing for the full claim: other numbers of phases and
    components, where it is false; see below.) *)
Theorem C25_jacobian_partial : (Nph = 1 \/ Nph = 2 /\ Nc = 2)%nat ->
  forall k, (k < length x)%nat -> row_right (residual ad alphar Rgas ideal g) x J k.
Proof.
  intros Hn k Hk. destruct jac_facts as (Lx & Eu & HT & Hpos & HX & HI' & Hs). destruct HC as [R0 HR]. pose proof W as (Hc & Hp & _).
  destruct (C25_square ad alphar Rgas ideal Nc Nph z u specs g x r J W M C) as (Lr & _).
  apply (jac_all ad alphar Rgas ideal Nc Nph z u specs g x r J W M E C); [|lia].
  rewrite HR. unfold always_rows.
  apply (rows_app Nc Nph x Lx (fun y => lnf_rows ad alphar Rgas Rg Nc Nph y ++ p_rows ad alphar Rgas Rg Nc Nph y ++ balance_rows Nc Nph z y ++ [sum_row Nc Nph y])); [|exact specs_ok].
  apply (rows_app Nc Nph x Lx (lnf_rows ad alphar Rgas Rg Nc Nph)); [|apply (rows_app Nc Nph x Lx (p_rows ad alphar Rgas Rg Nc Nph)); [|apply (rows_app Nc Nph x Lx (balance_rows Nc Nph z) (fun y => [sum_row Nc Nph y]))]].
  - eapply lnf_rows_ok; eauto. lia.
  - eapply p_rows_ok; eauto. lia.
  - eapply balance_ok; eauto.
  - apply (rows_map Nc Nph x Lx [tt] (fun y _ => sum_row Nc Nph y)). intros _ _. eapply sum_row_ok; eauto.
Qed.
(** Any numbers of phases and components: the rows of the material balances, of the sum
    of the phase fractions and of the specifications (the last Nc + 2 rows) are right. *)
Theorem C25_jacobian_other_rows : forall k, (length x - (Nc + 2) <= k < length x)%nat -> row_right (residual ad alphar Rgas ideal g) x J k.
Proof.
  intros k Hk d X Cv. destruct jac_facts as (Lx & Eu & HT & Hpos & HX & HI' & Hs). destruct HC as [R0 HR]. pose proof W as (Hc & Hp & _).
  destruct (C25_square ad alphar Rgas ideal Nc Nph z u specs g x r J W M C) as (Lr & _).
  pose proof (C25_construction Nc Nph z u specs W) as M'. rewrite M in M'. destruct (Nat.eqb (length specs) 2) eqn:E2; [|discriminate]. injection M' as Eg.
  apply Nat.eqb_eq in E2.
  destruct (call_rows _ _ _ _ _ _ _ _ C) as (_ & _ & Er & Ej). rewrite Eg in Er, Ej. cbn [g_Nc g_Nph g_specs g_z] in Er, Ej. rewrite HR in Er, Ej.
  set (n := ((Nph - 1) * Nc + (Nph - 1))%nat).
  assert (Hn : forall y, length (lnf_rows ad alphar Rgas Rg Nc Nph y ++ p_rows ad alphar Rgas Rg Nc Nph y) = n).
  { intro y. rewrite app_length. unfold lnf_rows, p_rows. rewrite blocks_length, map_length, seq_length. reflexivity. }
  assert (Split : forall y, always_rows ad alphar Rgas Rg Nc Nph z y ++ map (spec_row_v ad alphar Rgas ideal Rg Nc Nph y) specs =
    (lnf_rows ad alphar Rgas Rg Nc Nph y ++ p_rows ad alphar Rgas Rg Nc Nph y) ++
    ((balance_rows Nc Nph z y ++ [sum_row Nc Nph y]) ++ map (spec_row_v ad alphar Rgas ideal Rg Nc Nph y) specs)).
  { intro y. unfold always_rows. now rewrite <- !app_assoc. }
  assert (Hnx : (length x = n + (Nc + 2))%nat) by (rewrite Lx; unfold Nindependent, n; nia).
  destruct tail_ok as [_ Ok].
  assert (Hk' : (k - n < length ((balance_rows Nc Nph z x ++ [sum_row Nc Nph x]) ++ map (spec_row_v ad alphar Rgas ideal Rg Nc Nph x) specs))%nat).
  { rewrite !app_length, map_length, E2. unfold balance_rows. rewrite map_length, seq_length. cbn [length]. lia. }
  specialize (Ok (k - n)%nat Hk' d X Cv).
  rewrite Ej, nth_snd, Split, app_nth2, Hn by (rewrite Hn; lia). rewrite Lx. refine (is_derive_ext _ _ _ _ _ Ok). intro s.
  rewrite (call_again _ _ _ _ _ _ _ _ (X s) C (cv_len _ _ _ Cv s)), Eg. cbn [g_Nc g_Nph g_specs g_z].
  rewrite nth_fst, HR, Split, (app_nth2 (lnf_rows ad alphar Rgas Rg Nc Nph (X s) ++ p_rows ad alphar Rgas Rg Nc Nph (X s))) by (rewrite Hn; lia).
  now rewrite Hn.
Qed.
End Jacobian.

(** ** Refutations of the Jacobian claim for other numbers of phases and components *)
Definition ig_alphar (T r : R) (x : list R) : R := 0.
Definition ig_R (x : list R) : R := 1.
Lemma ig_constR : const_R ig_R 1. Proof. split; [lra|reflexivity]. Qed.
Lemma ig_Psir : forall T rho, Psi_r ig_alphar ig_R T rho = 0. Proof. intros. unfold Psi_r, ig_alphar. ring. Qed.
Lemma nth_repeat0 : forall n i, nth i (repeat 0 n) 0 = 0.
Proof. induction n as [|n IH]; intros [|i]; simpl; auto. Qed.
Lemma ig_zero : forall F (x : list R), (forall y, F y = 0) -> gradient_at F x (repeat 0 (length x)).
Proof. intros F x H. apply (gradient_ext (fun _ => 0) F x (repeat 0 (length x))); auto using repeat_length, gradient_const. Qed.
Lemma ig_twice : forall F (x : list R), (forall y, F y = 0) -> twice_at F x (fun y => repeat 0 (length y)) (repeat (repeat 0 (length x)) (length x)).
Proof.
  intros F x H. constructor.
  - exists 1. split; [lra|]. intros. now apply ig_zero.
  - apply repeat_length.
  - intros j Hj. rewrite (nth_indep _ [] (repeat 0 (length x))) by (now rewrite repeat_length). rewrite nth_repeat. apply ig_zero. intro; apply nth_repeat0.
  - intros i j Hi Hj. rewrite !(nth_indep (repeat (repeat 0 (length x)) (length x)) [] (repeat 0 (length x))) by (now rewrite repeat_length). now rewrite !nth_repeat.
Qed.
Lemma ig_smooth : forall T rho, smooth_joint ig_alphar ig_R T rho.
Proof. intros. eexists _, _. apply ig_twice. intro. apply ig_Psir. Qed.
Lemma ig_grad : forall ad T rho i, AD_exact ad -> (i < length rho)%nat -> nth i (q_grad ad ig_alphar ig_R T rho) 0 = 0.
Proof.
  intros ad T rho i Had Hi. unfold q_grad. rewrite (gradient_ok ad Had ig_alphar ig_R T rho _ i (ig_zero _ rho (ig_Psir T)) Hi). apply nth_repeat0.
Qed.
Lemma ig_hess : forall ad T rho i j, AD_exact ad -> (i < length rho)%nat -> (j < length rho)%nat -> nth j (nth i (q_Hess ad ig_alphar ig_R T rho) []) 0 = 0.
Proof.
  intros ad T rho i j Had Hi Hj. unfold q_Hess. rewrite (hessian_ok ad Had ig_alphar ig_R T rho _ _ i j (ig_twice _ rho (ig_Psir T)) Hi Hj).
  rewrite (nth_indep _ [] (repeat 0 (length rho))) by (now rewrite repeat_length). now rewrite !nth_repeat.
Qed.
Lemma curve_line : forall (x d : list R), length d = length x -> curve x d (fun s => each x (fun j => nth j x 0 + nth j d 0 * s)).
Proof.
  intros x d Hd. constructor.
  - apply list_ext; rewrite each_length; auto. intros j Hj. rewrite each_nth by auto. ring.
  - intro. apply each_length.
  - intros j Hj. apply (is_derive_ext (fun s => nth j x 0 + nth j d 0 * s)); [intro; now rewrite each_nth|]. auto_derive; auto. ring.
Qed.

(** Two phases of a pure ideal gas: the equality of the fugacities depends on the density
    of the second phase, the first row of the Jacobian does not. *)
Definition pure_state : unpacked := {| u_T := 1; u_rhovecs := [[1]; [2]]; u_betas := [1 / 2; 1 / 2] |}.
Theorem C25_jacobian_pure_fluid_refuted : forall ad, AD_exact ad -> exists g x r J,
  make_gpe [1] pure_state [TSpecification 1; BetaSpecification (1 / 2) 0] = Some (Val g) /\ pack pure_state = Some x /\
  call ad ig_alphar ig_R None g x = Some (Val (r, J)) /\ ~ row_right (residual ad ig_alphar ig_R None g) x J 0.
Proof.
  intros ad Had. exists {| g_z := [1]; g_Nc := 1; g_Nph := 2; g_specs := [TSpecification 1; BetaSpecification (1 / 2) 0] |}, [1; 1; 2; 1 / 2; 1 / 2]. eexists _, _. split; [reflexivity|]. split; [reflexivity|]. split; [reflexivity|].
  intro H. specialize (H [0; 0; 1; 0; 0] _ (curve_line [1; 1; 2; 1 / 2; 1 / 2] [0; 0; 1; 0; 0] eq_refl)).
  assert (D : is_derive (fun s => nth 0 (residual ad ig_alphar ig_R None
     {| g_z := [1]; g_Nc := 1; g_Nph := 2; g_specs := [TSpecification 1; BetaSpecification (1 / 2) 0] |}
     (each [1; 1; 2; 1 / 2; 1 / 2] (fun j => nth j [1; 1; 2; 1 / 2; 1 / 2] 0 + nth j [0; 0; 1; 0; 0] 0 * s))) 0) 0 (- / 2)).
  { apply (is_derive_ext_loc (fun s => ln ((1 + 0 * s) * 1 * (1 + 0 * s)) - ln ((2 + 1 * s) * 1 * (1 + 0 * s)))).
    - apply filter_forall. intro s.
      change (@eq R (ln ((1 + 0 * s) * 1 * (1 + 0 * s)) - ln ((2 + 1 * s) * 1 * (1 + 0 * s)))
        (q_lnf ad ig_alphar ig_R 1 (1 + 0 * s) [1 + 0 * s] 0 - q_lnf ad ig_alphar ig_R 1 (1 + 0 * s) [2 + 1 * s] 0)).
      unfold q_lnf. rewrite !ig_grad by (auto; simpl; lia). cbn [nth]. ring.
    - auto_derive; [repeat split; lra|]. field. }
  pose proof (is_derive_eq_unique _ _ _ _ H D) as U.
  cbn in U. lra.
Qed.
(** Three phases of a binary ideal gas: the equality of the pressures of the first two
    phases does not depend on the third phase, the row of the Jacobian does. *)
Definition three_state : unpacked := {| u_T := 1; u_rhovecs := [[1; 1]; [1; 2]; [2; 1]]; u_betas := [1 / 4; 1 / 4; 1 / 2] |}.
Theorem C25_jacobian_three_phases_refuted : forall ad, AD_exact ad -> exists g x r J,
  make_gpe [1 / 2; 1 / 2] three_state [TSpecification 1; BetaSpecification (1 / 2) 0] = Some (Val g) /\ pack three_state = Some x /\
  call ad ig_alphar ig_R None g x = Some (Val (r, J)) /\ ~ row_right (residual ad ig_alphar ig_R None g) x J 4.
Proof.
  intros ad Had. exists {| g_z := [1 / 2; 1 / 2]; g_Nc := 2; g_Nph := 3; g_specs := [TSpecification 1; BetaSpecification (1 / 2) 0] |}, [1; 1; 1; 1; 2; 2; 1; 1 / 4; 1 / 4; 1 / 2]. eexists _, _. split; [reflexivity|]. split; [reflexivity|]. split; [reflexivity|].
  intro H. specialize (H [0; 0; 0; 0; 0; 1; 0; 0; 0; 0] _ (curve_line [1; 1; 1; 1; 2; 2; 1; 1 / 4; 1 / 4; 1 / 2] [0; 0; 0; 0; 0; 1; 0; 0; 0; 0] eq_refl)).
  match type of H with is_derive ?f _ _ => assert (D : is_derive f 0 0) end.
  { refine (is_derive_ext (fun s => q_p ad ig_alphar ig_R 1 1 [1; 1] - q_p ad ig_alphar ig_R 1 1 [1; 2]) _ _ _ _ (is_derive_cst _ _)). intro s.
    change (@eq R (q_p ad ig_alphar ig_R 1 1 [1; 1] - q_p ad ig_alphar ig_R 1 1 [1; 2])
      (q_p ad ig_alphar ig_R 1 (1 + 0 * s) [1 + 0 * s; 1 + 0 * s] - q_p ad ig_alphar ig_R 1 (1 + 0 * s) [1 + 0 * s; 2 + 0 * s])).
    now rewrite !Rmult_0_l, !Rplus_0_r. }
  pose proof (is_derive_eq_unique _ _ _ _ H D) as U. clear H D.
  assert (pick : forall row, sumn 10 (fun j => nth j row 0 * nth j [0; 0; 0; 0; 0; 1; 0; 0; 0; 0] 0) = nth 5 row 0) by (intro row; cbn [sumn nth]; ring).
  cbn [length] in U. rewrite pick in U. change (- q_dpdrho ad ig_alphar ig_R 1 1 [1; 2] 0 = 0) in U.
  unfold q_dpdrho in U. rewrite vsum_each in U. cbn [sumn length] in U.
  rewrite !ig_hess in U by (auto; simpl; lia). lra.
Qed.

(** ** The hypotheses can be met *)
(** a two-phase state of a binary mixture, with an entropy and a volume specification *)
Definition ex_state : unpacked := {| u_T := 1; u_rhovecs := [[1; 2]; [1; 2]]; u_betas := [1 / 2; 1 / 2] |}.
Definition ex_specs : list spec :=
  [MolarEntropySpecification (overall ex_state (entropy ex_alphar ex_R ex_alphar ex_R 1)); MolarVolumeSpecification (1 / 3)].
Lemma ex_state_shape : well_shaped 2 2 ex_state.
Proof. unfold well_shaped; simpl. repeat split; try lia. intros [|[|ph]] H; try reflexivity; lia. Qed.
Lemma ex_state_physical : physical ex_state.
Proof. split; simpl; [lra|]. intros [|[|ph]] H; try lia; apply pos2; lra. Qed.
Lemma ex_state_smooth : smooth_state ex_alphar ex_R ex_state.
Proof. intros [|[|ph]] H; simpl in *; try lia; apply ex_joint; lra. Qed.
Example C25_zero_met : exists g x r J,
  make_gpe [1 / 3; 2 / 3] ex_state ex_specs = Some (Val g) /\ pack ex_state = Some x /\
  call partialN ex_alphar ex_R (Some (ex_alphar, ex_R)) g x = Some (Val (r, J)) /\ length r = 7%nat /\ List.Forall (fun v => v = 0) r.
Proof.
  assert (Had : AD_exact partialN) by (intros f o x H; reflexivity).
  pose proof ex_state_shape as W.
  eexists _, _, _, _. split; [reflexivity|]. split; [reflexivity|]. split; [reflexivity|]. split; [reflexivity|].
  apply (C25_zero_iff_equilibrium partialN ex_alphar ex_R 8 (Some (ex_alphar, ex_R)) ex_alphar ex_R 2 2 [1 / 3; 2 / 3] ex_state ex_specs _ _ _ _
    (fun _ => tl (ex_G [1; 1; 2])) Had ex_constR (or_intror (conj eq_refl (conj ex_constR ex_state_smooth))) W ex_state_physical ex_state_smooth eq_refl
    ltac:(unfold total; simpl; lra)) with (2 := eq_refl) (3 := eq_refl) (4 := eq_refl).
  - intros ph Hp. assert (E : nth ph (u_rhovecs ex_state) [] = [1; 2]) by (destruct ph as [|[|ph]]; [reflexivity|reflexivity|lia]).
    rewrite E. exact (gradient_tail _ _ _ _ (ex_P_gradient [1; 1; 2] eq_refl ltac:(simpl; lra))).
  - split; [|split; [|split; [|split]]].
    + intros [|[|ph]] i Hp Hi; simpl in Hp; try lia; reflexivity.
    + intros [|[|ph]] Hp; simpl in Hp; try lia; reflexivity.
    + intros [|[|i]] Hi; simpl in Hi; try lia; unfold overall, fractions, total; simpl; lra.
    + unfold overall; simpl; lra.
    + intros s [<-|[<-|[]]]; [reflexivity|]. unfold spec_holds, overall, total. simpl. lra.
Qed.
Example C25_jacobian_met : exists g x r J,
  make_gpe [1 / 3; 2 / 3] ex_state ex_specs = Some (Val g) /\ pack ex_state = Some x /\
  call partialN ex_alphar ex_R (Some (ex_alphar, ex_R)) g x = Some (Val (r, J)) /\
  forall k, (k < 7)%nat -> row_right (residual partialN ex_alphar ex_R (Some (ex_alphar, ex_R)) g) x J k.
Proof.
  assert (Had : AD_exact partialN) by (intros f o x H; reflexivity).
  eexists _, _, _, _. split; [reflexivity|]. split; [reflexivity|]. split; [reflexivity|].
  intros k Hk. refine (C25_jacobian_partial partialN Had ex_alphar ex_R 8 ex_constR (Some (ex_alphar, ex_R)) 2 2 [1 / 3; 2 / 3] ex_state ex_specs _ _ _ _ _
    ex_state_shape ex_state_physical ex_state_smooth eq_refl eq_refl eq_refl _ k _); [|lia|exact Hk].
  intros aig Rig E. injection E as <- <-. split; [exact ex_constR|exact ex_state_smooth].
Qed.
Example C25_ternary_two_phases : exists g x, make_gpe [1 / 2; 1 / 4; 1 / 4]
    {| u_T := 1; u_rhovecs := [[1; 1; 1]; [2; 1; 1]]; u_betas := [1 / 2; 1 / 2] |} [TSpecification 1; BetaSpecification 0 1] = Some (Val g) /\
  pack {| u_T := 1; u_rhovecs := [[1; 1; 1]; [2; 1; 1]]; u_betas := [1 / 2; 1 / 2] |} = Some x /\
  call partialN ex_alphar ex_R None g x = None.
Proof. eexists _, _. split; [reflexivity|]. split; [reflexivity|]. apply C25_more_components_than_phases_refuted; simpl; auto; lia. Qed.

Print Assumptions C25_pack_unpack.
Print Assumptions C25_unpack_pack.
Print Assumptions C25_construction.
Print Assumptions C25_construction_counts.
Print Assumptions C25_construction_terminates.
Print Assumptions C25_square.
Print Assumptions C25_wrong_size.
Print Assumptions C25_evaluates.
Print Assumptions C25_more_components_than_phases_refuted.
Print Assumptions C25_caloric_needs_ideal.
Print Assumptions C25_zero_iff_equilibrium.
Print Assumptions C25_jacobian_partial.
Print Assumptions C25_jacobian_other_rows.
Print Assumptions C25_jacobian_pure_fluid_refuted.
Print Assumptions C25_jacobian_three_phases_refuted.
