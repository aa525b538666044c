(** C37 (site fractions), C38 (site indexing) and C62 (association strengths). *)
From Coq Require Import Reals ZArith String List Bool Lia Lra Sorting.
From Verif Require Import Json_model Vec_spec Vec_proofs Cubic_model Terms_model Ideal_model Util_model Multi_model
  Assoc_model Assoc_spec Assoc_proofs Assoc_proofs2 Assoc_proofs3 Assoc_proofs4.
Import ListNotations.
Open Scope R_scope.

(** * C38 *)
(** The indices 0 .. n-1 and the pairs (molecule, distinct site on it) correspond one to one *)
Theorem C38_bijection : forall mols ind, make_mapper mols = Some ind ->
  length (counts ind) = total_distinct mols /\
  (forall k cs, mget Nat.eqb k (to_CompSite ind) = Some cs <-> mget cs_eqb cs (to_siteid ind) = Some k) /\
  (forall k, (k < total_distinct mols)%nat <-> exists cs, mget Nat.eqb k (to_CompSite ind) = Some cs) /\
  (forall i s, (exists k, mget cs_eqb (i, s) (to_siteid ind) = Some k) <-> In s (nth i mols [])).
Proof.
  intros mols ind H. rewrite make_mapper_ok in H. destruct (Nat.leb _ _); [|discriminate]. injection H as <-.
  split; [cbn; now rewrite map_length, layout_length|]. split; [|split].
  - intros k cs. rewrite get_comp, get_site by apply layout_nodup. reflexivity.
  - intro k. rewrite <- (layout_length mols 0). split.
    + intro L. destruct (nth_error (layout mols 0) k) as [cs|] eqn:E; [exists cs; now apply get_comp|]. apply nth_error_None in E. lia.
    + intros [cs E]. apply get_comp in E. apply nth_error_Some. now rewrite E.
  - intros i s. pose proof (layout_in mols 0 i s) as L. rewrite Nat.sub_0_r in L. split.
    + intros [k E]. apply get_site in E; [|apply layout_nodup]. apply nth_error_In in E. now apply L in E.
    + intro Hs. assert (A : In (i, s) (layout mols 0)) by (apply L; split; [lia|exact Hs]). apply In_nth_error in A. destruct A as [k E].
      exists k. apply get_site; [apply layout_nodup|exact E].
Qed.
(** An index carries the multiplicity of its site on its molecule, and the number of its molecule *)
Theorem C38_counts : forall mols ind k i s, make_mapper mols = Some ind -> mget Nat.eqb k (to_CompSite ind) = Some (i, s) ->
  nth_error (counts ind) k = Some (occurrences s (nth i mols [])) /\ nth_error (comp_index ind) k = Some i /\ (0 < occurrences s (nth i mols []))%nat.
Proof.
  intros mols ind k i s H E. rewrite make_mapper_ok in H. destruct (Nat.leb _ _); [|discriminate]. injection H as <-.
  apply get_comp in E. cbn. rewrite !nth_error_map, E. repeat split. apply nth_error_In in E. apply layout_in in E. rewrite Nat.sub_0_r in E.
  apply count_occ_In. tauto.
Qed.
(** The totals for each molecule; the multiplicities of its sites add up to its number of sites *)
Fixpoint sum_where (i : nat) (comp cnt : list nat) : nat :=
  match comp, cnt with c :: comp', n :: cnt' => ((if Nat.eqb c i then n else 0) + sum_where i comp' cnt')%nat | _, _ => 0%nat end.
Lemma sum_where_app : forall i a b c d, length a = length b -> sum_where i (a ++ c) (b ++ d) = (sum_where i a b + sum_where i c d)%nat.
Proof. induction a as [|x a IH]; intros b c d H; destruct b; cbn in *; try discriminate; [reflexivity|]. rewrite IH by lia. lia. Qed.
Lemma sum_where_layout : forall (all : list (list string)) mols i0 i, (forall j s, (j < length mols)%nat -> occ all ((i0 + j)%nat, s) = occurrences s (nth j mols [])) ->
  sum_where i (map fst (layout mols i0)) (map (occ all) (layout mols i0)) = if (Nat.leb i0 i && Nat.ltb i (i0 + length mols))%bool then length (nth (i - i0) mols []) else 0%nat.
Proof.
  intros all. induction mols as [|m l IH]; intros i0 i H.
  - cbn [layout map sum_where length]. rewrite Nat.add_0_r. destruct (Nat.leb_spec i0 i), (Nat.ltb_spec i i0); cbn [andb]; try reflexivity; lia.
  - cbn [layout]. rewrite !map_app, sum_where_app by now rewrite !map_length. rewrite IH.
    + rewrite !map_map. cbn [fst]. assert (Z : forall s, In s (set_of m) -> occ all (i0, s) = occurrences s m) by (intros; specialize (H 0%nat s ltac:(cbn; lia)); rewrite Nat.add_0_r in H; exact H).
      assert (P : sum_where i (map (fun _ : string => i0) (set_of m)) (map (fun s => occ all (i0, s)) (set_of m)) = if Nat.eqb i0 i then length m else 0%nat).
      { rewrite (map_ext_in (fun s => occ all (i0, s)) (fun s => occurrences s m)) by (intros; now apply Z). destruct (Nat.eqb i0 i) eqn:E.
        - rewrite <- (occ_sum m (set_of m) (set_of_nodup m)) at 1 by (intros; now apply set_of_in). generalize (set_of m). intro q. induction q as [|b q IHq]; [reflexivity|]. cbn [map sum_where fold_right]. now rewrite E, IHq.
        - generalize (set_of m). intro q. induction q as [|b q IHq]; [reflexivity|]. cbn [map sum_where]. now rewrite E, IHq. }
      rewrite P. cbn [length]. destruct (Nat.eqb_spec i0 i) as [->|N].
      * rewrite Nat.sub_diag. destruct (Nat.leb_spec i i); [|lia]. destruct (Nat.ltb_spec i (i + S (length l))); [|lia]. cbn [andb nth].
        destruct (Nat.leb_spec (S i) i); [lia|]. cbn. lia.
      * cbn [Nat.add]. destruct (Nat.leb_spec i0 i) as [L|L].
        -- replace (i - i0)%nat with (S (i - S i0)) by lia. cbn [nth]. destruct (Nat.leb_spec (S i0) i); [|lia].
           replace (S (i0 + length l)) with (i0 + S (length l))%nat by lia. reflexivity.
        -- destruct (Nat.leb_spec (S i0) i); [lia|reflexivity].
    + intros j s Hj. specialize (H (S j) s ltac:(cbn; lia)). replace (S i0 + j)%nat with (i0 + S j)%nat by lia. exact H.
Qed.
Theorem C38_totals : forall mols ind i, make_mapper mols = Some ind -> (i < length mols)%nat ->
  nth_error (N_sites ind) i = Some (length (nth i mols [])) /\
  nth_error (N_unique_sites ind) i = Some (distinct (nth i mols [])) /\
  sum_where i (comp_index ind) (counts ind) = length (nth i mols []).
Proof.
  intros mols ind i H Hi. rewrite make_mapper_ok in H. destruct (Nat.leb _ _); [|discriminate]. injection H as <-. cbn [N_sites N_unique_sites comp_index counts mapper_of].
  rewrite !nth_error_map, (nth_error_nth' mols [] Hi). repeat split. rewrite (sum_where_layout mols mols 0 i) by (intros; reflexivity).
  rewrite Nat.sub_0_r. destruct (Nat.leb_spec 0 i); [|lia]. destruct (Nat.ltb_spec i (0 + length mols)); [reflexivity|lia].
Qed.
(** The second numbering: the c-th site of molecule i, in ascending order of the names *)
Theorem C38_enumeration : forall mols ind i c, make_mapper mols = Some ind ->
  ((exists k, mget cc_eqb (i, c) (CompCIndex_to_siteid ind) = Some k) <-> (c < distinct (nth i mols []))%nat) /\
  (forall k, mget cc_eqb (i, c) (CompCIndex_to_siteid ind) = Some k -> exists s, mget Nat.eqb k (to_CompSite ind) = Some (i, s) /\
     forall c' k' s', (c' < c)%nat -> mget cc_eqb (i, c') (CompCIndex_to_siteid ind) = Some k' -> mget Nat.eqb k' (to_CompSite ind) = Some (i, s') -> String.compare s' s = Lt).
Proof.
  intros mols ind i c H. rewrite make_mapper_ok in H. destruct (Nat.leb _ _); [|discriminate]. injection H as <-.
  assert (G : forall c k, mget cc_eqb (i, c) (CompCIndex_to_siteid (mapper_of (occ mols) (layout mols 0) (cc_layout mols 0) (map (@length string) mols) (map distinct mols))) = Some k <-> nth_error (cc_layout mols 0) k = Some (i, c)).
  { intros. apply get_cc; [apply cc_layout_nodup|now rewrite cc_layout_length, layout_length]. }
  split; [split|].
  - intros [k E]. apply G in E. apply cc_at in E. rewrite Nat.sub_0_r in E. tauto.
  - intro L. destruct (cc_find mols 0 i c) as [k E]; [lia|now rewrite Nat.sub_0_r|]. exists k. now apply G.
  - intros k E. apply G, cc_at in E. rewrite Nat.sub_0_r in E. destruct E as (E & _ & Lc). exists (nth c (set_of (nth i mols [])) EmptyString). split; [now apply get_comp|].
    intros c' k' s' L E1 E2. apply G, cc_at in E1. rewrite Nat.sub_0_r in E1. destruct E1 as (E1 & _ & _). apply get_comp in E2. rewrite E1 in E2. injection E2 as <-.
    rewrite <- set_of_length in Lc. revert L Lc. generalize (set_of_sorted (nth i mols [])). generalize (set_of (nth i mols [])). clear. intros l S. revert c c'.
    induction S as [|a l S IH F]; intros c c' L Lc; [cbn in Lc; lia|]. destruct c as [|c]; [lia|]. cbn [nth]. destruct c' as [|c'].
    + rewrite Forall_forall in F. apply F, nth_In. cbn in Lc. lia.
    + apply IH; [lia|]. cbn in Lc. lia.
Qed.
(** More than 1000 distinct sites overrun the arrays *)
Theorem C38_limit_refuted : forall mols, make_mapper mols = None <-> (1000 < total_distinct mols)%nat.
Proof. intro mols. rewrite make_mapper_ok. destruct (Nat.leb_spec (total_distinct mols) 1000); split; intro; try discriminate; try lia; reflexivity. Qed.
(** The counting matrix: row I, column J is the multiplicity of site J if the two sites may bond,
    and zero otherwise *)
Theorem C38_matrix : forall d mols o a k l i s j t, make_association d mols o = ok a ->
  mget Nat.eqb k (to_CompSite (as_mapper a)) = Some (i, s) -> mget Nat.eqb l (to_CompSite (as_mapper a)) = Some (j, t) ->
  let self_allowed := op_mask o = [] \/ i <> j \/ nth i (op_mask o) false = true in
  let partner := op_partners o = [] \/ exists ps, lookup s (op_partners o) = Some ps /\ In t ps in
  (self_allowed /\ partner -> nth l (nth k (as_D a) []) 0%nat = occurrences t (nth j mols [])) /\
  (~ (self_allowed /\ partner) -> nth l (nth k (as_D a) []) 0%nat = 0%nat).
Proof.
  intros d mols o a k l i s j t H Ek El sa pa. apply make_association_ok in H. destruct (D_entries _ _ _ _ H) as [_ D].
  rewrite (bt_mapper _ _ _ _ H) in Ek, El. apply get_comp in Ek, El.
  assert (Hk : (k < total_distinct mols)%nat) by (rewrite <- (layout_length mols 0); apply nth_error_Some; rewrite Ek; discriminate).
  assert (Hl : (l < total_distinct mols)%nat) by (rewrite <- (layout_length mols 0); apply nth_error_Some; rewrite El; discriminate).
  rewrite layout_nth in Ek by exact Hk. rewrite layout_nth in El by exact Hl. injection Ek as E1 E2. injection El as E3 E4.
  specialize (D k l Hk Hl). rewrite E1, E2, E3, E4 in D.
  assert (P : bonds o i s j t = true <-> sa /\ pa).
  { unfold bonds, sa, pa. rewrite andb_true_iff, !orb_true_iff, !Nat.eqb_eq, !length_zero_iff_nil, negb_true_iff, Nat.eqb_neq. unfold contains.
    split; intros [A B]; (split; [tauto|]).
    - destruct B as [B|B]; [now left|right]. destruct (lookup s (op_partners o)) as [ps|]; [|discriminate]. exists ps. split; [reflexivity|].
      apply existsb_exists in B. destruct B as (u & Hu & Eu). apply String.eqb_eq in Eu. now subst.
    - destruct B as [B|(ps & B1 & B2)]; [now left|right]. rewrite B1. apply existsb_exists. exists t. split; [exact B2|apply String.eqb_refl]. }
  split; intro A.
  - apply P in A. rewrite A in D. exact D.
  - destruct (bonds o i s j t) eqn:E; [|exact D]. exfalso. apply A, P. reflexivity.
Qed.

(** Two molecules, water-like with two "e" and two "H" sites and an alcohol with one of each *)
Definition ex_mols : list (list string) := [["H"; "e"; "H"; "e"]; ["e"; "H"]]%string.
Definition ex_opts : options := with_partners (with_radial default_options (Some KG)) [("e", ["H"]); ("H", ["e"])]%string.
Definition ex_canon : canonical := {| cd_b := [1; 2]; cd_beta := [1; 2]; cd_eps := [R_CODATA2017; 2 * R_CODATA2017]; cd_radial := KG |}.
Definition ex_ind : mapper :=
  {| to_CompSite := [(0, (0, "H")); (1, (0, "e")); (2, (1, "H")); (3, (1, "e"))]%nat%string;
     to_siteid := [((0, "H"), 0); ((0, "e"), 1); ((1, "H"), 2); ((1, "e"), 3)]%nat%string;
     CompCIndex_to_siteid := [((0, 0), 0); ((0, 1), 1); ((1, 0), 2); ((1, 1), 3)]%nat;
     counts := [2; 2; 1; 1]%nat; N_sites := [4; 2]%nat; N_unique_sites := [2; 2]%nat; comp_index := [0; 0; 1; 1]%nat |}.
Definition ex_D : list (list nat) := [[0; 2; 0; 1]; [2; 0; 1; 0]; [0; 2; 0; 1]; [2; 0; 1; 0]]%nat.
Lemma ex_mapper : make_mapper ex_mols = Some ex_ind.
Proof. vm_compute. reflexivity. Qed.
Lemma ex_make_D : make_D ex_ind ex_opts = ok ex_D.
Proof. reflexivity. Qed.
Example C38_bijection_met : make_mapper ex_mols = Some ex_ind /\ total_distinct ex_mols = 4%nat /\
  mget cs_eqb (1%nat, "e"%string) (to_siteid ex_ind) = Some 3%nat.
Proof. split; [exact ex_mapper|]. split; reflexivity. Qed.
Example C38_limit_met : (1000 < total_distinct (repeat ["A"%string] 1001))%nat.
Proof. assert (G : forall n, total_distinct (repeat ["A"%string] n) = n) by (induction n; [reflexivity|]; cbn [repeat total_distinct]; rewrite IHn; reflexivity). rewrite G. lia. Qed.
Definition ex_assoc : association :=
  {| as_options := ex_opts; as_mapper := ex_ind; as_D := ex_D; as_rule := CR1; as_data := Canonical ex_canon |}.
Lemma ex_built : make_association (Canonical ex_canon) ex_mols ex_opts = ok ex_assoc.
Proof. unfold make_association. rewrite ex_mapper. cbn [fin obind ok]. rewrite ex_make_D. reflexivity. Qed.
Example C38_matrix_met : make_association (Canonical ex_canon) ex_mols ex_opts = ok ex_assoc /\
  as_D ex_assoc = [[0; 2; 0; 1]; [2; 0; 1; 0]; [0; 2; 0; 1]; [2; 0; 1; 0]]%nat.
Proof. split; [exact ex_built|reflexivity]. Qed.

(** * C37 *)
(** Densities, compositions and association strengths that are not negative *)
Definition physical (mols : list (list string)) (Delta : list (list R)) (rho : R) (x : list R) : Prop :=
  0 <= rho /\ (forall v, In v x -> 0 <= v) /\
  (forall i j, (i < total_distinct mols)%nat -> (j < total_distinct mols)%nat -> 0 <= mentry Delta i j).
Notation el X := (fun i => nth i X 0).

Lemma els : forall n (X : list R), length X = n -> (forall v, In v X -> fraction v) -> fracs n (el X).
Proof. intros n X L H i Hi. apply H, nth_In. lia. Qed.
Lemma els_inv : forall n (X : list R), length X = n -> fracs n (el X) -> forall v, In v X -> fraction v.
Proof. intros n X L H v Hv. apply (In_nth _ _ 0) in Hv. destruct Hv as (i & Hi & <-). apply H. lia. Qed.
Lemma count_pos : forall d mols o a k, built d mols o a -> (k < total_distinct mols)%nat -> 1 <= INR (nth k (counts (as_mapper a)) 0%nat).
Proof.
  intros d mols o a k B H. pose proof (counts_ok _ _ _ _ _ B H) as E. rewrite (nth_error_nth _ _ 0%nat E).
  destruct (comp_of_lt mols k H) as [_ I]. apply (count_occ_In string_dec) in I. change 1 with (INR 1). apply le_INR. exact I.
Qed.
(** The explicit branch for non-negative arguments *)
Lemma explicit_nonneg : forall kA kB X0, 0 <= kA -> 0 <= kB -> (kA = 0 -> kB = 0) -> fraction X0 ->
  exists XA XB, explicit_X kA kB X0 = Some [XA; XB] /\ fraction XA /\ fraction XB /\
    (0 < kA \/ X0 = 1 -> XA * (1 + kB * XB) = 1 /\ XB * (1 + kA * XA) = 1).
Proof.
  intros kA kB X0 HA HB H0 HX. destruct HA as [HA|HA].
  - destruct (explicit_ok kA kB X0 HA HB) as (XA & XB & E & F1 & F2 & M1 & M2). exists XA, XB. tauto.
  - subst kA. rewrite H0 by reflexivity. exists X0, 1. rewrite explicit_zero. repeat split; try apply HX; try lra. all: destruct H as [H|H]; lra.
Qed.
Theorem C37_fractions : forall bc d mols o a T rho x X0 Delta,
  make_association d mols o = ok a -> length x = length mols -> get_Delta bc a T rho x = ok Delta -> physical mols Delta rho x ->
  0 <= op_alpha o <= 1 -> length X0 = total_distinct mols -> (forall v, In v X0 -> fraction v) ->
  exists X, successive_substitution bc a T rho x X0 = ok X /\ length X = total_distinct mols /\ forall v, In v X -> fraction v.
Proof.
  intros bc d mols o a T rho x X0 Delta H Hx HD (P1 & P2 & P3) Ha HL HX. apply make_association_ok in H.
  pose proof (K_of_pos a Delta rho x (total_distinct mols) P1 P2 P3) as HK.
  destruct (call_cases bc d mols o a T rho x X0 Delta H Hx HL HD) as [[E ->]|[_ ->]].
  - destruct E as (_ & _ & E3 & _). destruct (built_n _ _ _ _ H) as (_ & _ & N3 & _). rewrite E3 in N3.
    pose proof (count_pos _ _ _ _ 0%nat H ltac:(lia)) as C0. pose proof (count_pos _ _ _ _ 1%nat H ltac:(lia)) as C1.
    pose proof N_A_pos as HN. pose proof (P3 0%nat 1%nat ltac:(lia) ltac:(lia)) as HDel.
    set (c0 := INR _) in *. set (c1 := INR (nth 1 _ _)) in *. set (D := mentry Delta 0 1) in *.
    assert (HrN : 0 <= rho * N_A) by (apply Rmult_le_pos; lra).
    destruct (explicit_nonneg (rho * N_A * c0 * D) (rho * N_A * c1 * D) (nth 0 X0 0)) as (XA & XB & E & F1 & F2 & _).
    + apply Rmult_le_pos; [apply Rmult_le_pos; [exact HrN|lra]|exact HDel].
    + apply Rmult_le_pos; [apply Rmult_le_pos; [exact HrN|lra]|exact HDel].
    + intro Z. assert (Z' : rho * N_A * D = 0) by (apply Rmult_eq_reg_r with c0; [rewrite Rmult_0_l, <- Z; ring|lra]). replace (rho * N_A * c1 * D) with (rho * N_A * D * c1) by ring. rewrite Z'. ring.
    + apply HX, nth_In. lia.
    + exists [XA; XB]. rewrite E. split; [reflexivity|]. split; [cbn; lia|]. intros v [<-|[<-|[]]]; assumption.
  - destruct (iterate_ok (total_distinct mols) (K_of a Delta rho x) HK (op_alpha o) (op_rtol o) (op_atol o) (Z.to_nat (op_max_iters o)) X0 Ha HL (els _ _ HL HX)) as (Y & m & E & LY & _ & EY & _).
    exists Y. rewrite E. split; [reflexivity|]. split; [exact LY|]. apply (els_inv _ _ LY). intros i Hi. cbv beta. rewrite EY by exact Hi.
    apply (passes_frac _ _ HK); [exact Ha|exact (els _ _ HL HX)|exact Hi].
Qed.
(** Outside the explicit branch: the result is the first iterate at which one more pass changes
    every entry by less than the tolerance, so the mass-action equations hold to the tolerance
    divided by 1 - alpha; or it is the iterate at the limit on the number of passes *)
Theorem C37_tolerance : forall bc d mols o a T rho x X0 Delta,
  make_association d mols o = ok a -> length x = length mols -> get_Delta bc a T rho x = ok Delta -> physical mols Delta rho x ->
  0 <= op_alpha o <= 1 -> length X0 = total_distinct mols -> (forall v, In v X0 -> fraction v) ->
  ~ explicit_applies a x (K_of a Delta rho x) ->
  let n := total_distinct mols in let K := K_of a Delta rho x in
  let stops m := settled n K (op_alpha o) (op_rtol o) (op_atol o) (passes n K (op_alpha o) m (el X0)) in
  exists X m, successive_substitution bc a T rho x X0 = ok X /\ length X = n /\ (m <= Z.to_nat (op_max_iters o))%nat /\
    (forall i, (i < n)%nat -> nth i X 0 = passes n K (op_alpha o) m (el X0) i) /\
    (forall k, (k < m)%nat -> ~ stops k) /\
    (m = Z.to_nat (op_max_iters o) \/
     forall i, (i < n)%nat -> (1 - op_alpha o) * Rabs (nth i X 0 - 1 / (1 + sumn n (fun j => K i j * nth j X 0)))
                             < op_rtol o * (op_alpha o * nth i X 0 + (1 - op_alpha o) * (1 / (1 + sumn n (fun j => K i j * nth j X 0)))) + op_atol o).
Proof.
  intros bc d mols o a T rho x X0 Delta H Hx HD (P1 & P2 & P3) Ha HL HX NE n K stops. apply make_association_ok in H.
  pose proof (K_of_pos a Delta rho x (total_distinct mols) P1 P2 P3) as HK.
  destruct (call_cases bc d mols o a T rho x X0 Delta H Hx HL HD) as [[E _]|[_ ->]]; [contradiction|].
  destruct (iterate_ok n K HK (op_alpha o) (op_rtol o) (op_atol o) (Z.to_nat (op_max_iters o)) X0 Ha HL (els _ _ HL HX)) as (Y & m & E & LY & Hm & EY & NS & S).
  exists Y, m. fold n K. rewrite E. repeat split; auto. destruct S as [S|S]; [now left|right]. intros i Hi.
  apply (settled_ext n K _ _ _ _ (el Y)) in S; [|intros; symmetry; now apply EY]. specialize (S i Hi). cbv zeta beta in S. unfold substituted in S.
  replace (1 - op_alpha o) with (Rabs (1 - op_alpha o)) at 1 by (apply Rabs_pos_eq; lra). rewrite <- Rabs_mult.
  rewrite <- Rabs_Ropp. match goal with |- Rabs ?u < _ => match type of S with Rabs ?w < _ => replace u with w by ring end end. exact S.
Qed.
(** The mass-action equations have exactly one solution with fractions in (0, 1] *)
Theorem C37_solution : forall n K, (forall i j, (i < n)%nat -> (j < n)%nat -> 0 <= K i j) ->
  exists X, (forall i, (i < n)%nat -> fraction (X i)) /\ mass_action n K X /\
    forall Y, (forall i, (i < n)%nat -> fraction (Y i)) -> mass_action n K Y -> forall i, (i < n)%nat -> Y i = X i.
Proof.
  intros n K HK. destruct (row_bound n K HK) as [M HM]. destruct (solution_exists n K M HK HM) as (X & F & E).
  exists X. split; [exact F|]. split; [exact E|]. intros Y FY EY i Hi. now apply (solution_unique n K M HK HM Y X).
Qed.
(** With alpha < 1 the passes converge to it, and with a positive absolute tolerance the loop stops *)
Theorem C37_convergence : forall n K alpha rtol atol X0 X, (forall i j, (i < n)%nat -> (j < n)%nat -> 0 <= K i j) -> 0 <= alpha < 1 ->
  (forall i, (i < n)%nat -> fraction (X0 i)) -> (forall i, (i < n)%nat -> fraction (X i)) -> mass_action n K X ->
  (forall eps, 0 < eps -> exists m, forall k i, (m <= k)%nat -> (i < n)%nat -> Rabs (passes n K alpha k X0 i - X i) < eps) /\
  (0 <= rtol -> 0 < atol -> exists m, forall k, (m <= k)%nat -> settled n K alpha rtol atol (passes n K alpha k X0)).
Proof.
  intros n K alpha rtol atol X0 X HK Ha F0 FX E. destruct (row_bound n K HK) as [M HM].
  assert (C := passes_converge n K M HK HM alpha X0 X Ha F0 FX E). split; [exact C|].
  intros Hr Hat. destruct (C (atol / 2)) as [m Hm]; [lra|]. exists m. intros k Hk i Hi. cbv zeta. rewrite <- passes_S.
  pose proof (Hm k i Hk Hi) as A1. pose proof (Hm (S k) i ltac:(lia) Hi) as A2.
  pose proof (passes_frac n K HK alpha (S k) X0 ltac:(lra) F0 i Hi) as [P _].
  apply Rle_lt_trans with (Rabs (passes n K alpha (S k) X0 i - X i) + Rabs (passes n K alpha k X0 i - X i)).
  - replace (passes n K alpha (S k) X0 i - passes n K alpha k X0 i) with ((passes n K alpha (S k) X0 i - X i) - (passes n K alpha k X0 i - X i)) by ring. apply Rabs_triang_neg || (unfold Rminus at 1; eapply Rle_trans; [apply Rabs_triang|rewrite Rabs_Ropp; lra]).
  - assert (0 <= rtol * passes n K alpha (S k) X0 i) by nra. lra.
Qed.
(** The explicit formula gives the solution of the same equations for a pure fluid with two kinds of
    sites that bond to each other and not to themselves *)
Theorem C37_explicit : forall bc d m o a T rho X0 Delta c0 c1,
  make_association d [m] o = ok a -> get_Delta bc a T rho [1] = ok Delta -> physical [m] Delta rho [1] ->
  op_explicit o = true -> as_D a = [[0%nat; c1]; [c0; 0%nat]] -> counts (as_mapper a) = [c0; c1] -> mentry Delta 0 1 = mentry Delta 1 0 ->
  length X0 = 2%nat -> (forall v, In v X0 -> fraction v) -> (nth 0 X0 0 = 1 \/ 0 < rho * mentry Delta 0 1) ->
  exists X, successive_substitution bc a T rho [1] X0 = ok X /\ length X = 2%nat /\ (forall v, In v X -> fraction v) /\
    mass_action 2 (K_of a Delta rho [1]) (el X).
Proof.
  intros bc d m o a T rho X0 Delta c0 c1 H HD (P1 & P2 & P3) He ED Ec Es HL HX Hs. apply make_association_ok in H.
  destruct (built_n _ _ _ _ H) as (_ & _ & N3 & _). rewrite Ec in N3. cbn [length] in N3.
  assert (Hc : forall k, (k < 2)%nat -> nth k (comp_index (as_mapper a)) 0%nat = 0%nat).
  { intros k Hk. assert (Hk' : (k < total_distinct [m])%nat) by (rewrite <- N3; exact Hk). rewrite (comp_index_ok _ _ _ _ _ H Hk').
    destruct (comp_of_lt [m] k Hk') as [L _]. cbn in L. lia. }
  assert (EK : forall i j, (i < 2)%nat -> (j < 2)%nat -> K_of a Delta rho [1] i j = rho * N_A * (mentry Delta i j * dcount (as_D a) i j)).
  { intros i j Hi Hj. unfold K_of. rewrite (Hc j Hj). cbn [nth]. ring. }
  destruct (call_cases bc d [m] o a T rho [1] X0 Delta H eq_refl ltac:(rewrite <- N3; exact HL) HD) as [[_ ->]|[N _]].
  - pose proof (count_pos _ _ _ _ 0%nat H ltac:(lia)) as C0. pose proof (count_pos _ _ _ _ 1%nat H ltac:(lia)) as C1. rewrite Ec in *. cbn [nth] in *.
    pose proof N_A_pos as HN. pose proof (P3 0%nat 1%nat ltac:(lia) ltac:(lia)) as HDel. set (D := mentry Delta 0 1) in *.
    assert (HrN : 0 <= rho * N_A) by (apply Rmult_le_pos; lra).
    destruct (explicit_nonneg (rho * N_A * INR c0 * D) (rho * N_A * INR c1 * D) (nth 0 X0 0)) as (XA & XB & E & F1 & F2 & M).
    + apply Rmult_le_pos; [apply Rmult_le_pos; [exact HrN|lra]|exact HDel].
    + apply Rmult_le_pos; [apply Rmult_le_pos; [exact HrN|lra]|exact HDel].
    + intro Z. assert (Z' : rho * N_A * D = 0) by (apply Rmult_eq_reg_r with (INR c0); [rewrite Rmult_0_l, <- Z; ring|lra]). replace (rho * N_A * INR c1 * D) with (rho * N_A * D * INR c1) by ring. rewrite Z'. ring.
    + apply HX, nth_In. lia.
    + exists [XA; XB]. rewrite E. split; [reflexivity|]. split; [reflexivity|]. split; [intros v [<-|[<-|[]]]; assumption|].
      destruct M as [M1 M2].
      { destruct Hs as [Hs|Hs]; [now right|left]. replace (rho * N_A * INR c0 * D) with (N_A * (INR c0 * (rho * D))) by ring. apply Rmult_lt_0_compat; [exact HN|apply Rmult_lt_0_compat; lra]. }
      intros i Hi. cbn [sumn nth]. rewrite !EK by (try exact Hi; lia). unfold dcount. rewrite ED.
      destruct i as [|[|i]]; [| |lia]; cbn [nth]; change (INR 0) with 0.
      * fold D. replace (0 + rho * N_A * (mentry Delta 0 0 * 0) * XA + rho * N_A * (D * INR c1) * XB) with (rho * N_A * INR c1 * D * XB) by ring. exact M1.
      * rewrite <- Es. replace (0 + rho * N_A * (D * INR c0) * XA + rho * N_A * (mentry Delta 1 1 * 0) * XB) with (rho * N_A * INR c0 * D * XA) by ring. exact M2.
  - exfalso. apply N. unfold explicit_applies. rewrite (bt_options _ _ _ _ H), Ec. repeat split; auto. intros i Hi. rewrite EK by exact Hi.
    unfold dcount. rewrite ED. destruct i as [|[|i]]; [| |lia]; cbn [nth]; change (INR 0) with 0; ring.
Qed.
(** The energy: every site of every molecule contributes once, with the fraction of its kind; it is
    never positive *)
Theorem C37_energy : forall bc d mols o a T rho x Delta,
  make_association d mols o = ok a -> length x = length mols -> get_Delta bc a T rho x = ok Delta -> physical mols Delta rho x -> 0 <= op_alpha o <= 1 ->
  exists X, successive_substitution bc a T rho x (repeat 1 (total_distinct mols)) = ok X /\
    alphar bc a T rho x = ok (sumn (length mols) (fun i => nth i x 0 * over_sites (fun s => bond_energy (siteX a X i s)) (nth i mols []))) /\
    sumn (length mols) (fun i => nth i x 0 * over_sites (fun s => bond_energy (siteX a X i s)) (nth i mols [])) <= 0.
Proof.
  intros bc d mols o a T rho x Delta H Hx HD P Ha.
  destruct (C37_fractions bc d mols o a T rho x (repeat 1 (total_distinct mols)) Delta H Hx HD P Ha) as (X & E & LX & FX).
  { apply repeat_length. } { intros v Hv. apply repeat_spec in Hv. subst. unfold fraction. lra. }
  apply make_association_ok in H. exists X. split; [exact E|]. destruct (built_n _ _ _ _ H) as (N1 & _ & _ & N4). split.
  - unfold alphar. rewrite N1, N4, Hx, Nat.eqb_refl. cbn [negb]. rewrite E. cbn [obind ok].
    apply (osumo_ok _ _ (fun i => nth i x 0 * over_sites (fun s => bond_energy (siteX a X i s)) (nth i mols []))). intros i Hi.
    rewrite (energy_ok d mols o a X i H LX FX Hi). reflexivity.
  - assert (G : forall i, (i < length mols)%nat -> nth i x 0 * over_sites (fun s => bond_energy (siteX a X i s)) (nth i mols []) <= 0).
    { intros i Hi. destruct P as (_ & P2 & _). assert (0 <= nth i x 0) by (apply P2, nth_In; lia).
      assert (S : over_sites (fun s => bond_energy (siteX a X i s)) (nth i mols []) <= 0).
      { assert (B : forall s, In s (nth i mols []) -> bond_energy (siteX a X i s) <= 0).
        { intros s Hs. unfold siteX. rewrite (bt_mapper _ _ _ _ H).
          assert (A : In (i, s) (layout mols 0)) by (apply layout_in; rewrite Nat.sub_0_r; split; [lia|exact Hs]). apply In_nth_error in A. destruct A as [k Ek].
          rewrite (proj2 (get_site (occ mols) (layout mols 0) (cc_layout mols 0) (map (@length string) mols) (map distinct mols) k (i, s) (layout_nodup mols 0)) Ek).
          apply bond_energy_le, FX, nth_In. rewrite LX, <- (layout_length mols 0). apply nth_error_Some. rewrite Ek. discriminate. }
        revert B. generalize (nth i mols []). intro l. induction l as [|s l IH]; intro B; cbn [over_sites]; [lra|].
        pose proof (B s (or_introl eq_refl)). specialize (IH (fun t Ht => B t (or_intror Ht))). lra. }
      nra. }
    revert G. generalize (length mols). intro n. induction n; intro G; cbn [sumn]; [lra|]. pose proof (G n ltac:(lia)). specialize (IHn ltac:(intros; apply G; lia)). lra.
Qed.
(** wrong sizes are rejected *)
Theorem C37_sizes : forall bc d mols o a T rho x X0, make_association d mols o = ok a ->
  (length x <> length mols -> alphar bc a T rho x = throws InvalidArgument) /\
  (length X0 <> total_distinct mols -> successive_substitution bc a T rho x X0 = throws InvalidArgument).
Proof.
  intros bc d mols o a T rho x X0 H. apply make_association_ok in H. destruct (built_n _ _ _ _ H) as (N1 & _ & _ & N4). split; intro N.
  - unfold alphar. rewrite N4. apply Nat.eqb_neq in N. now rewrite N.
  - unfold successive_substitution. rewrite N1. apply Nat.eqb_neq in N. now rewrite N.
Qed.
Print Assumptions C38_bijection.
Print Assumptions C38_counts.
Print Assumptions C38_totals.
Print Assumptions C38_enumeration.
Print Assumptions C38_limit_refuted.
Print Assumptions C38_matrix.
Print Assumptions C37_fractions.
Print Assumptions C37_tolerance.
Print Assumptions C37_solution.
Print Assumptions C37_convergence.
Print Assumptions C37_explicit.
Print Assumptions C37_energy.
Print Assumptions C37_sizes.
