(** C63 and C37: the names, masks, matrices and rules that association models accept, and what
    they do with them. *)
From Coq Require Import Reals ZArith String List Bool Lia Lra Sorting.
From Verif Require Import Json_model Vec_spec Vec_proofs Cubic_model Terms_model Ideal_model Util_model Multi_model
  Assoc_model CPA_model Assoc_spec Assoc_proofs Assoc_proofs2 Assoc_proofs3 Assoc_proofs4 Properties_Ideal Properties_Assoc Properties_Assoc2 Properties_CPA Properties_CPA2.
Import ListNotations.
Open Scope R_scope.

Lemma bools : forall l, map_res j_bool (map JBool l) = Val l.
Proof. induction l as [|a l IH]; [reflexivity|]. cbn [map map_res j_bool bind]. now rewrite IH. Qed.
Lemma Int_part_IZR : forall m, (0 <= m)%Z -> (if Rle_dec 0 (IZR m) then Int_part (IZR m) else (- Int_part (- IZR m))%Z) = m.
Proof.
  intros m H. destruct (Rle_dec 0 (IZR m)) as [_|N]; [|exfalso; apply N; apply IZR_le; exact H].
  unfold Int_part. rewrite <- (tech_up (IZR m) (m + 1)%Z); [lia| |]; rewrite plus_IZR; lra.
Qed.
(** * The mask of self-association is kept *)
Definition jmask (mask : list bool) : json := JObj [("self_association_mask", JArr (map JBool mask))]%string.
Theorem C63_mask : forall b beta eps mols mask, b <> [] -> beta <> [] -> eps <> [] ->
  factory (CR1_json b beta eps mols [("options", jmask mask)]%string) =
    make_association (Canonical {| cd_b := b; cd_beta := beta; cd_eps := eps; cd_radial := CS |}) mols
      {| op_partners := default_partners (set_of (concat mols)); op_radial := Some CS; op_rule := CR1; op_mask := mask; op_explicit := true;
         op_alpha := 0.5; op_rtol := op_rtol default_options; op_atol := op_atol default_options; op_max_iters := op_max_iters default_options |}.
Proof.
  intros b beta eps mols mask Hb Ht He. set (j := CR1_json _ _ _ _ _). unfold factory.
  change (j_at j "molecule_sites") with (Val (jsites mols)). cbn [bind]. rewrite types_ok. cbn [obind].
  change (j_contains j "Delta_rule") with true. cbn iota. change (j_at j "Delta_rule") with (Val (JStr "CR1")). cbn [bind j_string obind].
  change (String.eqb "CR1" "CR1") with true. cbn iota.
  rewrite (toEig_ok j _ b), (toEig_ok j _ beta), (toEig_ok j _ eps) by (assumption || reflexivity). cbn [obind ok].
  unfold get_association_options. change (j_contains j "options") with true. cbn iota. change (j_at j "options") with (Val (jmask mask)). cbn [bind].
  change (options_from_json (jmask mask)) with (Val (with_radial default_options (Some CS))). cbn [bind].
  change (j_contains (jmask mask) "self_association_mask") with true. cbn iota. change (j_at (jmask mask) "self_association_mask") with (Val (JArr (map JBool mask))).
  cbn [bind j_valarray]. rewrite bools. cbn [bind obind with_mask with_rule with_radial op_radial fin ok].
  change (get_interaction_partners (set_of (concat mols)) j) with (@Val (list (string * list string)) (default_partners (set_of (concat mols)))). cbn [obind].
  unfold jsites. cbn [j_valarray]. rewrite sites_ok. cbn [obind]. reflexivity.
Qed.
Theorem C63_cpa_mask : forall f Rg dist ps mask,
  CPAfactory (cpa_json f Rg dist ps [("options", jmask mask)]%string) =
    obind (make_association (Canonical {| cd_b := map pf_b ps; cd_beta := map pf_beta ps; cd_eps := map pf_eps ps; cd_radial := CS |}) (map pf_sites ps)
             {| op_partners := default_partners (set_of (concat (map pf_sites ps))); op_radial := Some CS; op_rule := CR1; op_mask := mask; op_explicit := true;
                op_alpha := 0.5; op_rtol := op_rtol default_options; op_atol := op_atol default_options; op_max_iters := op_max_iters default_options |}) (fun a =>
    ok {| ce_cubic := make_CPACubic f (map pf_a0 ps) (map pf_b ps) (map pf_c1 ps) (map pf_Tc ps) Rg (Some (repeat (repeat 0 (length ps)) (length ps))); ce_assoc := NewAssoc a |}).
Proof.
  intros f Rg dist ps mask. unfold CPAfactory. rewrite build_cubic_ok by reflexivity. cbn [obind ok]. set (j := cpa_json f Rg dist ps _).
  unfold build_assoc_pure. change (cindex j "pures") with (ok (JArr (map pure_json ps))). cbn [obind ok].
  assert (O : (if Nat.eqb (j_size (JArr (map pure_json ps))) 1 then Some (bind (first_pure (JArr (map pure_json ps))) (fun p => Val (j_contains p "class"))) else Some (Val false)) = Some (Val false)).
  { destruct (Nat.eqb_spec (j_size (JArr (map pure_json ps))) 1) as [E|E]; [rewrite head_class by exact E|]; reflexivity. }
  match goal with |- context [@obind bool ?B ?t ?F] => replace t with (@ok bool false) by (symmetry; exact O) end. cbn [obind ok]. change (j_at j "radial_dist") with (Val (JStr (match dist with CS => "CS" | KG => "KG" end)%string)). cbn [bind j_string].
  replace (get_radial_dist (match dist with CS => "CS" | KG => "KG" end)%string) with (Val dist) by (destruct dist; reflexivity). cbn [obind].
  change (j_contains j "options") with true. cbn iota. change (j_at j "options") with (Val (jmask mask)). cbn [bind].
  change (options_from_json (jmask mask)) with (Val (with_radial default_options (Some CS))). cbn [obind].
  change (j_contains (jmask mask) "self_association_mask") with true. cbn iota. change (j_at (jmask mask) "self_association_mask") with (Val (JArr (map JBool mask))).
  cbn [bind j_valarray]. rewrite bools. cbn [bind obind j_values].
  rewrite (pures_ok _ pf_eps) by reflexivity. cbn [obind]. rewrite (pures_ok _ pf_beta) by reflexivity. cbn [obind]. rewrite (pures_ok _ pf_b) by reflexivity. cbn [obind].
  rewrite (pures_ok _ pf_sites). 2: { intro p. cbn. now rewrite strings. } cbn [obind].
  change (get_interaction_partners (set_of (concat (map pf_sites ps))) j) with (@Val (list (string * list string)) (default_partners (set_of (concat (map pf_sites ps))))). cbn [obind].
  unfold make_association_CR1. cbn [with_partners with_mask with_radial op_radial fin obind ok op_rule default_options].
  destruct (make_association _ _ _) as [[a|e]|]; reflexivity.
Qed.
(** * A pure fluid with an association class *)
Definition class_json (p : purefluid) (c : json) : json :=
  JObj [("a0i / Pa m^6/mol^2", JNum (pf_a0 p)); ("bi / m^3/mol", JNum (pf_b p)); ("c1", JNum (pf_c1 p)); ("Tc / K", JNum (pf_Tc p));
        ("epsABi / J/mol", JNum (pf_eps p)); ("betaABi", JNum (pf_beta p)); ("class", c)]%string.
Definition cpa_class_json (f : cubic_flag) (Rg : R) (dist : radial) (p : purefluid) (c : json) : json :=
  JObj ([("cubic", JStr (match f with flag_PR => "PR" | flag_SRK => "SRK" end)); ("R_gas / J/mol/K", JNum Rg);
         ("radial_dist", JStr (match dist with CS => "CS" | KG => "KG" end)); ("pures", JArr [class_json p c])]%string).
Definition class_of (p : purefluid) (f : cubic_flag) (Rg : R) (dist : radial) (cl : aclass) (n : nat) : cpaeos :=
  {| ce_cubic := make_CPACubic f [pf_a0 p] [pf_b p] [pf_c1 p] [pf_Tc p] Rg (Some [[0]]);
     ce_assoc := OldAssoc {| ca_classes := [cl]; ca_dist := dist; ca_eps := [pf_eps p]; ca_beta := [pf_beta p]; ca_bi := [pf_b p]; ca_N := [n]; ca_R := Rg |} |}.
Theorem C63_class : forall f Rg dist p s,
  let m := CPAfactory (cpa_class_json f Rg dist p (JStr s)) in
  (s = "1A"%string -> m = ok (class_of p f Rg dist a1A 1)) /\
  (s = "2B"%string -> m = ok (class_of p f Rg dist a2B 2)) /\
  (s = "3B"%string -> m = ok (class_of p f Rg dist a3B 3)) /\
  (s = "4C"%string -> m = ok (class_of p f Rg dist a4C 4)) /\
  (~ In s ["1A"; "2B"; "3B"; "4C"]%string -> m = throws StdInvalidArgument).
Proof.
  intros f Rg dist p s m.
  assert (E : m = obind (Some (get_association_classes s)) (fun cl => obind (Some (make_CPAAssociation [cl] dist [pf_eps p] [pf_beta p] [pf_b p] Rg)) (fun c =>
     ok {| ce_cubic := make_CPACubic f [pf_a0 p] [pf_b p] [pf_c1 p] [pf_Tc p] Rg (Some [[0]]); ce_assoc := OldAssoc c |}))).
  { unfold m, cpa_class_json, class_json. destruct f, dist; cbn; destruct (get_association_classes s) as [[]|]; reflexivity. }
  rewrite E. split; [|split; [|split; [|split]]]; try (intros ->; reflexivity).
  intro N. assert (G : get_association_classes s = Err StdInvalidArgument); [|now rewrite G].
  unfold get_association_classes. repeat match goal with |- context [String.eqb s ?k] => destruct (String.eqb_spec s k) as [->|]; [exfalso; apply N; cbn; tauto|] end. reflexivity.
Qed.
(** * The interaction matrix of the cubic part *)
Lemma cpa_rows : forall k, map_res (j_valarray j_double) (map jnums k) = Val k.
Proof. induction k as [|a l IH]; [reflexivity|]. cbn [map map_res]. unfold jnums at 1. cbn [j_valarray]. rewrite doubles. cbn [bind]. now rewrite IH. Qed.
Theorem C63_kmat : forall f Rg dist ps k,
  (length k = length ps /\ (forall row, In row k -> length row = length ps) ->
   CPAfactory (cpa_json f Rg dist ps [("kmat", JArr (map jnums k))]%string) =
     obind (CPAfactory (cpa_json f Rg dist ps [])) (fun m =>
     ok {| ce_cubic := make_CPACubic f (map pf_a0 ps) (map pf_b ps) (map pf_c1 ps) (map pf_Tc ps) Rg (Some k); ce_assoc := ce_assoc m |})) /\
  (~ (length k = length ps /\ (forall row, In row k -> length row = length ps)) ->
   CPAfactory (cpa_json f Rg dist ps [("kmat", JArr (map jnums k))]%string) = throws InvalidArgument).
Proof.
  intros f Rg dist ps k. set (j := cpa_json f Rg dist ps [("kmat", _)]%string).
  assert (K : cpa_kmat j (length ps) = if negb (Nat.eqb (length k) (length ps)) then Err InvalidArgument else if forallb (fun row => Nat.eqb (length row) (length ps)) k then Val k else Err InvalidArgument).
  { unfold cpa_kmat. change (j_contains j "kmat") with true. cbn iota. change (j_at j "kmat") with (Val (JArr (map jnums k))). cbn [bind j_valarray]. rewrite cpa_rows. reflexivity. }
  split.
  - intros [L H].
    assert (B : build_cubic j = ok (make_CPACubic f (map pf_a0 ps) (map pf_b ps) (map pf_c1 ps) (map pf_Tc ps) Rg (Some k))).
    { unfold build_cubic. change (cindex j "pures") with (ok (JArr (map pure_json ps))). cbn [obind ok j_size j_values]. rewrite map_length, K, L, Nat.eqb_refl. cbn [negb].
      replace (forallb (fun row => Nat.eqb (length row) (length ps)) k) with true by (symmetry; apply forallb_forall; intros row Hr; apply Nat.eqb_eq; now apply H). cbn [obind].
      rewrite (pures_ok _ pf_a0) by reflexivity. cbn [obind]. rewrite (pures_ok _ pf_b) by reflexivity. cbn [obind]. rewrite (pures_ok _ pf_c1) by reflexivity. cbn [obind].
      rewrite (pures_ok _ pf_Tc) by reflexivity. cbn [obind]. destruct f; reflexivity. }
    unfold CPAfactory. rewrite B, build_cubic_ok by reflexivity. cbn [obind ok].
    change (build_assoc_pure j) with (build_assoc_pure (cpa_json f Rg dist ps [])). destruct (build_assoc_pure _) as [[a|e]|]; reflexivity.
  - intro N. unfold CPAfactory, build_cubic. change (cindex j "pures") with (ok (JArr (map pure_json ps))). cbn [obind ok j_size j_values]. rewrite map_length, K.
    destruct (Nat.eqb_spec (length k) (length ps)) as [L|L]; cbn [negb]; [|reflexivity].
    destruct (forallb _ k) eqn:F; [|reflexivity]. exfalso. apply N. split; [exact L|]. rewrite forallb_forall in F. intros row Hr. apply Nat.eqb_eq. now apply F.
Qed.
(** * The rule of the constructor *)
Theorem C63_constructor_rule : forall b beta eps mols o r, op_radial o = Some r -> op_rule o <> CR1 ->
  (exists a, make_association (Canonical {| cd_b := b; cd_beta := beta; cd_eps := eps; cd_radial := r |}) mols o = ok a) ->
  make_association_CR1 b beta eps mols o = throws StdInvalidArgument.
Proof.
  intros b beta eps mols o r Hr N [a E]. unfold make_association_CR1. rewrite Hr. cbn [fin ok obind]. rewrite E. cbn [obind ok]. destruct (op_rule o); [reflexivity|congruence|reflexivity].
Qed.
(** * Dufal's rule for one component *)
Definition Dufal1_json (sigma lambda k eps_HB K_HB : R) (mols : list (list string)) (energy : list (string * json)) : json :=
  JObj ([("Delta_rule", JStr "Dufal"); ("molecule_sites", jsites mols); ("sigma / m", jnums [sigma]); ("lambda_r", jnums [lambda]);
        ("kmat", JArr [jnums [k]]); ("epsilon_HB / J/mol", jnums [eps_HB]); ("K_HB / m^3", jnums [K_HB]); ("options", JObj [])]%string ++ energy).
(** [epsilon] is the dispersion energy in J/mol *)
Definition is_Dufal (d : dufal) (sigma epsilon lambda k eps_HB K_HB : R) : Prop :=
  df_sigma d = [sigma] /\ df_eps d = [epsilon] /\ df_lambda d = [lambda] /\ df_k d 0%nat 0%nat = k /\ df_eps_HB d = [eps_HB] /\ df_K_HB d = [K_HB] /\
  df_EPS d 0%nat 0%nat = (1 - k) * sqrt (POW3 (sigma * sigma)) / POW3 ((sigma + sigma) / 2) * sqrt (epsilon * epsilon) / R_CODATA2017 /\
  df_LAMBDA d 0%nat 0%nat = 3 + sqrt ((lambda - 3) * (lambda - 3)) /\ df_EPS_HB d 0%nat 0%nat = sqrt (eps_HB * eps_HB) / R_CODATA2017 /\
  df_KHB d 0%nat 0%nat = POW3 ((cbrt K_HB + cbrt K_HB) / 2).
Theorem C63_Dufal : forall sigma lambda k eps_HB K_HB mols a energy epsilon,
  energy = [("epsilon / J/mol", jnums [epsilon])]%string \/ (exists e, energy = [("epsilon/kB / K", jnums [e])]%string /\ epsilon = e * R_CODATA2017) ->
  factory (Dufal1_json sigma lambda k eps_HB K_HB mols energy) = ok a ->
  as_rule a = Dufal /\ exists d, as_data a = DufalSide d /\ is_Dufal d sigma epsilon lambda k eps_HB K_HB.
Proof.
  intros sigma lambda k eps_HB K_HB mols a energy epsilon HE H. set (j := Dufal1_json _ _ _ _ _ _ _) in *. unfold factory in H.
  change (j_at j "molecule_sites") with (Val (jsites mols)) in H. cbn [bind] in H. rewrite types_ok in H. cbn [obind] in H.
  change (j_contains j "Delta_rule") with true in H. cbn iota in H. change (j_at j "Delta_rule") with (Val (JStr "Dufal")) in H. cbn [bind j_string obind] in H.
  change (String.eqb "Dufal" "CR1") with false in H. change (String.eqb "Dufal" "Dufal") with true in H. cbn iota in H.
  rewrite (toEig_ok j _ [sigma]) in H by (discriminate || reflexivity). cbn [obind ok] in H.
  match type of H with obind ?t _ = _ => assert (Ee : t = ok [epsilon]) end.
  { destruct HE as [ -> |(e & -> & -> )]; reflexivity. }
  rewrite Ee in H. cbn [obind ok] in H. rewrite (toEig_ok j _ [lambda]) in H by (discriminate || reflexivity). cbn [obind ok] in H.
  change (j_at j "kmat") with (Val (JArr (map jnums [[k]]))) in H. cbn [bind] in H. rewrite (kmat_ok [[k]] 1 ltac:(discriminate) eq_refl) in H. 2: { intros row [<-|[]]; reflexivity. } cbn [obind] in H.
  rewrite (toEig_ok j _ [eps_HB]), (toEig_ok j _ [K_HB]) in H by (discriminate || reflexivity). cbn [obind ok] in H.
  unfold apply_mixing_rules in H. cbn [length Nat.eqb negb Nat.leb andb obind ok] in H.
  change (get_association_options j) with (Val (with_radial default_options (Some CS))) in H. cbn [obind] in H.
  assert (P : get_interaction_partners (set_of (concat mols)) j = Val (default_partners (set_of (concat mols)))) by reflexivity.
  rewrite P in H. cbn [obind] in H. unfold jsites in H. cbn [j_valarray] in H. rewrite sites_ok in H. cbn [obind] in H.
  apply make_association_ok in H. split; [rewrite (bt_rule _ _ _ _ H); reflexivity|]. eexists. split; [rewrite (bt_data _ _ _ _ H); reflexivity|]. unfold is_Dufal. cbn. tauto.
Qed.
Theorem C63_Dufal_energy : forall sigma lambda k eps_HB K_HB mols, factory (Dufal1_json sigma lambda k eps_HB K_HB mols []) = throws InvalidArgument.
Proof.
  intros sigma lambda k eps_HB K_HB mols. set (j := Dufal1_json _ _ _ _ _ _ _). unfold factory.
  change (j_at j "molecule_sites") with (Val (jsites mols)). cbn [bind]. rewrite types_ok. reflexivity.
Qed.
(** * A rule that is not set *)
Theorem C63_unset_rule : forall bc d mols o a T rho x X0, make_association d mols o = ok a -> op_rule o = rule_not_set -> (0 < total_distinct mols)%nat -> length X0 = total_distinct mols ->
  get_Delta bc a T rho x = throws StdInvalidArgument /\ successive_substitution bc a T rho x X0 = throws StdInvalidArgument.
Proof.
  intros bc d mols o a T rho x X0 H Hr HP HX. pose proof (make_association_ok _ _ _ _ H) as B. destruct (built_n _ _ _ _ B) as (N1 & N2 & _).
  assert (G : get_Delta bc a T rho x = throws StdInvalidArgument).
  { unfold get_Delta. rewrite (bt_rule _ _ _ _ B), Hr. destruct (to_CompSite (as_mapper a)); [cbn in N2; lia|reflexivity]. }
  split; [exact G|]. unfold successive_substitution. rewrite N1, HX, Nat.eqb_refl. cbn [negb]. rewrite G. reflexivity.
Qed.
(** * The fraction of the closed form is positive whatever the sign of the association strength *)
Theorem C37_explicit_positive : forall bc d mols o a T rho x X0 Delta X, make_association d mols o = ok a -> length x = length mols -> length X0 = total_distinct mols ->
  get_Delta bc a T rho x = ok Delta -> explicit_applies a x (K_of a Delta rho x) -> 0 < nth 0 X0 0 ->
  successive_substitution bc a T rho x X0 = ok X -> length X = 2%nat /\ 0 < nth 0 X 0.
Proof.
  intros bc d mols o a T rho x X0 Delta X H Hx HX HD HE P0 HS. apply make_association_ok in H.
  destruct (call_cases bc d mols o a T rho x X0 Delta H Hx HX HD) as [[_ E]|[N _]]; [|contradiction].
  rewrite E in HS. unfold explicit_X in HS.
  cbv zeta in HS. match type of HS with context [cdiv 1 (1 + _ * ?t)] => set (XA := t) in HS end.
  destruct (cdiv 1 (1 + _ * XA)) as [XB|]; [|discriminate]. cbn in HS. injection HS as <-. split; [reflexivity|]. cbn [nth]. unfold XA.
  destruct (explicit_roots _ _) as [[X1 X2]|]; [|exact P0].
  destruct (Rlt_dec X1 0); [destruct (Rlt_dec 0 X2); assumption|]. destruct (Rlt_dec 0 X1); [destruct (Rlt_dec X2 0); assumption|exact P0].
Qed.

(** * Concrete cases *)
Definition ex_CR1 (o : options) : outcome association := make_association (Canonical {| cd_b := [1]; cd_beta := [1]; cd_eps := [1]; cd_radial := CS |}) [["e"; "H"]]%string o.
Example C63_mask_met : exists a, factory (CR1_json [1] [1] [1] [["e"; "H"]]%string [("options", jmask [true])]%string) = ok a /\ op_mask (as_options a) = [true].
Proof. rewrite C63_mask by discriminate. eexists. split; vm_compute; reflexivity. Qed.
Example C63_cpa_mask_met : exists m, CPAfactory (cpa_json flag_PR 8 CS [ex_pure; ex_pure] [("options", jmask [true; false])]%string) = ok m.
Proof. rewrite C63_cpa_mask. eexists. vm_compute. reflexivity. Qed.
Example C63_class_met : CPAfactory (cpa_class_json flag_SRK 8 KG ex_pure (JStr "4C")) = ok (class_of ex_pure flag_SRK 8 KG a4C 4).
Proof. destruct (C63_class flag_SRK 8 KG ex_pure "4C") as (_ & _ & _ & H & _). now apply H. Qed.
Example C63_kmat_met : (exists m, CPAfactory (cpa_json flag_PR 8 CS [ex_pure] [("kmat", JArr [jnums [3]])]%string) = ok m) /\
  CPAfactory (cpa_json flag_PR 8 CS [ex_pure] [("kmat", JArr [jnums [3]; jnums [3]])]%string) = throws InvalidArgument.
Proof.
  split.
  - destruct (C63_kmat flag_PR 8 CS [ex_pure] [[3]]) as [H _]. cbn [map] in H. rewrite H. { eexists. vm_compute. reflexivity. } split; [reflexivity|]. intros row [<-|[]]; reflexivity.
  - destruct (C63_kmat flag_PR 8 CS [ex_pure] [[3]; [3]]) as [_ H]. apply H. intros [L _]. discriminate.
Qed.
Definition unset_options : options := with_rule (with_radial default_options (Some CS)) rule_not_set.
Example C63_constructor_rule_met : make_association_CR1 [1] [1] [1] [["e"; "H"]]%string unset_options = throws StdInvalidArgument.
Proof. apply (C63_constructor_rule _ _ _ _ _ CS); [reflexivity|discriminate|]. eexists. vm_compute. reflexivity. Qed.
Example C63_Dufal_met : exists a, factory (Dufal1_json 1 6 0 1 1 [["e"; "H"]] [("epsilon/kB / K", jnums [2])])%string = ok a.
Proof. eexists. vm_compute. reflexivity. Qed.
Example C63_unset_rule_met : forall bc, exists a, ex_CR1 unset_options = ok a /\ get_Delta bc a 300 1 [1] = throws StdInvalidArgument.
Proof.
  intro bc. destruct (ex_CR1 unset_options) as [[a|]|] eqn:E; try (vm_compute in E; discriminate). exists a. split; [reflexivity|].
  refine (proj1 (C63_unset_rule bc _ _ _ a 300 1 [1] [1; 1] E eq_refl _ _)); vm_compute; [lia|reflexivity].
Qed.
Example C37_explicit_positive_met : forall bc, exists Delta,
  make_association (Canonical (fluid 1 1)) water ex_opts = ok (w_assoc 1 ex_opts w_D) /\ get_Delta bc (w_assoc 1 ex_opts w_D) 1 4 [1] = ok Delta /\
  explicit_applies (w_assoc 1 ex_opts w_D) [1] (K_of (w_assoc 1 ex_opts w_D) Delta 4 [1]) /\ mentry Delta 0 1 < 0.
Proof.
  intro bc. assert (B : make_association (Canonical (fluid 1 1)) water ex_opts = ok (w_assoc 1 ex_opts w_D)) by (apply w_built; reflexivity).
  pose proof N_A_pos.
  destruct (fluid_Delta bc water ex_opts (w_assoc 1 ex_opts w_D) 1 4 [1] (make_association_ok _ _ _ _ B) eq_refl) as (Delta & E & M); try lra; try reflexivity.
  { cbn. lra. }
  exists Delta. split; [exact B|]. split; [exact E|]. split.
  - unfold explicit_applies. cbn [w_assoc as_options as_mapper w_ind counts length]. repeat split.
    intros i Hi. destruct i as [|[|i]]; [| |cbn in Hi; lia]; unfold K_of, dcount; cbn; ring.
  - rewrite M by (cbn; lia). assert (0 < 1 / 0.9 / N_A) by (apply Rdiv_lt_0_compat; [lra|assumption]).
    replace (1 / (1 - 1.9 * (4 / 4)) / N_A) with (- (1 / 0.9 / N_A)); [lra|]. replace (1 - 1.9 * (4 / 4)) with (- (0.9)) by lra. field. lra.
Qed.
Print Assumptions C63_mask.
Print Assumptions C63_cpa_mask.
Print Assumptions C63_class.
Print Assumptions C63_kmat.
Print Assumptions C63_constructor_rule.
Print Assumptions C63_Dufal.
Print Assumptions C63_Dufal_energy.
Print Assumptions C63_unset_rule.
Print Assumptions C37_explicit_positive.
