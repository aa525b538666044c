(** C63: reading association models. *)
From Coq Require Import Reals ZArith String List Bool Lia Lra Sorting.
From Verif Require Import Json_model Vec_spec Vec_proofs Cubic_model Terms_model Ideal_model Util_model Multi_model
  Assoc_model CPA_model Assoc_spec Assoc_proofs Assoc_proofs2 Assoc_proofs3 Assoc_proofs4 Properties_Ideal Properties_Assoc Properties_Assoc2 Properties_CPA.
Import ListNotations.
Open Scope R_scope.

Lemma at_contains : forall j k v, j_at j k = Val v -> j_contains j k = true.
Proof. intros j k v H. unfold j_contains, j_at in *. destruct j; try discriminate. destruct (lookup k l); [reflexivity|discriminate]. Qed.
(** * Interaction partners *)
(** Without a list of partners every type of site bonds to every other type and not to itself *)
Theorem C63_default_partners : forall types j s, (j_contains j "options" = false \/ exists jo, j_at j "options" = Val jo /\ j_contains jo "interaction_partners" = false) ->
  exists p, get_interaction_partners types j = Val p /\
    (In s types -> exists l, lookup s p = Some l /\ forall t, In t l <-> In t types /\ t <> s) /\
    (~ In s types -> lookup s p = None).
Proof.
  intros types j s H. exists (default_partners types). split.
  - unfold get_interaction_partners. destruct H as [ -> | (jo & E1 & E2)]; [reflexivity|]. rewrite E1, E2, andb_false_r. reflexivity.
  - unfold default_partners. set (f := fun s1 => filter (fun s2 => negb (String.eqb s1 s2)) types).
    assert (G : forall l, (In s l -> lookup s (map (fun s1 => (s1, f s1)) l) = Some (f s)) /\ (~ In s l -> lookup s (map (fun s1 => (s1, f s1)) l) = None)).
    { induction l as [|a l [I1 I2]]; split; [intros []|reflexivity| |]; cbn [map lookup].
      - intros [->|Hs]; [now rewrite String.eqb_refl|]. destruct (String.eqb_spec s a) as [->|N]; [reflexivity|now apply I1].
      - intro N. destruct (String.eqb_spec s a) as [->|N']; [exfalso; apply N; now left|]. apply I2. intro; apply N; now right. }
    destruct (G types) as [G1 G2]. split; [|exact G2]. intro Hs. exists (f s). split; [now apply G1|]. intro t. unfold f. rewrite filter_In, negb_true_iff, String.eqb_neq. split; intros [A B]; split; auto.
Qed.
Example C63_default_partners_met : exists p, get_interaction_partners ["H"; "e"]%string (JObj []) = Val p /\ lookup "e" p = Some ["H"%string].
Proof. eexists. split; reflexivity. Qed.
(** With a list of partners every name in it has to be a type of site of some molecule *)
Theorem C63_partner_names : forall types j jo jp p, j_at j "options" = Val jo -> j_at jo "interaction_partners" = Val jp -> j_partners jp = Val p ->
  ((forall s l t, In (s, l) p -> In s types /\ (In t l -> In t types)) -> get_interaction_partners types j = Val p) /\
  ((exists s l, In (s, l) p /\ (~ In s types \/ exists t, In t l /\ ~ In t types)) -> get_interaction_partners types j = Err InvalidArgument).
Proof.
  intros types j jo jp p E1 E2 E3. unfold get_interaction_partners.
  assert (C1 : j_contains j "options" = true) by (eapply at_contains; eassumption).
  assert (C2 : j_contains jo "interaction_partners" = true) by (eapply at_contains; eassumption).
  rewrite C1, E1, C2. cbn [andb bind]. rewrite E2. cbn [bind]. rewrite E3. cbn [bind].
  assert (Cn : forall s, contains types s = true <-> In s types).
  { intro s. unfold contains. rewrite existsb_exists. split; [intros (u & A & B); apply String.eqb_eq in B; now subst|intro A; exists s; split; [exact A|apply String.eqb_refl]]. }
  split; intro H.
  - assert (F : forallb (fun kv : string * list string => contains types (fst kv) && forallb (contains types) (snd kv)) p = true).
    { apply forallb_forall. intros [s l] I. apply andb_true_iff. cbn [fst snd]. split; [apply Cn; now destruct (H s l s I)|]. apply forallb_forall. intros t Ht. apply Cn. destruct (H s l t I) as [_ Q]. now apply Q. }
    now rewrite F.
  - assert (F : forallb (fun kv : string * list string => contains types (fst kv) && forallb (contains types) (snd kv)) p = false).
    { apply not_true_is_false. intro F. rewrite forallb_forall in F. destruct H as (s & l & I & H). specialize (F _ I). apply andb_true_iff in F. cbn [fst snd] in F. destruct F as [F1 F2].
      destruct H as [N|(t & It & N)]; [apply N; now apply Cn|]. rewrite forallb_forall in F2. apply N, Cn, F2, It. }
    now rewrite F.
Qed.
Example C63_partner_names_met : get_interaction_partners ["H"]%string (JObj [("options", JObj [("interaction_partners", JObj [("H", JArr [JStr "x"])])])])%string = Err InvalidArgument.
Proof. reflexivity. Qed.

(** * The factory *)
Definition jnums (l : list R) : json := JArr (map JNum l).
Definition jsites (mols : list (list string)) : json := JArr (map (fun m => JArr (map JStr m)) mols).
Lemma strings : forall l, map_res j_string (map JStr l) = Val l.
Proof. induction l as [|a l IH]; [reflexivity|]. cbn. now rewrite IH. Qed.
Lemma sites_ok : forall mols, map_res (j_valarray j_string) (map (fun m => JArr (map JStr m)) mols) = Val mols.
Proof. induction mols as [|a l IH]; [reflexivity|]. cbn [map map_res j_valarray]. rewrite strings. cbn [bind]. now rewrite IH. Qed.
Lemma types_ok : forall mols, unique_site_types (jsites mols) = Val (set_of (concat mols)).
Proof.
  intro mols. unfold unique_site_types, jsites. cbn [j_values].
  assert (E : map_res (fun m => map_res j_string (j_values m)) (map (fun m => JArr (map JStr m)) mols) = Val mols).
  { induction mols as [|a l IH]; [reflexivity|]. cbn [map map_res j_values]. rewrite strings. cbn [bind]. now rewrite IH. }
  rewrite E. reflexivity.
Qed.
(** A CR1 model with explicit numerical options *)
Definition jopts (alpha rtol atol mi : R) : json := JObj [("alpha", JNum alpha); ("rtol", JNum rtol); ("atol", JNum atol); ("max_iters", JNum mi)]%string.
Definition CR1_json (b beta eps : list R) (mols : list (list string)) (opts : list (string * json)) : json :=
  JObj ([("Delta_rule", JStr "CR1"); ("molecule_sites", jsites mols); ("b / m^3/mol", jnums b); ("beta", jnums beta); ("epsilon / J/mol", jnums eps)]%string ++ opts).
Lemma toEig_ok : forall j k l, j_at j k = Val (jnums l) -> l <> [] -> toEig j k = ok l.
Proof. intros j k l H N. unfold toEig. rewrite H. unfold jnums. cbn [bind j_valarray]. rewrite doubles. cbn. destruct l; [congruence|reflexivity]. Qed.
Theorem C63_factory : forall b beta eps mols alpha rtol atol (mi : Z), b <> [] -> beta <> [] -> eps <> [] -> (0 <= mi)%Z ->
  factory (CR1_json b beta eps mols [("options", jopts alpha rtol atol (IZR mi))]%string) =
    make_association (Canonical {| cd_b := b; cd_beta := beta; cd_eps := eps; cd_radial := CS |}) mols
      {| op_partners := default_partners (set_of (concat mols)); op_radial := Some CS; op_rule := CR1; op_mask := []; op_explicit := true;
         op_alpha := alpha; op_rtol := rtol; op_atol := atol; op_max_iters := mi |}.
Proof.
  intros b beta eps mols alpha rtol atol mi Hb Ht He Hm. set (j := CR1_json _ _ _ _ _). unfold factory.
  change (j_at j "molecule_sites") with (Val (jsites mols)). cbn [bind]. rewrite types_ok. cbn [obind].
  change (j_contains j "Delta_rule") with true. cbn iota. change (j_at j "Delta_rule") with (Val (JStr "CR1")). cbn [bind j_string obind].
  change (String.eqb "CR1" "CR1") with true. cbn iota.
  rewrite (toEig_ok j _ b), (toEig_ok j _ beta), (toEig_ok j _ eps) by (assumption || reflexivity). cbn [obind ok].
  change (get_association_options j) with (options_from_json (jopts alpha rtol atol (IZR mi))).
  unfold options_from_json, opt_or, jopts. cbn [j_contains lookup String.eqb Ascii.eqb Bool.eqb j_at bind j_double j_int].
  assert (M : (if Rle_dec 0 (IZR mi) then Int_part (IZR mi) else (- Int_part (- IZR mi))%Z) = mi).
  { destruct (Rle_dec 0 (IZR mi)) as [_|N]; [|exfalso; apply N; apply IZR_le; exact Hm]. unfold Int_part. rewrite <- (tech_up (IZR mi) (mi + 1)%Z); [lia| |]; rewrite plus_IZR; lra. }
  rewrite M. cbn [obind with_rule op_radial fin ok].
  change (get_interaction_partners (set_of (concat mols)) j) with (@Val (list (string * list string)) (default_partners (set_of (concat mols)))). cbn [obind].
  unfold jsites. cbn [j_valarray]. rewrite sites_ok. cbn [obind]. reflexivity.
Qed.
(** Without "options" the radial distribution is read although it was never set *)
Theorem C63_no_options_refuted : forall b beta eps mols, b <> [] -> beta <> [] -> eps <> [] ->
  factory (CR1_json b beta eps mols []) = None.
Proof.
  intros b beta eps mols Hb Ht He. set (j := CR1_json _ _ _ _ _). unfold factory.
  change (j_at j "molecule_sites") with (Val (jsites mols)). cbn [bind]. rewrite types_ok. cbn [obind].
  change (j_contains j "Delta_rule") with true. cbn iota. change (j_at j "Delta_rule") with (Val (JStr "CR1")). cbn [bind j_string obind].
  change (String.eqb "CR1" "CR1") with true. cbn iota.
  rewrite (toEig_ok j _ b), (toEig_ok j _ beta), (toEig_ok j _ eps) by (assumption || reflexivity). cbn [obind ok].
  reflexivity.
Qed.
(** The rule has to be given, and has to be one of the two known names *)
Theorem C63_rule : forall j mols r, j_at j "molecule_sites" = Val (jsites mols) ->
  (j_contains j "Delta_rule" = false -> factory j = throws StdInvalidArgument) /\
  (j_at j "Delta_rule" = Val (JStr r) -> r <> "CR1"%string -> r <> "Dufal"%string -> factory j = throws StdInvalidArgument).
Proof.
  intros j mols r H. unfold factory. rewrite H. cbn [bind]. rewrite types_ok. cbn [obind]. split.
  - intros ->. reflexivity.
  - intros E N1 N2. assert (C : j_contains j "Delta_rule" = true) by (eapply at_contains; eassumption).
    rewrite C, E. cbn [bind j_string obind]. apply String.eqb_neq in N1, N2. rewrite N1, N2. reflexivity.
Qed.
(** Dufal's rule for two components: the matrices of the mixing rules have one column *)
Definition Dufal_json (sigma eps lambda : list R) (k : list (list R)) (eps_HB K_HB : list R) (mols : list (list string)) : json :=
  JObj [("Delta_rule", JStr "Dufal"); ("molecule_sites", jsites mols); ("sigma / m", jnums sigma); ("epsilon / J/mol", jnums eps); ("lambda_r", jnums lambda);
        ("kmat", JArr (map jnums k)); ("epsilon_HB / J/mol", jnums eps_HB); ("K_HB / m^3", jnums K_HB); ("options", JObj [])]%string.
Lemma kmat_ok : forall k n, k <> [] -> length k = n -> (forall row, In row k -> length row = n) -> build_square_matrix (JArr (map jnums k)) = Val k.
Proof.
  intros k n Hk L H. unfold build_square_matrix. destruct k as [|r k']; [congruence|]. cbn [map].
  assert (E : map_res (j_valarray j_double) (map jnums (r :: k')) = Val (r :: k')).
  { generalize (r :: k'). intro l. induction l as [|a l IH]; [reflexivity|]. cbn [map map_res]. unfold jnums at 1. cbn [j_valarray]. rewrite doubles. cbn [bind]. now rewrite IH. }
  change (jnums r :: map jnums k') with (map jnums (r :: k')). cbn [j_valarray]. rewrite E. rewrite L.
  revert H. generalize (r :: k'). intro l. induction l as [|a l IH]; intro H; [reflexivity|]. cbn [copy_rows]. rewrite (H a) by now left. rewrite Nat.eqb_refl, IH; [reflexivity|]. intros; apply H; now right.
Qed.
Theorem C63_Dufal_mixture_refuted : forall sigma eps lambda k eps_HB K_HB mols, (2 <= length sigma)%nat ->
  eps <> [] -> lambda <> [] -> k <> [] -> (forall row, In row k -> length row = length k) -> eps_HB <> [] -> K_HB <> [] ->
  factory (Dufal_json sigma eps lambda k eps_HB K_HB mols) = None.
Proof.
  intros sigma eps lambda k eps_HB K_HB mols Hs He Hl Hk Hk2 Hh HK. set (j := Dufal_json _ _ _ _ _ _ _). unfold factory.
  change (j_at j "molecule_sites") with (Val (jsites mols)). cbn [bind]. rewrite types_ok. cbn [obind].
  change (j_contains j "Delta_rule") with true. cbn iota. change (j_at j "Delta_rule") with (Val (JStr "Dufal")). cbn [bind j_string obind].
  change (String.eqb "Dufal" "CR1") with false. change (String.eqb "Dufal" "Dufal") with true. cbn iota.
  assert (sigma <> []) by (intros ->; cbn in Hs; lia).
  rewrite (toEig_ok j _ sigma) by (assumption || reflexivity). cbn [obind ok]. change (j_contains j "epsilon / J/mol") with true. cbn iota.
  rewrite (toEig_ok j _ eps) by (assumption || reflexivity). cbn [obind ok]. rewrite (toEig_ok j _ lambda) by (assumption || reflexivity). cbn [obind ok].
  change (j_at j "kmat") with (Val (JArr (map jnums k))). cbn [bind]. rewrite (kmat_ok k (length k) Hk eq_refl Hk2). cbn [obind].
  rewrite (toEig_ok j _ eps_HB) by (assumption || reflexivity). cbn [obind ok]. rewrite (toEig_ok j _ K_HB) by (assumption || reflexivity). cbn [obind ok].
  unfold apply_mixing_rules. destruct (Nat.eqb_spec (length sigma) 1); [lia|]. reflexivity.
Qed.
Example C63_Dufal_mixture_met : factory (Dufal_json [1; 1] [1; 1] [6; 6] [[0; 0]; [0; 0]] [1; 1] [1; 1] [["e"; "H"]; ["e"; "H"]])%string = None.
Proof. apply C63_Dufal_mixture_refuted; try discriminate; [cbn; lia|]. intros row [<-|[<-|[]]]; reflexivity. Qed.

(** * Cubic plus association *)
Record purefluid := { pf_a0 : R; pf_b : R; pf_c1 : R; pf_Tc : R; pf_eps : R; pf_beta : R; pf_sites : list string }.
Definition pure_json (p : purefluid) : json :=
  JObj [("a0i / Pa m^6/mol^2", JNum (pf_a0 p)); ("bi / m^3/mol", JNum (pf_b p)); ("c1", JNum (pf_c1 p)); ("Tc / K", JNum (pf_Tc p));
        ("epsABi / J/mol", JNum (pf_eps p)); ("betaABi", JNum (pf_beta p)); ("sites", JArr (map JStr (pf_sites p)))]%string.
Definition cpa_json (f : cubic_flag) (Rg : R) (dist : radial) (ps : list purefluid) (more : list (string * json)) : json :=
  JObj ([("cubic", JStr (match f with flag_PR => "PR" | flag_SRK => "SRK" end)); ("R_gas / J/mol/K", JNum Rg);
         ("radial_dist", JStr (match dist with CS => "CS" | KG => "KG" end)); ("pures", JArr (map pure_json ps))]%string ++ more).
Lemma pures_ok : forall {B} (g : json -> res B) (h : purefluid -> B) ps, (forall p, g (pure_json p) = Val (h p)) -> map_res g (map pure_json ps) = Val (map h ps).
Proof. intros B g h ps H. induction ps as [|p l IH]; [reflexivity|]. cbn [map map_res]. rewrite H. cbn [bind]. now rewrite IH. Qed.
Lemma build_cubic_ok : forall f Rg dist ps more, lookup "kmat" more = None ->
  build_cubic (cpa_json f Rg dist ps more) =
    ok (make_CPACubic f (map pf_a0 ps) (map pf_b ps) (map pf_c1 ps) (map pf_Tc ps) Rg (Some (repeat (repeat 0 (length ps)) (length ps)))).
Proof.
  intros f Rg dist ps more Hk. unfold build_cubic. set (j := cpa_json f Rg dist ps more).
  change (cindex j "pures") with (ok (JArr (map pure_json ps))). cbn [obind ok j_size j_values]. rewrite map_length.
  assert (K : cpa_kmat j (length ps) = Val (repeat (repeat 0 (length ps)) (length ps))).
  { unfold cpa_kmat. replace (j_contains j "kmat") with false; [reflexivity|]. unfold j, cpa_json, j_contains. cbn [app lookup String.eqb Ascii.eqb Bool.eqb]. now rewrite Hk. }
  rewrite K. cbn [obind].
  rewrite (pures_ok _ pf_a0) by reflexivity. cbn [obind]. rewrite (pures_ok _ pf_b) by reflexivity. cbn [obind]. rewrite (pures_ok _ pf_c1) by reflexivity. cbn [obind].
  rewrite (pures_ok _ pf_Tc) by reflexivity. cbn [obind]. destruct f; reflexivity.
Qed.
Lemma head_class : forall ps, j_size (JArr (map pure_json ps)) = 1%nat -> bind (first_pure (JArr (map pure_json ps))) (fun p => Val (j_contains p "class")) = Val false.
Proof. intros ps H. destruct ps as [|p [|q l]]; cbn in H; try discriminate. reflexivity. Qed.
(** Without "options": the parameters, the radial distribution and the sites that were given, the
    default options, and every type of site bonding to every other type *)
Theorem C63_cpa : forall f Rg dist ps,
  CPAfactory (cpa_json f Rg dist ps []) =
    obind (make_association (Canonical {| cd_b := map pf_b ps; cd_beta := map pf_beta ps; cd_eps := map pf_eps ps; cd_radial := dist |}) (map pf_sites ps)
             (with_partners (with_radial default_options (Some dist)) (default_partners (set_of (concat (map pf_sites ps)))))) (fun a =>
    ok {| ce_cubic := make_CPACubic f (map pf_a0 ps) (map pf_b ps) (map pf_c1 ps) (map pf_Tc ps) Rg (Some (repeat (repeat 0 (length ps)) (length ps))); ce_assoc := NewAssoc a |}).
Proof.
  intros f Rg dist ps. unfold CPAfactory. rewrite build_cubic_ok by reflexivity. cbn [obind ok]. set (j := cpa_json f Rg dist ps []).
  unfold build_assoc_pure. change (cindex j "pures") with (ok (JArr (map pure_json ps))). cbn [obind ok].
  assert (O : (if Nat.eqb (j_size (JArr (map pure_json ps))) 1 then Some (bind (first_pure (JArr (map pure_json ps))) (fun p => Val (j_contains p "class"))) else Some (Val false)) = Some (Val false)).
  { destruct (Nat.eqb_spec (j_size (JArr (map pure_json ps))) 1) as [E|E]; [rewrite head_class by exact E|]; reflexivity. }
  match goal with |- context [@obind bool ?B ?t ?F] => replace t with (@ok bool false) by (symmetry; exact O) end. cbn [obind ok]. change (j_at j "radial_dist") with (Val (JStr (match dist with CS => "CS" | KG => "KG" end)%string)). cbn [bind j_string].
  replace (get_radial_dist (match dist with CS => "CS" | KG => "KG" end)%string) with (Val dist) by (destruct dist; reflexivity). cbn [obind].
  change (j_contains j "options") with false. cbn iota. cbn [obind ok j_values].
  rewrite (pures_ok _ pf_eps) by reflexivity. cbn [obind]. rewrite (pures_ok _ pf_beta) by reflexivity. cbn [obind]. rewrite (pures_ok _ pf_b) by reflexivity. cbn [obind].
  rewrite (pures_ok _ pf_sites). 2: { intro p. cbn. now rewrite strings. } cbn [obind].
  change (get_interaction_partners (set_of (concat (map pf_sites ps))) j) with (@Val (list (string * list string)) (default_partners (set_of (concat (map pf_sites ps))))). cbn [obind].
  unfold make_association_CR1. cbn [with_partners with_radial op_radial fin obind ok op_rule default_options].
  destruct (make_association _ _ _) as [[a|e]|]; reflexivity.
Qed.
(** With "options" the radial distribution that was given is replaced by CS *)
Theorem C63_cpa_radial_refuted : forall f Rg ps m c a, CPAfactory (cpa_json f Rg KG ps [("options", JObj [])]%string) = ok m -> ce_assoc m = NewAssoc a -> as_data a = Canonical c -> cd_radial c = CS.
Proof.
  intros f Rg ps m c a H Ea Ed. unfold CPAfactory in H. rewrite build_cubic_ok in H by reflexivity. cbn [obind ok] in H. set (j := cpa_json f Rg KG ps _) in *.
  unfold build_assoc_pure in H. change (cindex j "pures") with (ok (JArr (map pure_json ps))) in H. cbn [obind ok] in H.
  assert (O : (if Nat.eqb (j_size (JArr (map pure_json ps))) 1 then Some (bind (first_pure (JArr (map pure_json ps))) (fun p => Val (j_contains p "class"))) else Some (Val false)) = Some (Val false)).
  { destruct (Nat.eqb_spec (j_size (JArr (map pure_json ps))) 1) as [E|E]; [rewrite head_class by exact E|]; reflexivity. }
  match type of H with context [@obind bool ?B ?t ?F] => replace t with (@ok bool false) in H by (symmetry; exact O) end. cbn [obind ok] in H. change (j_at j "radial_dist") with (Val (JStr "KG")) in H. cbn [bind j_string] in H.
  change (get_radial_dist "KG") with (Val KG) in H. cbn [obind] in H.
  change (j_contains j "options") with true in H. cbn iota in H. change (j_at j "options") with (Val (JObj [])) in H. cbn [bind] in H.
  change (options_from_json (JObj [])) with (Val (with_radial default_options (Some CS))) in H. cbn [obind j_contains lookup ok j_values] in H.
  rewrite (pures_ok _ pf_eps) in H by reflexivity. cbn [obind] in H. rewrite (pures_ok _ pf_beta) in H by reflexivity. cbn [obind] in H. rewrite (pures_ok _ pf_b) in H by reflexivity. cbn [obind] in H.
  rewrite (pures_ok _ pf_sites) in H. 2: { intro p. cbn. now rewrite strings. } cbn [obind] in H.
  change (get_interaction_partners (set_of (concat (map pf_sites ps))) j) with (@Val (list (string * list string)) (default_partners (set_of (concat (map pf_sites ps))))) in H. cbn [obind] in H.
  unfold make_association_CR1 in H. cbn [with_partners with_radial op_radial fin obind ok op_rule default_options] in H.
  destruct (make_association _ _ _) as [[a'|e]|] eqn:Em; try discriminate. cbn in H. injection H as <-. cbn in Ea. injection Ea as <-.
  apply make_association_ok in Em. rewrite (bt_data _ _ _ _ Em) in Ed. injection Ed as <-. reflexivity.
Qed.
Definition ex_pure : purefluid := {| pf_a0 := 1; pf_b := 1; pf_c1 := 1; pf_Tc := 1; pf_eps := 1; pf_beta := 1; pf_sites := ["e"; "H"]%string |}.
Example C63_cpa_radial_met : exists m, CPAfactory (cpa_json flag_PR 8 KG [ex_pure] [("options", JObj [])]%string) = ok m.
Proof. eexists. vm_compute. reflexivity. Qed.
Print Assumptions C63_default_partners.
Print Assumptions C63_partner_names.
Print Assumptions C63_factory.
Print Assumptions C63_no_options_refuted.
Print Assumptions C63_rule.
Print Assumptions C63_Dufal_mixture_refuted.
Print Assumptions C63_cpa.
Print Assumptions C63_cpa_radial_refuted.
