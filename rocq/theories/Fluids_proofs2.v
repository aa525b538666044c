(** Proofs about multifluid models whose terms may be PC-SAFT. *)
From Coq Require Import Reals ZArith String List Bool Lia Lra FunctionalExtensionality.
From Verif Require Import Json_model Vec_spec Vec_proofs Cubic_model Cubic_spec Terms_model Terms_spec Terms_proofs Multi_model Multi_spec Multi_proofs Multi_proofs2
  Properties_Terms Properties_Multi Assoc_model PCSAFT_model Fluids_model Fluids_spec Fluids_proofs.
Import ListNotations.
Local Open Scope R_scope.

Definition no_PCSAFT (l : list json) : Prop := forall el, In el l -> index el "type" <> JStr PCSAFT_type.
Lemma types_same : forall js, no_PCSAFT js -> check_full_types js = check_types js.
Proof.
  induction js as [|j js IH]; intros H; [reflexivity|]. cbn [check_full_types check_types].
  assert (I : check_full_types js = check_types js) by (apply IH; intros el He; apply H; right; exact He). rewrite I.
  destruct (j_string (index j "type")) as [ty|e] eqn:E; [|reflexivity]. cbn [bind].
  rewrite existsb_app. cbn [existsb].
  assert (N : String.eqb ty PCSAFT_type = false).
  { apply String.eqb_neq. intros ->. apply (H j); [left; reflexivity|]. destruct (index j "type"); try discriminate E. injection E as ->. reflexivity. }
  rewrite N, !orb_false_r. reflexivity.
Qed.
Lemma term_same : forall j, index j "type" <> JStr PCSAFT_type -> build_full_term j = obind (build_fluid_term j) (fun ts => ok (map Plain ts)).
Proof.
  intros j H. unfold build_full_term. destruct (bind (j_at j "type") j_string) as [ty|e] eqn:E; cbn [obind].
  2:{ unfold build_fluid_term. rewrite E. reflexivity. }
  destruct (String.eqb_spec ty PCSAFT_type) as [->|N]; [|reflexivity].
  exfalso. apply H. destruct j as [| | | | |ms]; try discriminate E. cbn [j_at] in E. cbn [index].
  destruct (lookup "type" ms) as [v|]; [|discriminate E]. cbn [bind] in E. destruct v; try discriminate E. injection E as ->. reflexivity.
Qed.
Lemma terms_same : forall js, no_PCSAFT js -> build_full_terms js = obind (build_fluid_terms js) (fun ts => ok (map Plain ts)).
Proof.
  induction js as [|j js IH]; intros H; [reflexivity|]. cbn [build_full_terms build_fluid_terms].
  rewrite term_same by (apply H; left; reflexivity). rewrite IH by (intros el He; apply H; right; exact He).
  destruct (build_fluid_term j) as [[t|]|]; try reflexivity. cbn [obind ok]. unfold ok. cbn [obind].
  destruct (build_fluid_terms js) as [[ts|]|]; try reflexivity. cbn [obind]. rewrite map_app. reflexivity.
Qed.
Lemma get_same : forall a, no_PCSAFT (j_values a) -> get_full_terms a = obind (get_EOS_terms a) (fun ts => ok (map Plain ts)).
Proof.
  intros a H. unfold get_full_terms, get_EOS_terms. destruct (j_empty a); [reflexivity|]. rewrite types_same by auto.
  destruct (check_types (j_values a)); [|reflexivity]. cbn [obind]. apply terms_same. exact H.
Qed.
Lemma sum_same : forall ts, full_sum (map Plain ts) = terms_alphar ts.
Proof.
  intros ts. apply functional_extensionality. intros tau. apply functional_extensionality. intros delta.
  induction ts as [|t ts IH]; [reflexivity|]. cbn [map full_sum terms_alphar full_alphar]. rewrite IH. reflexivity.
Qed.
Lemma index_member : forall el k v, v <> JNull -> index el k = v -> member el k v.
Proof.
  intros el k v N E. destruct el as [| | | | |ms]; cbn [index] in E; try (exfalso; apply N; congruence).
  exists ms. split; [reflexivity|]. destruct (lookup k ms) as [w|]; [congruence|exfalso; apply N; congruence].
Qed.
Lemma cindex_member : forall j k v, cindex j k = ok v <-> member j k v.
Proof.
  intros j k v. split.
  - intros E. destruct j as [| | | | |ms]; try discriminate E. exists ms. split; [reflexivity|]. cbn [cindex] in E.
    destruct (lookup k ms); [|discriminate E]. injection E as ->. reflexivity.
  - intros [ms [-> E]]. cbn [cindex]. rewrite E. reflexivity.
Qed.
Lemma first_cindex : forall j e, (exists a, cindex j "EOS" = ok a /\ cindex0 a = ok e) <-> first_EOS j e.
Proof.
  intros j e. split.
  - intros [a [E1 E2]]. apply cindex_member in E1. destruct E1 as [ms [-> E1]]. destruct a as [| | | |l|]; try discriminate E2.
    destruct l as [|e' l]; [discriminate E2|]. injection E2 as ->. exists l, ms. auto.
  - intros [l [ms [-> E]]]. exists (JArr (e :: l)). split; [cbn [cindex]; rewrite E; reflexivity|reflexivity].
Qed.
Lemma EOS1_same : forall j, ~ uses_PCSAFT j -> get_full_EOS1 j = obind (get_EOS1 j) (fun ts => ok (map Plain ts)).
Proof.
  intros j H. unfold get_full_EOS1, get_EOS1. destruct (cindex j "EOS") as [[a|]|] eqn:E1; try reflexivity. cbn [obind].
  destruct (cindex0 a) as [[e|]|] eqn:E2; try reflexivity. cbn [obind]. destruct (cindex e "alphar") as [[r|]|] eqn:E3; try reflexivity. cbn [obind].
  apply get_same. intros el He Q. apply H.
  assert (F : first_EOS j e) by (apply first_cindex; exists a; auto). apply cindex_member in E3.
  assert (M : member el "type" (JStr PCSAFT_type)) by (apply index_member; [discriminate|exact Q]).
  destruct r as [|b|r|s|l|ms]; cbn [j_values In] in He.
  - destruct He.
  - destruct He as [<-|[]]. discriminate Q.
  - destruct He as [<-|[]]. discriminate Q.
  - destruct He as [<-|[]]. discriminate Q.
  - exists l, el. split; [exists e, (JArr l); auto|auto].
  - exists (map snd ms), el. split; [exists e, (JObj ms); split; [auto|split; [auto|right; exists ms; auto]]|auto].
Qed.
Lemma omap_same : forall pures, (forall j, In j pures -> ~ uses_PCSAFT j) ->
  omap get_full_EOS1 pures = obind (omap get_EOS1 pures) (fun l => ok (map (map Plain) l)).
Proof.
  induction pures as [|j pures IH]; intros H; [reflexivity|]. cbn [omap]. rewrite EOS1_same by (apply H; left; reflexivity).
  rewrite IH by (intros k Hk; apply H; right; exact Hk).
  destruct (get_EOS1 j) as [[t|]|]; try reflexivity. cbn [obind ok]. unfold ok. cbn [obind].
  destruct (omap get_EOS1 pures) as [[ts|]|]; reflexivity.
Qed.
Lemma build_same : forall pures B D flags, (forall j, In j pures -> ~ uses_PCSAFT j) -> build_fluids pures B D flags = build_multifluid pures B D flags.
Proof.
  intros pures B D flags H. unfold build_fluids, build_multifluid. rewrite omap_same by exact H.
  destruct (omap get_Tcvc1 pures) as [[Tcvc|]|]; try reflexivity. cbn [obind].
  destruct (omap get_EOS1 pures) as [[EOSs|]|]; try reflexivity. cbn [obind ok]. unfold ok at 1. cbn [obind].
  assert (M : map full_sum (map (map Plain) EOSs) = map terms_alphar EOSs).
  { rewrite map_map. apply map_ext. intros ts. apply sum_same. }
  rewrite M. reflexivity.
Qed.
(** * The values of one fluid *)
Lemma fluids_one : forall j B D flags m, build_fluids [j] B D flags = ok m ->
  exists b Tc vc ts, get_Tcvc1 j = ok (Tc, vc) /\ get_full_EOS1 j = ok ts /\ mf_red m = GERGreducing b [Tc] [vc] /\ mf_eos m = [full_sum ts].
Proof.
  intros j B D flags m E. unfold build_fluids in E. apply obind_ok in E. destruct E as [Tcvc [E1 E]]. apply obind_ok in E. destruct E as [EOSs [E2 E]].
  apply obind_ok in E. destruct E as [Rvals [E3 E]]. apply obind_ok in E. destruct E as [set [E4 E]].
  apply obind_ok in E. destruct E as [key [E5 E]]. cbv zeta in E.
  apply obind_ok in E. destruct E as [F [E7 E]]. apply obind_ok in E. destruct E as [dep [E8 E]].
  apply obind_ok in E. destruct E as [b [E9 E]]. apply obind_ok in E. destruct E as [rm [E10 E]].
  cbn [omap] in E1, E2. destruct (get_Tcvc1 j) as [[[Tc vc]|]|]; try discriminate E1. cbn [obind ok] in E1. injection E1 as <-.
  destruct (get_full_EOS1 j) as [[ts|]|]; try discriminate E2. cbn [obind ok] in E2. injection E2 as <-.
  apply (f_equal (fun o : outcome multifluid => match o with Some (Val x) => x | _ => m end)) in E. cbv beta iota delta [ok] in E.
  exists b, Tc, vc, ts. split; [reflexivity|]. split; [reflexivity|]. rewrite <- E. split; reflexivity.
Qed.
Lemma reducing_Tcvc : forall j T0 rho0, reducing_point j T0 rho0 -> get_Tcvc1 j = ok (T0, 1 / rho0).
Proof.
  intros j T0 rho0 (e & s & r & F & S & R & T & V). apply first_cindex in F. destruct F as [a [F1 F2]].
  apply cindex_member in S, R. unfold get_Tcvc1. rewrite F1. cbn [obind]. unfold ok. cbn [obind]. rewrite F2. unfold ok. cbn [obind].
  rewrite S. unfold ok. cbn [obind]. rewrite R. unfold ok. cbn [obind]. unfold num.
  destruct T as [ms [-> T]]. destruct V as [ms' [Q V]]. injection Q as <-. cbn [j_at]. rewrite T, V. reflexivity.
Qed.
Lemma terms_of : forall j l, residual_terms j l -> (exists r, j_values r = l /\ get_full_EOS1 j = get_full_terms r /\ (j_empty r = true -> l = [])).
Proof.
  intros j l (e & a & F & A & V). apply first_cindex in F. destruct F as [x [F1 F2]]. apply cindex_member in A.
  exists a. split; [destruct V as [->|[ms [-> ->]]]; reflexivity|]. split.
  - unfold get_full_EOS1. rewrite F1. unfold ok. cbn [obind]. rewrite F2. unfold ok. cbn [obind]. rewrite A. reflexivity.
  - destruct V as [->|[ms [-> ->]]]; cbn [j_empty]; intros E; apply Nat.eqb_eq in E; destruct l || destruct ms; try discriminate E; reflexivity.
Qed.
Lemma back : forall T0 T Tred, 0 < T -> 0 < T0 -> Tred / (T0 / T) = T * (Tred / T0).
Proof. intros T0 T Tred H1 H2. field. split; lra. Qed.
Lemma back_rho : forall rho rho0 rhored, 0 < rho0 -> rho / (1 / (1 / rho0)) * rhored = rho * (rhored / rho0).
Proof. intros. field. lra. Qed.
