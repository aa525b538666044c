(** Proofs about the reports of the association calculations. *)
From Coq Require Import Reals ZArith String List Bool Lia Lra.
From Verif Require Import Json_model Vec_spec Vec_proofs Cubic_model Terms_model Ideal_model Util_model Multi_model
  Assoc_model Assoc_spec Assoc_proofs Assoc_proofs2 Assoc_proofs3 Assoc_proofs4 CPA_model Report_model Report_spec.
Import ListNotations.
Open Scope R_scope.

(** the component of a site, as reported *)
Definition component (r : assoc_report) (k : nat) : nat := match mget Nat.eqb k (rp_to_CompSite r) with Some cs => fst cs | None => 0%nat end.
Definition count (r : assoc_report) (k : nat) : nat := nth k (rp_counts r) 0%nat.

Fixpoint sum_list {A} (g : A -> R) (l : list A) : R := match l with [] => 0 | p :: l' => g p + sum_list g l' end.
Lemma sum_list_app : forall {A} (g : A -> R) l l', sum_list g (l ++ l') = sum_list g l + sum_list g l'.
Proof. induction l as [|p l IH]; intro l'; cbn; [lra|rewrite IH; lra]. Qed.
Lemma sum_list_pairs : forall (g : compsite -> R) i l, sum_list g (map (pair i) l) = over_sites (fun s => g (i, s)) l.
Proof. induction l as [|s l IH]; cbn; [reflexivity|rewrite IH; reflexivity]. Qed.
Lemma sumn_first : forall n f, sumn (S n) f = f 0%nat + sumn n (fun i => f (S i)).
Proof. induction n as [|n IH]; intro f; [cbn; lra|]. change (sumn (S (S n)) f) with (sumn (S n) f + f (S n)). rewrite IH. cbn [sumn]. lra. Qed.
Lemma sum_layout : forall mols g i, sum_list g (layout mols i) = sumn (length mols) (fun j => over_sites (fun s => g ((i + j)%nat, s)) (set_of (nth j mols []))).
Proof.
  induction mols as [|m l IH]; intros g i; [reflexivity|]. cbn [layout length]. rewrite sum_list_app, sum_list_pairs, IH, sumn_first. f_equal.
  - cbn [nth]. rewrite Nat.add_0_r. reflexivity.
  - apply sumn_ext. intros j _. cbn [nth]. replace (i + S j)%nat with (S i + j)%nat by lia. reflexivity.
Qed.
Lemma sum_list_nth : forall {A} (g : A -> R) d l, sum_list g l = sumn (length l) (fun k => g (nth k l d)).
Proof. induction l as [|p l IH]; [reflexivity|]. cbn [sum_list length]. rewrite sumn_first, IH. reflexivity. Qed.
Lemma over_scal : forall c f l, over_sites (fun s => c * f s) l = c * over_sites f l.
Proof. induction l as [|s l IH]; cbn; [lra|rewrite IH; lra]. Qed.
Lemma siteX_at : forall d mols o a X k, built d mols o a -> (k < total_distinct mols)%nat -> siteX a X (comp_of mols k) (site_of mols k) = nth k X 0.
Proof.
  intros d mols o a X k B Hk. unfold siteX. rewrite (bt_mapper _ _ _ _ B).
  rewrite (proj2 (get_site (occ mols) (layout mols 0) (cc_layout mols 0) (map (@length string) mols) (map distinct mols) k _ (layout_nodup mols 0)) (layout_nth mols k Hk)).
  reflexivity.
Qed.
Lemma component_at : forall d mols o a r k, built d mols o a -> rp_to_CompSite r = to_CompSite (as_mapper a) -> (k < total_distinct mols)%nat -> component r k = comp_of mols k.
Proof.
  intros d mols o a r k B E Hk. unfold component. rewrite E, (bt_mapper _ _ _ _ B).
  rewrite (proj2 (get_comp (occ mols) (layout mols 0) (cc_layout mols 0) (map (@length string) mols) (map distinct mols) k _) (layout_nth mols k Hk)). reflexivity.
Qed.
Lemma count_at : forall d mols o a r k, built d mols o a -> rp_counts r = counts (as_mapper a) -> (k < total_distinct mols)%nat ->
  count r k = occurrences (site_of mols k) (nth (comp_of mols k) mols []).
Proof. intros d mols o a r k B E Hk. unfold count. rewrite E. apply nth_error_nth. exact (counts_ok d mols o a k B Hk). Qed.
Lemma table_energy : forall d mols o a r X x, built d mols o a -> rp_to_CompSite r = to_CompSite (as_mapper a) -> rp_counts r = counts (as_mapper a) ->
  length X = total_distinct mols ->
  sumn (length mols) (fun i => nth i x 0 * over_sites (fun s => bond_energy (siteX a X i s)) (nth i mols [])) = energy_of_table (component r) (count r) X x.
Proof.
  intros d mols o a r X x B E1 E2 L. unfold energy_of_table. rewrite L.
  set (g := fun p : compsite => nth (fst p) x 0 * (INR (occurrences (snd p) (nth (fst p) mols [])) * bond_energy (siteX a X (fst p) (snd p)))).
  rewrite (sumn_ext _ (fun k => nth (component r k) x 0 * (INR (count r k) * bond_energy (nth k X 0))) (fun k => g (nth k (layout mols 0) (0%nat, EmptyString)))).
  - rewrite <- (layout_length mols 0), <- sum_list_nth, sum_layout. apply sumn_ext. intros i Hi. unfold g. cbn [fst snd Nat.add]. rewrite over_scal. f_equal.
    rewrite <- (over_distinct (fun s => bond_energy (siteX a X i s)) (nth i mols []) (set_of (nth i mols []))).
    + apply over_sites_ext. intros s _. ring.
    + apply set_of_nodup.
    + intros s Hs. apply set_of_in. exact Hs.
  - intros k Hk. rewrite (component_at d mols o a r k B E1 Hk), (count_at d mols o a r k B E2 Hk). unfold g. fold (comp_of mols k). fold (site_of mols k).
    rewrite (siteX_at d mols o a X k B Hk). reflexivity.
Qed.
Lemma table_coefficient : forall d mols o a r rho x i j, built d mols o a -> rp_to_CompSite r = to_CompSite (as_mapper a) -> rp_D r = as_D a -> (j < total_distinct mols)%nat ->
  K_of a (rp_Delta r) rho x i j = coefficient_of_table N_A (component r) (rp_D r) (rp_Delta r) rho x i j.
Proof.
  intros d mols o a r rho x i j B E1 E2 Hj. unfold K_of, coefficient_of_table, mentry, dcount. rewrite E2, (component_at d mols o a r j B E1 Hj), (comp_index_ok d mols o a j B Hj). reflexivity.
Qed.
