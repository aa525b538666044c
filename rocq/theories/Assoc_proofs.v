(** Proofs about the site indexing of the association term. *)
From Coq Require Import Reals ZArith String List Bool Lia Sorting OrderedTypeEx.
From Verif Require Import Json_model Vec_spec Vec_proofs Cubic_model Multi_model Assoc_model Assoc_spec.
Import ListNotations.

(** * Maps *)
Section Maps.
Context {K V : Type} (eqb : K -> K -> bool) (eqb_ok : forall a b, eqb a b = true <-> a = b).
Lemma mget_none : forall (l : list (K * V)) k, mget eqb k l = None <-> ~ In k (map fst l).
Proof.
  induction l as [|[k' v] l IH]; intro k; cbn; [tauto|].
  destruct (eqb k k') eqn:E.
  - apply eqb_ok in E. subst. split; [discriminate|tauto].
  - rewrite IH. split; [|tauto]. intros H [H1|H1]; [|tauto]. subst. rewrite (proj2 (eqb_ok k k) eq_refl) in E. discriminate.
Qed.
Lemma mput_new : forall (l : list (K * V)) k v, mget eqb k l = None -> mput eqb k v l = l ++ [(k, v)].
Proof.
  induction l as [|[k' v'] l IH]; intros k v H; cbn in *; [reflexivity|].
  destruct (eqb k k'); [discriminate|]. now rewrite IH.
Qed.
Lemma mget_put : forall (l : list (K * V)) k k' v, mget eqb k (mput eqb k' v l) = if eqb k k' then Some v else mget eqb k l.
Proof.
  induction l as [|[k1 v1] l IH]; intros k k' v; cbn; [destruct (eqb k k'); reflexivity|].
  destruct (eqb k' k1) eqn:E; cbn.
  - apply eqb_ok in E. subst. destruct (eqb k k1) eqn:E2; reflexivity.
  - destruct (eqb k k1) eqn:E2; [|apply IH]. apply eqb_ok in E2. subst.
    destruct (eqb k1 k') eqn:E3; [|reflexivity]. apply eqb_ok in E3. subst. now rewrite (proj2 (eqb_ok k' k') eq_refl) in E.
Qed.
Lemma mget_combine : forall (ks : list K) (vs : list V) k v, NoDup ks ->
  (mget eqb k (combine ks vs) = Some v <-> exists i, nth_error ks i = Some k /\ nth_error vs i = Some v).
Proof.
  induction ks as [|k1 ks IH]; intros vs k v N.
  - cbn. split; [discriminate|]. intros (i & H & _). now destruct i.
  - destruct vs as [|v1 vs]; cbn.
    + split; [discriminate|]. intros (i & _ & H). now destruct i.
    + apply NoDup_cons_iff in N. destruct N as [N1 N2]. destruct (eqb k k1) eqn:E.
      * apply eqb_ok in E. subst. split.
        -- intro H. injection H as <-. exists 0%nat. now split.
        -- intros (i & H & H'). destruct i as [|i]; [exact H'|]. cbn in H. apply nth_error_In in H. contradiction.
      * rewrite (IH vs k v N2). split.
        -- intros (i & H). exists (S i). exact H.
        -- intros (i & H & H'). destruct i as [|i]; [|now exists i]. cbn in H. injection H as ->.
           now rewrite (proj2 (eqb_ok k k) eq_refl) in E.
Qed.
End Maps.
Lemma combine_app : forall {A B} (a a' : list A) (b b' : list B), length a = length b ->
  combine (a ++ a') (b ++ b') = combine a b ++ combine a' b'.
Proof. induction a as [|x a IH]; intros a' b b' H; destruct b; cbn in *; try discriminate; [reflexivity|]. rewrite IH; [reflexivity|lia]. Qed.
Lemma map_fst_combine : forall {A B} (a : list A) (b : list B), length a = length b -> map fst (combine a b) = a.
Proof. induction a as [|x a IH]; intros b H; destruct b; cbn in *; try discriminate; [reflexivity|]. rewrite IH; [reflexivity|lia]. Qed.
Lemma cs_eqb_ok : forall a b, cs_eqb a b = true <-> a = b.
Proof.
  intros [i s] [j t]. unfold cs_eqb. cbn. rewrite andb_true_iff, Nat.eqb_eq, String.eqb_eq. split; [intros []; congruence|intro H; injection H; auto].
Qed.
Lemma cc_eqb_ok : forall a b, cc_eqb a b = true <-> a = b.
Proof.
  intros [i s] [j t]. unfold cc_eqb. cbn. rewrite andb_true_iff, !Nat.eqb_eq. split; [intros []; congruence|intro H; injection H; auto].
Qed.

(** * Sets of strings *)
Definition slt (a b : string) : Prop := String.compare a b = Lt.
Lemma slt_trans : forall a b c, slt a b -> slt b c -> slt a c.
Proof. intros a b c H1 H2. apply String_as_OT.cmp_lt in H1, H2. apply String_as_OT.cmp_lt. eapply String_as_OT.lt_trans; eassumption. Qed.
Lemma slt_irrefl : forall a, ~ slt a a.
Proof. intros a H. apply String_as_OT.cmp_lt in H. apply String_as_OT.lt_not_eq in H. now apply H. Qed.
Lemma insert_in : forall l s t, In t (set_insert s l) <-> t = s \/ In t l.
Proof.
  induction l as [|a l IH]; intros s t; cbn; [intuition congruence|].
  destruct (String.compare s a) eqn:E; cbn.
  - apply String.compare_eq_iff in E. subst. intuition congruence.
  - intuition congruence.
  - rewrite IH. intuition congruence.
Qed.
Lemma insert_sorted : forall l s, StronglySorted slt l -> StronglySorted slt (set_insert s l).
Proof.
  induction l as [|a l IH]; intros s H; cbn; [repeat constructor|].
  inversion H as [|? ? H1 H2]; subst.
  destruct (String.compare s a) eqn:E.
  - exact H.
  - constructor; [exact H|]. constructor; [exact E|]. apply Forall_forall. intros x Hx. rewrite Forall_forall in H2.
    eapply slt_trans; [exact E|now apply H2].
  - constructor; [now apply IH|]. apply Forall_forall. intros x Hx. apply insert_in in Hx. destruct Hx as [->|Hx].
    + unfold slt. rewrite String.compare_antisym, E. reflexivity.
    + rewrite Forall_forall in H2. now apply H2.
Qed.
Lemma set_fold : forall m acc t, (In t (fold_left (fun acc s => set_insert s acc) m acc) <-> In t m \/ In t acc) /\
  (StronglySorted slt acc -> StronglySorted slt (fold_left (fun acc s => set_insert s acc) m acc)).
Proof.
  induction m as [|s m IH]; intros acc t; cbn; [split; [intuition|auto]|].
  split.
  - rewrite (proj1 (IH (set_insert s acc) t)), insert_in. intuition congruence.
  - intro H. apply (proj2 (IH (set_insert s acc) t)). now apply insert_sorted.
Qed.
Lemma set_of_in : forall m t, In t (set_of m) <-> In t m.
Proof. intros m t. unfold set_of. rewrite (proj1 (set_fold m [] t)). cbn. tauto. Qed.
Lemma set_of_sorted : forall m, StronglySorted slt (set_of m).
Proof. intro m. apply (proj2 (set_fold m [] EmptyString)). constructor. Qed.
Lemma sorted_nodup : forall l, StronglySorted slt l -> NoDup l.
Proof.
  induction 1 as [|a l H IH F]; constructor; [|exact IH].
  intro Hin. rewrite Forall_forall in F. exact (slt_irrefl a (F a Hin)).
Qed.
Lemma set_of_nodup : forall m, NoDup (set_of m).
Proof. intro m. apply sorted_nodup, set_of_sorted. Qed.
Lemma set_of_length : forall m, length (set_of m) = distinct m.
Proof.
  intro m. unfold distinct. apply Nat.le_antisymm; apply NoDup_incl_length.
  - apply set_of_nodup.
  - intros t H. apply nodup_In. now apply set_of_in.
  - apply NoDup_nodup.
  - intros t H. apply set_of_in. now apply nodup_In in H.
Qed.

(** * Counting *)
Lemma counts_fold : forall m acc s, mget String.eqb s (fold_left count_site m acc) =
  match occurrences s m, mget String.eqb s acc with 0%nat, r => r | S k, r => Some (S k + match r with Some c => c | None => 0 end)%nat end.
Proof.
  induction m as [|t m IH]; intros acc s; cbn; [destruct (mget String.eqb s acc); reflexivity|].
  rewrite IH. unfold count_site. rewrite (mget_put String.eqb String.eqb_eq).
  unfold occurrences. cbn. destruct (string_dec t s) as [->|N].
  - rewrite String.eqb_refl. cbn. destruct (count_occ string_dec m s) as [|k]; try reflexivity; f_equal; lia.
  - assert (E : String.eqb s t = false) by (apply String.eqb_neq; congruence). rewrite E.
    destruct (count_occ string_dec m s); reflexivity.
Qed.
Lemma site_counts_ok : forall m s, match mget String.eqb s (site_counts m) with Some c => c | None => 0%nat end = occurrences s m.
Proof. intros m s. unfold site_counts. rewrite counts_fold. cbn. destruct (occurrences s m); [reflexivity|lia]. Qed.

(** * The layout of the sites *)
Fixpoint layout (mols : list (list string)) (i : nat) : list compsite :=
  match mols with [] => [] | m :: l => map (pair i) (set_of m) ++ layout l (S i) end.
Fixpoint cc_layout (mols : list (list string)) (i : nat) : list (nat * nat) :=
  match mols with [] => [] | m :: l => map (pair i) (seq 0 (length (set_of m))) ++ cc_layout l (S i) end.
Lemma layout_length : forall mols i, length (layout mols i) = total_distinct mols.
Proof. induction mols as [|m l IH]; intro i; cbn; [reflexivity|]. now rewrite app_length, map_length, set_of_length, IH. Qed.
Lemma cc_layout_length : forall mols i, length (cc_layout mols i) = total_distinct mols.
Proof. induction mols as [|m l IH]; intro i; cbn; [reflexivity|]. now rewrite app_length, map_length, seq_length, set_of_length, IH. Qed.
Lemma layout_in : forall mols i j s, In (j, s) (layout mols i) <-> (i <= j /\ In s (nth (j - i) mols []))%nat.
Proof.
  induction mols as [|m l IH]; intros i j s.
  - cbn. destruct (j - i)%nat; cbn; tauto.
  - cbn [layout]. rewrite in_app_iff, in_map_iff, IH. split.
    + intros [(t & H & Ht)|[H1 H2]].
      * injection H as -> ->. split; [lia|]. rewrite Nat.sub_diag. now apply set_of_in.
      * split; [lia|]. replace (j - i)%nat with (S (j - S i)) by lia. exact H2.
    + intros [H1 H2]. destruct (Nat.eq_dec i j) as [->|N].
      * left. exists s. rewrite Nat.sub_diag in H2. split; [reflexivity|now apply set_of_in].
      * right. split; [lia|]. replace (j - i)%nat with (S (j - S i)) in H2 by lia. exact H2.
Qed.
Lemma cc_layout_in : forall mols i j c, In (j, c) (cc_layout mols i) <-> (i <= j /\ c < distinct (nth (j - i) mols []))%nat.
Proof.
  induction mols as [|m l IH]; intros i j c.
  - cbn. destruct (j - i)%nat; cbn; lia.
  - cbn [cc_layout]. rewrite in_app_iff, in_map_iff, IH. split.
    + intros [(t & H & Ht)|[H1 H2]].
      * injection H as -> ->. split; [lia|]. rewrite Nat.sub_diag. apply in_seq in Ht. cbn [nth]. rewrite <- set_of_length. lia.
      * split; [lia|]. replace (j - i)%nat with (S (j - S i)) by lia. exact H2.
    + intros [H1 H2]. destruct (Nat.eq_dec i j) as [->|N].
      * left. exists c. rewrite Nat.sub_diag in H2. cbn [nth] in H2. rewrite <- set_of_length in H2. split; [reflexivity|apply in_seq; lia].
      * right. split; [lia|]. replace (j - i)%nat with (S (j - S i)) in H2 by lia. exact H2.
Qed.
Lemma nodup_app : forall {A} (a b : list A), NoDup a -> NoDup b -> (forall x, In x a -> In x b -> False) -> NoDup (a ++ b).
Proof.
  induction a as [|x a IH]; intros b Ha Hb D; cbn; [exact Hb|].
  apply NoDup_cons_iff in Ha. destruct Ha as [H1 H2]. constructor.
  - rewrite in_app_iff. intros [H|H]; [contradiction|]. apply (D x); [now left|exact H].
  - apply IH; [exact H2|exact Hb|]. intros y Hy. apply D. now right.
Qed.
Lemma nodup_map_pair : forall {A} (i : nat) (l : list A), NoDup l -> NoDup (map (pair i) l).
Proof.
  induction l as [|a l IH]; intro H; cbn; [constructor|]. apply NoDup_cons_iff in H. destruct H as [H1 H2].
  constructor; [|now apply IH]. rewrite in_map_iff. intros (x & Hx & H). injection Hx as ->. contradiction.
Qed.
Lemma layout_nodup : forall mols i, NoDup (layout mols i).
Proof.
  induction mols as [|m l IH]; intro i; cbn; [constructor|].
  apply nodup_app; [apply nodup_map_pair, set_of_nodup|apply IH|].
  intros x H1 H2. apply in_map_iff in H1. destruct H1 as (t & <- & _). apply layout_in in H2. lia.
Qed.
Lemma cc_layout_nodup : forall mols i, NoDup (cc_layout mols i).
Proof.
  induction mols as [|m l IH]; intro i; cbn; [constructor|].
  apply nodup_app; [apply nodup_map_pair, seq_NoDup|apply IH|].
  intros x H1 H2. apply in_map_iff in H1. destruct H1 as (t & <- & _). apply cc_layout_in in H2. lia.
Qed.

(** * What [make_mapper] builds *)
Definition mapper_of (cnt : compsite -> nat) (L : list compsite) (C : list (nat * nat)) (N U : list nat) : mapper :=
  {| to_CompSite := combine (seq 0 (length L)) L; to_siteid := combine L (seq 0 (length L));
     CompCIndex_to_siteid := combine C (seq 0 (length L)); counts := map cnt L; N_sites := N; N_unique_sites := U; comp_index := map fst L |}.
Lemma seq_snoc : forall n, seq 0 (S n) = seq 0 n ++ [n].
Proof. intro n. rewrite <- Nat.add_1_r, seq_app. reflexivity. Qed.
Lemma add_sites_ok : forall cnt icomp sc N U sites Cindex L C,
  NoDup (L ++ map (pair icomp) sites) -> NoDup (C ++ map (pair icomp) (seq Cindex (length sites))) -> length C = length L ->
  (forall s, In s sites -> match mget String.eqb s sc with Some c => c | None => 0%nat end = cnt (icomp, s)) ->
  (length L <= 1000)%nat ->
  add_sites icomp sc sites Cindex (length L) (mapper_of cnt L C N U) =
  if Nat.leb (length L + length sites) 1000
  then Some ((length L + length sites)%nat, mapper_of cnt (L ++ map (pair icomp) sites) (C ++ map (pair icomp) (seq Cindex (length sites))) N U)
  else None.
Proof.
  intros cnt icomp sc N U sites. induction sites as [|s sites IH]; intros Cindex L C HL HC Hlen Hc HM.
  - cbn. rewrite Nat.add_0_r, !app_nil_r. destruct (Nat.leb_spec (length L) 1000); [reflexivity|lia].
  - cbn [add_sites]. destruct (Nat.leb_spec 1000 (length L)) as [H|H].
    + cbn [length]. destruct (Nat.leb_spec (length L + S (length sites)) 1000); [lia|reflexivity].
    + cbn [map length seq] in HL, HC.
      pose proof HL as HL'. replace (L ++ (icomp, s) :: map (pair icomp) sites) with ((L ++ [(icomp, s)]) ++ map (pair icomp) sites) in HL' by (rewrite <- app_assoc; reflexivity).
      pose proof HC as HC'. replace (C ++ (icomp, Cindex) :: map (pair icomp) (seq (S Cindex) (length sites))) with
        ((C ++ [(icomp, Cindex)]) ++ map (pair icomp) (seq (S Cindex) (length sites))) in HC' by (rewrite <- app_assoc; reflexivity).
      match goal with |- add_sites _ _ _ _ _ ?m = _ => assert (Em : m = mapper_of cnt (L ++ [(icomp, s)]) (C ++ [(icomp, Cindex)]) N U) end.
      { unfold mapper_of. cbn [to_CompSite to_siteid CompCIndex_to_siteid counts N_sites N_unique_sites comp_index].
        rewrite app_length. cbn [length]. rewrite Nat.add_1_r, seq_snoc.
        rewrite (mput_new Nat.eqb), (mput_new cs_eqb), (mput_new cc_eqb).
        - rewrite !combine_app; rewrite ?seq_length; try lia; try reflexivity. rewrite !map_app. cbn. rewrite Hc; [reflexivity|now left].
        - apply (mget_none cc_eqb cc_eqb_ok). rewrite map_fst_combine by (rewrite seq_length; exact Hlen).
          apply NoDup_remove in HC. rewrite in_app_iff in HC. tauto.
        - apply (mget_none cs_eqb cs_eqb_ok). rewrite map_fst_combine by (rewrite seq_length; reflexivity).
          apply NoDup_remove in HL. rewrite in_app_iff in HL. tauto.
        - apply (mget_none Nat.eqb Nat.eqb_eq). rewrite map_fst_combine by (rewrite seq_length; reflexivity). rewrite in_seq. intros [_ A]. exact (Nat.lt_irrefl _ A). }
      rewrite Em. clear Em.
      replace (S (length L)) with (length (L ++ [(icomp, s)])) by (rewrite app_length; cbn; lia).
      rewrite (IH (S Cindex) (L ++ [(icomp, s)]) (C ++ [(icomp, Cindex)])).
      * rewrite !app_length. cbn [length]. replace (length L + 1 + length sites)%nat with (length L + S (length sites))%nat by lia.
        cbn [map seq]. rewrite <- !app_assoc. reflexivity.
      * exact HL'.
      * exact HC'.
      * rewrite !app_length. cbn. lia.
      * intros t Ht. apply Hc. now right.
      * rewrite app_length. cbn. lia.
Qed.
Lemma add_molecules_ok : forall cnt rest icomp L C N U,
  NoDup (L ++ layout rest icomp) -> NoDup (C ++ cc_layout rest icomp) -> length C = length L ->
  (forall j s, (j < length rest)%nat -> cnt ((icomp + j)%nat, s) = occurrences s (nth j rest [])) ->
  (length L <= 1000)%nat ->
  add_molecules rest icomp (length L) (mapper_of cnt L C N U) =
  if Nat.leb (length L + total_distinct rest) 1000
  then Some (mapper_of cnt (L ++ layout rest icomp) (C ++ cc_layout rest icomp) (N ++ map (@length string) rest) (U ++ map distinct rest))
  else None.
Proof.
  intros cnt rest. induction rest as [|m rest IH]; intros icomp L C N U HL HC Hlen Hc HM.
  - cbn. rewrite Nat.add_0_r, !app_nil_r. destruct (Nat.leb_spec (length L) 1000); [reflexivity|lia].
  - cbn [add_molecules layout cc_layout total_distinct] in *. rewrite app_assoc in HL, HC.
    rewrite add_sites_ok.
    + rewrite set_of_length. destruct (Nat.leb_spec (length L + distinct m) 1000) as [H|H].
      * replace (length L + distinct m)%nat with (length (L ++ map (pair icomp) (set_of m))) by (rewrite app_length, map_length, set_of_length; reflexivity).
        cbv beta iota. match goal with |- add_molecules _ _ _ ?mm = _ => change mm with (mapper_of cnt (L ++ map (pair icomp) (set_of m)) (C ++ map (pair icomp) (seq 0 (distinct m))) (N ++ [length m]) (U ++ [distinct m])) end.
        rewrite IH.
        -- rewrite app_length, map_length, set_of_length, Nat.add_assoc. rewrite <- !app_assoc. reflexivity.
        -- exact HL.
        -- rewrite set_of_length in HC. exact HC.
        -- rewrite !app_length, !map_length, seq_length, set_of_length. lia.
        -- intros j s Hj. replace (S icomp + j)%nat with (icomp + S j)%nat by lia. apply (Hc (S j) s). cbn. lia.
        -- rewrite app_length, map_length, set_of_length. exact H.
      * destruct (Nat.leb_spec (length L + (distinct m + total_distinct rest)) 1000); [lia|reflexivity].
    + revert HL. clear. induction (L ++ map (pair icomp) (set_of m)) as [|x l IH]; intro H; [constructor|].
      cbn in H. apply NoDup_cons_iff in H. destruct H as [H1 H2]. constructor; [intro A; apply H1, in_or_app; now left|now apply IH].
    + revert HC. clear. induction (C ++ map (pair icomp) (seq 0 (length (set_of m)))) as [|x l IH]; intro H; [constructor|].
      cbn in H. apply NoDup_cons_iff in H. destruct H as [H1 H2]. constructor; [intro A; apply H1, in_or_app; now left|now apply IH].
    + exact Hlen.
    + intros s _. rewrite site_counts_ok. specialize (Hc 0%nat s). rewrite Nat.add_0_r in Hc. symmetry. apply Hc. cbn. lia.
    + exact HM.
Qed.
Definition occ (mols : list (list string)) (cs : compsite) : nat := occurrences (snd cs) (nth (fst cs) mols []).
Lemma make_mapper_ok : forall mols,
  make_mapper mols = if Nat.leb (total_distinct mols) 1000
                     then Some (mapper_of (occ mols) (layout mols 0) (cc_layout mols 0) (map (@length string) mols) (map distinct mols))
                     else None.
Proof.
  intro mols. unfold make_mapper. apply (add_molecules_ok (occ mols) mols 0 [] [] [] []).
  - apply layout_nodup.
  - apply cc_layout_nodup.
  - reflexivity.
  - intros j s _. reflexivity.
  - cbn. lia.
Qed.

(** Looking up in what was built *)
Lemma nth_error_seq : forall n k i, nth_error (seq 0 n) k = Some i <-> (k < n)%nat /\ i = k.
Proof.
  intros n k i. split.
  - intro H. assert (L : (k < n)%nat) by (apply nth_error_Some_lt in H || (rewrite <- (seq_length n 0); apply nth_error_Some; rewrite H; discriminate)).
    split; [exact L|]. rewrite (nth_error_nth' _ 0%nat) in H by (rewrite seq_length; exact L). rewrite seq_nth in H by exact L. injection H as <-. reflexivity.
  - intros [L ->]. rewrite (nth_error_nth' _ 0%nat) by (rewrite seq_length; exact L). now rewrite seq_nth.
Qed.
Lemma get_comp : forall cnt L C N U k cs, mget Nat.eqb k (to_CompSite (mapper_of cnt L C N U)) = Some cs <-> nth_error L k = Some cs.
Proof.
  intros. cbn. rewrite (mget_combine Nat.eqb Nat.eqb_eq) by apply seq_NoDup. split.
  - intros (i & H1 & H2). apply nth_error_seq in H1. destruct H1 as [_ ->]. exact H2.
  - intro H. exists k. split; [|exact H]. apply nth_error_seq. split; [|reflexivity]. apply nth_error_Some. now rewrite H.
Qed.
Lemma get_site : forall cnt L C N U k cs, NoDup L -> mget cs_eqb cs (to_siteid (mapper_of cnt L C N U)) = Some k <-> nth_error L k = Some cs.
Proof.
  intros cnt L C N U k cs D. cbn. rewrite (mget_combine cs_eqb cs_eqb_ok) by exact D. split.
  - intros (i & H1 & H2). apply nth_error_seq in H2. destruct H2 as [_ ->]. exact H1.
  - intro H. exists k. split; [exact H|]. apply nth_error_seq. split; [|reflexivity]. apply nth_error_Some. now rewrite H.
Qed.
Lemma get_cc : forall cnt L C N U k c, NoDup C -> length C = length L -> mget cc_eqb c (CompCIndex_to_siteid (mapper_of cnt L C N U)) = Some k <-> nth_error C k = Some c.
Proof.
  intros cnt L C N U k cs D E. cbn. rewrite (mget_combine cc_eqb cc_eqb_ok) by exact D. split.
  - intros (i & H1 & H2). apply nth_error_seq in H2. destruct H2 as [_ ->]. exact H1.
  - intro H. exists k. split; [exact H|]. apply nth_error_seq. split; [|reflexivity]. rewrite <- E. apply nth_error_Some. now rewrite H.
Qed.
(** the c-th site of molecule j *)
Lemma cc_at : forall mols i k j c, nth_error (cc_layout mols i) k = Some (j, c) ->
  nth_error (layout mols i) k = Some (j, nth c (set_of (nth (j - i) mols [])) EmptyString) /\ (i <= j)%nat /\ (c < distinct (nth (j - i) mols []))%nat.
Proof.
  induction mols as [|m l IH]; intros i k j c H; cbn [cc_layout layout] in *; [now destruct k|].
  destruct (Nat.lt_ge_cases k (length (set_of m))) as [Hk|Hk].
  - rewrite nth_error_app1 in H |- * by (rewrite map_length, ?seq_length; exact Hk).
    rewrite nth_error_map in H. rewrite (proj2 (nth_error_seq _ _ k)) in H by (split; [exact Hk|reflexivity]).
    cbn in H. injection H as <- <-. rewrite Nat.sub_diag. split; [|split; [lia|cbn [nth]; now rewrite <- set_of_length]].
    rewrite nth_error_map, (nth_error_nth' _ EmptyString Hk). reflexivity.
  - rewrite nth_error_app2 in H |- * by (rewrite map_length, ?seq_length; exact Hk). rewrite map_length in H |- *. rewrite seq_length in H.
    apply IH in H. destruct H as (H1 & H2 & H3). replace (j - i)%nat with (S (j - S i)) by lia. split; [exact H1|]. split; [lia|exact H3].
Qed.

(** sums over the sites of one component *)
Lemma occ_sum : forall m l, NoDup l -> (forall s, In s m -> In s l) -> fold_right Nat.add 0%nat (map (fun s => occurrences s m) l) = length m.
Proof.
  induction m as [|t m IH]; intros l D H.
  - cbn. induction l as [|a l IHl]; [reflexivity|]. cbn. apply IHl; [|intros ? []]. now apply NoDup_cons_iff in D.
  - assert (Ht : In t l) by (apply H; now left).
    assert (Hm : forall s, In s m -> In s l) by (intros; apply H; now right).
    specialize (IH l D Hm). cbn [length]. rewrite <- IH. clear IH H Hm.
    induction l as [|a l IHl]; [destruct Ht|].
    apply NoDup_cons_iff in D. destruct D as [Da Dl]. cbn [map fold_right].
    destruct (string_dec t a) as [->|N].
    + assert (E : map (fun s => occurrences s (a :: m)) l = map (fun s => occurrences s m) l).
      { apply map_ext_in. intros s Hs. unfold occurrences. cbn. destruct (string_dec a s) as [->|_]; [contradiction|reflexivity]. }
      assert (E1 : occurrences a (a :: m) = S (occurrences a m)) by (unfold occurrences; cbn; destruct (string_dec a a); congruence).
      rewrite E, E1. reflexivity.
    + assert (E1 : occurrences a (t :: m) = occurrences a m) by (unfold occurrences; cbn; destruct (string_dec t a); congruence).
      destruct Ht as [->|Ht]; [now destruct N|]. rewrite (IHl Dl Ht), E1. lia.
Qed.
