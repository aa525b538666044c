(** Proofs about the derivative model (C17, C18, C26). *)
From Coq Require Import Reals ZArith String List Bool Lia Lra Ascii.
From Coquelicot Require Import Coquelicot.
From Verif Require Import Json_model Derivs_model Derivs_spec.
Import ListNotations.
Open Scope R_scope.

Lemma partialN_ext : forall orders xs f g, length orders = length xs ->
  (forall l, length l = length xs -> f l = g l) -> partialN f orders xs = partialN g orders xs.
Proof.
  induction orders as [|n ns IH]; intros [|x xs] f g Hl H; simpl in *; try discriminate.
  - apply H; reflexivity.
  - apply Derive_n_ext. intro t. apply IH; [lia|]. intros l Hl'. apply H; simpl; lia.
Qed.

Lemma definedN_ext : forall orders xs f g, length orders = length xs ->
  (forall l, length l = length xs -> f l = g l) -> definedN f orders xs -> definedN g orders xs.
Proof.
  induction orders as [|n ns IH]; intros [|x xs] f g Hl H; cbn [length definedN] in *; try discriminate; auto.
  intros [H1 H2]; split.
  - refine (ex_derive_n_ext _ _ n x _ H1). intro t. apply partialN_ext; [lia|].
    intros l Hl'. apply H; simpl; lia.
  - eapply filter_imp; [|exact H2]. intros t Ht; simpl in Ht.
    apply (IH xs (fun l => f (t :: l))); [lia| |exact Ht]. intros l Hl'; apply H; simpl; lia.
Qed.

Lemma ad_ext : forall ad, AD_exact ad -> forall orders xs f g, length orders = length xs ->
  (forall l, length l = length xs -> f l = g l) -> definedN g orders xs ->
  ad f orders xs = partialN g orders xs.
Proof.
  intros ad Had orders xs f g Hl H D.
  rewrite (Had f orders xs).
  - now apply partialN_ext.
  - apply (definedN_ext orders xs g f); auto. intros; symmetry; auto.
Qed.

Section Agen.
Variable ad : (list R -> R) -> list nat -> list R -> R.
Hypothesis Had : AD_exact ad.
Variable alphar : R -> R -> list R -> R.
Variables (T rho : R) (z : list R).
Hypothesis HT : T <> 0.

Lemma inv_inv_T : 1 / (1 / T) = T. Proof. field; auto. Qed.

Lemma ad_rho : forall n, definedN (in_Trecip_rho alphar z) [0%nat; n] [1 / T; rho] ->
  ad (fun l => match l with [r] => alphar T r z | _ => 0 end) [n] [rho] =
  partialN (in_Trecip_rho alphar z) [0%nat; n] [1 / T; rho].
Proof.
  intros n D. cbn [definedN] in D. destruct D as [_ D]. apply locally_singleton in D.
  transitivity (partialN (fun l => in_Trecip_rho alphar z (1 / T :: l)) [n] [rho]); [|reflexivity].
  apply ad_ext; auto.
  intros [|r [|]] Hl; try discriminate. simpl. now rewrite inv_inv_T.
Qed.

Lemma ad_T : forall n, definedN (in_Trecip_rho alphar z) [n; 0%nat] [1 / T; rho] ->
  ad (fun l => match l with [u] => alphar (1 / u) rho z | _ => 0 end) [n] [1 / T] =
  partialN (in_Trecip_rho alphar z) [n; 0%nat] [1 / T; rho].
Proof.
  intros n D. cbn [definedN] in D. destruct D as [D _].
  transitivity (partialN (fun l => match l with [u] => alphar (1 / u) rho z | _ => 0 end) [n] [1 / T]);
    [|reflexivity].
  apply ad_ext; auto. cbn [definedN]. split.
  - exact D.
  - exists (mkposreal 1 Rlt_0_1). intros; exact I.
Qed.

Lemma get_Agenxy_ok : forall i j, definedN (in_Trecip_rho alphar z) [i; j] [1 / T; rho] ->
  get_Agenxy ad alphar i j T rho z = Lambda alphar i j T rho z.
Proof.
  intros [|i] [|j] D; unfold get_Agenxy, Lambda.
  - simpl. rewrite inv_inv_T. ring.
  - rewrite (ad_rho (S j) D). change ((1 / T) ^ 0) with 1. rewrite Rmult_1_l. reflexivity.
  - rewrite (ad_T (S i) D). change (rho ^ 0) with 1. rewrite Rmult_1_r. reflexivity.
  - f_equal. apply ad_ext; auto.
Qed.

Lemma get_Ar_supported : forall itau idelta, (0 <= itau)%Z -> (0 <= idelta)%Z -> (itau + idelta <= 3)%Z ->
  get_Ar ad alphar itau idelta T rho z =
  Val (get_Agenxy ad alphar (Z.to_nat itau) (Z.to_nat idelta) T rho z).
Proof.
  intros i j Hi Hj Hij.
  assert (i = 0 \/ i = 1 \/ i = 2 \/ i = 3)%Z as Ci by lia.
  assert (j = 0 \/ j = 1 \/ j = 2 \/ j = 3)%Z as Cj by lia.
  destruct Ci as [->|[->|[->| ->]]]; destruct Cj as [->|[->|[->| ->]]]; try lia; reflexivity.
Qed.

Lemma get_Ar_unsupported : forall itau idelta,
  ~ ((0 <= itau) /\ (0 <= idelta) /\ (itau + idelta <= 3))%Z ->
  get_Ar ad alphar itau idelta T rho z = Err StdInvalidArgument.
Proof.
  intros i j H. unfold get_Ar.
  repeat match goal with |- context[(?a =? ?b)%Z] => destruct (Z.eqb_spec a b) end;
    try reflexivity; exfalso; apply H; lia.
Qed.

Lemma get_Agen0n_ok : forall n k, (k <= n)%nat ->
  definedN (in_Trecip_rho alphar z) [0%nat; k] [1 / T; rho] ->
  nth_error (get_Agen0n ad alphar n T rho z) k = Some (Lambda alphar 0 k T rho z).
Proof.
  intros n k Hk D. unfold get_Agen0n.
  rewrite nth_error_map.
  replace (nth_error (seq 0 (S n)) k) with (Some k).
  - cbn [option_map]. f_equal. rewrite (ad_rho k D). unfold Lambda. change ((1 / T) ^ 0) with 1. ring.
  - rewrite (nth_error_nth' (seq 0 (S n)) 0%nat) by (rewrite seq_length; lia).
    rewrite seq_nth by lia. reflexivity.
Qed.
Lemma get_Agenn0_ok : forall n k, (k <= n)%nat ->
  definedN (in_Trecip_rho alphar z) [k; 0%nat] [1 / T; rho] ->
  nth_error (get_Agenn0 ad alphar n T rho z) k = Some (Lambda alphar k 0 T rho z).
Proof.
  intros n k Hk D. unfold get_Agenn0.
  rewrite nth_error_map.
  replace (nth_error (seq 0 (S n)) k) with (Some k).
  - cbn [option_map]. f_equal. rewrite (ad_T k D). unfold Lambda. change (rho ^ 0) with 1. ring.
  - rewrite (nth_error_nth' (seq 0 (S n)) 0%nat) by (rewrite seq_length; lia).
    rewrite seq_nth by lia. reflexivity.
Qed.

Lemma deriv_mat2_ok : forall i j,
  ((i + j <= 2)%nat -> definedN (in_Trecip_rho alphar z) [i; j] [1 / T; rho] ->
     deriv_mat2 ad alphar T rho z i j = Some (Lambda alphar i j T rho z)) /\
  ((2 < i + j)%nat -> deriv_mat2 ad alphar T rho z i j = None).
Proof.
  intros i j; split; intro H.
  - intro D. destruct i as [|[|[|i]]]; destruct j as [|[|[|j]]]; try lia; unfold deriv_mat2.
    + apply get_Agenn0_ok; [lia|exact D].
    + apply get_Agen0n_ok; [lia|exact D].
    + apply get_Agen0n_ok; [lia|exact D].
    + apply get_Agenn0_ok; [lia|exact D].
    + f_equal. now apply get_Agenxy_ok.
    + apply get_Agenn0_ok; [lia|exact D].
  - destruct i as [|[|[|i]]]; destruct j as [|[|[|j]]]; try lia; reflexivity.
Qed.

End Agen.

(** ** composition derivatives *)

Lemma upd_replace : forall z i v, upd i v z = replace i v z.
Proof.
  unfold replace. induction z as [|x z IH]; intros i v; [destruct i; reflexivity|].
  cbn [length seq map]. rewrite <- seq_shift, map_map. destruct i as [|i]; cbn [upd].
  - f_equal. clear. transitivity (map (fun k => nth k z 0) (seq 0 (length z))); [|reflexivity].
    induction z as [|y z IH]; [reflexivity|]. cbn [length seq map]. rewrite <- seq_shift, map_map.
    cbn [nth]. now f_equal.
  - f_equal. rewrite IH. reflexivity.
Qed.

Lemma index_ok : forall z i, (0 <= i < Z.of_nat (length z))%Z -> index z i = Some (Z.to_nat i).
Proof.
  intros z i H. unfold index. destruct (Z.leb_spec 0 i), (Z.ltb_spec i (Z.of_nat (length z))); try lia; reflexivity.
Qed.
Lemma matches_iff : forall req e, matches req e = true <-> req = map Z.of_nat e.
Proof.
  induction req as [|r req IH]; intros [|n e]; simpl; split; intro H; try discriminate; auto.
  - apply andb_prop in H as [H1 H2]. apply Z.eqb_eq in H1. apply IH in H2. congruence.
  - injection H as -> ->. rewrite Z.eqb_refl. simpl. now apply IH.
Qed.

Lemma dispatch_hit : forall tab req call e, NoDup tab -> In e tab -> req = map Z.of_nat e ->
  dispatch tab req call = call e.
Proof.
  induction tab as [|a tab IH]; intros req call e ND Hin Hreq; [inversion Hin|]. simpl.
  destruct (matches req a) eqn:M.
  - apply matches_iff in M. rewrite Hreq in M. f_equal.
    clear -M. revert a M; induction e as [|x e IH]; intros [|y a] M; simpl in M; try discriminate; auto.
    injection M as M1 M2. f_equal; [lia|now apply IH].
  - destruct Hin as [->|Hin].
    + rewrite (proj2 (matches_iff req e) Hreq) in M. discriminate.
    + inversion ND. now apply IH.
Qed.
Lemma dispatch_miss : forall tab req call, (forall e, In e tab -> req <> map Z.of_nat e) ->
  dispatch tab req call = Some (Err InvalidArgument).
Proof.
  induction tab as [|a tab IH]; intros req call H; [reflexivity|]. simpl.
  destruct (matches req a) eqn:M.
  - apply matches_iff in M. exfalso; apply (H a); simpl; auto.
  - apply IH. intros e He; apply H; simpl; auto.
Qed.

Ltac nodup_tab := repeat (constructor; [simpl; intuition discriminate|]); constructor.
Lemma nodup1 : NoDup ATrhoXi_combinations. Proof. unfold ATrhoXi_combinations; nodup_tab. Qed.
Lemma nodup2 : NoDup ATrhoXiXj_combinations. Proof. unfold ATrhoXiXj_combinations; nodup_tab. Qed.
Lemma nodup3 : NoDup ATrhoXiXjXk_combinations. Proof. unfold ATrhoXiXjXk_combinations; nodup_tab. Qed.

Lemma cases3 : forall x, (0 <= x <= 3 -> x = 0 \/ x = 1 \/ x = 2 \/ x = 3)%Z. Proof. intros; lia. Qed.

Lemma tab1_hit : forall iT iD iXi, supported1 iT iD iXi ->
  In [Z.to_nat iT; Z.to_nat iD; Z.to_nat iXi] ATrhoXi_combinations.
Proof.
  unfold supported1; intros a b c H.
  destruct (cases3 a ltac:(lia)) as [->|[->|[->| ->]]]; try lia;
  destruct (cases3 b ltac:(lia)) as [->|[->|[->| ->]]]; try lia;
  destruct (cases3 c ltac:(lia)) as [->|[->|[->| ->]]]; try lia; vm_compute; tauto.
Qed.
Lemma tab2_hit : forall iT iD iXi iXj, supported2 iT iD iXi iXj ->
  In [Z.to_nat iT; Z.to_nat iD; Z.to_nat iXi; Z.to_nat iXj] ATrhoXiXj_combinations.
Proof.
  unfold supported2; intros a b c d H.
  destruct (cases3 a ltac:(lia)) as [->|[->|[->| ->]]]; try lia;
  destruct (cases3 b ltac:(lia)) as [->|[->|[->| ->]]]; try lia;
  destruct (cases3 c ltac:(lia)) as [->|[->|[->| ->]]]; try lia;
  destruct (cases3 d ltac:(lia)) as [->|[->|[->| ->]]]; try lia; vm_compute; tauto.
Qed.
Lemma tab3_hit : forall iT iD iXi iXj iXk, supported3 iT iD iXi iXj iXk ->
  In [Z.to_nat iT; Z.to_nat iD; Z.to_nat iXi; Z.to_nat iXj; Z.to_nat iXk] ATrhoXiXjXk_combinations.
Proof.
  unfold supported3; intros a b c d e H.
  destruct (cases3 a ltac:(lia)) as [->|[->|[->| ->]]]; try lia;
  destruct (cases3 b ltac:(lia)) as [->|[->|[->| ->]]]; try lia;
  destruct (cases3 c ltac:(lia)) as [->|[->|[->| ->]]]; try lia;
  destruct (cases3 d ltac:(lia)) as [->|[->|[->| ->]]]; try lia;
  destruct (cases3 e ltac:(lia)) as [->|[->|[->| ->]]]; try lia; vm_compute; tauto.
Qed.
Ltac miss H := let e := fresh in let He := fresh in let E := fresh in
  intros e He E; simpl in He;
  repeat (destruct He as [<-|He]; [injection E; intros; subst; apply H; lia|]); destruct He.
Lemma tab1_miss : forall iT iD iXi, ~ supported1 iT iD iXi ->
  forall e, In e ATrhoXi_combinations -> [iT; iD; iXi] <> map Z.of_nat e.
Proof. unfold supported1; intros a b c H. miss H. Qed.
Lemma tab2_miss : forall iT iD iXi iXj, ~ supported2 iT iD iXi iXj ->
  forall e, In e ATrhoXiXj_combinations -> [iT; iD; iXi; iXj] <> map Z.of_nat e.
Proof. unfold supported2; intros a b c d H. miss H. Qed.
Lemma tab3_miss : forall iT iD iXi iXj iXk, ~ supported3 iT iD iXi iXj iXk ->
  forall e, In e ATrhoXiXjXk_combinations -> [iT; iD; iXi; iXj; iXk] <> map Z.of_nat e.
Proof. unfold supported3; intros a b c d e0 H. miss H. Qed.

Section Comp.
Variable ad : (list R -> R) -> list nat -> list R -> R.
Hypothesis Had : AD_exact ad.
Variable alphar : R -> R -> list R -> R.
Variable atd : option (R -> R -> list R -> R).

Local Notation inr z i := (0 <= i < Z.of_nat (length z))%Z.
Local Notation N := Z.to_nat.

Lemma ATrhoXi_runtime_ok : forall T rho z iT iD i iXi, supported1 iT iD iXi -> inr z i ->
  definedN (in_Trecip_rho_X alphar z [N i]) [N iT; N iD; N iXi] [1 / T; rho; nth (N i) z 0] ->
  get_ATrhoXi_runtime ad alphar T iT rho iD z i iXi =
  Some (Val (LambdaX alphar (N iT) (N iD) [N iXi] [N i] T rho z)).
Proof.
  intros T rho z iT iD i iXi S Hi D. unfold get_ATrhoXi_runtime.
  rewrite (dispatch_hit _ _ _ _ nodup1 (tab1_hit _ _ _ S)).
  2: { simpl. unfold supported1 in S. rewrite !Z2Nat.id by lia. reflexivity. }
  unfold get_ATrhoXi. rewrite index_ok by auto. unfold LambdaX. do 3 f_equal. cbn [map].
  apply ad_ext; auto.
  intros [|u [|r [|x [|]]]] Hl; try discriminate. simpl. now rewrite upd_replace.
Qed.
Lemma ATrhoXi_runtime_bad : forall T rho z iT iD i iXi, ~ supported1 iT iD iXi ->
  get_ATrhoXi_runtime ad alphar T iT rho iD z i iXi = Some (Err InvalidArgument).
Proof. intros. unfold get_ATrhoXi_runtime. apply dispatch_miss. now apply tab1_miss. Qed.

Lemma ATrhoXiXj_runtime_ok : forall T rho z iT iD i iXi j iXj, supported2 iT iD iXi iXj ->
  inr z i -> inr z j -> i <> j ->
  definedN (in_Trecip_rho_X alphar z [N i; N j]) [N iT; N iD; N iXi; N iXj]
    [1 / T; rho; nth (N i) z 0; nth (N j) z 0] ->
  get_ATrhoXiXj_runtime ad alphar T iT rho iD z i iXi j iXj =
  Some (Val (LambdaX alphar (N iT) (N iD) [N iXi; N iXj] [N i; N j] T rho z)).
Proof.
  intros T rho z iT iD i iXi j iXj S Hi Hj Hij D. unfold get_ATrhoXiXj_runtime.
  rewrite (dispatch_hit _ _ _ _ nodup2 (tab2_hit _ _ _ _ S)).
  2: { simpl. unfold supported2 in S. rewrite !Z2Nat.id by lia. reflexivity. }
  unfold get_ATrhoXiXj. rewrite (proj2 (Z.eqb_neq i j)) by auto.
  rewrite !index_ok by auto. unfold LambdaX. do 3 f_equal. cbn [map].
  apply ad_ext; auto.
  intros [|u [|r [|x [|y [|]]]]] Hl; try discriminate. simpl. now rewrite !upd_replace.
Qed.
Lemma ATrhoXiXj_runtime_bad : forall T rho z iT iD i iXi j iXj,
  ~ supported2 iT iD iXi iXj \/ i = j ->
  get_ATrhoXiXj_runtime ad alphar T iT rho iD z i iXi j iXj = Some (Err InvalidArgument).
Proof.
  intros T rho z iT iD i iXi j iXj [H|<-]; unfold get_ATrhoXiXj_runtime.
  - apply dispatch_miss. now apply tab2_miss.
  - unfold ATrhoXiXj_combinations. unfold dispatch. unfold get_ATrhoXiXj. rewrite !Z.eqb_refl.
    repeat match goal with |- (if ?c then _ else _) = _ => destruct c; [reflexivity|] end. reflexivity.
Qed.

Lemma ATrhoXiXjXk_runtime_ok : forall T rho z iT iD i iXi j iXj k iXk, supported3 iT iD iXi iXj iXk ->
  inr z i -> inr z j -> inr z k -> i <> j -> j <> k -> i <> k ->
  definedN (in_Trecip_rho_X alphar z [N i; N j; N k]) [N iT; N iD; N iXi; N iXj; N iXk]
    [1 / T; rho; nth (N i) z 0; nth (N j) z 0; nth (N k) z 0] ->
  get_ATrhoXiXjXk_runtime ad alphar T iT rho iD z i iXi j iXj k iXk =
  Some (Val (LambdaX alphar (N iT) (N iD) [N iXi; N iXj; N iXk] [N i; N j; N k] T rho z)).
Proof.
  intros T rho z iT iD i iXi j iXj k iXk S Hi Hj Hk Hij Hjk Hik D. unfold get_ATrhoXiXjXk_runtime.
  rewrite (dispatch_hit _ _ _ _ nodup3 (tab3_hit _ _ _ _ _ S)).
  2: { simpl. unfold supported3 in S. rewrite !Z2Nat.id by lia. reflexivity. }
  unfold get_ATrhoXiXjXk.
  rewrite (proj2 (Z.eqb_neq i j)), (proj2 (Z.eqb_neq j k)), (proj2 (Z.eqb_neq i k)) by auto.
  cbn [orb]. rewrite !index_ok by auto. unfold LambdaX. do 3 f_equal. cbn [map].
  apply ad_ext; auto.
  intros [|u [|r [|x [|y [|w [|]]]]]] Hl; try discriminate. simpl. now rewrite !upd_replace.
Qed.
Lemma ATrhoXiXjXk_runtime_bad : forall T rho z iT iD i iXi j iXj k iXk,
  ~ supported3 iT iD iXi iXj iXk \/ i = j \/ j = k \/ i = k ->
  get_ATrhoXiXjXk_runtime ad alphar T iT rho iD z i iXi j iXj k iXk = Some (Err InvalidArgument).
Proof.
  intros T rho z iT iD i iXi j iXj k iXk [H|H]; unfold get_ATrhoXiXjXk_runtime.
  - apply dispatch_miss. now apply tab3_miss.
  - assert (E : ((i =? j) || (j =? k) || (i =? k))%Z = true).
    { destruct H as [<-|[<-|<-]]; rewrite Z.eqb_refl; rewrite ?orb_true_r; reflexivity. }
    unfold ATrhoXiXjXk_combinations, dispatch, get_ATrhoXiXjXk. rewrite E.
    repeat match goal with |- (if ?c then _ else _) = _ => destruct c; [reflexivity|] end. reflexivity.
Qed.

(** tau, delta *)
Lemma AtaudeltaXi_runtime_ok : forall f tau delta z iT iD i iXi, atd = Some f ->
  supported1 iT iD iXi -> inr z i ->
  definedN (in_tau_delta_X f z [N i]) [N iT; N iD; N iXi] [tau; delta; nth (N i) z 0] ->
  get_AtaudeltaXi_runtime ad atd tau iT delta iD z i iXi =
  Some (Val (LambdaX_taudelta f (N iT) (N iD) [N iXi] [N i] tau delta z)).
Proof.
  intros f tau delta z iT iD i iXi Ha S Hi D. unfold get_AtaudeltaXi_runtime.
  replace ((iT =? 0) && (iD =? 0) && (iXi =? 0))%Z with false.
  2: { symmetry. unfold supported1 in S.
       destruct (Z.eqb_spec iT 0), (Z.eqb_spec iD 0), (Z.eqb_spec iXi 0); try reflexivity; lia. }
  rewrite (dispatch_hit _ _ _ _ nodup1 (tab1_hit _ _ _ S)).
  2: { simpl. unfold supported1 in S. rewrite !Z2Nat.id by lia. reflexivity. }
  unfold get_AtaudeltaXi. rewrite index_ok by auto. rewrite Ha. unfold LambdaX_taudelta. do 3 f_equal. cbn [map].
  apply ad_ext; auto.
  intros [|u [|r [|x [|]]]] Hl; try discriminate. simpl. now rewrite upd_replace.
Qed.
Lemma AtaudeltaXiXj_runtime_ok : forall f tau delta z iT iD i iXi j iXj, atd = Some f ->
  supported2 iT iD iXi iXj -> inr z i -> inr z j -> i <> j ->
  definedN (in_tau_delta_X f z [N i; N j]) [N iT; N iD; N iXi; N iXj]
    [tau; delta; nth (N i) z 0; nth (N j) z 0] ->
  get_AtaudeltaXiXj_runtime ad atd tau iT delta iD z i iXi j iXj =
  Some (Val (LambdaX_taudelta f (N iT) (N iD) [N iXi; N iXj] [N i; N j] tau delta z)).
Proof.
  intros f tau delta z iT iD i iXi j iXj Ha S Hi Hj Hij D. unfold get_AtaudeltaXiXj_runtime.
  rewrite (dispatch_hit _ _ _ _ nodup2 (tab2_hit _ _ _ _ S)).
  2: { simpl. unfold supported2 in S. rewrite !Z2Nat.id by lia. reflexivity. }
  unfold get_AtaudeltaXiXj. rewrite (proj2 (Z.eqb_neq i j)) by auto.
  rewrite !index_ok by auto. rewrite Ha. unfold LambdaX_taudelta. do 3 f_equal. cbn [map].
  apply ad_ext; auto.
  intros [|u [|r [|x [|y [|]]]]] Hl; try discriminate. simpl. now rewrite !upd_replace.
Qed.
Lemma AtaudeltaXiXjXk_runtime_ok : forall f tau delta z iT iD i iXi j iXj k iXk, atd = Some f ->
  supported3 iT iD iXi iXj iXk -> inr z i -> inr z j -> inr z k -> i <> j -> j <> k -> i <> k ->
  definedN (in_tau_delta_X f z [N i; N j; N k]) [N iT; N iD; N iXi; N iXj; N iXk]
    [tau; delta; nth (N i) z 0; nth (N j) z 0; nth (N k) z 0] ->
  get_AtaudeltaXiXjXk_runtime ad atd tau iT delta iD z i iXi j iXj k iXk =
  Some (Val (LambdaX_taudelta f (N iT) (N iD) [N iXi; N iXj; N iXk] [N i; N j; N k] tau delta z)).
Proof.
  intros f tau delta z iT iD i iXi j iXj k iXk Ha S Hi Hj Hk Hij Hjk Hik D. unfold get_AtaudeltaXiXjXk_runtime.
  rewrite (dispatch_hit _ _ _ _ nodup3 (tab3_hit _ _ _ _ _ S)).
  2: { simpl. unfold supported3 in S. rewrite !Z2Nat.id by lia. reflexivity. }
  unfold get_AtaudeltaXiXjXk.
  rewrite (proj2 (Z.eqb_neq i j)), (proj2 (Z.eqb_neq j k)), (proj2 (Z.eqb_neq i k)) by auto.
  cbn [orb]. rewrite !index_ok by auto. rewrite Ha. unfold LambdaX_taudelta. do 3 f_equal. cbn [map].
  apply ad_ext; auto.
  intros [|u [|r [|x [|y [|w [|]]]]]] Hl; try discriminate. simpl. now rewrite !upd_replace.
Qed.

(** A request that is not served always throws, and never reads anything. *)
Lemma Ataudelta_runtime_bad : forall tau delta z iT iD i iXi j iXj k iXk,
  (~ supported1 iT iD iXi -> ~ (iT = 0 /\ iD = 0 /\ iXi = 0)%Z ->
     get_AtaudeltaXi_runtime ad atd tau iT delta iD z i iXi = Some (Err InvalidArgument)) /\
  (~ supported2 iT iD iXi iXj \/ i = j ->
     get_AtaudeltaXiXj_runtime ad atd tau iT delta iD z i iXi j iXj = Some (Err InvalidArgument)) /\
  (~ supported3 iT iD iXi iXj iXk \/ i = j \/ j = k \/ i = k ->
     get_AtaudeltaXiXjXk_runtime ad atd tau iT delta iD z i iXi j iXj k iXk = Some (Err InvalidArgument)).
Proof.
  intros. split; [|split].
  - intros H H0. unfold get_AtaudeltaXi_runtime.
    replace ((iT =? 0) && (iD =? 0) && (iXi =? 0))%Z with false.
    + apply dispatch_miss. now apply tab1_miss.
    + symmetry. destruct (Z.eqb_spec iT 0), (Z.eqb_spec iD 0), (Z.eqb_spec iXi 0); try reflexivity; lia.
  - intros [H|<-]; unfold get_AtaudeltaXiXj_runtime.
    + apply dispatch_miss. now apply tab2_miss.
    + unfold ATrhoXiXj_combinations, dispatch, get_AtaudeltaXiXj. rewrite !Z.eqb_refl.
      repeat match goal with |- (if ?c then _ else _) = _ => destruct c; [reflexivity|] end. reflexivity.
  - intros [H|H]; unfold get_AtaudeltaXiXjXk_runtime.
    + apply dispatch_miss. now apply tab3_miss.
    + assert (E : ((i =? j) || (j =? k) || (i =? k))%Z = true).
      { destruct H as [<-|[<-|<-]]; rewrite Z.eqb_refl; rewrite ?orb_true_r; reflexivity. }
      unfold ATrhoXiXjXk_combinations, dispatch, get_AtaudeltaXiXjXk. rewrite E.
      repeat match goal with |- (if ?c then _ else _) = _ => destruct c; [reflexivity|] end. reflexivity.
Qed.

(** A model without [alphar_taudelta] never yields a number. *)
Lemma Ataudelta_absent : forall tau delta z iT iD i iXi j iXj k iXk, atd = None ->
  (inr z i -> exists e, get_AtaudeltaXi_runtime ad atd tau iT delta iD z i iXi = Some (Err e)) /\
  (inr z i -> inr z j -> exists e, get_AtaudeltaXiXj_runtime ad atd tau iT delta iD z i iXi j iXj = Some (Err e)) /\
  (inr z i -> inr z j -> inr z k ->
     exists e, get_AtaudeltaXiXjXk_runtime ad atd tau iT delta iD z i iXi j iXj k iXk = Some (Err e)).
Proof.
  intros tau delta z iT iD i iXi j iXj k iXk Ha. rewrite Ha. split; [|split].
  - intros Hi. unfold get_AtaudeltaXi_runtime. destruct (_ && _)%bool; [eexists; reflexivity|].
    unfold dispatch, ATrhoXi_combinations, get_AtaudeltaXi. rewrite index_ok by auto.
    repeat match goal with |- exists _, (if ?c then _ else _) = _ => destruct c; [eexists; reflexivity|] end.
    eexists; reflexivity.
  - intros Hi Hj. unfold get_AtaudeltaXiXj_runtime, dispatch, ATrhoXiXj_combinations, get_AtaudeltaXiXj.
    rewrite !index_ok by auto. destruct (i =? j)%Z;
    repeat match goal with |- exists _, (if ?c then _ else _) = _ => destruct c; [eexists; reflexivity|] end;
    eexists; reflexivity.
  - intros Hi Hj Hk. unfold get_AtaudeltaXiXjXk_runtime, dispatch, ATrhoXiXjXk_combinations, get_AtaudeltaXiXjXk.
    rewrite !index_ok by auto. destruct (_ || _)%bool;
    repeat match goal with |- exists _, (if ?c then _ else _) = _ => destruct c; [eexists; reflexivity|] end;
    eexists; reflexivity.
Qed.
End Comp.
