(** Copies of components: every sum of PC-SAFT adds them up. *)
From Coq Require Import Reals ZArith String List Bool Lra Lia Psatz.
From Verif Require Import Util_model Json_model Cubic_model Cubic_spec Cubic_proofs2 Vec_spec Vec_proofs Terms_model Ideal_model Ideal_proofs Assoc_model Assoc_proofs3 PCSAFT_model PCSAFT_spec PCSAFT_proofs.
Import ListNotations.
Open Scope R_scope.

Lemma nt_pick : forall r l i, (i < length r)%nat -> nt (pick 0 r l) i = nt l (nth i r O).
Proof. intros r l i Hi. unfold nt, pick. rewrite (nth_indep _ 0 (nth (nth i r O) l 0)) by (rewrite map_length; auto).
  rewrite (nth_indep _ _ (nth O l 0)) by (rewrite map_length; auto). rewrite (map_nth (fun i => nth i l 0)). reflexivity. Qed.
Lemma osequence_some : forall {A} (l : list (option A)) v d, osequence l = Some v -> length v = length l /\ forall i, (i < length l)%nat -> nth i l None = Some (nth i v d).
Proof.
  induction l as [|o l IH]; intros v d H; cbn in H. { injection H as <-. split; [reflexivity|]. cbn. lia. }
  destruct o as [a|]; [|discriminate]. cbn in H. destruct (osequence l) as [w|] eqn:E; [|discriminate]. cbn in H. injection H as <-.
  destruct (IH w d eq_refl) as [L K]. split; [cbn; auto|]. intros [|i] Hi; [reflexivity|]. cbn. apply K. cbn in Hi. lia.
Qed.
Lemma osequence_seq : forall (f : nat -> option R) n v, osequence (map f (seq 0 n)) = Some v -> forall i, (i < n)%nat -> f i = Some (nt v i).
Proof.
  intros f n v H i Hi. destruct (osequence_some _ _ 0 H) as [_ K]. rewrite map_length, seq_length in K. specialize (K i Hi).
  rewrite (nth_indep _ None (f O)) in K by (rewrite map_length, seq_length; auto). rewrite map_nth, seq_nth in K by auto. exact K.
Qed.
Lemma osum_ext' : forall n f g, (forall i, (i < n)%nat -> f i = g i) -> osum n f = osum n g.
Proof. induction n; intros f g H; simpl; [reflexivity|]. rewrite (IHn f g), H by (auto; lia). reflexivity. Qed.

(** a sum whose terms are a fraction times a coefficient which may be missing *)
Definition dflt (o : option R) : R := match o with Some v => v | None => 0 end.
Lemma weighted : forall N (P : nat -> option R) (w : nat -> R) v, osum N (fun i => c <-- P i; Some (w i * c)) = Some v ->
  (forall i, (i < N)%nat -> P i = Some (dflt (P i))) /\ v = sumn N (fun i => w i * dflt (P i)).
Proof.
  intros N P w v H. destruct (osum_some _ _ _ H) as [g [Hg ->]].
  assert (Q : forall i, (i < N)%nat -> P i = Some (dflt (P i)) /\ g i = w i * dflt (P i)).
  { intros i Hi. specialize (Hg i Hi). destruct (P i) as [c|]; [|discriminate]. cbn in Hg. injection Hg as <-. split; reflexivity. }
  split; [intros; apply Q; auto|]. apply sumn_ext. intros i Hi. apply Q; auto.
Qed.
Lemma weighted_val : forall N (P : nat -> option R) (w : nat -> R), (forall i, (i < N)%nat -> P i = Some (dflt (P i))) ->
  osum N (fun i => c <-- P i; Some (w i * c)) = Some (sumn N (fun i => w i * dflt (P i))).
Proof. intros. apply osum_val. intros i Hi. rewrite (H i Hi) at 1. reflexivity. Qed.
Lemma lump1 : forall r x' x (P : nat -> option R) v, lumped r x' x ->
  osum (length x) (fun i => c <-- P i; Some (nt x i * c)) = Some v ->
  osum (length r) (fun i => c <-- P (nth i r O); Some (nt x' i * c)) = Some v.
Proof.
  intros r x' x P v HL H. destruct (weighted _ _ _ _ H) as [HP ->].
  rewrite (weighted_val (length r) (fun i => P (nth i r O))).
  - f_equal. apply (lump r x' x (fun i => dflt (P i)) HL).
  - intros i Hi. apply HP. eapply lumped_lt; eauto.
Qed.
Lemma osum_scal : forall N (f : nat -> option R) k, k <> 0 -> osum N (fun i => c <-- f i; Some (k * c)) = (v <-- osum N f; Some (k * v)).
Proof.
  induction N; intros f k Hk; simpl. { apply Some_eq. ring. }
  rewrite IHN by auto. destruct (osum N f) as [a|]; cbn [opt_bind]; [|reflexivity]. destruct (f N) as [b|]; cbn [opt_bind]; [|reflexivity]. apply Some_eq. ring.
Qed.
(** pairs and triples *)
Definition Pairs (N : nat) (x : list R) (P : nat -> nat -> option R) : option R :=
  osum N (fun i => osum N (fun j => c <-- P i j; Some (nt x i * nt x j * c))).
Definition Triples (N : nat) (x : list R) (P : nat -> nat -> nat -> option R) : option R :=
  osum N (fun i => osum N (fun j => osum N (fun k => c <-- P i j k; Some (nt x i * nt x j * nt x k * c)))).
Lemma pairs_some : forall N x P v, Pairs N x P = Some v ->
  (forall i j, (i < N)%nat -> (j < N)%nat -> P i j = Some (dflt (P i j))) /\ v = sumn N (fun i => nt x i * sumn N (fun j => nt x j * dflt (P i j))).
Proof.
  intros N x P v H. unfold Pairs in H. destruct (osum_some _ _ _ H) as [g [Hg ->]].
  assert (Q : forall i, (i < N)%nat -> (forall j, (j < N)%nat -> P i j = Some (dflt (P i j))) /\ g i = nt x i * sumn N (fun j => nt x j * dflt (P i j))).
  { intros i Hi. destruct (weighted _ _ _ _ (Hg i Hi)) as [A B]. split; auto. rewrite B, <- sumn_scal. apply sumn_ext. intros; ring. }
  split. - intros i j Hi Hj. apply Q; auto. - apply sumn_ext. intros i Hi. apply Q; auto.
Qed.
Lemma pairs_val : forall N x P, (forall i j, (i < N)%nat -> (j < N)%nat -> P i j = Some (dflt (P i j))) ->
  Pairs N x P = Some (sumn N (fun i => nt x i * sumn N (fun j => nt x j * dflt (P i j)))).
Proof.
  intros N x P H. unfold Pairs. apply osum_val. intros i Hi. rewrite weighted_val by auto. apply Some_eq. rewrite <- sumn_scal. apply sumn_ext. intros; ring.
Qed.
Lemma triples_some : forall N x P v, Triples N x P = Some v ->
  (forall i j k, (i < N)%nat -> (j < N)%nat -> (k < N)%nat -> P i j k = Some (dflt (P i j k))) /\
  v = sumn N (fun i => nt x i * sumn N (fun j => nt x j * sumn N (fun k => nt x k * dflt (P i j k)))).
Proof.
  intros N x P v H. unfold Triples in H. destruct (osum_some _ _ _ H) as [g [Hg ->]].
  assert (Q : forall i, (i < N)%nat -> (forall j k, (j < N)%nat -> (k < N)%nat -> P i j k = Some (dflt (P i j k))) /\
     g i = nt x i * sumn N (fun j => nt x j * sumn N (fun k => nt x k * dflt (P i j k)))).
  { intros i Hi. destruct (osum_some _ _ _ (Hg i Hi)) as [h [Hh ->]].
    assert (Q : forall j, (j < N)%nat -> (forall k, (k < N)%nat -> P i j k = Some (dflt (P i j k))) /\ h j = nt x i * (nt x j * sumn N (fun k => nt x k * dflt (P i j k)))).
    { intros j Hj. destruct (weighted _ _ _ _ (Hh j Hj)) as [A B]. split; auto. rewrite B, <- !sumn_scal. apply sumn_ext. intros; ring. }
    split. - intros j k Hj Hk. apply Q; auto. - rewrite <- sumn_scal. apply sumn_ext. intros j Hj. apply Q; auto. }
  split. - intros i j k Hi Hj Hk. apply Q; auto. - apply sumn_ext. intros i Hi. apply Q; auto.
Qed.
Lemma triples_val : forall N x P, (forall i j k, (i < N)%nat -> (j < N)%nat -> (k < N)%nat -> P i j k = Some (dflt (P i j k))) ->
  Triples N x P = Some (sumn N (fun i => nt x i * sumn N (fun j => nt x j * sumn N (fun k => nt x k * dflt (P i j k))))).
Proof.
  intros N x P H. unfold Triples. apply osum_val. intros i Hi.
  rewrite (osum_val N _ (fun j => nt x i * (nt x j * sumn N (fun k => nt x k * dflt (P i j k))))).
  - rewrite <- sumn_scal. reflexivity.
  - intros j Hj. rewrite weighted_val by auto. apply Some_eq. rewrite <- !sumn_scal. apply sumn_ext. intros; ring.
Qed.
Lemma lump_nt : forall r x' x (g : nat -> R), lumped r x' x ->
  sumn (length r) (fun i => nt x' i * g (nth i r O)) = sumn (length x) (fun k => nt x k * g k).
Proof. exact lump. Qed.
Lemma lump2 : forall r x' x P P' v, lumped r x' x -> (forall i j, (i < length r)%nat -> (j < length r)%nat -> P' i j = P (nth i r O) (nth j r O)) ->
  Pairs (length x) x P = Some v -> Pairs (length r) x' P' = Some v.
Proof.
  intros r x' x P P' v HL HP H. destruct (pairs_some _ _ _ _ H) as [A ->]. pose proof (fun i Hi => lumped_lt r x' x i HL Hi) as lt.
  rewrite pairs_val.
  - f_equal. rewrite <- (lump_nt r x' x (fun i => sumn (length x) (fun j => nt x j * dflt (P i j))) HL). apply sumn_ext. intros i Hi. f_equal.
    rewrite <- (lump_nt r x' x (fun j => dflt (P (nth i r O) j)) HL). apply sumn_ext. intros j Hj. rewrite HP by auto. reflexivity.
  - intros i j Hi Hj. rewrite HP by auto. apply A; auto.
Qed.
Lemma lump3 : forall r x' x P P' v, lumped r x' x ->
  (forall i j k, (i < length r)%nat -> (j < length r)%nat -> (k < length r)%nat -> P' i j k = P (nth i r O) (nth j r O) (nth k r O)) ->
  Triples (length x) x P = Some v -> Triples (length r) x' P' = Some v.
Proof.
  intros r x' x P P' v HL HP H. destruct (triples_some _ _ _ _ H) as [A ->]. pose proof (fun i Hi => lumped_lt r x' x i HL Hi) as lt.
  rewrite triples_val.
  - f_equal. rewrite <- (lump_nt r x' x (fun i => sumn (length x) (fun j => nt x j * sumn (length x) (fun k => nt x k * dflt (P i j k)))) HL). apply sumn_ext. intros i Hi. f_equal.
    rewrite <- (lump_nt r x' x (fun j => sumn (length x) (fun k => nt x k * dflt (P (nth i r O) j k))) HL). apply sumn_ext. intros j Hj. f_equal.
    rewrite <- (lump_nt r x' x (fun k => dflt (P (nth i r O) (nth j r O) k)) HL). apply sumn_ext. intros k Hk. rewrite HP by auto. reflexivity.
  - intros i j k Hi Hj Hk. rewrite HP by auto. apply A; auto.
Qed.

(** ** the hard-chain and dispersion contributions *)
Lemma entry_pick : forall r k i j, (i < length r)%nat -> (j < length r)%nat ->
  entry (map (fun row => pick 0 r row) (pick [] r k)) i j = entry k (nth i r O) (nth j r O).
Proof.
  intros r k i j Hi Hj. unfold entry. pose proof (nt_pick r (nth (nth i r O) k []) j Hj) as E. unfold nt in E. rewrite <- E. f_equal.
  rewrite (nth_indep _ [] (pick 0 r [])) by (unfold pick; rewrite !map_length; auto). rewrite (map_nth (fun row => pick 0 r row)).
  f_equal. unfold pick. rewrite (nth_indep _ [] (nth O k [])) by (rewrite map_length; auto). rewrite (map_nth (fun i => nth i k [])). reflexivity.
Qed.
Lemma pairs_form : forall N x (K : nat -> nat -> option R) (f : R -> nat -> nat -> R) (g : R -> nat -> nat -> R),
  (forall c i j, f c i j = nt x i * nt x j * g c i j) ->
  osum N (fun i => osum N (fun j => k <-- K i j; Some (f k i j))) = Pairs N x (fun i j => k <-- K i j; Some (g k i j)).
Proof.
  intros N x K f g H. apply osum_ext'. intros i Hi. apply osum_ext'. intros j Hj. destruct (K i j) as [c|]; cbn [opt_bind]; [|reflexivity]. rewrite H. reflexivity.
Qed.
Definition gw (s : mixture) (p : nat) (k : R) (i j : nat) : R := nt (pm s) i * nt (pm s) j * k ^ p * pair_sigma3 s i j.
Section Copies.
Variables (r : list nat) (x' x : list R) (s : mixture).
Hypothesis HL : lumped r x' x.
Hypothesis Hx : length x = length (pm s).
Let s' := copies r s.
Lemma len_r : length (pm s') = length r.
Proof. unfold s', copies. cbn [pm]. unfold pick. rewrite map_length. reflexivity. Qed.
Lemma lump_sum : forall (q' q : nat -> R), (forall i, (i < length r)%nat -> q' i = q (nth i r O)) ->
  sumn (length (pm s')) (fun i => nt x' i * q' i) = sumn (length (pm s)) (fun i => nt x i * q i).
Proof.
  intros q' q H. rewrite len_r, <- Hx, <- (lump_nt r x' x q HL). apply sumn_ext. intros i Hi. rewrite H by auto. reflexivity.
Qed.
Lemma pair_ekT_pick : forall T i j, (i < length r)%nat -> (j < length r)%nat -> pair_ekT s' T i j = pair_ekT s T (nth i r O) (nth j r O).
Proof. intros T i j Hi Hj. unfold pair_ekT, s', copies. cbn [peps pkmat]. rewrite !nt_pick, entry_pick by auto. reflexivity. Qed.
Lemma pair_sum_lump : forall T p v, Pairs (length (pm s)) x (fun i j => k <-- pair_ekT s T i j; Some (gw s p k i j)) = Some v ->
  Pairs (length (pm s')) x' (fun i j => k <-- pair_ekT s' T i j; Some (gw s' p k i j)) = Some v.
Proof.
  intros T p v H. rewrite len_r. rewrite <- Hx in H. eapply lump2; [exact HL| |exact H]. intros i j Hi Hj. cbv beta. rewrite pair_ekT_pick by auto.
  unfold gw, pair_sigma3, s', copies. cbn [pm psigma]. rewrite !nt_pick by auto. reflexivity.
Qed.
Lemma hardchain_lump : forall T rho h, hardchain s T rho x = Some h -> hardchain s' T rho x' = Some h.
Proof.
  intros T rho h H. unfold hardchain in *.
  destruct (osequence (map (fun i => seg_d T (nt (psigma s) i) (nt (peps s) i)) (seq 0 (length (pm s))))) as [ds|] eqn:Ed; [|discriminate].
  cbn [opt_bind] in H. pose proof (osequence_seq _ _ _ Ed) as Hd.
  rewrite (osequence_build _ (fun i => nt ds (nth i r O))).
  2: { intros i Hi. cbn [Nat.add]. rewrite len_r in Hi. unfold s', copies. cbn [psigma peps]. rewrite !nt_pick by auto. apply Hd. rewrite <- Hx. eapply lumped_lt; eauto. }
  cbn [opt_bind]. set (ds' := map (fun i => nt ds (nth i r O)) (seq 0 (length (pm s')))).
  assert (Hds : forall i, (i < length r)%nat -> nt ds' i = nt ds (nth i r O)).
  { intros i Hi. unfold ds', nt at 1. rewrite len_r. rewrite nth_map_seq' by auto. reflexivity. }
  rewrite (pairs_form _ x _ _ (gw s 1)) in H by (intros; unfold gw, pair_weight; ring).
  rewrite (pairs_form _ x' _ _ (gw s' 1)) by (intros; unfold gw, pair_weight; ring).
  destruct (Pairs _ x (fun i j => k <-- pair_ekT s T i j; Some (gw s 1 k i j))) as [e1|] eqn:E1; [|discriminate]. rewrite (pair_sum_lump _ _ _ E1).
  cbn [opt_bind] in *.
  rewrite (pairs_form _ x _ _ (gw s 2)) in H by (intros; unfold gw, pair_weight; ring).
  rewrite (pairs_form _ x' _ _ (gw s' 2)) by (intros; unfold gw, pair_weight; ring).
  destruct (Pairs _ x (fun i j => k <-- pair_ekT s T i j; Some (gw s 2 k i j))) as [e2|] eqn:E2; [|discriminate]. rewrite (pair_sum_lump _ _ _ E2).
  cbn [opt_bind] in *.
  assert (Em : sumn (length (pm s')) (fun i => nt x' i * nt (pm s') i) = sumn (length (pm s)) (fun i => nt x i * nt (pm s) i)).
  { apply lump_sum. intros i Hi. unfold s', copies. cbn [pm]. apply nt_pick; auto. }
  rewrite Em.
  assert (ED : forall n, PI / 6 * sumn (length (pm s')) (fun i => nt x' i * nt (pm s') i * nt ds' i ^ n) = PI / 6 * sumn (length (pm s)) (fun i => nt x i * nt (pm s) i * nt ds i ^ n)).
  { intros n. f_equal. rewrite (sumn_ext (length (pm s')) _ (fun i => nt x' i * (nt (pm s') i * nt ds' i ^ n))) by (intros; ring).
    rewrite (sumn_ext (length (pm s)) _ (fun i => nt x i * (nt (pm s) i * nt ds i ^ n))) by (intros; ring).
    apply lump_sum. intros i Hi. rewrite Hds by auto. unfold s', copies. cbn [pm]. rewrite nt_pick by auto. reflexivity. }
  rewrite !ED. change (pa s') with (pa s). change (pb s') with (pb s).
  set (r3 := rho * N_A * / 10 ^ 30) in *.
  set (D := fun n => PI / 6 * sumn (length (pm s)) (fun i => nt x i * nt (pm s) i * nt ds i ^ n)) in *.
  set (mb := sumn (length (pm s)) (fun i => nt x i * nt (pm s) i)) in *.
  fold (D 3%nat). fold (D 3%nat) in H.
  destruct (integral (pa s) mb (D 3%nat * r3)) as [I1|]; [|discriminate]. cbn [opt_bind] in *.
  destruct (integral (pb s) mb (D 3%nat * r3)) as [I2|]; [|discriminate]. cbn [opt_bind] in *.
  rewrite (osum_ext' (length (pm s)) _ (fun i => c <-- (g <-- gij_HS (fun n => D n * r3) (nt ds) i i; l <-- clog g; Some ((nt (pm s) i - 1) * l)); Some (nt x i * c))) in H.
  2: { intros i Hi. destruct (gij_HS _ _ i i) as [g|]; cbn [opt_bind]; [|reflexivity]. destruct (clog g) as [l|]; cbn [opt_bind]; [|reflexivity]. apply Some_eq. ring. }
  rewrite (osum_ext' (length (pm s')) _ (fun i => c <-- (fun i => g <-- gij_HS (fun n => D n * r3) (nt ds) i i; l <-- clog g; Some ((nt (pm s) i - 1) * l)) (nth i r O); Some (nt x' i * c))).
  2: { intros i Hi. rewrite len_r in Hi. cbv beta.
       match goal with |- opt_bind (gij_HS ?z ?d i i) _ = _ => replace (gij_HS z d i i) with (gij_HS (fun n => D n * r3) (nt ds) (nth i r O) (nth i r O)) end.
       2: { unfold gij_HS. cbv beta. rewrite !ED. rewrite Hds by auto. reflexivity. }
       destruct (gij_HS _ _ _ _) as [g|]; cbn [opt_bind]; [|reflexivity]. destruct (clog g) as [l|]; cbn [opt_bind]; [|reflexivity].
       unfold s', copies. cbn [pm]. rewrite nt_pick by auto. apply Some_eq. ring. }
  rewrite len_r.
  match type of H with opt_bind ?o _ = _ => destruct o as [lng|] eqn:EL; [|discriminate] end. rewrite <- Hx in EL. rewrite (lump1 r x' x _ _ HL EL). cbn [opt_bind] in *.
  match goal with |- opt_bind (get_alphar_hs ?z ?d) _ = _ => replace (get_alphar_hs z d) with (get_alphar_hs (fun n => D n * r3) D) end.
  2: { unfold get_alphar_hs, hs_zero, hs_general. cbv beta. rewrite <- len_r, !ED. reflexivity. }
  exact H.
Qed.
Lemma max_rhoN_lump : forall T v, max_rhoN s T x = Some v -> max_rhoN s' T x' = Some v.
Proof.
  intros T v H. unfold max_rhoN in *.
  destruct (osequence (map (fun i => seg_d T (nt (psigma s) i) (nt (peps s) i)) (seq 0 (length (pm s))))) as [ds|] eqn:Ed; [|discriminate].
  cbn [opt_bind] in H. pose proof (osequence_seq _ _ _ Ed) as Hd.
  rewrite (osequence_build _ (fun i => nt ds (nth i r O))).
  2: { intros i Hi. cbn [Nat.add]. rewrite len_r in Hi. unfold s', copies. cbn [psigma peps]. rewrite !nt_pick by auto. apply Hd. rewrite <- Hx. eapply lumped_lt; eauto. }
  cbn [opt_bind]. set (ds' := map (fun i => nt ds (nth i r O)) (seq 0 (length (pm s')))).
  assert (Hds : forall i, (i < length r)%nat -> nt ds' i = nt ds (nth i r O)).
  { intros i Hi. unfold ds', nt at 1. rewrite len_r. rewrite nth_map_seq' by auto. reflexivity. }
  replace (sumn (length (pm s')) (fun i => nt x' i * nt (pm s') i * nt ds' i ^ 3)) with (sumn (length (pm s)) (fun i => nt x i * nt (pm s) i * nt ds i ^ 3)).
  - exact H.
  - symmetry. rewrite (sumn_ext (length (pm s')) _ (fun i => nt x' i * (nt (pm s') i * nt ds' i ^ 3))) by (intros; ring).
    rewrite (sumn_ext (length (pm s)) _ (fun i => nt x i * (nt (pm s) i * nt ds i ^ 3))) by (intros; ring).
    apply lump_sum. intros i Hi. rewrite Hds by auto. unfold s', copies. cbn [pm]. rewrite nt_pick by auto. reflexivity.
Qed.
End Copies.

(** ** the polar contributions *)
Ltac opts := repeat match goal with
  | |- context [opt_bind (if ?c then _ else _) _] => destruct c; cbn [opt_bind]; try reflexivity
  | |- (if ?c then _ else _) = _ => destruct c; cbn [opt_bind]; try reflexivity
  | |- context [opt_bind ?o _] => match o with Some _ => fail 1 | None => fail 1 | opt_bind _ _ => fail 1 | _ => destruct o; cbn [opt_bind]; try reflexivity end
  end.
Section PolarCopies.
Variables (m sigma eps : list R) (T rhoN eta : R).
Definition unit_pair_eps (i j : nat) : option R := q1 <-- cdiv (nt eps i) T; cdiv (q1 * nt eps j) T.
Definition unit_triple_eps (i j k : nat) : option R := q1 <-- cdiv (nt eps i) T; q2 <-- cdiv (q1 * nt eps j) T; cdiv (q2 * nt eps k) T.
Lemma pair_eps_form : forall x i j, pair_eps eps T x i j = (e <-- unit_pair_eps i j; Some (nt x i * nt x j * e)).
Proof. intros. unfold pair_eps, unit_pair_eps, cdiv. destruct (Req_EM_T T 0); cbn [opt_bind]; [reflexivity|]. apply Some_eq. unfold Rdiv. ring. Qed.
Lemma triple_eps_form : forall x i j k, triple_eps eps T x i j k = (e <-- unit_triple_eps i j k; Some (nt x i * nt x j * nt x k * e)).
Proof. intros. unfold triple_eps, unit_triple_eps, cdiv. destruct (Req_EM_T T 0); cbn [opt_bind]; [reflexivity|]. apply Some_eq. unfold Rdiv. ring. Qed.
Lemma cdiv_form : forall k a b, cdiv (k * a) b = (q <-- cdiv a b; Some (k * q)).
Proof. intros. unfold cdiv. destruct (Req_EM_T b 0); cbn [opt_bind]; [reflexivity|]. apply Some_eq. unfold Rdiv. ring. Qed.
Definition P2DD (mu n : list R) (i j : nat) : option R :=
  if Rlt_dec 0 (nt n i * nt n j) then
    Tstar <-- pair_Tstar eps T i j; mij <-- pair_m m i j; e <-- unit_pair_eps i j; q <-- cdiv (nt sigma i * nt sigma j) (mean_sigma sigma i j);
    J <-- get_JDD_2ij eta mij Tstar; Some (e * POW3 q * (nt n i * nt n j) * nt mu i * nt mu j * J)
  else Some 0.
Definition P3DD (mu n : list R) (i j k : nat) : option R :=
  if Rlt_dec 0 (nt n i * nt n j * nt n k) then
    mijk <-- triple_m m i j k; e <-- unit_triple_eps i j k;
    q <-- cdiv (e * POW3 (nt sigma i * nt sigma j * nt sigma k)) (mean_sigma sigma i j * mean_sigma sigma i k * mean_sigma sigma j k);
    J <-- get_JDD_3ijk eta mijk; Some (q * (nt n i * nt n j * nt n k) * nt mu i * nt mu j * nt mu k * J)
  else Some 0.
Definition P2QQ (mu n : list R) (i j : nat) : option R :=
  if Rlt_dec 0 (nt n i * nt n j) then
    Tstar <-- pair_Tstar eps T i j; mij <-- pair_m m i j; e <-- unit_pair_eps i j; q <-- cdiv (e * POW5 (nt sigma i * nt sigma j)) (POW7 (mean_sigma sigma i j));
    J <-- get_JQQ_2ij eta mij Tstar; Some (q * (nt n i * nt n j) * nt mu i * nt mu j * J)
  else Some 0.
Definition P3QQ (mu n : list R) (i j k : nat) : option R :=
  if Rlt_dec 0 (nt n i * nt n j * nt n k) then
    mijk <-- triple_m m i j k; e <-- unit_triple_eps i j k;
    q <-- cdiv (e * POW5 (nt sigma i * nt sigma j * nt sigma k)) (POW3 (mean_sigma sigma i j * mean_sigma sigma i k * mean_sigma sigma j k));
    J <-- get_JDD_3ijk eta mijk; Some (q * (nt n i * nt n j * nt n k) * nt mu i * nt mu j * nt mu k * J)
  else Some 0.
Definition P2DQ (mu nmu Q nQ : list R) (i j : nat) : option R :=
  if Rlt_dec 0 (nt nmu i * nt nQ j) then
    Tstar <-- pair_Tstar eps T i j; mij <-- pair_m m i j; e <-- unit_pair_eps i j;
    q <-- cdiv (e * (POW3 (nt sigma i) * POW5 (nt sigma j))) (POW5 (mean_sigma sigma i j));
    J <-- get_JDQ_2ij eta mij Tstar; Some (q * (nt nmu i * nt nQ j) * nt mu i * nt Q j * J)
  else Some 0.
Definition P3DQ (mu nmu Q nQ : list R) (i j k : nat) : option R :=
  if (if Rlt_dec 0 (nt nmu i * nt nmu j * nt nQ k) then true else false) || (if Rlt_dec 0 (nt nmu i * nt nQ j * nt nQ k) then true else false) then
    mijk <-- triple_m m i j k; e <-- unit_triple_eps i j k;
    q <-- cdiv (e * POW4 (nt sigma i * nt sigma j * nt sigma k)) (POW2 (mean_sigma sigma i j * mean_sigma sigma i k * mean_sigma sigma j k));
    J <-- get_JDQ_3ijk eta mijk;
    Some (q * (nt nmu i * nt nmu j * nt nQ k * nt mu i * nt mu j * nt Q k + nt nmu i * nt nQ j * nt nQ k * alpha_GV * nt mu i * nt Q j * nt Q k) * J)
  else Some 0.
Ltac pform := intros; match goal with |- opt_bind (osum _ _) _ = opt_bind ?p _ => match goal with |- opt_bind ?o _ = _ => replace o with p; [reflexivity|] end end;
  symmetry; apply osum_ext'; intros i Hi; apply osum_ext'; intros j Hj.
Lemma alpha2DD_form : forall x mu n, get_alpha2DD m sigma eps T rhoN eta x mu n = (v <-- Pairs (length x) x (P2DD mu n); Some (- PI * rhoN * v)).
Proof.
  unfold get_alpha2DD, Pairs. pform. unfold P2DD. rewrite pair_eps_form. opts; apply Some_eq; unfold POW3; ring.
Qed.
Lemma alpha3DD_form : forall x mu n, get_alpha3DD m sigma eps T rhoN eta x mu n = (v <-- Triples (length x) x (P3DD mu n); Some (- (4) * POW2 PI / 3 * POW2 rhoN * v)).
Proof.
  unfold get_alpha3DD, Triples. pform. apply osum_ext'; intros k Hk. unfold P3DD. rewrite triple_eps_form.
  destruct (Rlt_dec _ _); [|cbn [opt_bind]; apply Some_eq; ring].
  destruct (triple_m m i j k); cbn [opt_bind]; [|reflexivity]. destruct (unit_triple_eps i j k) as [e|]; cbn [opt_bind]; [|reflexivity].
  rewrite (Rmult_assoc _ e), cdiv_form. destruct (cdiv _ _); cbn [opt_bind]; [|reflexivity]. destruct (get_JDD_3ijk _ _); cbn [opt_bind]; [|reflexivity]. apply Some_eq; ring.
Qed.
Lemma alpha2QQ_form : forall x mu n, get_alpha2QQ m sigma eps T rhoN eta x mu n = (v <-- Pairs (length x) x (P2QQ mu n); Some (- PI * POW2 (3 / 4) * rhoN * v)).
Proof.
  unfold get_alpha2QQ, Pairs. pform. unfold P2QQ. rewrite pair_eps_form.
  destruct (Rlt_dec _ _); [|cbn [opt_bind]; apply Some_eq; ring].
  destruct (pair_Tstar _ _ _ _); cbn [opt_bind]; [|reflexivity].
  destruct (pair_m m i j); cbn [opt_bind]; [|reflexivity]. destruct (unit_pair_eps i j) as [e|]; cbn [opt_bind]; [|reflexivity].
  rewrite (Rmult_assoc _ e), cdiv_form. destruct (cdiv _ _); cbn [opt_bind]; [|reflexivity]. destruct (get_JQQ_2ij _ _ _); cbn [opt_bind]; [|reflexivity]. apply Some_eq; ring.
Qed.
Lemma alpha3QQ_form : forall x mu n, get_alpha3QQ m sigma eps T rhoN eta x mu n = (v <-- Triples (length x) x (P3QQ mu n); Some (- (4) * POW2 PI / 3 * POW3 (3 / 4) * POW2 rhoN * v)).
Proof.
  unfold get_alpha3QQ, Triples. pform. apply osum_ext'; intros k Hk. unfold P3QQ. rewrite triple_eps_form.
  destruct (Rlt_dec _ _); [|cbn [opt_bind]; apply Some_eq; ring].
  destruct (triple_m m i j k); cbn [opt_bind]; [|reflexivity]. destruct (unit_triple_eps i j k) as [e|]; cbn [opt_bind]; [|reflexivity].
  rewrite (Rmult_assoc _ e), cdiv_form. destruct (cdiv _ _); cbn [opt_bind]; [|reflexivity]. destruct (get_JDD_3ijk _ _); cbn [opt_bind]; [|reflexivity]. apply Some_eq; ring.
Qed.
Lemma alpha2DQ_form : forall x mu nmu Q nQ, get_alpha2DQ m sigma eps T rhoN eta x mu nmu Q nQ = (v <-- Pairs (length x) x (P2DQ mu nmu Q nQ); Some (- PI * 9 / 4 * rhoN * v)).
Proof.
  unfold get_alpha2DQ, Pairs. pform. unfold P2DQ. rewrite pair_eps_form.
  destruct (Rlt_dec _ _); [|cbn [opt_bind]; apply Some_eq; ring].
  destruct (pair_Tstar _ _ _ _); cbn [opt_bind]; [|reflexivity].
  destruct (pair_m m i j); cbn [opt_bind]; [|reflexivity]. destruct (unit_pair_eps i j) as [e|]; cbn [opt_bind]; [|reflexivity].
  rewrite (Rmult_assoc (nt x i * nt x j * e)), (Rmult_assoc _ e), cdiv_form. destruct (cdiv _ _); cbn [opt_bind]; [|reflexivity]. destruct (get_JDQ_2ij _ _ _); cbn [opt_bind]; [|reflexivity]. apply Some_eq; ring.
Qed.
Lemma alpha3DQ_form : forall x mu nmu Q nQ, get_alpha3DQ m sigma eps T rhoN eta x mu nmu Q nQ = (v <-- Triples (length x) x (P3DQ mu nmu Q nQ); Some (- POW2 rhoN * v)).
Proof.
  unfold get_alpha3DQ, Triples. pform. apply osum_ext'; intros k Hk. unfold P3DQ. rewrite triple_eps_form.
  destruct (_ || _); [|cbn [opt_bind]; apply Some_eq; ring].
  destruct (triple_m m i j k); cbn [opt_bind]; [|reflexivity]. destruct (unit_triple_eps i j k) as [e|]; cbn [opt_bind]; [|reflexivity].
  rewrite (Rmult_assoc _ e), cdiv_form. destruct (cdiv _ _); cbn [opt_bind]; [|reflexivity]. destruct (get_JDQ_3ijk _ _); cbn [opt_bind]; [|reflexivity]. apply Some_eq; ring.
Qed.
End PolarCopies.
Section PolarLump.
Variables (r : list nat) (x' x : list R) (m sigma eps : list R) (T rhoN eta : R).
Hypothesis HL : lumped r x' x.
Let pk := pick 0 r.
Ltac plump form := intros; rewrite form in *; rewrite (proj1 HL);
  let w := fresh "w" in let EW := fresh "EW" in
  match goal with H : opt_bind (?W (length x) x ?P) _ = Some _ |- _ => destruct (W (length x) x P) as [w|] eqn:EW; [|discriminate]; cbn [opt_bind] in H end;
  first [erewrite (lump2 r x' x _ _ w HL); [eassumption| |exact EW] | erewrite (lump3 r x' x _ _ w HL); [eassumption| |exact EW]].
Lemma alpha2DD_lump : forall mu n v, get_alpha2DD m sigma eps T rhoN eta x mu n = Some v ->
  get_alpha2DD (pk m) (pk sigma) (pk eps) T rhoN eta x' (pk mu) (pk n) = Some v.
Proof. plump alpha2DD_form. intros i j Hi Hj. unfold P2DD, pair_Tstar, pair_m, unit_pair_eps, mean_sigma, pk. rewrite !nt_pick by auto. reflexivity. Qed.
Lemma alpha3DD_lump : forall mu n v, get_alpha3DD m sigma eps T rhoN eta x mu n = Some v ->
  get_alpha3DD (pk m) (pk sigma) (pk eps) T rhoN eta x' (pk mu) (pk n) = Some v.
Proof. plump alpha3DD_form. intros i j k Hi Hj Hk. unfold P3DD, triple_m, unit_triple_eps, mean_sigma, pk. rewrite !nt_pick by auto. reflexivity. Qed.
Lemma alpha2QQ_lump : forall mu n v, get_alpha2QQ m sigma eps T rhoN eta x mu n = Some v ->
  get_alpha2QQ (pk m) (pk sigma) (pk eps) T rhoN eta x' (pk mu) (pk n) = Some v.
Proof. plump alpha2QQ_form. intros i j Hi Hj. unfold P2QQ, pair_Tstar, pair_m, unit_pair_eps, mean_sigma, pk. rewrite !nt_pick by auto. reflexivity. Qed.
Lemma alpha3QQ_lump : forall mu n v, get_alpha3QQ m sigma eps T rhoN eta x mu n = Some v ->
  get_alpha3QQ (pk m) (pk sigma) (pk eps) T rhoN eta x' (pk mu) (pk n) = Some v.
Proof. plump alpha3QQ_form. intros i j k Hi Hj Hk. unfold P3QQ, triple_m, unit_triple_eps, mean_sigma, pk. rewrite !nt_pick by auto. reflexivity. Qed.
Lemma alpha2DQ_lump : forall mu n Q nQ v, get_alpha2DQ m sigma eps T rhoN eta x mu n Q nQ = Some v ->
  get_alpha2DQ (pk m) (pk sigma) (pk eps) T rhoN eta x' (pk mu) (pk n) (pk Q) (pk nQ) = Some v.
Proof. plump alpha2DQ_form. intros i j Hi Hj. unfold P2DQ, pair_Tstar, pair_m, unit_pair_eps, mean_sigma, pk. rewrite !nt_pick by auto. reflexivity. Qed.
Lemma alpha3DQ_lump : forall mu n Q nQ v, get_alpha3DQ m sigma eps T rhoN eta x mu n Q nQ = Some v ->
  get_alpha3DQ (pk m) (pk sigma) (pk eps) T rhoN eta x' (pk mu) (pk n) (pk Q) (pk nQ) = Some v.
Proof. plump alpha3DQ_form. intros i j k Hi Hj Hk. unfold P3DQ, triple_m, unit_triple_eps, mean_sigma, pk. rewrite !nt_pick by auto. reflexivity. Qed.
Lemma dipolar_lump : forall mu n v, dipolar m sigma eps T rhoN eta x mu n = Some v -> dipolar (pk m) (pk sigma) (pk eps) T rhoN eta x' (pk mu) (pk n) = Some v.
Proof.
  intros mu n v H. unfold dipolar in *. destruct (get_alpha2DD _ _ _ _ _ _ x _ _) as [a2|] eqn:E2; [|discriminate]. cbn [opt_bind] in H.
  destruct (get_alpha3DD _ _ _ _ _ _ x _ _) as [a3|] eqn:E3; [|discriminate]. cbn [opt_bind] in H.
  rewrite (alpha2DD_lump _ _ _ E2). cbn [opt_bind]. rewrite (alpha3DD_lump _ _ _ E3). exact H.
Qed.
Lemma quadrupolar_lump : forall mu n v, quadrupolar m sigma eps T rhoN eta x mu n = Some v -> quadrupolar (pk m) (pk sigma) (pk eps) T rhoN eta x' (pk mu) (pk n) = Some v.
Proof.
  intros mu n v H. unfold quadrupolar in *. destruct (get_alpha2QQ _ _ _ _ _ _ x _ _) as [a2|] eqn:E2; [|discriminate]. cbn [opt_bind] in H.
  destruct (get_alpha3QQ _ _ _ _ _ _ x _ _) as [a3|] eqn:E3; [|discriminate]. cbn [opt_bind] in H.
  rewrite (alpha2QQ_lump _ _ _ E2). cbn [opt_bind]. rewrite (alpha3QQ_lump _ _ _ E3). exact H.
Qed.
Lemma diquadrupolar_lump : forall mu n Q nQ v, diquadrupolar m sigma eps T rhoN eta x mu n Q nQ = Some v ->
  diquadrupolar (pk m) (pk sigma) (pk eps) T rhoN eta x' (pk mu) (pk n) (pk Q) (pk nQ) = Some v.
Proof.
  intros mu n Q nQ v H. unfold diquadrupolar in *. destruct (get_alpha2DQ _ _ _ _ _ _ x _ _ _ _) as [a2|] eqn:E2; [|discriminate]. cbn [opt_bind] in H.
  destruct (get_alpha3DQ _ _ _ _ _ _ x _ _ _ _) as [a3|] eqn:E3; [|discriminate]. cbn [opt_bind] in H.
  rewrite (alpha2DQ_lump _ _ _ _ _ E2). cbn [opt_bind]. rewrite (alpha3DQ_lump _ _ _ _ _ E3). exact H.
Qed.
End PolarLump.
Lemma alphar_lump : forall r x' x s T rho v, lumped r x' x -> pcsaft_alphar s T rho x = ok v -> pcsaft_alphar (copies r s) T rho x' = ok v.
Proof.
  intros r x' x s T rho v HL H. unfold pcsaft_alphar in *.
  destruct (Nat.eqb_spec (length x) (length (pm s))) as [Hx|]; cbn [negb] in H; [|discriminate].
  rewrite (proj1 HL), len_r, Nat.eqb_refl. cbn [negb].
  destruct (hardchain s T rho x) as [h|] eqn:Eh; [|discriminate]. rewrite (hardchain_lump r x' x s HL Hx T rho h Eh). cbn [opt_bind] in *.
  cbn [pdip pquad copies pm psigma peps]. unfold option_map.
  destruct (pdip s) as [[mu n]|].
  - destruct (dipolar _ _ _ _ _ _ x mu n) as [d|] eqn:Dd; [|discriminate]. cbn [fst snd]. rewrite (dipolar_lump r x' x _ _ _ _ _ _ HL _ _ _ Dd). cbn [opt_bind] in *.
    destruct (pquad s) as [[Q nQ]|].
    + destruct (quadrupolar _ _ _ _ _ _ x Q nQ) as [q|] eqn:Dq; [|discriminate]. cbn [fst snd]. rewrite (quadrupolar_lump r x' x _ _ _ _ _ _ HL _ _ _ Dq). exact H.
    + exact H.
  - cbn [opt_bind] in *. destruct (pquad s) as [[Q nQ]|].
    + destruct (quadrupolar _ _ _ _ _ _ x Q nQ) as [q|] eqn:Dq; [|discriminate]. cbn [fst snd]. rewrite (quadrupolar_lump r x' x _ _ _ _ _ _ HL _ _ _ Dq). exact H.
    + exact H.
Qed.
