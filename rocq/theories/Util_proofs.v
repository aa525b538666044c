From Coq Require Import Reals ZArith String List Bool Lia Lra Psatz.
From Verif Require Import Json_model Util_model Registry_model.
Import ListNotations.

(** ** JSON helpers *)

Lemma map_res_ok {A B} (f : A -> res B) l bs :
  map_res f l = Val bs <-> Forall2 (fun a b => f a = Val b) l bs.
Proof.
  revert bs. induction l as [|a l IH]; intros bs; simpl.
  - split; intros H.
    + inversion H; subst. constructor.
    + inversion H; subst. reflexivity.
  - split; intros H.
    + destruct (f a) as [b|e] eqn:F; simpl in H; [|discriminate].
      destruct (map_res f l) as [bs'|e] eqn:M; simpl in H; [|discriminate].
      inversion H; subst. constructor; [assumption|]. now apply IH.
    + inversion H as [|? b ? bs' HF HR]; subst. rewrite HF. simpl.
      apply IH in HR. rewrite HR. reflexivity.
Qed.

Lemma map_res_jsonerr {A B} (f : A -> res B) l e :
  (forall a e, f a = Err e -> e = JsonError) -> map_res f l = Err e -> e = JsonError.
Proof.
  intros F. induction l as [|a l IH]; simpl; [discriminate|].
  destruct (f a) eqn:FA; simpl.
  - destruct (map_res f l); simpl; [discriminate|]. intros X. inversion X; subst. auto.
  - intros X. inversion X; subst. eapply F; eauto.
Qed.

Lemma j_double_ok j r : j_double j = Val r <-> j = JNum r.
Proof. destruct j; simpl; split; intros H; inversion H; reflexivity. Qed.

Lemma Forall2_map_JNum l r :
  Forall2 (fun a b => j_double a = Val b) l r <-> l = map JNum r.
Proof.
  split.
  - induction 1; simpl; [reflexivity|]. apply j_double_ok in H. now subst.
  - intros ->. induction r; simpl; constructor; auto.
Qed.

Lemma j_row_ok j r : j_valarray j_double j = Val r <-> j = JArr (map JNum r).
Proof.
  destruct j; simpl; try (split; intros H; discriminate).
  rewrite map_res_ok, Forall2_map_JNum. split; [intros ->; reflexivity|].
  intros H; inversion H; reflexivity.
Qed.

Lemma j_row_err j e : j_valarray j_double j = Err e -> e = JsonError.
Proof.
  destruct j; simpl; try (intros H; inversion H; reflexivity).
  apply map_res_jsonerr. intros a e' H. destruct a; simpl in H; inversion H; reflexivity.
Qed.

Definition rows_json (m : list (list R)) : json := JArr (map (fun r => JArr (map JNum r)) m).

Lemma j_matrix_ok j m : j_valarray (j_valarray j_double) j = Val m <-> j = rows_json m.
Proof.
  unfold rows_json.
  destruct j; simpl; try (split; intros H; discriminate).
  rewrite map_res_ok. split.
  - intros H. f_equal. induction H; simpl; [reflexivity|].
    apply j_row_ok in H. now subst.
  - intros H. inversion H; subst. clear H.
    induction m; simpl; constructor; auto. now apply j_row_ok.
Qed.

Lemma copy_rows_ok n m m' :
  copy_rows n m = Val m' <-> m' = m /\ Forall (fun r => length r = n) m.
Proof.
  revert m'. induction m as [|r m IH]; intros m'; simpl.
  - split; [intros H; inversion H; auto|]. intros [-> _]. reflexivity.
  - destruct (Nat.eqb_spec (length r) n) as [L|L].
    + destruct (copy_rows n m) as [rows|e] eqn:C; simpl.
      * destruct (proj1 (IH rows) eq_refl) as [-> F].
        split; [intros H; inversion H; subst; auto|]. intros [-> _]. reflexivity.
      * split; [discriminate|]. intros [-> F]. inversion F; subst.
        pose proof (proj2 (IH m) (conj eq_refl H2)) as X. discriminate X.
    + split; [discriminate|]. intros [-> F]. inversion F; subst. contradiction.
Qed.

Lemma copy_rows_err n m e : copy_rows n m = Err e -> e = StdInvalidArgument.
Proof.
  induction m as [|r m IH]; simpl; [discriminate|].
  destruct (Nat.eqb (length r) n).
  - destruct (copy_rows n m); simpl; [discriminate|]. intros H; inversion H; subst; auto.
  - intros H; inversion H; reflexivity.
Qed.

Lemma build_square_matrix_ok j m :
  build_square_matrix j = Val m <->
  (j = JNull /\ m = []) \/
  (j = rows_json m /\ Forall (fun row => length row = length m) m).
Proof.
  assert (G : forall j, j <> JNull -> j <> JArr [] ->
     build_square_matrix j = match j_valarray (j_valarray j_double) j with
         | Err JsonError => Err InvalidArgument | Err e => Err e
         | Val m => copy_rows (length m) m end).
  { intros j0 A B. destruct j0 as [|b|r|s|[|a l]|l]; try reflexivity; congruence. }
  destruct j as [|b|r|s|[|a l]|l].
  - simpl. split.
    + intros H; inversion H. left; auto.
    + intros [[_ ->]|[H _]]; [reflexivity|discriminate].
  - rewrite G by discriminate. simpl. split; [discriminate|].
    intros [[H _]|[H _]]; discriminate.
  - rewrite G by discriminate. simpl. split; [discriminate|].
    intros [[H _]|[H _]]; discriminate.
  - rewrite G by discriminate. simpl. split; [discriminate|].
    intros [[H _]|[H _]]; discriminate.
  - simpl. split.
    + intros H; inversion H. right. split; [reflexivity|constructor].
    + intros [[H _]|[H _]]; [discriminate|]. unfold rows_json in H.
      destruct m; [reflexivity|discriminate].
  - rewrite G by discriminate.
    destruct (j_valarray (j_valarray j_double) (JArr (a :: l))) as [m0|e] eqn:V.
    + assert (V' := V). apply j_matrix_ok in V'. rewrite copy_rows_ok. split.
      * intros [-> F]. right; auto.
      * intros [[H _]|[H F]]; [discriminate|].
        assert (m = m0).
        { apply j_matrix_ok in H. congruence. }
        subst. auto.
    + split.
      * destruct e; discriminate.
      * intros [[H _]|[H F]]; [discriminate|]. apply j_matrix_ok in H. congruence.
  - rewrite G by discriminate. simpl. split; [discriminate|].
    intros [[H _]|[H _]]; discriminate.
Qed.

Lemma build_square_matrix_err j e :
  build_square_matrix j = Err e -> e = InvalidArgument \/ e = StdInvalidArgument.
Proof.
  assert (N : forall l e, map_res (j_valarray j_double) l = Err e -> e = JsonError).
  { intros l e' H. eapply map_res_jsonerr; [|exact H]. intros a e2. apply j_row_err. }
  destruct j as [|b|r|s|[|a l]|l]; try (simpl; intros H; inversion H; auto; fail).
  unfold build_square_matrix. 
  destruct (j_valarray (j_valarray j_double) (JArr (a :: l))) as [m0|e'] eqn:V.
  - intros H. apply copy_rows_err in H. auto.
  - change (map_res (j_valarray j_double) (a :: l) = Err e') in V. apply N in V. subst e'. intros H; inversion H; auto.
Qed.

(** errors_to_string *)
Lemma append_assoc_str a b c : ((a ++ b) ++ c = a ++ (b ++ c))%string.
Proof. induction a; simpl; congruence. Qed.

Lemma append_errors_concat d o es :
  append_errors d o es = String.concat d (o :: es).
Proof.
  revert o. induction es as [|e es IH]; intros o; simpl; [reflexivity|].
  rewrite IH. simpl. destruct es; [now rewrite <- ?append_assoc_str|].
  now rewrite !append_assoc_str.
Qed.

Lemma errors_to_string_concat d es : errors_to_string d es = String.concat d es.
Proof. destruct es; [reflexivity|]. apply append_errors_concat. Qed.

(** all_same_length *)
Lemma dedup_in a l : In a (dedup l) <-> In a l.
Proof.
  induction l as [|b l IH]; simpl; [tauto|].
  destruct (existsb (Nat.eqb b) l) eqn:X.
  - rewrite IH. apply existsb_exists in X as (c & I & E). apply Nat.eqb_eq in E. subst.
    split; [tauto|]. intros [->|H]; tauto.
  - simpl. rewrite IH. tauto.
Qed.
Lemma dedup_nodup l : NoDup (dedup l).
Proof.
  induction l as [|b l IH]; simpl; [constructor|].
  destruct (existsb (Nat.eqb b) l) eqn:X; [assumption|]. constructor; [|assumption].
  rewrite dedup_in. intros I. assert (existsb (Nat.eqb b) l = true); [|congruence].
  apply existsb_exists. exists b. split; [assumption|apply Nat.eqb_refl].
Qed.
Lemma dedup_one l : length (dedup l) = 1%nat <-> l <> [] /\ (forall a b, In a l -> In b l -> a = b).
Proof.
  split.
  - intros L. destruct (dedup l) as [|c [|? ?]] eqn:D; simpl in L; try lia.
    assert (I : forall a, In a l -> a = c).
    { intros a Ia. apply dedup_in in Ia. rewrite D in Ia. destruct Ia as [|[]]; congruence. }
    split.
    + intros ->. discriminate.
    + intros a b A B. rewrite (I a A), (I b B). reflexivity.
  - intros [NE SAME]. pose proof (dedup_nodup l) as ND.
    destruct (dedup l) as [|c [|c' t]] eqn:D; simpl; auto.
    + destruct l as [|a l]; [contradiction|].
      assert (I : In a (dedup (a :: l))) by (apply dedup_in; left; reflexivity).
      rewrite D in I. destruct I.
    + exfalso. inversion ND as [|? ? NI _]; subst. apply NI. left.
      apply SAME; apply dedup_in; rewrite D; simpl; auto.
Qed.

Lemma all_same_length_ok j ks b :
  all_same_length j ks = Val b ->
  (b = true <-> ks <> [] /\ exists n, forall k, In k ks ->
       exists v, j_at j k = Val v /\ j_size v = n).
Proof.
  unfold all_same_length.
  destruct (map_res _ ks) as [lens|e] eqn:M; simpl; [|discriminate].
  intros H; inversion H; subst; clear H.
  apply map_res_ok in M. rewrite Nat.eqb_eq, dedup_one.
  assert (P : forall k, In k ks -> exists n v, In n lens /\ j_at j k = Val v /\ j_size v = n).
  { induction M as [|k n ks lens HK HF IH]; intros k0 I; [destruct I|].
    destruct I as [->|I].
    - destruct (j_at j k0) as [v|] eqn:A; simpl in HK; inversion HK; subst.
      exists (j_size v), v. simpl; auto.
    - destruct (IH k0 I) as (n0 & v & ? & ? & ?). exists n0, v. simpl; auto. }
  assert (Q : forall n, In n lens -> exists k v, In k ks /\ j_at j k = Val v /\ j_size v = n).
  { clear P. induction M as [|k n ks lens HK HF IH]; intros n0 I; [destruct I|].
    destruct I as [->|I].
    - destruct (j_at j k) as [v|] eqn:A; simpl in HK; inversion HK; subst.
      exists k, v. simpl; auto.
    - destruct (IH n0 I) as (k0 & v & ? & ? & ?). exists k0, v. simpl; auto. }
  assert (E : lens = [] <-> ks = []).
  { inversion M; subst; split; intros; try reflexivity; discriminate. }
  split.
  - intros [NE SAME]. split; [tauto|].
    destruct lens as [|n0 lens]; [congruence|]. exists n0. intros k I.
    destruct (P k I) as (n & v & In' & A & S). exists v. split; [assumption|].
    rewrite S. apply SAME; [assumption|left; reflexivity].
  - intros [NE (n & ALL)]. split; [tauto|]. intros a b Ia Ib.
    destruct (Q a Ia) as (k & v & Ik & A & S), (Q b Ib) as (k' & v' & Ik' & A' & S').
    destruct (ALL k Ik) as (w & W & SW), (ALL k' Ik') as (w' & W' & SW').
    congruence.
Qed.

(** ** Registry *)

Lemma lookup_run_adds {M} (ops : list (string * makefunc M)) reg k :
  lookup k (run_adds M reg ops) =
  match lookup k reg with Some g => Some g | None => lookup k ops end.
Proof.
  revert reg. induction ops as [|[k0 f0] ops IH]; intros reg; simpl.
  - destruct (lookup k reg); reflexivity.
  - rewrite IH. unfold add_factory.
    destruct (lookup k0 reg) as [g0|] eqn:L0; simpl.
    + destruct (lookup k reg) eqn:L; [reflexivity|].
      destruct (String.eqb_spec k k0); [congruence|reflexivity].
    + destruct (String.eqb_spec k k0) as [->|NE].
      * now rewrite L0.
      * reflexivity.
Qed.

Lemma build_depends_on_own_kind {M} (reg reg' : registry M) sch j v :
  (forall k, j_at j "kind" = Val (JStr k) -> lookup k reg' = lookup k reg) ->
  build_model_ptr M reg' sch j v = build_model_ptr M reg sch j v.
Proof.
  intros H. unfold build_model_ptr.
  destruct (j_at j "kind") as [jk|e] eqn:K; simpl; [|reflexivity].
  destruct jk; simpl; try reflexivity.
  rewrite (H s eq_refl). reflexivity.
Qed.

Lemma registered_stay {M} (reg : registry M) ops sch j v k f :
  j_at j "kind" = Val (JStr k) -> lookup k reg = Some f ->
  build_model_ptr M (run_adds M reg ops) sch j v = build_model_ptr M reg sch j v.
Proof.
  intros K L. apply build_depends_on_own_kind. intros k' K'.
  rewrite K in K'. inversion K'; subst. now rewrite lookup_run_adds, L.
Qed.

(** ** ModelContainer *)

Section ContainerProofs.
Variable Inst : Type.

Definition cwf (c : container Inst) (vs : list Inst) : Prop :=
  last_id _ c = length vs /\ length (modcoll _ c) = length vs /\
  forall id, find_id Inst id (modcoll _ c) =
    match id with O => None | S i => nth_error vs i end.

Lemma add_model_wf c vs v :
  cwf c vs ->
  cwf (fst (add_model Inst c v)) (vs ++ [v]) /\ snd (add_model Inst c v) = S (length vs).
Proof.
  intros (L & N & F). unfold add_model. simpl.
  assert (FR : find_id Inst (S (last_id Inst c)) (modcoll Inst c) = None).
  { rewrite F. apply nth_error_None. lia. }
  unfold map_emplace. rewrite FR.
  split; [|now rewrite L]. unfold cwf. simpl. rewrite app_length. simpl.
  split; [lia|]. split; [lia|]. intros id.
  destruct id as [|i]; [simpl; apply (F 0%nat)|].
  destruct (Nat.eqb_spec i (last_id Inst c)) as [E|NE].
  - subst i. rewrite nth_error_app2 by lia. rewrite L, Nat.sub_diag. rewrite Nat.eqb_refl. reflexivity.
  - replace (S i =? S (last_id Inst c))%nat with false by (symmetry; apply Nat.eqb_neq; lia). rewrite F.
    destruct (Nat.lt_ge_cases i (length vs)).
    + now rewrite nth_error_app1 by lia.
    + rewrite (proj2 (nth_error_None vs i)) by lia. symmetry. apply nth_error_None.
      rewrite app_length. simpl. lia.
Qed.

Lemma add_all_spec c vs0 vs :
  cwf c vs0 ->
  cwf (fst (add_all Inst c vs)) (vs0 ++ vs) /\
  snd (add_all Inst c vs) = seq (S (length vs0)) (length vs).
Proof.
  revert c vs0. induction vs as [|v vs IH]; intros c vs0 W; cbn [add_all].
  - cbn. rewrite app_nil_r. auto.
  - destruct (add_model_wf c vs0 v W) as [W1 ID].
    destruct (add_model Inst c v) as [c1 id]. simpl in *. subst id.
    destruct (IH c1 (vs0 ++ [v]) W1) as [W2 IDS].
    destruct (add_all Inst c1 vs) as [c2 ids]. simpl in *.
    rewrite <- app_assoc in W2. simpl in W2. split; [exact W2|].
    rewrite IDS, app_length. simpl. f_equal. f_equal. lia.
Qed.

Lemma container_history vs :
  let '(c, ids) := add_all Inst (empty_container Inst) vs in
  ids = seq 1 (length vs) /\ csize Inst c = length vs /\
  (forall i v, nth_error vs i = Some v -> get_model Inst c (S i) = Val v) /\
  (forall id, (id = 0 \/ id > length vs)%nat -> get_model Inst c id = Err StdOutOfRange).
Proof.
  assert (W : cwf (empty_container Inst) []).
  { repeat split. intros [|i]; [reflexivity|]. destruct i; reflexivity. }
  destruct (add_all_spec _ [] vs W) as [(L & N & F) IDS].
  destruct (add_all Inst (empty_container Inst) vs) as [c ids]. simpl in *.
  split; [assumption|]. split; [assumption|]. unfold get_model. split.
  - intros i v H. rewrite F. now rewrite H.
  - intros id H. rewrite F. destruct id as [|i]; [reflexivity|].
    rewrite (proj2 (nth_error_None vs i)); [reflexivity|lia].
Qed.
End ContainerProofs.

(** ** Integer powers *)
Open Scope R_scope.

Lemma powi_loop_ok fuel n y xp :
  (Z.to_nat n < fuel)%nat ->
  powi_loop fuel n y xp = Some (y * xp ^ (Z.to_nat n)).
Proof.
  revert n y xp. induction fuel as [|fuel IH]; intros n y xp F; [lia|].
  simpl. destruct (Z.ltb_spec 0 n) as [P|P].
  - assert (HALF : forall m, (0 <= m)%Z -> xp ^ Z.to_nat (2 * m) = (xp * xp) ^ Z.to_nat m).
    { intros m Hm. rewrite Z2Nat.inj_mul by lia. rewrite pow_mult. f_equal.
      simpl. ring. }
    destruct (Z.eqb_spec (Z.rem n 2) 1) as [O|O].
    + assert (Q := Z.quot_rem' n 2).
      assert (Hn : (n - 1 = 2 * Z.quot (n - 1) 2)%Z).
      { assert (Z.rem (n - 1) 2 = 0)%Z.
        { rewrite Z.rem_mod_nonneg in O by lia. rewrite Z.rem_mod_nonneg by lia.
          rewrite Zminus_mod, O. reflexivity. }
        assert (Q2 := Z.quot_rem' (n - 1) 2). lia. }
      assert (P0 : (0 <= Z.quot (n - 1) 2)%Z) by lia.
      rewrite IH by lia. f_equal.
      rewrite <- HALF by assumption. rewrite <- Hn.
      replace (Z.to_nat n) with (S (Z.to_nat (n - 1))) by lia. simpl. ring.
    + assert (Hn : (n = 2 * Z.quot n 2)%Z).
      { assert (Q := Z.quot_rem' n 2). rewrite Z.rem_mod_nonneg in O by lia.
        rewrite Z.rem_mod_nonneg in Q by lia.
        pose proof (Z.mod_pos_bound n 2 ltac:(lia)). lia. }
      assert (P0 : (0 <= Z.quot n 2)%Z) by lia.
      rewrite IH by lia. f_equal. rewrite <- HALF by assumption. now rewrite <- Hn.
  - replace (Z.to_nat n) with 0%nat by lia. simpl. f_equal. ring.
Qed.

Lemma powi_nonneg_ok x n : (0 <= n)%Z -> powi_nonneg x n = Some (x ^ Z.to_nat n).
Proof.
  intros H. unfold powi_nonneg.
  assert (D : n = 0%Z \/ n = 1%Z \/ n = 2%Z \/ n = 3%Z \/ n = 4%Z \/ (5 <= n)%Z) by lia.
  destruct D as [->|[->|[->|[->|[->|D]]]]]; try (simpl; f_equal; ring).
  assert (L : powi_loop (Z.to_nat n) (n - 1) x x = Some (x ^ Z.to_nat n)).
  { rewrite powi_loop_ok by lia. f_equal.
    replace (Z.to_nat n) with (S (Z.to_nat (n - 1))) by lia. reflexivity. }
  destruct n as [|p|p]; try lia.
  destruct p as [p|p|]; try assumption; try lia.
  - destruct p as [p|p|]; try assumption; lia.
  - destruct p as [p|p|]; try assumption; try lia.
    destruct p as [p|p|]; try assumption; lia.
Qed.

Lemma powi_ok x n :
  n <> INT_MIN -> ((n < 0)%Z -> x <> 0) -> powi x n = Some (powerRZ x n).
Proof.
  intros NM NZ. unfold powi. destruct (Z.ltb_spec n 0) as [N|N].
  - destruct (Z.eqb_spec n INT_MIN); [contradiction|].
    rewrite powi_nonneg_ok by lia. f_equal.
    destruct n as [|p|p]; try lia. simpl.
    unfold Rdiv. rewrite Rmult_1_l. now rewrite pow_inv.
  - rewrite powi_nonneg_ok by lia. f_equal.
    destruct n as [|p|p]; try lia; reflexivity.
Qed.

Lemma powi_int_min x : powi x INT_MIN = None.
Proof. reflexivity. Qed.

Lemma POWs_ok x :
  POW2 x = x ^ 2 /\ POW3 x = x ^ 3 /\ POW4 x = x ^ 4 /\ POW5 x = x ^ 5 /\
  POW7 x = x ^ 7 /\ POW8 x = x ^ 8 /\ POW10 x = x ^ 10 /\ POW12 x = x ^ 12 /\
  pow2 x = x ^ 2 /\ pow3 x = x ^ 3.
Proof. unfold POW12, POW10, POW8, POW7, POW5, POW4, POW3, POW2, pow2, pow3. repeat split; ring. Qed.

(** ** Dot product *)
Fixpoint rsum (l : list R) : R := match l with [] => 0 | a :: l' => a + rsum l' end.

Lemma dot_loop_ok x y i steps s :
  (i + steps = length x)%nat -> length x = length y ->
  dot_loop x y i steps s =
  Some (s + rsum (map (fun p => fst p * snd p) (combine (skipn i x) (skipn i y)))).
Proof.
  revert i s. induction steps as [|k IH]; intros i s L E; simpl.
  - rewrite (skipn_all2 x) by lia. simpl. f_equal. ring.
  - destruct (nth_error x i) as [a|] eqn:A; [|apply nth_error_None in A; lia].
    destruct (nth_error y i) as [b|] eqn:B; [|apply nth_error_None in B; lia].
    rewrite IH by lia. f_equal.
    assert (SK : forall (l : list R) c j, nth_error l j = Some c -> skipn j l = c :: skipn (S j) l).
    { induction l as [|h l IHl]; intros c [|j] H; simpl in *; try discriminate.
      - inversion H; reflexivity.
      - now rewrite (IHl c j H). }
    rewrite (SK x a i A), (SK y b i B). simpl. ring.
Qed.

Lemma dot_ok x y :
  contiguous_dotproduct x y =
  if Nat.eqb (length x) (length y)
  then Val (Some (rsum (map (fun p => fst p * snd p) (combine x y))))
  else Err InvalidArgument.
Proof.
  unfold contiguous_dotproduct. destruct (Nat.eqb_spec (length x) (length y)) as [E|E]; [|reflexivity].
  rewrite dot_loop_ok by lia. f_equal. f_equal. simpl. ring.
Qed.
